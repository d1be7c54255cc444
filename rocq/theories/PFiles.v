(** * Proofs about disks, file names and text files *)
From Coq Require Import String Ascii DecimalN DecimalPos Decimal.
From Verif Require Import Base BaseFacts Bytes PBytes MSliceVec SSliceVec PFixed PVar MSearch MBuild MEmbed SEmbed PEmbed PEmbed2 MJson PJson MParse SParse PParse PParse2 PParse3 MFiles SFiles.
Set Implicit Arguments. Unset Strict Implicit.
Local Notation length := List.length.

(** ** Disks *)
Lemma path_eqb_eq p q : path_eqb p q = true <-> p = q.
Proof. unfold path_eqb. destruct (list_eq_dec comp_dec p q); split; congruence. Qed.
Lemma path_eqb_neq p q : path_eqb p q = false <-> p <> q.
Proof. unfold path_eqb. destruct (list_eq_dec comp_dec p q); split; congruence. Qed.
Lemma path_eqb_refl p : path_eqb p p = true. Proof. now apply path_eqb_eq. Qed.

Lemma node_put_same d p n : node_at (put d p n) p = Some n.
Proof. unfold put. cbn [node_at]. now rewrite path_eqb_refl. Qed.
Lemma node_put_other d p n q : q <> p -> node_at (put d p n) q = node_at d q.
Proof.
  intros H. unfold put. cbn [node_at]. rewrite (proj2 (path_eqb_neq p q)) by congruence.
  induction d as [|[r x] d IH]; [reflexivity|]. cbn [filter fst node_at].
  destruct (path_eqb r p) eqn:E; cbn [negb node_at].
  - apply path_eqb_eq in E. subst r. rewrite (proj2 (path_eqb_neq p q)) by congruence. exact IH.
  - destruct (path_eqb r q); auto.
Qed.
Lemma is_dir_iff d p : is_dir d p = true <-> node_at d p = Some Dir.
Proof. unfold is_dir. destruct (node_at d p) as [[|]|]; split; congruence. Qed.
Lemma is_dir_not d p : node_at d p <> Some Dir -> is_dir d p = false.
Proof. intros H. destruct (is_dir d p) eqn:E; auto. now apply is_dir_iff in E. Qed.
Lemma file_name_app q n : file_name (q ++ [Name n]) = Some n.
Proof. unfold file_name. rewrite rev_app_distr. reflexivity. Qed.
Lemma file_name_some p n : file_name p = Some n -> exists q, p = q ++ [Name n].
Proof.
  unfold file_name. destruct (rev p) as [|c t] eqn:E; [discriminate|]. intros H. exists (rev t).
  apply (f_equal (@rev _)) in E. rewrite rev_involutive in E. cbn [rev] in E. destruct c; try discriminate. congruence.
Qed.
Lemma create_ok d p : creatable d p -> create d p = Ok (put d p (File [])).
Proof.
  intros (dir & n & -> & Hd & Hn). unfold create. rewrite file_name_app, (is_dir_not Hn). unfold parent_exists. rewrite removelast_last.
  destruct Hd as [->|Hd]; [reflexivity|]. destruct dir; [reflexivity|]. apply is_dir_iff in Hd. now rewrite Hd.
Qed.
Lemma create_some d p d' : create d p = Ok d' -> creatable d p /\ d' = put d p (File []).
Proof.
  unfold create. destruct (file_name p) as [n|] eqn:E; [|discriminate]. destruct (is_dir d p) eqn:E2; [discriminate|].
  destruct (parent_exists d p) eqn:E3; [|discriminate]. intros H. split; [|congruence].
  apply file_name_some in E as [q ->]. exists q, n. split; auto. split.
  - unfold parent_exists in E3. rewrite removelast_last in E3. destruct q; [now left|right; now apply is_dir_iff].
  - intros H2. apply is_dir_iff in H2. congruence.
Qed.

(** ** Names *)
Lemma rsplit_some n b a : rsplit_dot n = Some (b, a) <-> n = b ++ DOT :: a /\ ~ In DOT a.
Proof.
  revert b a; induction n as [|c t IH]; intros b a; cbn [rsplit_dot].
  - split; [discriminate|]. intros [H _]. now destruct b.
  - destruct (rsplit_dot t) as [[b' a']|] eqn:E.
    + destruct (proj1 (IH b' a') eq_refl) as [-> Ha]. split.
      * intros H. injection H as <- <-. auto.
      * intros [H Ha']. destruct b as [|c' b].
        -- cbn [app] in H. assert (Et : a = b' ++ DOT :: a') by congruence. exfalso. apply Ha'. rewrite Et. apply in_or_app. right. now left.
        -- cbn [app] in H. injection H as <- H.
           assert (G : Some (b', a') = Some (b, a)) by (apply IH; auto). congruence.
    + assert (Hno : ~ In DOT t).
      { intros Hin. apply in_split in Hin. clear -IH Hin. 
        assert (G : forall t, In DOT t -> exists x y, t = x ++ DOT :: y /\ ~ In DOT y).
        { clear. induction t as [|c t IH]; intros H; [destruct H|]. destruct (in_dec N.eq_dec DOT t) as [Hi|Hi].
          - destruct (IH Hi) as (x & y & -> & Hy). exists (c :: x), y. auto.
          - destruct H as [->|H]; [|contradiction]. exists [], t. auto. }
        destruct Hin as (u & v & E). destruct (G t) as (x & y & Ht & Hy); [rewrite E; apply in_or_app; right; now left|].
        specialize (proj2 (IH x y) (conj Ht Hy)). discriminate. }
      destruct (N.eqb_spec c DOT) as [->|Hc].
      * split.
        -- intros H. injection H as <- <-. auto.
        -- intros [H Ha]. destruct b as [|c' b]; cbn in H; [congruence|]. injection H as _ H. exfalso. apply Hno. rewrite H.
           apply in_or_app. right. now left.
      * split; [discriminate|]. intros [H Ha]. destruct b as [|c' b]; cbn in H; [congruence|]. injection H as _ H. exfalso. apply Hno.
        rewrite H. apply in_or_app. right. now left.
Qed.

Lemma name_cases n : (exists c b a, n = (c :: b) ++ DOT :: a /\ ~ In DOT a /\ file_stem n = c :: b /\ extension n = Some a) \/
  (~ In DOT (tl n) /\ file_stem n = n /\ extension n = None).
Proof.
  unfold file_stem, extension. destruct (rsplit_dot n) as [[[|c b] a]|] eqn:E.
  - apply rsplit_some in E as [-> Ha]. right. auto.
  - apply rsplit_some in E as [-> Ha]. left. exists c, b, a. auto.
  - right. split; [|auto]. intros Hin. destruct n as [|x n]; [destruct Hin|]. cbn [tl] in Hin.
    cbn [rsplit_dot] in E. destruct (rsplit_dot n) as [[? ?]|] eqn:E2; [discriminate|].
    assert (G : forall t, In DOT t -> rsplit_dot t <> None).
    { clear. induction t as [|c t IH]; intros H; [destruct H|]. cbn [rsplit_dot]. destruct (rsplit_dot t) as [[? ?]|]; [discriminate|].
      destruct H as [->|H]; [now rewrite N.eqb_refl|]. now destruct (IH H). }
    now destruct (G n Hin).
Qed.

(** ** Numerals *)
Definition value_from (v : N) (ds : list N) : N := fold_left (fun v c => (10 * v + (c - 48))%N) ds v.
Lemma value_acc u : forall p, N.pos (Pos.of_uint_acc u p) = value_from (N.pos p) (uint_bytes u).
Proof.
  induction u; intros p; cbn [Pos.of_uint_acc uint_bytes]; [reflexivity| ..];
    unfold value_from in *; cbn [fold_left]; rewrite IHu; f_equal; lia.
Qed.
Lemma value_uint u : N.of_uint u = value_from 0 (uint_bytes u).
Proof.
  unfold N.of_uint. induction u; cbn [Pos.of_uint uint_bytes]; [reflexivity| | ..];
    [rewrite IHu; reflexivity|..]; unfold value_from; cbn [fold_left]; rewrite value_acc; reflexivity.
Qed.
Lemma digits_numeral n : numeral n (digits (N.of_nat n)).
Proof.
  unfold numeral, digits. split; [|split; [|split]].
  - generalize (N.to_uint (N.of_nat n)). induction u; constructor; auto; lia.
  - destruct (uint_bytes_head (to_uint_nonnil (N.of_nat n))) as (b & t & E & _). rewrite E. discriminate.
  - pose proof (to_uint_no_zero (N.of_nat n)) as H. destruct (N.to_uint (N.of_nat n)) as [|u|u|u|u|u|u|u|u|u|u]; try discriminate.
    destruct u; try discriminate H. reflexivity.
  - rewrite <- (DecimalN.Unsigned.of_to (N.of_nat n)) at 2. symmetry. apply value_uint.
Qed.
Lemma numeral_inj i j ds : numeral i ds -> numeral j ds -> i = j.
Proof. intros (_ & _ & _ & H1) (_ & _ & _ & H2). lia. Qed.
Lemma numeral_ne i ds : numeral i ds -> ds <> [].
Proof. intros (_ & H & _). exact H. Qed.

(** the numeral of a number is unique *)
Lemma value_bound ds v : Forall (fun c => (48 <= c <= 57)%N) ds ->
  (v * 10 ^ N.of_nat (length ds) <= value_from v ds < (v + 1) * 10 ^ N.of_nat (length ds))%N.
Proof.
  revert v; induction ds as [|c ds IH]; intros v H; [cbn; lia|]. inversion H as [|? ? Hc Hd]; subst.
  unfold value_from in *. cbn [fold_left length]. specialize (IH (10 * v + (c - 48))%N Hd).
  rewrite Nat2N.inj_succ, N.pow_succ_r'. set (k := (10 ^ N.of_nat (length ds))%N) in *. nia.
Qed.
Lemma value_snoc ds c v : value_from v (ds ++ [c]) = (10 * value_from v ds + (c - 48))%N.
Proof. unfold value_from. now rewrite fold_left_app. Qed.
Lemma numeral_fun i a b : numeral i a -> numeral i b -> a = b.
Proof.
  assert (L : forall i a, numeral i a -> (i = 0 /\ a = [48%N]) \/ (0 < i /\ (10 ^ (N.of_nat (length a) - 1) <= N.of_nat i < 10 ^ N.of_nat (length a))%N /\ a <> [])).
  { clear. intros i a (H1 & H2 & H3 & H4). fold (value_from 0 a) in H4. destruct a as [|c a]; [congruence|]. cbn [hd] in H3.
    inversion H1 as [|? ? Hc Ha]; subst. destruct (N.eq_dec c 48) as [->|Hn].
    - specialize (H3 eq_refl). injection H3 as ->. left. split; auto. cbn in H4. lia.
    - right. unfold value_from in H4. cbn [fold_left] in H4. fold (value_from (10 * 0 + (c - 48)) a) in H4.
      pose proof (@value_bound a (10 * 0 + (c - 48))%N Ha) as B. rewrite H4 in B. cbn [length]. rewrite Nat2N.inj_succ.
      rewrite N.pow_succ_r'. replace (N.succ (N.of_nat (length a)) - 1)%N with (N.of_nat (length a)) by lia.
      set (k := (10 ^ N.of_nat (length a))%N) in *. assert (0 < k)%N by (unfold k; apply N.neq_0_lt_0, N.pow_nonzero; lia).
      split; [nia|]. split; [nia|discriminate]. }
  assert (E : forall a b, length a = length b -> Forall (fun c => (48 <= c <= 57)%N) a -> Forall (fun c => (48 <= c <= 57)%N) b ->
    forall v w, value_from v a = value_from w b -> v = w /\ a = b).
  { clear. induction a as [|x a IH]; intros [|y b] Hl Ha Hb v w H; try discriminate; [auto|].
    inversion Ha; inversion Hb; subst. unfold value_from in H. cbn [fold_left] in H.
    destruct (IH b ltac:(cbn in Hl; lia) ltac:(auto) ltac:(auto) _ _ H) as [Hv ->]. split; [lia|]. f_equal. lia. }
  intros Ha Hb. destruct (L _ _ Ha) as [[-> ->]|(Hi & Ba & _)]; destruct (L _ _ Hb) as [[H0 ->]|(Hi' & Bb & _)]; auto; try lia.
  assert (Hl : length a = length b).
  { destruct (Nat.lt_trichotomy (length a) (length b)) as [H|[H|H]]; auto; exfalso.
    - assert (10 ^ N.of_nat (length a) <= 10 ^ (N.of_nat (length b) - 1))%N by (apply N.pow_le_mono_r; lia). lia.
    - assert (10 ^ N.of_nat (length b) <= 10 ^ (N.of_nat (length a) - 1))%N by (apply N.pow_le_mono_r; lia). lia. }
  destruct Ha as (A1 & _ & _ & A2), Hb as (B1 & _ & _ & B2). destruct (E a b Hl A1 B1 0%N 0%N) as [_ R]; [|exact R].
  unfold value_from. congruence.
Qed.

(** ** Shard names *)
Lemma shard_file_inj d out i j p : shard_file d out i p -> shard_file d out j p -> i = j.
Proof.
  assert (D : forall (x y : list N) s t, ~ In 46%N x -> ~ In 46%N y -> s ++ 46%N :: x = t ++ 46%N :: y -> s = t /\ x = y).
  { intros x y s t Hx Hy H. assert (E1 : rsplit_dot (s ++ 46%N :: x) = Some (s, x)) by (now apply rsplit_some).
    assert (E2 : rsplit_dot (t ++ 46%N :: y) = Some (t, y)) by (now apply rsplit_some). rewrite H in E1. split; congruence. }
  assert (NX : forall (s x : list N), s <> [] -> ~ In 46%N (tl (s ++ 46%N :: x)) -> False).
  { intros [|c s] x Hs H; [congruence|]. apply H. cbn. apply in_or_app. right. now left. }
  intros H1 H2. destruct H1 as [ds Hd Hn|dir stem ext ds Hd E Hs He Hn|dir n ds Hd E Hx Hn];
    inversion H2 as [ds' Hd' Hn' Ep|dir' stem' ext' ds' Hd' E' Hs' He' Hn' Ep|dir' n' ds' Hd' E' Hx' Hn' Ep]; clear H2; try contradiction.
  - apply app_inj_tail in Ep as [_ Ep]. assert (ds' = ds); [|subst; eapply numeral_inj; eauto]. injection Ep as Ep. now apply app_inv_tail in Ep.
  - apply app_inj_tail in Ep as [-> Ep]. rewrite E in E'. apply app_inj_tail in E' as [_ E'].
    assert (S1 : stem = stem' /\ ext = ext') by (apply D; auto; now injection E'). destruct S1 as [<- <-].
    assert (ds' = ds); [|subst; eapply numeral_inj; eauto]. injection Ep as Ep. apply app_inv_head in Ep. injection Ep as Ep.
    change (ds' ++ text "." ++ ext) with (ds' ++ (46%N :: ext)) in Ep. now apply app_inv_tail in Ep.
  - exfalso. rewrite E in E'. apply app_inj_tail in E' as [_ E']. injection E' as <-. eapply NX; [exact Hs|]. exact Hx'.
  - exfalso. rewrite E in E'. apply app_inj_tail in E' as [_ E']. injection E' as ->. eapply NX; [exact Hs'|]. exact Hx.
  - apply app_inj_tail in Ep as [-> Ep]. rewrite E in E'. apply app_inj_tail in E' as [_ E']. injection E' as <-.
    assert (ds' = ds); [|subst; eapply numeral_inj; eauto]. injection Ep as Ep. apply app_inv_head in Ep. injection Ep as Ep.
    now apply app_inv_tail in Ep.
Qed.

(** the directory shard files lie in *)
Definition shard_dir (d : disk) (out : path) : path := if is_dir d out then out else removelast out.
Lemma shard_file_dir d out i p : shard_file d out i p -> exists n, p = shard_dir d out ++ [Name n].
Proof.
  unfold shard_dir. intros [ds Hd Hn|dir stem ext ds Hd -> Hs He Hn|dir n ds Hd -> Hx Hn].
  - rewrite (proj2 (is_dir_iff d out) Hd). eauto.
  - rewrite (is_dir_not Hd), removelast_last. eauto.
  - rewrite (is_dir_not Hd), removelast_last. eauto.
Qed.
Lemma app_one_ne {A} (l : list A) x : l ++ [x] <> l.
Proof. intros H. apply (f_equal (@List.length A)) in H. rewrite app_length in H. cbn in H. lia. Qed.
Lemma shard_file_not_out d out i p : shard_file d out i p -> p <> out.
Proof.
  intros [ds Hd Hn|dir stem ext ds Hd -> Hs He Hn|dir n ds Hd -> Hx Hn] H.
  - now apply app_one_ne in H.
  - apply app_inj_tail in H as [_ H]. injection H as H. apply app_inv_head in H. cbn in H. discriminate.
  - apply app_inj_tail in H as [_ H]. injection H as H. rewrite <- (app_nil_r n) in H at 2. apply app_inv_head in H. discriminate.
Qed.

(** two disks that agree on whether [out] is a directory name shards alike *)
Lemma shard_file_same d d' out i p : (node_at d out = Some Dir <-> node_at d' out = Some Dir) -> shard_file d out i p -> shard_file d' out i p.
Proof.
  intros H [ds Hd Hn|dir stem ext ds Hd E Hs He Hn|dir n ds Hd E Hx Hn].
  - apply in_directory; tauto.
  - eapply with_extension; eauto; tauto.
  - eapply without_extension; eauto; tauto.
Qed.
Lemma shard_file_fun d out i p q : shard_file d out i p -> shard_file d out i q -> p = q.
Proof.
  assert (D : forall (x y : list N) s t, ~ In 46%N x -> ~ In 46%N y -> s ++ 46%N :: x = t ++ 46%N :: y -> s = t /\ x = y).
  { intros x y s t Hx Hy H. assert (E1 : rsplit_dot (s ++ 46%N :: x) = Some (s, x)) by (now apply rsplit_some).
    assert (E2 : rsplit_dot (t ++ 46%N :: y) = Some (t, y)) by (now apply rsplit_some). rewrite H in E1. split; congruence. }
  assert (NX : forall (s x : list N), s <> [] -> ~ In 46%N (tl (s ++ 46%N :: x)) -> False).
  { intros [|c s] x Hs H; [congruence|]. apply H. cbn. apply in_or_app. right. now left. }
  intros H1 H2. destruct H1 as [ds Hd Hn|dir stem ext ds Hd E Hs He Hn|dir n ds Hd E Hx Hn];
    destruct H2 as [ds' Hd' Hn'|dir' stem' ext' ds' Hd' E' Hs' He' Hn'|dir' n' ds' Hd' E' Hx' Hn']; try contradiction;
    rewrite (numeral_fun Hn' Hn); auto; rewrite E in E'; apply app_inj_tail in E' as [-> E']; injection E' as E'.
  - apply D in E' as [-> ->]; auto.
  - exfalso. subst n'. eapply NX; [exact Hs|exact Hx'].
  - exfalso. subst n. eapply NX; [exact Hs'|exact Hx].
  - subst. reflexivity.
Qed.

Section U.
  Context (utf8 : list N -> option str) (gunzip : list N -> option (list N)) (dec : str -> option str).
  Context (HU : utf8_ok utf8).

  Lemma valid_iff b : valid utf8 b = true <-> is_utf8 utf8 b.
  Proof. unfold valid, is_utf8. destruct (utf8 b) as [t|]; split; intros H; eauto; try discriminate. now destruct H. Qed.
  Lemma path_valid_iff p : path_valid utf8 p = true <-> utf8_path utf8 p.
  Proof.
    unfold path_valid, utf8_path. rewrite forallb_forall. split.
    - intros H n Hn. specialize (H _ Hn). now apply valid_iff.
    - intros H [| | |n] Hn; auto. apply valid_iff. auto.
  Qed.
  Lemma utf8_app a b : Forall (fun c => (c < 128)%N) b -> is_utf8 utf8 a -> is_utf8 utf8 (a ++ b).
  Proof.
    intros H. revert a. induction H as [|c b Hc _ IH]; intros a Ha; [now rewrite app_nil_r|].
    replace (a ++ c :: b) with ((a ++ [c]) ++ b) by (now rewrite <- app_assoc). apply IH.
    apply (proj2 HU); auto. split; [exact Ha|apply HU].
  Qed.

  Lemma digits_ascii n : Forall (fun c => (c < 128)%N) (digits n).
  Proof. unfold digits. generalize (N.to_uint n). induction u; constructor; auto; lia. Qed.

  Lemma shard_name_ok d out i : utf8_path utf8 out -> (node_at d out = Some Dir \/ file_name out <> None) ->
    exists p, get_shard_name utf8 d out i = Ok p /\ shard_file d out i p /\ utf8_path utf8 p.
  Proof.
    intros Hu Hn. unfold get_shard_name. pose proof (digits_numeral i) as Hd.
    assert (A : forall q n, utf8_path utf8 q -> is_utf8 utf8 n -> utf8_path utf8 (q ++ [Name n])).
    { intros q n Hq Hn' k Hk. apply in_app_or in Hk as [Hk|[Hk|[]]]; [auto|]. now injection Hk as <-. }
    assert (Hasc : forall l, Forall (fun c => (c < 128)%N) l -> is_utf8 utf8 l).
    { intros l Hl. apply (@utf8_app [] l Hl). apply HU. }
    destruct (is_dir d out) eqn:E.
    - apply is_dir_iff in E. eexists. split; [reflexivity|]. split.
      + change (s_elements_ ++ digits (N.of_nat i) ++ DOT :: s_bin) with (text "elements-" ++ digits (N.of_nat i) ++ text ".bin").
        now apply in_directory.
      + apply A; auto. apply Hasc. repeat (apply Forall_app; split); try apply digits_ascii; repeat constructor; lia.
    - assert (E2 : node_at d out <> Some Dir) by (intros H; apply is_dir_iff in H; congruence).
      destruct Hn as [Hn|Hn]; [contradiction|]. destruct (file_name out) as [n|] eqn:En; [|congruence]. cbn [ounwrap obind].
      apply file_name_some in En as [q ->]. rewrite removelast_last.
      assert (Hvn : is_utf8 utf8 n) by (apply Hu; apply in_or_app; right; now left).
      assert (Hq : utf8_path utf8 q) by (intros k Hk; apply Hu; apply in_or_app; now left).
      destruct (name_cases n) as [(c & b & a & Ea & Ha & -> & ->)|(Hx & -> & ->)].
      + pose proof Hvn as Hvn'. rewrite Ea in Hvn'. apply (proj2 HU) in Hvn' as [V1 V2]; [|reflexivity].
        rewrite (proj2 (valid_iff _) V1), (proj2 (valid_iff _) V2). cbn [oassert obind]. eexists. split; [reflexivity|]. split.
        * eapply (@with_extension d _ i q (c :: b) a (digits (N.of_nat i))); auto; [now rewrite Ea|discriminate].
        * apply A; auto. apply (proj2 HU); [reflexivity|]. split; [exact V1|].
          apply (proj2 HU); [reflexivity|]. split; [apply Hasc, digits_ascii|exact V2].
      + rewrite (proj2 (valid_iff _) Hvn). cbn [oassert obind]. eexists. split; [reflexivity|]. split.
        * eapply (@without_extension d _ i q n (digits (N.of_nat i))); auto.
        * apply A; auto. apply (proj2 HU); [reflexivity|]. split; [exact Hvn|].
          apply Hasc. apply Forall_app. split; [apply digits_ascii|repeat constructor; lia].
  Qed.
End U.
