(** * Proofs: neighbour selection and the operations on one row *)
From Verif Require Import Base BaseFacts MSliceVec MIndexIo MSearch PHeap PSearch MBuild SBuild.
Set Implicit Arguments.
Unset Strict Implicit.

Definition dsorted := StronglySorted (fun a b : nat * Z => (snd a <= snd b)%Z).

Lemma is_sorted_d_ok l : dsorted l -> is_sorted_d l = true.
Proof.
  induction 1 as [|a l Hs IH HF]; auto. cbn. destruct l as [|b l]; auto.
  rewrite Forall_forall in HF. rewrite IH, andb_true_r. apply Z.leb_le. apply HF. left; auto.
Qed.

Lemma pick_app {A} k1 k2 (l1 l2 : list A) : length k1 = length l1 ->
  pick (k1 ++ k2) (l1 ++ l2) = pick k1 l1 ++ pick k2 l2.
Proof.
  revert l1. induction k1 as [|b k1 IH]; intros [|x l1] H; try discriminate; auto.
  cbn [app pick]. injection H as H. destruct b; cbn [app]; rewrite IH; auto.
Qed.

Lemma pick_incl {A} k (l : list A) x : In x (pick k l) -> In x l.
Proof.
  revert l. induction k as [|b k IH]; [intros [|y l] []|]. intros [|y l]; [destruct b; intros []|].
  destruct b; cbn; intros H; [destruct H|]; auto.
Qed.

Lemma pick_NoDup {A B} (f : A -> B) k (l : list A) : NoDup (map f l) -> NoDup (map f (pick k l)).
Proof.
  revert l. induction k as [|b k IH]; [intros [|y l]; constructor|]. intros [|y l]; [destruct b; constructor|].
  cbn [map]. intros H. inversion H as [|? ? Hni Hnd]; subst. destruct b; cbn [pick map]; auto. constructor; auto.
  intros Hin. apply Hni. apply in_map_iff in Hin as (z & Hz & Hp). apply in_map_iff. exists z. split; auto.
  eapply pick_incl; eauto.
Qed.

Lemma pick_length {A} k (l : list A) : length (pick k l) <= length l.
Proof.
  revert l. induction k as [|b k IH]; [intros [|y l]; cbn; lia|]. intros [|y l]; [destruct b; cbn; lia|].
  specialize (IH l). destruct b; cbn; lia.
Qed.

Lemma pick_none {A} n (l : list A) : pick (repeat false n) l = [].
Proof. revert l. induction n; intros [|y l]; cbn; auto. Qed.

Section Sel.
  Context {S E : Type} (V : benv S E) (s : S).
  Local Notation C := (e_ops V).
  Variable D : nat -> nat -> Z.
  Hypothesis HD : pair_dist C s D.
  Local Notation n := (c_len C s).

  Lemma sel_all_ok d e j ns : j < n -> c_get C s j = Ok e -> Forall (fun x => fst x < n) ns ->
    exists b, sel_all V s d e ns = Ok b /\
      (b = true <-> forall m dm, In (m, dm) ns -> (d <= D m j)%Z).
  Proof.
    intros Hj He. induction ns as [|[m dm] ns IH]; intros HF; cbn.
    - exists true. split; auto. split; auto. intros _ m dm [].
    - inversion HF as [|? ? Hm HF']; subst. cbn in Hm. destruct (HD Hm Hj) as (e' & He' & Hd).
      rewrite He in He'. injection He' as <-. rewrite Hd. cbn.
      destruct (Z.leb_spec d (D m j)).
      + destruct (IH HF') as (b & -> & Hb). exists b. split; auto. rewrite Hb. split.
        * intros H1 m' dm' [E1|H2]; [injection E1 as <- <-; auto|eauto].
        * eauto.
      + exists false. split; auto. split; [discriminate|]. intros H1. specialize (H1 m dm (or_introl eq_refl)). lia.
  Qed.

  (** decision at position [k] *)
  Definition decides (maxn : nat) (before : list (nat * Z)) (j : nat) (d : Z) : Prop :=
    length before < maxn /\ forall m dm, In (m, dm) before -> (d <= D m j)%Z.

  Lemma sel_loop_ok maxn : forall cands done keep0,
    length keep0 = length done -> Forall (fun x => fst x < n) (done ++ cands) ->
    exists keep, length keep = length cands /\
      sel_loop V s maxn cands (pick keep0 done) = Ok (pick (keep0 ++ keep) (done ++ cands)) /\
      (forall k j d, nth_error cands k = Some (j, d) ->
         (nth_error keep k = Some true <->
          decides maxn (pick (keep0 ++ firstn k keep) (done ++ firstn k cands)) j d)).
  Proof.
    induction cands as [|[j d] cands IH]; intros done keep0 HL HF; cbn [sel_loop].
    - exists []. split; auto. rewrite !app_nil_r. split; auto. intros [|k] j d H; discriminate.
    - destruct (Nat.leb_spec maxn (length (pick keep0 done))) as [Hm|Hm].
      + exists (repeat false (length ((j, d) :: cands))). split; [apply repeat_length|].
        rewrite pick_app by auto. rewrite pick_none, app_nil_r. split; auto.
        intros k j' d' Hk. split.
        * intros Hr. exfalso. apply nth_error_In in Hr. apply repeat_spec in Hr. discriminate.
        * intros [Hl _]. exfalso. rewrite pick_app, app_length in Hl by auto. lia.
      + apply Forall_app in HF as HF2. destruct HF2 as [HFd HFc]. inversion HFc as [|? ? Hj HFc']; subst. cbn in Hj.
        destruct (HD Hj Hj) as (e & He & _). rewrite He. cbn [obind].
        assert (HFp : Forall (fun x => fst x < n) (pick keep0 done)).
        { rewrite Forall_forall in *. intros x Hx. apply HFd. eapply pick_incl; eauto. }
        destruct (@sel_all_ok d e j (pick keep0 done) Hj He HFp) as (b & -> & Hb). cbn [obind].
        assert (Epk : (if b then pick keep0 done ++ [(j, d)] else pick keep0 done) =
                      pick (keep0 ++ [b]) (done ++ [(j, d)])).
        { rewrite pick_app by auto. destruct b; cbn; auto. now rewrite app_nil_r. }
        rewrite Epk.
        destruct (IH (done ++ [(j, d)]) (keep0 ++ [b])) as (keep & HL' & E1 & Hk).
        { rewrite !app_length. cbn. lia. } { rewrite <- app_assoc. exact HF. }
        exists (b :: keep). split; [cbn; lia|]. split.
        * rewrite E1. now rewrite <- !app_assoc.
        * intros [|k] j' d' Hk'; cbn [nth_error] in Hk'.
          -- injection Hk' as <- <-. cbn [nth_error firstn]. rewrite !app_nil_r. unfold decides. split.
             ++ intros Eb. injection Eb as Eb. split; auto. now apply Hb.
             ++ intros [_ H]. f_equal. now apply Hb.
          -- cbn [nth_error firstn]. specialize (Hk k j' d' Hk'). rewrite <- !app_assoc in Hk. exact Hk.
  Qed.

  Theorem select_big maxn cands : maxn < length cands -> Forall (fun x => fst x < n) cands ->
    (e_mode V = Debug -> dsorted cands) ->
    exists keep, length keep = length cands /\
      select_neighbors V s cands maxn = Ok (pick keep cands) /\
      (forall k j d, nth_error cands k = Some (j, d) ->
         (nth_error keep k = Some true <-> decides maxn (pick (firstn k keep) (firstn k cands)) j d)).
  Proof.
    intros Hm HF Hs. unfold select_neighbors. destruct (Nat.leb_spec (length cands) maxn); [lia|].
    assert (Hda : debug_assert (e_mode V) (is_sorted_d cands) = Ok tt).
    { destruct (e_mode V); cbn; auto. rewrite is_sorted_d_ok; auto. }
    rewrite Hda. cbn [obind].
    destruct (@sel_loop_ok maxn cands [] []) as (keep & H1 & H2 & H3); auto.
    exists keep. split; [exact H1|]. split; [exact H2|]. exact H3.
  Qed.

  (** at most [maxn], non-empty, sub-list *)
  Lemma keep_bound maxn keep (cands : list (nat * Z)) : length keep = length cands ->
    (forall k j d, nth_error cands k = Some (j, d) ->
         (nth_error keep k = Some true <-> decides maxn (pick (firstn k keep) (firstn k cands)) j d)) ->
    length (pick keep cands) <= maxn.
  Proof.
    revert keep. induction cands as [|[j d] cands IH] using rev_ind; intros keep HL HK.
    - destruct keep; [cbn; lia|discriminate].
    - destruct keep as [|b keep _] using rev_ind; [rewrite app_length in HL; cbn in HL; lia|].
      rewrite !app_length in HL. cbn in HL. rewrite pick_app, app_length by lia.
      assert (Hle : length (pick keep cands) <= maxn).
      { apply IH; [lia|]. intros k j' d' Hk. assert (k < length cands) by (apply nth_error_Some; congruence).
        specialize (HK k j' d'). rewrite !nth_error_app1, !firstn_app in HK by lia.
        replace (k - length cands) with 0 in HK by lia. replace (k - length keep) with 0 in HK by lia.
        rewrite !firstn_O, !app_nil_r in HK. apply HK. auto. }
      destruct b; cbn; [|lia].
      specialize (HK (length cands) j d). rewrite !nth_error_app2, !firstn_app in HK by lia.
      replace (length cands - length cands) with 0 in HK by lia. replace (length cands - length keep) with 0 in HK by lia.
      rewrite !firstn_O, !app_nil_r in HK. rewrite (firstn_all2 keep), (firstn_all2 cands) in HK by lia.
      destruct HK as [HK _]; auto. destruct (HK eq_refl) as [H _]. lia.
  Qed.

  Theorem select_ok maxn cands : 0 < maxn -> Forall (fun x => fst x < n) cands ->
    (e_mode V = Debug -> dsorted cands) ->
    exists r, select_neighbors V s cands maxn = Ok r /\ length r <= maxn /\
      (forall x, In x r -> In x cands) /\ (NoDup (map fst cands) -> NoDup (map fst r)) /\
      (forall a, nth_error cands 0 = Some a -> nth_error r 0 = Some a).
  Proof.
    intros H0 HF Hs. destruct (Nat.le_gt_cases (length cands) maxn) as [Hl|Hl].
    - exists cands. unfold select_neighbors. destruct (Nat.leb_spec (length cands) maxn); [|lia]. auto 10.
    - destruct (select_big Hl HF Hs) as (keep & HL & E1 & HK). exists (pick keep cands). split; auto.
      split; [eapply keep_bound; eauto|]. split; [intros x; apply pick_incl|]. split; [apply pick_NoDup|].
      intros a Ha. destruct a as [j d]. destruct cands as [|c cands]; [discriminate|]. cbn in Ha. injection Ha as ->.
      destruct keep as [|b keep]; [discriminate|]. specialize (HK 0 j d eq_refl). cbn in HK.
      assert (b = true).
      { assert (Some b = Some true); [|congruence]. apply HK. split; cbn; [lia|]. intros m dm []. }
      subst b. reflexivity.
  Qed.
End Sel.
