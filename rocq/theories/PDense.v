(** * Collections of vectors as element containers *)
From Coq Require Import ZArith Reals Lra Lia.
From Flocq Require Import Core IEEE754.BinarySingleNaN.
From Verif Require Import Base BaseFacts MSliceVec SSliceVec PFixed MSearch MBuild MReorder SBuild SReorder MFloat MAngular SAngular PF32 PCode PAngInt PAng PQuant.
Close Scope R_scope.
Open Scope nat_scope.
Set Implicit Arguments. Unset Strict Implicit.

(** ** The kernel preserves predicates *)
Section Inv.
  Context {F : Type} (fma : F -> F -> F -> F) (add : F -> F -> F) (zero : F) (P : F -> Prop) (Q : F -> F -> Prop).
  Hypothesis P0 : P zero.
  Hypothesis Padd : forall a b, P a -> P b -> P (add a b).
  Hypothesis Pfma : forall a b c, Q a b -> P c -> P (fma a b c).
  Let Qs (ps : list (F * F)) := Forall (fun p => Q (fst p) (snd p)) ps.

  Lemma inv_lanes a : forall b ch, Qs (combine a b) -> Forall P ch -> Forall P (lanes_step fma ch (a, b)).
  Proof.
    unfold lanes_step. cbn [fst snd]. induction a as [|x a IH]; intros [|y b] [|c ch] Hq Hc; cbn [combine map]; try constructor.
    - inversion Hq; inversion Hc; subst. cbn [fst snd] in *. auto.
    - inversion Hq; inversion Hc; subst. apply IH; auto.
  Qed.
  Lemma inv_lanes_fold ps : forall ch, Forall (fun ab => Qs (combine (fst ab) (snd ab))) ps -> Forall P ch -> Forall P (fold_left (lanes_step fma) ps ch).
  Proof.
    induction ps as [|[a b] ps IH]; intros ch Hp Hc; cbn [fold_left]; auto. inversion Hp; subst. apply IH; auto. now apply inv_lanes.
  Qed.
  Lemma inv_add l : forall r, Forall P l -> P r -> P (fold_left add l r).
  Proof. induction l as [|x l IH]; intros r Hl Hr; cbn; auto. inversion Hl; subst. auto. Qed.
  Lemma inv_fma ps : forall r, Qs ps -> P r -> P (fold_left (fun r ab => fma (fst ab) (snd ab) r) ps r).
  Proof. induction ps as [|p ps IH]; intros r Hp Hr; cbn [fold_left]; auto. inversion Hp; subst. apply IH; auto. Qed.

  Lemma c_skipn {X Y} (x : list X) : forall (y : list Y) k, combine (skipn k x) (skipn k y) = skipn k (combine x y).
  Proof.
    induction x as [|a x IH]; intros y k.
    - now rewrite !skipn_nil.
    - destruct y as [|b y]; [rewrite skipn_nil; destruct (skipn k (a :: x)); cbn; now rewrite skipn_nil|].
      destruct k as [|k]; [reflexivity|]. cbn [skipn combine]. apply IH.
  Qed.
  Lemma c_firstn {X Y} (x : list X) : forall (y : list Y) k, combine (firstn k x) (firstn k y) = firstn k (combine x y).
  Proof. induction x as [|a x IH]; intros [|b y] [|k]; cbn; auto. f_equal. apply IH. Qed.
  Lemma qs_skipn l : forall k, Qs l -> Qs (skipn k l).
  Proof. induction l as [|a l IH]; intros [|k] H; cbn; auto. inversion H; apply IH; auto. Qed.
  Lemma qs_firstn l : forall k, Qs l -> Qs (firstn k l).
  Proof. induction l as [|a l IH]; intros [|k] H; cbn; auto; try constructor; inversion H; subst; auto. apply IH; auto. Qed.
  Lemma inv_chunks k : forall n (x y : list F), Qs (combine x y) ->
    Forall (fun ab => Qs (combine (fst ab) (snd ab))) (combine (chunks_exact_n n k x) (chunks_exact_n n k y)).
  Proof.
    induction n as [|n IH]; intros x y H; cbn [chunks_exact_n combine]; constructor.
    - cbn [fst snd]. rewrite c_firstn. now apply qs_firstn.
    - apply IH. rewrite c_skipn. now apply qs_skipn.
  Qed.

  Lemma dot_inv x y : length x = length y -> Qs (combine x y) -> P (dot_product fma add zero x y).
  Proof.
    intros Hl H. unfold dot_product. unfold chunks_exact, remainder. rewrite <- Hl. apply inv_fma.
    - rewrite c_skipn. now apply qs_skipn.
    - apply inv_add; auto. apply inv_lanes_fold; [now apply inv_chunks|].
      apply Forall_forall. intros t Ht. apply repeat_spec in Ht. now subst.
  Qed.
End Inv.

(** the zero vector *)
Lemma zero_dot32 x y : length x = length y -> Forall fzero x -> finite_vec y -> fzero (dot_f32 x y).
Proof.
  intros Hl Hx Hy. unfold dot_f32. apply dot_inv with (Q := fun a b => fzero a /\ is_finite b = true); auto.
  - exact I.
  - intros [a|a| |a ma ea Ba] [b|b| |b mb eb Bb]; cbn; try tauto. intros _ _. destruct (Bool.eqb a b); cbn; exact I.
  - intros [a|a| |a ma ea Ba] [b|b| |b mb eb Bb] [c|c| |c mc ec Bc] [H1 H2]; cbn in *; try tauto; discriminate.
  - clear Hl. revert y Hy; induction Hx as [|a x Ha _ IH]; intros [|b y] Hy; cbn; constructor; inversion Hy; subst; cbn; auto.
Qed.
Lemma zero_dist x y : length x = length y -> Forall fzero x -> finite_vec y -> angular_dist x y = Ok f32_one.
Proof.
  intros Hl Hx Hy. pose proof (zero_dot32 Hl Hx Hy) as H. unfold angular_dist. destruct (dot_f32 x y) as [s|s| |]; cbn in H; try contradiction. destruct s; reflexivity.
Qed.

(** ** Containers *)
Section Dense.
  Context {T : Type} (dist : list T -> list T -> outcome Z) (m : mode).
  Let C := vectors_ops m dist.

  Lemma dense_cont w rows s : 0 < w -> fw_is w rows s ->
    (forall x y, In x rows -> In y rows -> exists d, dist x y = Ok d) -> cont_ok C s.
  Proof.
    intros Hw Hs Hd. assert (L : c_len C s = length rows) by (cbn; now apply (fw_is_len (w := w))).
    assert (G : forall i, i < c_len C s -> exists r, In r rows /\ fw_get m s i = Ok r).
    { intros i Hi. rewrite L in Hi. destruct (nth_error rows i) as [r|] eqn:E; [|apply nth_error_None in E; lia].
      exists r. split; [eapply nth_error_In; eauto|]. eapply fw_is_get; eauto. }
    constructor; cbn [C vectors_ops c_get c_dte c_dist c_dists].
    - intros i Hi. destruct (G i Hi) as (r & _ & E). eauto.
    - intros i j e Hi Hj He. destruct (G i Hi) as (r & Hr & E). destruct (G j Hj) as (q & Hq & E').
      cbn in He. rewrite E' in He. assert (q = e) by congruence. subst q. rewrite E. cbn [obind]. now apply Hd.
    - intros i j Hi Hj. destruct (G i Hi) as (r & Hr & E). destruct (G j Hj) as (q & Hq & E').
      rewrite E, E'. cbn [obind]. now apply Hd.
    - intros i js Hi Hjs. destruct (G i Hi) as (r & Hr & E). rewrite E. cbn [obind].
      induction Hjs as [|j js Hj _ IH].
      + exists []. auto.
      + destruct (G j Hj) as (q & Hq & E'). destruct (Hd r q Hr Hq) as [d Ed]. destruct IH as (ds & Eds & Lds).
        exists (d :: ds). cbn [omapM]. rewrite E'. cbn [obind]. rewrite Ed. cbn [obind]. rewrite Eds. cbn [obind length]. auto.
  Qed.
End Dense.

(** ** Pushing *)
(** push of a non-empty vector onto a well-formed collection *)
Definition push_vec {T} (v : fw T) (x : list T) : outcome (fw T) :=
  if (0 <? length x) && ((0 <? fwidth v) || (length (fdata v) =? 0)) then fw_push v x else Fail Panicked.

Lemma push_vec_law {T} m (d : list T -> list T -> outcome Z) : push_law (vectors_ops m d) (@push_vec T).
Proof.
  intros s x s' H. unfold push_vec in H.
  destruct (Nat.ltb_spec 0 (length x)) as [Hx|]; [|discriminate]. cbn [andb] in H.
  destruct ((0 <? fwidth s) || (length (fdata s) =? 0)) eqn:Hc; [|discriminate].
  unfold fw_push in H. set (w := if fwidth s =? 0 then length x else fwidth s) in *.
  destruct (Nat.eqb_spec w (length x)) as [Ew|]; [|discriminate]. cbn [oassert obind] in H.
  assert (Es : s' = mkFw (fdata s ++ x) w) by congruence. subst s'.
  assert (Hw : 0 < w) by lia.
  assert (L : fw_len (mkFw (fdata s ++ x) w) = S (fw_len s)).
  { unfold fw_len. cbn [fwidth fdata]. rewrite app_length. destruct (Nat.ltb_spec 0 w); [|lia]. rewrite <- Ew.
    replace (length (fdata s) + w) with (length (fdata s) + 1 * w) by lia. rewrite Nat.div_add by lia.
    unfold w. destruct (Nat.eqb_spec (fwidth s) 0) as [E0|E0].
    - rewrite E0 in *. cbn in Hc. apply Nat.eqb_eq in Hc. rewrite Hc. cbn. rewrite Nat.div_0_l by lia. reflexivity.
    - destruct (Nat.ltb_spec 0 (fwidth s)); lia. }
  assert (G : forall i, i < fw_len s -> fw_get m (mkFw (fdata s ++ x) w) i = fw_get m s i).
  { intros i Hi. assert (E0 : fwidth s <> 0) by (intros E0; unfold fw_len in Hi; rewrite E0 in Hi; cbn in Hi; lia).
    assert (Eww : w = fwidth s) by (unfold w; destruct (Nat.eqb_spec (fwidth s) 0); congruence).
    unfold fw_get. rewrite L. cbn [fwidth fdata]. rewrite Eww.
    replace (i <? S (fw_len s)) with true by (symmetry; apply Nat.ltb_lt; lia).
    replace (i <? fw_len s) with true by (symmetry; apply Nat.ltb_lt; lia).
    assert (Hb : (i + 1) * fwidth s <= length (fdata s)).
    { unfold fw_len in Hi. destruct (Nat.ltb_spec 0 (fwidth s)); [|lia].
      pose proof (Nat.mul_div_le (length (fdata s)) (fwidth s) ltac:(lia)). nia. }
    f_equal. unfold slice. rewrite app_length.
    replace ((i + 1) * fwidth s <=? length (fdata s) + length x) with true by (symmetry; apply Nat.leb_le; lia).
    replace ((i + 1) * fwidth s <=? length (fdata s)) with true by (symmetry; apply Nat.leb_le; lia).
    rewrite skipn_app, firstn_app, skipn_length.
    replace ((i + 1) * fwidth s - i * fwidth s - (length (fdata s) - i * fwidth s)) with 0 by lia.
    cbn [firstn]. now rewrite app_nil_r. }
  cbn [vectors_ops c_len c_get c_dist]. split; [exact L|]. split; [exact G|].
  intros i j Hi Hj. now rewrite !G.
Qed.

(** ** Codes *)
Lemma code_lt (x y : f32) : is_nan x = false -> is_nan y = false -> ((f32_code x < f32_code y)%Z <-> Bltb x y = true).
Proof.
  intros Hx Hy. pose proof (code_compare x y Hx Hy) as H. unfold Bltb, SpecFloat.SFltb.
  unfold Bcompare in H. rewrite H. rewrite <- Z.compare_lt_iff. destruct (f32_code x ?= f32_code y)%Z; split; auto; discriminate.
Qed.
Lemma eps_R : is_finite EPS100 = true /\ B2R EPS100 = (200 * u32)%R.
Proof.
  destruct (@lit_R EPS100 false 13107200 (-40)) as [F E]; [vm_compute; reflexivity|]. split; [exact F|]. rewrite E.
  cbn [cond_Zopp]. unfold u32. change (bpow radix2 (-40)) with (/ 1099511627776)%R. lra.
Qed.
Lemma not_zero_code (d : f32) : is_finite d = true -> (B2R d <= 200 * u32)%R -> ~ (f32_code EPS100 < f32_code d)%Z.
Proof.
  intros F H. destruct eps_R as [FE EE]. rewrite code_lt.
  - rewrite (Bltb_correct 24 128 _ _ FE F), EE. rewrite Rlt_bool_false by lra. discriminate.
  - destruct EPS100; auto; discriminate.
  - destruct d; auto; discriminate.
Qed.
Lemma one_code : (f32_code EPS100 < f32_code f32_one)%Z.
Proof. vm_compute. reflexivity. Qed.

Lemma coded_ok o d : coded o = Ok d <-> exists x, o = Ok x /\ d = f32_code x.
Proof. unfold coded. destruct o; cbn [obind]; split; intros H; try discriminate; try (destruct H as (x & H1 & H2); congruence). exists a. split; congruence. Qed.

Lemma cosine_self x : ~ zero_vec x -> cosine x x = 1%R.
Proof.
  intros H. apply zdot_pos in H. apply IZR_lt in H. unfold cosine. rewrite sqrt_sqrt by lra. field. lra.
Qed.

(** ** Vectors made of blocks of 32 equal components *)
Definition blocks (vs : list f32) : list f32 := concat (map (fun v => repeat v 32) vs).
Definition lane (vs : list f32) : f32 := fold_left (fun c v => f32_fma v v c) vs f32_zero.

Lemma blocks_chunks vs : chunks_exact CHUNK_SIZE (blocks vs) = map (fun v => repeat v 32) vs.
Proof.
  apply chunks_exact_of_concat; [unfold CHUNK_SIZE; lia|]. apply Forall_forall. intros w Hw. apply in_map_iff in Hw.
  destruct Hw as (v & <- & _). apply repeat_length.
Qed.
Lemma blocks_length vs : length (blocks vs) = CHUNK_SIZE * length vs.
Proof. unfold blocks, CHUNK_SIZE. induction vs as [|v vs IH]; [reflexivity|]. cbn [map concat]. rewrite app_length, repeat_length, IH. cbn [length]. lia. Qed.
Lemma blocks_dot vs : dot_f32 (blocks vs) (blocks vs) = fold_left f32_add (repeat (lane vs) 32) f32_zero.
Proof.
  unfold dot_f32, dot_product. rewrite blocks_chunks. unfold remainder. rewrite blocks_length, (Nat.mul_comm CHUNK_SIZE (length vs)), Nat.div_mul by (unfold CHUNK_SIZE; lia).
  rewrite (Nat.mul_comm CHUNK_SIZE (length vs)). rewrite skipn_all2 by (rewrite blocks_length; lia). cbn [combine fold_left].
  assert (G : forall c, fold_left (lanes_step f32_fma) (combine (map (fun v => repeat v 32) vs) (map (fun v => repeat v 32) vs)) (repeat c 32) =
                        repeat (fold_left (fun c v => f32_fma v v c) vs c) 32).
  { assert (St : forall v c n, lanes_step f32_fma (repeat c n) (repeat v n, repeat v n) = repeat (f32_fma v v c) n).
    { intros v c n. unfold lanes_step. cbn [fst snd]. induction n as [|n IHn]; [reflexivity|]. cbn [repeat combine map]. now rewrite IHn. }
    clear -St. induction vs as [|v vs IH]; intros c; [reflexivity|]. cbn [map combine fold_left]. rewrite St. apply IH. }
  unfold CHUNK_SIZE. rewrite G. reflexivity.
Qed.
Lemma blocks_normalize vs : let n := f32_sqrt (fold_left f32_add (repeat (lane vs) 32) f32_zero) in
  Bltb f32_zero n = true -> normalize_f32 (blocks vs) = blocks (map (fun v => f32_div v n) vs).
Proof.
  intros n Hn. unfold normalize_f32. rewrite blocks_dot. fold n. rewrite Hn. clear. unfold blocks. rewrite concat_map, !map_map. apply (f_equal (@concat f32)).
  apply map_ext. intros v. generalize 32. induction n0 as [|k IH]; cbn; congruence.
Qed.
