(** * Theorems C32, C33: layer sizes, and whether building terminates *)
From Coq Require Import ZArith Reals Lra Lia.
From Flocq Require Import Core IEEE754.BinarySingleNaN.
From Verif Require Import Base MSliceVec MIndexIo MFloat MBuild MLayerSize SBuild SLayerSize PFloat PLayerR PLayerF PLayerCr PBuildInv PBuilder PHistory TBuild.
Open Scope R_scope.

(** ** C32 Layer sizes *)

(** In exact arithmetic, with [K] the whole number such that m^K <= n < m^(K+1):
    sizes lie between 1 and n, do not decrease, reach n at layer K; the first is
    below m + 1, and each is m times the one before, up to rounding up. *)
Theorem C32_sizes_in_exact_arithmetic :
  forall (m : R) (n : nat) (K : Z), 1 < m -> (1 <= n)%nat -> powerRZ m K <= INR n < powerRZ m (K + 1) ->
    let size := fun l => layer_size_R m n l in
    (forall l, (1 <= size l <= Z.of_nat n)%Z) /\
    (forall l l', (l <= l')%nat -> (size l <= size l')%Z) /\
    (forall l, (K <= Z.of_nat l)%Z -> size l = Z.of_nat n) /\
    IZR (size 0%nat) < m + 1 /\
    (forall l, IZR (size (S l)) < m * IZR (size l) + 1 /\
               (size (S l) = Z.of_nat n \/ m * (IZR (size l) - 1) < IZR (size (S l)))).
Proof.
  intros m n K Hm Hn HK size. rewrite !powerRZ_Rpower in HK by lra.
  assert (Hlm := ln_m_pos m Hm). pose proof (INR_n n Hn) as Hn1.
  assert (EK : layer_exponent_R m n = K).
  { unfold layer_exponent_R. apply Zfloor_imp. unfold Rpower in HK.
    rewrite <- (exp_ln (INR n)) in HK by lra. destruct HK as [H1 H2]. apply exp_lt_inv in H2.
    assert (H1' : IZR K * ln m <= ln (INR n)).
    { destruct H1 as [H1|H1]; [left; now apply exp_lt_inv|right; now apply exp_inv]. }
    split.
    - apply Rmult_le_reg_r with (ln m); auto. unfold Rdiv. rewrite Rmult_assoc, Rinv_l; lra.
    - apply Rmult_lt_reg_r with (ln m); auto. unfold Rdiv. rewrite Rmult_assoc, Rinv_l; lra. }
  split; [intros l; now apply size_pos|]. split.
  { intros l l' H. induction H; [reflexivity|]. eapply Z.le_trans; [exact IHle|now apply size_mono]. }
  split; [intros l H; apply size_top; auto; now rewrite EK|]. split; [now apply size_first|]. intros l. now apply size_growth.
Qed.
Print Assumptions C32_sizes_in_exact_arithmetic.

(** As computed in f64, with any C library whose [powf] is monotonic and whose
    logarithm does not misbehave ([pow_up], [log_ok]): sizes lie between 1 and n,
    do not decrease, and reach n (or 2^53, if n is larger) at the layer whose
    number is the computed, rounded-down logarithm.  (Missing: the growth factor
    under rounding.) *)
Theorem C32_sizes_with_monotonic_powf :
  forall (L : libm) (mul : f32) (n : nat),
    (1 <= n)%nat -> fits_usize n -> pow_up L (f64_of_f32 mul) -> log_ok L (f64_of_f32 mul) n ->
    (forall l, (1 <= layer_size L mul n l <= n)%nat) /\
    (forall l l', (l <= l')%nat -> (layer_size L mul n l <= layer_size L mul n l')%nat) /\
    (forall l, B2R (layer_exponent L n (f64_of_f32 mul)) <= INR l ->
       forall c, (c <= n)%nat -> (Z.of_nat c <= 2 ^ 53)%Z -> (c <= layer_size L mul n l)%nat).
Proof.
  intros L mul n Hn Hf HL Hg. assert (H64 : (Z.of_nat n <= 2 ^ 64)%Z) by (unfold fits_usize in Hf; lia).
  split; [intros l; now apply sizeF_pos|]. split; [intros l l' H; now apply sizeF_mono|].
  intros l Hl c Hc Hc53. now apply sizeF_top.
Qed.
Print Assumptions C32_sizes_with_monotonic_powf.

(** A library with correctly rounded [ln] and [powf] meets the assumptions, for
    every finite multiplier greater than 1 and every n. *)
Theorem C32_assumptions_met_by_correct_rounding :
  forall (mul : f32) (n : nat), is_finite mul = true -> 1 < B2R mul -> (1 <= n)%nat -> fits_usize n ->
    pow_up cr_libm (f64_of_f32 mul) /\ log_ok cr_libm (f64_of_f32 mul) n.
Proof.
  intros mul n Hf Hm Hn Hn64. split; [now apply cr_up|apply cr_log; auto]. unfold fits_usize in Hn64. lia.
Qed.
Print Assumptions C32_assumptions_met_by_correct_rounding.

(** ** C33 Termination *)

(** For a multiplier greater than 1 (under the assumptions of C32) every call of
    [build] and [build_partial] on every builder finishes: there is a number of
    layers that suffices for all schedules. *)
Theorem C33_multiplier_above_one_terminates :
  forall {S E I} (V : benv S E) (cpush : S -> I -> outcome S) b nn ms re ex L mul num sched,
    sorts_by_dist (e_sort V) -> push_law (e_ops V) cpush -> built V cpush b ->
    b_config b = config_of nn ms re ex L mul ->
    pow_up L (f64_of_f32 mul) -> (forall n, (1 <= n)%nat -> fits_usize n -> log_ok L (f64_of_f32 mul) n) ->
    e_mode V = Release \/ single_threaded sched ->
    let n := builder_num_elements V b in
    (forall i p, fair_schedule n (4 * n + 7) (sched i p)) ->
    (builder_len b <= num <= n)%nat ->
    exists fuel b', build_partial V fuel b num sched = Ok b'.
Proof.
  intros S E I V cpush b nn ms re ex L mul num sched Hsort Hpush Hb Hcfg HL Hlog Hm n Hf Hle.
  destruct (reached_fine Hsort Hpush (built_reached Hsort Hpush Hb)) as [(Hcf & Hel & _) _].
  pose proof (total_fits Hcf Hel) as Hfit. set (N := Nat.max (builder_total V b) (c_len (e_ops V) (b_elems b))) in *.
  set (k := layer_exponent L N (f64_of_f32 mul)). set (K := Z.to_nat (up (B2R k))). exists (Datatypes.S K).
  eapply (C28_every_fair_schedule_finishes V cpush b (Datatypes.S K) num sched K); eauto.
  intros i Hi. destruct (Nat.eq_dec num 0) as [->|Hn0]; [lia|].
  unfold builder_ideal. rewrite Hcfg. cbn [config_of k_ideal]. fold N.
  assert (Hn1 : (1 <= N)%nat) by (unfold N, n, builder_num_elements in *; lia).
  apply (C32_sizes_with_monotonic_powf L mul N Hn1 Hfit HL (Hlog _ Hn1 Hfit)).
  - fold k. apply Rle_trans with (IZR (up (B2R k))); [left; apply archimed|].
    rewrite INR_IZR_INZ. apply IZR_le. unfold K in Hi. lia.
  - unfold n, builder_num_elements, N in *. lia.
  - destruct Hel as [_ Hl _]. unfold n, builder_num_elements, UNUSED in *. change (2 ^ 53)%Z with 9007199254740992%Z. lia.
Qed.
Print Assumptions C33_multiplier_above_one_terminates.

(** ... and so for multiplier 1, where every layer is full. *)
Theorem C33_multiplier_one_terminates :
  forall {S E I} (V : benv S E) (cpush : S -> I -> outcome S) b nn ms re L num sched,
    sorts_by_dist (e_sort V) -> push_law (e_ops V) cpush -> built V cpush b ->
    b_config b = config_of nn ms re None L Bone ->
    (forall y, powf64 L Bone y = Bone) ->
    e_mode V = Release \/ single_threaded sched ->
    let n := builder_num_elements V b in
    (forall i p, fair_schedule n (4 * n + 7) (sched i p)) ->
    (builder_len b <= num <= n)%nat ->
    exists b', build_partial V 1 b num sched = Ok b'.
Proof.
  intros S E I V cpush b nn ms re L num sched Hsort Hpush Hb Hcfg HL Hm n Hf Hle.
  destruct (reached_fine Hsort Hpush (built_reached Hsort Hpush Hb)) as [(Hcf & Hel & _) _].
  eapply (C28_every_fair_schedule_finishes V cpush b 1 num sched 0); eauto.
  intros i Hi. unfold builder_ideal, builder_total. rewrite Hcfg. cbn [config_of k_ideal k_expected].
  destruct Hel as [_ Hl _]. rewrite sizeF_one; auto; unfold n, builder_num_elements, UNUSED in *; [lia|].
  change (2 ^ 53)%Z with 9007199254740992%Z. lia.
Qed.
Print Assumptions C33_multiplier_one_terminates.

(** FALSE as stated: with a multiplier strictly between 0 and 1 the layers never
    grow beyond one element, and [build] of two or more elements never returns,
    whatever the schedule and however many layers are added.  In exact
    arithmetic, for all such multipliers: *)
Theorem C33_small_multiplier_never_returns_refuted :
  forall {S E} (V : benv S E) s nn ms re (m : R) b0 fuel num sched,
    sorts_by_dist (e_sort V) -> usable V s -> (0 < nn)%nat -> (0 < ms)%nat -> 0 < m < 1 ->
    builder_new V (config_R nn ms re None m) s = Ok b0 ->
    (2 <= num <= builder_num_elements V b0)%nat ->
    forall b', build_partial V fuel b0 num sched <> Ok b'.
Proof.
  intros S E V s nn ms re m b0 fuel num sched Hsort Hus Hnn Hms Hm En Hnum b'.
  assert (Hcf : cfg_ok (config_R nn ms re None m)).
  { split; auto. split; auto. split; [discriminate|]. intros n Hn _. cbn [config_R k_ideal]. rewrite size_small; auto. }
  assert (Hr : reached (I := unit) V (fun _ _ => Fail Panicked) b0) by (eapply r_new; eauto).
  assert (Hpl : push_law (I := unit) (e_ops V) (fun _ _ => Fail Panicked)) by (intros s0 x0 s' Hx; discriminate).
  destruct (reached_fine Hsort Hpl Hr) as [HB _].
  unfold builder_new in En. destruct (N.of_nat (c_len (e_ops V) s) <? UNUSED)%N; [|discriminate]. cbn [oassert obind] in En.
  injection En as <-. unfold builder_num_elements in Hnum. cbn [b_elems] in Hnum.
  eapply (build_partial_stuck Hsort); [exact HB| |].
  - unfold builder_len. cbn. lia.
  - intros i. unfold builder_ideal, builder_total. cbn [b_config b_elems config_R k_ideal k_expected].
    rewrite size_small; auto; [cbn; lia|lia].
Qed.
Print Assumptions C33_small_multiplier_never_returns_refuted.

(** The same in f64, for every multiplier and n the C library's results make
    small as in exact arithmetic ([log_small]). *)
Theorem C33_small_float_multiplier_never_returns_refuted :
  forall {S E} (V : benv S E) s nn ms re L (mul : f32) b0 fuel num sched,
    sorts_by_dist (e_sort V) -> usable V s -> (0 < nn)%nat -> (0 < ms)%nat ->
    pow_down L (f64_of_f32 mul) -> (forall n, (1 <= n)%nat -> fits_usize n -> log_fin L (f64_of_f32 mul) n) ->
    builder_new V (config_of nn ms re None L mul) s = Ok b0 ->
    log_small L (f64_of_f32 mul) (builder_num_elements V b0) ->
    (2 <= num <= builder_num_elements V b0)%nat ->
    forall b', build_partial V fuel b0 num sched <> Ok b'.
Proof.
  intros S E V s nn ms re L mul b0 fuel num sched Hsort Hus Hnn Hms HL Hlog En Hsm Hnum b'.
  assert (Hcf : cfg_ok (config_of nn ms re None L mul)).
  { split; auto. split; auto. split; [discriminate|]. intros n Hn Hfit. cbn [config_of k_ideal].
    apply (sizeD_0 L mul HL n Hn); [unfold fits_usize in Hfit; lia|auto]. }
  assert (Hr : reached (I := unit) V (fun _ _ => Fail Panicked) b0) by (eapply r_new; eauto).
  assert (Hpl : push_law (I := unit) (e_ops V) (fun _ _ => Fail Panicked)) by (intros s0 x0 s' Hx; discriminate).
  destruct (reached_fine Hsort Hpl Hr) as [HB _].
  unfold builder_new in En. destruct (N.ltb_spec (N.of_nat (c_len (e_ops V) s)) UNUSED) as [Hlt|]; [|discriminate]. cbn [oassert obind] in En.
  injection En as <-. unfold builder_num_elements in *. cbn [b_elems] in *.
  eapply (build_partial_stuck Hsort); [exact HB| |].
  - unfold builder_len. cbn. lia.
  - intros i. unfold builder_ideal, builder_total. cbn [b_config b_elems config_of k_ideal k_expected].
    rewrite Nat.max_id. eapply Nat.le_lt_trans; [|apply Hnum].
    apply (sizeD_le L mul HL); auto; [lia|unfold UNUSED in Hlt; change (2 ^ 64)%Z with 18446744073709551616%Z; lia|].
    apply Hlog; [lia|]. unfold fits_usize, UNUSED in *. lia.
Qed.
Print Assumptions C33_small_float_multiplier_never_returns_refuted.

(** With a NaN or negative multiplier all layers have size 0 and nothing is ever
    indexed: the loop adds empty layers for ever. *)
Theorem C33_nan_or_negative_multiplier_never_returns_refuted :
  forall {S E} (V : benv S E) s nn ms re L (mul : f32) b0 fuel num sched,
    nan_laws L -> is_nan mul = true \/ Bltb mul (B754_zero false) = true ->
    builder_new V (config_of nn ms re None L mul) s = Ok b0 ->
    (1 <= num <= builder_num_elements V b0)%nat ->
    build_partial V fuel b0 num sched = Fail OutOfFuel.
Proof.
  intros S E V s nn ms re L mul b0 fuel num sched HL Hm En Hnum.
  unfold builder_new in En. destruct (N.of_nat (c_len (e_ops V) s) <? UNUSED)%N; [|discriminate]. cbn [oassert obind] in En.
  injection En as <-. unfold build_partial. destruct (Nat.eqb_spec num 0); [lia|].
  destruct (Nat.leb_spec (builder_len (mkBuilder s [] (config_of nn ms re None L mul))) num) as [_|Hc]; [|unfold builder_len in Hc; cbn in Hc; lia].
  destruct (Nat.leb_spec num (builder_num_elements V (mkBuilder s [] (config_of nn ms re None L mul)))); [|lia].
  cbn [oassert obind b_layers length Nat.ltb Nat.leb]. apply build_loop_zero.
  - unfold builder_len. cbn. lia.
  - intros i. unfold builder_ideal. cbn [b_config config_of k_ideal]. now apply sizeN.
Qed.
Print Assumptions C33_nan_or_negative_multiplier_never_returns_refuted.

(** ** Non-vacuity *)

(** C32 in exact arithmetic: 100 elements, multiplier 3: 3^4 <= 100 < 3^5. *)
Example C32_exact_instance :
  1 < 3 /\ powerRZ 3 4 <= INR 100 < powerRZ 3 (4 + 1) /\ layer_size_R 3 100 4 = 100%Z.
Proof.
  assert (H : powerRZ 3 4 <= INR 100 < powerRZ 3 (4 + 1)) by
    (rewrite INR_IZR_INZ; change (Z.of_nat 100) with 100%Z; change (4 + 1)%Z with 5%Z; unfold powerRZ;
     change (Pos.to_nat 4) with 4%nat; change (Pos.to_nat 5) with 5%nat; cbn [pow]; lra).
  split; [lra|]. split; auto. apply (C32_sizes_in_exact_arithmetic 3 100 4 ltac:(lra) ltac:(lia) H). lia.
Qed.

(** the default multiplier, 15.0 *)
Definition fifteen : f32 := @B754_finite 24 128 false 15728640 (-20) eq_refl.
Lemma fifteen_R : B2R fifteen = 15.
Proof. unfold fifteen, B2R, F2R, Fnum, Fexp. cbn [cond_Zopp]. change (bpow radix2 (-20)) with (/ 1048576). lra. Qed.

Definition ff_cfg : config := config_of 2 3 true None cr_libm fifteen.
Lemma ff_ok : cfg_ok ff_cfg.
Proof.
  split; [cbn; lia|]. split; [cbn; lia|]. split; [discriminate|]. intros n Hn Hf. cbn [ff_cfg config_of k_ideal].
  assert (H15 : 1 < B2R fifteen) by (rewrite fifteen_R; lra).
  destruct (C32_assumptions_met_by_correct_rounding fifteen n eq_refl H15 Hn Hf) as [H1 H2].
  apply (proj1 (C32_sizes_with_monotonic_powf cr_libm fifteen n Hn Hf H1 H2)).
Qed.

(** C32 and C33 hold of the default multiplier under a correctly rounded library. *)
Example C33_default_multiplier_terminates :
  exists fuel b', build_partial (ex_env Release) fuel (mkBuilder ex_elems [] ff_cfg) 6 round_robin = Ok b'.
Proof.
  apply (C33_multiplier_above_one_terminates (ex_env Release) ex_push (mkBuilder ex_elems [] ff_cfg) 2 3 true None cr_libm fifteen).
  - apply isort_ok.
  - apply C35_vec_push.
  - apply bt_once. exists ff_cfg, ex_elems, (mkBuilder ex_elems [] ff_cfg), []. split; [apply ff_ok|]. split; [apply ex_usable; cbn; lia|].
    split; [reflexivity|constructor].
  - reflexivity.
  - apply (C32_assumptions_met_by_correct_rounding fifteen 1); [reflexivity|rewrite fifteen_R; lra|lia|reflexivity].
  - intros n Hn Hf. apply (C32_assumptions_met_by_correct_rounding fifteen n); auto. rewrite fifteen_R; lra.
  - now left.
  - intros i p k Hk. unfold round_robin. cbn [builder_num_elements ex_env e_ops vec_ops c_len b_elems ex_elems length] in Hk.
    cbn [builder_num_elements ex_env e_ops vec_ops c_len b_elems ex_elems length Nat.mul Nat.add].
    do 6 (destruct k as [|k]; [vm_compute; lia|]). lia.
  - cbn. unfold builder_len. cbn. lia.
Qed.

(** C33 refuted, concretely: 2 elements, multiplier 1/2, a correctly rounded
    library. *)
Example C33_one_half_never_returns :
  forall fuel sched b', build (ex_env Release) fuel (mkBuilder [7; 3]%Z [] (config_of 2 3 true None cr_libm half32)) sched <> Ok b'.
Proof.
  intros fuel sched b'. apply (C33_small_float_multiplier_never_returns_refuted (ex_env Release) [7; 3]%Z 2 3 true cr_libm half32).
  - apply isort_ok.
  - apply ex_usable. cbn. lia.
  - lia.
  - lia.
  - apply cr_down; [reflexivity|rewrite half_R; lra].
  - intros n Hn Hf. apply half_fin; auto. unfold fits_usize in Hf. lia.
  - reflexivity.
  - apply half_log.
  - cbn. lia.
Qed.

(** ... and a NaN multiplier, with a library that meets the laws. *)
Definition nan_libm : libm := mkLibm (fun _ => B754_nan) (fun _ _ => B754_nan).
Example C33_nan_never_returns :
  nan_laws nan_libm /\
  forall fuel sched, build (ex_env Release) fuel (mkBuilder ex_elems [] (config_of 2 3 true None nan_libm B754_nan)) sched = Fail OutOfFuel.
Proof.
  assert (H : nan_laws nan_libm) by (split; reflexivity). split; auto.
  intros fuel sched. apply (C33_nan_or_negative_multiplier_never_returns_refuted (ex_env Release) ex_elems 2 3 true nan_libm B754_nan); auto.
  cbn. lia.
Qed.
