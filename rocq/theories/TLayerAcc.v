(** * Theorems: layer sizes in floating point (C32) *)
From Coq Require Import ZArith Reals Lra Lia.
From Flocq Require Import Core IEEE754.BinarySingleNaN.
From Verif Require Import Base MFloat MLayerSize SLayerSize SLayerAcc PFloat PLayerF PLayerCr PLayerAcc.
Open Scope R_scope.

(** ** C32 Layer sizes in f64: as in exact arithmetic, up to a relative error of
    2^-38 *)
Theorem C32_sizes_in_floating_point :
  forall (L : libm) (mul : f32) (n : nat),
    is_finite mul = true -> 1 < B2R mul -> (1 <= n)%nat -> (Z.of_nat n <= 2 ^ 53)%Z ->
    pow_up L (f64_of_f32 mul) -> accurate L ->
    let m := B2R mul in
    let size := layer_size L mul n in
    exists K : Z, (0 <= K)%Z /\
      powerRZ m K <= INR n * (1 + / 2 ^ 38) /\ INR n < powerRZ m (K + 1) * (1 + / 2 ^ 38) /\
      (forall l, (1 <= size l <= n)%nat) /\
      (forall l l', (l <= l')%nat -> (size l <= size l')%nat) /\
      (forall l, (K <= Z.of_nat l)%Z -> size l = n) /\
      INR (size 0%nat) < m * (1 + / 2 ^ 38) + 1 /\
      (forall l, INR (size (S l)) < m * INR (size l) * (1 + / 2 ^ 38) + 1 /\
                 (size (S l) = n \/ m * (INR (size l) - 1) < INR (size (S l)) * (1 + / 2 ^ 38))) /\
      (forall l, (Z.of_nat l <= K)%Z ->
         INR n / powerRZ m (K - Z.of_nat l) * (1 - / 2 ^ 38) <= INR (size l) < INR n / powerRZ m (K - Z.of_nat l) * (1 + / 2 ^ 38) + 1).
Proof.
  intros L mul n Hf Hm Hn Hn53 HL HA m size. exists (K L mul n).
  assert (H64 : (Z.of_nat n <= 2 ^ 64)%Z) by lia. pose proof (acc_log_ok L mul n Hf Hm Hn Hn53 HA) as Hlog.
  assert (Hc : 4 * dd <= / 2 ^ 38 /\ 5 * uu <= / 2 ^ 38 /\ 0 < dd /\ 0 < uu).
  { pose proof dd_b. assert (4 * dd = / 2 ^ 39) by (unfold dd; lra). assert (5 * uu <= / 2 ^ 39) by (unfold uu; lra). assert (/ 2 ^ 39 <= / 2 ^ 38) by lra. pose proof uu_b. lra. }
  assert (Hn1 : 1 <= INR n) by (replace 1 with (INR 1) by reflexivity; now apply le_INR).
  split; [apply (K_b L mul n Hf Hm Hn Hn53 HA)|]. destruct (K_pow L mul n Hf Hm Hn Hn53 HA) as [K1 K2].
  assert (Hpow : forall z, 0 < powerRZ (B2R mul) z) by (intros z; apply powerRZ_lt; lra).
  split; [eapply Rle_trans; [exact K1|apply Rmult_le_compat_l; lra]|].
  split; [eapply Rlt_le_trans; [exact K2|apply Rmult_le_compat_l; [left; apply Hpow|lra]]|].
  split; [intros l; now apply (sizeF_pos L mul HL n Hn H64 Hlog)|].
  split; [intros l l' H; now apply (sizeF_mono L mul HL n Hn H64 Hlog)|].
  split; [intros l H; now apply (size_full L mul n Hf Hm Hn Hn53 HA HL)|].
  split.
  { eapply Rlt_le_trans; [apply (size_first_F L mul n Hf Hm Hn Hn53 HA HL)|]. apply Rplus_le_compat_r. unfold m. apply Rmult_le_compat_l; lra. }
  split.
  - intros l. destruct (size_growth_F L mul n Hf Hm Hn Hn53 HA HL l) as [G1 G2]. fold size m in G1, G2. pose proof (pos_INR (size l)) as P1. pose proof (pos_INR (size (S l))) as P2. split.
    + eapply Rlt_le_trans; [exact G1|]. apply Rplus_le_compat_r. apply Rmult_le_compat_l; [apply Rmult_le_pos; unfold m; lra|lra].
    + destruct G2 as [G2|G2]; [now left|right]. eapply Rlt_le_trans; [exact G2|]. apply Rmult_le_compat_l; lra.
  - intros l Hl. destruct (size_near L mul n Hf Hm Hn Hn53 HA HL l Hl) as [G1 G2]. fold m in G1, G2. fold size in G1, G2.
    assert (Hq : 0 <= INR n / powerRZ m (K L mul n - Z.of_nat l)) by (apply Rmult_le_pos; [lra|left; apply Rinv_0_lt_compat, Hpow]). split.
    + eapply Rle_trans; [|exact G1]. apply Rmult_le_compat_l; lra.
    + eapply Rlt_le_trans; [exact G2|]. apply Rplus_le_compat_r, Rmult_le_compat_l; lra.
Qed.
Print Assumptions C32_sizes_in_floating_point.

(** A library with correctly rounded [ln] and [powf] is accurate. *)
Theorem C32_correct_rounding_is_accurate : accurate cr_libm.
Proof. exact cr_accurate. Qed.
Print Assumptions C32_correct_rounding_is_accurate.

(** five elements, multiplier 2: layers of 2, 3 and 5 *)
Definition two32 : f32 := @B754_finite 24 128 false 8388608 (-22) eq_refl.
Lemma two_R : B2R two32 = 2.
Proof. unfold two32, B2R, F2R, Fnum, Fexp. cbn [cond_Zopp]. change (bpow radix2 (-22)) with (/ 4194304). lra. Qed.
Example C32_nonvacuous :
  is_finite two32 = true /\ 1 < B2R two32 /\ pow_up cr_libm (f64_of_f32 two32) /\ accurate cr_libm /\
  layer_size cr_libm two32 5 0 = 2%nat /\ layer_size cr_libm two32 5 1 = 3%nat /\ (forall l, (2 <= l)%nat -> layer_size cr_libm two32 5 l = 5%nat).
Proof.
  assert (H1 : 1 < B2R two32) by (rewrite two_R; lra). assert (HL : pow_up cr_libm (f64_of_f32 two32)) by now apply cr_up.
  split; [reflexivity|]. split; [exact H1|]. split; [exact HL|]. split; [exact cr_accurate|].
  destruct (C32_sizes_in_floating_point cr_libm two32 5) as (k & Hk & K1 & K2 & _ & _ & K3 & _ & _ & K4); auto using cr_accurate; try lia.
  rewrite two_R in *. replace (INR 5) with 5 in * by (simpl; lra). assert (Hu : 0 < / 2 ^ 38 < / 1000) by lra. set (u := / 2 ^ 38) in *.
  assert (Ek : k = 2%Z).
  { assert (Hmono : forall a b, (a <= b)%Z -> powerRZ 2 a <= powerRZ 2 b).
    { intros a b Hab. change 2 with (IZR (radix_val radix2)). rewrite <- !bpow_powerRZ. now apply bpow_le. }
    destruct (Z_lt_le_dec k 2) as [H|H].
    - exfalso. assert (H2 : powerRZ 2 (k + 1) <= powerRZ 2 2) by (apply Hmono; lia). replace (powerRZ 2 2) with 4 in H2 by (simpl; lra).
      assert (powerRZ 2 (k + 1) * (1 + u) <= 4 * (1 + u)) by (apply Rmult_le_compat_r; lra). lra.
    - destruct (Z_lt_le_dec 2 k) as [H'|H']; [|lia]. exfalso. assert (H2 : powerRZ 2 3 <= powerRZ 2 k) by (apply Hmono; lia). replace (powerRZ 2 3) with 8 in H2 by (simpl; lra). lra. }
  subst k. split; [|split].
  - destruct (K4 0%nat) as [A B]; [cbn; lia|]. replace (powerRZ 2 (2 - Z.of_nat 0)) with 4 in A, B by (simpl; lra).
    assert (1 < INR (layer_size cr_libm two32 5 0) < 3) as [C D] by lra.
    apply (INR_lt 1) in C. replace 3 with (INR 3) in D by (simpl; lra). apply INR_lt in D. lia.
  - destruct (K4 1%nat) as [A B]; [cbn; lia|]. replace (powerRZ 2 (2 - Z.of_nat 1)) with 2 in A, B by (simpl; lra).
    assert (2 < INR (layer_size cr_libm two32 5 1) < 4) as [C D] by lra.
    replace 2 with (INR 2) in C by (simpl; lra). replace 4 with (INR 4) in D by (simpl; lra). apply INR_lt in C, D. lia.
  - intros l Hl. apply K3. lia.
Qed.
