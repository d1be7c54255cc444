(** * Rounding facts for f32 *)
From Coq Require Import ZArith Reals Lra Lia Psatz.
From Flocq Require Import Core Relative IEEE754.BinarySingleNaN.
From Verif Require Import Base MFloat MAngular.
Open Scope R_scope.

Notation fexp32 := (SpecFloat.fexp 24 128).
Notation rnd32 := (round radix2 fexp32 (round_mode mode_NE)).
Definition u32 : R := / 16777216.
Notation big32 := (bpow radix2 128).

Lemma u32_eq : / 2 * bpow radix2 (- 24 + 1) = u32.
Proof. unfold u32. change (bpow radix2 (-24 + 1)) with (/ IZR 8388608). lra. Qed.
Lemma u32_pos : 0 < u32 < / 1000000. Proof. unfold u32. lra. Qed.

Lemma valid32 : Valid_exp fexp32.
Proof. apply (fexp_correct 24 128). reflexivity. Qed.
#[export] Existing Instance valid32.

Lemma rel32 x : bpow radix2 (-126) <= Rabs x -> exists e, Rabs e <= u32 /\ rnd32 x = x * (1 + e).
Proof.
  intros H. destruct (relative_error_N_FLT_ex radix2 (-149) 24 eq_refl (fun t => negb (Z.even t)) x) as (e & He & E).
  - exact H.
  - exists e. rewrite <- u32_eq. split; [exact He|exact E].
Qed.

(** with underflow *)
Lemma abs32 x : exists e h, Rabs e <= u32 /\ Rabs h <= / 2 * bpow radix2 (-149) /\ rnd32 x = x * (1 + e) + h.
Proof.
  destruct (error_N_FLT radix2 (-149) 24 eq_refl (fun t => negb (Z.even t)) x) as (e & h & He & Hh & _ & E).
  exists e, h. rewrite <- u32_eq. split; [|split; [exact Hh|exact E]]. exact He.
Qed.

Lemma rnd32_le a b : a <= b -> rnd32 a <= rnd32 b.
Proof. apply round_le; auto with typeclass_instances. Qed.
Lemma rnd32_id (x : f32) : rnd32 (B2R x) = B2R x.
Proof. apply round_generic; auto with typeclass_instances. apply generic_format_B2R. Qed.
Lemma rnd32_opp x : rnd32 (- x) = - rnd32 x.
Proof. apply round_NE_opp. Qed.
Lemma rnd32_0 : rnd32 0 = 0.
Proof. apply round_0. auto with typeclass_instances. Qed.

Lemma big32_val : big32 = IZR (2 ^ 128).
Proof. rewrite (IZR_Zpower radix2) by lia. reflexivity. Qed.
Lemma big32_gt : 1e38 < big32.
Proof. rewrite big32_val. change (2 ^ 128)%Z with 340282366920938463463374607431768211456%Z. lra. Qed.

(** an integer *)
Lemma ofZ_R z : (Z.abs z <= 2 ^ 40)%Z ->
  is_finite (f32_of_Z z) = true /\ B2R (f32_of_Z z) = rnd32 (IZR z) /\
  exists e, Rabs e <= u32 /\ B2R (f32_of_Z z) = IZR z * (1 + e).
Proof.
  intros Hz.
  assert (Hr : exists e, Rabs e <= u32 /\ rnd32 (IZR z) = IZR z * (1 + e)).
  { destruct (Z.eq_dec z 0) as [->|Hn].
    - exists 0. rewrite Rabs_R0. split; [pose proof u32_pos; lra|]. rewrite rnd32_0. ring.
    - apply rel32. apply Rle_trans with 1; [change 1 with (bpow radix2 0); apply bpow_le; lia|].
      rewrite <- abs_IZR. apply IZR_le. lia. }
  pose proof (binary_normalize_correct 24 128 _ _ mode_NE z 0 false) as H.
  cbv zeta in H.
  assert (E : F2R (Float radix2 z 0) = IZR z) by (unfold F2R; cbn; ring). rewrite E in H.
  assert (Hb : Rabs (rnd32 (IZR z)) < big32).
  { destruct Hr as (e & He & ->). pose proof u32_pos. pose proof big32_gt.
    rewrite Rabs_mult. rewrite <- abs_IZR.
    assert (IZR (Z.abs z) <= 1099511627776) by (apply IZR_le; lia).
    assert (0 <= IZR (Z.abs z)) by (apply IZR_le; lia).
    assert (Rabs (1 + e) <= 2) by (apply Rabs_le; apply Rabs_le_inv in He; lra).
    assert (0 <= Rabs (1 + e)) by apply Rabs_pos. nra. }
  rewrite Rlt_bool_true in H by exact Hb. destruct H as (H1 & H2 & _).
  split; [exact H2|]. split; [exact H1|]. destruct Hr as (e & He & E2). exists e. split; auto. now rewrite <- E2.
Qed.

Lemma one_R : is_finite f32_one = true /\ B2R f32_one = 1.
Proof.
  split; [reflexivity|]. rewrite <- SF2R_B2SF.
  replace (B2SF f32_one) with (SpecFloat.S754_finite false 8388608 (-23)) by (vm_compute; reflexivity).
  unfold SF2R, F2R; cbn. lra.
Qed.

Lemma sqrt_finite (x : f32) : is_finite x = true -> 0 < B2R x ->
  is_finite (f32_sqrt x) = true /\ B2R (f32_sqrt x) = rnd32 (sqrt (B2R x)).
Proof.
  intros Hf Hp. destruct (Bsqrt_correct 24 128 _ _ mode_NE x) as (H1 & H2 & _). split; [|exact H1].
  unfold f32_sqrt. rewrite H2. destruct x as [s|s| |s m e B]; try discriminate; auto.
  destruct s; auto. exfalso. cbn in Hp. revert Hp. apply Rle_not_lt. apply Rlt_le. now apply F2R_lt_0.
Qed.

Lemma mul_finite (x y : f32) : is_finite x = true -> is_finite y = true -> Rabs (rnd32 (B2R x * B2R y)) < big32 ->
  is_finite (f32_mul x y) = true /\ B2R (f32_mul x y) = rnd32 (B2R x * B2R y).
Proof.
  intros Hx Hy Hb. pose proof (Bmult_correct 24 128 _ _ mode_NE x y) as H. rewrite Rlt_bool_true in H by exact Hb.
  destruct H as (H1 & H2 & _). rewrite Hx, Hy in H2. split; [exact H2|exact H1].
Qed.
Lemma div_finite (x y : f32) : is_finite x = true -> B2R y <> 0 -> Rabs (rnd32 (B2R x / B2R y)) < big32 ->
  is_finite (f32_div x y) = true /\ B2R (f32_div x y) = rnd32 (B2R x / B2R y).
Proof.
  intros Hx Hy Hb. pose proof (Bdiv_correct 24 128 _ _ mode_NE x y Hy) as H. rewrite Rlt_bool_true in H by exact Hb.
  destruct H as (H1 & H2 & _). rewrite Hx in H2. split; [exact H2|exact H1].
Qed.
Lemma sub_finite (x y : f32) : is_finite x = true -> is_finite y = true -> Rabs (rnd32 (B2R x - B2R y)) < big32 ->
  is_finite (f32_sub x y) = true /\ B2R (f32_sub x y) = rnd32 (B2R x - B2R y).
Proof.
  intros Hx Hy Hb. pose proof (Bminus_correct 24 128 _ _ mode_NE x y Hx Hy) as H. rewrite Rlt_bool_true in H by exact Hb.
  destruct H as (H1 & H2 & _). split; [exact H2|exact H1].
Qed.
Lemma add_finite (x y : f32) : is_finite x = true -> is_finite y = true -> Rabs (rnd32 (B2R x + B2R y)) < big32 ->
  is_finite (f32_add x y) = true /\ B2R (f32_add x y) = rnd32 (B2R x + B2R y).
Proof.
  intros Hx Hy Hb. pose proof (Bplus_correct 24 128 _ _ mode_NE x y Hx Hy) as H. rewrite Rlt_bool_true in H by exact Hb.
  destruct H as (H1 & H2 & _). split; [exact H2|exact H1].
Qed.
Lemma fma_finite (x y z : f32) : is_finite x = true -> is_finite y = true -> is_finite z = true ->
  Rabs (rnd32 (B2R x * B2R y + B2R z)) < big32 ->
  is_finite (f32_fma x y z) = true /\ B2R (f32_fma x y z) = rnd32 (B2R x * B2R y + B2R z).
Proof.
  intros Hx Hy Hz Hb. pose proof (Bfma_correct 24 128 _ _ mode_NE x y z Hx Hy Hz) as H. cbv zeta in H. rewrite Rlt_bool_true in H by exact Hb.
  destruct H as (H1 & H2 & _). split; [exact H2|exact H1].
Qed.

(** the value of [max0] *)
Lemma max0_R (d : f32) : is_finite d = true -> is_finite (max0 d) = true /\ B2R (max0 d) = Rmax 0 (B2R d).
Proof.
  intros Hf. unfold max0. rewrite (Bltb_correct 24 128 d f32_zero Hf eq_refl).
  cbn [f32_zero B2R]. destruct (Rlt_bool_spec (B2R d) 0) as [H|H].
  - split; [reflexivity|]. cbn. rewrite Rmax_left; lra.
  - split; [exact Hf|]. rewrite Rmax_right; auto.
Qed.

(** never negative, not even [-0.0] or minus infinity *)
Lemma max0_nonneg (d : f32) : is_nan d = false -> is_nan (max0 d) = false /\ Bleb f32_zero (max0 d) = true.
Proof.
  intros Hn. unfold max0. destruct (Bltb d f32_zero) eqn:E; [split; reflexivity|]. split; auto.
  unfold Bltb, Bleb in *. unfold f32_zero in *. destruct d as [s|s| |s m e B]; try discriminate; cbn in *; auto; destruct s; auto; discriminate.
Qed.
