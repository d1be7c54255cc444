(** * Proofs: a correctly rounded C library needs at most 25 layers for up to
    2^32 elements when the multiplier is at least 5/2 *)
From Coq Require Import ZArith Reals Lra Lia.
From Flocq Require Import Core Relative IEEE754.BinarySingleNaN.
From Verif Require Import Base MFloat MLayerSize SLayerSize PFloat PLayerF PLayerCr.
Open Scope R_scope.
Local Notation fexp := (SpecFloat.fexp 53 1024).
Local Notation big := (bpow radix2 1024).
Local Notation rnd := (round radix2 fexp (round_mode mode_NE)).
#[local] Existing Instance fexp_ok.

Lemma rnd_rel x : / 2 <= x -> x - x / 1000 <= rnd x <= x + x / 1000.
Proof.
  intros Hx. assert (H : Rabs (rnd x - x) <= / 2 * bpow radix2 (- (53) + 1) * Rabs x).
  { apply (relative_error_N_FLT radix2 (SpecFloat.emin 53 1024) 53 ltac:(lia) (fun z => negb (Z.even z)) x).
    rewrite Rabs_pos_eq by lra. apply Rle_trans with (/ 2); [|lra]. change (/ 2) with (bpow radix2 (-1)). apply bpow_le. vm_compute. discriminate. }
  rewrite (Rabs_pos_eq x) in H by lra. assert (Hb : bpow radix2 (- (53) + 1) <= / 1000).
  { apply Rle_trans with (bpow radix2 (-10)); [apply bpow_le; lia|]. cbn. lra. }
  assert (H2 : Rabs (rnd x - x) <= x / 1000) by nra. apply Rabs_le_inv in H2. lra.
Qed.

Lemma ln_ratio : 64 * ln 2 <= 49 * ln (5 / 2).
Proof.
  replace (64 * ln 2) with (ln (2 ^ 64)) by (rewrite ln_pow by lra; f_equal; rewrite INR_IZR_INZ; reflexivity).
  replace (49 * ln (5 / 2)) with (ln ((5 / 2) ^ 49)) by (rewrite ln_pow by lra; f_equal; rewrite INR_IZR_INZ; reflexivity).
  left. apply ln_increasing; [apply pow_lt; lra|].
  unfold Rdiv. rewrite Rpow_mult_distr. apply Rmult_lt_reg_r with (2 ^ 49); [apply pow_lt; lra|].
  rewrite Rmult_assoc, <- Rpow_mult_distr, Rinv_l, pow1, Rmult_1_r by lra. rewrite <- pow_add.
  rewrite !pow_IZR. apply IZR_lt. vm_compute. reflexivity.
Qed.

Lemma cr_few (mul : f32) n : is_finite mul = true -> 5 / 2 <= B2R mul -> (1 <= n)%nat -> (Z.of_nat n <= 2 ^ 32)%Z ->
  B2R (layer_exponent cr_libm n (f64_of_f32 mul)) <= 24.
Proof.
  intros Hfin Hmul Hn Hn32. destruct (mul_R mul Hfin) as [Fm Em]. destruct (usize_finite n ltac:(lia)) as [Fn En].
  rewrite INR_IZR_INZ, rnd_int in En by lia.
  set (nf := B2R (f64_of_usize n)) in *. set (x := B2R (f64_of_f32 mul)) in *.
  assert (Hnf : 1 <= nf <= 2 ^ 32).
  { rewrite En. split; [apply (IZR_le 1); lia|]. rewrite pow_IZR. apply IZR_le. rewrite <- (Nat2Z.id 32). exact Hn32. }
  assert (Hl2 : / 2 <= ln 2 <= 1) by (pose proof (ln_le_sub 2); pose proof (ln_ge_frac 2); lra).
  assert (Hln : 0 <= ln nf <= 32 * ln 2).
  { split.
    - destruct (Req_dec nf 1) as [->|Hne]; [rewrite ln_1; lra|]. left. rewrite <- ln_1. apply ln_increasing; lra.
    - replace (32 * ln 2) with (ln (2 ^ 32)) by (rewrite ln_pow by lra; f_equal; rewrite INR_IZR_INZ; reflexivity).
      destruct (Req_dec nf (2 ^ 32)) as [->|Hne]; [lra|]. left. apply ln_increasing; lra. }
  pose proof ln_ratio as Hrat. set (b := ln (5 / 2)) in *. set (a := ln 2) in *.
  assert (Hlx : b <= ln x).
  { unfold b. rewrite Em. destruct (Req_dec (B2R mul) (5 / 2)) as [->|Hne]; [lra|]. left. apply ln_increasing; lra. }
  assert (Hx30 : ln x < bpow radix2 1000).
  { pose proof (ln_le_sub x ltac:(lra)) as Hls. pose proof (B2X_lt 24 128 mul Hfin) as Hx. rewrite B2X_finite in Hx by auto. rewrite <- Em in Hx.
    assert (bpow radix2 128 <= bpow radix2 1000) by (apply bpow_le; lia). lra. }
  assert (Hrn : 0 <= rnd (ln nf) <= 32 * a + 32 * a / 1000).
  { split.
    - replace 0 with (rnd 0) by (apply round_0; auto with typeclass_instances). apply rnd_le64. lra.
    - eapply Rle_trans; [apply rnd_le64; apply Hln|]. apply rnd_rel. lra. }
  assert (Hrx : b - b / 1000 <= rnd (ln x)).
  { eapply Rle_trans; [|apply rnd_le64; apply Hlx]. apply rnd_rel. lra. }
  assert (Hbig : bpow radix2 1001 < big) by (apply bpow_lt; lia).
  assert (H1001 : bpow radix2 1001 = 2 * bpow radix2 1000) by (change 1001%Z with (1 + 1000)%Z; rewrite bpow_plus; reflexivity).
  assert (H1000 : 64 <= bpow radix2 1000) by (change 64 with (bpow radix2 6); apply bpow_le; lia).
  assert (Hxb : rnd (ln x) <= 2 * ln x) by (pose proof (rnd_rel (ln x) ltac:(lra)); lra).
  destruct (of_R_fin (ln nf)) as [F1 V1]; [lra|]. destruct (of_R_fin (ln x)) as [F2 V2]; [lra|].
  assert (Hq : 0 <= rnd (ln nf) / rnd (ln x) <= 99 / 4).
  { split; [apply Rmult_le_pos; [lra|left; apply Rinv_0_lt_compat; lra]|].
    apply Rmult_le_reg_r with (rnd (ln x)); [lra|]. unfold Rdiv at 1. rewrite Rmult_assoc, Rinv_l by lra. lra. }
  assert (E99 : rnd (99 / 4) = 99 / 4).
  { apply round_generic; auto with typeclass_instances. replace (99 / 4) with (F2R (Float radix2 99 (-2))) by (unfold F2R; cbn; lra).
    apply generic_format_F2R. intros _. unfold cexp. rewrite (mag_unique radix2 _ 5); [vm_compute; discriminate|].
    unfold F2R. cbn [Fnum Fexp]. rewrite Rabs_pos_eq by (cbn; lra). cbn. lra. }
  assert (Hqr : 0 <= rnd (rnd (ln nf) / rnd (ln x)) <= 99 / 4).
  { split; [|rewrite <- E99; apply rnd_le64; apply Hq]. replace 0 with (rnd 0) by (apply round_0; auto with typeclass_instances). apply rnd_le64. apply Hq. }
  assert (Hl : is_finite (log64 cr_libm (f64_of_usize n) (f64_of_f32 mul)) = true /\ B2R (log64 cr_libm (f64_of_usize n) (f64_of_f32 mul)) <= 99 / 4).
  { unfold log64, cr_libm, ln64, cr_ln. rewrite Fn, Fm. fold nf x.
    assert (Hne : B2R (f64_of_R (ln x)) <> 0) by (rewrite V2; intro; lra).
    destruct (div_X 53 1024 _ _ F1 F2 Hne) as [N V]. rewrite V1, V2 in V.
    rewrite sat_id in V by lra. change (Bdiv mode_NE) with f64_div in *.
    assert (Ff : is_finite (f64_div (f64_of_R (ln nf)) (f64_of_R (ln x))) = true) by (apply X_finite; [exact N|rewrite V; lra]).
    split; auto. rewrite B2X_finite in V by exact Ff. rewrite V. lra. }
  destruct Hl as [Fq Bq]. destruct (near_R 53 1024 mode_DN _ Fq) as [Fk Vk]. cbn [round_mode] in Vk.
  unfold layer_exponent, f64_floor. rewrite Vk. apply IZR_le. 
  match goal with |- (Zfloor ?r <= 24)%Z => assert (Hz : (Zfloor r < 25)%Z) by (apply lt_IZR; eapply Rle_lt_trans; [apply Zfloor_lb|]; lra) end. lia.
Qed.
