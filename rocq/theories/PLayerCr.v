(** * A correctly rounded C library meets the assumptions on [ln] and [powf], for
    every finite multiplier greater than 1 *)
From Coq Require Import ZArith Reals Lra Lia.
From Flocq Require Import Core IEEE754.BinarySingleNaN.
From Verif Require Import Base MFloat MLayerSize SLayerSize PFloat PLayerF.
Open Scope R_scope.

Local Notation fexp := (SpecFloat.fexp 53 1024).
Local Notation big := (bpow radix2 1024).
Local Notation rnd := (round radix2 fexp (round_mode mode_NE)).
Local Notation sat := (sat 1024).
#[local] Existing Instance fexp_ok.

(** the f64 nearest to a real number *)
Definition f64_of_R (r : R) : f64 :=
  binary_normalize 53 1024 _ _ mode_NE (Ztrunc (scaled_mantissa radix2 fexp (rnd r))) (cexp radix2 fexp (rnd r)) false.

Lemma of_R_spec r : is_nan (f64_of_R r) = false /\ B2X (f64_of_R r) = sat (rnd r) /\ (0 <= r -> Bsign (f64_of_R r) = false).
Proof.
  assert (E : F2R (Float radix2 (Ztrunc (scaled_mantissa radix2 fexp (rnd r))) (cexp radix2 fexp (rnd r))) = rnd r).
  { symmetry. apply generic_format_round; auto with typeclass_instances. }
  destruct (norm_gen 53 1024 (Ztrunc (scaled_mantissa radix2 fexp (rnd r))) (cexp radix2 fexp (rnd r))) as (H1 & H2 & H3).
  rewrite E in H2, H3. split; [exact H1|]. split.
  - unfold f64_of_R. rewrite H2. f_equal. apply round_generic; auto with typeclass_instances. apply generic_format_round; auto with typeclass_instances.
  - intros Hr. apply H3. replace 0 with (rnd 0) by (apply round_0; auto with typeclass_instances). now apply rnd_le64.
Qed.

(** correctly rounded [ln] and [powf] (for positive finite arguments) *)
Definition cr_ln (x : f64) : f64 := if is_finite x then f64_of_R (ln (B2R x)) else B754_nan.
Definition cr_pow (x y : f64) : f64 :=
  match y with
  | B754_nan => B754_nan
  | B754_infinity s => if xorb s (Rlt_bool (B2R x) 1) then B754_zero false else B754_infinity false
  | _ => f64_of_R (Rpower (B2R x) (B2R y))
  end.
Definition cr_libm : libm := mkLibm cr_ln cr_pow.

Lemma X_finite (x : f64) : is_nan x = false -> - big < B2X x < big -> is_finite x = true.
Proof. destruct x as [s| [] | |]; cbn [B2X is_nan is_finite]; auto; intros; lra. Qed.

Lemma of_R_fin r : - big < rnd r < big -> is_finite (f64_of_R r) = true /\ B2R (f64_of_R r) = rnd r.
Proof.
  intros H. destruct (of_R_spec r) as (H1 & H2 & _). rewrite sat_id in H2 by auto.
  assert (F : is_finite (f64_of_R r) = true) by (apply X_finite; [auto|rewrite H2; auto]). split; auto. now rewrite <- H2, B2X_finite.
Qed.

Lemma one_big : 1 < big.
Proof. change 1 with (bpow radix2 0). apply bpow_lt. lia. Qed.

Lemma of_R_1 : f64_of_R 1 = Bone.
Proof.
  assert (E : rnd 1 = 1) by (apply (rnd_int 1); lia). pose proof one_big. pose proof (big_pos 1024).
  destruct (of_R_fin 1) as [F V]; [rewrite E; lra|]. rewrite E in V.
  apply B2R_Bsign_inj; auto.
  - now rewrite V, Bone_correct.
  - rewrite Bsign_Bone. apply of_R_spec. lra.
Qed.

(** rounding stays within a factor 2, where powers of two are exact *)
Lemma rnd_2 x : bpow radix2 (-1000) <= x -> x / 2 <= rnd x <= 2 * x.
Proof.
  intros Hx. pose proof (bpow_gt_0 radix2 (-1000)) as H0.
  destruct (mag radix2 x) as [e He]. assert (Hx0 : x <> 0) by (intro; lra). specialize (He Hx0). rewrite Rabs_pos_eq in He by lra.
  assert (He0 : (-1000 < e)%Z).
  { apply (lt_bpow radix2). lra. }
  assert (Hf : forall i, (-1001 <= i)%Z -> rnd (bpow radix2 i) = bpow radix2 i).
  { intros i Hi. apply round_generic; auto with typeclass_instances. apply generic_format_bpow.
    unfold SpecFloat.fexp, SpecFloat.emin. lia. }
  assert (Hd : bpow radix2 e = 2 * bpow radix2 (e - 1)).
  { replace e with (1 + (e - 1))%Z at 1 by ring. rewrite bpow_plus. reflexivity. }
  split.
  - apply Rle_trans with (bpow radix2 (e - 1)); [lra|]. rewrite <- Hf by lia. apply rnd_le64. lra.
  - apply Rle_trans with (bpow radix2 e); [|lra]. rewrite <- (Hf e) by lia. apply rnd_le64. lra.
Qed.

(** f32 numbers above 1 are at least 1 + 2^-23 *)
Lemma above_1 (mul : f32) : is_finite mul = true -> 1 < B2R mul -> 1 + bpow radix2 (-23) <= B2R mul.
Proof.
  intros F H1. assert (Hs : generic_format radix2 (SpecFloat.fexp 24 128) 1).
  { change 1 with (bpow radix2 0). apply generic_format_bpow. vm_compute. discriminate. }
  pose proof (succ_le_lt radix2 (SpecFloat.fexp 24 128) 1 (B2R mul) Hs (generic_format_B2R 24 128 mul) H1) as Hle.
  eapply Rle_trans; [|exact Hle]. right. unfold succ. rewrite Rle_bool_true by lra.
  change 1 with (bpow radix2 0) at 3. rewrite ulp_bpow. f_equal.
Qed.

(** the real bounds *)
Lemma ln_le_sub x : 0 < x -> ln x <= x - 1.
Proof.
  intros H. destruct (Req_dec x 1) as [->|Hne]; [rewrite ln_1; lra|].
  apply Rnot_lt_le. intros Hc. assert (exp (x - 1) < exp (ln x)) by now apply exp_increasing.
  rewrite exp_ln in H0 by auto. pose proof (exp_ineq1 (x - 1)) as He. assert (x - 1 <> 0) by (intro; lra). specialize (He H1). lra.
Qed.
Lemma ln_ge_frac x : 0 < x -> 1 - / x <= ln x.
Proof.
  intros H. assert (0 < / x) by now apply Rinv_0_lt_compat. pose proof (ln_le_sub (/ x) H0) as Hl. rewrite ln_Rinv in Hl by auto. lra.
Qed.

Lemma exp_256' : exp 256 < bpow radix2 1023.
Proof.
  assert (H : forall k, exp (INR k) <= 4 ^ k).
  { induction k as [|k IH]; [cbn; rewrite exp_0; lra|]. rewrite S_INR, exp_plus. cbn [pow].
    pose proof exp_le_3. pose proof (exp_pos 1). pose proof (exp_pos (INR k)). nra. }
  replace 256 with (INR 256) by (rewrite INR_IZR_INZ; reflexivity).
  eapply Rle_lt_trans; [apply H|]. replace (4 ^ 256) with (bpow radix2 512); [apply bpow_lt; lia|].
  rewrite <- (Rpower_pow 256 4) by lra. rewrite INR_IZR_INZ. rewrite bpow_powerRZ.
  change (IZR (radix_val radix2)) with 2. rewrite powerRZ_Rpower by lra.
  replace 4 with (Rpower 2 2). 2:{ change 2 with (INR 2) at 2. rewrite Rpower_pow by lra. lra. }
  rewrite Rpower_mult. f_equal.
Qed.

Lemma pow_fin m y : is_finite y = true -> cr_pow m y = f64_of_R (Rpower (B2R m) (B2R y)).
Proof using Type. destruct y; cbn [is_finite cr_pow]; auto; discriminate. Qed.

Lemma cr_num m (y : f64) : 0 < B2R m -> is_nan y = false ->
  is_nan (cr_pow m y) = false /\ Bsign (cr_pow m y) = false /\ 0 <= B2X (cr_pow m y) <= big.
Proof.
  intros Hm Hz. pose proof (big_pos 1024) as Hb. destruct (is_finite y) eqn:Fz.
  - rewrite pow_fin by auto. destruct (of_R_spec (Rpower (B2R m) (B2R y))) as (H1 & H2 & H3). split; auto.
    split; [apply H3; left; apply exp_pos|]. rewrite H2. split.
    + apply sat_ge; try lra. replace 0 with (rnd 0) by (apply round_0; auto with typeclass_instances). apply rnd_le64. left. apply exp_pos.
    + apply sat_bound.
  - destruct y as [s| s | |]; try discriminate; cbn [cr_pow]; destruct (xorb _ _); cbn [is_nan Bsign B2X B2R]; split; auto; split; auto; lra.
Qed.

Section Cr.
  Variable mul : f32.
  Hypothesis Hfin : is_finite mul = true.
  Hypothesis Hmul : 1 < B2R mul.
  Local Notation m := (f64_of_f32 mul).

  Lemma m_gt : 1 < B2R m.
  Proof. destruct (mul_R mul Hfin) as [_ ->]. auto. Qed.

  Lemma ln_m_low : bpow radix2 (-24) <= ln (B2R m).
  Proof.
    destruct (mul_R mul Hfin) as [_ E]. pose proof (above_1 mul Hfin Hmul) as Ha. rewrite <- E in Ha.
    set (x := B2R m) in *.
    assert (H23 : bpow radix2 (-23) = 2 * bpow radix2 (-24)).
    { change (-23)%Z with (1 + -24)%Z. rewrite bpow_plus. reflexivity. }
    assert (H24 : 0 < bpow radix2 (-24) < 1 / 4).
    { split; [apply bpow_gt_0|]. replace (1 / 4) with (bpow radix2 (-2)) by (cbn; lra). apply bpow_lt. lia. }
    set (u := bpow radix2 (-24)) in *.
    apply Rle_trans with (ln (1 + 2 * u)).
    - eapply Rle_trans; [|apply ln_ge_frac; lra]. apply Rmult_le_reg_r with (1 + 2 * u); [lra|].
      rewrite Rmult_minus_distr_r, Rinv_l by lra. nra.
    - destruct (Req_dec (1 + 2 * u) x) as [<-|Hne]; [lra|]. left. apply ln_increasing; lra.
  Qed.

  Lemma cr_up : pow_up cr_libm m.
  Proof.
    pose proof m_gt as Hm. split; cbn [powf64 cr_libm].
    - intros y Hy. split; apply cr_num; auto; lra.
    - intros x y Hxy.
      assert (Hnx : is_nan x = false /\ is_nan y = false).
      { destruct x as [| [] | |[]], y as [| [] | |[]]; auto; discriminate. }
      destruct Hnx as [Nx Ny]. apply (Bleb_X 53 1024) in Hxy; auto. pose proof (big_pos 1024) as Hb.
      assert (Hi : Rlt_bool (B2R m) 1 = false) by (apply Rlt_bool_false; lra).
      destruct (cr_num m x ltac:(lra) Nx) as (Px & _ & Bx), (cr_num m y ltac:(lra) Ny) as (Py & _ & By). apply (Bleb_X 53 1024); auto.
      destruct (is_finite x) eqn:Fx, (is_finite y) eqn:Fy.
      + rewrite !pow_fin by auto. destruct (of_R_spec (Rpower (B2R m) (B2R x))) as (_ & -> & _).
        destruct (of_R_spec (Rpower (B2R m) (B2R y))) as (_ & -> & _). apply sat_le, rnd_le64.
        rewrite !B2X_finite in Hxy by auto. apply Rle_Rpower; lra.
      + destruct y as [s| s | |]; try discriminate. destruct s; cbn [B2X] in Hxy; [pose proof (B2X_lt 53 1024 x Fx); lra|].
        cbn [cr_pow]. rewrite Hi. cbn [xorb B2X]. lra.
      + destruct x as [s| s | |]; try discriminate. destruct s; cbn [B2X] in Hxy; [|pose proof (B2X_lt 53 1024 y Fy); lra].
        cbn [cr_pow]. rewrite Hi. cbn [xorb B2X B2R]. lra.
      + destruct x as [s| s | |], y as [s'| s' | |]; try discriminate. cbn [cr_pow]. rewrite Hi.
        destruct s, s'; cbn [xorb B2X B2R] in *; lra.
    - intros s. rewrite pow_fin by reflexivity. cbn [B2R]. rewrite Rpower_O by lra. apply of_R_1.
  Qed.

  Lemma cr_log n : (1 <= n)%nat -> (Z.of_nat n <= 2 ^ 64)%Z -> log_ok cr_libm m n.
  Proof.
    intros Hn Hn64. pose proof m_gt as Hm. destruct (mul_R mul Hfin) as [Fm _]. destruct (usize_finite n Hn64) as [Fn En].
    pose proof (big_pos 1024) as Hb. pose proof ln_m_low as Hlm.
    assert (Hnf : 1 <= B2R (f64_of_usize n) <= bpow radix2 64).
    { rewrite En. split.
      - replace 1 with (rnd 1) by (apply (rnd_int 1); lia). apply rnd_le64. replace 1 with (INR 1) by reflexivity. now apply le_INR.
      - pose proof (pow64_small (Z.of_nat n) ltac:(lia)) as [_ H]. rewrite <- INR_IZR_INZ in H. exact H. }
    set (nf := B2R (f64_of_usize n)) in *. set (x := B2R m) in *.
    (* ln n *)
    assert (Hl2 : ln 2 <= 1) by (pose proof (ln_le_sub 2); lra).
    assert (Hln : 0 <= ln nf <= 64).
    { split.
      - destruct (Req_dec nf 1) as [->|Hne]; [rewrite ln_1; lra|]. left. rewrite <- ln_1. apply ln_increasing; lra.
      - apply Rle_trans with (ln (bpow radix2 64)).
        + destruct (Req_dec nf (bpow radix2 64)) as [->|Hne]; [lra|]. left. apply ln_increasing; lra.
        + rewrite bpow_powerRZ. change (IZR (radix_val radix2)) with 2. rewrite powerRZ_Rpower by lra. unfold Rpower. rewrite ln_exp.
          change (IZR 64) with 64. lra. }
    assert (Hrn : 0 <= rnd (ln nf) <= 64).
    { split.
      - replace 0 with (rnd 0) by (apply round_0; auto with typeclass_instances). apply rnd_le64. lra.
      - replace 64 with (rnd 64) by (apply (rnd_int 64); lia). apply rnd_le64. lra. }
    assert (H64 : 64 < big). { change 64 with (bpow radix2 6). apply bpow_lt. lia. }
    (* ln m *)
    assert (H1000 : bpow radix2 (-1000) <= bpow radix2 (-24)) by (apply bpow_le; lia).
    pose proof (bpow_gt_0 radix2 (-24)) as H24.
    assert (Hr2 : ln x / 2 <= rnd (ln x) <= 2 * ln x) by (apply rnd_2; lra).
    assert (Hmb : ln x < bpow radix2 1022).
    { pose proof (ln_le_sub x ltac:(lra)) as Hls. destruct (mul_R mul Hfin) as [_ E]. 
      pose proof (B2X_lt 24 128 mul Hfin) as Hx. rewrite B2X_finite in Hx by auto. fold x in E. rewrite <- E in Hx.
      assert (bpow radix2 128 <= bpow radix2 1022) by (apply bpow_le; lia). lra. }
    assert (Hmb2 : 2 * ln x < big).
    { apply Rlt_le_trans with (bpow radix2 1023); [|apply bpow_le; lia]. replace 1023%Z with (1 + 1022)%Z by reflexivity. rewrite bpow_plus.
      change (bpow radix2 1) with 2. lra. }
    destruct (of_R_fin (ln nf)) as [F1 V1]; [lra|]. destruct (of_R_fin (ln x)) as [F2 V2]; [lra|].
    (* the quotient *)
    assert (Hq : is_finite (log64 cr_libm (f64_of_usize n) m) = true /\
                 0 <= B2R (log64 cr_libm (f64_of_usize n) m) <= 256 / ln x).
    { unfold log64, cr_libm, ln64, cr_ln. rewrite Fn, Fm. fold nf x.
      assert (Hne : B2R (f64_of_R (ln x)) <> 0) by (rewrite V2; intro; lra).
      destruct (div_X 53 1024 _ _ F1 F2 Hne) as [N V]. rewrite V1, V2 in V.
      assert (Hq0 : 0 <= rnd (ln nf) / rnd (ln x) <= 128 / ln x).
      { split; [apply Rmult_le_pos; [lra|left; apply Rinv_0_lt_compat; lra]|].
        unfold Rdiv. apply Rle_trans with (64 * / rnd (ln x)).
        - apply Rmult_le_compat_r; [left; apply Rinv_0_lt_compat; lra|lra].
        - replace (128 * / ln x) with (64 * / (ln x / 2)) by (field; lra). apply Rmult_le_compat_l; [lra|]. apply Rinv_le; lra. }
      assert (Hqr : 0 <= rnd (rnd (ln nf) / rnd (ln x)) <= 256 / ln x).
      { split.
        - replace 0 with (rnd 0) by (apply round_0; auto with typeclass_instances). apply rnd_le64. lra.
        - assert (H128 : bpow radix2 (-1000) <= 128 / ln x).
          { apply Rmult_le_reg_r with (ln x); [lra|]. unfold Rdiv. rewrite Rmult_assoc, Rinv_l by lra.
            assert (bpow radix2 (-1000) * ln x <= 1); [|lra].
            destruct (mul_R mul Hfin) as [_ E]. pose proof (B2X_lt 24 128 mul Hfin) as Hx. rewrite B2X_finite in Hx by auto. fold x in E. rewrite <- E in Hx.
            pose proof (ln_le_sub x ltac:(lra)) as Hls. pose proof (bpow_gt_0 radix2 (-1000)) as H0.
            apply Rle_trans with (bpow radix2 (-1000) * bpow radix2 128); [apply Rmult_le_compat_l; lra|].
            rewrite <- bpow_plus. change 1 with (bpow radix2 0). apply bpow_le. lia. }
          pose proof (rnd_2 _ H128) as [_ Hr]. apply Rle_trans with (rnd (128 / ln x)); [apply rnd_le64; lra|].
          replace (256 / ln x) with (2 * (128 / ln x)) by (field; lra). lra. }
      assert (Hsm : 256 / ln x < big).
      { apply Rle_lt_trans with (256 / bpow radix2 (-24)).
        - unfold Rdiv. apply Rmult_le_compat_l; [lra|]. apply Rinv_le; lra.
        - unfold Rdiv. rewrite <- bpow_opp. change 256 with (bpow radix2 8). rewrite <- bpow_plus. apply bpow_lt. lia. }
      rewrite sat_id in V by lra. change (Bdiv mode_NE) with f64_div in *.
      assert (Ff : is_finite (f64_div (f64_of_R (ln nf)) (f64_of_R (ln x))) = true) by (apply X_finite; [exact N|rewrite V; lra]).
      split; auto. rewrite B2X_finite in V by exact Ff. rewrite V. lra. }
    destruct Hq as [Fq Bq].
    destruct (near_R 53 1024 mode_DN _ Fq) as [Fk Vk]. cbn [round_mode] in Vk.
    assert (Hk : 0 <= B2R (layer_exponent cr_libm n m) <= 256 / ln x).
    { unfold layer_exponent, f64_floor. rewrite Vk. split.
      - apply (IZR_le 0). apply Zfloor_lub. apply Bq.
      - eapply Rle_trans; [apply Zfloor_lb|]. apply Bq. }
    change (is_finite (layer_exponent cr_libm n m) = true) in Fk.
    split.
    - exact Fk.
    - apply (Bleb_X 53 1024); auto; [change (is_finite (layer_exponent cr_libm n m) = true) in Fk; destruct (layer_exponent cr_libm n m); auto; discriminate|]. rewrite (B2X_finite 53 1024 _ Fk). apply Hk.
    - cbn [powf64 cr_libm]. rewrite pow_fin by exact Fk. fold x.
      set (kr := B2R (layer_exponent cr_libm n m)) in *.
      assert (Hpw : 0 < Rpower x kr <= exp 256).
      { unfold Rpower. split; [apply exp_pos|]. 
        assert (Hle : kr * ln x <= 256).
        { apply Rle_trans with (256 / ln x * ln x); [apply Rmult_le_compat_r; lra|]. right. field. lra. }
        destruct Hle as [Hl|He]; [left; now apply exp_increasing|right; now rewrite He]. }
      assert (Hrp : 0 <= rnd (Rpower x kr) <= bpow radix2 1023).
      { split.
        - replace 0 with (rnd 0) by (apply round_0; auto with typeclass_instances). apply rnd_le64. lra.
        - replace (bpow radix2 1023) with (rnd (bpow radix2 1023)).
          2:{ apply round_generic; auto with typeclass_instances. apply generic_format_bpow. vm_compute. discriminate. }
          apply rnd_le64. pose proof exp_256'. lra. }
      assert (bpow radix2 1023 < big) by (apply bpow_lt; lia).
      destruct (of_R_fin (Rpower x kr)) as [F V]; auto. lra.
  Qed.
End Cr.

(** multipliers below 1 *)
Section CrSmall.
  Variable mul : f32.
  Hypothesis Hfin : is_finite mul = true.
  Hypothesis Hmul : 0 < B2R mul < 1.
  Local Notation m := (f64_of_f32 mul).

  Lemma cr_down : pow_down cr_libm m.
  Proof.
    assert (Hm : 0 < B2R m < 1) by (destruct (mul_R mul Hfin) as [_ ->]; auto). split; cbn [powf64 cr_libm].
    - intros y Hy. split; apply cr_num; auto; lra.
    - intros x y Hxy.
      assert (Hnx : is_nan x = false /\ is_nan y = false).
      { destruct x as [| [] | |[]], y as [| [] | |[]]; auto; discriminate. }
      destruct Hnx as [Nx Ny]. apply (Bleb_X 53 1024) in Hxy; auto. pose proof (big_pos 1024) as Hb.
      assert (Hi : Rlt_bool (B2R m) 1 = true) by (apply Rlt_bool_true; lra).
      destruct (cr_num m x ltac:(lra) Nx) as (Px & _ & Bx), (cr_num m y ltac:(lra) Ny) as (Py & _ & By). apply (Bleb_X 53 1024); auto.
      destruct (is_finite x) eqn:Fx, (is_finite y) eqn:Fy.
      + rewrite !pow_fin by auto. destruct (of_R_spec (Rpower (B2R m) (B2R x))) as (_ & -> & _).
        destruct (of_R_spec (Rpower (B2R m) (B2R y))) as (_ & -> & _). apply sat_le, rnd_le64.
        rewrite !B2X_finite in Hxy by auto. unfold Rpower.
        assert (Hl : ln (B2R m) < 0) by (rewrite <- ln_1; apply ln_increasing; lra).
        assert (Hle : B2R y * ln (B2R m) <= B2R x * ln (B2R m)) by nra.
        destruct Hle as [H|H]; [left; now apply exp_increasing|right; now rewrite H].
      + destruct y as [s| s | |]; try discriminate. destruct s; cbn [B2X] in Hxy; [pose proof (B2X_lt 53 1024 x Fx); lra|].
        cbn [cr_pow]. rewrite Hi. cbn [xorb B2X B2R]. lra.
      + destruct x as [s| s | |]; try discriminate. destruct s; cbn [B2X] in Hxy; [|pose proof (B2X_lt 53 1024 y Fy); lra].
        cbn [cr_pow]. rewrite Hi. cbn [xorb B2X B2R]. lra.
      + destruct x as [s| s | |], y as [s'| s' | |]; try discriminate. cbn [cr_pow]. rewrite Hi.
        destruct s, s'; cbn [xorb B2X B2R] in *; lra.
  Qed.
End CrSmall.

(** a half *)
Definition half32 : f32 := @B754_finite 24 128 false 8388608 (-24) eq_refl.
Lemma half_R : B2R half32 = 1 / 2.
Proof. unfold half32, B2R, F2R, Fnum, Fexp. cbn [cond_Zopp]. change (bpow radix2 (-24)) with (/ 16777216). lra. Qed.

Lemma ln2_bounds : 1 / 2 <= ln 2 <= 1.
Proof. pose proof (ln_le_sub 2 ltac:(lra)). pose proof (ln_ge_frac 2 ltac:(lra)). lra. Qed.

Lemma cr_half_exp n : (1 <= n)%nat -> (Z.of_nat n <= 2 ^ 64)%Z ->
  is_finite (layer_exponent cr_libm n (f64_of_f32 half32)) = true /\
  B2R (layer_exponent cr_libm n (f64_of_f32 half32)) = IZR (Zfloor (rnd (rnd (ln (B2R (f64_of_usize n))) / - rnd (ln 2)))) /\
  -128 <= B2R (layer_exponent cr_libm n (f64_of_f32 half32)) <= 0.
Proof.
  intros Hn Hn64. destruct (mul_R half32 eq_refl) as [Fm Em]. rewrite half_R in Em.
  destruct (usize_finite n Hn64) as [Fn En]. destruct (nf_fin n Hn Hn64) as [_ Hn1].
  pose proof ln2_bounds as Hl2. pose proof one_big as H1b. pose proof (big_pos 1024) as Hb.
  assert (Eln : ln (1 / 2) = - ln 2) by (replace (1 / 2) with (/ 2) by lra; apply ln_Rinv; lra).
  assert (Hr : 1 / 2 <= rnd (ln 2) <= 1).
  { split.
    - replace (1 / 2) with (rnd (1 / 2)). { apply rnd_le64. lra. }
      apply round_generic; auto with typeclass_instances. replace (1 / 2) with (bpow radix2 (-1)) by (cbn; lra).
      apply generic_format_bpow. vm_compute. discriminate.
    - replace 1 with (rnd 1) by (apply (rnd_int 1); lia). apply rnd_le64. lra. }
  assert (Ho : rnd (- ln 2) = - rnd (ln 2)) by apply round_NE_opp.
  assert (Hnf : B2R (f64_of_usize n) <= bpow radix2 64).
  { rewrite En. pose proof (pow64_small (Z.of_nat n) ltac:(lia)) as [_ H]. rewrite <- INR_IZR_INZ in H. exact H. }
  set (nf := B2R (f64_of_usize n)) in *.
  assert (Hln : 0 <= ln nf <= 64).
  { split.
    - destruct (Req_dec nf 1) as [->|Hne]; [rewrite ln_1; lra|]. left. rewrite <- ln_1. apply ln_increasing; lra.
    - apply Rle_trans with (ln (bpow radix2 64)).
      + destruct (Req_dec nf (bpow radix2 64)) as [->|Hne]; [lra|]. left. apply ln_increasing; lra.
      + rewrite bpow_powerRZ. change (IZR (radix_val radix2)) with 2. rewrite powerRZ_Rpower by lra. unfold Rpower. rewrite ln_exp.
        change (IZR 64) with 64. lra. }
  assert (Hrn : 0 <= rnd (ln nf) <= 64).
  { split.
    - replace 0 with (rnd 0) by (apply round_0; auto with typeclass_instances). apply rnd_le64. lra.
    - replace 64 with (rnd 64) by (apply (rnd_int 64); lia). apply rnd_le64. lra. }
  assert (H64 : 128 < big). { change 128 with (bpow radix2 7). apply bpow_lt. lia. }
  destruct (of_R_fin (ln nf)) as [F1 V1]; [lra|]. destruct (of_R_fin (- ln 2)) as [F2 V2]; [lra|].
  set (q := rnd (ln nf) / - rnd (ln 2)).
  assert (Hq0 : -128 <= q <= 0).
  { unfold q. replace (rnd (ln nf) / - rnd (ln 2)) with (- (rnd (ln nf) / rnd (ln 2))) by (field; lra).
    assert (0 <= rnd (ln nf) / rnd (ln 2) <= 128); [|lra]. split.
    - apply Rmult_le_pos; [lra|left; apply Rinv_0_lt_compat; lra].
    - apply Rmult_le_reg_r with (rnd (ln 2)); [lra|]. unfold Rdiv. rewrite Rmult_assoc, Rinv_l by lra. lra. }
  assert (Hqr : -128 <= rnd q <= 0).
  { split.
    - replace (-128) with (rnd (-128)) by (apply (rnd_int (-128)); lia). apply rnd_le64. lra.
    - replace 0 with (rnd 0) at 1 by (apply round_0; auto with typeclass_instances). apply rnd_le64. lra. }
  assert (Hq : is_finite (log64 cr_libm (f64_of_usize n) (f64_of_f32 half32)) = true /\
               B2R (log64 cr_libm (f64_of_usize n) (f64_of_f32 half32)) = rnd q).
  { unfold log64, cr_libm, ln64, cr_ln. rewrite Fn, Fm, Em, Eln. fold nf.
    assert (Hne : B2R (f64_of_R (- ln 2)) <> 0) by (rewrite V2; intro; lra).
    destruct (div_X 53 1024 _ _ F1 F2 Hne) as [N V]. rewrite V1, V2, Ho in V. fold q in V.
    rewrite sat_id in V by lra. change (Bdiv mode_NE) with f64_div in *.
    assert (Ff : is_finite (f64_div (f64_of_R (ln nf)) (f64_of_R (- ln 2))) = true) by (apply X_finite; [exact N|rewrite V; lra]).
    split; auto. now rewrite B2X_finite in V by exact Ff. }
  destruct Hq as [Fq Vq]. destruct (near_R 53 1024 mode_DN _ Fq) as [Fk Vk]. cbn [round_mode] in Vk.
  rewrite Vq in Vk. change (Bnearbyint mode_DN) with f64_floor in *. unfold layer_exponent.
  split; auto. split; auto. rewrite Vk. split.
  - apply (IZR_le (-128)). apply Zfloor_lub. lra.
  - eapply Rle_trans; [apply Zfloor_lb|lra].
Qed.

Lemma half_fin n : (1 <= n)%nat -> (Z.of_nat n <= 2 ^ 64)%Z -> log_fin cr_libm (f64_of_f32 half32) n.
Proof.
  intros Hn Hn64. destruct (cr_half_exp n Hn Hn64) as (Fk & _ & Hk). split; auto. cbn [powf64 cr_libm].
  destruct (mul_R half32 eq_refl) as [Fm Em]. rewrite half_R in Em. rewrite (pow_fin _ _ Fk), Em.
  set (y := B2R _) in *.
  assert (Hp : Rpower (1 / 2) y = Rpower 2 (- y)).
  { unfold Rpower. f_equal. replace (1 / 2) with (/ 2) by lra. rewrite ln_Rinv by lra. ring. }
  assert (Hle : 0 < Rpower (1 / 2) y <= bpow radix2 128).
  { split; [apply exp_pos|]. rewrite Hp. rewrite bpow_powerRZ. change (IZR (radix_val radix2)) with 2. rewrite powerRZ_Rpower by lra.
    apply Rle_Rpower; [lra|]. change (IZR 128) with 128. lra. }
  assert (H128 : rnd (bpow radix2 128) = bpow radix2 128).
  { apply round_generic; auto with typeclass_instances. apply generic_format_bpow. vm_compute. discriminate. }
  assert (Hb : bpow radix2 128 < big) by (apply bpow_lt; lia).
  pose proof (big_pos 1024). apply of_R_fin. split.
  - apply Rlt_le_trans with 0; [lra|]. replace 0 with (rnd 0) by (apply round_0; auto with typeclass_instances). apply rnd_le64. lra.
  - eapply Rle_lt_trans; [|exact Hb]. rewrite <- H128. apply rnd_le64. lra.
Qed.

Lemma half_log : log_small cr_libm (f64_of_f32 half32) 2.
Proof.
  destruct (cr_half_exp 2) as (Fk & Vk & _); [lia|lia|]. 
  destruct (usize_finite 2) as [Fn En]; [lia|]. assert (En' : B2R (f64_of_usize 2) = 2).
  { rewrite En. replace (INR 2) with (IZR 2) by (cbn; lra). apply rnd_int. lia. }
  destruct (mul_R half32 eq_refl) as [Fm Em]. rewrite half_R in Em.
  assert (Hr : 1 / 2 <= rnd (ln 2)).
  { pose proof ln2_bounds as Hl2. replace (1 / 2) with (rnd (1 / 2)). { apply rnd_le64. lra. }
    apply round_generic; auto with typeclass_instances. replace (1 / 2) with (bpow radix2 (-1)) by (cbn; lra).
    apply generic_format_bpow. vm_compute. discriminate. }
  rewrite En' in Vk. replace (rnd (ln 2) / - rnd (ln 2)) with (IZR (-1)) in Vk.
  2:{ change (IZR (-1)) with (-1). field. lra. }
  rewrite (rnd_int (-1)), Zfloor_IZR in Vk by lia.
  assert (Hp : is_finite (cr_pow (f64_of_f32 half32) (layer_exponent cr_libm 2 (f64_of_f32 half32))) = true /\
               B2R (cr_pow (f64_of_f32 half32) (layer_exponent cr_libm 2 (f64_of_f32 half32))) = 2).
  { rewrite (pow_fin _ _ Fk), Vk, Em.
    assert (Ep : Rpower (1 / 2) (-1) = 2).
    { replace (-1) with (- (1)) by lra. rewrite Rpower_Ropp, Rpower_1 by lra. lra. }
    rewrite Ep. assert (E2 : rnd 2 = 2) by (apply (rnd_int 2); lia).
    destruct (of_R_fin 2) as [F V]. { rewrite E2. assert (2 < big) by (change 2 with (bpow radix2 1); apply bpow_lt; lia). lra. }
    split; auto. now rewrite V. }
  destruct Hp as [Fp Vp]. unfold log_small. cbn [powf64 cr_libm].
  rewrite Bleb_correct by auto. apply Rle_bool_true. rewrite En', Vp. lra.
Qed.
