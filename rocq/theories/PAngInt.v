(** * The distance of int8 vectors *)
From Coq Require Import ZArith Reals Lra Lia Psatz.
From Flocq Require Import Core Relative IEEE754.BinarySingleNaN.
From Verif Require Import Base BaseFacts MFloat MAngular SAngular PF32.
Close Scope R_scope.
Open Scope Z_scope.
Set Implicit Arguments. Unset Strict Implicit.

(** ** Integer sums *)
Lemma zdot_sym x : forall y, zdot x y = zdot y x.
Proof. induction x as [|a x IH]; intros [|b y]; cbn; auto. rewrite IH. lia. Qed.

Lemma sq_nonneg (a : Z) : 0 <= a * a. Proof. nia. Qed.
Arguments sq_nonneg a : clear implicits.
Lemma zdot_nonneg x : 0 <= zdot x x.
Proof. induction x as [|a x IH]; cbn; [lia|]. pose proof (sq_nonneg a). lia. Qed.
Arguments zdot_nonneg x : clear implicits.
Lemma zdot_zero x : zdot x x = 0 <-> zero_vec x.
Proof.
  unfold zero_vec. induction x as [|a x IH]; cbn; [split; auto|]. pose proof (sq_nonneg a). pose proof (zdot_nonneg x). split.
  - intros H1. constructor; [nia|]. apply IH. lia.
  - intros H1. inversion H1 as [|? ? H2 H3]; subst. apply IH in H3. lia.
Qed.
Lemma zero_dot x : zero_vec x -> forall y, zdot x y = 0.
Proof. induction 1 as [|a x Ha _ IH]; intros [|b y]; cbn; auto. subst a. rewrite IH. lia. Qed.

(** the norms as the kernel computes them, over the common prefix *)
Definition pre (x y : list Z) : list Z := firstn (length y) x.

Lemma lin_sq x : forall y a b, length x = length y ->
  0 <= a * a * zdot x x - 2 * a * b * zdot x y + b * b * zdot y y.
Proof.
  induction x as [|p x IH]; intros [|q y] a b H; cbn [zdot length] in *; try lia.
  specialize (IH y a b ltac:(lia)). pose proof (sq_nonneg (a * p - b * q)) as Hs.
  replace (a * a * (p * p + zdot x x) - 2 * a * b * (p * q + zdot x y) + b * b * (q * q + zdot y y))
    with ((a * p - b * q) * (a * p - b * q) + (a * a * zdot x x - 2 * a * b * zdot x y + b * b * zdot y y)) by ring. apply Z.add_nonneg_nonneg; assumption.
Qed.
Lemma cauchy x y : length x = length y -> zdot x y * zdot x y <= zdot x x * zdot y y.
Proof.
  intros H. pose proof (@lin_sq x y (zdot y y) (zdot x y) H) as L. pose proof (zdot_nonneg x) as HX. pose proof (zdot_nonneg y) as HY.
  set (X := zdot x x) in *. set (Y := zdot y y) in *. set (R := zdot x y) in *.
  replace (Y * Y * X - 2 * Y * R * R + R * R * Y) with (Y * (X * Y - R * R)) in L by ring.
  destruct (Z.eq_dec Y 0) as [E|E].
  - assert (zero_vec y) by (now apply zdot_zero). unfold R. rewrite zdot_sym, zero_dot by auto. nia.
  - nia.
Qed.

(** ** The kernel *)
Lemma i32_add_ok m a b : - 2 ^ 31 <= a + b < 2 ^ 31 -> i32_add m a b = Ok (a + b).
Proof. intros H. unfold i32_add, i32_ok. rewrite (proj2 (Z.leb_le _ _)), (proj2 (Z.ltb_lt _ _)) by lia. reflexivity. Qed.

Lemma sq_bound a : -128 <= a <= 127 -> 0 <= a * a <= 16384. Proof. nia. Qed.
Lemma mul_bound a b : -128 <= a <= 127 -> -128 <= b <= 127 -> -16384 <= a * b <= 16384. Proof. nia. Qed.

Lemma kernel_fold m x : forall y k r dx dy, i8s x -> i8s y -> length x = length y ->
  Z.of_nat (length x) + k <= 131071 -> 0 <= k -> Z.abs r <= 16384 * k -> 0 <= dx <= 16384 * k -> 0 <= dy <= 16384 * k ->
  ofold (fun acc p =>
           let '(r, dx, dy) := acc in let '(xi, yi) := p in
           let* r := i32_add m r (xi * yi) in
           let* dx := i32_add m dx (xi * xi) in
           let* dy := i32_add m dy (yi * yi) in
           Ok (r, dx, dy)) (combine x y) (r, dx, dy) = Ok (r + zdot x y, dx + zdot x x, dy + zdot y y) /\
  Z.abs (r + zdot x y) <= 16384 * 131071 /\ 0 <= dx + zdot x x <= 16384 * 131071 /\ 0 <= dy + zdot y y <= 16384 * 131071.
Proof.
  induction x as [|a x IH]; intros [|b y] k r dx dy Hx Hy Hl Hk Hk0 Hr Hdx Hdy; cbn [length] in Hl; try lia.
  - cbn [combine ofold zdot]. cbn [length] in Hk. rewrite !Z.add_0_r. split; [reflexivity|]. lia.
  - inversion Hx as [|? ? Ha Hx']; subst. inversion Hy as [|? ? Hb Hy']; subst. cbn [length] in Hk.
    pose proof (sq_bound Ha). pose proof (sq_bound Hb). pose proof (mul_bound Ha Hb).
    cbn [combine ofold]. rewrite !i32_add_ok by lia. cbn [obind].
    destruct (IH y (k + 1) (r + a * b) (dx + a * a) (dy + b * b)) as (E & B1 & B2 & B3); auto; try lia.
    rewrite E. cbn [zdot]. rewrite !Z.add_assoc. auto.
Qed.

Lemma kernel_ok m x y : i8s x -> i8s y -> length x = length y -> Z.of_nat (length x) <= 131071 ->
  dot_norms_i8 m x y = Ok (zdot x y, zdot x x, zdot y y) /\
  Z.abs (zdot x y) < 2 ^ 31 /\ zdot x x < 2 ^ 31 /\ zdot y y < 2 ^ 31.
Proof.
  intros Hx Hy Hl Hn. destruct (@kernel_fold m x y 0 0 0 0) as (E & B1 & B2 & B3); auto; try lia.
  unfold dot_norms_i8. rewrite E. rewrite !Z.add_0_l in *. split; [reflexivity|]. lia.
Qed.

(** ** The float part *)
Open Scope R_scope.
Section Acc.
  Variables (r X Y : Z).
  Hypothesis (HX : (0 < X < 2 ^ 31)%Z) (HY : (0 < Y < 2 ^ 31)%Z) (Hr : (r * r <= X * Y)%Z).
  Let c := IZR r / (sqrt (IZR X) * sqrt (IZR Y)).
  Let u := u32.

  Lemma X1 : 1 <= IZR X <= 2147483648. Proof. split; [apply (IZR_le 1)|apply (IZR_le _ 2147483648)]; lia. Qed.
  Lemma Y1 : 1 <= IZR Y <= 2147483648. Proof. split; [apply (IZR_le 1)|apply (IZR_le _ 2147483648)]; lia. Qed.
  Lemma r31 : (Z.abs r < 2 ^ 31)%Z.
  Proof. nia. Qed.

  Lemma c_bound : Rabs c <= 1.
  Proof.
    pose proof X1. pose proof Y1. unfold c. rewrite <- sqrt_mult by lra.
    assert (H1 : 1 <= sqrt (IZR X * IZR Y)) by (rewrite <- sqrt_1; apply sqrt_le_1; nra).
    unfold Rdiv. rewrite Rabs_mult, Rabs_inv. rewrite (Rabs_pos_eq (sqrt _)) by lra.
    apply Rmult_le_reg_r with (sqrt (IZR X * IZR Y)); [lra|]. rewrite Rmult_assoc, Rinv_l, Rmult_1_r, Rmult_1_l by lra.
    rewrite <- (sqrt_Rsqr (Rabs (IZR r))) by apply Rabs_pos. apply sqrt_le_1; [apply Rle_0_sqr|nra|].
    rewrite <- Rsqr_abs. unfold Rsqr. rewrite <- !mult_IZR. now apply IZR_le.
  Qed.

  (** one square root *)
  Lemma sqrt_part Z' : (0 < Z' < 2 ^ 31)%Z ->
    exists s, is_finite (f32_sqrt (f32_of_Z Z')) = true /\
      B2R (f32_sqrt (f32_of_Z Z')) = sqrt (IZR Z') * s /\ (1 - u) * (1 - u) <= s <= (1 + u) * (1 + u) /\
      1 <= sqrt (IZR Z') <= 65536.
  Proof.
    intros Hz. assert (Hz1 : 1 <= IZR Z' <= 2147483648) by (split; [apply (IZR_le 1)|apply (IZR_le _ 2147483648)]; lia).
    pose proof u32_pos as Hu. fold u in Hu.
    destruct (@ofZ_R Z') as (Hf & _ & e & He & E); [lia|]. apply Rabs_le_inv in He. fold u in He.
    assert (Hp : 0 < B2R (f32_of_Z Z')) by (rewrite E; nra).
    destruct (sqrt_finite _ Hf Hp) as (Hsf & Hs).
    assert (S1 : 1 <= sqrt (IZR Z') <= 65536).
    { split; [rewrite <- sqrt_1; apply sqrt_le_1; lra|].
      apply Rle_trans with (sqrt (65536 * 65536)); [apply sqrt_le_1; lra|]. rewrite sqrt_square by lra. lra. }
    assert (S2 : 1 - u <= sqrt (1 + e) <= 1 + u).
    { split.
      - rewrite <- (sqrt_square (1 - u)) by lra. apply sqrt_le_1; nra.
      - rewrite <- (sqrt_square (1 + u)) by lra. apply sqrt_le_1; nra. }
    rewrite E in Hs. rewrite sqrt_mult in Hs by lra.
    destruct (rel32 (sqrt (IZR Z') * sqrt (1 + e))) as (f & Hff & Ef).
    { apply Rle_trans with (/ 2); [change (/2) with (bpow radix2 (-1)); apply bpow_le; lia|]. rewrite Rabs_pos_eq by nra. nra. }
    apply Rabs_le_inv in Hff. fold u in Hff.
    exists (sqrt (1 + e) * (1 + f)). split; [exact Hsf|]. split; [rewrite Hs, Ef; ring|]. split; [split; nra|exact S1].
  Qed.

  Lemma quotient : exists f,
    let q := f32_div (f32_of_Z r) (f32_mul (f32_sqrt (f32_of_Z X)) (f32_sqrt (f32_of_Z Y))) in
    is_finite q = true /\ B2R q = c * f /\ 1 - 8 * u <= f <= 1 + 8 * u.
  Proof.
    pose proof u32_pos as Hu. fold u in Hu. pose proof big32_gt as Hbig.
    destruct (sqrt_part HX) as (s & Fs & Es & Bs & SX). destruct (sqrt_part HY) as (t & Ft & Et & Bt & SY).
    pose proof r31 as Hr31.
    destruct (@ofZ_R r) as (Fr & _ & a & Ha & Er); [lia|]. apply Rabs_le_inv in Ha. fold u in Ha.
    set (S := f32_sqrt (f32_of_Z X)) in *. set (T := f32_sqrt (f32_of_Z Y)) in *.
    set (sx := sqrt (IZR X)) in *. set (sy := sqrt (IZR Y)) in *.
    assert (s4 : 1 - 2 * u <= s <= 1 + 3 * u) by (split; nra).
    assert (t4 : 1 - 2 * u <= t <= 1 + 3 * u) by (split; nra).
    assert (Hxy : 1 <= sx * sy <= 4294967296) by (split; nra).
    assert (Hst : / 2 <= s * t <= 2) by (split; nra).
    assert (Pval : B2R S * B2R T = sx * sy * (s * t)) by (rewrite Es, Et; ring).
    destruct (rel32 (B2R S * B2R T)) as (p & Hp & Ep).
    { rewrite Pval. apply Rle_trans with (/ 2); [change (/2) with (bpow radix2 (-1)); apply bpow_le; lia|]. rewrite Rabs_pos_eq by nra. nra. }
    apply Rabs_le_inv in Hp. fold u in Hp.
    assert (Pb : / 4 <= sx * sy * (s * t) * (1 + p) <= 4294967296 * 4).
    { assert (Hm : / 2 <= sx * sy * (s * t) <= 4294967296 * 2).
      { split; [replace (/ 2) with (1 * / 2) by ring|]; apply Rmult_le_compat; lra. }
      assert (Hp1 : / 2 <= 1 + p <= 2) by lra.
      split; [replace (/ 4) with (/ 2 * / 2) by lra|replace (4294967296 * 4) with (4294967296 * 2 * 2) by ring]; apply Rmult_le_compat; lra. }
    destruct (@mul_finite S T Fs Ft) as (Fp & EP).
    { rewrite Ep, Pval. rewrite Rabs_pos_eq by lra. lra. }
    rewrite Ep, Pval in EP. set (P := f32_mul S T) in *.
    (* the factor before the last rounding *)
    set (g := (1 + a) / (s * t * (1 + p))).
    assert (Hg0 : 0 < s * t * (1 + p)) by nra.
    assert (Eq : B2R (f32_of_Z r) / B2R P = c * g).
    { rewrite Er, EP. unfold c, g. field. repeat split; nra. }
    assert (Hst2 : 1 - 4 * u <= s * t <= 1 + 4 * u + 7 * u * u).
    { unfold u, u32 in *. split.
      - apply Rle_trans with ((1 - / 16777216) * (1 - / 16777216) * ((1 - / 16777216) * (1 - / 16777216))); [lra|]. apply Rmult_le_compat; lra.
      - apply Rle_trans with ((1 + / 16777216) * (1 + / 16777216) * ((1 + / 16777216) * (1 + / 16777216))); [|lra]. apply Rmult_le_compat; lra. }
    assert (Hden : 1 - 5 * u <= s * t * (1 + p) <= 1 + 5 * u + 12 * u * u).
    { unfold u, u32 in *. split.
      - apply Rle_trans with ((1 - 4 * / 16777216) * (1 - / 16777216)); [lra|]. apply Rmult_le_compat; lra.
      - apply Rle_trans with ((1 + 4 * / 16777216 + 7 * / 16777216 * / 16777216) * (1 + / 16777216)); [|lra]. apply Rmult_le_compat; lra. }
    assert (Hg : 1 - 6 * u - 36 * u * u <= g <= 1 + 6 * u + 60 * u * u).
    { set (D := s * t * (1 + p)) in *. clearbody D.
      assert (Eg : g * D = 1 + a) by (unfold g; field; lra).
      unfold u, u32 in *. split.
      - apply Rmult_le_reg_r with D; [lra|]. rewrite Eg. lra.
      - apply Rmult_le_reg_r with D; [lra|]. rewrite Eg. lra. }
    pose proof c_bound as Hc. apply Rabs_le_inv in Hc.
    destruct (Z.eq_dec r 0) as [E0|E0].
    - assert (c0 : c = 0) by (unfold c; rewrite E0; unfold Rdiv; ring).
      exists 1. cbv zeta. destruct (@div_finite (f32_of_Z r) P Fr) as (Fq & EQ).
      + rewrite EP. lra.
      + rewrite Eq, c0, Rmult_0_l, rnd32_0, Rabs_R0. lra.
      + split; [exact Fq|]. split; [|lra]. rewrite EQ, Eq, c0, !Rmult_0_l. apply rnd32_0.
    - destruct (rel32 (c * g)) as (h & Hh & Eh).
      { assert (Hc1 : / 4294967296 <= Rabs c).
        { unfold c, Rdiv. rewrite Rabs_mult, Rabs_inv, (Rabs_pos_eq (sx * sy)) by lra. rewrite <- abs_IZR.
          assert (1 <= IZR (Z.abs r)) by (apply (IZR_le 1); lia).
          assert (/ 4294967296 <= / (sx * sy)) by (apply Rinv_le; lra).
          assert (0 < / (sx * sy)) by (apply Rinv_0_lt_compat; lra). nra. }
        rewrite Rabs_mult, (Rabs_pos_eq g) by nra.
        apply Rle_trans with (/ 8589934592); [change (/8589934592) with (bpow radix2 (-33)); apply bpow_le; lia|].
        assert (/ 2 <= g) by nra. nra. }
      apply Rabs_le_inv in Hh. fold u in Hh.
      exists (g * (1 + h)). cbv zeta.
      assert (Hgh : 1 - 8 * u <= g * (1 + h) <= 1 + 8 * u).
      { clear - Hg Hh. unfold u, u32 in *. split.
        - apply Rle_trans with ((1 - 7 * / 16777216) * (1 - / 16777216)); [lra|]. apply Rmult_le_compat; lra.
        - apply Rle_trans with ((1 + 6.5 * / 16777216) * (1 + / 16777216)); [|lra]. apply Rmult_le_compat; lra. }
      destruct (@div_finite (f32_of_Z r) P Fr) as (Fq & EQ).
      + rewrite EP. lra.
      + rewrite Eq, Eh. rewrite Rmult_assoc. apply Rle_lt_trans with 2; [|lra]. rewrite Rabs_mult.
        replace 2 with (1 * 2) by ring. apply Rmult_le_compat; try apply Rabs_pos; apply Rabs_le; lra.
      + split; [exact Fq|]. split; [rewrite EQ, Eq, Eh; ring|exact Hgh].
  Qed.

  (** the result *)
  Lemma dist_acc :
    let q := f32_div (f32_of_Z r) (f32_mul (f32_sqrt (f32_of_Z X)) (f32_sqrt (f32_of_Z Y))) in
    is_nan q = false /\ is_finite (f32_sub f32_one q) = true /\
    Rabs (B2R (f32_sub f32_one q) - (1 - c)) <= 11 * u.
  Proof.
    destruct quotient as (f & Fq & Eq & Hf). cbv zeta in *.
    set (q := f32_div _ _) in *. pose proof c_bound as Hc. apply Rabs_le_inv in Hc.
    pose proof u32_pos as Hu. fold u in Hu. pose proof big32_gt as Hbig.
    assert (Hq : - (8 * u) <= B2R q - c <= 8 * u).
    { rewrite Eq. apply Rabs_le_inv. replace (c * f - c) with (c * (f - 1)) by ring. rewrite Rabs_mult.
      replace (8 * u) with (1 * (8 * u)) by ring. apply Rmult_le_compat; try apply Rabs_pos; apply Rabs_le; lra. }
    split; [destruct q; auto; discriminate|].
    destruct one_R as [F1 E1].
    destruct (abs32 (B2R f32_one - B2R q)) as (e & h & He & Hh & E).
    apply Rabs_le_inv in He. fold u in He. apply Rabs_le_inv in Hh.
    assert (Htiny : / 2 * bpow radix2 (-149) <= u * / 4).
    { replace (u * / 4) with (bpow radix2 (-26)) by (unfold u, u32; change (bpow radix2 (-26)) with (/ 67108864); lra).
      change (/ 2) with (bpow radix2 (-1)). rewrite <- bpow_plus. apply bpow_le. lia. }
    rewrite E1 in E.
    assert (Hv : Rabs ((1 - B2R q) * e) <= 2.5 * u).
    { rewrite Rabs_mult. apply Rmult_le_compat; try apply Rabs_pos; apply Rabs_le; lra. }
    apply Rabs_le_inv in Hv.
    destruct (@sub_finite f32_one q F1 Fq) as (Fd & Ed).
    { rewrite E1, E. apply Rle_lt_trans with 4; [|lra]. apply Rabs_le. lra. }
    split; [exact Fd|]. rewrite Ed, E1, E. apply Rabs_le. lra.
  Qed.
End Acc.
