(** * Normalisation, and the distance of normalised vectors *)
From Coq Require Import ZArith Reals Lra Lia Psatz.
From Flocq Require Import Core Relative IEEE754.BinarySingleNaN.
From Verif Require Import Base BaseFacts MFloat MAngular SAngular PF32 PDot PDotErr PQuant PAng.
Close Scope R_scope.
Open Scope R_scope.
Set Implicit Arguments. Unset Strict Implicit.

(** ** Sums *)
Lemma adot_nonneg x : forall y, 0 <= adot x y.
Proof. induction x as [|a x IH]; intros [|b y]; cbn; try lra. pose proof (Rabs_pos (B2R a * B2R b)). pose proof (IH y). lra. Qed.
Lemma adot_self x : adot x x = rdot x x.
Proof. induction x as [|a x IH]; cbn; auto. rewrite IH, Rabs_pos_eq by nra. reflexivity. Qed.
Lemma rdot_self_nonneg x : 0 <= rdot x x.
Proof. rewrite <- adot_self. apply adot_nonneg. Qed.
Lemma rdot_ge x v : In v x -> B2R v * B2R v <= rdot x x.
Proof.
  induction x as [|a x IH]; cbn [In rdot]; [tauto|]. pose proof (rdot_self_nonneg x). intros [->|H1]; [lra|].
  specialize (IH H1). assert (0 <= B2R a * B2R a) by nra. lra.
Qed.
Lemma rdot_le x b : 0 <= b -> Forall (fun v => Rabs (B2R v) <= b) x -> rdot x x <= INR (length x) * (b * b).
Proof.
  intros Hb. induction 1 as [|v x Hv _ IH]; [cbn; lra|]. cbn [rdot length]. rewrite S_INR.
  apply Rabs_le_inv in Hv. nra.
Qed.
Lemma lin_sq_R x : forall y a b, length x = length y ->
  0 <= a * a * rdot x x - 2 * a * b * adot x y + b * b * rdot y y.
Proof.
  induction x as [|p x IH]; intros [|q y] a b H; cbn [rdot adot length] in *; try lia; [lra|].
  specialize (IH y a b ltac:(lia)). rewrite Rabs_mult.
  assert (Hp : B2R p * B2R p = Rabs (B2R p) * Rabs (B2R p)) by (rewrite <- Rabs_mult, Rabs_pos_eq; auto; nra).
  assert (Hq : B2R q * B2R q = Rabs (B2R q) * Rabs (B2R q)) by (rewrite <- Rabs_mult, Rabs_pos_eq; auto; nra).
  rewrite Hp, Hq. set (P := Rabs (B2R p)). set (Q := Rabs (B2R q)).
  replace (a * a * (P * P + rdot x x) - 2 * a * b * (P * Q + adot x y) + b * b * (Q * Q + rdot y y))
    with ((a * P - b * Q) * (a * P - b * Q) + (a * a * rdot x x - 2 * a * b * adot x y + b * b * rdot y y)) by ring.
  pose proof (Rle_0_sqr (a * P - b * Q)) as Hs. unfold Rsqr in Hs. lra.
Qed.
Lemma cauchy_R x y : length x = length y -> 0 < rdot x x -> 0 < rdot y y -> adot x y <= sqrt (rdot x x) * sqrt (rdot y y).
Proof.
  intros H HX HY. pose proof (@lin_sq_R x y (sqrt (rdot y y)) (sqrt (rdot x x)) H) as L.
  pose proof (sqrt_lt_R0 _ HX) as sx. pose proof (sqrt_lt_R0 _ HY) as sy.
  pose proof (sqrt_sqrt _ (Rlt_le _ _ HX)) as EX. pose proof (sqrt_sqrt _ (Rlt_le _ _ HY)) as EY.
  set (s := sqrt (rdot x x)) in *. set (t := sqrt (rdot y y)) in *. rewrite <- EX, <- EY in L.
  apply Rmult_le_reg_l with (2 * s * t); [nra|]. nra.
Qed.

(** ** Smallness of the error terms *)
Definition kap (k : nat) : R := INR k * u32.
Lemma pw_small k : (Z.of_nat k <= 10000)%Z -> 0 <= kap k <= 0.0006 /\ pw k - 1 <= 1.0007 * kap k /\ pw k <= 1.0007.
Proof.
  intros Hk. apply IZR_le in Hk. rewrite <- INR_IZR_INZ in Hk.
  pose proof (pos_INR k). pose proof (pw_bound k) as B. pose proof (pw_ge1 k). fold (kap k) in B.
  assert (K : 0 <= kap k <= 0.0006) by (unfold kap, u32; lra). split; [exact K|].
  set (z := kap k) in *. clearbody z.
  assert (pw k <= 1 + 1.0007 * z).
  { apply Rmult_le_reg_r with (1 - z); [lra|]. eapply Rle_trans; [exact B|]. nra. }
  split; lra.
Qed.
Lemma tiny_small k l : (Z.of_nat k <= 10000)%Z -> (Z.of_nat l <= 400000)%Z -> 0 <= INR l * eta32 * pw k <= bpow radix2 (-131).
Proof.
  intros Hk Hl. destruct (pw_small Hk) as (_ & _ & P). pose proof (pw_ge1 k). pose proof eta32_pos. pose proof (pos_INR l).
  apply IZR_le in Hl. rewrite <- INR_IZR_INZ in Hl.
  assert (0 <= INR l * eta32) by (apply Rmult_le_pos; lra).
  split; [apply Rmult_le_pos; lra|].
  apply Rle_trans with (400000 * eta32 * 1.0007).
  - apply Rmult_le_compat; try lra. apply Rmult_le_compat_r; lra.
  - replace (bpow radix2 (-131)) with (524288 * eta32); [lra|]. unfold eta32.
    change 524288 with (bpow radix2 19). change (/ 2) with (bpow radix2 (-1)). rewrite <- !bpow_plus. reflexivity.
Qed.
Lemma fits_small B k l : (Z.of_nat k <= 10000)%Z -> (Z.of_nat l <= 400000)%Z -> 0 <= B <= bpow radix2 100 -> fits B k l.
Proof.
  intros Hk Hl HB. unfold fits. destruct (pw_small Hk) as (_ & _ & P). pose proof (pw_ge1 k). pose proof (tiny_small Hk Hl) as T.
  pose proof (pos_INR l). apply IZR_le in Hl. rewrite <- INR_IZR_INZ in Hl.
  assert (INR l * B <= 400000 * bpow radix2 100) by (apply Rmult_le_compat; lra).
  assert (0 <= INR l * B) by (apply Rmult_le_pos; lra).
  assert (pw k * (INR l * B) <= 1.0007 * (400000 * bpow radix2 100)) by (apply Rmult_le_compat; lra).
  replace big32 with (268435456 * bpow radix2 100) by (change 268435456 with (bpow radix2 28); rewrite <- bpow_plus; reflexivity).
  assert (bpow radix2 (-131) <= bpow radix2 100) by (apply bpow_le; lia). pose proof (bpow_gt_0 radix2 100). lra.
Qed.

Lemma rounds_len n : (Z.of_nat (rounds n) <= 10000)%Z -> (Z.of_nat (n + 64) <= 400000)%Z.
Proof.
  unfold rounds. intros H. pose proof (Nat.div_mod n 32 ltac:(lia)) as E. pose proof (Nat.mod_upper_bound n 32 ltac:(lia)). lia.
Qed.

(** ** The norm *)
Definition qm (k : nat) : R := 0.5014 * kap k + 1.006 * u32.

Lemma scaled_sum x : scaled x -> bpow radix2 (-100) <= rdot x x.
Proof.
  intros [H _]. destruct (@max_mag_attained x) as (v & Hv & E).
  - intros ->. cbn in H. pose proof (bpow_gt_0 radix2 (-50)). lra.
  - rewrite <- E in H. pose proof (rdot_ge Hv) as G. eapply Rle_trans; [|exact G].
    replace (-100)%Z with (-50 + -50)%Z by lia. rewrite bpow_plus.
    replace (B2R v * B2R v) with (Rabs (B2R v) * Rabs (B2R v)) by (rewrite <- Rabs_mult, Rabs_pos_eq; auto; nra).
    pose proof (bpow_gt_0 radix2 (-50)). apply Rmult_le_compat; lra.
Qed.

Lemma sq_forall2 x b : 0 <= b -> Forall (fun v : f32 => Rabs (B2R v) <= b) x -> Forall2 (fun v w : f32 => Rabs (B2R v * B2R w) <= b * b) x x.
Proof.
  intros Hb. induction 1 as [|v x Hv _ IH]; constructor; auto. rewrite Rabs_mult.
  apply Rmult_le_compat; auto using Rabs_pos.
Qed.

Lemma norm_facts x : finite_vec x -> (Z.of_nat (rounds (length x)) <= 10000)%Z -> scaled x ->
  let N := f32_sqrt (dot_f32 x x) in
  is_finite N = true /\ 0 < B2R N /\ Rabs (sqrt (rdot x x) / B2R N - 1) <= qm (rounds (length x)).
Proof.
  intros Hx Hk Hs N. pose proof (scaled_sum Hs) as HS. set (S := rdot x x) in *. set (k := rounds (length x)) in *.
  pose proof (pw_small Hk) as (K & G & P). pose proof u32_pos as Hu.
  assert (b50 : 0 < bpow radix2 50) by apply bpow_gt_0.
  assert (b100 : 0 < bpow radix2 (-100)) by apply bpow_gt_0.
  destruct (@dot_err (bpow radix2 50 * bpow radix2 50) x x) as (FD & ED & _); auto.
  { apply Rmult_le_pos; lra. }
  { apply sq_forall2; [lra|]. apply Forall_forall. intros v Hv. eapply Rle_trans; [exact (max_mag_in Hv)|]. apply Hs. }
  { apply fits_small; auto. now apply rounds_len. rewrite <- bpow_plus. split; [apply bpow_ge_0|apply bpow_le; lia]. }
  rewrite adot_self in ED. fold S k in ED. pose proof (tiny_small Hk (rounds_len Hk)) as T.
  set (D := B2R (dot_f32 x x)) in *. set (t := INR _ * eta32 * pw k) in *.
  assert (T2 : t <= S * (u32 / 128)).
  { apply Rle_trans with (bpow radix2 (-131)); [lra|]. apply Rle_trans with (bpow radix2 (-100) * (u32 / 128)).
    - unfold u32. replace (/ 16777216 / 128) with (bpow radix2 (-31)) by (change (bpow radix2 (-31)) with (/ 2147483648); lra).
      rewrite <- bpow_plus. apply bpow_le. lia.
    - apply Rmult_le_compat_r; lra. }
  set (dm := 1.0007 * kap k + u32 / 128).
  assert (Hdm : 0 <= dm <= 0.0007) by (unfold dm, u32 in *; lra).
  set (dl := D / S - 1).
  assert (Hdl : Rabs dl <= dm).
  { unfold dl. replace (D / S - 1) with ((D - S) / S) by (field; lra).
    unfold Rdiv. rewrite Rabs_mult, Rabs_inv, (Rabs_pos_eq S) by lra.
    apply Rmult_le_reg_r with S; [lra|]. rewrite Rmult_assoc, Rinv_l, Rmult_1_r by lra.
    eapply Rle_trans; [exact ED|]. unfold dm.
    assert ((pw k - 1) * S <= 1.0007 * kap k * S) by (apply Rmult_le_compat_r; lra). lra. }
  assert (ED' : D = S * (1 + dl)) by (unfold dl; field; lra).
  apply Rabs_le_inv in Hdl.
  assert (HD : 0 < D) by (rewrite ED'; apply Rmult_lt_0_compat; lra).
  destruct (sqrt_finite _ FD HD) as (FN & EN). fold N D in EN. fold N in FN.
  assert (Hsq : 1 - 0.5003 * dm <= sqrt (1 + dl) <= 1 + dm / 2).
  { split.
    - rewrite <- (sqrt_square (1 - 0.5003 * dm)) by lra. apply sqrt_le_1; nra.
    - rewrite <- (sqrt_square (1 + dm / 2)) by lra. apply sqrt_le_1; nra. }
  assert (HsS : bpow radix2 (-50) <= sqrt S).
  { rewrite <- (sqrt_square (bpow radix2 (-50))) by apply bpow_ge_0. apply sqrt_le_1.
    - apply Rmult_le_pos; apply bpow_ge_0.
    - lra.
    - rewrite <- bpow_plus. exact HS. }
  assert (EsD : sqrt D = sqrt S * sqrt (1 + dl)) by (rewrite ED'; apply sqrt_mult; lra).
  assert (b50' : 0 < bpow radix2 (-50)) by apply bpow_gt_0.
  destruct (rel32 (sqrt D)) as (e & He & Ee).
  { rewrite EsD, Rabs_pos_eq by (apply Rmult_le_pos; lra).
    apply Rle_trans with (bpow radix2 (-50) * / 2); [|apply Rmult_le_compat; lra].
    change (/ 2) with (bpow radix2 (-1)). rewrite <- bpow_plus. apply bpow_le. lia. }
  apply Rabs_le_inv in He. rewrite Ee, EsD in EN.
  set (z := sqrt (1 + dl) * (1 + e)).
  assert (ENz : B2R N = sqrt S * z) by (rewrite EN; unfold z; ring).
  assert (Hz : 1 - 0.5003 * dm - u32 <= z <= 1 + 0.5001 * dm + u32).
  { unfold z. unfold u32 in *. split; nra. }
  assert (Hz0 : 0 < z) by (unfold u32 in *; lra).
  split; [exact FN|]. split; [rewrite ENz; apply Rmult_lt_0_compat; lra|].
  replace (sqrt S / B2R N) with (/ z) by (rewrite ENz; field; lra).
  assert (Hq : qm k >= 0.5008 * dm + 1.0015 * u32) by (unfold qm, dm, u32 in *; lra).
  apply Rabs_le. split.
  - apply Rplus_le_reg_r with 1. apply Rmult_le_reg_r with z; [lra|].
    replace ((/ z - 1 + 1) * z) with 1 by (field; lra). unfold u32 in *. nra.
  - apply Rplus_le_reg_r with 1. apply Rmult_le_reg_r with z; [lra|].
    replace ((/ z - 1 + 1) * z) with 1 by (field; lra). unfold u32 in *. nra.
Qed.

(** ** The components *)
(** [v] is [x] divided by [N], rounded *)
Definition near (N : R) (x v : list f32) : Prop :=
  Forall2 (fun a b : f32 => is_finite b = true /\ Rabs (B2R a / N) <= 1.001 /\
             exists e h, Rabs e <= u32 /\ Rabs h <= eta32 /\ B2R b = B2R a / N * (1 + e) + h) x v.

Lemma near_length N x v : near N x v -> length x = length v.
Proof. induction 1; cbn; auto. Qed.
Lemma near_finite N x v : near N x v -> finite_vec v.
Proof. induction 1 as [|a b x v (F & _) _ IH]; constructor; auto. Qed.
Lemma eta_small : eta32 <= bpow radix2 (-100).
Proof. unfold eta32. change (/ 2) with (bpow radix2 (-1)). rewrite <- bpow_plus. apply bpow_le. lia. Qed.
Lemma b100_small : bpow radix2 (-100) <= u32 * u32 * u32 * u32.
Proof. unfold u32. change (/ 16777216) with (bpow radix2 (-24)). rewrite <- !bpow_plus. apply bpow_le. lia. Qed.

Lemma qm_small k : (Z.of_nat k <= 10000)%Z -> 0 <= qm k <= 0.0004.
Proof. intros H. destruct (pw_small H) as (K & _). unfold qm, u32. lra. Qed.

Lemma normalize_near x : finite_vec x -> (Z.of_nat (rounds (length x)) <= 10000)%Z -> scaled x ->
  exists N, 0 < N /\ near N x (normalize_f32 x) /\ Rabs (sqrt (rdot x x) / N - 1) <= qm (rounds (length x)).
Proof.
  intros Hx Hk Hs. destruct (norm_facts Hx Hk Hs) as (F & P & Q). set (N := f32_sqrt (dot_f32 x x)) in *.
  exists (B2R N). split; [exact P|]. split; [|exact Q].
  unfold normalize_f32. fold N. rewrite (Bltb_correct 24 128 f32_zero N eq_refl F).
  cbn [B2R f32_zero]. rewrite Rlt_bool_true by exact P.
  pose proof (qm_small Hk) as Qs. apply Rabs_le_inv in Q.
  assert (G : forall l, incl l x -> near (B2R N) l (map (fun v => f32_div v N) l)).
  { induction l as [|v l IH]; intros Hi; cbn [map]; constructor.
    - assert (Hv : In v x) by (apply Hi; now left).
      assert (Fv : is_finite v = true) by (unfold finite_vec in Hx; rewrite Forall_forall in Hx; auto).
      assert (W : Rabs (B2R v / B2R N) <= 1.001).
      { pose proof (rdot_ge Hv) as V. unfold Rdiv. rewrite Rabs_mult, Rabs_inv, (Rabs_pos_eq (B2R N)) by lra.
        assert (V2 : Rabs (B2R v) <= sqrt (rdot x x)).
        { rewrite <- (sqrt_Rsqr_abs (B2R v)). apply sqrt_le_1_alt. exact V. }
        apply Rle_trans with (sqrt (rdot x x) * / B2R N).
        - apply Rmult_le_compat_r; auto. apply Rlt_le, Rinv_0_lt_compat, P.
        - unfold Rdiv in Q. lra. }
      destruct (abs32 (B2R v / B2R N)) as (e & h & He & Hh & E).
      destruct (@div_finite v N Fv) as (Fd & Ed).
      + lra.
      + rewrite E. eapply Rle_lt_trans; [apply Rabs_triang|]. rewrite Rabs_mult.
        pose proof u32_pos. apply Rabs_le_inv in He.
        assert (Rabs (B2R v / B2R N) * Rabs (1 + e) <= 1.001 * 2).
        { apply Rmult_le_compat; auto using Rabs_pos. apply Rabs_le. lra. }
        pose proof big32_gt. fold eta32 in Hh. pose proof eta_small. pose proof b100_small.
        assert (bpow radix2 (-100) <= 1) by (change 1 with (bpow radix2 0); apply bpow_le; lia). lra.
      + split; [exact Fd|]. split; [exact W|]. exists e, h. fold eta32 in Hh. rewrite Ed. auto.
    - apply IH. intros w Hw. apply Hi. now right. }
  apply G. apply incl_refl.
Qed.

(** ** Two vectors *)
Lemma prod_near p q e f h g : Rabs p <= 1.001 -> Rabs q <= 1.001 -> Rabs e <= u32 -> Rabs f <= u32 -> Rabs h <= eta32 -> Rabs g <= eta32 ->
  Rabs ((p * (1 + e) + h) * (q * (1 + f) + g) - p * q) <= Rabs (p * q) * (2.001 * u32) + 3 * eta32.
Proof.
  intros Hp Hq He Hf Hh Hg. pose proof u32_pos as Hu. pose proof eta32_pos as Ht. pose proof eta_small as Es. pose proof b100_small as Bs.
  replace ((p * (1 + e) + h) * (q * (1 + f) + g) - p * q)
    with (p * q * (e + f + e * f) + (p * (1 + e) * g + q * (1 + f) * h + h * g)) by ring.
  assert (A1 : Rabs (e + f + e * f) <= 2.001 * u32).
  { eapply Rle_trans; [apply Rabs_triang|]. eapply Rle_trans; [apply Rplus_le_compat_r, Rabs_triang|]. rewrite Rabs_mult.
    assert (Rabs e * Rabs f <= u32 * u32) by (apply Rmult_le_compat; auto using Rabs_pos). unfold u32 in *. lra. }
  assert (A2 : forall a b c, Rabs a <= 1.001 -> Rabs b <= u32 -> Rabs c <= eta32 -> Rabs (a * (1 + b) * c) <= 1.4 * eta32).
  { intros a b c Ha Hb Hc. rewrite !Rabs_mult. apply Rmult_le_compat; auto using Rabs_pos.
    - apply Rmult_le_pos; apply Rabs_pos.
    - replace 1.4 with (1.001 * (1.4 / 1.001)) by lra. apply Rmult_le_compat; auto using Rabs_pos.
      apply Rabs_le_inv in Hb. apply Rabs_le. lra. }
  assert (A3 : Rabs (h * g) <= eta32 * 0.1).
  { rewrite Rabs_mult. apply Rmult_le_compat; auto using Rabs_pos. unfold u32 in *. lra. }
  eapply Rle_trans; [apply Rabs_triang|]. apply Rplus_le_compat.
  - rewrite Rabs_mult. apply Rmult_le_compat_l; auto using Rabs_pos.
  - eapply Rle_trans; [apply Rabs_triang|]. eapply Rle_trans; [apply Rplus_le_compat_r, Rabs_triang|].
    pose proof (A2 p e g Hp He Hg). pose proof (A2 q f h Hq Hf Hh). lra.
Qed.

Lemma near_dot Nx Ny : 0 < Nx -> 0 < Ny -> forall x v, near Nx x v -> forall y w, near Ny y w -> length x = length y ->
  Rabs (rdot v w - rdot x y / (Nx * Ny)) <= adot x y / (Nx * Ny) * (2.001 * u32) + INR (length x) * (3 * eta32) /\
  adot v w <= adot x y / (Nx * Ny) * (1 + 2.001 * u32) + INR (length x) * (3 * eta32) /\
  Forall2 (fun a b : f32 => Rabs (B2R a * B2R b) <= 2) v w.
Proof.
  intros HNx HNy. assert (HN : 0 < Nx * Ny) by (apply Rmult_lt_0_compat; auto).
  induction 1 as [|a b x v (Fb & Ba & e & h & He & Hh & Eb) Hxv IH]; intros y w Hyw; destruct Hyw as [|c d y w (Fd & Bc & f & g & Hf & Hg & Ed) Hyw];
    cbn [length rdot adot]; intros Hl; try lia.
  - replace (INR 0) with 0 by reflexivity. unfold Rdiv. rewrite !Rmult_0_l, Rminus_0_r, Rabs_R0. split; [lra|]. split; [lra|constructor].
  - destruct (IH y w Hyw ltac:(lia)) as (I1 & I2 & I3). rewrite S_INR.
    pose proof (prod_near Ba Bc He Hf Hh Hg) as Pn. rewrite <- Eb, <- Ed in Pn.
    replace (B2R a / Nx * (B2R c / Ny)) with (B2R a * B2R c / (Nx * Ny)) in Pn by (field; lra).
    assert (Eabs : Rabs (B2R a * B2R c / (Nx * Ny)) = Rabs (B2R a * B2R c) / (Nx * Ny)).
    { unfold Rdiv. rewrite Rabs_mult, Rabs_inv, (Rabs_pos_eq (Nx * Ny)) by lra. reflexivity. }
    rewrite Eabs in Pn. split; [|split].
    + replace (B2R b * B2R d + rdot v w - (B2R a * B2R c + rdot x y) / (Nx * Ny))
        with ((B2R b * B2R d - B2R a * B2R c / (Nx * Ny)) + (rdot v w - rdot x y / (Nx * Ny))) by (field; lra).
      eapply Rle_trans; [apply Rabs_triang|]. 
      replace ((Rabs (B2R a * B2R c) + adot x y) / (Nx * Ny)) with (Rabs (B2R a * B2R c) / (Nx * Ny) + adot x y / (Nx * Ny)) by (field; lra). lra.
    + replace ((Rabs (B2R a * B2R c) + adot x y) / (Nx * Ny)) with (Rabs (B2R a * B2R c) / (Nx * Ny) + adot x y / (Nx * Ny)) by (field; lra).
      assert (Rabs (B2R b * B2R d) <= Rabs (B2R a * B2R c) / (Nx * Ny) * (1 + 2.001 * u32) + 3 * eta32).
      { replace (B2R b * B2R d) with ((B2R b * B2R d - B2R a * B2R c / (Nx * Ny)) + B2R a * B2R c / (Nx * Ny)) by ring.
        eapply Rle_trans; [apply Rabs_triang|]. rewrite Eabs. lra. }
      lra.
    + constructor; auto. replace (B2R b * B2R d) with ((B2R b * B2R d - B2R a * B2R c / (Nx * Ny)) + B2R a * B2R c / (Nx * Ny)) by ring.
      eapply Rle_trans; [apply Rabs_triang|]. rewrite Eabs.
      assert (W : Rabs (B2R a * B2R c) / (Nx * Ny) <= 1.001 * 1.001).
      { rewrite <- Eabs. replace (B2R a * B2R c / (Nx * Ny)) with (B2R a / Nx * (B2R c / Ny)) by (field; lra).
        rewrite Rabs_mult. apply Rmult_le_compat; auto using Rabs_pos. }
      pose proof u32_pos. pose proof eta_small. pose proof b100_small.
      assert (0 <= Rabs (B2R a * B2R c) / (Nx * Ny)) by (rewrite <- Eabs; apply Rabs_pos).
      unfold u32 in *. lra.
Qed.

Lemma fcos_bound x y : length x = length y -> 0 < rdot x x -> 0 < rdot y y -> Rabs (rdot x y) <= adot x y -> Rabs (fcosine x y) <= 1.
Proof.
  intros Hl HX HY H. pose proof (cauchy_R Hl HX HY) as C. unfold fcosine, Rdiv.
  pose proof (sqrt_lt_R0 _ HX). pose proof (sqrt_lt_R0 _ HY).
  assert (0 < sqrt (rdot x x) * sqrt (rdot y y)) by (apply Rmult_lt_0_compat; auto).
  rewrite Rabs_mult, Rabs_inv, (Rabs_pos_eq (sqrt (rdot x x) * sqrt (rdot y y))) by lra.
  apply Rmult_le_reg_r with (sqrt (rdot x x) * sqrt (rdot y y)); [auto|]. rewrite Rmult_assoc, Rinv_l, Rmult_1_r by lra. lra.
Qed.
Lemma rdot_abs x : forall y, Rabs (rdot x y) <= adot x y.
Proof.
  induction x as [|a x IH]; intros [|b y]; cbn; rewrite ?Rabs_R0; try lra.
  eapply Rle_trans; [apply Rabs_triang|]. pose proof (IH y). lra.
Qed.

Lemma pair_acc x y : finite_vec x -> finite_vec y -> length x = length y -> (Z.of_nat (rounds (length x)) <= 10000)%Z -> scaled x -> scaled y ->
  exists d, angular_dist (normalize_f32 x) (normalize_f32 y) = Ok d /\ is_finite d = true /\ Rabs (fcosine x y) <= 1 /\
    Rabs (B2R d - (1 - fcosine x y)) <= (2.01 * INR (rounds (length x)) + 8) * u32.
Proof.
  intros Fx Fy Hl Hk Sx Sy.
  assert (Hky : (Z.of_nat (rounds (length y)) <= 10000)%Z) by (rewrite <- Hl; exact Hk).
  destruct (normalize_near Fx Hk Sx) as (Nx & PNx & Nrx & Qx). destruct (normalize_near Fy Hky Sy) as (Ny & PNy & Nry & Qy).
  rewrite <- Hl in Qy. set (k := rounds (length x)) in *.
  pose proof (pw_small Hk) as (K & G & P). pose proof (qm_small Hk) as Qs.
  destruct (near_dot PNx PNy Nrx Nry Hl) as (D1 & D2 & D3).
  set (v := normalize_f32 x) in *. set (w := normalize_f32 y) in *.
  pose proof (near_length Nrx) as Lv. pose proof (near_length Nry) as Lw.
  assert (HSx : 0 < rdot x x) by (pose proof (scaled_sum Sx); pose proof (bpow_gt_0 radix2 (-100)); lra).
  assert (HSy : 0 < rdot y y) by (pose proof (scaled_sum Sy); pose proof (bpow_gt_0 radix2 (-100)); lra).
  pose proof (fcos_bound Hl HSx HSy (rdot_abs x y)) as HC.
  pose proof (cauchy_R Hl HSx HSy) as CS.
  set (sx := sqrt (rdot x x)) in *. set (sy := sqrt (rdot y y)) in *.
  assert (Psx : 0 < sx) by (now apply sqrt_lt_R0). assert (Psy : 0 < sy) by (now apply sqrt_lt_R0).
  set (qx := sx / Nx) in *. set (qy := sy / Ny) in *.
  assert (HN : 0 < Nx * Ny) by (apply Rmult_lt_0_compat; auto).
  assert (Ecos : rdot x y / (Nx * Ny) = fcosine x y * (qx * qy)).
  { unfold fcosine, qx, qy. fold sx sy. field. lra. }
  assert (HA : 0 <= adot x y / (Nx * Ny) <= qx * qy).
  { split.
    - apply Rmult_le_pos; [apply adot_nonneg|]. apply Rlt_le, Rinv_0_lt_compat, HN.
    - replace (qx * qy) with (sx * sy / (Nx * Ny)) by (unfold qx, qy; field; lra).
      apply Rmult_le_compat_r; [apply Rlt_le, Rinv_0_lt_compat, HN|exact CS]. }
  set (A := adot x y / (Nx * Ny)) in *. set (q := qm k) in *.
  assert (Qxy : Rabs (qx * qy - 1) <= 2.001 * q).
  { replace (qx * qy - 1) with ((qx - 1) + (qy - 1) + (qx - 1) * (qy - 1)) by ring.
    eapply Rle_trans; [apply Rabs_triang|]. eapply Rle_trans; [apply Rplus_le_compat_r, Rabs_triang|]. rewrite Rabs_mult.
    assert (Rabs (qx - 1) * Rabs (qy - 1) <= q * 0.001) by (apply Rmult_le_compat; auto using Rabs_pos; lra). lra. }
  assert (HAb : A <= 1.001) by (apply Rabs_le_inv in Qxy; lra).
  pose proof (tiny_small Hk (rounds_len Hk)) as T. pose proof u32_pos as Hu.
  assert (b131 : bpow radix2 (-131) <= 0.00001 * u32).
  { apply Rle_trans with (bpow radix2 (-100)); [apply bpow_le; lia|]. pose proof b100_small. unfold u32 in *. lra. }
  assert (Tn : INR (length x) * (3 * eta32) <= 0.0001 * u32).
  { assert (Ln : (Z.of_nat (length x) <= 400000)%Z) by (pose proof (rounds_len Hk); lia).
    apply IZR_le in Ln. rewrite <- INR_IZR_INZ in Ln. pose proof (pos_INR (length x)). pose proof eta32_pos.
    apply Rle_trans with (400000 * (3 * eta32)); [apply Rmult_le_compat; lra|].
    pose proof eta_small. pose proof b100_small. unfold u32 in *. lra. }
  assert (R1 : Rabs (rdot v w - fcosine x y) <= 1.0034 * kap k + 4.03 * u32).
  { replace (rdot v w - fcosine x y) with ((rdot v w - rdot x y / (Nx * Ny)) + fcosine x y * (qx * qy - 1)) by (rewrite Ecos; ring).
    eapply Rle_trans; [apply Rabs_triang|]. rewrite Rabs_mult.
    assert (Rabs (fcosine x y) * Rabs (qx * qy - 1) <= 1 * (2.001 * q)) by (apply Rmult_le_compat; auto using Rabs_pos).
    assert (A * (2.001 * u32) <= 1.001 * (2.001 * u32)) by (apply Rmult_le_compat_r; lra).
    unfold q, qm in *. lra. }
  assert (Aw : adot v w <= 1.0012).
  { eapply Rle_trans; [exact D2|].
    assert (A * (1 + 2.001 * u32) <= 1.001 * (1 + 2.001 * u32)) by (apply Rmult_le_compat_r; lra). unfold u32 in *. lra. }
  destruct (@dot_err 2 v w) as (FD & ED & _).
  { lra. } { congruence. } { eapply near_finite; eauto. } { eapply near_finite; eauto. } { exact D3. }
  { rewrite <- Lv. fold k. apply fits_small; auto. now apply rounds_len. split; [lra|]. change 2 with (bpow radix2 1). apply bpow_le. lia. }
  rewrite <- Lv in ED. fold k in ED. set (r := dot_f32 v w) in *.
  assert (R2 : Rabs (B2R r - fcosine x y) <= 2.0056 * kap k + 4.04 * u32).
  { replace (B2R r - fcosine x y) with ((B2R r - rdot v w) + (rdot v w - fcosine x y)) by ring.
    eapply Rle_trans; [apply Rabs_triang|].
    assert ((pw k - 1) * adot v w <= 1.0007 * kap k * 1.0012).
    { apply Rmult_le_compat; auto. pose proof (pw_ge1 k). lra. apply adot_nonneg. }
    lra. }
  set (c := fcosine x y) in *. apply Rabs_le_inv in R2, HC.
  destruct one_R as [F1 E1].
  destruct (abs32 (B2R f32_one - B2R r)) as (e & h & He & Hh & E). fold eta32 in Hh. rewrite E1 in E.
  pose proof eta_small as Es. pose proof b100_small as Bs.
  assert (Hv : Rabs ((1 - B2R r) * e) <= 2.01 * u32).
  { rewrite Rabs_mult. apply Rmult_le_compat; auto using Rabs_pos. apply Rabs_le. unfold u32 in *. lra. }
  apply Rabs_le_inv in Hv, Hh. pose proof big32_gt as Hbig.
  destruct (@sub_finite f32_one r F1 FD) as (Fd & Ed).
  { rewrite E1, E. apply Rle_lt_trans with 4; [|lra]. apply Rabs_le. unfold u32 in *. lra. }
  rewrite E1, E in Ed.
  unfold angular_dist. fold r. set (s := f32_sub f32_one r) in *.
  assert (Ns : is_nan s = false) by (destruct s; auto; discriminate).
  unfold notnan. rewrite Ns. cbn [obind]. exists (max0 s). destruct (max0_R _ Fd) as (F' & M).
  split; [reflexivity|]. split; [exact F'|]. split; [apply Rabs_le; lra|]. rewrite M. apply Rabs_le. fold (kap k).
  assert (Hfin : - (2.01 * kap k + 8 * u32) <= B2R s - (1 - c) <= 2.01 * kap k + 8 * u32) by (rewrite Ed; unfold u32 in *; lra).
  replace ((2.01 * INR k + 8) * u32) with (2.01 * kap k + 8 * u32) by (unfold kap; ring).
  unfold Rmax. destruct (Rle_dec 0 (B2R s)); unfold u32 in *; lra.
Qed.
