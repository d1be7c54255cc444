(** * Proofs: layer sizes in floating point, with an accurate C library *)
From Coq Require Import ZArith Reals Lra Lia Psatz.
From Flocq Require Import Core Relative IEEE754.BinarySingleNaN.
From Verif Require Import Base MFloat MLayerSize SLayerSize SLayerAcc PFloat PLayerF PLayerCr.
Open Scope R_scope.

Local Notation fexp := (SpecFloat.fexp 53 1024).
Local Notation big := (bpow radix2 1024).
Local Notation rnd := (round radix2 fexp (round_mode mode_NE)).
Local Notation sat := (sat 1024).
#[local] Existing Instance fexp_ok.

(** ** Relative errors *)
Definition uu : R := / 1125899906842624.
Lemma uu_is : / 2 ^ 50 = uu.
Proof. unfold uu. f_equal. lra. Qed.
Lemma uu_b : 0 < uu < / 1000000000000000.
Proof. unfold uu. split; [apply Rinv_0_lt_compat; lra|apply Rinv_lt; lra]. Qed.
(** [v] is [x] up to [k] relative errors of 2^-50 *)
Definition err (k v x : R) : Prop := x * (1 - k * uu) <= v <= x * (1 + k * uu).
Lemma close_err v x : 0 <= x -> close v x -> is_finite v = true /\ err 1 (B2R v) x.
Proof.
  intros Hx [F H]. split; auto. unfold Rdiv in H. rewrite uu_is in H. apply Rabs_le_inv in H. unfold err. lra.
Qed.
Lemma rnd_err x : bpow radix2 (-1000) <= x -> err 1 (rnd x) x.
Proof.
  intros H. destruct (relative_error_N_FLT_ex radix2 (-1074) 53 eq_refl (fun t => negb (Z.even t)) x) as (e & He & E).
  - pose proof (bpow_gt_0 radix2 (-1000)). rewrite Rabs_pos_eq by lra. eapply Rle_trans; [|exact H]. apply bpow_le. lia.
  - change (round radix2 (FLT_exp (-1074) 53) ZnearestE x) with (rnd x) in E. rewrite E.
    assert (Hu : / 2 * bpow radix2 (-53 + 1) <= uu).
    { change (bpow radix2 (-53 + 1)) with (/ IZR 4503599627370496). unfold uu. rewrite <- Rinv_mult. apply Rinv_le; lra. }
    assert (He2 : Rabs e <= uu) by (eapply Rle_trans; [exact He|exact Hu]). apply Rabs_le_inv in He2. pose proof (bpow_gt_0 radix2 (-1000)). unfold err. split; apply Rmult_le_compat_l; lra.
Qed.
Lemma err_div a b v w : 0 <= a -> 0 < b -> err 1 v a -> err 1 w b -> err 3 (v / w) (a / b) /\ 0 < w.
Proof.
  intros Ha Hb [V1 V2] [W1 W2]. pose proof uu_b as Hu. set (u := uu) in *. assert (Hw : 0 < w) by nra. split; [|exact Hw].
  assert (H0 : 0 <= a / b) by (apply Rmult_le_pos; [lra|left; now apply Rinv_0_lt_compat]).
  assert (Ea : a = a / b * b) by (field; lra). set (r := a / b) in *.
  unfold err. fold u. split; apply Rmult_le_reg_r with w; auto; unfold Rdiv; rewrite ?Rmult_assoc, ?Rinv_l, ?Rmult_1_r by lra.
  - apply Rle_trans with (a * (1 - 1 * u)); [|lra]. rewrite Ea. 
    apply Rle_trans with (r * ((1 - 3 * u) * (b * (1 + 1 * u)))).
    + apply Rmult_le_compat_l; [lra|]. apply Rmult_le_compat_l; lra.
    + rewrite (Rmult_assoc r b). apply Rmult_le_compat_l; [lra|]. nra.
  - apply Rle_trans with (a * (1 + 1 * u)); [lra|]. rewrite Ea.
    apply Rle_trans with (r * ((1 + 3 * u) * (b * (1 - 1 * u)))).
    + rewrite (Rmult_assoc r b). apply Rmult_le_compat_l; [lra|]. nra.
    + rewrite ?Rmult_assoc. apply Rmult_le_compat_l; [lra|]. apply Rmult_le_compat_l; lra.
Qed.
Lemma err_rnd v x : 0 <= x -> err 3 v x -> err 1 (rnd v) v -> err 5 (rnd v) x.
Proof. intros Hx [V1 V2] [W1 W2]. pose proof uu_b. unfold err in *. split; nra. Qed.

Lemma exp_small t : 0 <= t <= / 2 -> exp t <= 1 + 2 * t.
Proof.
  intros H. assert (E : exp t * exp (- t) = 1) by (rewrite <- exp_plus, Rplus_opp_r; apply exp_0).
  assert (1 - t <= exp (- t)). { destruct (Req_dec t 0) as [->|]; [rewrite Ropp_0, exp_0; lra|]. left. pose proof (exp_ineq1 (- t)). lra. }
  pose proof (exp_pos t). apply Rmult_le_reg_r with (1 - t); [lra|]. nra.
Qed.

Section Acc.
  Variables (L : libm) (mul : f32) (n : nat).
  Hypothesis Hfin : is_finite mul = true.
  Hypothesis Hmul : 1 < B2R mul.
  Hypothesis Hn : (1 <= n)%nat.
  Hypothesis Hn53 : (Z.of_nat n <= 2 ^ 53)%Z.
  Hypothesis HA : accurate L.
  Hypothesis HL : pow_up L (f64_of_f32 mul).
  Local Notation m := (f64_of_f32 mul).
  Local Notation M := (B2R mul).
  Local Notation k := (layer_exponent L n m).

  Lemma n_fin : is_finite (f64_of_usize n) = true /\ B2R (f64_of_usize n) = INR n.
  Proof.
    destruct (usize_finite n) as [F E]; [lia|]. split; auto. rewrite E, INR_IZR_INZ. apply rnd_int. lia.
  Qed.
  Lemma n_1 : 1 <= INR n <= IZR (2 ^ 53).
  Proof. split; [replace 1 with (INR 1) by reflexivity; now apply le_INR|]. rewrite INR_IZR_INZ. now apply IZR_le. Qed.
  Lemma ln_n : 0 <= ln (INR n) <= 53.
  Proof.
    pose proof n_1 as H. split.
    - destruct (Req_dec (INR n) 1) as [->|Hne]; [rewrite ln_1; lra|]. left. rewrite <- ln_1. apply ln_increasing; lra.
    - apply Rle_trans with (ln (bpow radix2 53)).
      + change (bpow radix2 53) with (IZR (2 ^ 53)). destruct (Req_dec (INR n) (IZR (2 ^ 53))) as [->|Hne]; [lra|]. left. apply ln_increasing; lra.
      + rewrite bpow_powerRZ. change (IZR (radix_val radix2)) with 2. rewrite powerRZ_Rpower by lra. unfold Rpower. rewrite ln_exp.
        pose proof (ln2_bounds). change (IZR 53) with 53. lra.
  Qed.
  Lemma ln_n_low : INR n <> 1 -> / 2 <= ln (INR n).
  Proof.
    intros Hne. assert (H2 : 2 <= INR n). { replace 2 with (INR 2) by (cbn; lra). apply le_INR. destruct n as [|[|]]; try lia. now cbn in Hne. }
    pose proof ln2_bounds. apply Rle_trans with (ln 2); [lra|]. destruct (Req_dec 2 (INR n)) as [<-|]; [lra|]. left. apply ln_increasing; lra.
  Qed.
  Lemma m_is : is_finite m = true /\ B2R m = M.
  Proof. exact (mul_R mul Hfin). Qed.
  Lemma ln_m : bpow radix2 (-24) <= ln M <= bpow radix2 128.
  Proof.
    destruct m_is as [_ E]. split; [rewrite <- E; now apply ln_m_low|].
    pose proof (ln_le_sub M ltac:(lra)). pose proof (B2X_lt 24 128 mul Hfin) as Hx. rewrite B2X_finite in Hx by auto. lra.
  Qed.

  (** ** The exponent *)
  Lemma log_err : is_finite (log64 L (f64_of_usize n) m) = true /\
    err 5 (B2R (log64 L (f64_of_usize n) m)) (ln (INR n) / ln M) /\ 0 <= ln (INR n) / ln M <= bpow radix2 30.
  Proof.
    destruct n_fin as [Fn En], m_is as [Fm Em]. pose proof ln_n as Hln. pose proof ln_m as Hlm. pose proof n_1 as Hn1.
    pose proof (bpow_gt_0 radix2 (-24)) as H24.
    pose proof (ac_ln _ HA _ Fn) as C1. rewrite En in C1. specialize (C1 ltac:(lra)). destruct (close_err _ _ (proj1 Hln) C1) as [F1 V1].
    pose proof (ac_ln _ HA _ Fm) as C2. rewrite Em in C2. specialize (C2 ltac:(lra)). assert (Hlm0 : 0 <= ln M) by lra. destruct (close_err _ _ Hlm0 C2) as [F2 V2].
    assert (Hlm1 : 0 < ln M) by lra. destruct (err_div _ _ _ _ (proj1 Hln) Hlm1 V1 V2) as [Hq Hw].
    assert (Hr0 : 0 <= ln (INR n) / ln M) by (apply Rmult_le_pos; [lra|left; apply Rinv_0_lt_compat; lra]).
    assert (Hr : ln (INR n) / ln M <= bpow radix2 30).
    { apply Rmult_le_reg_r with (ln M); [lra|]. unfold Rdiv. rewrite Rmult_assoc, Rinv_l, Rmult_1_r by lra.
      apply Rle_trans with (bpow radix2 30 * bpow radix2 (-24)); [rewrite <- bpow_plus; change (bpow radix2 (30 + -24)) with 64; lra|].
      apply Rmult_le_compat_l; [left; apply bpow_gt_0|lra]. }
    assert (Hw0 : B2R (ln64 L m) <> 0) by lra. destruct (div_X 53 1024 _ _ F1 F2 Hw0) as [N V]. pose proof uu_b as Hu.
    set (v := B2R (ln64 L (f64_of_usize n))) in *. set (w := B2R (ln64 L m)) in *. set (r := ln (INR n) / ln M) in *.
    assert (H30 : bpow radix2 30 = 1073741824) by reflexivity.
    assert (He : err 5 (rnd (v / w)) r).
    { destruct (Req_dec (INR n) 1) as [E1|E1].
      - assert (Er : r = 0) by (unfold r; rewrite E1, ln_1; unfold Rdiv; ring).
        assert (Ev : v / w = 0) by (unfold err in Hq; rewrite Er in Hq; lra). rewrite Ev, Er.
        rewrite round_0 by auto with typeclass_instances. unfold err. lra.
      - apply err_rnd; auto. apply rnd_err. destruct Hq as [Hq _]. eapply Rle_trans; [|exact Hq].
        pose proof (ln_n_low E1) as Hl2.
        assert (Hr2 : bpow radix2 (-129) <= r).
        { unfold r. apply Rmult_le_reg_r with (ln M); [lra|]. unfold Rdiv. rewrite Rmult_assoc, Rinv_l, Rmult_1_r by lra.
          apply Rle_trans with (bpow radix2 (-129) * bpow radix2 128); [apply Rmult_le_compat_l; [left; apply bpow_gt_0|lra]|].
          rewrite <- bpow_plus. change (bpow radix2 (-129 + 128)) with (/ 2). lra. }
        apply Rle_trans with (bpow radix2 (-129) * (1 - 3 * uu)); [|apply Rmult_le_compat_r; lra].
        apply Rle_trans with (bpow radix2 (-129) * bpow radix2 (-1)).
        + rewrite <- bpow_plus. apply bpow_le. lia.
        + apply Rmult_le_compat_l; [left; apply bpow_gt_0|]. change (bpow radix2 (-1)) with (/ 2). lra. }
    assert (Hb : - big < rnd (v / w) < big).
    { assert (bpow radix2 31 < big) by (apply bpow_lt; lia). assert (bpow radix2 31 = 2147483648) by reflexivity. unfold err in He. nra. }
    rewrite sat_id in V by exact Hb. change (Bdiv mode_NE) with f64_div in *.
    assert (Ff : is_finite (log64 L (f64_of_usize n) m) = true) by (apply X_finite; [exact N|unfold log64; rewrite V; lra]).
    split; [exact Ff|]. split; [|lra]. rewrite <- (B2X_finite 53 1024 _ Ff). unfold log64. rewrite V. exact He.
  Qed.

  Definition K : Z := Zfloor (B2R (log64 L (f64_of_usize n) m)).
  Lemma k_is : is_finite k = true /\ B2R k = IZR K.
  Proof.
    destruct log_err as [F _]. destruct (near_R 53 1024 mode_DN _ F) as [Fk Vk]. split; [exact Fk|exact Vk].
  Qed.
  Definition dd : R := / 2199023255552.
  Lemma dd_b : 0 < dd < / 1000000000000 /\ 265 * uu <= dd /\ 16 * uu <= dd.
  Proof. unfold dd, uu. repeat split; try (apply Rinv_0_lt_compat; lra); try (apply Rinv_lt; lra); lra. Qed.
  Lemma K_b : (0 <= K <= 2 ^ 31)%Z /\ IZR K * ln M <= ln (INR n) + dd /\ ln (INR n) - dd < IZR (K + 1) * ln M.
  Proof.
    destruct log_err as (_ & [H1 H2] & H3). pose proof uu_b as Hu. pose proof ln_m as Hlm. pose proof ln_n as Hln. pose proof (bpow_gt_0 radix2 (-24)) as H24.
    assert (H30 : bpow radix2 30 = 1073741824) by reflexivity. pose proof dd_b as Hdd.
    set (r := ln (INR n) / ln M) in *. set (t := B2R (log64 L (f64_of_usize n) m)) in *. unfold K. fold t.
    pose proof (Zfloor_lb t) as Hlb. pose proof (Zfloor_ub t) as Hub.
    assert (Er : r * ln M = ln (INR n)) by (unfold r; field; lra).
    split.
    - split; [apply Zfloor_lub; nra|]. apply le_IZR. change (IZR (2 ^ 31)) with 2147483648. nra.
    - split.
      + apply Rle_trans with (r * (1 + 5 * uu) * ln M); [apply Rmult_le_compat_r; lra|].
        replace (r * (1 + 5 * uu) * ln M) with (ln (INR n) * (1 + 5 * uu)) by (rewrite <- Er; ring). nra.
      + rewrite plus_IZR. apply Rle_lt_trans with (r * (1 - 5 * uu) * ln M).
        * replace (r * (1 - 5 * uu) * ln M) with (ln (INR n) * (1 - 5 * uu)) by (rewrite <- Er; ring). nra.
        * apply Rmult_lt_compat_r; lra.
  Qed.
  Lemma M_pow z : powerRZ M z = exp (IZR z * ln M).
  Proof. rewrite powerRZ_Rpower by lra. reflexivity. Qed.
  Lemma K_pow : powerRZ M K <= INR n * (1 + 2 * dd) /\ INR n < powerRZ M (K + 1) * (1 + 2 * dd).
  Proof.
    destruct K_b as (_ & H1 & H2). pose proof n_1 as Hn1. pose proof dd_b as Hdd. rewrite !M_pow.
    assert (Hx : exp dd <= 1 + 2 * dd) by (apply exp_small; lra). split.
    - apply Rle_trans with (exp (ln (INR n) + dd)).
      + destruct H1 as [H1|H1]; [left; now apply exp_increasing|right; now rewrite H1].
      + rewrite exp_plus, exp_ln by lra. apply Rmult_le_compat_l; lra.
    - apply Rlt_le_trans with (exp (IZR (K + 1) * ln M) * exp dd).
      + rewrite <- exp_plus. rewrite <- (exp_ln (INR n)) at 1 by lra. apply exp_increasing. lra.
      + apply Rmult_le_compat_l; [left; apply exp_pos|lra].
  Qed.

  (** ** Powers *)
  Lemma pow_b l : (Z.of_nat l <= K)%Z -> 1 <= powerRZ M (K - Z.of_nat l) <= 2 * INR n.
  Proof.
    intros Hl. pose proof ln_m as Hlm. pose proof (bpow_gt_0 radix2 (-24)) as H24. rewrite M_pow. split.
    - rewrite <- exp_0. assert (H : 0 <= IZR (K - Z.of_nat l) * ln M) by (apply Rmult_le_pos; [apply (IZR_le 0); lia|lra]).
      destruct H as [H|<-]; [left; now apply exp_increasing|lra].
    - apply Rle_trans with (powerRZ M K).
      + rewrite M_pow. assert (H : IZR (K - Z.of_nat l) * ln M <= IZR K * ln M) by (apply Rmult_le_compat_r; [lra|apply IZR_le; lia]).
        destruct H as [H|H]; [left; now apply exp_increasing|right; now rewrite H].
      + pose proof (proj1 K_pow). pose proof dd_b. pose proof n_1. nra.
  Qed.
  Lemma ex_is l : (Z.of_nat l <= K)%Z -> is_finite (f64_sub k (f64_of_usize l)) = true /\ B2R (f64_sub k (f64_of_usize l)) = IZR (K - Z.of_nat l).
  Proof.
    intros Hl. destruct k_is as [Fk Ek]. destruct K_b as ((HK0 & HK) & _). destruct (usize_finite l) as [Fl El]; [lia|].
    rewrite INR_IZR_INZ, rnd_int in El by lia.
    destruct (minus_X 53 1024 k (f64_of_usize l) Fk Fl) as [N V]. rewrite Ek, El, <- minus_IZR in V. rewrite rnd_int in V by lia.
    assert (Hb : - big < IZR (K - Z.of_nat l) < big).
    { pose proof (big_pos 1024). split; [apply Rlt_le_trans with 0; [lra|]; apply (IZR_le 0); lia|]. rewrite big_is. apply IZR_lt. apply Z.le_lt_trans with (2 ^ 31)%Z; [lia|reflexivity]. }
    rewrite sat_id in V by exact Hb. change (Bminus mode_NE) with f64_sub in *.
    assert (F : is_finite (f64_sub k (f64_of_usize l)) = true) by (apply X_finite; [exact N|rewrite V; exact Hb]).
    split; auto. now rewrite <- V, B2X_finite.
  Qed.
  Lemma pw_close x z : is_finite x = true -> B2R x = IZR z -> 1 <= powerRZ M z <= 2 * INR n -> is_finite (powf64 L m x) = true /\ err 1 (B2R (powf64 L m x)) (powerRZ M z).
  Proof.
    intros Fx Ex H. destruct m_is as [Fm Em]. pose proof n_1 as Hn1. pose proof (ac_pow _ HA m x Fm Fx) as Hc. rewrite Ex, Em, <- powerRZ_Rpower in Hc by lra.
    apply close_err; [lra|]. apply Hc; [lra|]. split; [lra|]. apply Rle_trans with (2 * IZR (2 ^ 53)); [lra|]. change (IZR (2 ^ 53)) with 9007199254740992. lra.
  Qed.

  Lemma acc_log_ok : log_ok L m n.
  Proof.
    destruct k_is as [Fk Ek]. destruct K_b as ((HK0 & HK) & _). split; auto.
    - apply (Bleb_X 53 1024); auto; [destruct k; auto; discriminate|]. rewrite (B2X_finite 53 1024 _ Fk), Ek. cbn [B2X B2R]. apply (IZR_le 0). lia.
    - apply (pw_close k K); auto. replace K with (K - Z.of_nat 0)%Z by (cbn; lia). apply pow_b. cbn. lia.
  Qed.

  Local Notation size := (layer_size L mul n).
  Local Notation P l := (powerRZ M (K - Z.of_nat l)).

  (** ** Sizes *)
  Lemma size_near l : (Z.of_nat l <= K)%Z -> INR n / P l * (1 - 5 * uu) <= INR (size l) < INR n / P l * (1 + 5 * uu) + 1.
  Proof.
    intros Hl. assert (H64 : (Z.of_nat n <= 2 ^ 64)%Z) by lia. destruct (size_is L mul HL n Hn H64 acc_log_ok l) as [Es Hc].
    pose proof (pow_b l Hl) as HP. destruct (ex_is l Hl) as [Fe Ee]. destruct (pw_close _ _ Fe Ee HP) as [Fp Ep].
    destruct n_fin as [_ En]. pose proof n_1 as Hn1. pose proof uu_b as Hu.
    assert (E1 : err 1 (INR n) (INR n)) by (unfold err; nra).
    assert (Hn0 : 0 <= INR n) by lra. assert (Hp0 : 0 < P l) by lra. destruct (err_div _ _ _ _ Hn0 Hp0 E1 Ep) as [Hq Hw].
    set (w := B2R (powf64 L m (f64_sub k (f64_of_usize l)))) in *. set (p := P l) in *.
    assert (Hr0 : / 2 <= INR n / p <= INR n).
    { split; apply Rmult_le_reg_r with p; try lra; unfold Rdiv; rewrite ?Rmult_assoc, ?Rinv_l, ?Rmult_1_r by lra; nra. }
    assert (He : err 5 (rnd (INR n / w)) (INR n / p)).
    { apply err_rnd; [lra|auto|]. apply rnd_err. destruct Hq as [Hq _]. eapply Rle_trans; [|exact Hq].
      apply Rle_trans with (bpow radix2 (-2)); [apply bpow_le; lia|]. change (bpow radix2 (-2)) with (/ 4). nra. }
    assert (Eq : qx n w = rnd (INR n / w)).
    { unfold qx. destruct (Req_EM_T w 0); [lra|]. rewrite En. apply sat_id. assert (IZR (2 ^ 53) + IZR (2 ^ 53) < big). { rewrite big_is, <- plus_IZR. apply IZR_lt. reflexivity. }
      unfold err in He. nra. }
    rewrite Eq in *. set (q := rnd (INR n / w)) in *. rewrite (INR_IZR_INZ (size l)), Es. pose proof (Zceil_ub q) as Hcu. pose proof (Zceil_lb q) as Hcl.
    unfold err in He. split.
    - assert (Hmin : IZR (Z.min (Z.min (2 ^ 64 - 1) (Zceil q)) (Z.of_nat n)) = IZR (Z.min (Zceil q) (Z.of_nat n))) by (f_equal; lia). rewrite Hmin.
      destruct (Z.min_spec (Zceil q) (Z.of_nat n)) as [[_ ->]|[_ ->]]; [lra|]. rewrite <- INR_IZR_INZ. nra.
    - apply Rle_lt_trans with (IZR (Zceil q)); [apply IZR_le; lia|]. lra.
  Qed.
  Lemma size_full l : (K <= Z.of_nat l)%Z -> size l = n.
  Proof.
    intros Hl. assert (H64 : (Z.of_nat n <= 2 ^ 64)%Z) by lia. destruct (sizeF_pos L mul HL n Hn H64 acc_log_ok l) as [_ H1].
    assert (H2 : (n <= size l)%nat); [|lia]. apply (sizeF_top L mul HL n Hn H64 acc_log_ok); auto. rewrite (proj2 k_is), INR_IZR_INZ. now apply IZR_le.
  Qed.
  Lemma size_first_F : INR (size 0) < M * (1 + 4 * dd) + 1.
  Proof.
    destruct K_b as ((HK0 & HK) & _). destruct (size_near 0) as [_ H]; [cbn; lia|]. pose proof (pow_b 0 ltac:(cbn; lia)) as HP. change (Z.of_nat 0) with 0%Z in *. rewrite Z.sub_0_r in *.
    destruct K_pow as [_ H2]. rewrite powerRZ_add, powerRZ_1 in H2 by lra.
    set (p := powerRZ M K) in *. pose proof uu_b. pose proof dd_b. pose proof n_1.
    assert (Hr : INR n / p < M * (1 + 2 * dd)).
    { apply Rmult_lt_reg_r with p; [lra|]. unfold Rdiv. rewrite Rmult_assoc, Rinv_l, Rmult_1_r by lra. replace (M * (1 + 2 * dd) * p) with (p * M * (1 + 2 * dd)) by ring. lra. }
    eapply Rlt_trans; [exact H|]. apply Rplus_lt_compat_r. apply Rlt_le_trans with (M * (1 + 2 * dd) * (1 + 5 * uu)); [apply Rmult_lt_compat_r; lra|].
    rewrite Rmult_assoc. apply Rmult_le_compat_l; [lra|]. nra.
  Qed.
  Lemma size_growth_F l : INR (size (S l)) < M * INR (size l) * (1 + dd) + 1 /\
    (size (S l) = n \/ M * (INR (size l) - 1) < INR (size (S l)) * (1 + dd)).
  Proof.
    destruct (Z_lt_le_dec (Z.of_nat l) K) as [Hl|Hl].
    - destruct (size_near l ltac:(lia)) as [A1 A2], (size_near (S l) ltac:(lia)) as [B1 B2].
      pose proof (pow_b (S l) ltac:(lia)) as HP. 
      assert (Ep : P l = P (S l) * M). { replace (K - Z.of_nat l)%Z with ((K - Z.of_nat (S l)) + 1)%Z by lia. rewrite powerRZ_add by lra. rewrite powerRZ_1. ring. }
      rewrite Ep in A1, A2. set (p := P (S l)) in *. pose proof uu_b as Hu. pose proof dd_b as Hdd. pose proof n_1 as Hn1.
      assert (Eq : INR n / p = M * (INR n / (p * M))) by (field; lra). rewrite Eq in B1, B2.
      assert (Hx : 0 < INR n / (p * M)) by (apply Rmult_lt_0_compat; [lra|apply Rinv_0_lt_compat; nra]). set (x := INR n / (p * M)) in *.
      set (s := INR (size l)) in *. set (s' := INR (size (S l))) in *.
      assert (Hsx : x * (1 + 5 * uu) <= s * (1 + dd)).
      { apply Rle_trans with (x * (1 - 5 * uu) * (1 + dd)); [|apply Rmult_le_compat_r; lra]. rewrite Rmult_assoc. apply Rmult_le_compat_l; [lra|]. nra. }
      split; [|right].
      + eapply Rlt_le_trans; [exact B2|]. nra.
      + apply Rlt_le_trans with (M * (x * (1 + 5 * uu))); [apply Rmult_lt_compat_l; lra|].
        apply Rle_trans with (M * x * (1 - 5 * uu) * (1 + dd)); [|apply Rmult_le_compat_r; lra]. rewrite <- Rmult_assoc, (Rmult_assoc (M * x)). apply Rmult_le_compat_l; nra.
    - pose proof (size_full l Hl) as E1. assert (E2 : size (S l) = n) by (apply size_full; lia). rewrite E1, E2. split; [|now left].
      pose proof n_1 as Hn1. pose proof dd_b as Hdd. assert (H1 : INR n <= M * INR n) by nra. assert (H2 : 0 <= M * INR n * dd) by (apply Rmult_le_pos; lra). lra.
  Qed.
End Acc.

(** ** A correctly rounded library is accurate *)
Lemma err_close v x r : is_finite v = true -> B2R v = r -> err 1 r x -> close v x.
Proof.
  intros F E [H1 H2]. split; auto. rewrite E. unfold Rdiv. rewrite uu_is. apply Rabs_le. lra.
Qed.
Lemma ln_1_2 x : 1 < x -> x < 2 -> (x - 1) / 2 <= ln x.
Proof.
  intros H1 H2. eapply Rle_trans; [|apply ln_ge_frac; lra]. apply Rmult_le_reg_r with x; [lra|]. rewrite (Rmult_minus_distr_r x 1), Rinv_l by lra. nra.
Qed.
Lemma f64_above_1 (x : f64) : is_finite x = true -> 1 < B2R x -> 1 + bpow radix2 (-52) <= B2R x.
Proof.
  intros F H1. assert (Hs : generic_format radix2 fexp 1).
  { change 1 with (bpow radix2 0). apply generic_format_bpow. vm_compute. discriminate. }
  pose proof (succ_le_lt radix2 fexp 1 (B2R x) Hs (generic_format_B2R 53 1024 x) H1) as Hle.
  rewrite succ_eq_pos in Hle by lra. replace (ulp radix2 fexp 1) with (bpow radix2 (-52)) in Hle; auto.
  rewrite ulp_neq_0 by lra. unfold cexp. rewrite mag_1. reflexivity.
Qed.
Lemma cr_accurate : accurate cr_libm.
Proof.
  split; cbn [ln64 powf64 cr_libm].
  - intros x F H1. unfold cr_ln. rewrite F. pose proof (big_pos 1024) as Hb.
    destruct (Req_dec (B2R x) 1) as [E|Hne].
    + rewrite E, ln_1. assert (Er : rnd 0 = 0) by (apply round_0; auto with typeclass_instances).
      destruct (of_R_fin 0) as [F0 V0]; [rewrite Er; lra|]. apply err_close with 0; auto; [congruence|]. unfold err. lra.
    + assert (Hlo : bpow radix2 (-1000) <= ln (B2R x)).
      { apply Rle_trans with (bpow radix2 (-53)); [apply bpow_le; lia|]. pose proof (f64_above_1 x F ltac:(lra)) as Ha.
        assert (H52 : bpow radix2 (-52) = 2 * bpow radix2 (-53)). { change (-52)%Z with (1 + -53)%Z. rewrite bpow_plus. reflexivity. }
        assert (Hsm : 0 < bpow radix2 (-53) < / 4). { split; [apply bpow_gt_0|]. replace (/ 4) with (bpow radix2 (-2)) by reflexivity. apply bpow_lt. lia. }
        apply Rle_trans with (ln (1 + bpow radix2 (-52))).
        - pose proof (ln_1_2 (1 + bpow radix2 (-52))). lra.
        - destruct (Req_dec (1 + bpow radix2 (-52)) (B2R x)) as [->|]; [lra|]. left. apply ln_increasing; lra. }
      pose proof (bpow_gt_0 radix2 (-1000)) as H1000.
      assert (Hhi : ln (B2R x) < bpow radix2 1022).
      { pose proof (B2X_lt 53 1024 x F) as Hx. rewrite B2X_finite in Hx by auto. apply Rle_lt_trans with (ln big).
        - left. apply ln_increasing; lra.
        - rewrite bpow_powerRZ. change (IZR (radix_val radix2)) with 2. rewrite powerRZ_Rpower by lra. unfold Rpower. rewrite ln_exp.
          pose proof ln2_bounds. apply Rle_lt_trans with (bpow radix2 10); [change (bpow radix2 10) with 1024; lra|]. apply bpow_lt. lia. }
      pose proof (rnd_2 _ Hlo) as Hr.
      assert (2 * bpow radix2 1022 <= bpow radix2 1023). { change 1023%Z with (1 + 1022)%Z. rewrite (bpow_plus radix2 1). change (bpow radix2 1) with 2. lra. }
      assert (bpow radix2 1023 < big) by (apply bpow_lt; lia).
      destruct (of_R_fin (ln (B2R x))) as [F0 V0]; [lra|]. apply err_close with (rnd (ln (B2R x))); auto. now apply rnd_err.
  - intros x y Fx Fy H1 [Hp1 Hp2]. rewrite pow_fin by exact Fy. set (p := Rpower (B2R x) (B2R y)) in *.
    assert (Hlo : bpow radix2 (-1000) <= p). { apply Rle_trans with (bpow radix2 0); [apply bpow_le; lia|exact Hp1]. }
    pose proof (rnd_2 _ Hlo) as Hr. assert (Hb : 2 * 2 ^ 64 < big). { rewrite big_is. apply Rle_lt_trans with (IZR (2 ^ 65)); [right; change (IZR (2 ^ 65)) with 36893488147419103232; lra|]. apply IZR_lt. reflexivity. }
    pose proof (big_pos 1024). destruct (of_R_fin p) as [F0 V0]; [lra|]. apply err_close with (rnd p); auto. now apply rnd_err.
Qed.
