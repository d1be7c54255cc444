(** * Quantisation *)
From Coq Require Import ZArith Reals Lra Lia Psatz.
From Flocq Require Import Core Relative IEEE754.BinarySingleNaN.
From Verif Require Import Base BaseFacts MFloat MAngular SAngular PF32 PAng.
Close Scope R_scope.
Open Scope R_scope.
Set Implicit Arguments. Unset Strict Implicit.

(** an integer multiple of a float never underflows *)
Lemma rel32_int (k : Z) (x : f32) : exists e, Rabs e <= u32 /\ rnd32 (B2R x * IZR k) = B2R x * IZR k * (1 + e).
Proof.
  destruct (Rle_or_lt (bpow radix2 (-126)) (Rabs (B2R x * IZR k))) as [H|H]; [now apply rel32|].
  exists 0. rewrite Rabs_R0. split; [pose proof u32_pos; lra|]. rewrite Rplus_0_r, Rmult_1_r.
  apply round_generic; auto with typeclass_instances.
  change fexp32 with (FLT_exp (-149) 24).
  apply generic_format_FLT_FIX; [reflexivity| |].
  - apply Rle_trans with (bpow radix2 (-126)); [lra|]. apply bpow_le. lia.
  - pose proof (generic_format_B2R 24 128 x) as G.
    assert (G' : generic_format radix2 (FIX_exp (-149)) (B2R x)) by (apply (generic_format_FIX_FLT radix2 (-149) 24); exact G).
    apply FIX_format_generic in G' as [f Ef He].
    apply generic_format_FIX. exists (Float radix2 (Fnum f * k) (-149)); [|reflexivity].
    rewrite Ef. unfold F2R. cbn [Fnum Fexp]. rewrite He, mult_IZR. ring.
Qed.

Lemma btrunc (x : f32) : Btrunc x = Ztrunc (B2R x).
Proof.
  apply eq_IZR. rewrite (Btrunc_correct 24 128) by reflexivity. unfold round, scaled_mantissa, cexp, FIX_exp, F2R. cbn [Fnum Fexp].
  change (- 0)%Z with 0%Z. change (bpow radix2 0) with 1. now rewrite !Rmult_1_r.
Qed.

(** the value of a concrete float *)
Lemma lit_R (t : f32) s m e : B2SF t = SpecFloat.S754_finite s m e -> is_finite t = true /\ B2R t = IZR (cond_Zopp s (Z.pos m)) * bpow radix2 e.
Proof. intros H. rewrite <- SF2R_B2SF, H. split; [|reflexivity]. destruct t; try discriminate; reflexivity. Qed.

Lemma q127 : is_finite MAX_QVALUE = true /\ B2R MAX_QVALUE = 127.
Proof.
  destruct (@lit_R MAX_QVALUE false 16646144 (-17)) as [F E]; [vm_compute; reflexivity|]. split; [exact F|].
  rewrite E. cbn [cond_Zopp]. change (bpow radix2 (-17)) with (/ 131072). lra.
Qed.

Definition K127 : f32 := binary_normalize 24 128 _ _ mode_NE (127 * 2 ^ 17 + 1) (-17) false.
Lemma K127_R : is_finite K127 = true /\ B2R K127 = 127 + / 131072.
Proof.
  destruct (@lit_R K127 false 16646145 (-17)) as [F E]; [vm_compute; reflexivity|]. split; [exact F|].
  rewrite E. cbn [cond_Zopp]. change (bpow radix2 (-17)) with (/ 131072). lra.
Qed.

(** the bounds of the assertion *)
Lemma hi_R : is_finite (f32_add MAX_QVALUE f32_1em4) = true /\ 127 + / 131072 <= B2R (f32_add MAX_QVALUE f32_1em4).
Proof.
  destruct (@lit_R (f32_add MAX_QVALUE f32_1em4) false 16646157 (-17)) as [F E]; [vm_compute; reflexivity|]. split; [exact F|].
  rewrite E. cbn [cond_Zopp]. change (bpow radix2 (-17)) with (/ 131072). lra.
Qed.
Lemma lo_R : is_finite (f32_sub (Bopp MAX_QVALUE) f32_1em4) = true /\ B2R (f32_sub (Bopp MAX_QVALUE) f32_1em4) <= - (127 + / 131072).
Proof.
  destruct (@lit_R (f32_sub (Bopp MAX_QVALUE) f32_1em4) true 16646157 (-17)) as [F E]; [vm_compute; reflexivity|]. split; [exact F|].
  rewrite E. cbn [cond_Zopp Z.opp]. change (bpow radix2 (-17)) with (/ 131072). lra.
Qed.

Section One.
  Variables (M x : f32).
  Hypothesis (FM : is_finite M = true) (Fx : is_finite x = true) (HM : 0 < B2R M <= bpow radix2 121) (Hx : Rabs (B2R x) <= B2R M).

  Let p := f32_mul x MAX_QVALUE.
  Let vi := f32_div p M.
  Lemma p_R : is_finite p = true /\ B2R p = rnd32 (B2R x * 127).
  Proof.
    destruct q127 as [Fq Eq]. unfold p. rewrite <- Eq. apply mul_finite; auto.
    rewrite Eq. destruct (rel32_int 127 x) as (e & He & E). rewrite E. pose proof u32_pos. apply Rabs_le_inv in He.
    rewrite !Rabs_mult. rewrite (Rabs_pos_eq 127), (Rabs_pos_eq (1 + e)) by lra.
    apply Rle_lt_trans with (bpow radix2 121 * 127 * (1 + / 1000000)).
    - apply Rmult_le_compat; try lra. apply Rmult_le_pos; [apply Rabs_pos|lra].
    - replace big32 with (bpow radix2 121 * 128) by (change 128 with (bpow radix2 7); rewrite <- bpow_plus; reflexivity).
      pose proof (bpow_gt_0 radix2 121). nra.
  Qed.
  Lemma pq_R : exists e, Rabs e <= u32 /\ B2R p = B2R x * 127 * (1 + e).
  Proof. destruct p_R as [_ E]. rewrite E. apply (rel32_int 127). Qed.

  Lemma quo_bound : Rabs (B2R p / B2R M) <= 127 * (1 + u32).
  Proof.
    destruct pq_R as (e & He & E). rewrite E. pose proof u32_pos. apply Rabs_le_inv in He.
    unfold Rdiv. rewrite !Rabs_mult, Rabs_inv. rewrite (Rabs_pos_eq 127), (Rabs_pos_eq (B2R M)), (Rabs_pos_eq (1 + e)) by lra.
    apply Rmult_le_reg_r with (B2R M); [lra|]. rewrite Rmult_assoc, Rinv_l, Rmult_1_r by lra.
    apply Rle_trans with (B2R M * 127 * (1 + u32)); [|lra]. apply Rmult_le_compat; try lra. apply Rmult_le_pos; [apply Rabs_pos|lra].
  Qed.

  Lemma vi_R : is_finite vi = true /\ B2R vi = rnd32 (B2R p / B2R M) /\ Rabs (B2R vi) <= 127 + / 131072.
  Proof.
    destruct p_R as [Fp _]. pose proof quo_bound as Q. destruct K127_R as [_ EK]. apply Rabs_le_inv in Q.
    assert (HK : 127 * (1 + u32) <= B2R K127) by (rewrite EK; unfold u32; lra).
    assert (B : Rabs (rnd32 (B2R p / B2R M)) <= 127 + / 131072).
    { rewrite <- EK. apply Rabs_le. split.
      - rewrite <- (rnd32_id K127), <- rnd32_opp. apply rnd32_le. lra.
      - rewrite <- (rnd32_id K127). apply rnd32_le. lra. }
    destruct (@div_finite p M Fp) as [F E].
    - lra.
    - pose proof big32_gt. lra.
    - unfold vi. rewrite E. auto.
  Qed.

  Lemma vi_i8 : f32_to_i8 vi = Ztrunc (B2R vi) /\ (-127 <= Ztrunc (B2R vi) <= 127)%Z.
  Proof.
    destruct vi_R as (F & _ & B). apply Rabs_le_inv in B.
    assert (T : (-127 <= Ztrunc (B2R vi) <= 127)%Z).
    { split.
      - replace (-127)%Z with (Ztrunc (- (127 + / 131072))).
        + apply Ztrunc_le. lra.
        + rewrite Ztrunc_opp. rewrite Ztrunc_floor by lra. rewrite (Zfloor_imp 127); [reflexivity|]. rewrite plus_IZR. lra.
      - replace 127%Z with (Ztrunc (127 + / 131072)).
        + apply Ztrunc_le. lra.
        + rewrite Ztrunc_floor by lra. apply Zfloor_imp. rewrite plus_IZR. lra. }
    split; [|exact T]. rewrite <- btrunc in *. unfold f32_to_i8.
    destruct vi; try discriminate; lia.
  Qed.

  Lemma quant1_ok m : quantize1 m M x = Ok (Ztrunc (B2R vi)).
  Proof.
    unfold quantize1. fold p. fold vi. destruct vi_R as (F & _ & B). apply Rabs_le_inv in B.
    destruct lo_R as [FL L]. destruct hi_R as [FH H].
    rewrite (Bleb_correct 24 128 _ _ FL F), (Bleb_correct 24 128 _ _ F FH).
    rewrite !Rle_bool_true by lra. cbn [andb]. rewrite (proj1 vi_i8). now destruct m.
  Qed.

  (** how far from the exact value *)
  Lemma vi_close : exists e, Rabs e <= 128.5 * u32 * 2 /\ B2R vi = 127 * B2R x / B2R M + e.
  Proof.
    destruct vi_R as (_ & E & B). exists (B2R vi - 127 * B2R x / B2R M). split; [|ring].
    pose proof quo_bound as Q. destruct pq_R as (e & He & Ep).
    destruct (abs32 (B2R p / B2R M)) as (f & h & Hf & Hh & Er). rewrite E, Er.
    set (t := B2R x / B2R M). assert (Ht : Rabs t <= 1).
    { unfold t, Rdiv. rewrite Rabs_mult, Rabs_inv, (Rabs_pos_eq (B2R M)) by lra.
      apply Rmult_le_reg_r with (B2R M); [lra|]. rewrite Rmult_assoc, Rinv_l, Rmult_1_r by lra. lra. }
    replace (B2R p / B2R M) with (127 * t * (1 + e)) in * by (rewrite Ep; unfold t; field; lra).
    replace (127 * B2R x / B2R M) with (127 * t) by (unfold t; field; lra).
    replace (127 * t * (1 + e) * (1 + f) + h - 127 * t) with (127 * t * (e + f + e * f) + h) by ring.
    apply Rabs_le_inv in He, Hf, Hh, Ht.
    assert (Htiny : / 2 * bpow radix2 (-149) <= u32 * / 4).
    { replace (u32 * / 4) with (bpow radix2 (-26)) by (unfold u32; change (bpow radix2 (-26)) with (/ 67108864); lra).
      change (/ 2) with (bpow radix2 (-1)). rewrite <- bpow_plus. apply bpow_le. lia. }
    assert (Hef : Rabs (e * f) <= u32 * u32) by (rewrite Rabs_mult; apply Rmult_le_compat; try apply Rabs_pos; apply Rabs_le; lra).
    apply Rabs_le_inv in Hef.
    assert (H1 : Rabs (127 * t * (e + f + e * f)) <= 127 * (u32 * 2.001)).
    { rewrite Rabs_mult. apply Rmult_le_compat; try apply Rabs_pos; apply Rabs_le; unfold u32 in *; lra. }
    apply Rabs_le_inv in H1. apply Rabs_le. unfold u32 in *. lra.
  Qed.
End One.

(** monotone *)
Lemma vi_mono (M x y : f32) : is_finite M = true -> is_finite x = true -> is_finite y = true -> 0 < B2R M <= bpow radix2 121 ->
  Rabs (B2R x) <= B2R M -> Rabs (B2R y) <= B2R M -> B2R x <= B2R y ->
  B2R (f32_div (f32_mul x MAX_QVALUE) M) <= B2R (f32_div (f32_mul y MAX_QVALUE) M).
Proof.
  intros FM Fx Fy HM Hx Hy Hxy.
  destruct (vi_R Fx HM Hx) as (_ & Ex & _). destruct (vi_R Fy HM Hy) as (_ & Ey & _).
  destruct (p_R Fx HM Hx) as [_ Px]. destruct (p_R Fy HM Hy) as [_ Py].
  rewrite Ex, Ey. apply rnd32_le. apply Rmult_le_compat_r; [apply Rlt_le, Rinv_0_lt_compat; lra|].
  rewrite Px, Py. apply rnd32_le. lra.
Qed.

(** ** The largest magnitude *)
Lemma omap_abs s : finite_vec s -> omapM (fun x : f32 => notnan (Babs x)) s = Ok (map (fun x => Babs x) s).
Proof.
  induction 1 as [|v s Hv _ IH]; [reflexivity|]. cbn [omapM map]. unfold notnan at 1.
  replace (is_nan (Babs v)) with false by (destruct v; auto; discriminate). cbn [obind]. rewrite IH. reflexivity.
Qed.

Lemma max_mag_nonneg s : 0 <= max_mag s.
Proof. induction s as [|v s IH]; cbn; [lra|]. eapply Rle_trans; [exact IH|apply Rmax_r]. Qed.
Lemma max_mag_in s v : In v s -> Rabs (B2R v) <= max_mag s.
Proof.
  induction s as [|w s IH]; cbn [In max_mag]; [tauto|]. intros [->|H]; [apply Rmax_l|]. eapply Rle_trans; [now apply IH|apply Rmax_r].
Qed.
Lemma max_mag_attained s : s <> [] -> exists v, In v s /\ Rabs (B2R v) = max_mag s.
Proof.
  induction s as [|w s IH]; [tauto|]. intros _. cbn [max_mag].
  destruct s as [|w' s].
  - exists w. split; [now left|]. cbn. rewrite Rmax_left; auto. apply Rabs_pos.
  - destruct IH as (v & Hv & E); [discriminate|]. unfold Rmax. destruct (Rle_dec _ _).
    + exists v. split; [now right|auto].
    + exists w. split; [now left|auto].
Qed.
Lemma max_mag_le s b : 0 <= b -> Forall (fun v => Rabs (B2R v) <= b) s -> max_mag s <= b.
Proof. intros Hb. induction 1 as [|v s Hv _ IH]; cbn; [auto|]. now apply Rmax_lub. Qed.

Lemma fold_max s : finite_vec s -> forall a : f32, is_finite a = true -> 0 <= B2R a ->
  exists M : f32, fold_left (fun (acc : option f32) x => match acc with None => Some x | Some a => Some (if Bltb x a then a else x) end) (map (fun x => Babs x) s) (Some a) = Some M /\
    is_finite M = true /\ B2R M = Rmax (B2R a) (max_mag s).
Proof.
  induction 1 as [|v s Hv _ IH]; intros a Fa Ha; cbn [map fold_left max_mag].
  - exists a. rewrite Rmax_left by auto. auto.
  - assert (Fv : is_finite (Babs v) = true) by now rewrite is_finite_Babs.
    assert (Ev : B2R (Babs v) = Rabs (B2R v)) by apply B2R_Babs.
    rewrite (Bltb_correct 24 128 _ _ Fv Fa). destruct (Rlt_bool_spec (B2R (Babs v)) (B2R a)) as [H|H].
    + destruct (IH a Fa Ha) as (M & E & F & EM). exists M. repeat split; auto. rewrite EM, Rmax_assoc, (Rmax_left (B2R a) (Rabs (B2R v))) by lra. reflexivity.
    + destruct (IH (Babs v) Fv) as (M & E & F & EM); [rewrite Ev; apply Rabs_pos|]. exists M. repeat split; auto.
      rewrite EM, Rmax_assoc, (Rmax_right (B2R a) (Rabs (B2R v))) by lra. now rewrite Ev.
Qed.

Lemma max_abs_R s : finite_vec s -> s <> [] ->
  exists M : f32, max_abs s = Ok (Some M) /\ is_finite M = true /\ B2R M = max_mag s.
Proof.
  intros H Hn. unfold max_abs. rewrite omap_abs by auto. cbn [obind].
  destruct H as [|v s Hv H]; [tauto|]. cbn [map fold_left max_mag].
  destruct (@fold_max s H (Babs v)) as (M & E & F & EM).
  - now rewrite is_finite_Babs.
  - rewrite B2R_Babs. apply Rabs_pos.
  - exists M. split; [f_equal; exact E|]. split; [exact F|]. rewrite EM, B2R_Babs. reflexivity.
Qed.

(** ** The vector *)
Definition qval (M x : f32) : Z := Ztrunc (B2R (f32_div (f32_mul x MAX_QVALUE) M)).

Lemma quantize_ok m s : finite_vec s -> s <> [] -> 0 < max_mag s <= bpow radix2 121 ->
  exists M : f32, is_finite M = true /\ B2R M = max_mag s /\ quantize m s = Ok (map (qval M) s).
Proof.
  intros H Hn Hm. destruct (max_abs_R H Hn) as (M & E & F & EM). exists M. repeat split; auto.
  unfold quantize. rewrite E. cbn [obind].
  assert (G : forall l, incl l s -> omapM (quantize1 m M) l = Ok (map (qval M) l)).
  { induction l as [|v l IH]; intros Hi; [reflexivity|]. cbn [omapM map].
    assert (Hv : In v s) by (apply Hi; now left).
    rewrite (@quant1_ok M v).
    - cbn [obind]. rewrite IH; [reflexivity|]. intros w Hw. apply Hi. now right.
    - unfold finite_vec in H. rewrite Forall_forall in H. auto.
    - rewrite EM. auto.
    - rewrite EM. now apply max_mag_in. }
  apply G. apply incl_refl.
Qed.
