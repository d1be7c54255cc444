(** * C81: quantisation and distances *)
From Coq Require Import ZArith Reals Lra Lia Psatz.
From Flocq Require Import Core IEEE754.BinarySingleNaN.
From Verif Require Import Base BaseFacts MFloat MAngular SAngular SQuant PF32 PAngInt PQuant PNormal PAngle TAngular TVectors.
Close Scope R_scope.
Open Scope nat_scope.

Lemma trunc_near v : (Rabs (IZR (Ztrunc v) - v) <= 1)%R.
Proof.
  destruct (Rle_or_lt 0 v) as [H|H].
  - rewrite Ztrunc_floor by auto. pose proof (Zfloor_lb v). pose proof (Zfloor_ub v). apply Rabs_le. lra.
  - rewrite Ztrunc_ceil by lra. pose proof (Zceil_ub v). pose proof (Zceil_lb v). apply Rabs_le. lra.
Qed.

Lemma forall2_nth {A B} (P : A -> B -> Prop) : forall x y, length y = length x ->
  (forall i a b, nth_error x i = Some a -> nth_error y i = Some b -> P a b) -> Forall2 P x y.
Proof.
  induction x as [|a x IH]; intros [|b y] L H; cbn in L; try discriminate; constructor.
  - exact (H 0 a b eq_refl eq_refl).
  - apply IH; [congruence|]. intros i. exact (H (Datatypes.S i)).
Qed.

Lemma max_mag_rdot x : (0 < max_mag x)%R -> (0 < rdot x x /\ max_mag x <= sqrt (rdot x x))%R.
Proof.
  intros H. assert (N : x <> []) by (intros ->; cbn in H; lra). destruct (max_mag_attained N) as (v & Hv & E).
  pose proof (rdot_ge Hv) as G. assert (EE : (B2R v * B2R v = max_mag x * max_mag x)%R) by (rewrite <- E, <- Rabs_mult, Rabs_pos_eq by nra; reflexivity).
  rewrite EE in G. split; [nra|]. rewrite <- (sqrt_square (max_mag x)) by lra. now apply sqrt_le_1_alt.
Qed.

Lemma coarseness_nonneg x : (0 < max_mag x)%R -> (0 <= coarseness x)%R.
Proof.
  intros H. destruct (max_mag_rdot _ H) as [X _]. pose proof (sqrt_lt_R0 _ X). pose proof (sqrt_pos (INR (length x))). pose proof (bpow_gt_0 radix2 (-15)).
  unfold coarseness, Rdiv. apply Rmult_le_pos; [|left; apply Rinv_0_lt_compat; lra]. apply Rmult_le_pos; [|lra]. apply Rmult_le_pos; lra.
Qed.

(** the quantised vector is the vector, scaled, up to its coarseness *)
Lemma quantised m x : finite_vec x -> (0 < max_mag x <= bpow radix2 121)%R ->
  exists q, quantize m x = Ok q /\ length q = length x /\ i8s q /\ ~ zero_vec q /\
    let a := map (Rmult (127 / max_mag x)) (map B2R x) in let b := map IZR q in
    (0 < dotR a a /\ 0 < dotR b b /\ 0 <= dotR a b /\
     dotR a a + dotR b b - 2 * dotR a b <= coarseness x * coarseness x * dotR a a)%R.
Proof.
  intros Fx Mx. destruct (C53_quantise m x Fx Mx) as (q & Q & L & C & _). exists q. split; [exact Q|]. split; [exact L|].
  set (M := max_mag x) in *.
  assert (I8 : i8s q).
  { apply Forall_forall. intros k Hk. apply In_nth_error in Hk as [i Hi]. destruct (nth_error x i) as [v|] eqn:Ex.
    - destruct (C i v k Ex Hi) as (? & _). lia.
    - apply nth_error_None in Ex. assert (W : nth_error q i <> None) by congruence. apply nth_error_Some in W. lia. }
  assert (N : x <> []) by (intros ->; cbn in M; unfold M in Mx; lra).
  assert (NZ : ~ zero_vec q).
  { destruct (max_mag_attained N) as (v & Hv & E). apply In_nth_error in Hv as [i Hi].
    destruct (nth_error q i) as [k|] eqn:Ek.
    - destruct (C i v k Hi Ek) as (_ & _ & _ & _ & K). specialize (K E). intros Z. unfold zero_vec in Z. rewrite Forall_forall in Z.
      specialize (Z k (nth_error_In _ _ Ek)). lia.
    - apply nth_error_None in Ek. assert (W : i < length x) by (apply nth_error_Some; intros W; pose proof (eq_trans (eq_sym Hi) W); discriminate). rewrite <- L in W. apply Nat.lt_nge in W. contradiction. }
  split; [exact I8|]. split; [exact NZ|]. cbv zeta.
  destruct (max_mag_rdot x (proj1 Mx)) as [X XM]. fold M in XM.
  assert (S127 : (0 < 127 / M)%R) by (apply Rdiv_lt_0_compat; lra).
  assert (A : (dotR (map (Rmult (127 / M)) (map B2R x)) (map (Rmult (127 / M)) (map B2R x)) = 127 / M * (127 / M) * rdot x x)%R) by (rewrite dotR_scale, dotR_f; reflexivity).
  assert (B : (0 < dotR (map IZR q) (map IZR q))%R).
  { rewrite dotR_Z. apply IZR_lt. pose proof (zdot_nonneg q). destruct (Z.eq_dec (zdot q q) 0) as [E|E]; [|lia]. elim NZ. now apply zdot_zero. }
  pose proof (bpow_gt_0 radix2 (-15)) as P15.
  assert (F2 : Forall2 (fun a b => (Rabs (b - a) <= 1 + bpow radix2 (-15) /\ 0 <= a * b)%R) (map (Rmult (127 / M)) (map B2R x)) (map IZR q)).
  { apply forall2_nth; [rewrite !map_length; exact L|]. intros i a b Ha Hb.
    rewrite map_map, nth_error_map in Ha. rewrite nth_error_map in Hb.
    match type of Ha with option_map _ ?u = _ => destruct u as [v|] eqn:Ev end; [|discriminate Ha].
    match type of Hb with option_map _ ?u = _ => destruct u as [k|] eqn:Ek end; [|discriminate Hb].
    cbn in Ha, Hb. assert (Ea : a = (127 / M * B2R v)%R) by congruence. assert (Eb : b = IZR k) by congruence.
    destruct (C i v k Ev Ek) as (_ & (u & Hu & Ku) & Kp & Kn & _). split.
    - rewrite Ea, Eb, Ku. pose proof (trunc_near u) as T. apply Rabs_le_inv in T, Hu.
      replace (127 * B2R v / M)%R with (127 / M * B2R v)%R in Hu by (field; lra). apply Rabs_le. lra.
    - rewrite Ea, Eb. destruct (Rle_or_lt 0 (B2R v)) as [H|H].
      + specialize (Kp H). apply IZR_le in Kp. repeat apply Rmult_le_pos; lra.
      + specialize (Kn ltac:(lra)). apply IZR_le in Kn. replace (127 / M * B2R v * IZR k)%R with (127 / M * (- B2R v * - IZR k))%R by ring.
        repeat apply Rmult_le_pos; lra. }
  split; [rewrite A; apply Rmult_lt_0_compat; [nra|exact X]|]. split; [exact B|]. split.
  - apply dotR_same_sign. clear -F2. induction F2 as [|a b ? ? [_ H]]; constructor; auto.
  - eapply Rle_trans.
    + apply dotR_close with (d := (1 + bpow radix2 (-15))%R); [lra|]. clear -F2. induction F2 as [|a b ? ? [H _]]; constructor; auto.
    + rewrite A, !map_length. apply Req_le. unfold coarseness. fold M.
      pose proof (sqrt_lt_R0 _ X) as sX. pose proof (sqrt_sqrt (rdot x x) ltac:(lra)) as EX.
      pose proof (sqrt_sqrt (INR (length x)) (pos_INR _)) as EN.
      set (n := INR (length x)) in *. set (s := sqrt (rdot x x)) in *. set (sn := sqrt n) in *. set (d := (1 + bpow radix2 (-15))%R).
      match goal with |- (INR ?u * _ = _)%R => change (INR u) with n end. rewrite <- EX, <- EN. field. lra.
Qed.

(** The int8 distance of two quantised vectors is one minus the cosine of the angle
    of the vectors given, up to the coarseness of the two. *)
Theorem C81_quantised_distance :
  forall m x y, finite_vec x -> finite_vec y -> length x = length y -> (Z.of_nat (length x) <= 131071)%Z ->
    (0 < max_mag x <= bpow radix2 121)%R -> (0 < max_mag y <= bpow radix2 121)%R ->
    exists qx qy d, quantize m x = Ok qx /\ quantize m y = Ok qy /\ angular_int_dist m qx qy = Ok d /\ is_finite d = true /\
      (Rabs (B2R d - (1 - fcosine x y)) <= sqrt 2 * (coarseness x + coarseness y) + bpow radix2 (-20))%R.
Proof.
  intros m x y Fx Fy Hl Hn Mx My.
  destruct (quantised m x Fx Mx) as (qx & Qx & Lx & Ix & Nx & Ax & Bx & ABx & Dx). destruct (quantised m y Fy My) as (qy & Qy & Ly & Iy & Ny & Ay & By & ABy & Dy).
  assert (Lq : length qx = length qy) by congruence.
  destruct (C52_accurate m qx qy Ix Iy Lq ltac:(rewrite Lx; exact Hn) Nx Ny) as (d & E & F & A & _).
  exists qx, qy, d. split; [exact Qx|]. split; [exact Qy|]. split; [exact E|]. split; [exact F|].
  destruct (max_mag_rdot x (proj1 Mx)) as [X _]. destruct (max_mag_rdot y (proj1 My)) as [Y _].
  assert (Cq : cosine qx qy = cosR (map IZR qx) (map IZR qy)) by (unfold cosine, cosR; rewrite !dotR_Z; reflexivity).
  assert (Cx : fcosine x y = cosR (map (Rmult (127 / max_mag x)) (map B2R x)) (map (Rmult (127 / max_mag y)) (map B2R y))).
  { rewrite cosR_scale by (rewrite ?dotR_f; auto; apply Rdiv_lt_0_compat; lra). unfold fcosine, cosR. rewrite !dotR_f. reflexivity. }
  cbv zeta in *.
  assert (L1 : length (map (Rmult (127 / max_mag x)) (map B2R x)) = length (map (Rmult (127 / max_mag y)) (map B2R y))) by (rewrite !map_length; exact Hl).
  assert (L2 : length (map IZR qx) = length (map (Rmult (127 / max_mag x)) (map B2R x))) by (rewrite !map_length; exact Lx).
  assert (L3 : length (map IZR qy) = length (map (Rmult (127 / max_mag y)) (map B2R y))) by (rewrite !map_length; exact Ly).
  pose proof (coarseness_nonneg x (proj1 Mx)) as Px. pose proof (coarseness_nonneg y (proj1 My)) as Py.
  clear - Ax Bx ABx Dx Ay By ABy Dy L1 L2 L3 Px Py Cq Cx A.
  set (ax := map (Rmult (127 / max_mag x)) (map B2R x)) in *. set (ay := map (Rmult (127 / max_mag y)) (map B2R y)) in *.
  set (bx := map IZR qx) in *. set (by' := map IZR qy) in *. clearbody ax ay bx by'.
  pose proof (@angle_move2 ax ay bx by' (coarseness x) (coarseness y) L1 L2 L3 Ax Ay Bx By ABx ABy Px Py Dx Dy) as K.
  rewrite <- Cq, <- Cx in K. replace (B2R d - (1 - fcosine x y))%R with ((B2R d - (1 - cosine qx qy)) + - (cosine qx qy - fcosine x y))%R by ring.
  eapply Rle_trans; [apply Rabs_triang|]. rewrite Rabs_Ropp. lra.
Qed.
Print Assumptions C81_quantised_distance.

(** The coarseness lies between 1/127 and the square root of the dimension over 127
    (times 1 + 2^-15); a vector whose components all have the same magnitude has the
    least. *)
Theorem C81_coarseness :
  forall x, (0 < max_mag x)%R ->
    ((1 + bpow radix2 (-15)) / 127 <= coarseness x <= (1 + bpow radix2 (-15)) * sqrt (INR (length x)) / 127 /\
     ((forall v, In v x -> Rabs (B2R v) = max_mag x) -> coarseness x = (1 + bpow radix2 (-15)) / 127))%R.
Proof.
  intros x H. destruct (max_mag_rdot x H) as [X XM]. pose proof (sqrt_lt_R0 _ X) as sX. pose proof (bpow_gt_0 radix2 (-15)) as P15. split.
  - assert (U : (sqrt (rdot x x) <= sqrt (INR (length x)) * max_mag x)%R).
    { rewrite <- (sqrt_square (max_mag x)) at 1 by lra. rewrite <- sqrt_mult_alt by apply pos_INR. apply sqrt_le_1_alt. apply rdot_le; [lra|].
      apply Forall_forall. intros v Hv. now apply max_mag_in. }
    unfold coarseness. set (d := (1 + bpow radix2 (-15))%R) in *. pose proof (sqrt_pos (INR (length x))) as Np. set (n := sqrt (INR (length x))) in *. set (s := sqrt (rdot x x)) in *.
    split.
    { replace (d * n * max_mag x / (127 * s))%R with (d / 127 * (n * max_mag x / s))%R by (field; lra).
      rewrite <- (Rmult_1_r (d / 127)) at 1. apply Rmult_le_compat_l; [unfold d; lra|].
      apply Rmult_le_reg_r with s; auto. unfold Rdiv. rewrite Rmult_assoc, Rinv_l by lra. lra. }
    replace (d * n * max_mag x / (127 * s))%R with (d * n / 127 * (max_mag x / s))%R by (field; lra).
    rewrite <- (Rmult_1_r (d * n / 127)) at 2. apply Rmult_le_compat_l.
    + unfold Rdiv. apply Rmult_le_pos; [apply Rmult_le_pos; unfold d; lra|lra].
    + apply Rmult_le_reg_r with s; auto. unfold Rdiv. rewrite Rmult_assoc, Rinv_l by lra. lra.
  - intros S. assert (E : (rdot x x = INR (length x) * (max_mag x * max_mag x))%R).
    { assert (G : forall l, incl l x -> (rdot l l = INR (length l) * (max_mag x * max_mag x))%R).
      { induction l as [|v l IH]; intros I; [cbn; ring|]. cbn [rdot length]. rewrite S_INR, IH by (intros u Hu; apply I; now right).
        assert ((B2R v * B2R v = max_mag x * max_mag x)%R) as ->; [|ring]. rewrite <- (S v) by (apply I; now left). rewrite <- Rabs_mult, Rabs_pos_eq by nra. reflexivity. }
      apply G, incl_refl. }
    unfold coarseness. rewrite E. pose proof (pos_INR (length x)). rewrite sqrt_mult, sqrt_square by nra.
    assert (0 < sqrt (INR (length x)))%R by (apply sqrt_lt_R0; nra). field. lra.
Qed.
Print Assumptions C81_coarseness.

(** Which of two vectors is nearer to a third does not change by quantisation, if
    their distances differ by more than the error. *)
Theorem C81_order_kept :
  forall m x y z, finite_vec x -> finite_vec y -> finite_vec z -> length x = length y -> length x = length z -> (Z.of_nat (length x) <= 131071)%Z ->
    (0 < max_mag x <= bpow radix2 121)%R -> (0 < max_mag y <= bpow radix2 121)%R -> (0 < max_mag z <= bpow radix2 121)%R ->
    (sqrt 2 * (2 * coarseness x + coarseness y + coarseness z) + 2 * bpow radix2 (-20) < fcosine x y - fcosine x z)%R ->
    exists qx qy qz d e, quantize m x = Ok qx /\ quantize m y = Ok qy /\ quantize m z = Ok qz /\
      angular_int_dist m qx qy = Ok d /\ angular_int_dist m qx qz = Ok e /\ Bltb d e = true.
Proof.
  intros m x y z Fx Fy Fz Hy Hz Hn Mx My Mz G.
  destruct (C81_quantised_distance m x y Fx Fy Hy Hn Mx My) as (qx & qy & d & Qx & Qy & D & Fd & Ed).
  destruct (C81_quantised_distance m x z Fx Fz Hz Hn Mx Mz) as (qx' & qz & e & Qx' & Qz & D' & Fe & Ee).
  assert (qx' = qx) by congruence. subst qx'. exists qx, qy, qz, d, e. repeat (split; [assumption|]).
  rewrite Bltb_correct by auto. apply Rlt_bool_true. apply Rabs_le_inv in Ed, Ee. lra.
Qed.
Print Assumptions C81_order_kept.

(** Both kinds of index give nearly the same distance for the same two vectors. *)
Theorem C81_kinds_agree :
  forall m x y, finite_vec x -> finite_vec y -> length x = length y -> (Z.of_nat (rounds (length x)) <= 10000)%Z -> (Z.of_nat (length x) <= 131071)%Z ->
    scaled x -> scaled y ->
    exists qx qy d e, quantize m x = Ok qx /\ quantize m y = Ok qy /\ angular_int_dist m qx qy = Ok d /\
      angular_dist (angular_vector x) (angular_vector y) = Ok e /\ is_finite d = true /\ is_finite e = true /\
      (Rabs (B2R d - B2R e) <= sqrt 2 * (coarseness x + coarseness y) + bpow radix2 (-20) + (2.01 * INR (rounds (length x)) + 8) * bpow radix2 (-24))%R.
Proof.
  intros m x y Fx Fy Hl Hk Hn Sx Sy.
  assert (B : forall v, scaled v -> (0 < max_mag v <= bpow radix2 121)%R).
  { intros v [A B]. pose proof (bpow_gt_0 radix2 (-50)). pose proof (bpow_le radix2 50 121 ltac:(lia)). lra. }
  destruct (C81_quantised_distance m x y Fx Fy Hl Hn (B x Sx) (B y Sy)) as (qx & qy & d & Qx & Qy & D & Fd & Ed).
  destruct (C63_accurate x y Fx Fy Hl Hk Sx Sy) as (e & E & Fe & _ & Ee).
  exists qx, qy, d, e. repeat (split; [assumption|]).
  replace (B2R d - B2R e)%R with ((B2R d - (1 - fcosine x y)) + - (B2R e - (1 - fcosine x y)))%R by ring.
  eapply Rle_trans; [apply Rabs_triang|]. rewrite Rabs_Ropp. lra.
Qed.
Print Assumptions C81_kinds_agree.

(** Three vectors that meet the hypotheses of all of the above. *)
Lemma one_R (b : bool) : (B2R (f32_of_Z (if b then -1 else 1)%Z) = if b then -1 else 1)%R.
Proof.
  destruct b; [destruct (@lit_R (f32_of_Z (-1)) true 8388608 (-23)) as [_ E]|destruct (@lit_R (f32_of_Z 1) false 8388608 (-23)) as [_ E]];
    [vm_compute; reflexivity| |vm_compute; reflexivity|]; rewrite E; cbn [cond_Zopp Z.opp]; change (bpow radix2 (-23)) with (/ 8388608)%R; lra.
Qed.
Example C81_nonvacuous :
  let x := fz [1; 1]%Z in let y := fz [1; 1]%Z in let z := fz [1; -1]%Z in
  finite_vec x /\ finite_vec z /\ scaled x /\ scaled z /\
  (0 < max_mag x <= bpow radix2 121)%R /\ (0 < max_mag z <= bpow radix2 121)%R /\
  (sqrt 2 * (2 * coarseness x + coarseness y + coarseness z) + 2 * bpow radix2 (-20) < fcosine x y - fcosine x z)%R /\
  quantize Debug x = Ok [127; 127]%Z /\ quantize Debug z = Ok [127; -127]%Z /\
  shown (angular_int_dist Debug [127; 127]%Z [127; -127]%Z) = Some (SpecFloat.S754_finite false 8388608 (-23)).
Proof.
  cbv zeta. set (x := fz [1; 1]%Z). set (z := fz [1; -1]%Z).
  assert (R1 : B2R (f32_of_Z 1) = 1%R) by exact (one_R false). assert (R2 : B2R (f32_of_Z (-1)) = (-1)%R) by exact (one_R true).
  assert (Mx : max_mag x = 1%R) by (unfold x; cbn [fz map max_mag]; rewrite R1, Rabs_R1, (Rmax_left 1 0), Rmax_left by lra; reflexivity).
  assert (Mz : max_mag z = 1%R) by (unfold z; cbn [fz map max_mag]; rewrite R1, R2, Rabs_R1, (Rabs_left (-1)) by lra; replace (- (-1))%R with 1%R by ring; rewrite (Rmax_left 1 0), Rmax_left by lra; reflexivity).
  assert (Dx : rdot x x = 2%R) by (unfold x; cbn [fz map rdot]; rewrite R1; lra).
  assert (Dz : rdot z z = 2%R) by (unfold z; cbn [fz map rdot]; rewrite R1, R2; lra).
  assert (Dxz : rdot x z = 0%R) by (unfold x, z; cbn [fz map rdot]; rewrite R1, R2; lra).
  pose proof (bpow_le radix2 0 50 ltac:(lia)) as B50. pose proof (bpow_le radix2 0 121 ltac:(lia)) as B121. pose proof (bpow_le radix2 (-50) 0 ltac:(lia)) as Bm.
  change (bpow radix2 0) with 1%R in *.
  split; [repeat constructor|]. split; [repeat constructor|]. unfold scaled. rewrite Mx, Mz.
  split; [lra|]. split; [lra|]. split; [lra|]. split; [lra|].
  split; [|split; [vm_compute; reflexivity|]; split; vm_compute; reflexivity].
  unfold coarseness, fcosine. rewrite Mx, Mz, Dx, Dz, Dxz.
  change (length x) with 2. change (length z) with 2. change (INR 2) with (1 + 1)%R. replace (1 + 1)%R with 2%R by ring.
  assert (P : (0 < sqrt 2)%R) by (apply sqrt_lt_R0; lra).
  assert (Q : (sqrt 2 * sqrt 2 = 2)%R) by (apply sqrt_sqrt; lra). rewrite Q.
  replace ((1 + bpow radix2 (-15)) * sqrt 2 * 1 / (127 * sqrt 2))%R with ((1 + bpow radix2 (-15)) / 127)%R by (field; lra).
  change (bpow radix2 (-15)) with (/ 32768)%R. change (bpow radix2 (-20)) with (/ 1048576)%R.
  assert (sqrt 2 < 2)%R by nra. lra.
Qed.
