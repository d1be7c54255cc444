(** * C63, C64: normalised vectors, and collections of vectors *)
From Coq Require Import ZArith Reals Lra Lia.
From Flocq Require Import Core IEEE754.BinarySingleNaN.
From Verif Require Import Base BaseFacts MSliceVec SSliceVec PFixed MIndexIo MSearch MBuild SBuild SReorder MReorder MFloat MAngular SAngular.
From Verif Require Import PF32 PCode PDot PDotErr PAngInt PAng PQuant PNormal PDense PDenseHist PBuilder PHistory TAngular TBuild TReorder.
Close Scope R_scope.
Open Scope nat_scope.

(** ** C63 Normalised vectors and their distance *)

(** Each component of a normalised vector is the component divided by the length
    of the vector, up to rounding. *)
Theorem C63_normalised :
  forall x, finite_vec x -> (Z.of_nat (rounds (length x)) <= 10000)%Z -> scaled x ->
    length (angular_vector x) = length x /\
    forall i a b, nth_error x i = Some a -> nth_error (angular_vector x) i = Some b ->
      is_finite b = true /\
      (Rabs (B2R b - B2R a / sqrt (rdot x x)) <=
         (0.51 * INR (rounds (length x)) + 3) * bpow radix2 (-24) * (Rabs (B2R a) / sqrt (rdot x x)) + bpow radix2 (-149))%R.
Proof.
  intros x Hx Hk Hs. destruct (normalize_near Hx Hk Hs) as (N & HN & Hnear & HQ). unfold angular_vector.
  split; [symmetry; eapply near_length; exact Hnear|]. intros i a b Ha Hb.
  destruct (Forall2_nth Hnear Ha) as (b' & Eb & Fb & _ & e & h & He & Hh & E). assert (b' = b) by congruence. subst b'.
  split; [exact Fb|]. pose proof (scaled_sum Hs) as HS. pose proof (bpow_gt_0 radix2 (-100)) as P.
  assert (HL : (0 < sqrt (rdot x x))%R) by (apply sqrt_lt_R0; lra). set (L := sqrt (rdot x x)) in *. set (k := INR (rounds (length x))) in *.
  set (q := (L / N - 1)%R) in *. set (t := (B2R a / L)%R).
  assert (Et : (Rabs (B2R a) / L = Rabs t)%R) by (unfold t, Rdiv; rewrite Rabs_mult, Rabs_inv, (Rabs_pos_eq L); lra).
  rewrite Et. assert (Ea : (B2R a / N = t * (1 + q))%R) by (unfold t, q; field; lra). rewrite E, Ea.
  replace (t * (1 + q) * (1 + e) + h - t)%R with (t * (q + e + q * e) + h)%R by ring.
  eapply Rle_trans; [apply Rabs_triang|]. rewrite Rabs_mult. apply Rplus_le_compat.
  - rewrite Rmult_comm. apply Rmult_le_compat_r; [apply Rabs_pos|].
    pose proof (qm_small Hk) as Qs. pose proof (pos_INR (rounds (length x))) as Kp. fold k in Kp.
    eapply Rle_trans; [apply Rabs_triang|]. rewrite Rabs_mult.
    assert (Rabs q * Rabs e <= 0.0004 * u32)%R by (apply Rmult_le_compat; auto using Rabs_pos; lra).
    assert (Rabs (q + e) <= qm (rounds (length x)) + u32)%R by (eapply Rle_trans; [apply Rabs_triang|]; lra).
    assert (qm (rounds (length x)) <= (0.509 * k + 1.006) * u32)%R.
    { unfold qm. destruct (pw_small Hk) as (K & _). unfold kap in *. fold k. fold k in K. unfold u32 in *. lra. }
    change (bpow radix2 (-24)) with (/ 16777216)%R. unfold u32 in *. lra.
  - eapply Rle_trans; [exact Hh|]. unfold eta32. pose proof (bpow_gt_0 radix2 (-149)). lra.
Qed.
Print Assumptions C63_normalised.

(** The distance between two normalised vectors is one minus the cosine of the
    angle between the vectors given, up to rounding. *)
Theorem C63_accurate :
  forall x y, finite_vec x -> finite_vec y -> length x = length y -> (Z.of_nat (rounds (length x)) <= 10000)%Z -> scaled x -> scaled y ->
    exists d, angular_dist (angular_vector x) (angular_vector y) = Ok d /\ is_finite d = true /\
      (Rabs (fcosine x y) <= 1 /\ Rabs (B2R d - (1 - fcosine x y)) <= (2.01 * INR (rounds (length x)) + 8) * bpow radix2 (-24))%R.
Proof.
  intros x y Hx Hy Hl Hk Sx Sy. destruct (pair_acc Hx Hy Hl Hk Sx Sy) as (d & E & F & C & A).
  exists d. split; [exact E|]. split; [exact F|]. split; [exact C|]. exact A.
Qed.
Print Assumptions C63_accurate.

(** A vector of zeros is left alone. *)
Theorem C63_zeros_kept : forall x, fzeros x -> angular_vector x = x.
Proof.
  intros x Hx. unfold angular_vector, normalize_f32. assert (Hf : finite_vec x) by (eapply Forall_impl; [|exact Hx]; intros [a|a| |a b c D] H; cbn in *; tauto).
  pose proof (zero_dot32 eq_refl Hx Hf) as H. destruct (dot_f32 x x) as [s|s| |]; cbn in H; try contradiction. destruct s; reflexivity.
Qed.
Print Assumptions C63_zeros_kept.

Lemma fcos_self x : scaled x -> fcosine x x = 1%R.
Proof.
  intros Hs. pose proof (scaled_sum Hs) as H. pose proof (bpow_gt_0 radix2 (-100)). unfold fcosine. rewrite sqrt_sqrt by lra. field. lra.
Qed.

(** Up to 1024 dimensions (more generally while [rounds n <= 95]), the distance
    of a normalised vector from itself is at most [100 * f32::EPSILON]: it is
    not taken for a zero vector. *)
Theorem C63_self_distance :
  forall x, finite_vec x -> rounds (length x) <= 95 -> scaled x ->
    exists d, angular_dist (angular_vector x) (angular_vector x) = Ok d /\ is_finite d = true /\ (0 <= B2R d <= 200 * bpow radix2 (-24))%R.
Proof.
  intros x Hx Hk Sx. destruct (pair_acc Hx Hx eq_refl ltac:(clear -Hk; zify; lia) Sx Sx) as (d & E & F & C & A).
  exists d. split; [exact E|]. split; [exact F|]. split.
  - apply ge0_R; auto. eapply angular_nonneg; eauto.
  - rewrite fcos_self in A by auto. apply Rabs_le_inv in A. assert (Hk' : (INR (rounds (length x)) <= 95)%R) by (rewrite INR_IZR_INZ; apply IZR_le; lia).
    change (bpow radix2 (-24)) with (/ 16777216)%R. unfold u32 in A. lra.
Qed.
Print Assumptions C63_self_distance.

Theorem C63_dimensions : forall n, n <= 1024 -> rounds n <= 95.
Proof.
  intros n H. unfold rounds. pose proof (Nat.div_mod n 32 ltac:(lia)) as E. pose proof (Nat.mod_upper_bound n 32 ltac:(lia)) as L.
  set (q := n / 32) in *. set (r := n mod 32) in *. clearbody q r. lia.
Qed.
Print Assumptions C63_dimensions.

(** Vectors with tiny components are not normalised (their squares underflow):
    they keep their length, and are at distance 1 from themselves. *)
Theorem C63_tiny_refuted :
  let x := [lit 1 (-80)] in
  finite_vec x /\ map B2SF (angular_vector x) = map B2SF x /\
  shown (angular_dist (angular_vector x) (angular_vector x)) = Some (B2SF f32_one).
Proof. split; [constructor; [reflexivity|constructor]|vm_compute; auto]. Qed.
Print Assumptions C63_tiny_refuted.

(** Vectors with huge components become the zero vector (their squares overflow). *)
Theorem C63_huge_refuted :
  let x := [lit 1 100; lit 3 80] in
  finite_vec x /\ map B2SF (angular_vector x) = [SpecFloat.S754_zero false; SpecFloat.S754_zero false].
Proof. split; [constructor; [reflexivity|constructor; [reflexivity|constructor]]|vm_compute; auto]. Qed.
Print Assumptions C63_huge_refuted.

(** In high dimensions a non-zero vector can be at more than [100 * f32::EPSILON]
    from itself: it is then taken for a zero vector. *)
Theorem C63_high_dimension_refuted :
  let x := repeat (lit 9330392 (-23)) 32 ++ repeat (lit 14581823 (-35)) (180 * 32) in
  finite_vec x /\ Z.of_nat (length x) = 5792%Z /\
  exists d, angular_dist (angular_vector x) (angular_vector x) = Ok d /\ Bltb EPS100 d = true.
Proof.
  cbv zeta. set (a := lit 9330392 (-23)). set (b := lit 14581823 (-35)).
  assert (Ex : repeat a 32 ++ repeat b (180 * 32) = blocks (a :: repeat b 180)).
  { unfold blocks. cbn [map concat]. apply (f_equal (app (repeat a 32))). generalize 180. induction n as [|n IH]; [reflexivity|].
    cbn [repeat map concat Nat.mul]. rewrite repeat_app, IH. reflexivity. }
  split; [|split].
  - apply Forall_app. split; apply Forall_forall; intros v Hv; apply repeat_spec in Hv; subst v; vm_compute; reflexivity.
  - rewrite app_length, !repeat_length, Nat2Z.inj_add, Nat2Z.inj_mul. reflexivity.
  - rewrite Ex. clear Ex. unfold angular_vector. rewrite blocks_normalize by (vm_compute; reflexivity).
    set (n := f32_sqrt _). unfold angular_dist. rewrite blocks_dot.
    assert (E : B2SF (f32_sub f32_one (fold_left f32_add (repeat (lane (map (fun v => f32_div v n) (a :: repeat b 180))) 32) f32_zero)) =
                SpecFloat.S754_finite false 14745600 (-40)) by (vm_compute; reflexivity).
    set (t := f32_sub _ _) in *. clearbody t. unfold notnan.
    replace (is_nan t) with false by (destruct t; cbn in E |- *; congruence). cbn [obind].
    exists (max0 t). split; [reflexivity|].
    assert (M : max0 t = t) by (unfold max0, Bltb; rewrite E; reflexivity). rewrite M. unfold Bltb. rewrite E. vm_compute. reflexivity.
Qed.
Print Assumptions C63_high_dimension_refuted.

Example C63_nonvacuous :
  let x := fz [3; -4; 0; 12]%Z in let y := fz [5; 0; 1; -1]%Z in
  finite_vec x /\ scaled x /\ scaled y /\ rounds (length x) = 36 /\
  map B2SF (angular_vector x) = [SpecFloat.S754_finite false 15486661 (-26); SpecFloat.S754_finite true 10324441 (-25); SpecFloat.S754_zero false; SpecFloat.S754_finite false 15486661 (-24)].
Proof.
  cbv zeta. split; [repeat constructor|].
  assert (M1 : max_mag (fz [3; -4; 0; 12]%Z) = 12%R /\ max_mag (fz [5; 0; 1; -1]%Z) = 5%R).
  { cbn [fz map max_mag].
    destruct (@lit_R (f32_of_Z 3) false 12582912 (-22) ltac:(vm_compute; reflexivity)) as [_ ->].
    destruct (@lit_R (f32_of_Z (-4)) true 8388608 (-21) ltac:(vm_compute; reflexivity)) as [_ ->].
    destruct (@lit_R (f32_of_Z 12) false 12582912 (-20) ltac:(vm_compute; reflexivity)) as [_ ->].
    destruct (@lit_R (f32_of_Z 5) false 10485760 (-21) ltac:(vm_compute; reflexivity)) as [_ ->].
    destruct (@lit_R (f32_of_Z 1) false 8388608 (-23) ltac:(vm_compute; reflexivity)) as [_ ->].
    destruct (@lit_R (f32_of_Z (-1)) true 8388608 (-23) ltac:(vm_compute; reflexivity)) as [_ ->].
    change (B2R (f32_of_Z 0)) with 0%R. cbn [cond_Zopp Z.opp].
    change (bpow radix2 (-20)) with (/ 1048576)%R. change (bpow radix2 (-21)) with (/ 2097152)%R. change (bpow radix2 (-22)) with (/ 4194304)%R. change (bpow radix2 (-23)) with (/ 8388608)%R.
    replace (Rabs (12582912 * / 4194304))%R with 3%R by (rewrite Rabs_pos_eq; lra).
    replace (Rabs (-8388608 * / 2097152))%R with 4%R by (rewrite Rabs_left; lra).
    replace (Rabs (12582912 * / 1048576))%R with 12%R by (rewrite Rabs_pos_eq; lra).
    replace (Rabs (10485760 * / 2097152))%R with 5%R by (rewrite Rabs_pos_eq; lra).
    replace (Rabs (8388608 * / 8388608))%R with 1%R by (rewrite Rabs_pos_eq; lra).
    replace (Rabs (-8388608 * / 8388608))%R with 1%R by (rewrite Rabs_left; lra).
    rewrite Rabs_R0, (Rmax_left 12 0), (Rmax_right 0 12), (Rmax_right 4 12), (Rmax_right 3 12), (Rmax_left 1 0), (Rmax_left 1 1), (Rmax_right 0 1), (Rmax_left 5 1) by lra. auto. }
  assert (B : (bpow radix2 (-50) <= 1 /\ 64 <= bpow radix2 50)%R).
  { split; [change 1%R with (bpow radix2 0)|change 64%R with (bpow radix2 6)]; apply bpow_le; lia. }
  unfold scaled. destruct M1 as [-> ->]. split; [lra|]. split; [lra|]. split; [reflexivity|]. vm_compute. reflexivity.
Qed.

(** ** C64 Collections of vectors *)

(** Distances are handed to the index as integers; this loses nothing: they
    compare like the f32 numbers they stand for. *)
Theorem C64_codes_order :
  forall x y : f32, is_nan x = false -> is_nan y = false -> Bcompare x y = Some (f32_code x ?= f32_code y)%Z.
Proof. exact code_compare. Qed.
Print Assumptions C64_codes_order.

(** [is_zero] with the threshold of the code. *)
Definition threshold {S E} (V : benv S E) : Prop := e_eps V = f32_code EPS100.

(** *** int8 *)
Theorem C64_int8_usable :
  forall m w rows v, (0 < Z.of_nat w <= 131071)%Z -> holds w rows v -> Forall i8s rows -> cont_ok (angular_int_ops m) v.
Proof.
  intros m w rows v Hw Hh Hg.
  change (angular_int_ops m) with (e_ops (mkEnv m 0 (angular_int_ops m) (fun l => l) 0%Z)).
  eapply holds_cont with (w := w) (good := i8s); eauto; [reflexivity|lia|].
  intros x y Hx Hy Gx Gy. destruct (@kernel_ok m x y Gx Gy ltac:(congruence) ltac:(lia)) as (E & _).
  destruct (angular_int_ok E) as [d Ed]. exists (f32_code d). rewrite Ed. reflexivity.
Qed.
Print Assumptions C64_int8_usable.

(** The distances the index sees are those of the vectors held: between two
    elements, from a query vector, and for several ids at once. *)
Theorem C64_int8_distances :
  forall m w rows v i j x y, (0 < Z.of_nat w <= 131071)%Z -> fw_is w rows v -> Forall i8s rows ->
    nth_error rows i = Some x -> nth_error rows j = Some y -> ~ zero_vec x -> ~ zero_vec y ->
    c_get (angular_int_ops m) v i = Ok x /\
    exists d : f32, is_finite d = true /\ (Rabs (B2R d - (1 - cosine x y)) <= bpow radix2 (-20))%R /\
      c_dist (angular_int_ops m) v i j = Ok (f32_code d) /\ c_dte (angular_int_ops m) v i y = Ok (f32_code d) /\
      c_dists (angular_int_ops m) v i [j] = Ok [f32_code d].
Proof.
  intros m w rows v i j x y Hw Hh Hg Hx Hy Zx Zy.
  assert (G : forall k u, nth_error rows k = Some u -> i8s u /\ length u = w /\ fw_get m v k = Ok u).
  { intros k u Hk. pose proof (nth_error_In _ _ Hk) as Hin. rewrite Forall_forall in Hg. destruct Hh as (E1 & E2 & F). split; [auto|].
    rewrite Forall_forall in F. split; [auto|]. apply (@fw_is_get Z m w rows v k u ltac:(lia)); auto. split; auto. split; auto. now apply Forall_forall. }
  destruct (G i x Hx) as (Gx & Lx & Ex). destruct (G j y Hy) as (Gy & Ly & Ey).
  destruct (C52_accurate m x y Gx Gy ltac:(congruence) ltac:(lia) Zx Zy) as (d & E & F & A & _).
  split; [exact Ex|]. exists d. split; [exact F|]. split; [exact A|].
  cbn [angular_int_ops vectors_ops c_dist c_dte c_dists omapM]. rewrite !Ex, !Ey. cbn [obind]. rewrite E. auto.
Qed.
Print Assumptions C64_int8_distances.

(** The elements left out of the graph as zero vectors are the zero vectors. *)
Theorem C64_int8_zero :
  forall V m w rows v i x, e_ops V = angular_int_ops m -> threshold V -> (0 < Z.of_nat w <= 131071)%Z ->
    fw_is w rows v -> Forall i8s rows -> nth_error rows i = Some x ->
    (is_zero V v i <-> zero_vec x).
Proof.
  intros V m w rows v i x HV HT Hw Hh Hg Hx.
  assert (Gx : i8s x) by (rewrite Forall_forall in Hg; apply Hg; eapply nth_error_In; eauto).
  assert (Lx : length x = w) by (destruct Hh as (_ & _ & F); rewrite Forall_forall in F; apply F; eapply nth_error_In; eauto).
  assert (Eg : fw_get m v i = Ok x) by (apply (@fw_is_get Z m w rows v i x ltac:(lia) Hh Hx)).
  assert (Ed : c_dist (e_ops V) v i i = coded (angular_int_dist m x x)) by (rewrite HV; cbn; rewrite Eg; reflexivity).
  unfold is_zero. rewrite Ed, HT. clear Ed. split.
  - intros (d & E & Hd). apply coded_ok in E. destruct E as (d' & E & ->).
    assert (Dec : {zero_vec x} + {~ zero_vec x}) by (unfold zero_vec; apply Forall_dec; intros z; apply Z.eq_dec).
    destruct Dec as [Z0|NZ]; [exact Z0|]. exfalso.
    destruct (int_acc m Gx Gx eq_refl ltac:(lia) NZ NZ) as (d'' & E2 & F & C & A). assert (d'' = d') by congruence. subst d''.
    rewrite cosine_self in A by auto. apply not_zero_code in Hd; auto. apply Rabs_le_inv in A. unfold u32 in *. lra.
  - intros Z0. exists (f32_code f32_one). split; [|apply one_code]. rewrite (int_zero_l m Gx Gx eq_refl); auto. lia.
Qed.
Print Assumptions C64_int8_zero.

(** Every history of a release builder over int8 vectors of one dimension: no
    call panics, and the builder holds what was pushed. *)
Theorem C64_int8_histories :
  forall V cfg w rows v cs, e_ops V = angular_int_ops Release -> e_mode V = Release -> sorts_by_dist (e_sort V) ->
    cfg_ok cfg -> (0 < Z.of_nat w <= 131071)%Z -> holds w rows v -> Forall i8s rows -> Forall (good_call w i8s) cs ->
    length rows + length (pushed cs) < e_fuel V -> (N.of_nat (length rows + length (pushed cs)) < 4294967295)%N ->
    exists b0, builder_new V cfg v = Ok b0 /\
      match history V (@fw_push Z) b0 cs with
      | Ok b => holds w (rows ++ pushed cs) (b_elems b)
      | Fail e => e = OutOfFuel
      end.
Proof.
  intros V cfg w rows v cs HV Hm Hs Hcfg Hw Hh Hg Hc Hf Hn.
  eapply hist_new with (good := i8s); eauto; [lia|].
  intros x y Hx Hy Gx Gy. destruct (@kernel_ok Release x y Gx Gy ltac:(congruence) ltac:(lia)) as (E & _).
  destruct (angular_int_ok E) as [d Ed]. exists (f32_code d). rewrite Ed. reflexivity.
Qed.
Print Assumptions C64_int8_histories.

(** *** f32 *)
(** what [Vector::from] makes of vectors with components neither tiny nor huge, or of zeros *)
Definition unit_or_zero (u : list f32) : Prop :=
  exists x, u = angular_vector x /\ finite_vec x /\ (scaled x \/ fzeros x).

Lemma zeros_finite x : fzeros x -> finite_vec x.
Proof. intros Hx. eapply Forall_impl; [|exact Hx]; intros [a|a| |a b c D] H; cbn in *; tauto. Qed.

Lemma uz_finite w u : (Z.of_nat (rounds w) <= 10000)%Z -> length u = w -> unit_or_zero u ->
  fzeros u \/ exists x, u = normalize_f32 x /\ length x = w /\ finite_vec x /\ scaled x /\ finite_vec u.
Proof.
  intros Hk Hu (x & E & F & [S|Z0]).
  - right. exists x. assert (L : length x = w).
    { rewrite <- Hu, E. unfold angular_vector, normalize_f32. destruct (Bltb _ _); rewrite ?map_length; reflexivity. }
    rewrite <- L in Hk. destruct (normalize_near F Hk S) as (N & _ & Hn & _).
    split; [exact E|]. split; [exact L|]. split; [exact F|]. split; [exact S|]. rewrite E. eapply near_finite; eauto.
  - left. rewrite E, C63_zeros_kept; auto.
Qed.

Lemma uz_dist w x y : (Z.of_nat (rounds w) <= 10000)%Z -> length x = w -> length y = w -> unit_or_zero x -> unit_or_zero y ->
  exists d, coded (angular_dist x y) = Ok d.
Proof.
  intros Hk Hx Hy Gx Gy. destruct (uz_finite _ _ Hk Hx Gx) as [Zx|(x0 & Ex & Lx & F0 & S0 & Fx)];
    destruct (uz_finite _ _ Hk Hy Gy) as [Zy|(y0 & Ey & Ly & F1 & S1 & Fy)].
  - rewrite (zero_dist (x := x) (y := y)); [eexists; reflexivity|congruence|exact Zx|now apply zeros_finite].
  - rewrite (zero_dist (x := x) (y := y)); [eexists; reflexivity|congruence|exact Zx|exact Fy].
  - rewrite angular_sym. rewrite (zero_dist (x := y) (y := x)); [eexists; reflexivity|congruence|exact Zy|exact Fx].
  - destruct (@pair_acc x0 y0 F0 F1 ltac:(congruence) ltac:(rewrite Lx; exact Hk) S0 S1) as (d & E & _). rewrite Ex, Ey, E. eexists; reflexivity.
Qed.

Theorem C64_f32_usable :
  forall m w rows v, 0 < w -> (Z.of_nat (rounds w) <= 10000)%Z -> holds w rows v -> Forall unit_or_zero rows -> cont_ok (angular_ops m) v.
Proof.
  intros m w rows v Hw Hk Hh Hg.
  change (angular_ops m) with (e_ops (mkEnv m 0 (angular_ops m) (fun l => l) 0%Z)).
  eapply holds_cont with (w := w) (good := unit_or_zero); eauto; [reflexivity|].
  intros x y Hx Hy Gx Gy. eapply uz_dist; eauto.
Qed.
Print Assumptions C64_f32_usable.

Theorem C64_f32_distances :
  forall m w rows v i j x y, 0 < w -> (Z.of_nat (rounds w) <= 10000)%Z -> fw_is w rows v ->
    finite_vec x -> finite_vec y -> scaled x -> scaled y ->
    nth_error rows i = Some (angular_vector x) -> nth_error rows j = Some (angular_vector y) ->
    c_get (angular_ops m) v i = Ok (angular_vector x) /\
    exists d : f32, is_finite d = true /\ (Rabs (B2R d - (1 - fcosine x y)) <= (2.01 * INR (rounds w) + 8) * bpow radix2 (-24))%R /\
      c_dist (angular_ops m) v i j = Ok (f32_code d) /\ c_dte (angular_ops m) v i (angular_vector y) = Ok (f32_code d) /\
      c_dists (angular_ops m) v i [j] = Ok [f32_code d].
Proof.
  intros m w rows v i j x y Hw Hk Hh Fx Fy Sx Sy Hx Hy.
  assert (N : forall u, length (angular_vector u) = length u) by (intros u; unfold angular_vector, normalize_f32; destruct (Bltb _ _); rewrite ?map_length; reflexivity).
  assert (G : forall k u, nth_error rows k = Some u -> length u = w /\ fw_get m v k = Ok u).
  { intros k u Hk'. pose proof (nth_error_In _ _ Hk') as Hin. destruct Hh as (E1 & E2 & F).
    rewrite Forall_forall in F. split; [auto|]. apply (@fw_is_get f32 m w rows v k u Hw); auto. split; auto. split; auto. now apply Forall_forall. }
  destruct (G i _ Hx) as (Lx & Ex). destruct (G j _ Hy) as (Ly & Ey). rewrite N in Lx, Ly.
  destruct (C63_accurate x y Fx Fy ltac:(congruence) ltac:(rewrite Lx; exact Hk) Sx Sy) as (d & E & F & _ & A).
  split; [exact Ex|]. exists d. split; [exact F|]. split; [rewrite <- Lx; exact A|].
  cbn [angular_ops vectors_ops c_dist c_dte c_dists omapM]. rewrite !Ex, !Ey. cbn [obind]. rewrite E. auto.
Qed.
Print Assumptions C64_f32_distances.

Theorem C64_f32_zero :
  forall V m w rows v i x, e_ops V = angular_ops m -> threshold V -> 0 < w -> rounds w <= 95 ->
    fw_is w rows v -> Forall unit_or_zero rows -> nth_error rows i = Some x ->
    (is_zero V v i <-> fzeros x).
Proof.
  intros V m w rows v i x HV HT Hw Hk Hh Hg Hx.
  assert (Gx : unit_or_zero x) by (rewrite Forall_forall in Hg; apply Hg; eapply nth_error_In; eauto).
  assert (Lx : length x = w) by (destruct Hh as (_ & _ & F); rewrite Forall_forall in F; apply F; eapply nth_error_In; eauto).
  assert (Eg : fw_get m v i = Ok x) by (eapply fw_is_get; eauto).
  assert (Ed : c_dist (e_ops V) v i i = coded (angular_dist x x)) by (rewrite HV; cbn; rewrite Eg; reflexivity).
  unfold is_zero. rewrite Ed, HT. clear Ed.
  split.
  - intros (d & E & Hd). destruct (uz_finite w x ltac:(lia) Lx Gx) as [Z0|(x0 & Ex & L0 & F0 & S0 & Fx)]; [exact Z0|]. exfalso.
    apply coded_ok in E. destruct E as (d' & E & ->).
    destruct (C63_self_distance x0 F0 ltac:(rewrite L0; exact Hk) S0) as (d'' & E2 & F & _ & A). unfold angular_vector in E2. rewrite <- Ex in E2.
    assert (d'' = d') by congruence. subst d''. apply not_zero_code in Hd; auto.
  - intros Z0. exists (f32_code f32_one). split; [|apply one_code]. rewrite (zero_dist (x := x) (y := x)); auto. now apply zeros_finite.
Qed.
Print Assumptions C64_f32_zero.

Theorem C64_f32_histories :
  forall V cfg w rows v cs m, e_ops V = angular_ops m -> e_mode V = Release -> sorts_by_dist (e_sort V) ->
    cfg_ok cfg -> 0 < w -> (Z.of_nat (rounds w) <= 10000)%Z -> holds w rows v -> Forall unit_or_zero rows ->
    Forall (good_call w unit_or_zero) cs ->
    length rows + length (pushed cs) < e_fuel V -> (N.of_nat (length rows + length (pushed cs)) < 4294967295)%N ->
    exists b0, builder_new V cfg v = Ok b0 /\
      match history V (@fw_push f32) b0 cs with
      | Ok b => holds w (rows ++ pushed cs) (b_elems b)
      | Fail e => e = OutOfFuel
      end.
Proof.
  intros V cfg w rows v cs m HV Hm Hs Hcfg Hw Hk Hh Hg Hc Hf Hn.
  eapply hist_new with (good := unit_or_zero); eauto.
  intros x y Hx Hy Gx Gy. eapply uz_dist; eauto.
Qed.
Print Assumptions C64_f32_histories.

(** Pushing an empty vector onto a new collection succeeds, but is not counted:
    the builder goes on as if nothing had been pushed. *)
Theorem C64_empty_vector_refuted :
  exists v', fw_push (fw_new : fw f32) [] = Ok v' /\ fw_len v' = 0.
Proof. eexists. split; reflexivity. Qed.
Print Assumptions C64_empty_vector_refuted.

Definition int8_env : benv (fw Z) (list Z) := mkEnv Release 20 (angular_int_ops Release) isort (f32_code EPS100).
Definition f32_env : benv (fw f32) (list f32) := mkEnv Release 20 (angular_ops Release) isort (f32_code EPS100).
Definition axes : list (list Z) := [[100; 0]; [90; 40]; [0; 0]]%Z.
Definition more : list (call (list Z)) := [CBuild 9 round_robin; CPush [-3; 127]%Z; CPush [-100; 5]%Z; CBuild 9 round_robin].

Example C64_nonvacuous :
  holds 2 axes (mkFw (concat axes) 2) /\ Forall i8s axes /\ Forall (good_call 2 i8s) more /\
  (let* b := history int8_env (@fw_push Z) (mkBuilder (mkFw (concat axes) 2) [] ex_cfg) more in
   let* g := omapM (fun l => omapM (fw_neighbors Release l) (seq 0 (fw_len l))) (b_layers b) in Ok (g, fdata (b_elems b))) =
    Ok ([[[1]; [0]]; [[1]; [0]; []; [1]]; [[1; 4]; [0; 3]; []; [1]; [1; 0]]], concat axes ++ [-3; 127; -100; 5]%Z).
Proof.
  split; [left; split; [reflexivity|split; [reflexivity|repeat constructor]]|].
  split; [repeat constructor; lia|]. split; [repeat constructor; lia|]. vm_compute. reflexivity.
Qed.

Example C64_f32_nonvacuous :
  (let* b := history f32_env (@fw_push f32) (mkBuilder fw_new [] ex_cfg)
               (map CPush (map (fun x => angular_vector (fz x)) axes) ++ [CBuild 9 round_robin]) in omapM (fun l => omapM (fw_neighbors Release l) (seq 0 (fw_len l))) (b_layers b)) =
    Ok [[[1]; [0]]; [[1]; [0]; []]].
Proof. vm_compute. reflexivity. Qed.
