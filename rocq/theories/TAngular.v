(** * C51-C54: vectors and their distances *)
From Coq Require Import ZArith Reals Lra Lia.
From Flocq Require Import Core IEEE754.BinarySingleNaN.
From Verif Require Import Base BaseFacts MSliceVec SSliceVec MIndexIo MSearch MBuild SBuild SReorder MReorder MFloat MAngular SAngular.
From Verif Require Import PF32 PCode PDot PDotErr PAngInt PAng PQuant PNormal PDense TBuild TReorder.
Close Scope R_scope.
Open Scope nat_scope.

(** small integers and other literals as f32 vectors *)
Definition fz (l : list Z) : list f32 := map f32_of_Z l.
Definition lit (m e : Z) : f32 := binary_normalize 24 128 _ _ mode_NE m e false.

(** the number returned *)
Definition shown (o : outcome f32) : option SpecFloat.spec_float :=
  match o with Ok d => Some (B2SF d) | Fail _ => None end.

(** ** C51 The dot product *)

(** In exact arithmetic, whatever the length. *)
Theorem C51_exact_in_the_integers :
  forall x y : list Z, length x = length y ->
    dot_product (fun a b c => a * b + c)%Z Z.add 0%Z x y = zdot x y.
Proof.
  intros x y H. rewrite (@dot_exact Z Z.add Z.mul 0%Z); auto; try (intros; ring).
  clear H. unfold psum. revert y; induction x as [|a x IH]; intros [|b y]; cbn; auto. now rewrite IH.
Qed.
Print Assumptions C51_exact_in_the_integers.

Theorem C51_exact_in_any_commutative_monoid :
  forall (F : Type) (add mul : F -> F -> F) (zero : F),
    (forall a b, add a b = add b a) -> (forall a b c, add a (add b c) = add (add a b) c) -> (forall a, add zero a = a) ->
    forall x y, length x = length y ->
      dot_product (fun a b c => add (mul a b) c) add zero x y = fold_right add zero (map (fun p => mul (fst p) (snd p)) (combine x y)).
Proof.
  intros F add mul zero Hc Ha H0 x y H. rewrite (@dot_exact F add mul zero); auto.
Qed.
Print Assumptions C51_exact_in_any_commutative_monoid.

(** In f32: finite, and how far from the exact value. *)
Theorem C51_rounding_error :
  forall x y : list f32, length x = length y -> finite_vec x -> finite_vec y ->
    (Z.of_nat (rounds (length x)) <= 10000)%Z ->
    Forall2 (fun a b => (Rabs (B2R a * B2R b) <= bpow radix2 100)%R) x y ->
    is_finite (dot_f32 x y) = true /\
    (Rabs (B2R (dot_f32 x y) - rdot x y) <=
       1.0007 * INR (rounds (length x)) * bpow radix2 (-24) * adot x y + bpow radix2 (-131))%R.
Proof.
  intros x y Hl Hx Hy Hk HB. destruct (@dot_err (bpow radix2 100) x y) as (F & E & A); auto.
  - apply bpow_ge_0.
  - apply fits_small; auto. now apply rounds_len. split; [apply bpow_ge_0|lra].
  - split; [exact F|]. destruct (pw_small Hk) as (_ & G & _). pose proof (tiny_small Hk (rounds_len Hk)) as T.
    eapply Rle_trans; [exact E|]. apply Rplus_le_compat; [|lra]. apply Rmult_le_compat_r; [apply adot_nonneg|].
    unfold kap, u32 in G. change (bpow radix2 (-24)) with (/ 16777216)%R. lra.
Qed.
Print Assumptions C51_rounding_error.

Example C51_nonvacuous :
  let x := fz [1;2;3;4;5;6;7;8;9;10;11;12;13;14;15;16;17;18;19;20;21;22;23;24;25;26;27;28;29;30;31;32;33;34]%Z in
  B2SF (dot_f32 x x) = B2SF (f32_of_Z 13685) /\ rounds (length x) = 35.
Proof. vm_compute. auto. Qed.

(** The int8 kernel: the dot product and both squared norms; 32-bit sums do not
    overflow up to dimension 131071. *)
Theorem C51_int8_kernel :
  forall m x y, i8s x -> i8s y -> length x = length y -> (Z.of_nat (length x) <= 131071)%Z ->
    dot_norms_i8 m x y = Ok (zdot x y, zdot x x, zdot y y).
Proof. intros m x y Hx Hy Hl Hn. now destruct (kernel_ok m Hx Hy Hl Hn). Qed.
Print Assumptions C51_int8_kernel.

Lemma overflow8 y : i8s y -> Z.of_nat (length y) = 131071%Z -> zdot y y = (16384 * 131071)%Z ->
  angular_int_dist Debug (y ++ [-128]%Z) (y ++ [-128]%Z) = Fail Panicked /\
  angular_int_dist Release (y ++ [-128]%Z) (y ++ [-128]%Z) = Ok f32_one.
Proof.
  intros Gy Ly Dy.
  assert (S1 : forall m, dot_norms_i8 m (y ++ [-128]%Z) (y ++ [-128]%Z) =
     let* r := i32_add m (16384 * 131071) 16384 in let* dx := i32_add m (16384 * 131071) 16384 in
     let* dy := i32_add m (16384 * 131071) 16384 in Ok (r, dx, dy)).
  { intros m. destruct (kernel_ok m Gy Gy eq_refl ltac:(lia)) as (E & _). rewrite Dy in E. unfold dot_norms_i8 in *.
    rewrite combine_app_eq by reflexivity. rewrite BaseFacts.ofold_app, E. cbn [combine]. cbn [obind ofold]. change (-128 * -128)%Z with 16384%Z.
    destruct (i32_add m _ _); reflexivity. }
  assert (H1 : dot_norms_i8 Debug (y ++ [-128]%Z) (y ++ [-128]%Z) = Fail Panicked) by (rewrite S1; reflexivity).
  assert (H2 : dot_norms_i8 Release (y ++ [-128]%Z) (y ++ [-128]%Z) = Ok (- 2 ^ 31, - 2 ^ 31, - 2 ^ 31)%Z) by (rewrite S1; reflexivity).
  unfold angular_int_dist. rewrite H1, H2. clear. cbn [obind]. split; [reflexivity|].
  replace (is_nan _) with true by (vm_compute; reflexivity). reflexivity.
Qed.

(** One more dimension can overflow: a panic in debug builds, a wrong result
    (distance 1 from itself) in release builds. *)
Theorem C51_int8_overflow_refuted :
  exists x, length x = Z.to_nat 131072 /\ i8s x /\ angular_int_dist Debug x x = Fail Panicked /\ angular_int_dist Release x x = Ok f32_one.
Proof.
  assert (H : exists y, Z.of_nat (length y) = 131071%Z /\ i8s y /\ zdot y y = (16384 * 131071)%Z).
  { assert (G : forall n, i8s (repeat (-128)%Z n) /\ zdot (repeat (-128)%Z n) (repeat (-128)%Z n) = (16384 * Z.of_nat n)%Z).
    { induction n as [|n [I1 I2]]; [split; [constructor|reflexivity]|]. split; [constructor; [lia|exact I1]|].
      cbn [repeat zdot]. rewrite I2, Nat2Z.inj_succ. lia. }
    assert (N : exists n, Z.of_nat n = 131071%Z) by (exists (Z.to_nat 131071); apply Z2Nat.id; lia). destruct N as [n Hn].
    exists (repeat (-128)%Z n). destruct (G n) as [G1 G2]. rewrite repeat_length. rewrite Hn in G2. auto. }
  destruct H as (y & Ly & Gy & Dy). exists (y ++ [-128]%Z). split; [rewrite app_length; cbn [length]; lia|].
  split; [apply Forall_app; split; [exact Gy|constructor; [lia|constructor]]|]. now apply overflow8.
Qed.
Print Assumptions C51_int8_overflow_refuted.

(** Different dimensions are not rejected: the f32 kernel pairs the remainders
    whatever their position (here component 32 with component 64), the int8
    kernel ignores the rest of the longer vector. *)
Theorem C51_different_dimensions_refuted :
  dot_product (fun a b c => a * b + c)%Z Z.add 0%Z (repeat 0%Z 32 ++ [1]%Z) (repeat 0%Z 64 ++ [1]%Z) = 1%Z /\
  zdot (repeat 0%Z 32 ++ [1]%Z) (repeat 0%Z 64 ++ [1]%Z) = 0%Z /\
  shown (angular_dist (fz (repeat 0%Z 32 ++ [1]%Z)) (fz (repeat 0%Z 64 ++ [1]%Z))) = Some (SpecFloat.S754_zero false) /\
  forall m x y z, length x = length y -> dot_norms_i8 m x (y ++ z) = dot_norms_i8 m x y.
Proof.
  split; [vm_compute; reflexivity|]. split; [vm_compute; reflexivity|]. split.
  - vm_compute. reflexivity.
  - intros m x y z H. unfold dot_norms_i8. replace (combine x (y ++ z)) with (combine x y); auto.
    revert y H; induction x as [|a x IH]; intros [|b y] H; cbn in *; try lia; auto. f_equal. apply IH. lia.
Qed.
Print Assumptions C51_different_dimensions_refuted.

(** ** C52 The int8 distance *)
Theorem C52_symmetric : forall m x y, angular_int_dist m x y = angular_int_dist m y x.
Proof. exact angular_int_sym. Qed.
Print Assumptions C52_symmetric.

(** Never NaN, never negative. *)
Theorem C52_not_negative :
  forall m x y d, angular_int_dist m x y = Ok d -> is_nan d = false /\ Bleb f32_zero d = true.
Proof. exact angular_int_nonneg. Qed.
Print Assumptions C52_not_negative.

(** It never panics, and it is one minus the cosine, up to 2^-20. *)
Theorem C52_accurate :
  forall m x y, i8s x -> i8s y -> length x = length y -> (Z.of_nat (length x) <= 131071)%Z ->
    ~ zero_vec x -> ~ zero_vec y ->
    exists d, angular_int_dist m x y = Ok d /\ is_finite d = true /\
      (Rabs (B2R d - (1 - cosine x y)) <= bpow radix2 (-20) /\ 0 <= B2R d <= 2 + bpow radix2 (-20))%R.
Proof.
  intros m x y Hx Hy Hl Hn Zx Zy. destruct (int_acc m Hx Hy Hl Hn Zx Zy) as (d & E & F & C & A).
  exists d. split; auto. split; auto.
  assert (A' : (Rabs (B2R d - (1 - cosine x y)) <= bpow radix2 (-20))%R).
  { eapply Rle_trans; [exact A|]. unfold u32. change (bpow radix2 (-20)) with (/ 1048576)%R. lra. }
  split; [exact A'|]. apply Rabs_le_inv in A', C. split; [|lra].
  apply ge0_R; auto. eapply angular_int_nonneg; eauto.
Qed.
Print Assumptions C52_accurate.

(** Distance 1 from the zero vector. *)
Theorem C52_zero_vector :
  forall m x y, i8s x -> i8s y -> length x = length y -> (Z.of_nat (length x) <= 131071)%Z ->
    zero_vec x \/ zero_vec y -> angular_int_dist m x y = Ok f32_one.
Proof.
  intros m x y Hx Hy Hl Hn [H|H]; [now apply int_zero_l|]. rewrite angular_int_sym. apply int_zero_l; auto. now rewrite <- Hl.
Qed.
Print Assumptions C52_zero_vector.

Example C52_nonvacuous :
  let x := [3; -4; 0]%Z in let y := [-3; 4; 127]%Z in
  i8s x /\ i8s y /\ ~ zero_vec x /\ ~ zero_vec y /\
  shown (angular_int_dist Debug x y) = Some (SpecFloat.S754_finite false 8718612 (-23)).
Proof.
  cbv zeta. split; [repeat constructor; lia|]. split; [repeat constructor; lia|].
  split; [intros H; inversion H; lia|]. split; [intros H; inversion H; lia|].
  vm_compute. reflexivity.
Qed.

(** ** C53 Quantisation *)

(** Finite, not all zero, and not so large that 127 times the largest component
    overflows: the result exists, every component is 127 x / max truncated (up to
    a rounding error of 2^-15), order and sign are kept, the largest component
    becomes 126 or 127. *)
Theorem C53_quantise :
  forall m s, finite_vec s -> (0 < max_mag s <= bpow radix2 121)%R ->
    exists q, quantize m s = Ok q /\ length q = length s /\
      (forall i x k, nth_error s i = Some x -> nth_error q i = Some k ->
         (-127 <= k <= 127)%Z /\
         (exists v, (Rabs (v - 127 * B2R x / max_mag s) <= bpow radix2 (-15))%R /\ k = Ztrunc v) /\
         ((0 <= B2R x)%R -> (0 <= k)%Z) /\ ((B2R x <= 0)%R -> (k <= 0)%Z) /\
         (Rabs (B2R x) = max_mag s -> Z.abs k = 126 \/ Z.abs k = 127)%Z) /\
      (forall i j x y k l, nth_error s i = Some x -> nth_error s j = Some y -> nth_error q i = Some k -> nth_error q j = Some l ->
         (B2R x <= B2R y)%R -> (k <= l)%Z).
Proof.
  intros m s Hs Hm.
  assert (Hn : s <> []) by (intros ->; cbn in Hm; lra).
  destruct (quantize_ok m Hs Hn Hm) as (M & FM & EM & Q).
  exists (map (qval M) s). split; [exact Q|]. split; [apply map_length|].
  assert (HM : (0 < B2R M <= bpow radix2 121)%R) by (rewrite EM; exact Hm).
  assert (Fin : forall x, In x s -> is_finite x = true) by (intros x Hx; unfold finite_vec in Hs; rewrite Forall_forall in Hs; auto).
  assert (Le : forall x, In x s -> (Rabs (B2R x) <= B2R M)%R) by (intros x Hx; rewrite EM; now apply max_mag_in).
  split.
  - intros i x k Hi Hk. rewrite nth_error_map, Hi in Hk. cbn in Hk. assert (Ek : k = qval M x) by congruence.
    apply nth_error_In in Hi. pose proof (Fin x Hi) as Fx. pose proof (Le x Hi) as Lx.
    destruct (vi_i8 Fx HM Lx) as (_ & R1). destruct (vi_close Fx HM Lx) as (e & He & Ee).
    set (vi := f32_div (f32_mul x MAX_QVALUE) M) in *. unfold qval in Ek. fold vi in Ek. rewrite <- Ek in R1.
    split; [exact R1|]. split.
    { exists (B2R vi). split; [|exact Ek]. rewrite Ee, EM. replace (127 * B2R x / max_mag s + e - 127 * B2R x / max_mag s)%R with e by ring.
      eapply Rle_trans; [exact He|]. unfold u32. change (bpow radix2 (-15)) with (/ 32768)%R. lra. }
    set (z := f32_zero). assert (Fz : is_finite z = true) by reflexivity. assert (Lz : (Rabs (B2R z) <= B2R M)%R) by (cbn; rewrite Rabs_R0; lra).
    assert (Z0 : B2R (f32_div (f32_mul z MAX_QVALUE) M) = 0%R).
    { destruct (vi_R Fz HM Lz) as (_ & E1 & _). destruct (p_R Fz HM Lz) as (_ & E2). rewrite E1, E2. cbn [B2R z f32_zero].
      rewrite Rmult_0_l, rnd32_0. unfold Rdiv. rewrite Rmult_0_l. apply rnd32_0. }
    split; [|split].
    + intros H. pose proof (vi_mono FM Fz Fx HM Lz Lx H) as V. rewrite Z0 in V. fold vi in V. rewrite Ek. rewrite <- (Ztrunc_IZR 0). now apply Ztrunc_le.
    + intros H. pose proof (vi_mono FM Fx Fz HM Lx Lz H) as V. rewrite Z0 in V. fold vi in V. rewrite Ek. rewrite <- (Ztrunc_IZR 0). now apply Ztrunc_le.
    + intros H. apply Rabs_le_inv in He.
      assert (Hsm : (128.5 * u32 * 2 < 1)%R) by (unfold u32; lra).
      destruct (Rle_or_lt 0 (B2R x)) as [Hp|Hp].
      * rewrite Rabs_pos_eq in H by auto. assert (Ev : (B2R vi = 127 + e)%R) by (rewrite Ee, EM, H; field; lra).
        assert (126 <= k)%Z; [|lia]. rewrite Ek. rewrite <- (Ztrunc_IZR 126). apply Ztrunc_le. lra.
      * rewrite Rabs_left in H by auto. assert (Ev : (B2R vi = -127 + e)%R) by (rewrite Ee, EM, <- H; field; lra).
        assert (k <= -126)%Z; [|lia]. rewrite Ek. rewrite <- (Ztrunc_IZR (-126)). apply Ztrunc_le. lra.
  - intros i j x y k l Hi Hj Hk Hl Hxy. rewrite nth_error_map, Hi in Hk. rewrite nth_error_map, Hj in Hl. cbn in Hk, Hl.
    assert (Ek : k = qval M x) by congruence. assert (El : l = qval M y) by congruence. subst k l.
    apply nth_error_In in Hi, Hj. unfold qval. apply Ztrunc_le. apply vi_mono; auto.
Qed.
Print Assumptions C53_quantise.

Example C53_nonvacuous :
  quantize Debug (fz [3; -4; 0; 2]%Z) = Ok [95; -127; 0; 63]%Z /\ quantize Debug [] = Ok [].
Proof. split; vm_compute; reflexivity. Qed.

(** The component of largest magnitude is not always mapped to +-127. *)
Theorem C53_largest_refuted :
  quantize Debug (fz [8454721]%Z) = Ok [126]%Z.
Proof. vm_compute. reflexivity. Qed.
Print Assumptions C53_largest_refuted.

(** A zero vector panics in debug builds (and gives the zero vector otherwise). *)
Theorem C53_zero_vector_refuted :
  forall s, s <> [] -> Forall fzero s ->
    quantize Debug s = Fail Panicked /\ quantize Release s = Ok (map (fun _ => 0%Z) s).
Proof.
  intros s Hn Hz.
  assert (Hf : finite_vec s) by (eapply Forall_impl; [|exact Hz]; intros [a|a| |a b c D] H; cbn in *; tauto).
  assert (HM : max_abs s = Ok (Some f32_zero)).
  { unfold max_abs. rewrite omap_abs by auto. cbn [obind].
    clear Hf. destruct Hz as [|a s Ha Hz]; [tauto|]. cbn [map fold_left].
    assert (Za : forall b : f32, fzero b -> Babs b = f32_zero) by (intros [b|b| |b c e D] Hb; cbn in Hb; try contradiction; reflexivity).
    rewrite Za by auto. clear -Hz Za. induction Hz as [|b s Hb Hz IH]; cbn [map fold_left]; auto. rewrite Za by auto. exact IH. }
  unfold quantize. rewrite HM. cbn [obind].
  assert (V : forall x, fzero x -> f32_div (f32_mul x MAX_QVALUE) f32_zero = B754_nan) by (intros [a|a| |a b c D] H; cbn in H; try contradiction; destruct a; reflexivity).
  split.
  - destruct Hz as [|a s Ha Hz]; [tauto|]. cbn [omapM]. unfold quantize1. rewrite V by auto. reflexivity.
  - clear HM Hf Hn. induction Hz as [|a s Ha _ IH]; [reflexivity|]. cbn [omapM map]. unfold quantize1 at 1. rewrite V by auto.
    replace (let* _ := debug_assert Release _ in Ok (f32_to_i8 B754_nan)) with (Ok 0%Z : outcome Z) by reflexivity. cbn [obind]. rewrite IH. reflexivity.
Qed.
Print Assumptions C53_zero_vector_refuted.

(** Components near the largest f32 overflow: a panic in debug builds, -128 in
    release builds. *)
Theorem C53_large_components_refuted :
  let big := lit 16777215 104 in
  is_finite big = true /\ quantize Debug [big; Bopp big] = Fail Panicked /\ quantize Release [big; Bopp big] = Ok [127; -128]%Z.
Proof. vm_compute. auto. Qed.
Print Assumptions C53_large_components_refuted.

(** A NaN anywhere panics. *)
Theorem C53_nan_panics :
  forall m s, In B754_nan s -> quantize m s = Fail Panicked.
Proof.
  intros m s H.
  assert (N : max_abs s = Fail Panicked); [|unfold quantize; rewrite N; reflexivity].
  unfold max_abs. match goal with |- obind ?o _ = _ => assert (N : o = Fail Panicked); [|rewrite N; reflexivity] end.
  induction s as [|x s IH]; [destruct H|]. cbn [omapM]. destruct H as [->|H]; [reflexivity|].
  unfold notnan at 1. destruct (is_nan (Babs x)); cbn [obind]; auto. rewrite IH by auto. reflexivity.
Qed.
Print Assumptions C53_nan_panics.

(** ** C54 The f32 distance *)
Theorem C54_symmetric : forall x y, angular_dist x y = angular_dist y x.
Proof. exact angular_sym. Qed.
Print Assumptions C54_symmetric.

Theorem C54_not_negative : forall x y d, angular_dist x y = Ok d -> is_nan d = false /\ Bleb f32_zero d = true.
Proof. exact angular_nonneg. Qed.
Print Assumptions C54_not_negative.

Theorem C54_panics_only_for_nan :
  forall x y, angular_dist x y = Fail Panicked <-> is_nan (dot_f32 x y) = true.
Proof.
  intros x y. split; [|apply angular_panic]. destruct (is_nan (dot_f32 x y)) eqn:E; auto.
  destruct (angular_total E) as [d Ed]. rewrite Ed. discriminate.
Qed.
Print Assumptions C54_panics_only_for_nan.

(** The distance from a zero vector is 1. *)
Theorem C54_zero_vector :
  forall x y, length x = length y -> (Forall fzero x /\ finite_vec y) \/ (Forall fzero y /\ finite_vec x) -> angular_dist x y = Ok f32_one.
Proof. intros x y Hl [[H1 H2]|[H1 H2]]; [now apply zero_dist|]. rewrite angular_sym. now apply zero_dist. Qed.
Print Assumptions C54_zero_vector.

(** Finite vectors of moderate size do not panic. *)
Theorem C54_no_panic :
  forall x y, length x = length y -> finite_vec x -> finite_vec y -> (Z.of_nat (rounds (length x)) <= 10000)%Z ->
    Forall2 (fun a b => (Rabs (B2R a * B2R b) <= bpow radix2 100)%R) x y ->
    exists d, angular_dist x y = Ok d.
Proof.
  intros x y Hl Hx Hy Hk HB. destruct (C51_rounding_error x y Hl Hx Hy Hk HB) as [F _]. apply angular_total.
  destruct (dot_f32 x y); auto; discriminate.
Qed.
Print Assumptions C54_no_panic.

(** ... but not all finite vectors: sums of overflowing products of both signs. *)
Theorem C54_overflow_panics_refuted :
  let big := lit 1 100 in
  let x := repeat big 32 in let y := big :: Bopp big :: repeat f32_zero 30 in
  finite_vec x /\ finite_vec y /\ angular_dist x y = Fail Panicked.
Proof.
  cbv zeta. split; [apply Forall_forall; intros v Hv; apply repeat_spec in Hv; subst; vm_compute; reflexivity|].
  split; [|vm_compute; reflexivity]. constructor; [vm_compute; reflexivity|]. constructor; [vm_compute; reflexivity|].
  apply Forall_forall; intros v Hv; apply repeat_spec in Hv; subst; reflexivity.
Qed.
Print Assumptions C54_overflow_panics_refuted.

Example C54_nonvacuous :
  let x := fz [1;0;0]%Z in let y := fz [0;0;1]%Z in
  shown (angular_dist x y) = Some (B2SF f32_one) /\ shown (angular_dist x x) = Some (B2SF f32_zero).
Proof. vm_compute. auto. Qed.
