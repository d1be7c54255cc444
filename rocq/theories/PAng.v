(** * Commutativity of the float operations; the distances *)
From Coq Require Import ZArith Reals Lra Lia Psatz.
From Flocq Require Import Core Relative IEEE754.BinarySingleNaN.
From Verif Require Import Base BaseFacts MFloat MAngular SAngular PF32 PAngInt.
Close Scope R_scope.
Open Scope nat_scope.
Set Implicit Arguments. Unset Strict Implicit.

Lemma sf2b_eq (z1 z2 : SpecFloat.spec_float) : z1 = z2 -> forall (h1 : SpecFloat.valid_binary 24 128 z1 = true) (h2 : SpecFloat.valid_binary 24 128 z2 = true), SF2B z1 h1 = SF2B z2 h2.
Proof. intros <- h1 h2. f_equal. apply Eqdep_dec.UIP_dec. decide equality. Qed.

Lemma mul_comm32 (x y : f32) : f32_mul x y = f32_mul y x.
Proof.
  unfold f32_mul, Bmult. destruct x as [sx|sx| |sx mx ex Bx], y as [sy|sy| |sy my ey By]; auto; try (rewrite Bool.xorb_comm; reflexivity).
  apply sf2b_eq. now rewrite Bool.xorb_comm, Pos.mul_comm, Z.add_comm.
Qed.

Lemma fmult_comm (X Y : float radix2) : Operations.Fmult X Y = Operations.Fmult Y X.
Proof. destruct X, Y. unfold Operations.Fmult. now rewrite Z.mul_comm, Z.add_comm. Qed.
Lemma szero_comm (x y z : f32) : Bfma_szero 24 128 mode_NE x y z = Bfma_szero 24 128 mode_NE y x z.
Proof. unfold Bfma_szero. now rewrite (Bool.xorb_comm (Bsign x)). Qed.
Lemma fma_comm (x y z : f32) : f32_fma x y z = f32_fma y x z.
Proof.
  unfold f32_fma. 
  destruct x as [sx|sx| |sx mx ex Bx], y as [sy|sy| |sy my ey By]; cbn [Bfma]; auto; rewrite ?(Bool.xorb_comm sx sy);
    try reflexivity; try (rewrite szero_comm; reflexivity).
  cbv zeta. rewrite fmult_comm. rewrite szero_comm. reflexivity.
Qed.

(** ** Symmetry *)
Section Sym.
  Context {F : Type} (fma : F -> F -> F -> F) (add : F -> F -> F) (zero : F).
  Hypothesis Hc : forall x y z, fma x y z = fma y x z.
  Lemma lanes_sym a : forall b ch, lanes_step fma ch (a, b) = lanes_step fma ch (b, a).
  Proof.
    unfold lanes_step. cbn [fst snd]. induction a as [|x a IH]; intros [|y b] [|c ch]; cbn; auto.
    rewrite Hc. f_equal. apply IH.
  Qed.
  Lemma fold_lanes_sym p : forall q ch, fold_left (lanes_step fma) (combine p q) ch = fold_left (lanes_step fma) (combine q p) ch.
  Proof. induction p as [|a p IH]; intros [|b q] ch; cbn [combine fold_left]; auto. rewrite lanes_sym. apply IH. Qed.
  Lemma fold_fma_sym p : forall q r, fold_left (fun r ab => fma (fst ab) (snd ab) r) (combine p q) r = fold_left (fun r ab => fma (fst ab) (snd ab) r) (combine q p) r.
  Proof. induction p as [|a p IH]; intros [|b q] r; cbn [combine fold_left fst snd]; auto. rewrite Hc. apply IH. Qed.
  Lemma dot_sym x y : dot_product fma add zero x y = dot_product fma add zero y x.
  Proof. unfold dot_product. now rewrite fold_lanes_sym, fold_fma_sym. Qed.
End Sym.

Lemma dot32_sym x y : dot_f32 x y = dot_f32 y x.
Proof. apply dot_sym. exact fma_comm. Qed.
Lemma angular_sym x y : angular_dist x y = angular_dist y x.
Proof. unfold angular_dist. now rewrite dot32_sym. Qed.

Lemma i8_sym m x : forall y r dx dy,
  ofold (fun acc p =>
           let '(r, dx, dy) := acc in let '(xi, yi) := p in
           let* r := i32_add m r (xi * yi) in
           let* dx := i32_add m dx (xi * xi) in
           let* dy := i32_add m dy (yi * yi) in
           Ok (r, dx, dy))%Z (combine y x) (r, dy, dx) =
  let* t := ofold (fun acc p =>
           let '(r, dx, dy) := acc in let '(xi, yi) := p in
           let* r := i32_add m r (xi * yi) in
           let* dx := i32_add m dx (xi * xi) in
           let* dy := i32_add m dy (yi * yi) in
           Ok (r, dx, dy))%Z (combine x y) (r, dx, dy) in let '(r, dx, dy) := t in Ok (r, dy, dx).
Proof.
  induction x as [|a x IH]; intros [|b y] r dx dy; cbn [combine ofold obind]; auto.
  rewrite (Z.mul_comm b a).
  assert (P : forall u v e, i32_add m u v = Fail e -> e = Panicked).
  { intros u v e. unfold i32_add. destruct i32_ok; [discriminate|]. destruct m; [now inversion 1|discriminate]. }
  destruct (i32_add m r (a * b)) as [r'|e] eqn:Er; cbn [obind]; [|reflexivity].
  destruct (i32_add m dy (b * b)) as [dy'|e] eqn:E1; destruct (i32_add m dx (a * a)) as [dx'|e'] eqn:E2; cbn [obind].
  - apply IH.
  - apply P in E2. now subst.
  - apply P in E1. now subst.
  - apply P in E1. apply P in E2. now subst.
Qed.
Lemma angular_int_sym m x y : angular_int_dist m x y = angular_int_dist m y x.
Proof.
  unfold angular_int_dist, dot_norms_i8. rewrite (i8_sym m x y 0 0 0)%Z.
  destruct (ofold _ (combine x y) _) as [[[r dx] dy]|e]; cbn [obind]; auto. now rewrite mul_comm32.
Qed.

(** ** Never NaN, never negative *)
Lemma sub_one_nan (q : f32) : is_nan (f32_sub f32_one q) = is_nan q.
Proof. 
  destruct q as [s|s| |s m e B]; try reflexivity.
  unfold f32_sub, f32_one. 
  pose proof (Bminus_correct 24 128 _ _ mode_NE f32_one (B754_finite s m e B) eq_refl eq_refl) as H.
  destruct (Rlt_bool _ _) in H.
  - destruct H as (_ & H & _). change f32_one with (f32_of_Z 1) in H. destruct (Bminus mode_NE (f32_of_Z 1) (B754_finite s m e B)); try discriminate; reflexivity.
  - destruct H as (H & _). change f32_one with (f32_of_Z 1) in H. 
    destruct (Bminus mode_NE (f32_of_Z 1) (B754_finite s m e B)); auto. cbn in H. discriminate.
Qed.
Lemma angular_total x y : is_nan (dot_f32 x y) = false -> exists d, angular_dist x y = Ok d.
Proof. intros H. unfold angular_dist, notnan. rewrite sub_one_nan, H. cbn [obind]. eauto. Qed.
Lemma angular_panic x y : is_nan (dot_f32 x y) = true -> angular_dist x y = Fail Panicked.
Proof. intros H. unfold angular_dist, notnan. now rewrite sub_one_nan, H. Qed.
Lemma ang_ok_nonneg q d : (let* d := notnan (f32_sub f32_one q) in Ok (max0 d)) = Ok d -> is_nan d = false /\ Bleb f32_zero d = true.
Proof.
  unfold notnan. destruct (is_nan (f32_sub f32_one q)) eqn:E; cbn [obind]; [discriminate|].
  intros H. assert (Hd : max0 (f32_sub f32_one q) = d) by congruence. rewrite <- Hd. now apply max0_nonneg.
Qed.
Lemma angular_nonneg x y d : angular_dist x y = Ok d -> is_nan d = false /\ Bleb f32_zero d = true.
Proof. unfold angular_dist. apply ang_ok_nonneg. Qed.
Lemma angular_int_nonneg m x y d : angular_int_dist m x y = Ok d -> is_nan d = false /\ Bleb f32_zero d = true.
Proof.
  unfold angular_int_dist. destruct (dot_norms_i8 m x y) as [[[r dx] dy]|e]; cbn [obind]; [|discriminate]. apply ang_ok_nonneg.
Qed.
(** once the sums are there, it does not fail *)
Lemma angular_int_ok m x y r dx dy : dot_norms_i8 m x y = Ok (r, dx, dy) -> exists d, angular_int_dist m x y = Ok d.
Proof.
  intros H. unfold angular_int_dist. rewrite H. cbn [obind]. unfold notnan. rewrite sub_one_nan.
  destruct (is_nan (f32_div _ _)) eqn:E; rewrite ?E; cbn [is_nan f32_zero obind]; eauto.
Qed.

(** ** Accuracy of the int8 distance *)
Lemma ge0_R (d : f32) : is_finite d = true -> Bleb f32_zero d = true -> (0 <= B2R d)%R.
Proof. intros Hf H. rewrite (Bleb_correct 24 128 f32_zero d eq_refl Hf) in H. cbn [B2R f32_zero] in H. destruct (Rle_bool_spec 0 (B2R d)); [auto|discriminate]. Qed.

Lemma zdot_pos x : ~ zero_vec x -> (0 < zdot x x)%Z.
Proof. intros H. pose proof (zdot_nonneg x). destruct (Z.eq_dec (zdot x x) 0) as [E|E]; [|lia]. now apply zdot_zero in E. Qed.

Lemma int_acc m x y : i8s x -> i8s y -> length x = length y -> (Z.of_nat (length x) <= 131071)%Z ->
  ~ zero_vec x -> ~ zero_vec y ->
  exists d, angular_int_dist m x y = Ok d /\ is_finite d = true /\ (Rabs (cosine x y) <= 1)%R /\
    (Rabs (B2R d - (1 - cosine x y)) <= 11 * u32)%R.
Proof.
  intros Hx Hy Hl Hn Zx Zy. destruct (kernel_ok m Hx Hy Hl Hn) as (E & B1 & B2 & B3).
  apply zdot_pos in Zx, Zy.
  assert (HX : (0 < zdot x x < 2 ^ 31)%Z) by lia. assert (HY : (0 < zdot y y < 2 ^ 31)%Z) by lia.
  pose proof (cauchy Hl) as C. destruct (dist_acc HX HY C) as (N & F & A). cbv zeta in *.
  pose proof (c_bound HX HY C) as Cb. fold (cosine x y) in A, Cb.
  unfold angular_int_dist. rewrite E. cbn [obind]. rewrite N. set (s := f32_sub f32_one _) in *.
  assert (Ns : is_nan s = false) by (destruct s; auto; discriminate).
  unfold notnan. rewrite Ns. cbn [obind]. exists (max0 s). destruct (max0_R _ F) as (F' & M).
  repeat split; auto. rewrite M. apply Rabs_le_inv in A, Cb. apply Rabs_le. pose proof u32_pos.
  unfold Rmax. destruct (Rle_dec 0 (B2R s)); lra.
Qed.

Lemma mul_zero_l (t : f32) : is_finite t = true -> B2R (f32_mul f32_zero t) = 0%R /\ is_nan (f32_div f32_zero (f32_mul f32_zero t)) = true.
Proof. destruct t; try discriminate; auto. Qed.

Lemma sqrt_ofZ_finite z : (0 <= z < 2 ^ 31)%Z -> is_finite (f32_sqrt (f32_of_Z z)) = true.
Proof.
  intros H. destruct (Z.eq_dec z 0) as [->|Hn]; [reflexivity|]. 
  destruct (@sqrt_part z ltac:(lia)) as (s & F & _). exact F.
Qed.

Lemma int_zero_l m x y : i8s x -> i8s y -> length x = length y -> (Z.of_nat (length x) <= 131071)%Z ->
  zero_vec x -> angular_int_dist m x y = Ok f32_one.
Proof.
  intros Hx Hy Hl Hn Zx. destruct (kernel_ok m Hx Hy Hl Hn) as (E & B1 & B2 & B3).
  unfold angular_int_dist. rewrite E. cbn [obind]. rewrite !(zero_dot Zx).
  change (f32_of_Z 0) with f32_zero. change (f32_sqrt f32_zero) with f32_zero.
  destruct (@mul_zero_l (f32_sqrt (f32_of_Z (zdot y y)))) as [_ N].
  { apply sqrt_ofZ_finite. pose proof (zdot_nonneg y). lia. }
  rewrite N. reflexivity.
Qed.
