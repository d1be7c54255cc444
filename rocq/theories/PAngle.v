(** * Angles of perturbed vectors *)
From Coq Require Import ZArith Reals Lra Lia Psatz.
From Flocq Require Import Core IEEE754.BinarySingleNaN.
From Verif Require Import Base BaseFacts MFloat MAngular SAngular SQuant PF32 PQuant PNormal PAngInt.
Close Scope R_scope.
Open Scope R_scope.
Set Implicit Arguments. Unset Strict Implicit.

Fixpoint dotR (x y : list R) : R :=
  match x, y with a :: x', b :: y' => a * b + dotR x' y' | _, _ => 0 end.
Definition cosR (x y : list R) : R := dotR x y / (sqrt (dotR x x) * sqrt (dotR y y)).

Lemma dotR_sym x : forall y, dotR x y = dotR y x.
Proof. induction x as [|a x IH]; intros [|b y]; cbn; auto. rewrite IH. ring. Qed.
Lemma cosR_sym x y : cosR x y = cosR y x.
Proof. unfold cosR. rewrite (dotR_sym x y). f_equal. ring. Qed.

Lemma gram_nonneg x : forall y w p q s, length x = length y -> length x = length w ->
  0 <= p * p * dotR x x + 2 * p * q * dotR x y + q * q * dotR y y + 2 * s * (p * dotR x w + q * dotR y w) + s * s * dotR w w.
Proof.
  induction x as [|a x IH]; intros [|b y] [|c w] p q s H H'; cbn [dotR length] in *; try lia; [lra|].
  specialize (IH y w p q s ltac:(lia) ltac:(lia)). pose proof (Rle_0_sqr (p * a + q * b + s * c)) as K. unfold Rsqr in K. lra.
Qed.

Lemma gram_cauchy x y w p q : length x = length y -> length x = length w -> 0 < dotR w w ->
  (p * dotR x w + q * dotR y w) * (p * dotR x w + q * dotR y w) <=
  (p * p * dotR x x + 2 * p * q * dotR x y + q * q * dotR y y) * dotR w w.
Proof.
  intros H H' W. pose proof (@gram_nonneg x y w p q (- (p * dotR x w + q * dotR y w) / dotR w w) H H') as G.
  set (N := p * dotR x w + q * dotR y w) in *. set (Q := p * p * dotR x x + 2 * p * q * dotR x y + q * q * dotR y y) in *.
  set (D := dotR w w) in *.
  replace (Q + 2 * (- N / D) * N + - N / D * (- N / D) * D) with ((Q * D - N * N) / D) in G by (field; lra).
  assert (0 <= Q * D - N * N); [|lra].
  apply Rmult_le_reg_r with (/ D); [now apply Rinv_0_lt_compat|]. rewrite Rmult_0_l. exact G.
Qed.

(** moving one of two vectors by [e] times its length *)
Lemma angle_move x y w e : length x = length y -> length x = length w ->
  0 < dotR x x -> 0 < dotR y y -> 0 < dotR w w -> 0 <= dotR x y -> 0 <= e ->
  dotR x x + dotR y y - 2 * dotR x y <= e * e * dotR x x ->
  Rabs (cosR x w - cosR y w) <= sqrt 2 * e.
Proof.
  intros H H' X Y W XY He D.
  pose proof (sqrt_lt_R0 _ X) as sX. pose proof (sqrt_lt_R0 _ Y) as sY. pose proof (sqrt_lt_R0 _ W) as sW.
  pose proof (sqrt_sqrt (dotR x x) ltac:(lra)) as EX. pose proof (sqrt_sqrt (dotR y y) ltac:(lra)) as EY. pose proof (sqrt_sqrt (dotR w w) ltac:(lra)) as EW.
  pose proof (@gram_cauchy x y w (/ sqrt (dotR x x)) (- / sqrt (dotR y y)) H H' W) as G.
  unfold cosR. set (a := sqrt (dotR x x)) in *. set (b := sqrt (dotR y y)) in *. set (o := sqrt (dotR w w)) in *.
  rewrite <- EX, <- EY, <- EW in *.
  set (xy := dotR x y) in *. set (xw := dotR x w) in *. set (yw := dotR y w) in *. clearbody a b o xy xw yw. clear EX EY EW X Y W.
  set (c := xy / (a * b)).
  assert (Ec : xy = c * (a * b)) by (unfold c; field; lra).
  assert (Hc : 0 <= c) by (unfold c, Rdiv; apply Rmult_le_pos; auto; left; apply Rinv_0_lt_compat; nra).
  set (t := b / a). assert (Et : b = t * a) by (unfold t; field; lra).
  assert (D' : 1 + t * t - 2 * t * c <= e * e).
  { apply Rmult_le_reg_r with (a * a); [nra|]. replace ((1 + t * t - 2 * t * c) * (a * a)) with (a * a + b * b - 2 * xy); [exact D|]. rewrite Ec, Et. ring. }
  assert (S1 : 1 - c * c <= e * e) by (pose proof (Rle_0_sqr (t - c)) as K; unfold Rsqr in K; lra).
  assert (G' : (xw / (a * o) - yw / (b * o)) * (xw / (a * o) - yw / (b * o)) <= 2 - 2 * c).
  { apply Rmult_le_reg_r with (o * o); [nra|].
    replace ((xw / (a * o) - yw / (b * o)) * (xw / (a * o) - yw / (b * o)) * (o * o)) with ((/ a * xw + - / b * yw) * (/ a * xw + - / b * yw)) by (field; lra).
    eapply Rle_trans; [exact G|]. rewrite Ec. apply Req_le. field. lra. }
  assert (C1 : c <= 1).
  { pose proof (Rle_0_sqr (xw / (a * o) - yw / (b * o))) as K. unfold Rsqr in K. lra. }
  assert (S2 : 2 - 2 * c <= 2 * (e * e)) by nra.
  rewrite <- (Rabs_pos_eq (sqrt 2 * e)) by (apply Rmult_le_pos; [apply sqrt_pos|auto]).
  apply Rsqr_le_abs_0. unfold Rsqr. replace (sqrt 2 * e * (sqrt 2 * e)) with (sqrt 2 * sqrt 2 * (e * e)) by ring. rewrite sqrt_sqrt by lra. lra.
Qed.

(** moving both *)
Lemma angle_move2 x y x' y' e f : length x = length y -> length x' = length x -> length y' = length y ->
  0 < dotR x x -> 0 < dotR y y -> 0 < dotR x' x' -> 0 < dotR y' y' -> 0 <= dotR x x' -> 0 <= dotR y y' -> 0 <= e -> 0 <= f ->
  dotR x x + dotR x' x' - 2 * dotR x x' <= e * e * dotR x x ->
  dotR y y + dotR y' y' - 2 * dotR y y' <= f * f * dotR y y ->
  Rabs (cosR x' y' - cosR x y) <= sqrt 2 * (e + f).
Proof.
  intros H Hx Hy X Y X' Y' A B He Hf D1 D2.
  pose proof (@angle_move x x' y e ltac:(lia) ltac:(lia) X X' Y A He D1) as M1.
  pose proof (@angle_move y y' x' f ltac:(lia) ltac:(lia) Y Y' X' B Hf D2) as M2.
  rewrite (cosR_sym y), (cosR_sym y') in M2.
  replace (cosR x' y' - cosR x y) with (- (cosR x y - cosR x' y) + - (cosR x' y - cosR x' y')) by ring.
  eapply Rle_trans; [apply Rabs_triang|]. rewrite !Rabs_Ropp. lra.
Qed.

(** scaling does not change an angle *)
Lemma dotR_scale p q x : forall y, dotR (map (Rmult p) x) (map (Rmult q) y) = p * q * dotR x y.
Proof. induction x as [|a x IH]; intros [|b y]; cbn; try ring. rewrite IH. ring. Qed.
Lemma cosR_scale p q x y : 0 < p -> 0 < q -> 0 < dotR x x -> 0 < dotR y y -> cosR (map (Rmult p) x) (map (Rmult q) y) = cosR x y.
Proof.
  intros P Q X Y. unfold cosR. rewrite !dotR_scale.
  assert (E : forall r u, 0 < r -> 0 < u -> sqrt (r * r * u) = r * sqrt u) by (intros r u R U; rewrite sqrt_mult_alt by nra; rewrite sqrt_square by lra; reflexivity).
  rewrite !E by auto.
  pose proof (sqrt_lt_R0 _ X). pose proof (sqrt_lt_R0 _ Y). field. repeat split; lra.
Qed.

Lemma dotR_Z x : forall y, dotR (map IZR x) (map IZR y) = IZR (zdot x y).
Proof. induction x as [|a x IH]; intros [|b y]; cbn; auto. rewrite IH, plus_IZR, mult_IZR. reflexivity. Qed.
Lemma dotR_f x : forall y : list f32, dotR (map B2R x) (map B2R y) = rdot x y.
Proof. induction x as [|a x IH]; intros [|b y]; cbn; auto. now rewrite IH. Qed.

(** componentwise distance *)
Lemma dotR_close d : 0 <= d -> forall x y, Forall2 (fun a b => Rabs (b - a) <= d) x y ->
  dotR x x + dotR y y - 2 * dotR x y <= INR (length x) * (d * d).
Proof.
  intros Hd. induction 1 as [|a b x y H _ IH]; [cbn; lra|]. cbn [dotR length]. rewrite S_INR.
  apply Rabs_le_inv in H. assert ((b - a) * (b - a) <= d * d) by nra. lra.
Qed.
Lemma dotR_same_sign x y : Forall2 (fun a b => 0 <= a * b) x y -> 0 <= dotR x y.
Proof. induction 1; cbn; lra. Qed.
