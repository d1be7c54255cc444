(** * C51, continued: the 32-bit sums of the int8 kernel, for vectors of any length *)
From Coq Require Import ZArith Lia Psatz.
From Verif Require Import Base BaseFacts MFloat MAngular SAngular PF32 PAngInt.
Open Scope Z_scope.

(** [w] is the 32-bit two's complement number congruent to [z] *)
Definition wrapped (z w : Z) : Prop := - 2 ^ 31 <= w < 2 ^ 31 /\ exists k, w = z + k * 2 ^ 32.

Lemma i32_add_wraps z a b : wrapped z a -> exists c, i32_add Release a b = Ok c /\ wrapped (z + b) c.
Proof.
  intros (Ha & k & E). unfold i32_add. destruct (i32_ok (a + b)) eqn:H; eexists; (split; [reflexivity|]).
  - unfold i32_ok in H. apply andb_prop in H as [H1 H2]. apply Z.leb_le in H1. apply Z.ltb_lt in H2.
    split; [lia|]. exists k. lia.
  - pose proof (Z.mod_pos_bound (a + b + 2 ^ 31) (2 ^ 32) ltac:(lia)) as B.
    pose proof (Z.div_mod (a + b + 2 ^ 31) (2 ^ 32) ltac:(lia)) as D.
    split; [lia|]. exists (k - (a + b + 2 ^ 31) / 2 ^ 32). lia.
Qed.

(** In release builds every sum wraps around: the kernel returns the three exact
    sums modulo 2^32, whatever the length. *)
Theorem C51_int8_release :
  forall x y, length x = length y ->
    exists r dx dy, dot_norms_i8 Release x y = Ok (r, dx, dy) /\
      wrapped (zdot x y) r /\ wrapped (zdot x x) dx /\ wrapped (zdot y y) dy.
Proof.
  assert (G : forall x y zr zx zy r dx dy, length x = length y -> wrapped zr r -> wrapped zx dx -> wrapped zy dy ->
    exists r' dx' dy', ofold (fun acc p =>
           let '(r, dx, dy) := acc in let '(xi, yi) := p in
           let* r := i32_add Release r (xi * yi) in
           let* dx := i32_add Release dx (xi * xi) in
           let* dy := i32_add Release dy (yi * yi) in
           Ok (r, dx, dy)) (combine x y) (r, dx, dy) = Ok (r', dx', dy') /\
      wrapped (zr + zdot x y) r' /\ wrapped (zx + zdot x x) dx' /\ wrapped (zy + zdot y y) dy').
  { induction x as [|a x IH]; intros [|b y] zr zx zy r dx dy Hl Hr Hx Hy; cbn [length] in Hl; try discriminate.
    - cbn [combine ofold zdot]. rewrite !Z.add_0_r. eauto 8.
    - cbn [combine ofold].
      destruct (i32_add_wraps _ _ (a * b) Hr) as (r1 & -> & Hr1). destruct (i32_add_wraps _ _ (a * a) Hx) as (x1 & -> & Hx1).
      destruct (i32_add_wraps _ _ (b * b) Hy) as (y1 & -> & Hy1). cbn [obind zdot]. rewrite !Z.add_assoc.
      apply IH; auto. }
  intros x y Hl. unfold dot_norms_i8.
  destruct (G x y 0 0 0 0 0 0 Hl) as (r & dx & dy & H); try (split; [lia|exists 0; lia]).
  exists r, dx, dy. exact H.
Qed.
Print Assumptions C51_int8_release.

(** In debug builds the kernel returns the exact sums or panics, and it panics
    exactly when one of the squared norms does not fit. *)
Theorem C51_int8_debug :
  forall x y, length x = length y ->
    (zdot x x < 2 ^ 31 /\ zdot y y < 2 ^ 31 -> dot_norms_i8 Debug x y = Ok (zdot x y, zdot x x, zdot y y)) /\
    (2 ^ 31 <= zdot x x \/ 2 ^ 31 <= zdot y y -> dot_norms_i8 Debug x y = Fail Panicked).
Proof.
  assert (A : forall a b, i32_add Debug a b = if i32_ok (a + b) then Ok (a + b) else Fail Panicked) by reflexivity.
  assert (Hok : forall z, i32_ok z = true <-> - 2 ^ 31 <= z < 2 ^ 31).
  { intros z. unfold i32_ok. rewrite andb_true_iff, Z.leb_le, Z.ltb_lt. tauto. }
  assert (G : forall x y r dx dy, length x = length y -> 0 <= dx < 2 ^ 31 -> 0 <= dy < 2 ^ 31 -> 2 * Z.abs r <= dx + dy ->
    let k := ofold (fun acc p =>
           let '(r, dx, dy) := acc in let '(xi, yi) := p in
           let* r := i32_add Debug r (xi * yi) in
           let* dx := i32_add Debug dx (xi * xi) in
           let* dy := i32_add Debug dy (yi * yi) in
           Ok (r, dx, dy)) (combine x y) (r, dx, dy) in
    (dx + zdot x x < 2 ^ 31 /\ dy + zdot y y < 2 ^ 31 -> k = Ok (r + zdot x y, dx + zdot x x, dy + zdot y y)) /\
    (2 ^ 31 <= dx + zdot x x \/ 2 ^ 31 <= dy + zdot y y -> k = Fail Panicked)).
  { induction x as [|a x IH]; intros [|b y] r dx dy Hl Hx Hy Hr k; cbn [length] in Hl; try discriminate.
    - unfold k. cbn [combine ofold zdot]. rewrite !Z.add_0_r. split; [reflexivity|lia].
    - unfold k. clear k. cbn [combine ofold zdot]. rewrite !Z.add_assoc. rewrite !A.
      assert (S1 : 0 <= a * a) by nia. assert (S2 : 0 <= b * b) by nia.
      assert (S3 : 2 * Z.abs (a * b) <= a * a + b * b).
      { pose proof (Z.square_nonneg (a - b)). pose proof (Z.square_nonneg (a + b)). lia. }
      pose proof (zdot_nonneg x) as N1. pose proof (zdot_nonneg y) as N2.
      destruct (i32_ok (dx + a * a)) eqn:E1; [apply Hok in E1|].
      + destruct (i32_ok (dy + b * b)) eqn:E2; [apply Hok in E2|].
        * rewrite (proj2 (Hok (r + a * b))) by lia. cbn [obind]. apply IH; auto; lia.
        * assert (2 ^ 31 <= dy + b * b). { destruct (Z.lt_ge_cases (dy + b * b) (2 ^ 31)); auto. rewrite (proj2 (Hok _)) in E2 by lia. discriminate. }
          split; [lia|]. intros _. destruct (i32_ok (r + a * b)); reflexivity.
      + assert (2 ^ 31 <= dx + a * a). { destruct (Z.lt_ge_cases (dx + a * a) (2 ^ 31)); auto. rewrite (proj2 (Hok _)) in E1 by lia. discriminate. }
        split; [lia|]. intros _. destruct (i32_ok (r + a * b)); reflexivity. }
  intros x y Hl. unfold dot_norms_i8. apply (G x y 0 0 0 Hl); lia.
Qed.
Print Assumptions C51_int8_debug.

(** Both cases occur beyond the length of [C51_int8_kernel]: 2^31 - 2^14 and 2^31
    as sums of squares of -128. *)
Example C51_int8_wrap_nonvacuous :
  zdot (repeat (-128) 3) (repeat 127 3) = - 48768 /\ wrapped (- 2 ^ 31 - 1) (2 ^ 31 - 1) /\
  exists x, zdot x x = 2 ^ 31 /\ Forall (fun z => z = -128) x.
Proof.
  split; [reflexivity|]. split; [split; [lia|exists 1; lia]|].
  assert (G : forall n, zdot (repeat (-128) n) (repeat (-128) n) = 16384 * Z.of_nat n).
  { induction n as [|n IH]; [reflexivity|]. cbn [repeat zdot]. rewrite IH, Nat2Z.inj_succ. lia. }
  assert (N : exists n, Z.of_nat n = 131072) by (exists (Z.to_nat 131072); apply Z2Nat.id; lia). destruct N as [n Hn].
  exists (repeat (-128) n). rewrite G, Hn. split; [reflexivity|]. apply Forall_forall. intros z Hz. now apply repeat_spec in Hz.
Qed.
