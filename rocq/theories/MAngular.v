(** * Model of src/math.rs, src/elements/angular.rs, src/elements/angular_int.rs
    and of the vector collections of src/elements/dense_vector.rs as element
    containers.

    The [blas] variants of src/math.rs are not modelled; the [avx2] variants are
    the same functions compiled for another target. *)
From Coq Require Import ZArith.
From Flocq Require Import Core IEEE754.BinarySingleNaN.
From Verif Require Import Base Bytes MSliceVec MSearch MBuild MReorder MFloat.
Close Scope R_scope.
Open Scope nat_scope.

(** ** The dot product kernel, math.rs:16-41, for any scalar type: [fma a b c] is
    [a.mul_add(b, c)], [add] is [+], [zero] is [0.0]. *)
Section Dot.
  Context {F : Type} (fma : F -> F -> F -> F) (add : F -> F -> F) (zero : F).

  Definition CHUNK_SIZE := 32. (* :18 *)

  (** [for i in 0..CHUNK_SIZE { chunk[i] = a[i].mul_add(b[i], chunk[i]); }], :22-24 *)
  Definition lanes_step (chunk : list F) (ab : list F * list F) : list F :=
    map (fun t => fma (fst (fst t)) (snd (fst t)) (snd t)) (combine (combine (fst ab) (snd ab)) chunk).

  (** [chunks_exact(CHUNK_SIZE).remainder()] *)
  Definition remainder (x : list F) : list F := skipn (CHUNK_SIZE * (length x / CHUNK_SIZE)) x.

  Definition dot_product (x y : list F) : F :=
    let chunk := fold_left lanes_step (combine (chunks_exact CHUNK_SIZE x) (chunks_exact CHUNK_SIZE y))
                           (repeat zero CHUNK_SIZE) in
    let r := fold_left add chunk zero in (* :27-30 *)
    fold_left (fun r ab => fma (fst ab) (snd ab) r) (combine (remainder x) (remainder y)) r. (* :32-39 *)
End Dot.

(** ** f32 *)
Definition f32_zero : f32 := B754_zero false.
Definition f32_of_Z (z : Z) : f32 := binary_normalize 24 128 _ _ mode_NE z 0 false.
Definition f32_one : f32 := f32_of_Z 1.
Definition f32_add : f32 -> f32 -> f32 := Bplus mode_NE.
Definition f32_sub : f32 -> f32 -> f32 := Bminus mode_NE.
Definition f32_mul : f32 -> f32 -> f32 := Bmult mode_NE.
Definition f32_div : f32 -> f32 -> f32 := Bdiv mode_NE.
Definition f32_sqrt : f32 -> f32 := Bsqrt mode_NE.
(** [f32::mul_add] (fused) *)
Definition f32_fma : f32 -> f32 -> f32 -> f32 := Bfma mode_NE.

(** The order of [NotNan<f32>], coded as in [MSearch]: the bits of the number, as
    a signed integer ([-0.0] like [0.0]; never applied to NaN). *)
Definition f32_code (x : f32) : Z :=
  match x with
  | B754_zero _ => 0
  | B754_infinity s => cond_Zopp s (255 * 2 ^ 23)
  | B754_nan => 0
  | B754_finite s m e _ => cond_Zopp s ((e + 149) * 2 ^ 23 + Z.pos m)
  end.

(** [math::dot_product_f32], math.rs:4-51 *)
Definition dot_f32 : list f32 -> list f32 -> f32 := dot_product f32_fma f32_add f32_zero.

(** [math::normalize_f32], math.rs:122-150 *)
Definition normalize_f32 (x : list f32) : list f32 :=
  let norm := f32_sqrt (dot_f32 x x) in
  if Bltb f32_zero norm then map (fun v => f32_div v norm) x else x.

(** [NotNan::new(..).unwrap()] *)
Definition notnan (x : f32) : outcome f32 := if is_nan x then Fail Panicked else Ok x.
(** [cmp::max(0.0, d)] of [NotNan]s: the second unless the first is greater *)
Definition max0 (d : f32) : f32 := if Bltb d f32_zero then f32_zero else d.

(** ** angular.rs *)
(** [From<Vec<f32>> for Vector], :54-60 *)
Definition angular_vector (v : list f32) : list f32 := normalize_f32 v.
(** [Dist for Vector], :62-74 *)
Definition angular_dist (x y : list f32) : outcome f32 :=
  let r := dot_f32 x y in
  let* d := notnan (f32_sub f32_one r) in
  Ok (max0 d).

(** ** angular_int.rs *)

(** [i32] addition: overflow panics in debug builds and wraps otherwise *)
Definition i32_ok (z : Z) : bool := ((- 2 ^ 31 <=? z) && (z <? 2 ^ 31))%Z.
Definition i32_add (m : mode) (a b : Z) : outcome Z :=
  if i32_ok (a + b) then Ok (a + b)%Z
  else match m with Debug => Fail Panicked | Release => Ok ((a + b + 2 ^ 31) mod 2 ^ 32 - 2 ^ 31)%Z end.

(** [math::dot_product_and_squared_norms_i8], math.rs:58-90; a product of two
    [i8] always fits an [i32] *)
Definition dot_norms_i8 (m : mode) (x y : list Z) : outcome (Z * Z * Z) :=
  ofold (fun acc p =>
           let '(r, dx, dy) := acc in let '(xi, yi) := p in
           let* r := i32_add m r (xi * yi) in
           let* dx := i32_add m dx (xi * xi) in
           let* dy := i32_add m dy (yi * yi) in
           Ok (r, dx, dy)) (combine x y) (0, 0, 0)%Z.

(** [Dist for Vector], angular_int.rs:46-60 *)
Definition angular_int_dist (m : mode) (x y : list Z) : outcome f32 :=
  let* t := dot_norms_i8 m x y in
  let '(r, dx, dy) := t in
  let q := f32_div (f32_of_Z r) (f32_mul (f32_sqrt (f32_of_Z dx)) (f32_sqrt (f32_of_Z dy))) in
  let r := if is_nan q then f32_zero else q in
  let* d := notnan (f32_sub f32_one r) in
  Ok (max0 d).

Definition MAX_QVALUE : f32 := f32_of_Z 127. (* :25 *)
(** the literal [0.0001] as [f32] *)
Definition f32_1em4 : f32 := binary_normalize 24 128 _ _ mode_NE 13743895 (-37) false.

(** [f32 as i8]: truncation, saturating; NaN gives 0 *)
Definition f32_to_i8 (x : f32) : Z :=
  match x with
  | B754_nan => 0
  | B754_infinity s => if s then -128 else 127
  | _ => Z.max (-128) (Z.min 127 (Btrunc x))
  end%Z.

(** [.map(|s| NotNan::new(s.abs()).unwrap()).max()], :29-33: of equal items the last *)
Definition max_abs (s : list f32) : outcome (option f32) :=
  let* l := omapM (fun x => notnan (Babs x)) s in
  Ok (fold_left (fun (acc : option f32) x =>
                   match acc with
                   | None => Some x
                   | Some a => Some (if Bltb x a then a else x)
                   end) l None).

(** [Vector::quantize], :27-44 *)
Definition quantize1 (m : mode) (max_value x : f32) : outcome Z :=
  let vi := f32_div (f32_mul x MAX_QVALUE) max_value in
  let* _ := debug_assert m (Bleb (f32_sub (Bopp MAX_QVALUE) f32_1em4) vi && Bleb vi (f32_add MAX_QVALUE f32_1em4)) in
  Ok (f32_to_i8 vi).
Definition quantize (m : mode) (s : list f32) : outcome (list Z) :=
  let* mx := max_abs s in
  let max_value := match mx with Some v => v | None => MAX_QVALUE end in
  omapM (quantize1 m max_value) s.

(** ** The collections: [vectors_ops] (MReorder) with the distance of the vector
    type, coded. *)
(** [ExtendableElementContainer::push], dense_vector.rs:166-172, is [fw_push];
    [Permutable::permute], :176-180, is [vectors_permute]. *)
Definition coded (o : outcome f32) : outcome Z := let* d := o in Ok (f32_code d).
Definition angular_ops (m : mode) : cops (fw f32) (list f32) :=
  vectors_ops m (fun x y => coded (angular_dist x y)).
Definition angular_int_ops (m : mode) : cops (fw Z) (list Z) :=
  vectors_ops m (fun x y => coded (angular_int_dist m x y)).

(** the threshold [100.0 * f32::EPSILON], src/index/mod.rs:813, 829 *)
Definition EPS100 : f32 := f32_mul (f32_of_Z 100) (binary_normalize 24 128 _ _ mode_NE 1 (-23) false).
