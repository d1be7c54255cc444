(** * IEEE 754 numbers as used by Rust: [f32] and [f64], rounding to nearest,
    ties to even.  (Flocq; one NaN, since payloads are not observed.) *)
From Coq Require Import ZArith Reals.
From Flocq Require Import Core IEEE754.BinarySingleNaN.
From Verif Require Import Base.
Open Scope Z_scope.

Definition f32 : Type := binary_float 24 128.
Definition f64 : Type := binary_float 53 1024.

#[global] Instance prec32 : Prec_gt_0 24 := eq_refl.
#[global] Instance prec64 : Prec_gt_0 53 := eq_refl.
#[global] Instance emax32 : Prec_lt_emax 24 128 := eq_refl.
#[global] Instance emax64 : Prec_lt_emax 53 1024 := eq_refl.

(** ** f64 *)
Definition f64_div : f64 -> f64 -> f64 := Bdiv mode_NE.
Definition f64_sub : f64 -> f64 -> f64 := Bminus mode_NE.
Definition f64_floor : f64 -> f64 := Bnearbyint mode_DN.
Definition f64_ceil : f64 -> f64 := Bnearbyint mode_UP.
(** [usize as f64] *)
Definition f64_of_usize (n : nat) : f64 := binary_normalize 53 1024 _ _ mode_NE (Z.of_nat n) 0 false.
(** [f64 as usize]: truncation, saturating; NaN gives 0 *)
Definition f64_to_usize (x : f64) : Z :=
  match x with
  | B754_nan => 0
  | B754_infinity s => if s then 0 else 2 ^ 64 - 1
  | _ => Z.max 0 (Z.min (2 ^ 64 - 1) (Btrunc x))
  end.
(** [f32 as f64] *)
Definition f64_of_f32 (x : f32) : f64 :=
  match x with
  | B754_zero s => B754_zero s
  | B754_infinity s => B754_infinity s
  | B754_nan => B754_nan
  | B754_finite s m e _ => binary_normalize 53 1024 _ _ mode_NE (if s then Z.neg m else Z.pos m) e s
  end.
