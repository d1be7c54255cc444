(** * Specification vocabulary: accurate C libraries *)
From Coq Require Import ZArith Reals.
From Flocq Require Import Core IEEE754.BinarySingleNaN.
From Verif Require Import MFloat MLayerSize.
Open Scope R_scope.

(** [v] is the positive number [x] up to a relative error of 2^-50 (at least four
    units in the last place) *)
Definition close (v : f64) (x : R) : Prop := is_finite v = true /\ Rabs (B2R v - x) <= x / 2 ^ 50.

(** logarithms of numbers of at least 1, and powers between 1 and 2^64 of such
    numbers, are accurate *)
Record accurate (L : libm) : Prop := mkAccurate {
  ac_ln : forall x, is_finite x = true -> 1 <= B2R x -> close (ln64 L x) (ln (B2R x));
  ac_pow : forall x y, is_finite x = true -> is_finite y = true -> 1 <= B2R x -> 1 <= Rpower (B2R x) (B2R y) <= 2 ^ 64 ->
    close (powf64 L x y) (Rpower (B2R x) (B2R y))
}.
