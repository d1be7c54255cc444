(** * Specification vocabulary for the error of quantised vectors *)
From Coq Require Import ZArith Reals.
From Flocq Require Import Core IEEE754.BinarySingleNaN.
From Verif Require Import Base MFloat SAngular.

(** An integer component is off by less than one (truncation, and the rounding of
    the scaled value) while the largest component becomes 127, so that the whole
    vector is off by at most [coarseness x] times its length: small for vectors
    whose largest component does not stand out less than their length does. *)
Definition coarseness (x : list f32) : R :=
  ((1 + bpow radix2 (-15)) * sqrt (INR (length x)) * max_mag x / (127 * sqrt (rdot x x)))%R.
