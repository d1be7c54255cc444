(** * Specification vocabulary for layer sizes *)
From Coq Require Import ZArith Reals.
From Flocq Require Import Core IEEE754.BinarySingleNaN.
From Verif Require Import MFloat MLayerSize.

(** What is assumed of the C library for a multiplier [m] > 1: powers are
    numbers >= 0 (and not -0), grow with the exponent, and the power 0 is 1. *)
Record pow_up (L : libm) (m : f64) : Prop := mkPowUp {
  pu_num : forall y, is_nan y = false -> is_nan (powf64 L m y) = false /\ Bsign (powf64 L m y) = false;
  pu_mono : forall x y, Bleb x y = true -> Bleb (powf64 L m x) (powf64 L m y) = true;
  pu_zero : forall s, powf64 L m (B754_zero s) = Bone
}.

(** ... and of the logarithm of [n]: rounded down, it is a finite number >= 0,
    and raising [m] to it does not overflow. *)
Record log_ok (L : libm) (m : f64) (n : nat) : Prop := mkLogOk {
  lo_fin : is_finite (layer_exponent L n m) = true;
  lo_pos : Bleb (B754_zero false) (layer_exponent L n m) = true;
  lo_pow : is_finite (powf64 L m (layer_exponent L n m)) = true
}.

(** Multipliers strictly between 0 and 1: powers are numbers >= 0 and fall with
    the exponent; the logarithm of [n], rounded down, is finite, and so is the
    power. *)
Record pow_down (L : libm) (m : f64) : Prop := mkPowDown {
  pd_num : forall y, is_nan y = false -> is_nan (powf64 L m y) = false /\ Bsign (powf64 L m y) = false;
  pd_mono : forall x y, Bleb x y = true -> Bleb (powf64 L m y) (powf64 L m x) = true
}.
Record log_fin (L : libm) (m : f64) (n : nat) : Prop := mkLogFin {
  lf_fin : is_finite (layer_exponent L n m) = true;
  lf_pow : is_finite (powf64 L m (layer_exponent L n m)) = true
}.
(** ... and [m] raised to that gives at least [n] (as it does in exact arithmetic). *)
Definition log_small (L : libm) (m : f64) (n : nat) : Prop :=
  Bleb (f64_of_usize n) (powf64 L m (layer_exponent L n m)) = true.

(** NaN and negative multipliers: what every C library does (IEEE 754, C99 annex F). *)
Record nan_laws (L : libm) : Prop := mkNanLaws {
  nl_ln_nan : ln64 L B754_nan = B754_nan;
  nl_ln_neg : forall x, Bltb x (B754_zero false) = true -> ln64 L x = B754_nan;
  nl_pow_nan : forall x, Bleb x (B754_zero false) = true \/ is_nan x = true -> powf64 L x B754_nan = B754_nan
}.

(** Multipliers 0 and infinity: what every C library does (C99 annex F), and
    logarithms of numbers of at least 1 are finite. *)
Record edge_laws (L : libm) : Prop := mkEdgeLaws {
  el_ln_zero : forall s, ln64 L (B754_zero s) = B754_infinity true;
  el_ln_inf : ln64 L (B754_infinity false) = B754_infinity false;
  el_ln_num : forall x, is_finite x = true -> (1 <= B2R x)%R -> is_finite (ln64 L x) = true;
  el_pow_0 : forall x s, powf64 L x (B754_zero s) = Bone;
  el_pow_zero : forall s y, Bltb y (B754_zero false) = true ->
    exists s', powf64 L (B754_zero s) y = B754_infinity s';
  el_pow_inf : forall y, Bltb y (B754_zero false) = true ->
    powf64 L (B754_infinity false) y = B754_zero false
}.
