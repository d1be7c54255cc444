(** * Model of [compute_num_elements_in_layer], src/index/mod.rs:633-643 *)
From Coq Require Import ZArith Reals.
From Flocq Require Import Core IEEE754.BinarySingleNaN.
From Verif Require Import Base MFloat MBuild.
Open Scope Z_scope.

(** the functions of the C library used: [f64::ln], [f64::powf] *)
Record libm := mkLibm { ln64 : f64 -> f64; powf64 : f64 -> f64 -> f64 }.

(** [f64::log(self, base)] is [self.ln() / base.ln()] (Rust's standard library) *)
Definition log64 (L : libm) (x base : f64) : f64 := f64_div (ln64 L x) (ln64 L base).

(** :634-643 *)
Definition layer_exponent (L : libm) (n : nat) (m : f64) : f64 := f64_floor (log64 L (f64_of_usize n) m).
Definition layer_size (L : libm) (multiplier : f32) (total_num_elements layer_idx : nat) : nat :=
  let layer_multiplier := f64_of_f32 multiplier in
  let q := f64_div (f64_of_usize total_num_elements)
             (powf64 L layer_multiplier
                (f64_sub (layer_exponent L total_num_elements layer_multiplier) (f64_of_usize layer_idx))) in
  Z.to_nat (Z.min (f64_to_usize (f64_ceil q)) (Z.of_nat total_num_elements)).

(** The same formula over the real numbers, i.e. without rounding: this is what
    the code means to compute. *)
Definition layer_exponent_R (m : R) (n : nat) : Z := Zfloor (ln (INR n) / ln m).
Definition layer_size_R (m : R) (n l : nat) : Z :=
  Z.min (Zceil (INR n / Rpower m (IZR (layer_exponent_R m n) - INR l))) (Z.of_nat n).

(** [BuildConfig], :199-218, with its [layer_multiplier] *)
Definition config_of (nn ms : nat) (reinsert : bool) (expected : option nat) (L : libm) (multiplier : f32) : config :=
  mkConfig nn ms reinsert expected (layer_size L multiplier).
(** the same with unrounded layer sizes *)
Definition config_R (nn ms : nat) (reinsert : bool) (expected : option nat) (multiplier : R) : config :=
  mkConfig nn ms reinsert expected (fun n l => Z.to_nat (layer_size_R multiplier n l)).
