(** * C53 and C54, continued: the constants of the vector code *)
From Coq Require Import ZArith Reals Lra.
From Flocq Require Import Core IEEE754.BinarySingleNaN.
From Verif Require Import Base MFloat MAngular PF32 PQuant PDense.
Open Scope R_scope.

(** The literals 0.0001, 127 and 100 * f32::EPSILON: the first is a binary32
    number within half a unit in the last place (2^-37) of one ten-thousandth, the
    others are exact (f32::EPSILON is 2^-23). *)
Theorem C53_constants :
  is_finite f32_1em4 = true /\ Rabs (B2R f32_1em4 - 1 / 10000) < / 2 ^ 38 /\
  is_finite MAX_QVALUE = true /\ B2R MAX_QVALUE = 127 /\
  is_finite EPS100 = true /\ B2R EPS100 = 100 / 2 ^ 23.
Proof.
  destruct (@lit_R f32_1em4 false 13743895 (-37)) as [F1 E1]; [vm_compute; reflexivity|].
  destruct (@lit_R MAX_QVALUE false 16646144 (-17)) as [F2 E2]; [vm_compute; reflexivity|].
  destruct (@lit_R EPS100 false 13107200 (-40)) as [F3 E3]; [vm_compute; reflexivity|].
  rewrite F1, E1, F2, E2, F3, E3. cbn [cond_Zopp].
  change (bpow radix2 (-37)) with (/ 137438953472). change (bpow radix2 (-17)) with (/ 131072). change (bpow radix2 (-40)) with (/ 1099511627776).
  repeat split; try lra. apply Rabs_def1; lra.
Qed.
Print Assumptions C53_constants.
