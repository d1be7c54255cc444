(** * Specification vocabulary: decimal numbers *)
From Verif Require Import Base.

(** [n], written in decimal notation, has [k] digits *)
Definition decimals (n k : nat) : Prop :=
  0 < k /\ (N.of_nat n < 10 ^ N.of_nat k)%N /\ (k = 1 \/ (10 ^ N.of_nat (k - 1) <= N.of_nat n)%N).
