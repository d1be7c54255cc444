(** * Specification vocabulary: number of layers *)
From Verif Require Import Base MSliceVec MIndexIo MSearch MBuild SBuild.

(** For collections of up to [N] elements, layer number [K] takes all of them. *)
Definition full_at (cfg : config) (K N : nat) : Prop :=
  forall n, n <= N ->
    let total := match k_expected cfg with Some t => t | None => n end in
    n <= k_ideal cfg (Nat.max total n) K.
