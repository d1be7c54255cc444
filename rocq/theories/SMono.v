(** * Specification vocabulary: one list of search results is as good as another *)
From Verif Require Import Base.

(** [new] has at least as many results as [old], and its first, second, ... is
    never farther than the first, second, ... of [old]. *)
Definition not_worse (old new : list (nat * Z)) : Prop :=
  length old <= length new /\
  forall i a b, nth_error old i = Some a -> nth_error new i = Some b -> (snd b <= snd a)%Z.

(** The elements [0 .. n-1] have pairwise different distances to the query. *)
Definition no_ties (f : nat -> Z) (n : nat) : Prop :=
  forall i j, i < n -> j < n -> f i = f j -> i = j.
