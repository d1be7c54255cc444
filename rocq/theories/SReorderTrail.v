(** * Specification vocabulary for the order computed by [reorder] *)
From Verif Require Import Base Bytes MSliceVec MIndexIo MSearch MBuild MReorder.

(** the index that consists of layer [i] of [L] alone *)
Definition only_layer (L : layers) (i : nat) : layers :=
  match L with
  | FixWidth ls => FixWidth (firstn 1 (skipn i ls))
  | Compressed ls => Compressed (firstn 1 (skipn i ls))
  end.

(** the element that searching layer [i] alone for one element, with [max_search]
    1, finds *)
Definition landmark (m : mode) (fuel : nat) (L : layers) (dist : nat -> outcome Z) (i y : nat) : Prop :=
  exists d, granne_search m fuel (only_layer L i) dist 1 1 = Ok [(y, d)].

(** [a] is the new position of [y] under order [p]; the first [first] elements all
    count as 0 *)
Definition new_place (p : list nat) (first y a : nat) : Prop :=
  (y < first -> a = 0) /\ (first <= y -> a < length p /\ nth a p 0 = y).

(** [a] are the new positions of what is found for the element with old id [x] in
    the first [l] (at most 8) layers *)
Definition trail {S E} (C : cops S E) (m : mode) (fuel : nat) (L : layers) (s : S) (p : list nat) (first l x : nat) (a : list nat) : Prop :=
  length a = Nat.min 8 l /\
  exists e, c_get C s x = Ok e /\
    forall i, i < Nat.min 8 l -> exists y, landmark m fuel L (fun j => c_dte C s j e) i y /\ new_place p first y (nth i a 0).

(** lexicographic order *)
Definition precedes (a b : list nat) : Prop :=
  exists k, k < length a /\ firstn k a = firstn k b /\ nth k a 0 < nth k b 0.
