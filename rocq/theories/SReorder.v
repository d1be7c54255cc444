(** * Specification vocabulary for reordering *)
From Verif Require Import Base Bytes MSliceVec SSliceVec MIndexIo SIndexIo MSearch SSearch MBuild.

(** [p] rearranges all ids of an index with graph [G], and those of every layer
    among themselves.  [p] sends new ids to old ones: [nth i p] is the old id of
    the node that is now [i]. *)
Definition keeps_layers (G : list (list (list N))) (p : list nat) : Prop :=
  is_perm (length (last G [])) p /\ Forall (fun g => is_perm (length g) (firstn (length g) p)) G.

(** Neighbour lists of at most 254 ids (see C02), fewer than 2^32 nodes. *)
Definition storable (G : list (list (list N))) : Prop :=
  Forall (Forall (fun ns => length ns <= 254)) G /\ (N.of_nat (length (last G [])) <= 4294967296)%N.

(** [permute] of a container in state [s]: with a rearrangement [p] of all its
    ids, element [i] is afterwards what element [nth i p] was before. *)
Definition permute_law {S E} (C : cops S E) (permute : S -> list nat -> outcome S) (s : S) : Prop :=
  forall p, is_perm (c_len C s) p ->
    exists s', permute s p = Ok s' /\ c_len C s' = c_len C s /\
      forall i, i < c_len C s ->
        c_get C s' i = c_get C s (nth i p 0) /\
        forall e, c_dte C s' i e = c_dte C s (nth i p 0) e.

(** ... and a list of another length is refused. *)
Definition permute_refuses {S E} (C : cops S E) (permute : S -> list nat -> outcome S) (s : S) : Prop :=
  forall p, length p <> c_len C s -> permute s p = Fail Panicked.

(** The ordering of keys is total and transitive. *)
Definition key_order {K} (le : K -> K -> bool) : Prop :=
  (forall x y, le x y = true \/ le y x = true) /\
  (forall x y z, le x y = true -> le y z = true -> le x z = true).

(** Ids [b .. e) of order [p] appear by ascending key, equal keys by ascending
    old id. *)
Definition sorted_range {K} (le : K -> K -> bool) (keys : list K) (p : list nat) (b e : nat) : Prop :=
  forall i j ki kj, b <= i -> i < j -> j < e ->
    nth_error keys (nth i p 0) = Some ki -> nth_error keys (nth j p 0) = Some kj ->
    le ki kj = true /\ (le kj ki = true -> nth i p 0 < nth j p 0).

(** first id that layer [i] adds to the layers above it *)
Definition layer_start (G : list (list (list N))) (i : nat) : nat :=
  match i with 0 => 0 | S j => length (nth j G []) end.

(** [L'] is [L] with its nodes renamed: node [x] of [L'] is node [nth x p] of
    [L], in every layer, with the same neighbours. *)
Definition renamed (m : mode) (L L' : layers) (p : list nat) : Prop :=
  layers_len L' = layers_len L /\
  forall i, i < layers_len L ->
    exists len, layer_len L i = Ok len /\ layer_len L' i = Ok len /\
      forall x, x < len ->
        exists ns ns', get_neighbors m L (nth x p 0) i = Ok ns /\ get_neighbors m L' x i = Ok ns' /\
          Forall (fun y => y < len) ns' /\ Permutation (map (fun y => nth y p 0) ns') ns.

(** The container has elements for the first [n] ids, with distances between
    them. *)
Definition has_elements {S E} (C : cops S E) (s : S) (n : nat) : Prop :=
  forall i, i < n -> exists e, c_get C s i = Ok e /\ forall j, j < n -> exists d, c_dte C s j e = Ok d.

(** The elements of container [s'] are those of [s], renamed by [p]. *)
Definition elements_moved {S E} (C : cops S E) (s s' : S) (p : list nat) : Prop :=
  c_len C s' = c_len C s /\
  forall i, i < c_len C s ->
    c_get C s' i = c_get C s (nth i p 0) /\
    forall e, c_dte C s' i e = c_dte C s (nth i p 0) e.
