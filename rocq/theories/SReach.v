(** * Specification vocabulary: collections small enough for their lists *)
From Verif Require Import Base MSliceVec MIndexIo MSearch MBuild SBuild.

(** No element has more than [k] others closer to it than the threshold. *)
Definition few_duplicates {S E} (V : benv S E) (s : S) (k : nat) : Prop :=
  forall i e others, i < c_len (e_ops V) s -> c_get (e_ops V) s i = Ok e -> NoDup others ->
    (forall x, In x others -> x < c_len (e_ops V) s /\ x <> i /\
       exists d, c_dte (e_ops V) s x e = Ok d /\ (d < e_eps V)%Z) ->
    length others <= k.

(** For collections of up to [N] elements, each node of each layer has room for
    all the other nodes of the layer. *)
Definition roomy (cfg : config) (N : nat) : Prop :=
  forall n l, n <= N ->
    let total := match k_expected cfg with Some t => t | None => n end in
    let size := k_ideal cfg (Nat.max total n) l in
    Nat.min n size <= 1 + (if size <? total then Nat.max 1 (k_nn cfg / 2) else k_nn cfg).

(** The number of near-duplicates that is always tolerated: half the shortest
    list length used in a build with this configuration. *)
Definition half (cfg : config) : nat := Nat.max 1 (k_nn cfg / 2) / 2.

(** The builder [b], saved and opened with the configuration [cfg]: it was small
    enough, and [cfg] leaves room for all its neighbours. *)
Definition opened_with_room {S E} (V : benv S E) (b : builder S) (cfg : config) : Prop :=
  roomy (b_config b) (builder_num_elements V b) /\ few_duplicates V (b_elems b) (half (b_config b)) /\
  k_nn (b_config b) <= k_nn cfg.

(** Pushing an element does not change the distances of the others to anything. *)
Definition push_keeps_distances {S E I} (C : cops S E) (cpush : S -> I -> outcome S) : Prop :=
  forall s x s', cpush s x = Ok s' -> forall i e, i < c_len C s -> c_dte C s' i e = c_dte C s i e.

(** The nodes a search can find: the first, and those that are not zero vectors. *)
Definition findable {S E} (V : benv S E) (s : S) (n x : nat) : Prop :=
  x < n /\ (x = 0 \/ ~ is_zero V s x).

