(** * Specification vocabulary for saved indexes *)
From Verif Require Import Base Bytes MSliceVec SSliceVec MOffsets MSetVec SOffsets MIndexIo.

(** A builder layer whose node [j] has the neighbours [nth j g]: rows of one
    width, used slots first, unused slots after them.  At most 254 neighbours
    per node (see C02 for longer lists). *)
Definition fix_layer_is (l : fw N) (g : list (list N)) : Prop :=
  exists w, 0 < w /\
    fw_is w (map (fun ns => ns ++ repeat UNUSED (w - length ns)) g) l /\
    Forall (fun ns => length ns <= w /\ length ns <= 254 /\ Forall (fun x => (x < UNUSED)%N) ns) g.

(** A compressed layer made by storing the neighbour lists [g]. *)
Definition comp_layer_is (m : mode) (l : msv) (g : list (list N)) : Prop :=
  Forall (fun ns => Forall is_u32 ns /\ length ns <= 254) g /\ msv_build m g = Ok l.

(** Index [L] holds the graph [G]: one list of neighbour lists per layer; no
    layer is astronomically large. *)
Definition index_is (m : mode) (L : layers) (G : list (list (list N))) : Prop :=
  Forall (fun g => layer_fits (length g)) G /\
  match L with
  | FixWidth ls => Forall2 fix_layer_is ls G
  | Compressed ls => Forall2 (comp_layer_is m) ls G
  end.

(** Everything visible of an index holding [G]: number of layers, their lengths
    and every node's neighbours (as a multiset). *)
Definition index_shows (m : mode) (L : layers) (G : list (list (list N))) : Prop :=
  layers_len L = length G /\
  forall i g, nth_error G i = Some g ->
    layer_len L i = Ok (length g) /\
    forall j ns, nth_error g j = Some ns ->
      exists ns', get_neighbors m L j i = Ok ns' /\ Permutation ns' (map N.to_nat ns).

(** The two indexes cannot be told apart, up to the order of neighbours. *)
Definition same_index (m : mode) (L L' : layers) : Prop :=
  exists G, index_shows m L G /\ index_shows m L' G.

(** what a typed view of the buffer shows: [vcount] items of [vsize] bytes from
    position [voff] *)
Definition shown {T} (R : repr T) (buffer : list N) (v : view) : list T :=
  load_bytes_as R (firstn (vcount v * vsize v) (skipn (voff v) buffer)).
