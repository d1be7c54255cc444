(** * Model of src/index/reorder.rs.  Parallel iterators ([par_chunks],
    [into_par_iter], [par_extend], [par_sort_unstable]) produce their results in
    order, so they are modelled by their sequential counterparts; the compared
    pairs contain the (distinct) node ids, so the unstable sorts have one
    possible result.  Progress bars are not modelled. *)
From Verif Require Import Base Bytes MSliceVec MOffsets MSetVec MIndexIo MSearch MBuild.

(** [Granne { layers, elements }], index/mod.rs:38-41 *)
Record granne (S : Type) := mkGranne { gr_layers : layers; gr_elems : S }.
Arguments mkGranne {S}. Arguments gr_layers {S}. Arguments gr_elems {S}.

(** [impl ElementContainer for Vectors], elements/dense_vector.rs:138-164, and
    [impl Permutable for Vectors], :176-180; [d] is [Vector::dist].  The fuel of
    [fw_permute] (its cycle walk) is the number of elements. *)
Definition vectors_ops {T} (m : mode) (d : list T -> list T -> outcome Z) : cops (fw T) (list T) :=
  mkCops (@fw_len T)
         (fun s i => fw_get m s i)
         (fun s i e => let* x := fw_get m s i in d x e)
         (fun s i j => let* x := fw_get m s i in let* y := fw_get m s j in d x y)
         (fun s i others => let* x := fw_get m s i in
            omapM (fun j => let* y := fw_get m s j in d x y) others).
Definition vectors_permute {T} (m : mode) (s : fw T) (p : list nat) : outcome (fw T) :=
  fw_permute m (fw_len s) s p.

(** [get_reverse_mapping], :280-289 *)
Definition get_reverse_mapping (mapping : list nat) : outcome (list nat) :=
  ofold (fun rev (p : nat * nat) => store rev (snd p) (fst p))
        (combine (seq 0 (length mapping)) mapping) (repeat 0 (length mapping)).

(** the closure run on every chunk [c] of [reorder_layer], :244-260: the offsets
    and the concatenated, renamed neighbour lists *)
Definition reorder_chunk (nbrs : nat -> outcome (list nat)) (reverse_mapping : list nat) (c : list nat)
  : outcome (list nat * list N) :=
  ofold (fun (s : list nat * list N) id =>
           let '(offset_chunk, layer_chunk) := s in
           let* ns := nbrs id in
           let* ns' := omapM (fun n => let* r := index reverse_mapping n in to_id r) ns in
           let layer_chunk := layer_chunk ++ ns' in
           Ok (offset_chunk ++ [length layer_chunk], layer_chunk))
        c ([0], []).

(** [reorder_layer], :227-278; [len] is [layer.len()], [nbrs] is
    [layer.get_neighbors] *)
Definition reorder_layer (m : mode) (len : nat) (nbrs : nat -> outcome (list nat))
           (mapping reverse_mapping : list nat) : outcome msv :=
  let* new_layer := msv_new m in
  let chunk_size := Nat.max 10000 (len / 1000) in
  let* ids := slice mapping 0 len in
  let* cs := omapM (reorder_chunk nbrs reverse_mapping) (chunks chunk_size ids) in
  ofold (fun new_layer (c : list nat * list N) =>
           let '(offset, chunk) := c in
           ofold (fun new_layer i =>
                    let* b := index offset (i - 1) in
                    let* e := index offset i in
                    let* row := slice chunk b e in
                    msv_push m new_layer row)
                 (seq 1 (length offset - 1)) new_layer)
        cs new_layer.

(** [reorder_layers], :209-225 *)
Definition reorder_layers (m : mode) (L : layers) (mapping : list nat) : outcome layers :=
  let* reverse_mapping := get_reverse_mapping mapping in
  let* ls := omapM (fun i => let* len := layer_len L i in
                             reorder_layer m len (fun x => get_neighbors m L x i) mapping reverse_mapping)
                   (seq 0 (layers_len L)) in
  Ok (Compressed ls).

Definition NUM_LAYERS := 8. (* :177 *)

(** [find_entrypoint_trail], :180-207; [graphs] are the layers, [dist i] is
    [elements.dist_to_element(i, element)] *)
Definition find_entrypoint_trail (fuel : nat) (graphs : list (nat -> outcome (list nat)))
           (dist : nat -> outcome Z) (max_layer : nat) : outcome (list N) :=
  ofold (fun eps i =>
           let* layer := index graphs i in
           let* ep := (if i =? 0 then Ok 0 else let* e := index eps i in Ok (N.to_nat e)) in
           let* res := search_for_neighbors fuel layer dist ep 1 in
           let* r := index res 0 in
           let* id := to_id (fst r) in
           store eps i id)
        (seq 0 (Nat.min (Nat.min NUM_LAYERS max_layer) (length graphs)))
        (repeat 0%N NUM_LAYERS).

(** the order of pairs [(key, id)] *)
Definition pair_le {K} (leK : K -> K -> bool) (a b : K * nat) : bool :=
  if leK (fst a) (fst b) then (if leK (fst b) (fst a) then snd a <=? snd b else true) else false.
(** the order of arrays of ids *)
Fixpoint lex_le (a b : list N) : bool :=
  match a, b with
  | [], _ => true
  | _ :: _, [] => false
  | x :: a, y :: b => if (x =? y)%N then lex_le a b else (x <? y)%N
  end.

Section Reorder.
  Context {S E : Type} (C : cops S E).
  (** [Permutable::permute], elements/mod.rs:57-61 *)
  Context (permute : S -> list nat -> outcome S).

  (** [compute_order], :127-174.  [num_layers() - 2] underflows for fewer than two
      layers: a panic in debug builds; in release builds the huge layer number
      makes [layer_len] panic. *)
  Definition compute_order (m : mode) (fuel : nat) (g : granne S) : outcome (list nat) :=
    let L := gr_layers g in
    let num_layers := layers_len L in
    let* len0 := layer_len L 0 in
    let* len_inv := (if 2 <=? num_layers then layer_len L (num_layers - 2) else Fail Panicked) in
    let* r := ofold (fun (s : list nat * list nat) layer =>
        let '(order, order_inv) := s in
        let* begin := layer_len L (layer - 1) in
        let* end_ := layer_len L layer in
        let* eps := omapM (fun idx =>
            let* e := c_get C (gr_elems g) idx in
            let* t := find_entrypoint_trail fuel (graphs_of m L) (fun i => c_dte C (gr_elems g) i e) layer in
            let* t' := omapM (fun i => let* x := index order_inv (N.to_nat i) in
                                       Ok (N.of_nat x mod 4294967296)%N) t in
            Ok (t', idx)) (seq begin (end_ - begin)) in
        let order := order ++ map snd (sort_by (pair_le lex_le) eps) in
        let* order_inv :=
          (if layer <? num_layers - 1
           then ofold (fun inv i => let* o := index order i in store inv o i)
                      (seq begin (end_ - begin)) order_inv
           else Ok order_inv) in
        Ok (order, order_inv))
      (seq 1 (num_layers - 1)) (seq 0 len0, repeat 0 len_inv) in
    Ok (fst r).

  (** [reorder], :58-82 *)
  Definition reorder (m : mode) (fuel : nat) (g : granne S) : outcome (granne S * list nat) :=
    let* order := compute_order m fuel g in
    let* L := reorder_layers m (gr_layers g) order in
    let* s := permute (gr_elems g) order in
    Ok (mkGranne L s, order).

  (** [reorder_by_keys], :90-125, for keys of an ordered type [K] *)
  Definition keys_order {K} (leK : K -> K -> bool) (L : layers) (keys : list K) : outcome (list nat) :=
    let* len := index_len L in
    let* _ := oassert (len =? length keys) in
    let* layer_lens := omapM (layer_len L) (seq 0 (layers_len L)) in
    ofold (fun order layer =>
             let* begin := (if 0 <? layer then index layer_lens (layer - 1) else Ok 0) in
             let* end_ := index layer_lens layer in
             let* layer_order := omapM (fun l => let* k := index keys l in Ok (k, l)) (seq begin (end_ - begin)) in
             Ok (order ++ map snd (sort_by (pair_le leK) layer_order)))
          (seq 0 (length layer_lens)) [].
  Definition reorder_by_keys {K} (leK : K -> K -> bool) (m : mode) (g : granne S) (keys : list K)
    : outcome (granne S * list nat) :=
    let* order := keys_order leK (gr_layers g) keys in
    let* L := reorder_layers m (gr_layers g) order in
    let* s := permute (gr_elems g) order in
    Ok (mkGranne L s, order).
End Reorder.
