(** * Model of src/max_size_heap.rs and of the search functions of
    src/index/mod.rs.

    [std::collections::BinaryHeap] is modelled by the list of its elements in
    ascending order (its observable operations - push, pop/peek of an extreme
    element, len, into_sorted_vec - are determined by that list when the order
    is total and antisymmetric).  [HashSet] is a list used as a set.
    Capacity hints ([with_capacity]) are not modelled. *)
From Verif Require Import Base Bytes MSliceVec MOffsets MSetVec MIndexIo.

Section Heap.
  Context {A : Type} (le : A -> A -> bool).
  (** [a < b] *)
  Definition lt_of (a b : A) : bool := negb (le b a).

  (** [MaxSizeHeap { heap, max_size }], max_size_heap.rs:5-8 *)
  Record msh := mkMsh { hs : list A; hmax : nat }.
  (** [new], :11-16 *)
  Definition msh_new (max_size : nat) : msh := mkMsh [] max_size.
  (** [is_full], :34-36 *)
  Definition msh_is_full (h : msh) : bool := hmax h <=? length (hs h).
  (** [peek]: the largest element, :38-40 *)
  Definition msh_peek (h : msh) : option A := nth_error (hs h) (length (hs h) - 1).
  (** [push], :18-32 *)
  Definition msh_push (h : msh) (x : A) : outcome (msh * bool) :=
    if negb (msh_is_full h) then Ok (mkMsh (insert_by le x (hs h)) (hmax h), true)
    else
      let* p := ounwrap (msh_peek h) in
      if lt_of x p then
        let s := if hmax h <=? length (hs h) then removelast (hs h) else hs h in
        Ok (mkMsh (insert_by le x s) (hmax h), true)
      else Ok (h, false).
  (** [into_sorted_vec], :42-44 *)
  Definition msh_into_sorted_vec (h : msh) : list A := hs h.
End Heap.
Arguments msh : clear implicits.

(** ** Search.  A distance is modelled by an integer that orders like the
    (non-NaN) float; keys are the pairs [(NotNan<f32>, usize)], compared
    lexicographically. *)
Definition key : Type := Z * nat.
Definition key_le (a b : key) : bool :=
  (fst a <? fst b)%Z || ((fst a =? fst b)%Z && (snd a <=? snd b)).

(** [HashSet::contains] *)
Definition mem (x : nat) (l : list nat) : bool := existsb (Nat.eqb x) l.

(** the local variables [res], [pq] (ascending: the head is what
    [BinaryHeap<Reverse<_>>::pop] returns) and [visited] of
    [search_for_neighbors], index/mod.rs:999-1014 *)
Record sst := mkSst { s_res : msh key; s_pq : list key; s_vis : list nat }.

(** :1006-1016 *)
Definition s_init (dist : nat -> outcome Z) (entrypoint max_search : nat) : outcome sst :=
  let* d := dist entrypoint in
  Ok (mkSst (msh_new max_search) [(d, entrypoint)] [entrypoint]).

(** head of the [while let] loop and the [break] test, :1018-1021; [None] means
    that the loop ends *)
Definition s_pop (st : sst) : outcome (option (key * sst)) :=
  match s_pq st with
  | [] => Ok None
  | (d, idx) :: pq =>
      let st' := mkSst (s_res st) pq (s_vis st) in
      if msh_is_full (s_res st) then
        let* p := ounwrap (msh_peek (s_res st)) in
        if (fst p <? d)%Z then Ok None else Ok (Some ((d, idx), st'))
      else Ok (Some ((d, idx), st'))
  end.

(** one iteration of the [for neighbor_idx] loop, :1025-1033 *)
Definition s_visit (dist : nat -> outcome Z) (res : msh key) (s : list key * list nat) (nb : nat)
  : outcome (list key * list nat) :=
  let '(pq, vis) := s in
  if mem nb vis then Ok (pq, vis)
  else
    let* distance := dist nb in
    let* push := (if negb (msh_is_full res) then Ok true
                  else let* p := ounwrap (msh_peek res) in Ok (distance <? fst p)%Z) in
    Ok (if push : bool then insert_by key_le (distance, nb) pq else pq, nb :: vis).

(** [res.push] and the [for] loop over the row [row] read from the layer,
    :1023-1033 *)
Definition s_expand (dist : nat -> outcome Z) (st : sst) (k : key) (row : list nat) : outcome sst :=
  let* r := msh_push key_le (s_res st) k in
  let* s := ofold (s_visit dist (fst r)) row (s_pq st, s_vis st) in
  Ok (mkSst (fst r) (fst s) (snd s)).

(** the [while] loop, :1018-1034, with fuel *)
Fixpoint s_loop (fuel : nat) (nbrs : nat -> outcome (list nat)) (dist : nat -> outcome Z) (st : sst)
  : outcome (list key) :=
  match fuel with
  | 0 => Fail OutOfFuel
  | S f =>
      let* p := s_pop st in
      match p with
      | None => Ok (msh_into_sorted_vec (s_res st))
      | Some (k, st') =>
          let* row := nbrs (snd k) in
          let* st'' := s_expand dist st' k row in
          s_loop f nbrs dist st''
      end
  end.

(** [search_for_neighbors], :999-1037 *)
Definition search_for_neighbors (fuel : nat) (nbrs : nat -> outcome (list nat)) (dist : nat -> outcome Z)
           (entrypoint max_search : nat) : outcome (list (nat * Z)) :=
  let* st := s_init dist entrypoint max_search in
  let* l := s_loop fuel nbrs dist st in
  Ok (map (fun k => (snd k, fst k)) l).

(** [find_entrypoint], :984-997 *)
Definition find_entrypoint (fuel : nat) (layers : list (nat -> outcome (list nat)))
           (dist : nat -> outcome Z) : outcome nat :=
  ofold (fun entrypoint layer =>
           let* res := search_for_neighbors fuel layer dist entrypoint 1 in
           let* r := index res 0 in
           Ok (fst r))
        layers 0.

(** [split_last] *)
Definition split_last {A} (l : list A) : option (A * list A) :=
  match nth_error l (length l - 1) with
  | Some x => Some (x, removelast l)
  | None => None
  end.

(** [Granne::search_internal], :962-982 *)
Definition search_internal (fuel : nat) (layers : list (nat -> outcome (list nat)))
           (dist : nat -> outcome Z) (max_search num_neighbors : nat) : outcome (list (nat * Z)) :=
  match split_last layers with
  | Some (bottom_layer, top_layers) =>
      let* entrypoint := find_entrypoint fuel top_layers dist in
      let* res := search_for_neighbors fuel bottom_layer dist entrypoint max_search in
      Ok (firstn num_neighbors res)
  | None => Ok []
  end.

(** [Graph::get_neighbors] of every layer, :540-562 *)
Definition graphs_of (m : mode) (L : layers) : list (nat -> outcome (list nat)) :=
  map (fun i j => get_neighbors m L j i) (seq 0 (layers_len L)).

(** [Granne::search], :140-150; [dist i] is
    [elements.dist_to_element(i, element)] *)
Definition granne_search (m : mode) (fuel : nat) (L : layers) (dist : nat -> outcome Z)
           (max_search num_neighbors : nat) : outcome (list (nat * Z)) :=
  search_internal fuel (graphs_of m L) dist max_search num_neighbors.
