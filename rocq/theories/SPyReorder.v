(** * Specification vocabulary for reordering opened indexes in Python *)
From Verif Require Import Base Bytes SSliceVec MIndexIo SIndexIo MSearch SSearch MBuild MReorder SReorder MParse MPyIndex SPyIndex.
Open Scope nat_scope.

(** What to expect of an index [q] of [values], the first [n] indexed *)
Definition searches (fuel : nat) (dist : pyval -> pyval -> Z -> Prop) (query : pyval -> Prop) (element internal : pyval -> pyelem -> Prop)
  (q : py_index) (values : list pyval) (n : nat) : Prop :=
  pi_len q = Ok n /\
  (forall i x, nth_error values i = Some x -> exists e, pi_get_element Release q i = Ok e /\ element x e) /\
  (forall i x, nth_error values i = Some x -> exists e, pi_get_internal_element Release q i = Ok e /\ internal x e) /\
  (forall y ms nn, query y -> ms <> Some 0 -> exists res, pi_search Release fuel q y ms nn = Ok res /\
     py_answers dist values n y (fst (search_args ms nn)) (snd (search_args ms nn)) res).

(** An index is reordered, or saved and opened from its files *)
Inductive index_step := Reorder | SaveOpen.
(** several steps; with the orders [reorder] returned *)
Fixpoint index_life (m : mode) (fuel : nat) (json : str -> option str) (element_type : str) (embeddings : option (list N)) (words : option str)
  (q : py_index) (steps : list index_step) : outcome (py_index * list (list nat)) :=
  match steps with
  | [] => Ok (q, [])
  | Reorder :: steps =>
      let* r := pi_reorder m fuel q in
      let* t := index_life m fuel json element_type embeddings words (fst r) steps in
      Ok (fst t, snd r :: snd t)
  | SaveOpen :: steps =>
      let* index := pi_save_index m q in
      let* q := pi_open json index element_type (pi_save_elements q) embeddings words in
      index_life m fuel json element_type embeddings words q steps
  end.

(** a list put into an order: element [i] is what element [nth i order] was *)
Definition rearranged {A} (d : A) (l : list A) (order : list nat) : list A := map (fun i => nth i l d) order.
(** several orders, one after the other *)
Definition combined (n : nat) (orders : list (list nat)) : list nat := fold_left (rearranged 0) orders (seq 0 n).
Definition count_reorders (steps : list index_step) : nat := length (filter (fun s => match s with Reorder => true | _ => false end) steps).

(** [q] is put through [steps]: nothing fails; [q'] is [q] with its elements put
    into the order that the returned orders make up, and its neighbours renamed
    accordingly, and is expected of what [q] was, of the values in that order *)
Definition reorders_well (fuel : nat) (json : str -> option str) (element_type : str) (embeddings : option (list N)) (words : option str)
  (dist : pyval -> pyval -> Z -> Prop) (query : pyval -> Prop) (element internal : pyval -> pyelem -> Prop)
  (q : py_index) (values : list pyval) (steps : list index_step) : Prop :=
  exists q' orders, index_life Release fuel json element_type embeddings words q steps = Ok (q', orders) /\
    length orders = count_reorders steps /\ Forall (is_perm (length values)) orders /\
    let order := combined (length values) orders in
    is_perm (length values) order /\ renamed Release (pi_layers q) (pi_layers q') order /\
    searches fuel dist query element internal q' (rearranged PyOther values order) (length values).
