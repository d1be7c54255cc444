(** * Specification vocabulary: what inserting one element does to the layer *)
From Verif Require Import Base Bytes MSliceVec MIndexIo MSearch MBuild.

(** The neighbour list [ns] of node [i] becomes [ns'] when node [j], at distance
    [d], is linked to it; at most [w] neighbours fit:
    - nothing changes if [j] is there already;
    - [j] is appended if there is room;
    - otherwise the neighbours are selected anew (C25) from the old ones and [j],
      in the order of their distances to [i]. *)
Inductive linked_to {S E} (V : benv S E) (s : S) (w i j : nat) (d : Z) (ns : list nat) : list nat -> Prop :=
| lk_there : In j ns -> linked_to V s w i j d ns ns
| lk_room : ~ In j ns -> length ns < w -> linked_to V s w i j d ns (ns ++ [j])
| lk_full ds cands sel : ~ In j ns -> length ns = w ->
    c_dists (e_ops V) s i ns = Ok ds -> length ds = length ns ->
    Permutation cands (combine ns ds ++ [(j, d)]) ->
    StronglySorted (fun a b => (snd a <= snd b)%Z) cands ->
    select_neighbors V s cands w = Ok sel ->
    linked_to V s w i j d ns (map fst sel).

(** all of [js], with their distances, one after the other *)
Inductive linked_all {S E} (V : benv S E) (s : S) (w i : nat) : list (nat * Z) -> list nat -> list nat -> Prop :=
| la_nil ns : linked_all V s w i [] ns ns
| la_cons j d js ns ns1 ns' : linked_to V s w i j d ns ns1 -> linked_all V s w i js ns1 ns' ->
    linked_all V s w i ((j, d) :: js) ns ns'.

(** What the insertion of [idx] finds: the chosen neighbours [chosen] (ids with
    distances).  [prev]: the finished layers, [rows]: the layer before. *)
Definition chosen_for {S E} (V : benv S E) (s : S) (nn ms : nat) (prev : list (fw N)) (rows : list (list N))
           (idx : nat) (chosen : list (nat * Z)) : Prop :=
  exists e top fuel found,
    (* the element, and the entry point found by searching the finished layers *)
    c_get (e_ops V) s idx = Ok e /\
    granne_search (e_mode V) (e_fuel V) (FixWidth prev) (fun i => c_dte (e_ops V) s i e) 1 1 = Ok top /\
    (* a search with max_search [ms] in the layer as it is *)
    search_for_neighbors fuel (read_ids rows) (fun i => c_dte (e_ops V) s i e)
      (match top with [] => 0 | x :: _ => fst x end) ms = Ok found /\
    (* the selection, never idx itself *)
    select_neighbors V s (filter (fun x => negb (fst x =? idx)) found) nn = Ok chosen.

(** more than [nn / 2] of the chosen neighbours are duplicates of the element *)
Definition mostly_duplicates {S E} (V : benv S E) (nn : nat) (chosen : list (nat * Z)) : Prop :=
  nn / 2 < length (filter (fun x => (snd x <? e_eps V)%Z) chosen).

(** The layer [rows] becomes [rows'] when [idx] is linked with [chosen]:
    - its own list becomes [chosen], or, if it has one already (reinsertion),
      [chosen] are linked to it;
    - [idx] is linked to each of [chosen], at the same distance;
    - all other rows stay as they are. *)
Definition rows_linked {S E} (V : benv S E) (s : S) (w : nat) (rows : list (list N)) (idx : nat)
           (chosen : list (nat * Z)) (rows' : list (list N)) : Prop :=
  length rows' = length rows /\
  forall i r, nth_error rows i = Some r ->
  exists r', nth_error rows' i = Some r' /\ length r' = w /\
    (i = idx -> row_ids r = [] -> row_ids r' = map fst chosen) /\
    (i = idx -> row_ids r <> [] -> linked_all V s w idx chosen (row_ids r) (row_ids r')) /\
    (forall d, In (i, d) chosen -> linked_to V s w i idx d (row_ids r) (row_ids r')) /\
    (i <> idx -> ~ In i (map fst chosen) -> r' = r).

(** What one step of an insertion may do to the row [r] of node [i]: nothing,
    give a node without neighbours its first ones, or link one node. *)
Inductive row_changes {S E} (V : benv S E) (s : S) (w i : nat) (r r' : list N) : Prop :=
| rc_same : r' = r -> row_changes V s w i r r'
| rc_first : row_ids r = [] -> row_changes V s w i r r'
| rc_link j d : linked_to V s w i j d (row_ids r) (row_ids r') -> row_changes V s w i r r'.

(** The system of all insertion tasks at any moment of a pass over the last or a
    new layer (of width [w]) of [b]; [nn], [ms], [prev]: its parameters. *)
Inductive mid_run {S E} (V : benv S E) (b : builder S) : nat -> nat -> nat -> list (fw N) -> sys -> Prop :=
| mr_first b0 last prev num nn ms sched x x' :
    b0 = b \/ b0 = add_layer b -> split_last (b_layers b0) = Some (last, prev) ->
    fw_len last <= num -> 0 < num <= builder_num_elements V b -> 0 < nn <= k_nn (b_config b) -> 0 < ms ->
    start_pass num last false = Ok x ->
    run V (b_elems b) nn ms prev sched x = Ok x' -> mid_run V b (fwidth last) nn ms prev x'
| mr_second b0 last prev num nn ms sched l1 ms' sched' x x' :
    b0 = b \/ b0 = add_layer b -> split_last (b_layers b0) = Some (last, prev) ->
    fw_len last <= num -> 0 < num <= builder_num_elements V b -> 0 < nn <= k_nn (b_config b) -> 0 < ms -> 0 < ms' ->
    index_elements V (b_elems b) nn ms prev num last false sched = Ok l1 ->
    start_pass num l1 true = Ok x ->
    run V (b_elems b) nn ms' prev sched' x = Ok x' -> mid_run V b (fwidth last) nn ms' prev x'.
