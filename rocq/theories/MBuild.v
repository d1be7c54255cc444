(** * Model of [GranneBuilder] (src/index/mod.rs): neighbour selection, insertion
    of one element, concurrent insertion of all elements of a layer, and the
    construction of the layers. *)
From Verif Require Import Base Bytes MSliceVec MOffsets MSetVec MIndexIo MSearch.

(** ** Containers: the trait [ElementContainer], elements/mod.rs:17-45, for a
    container in state [S] with elements of type [E].  Distances are integers
    ordered like the (non-NaN) floats. *)
Record cops (S E : Type) := mkCops {
  c_len : S -> nat;                                  (* [len] *)
  c_get : S -> nat -> outcome E;                     (* [get] *)
  c_dte : S -> nat -> E -> outcome Z;                (* [dist_to_element] *)
  c_dist : S -> nat -> nat -> outcome Z;             (* [dist] *)
  c_dists : S -> nat -> list nat -> outcome (list Z) (* [dists] *)
}.
Arguments mkCops {S E}.
Arguments c_len {S E}. Arguments c_get {S E}. Arguments c_dte {S E}.
Arguments c_dist {S E}. Arguments c_dists {S E}.

(** [impl ElementContainer for Vec<E>], elements/mod.rs:98-118, for element
    types with the distance function [d] ([Dist::dist]) *)
Definition vec_ops {E} (d : E -> E -> Z) : cops (list E) E :=
  mkCops (@length E)
         (fun s i => index s i)
         (fun s i e => let* x := index s i in Ok (d x e))
         (fun s i j => let* x := index s i in let* y := index s j in Ok (d x y))
         (fun s i others =>
            omapM (fun j => let* x := index s i in let* y := index s j in Ok (d x y)) others).

(** ** What a run depends on besides its inputs: the build profile, fuel for the
    loops of searches in finished layers, the container implementation, the
    result of [sort_unstable_by_key] (its order of ties is unspecified), and the
    threshold [100.0 * f32::EPSILON]. *)
Record benv (S E : Type) := mkEnv {
  e_mode : mode;
  e_fuel : nat;
  e_ops : cops S E;
  e_sort : list (nat * Z) -> list (nat * Z);
  e_eps : Z
}.
Arguments mkEnv {S E}. Arguments e_mode {S E}. Arguments e_fuel {S E}.
Arguments e_ops {S E}. Arguments e_sort {S E}. Arguments e_eps {S E}.

(** [BuildConfig], :199-218.  [k_ideal n l] stands for
    [compute_num_elements_in_layer(n, layer_multiplier, l)], :634-643, which is
    modelled on its own in MLayerSize.v.  [show_progress] is not modelled. *)
Record config := mkConfig {
  k_nn : nat;                (* num_neighbors *)
  k_ms : nat;                (* max_search *)
  k_reinsert : bool;         (* reinsert_elements *)
  k_expected : option nat;   (* expected_num_elements *)
  k_ideal : nat -> nat -> nat
}.

(** [NeighborId::try_from(usize).unwrap()] *)
Definition to_id (n : nat) : outcome N :=
  if (N.of_nat n <? 4294967296)%N then Ok (N.of_nat n) else Fail Panicked.

Section Build.
  Context {S E : Type} (V : benv S E) (s : S).
  Local Notation C := (e_ops V).

  (** the [all] test of [select_neighbors], :874-877; short-circuiting *)
  Fixpoint sel_all (d : Z) (e : E) (ns : list (nat * Z)) : outcome bool :=
    match ns with
    | [] => Ok true
    | (n, _) :: t =>
        let* dn := c_dte C s n e in
        if (d <=? dn)%Z then sel_all d e t else Ok false
    end.

  (** the [for] loop of [select_neighbors], :866-880 *)
  Fixpoint sel_loop (maxn : nat) (cands neighbors : list (nat * Z)) : outcome (list (nat * Z)) :=
    match cands with
    | [] => Ok neighbors
    | (j, d) :: t =>
        if maxn <=? length neighbors then Ok neighbors
        else
          let* e := c_get C s j in
          let* keep := sel_all d e neighbors in
          sel_loop maxn t (if keep : bool then neighbors ++ [(j, d)] else neighbors)
    end.

  (** the [debug_assert!], :859-862 *)
  Fixpoint is_sorted_d (l : list (nat * Z)) : bool :=
    match l with
    | a :: ((b :: _) as t) => (snd a <=? snd b)%Z && is_sorted_d t
    | _ => true
    end.

  (** [select_neighbors], :849-883 *)
  Definition select_neighbors (cands : list (nat * Z)) (maxn : nat) : outcome (list (nat * Z)) :=
    if length cands <=? maxn then Ok cands
    else
      let* _ := debug_assert (e_mode V) (is_sorted_d cands) in
      sel_loop maxn cands [].

  (** the used part of a row, [take_while(|x| x != UNUSED)] and conversion *)
  Definition row_ids (row : list N) : list nat := map N.to_nat (take_while is_used row).

  (** [add_and_limit_neighbors], :923-959 *)
  Definition add_and_limit (node : list N) (node_id : nat) (extra : list (nat * Z)) (nn : nat)
    : outcome (list N) :=
    let* _ := oassert (nn <=? length node) in
    let neighbors := row_ids node in
    let* dists := c_dists C s node_id neighbors in
    let candidates := e_sort V (combine neighbors dists ++ extra) in
    let* sel := select_neighbors candidates nn in
    let* ids := omapM (fun x => to_id (fst x)) sel in
    Ok (firstn (length node) (ids ++ repeat UNUSED (length node))).

  (** [connect_nodes], :899-921, given the locked row *)
  Definition connect_nodes (node : list N) (i j : nat) (d : Z) : outcome (list N) :=
    if i =? j then Ok node
    else
      let* j_id := to_id j in
      match position (fun x => (x =? UNUSED)%N || (x =? j_id)%N) node with
      | Some free_pos => store node free_pos j_id
      | None => add_and_limit node i [(j, d)] (length node)
      end.

  (** the write of [initialize_node], :889-894 *)
  Definition init_row (node : list N) (neighbors : list (nat * Z)) : outcome (list N) :=
    let* ids := omapM (fun x => to_id (fst x)) (firstn (length node) neighbors) in
    Ok (ids ++ skipn (length ids) node).

  (** [Graph::get_neighbors] of the locked layer, :564-577 *)
  Definition read_ids (rows : list (list N)) (i : nat) : outcome (list nat) :=
    let* row := index rows i in Ok (row_ids row).

  (** a read-modify-write of row [i] under its write lock *)
  Definition update_row (rows : list (list N)) (i : nat) (f : list N -> outcome (list N))
    : outcome (list (list N)) :=
    let* row := index rows i in
    let* row' := f row in
    Ok (set_nth rows i row').

  (** ** [index_element], :805-846, as a task that is interrupted between any two
      lock acquisitions *)
  Inductive tstate :=
  | TStart                                   (* :813 *)
  | TSearch (e : E) (st : sst)               (* :821, in the loop of search_for_neighbors *)
  | TTest (ns : list (nat * Z))              (* :835, before layer[idx].read()[0] *)
  | TCheck (ns : list (nat * Z))             (* :887, before the debug_assert_eq *)
  | TInit (ns : list (nat * Z))              (* :890, before node.write() *)
  | TOwn (todo ns : list (nat * Z))          (* :838-840 *)
  | TBack (todo : list (nat * Z))            (* :843-845 *)
  | TDone.

  (** [nn], [ms]: the configuration passed to [index_element]; [prev]: the
      finished layers *)
  Context (nn ms : nat) (prev : list (fw N)).

  (** :813-821 up to the first row read *)
  Definition start_task (idx : nat) : outcome tstate :=
    let* dd := c_dist C s idx idx in
    if (e_eps V <? dd)%Z then Ok TDone
    else
      let* e := c_get C s idx in
      let* r := granne_search (e_mode V) (e_fuel V) (FixWidth prev) (fun i => c_dte C s i e) 1 1 in
      let entrypoint := match r with [] => 0 | x :: _ => fst x end in
      let* st := s_init (fun i => c_dte C s i e) entrypoint ms in
      Ok (TSearch e st).

  (** :823-833 *)
  Definition choose (idx : nat) (found : list (nat * Z)) : outcome tstate :=
    let candidates := filter (fun x => negb (fst x =? idx)) found in
    let* ns := select_neighbors candidates nn in
    match nth_error ns (nn / 2) with
    | Some (_, d) => Ok (if (d <? e_eps V)%Z then TDone else TTest ns)
    | None => Ok (TTest ns)
    end.

  (** one step: at most one lock is taken, and released again *)
  Definition task_step (rows : list (list N)) (idx : nat) (t : tstate)
    : outcome (list (list N) * tstate) :=
    match t with
    | TStart => let* t' := start_task idx in Ok (rows, t')
    | TSearch e st =>
        let* p := s_pop st in
        match p with
        | None =>
            let* t' := choose idx (map (fun k => (snd k, fst k)) (msh_into_sorted_vec (s_res st))) in
            Ok (rows, t')
        | Some (k, st') =>
            let* row := read_ids rows (snd k) in
            let* st'' := s_expand (fun i => c_dte C s i e) st' k row in
            Ok (rows, TSearch e st'')
        end
    | TTest ns =>
        let* row := index rows idx in
        let* x := index row 0 in
        Ok (rows, if (x =? UNUSED)%N
                  then match e_mode V with Debug => TCheck ns | Release => TInit ns end
                  else TOwn ns ns)
    | TCheck ns =>
        let* row := index rows idx in
        let* x := index row 0 in
        let* _ := oassert (x =? UNUSED)%N in
        Ok (rows, TInit ns)
    | TInit ns =>
        let* rows' := update_row rows idx (fun row => init_row row ns) in
        Ok (rows', TBack ns)
    | TOwn [] ns => Ok (rows, TBack ns)
    | TOwn ((n, d) :: todo) ns =>
        let* rows' := update_row rows idx (fun row => connect_nodes row idx n d) in
        Ok (rows', TOwn todo ns)
    | TBack [] => Ok (rows, TDone)
    | TBack ((n, d) :: todo) =>
        let* rows' := update_row rows n (fun row => connect_nodes row n idx d) in
        Ok (rows', TBack todo)
    | TDone => Ok (rows, TDone)
    end.

  (** ** All tasks of a layer.  A schedule names, step by step, the task that
      moves (an entry naming no task is idle).  Every interleaving of rayon's
      worker threads, for every number of threads and every work split, is a
      schedule. *)
  Definition tasks := list (nat * tstate).
  Definition sys : Type := list (list N) * tasks.

  Definition sys_step (x : sys) (k : nat) : outcome sys :=
    let '(rows, ts) := x in
    match nth_error ts k with
    | None => Ok x
    | Some (idx, t) =>
        let* r := task_step rows idx t in
        Ok (fst r, set_nth ts k (idx, snd r))
    end.

  Definition run (sched : list nat) (x : sys) : outcome sys := ofold sys_step sched x.

  Definition is_done (t : tstate) : bool := match t with TDone => true | _ => false end.
  Definition all_done (ts : tasks) : bool := forallb (fun x => is_done (snd x)) ts.

  (** the final pass over all rows, :789-797; the rows are disjoint, so its
      order does not matter *)
  Definition limit_rows (rows : list (list N)) : outcome (list (list N)) :=
    omapM (fun x => add_and_limit (snd x) (fst x) [] nn) (combine (seq 0 (length rows)) rows).

  (** [index_elements] up to the insertion of the elements, :724-731 and
      :754-783: one row per node, one task per element to insert (when
      reinserting: all elements, last first).  [iter_mut] is
      [chunks_mut(width)], which panics for width 0 (slice_vector/mod.rs:141-147). *)
  Definition start_pass (num_elements : nat) (layer : fw N) (reinsert : bool) : outcome sys :=
    let* _ := oassert (fw_len layer <=? num_elements) in
    let already_indexed := if reinsert then 0 else fw_len layer in
    let layer := if reinsert then layer else fw_resize layer num_elements UNUSED in
    let* rows := fw_iter layer in
    let ids := if reinsert then rev (seq 0 (length rows))
               else seq already_indexed (length rows - already_indexed) in
    Ok (rows, map (fun i => (i, TStart)) ids).

  (** [index_elements], :716-802.  Running out of the schedule before all tasks
      are done is [OutOfFuel].  The progress bar is not modelled. *)
  Definition index_elements (num_elements : nat) (layer : fw N) (reinsert : bool) (sched : list nat)
    : outcome (fw N) :=
    let* x := start_pass num_elements layer reinsert in
    let* x := run sched x in
    if all_done (snd x) then
      let* rows' := limit_rows (fst x) in
      Ok (mkFw (concat rows') (fwidth layer))
    else Fail OutOfFuel.
End Build.
Arguments tstate : clear implicits.
Arguments TStart {E}. Arguments TSearch {E}. Arguments TTest {E}. Arguments TCheck {E}.
Arguments TInit {E}. Arguments TOwn {E}. Arguments TBack {E}. Arguments TDone {E}.

(** ** The builder, :295-299: elements (in state [S]), layers, configuration *)
Record builder (S : Type) := mkBuilder {
  b_elems : S;
  b_layers : list (fw N);
  b_config : config
}.
Arguments mkBuilder {S}. Arguments b_elems {S}. Arguments b_layers {S}. Arguments b_config {S}.

(** the schedules of a build: one for each layer index and pass *)
Definition schedules := nat -> bool -> list nat.

Section Builder.
  Context {S E : Type} (V : benv S E).

  (** [new], :419-426 *)
  Definition builder_new (cfg : config) (elements : S) : outcome (builder S) :=
    let* _ := oassert (N.of_nat (c_len (e_ops V) elements) <? UNUSED)%N in
    Ok (mkBuilder elements [] cfg).

  (** [from_bytes], :430-461; [from_file], :465-470, reads all of the file.  The
      layers are read by [builder_from_bytes] of MIndexIo.v. *)
  Definition builder_open (cfg : config) (buffer : list N) (elements : S) : outcome (builder S) :=
    let* b := builder_new cfg elements in
    let* ls := builder_from_bytes (e_mode V) (k_nn (b_config b)) buffer in
    Ok (mkBuilder (b_elems b) ls (b_config b)).

  (** [push], :527-530; [cpush] is [ExtendableElementContainer::push] *)
  Definition builder_push {I} (cpush : S -> I -> outcome S) (b : builder S) (x : I)
    : outcome (builder S) :=
    let* _ := oassert (N.of_nat (c_len (e_ops V) (b_elems b)) <? UNUSED - 1)%N in
    let* s' := cpush (b_elems b) x in
    Ok (mkBuilder s' (b_layers b) (b_config b)).

  (** [len], :329-331 *)
  Definition builder_len (b : builder S) : nat :=
    match split_last (b_layers b) with Some (l, _) => fw_len l | None => 0 end.

  (** [num_elements], :405-407 *)
  Definition builder_num_elements (b : builder S) : nat := c_len (e_ops V) (b_elems b).

  (** [total_num_elements], :647 *)
  Definition builder_total (b : builder S) : nat :=
    match k_expected (b_config b) with Some x => x | None => c_len (e_ops V) (b_elems b) end.

  (** [ideal_num_elements_in_layer], :648-652 *)
  Definition builder_ideal (b : builder S) (layer : nat) : nat :=
    k_ideal (b_config b) (Nat.max (builder_total b) (c_len (e_ops V) (b_elems b))) layer.

  (** the number of neighbours to use in a layer of ideal size [ideal], :662-668 *)
  Definition builder_nn (b : builder S) (ideal : nat) : nat :=
    if ideal <? builder_total b then Nat.max 1 (k_nn (b_config b) / 2) else k_nn (b_config b).

  (** [index_elements_in_last_layer], :646-713 *)
  Definition index_last (b : builder S) (max_num : nat) (sched : schedules) : outcome (builder S) :=
    let* r := ounwrap (split_last (b_layers b)) in
    let '(last, prev) := r in
    let ideal := builder_ideal b (length (b_layers b) - 1) in
    if ideal <=? fw_len last then Ok b
    else
      let num := Nat.min max_num ideal in
      let nn := builder_nn b ideal in
      let ms := k_ms (b_config b) in
      let* layer := index_elements V (b_elems b) nn ms prev num last false (sched (length prev) false) in
      let* layer :=
        if k_reinsert (b_config b)
        then index_elements V (b_elems b) nn (Nat.max 1 (ms / 2)) prev num layer true
                            (sched (length prev) true)
        else Ok layer in
      Ok (mkBuilder (b_elems b) (prev ++ [layer]) (b_config b)).

  (** the new layer of the [while] loop of [build_partial], :391-396 *)
  Definition add_layer (b : builder S) : builder S :=
    let new_layer := match split_last (b_layers b) with
                     | Some (l, _) => l
                     | None => fw_with_width (k_nn (b_config b))
                     end in
    mkBuilder (b_elems b) (b_layers b ++ [new_layer]) (b_config b).

  (** the [while] loop of [build_partial], :390-401 *)
  Fixpoint build_loop (fuel : nat) (b : builder S) (num : nat) (sched : schedules) : outcome (builder S) :=
    if num <=? builder_len b then Ok b
    else match fuel with
         | 0 => Fail OutOfFuel
         | Datatypes.S f =>
             let* b' := index_last (add_layer b) num sched in
             build_loop f b' num sched
         end.

  (** [build_partial], :374-402 *)
  Definition build_partial (fuel : nat) (b : builder S) (num : nat) (sched : schedules)
    : outcome (builder S) :=
    if num =? 0 then Ok b
    else
      let* _ := oassert (builder_len b <=? num) in
      let* _ := oassert (num <=? builder_num_elements b) in
      let* b := (if 0 <? length (b_layers b) then index_last b num sched else Ok b) in
      build_loop fuel b num sched.

  (** [build], :366-368 *)
  Definition build (fuel : nat) (b : builder S) (sched : schedules) : outcome (builder S) :=
    build_partial fuel b (builder_num_elements b) sched.
End Builder.
