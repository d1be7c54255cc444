(** * Model of [RwGranneBuilder] (src/index/rw/mod.rs and
    src/index/rw/rw_lock_slice_vector.rs): a builder shared by threads that
    insert, search and save. *)
From Verif Require Import Base Bytes MSliceVec MOffsets MSetVec MIndexIo MSearch MBuild MLocks.

(** ** The shared data.
    [RwGranneBuilder], rw/mod.rs:15-26: [elements], the current layer and the
    finished layers.  [RwLockSliceVector], rw_lock_slice_vector.rs:7-10, is its
    rows and their width.  [config] and [max_elements] never change and are
    parameters below; the thread pool is not modelled (every assignment of
    tasks to its threads is a schedule). *)
Record rw (S : Type) := mkRw {
  w_elems : S;
  w_cur : list (list N);
  w_width : nat;
  w_prev : list (fw N)
}.
Arguments mkRw {S}. Arguments w_elems {S}. Arguments w_cur {S}. Arguments w_width {S}. Arguments w_prev {S}.

(** the three locks of [RwGranneBuilder]: [elements], [layers], [write_lock],
    rw/mod.rs:16-25 *)
Inductive lk := LElems | LLayers | LWrite.

(** [From<FixedWidthSliceVector> for RwLockSliceVector],
    rw_lock_slice_vector.rs:46-55: the rows are [chunks_mut(width)] of the data *)
Definition rows_of_layer (l : fw N) : outcome (list (list N)) :=
  let* _ := oassert (0 <? fwidth l) in fw_iter l.

(** [Into<FixedWidthSliceVector> for RwLockSliceVector],
    rw_lock_slice_vector.rs:39-44 ([with_data]) *)
Definition layer_of_rows (rows : list (list N)) (width : nat) : outcome (fw N) :=
  fw_with_data (concat rows) width.

Section Rw.
  Context {S E I : Type} (V : benv S E) (cpush : S -> I -> outcome S).
  (** [config], [max_elements], rw/mod.rs:21-22 *)
  Context (cfg : config) (max : nat).
  Local Notation C := (e_ops V).

  (** [new], rw/mod.rs:32-61.  [config.expected_num_elements] is replaced
      before the build; [cfg] is the configuration of [b]. *)
  Definition rw_new (fuel : nat) (b : builder S) (sched : schedules) : outcome (rw S) :=
    let k := b_config b in
    let b := mkBuilder (b_elems b) (b_layers b)
               (mkConfig (k_nn k) (k_ms k) (k_reinsert k) (Some max) (k_ideal k)) in
    let* b := build V fuel b sched in
    let '(current, prev) := match split_last (b_layers b) with
                            | Some (l, p) => (l, p)
                            | None => (fw_with_width (k_nn k), [])
                            end in
    let num := Nat.max (fw_len current) (k_ideal k max (length prev)) in
    let current := fw_resize current num UNUSED in
    let* rows := rows_of_layer current in
    Ok (mkRw (b_elems b) rows (fwidth current) prev).

  (** the test for a new layer in [insert_batch], rw/mod.rs:118 *)
  Definition layer_full (W : rw S) : bool := length (w_cur W) <=? c_len C (w_elems W).

  (** the new layer, rw/mod.rs:119-134 *)
  Definition new_layer (W : rw S) : outcome (rw S) :=
    let* current := layer_of_rows (w_cur W) (w_width W) in
    let prev := w_prev W ++ [current] in
    let new_layer := fw_resize current (k_ideal cfg max (length prev)) UNUSED in
    let* rows := rows_of_layer new_layer in
    Ok (mkRw (w_elems W) rows (w_width W) prev).

  (** the elements that fit, their ids, and the remaining elements,
      rw/mod.rs:137-144 *)
  Definition split_batch (W : rw S) (xs : list I) : outcome (list I * list nat * list I) :=
    let n := c_len C (w_elems W) in
    let* _ := oassert (n <=? length (w_cur W)) in
    let num := Nat.min (length xs) (length (w_cur W) - n) in
    Ok (firstn num xs, seq n num, skipn num xs).

  (** what [write] saves, rw/mod.rs:80-96, given the elements and the rows of
      the current layer it read: the elements and the layers passed to
      [io::write_index] *)
  Definition saved_layers (s : S) (rows : list (list N)) (prev : list (fw N)) : outcome (list (fw N)) :=
    let* last := fw_with_data (concat rows) (k_nn cfg) in
    if 0 <? c_len C s then
      let* l := fw_subslice last 0 (c_len C s) in Ok (prev ++ [l])
    else Ok [].

  (** the entry point of [search], rw/mod.rs:193-198 *)
  Definition rw_entry (W : rw S) (q : E) : outcome (option nat) :=
    let* r := granne_search (e_mode V) (e_fuel V) (FixWidth (w_prev W)) (fun i => c_dte C (w_elems W) i q) 1 1 in
    Ok (match r with [] => None | x :: _ => Some (fst x) end).

  (** ** Threads *)

  (** the calls of a thread: [insert_batch] ([insert], :99-101, is a batch of
      one), [search], [write] *)
  Inductive rcall :=
  | RInsert (xs : list I)
  | RSearch (q : E) (ms nn : nat)
  | RSave.

  (** what a call returned; for [write], what it wrote *)
  Inductive result :=
  | Inserted (xs : list I) (ids : list nat)
  | Found (q : E) (ms nn : nat) (out : list (nat * Z))
  | Saved (s : S) (ls : list (fw N)).

  (** Where a thread is.  In [insert_batch]: [xs] the elements it was called
      with (the recursive call: the remaining ones), [acc] the ids of the
      callers' frames, [d] the number of guards of [write_lock] it holds (one
      for each frame past :109). *)
  Inductive pc :=
  | Idle
  | ICheck (xs : list I) (acc : list nat) (d : nat)      (* :104, self.elements.read() *)
  | ITest (xs : list I) (acc : list nat) (d : nat)       (* :104, len() >= max_elements *)
  | IGuard (xs : list I) (acc : list nat) (d : nat)      (* :109, self.write_lock.read() *)
  | IElems (xs : list I) (acc : list nat) (d : nat)      (* :113, self.elements.write() *)
  | ILayers (xs : list I) (acc : list nat) (d : nat)     (* :114, self.layers.write() *)
  | IRoom (xs : list I) (acc : list nat) (d : nat)       (* :118 *)
  | INew (xs : list I) (acc : list nat) (d : nat)        (* :119-134 *)
  | ISplit (xs : list I) (acc : list nat) (d : nat)      (* :137-144 *)
  | IPush (todo : list I) (ids : list nat) (rest : list I) (acc : list nat) (d : nat) (* :146-148 *)
  | IDownL (ids : list nat) (rest : list I) (acc : list nat) (d : nat)   (* :151, downgrade(layers) *)
  | IDownE (ids : list nat) (rest : list I) (acc : list nat) (d : nat)   (* :152, downgrade(elements) *)
  | IIndex (ts : tasks (E := E)) (ids : list nat) (rest : list I) (acc : list nat) (d : nat) (* :154-169 *)
  | IReturn (acc : list nat) (d : nat)                   (* :105, :181; the guards of write_lock are dropped *)
  | SElems (q : E) (ms nn : nat)                         (* :190, self.elements.read() *)
  | SLayers (q : E) (ms nn : nat)                        (* :191, self.layers.read() *)
  | SEntry (q : E) (ms nn : nat)                         (* :193-198 *)
  | SLoop (q : E) (ms nn : nat) (st : sst)               (* :199, in search_for_neighbors *)
  | WGuard                                               (* :72, self.write_lock.write() *)
  | WElems                                               (* :74, self.elements.read() *)
  | WLayers                                              (* :75, self.layers.read() *)
  | WData                                                (* :77-78, elements.write(..) *)
  | WRow (s : S) (k : nat) (rows : list (list N)).       (* :82-96, the rows of the current layer
                                                            are read without their locks *)

  (** The lock a thread is waiting for. *)
  Definition wants (p : pc) : option (lk * access) :=
    match p with
    | ICheck _ _ _ | SElems _ _ _ | WElems => Some (LElems, ARead)
    | IElems _ _ _ => Some (LElems, AWrite)
    | ILayers _ _ _ => Some (LLayers, AWrite)
    | SLayers _ _ _ | WLayers => Some (LLayers, ARead)
    | IGuard _ _ _ => Some (LWrite, ARead)
    | WGuard => Some (LWrite, AWrite)
    | _ => None
    end.

  (** The guards a thread holds.  The two guards of an insertion are dropped at
      the end of the block, :174, those of [search] and [write] at the end
      of the call. *)
  Definition guards (p : pc) : list (lk * access) :=
    match p with
    | Idle | SElems _ _ _ | WGuard => []
    | ICheck _ _ d | IGuard _ _ d | IElems _ _ d | IReturn _ d => repeat (LWrite, ARead) d
    | ITest _ _ d => (LElems, ARead) :: repeat (LWrite, ARead) d
    | ILayers _ _ d => (LElems, AWrite) :: repeat (LWrite, ARead) d
    | IRoom _ _ d | INew _ _ d | ISplit _ _ d | IPush _ _ _ _ d | IDownL _ _ _ d =>
        (LLayers, AWrite) :: (LElems, AWrite) :: repeat (LWrite, ARead) d
    | IDownE _ _ _ d => (LLayers, ARead) :: (LElems, AWrite) :: repeat (LWrite, ARead) d
    | IIndex _ _ _ _ d => (LLayers, ARead) :: (LElems, ARead) :: repeat (LWrite, ARead) d
    | SLayers _ _ _ => [(LElems, ARead)]
    | SEntry _ _ _ | SLoop _ _ _ _ => [(LLayers, ARead); (LElems, ARead)]
    | WElems => [(LWrite, AWrite)]
    | WLayers => [(LElems, ARead); (LWrite, AWrite)]
    | WData | WRow _ _ _ => [(LLayers, ARead); (LElems, ARead); (LWrite, AWrite)]
    end.

  (** A thread: where it is, the batch it was called with, the calls it has not
      made yet, what its calls returned (oldest first). *)
  Record thread := mkThread {
    t_pc : pc;
    t_batch : list I;
    t_todo : list rcall;
    t_log : list result
  }.
  Definition rsys : Type := rw S * list thread.

  (** the first action of a call *)
  Definition begin_call (c : rcall) : pc :=
    match c with
    | RInsert xs => ICheck xs [] 0
    | RSearch q ms nn => SElems q ms nn
    | RSave => WGuard
    end.

  (** One step of a thread; a thread that waits for a lock moves if [ok].
      [k]: which task moves, for a thread in the insertion loop.  The row locks
      taken inside a step are those of MLocks.v. *)
  Definition thread_step (W : rw S) (t : thread) (ok : bool) (k : nat) : outcome (rw S * thread) :=
    let stay := Ok (W, t) in
    let goto W p := Ok (W, mkThread p (t_batch t) (t_todo t) (t_log t)) in
    let done r := Ok (W, mkThread Idle [] (t_todo t) (t_log t ++ [r])) in
    let granted p := if ok then goto W p else stay in
    match t_pc t with
    | Idle =>
        match t_todo t with
        | [] => stay
        | c :: cs => Ok (W, mkThread (begin_call c) (match c with RInsert xs => xs | _ => [] end) cs (t_log t))
        end
    (* insert_batch, :103-182 *)
    | ICheck xs acc d => granted (ITest xs acc d)
    | ITest xs acc d => goto W (if max <=? c_len C (w_elems W) then IReturn acc d else IGuard xs acc d)
    | IGuard xs acc d => granted (IElems xs acc (Datatypes.S d))
    | IElems xs acc d => granted (ILayers xs acc d)
    | ILayers xs acc d => granted (IRoom xs acc d)
    | IRoom xs acc d => goto W (if layer_full W then INew xs acc d else ISplit xs acc d)
    | INew xs acc d => let* W' := new_layer W in goto W' (ISplit xs acc d)
    | ISplit xs acc d =>
        let* r := split_batch W xs in
        let '(todo, ids, rest) := r in
        goto W (IPush todo ids rest acc d)
    | IPush [] ids rest acc d => goto W (IDownL ids rest acc d)
    | IPush (x :: todo) ids rest acc d =>
        let* s := cpush (w_elems W) x in
        goto (mkRw s (w_cur W) (w_width W) (w_prev W)) (IPush todo ids rest acc d)
    | IDownL ids rest acc d => goto W (IDownE ids rest acc d)
    | IDownE ids rest acc d => goto W (IIndex (map (fun i => (i, TStart)) ids) ids rest acc d)
    | IIndex ts ids rest acc d =>
        if all_done ts then
          goto W (match rest with
                  | [] => IReturn (acc ++ ids) d
                  | _ => ICheck rest (acc ++ ids) d
                  end)
        else
          let* x := sys_step V (w_elems W) (k_nn cfg) (k_ms cfg) (w_prev W) (w_cur W, ts) k in
          goto (mkRw (w_elems W) (fst x) (w_width W) (w_prev W)) (IIndex (snd x) ids rest acc d)
    | IReturn acc d => done (Inserted (t_batch t) acc)
    (* search, :184-207 *)
    | SElems q ms nn => granted (SLayers q ms nn)
    | SLayers q ms nn => granted (SEntry q ms nn)
    | SEntry q ms nn =>
        let* r := rw_entry W q in
        match r with
        | None => done (Found q ms nn [])
        | Some entrypoint =>
            let* st := s_init (fun i => c_dte C (w_elems W) i q) entrypoint ms in
            goto W (SLoop q ms nn st)
        end
    | SLoop q ms nn st =>
        let* p := s_pop st in
        match p with
        | None => done (Found q ms nn (firstn nn (map (fun k => (snd k, fst k)) (msh_into_sorted_vec (s_res st)))))
        | Some (k, st') =>
            let* row := read_ids (w_cur W) (snd k) in
            let* st'' := s_expand (fun i => c_dte C (w_elems W) i q) st' k row in
            goto W (SLoop q ms nn st'')
        end
    (* write, :70-97 *)
    | WGuard => granted WElems
    | WElems => granted WLayers
    | WLayers => granted WData
    | WData => goto W (WRow (w_elems W) 0 [])
    | WRow s k rows =>
        if k <? length (w_cur W) then
          let* row := index (w_cur W) k in
          goto W (WRow s (Datatypes.S k) (rows ++ [row]))
        else
          let* ls := saved_layers s rows (w_prev W) in
          done (Saved s ls)
    end.

  (** Who is granted a lock: any policy, depending on everything that has
      happened so far. *)
  Definition rpolicy := list (nat * nat) -> rsys -> nat -> bool.

  (** the move of one thread; a schedule entry [(i, k)] names the thread and,
      if it is inserting, one of its tasks *)
  Definition rsys_step (P : rpolicy) (h : list (nat * nat)) (y : rsys) (m : nat * nat) : outcome rsys :=
    match nth_error (snd y) (fst m) with
    | None => Ok y
    | Some t =>
        let* r := thread_step (fst y) t (P h y (fst m)) (snd m) in
        Ok (fst r, set_nth (snd y) (fst m) (snd r))
    end.

  (** [h]: the moves so far *)
  Fixpoint rrun (P : rpolicy) (h : list (nat * nat)) (sched : list (nat * nat)) (y : rsys) : outcome rsys :=
    match sched with
    | [] => Ok y
    | m :: ms => let* y' := rsys_step P h y m in rrun P (h ++ [m]) ms y'
    end.

  (** threads about to make the given calls *)
  Definition rstart (W : rw S) (progs : list (list rcall)) : rsys :=
    (W, map (fun cs => mkThread Idle [] cs []) progs).
End Rw.
Arguments rcall : clear implicits. Arguments result : clear implicits. Arguments pc : clear implicits.
Arguments thread : clear implicits. Arguments rsys : clear implicits. Arguments rpolicy : clear implicits.
