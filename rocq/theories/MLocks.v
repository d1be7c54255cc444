(** * Model of the row locks during an insertion pass (src/index/mod.rs:754-783,
    805-921): the tasks of MBuild.v with explicit acquisition, access and release
    of the [parking_lot::RwLock] of each row. *)
From Verif Require Import Base MSliceVec MSearch MBuild.

(** shared ([read()]) or exclusive ([write()]) *)
Inductive access := ARead | AWrite.

(** What a task does next.  Between [ILoad] and [IExec] other tasks may move, so
    only the lock makes the pair atomic.
    - [IAcq i a]: [layer[i].read()] resp. [layer[i].write()]; blocks until granted
    - [ILoad i]: the guarded row is read
    - [IExec (Some (i, a))]: the work done under the guard; with [AWrite] the
      row is written.  (For [search_for_neighbors] the distances are computed
      after the guard is gone, :564-577 and :1024; here they belong to this
      step.  They touch only data of the task.)
    - [IExec None]: work that takes no lock
    - [IRel i a]: the guard is dropped *)
Inductive instr :=
| IAcq (i : nat) (a : access)
| ILoad (i : nat)
| IExec (o : option (nat * access))
| IRel (i : nat) (a : access).

Section Locks.
  Context {S E : Type} (V : benv S E) (s : S) (nn ms : nat) (prev : list (fw N)).

  (** The lock taken in each state of [index_element]:
      - the search loop reads the row of the node just popped, :564-577
      - [layer[idx].read()[0]], :835; the guard is a temporary of the condition
        of an [if] and is dropped before the block is entered
      - [node.read()[0]] in [debug_assert_eq!], :886; dropped at the end of the statement
      - [node.write()] in [initialize_node], :889
      - [node.write()] in [connect_nodes], :911, after the test [i == j] *)
  Definition lock_of (idx : nat) (t : tstate E) : option (nat * access) :=
    match t with
    | TStart | TDone => None
    | TSearch _ st => match s_pop st with
                      | Ok (Some (k, _)) => Some (snd k, ARead)
                      | _ => None
                      end
    | TTest _ => Some (idx, ARead)
    | TCheck _ => Some (idx, ARead)
    | TInit _ => Some (idx, AWrite)
    | TOwn [] _ => None
    | TOwn ((n, _) :: _) _ => if idx =? n then None else Some (idx, AWrite)
    | TBack [] => None
    | TBack ((n, _) :: _) => if n =? idx then None else Some (n, AWrite)
    end.

  (** the instructions of one state of [index_element], :805-846 *)
  Definition plan (idx : nat) (t : tstate E) : list instr :=
    match lock_of idx t with
    | Some (i, a) => [IAcq i a; ILoad i; IExec (Some (i, a)); IRel i a]
    | None => [IExec None]
    end.

  (** A task at this level: the element it inserts, its state, the instructions
      before its next state is looked at, the guards it holds, the row it read. *)
  Record mtask := mkMtask {
    m_idx : nat;
    m_t : tstate E;
    m_code : list instr;
    m_held : list (nat * access);
    m_row : list N
  }.
  Definition msys : Type := list (list N) * list mtask.

  Definition m_finished (m : mtask) : bool := is_done (m_t m) && match m_code m with [] => true | _ => false end.

  (** ** Who is granted a lock: any policy, depending on everything that has
      happened so far (the list of moves). *)
  Definition policy := list nat -> msys -> nat -> bool.

  Definition access_eqb (a b : access) : bool :=
    match a, b with ARead, ARead | AWrite, AWrite => true | _, _ => false end.
  (** dropping one guard *)
  Fixpoint drop_guard (i : nat) (a : access) (l : list (nat * access)) : list (nat * access) :=
    match l with
    | [] => []
    | (j, b) :: t => if (i =? j) && access_eqb a b then t else (j, b) :: drop_guard i a t
    end.

  (** One move of task [m], whose request for a lock is granted if [ok]. *)
  Definition mtask_step (rows : list (list N)) (m : mtask) (ok : bool) : outcome (list (list N) * mtask) :=
    match m_code m with
    | [] => if is_done (m_t m) then Ok (rows, m)
            else Ok (rows, mkMtask (m_idx m) (m_t m) (plan (m_idx m) (m_t m)) (m_held m) (m_row m))
    | IAcq i a :: c =>
        if ok then Ok (rows, mkMtask (m_idx m) (m_t m) c ((i, a) :: m_held m) (m_row m))
        else Ok (rows, m)
    | ILoad i :: c =>
        let* row := index rows i in
        Ok (rows, mkMtask (m_idx m) (m_t m) c (m_held m) row)
    | IExec None :: c =>
        let* r := task_step V s nn ms prev rows (m_idx m) (m_t m) in
        Ok (rows, mkMtask (m_idx m) (snd r) c (m_held m) (m_row m))
    | IExec (Some (i, a)) :: c =>
        (* the task sees its copy of row [i]; of all rows it can change this one only *)
        let* r := task_step V s nn ms prev (set_nth rows i (m_row m)) (m_idx m) (m_t m) in
        let m' := mkMtask (m_idx m) (snd r) c (m_held m) (m_row m) in
        match a with
        | ARead => Ok (rows, m')
        | AWrite => let* row' := index (fst r) i in Ok (set_nth rows i row', m')
        end
    | IRel i a :: c => Ok (rows, mkMtask (m_idx m) (m_t m) c (drop_guard i a (m_held m)) (m_row m))
    end.

  Definition msys_step (P : policy) (h : list nat) (y : msys) (k : nat) : outcome msys :=
    match nth_error (snd y) k with
    | None => Ok y
    | Some m =>
        let* r := mtask_step (fst y) m (P h y k) in
        Ok (fst r, set_nth (snd y) k (snd r))
    end.

  (** [h]: the moves so far *)
  Fixpoint mrun (P : policy) (h : list nat) (sched : list nat) (y : msys) : outcome msys :=
    match sched with
    | [] => Ok y
    | k :: t => let* y' := msys_step P h y k in mrun P (h ++ [k]) t y'
    end.

  Definition m_start (x : sys (E := E)) : msys :=
    (fst x, map (fun p => mkMtask (fst p) (snd p) [] [] []) (snd x)).
End Locks.
Arguments mtask : clear implicits. Arguments msys : clear implicits.
