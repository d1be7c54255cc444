(** * Model of calls made from the tasks of a rayon pool (src/index/rw/mod.rs:159-165,
    and [rayon] as the package uses it)

    MRw.v gives every caller a thread of its own.  A caller may also be a task of
    a rayon pool (as in [par_iter().for_each(|x| builder.insert(x))]): several
    tasks, or jobs, then share the workers of that pool.  [pool.install], :160,
    called on a worker of another pool hands the closure to the builder's own
    pool and, until it is done, lets the worker run other jobs of its own pool
    ([rayon_core]: [Registry::in_worker_cross], [WorkerThread::wait_until]).  Such
    a job runs on top of the stack of the one that waits.  The threads of MRw.v
    are the jobs here. *)
From Verif Require Import Base MSliceVec MIndexIo MSearch MBuild MLocks MRw.

Section Workers.
  Context {S E I : Type} (V : benv S E) (cpush : S -> I -> outcome S) (cfg : config) (max : nat).
  (** whether the builder's own pool has more than one thread, rw/mod.rs:159;
      otherwise the insertion loop, :166-170, runs on the caller's thread *)
  Context (pooled : bool).

  (** The jobs, the moves they have made, the stack of each worker (the innermost
      job first), the jobs nobody has taken yet. *)
  Record wsys := mkWsys {
    k_sys : rsys S E I;
    k_hist : list (nat * nat);
    k_stacks : list (list nat);
    k_jobs : list nat
  }.

  Inductive wmove :=
  | WMove (i k : nat)  (** job [i] moves; [k] as in MRw.v *)
  | WTake (w j : nat)  (** worker [w] takes job [j] *)
  | WReturn (w : nat). (** the innermost job of worker [w] returns *)

  (** the job is in [pool.install], :160, and the closure is not done *)
  Definition in_install (t : thread S E I) : bool :=
    match t_pc t with
    | IIndex ts _ _ _ _ => pooled && negb (all_done ts)
    | _ => false
    end.
  Definition at_job (y : wsys) (i : nat) (f : thread S E I -> bool) : bool :=
    match nth_error (snd (k_sys y)) i with Some t => f t | None => false end.

  (** the job is the innermost one of some worker *)
  Definition on_top (y : wsys) (i : nat) : bool :=
    existsb (fun s => match s with j :: _ => i =? j | [] => false end) (k_stacks y).

  (** [for_each] inside [install] runs on the builder's pool, everything else on
      the worker, whose innermost job it must be *)
  Definition may_move (y : wsys) (i : nat) : bool := on_top y i || at_job y i in_install.

  (** a worker takes jobs when it has none, or while it waits in [install] *)
  Definition may_take (y : wsys) (w : nat) : bool :=
    match nth_error (k_stacks y) w with
    | Some [] => true
    | Some (i :: _) => at_job y i in_install
    | None => false
    end.

  Definition is_finished (t : thread S E I) : bool :=
    match t_pc t, t_todo t with Idle, [] => true | _, _ => false end.

  (** One move; a move that is not possible changes nothing. *)
  Definition wstep (P : rpolicy S E I) (y : wsys) (m : wmove) : outcome wsys :=
    match m with
    | WMove i k =>
        if may_move y i then
          let* z := rsys_step V cpush cfg max P (k_hist y) (k_sys y) (i, k) in
          Ok (mkWsys z (k_hist y ++ [(i, k)]) (k_stacks y) (k_jobs y))
        else Ok y
    | WTake w j =>
        if may_take y w && existsb (Nat.eqb j) (k_jobs y) then
          Ok (mkWsys (k_sys y) (k_hist y)
                (set_nth (k_stacks y) w (j :: nth w (k_stacks y) [])) (remove Nat.eq_dec j (k_jobs y)))
        else Ok y
    | WReturn w =>
        match nth_error (k_stacks y) w with
        | Some (i :: rest) =>
            if at_job y i is_finished then Ok (mkWsys (k_sys y) (k_hist y) (set_nth (k_stacks y) w rest) (k_jobs y))
            else Ok y
        | _ => Ok y
        end
    end.

  Fixpoint wrun (P : rpolicy S E I) (ms : list wmove) (y : wsys) : outcome wsys :=
    match ms with
    | [] => Ok y
    | m :: ms => let* y' := wstep P y m in wrun P ms y'
    end.

  (** [n] workers, and the jobs making the given calls *)
  Definition wstart (W : rw S) (n : nat) (progs : list (list (rcall E I))) : wsys :=
    mkWsys (rstart W progs) [] (repeat [] n) (seq 0 (length progs)).
End Workers.
Arguments wsys : clear implicits.
Arguments mkWsys {S E I}. Arguments k_sys {S E I}. Arguments k_hist {S E I}. Arguments k_stacks {S E I}. Arguments k_jobs {S E I}.
