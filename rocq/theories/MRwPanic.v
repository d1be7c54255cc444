(** * A concurrent builder whose calls may panic *)
(** Models: src/index/rw/mod.rs (panics in [insert], [insert_batch], [search] and
    [write], and the unwinding that follows). *)
From Verif Require Import Base MSliceVec MIndexIo MSearch MBuild MLocks MRw.

Section Panic.
  Context {S E I : Type} (V : benv S E) (cpush : S -> I -> outcome S) (cfg : config) (max : nat).

  (** A thread whose call panicked, and which caught the panic: the call's
      frames are gone and its guards dropped, rw/mod.rs:109-174, 190-191, 72-75
      ([parking_lot] locks are not poisoned: the next one to ask for the lock gets it);
      the call returned nothing; the calls still to be made are made.
      (A thread that ends with the panic is a thread with no further call.  The
      guards of one call are dropped together here; the code drops them one
      after the other.) *)
  Definition unwind (t : thread S E I) : thread S E I := mkThread Idle [] (t_todo t) (t_log t).

  (** [rsys_step], except that a panic does not end the run: the data stay as the
      call left them, rw/mod.rs:116-174. *)
  Definition psys_step (P : rpolicy S E I) (h : list (nat * nat)) (y : rsys S E I) (m : nat * nat) : outcome (rsys S E I) :=
    match rsys_step V cpush cfg max P h y m with
    | Fail Panicked =>
        match nth_error (snd y) (fst m) with
        | Some t => Ok (fst y, set_nth (snd y) (fst m) (unwind t))
        | None => Ok y
        end
    | r => r
    end.

  (** [h]: the moves so far, rw/mod.rs:70-207 *)
  Fixpoint prun (P : rpolicy S E I) (h : list (nat * nat)) (sched : list (nat * nat)) (y : rsys S E I) : outcome (rsys S E I) :=
    match sched with
    | [] => Ok y
    | m :: ms => let* y' := psys_step P h y m in prun P (h ++ [m]) ms y'
    end.
End Panic.
