(** * Specification vocabulary for the row locks *)
From Verif Require Import Base MSliceVec MSearch MBuild MLocks.

(** task [k] of [y] asks for lock [i] *)
Definition asks {E} (y : msys E) (k i : nat) (a : access) : Prop :=
  exists m c, nth_error (snd y) k = Some m /\ m_code m = IAcq i a :: c.
(** task [k] of [y] holds lock [i] *)
Definition holds {E} (y : msys E) (k i : nat) (a : access) : Prop :=
  exists m, nth_error (snd y) k = Some m /\ In (i, a) (m_held m).

(** What is assumed of [parking_lot::RwLock]: a granted lock is compatible with
    all guards in existence (including those of the same task), and a lock that
    nobody holds is granted to one of those who ask for it.  Nothing is assumed
    about readers joining other readers: they may be kept waiting, e.g. behind a
    writer. *)
Record fair_locks {E} (P : policy (E := E)) : Prop := mkFairLocks {
  fl_safe : forall h y k i a, asks y k i a -> P h y k = true ->
            forall j b, holds y j i b -> a = ARead /\ b = ARead;
  fl_live : forall h y k i a, asks y k i a -> (forall j b, ~ holds y j i b) ->
            exists k' a', asks y k' i a' /\ P h y k' = true
}.

(** the move of task [k] changes something: it is neither finished nor waiting in vain *)
Definition can_move {E} (P : policy (E := E)) (h : list nat) (y : msys E) (k : nat) : Prop :=
  exists m, nth_error (snd y) k = Some m /\ m_finished m = false /\
    forall i a, asks y k i a -> P h y k = true.
