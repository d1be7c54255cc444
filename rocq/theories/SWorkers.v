(** * Specification vocabulary for calls made from the tasks of a pool *)
From Verif Require Import Base MSliceVec MIndexIo MSearch MBuild MLocks MRw SRw MWorkers.

(** every job has been taken and has returned *)
Definition all_returned {S E I} (y : wsys S E I) : Prop :=
  k_jobs y = [] /\ forall s, In s (k_stacks y) -> s = [].

(** a move that gets something done *)
Definition possible {S E I} (pooled : bool) (P : rpolicy S E I) (y : wsys S E I) (m : wmove) : Prop :=
  match m with
  | WMove i k => may_move pooled y i = true /\ effective P (k_hist y) (k_sys y) (i, k)
  | WTake w j => may_take pooled y w = true /\ In j (k_jobs y)
  | WReturn w => exists i s t, nth_error (k_stacks y) w = Some (i :: s) /\ nth_error (snd (k_sys y)) i = Some t /\ finished t
  end.

(** On worker [w], job [i] waits for [elements] exclusively on top of job [j],
    which is in its insertion loop. *)
Definition waits_for_itself {S E I} (y : wsys S E I) (w i j : nat) : Prop :=
  exists s, nth_error (k_stacks y) w = Some (i :: s) /\ In j s /\ waits (k_sys y) i LElems AWrite /\
  exists t ts ids rest acc d, nth_error (snd (k_sys y)) j = Some t /\ t_pc t = IIndex ts ids rest acc d.
