(** * Specification vocabulary for saving a concurrent builder to files *)
From Verif Require Import Base Bytes MSliceVec MIndexIo MSearch MBuild MLocks MRw SRw MRwFiles.

(** Buffering keeps the bytes: it only splits and merges writes. *)
Record keeps_bytes (B : buffering) : Prop := mkKeepsBytes {
  kb_elems : forall bs, concat (fst (bf_elems B bs) ++ snd (bf_elems B bs)) = bs;
  kb_index : forall c ops, run_ops c (bf_index B ops) = run_ops c ops
}.

(** Pushing an element does not make the elements file shorter. *)
Definition grows {S I} (cpush : S -> I -> outcome S) (ewrite : S -> list N) : Prop :=
  forall s x s', cpush s x = Ok s' -> length (ewrite s) <= length (ewrite s').

(** thread [i] is in a save to these files: between the call and its return *)
Definition saving {S E I} (X : fsys S E I) (i : nat) (ip ep : fname) : Prop :=
  exists c, nth_error (fs_ctl X) i = Some c /\ f_tgt c = Some (ip, ep).
(** thread [i] is in a save that writes file [f] *)
Definition saving_to {S E I} (X : fsys S E I) (i : nat) (f : fname) : Prop :=
  exists ip ep, saving X i ip ep /\ (f = ip \/ f = ep).

(** no file is given as an index file to one save and as an elements file to
    another (or the same) save *)
Definition names_apart (tgts : list (option target)) : Prop :=
  forall ip ep ip' ep', In (Some (ip, ep)) tgts -> In (Some (ip', ep')) tgts -> ip <> ep'.

(** The move from [X] to [X'] is the return of a save of thread [i] to [ip], [ep]; it saved
    [s] and [ls]. *)
Definition save_returns {S E I} (X X' : fsys S E I) (i : nat) (ip ep : fname) (s : S) (ls : list (fw N)) : Prop :=
  saving X i ip ep /\ exists t t', nth_error (snd (fs_base X)) i = Some t /\
  nth_error (snd (fs_base X')) i = Some t' /\ t_log t' = t_log t ++ [Saved s ls].
