(** * Specification vocabulary for Python builders over saved files *)
From Verif Require Import Base Bytes MIndexIo SIndexIo MSearch MBuild SBuild MLayerSize MParse MPyIndex SPyIndex.
Open Scope nat_scope.

(** One more life of a builder: its elements and, if [st_keep_index], its index
    are saved; [GranneBuilder] opens the files with the options [st_options]; a
    session of calls follows. *)
Record py_stage := mkStage { st_keep_index : bool; st_options : options; st_calls : list py_call }.

Section More.
  Context (m : mode) (fuel : nat) (usort : list (nat * Z) -> list (nat * Z)) (json : str -> option str) (L : libm)
          (element_type : str) (embeddings : option (list N)) (words : option str).
  Definition py_next (p : py_builder) (st : py_stage) : outcome py_builder :=
    let* index := pb_save_index m p in
    let* p := pb_new m fuel usort json L element_type (Some (pb_save_elements p)) embeddings words
                     (if st_keep_index st then Some index else None) (st_options st) in
    py_session m fuel usort p (st_calls st).
  Fixpoint py_lives (p : py_builder) (sts : list py_stage) : outcome py_builder :=
    match sts with
    | [] => Ok p
    | st :: sts => let* p := py_next p st in py_lives p sts
    end.
End More.

(** the values appended in a first session [cs] and later ones *)
Definition all_appended (cs : list py_call) (sts : list py_stage) : list pyval :=
  appended cs ++ concat (map (fun st => appended (st_calls st)) sts).
(** the last session *)
Definition last_session (cs : list py_call) (sts : list py_stage) : list py_call := last (map st_calls sts) cs.
(** a session ending with [build()] *)
Definition finished (cs : list py_call) : Prop := exists cs' f s, cs = cs' ++ [PcBuild f None s].
(** all sessions consist of [append(x)] and [build()] *)
Definition all_complete (cs : list py_call) (sts : list py_stage) : Prop :=
  Forall complete cs /\ Forall (fun st => Forall complete (st_calls st)) sts.
(** options of later lives, for up to [N] elements *)
Definition stage_ok (L : libm) (N : nat) (st : py_stage) : Prop :=
  options_ok L (st_options st) /\ few_layers L (st_options st) N.
