(** * Specification vocabulary for opened indexes and builders over files *)
From Verif Require Import Base Bytes MSliceVec MIndexIo MSearch MBuild MReorder MLayerSize MEmbed MParse MPyIndex MFiles SFiles MPyFiles SPyReorder.
Open Scope nat_scope.

(** the files something is mapped from *)
Definition mapped (xs : list (option mapping)) : list path := flat_map (fun x => match x with Some (p, _) => [p] | None => [] end) xs.
Definition index_files (o : open_index) : list path := mapped [oi_layers o; oi_elems o; oi_embs o].
Definition builder_files (o : open_builder) : list path := mapped [ob_elems o; ob_embs o].
(** every mapped file is as it was when it was mapped *)
Definition sound (d : disk) (xs : list (option mapping)) : Prop :=
  forall p b, In (Some (p, b)) xs -> node_at d p = Some (File b).

(** ** An index in memory: what calls answer and what saves write, with no files behind it *)
Definition index_next (m : mode) (fuel : nat) (q : py_index) (c : icall) : py_index :=
  match c with CReorder => match pi_reorder m fuel q with Ok r => fst r | Fail _ => q end | _ => q end.
Definition index_reply (m : mode) (fuel : nat) (q : py_index) (c : icall) : outcome ianswer :=
  match c with
  | CReorder => let* r := pi_reorder m fuel q in Ok (AnIds (snd r))
  | CSaveIndex _ => let* _ := or_panic (pi_save_index m q) in Ok AnNone
  | CSaveElements _ => Ok AnNone
  | CSearch element ms nn => let* a := pi_search m fuel q element ms nn in Ok (AnResults a)
  | CGetElement idx => let* a := pi_get_element m q idx in Ok (AnElement a)
  | CGetInternalElement idx => let* a := pi_get_internal_element m q idx in Ok (AnElement a)
  | CGetNeighbors idx layer => let* a := pi_get_neighbors m q idx layer in Ok (AnIds a)
  | CLen => let* a := pi_len q in Ok (AnCount a)
  | CNumLayers => Ok (AnCount (pi_num_layers q))
  | CLayerLen layer => let* a := pi_layer_len q layer in Ok (AnCount a)
  end.
(** the file a call writes (empty if the save panics) *)
Definition contents (x : outcome (list N)) : list N := match x with Ok b => b | Fail _ => [] end.
Definition index_writes (m : mode) (q : py_index) (c : icall) : list (path * list N) :=
  match c with
  | CSaveIndex p => [(p, contents (pi_save_index m q))]
  | CSaveElements p => [(p, pi_save_elements q)]
  | _ => []
  end.
Fixpoint index_replies (m : mode) (fuel : nat) (q : py_index) (cs : list icall) : list (outcome ianswer) :=
  match cs with [] => [] | c :: cs => index_reply m fuel q c :: index_replies m fuel (index_next m fuel q c) cs end.
Definition index_after (m : mode) (fuel : nat) (q : py_index) (cs : list icall) : py_index := fold_left (index_next m fuel) cs q.
Fixpoint index_files_written (m : mode) (fuel : nat) (q : py_index) (cs : list icall) : list (path * list N) :=
  match cs with [] => [] | c :: cs => index_writes m q c ++ index_files_written m fuel (index_next m fuel q c) cs end.
Definition save_paths (cs : list icall) : list path :=
  flat_map (fun c => match c with CSaveIndex p => [p] | CSaveElements p => [p] | _ => [] end) cs.

(** the last file written at a path, if any *)
Fixpoint last_written (fs : list (path * list N)) (p : path) : option (list N) :=
  match fs with
  | [] => None
  | (q, b) :: fs => match last_written fs p with Some x => Some x | None => if path_eqb q p then Some b else None end
  end.
(** [d'] is [d] with the files [fs] written, one after the other *)
Definition disk_with (d d' : disk) (fs : list (path * list N)) : Prop :=
  forall p, node_at d' p = match last_written fs p with Some b => Some (File b) | None => node_at d p end.

(** ** The same for builders *)
Definition builder_next (m : mode) (fuel : nat) (usort : list (nat * Z) -> list (nat * Z)) (b : py_builder) (c : bcall) : py_builder :=
  match c with
  | BAppend x => match pb_append m fuel usort b x with Ok b => b | Fail _ => b end
  | BBuild n steps sched => match pb_build m fuel usort steps b n sched with Ok b => b | Fail _ => b end
  | _ => b
  end.
Definition builder_reply (m : mode) (fuel : nat) (usort : list (nat * Z) -> list (nat * Z)) (b : py_builder) (c : bcall) : outcome ianswer :=
  match c with
  | BAppend x => let* _ := pb_append m fuel usort b x in Ok AnNone
  | BBuild n steps sched => let* _ := pb_build m fuel usort steps b n sched in Ok AnNone
  | BGetNeighbors idx layer => let* l := pb_get_neighbors m b idx layer in Ok (AnIds l)
  | BLen => let* n := pb_len b in Ok (AnCount n)
  | BNumElements => Ok (AnCount (pb_num_elements m b))
  | BNumLayers => Ok (AnCount (pb_num_layers b))
  | BLayerLen layer => let* n := pb_layer_len b layer in Ok (AnCount n)
  | BSaveIndex _ => let* _ := or_panic (pb_save_index m b) in Ok AnNone
  | BSaveElements _ => Ok AnNone
  end.
Definition builder_writes (m : mode) (b : py_builder) (c : bcall) : list (path * list N) :=
  match c with
  | BSaveIndex p => [(p, contents (pb_save_index m b))]
  | BSaveElements p => [(p, pb_save_elements b)]
  | _ => []
  end.
Fixpoint builder_replies (m : mode) (fuel : nat) (usort : list (nat * Z) -> list (nat * Z)) (b : py_builder) (cs : list bcall) : list (outcome ianswer) :=
  match cs with [] => [] | c :: cs => builder_reply m fuel usort b c :: builder_replies m fuel usort (builder_next m fuel usort b c) cs end.
Definition builder_after (m : mode) (fuel : nat) (usort : list (nat * Z) -> list (nat * Z)) (b : py_builder) (cs : list bcall) : py_builder :=
  fold_left (builder_next m fuel usort) cs b.
Fixpoint builder_files_written (m : mode) (fuel : nat) (usort : list (nat * Z) -> list (nat * Z)) (b : py_builder) (cs : list bcall) : list (path * list N) :=
  match cs with [] => [] | c :: cs => builder_writes m b c ++ builder_files_written m fuel usort (builder_next m fuel usort b c) cs end.
Definition b_save_paths (cs : list bcall) : list path :=
  flat_map (fun c => match c with BSaveIndex p => [p] | BSaveElements p => [p] | _ => [] end) cs.

(** the bytes, and the text, of a file that may be given *)
Definition given {A} (x : option A) : list A := match x with Some a => [a] | None => [] end.
Definition bytes_given (d : disk) (x : option path) (b : option (list N)) : Prop :=
  match x, b with Some p, Some b => node_at d p = Some (File b) | None, None => True | _, _ => False end.
Definition text_given (utf8 : list N -> option str) (d : disk) (x : option path) (t : option str) : Prop :=
  match x, t with
  | Some p, Some t => exists b, node_at d p = Some (File b) /\ utf8 b = Some t
  | None, None => True
  | _, _ => False
  end.

(** ** Lives: reordered, or saved to two files and opened from them *)
Inductive disk_step := DReorder | DSaveOpen (index_path elements_path : path).
Definition step_of (s : disk_step) : index_step := match s with DReorder => Reorder | DSaveOpen _ _ => SaveOpen end.
(** [None]: the process is killed *)
Fixpoint disk_life (m : mode) (fuel : nat) (utf8 : list N -> option str) (json : str -> option str) (element_type : str)
  (embeddings words : option path) (d : disk) (o : open_index) (steps : list disk_step) : option (outcome (disk * open_index * list (list nat))) :=
  match steps with
  | [] => Some (Ok (d, o, []))
  | DReorder :: steps =>
      let '(d, o, r) := call_at m fuel d o CReorder in
      match r with
      | Crashed => None
      | Reply (Fail e) => Some (Fail e)
      | Reply (Ok (AnIds order)) =>
          match disk_life m fuel utf8 json element_type embeddings words d o steps with
          | Some (Ok (d, o, orders)) => Some (Ok (d, o, order :: orders))
          | x => x
          end
      | Reply (Ok _) => Some (Fail Panicked) (* not an order: does not happen *)
      end
  | DSaveOpen p q :: steps =>
      let '(d, o, rs) := calls_at m fuel d o [CSaveIndex p; CSaveElements q] in
      match rs with
      | [Reply (Ok _); Reply (Ok _)] =>
          match open_at utf8 json d element_type p q embeddings words with
          | Ok o => disk_life m fuel utf8 json element_type embeddings words d o steps
          | Fail e => Some (Fail e)
          end
      | [Reply (Fail e); _] | [Reply _; Reply (Fail e)] => Some (Fail e)
      | _ => None
      end
  end.
(** No file is written while something is mapped from it ([files]: index and
    elements; [reorder] copies both) or while it is needed ([keep]). *)
Fixpoint steps_apart (d : disk) (files keep : list path) (steps : list disk_step) : Prop :=
  match steps with
  | [] => True
  | DReorder :: steps => steps_apart d [] keep steps
  | DSaveOpen p q :: steps =>
      creatable d p /\ creatable d q /\ p <> q /\ ~ In p (files ++ keep) /\ ~ In q (files ++ keep) /\ steps_apart d [p; q] keep steps
  end.
