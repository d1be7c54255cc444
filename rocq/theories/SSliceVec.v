(** * Specification vocabulary for slice vectors: a slice vector is a list of slices. *)
From Verif Require Import Base Bytes MSliceVec.

(** A fixed-width slice vector [v] {e is} the list [rows] of slices, each of width [w]. *)
Definition fw_is {T} (w : nat) (rows : list (list T)) (v : fw T) : Prop :=
  fwidth v = w /\ fdata v = concat rows /\ Forall (fun r => length r = w) rows.

(** Operations of a history on a fixed-width slice vector. *)
Inductive fw_op (T : Type) :=
| FPush (x : list T)                 (* push one slice *)
| FExtend (other : fw T)             (* extend_from_slice_vector *)
| FResize (n : nat) (x : T)          (* resize *)
| FSet (i : nat) (x : list T).       (* get_mut(i).clone_from_slice(x) *)
Arguments FPush {T}. Arguments FExtend {T}. Arguments FResize {T}. Arguments FSet {T}.

(** What each operation means for a list of slices of width [w]; [None] = refused. *)
Definition fw_op_spec {T} (w : nat) (rows : list (list T)) (o : fw_op T) (rows' : option (list (list T))) : Prop :=
  match o with
  | FPush x => rows' = if length x =? w then Some (rows ++ [x]) else None
  | FExtend other =>
      if fwidth other =? w
      then forall orows, fw_is w orows other -> rows' = Some (rows ++ orows)
      else rows' = None
  | FResize n x => rows' = Some (firstn n rows ++ repeat (repeat x w) (n - length rows))
  | FSet i x => rows' = if (i <? length rows) && (length x =? w) then Some (set_nth rows i x) else None
  end.

(** The model's execution of an operation. *)
Definition fw_op_run {T} (m : mode) (v : fw T) (o : fw_op T) : outcome (fw T) :=
  match o with
  | FPush x => fw_push v x
  | FExtend other => fw_extend v other
  | FResize n x => Ok (fw_resize v n x)
  | FSet i x => fw_set m v i x
  end.

(** [p] is a permutation of [0..n-1]. *)
Definition is_perm (n : nat) (p : list nat) : Prop := Permutation p (seq 0 n).

(** The slices of a variable-width slice vector: offsets are the running totals. *)
Fixpoint offsets_from {T} (start : nat) (rows : list (list T)) : list nat :=
  match rows with
  | [] => [start]
  | r :: t => start :: offsets_from (start + length r) t
  end.
Definition vw_is {T} (rows : list (list T)) (v : vw T) : Prop :=
  voffs v = offsets_from 0 rows /\ vdata v = concat rows.

(** byte [i] of file [c] *)
Definition byte_at (c : cursor) (i : nat) : option N := nth_error (cbuf c) i.
(** file [c] holds the byte string [bs] at position [p] *)
Definition holds (c : cursor) (p : nat) (bs : list N) : Prop :=
  forall i, i < length bs -> byte_at c (p + i) = nth_error bs i.

(** Operations of a history on a variable-width slice vector and their meaning
    for the list of slices; [None] = refused because the total no longer fits
    the offset type of [osz] bytes. *)
Inductive vw_op (T : Type) := VPush (x : list T) | VExtend (rows : list (list T)).
Arguments VPush {T}. Arguments VExtend {T}.

Definition vw_of {T} (rows : list (list T)) : vw T :=
  mkVw (offsets_from 0 rows) (concat rows).

Definition total_fits {T} (osz : nat) (rows : list (list T)) : Prop :=
  (N.of_nat (length (concat rows)) < 256 ^ N.of_nat osz)%N.

Definition vw_op_rows {T} (rows : list (list T)) (o : vw_op T) : list (list T) :=
  match o with VPush x => rows ++ [x] | VExtend r => rows ++ r end.

Definition vw_op_run {T} (osz : nat) (v : vw T) (o : vw_op T) : outcome (vw T) :=
  match o with VPush x => vw_push osz v x | VExtend r => vw_extend osz v (vw_of r) end.

(** Histories: the list of slices after a list of operations ([None]: some
    operation was refused). *)
Inductive fw_history {T} (w : nat) : list (list T) -> list (fw_op T) -> option (list (list T)) -> Prop :=
| FHdone rows : fw_history w rows [] (Some rows)
| FHstep rows o rows' ops res :
    fw_op_spec w rows o (Some rows') -> fw_history w rows' ops res -> fw_history w rows (o :: ops) res
| FHrefused rows o ops : fw_op_spec w rows o None -> fw_history w rows (o :: ops) None.

(** The collections passed to [extend] hold whole slices. *)
Definition fw_op_wf {T} (o : fw_op T) : Prop :=
  forall other, o = FExtend other -> length (fdata other) mod fwidth other = 0.

(** Everything a caller can observe of [v] agrees with the list [rows]. *)
Definition fw_observes {T} (m : mode) (rows : list (list T)) (v : fw T) : Prop :=
  fw_len v = length rows /\
  (forall i r, nth_error rows i = Some r -> fw_get m v i = Ok r) /\
  (forall i, length rows <= i -> fw_get m v i = Fail Panicked) /\
  fw_iter v = Ok rows.

Definition vw_observes {T} (rows : list (list T)) (v : vw T) : Prop :=
  vw_len v = length rows /\
  (forall i r, nth_error rows i = Some r -> vw_get v i = Ok r) /\
  (forall i, length rows <= i -> vw_get v i = Fail Panicked) /\
  vw_iter v = Ok rows.
