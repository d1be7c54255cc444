(** * Model of [RwGranneBuilder::save_index_and_elements_to_disk]
    (src/index/rw/mod.rs:63-68) and of the file operations of [write] (:70-97):
    threads that save a shared builder to files.

    The threads, their locks and the shared data are those of MRw.v; here each
    call of [write] may be made by [save_index_and_elements_to_disk], and is then
    accompanied by its file operations, one at a time, between which any other
    thread may move.  A disk maps file names to contents; names are taken
    literally (no links).  Not modelled: operations that fail, removing or
    renaming files, other processes. *)
From Verif Require Import Base Bytes MSliceVec MSetVec MIndexIo MSearch MBuild MLocks MRw.

(** file names are byte strings *)
Definition fname : Type := list N.
Definition fname_dec : forall a b : fname, {a = b} + {a <> b} := list_eq_dec N.eq_dec.
(** [None]: no such file *)
Definition fdisk : Type := fname -> option (list N).
Definition content (d : fdisk) (f : fname) : list N := match d f with Some b => b | None => [] end.
Definition fput (d : fdisk) (f : fname) (b : list N) : fdisk := fun g => if fname_dec g f then Some b else d g.

(** the arguments [index_path], [elements_path], rw/mod.rs:63 *)
Definition target : Type := fname * fname.

(** What a save does to its two files, one system call at a time, rw/mod.rs:63-97. *)
Inductive fop :=
| FOpenE                 (* :64, File::create(elements_path): created, or emptied *)
| FOpenI                 (* :65, File::create(index_path) *)
| FElems (bs : list N)   (* :77-78 and the end of the call: a write of the BufWriter around the elements file *)
| FIndex (o : wop).      (* :96, a write or seek on the index file *)

(** When the buffers are flushed: the writes a [BufWriter] makes while the
    elements are written, rw/mod.rs:77-78, and those it makes when it is dropped, at the
    end of the call (after [write_index], before the guards are dropped); the
    operations of [write_index] behind its own [BufWriter], io.rs:12. *)
Record buffering := mkBuffering {
  bf_elems : list N -> list (list N) * list (list N);
  bf_index : list wop -> list wop
}.

(** The files side of a thread (rw/mod.rs:63-97): for each call of [write] it has not begun, where
    to ([None]: [write] itself was called, with writers that are no files of this
    disk); the targets of the call it is in; the operations due before the
    thread goes on; whether [write_index] has begun (then: the layers it writes);
    the positions of the two files. *)
Record fctl := mkFctl {
  f_tgts : list (option target);
  f_tgt : option target;
  f_pending : list fop;
  f_layers : option (list (fw N));
  f_epos : nat;
  f_ipos : nat
}.

(** the disk, the builder with its threads, and their files *)
Definition fsys (S E I : Type) : Type := fdisk * rsys S E I * list fctl.
Definition fs_disk {S E I} (X : fsys S E I) : fdisk := fst (fst X).
Definition fs_base {S E I} (X : fsys S E I) : rsys S E I := snd (fst X).
Definition fs_ctl {S E I} (X : fsys S E I) : list fctl := snd X.

(** One file operation of a save to [t], rw/mod.rs:64-65, 78, 96; the positions belong to the open files
    of this call. *)
Definition do_fop (d : fdisk) (t : target) (c : fctl) (o : fop) (rest : list fop) : fdisk * fctl :=
  let c' := mkFctl (f_tgts c) (f_tgt c) rest (f_layers c) in
  match o with
  | FOpenE => (fput d (snd t) [], c' 0 (f_ipos c))
  | FOpenI => (fput d (fst t) [], c' (f_epos c) 0)
  | FElems bs =>
      let k := cwrite (mkCursor (content d (snd t)) (f_epos c)) bs in
      (fput d (snd t) (cbuf k), c' (cpos k) (f_ipos c))
  | FIndex o =>
      let k := run_op (mkCursor (content d (fst t)) (f_ipos c)) o in
      (fput d (fst t) (cbuf k), c' (f_epos c) (cpos k))
  end.

Section RwFiles.
  Context {S E I : Type} (V : benv S E) (cpush : S -> I -> outcome S) (cfg : config) (max : nat).
  (** [elements.write(..)], rw/mod.rs:78: the bytes written *)
  Context (ewrite : S -> list N).
  Context (B : buffering).

  (** The files side of a thread after its step from [p] to [p'] in MRw.v:
      [save_index_and_elements_to_disk] is called (rw/mod.rs:63; the files are opened,
      :64-65, before the lock is waited for, :72); the elements are written (:78); the call
      returns. *)
  Definition ctl_step (p p' : pc S E I) (c : fctl) : fctl :=
    match p, p' with
    | Idle, WGuard =>
        let t := match f_tgts c with t :: _ => t | [] => None end in
        mkFctl (tl (f_tgts c)) t (match t with Some _ => [FOpenE; FOpenI] | None => [] end) None 0 0
    | WData, WRow s _ _ =>
        match f_tgt c with
        | Some t => mkFctl (f_tgts c) (Some t) (map FElems (fst (bf_elems B (ewrite s)))) None (f_epos c) (f_ipos c)
        | None => c
        end
    | WRow _ _ _, Idle => mkFctl (f_tgts c) None [] None 0 0
    | _, _ => c
    end.

  (** whether [write_index], rw/mod.rs:96, is to be called now: all rows have been read *)
  Definition index_due (y : rsys S E I) (t : thread S E I) (c : fctl) : option (S * list (list N)) :=
    match t_pc t, f_tgt c, f_layers c with
    | WRow s k rows, Some _, None => if length (w_cur (fst y)) <=? k then Some (s, rows) else None
    | _, _, _ => None
    end.

  (** The operations of [write_index], rw/mod.rs:96, on the freshly opened index file, then
      those of dropping the buffered elements file. *)
  Definition begin_index (y : rsys S E I) (c : fctl) (s : S) (rows : list (list N)) : outcome fctl :=
    let* ls := saved_layers V cfg s rows (w_prev (fst y)) in
    let* ops := write_index_ops (e_mode V) (FixWidth ls) (f_ipos c) in
    Ok (mkFctl (f_tgts c) (f_tgt c)
          (map FIndex (bf_index B ops) ++ map FElems (snd (bf_elems B (ewrite s))))
          (Some ls) (f_epos c) (f_ipos c)).

  (** One move (of [save_index_and_elements_to_disk] or [write], rw/mod.rs:63-97, or of
      another call): the thread's next file operation, if one is due; otherwise a step
      in MRw.v.  [h]: the moves so far, of both kinds. *)
  Definition fstep (P : rpolicy S E I) (h : list (nat * nat)) (X : fsys S E I) (m : nat * nat) : outcome (fsys S E I) :=
    let '(d, y, cs) := X in
    match nth_error cs (fst m), nth_error (snd y) (fst m) with
    | Some c, Some t =>
        match f_pending c, f_tgt c with
        | o :: rest, Some tg =>
            let '(d', c') := do_fop d tg c o rest in Ok (d', y, set_nth cs (fst m) c')
        | _, _ =>
            match index_due y t c with
            | Some (s, rows) =>
                let* c' := begin_index y c s rows in Ok (d, y, set_nth cs (fst m) c')
            | None =>
                let* y' := rsys_step V cpush cfg max P h y m in
                let p' := match nth_error (snd y') (fst m) with Some t' => t_pc t' | None => Idle end in
                Ok (d, y', set_nth cs (fst m) (ctl_step (t_pc t) p' c))
            end
        end
    | _, _ => Ok X
    end.

  Fixpoint frun (P : rpolicy S E I) (h : list (nat * nat)) (sched : list (nat * nat)) (X : fsys S E I) : outcome (fsys S E I) :=
    match sched with
    | [] => Ok X
    | m :: ms => let* X' := fstep P h X m in frun P (h ++ [m]) ms X'
    end.

  (** threads about to make the given calls, with the targets of their saves *)
  Definition fstart (d : fdisk) (W : rw S) (progs : list (list (rcall E I) * list (option target))) : fsys S E I :=
    (d, rstart W (map fst progs), map (fun p => mkFctl (snd p) None [] None 0 0) progs).
End RwFiles.
