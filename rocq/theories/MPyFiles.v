(** * Model of the Python classes [Granne] and [GranneBuilder] over files:
    py/src/lib.rs:150-345, 348-578; py/src/variants/index.rs; py/src/variants/builder.rs

    [MPyIndex] takes what an opened index computes with to be in memory.  Here the
    layers, elements and embeddings of an opened index are the bytes of files that
    are mapped into memory, and stay so until something copies them.  Creating a
    file that exists truncates it ([MFiles.create]); a mapping read after its file
    has changed is [Crashed] (as [Damaged] in [MFiles]: SIGBUS, or other bytes).
    Paths are literal, as in [MFiles]. *)
From Verif Require Import Base Bytes MSliceVec MIndexIo MSearch MBuild MReorder MLayerSize MEmbed MParse MPyIndex MFiles.
Open Scope nat_scope.

Inductive reply (A : Type) := Reply (r : outcome A) | Crashed.
Arguments Reply {A} r. Arguments Crashed {A}.

(** a mapping: the file and the bytes it had *)
Definition mapping : Type := path * list N.
Definition readable (d : disk) (x : option mapping) : bool :=
  match x with Some (p, b) => intact d p b | None => true end.

(** [save_index], [save_elements]: lib.rs:325-343, 628-638; variants/index.rs:78-88:
    [File::create], then writing [bytes], which are computed from the mapping [x];
    [expect].  Simplified: the file of a save that panics is left empty. *)
Definition save_file {A} (d : disk) (x : option mapping) (bytes : outcome (list N)) (p : path) (done : A) : disk * reply A :=
  match or_panic (create d p) with
  | Fail e => (d, Reply (Fail e))
  | Ok d =>
      if readable d x then
        match or_panic bytes with
        | Ok b => (put d p (File b), Reply (Ok done))
        | Fail e => (d, Reply (Fail e))
        end
      else (d, Crashed)
  end.

Section PyFiles.
  Context (m : mode) (fuel : nat) (usort : list (nat * Z) -> list (nat * Z)) (utf8 : list N -> option str)
          (json_dec : str -> option str) (L : libm).

  (** the text of a words file; an error panics in [WordDict::new], variants/mod.rs:14-32 *)
  Definition words_text (d : disk) (p : path) : outcome str :=
    let* b := or_panic (read_file d p) in ounwrap (utf8 b).
  Definition opt_map {A B} (x : option A) (f : A -> outcome B) : outcome (option B) :=
    match x with Some a => let* b := f a in Ok (Some b) | None => Ok None end.

  (** ** [Granne] *)
  Record open_index := mkOpen {
    oi_index : py_index;
    oi_layers : option mapping;   (* [FileOrMemoryLayers::File], src/index/mod.rs:579-594 *)
    oi_elems : option mapping;    (* [FixedWidthSliceVector::File], [VariableWidthSliceVector::File] *)
    oi_embs : option mapping
  }.

  (** [__new__], lib.rs:174-213; [WordEmbeddingsGranne::new], variants/index.rs:47-59:
      opens and maps the files; words are read *)
  Definition open_at (d : disk) (element_type : str) (index_path elements_path : path) (embeddings_path words_path : option path)
    : outcome open_index :=
    let* index := map_file d index_path in
    let* elements := map_file d elements_path in
    let words_type := match etype_of element_type with Some Words => true | _ => false end in
    let* embeddings := (if words_type then opt_map embeddings_path (map_file d) else Ok None) in
    let* words := (if words_type then opt_map words_path (words_text d) else Ok None) in
    let* q := or_panic (pi_open json_dec index element_type elements embeddings words) in
    Ok (mkOpen q (Some (index_path, index)) (Some (elements_path, elements))
          (match embeddings_path, embeddings with Some p, Some b => Some (p, b) | _, _ => None end)).

  Inductive icall :=
  | CSearch (element : pyval) (max_search num_elements : option nat)
  | CGetElement (idx : nat) | CGetInternalElement (idx : nat)
  | CGetNeighbors (idx : nat) (layer : option nat)
  | CLen | CNumLayers | CLayerLen (layer : nat)
  | CReorder
  | CSaveIndex (p : path) | CSaveElements (p : path).
  Inductive ianswer := AnResults (l : list (nat * Z)) | AnElement (e : pyelem) | AnIds (l : list nat) | AnCount (n : nat) | AnNone.

  (** what a call reads: layers, elements, embeddings.  Simplified: a search of an
      index without nodes does not read the elements. *)
  Definition reads (c : icall) : bool * bool * bool :=
    match c with
    | CSearch _ _ _ | CReorder => (true, true, true)
    | CGetElement _ => (false, true, true)
    | CGetInternalElement _ => (false, true, false)
    | CGetNeighbors _ _ | CLen | CNumLayers | CLayerLen _ => (true, false, false)
    | CSaveIndex _ => (true, false, false)
    | CSaveElements _ => (false, true, false)
    end.
  Definition can_read (d : disk) (o : open_index) (c : icall) : bool :=
    let '(l, e, w) := reads c in
    (negb l || readable d (oi_layers o)) && (negb e || readable d (oi_elems o)) && (negb w || readable d (oi_embs o)).

  Definition answer {A} (f : A -> ianswer) (x : outcome A) : outcome ianswer := let* a := x in Ok (f a).
  (** the calls that change nothing, lib.rs:215-299 *)
  Definition query (q : py_index) (c : icall) : outcome ianswer :=
    match c with
    | CSearch element max_search num_elements => answer AnResults (pi_search m fuel q element max_search num_elements)
    | CGetElement idx => answer AnElement (pi_get_element m q idx)
    | CGetInternalElement idx => answer AnElement (pi_get_internal_element m q idx)
    | CGetNeighbors idx layer => answer AnIds (pi_get_neighbors m q idx layer)
    | CLen => answer AnCount (pi_len q)
    | CNumLayers => Ok (AnCount (pi_num_layers q))
    | CLayerLen layer => answer AnCount (pi_layer_len q layer)
    | _ => Ok AnNone
    end.
  (** [permute] copies the elements: vectors when the first is moved
      ([load_mut], src/slice_vector/mod.rs:191-203, 437-458), texts always
      (src/elements/embeddings/mod.rs:192-215) *)
  Definition elems_copied (q : py_index) (order : list nat) : bool :=
    match q with PiWords _ _ => true | _ => 0 <? length order end.
  (** One call.  [reorder], lib.rs:311-315: the layers are replaced by new ones in
      memory, src/index/reorder.rs:69, 112.  Simplified: a [reorder] that panics changes nothing. *)
  Definition call_at (d : disk) (o : open_index) (c : icall) : disk * open_index * reply ianswer :=
    match c with
    | CSaveIndex p =>
        let '(d, r) := save_file d (oi_layers o) (pi_save_index m (oi_index o)) p AnNone in (d, o, r)
    | CSaveElements p =>
        let '(d, r) := save_file d (oi_elems o) (Ok (pi_save_elements (oi_index o))) p AnNone in (d, o, r)
    | CReorder =>
        if can_read d o c then
          match pi_reorder m fuel (oi_index o) with
          | Ok (q, order) =>
              (d, mkOpen q None (if elems_copied q order then None else oi_elems o) (oi_embs o), Reply (Ok (AnIds order)))
          | Fail e => (d, o, Reply (Fail e))
          end
        else (d, o, Crashed)
    | _ => if can_read d o c then (d, o, Reply (query (oi_index o) c)) else (d, o, Crashed)
    end.
  (** calls one after the other, until the process is killed *)
  Fixpoint calls_at (d : disk) (o : open_index) (cs : list icall) : disk * open_index * list (reply ianswer) :=
    match cs with
    | [] => (d, o, [])
    | c :: cs =>
        let '(d, o, r) := call_at d o c in
        match r with
        | Crashed => (d, o, [r])
        | _ => let '(d, o, rs) := calls_at d o cs in (d, o, r :: rs)
        end
    end.

  (** ** [GranneBuilder]: the index is mapped, copied and unmapped ([from_file],
      src/index/mod.rs:430-469); elements and embeddings stay mapped *)
  Record open_builder := mkOpenB {
    ob_builder : py_builder;
    ob_elems : option mapping;
    ob_embs : option mapping
  }.
  (** [__new__], lib.rs:384-457; [WordEmbeddingsBuilder::new], variants/builder.rs:30-51 *)
  Definition builder_at (d : disk) (element_type : str) (elements_path embeddings_path words_path index_path : option path) (opts : options)
    : outcome open_builder :=
    let* index := opt_map index_path (map_file d) in
    let* elements := opt_map elements_path (map_file d) in
    let words_type := match etype_of element_type with Some Words => true | _ => false end in
    let* embeddings := (if words_type then opt_map embeddings_path (map_file d) else Ok None) in
    let* words := (if words_type then opt_map words_path (words_text d) else Ok None) in
    let* b := or_panic (pb_new m fuel usort json_dec L element_type elements embeddings words index opts) in
    Ok (mkOpenB b
          (match elements_path, elements with Some p, Some x => Some (p, x) | _, _ => None end)
          (match embeddings_path, embeddings with Some p, Some x => Some (p, x) | _, _ => None end)).

  Inductive bcall :=
  | BAppend (element : pyval)
  | BBuild (num_elements : option nat) (steps : nat) (sched : schedules)
  | BGetNeighbors (idx : nat) (layer : option nat) | BLen | BNumElements | BNumLayers | BLayerLen (layer : nat)
  | BSaveIndex (p : path) | BSaveElements (p : path).
  (** what a call reads: elements, embeddings.  Simplified: [build] reads only the
      elements it compares. *)
  Definition b_reads (c : bcall) : bool * bool :=
    match c with
    | BBuild _ _ _ => (true, true)
    | BAppend _ | BNumElements => (true, false)
    | BSaveElements _ => (true, false)
    | _ => (false, false)
    end.
  Definition b_can_read (d : disk) (o : open_builder) (c : bcall) : bool :=
    let '(e, w) := b_reads c in (negb e || readable d (ob_elems o)) && (negb w || readable d (ob_embs o)).
  (** [push] copies the elements: [load_mut], src/slice_vector/mod.rs:191-203, 398-407, 617-621, 645-658.
      Simplified: a call that raises or panics changes nothing. *)
  Definition b_call_at (d : disk) (o : open_builder) (c : bcall) : disk * open_builder * reply ianswer :=
    let b := ob_builder o in
    let get x := if b_can_read d o c then (d, o, Reply x) else (d, o, Crashed) in
    match c with
    | BSaveIndex p => let '(d, r) := save_file d None (pb_save_index m b) p AnNone in (d, o, r)
    | BSaveElements p => let '(d, r) := save_file d (ob_elems o) (Ok (pb_save_elements b)) p AnNone in (d, o, r)
    | BAppend element =>
        if b_can_read d o c then
          match pb_append m fuel usort b element with
          | Ok b => (d, mkOpenB b None (ob_embs o), Reply (Ok AnNone))
          | Fail e => (d, o, Reply (Fail e))
          end
        else (d, o, Crashed)
    | BBuild n steps sched =>
        if b_can_read d o c then
          match pb_build m fuel usort steps b n sched with
          | Ok b => (d, mkOpenB b (ob_elems o) (ob_embs o), Reply (Ok AnNone))
          | Fail e => (d, o, Reply (Fail e))
          end
        else (d, o, Crashed)
    | BGetNeighbors idx layer => get (answer AnIds (pb_get_neighbors m b idx layer))
    | BLen => get (answer AnCount (pb_len b))
    | BNumElements => get (Ok (AnCount (pb_num_elements m b)))
    | BNumLayers => get (Ok (AnCount (pb_num_layers b)))
    | BLayerLen layer => get (answer AnCount (pb_layer_len b layer))
    end.
  Fixpoint b_calls_at (d : disk) (o : open_builder) (cs : list bcall) : disk * open_builder * list (reply ianswer) :=
    match cs with
    | [] => (d, o, [])
    | c :: cs =>
        let '(d, o, r) := b_call_at d o c in
        match r with
        | Crashed => (d, o, [r])
        | _ => let '(d, o, rs) := b_calls_at d o cs in (d, o, r :: rs)
        end
    end.
End PyFiles.
