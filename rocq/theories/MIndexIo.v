(** * Model of src/index/io.rs (saving and loading an index), of the
    [Index]/[Graph] accessors of src/index/mod.rs, of
    [GranneBuilder::from_bytes], and of [std::io::BufWriter] over a fallible
    device. *)
From Coq Require Import String.
From Verif Require Import Base Bytes MSliceVec MOffsets MSetVec MJson.
Open Scope list_scope.

(** [const UNUSED: NeighborId = NeighborId::max_value()], index/mod.rs:27-28 *)
Definition UNUSED : N := 4294967295%N.
Definition is_used (x : N) : bool := negb (x =? UNUSED)%N.

(** [enum Layers], index/mod.rs:596-599 ([FileOrMemoryLayers], :579-594, is the
    same data) *)
Inductive layers := FixWidth (ls : list (fw N)) | Compressed (ls : list msv).

(** [Layers::len], index/mod.rs:602-607; [Index::num_layers], :86-88, 334-336 *)
Definition layers_len (L : layers) : nat :=
  match L with FixWidth ls => length ls | Compressed ls => length ls end.

(** [Layers::as_graph(layer).len()], index/mod.rs:609-614, 549-551, 559-561 *)
Definition layer_len (L : layers) (i : nat) : outcome nat :=
  match L with
  | FixWidth ls => let* l := index ls i in Ok (fw_len l)
  | Compressed ls => let* l := index ls i in msv_len l
  end.

(** [Graph::get_neighbors], index/mod.rs:540-547, 554-557; [Index::get_neighbors],
    :96-98, 344-346.
    [usize::try_from(u32)] cannot fail. *)
Definition fw_neighbors (m : mode) (l : fw N) (idx : nat) : outcome (list nat) :=
  let* row := fw_get m l idx in Ok (map N.to_nat (take_while is_used row)).
Definition msv_neighbors (m : mode) (l : msv) (idx : nat) : outcome (list nat) :=
  let* row := msv_get m l idx in Ok (map N.to_nat row).
Definition get_neighbors (m : mode) (L : layers) (idx layer : nat) : outcome (list nat) :=
  match L with
  | FixWidth ls => let* l := index ls layer in fw_neighbors m l idx
  | Compressed ls => let* l := index ls layer in msv_neighbors m l idx
  end.

(** [Index::len], index/mod.rs:76-83, 329-331 *)
Definition index_len (L : layers) : outcome nat :=
  if 0 <? layers_len L then layer_len L (layers_len L - 1) else Ok 0.

(** ** The writer operations of a save, in program order.  [SeekFrom::Current(0)]
    is a seek to the current position. *)
Inductive wop := WWrite (bs : list N) | WSeek (p : nat).

Definition run_op (c : cursor) (o : wop) : cursor :=
  match o with WWrite bs => cwrite c bs | WSeek p => cseek c p end.
Definition run_ops (c : cursor) (os : list wop) : cursor := fold_left run_op os c.

(** [write_as_multi_set_vector] at position [pos], set_vector.rs:169-221: the
    operations and the returned count.  (The same function as
    [MSetVec.msv_write_from_fixed], as a list of operations instead of its
    effect.) *)
Definition fixed_layer_ops (m : mode) (v : fw N) (keep : N -> bool) (pos : nat)
  : outcome (list wop * nat) :=
  let initial_pos := pos in
  let bytes_for_offsets := (1 + fw_len v / OFFSETS_PER_CHUNK) * CHUNK_SIZE in
  let offset_pos := pos + 8 in
  let* offs := offs_push m offs_new 0 in
  let* r :=
    if fw_is_empty v then Ok ([], 0, offs)
    else
      let* rows := fw_iter v in
      ofold (fun (s : list wop * nat * offsets) row =>
               let '(ops, total_len, offs) := s in
               let* e := set_encode m (sort_u32 (filter keep row)) in
               let total_len := total_len + length e in
               let* offs := offs_push m offs total_len in
               Ok (ops ++ [WWrite (write_as_bytes u8r e)], total_len, offs))
            rows ([], 0, offs) in
  let '(ops, total_len, offs) := r in
  let value_pos := offset_pos + bytes_for_offsets + total_len in
  let* _ := oassert (write_as_bytes_count chunk_repr offs =? bytes_for_offsets) in
  Ok ([WSeek initial_pos; WWrite (le_enc 8 (N.of_nat bytes_for_offsets)); WSeek offset_pos;
       WSeek (offset_pos + bytes_for_offsets)]
      ++ ops
      ++ [WSeek value_pos; WSeek offset_pos; WWrite (write_as_bytes chunk_repr offs); WSeek value_pos],
      value_pos - initial_pos).

(** [MultiSetVector::write] = [CompressedVariableWidthSliceVector::write],
    set_vector.rs:71-73, offsets.rs:75-87 *)
Definition compressed_layer_ops (v : msv) : list wop * nat :=
  ([WWrite (le_enc 8 (N.of_nat (offs_num_bytes (coffs v))));
    WWrite (write_as_bytes chunk_repr (coffs v)); WWrite (write_as_bytes u8r (cdata v))],
   snd (msv_write v)).

(** io.rs:7-9 *)
Definition METADATA_LEN := 1024.
Definition LIBRARY_STR : list N := str "granne".

(** the metadata object, io.rs:46-61; [json!] objects serialise with their keys
    in alphabetical order (serde_json without [preserve_order]) *)
Definition metadata_json (num_neighbors : nat) (layer_counts layer_sizes : list nat) : json :=
  let num n := JNum (N.of_nat n) in
  JObj [(str "compressed", JBool true);
        (str "granne_version", JStr (str "0.5.2"));
        (str "layer_counts", JArr (map num layer_counts));
        (str "layer_sizes", JArr (map num layer_sizes));
        (str "num_elements", num (last layer_counts 0));
        (str "num_layers", num (length layer_counts));
        (str "num_neighbors", num num_neighbors);
        (str "version", num 2)].

Definition metadata_text (num_neighbors : nat) (layer_counts layer_sizes : list nat) : list N :=
  LIBRARY_STR ++ json_write (metadata_json num_neighbors layer_counts layer_sizes).

(** one layer after another, starting at [pos], io.rs:27-41 *)
Fixpoint fixed_layers_ops (m : mode) (ls : list (fw N)) (pos : nat) : outcome (list wop * list nat) :=
  match ls with
  | [] => Ok ([], [])
  | l :: t =>
      let* r := fixed_layer_ops m l is_used pos in
      let* rs := fixed_layers_ops m t (pos + snd r) in
      Ok (fst r ++ fst rs, snd r :: snd rs)
  end.
Fixpoint compressed_layers_ops (ls : list msv) : list wop * list nat :=
  match ls with
  | [] => ([], [])
  | l :: t =>
      let r := compressed_layer_ops l in
      let rs := compressed_layers_ops t in
      (fst r ++ fst rs, snd r :: snd rs)
  end.

(** [write_index], io.rs:11-70, with the writer positioned at [metadata_pos]:
    all operations up to the metadata block, and the metadata block itself *)
Definition write_index_parts (m : mode) (L : layers) (metadata_pos : nat)
  : outcome (list wop * list N) :=
  let* num_neighbors :=
    (if 0 <? layers_len L
     then let* ns := get_neighbors m L 0 (layers_len L - 1) in Ok (length ns)
     else Ok 0) in
  let* layer_counts := omapM (layer_len L) (seq 0 (layers_len L)) in
  let* r :=
    match L with
    | FixWidth ls => fixed_layers_ops m ls (metadata_pos + METADATA_LEN)
    | Compressed ls => Ok (compressed_layers_ops ls)
    end in
  let '(ops, layer_sizes) := r in
  let metadata := metadata_text num_neighbors layer_counts layer_sizes in
  let* _ := oassert (length metadata <=? METADATA_LEN) in
  Ok ([WSeek metadata_pos; WSeek (metadata_pos + METADATA_LEN)] ++ ops ++ [WSeek metadata_pos],
      resize metadata METADATA_LEN 32%N).

Definition write_index_ops (m : mode) (L : layers) (pos : nat) : outcome (list wop) :=
  let* r := write_index_parts m L pos in Ok (fst r ++ [WWrite (snd r)]).

(** [write_index] on an infallible seekable writer *)
Definition write_index (m : mode) (L : layers) (c : cursor) : outcome cursor :=
  let* ops := write_index_ops m L (cpos c) in Ok (run_ops c ops).

(** ** Loading *)

(** [read_layer_sizes], io.rs:89-113.  [expect], [assert_eq!] and the [?] before
    the caller's [expect] all end in a panic. *)
Definition read_layer_sizes (buffer : list N) : outcome (list nat) :=
  let block := firstn METADATA_LEN buffer in
  let* _ := oassert (beqN (firstn (length LIBRARY_STR) block) LIBRARY_STR) in
  let* metadata := ounwrap (json_parse (skipn (length LIBRARY_STR) block)) in
  let field k := match json_field (str k) metadata with Some v => v | None => JNull end in
  let* num_layers := ounwrap (as_usize (field "num_layers"%string)) in
  let* layer_counts := ounwrap (as_usizes (field "layer_counts"%string)) in
  let* _ := oassert (num_layers =? length layer_counts) in
  ounwrap (as_usizes (field "layer_sizes"%string)).

(** the loop of [load_layers], io.rs:79-84 *)
Fixpoint load_loop (buffer : list N) (start : nat) (sizes : list nat) : outcome (list msv) :=
  match sizes with
  | [] => Ok []
  | size :: t =>
      let* layer := slice buffer start (start + size) in
      let* l := msv_from_bytes layer in
      let* ls := load_loop buffer (start + size) t in
      Ok (l :: ls)
  end.

(** [load_layers], io.rs:72-87; [Granne::from_bytes], index/mod.rs:108-113 *)
Definition load_layers (buffer : list N) : outcome layers :=
  let* sizes := read_layer_sizes buffer in
  let* ls := load_loop buffer METADATA_LEN sizes in
  Ok (Compressed ls).

(** ** [GranneBuilder::from_bytes], index/mod.rs:430-461: the builder's layers.
    [load_layers] only returns [Compressed]. *)
Definition builder_layer (m : mode) (num_neighbors : nat) (l : msv) : outcome (fw N) :=
  let* n := msv_len l in
  ofold (fun new_layer i =>
           let* neighbors := msv_get m l i in
           fw_push new_layer (resize neighbors num_neighbors UNUSED))
        (seq 0 n) (fw_with_width num_neighbors).

Definition builder_from_bytes (m : mode) (num_neighbors : nat) (buffer : list N) : outcome (list (fw N)) :=
  let* L := load_layers buffer in
  match L with
  | FixWidth ls => Ok ls
  | Compressed ls => omapM (builder_layer m num_neighbors) ls
  end.

(** ** Typed views (C18): where the slices produced by loading point to.

    [view]: offset in the buffer, number of items, size and alignment of the
    item type. *)
Record view := mkView { voff : nat; vcount : nat; vsize : nat; valign : nat }.

(** [load_bytes_as::<T>(bytes)] of a piece at offset [off], src/io.rs:4-9 *)
Definition view_of (off len size align : nat) : view := mkView off (len / size) size align.

(** [CompressedVariableWidthSliceVector::load_mmap], offsets.rs:114-124 and
    [Offsets::load]: [Chunk] has size 128 and alignment 8 *)
Definition cvw_views (off : nat) (buffer : list N) (tsize talign : nat) : outcome (list view) :=
  let* nb := load_header buffer in
  let* rest := slice buffer U64_LEN (length buffer) in
  let* offs := slice rest 0 nb in
  let* data := slice rest nb (length rest) in
  Ok [view_of (off + U64_LEN) (length offs) CHUNK_SIZE 8;
      view_of (off + U64_LEN + nb) (length data) tsize talign].

Fixpoint load_views_loop (buffer : list N) (start : nat) (sizes : list nat) : outcome (list view) :=
  match sizes with
  | [] => Ok []
  | size :: t =>
      let* layer := slice buffer start (start + size) in
      let* vs := cvw_views start layer 1 1 in
      let* ws := load_views_loop buffer (start + size) t in
      Ok (vs ++ ws)
  end.
(** views made by [load_layers], io.rs:72-87 *)
Definition index_views (buffer : list N) : outcome (list view) :=
  let* sizes := read_layer_sizes buffer in load_views_loop buffer METADATA_LEN sizes.

(** views made by [FixedWidthSliceVector::load_mmap], slice_vector/mod.rs:213-221 *)
Definition fw_views (buffer : list N) (tsize talign : nat) : outcome (list view) :=
  let* _ := load_header buffer in
  let* rest := slice buffer U64_LEN (length buffer) in
  Ok [view_of U64_LEN (length rest) tsize talign].

(** views made by [VariableWidthSliceVector::load_mmap], slice_vector/mod.rs:660-676:
    the number of slices, then one offset more than that, then the data *)
Definition vw_views (buffer : list N) (osize oalign tsize talign : nat) : outcome (list view) :=
  let* n := load_header buffer in
  let* rest := slice buffer U64_LEN (length buffer) in
  let* offs := slice rest 0 ((1 + n) * osize) in
  let* data := slice rest ((1 + n) * osize) (length rest) in
  Ok [view_of U64_LEN (length offs) osize oalign;
      view_of (U64_LEN + (1 + n) * osize) (length data) tsize talign].

(** ** [std::io::BufWriter] over a device that may fail

    [fails k] says whether device call number [k] fails; a failing write has
    first written the given number of bytes. *)
Record device := mkDev { dcur : cursor; dcalls : nat }.

Definition dev_write (fails : nat -> option nat) (d : device) (bs : list N) : device * list N * bool :=
  match fails (dcalls d) with
  | None => (mkDev (cwrite (dcur d) bs) (S (dcalls d)), [], true)
  | Some k => (mkDev (cwrite (dcur d) (firstn k bs)) (S (dcalls d)), skipn k bs, false)
  end.
Definition dev_seek (fails : nat -> option nat) (d : device) (p : nat) : device * bool :=
  match fails (dcalls d) with
  | None => (mkDev (cseek (dcur d) p) (S (dcalls d)), true)
  | Some _ => (mkDev (dcur d) (S (dcalls d)), false)
  end.

Record bufw := mkBufw { bdev : device; bbuf : list N }.

(** [BufWriter::flush_buf]: what could not be written stays buffered *)
Definition bw_flush (fails : nat -> option nat) (w : bufw) : bufw * bool :=
  match bbuf w with
  | [] => (w, true)
  | bs => let '(d, rest, ok) := dev_write fails (bdev w) bs in (mkBufw d rest, ok)
  end.

(** [BufWriter::write_all] with capacity [cap] *)
Definition bw_write (fails : nat -> option nat) (cap : nat) (w : bufw) (bs : list N) : bufw * bool :=
  if length bs <? cap - length (bbuf w) then (mkBufw (bdev w) (bbuf w ++ bs), true)
  else
    let '(w, ok) := if cap - length (bbuf w) <? length bs then bw_flush fails w else (w, true) in
    if ok then
      if cap <=? length bs then
        let '(d, _, ok) := dev_write fails (bdev w) bs in (mkBufw d (bbuf w), ok)
      else (mkBufw (bdev w) (bbuf w ++ bs), true)
    else (w, false).

(** [BufWriter::seek]: flush, then seek the device *)
Definition bw_seek (fails : nat -> option nat) (w : bufw) (p : nat) : bufw * bool :=
  let '(w, ok) := bw_flush fails w in
  if ok then let '(d, ok) := dev_seek fails (bdev w) p in (mkBufw d (bbuf w), ok) else (w, false).

(** the operations of [write_index] through the [BufWriter], stopping at the
    first error ([?]) *)
Fixpoint bw_run (fails : nat -> option nat) (cap : nat) (w : bufw) (ops : list wop) : bufw * bool :=
  match ops with
  | [] => (w, true)
  | o :: t =>
      let '(w, ok) := match o with
                      | WWrite bs => bw_write fails cap w bs
                      | WSeek p => bw_seek fails w p
                      end in
      if ok then bw_run fails cap w t else (w, false)
  end.

(** [write_index] on a device, io.rs:11-70: result ([true] = [Ok(())]) and the
    device after the [BufWriter] has been dropped ([Drop] flushes and ignores
    errors). *)
Definition save_through (fails : nat -> option nat) (cap : nat) (d : device) (ops : list wop)
  : device * bool :=
  let '(w, ok) := bw_run fails cap (mkBufw d []) ops in
  let '(w, _) := bw_flush fails w in
  (bdev w, ok).

(** ** Crash points: the state of the device after any prefix of the single-byte
    writes and seeks of a save, in program order *)
Inductive bop := BByte (b : N) | BSeek (p : nat).
Definition op_bops (o : wop) : list bop :=
  match o with WWrite bs => map BByte bs | WSeek p => [BSeek p] end.
Definition run_bop (c : cursor) (o : bop) : cursor :=
  match o with BByte b => cwrite c [b] | BSeek p => cseek c p end.
Definition crash_image (c : cursor) (ops : list wop) (k : nat) : list N :=
  cbuf (fold_left run_bop (firstn k (concat (map op_bops ops))) c).
