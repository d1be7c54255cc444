(** * Model of src/slice_vector/offsets.rs: delta-compressed offset tables and
    the compressed variable-width slice vector. *)
From Verif Require Import Base Bytes MSliceVec.

(** offsets.rs:7 *)
Definition OFFSETS_PER_CHUNK := 60.
(** [const UNUSED: DeltaType = u16::max_value()], offsets.rs:155 *)
Definition DUNUSED : N := 65535%N.

(** [struct Chunk { initial: usize, deltas: [u16; 60] }], offsets.rs:148-153 *)
Record chunk := mkChunk { cinitial : nat; cdeltas : list N }.

(** [Chunk::new], :158-163 *)
Definition chunk_new (initial : nat) : chunk :=
  mkChunk initial (repeat DUNUSED OFFSETS_PER_CHUNK).

(** [Chunk::len], :165-167 *)
Definition chunk_len (c : chunk) : nat :=
  length (take_while (fun x => negb (x =? DUNUSED)%N) (cdeltas c)).

(** [is_empty], [is_full], :169-175 *)
Definition chunk_is_empty (c : chunk) : bool := (nth 0 (cdeltas c) DUNUSED =? DUNUSED)%N.
Definition chunk_is_full (c : chunk) : bool :=
  negb (nth (OFFSETS_PER_CHUNK - 1) (cdeltas c) DUNUSED =? DUNUSED)%N.

(** [Chunk::get], :178-187 *)
Definition chunk_get (m : mode) (c : chunk) (idx : nat) : outcome nat :=
  let* _ := oassert (idx <? OFFSETS_PER_CHUNK) in
  let* res := ofold (fun res i =>
                 let* d := index (cdeltas c) i in
                 let* _ := debug_assert m (negb (DUNUSED =? d)%N) in
                 Ok (res + N.to_nat d))
               (seq 0 (idx + 1)) 0 in
  Ok (res + cinitial c).

(** [Chunk::get_consecutive], :189-195 *)
Definition chunk_get_consecutive (m : mode) (c : chunk) (idx : nat) : outcome (nat * nat) :=
  let* _ := oassert (idx + 1 <? OFFSETS_PER_CHUNK) in
  let* first := chunk_get m c idx in
  let* d := index (cdeltas c) (idx + 1) in
  Ok (first, first + N.to_nat d).

(** [Chunk::last], :211-217 *)
Definition chunk_last (m : mode) (c : chunk) : outcome (option nat) :=
  if chunk_is_empty c then Ok None
  else omap Some (chunk_get m c (chunk_len c - 1)).

(** [Chunk::push], :197-209 *)
Definition chunk_push (m : mode) (c : chunk) (offset : nat) : outcome chunk :=
  let* _ := oassert (negb (chunk_is_full c)) in
  let* l := chunk_last m c in
  let last_offset := match l with Some x => x | None => cinitial c end in
  let* _ := oassert (last_offset <=? offset) in
  let delta := offset - last_offset in
  let* _ := oassert (N.of_nat delta <=? 65535)%N in
  let* ds := store (cdeltas c) (chunk_len c) (N.of_nat delta) in
  Ok (mkChunk (cinitial c) ds).

(** [Offsets { chunks }], :221-223 *)
Definition offsets := list chunk.

(** [Offsets::new], :226-230 *)
Definition offs_new : offsets := [chunk_new 0].

(** [Offsets::push], :238-247 *)
Definition offs_push (m : mode) (o : offsets) (offset : nat) : outcome offsets :=
  let* l := olast o in
  if chunk_is_full l then
    let* c := chunk_push m (chunk_new offset) offset in Ok (o ++ [c])
  else
    let* c := chunk_push m l offset in
    store o (length o - 1) c.

(** [Offsets::get], :249-251 *)
Definition offs_get (m : mode) (o : offsets) (idx : nat) : outcome nat :=
  let* c := index o (idx / OFFSETS_PER_CHUNK) in
  chunk_get m c (idx mod OFFSETS_PER_CHUNK).

(** [Offsets::get_consecutive], :253-259 *)
Definition offs_get_consecutive (m : mode) (o : offsets) (idx : nat) : outcome (nat * nat) :=
  if (idx + 1) mod OFFSETS_PER_CHUNK =? 0 then
    let* a := offs_get m o idx in
    let* b := offs_get m o (idx + 1) in
    Ok (a, b)
  else
    let* c := index o (idx / OFFSETS_PER_CHUNK) in
    chunk_get_consecutive m c (idx mod OFFSETS_PER_CHUNK).

(** [Offsets::last], :261-264 *)
Definition offs_last (m : mode) (o : offsets) : outcome (option nat) :=
  match o with [] => Ok None | _ => let* l := olast o in chunk_last m l end.

(** [Offsets::len], :266-268 (panics on an empty chunk list) *)
Definition offs_len (o : offsets) : outcome nat :=
  let* l := olast o in
  Ok (OFFSETS_PER_CHUNK * (length o - 1) + chunk_len l).

(** in-memory representation of a [Chunk] ([repr(C)]): 8 bytes of [initial],
    then 60 two-byte deltas: 128 bytes *)
Definition CHUNK_SIZE := 8 + 2 * OFFSETS_PER_CHUNK.
Definition chunk_repr : repr chunk :=
  {| rsize := CHUNK_SIZE;
     renc := fun c => le_enc 8 (N.of_nat (cinitial c)) ++ write_as_bytes u16r (cdeltas c);
     rdec := fun l => mkChunk (N.to_nat (le_dec (firstn 8 l))) (load_bytes_as u16r (skipn 8 l)) |}.

(** [Offsets::num_bytes], :270-272 *)
Definition offs_num_bytes (o : offsets) : nat := length o * CHUNK_SIZE.

(** ** Compressed variable-width slice vector, offsets.rs:10-13 *)
Section CVW.
  Context {T : Type}.
  Record cvw := mkCvw { coffs : offsets; cdata : list T }.

  (** [new], :28-33 *)
  Definition cvw_new (m : mode) : outcome cvw :=
    let* o := offs_push m offs_new 0 in Ok (mkCvw o []).

  (** [get], :51-60 *)
  Definition cvw_get (m : mode) (v : cvw) (idx : nat) : outcome (list T) :=
    let* be := offs_get_consecutive m (coffs v) idx in
    slice (cdata v) (fst be) (snd be).

  (** [len], :62-66.  [offsets.len() - 1] underflows for a loaded table whose last
      block is empty; the model panics there (so does the [Debug] profile, [Release]
      wraps to [usize::MAX]). *)
  Definition cvw_len (v : cvw) : outcome nat :=
    let* n := offs_len (coffs v) in
    let* _ := oassert (0 <? n) in Ok (n - 1).

  (** [push], :68-73 *)
  Definition cvw_push (m : mode) (v : cvw) (x : list T) : outcome cvw :=
    let d := cdata v ++ x in
    let* o := offs_push m (coffs v) (length d) in
    Ok (mkCvw o d).

  Context (R : repr T).

  (** [write], :75-87 *)
  Definition cvw_write (v : cvw) : wres :=
    (le_enc 8 (N.of_nat (offs_num_bytes (coffs v))) ++ write_as_bytes chunk_repr (coffs v)
       ++ write_as_bytes R (cdata v),
     8 + write_as_bytes_count chunk_repr (coffs v) + write_as_bytes_count R (cdata v)).

  (** [load_mmap], [from_bytes], :46-49, 114-124 *)
  Definition cvw_from_bytes (buffer : list N) : outcome cvw :=
    let* nb := load_header buffer in
    let* rest := slice buffer U64_LEN (length buffer) in
    let* offs := slice rest 0 nb in
    let* data := slice rest nb (length rest) in
    Ok (mkCvw (load_bytes_as chunk_repr offs) (load_bytes_as R data)).
End CVW.
Arguments cvw : clear implicits.
