(** * Model of src/slice_vector/set_vector.rs: compressed neighbour lists, and
    of the stream-vbyte (Scalar) byte format they use. *)
From Verif Require Import Base Bytes MSliceVec MOffsets.

(** ** stream_vbyte, scalar codec (external crate; format as documented by it):
    one two-bit tag per number (number of data bytes minus one), four tags per
    control byte, first number in the low bits; all control bytes first, then
    the little-endian data bytes. *)
Definition vb_len (n : N) : nat :=
  if (n <? 256)%N then 1 else if (n <? 65536)%N then 2 else if (n <? 16777216)%N then 3 else 4.

Definition vb_tag (n : N) : N := N.of_nat (vb_len n - 1).

(** control byte of at most four numbers *)
Fixpoint vb_control (q : list N) : N :=
  match q with
  | [] => 0%N
  | n :: t => (vb_tag n + 4 * vb_control t)%N
  end.

Definition vb_encode (ns : list N) : list N :=
  map vb_control (chunks 4 ns) ++ concat (map (fun n => le_enc (vb_len n) n) ns).

(** tag of number [i] given the control bytes *)
Definition vb_tag_at (ctrl : list N) (i : nat) : outcome nat :=
  let* b := index ctrl (i / 4) in
  Ok (N.to_nat ((b / 4 ^ N.of_nat (i mod 4)) mod 4)%N).

(** decode [count] numbers; result and number of bytes consumed.  Reading past
    the end of the input panics. *)
Definition vb_decode (input : list N) (count : nat) : outcome (list N * nat) :=
  let nctrl := (count + 3) / 4 in
  let* ctrl := slice input 0 nctrl in
  let* data := slice input nctrl (length input) in
  let* r := ofold (fun (s : list N * nat) i =>
               let '(acc, pos) := s in
               let* tag := vb_tag_at ctrl i in
               let* bs := slice data pos (pos + (tag + 1)) in
               Ok (acc ++ [le_dec bs], pos + (tag + 1)))
             (seq 0 count) ([], 0) in
  Ok (fst r, nctrl + snd r).

(** ** set_vector.rs *)
Definition MIN_NUMBERS_TO_ENCODE := 4. (* :12 *)
Definition U32M : N := 4294967296%N.

(** [u32] subtraction / addition: overflow panics in debug builds, wraps in
    release builds. *)
Definition u32_sub (m : mode) (a b : N) : outcome N :=
  if (b <=? a)%N then Ok (a - b)%N
  else match m with Debug => Fail Panicked | Release => Ok (a + U32M - b)%N end.
Definition u32_add (m : mode) (a b : N) : outcome N :=
  if (a + b <? U32M)%N then Ok (a + b)%N
  else match m with Debug => Fail Panicked | Release => Ok (a + b - U32M)%N end.

(** [delta_encode], :151-155.  The in-place loop runs from the end, so every
    difference uses the original predecessor. *)
Fixpoint delta_encode_from (m : mode) (prev : N) (l : list N) : outcome (list N) :=
  match l with
  | [] => Ok []
  | x :: t =>
      let* rest := delta_encode_from m x t in
      let* d := u32_sub m x prev in
      Ok (d :: rest)
  end.
Definition delta_encode (m : mode) (l : list N) : outcome (list N) :=
  match l with
  | [] => Ok []
  | x :: t => let* rest := delta_encode_from m x t in Ok (x :: rest)
  end.

(** [delta_decode], :158-162: forward in-place prefix sums. *)
Fixpoint delta_decode_from (m : mode) (prev : N) (l : list N) : outcome (list N) :=
  match l with
  | [] => Ok []
  | d :: t => let* x := u32_add m d prev in
              let* rest := delta_decode_from m x t in Ok (x :: rest)
  end.
Definition delta_decode (m : mode) (l : list N) : outcome (list N) :=
  match l with
  | [] => Ok []
  | x :: t => let* rest := delta_decode_from m x t in Ok (x :: rest)
  end.

(** [set_encode], :117-149 *)
Definition set_encode (m : mode) (data : list N) : outcome (list N) :=
  let* _ := debug_assert m (length data <? 255) in
  let data := if 255 <=? length data then resize data 255 0%N else data in
  let* data := delta_encode m data in
  let count := length data in
  let data := if length data <? MIN_NUMBERS_TO_ENCODE
              then resize data MIN_NUMBERS_TO_ENCODE 0%N else data in
  let encoded := vb_encode data in
  let encoded := if 4 * count <=? length encoded
                 then concat (map (le_enc 4) (firstn count data))
                 else encoded in
  Ok ((N.of_nat count mod 256)%N :: encoded).

(** [decode_into], :91-115 *)
Definition decode_into (m : mode) (encoded : list N) : outcome (list N) :=
  let* c := index encoded 0 in
  let count := N.to_nat c in
  let* rest := slice encoded 1 (length encoded) in
  if negb (length rest =? count * 4) then
    let* r := vb_decode rest (Nat.max MIN_NUMBERS_TO_ENCODE count) in
    let* _ := debug_assert m (length rest =? snd r) in
    delta_decode m (resize (fst r) count 0%N)
  else
    delta_decode m (map le_dec (firstn count (chunks_exact 4 rest))).

(** [u32]'s [sort] *)
Definition sort_u32 (l : list N) : list N := sort_by N.leb l.

(** ** [MultiSetVector { data: CompressedVariableWidthSliceVector<u8> }], :7-10 *)
Definition msv := cvw N.

(** [new], [len], [push], [get], [get_into], [write], [from_bytes], :15-73 *)
Definition msv_new (m : mode) : outcome msv := cvw_new m.
Definition msv_len (v : msv) : outcome nat := cvw_len v.
Definition msv_push (m : mode) (v : msv) (data : list N) : outcome msv :=
  let* e := set_encode m (sort_u32 data) in cvw_push m v e.
Definition msv_get (m : mode) (v : msv) (idx : nat) : outcome (list N) :=
  let* e := cvw_get m v idx in decode_into m e.
Definition msv_write (v : msv) : wres := cvw_write u8r v.
Definition msv_from_bytes (buffer : list N) : outcome msv := cvw_from_bytes u8r buffer.

(** [FixedWidthSliceVector::write_as_multi_set_vector], :164-225, for element
    type [u32] (the only instantiation in the code base, index/io.rs:28). *)
Definition msv_write_from_fixed (m : mode) (v : fw N) (keep : N -> bool) (c : cursor)
  : outcome (cursor * nat) :=
  let initial_pos := cpos c in
  let bytes_for_offsets := (1 + fw_len v / OFFSETS_PER_CHUNK) * CHUNK_SIZE in
  let c := cwrite c (le_enc 8 (N.of_nat bytes_for_offsets)) in
  let offset_pos := cpos c in
  let* offs := offs_push m offs_new 0 in
  let c := cseek c (offset_pos + bytes_for_offsets) in
  let* r :=
    if fw_is_empty v then Ok (c, 0, offs)
    else
      let* rows := fw_iter v in
      ofold (fun (s : cursor * nat * offsets) row =>
               let '(c, total_len, offs) := s in
               let* e := set_encode m (sort_u32 (filter keep row)) in
               let c := cwrite c (write_as_bytes u8r e) in
               let total_len := total_len + length e in
               let* offs := offs_push m offs total_len in
               Ok (c, total_len, offs))
            rows (c, 0, offs) in
  let '(c, _, offs) := r in
  let value_pos := cpos c in
  let c := cseek c offset_pos in
  let c := cwrite c (write_as_bytes chunk_repr offs) in
  let* _ := oassert (write_as_bytes_count chunk_repr offs =? bytes_for_offsets) in
  let c := cseek c value_pos in
  Ok (c, value_pos - initial_pos).
