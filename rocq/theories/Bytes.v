(** * Bytes: byte strings, little-endian integers, typed byte views, writers.

    A byte is an [N] below 256; a byte string is a [list N].  Models
    [src/io.rs] and [src/odd_byte_int.rs] and the parts of [std::io] they use. *)
From Verif Require Import Base.
From Coq Require Import NArith.

(** Well-formed byte strings. *)
Definition is_byte (b : N) : Prop := (b < 256)%N.
Definition bytes_ok (l : list N) : Prop := Forall is_byte l.

(** [u64::to_le_bytes], [u32]..., [usize::to_le_bytes]: the [k] low bytes of
    [n], least significant first (std). *)
Fixpoint le_enc (k : nat) (n : N) : list N :=
  match k with
  | 0 => []
  | S k' => (n mod 256)%N :: le_enc k' (n / 256)%N
  end.

(** [u64::from_le_bytes] etc. *)
Fixpoint le_dec (l : list N) : N :=
  match l with
  | [] => 0%N
  | b :: t => (b + 256 * le_dec t)%N
  end.

(** ** Typed byte views

    [T]'s in-memory representation: [rsize] = [mem::size_of::<T>()], [renc] the
    bytes of a value, [rdec] the value a byte string denotes. *)
Record repr (T : Type) := mkRepr {
  rsize : nat;
  renc : T -> list N;
  rdec : list N -> T;
}.
Arguments mkRepr {T}.
Arguments rsize {T}.
Arguments renc {T}.
Arguments rdec {T}.

(** Unsigned integers of [k] bytes. *)
Definition uint_repr (k : nat) : repr N :=
  {| rsize := k; renc := le_enc k; rdec := le_dec |}.
Definition u8r : repr N := uint_repr 1.
Definition u16r : repr N := uint_repr 2.
Definition u32r : repr N := uint_repr 4.
Definition u64r : repr N := uint_repr 8.

(** [i8] (two's complement). *)
Definition i8r : repr Z :=
  {| rsize := 1;
     renc := fun z => [Z.to_N (z mod 256)];
     rdec := fun l => let b := Z.of_N (le_dec l) in if (b <? 128)%Z then b else (b - 256)%Z |}.

(** [io::load_bytes_as], src/io.rs:4-9: reinterpret [bytes.len() / size_of::<T>()]
    items; trailing bytes are ignored.  (Alignment is not part of this
    definition: see C18 in [MIndexIo].) *)
Definition load_bytes_as {T} (R : repr T) (bytes : list N) : list T :=
  map (rdec R) (chunks_exact (rsize R) bytes).

(** [io::write_as_bytes], src/io.rs:11-18: the bytes handed to [write_all]; the
    returned count is their number. *)
Definition write_as_bytes {T} (R : repr T) (xs : list T) : list N :=
  concat (map (renc R) xs).
Definition write_as_bytes_count {T} (R : repr T) (xs : list T) : nat :=
  length xs * rsize R.

(** ** Sequential writer ([Write], e.g. [Vec<u8>]): a write function is modelled
    by the bytes it appends together with the count it returns. *)
Definition wres := (list N * nat)%type.

(** ** Seekable writer ([Write + Seek], e.g. [Cursor<Vec<u8>>] or a file):
    writing past the end fills the gap with zeros. *)
Record cursor := mkCursor { cbuf : list N; cpos : nat }.

Definition cwrite (c : cursor) (bs : list N) : cursor :=
  let padded := cbuf c ++ repeat 0%N (cpos c - length (cbuf c)) in
  {| cbuf := match bs with
             | [] => cbuf c
             | _ => firstn (cpos c) padded ++ bs ++ skipn (cpos c + length bs) padded
             end;
     cpos := cpos c + length bs |}.

(** [Seek::seek(SeekFrom::Start(p))] *)
Definition cseek (c : cursor) (p : nat) : cursor := {| cbuf := cbuf c; cpos := p |}.

(** ** Odd-byte integers, src/odd_byte_int.rs:3-32 *)

(** [From<usize>]: byteorder's [write_uint(buf, n, nbytes)] panics when [n] does
    not fit ([assert!(pack_size(n) <= nbytes && ...)]), :25-29. *)
Definition odd_from (k : nat) (n : N) : outcome (list N) :=
  if (n <? 256 ^ N.of_nat k)%N then Ok (le_enc k n) else Fail Panicked.
(** [Into<usize>]: [read_uint], :18-21. *)
Definition odd_into (l : list N) : N := le_dec l.
(** [max_value], :12-14. *)
Definition odd_max (k : nat) : list N := repeat 255%N k.
(** [ThreeByteInt], [FiveByteInt], :34-35. *)
Definition three_byte := 3.
Definition five_byte := 5.
