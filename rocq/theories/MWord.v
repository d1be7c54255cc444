(** * Model of the arithmetic on machine words (64-bit [usize]) that the other
    model files take to be exact: positions of slices, table sizes, capacities.

    [usize] values are numbers below 2^64.  Built with overflow checks ([Debug])
    an operation that leaves the range panics; without ([Release], the profile
    the package is built with) it wraps around.  Lengths of slices in memory are
    natural numbers as everywhere else; a slice can not have 2^64 elements. *)
From Verif Require Import Base Bytes MSliceVec MOffsets MSetVec MIndexIo.

Definition WORD : N := 18446744073709551616%N. (* 2^64 *)

(** [+], [*], [-] on [usize] (language semantics) *)
Definition usize_add (m : mode) (a b : N) : outcome N :=
  if (a + b <? WORD)%N then Ok (a + b)%N
  else match m with Debug => Fail Panicked | Release => Ok ((a + b) mod WORD)%N end.
Definition usize_mul (m : mode) (a b : N) : outcome N :=
  if (a * b <? WORD)%N then Ok (a * b)%N
  else match m with Debug => Fail Panicked | Release => Ok ((a * b) mod WORD)%N end.
Definition usize_sub (m : mode) (a b : N) : outcome N :=
  if (b <=? a)%N then Ok (a - b)%N
  else match m with Debug => Fail Panicked | Release => Ok (a + WORD - b)%N end.

(** [&l[b..e]] with word positions *)
Definition wslice {A} (l : list A) (b e : N) : outcome (list A) :=
  if ((b <=? e) && (e <=? N.of_nat (length l)))%N%bool
  then Ok (firstn (N.to_nat (e - b)) (skipn (N.to_nat b) l)) else Fail Panicked.

(** [l[i]] with a word index *)
Definition windex {A} (l : list A) (i : N) : outcome A :=
  if (i <? N.of_nat (length l))%N then index l (N.to_nat i) else Fail Panicked.

Section Fixed.
  Context {T : Type}.

  (** [FixedWidthSliceVector::get], slice_vector/mod.rs:344-356 *)
  Definition wfw_get (m : mode) (v : fw T) (idx : N) : outcome (list T) :=
    let width := N.of_nat (fwidth v) in
    let* _ := debug_assert m (idx <? N.of_nat (fw_len v))%N in
    let* b := usize_mul m idx width in
    let* i1 := usize_add m idx 1 in
    let* e := usize_mul m i1 width in
    wslice (fdata v) b e.

  (** the slice handed out by [get_mut], slice_vector/mod.rs:358-370 *)
  Definition wfw_get_mut (m : mode) (v : fw T) (idx : N) : outcome (list T) :=
    let width := N.of_nat (fwidth v) in
    let* _ := debug_assert m (idx <? N.of_nat (fw_len v))%N in
    let* b := usize_mul m idx width in
    let* e := usize_add m b width in
    wslice (fdata v) b e.

  (** [subslice], slice_vector/mod.rs:151-158 *)
  Definition wfw_subslice (m : mode) (v : fw T) (b e : N) : outcome (fw T) :=
    let width := N.of_nat (fwidth v) in
    let* b' := usize_mul m b width in
    let* e' := usize_mul m e width in
    let* d := wslice (fdata v) b' e' in
    fw_with_data d (fwidth v).
End Fixed.

(** [Graph::get_neighbors] of a fixed-width layer, index/mod.rs:540-547 *)
Definition wfw_neighbors (m : mode) (l : fw N) (idx : N) : outcome (list nat) :=
  let* row := wfw_get m l idx in Ok (map N.to_nat (take_while is_used row)).

(** ** Compressed layers, offsets.rs:178-195, 249-259, 51-60 and set_vector.rs:57-63.
    [idx + 1] is the only operation that can leave the range ([idx = 2^64 - 1]);
    the position within the table and the sums of at most 60 sixteen-bit
    differences are small.  (The start of a block of 60 is a position in the
    data.) *)
Definition woffs_get (m : mode) (o : offsets) (idx : N) : outcome nat :=
  let* c := windex o (idx / 60)%N in
  chunk_get m c (N.to_nat (idx mod 60)%N).
Definition woffs_get_consecutive (m : mode) (o : offsets) (idx : N) : outcome (nat * nat) :=
  let* i1 := usize_add m idx 1 in
  if (i1 mod 60 =? 0)%N then
    let* a := woffs_get m o idx in
    let* b := woffs_get m o i1 in
    Ok (a, b)
  else
    let* c := windex o (idx / 60)%N in
    chunk_get_consecutive m c (N.to_nat (idx mod 60)%N).
Definition wcvw_get {T} (m : mode) (v : cvw T) (idx : N) : outcome (list T) :=
  let* be := woffs_get_consecutive m (coffs v) idx in
  slice (cdata v) (fst be) (snd be).
Definition wmsv_neighbors (m : mode) (l : msv) (idx : N) : outcome (list nat) :=
  let* e := wcvw_get m l idx in
  let* row := decode_into m e in
  Ok (map N.to_nat row).

(** [Index::get_neighbors], index/mod.rs:96-98, 344-346 *)
Definition wget_neighbors (m : mode) (L : layers) (idx layer : N) : outcome (list nat) :=
  match L with
  | FixWidth ls => let* l := windex ls layer in wfw_neighbors m l idx
  | Compressed ls => let* l := windex ls layer in wmsv_neighbors m l idx
  end.

(** ** Variable-width vectors *)
Section Var.
  Context {T : Type} (osz : nat) (R : repr T).

  (** [get], slice_vector/mod.rs:590-597 *)
  Definition wvw_get (m : mode) (v : vw T) (idx : N) : outcome (list T) :=
    let* b := windex (voffs v) idx in
    let* i1 := usize_add m idx 1 in
    let* e := windex (voffs v) i1 in
    slice (vdata v) b e.

  (** [len], slice_vector/mod.rs:608-611 *)
  Definition wvw_len (m : mode) (v : vw T) : outcome N :=
    usize_sub m (N.of_nat (length (voffs v))) 1.

  (** [load_mmap], [from_bytes], slice_vector/mod.rs:520-523, 660-676 *)
  Definition wvw_from_bytes (m : mode) (buffer : list N) : outcome (vw T) :=
    let* h := slice buffer 0 U64_LEN in
    let n := le_dec h in
    let* rest := slice buffer U64_LEN (length buffer) in
    let* n1 := usize_add m 1 n in
    let* pos := usize_mul m n1 (N.of_nat osz) in
    let* offs := wslice rest 0 pos in
    let* data := wslice rest pos (N.of_nat (length rest)) in
    Ok (mkVw (load_bytes_as (off_repr osz) offs) (load_bytes_as R data)).
End Var.

(** ** Capacities

    [BinaryHeap::with_capacity(n)] for entries of 16 bytes ([(NotNan<f32>,
    usize)]): "capacity overflow" panic when the size exceeds [isize::MAX].
    [max_size_heap.rs:11-16].  (A smaller request that the allocator can not
    serve aborts the process; that is not modelled.) *)
Definition heap_with_capacity (n : N) : outcome unit :=
  oassert (16 * n <=? 9223372036854775807)%N.

(** the start of [search_for_neighbors], index/mod.rs:1006-1010: the result heap,
    then the product [max_search * 20] *)
Definition search_prologue (m : mode) (max_search : N) : outcome unit :=
  let* _ := heap_with_capacity max_search in
  let* _ := usize_mul m max_search 20 in
  Ok tt.
