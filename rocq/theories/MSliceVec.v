(** * Model of src/slice_vector/mod.rs: fixed-width and variable-width slice
    vectors.

    The [File(mmap)] and [Memory(Cow ...)] variants of both enums hold the same
    data; the model keeps only that data ([load], [load_mut], [borrow],
    [into_owned], [clone], lines 29-57, 191-211, 325-342, 558-564, 637-658, are the
    identity). *)
From Verif Require Import Base Bytes.

Definition U64_LEN := 8. (* mod.rs:21 *)

(** The 8-byte little-endian header value: [buf.copy_from_slice(&buffer[..8])]
    panics on fewer than 8 bytes.  mod.rs:214-218, 661-665, offsets.rs:115-119. *)
Definition load_header (buffer : list N) : outcome nat :=
  let* h := slice buffer 0 U64_LEN in Ok (N.to_nat (le_dec h)).

Section Fixed.
  Context {T : Type}.

  (** [FixedWidthSliceVector::Memory(data, width)], mod.rs:42-45 *)
  Record fw := mkFw { fdata : list T; fwidth : nat }.

  (** [new], [with_width], [with_capacity], [with_data], mod.rs:79-107 *)
  Definition fw_with_width (w : nat) : fw := mkFw [] w.
  Definition fw_new : fw := fw_with_width 0.
  Definition fw_with_capacity (w : nat) : outcome fw :=
    let* _ := oassert (0 <? w) in Ok (mkFw [] w).
  Definition fw_with_data (data : list T) (w : nat) : outcome fw :=
    let* _ := oassert (0 <? w) in
    let* _ := oassert (length data mod w =? 0) in
    Ok (mkFw data w).

  (** [len], [is_empty], mod.rs:410-421 *)
  Definition fw_len (v : fw) : nat :=
    if 0 <? fwidth v then length (fdata v) / fwidth v else 0.
  Definition fw_is_empty (v : fw) : bool := fw_len v =? 0.

  (** [get], mod.rs:344-356; [get_mut], :358-370, reads the same slice *)
  Definition fw_get (m : mode) (v : fw) (idx : nat) : outcome (list T) :=
    let* _ := debug_assert m (idx <? fw_len v) in
    slice (fdata v) (idx * fwidth v) ((idx + 1) * fwidth v).

  (** [iter]: [data.chunks(width)] panics for width 0, mod.rs:132-138 *)
  Definition fw_iter (v : fw) : outcome (list (list T)) :=
    let* _ := oassert (0 <? fwidth v) in Ok (chunks (fwidth v) (fdata v)).

  (** [subslice], mod.rs:151-158 *)
  Definition fw_subslice (v : fw) (b e : nat) : outcome fw :=
    let* d := slice (fdata v) (b * fwidth v) (e * fwidth v) in
    fw_with_data d (fwidth v).

  (** [resize], mod.rs:170-173 *)
  Definition fw_resize (v : fw) (n : nat) (x : T) : fw :=
    mkFw (resize (fdata v) (n * fwidth v) x) (fwidth v).

  (** [extend_from_slice_vector], mod.rs:178-189 *)
  Definition fw_extend (v other : fw) : outcome fw :=
    let w := if fwidth v =? 0 then fwidth other else fwidth v in
    let* _ := oassert (w =? fwidth other) in
    Ok (mkFw (fdata v ++ fdata other) w).

  (** [push], mod.rs:398-408 *)
  Definition fw_push (v : fw) (x : list T) : outcome fw :=
    let w := if fwidth v =? 0 then length x else fwidth v in
    let* _ := oassert (w =? length x) in
    Ok (mkFw (fdata v ++ x) w).

  (** writing [x] over slice [idx] ([get_mut(idx).clone_from_slice(x)]), which
      panics when lengths differ; mod.rs:358-370 *)
  Definition fw_set (m : mode) (v : fw) (idx : nat) (x : list T) : outcome fw :=
    let* _ := debug_assert m (idx <? fw_len v) in
    let b := idx * fwidth v in
    let* old := slice (fdata v) b (b + fwidth v) in
    let* _ := oassert (length old =? length x) in
    Ok (mkFw (firstn b (fdata v) ++ x ++ skipn (b + fwidth v) (fdata v)) (fwidth v)).

  (** [get_two_mut(to, from)] followed by [to.clone_from_slice(from)],
      mod.rs:372-396 and 450-451.  The four slicing operations panic exactly
      when out of range. *)
  Definition fw_copy (v : fw) (to from : nat) : outcome fw :=
    let w := fwidth v in
    let d := fdata v in
    let* _ := oassert (negb (to =? from)) in
    if to <? from then
      let* lhs := slice d 0 (from * w) in
      let* rhs := slice d (from * w) (length d) in
      let* _ := slice lhs (to * w) (to * w + w) in
      let* src := slice rhs 0 w in
      Ok (mkFw (firstn (to * w) lhs ++ src ++ skipn (to * w + w) lhs ++ rhs) w)
    else
      let* lhs := slice d 0 (to * w) in
      let* rhs := slice d (to * w) (length d) in
      let* src := slice lhs (from * w) (from * w + w) in
      let* _ := slice rhs 0 w in
      Ok (mkFw (lhs ++ src ++ skipn w rhs) w).

  (** [permute], inner [while permutation[j] != i], mod.rs:449-454.  Fuel bounds
      the number of iterations. *)
  Fixpoint fw_permute_cycle (fuel : nat) (perm : list nat) (i j : nat)
           (v : fw) (visited : list bool) : outcome (fw * list bool * nat) :=
    match fuel with
    | 0 => Fail OutOfFuel
    | S f =>
        let* pj := index perm j in
        if pj =? i then Ok (v, visited, j)
        else
          let* v' := fw_copy v j pj in
          let* vis' := store visited j true in
          fw_permute_cycle f perm i pj v' vis'
    end.

  (** body of the [for i] loop, mod.rs:442-457 *)
  Definition fw_permute_step (m : mode) (fuel : nat) (perm : list nat)
             (st : fw * list bool) (i : nat) : outcome (fw * list bool) :=
    let '(v, visited) := st in
    let* seen := index visited i in
    if (seen : bool) then Ok (v, visited)
    else
      let* loop_begin := fw_get m v i in
      let* r := fw_permute_cycle fuel perm i i v visited in
      let '(v', vis', j) := r in
      let* v'' := fw_set m v' j loop_begin in
      let* vis'' := store vis' j true in
      Ok (v'', vis'').

  (** [permute], mod.rs:437-458 *)
  Definition fw_permute (m : mode) (fuel : nat) (v : fw) (perm : list nat) : outcome fw :=
    let* _ := oassert (fw_len v =? length perm) in
    let* r := ofold (fw_permute_step m fuel perm) (seq 0 (length perm))
                    (v, repeat false (fw_len v)) in
    Ok (fst r).
End Fixed.
Arguments fw : clear implicits.

Section FixedBytes.
  Context {T : Type} (R : repr T).

  (** [write], mod.rs:460-466: 8 bytes of width, then the data; the returned
      count is that of the second write only. *)
  Definition fw_write (v : fw T) : wres :=
    (le_enc 8 (N.of_nat (fwidth v)) ++ write_as_bytes R (fdata v),
     write_as_bytes_count R (fdata v)).

  (** [load_mmap], mod.rs:213-221 *)
  Definition fw_load (buffer : list N) : outcome (fw T) :=
    let* w := load_header buffer in
    let* rest := slice buffer U64_LEN (length buffer) in
    Ok (mkFw (load_bytes_as R rest) w).

  (** [from_bytes], mod.rs:123-129; [from_file], :110-121, has the same check *)
  Definition fw_from_bytes (buffer : list N) : outcome (fw T) :=
    let* v := fw_load buffer in
    let* _ := oassert ((0 <? fwidth v) && (length (fdata v) mod fwidth v =? 0)) in
    Ok v.

  (** [read], mod.rs:223-240, over a reader holding [input].  A failed
      [read_exact] of the header is ignored by the code (the [Result] is
      dropped); the buffer is then taken to be all zero.  The loop ends at the
      first failing [read_exact]; with width 0 it never ends. *)
  Fixpoint fw_read_loop (fuel : nat) (k : nat) (input : list N) (v : fw T) : outcome (fw T) :=
    match fuel with
    | 0 => Fail OutOfFuel
    | S f =>
        if length input <? k then Ok v
        else
          let* v' := fw_push v (load_bytes_as R (firstn k input)) in
          fw_read_loop f k (skipn k input) v'
    end.
  Definition fw_read (fuel : nat) (input : list N) : outcome (fw T) :=
    let w := if length input <? 8 then 0 else N.to_nat (le_dec (firstn 8 input)) in
    fw_read_loop fuel (w * rsize R) (skipn 8 input) fw_new.

  (** [read_with_capacity], mod.rs:242-259 *)
  Definition fw_read_with_capacity (fuel : nat) (input : list N) : outcome (fw T) :=
    let w := if length input <? 8 then 0 else N.to_nat (le_dec (firstn 8 input)) in
    let* v := fw_with_capacity w in
    fw_read_loop fuel (w * rsize R) (skipn 8 input) v.
End FixedBytes.

Section VarWidth.
  Context {T : Type}.

  (** The offset type: [osz] little-endian bytes ([usize], [u64], [u32],
      [FiveByteInt], ...).  [Offset::try_from(n).unwrap()] panics when [n] does
      not fit. *)
  Context (osz : nat).

  Definition off_from (n : nat) : outcome nat :=
    if (N.of_nat n <? 256 ^ N.of_nat osz)%N then Ok n else Fail Panicked.

  (** an offset as [osz] bytes *)
  Definition off_repr : repr nat :=
    {| rsize := osz;
       renc := fun n => le_enc osz (N.of_nat n);
       rdec := fun l => N.to_nat (le_dec l) |}.

  (** [VariableWidthSliceVector::Memory(offsets, data)], mod.rs:24-27 *)
  Record vw := mkVw { voffs : list nat; vdata : list T }.

  (** [new], mod.rs:504-506 *)
  Definition vw_new : vw := mkVw [0] [].

  (** [last().unwrap()] *)
  Definition olast {A} (l : list A) : outcome A := index l (length l - 1).

  (** [push], mod.rs:617-621: the data is extended before the new offset is
      converted *)
  Definition vw_push (v : vw) (x : list T) : outcome vw :=
    let d := vdata v ++ x in
    let* o := off_from (length d) in
    Ok (mkVw (voffs v ++ [o]) d).

  (** [len], [is_empty], mod.rs:608-615; [offsets.len() - 1] underflows on an
      empty table, which no operation makes: see [wvw_len] in MWord.v *)
  Definition vw_len (v : vw) : nat := length (voffs v) - 1.

  (** [get], [get_mut], mod.rs:590-606 *)
  Definition vw_get (v : vw) (idx : nat) : outcome (list T) :=
    let* b := index (voffs v) idx in
    let* e := index (voffs v) (idx + 1) in
    slice (vdata v) b e.

  (** [iter], mod.rs:544-556 *)
  Definition vw_iter (v : vw) : outcome (list (list T)) :=
    omapM (fun be : nat * nat => slice (vdata v) (fst be) (snd be))
          (combine (voffs v) (skipn 1 (voffs v))).

  (** [extend_from_slice_vector], mod.rs:525-542 *)
  Definition vw_extend (v other : vw) : outcome vw :=
    let* prev := olast (voffs v) in
    let* os := omapM (fun x => off_from (prev + x)) (skipn 1 (voffs other)) in
    Ok (mkVw (voffs v ++ os) (vdata v ++ vdata other)).

  Context (R : repr T).

  (** [write], mod.rs:623-634 *)
  Definition vw_write (v : vw) : wres :=
    (le_enc 8 (N.of_nat (vw_len v)) ++ write_as_bytes off_repr (voffs v)
       ++ write_as_bytes R (vdata v),
     8 + write_as_bytes_count off_repr (voffs v) + write_as_bytes_count R (vdata v)).

  (** [write_range], mod.rs:566-588.  [offset - offset_begin] underflows (panic)
      for a non-monotone table. *)
  Definition vw_write_range (v : vw) (b e : nat) : outcome wres :=
    let* _ := oassert (b <=? e) in
    let* _ := oassert (b <=? vw_len v) in
    let* _ := oassert (e <=? vw_len v) in
    let* ob := index (voffs v) b in
    let* os := slice (voffs v) b (e + 1) in
    let* os' := omapM (fun o => let* _ := oassert (ob <=? o) in off_from (o - ob)) os in
    let* oe := index (voffs v) e in
    let* d := slice (vdata v) ob oe in
    Ok (le_enc 8 (N.of_nat (e - b)) ++ write_as_bytes off_repr os' ++ write_as_bytes R d,
        write_as_bytes_count R d).

  (** [load_mmap], [from_bytes], mod.rs:520-523, 660-676 *)
  Definition vw_from_bytes (buffer : list N) : outcome vw :=
    let* n := load_header buffer in
    let* rest := slice buffer U64_LEN (length buffer) in
    let* offs := slice rest 0 ((1 + n) * osz) in
    let* data := slice rest ((1 + n) * osz) (length rest) in
    Ok (mkVw (load_bytes_as off_repr offs) (load_bytes_as R data)).

  (** [write_as_variable_width_slice_vector], mod.rs:261-323: one chunk: values
      at [value_pos], then the chunk's offsets at [offset_pos]. *)
  Definition wavw_chunk (m : mode) (v : fw T) (keep : T -> bool) (chunk_size : nat)
             (st : cursor * nat * nat * nat) (chunk : nat)
    : outcome (cursor * nat * nat * nat) :=
    let '(c, offset_pos, value_pos, total) := st in
    let chunk_offset := chunk * chunk_size in
    let this_size := Nat.min chunk_size (fw_len v - chunk_offset) in
    let c := cseek c value_pos in
    let* r := ofold (fun (s : cursor * nat * list nat) i =>
                let '(c, total, offs) := s in
                let* row := fw_get m v (chunk_offset + i) in
                let kept := filter keep row in
                let total' := total + length kept in
                let c' := cwrite c (write_as_bytes R kept) in
                let* o := off_from total' in
                Ok (c', total', offs ++ [o]))
              (seq 0 this_size) (c, total, []) in
    let '(c, total, offs) := r in
    let value_pos' := cpos c in
    let c := cseek c offset_pos in
    let c := cwrite c (write_as_bytes off_repr offs) in
    Ok (c, cpos c, value_pos', total).

  Definition vw_write_from_fixed (m : mode) (v : fw T) (keep : T -> bool) (c : cursor)
    : outcome (cursor * nat) :=
    let initial_pos := cpos c in
    let c := cwrite c (le_enc 8 (N.of_nat (fw_len v))) in
    let* zero := off_from 0 in
    let c := cwrite c (write_as_bytes off_repr [zero]) in
    let offset_pos := cpos c in
    let value_pos := offset_pos + fw_len v * osz in
    let chunk_size := Nat.max 100 (fw_len v / 100) in
    let num_chunks := (fw_len v + chunk_size - 1) / chunk_size in
    let* r := ofold (wavw_chunk m v keep chunk_size) (seq 0 num_chunks)
                    (c, offset_pos, value_pos, 0) in
    let '(c, _, value_pos, _) := r in
    let c := cseek c value_pos in
    Ok (c, value_pos - initial_pos).
End VarWidth.
Arguments vw : clear implicits.
