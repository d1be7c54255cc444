(** * Property theorems: slice vectors and byte codecs (C10-C17, C58) *)
From Verif Require Import Base BaseFacts Bytes PBytes MSliceVec SSliceVec PFixed PVar PCursor PWriteVar PSliceMisc.

(** ** C10 Vector collections round-trip through bytes *)
Theorem C10_vectors_round_trip :
  forall (T : Type) (R : repr T) (valid : T -> Prop), repr_ok R valid ->
  forall (w : nat) (rows : list (list T)) (v : fw T),
    0 < w -> fits64 w -> fw_is w rows v -> Forall valid (fdata v) ->
    exists v', fw_from_bytes R (fst (fw_write R v)) = Ok v' /\ fw_is w rows v' /\ v' = v.
Proof. exact fw_round_trip_rows. Qed.
Print Assumptions C10_vectors_round_trip.

(** reading through [std::io::Read] gives the same, for non-empty collections *)
Theorem C10_vectors_read_round_trip :
  forall (T : Type) (R : repr T) (valid : T -> Prop), repr_ok R valid ->
  forall (w : nat) (rows : list (list T)) (v : fw T) (fuel : nat),
    0 < w -> fits64 w -> fw_is w rows v -> Forall valid (fdata v) -> rows <> [] ->
    length rows < fuel ->
    fw_read R fuel (fst (fw_write R v)) = Ok v.
Proof. exact @fw_read_round_trip. Qed.
Print Assumptions C10_vectors_read_round_trip.

(** The property includes the empty collection: refuted for [Vectors::new()]
    (width 0), whose bytes are rejected with a panic by [from_bytes]. *)
Theorem C10_empty_collection_refuted :
  forall (T : Type) (R : repr T),
    fw_from_bytes R (fst (fw_write R (@fw_new T))) = Fail Panicked.
Proof. exact fw_new_round_trip_panics. Qed.
Print Assumptions C10_empty_collection_refuted.

(** ... and [read] never terminates on those bytes. *)
Theorem C10_empty_read_diverges_refuted :
  forall (T : Type) (R : repr T) (fuel : nat), 0 < rsize R ->
    fw_read R fuel (fst (fw_write R (@fw_new T))) = Fail OutOfFuel.
Proof. exact fw_new_read_diverges. Qed.
Print Assumptions C10_empty_read_diverges_refuted.

Example C10_nonvacuous :
  exists v : fw N, fw_is 3 [[1;2;3];[4;5;4294967295]]%N v /\ Forall (uint_valid 4) (fdata v) /\ fits64 3
    /\ fw_from_bytes u32r (fst (fw_write u32r v)) = Ok v.
Proof.
  exists (mkFw [1;2;3;4;5;4294967295]%N 3). split; [|split; [|split]].
  - repeat constructor.
  - repeat constructor; unfold uint_valid; cbn; lia.
  - unfold fits64; cbn; lia.
  - reflexivity.
Qed.

(** ** C11 Reported byte counts *)
Theorem C11_variable_width_count :
  forall (T : Type) (osz : nat), 0 < osz ->
  forall (R : repr T) (valid : T -> Prop), repr_ok R valid ->
  forall rows, snd (vw_write osz R (vw_of rows)) = length (fst (vw_write osz R (vw_of rows))).
Proof. exact vw_write_count. Qed.
Print Assumptions C11_variable_width_count.

(** Fixed-width [write] reports 8 bytes too few, for every collection. *)
Theorem C11_fixed_width_count_refuted :
  forall (T : Type) (R : repr T) (valid : T -> Prop), repr_ok R valid ->
  forall v : fw T, length (fst (fw_write R v)) = 8 + snd (fw_write R v).
Proof. exact @fw_write_length. Qed.
Print Assumptions C11_fixed_width_count_refuted.

(** [write_range] leaves out the header and the offset table. *)
Theorem C11_write_range_count_refuted :
  forall (T : Type) (osz : nat), 0 < osz ->
  forall (R : repr T) (valid : T -> Prop), repr_ok R valid ->
  forall rows b e bs n, total_fits osz rows ->
    vw_write_range osz R (vw_of rows) b e = Ok (bs, n) ->
    length bs = 8 + (e - b + 1) * osz + n.
Proof. exact vw_write_range_count. Qed.
Print Assumptions C11_write_range_count_refuted.

Example C11_nonvacuous :
  exists bs n, vw_write_range 5 u8r (vw_of [[1];[2;3]]%N) 0 2 = Ok (bs, n) /\ length bs = 26 /\ n = 3.
Proof. eexists; eexists. vm_compute. repeat split. Qed.

(** ** C12 Variable-width collections behave as a list of slices *)
Theorem C12_variable_width_history :
  forall (T : Type) (osz : nat) (ops : list (vw_op T)),
    let rows := fold_left vw_op_rows ops [] in
    (total_fits osz rows ->
       exists v, ofold (vw_op_run osz) ops vw_new = Ok v /\ vw_observes rows v) /\
    (~ total_fits osz rows -> ofold (vw_op_run osz) ops vw_new = Fail Panicked).
Proof. exact vw_history_from_new. Qed.
Print Assumptions C12_variable_width_history.

Example C12_nonvacuous :
  let ops := [VPush [7;8]; VPush []; VExtend [[1];[];[2;3]]; VPush [9]]%N in
  total_fits 5 (fold_left vw_op_rows ops []) /\
  fold_left vw_op_rows ops [] = [[7;8];[];[1];[];[2;3];[9]]%N.
Proof. split; [vm_compute|]; reflexivity. Qed.

(** ** C13 Bytes of variable-width collections and sub-ranges *)
Theorem C13_variable_width_bytes :
  forall (T : Type) (osz : nat), 0 < osz ->
  forall (R : repr T) (valid : T -> Prop), repr_ok R valid ->
  forall rows, total_fits osz rows -> fits64 (length rows) -> Forall valid (concat rows) ->
    vw_from_bytes osz R (fst (vw_write osz R (vw_of rows))) = Ok (vw_of rows).
Proof. exact vw_write_round_trip. Qed.
Print Assumptions C13_variable_width_bytes.

Theorem C13_sub_range_bytes :
  forall (T : Type) (osz : nat), 0 < osz ->
  forall (R : repr T) (valid : T -> Prop), repr_ok R valid ->
  forall rows b e, total_fits osz rows -> fits64 (length rows) -> Forall valid (concat rows) ->
    b <= e -> e <= length rows ->
    exists bs n v, vw_write_range osz R (vw_of rows) b e = Ok (bs, n) /\
      vw_from_bytes osz R bs = Ok v /\ vw_observes (firstn (e - b) (skipn b rows)) v.
Proof. exact vw_write_range_round_trip. Qed.
Print Assumptions C13_sub_range_bytes.

Theorem C13_bad_range_refused :
  forall (T : Type) (osz : nat), 0 < osz -> forall (R : repr T) rows b e,
    ~ (b <= e /\ e <= length rows) ->
    vw_write_range osz R (vw_of rows) b e = Fail Panicked.
Proof. exact @vw_write_range_refused. Qed.
Print Assumptions C13_bad_range_refused.

Example C13_nonvacuous :
  exists bs n, vw_write_range 5 u8r (vw_of [[1];[2;3];[];[4]]%N) 1 4 = Ok (bs, n)
    /\ vw_from_bytes 5 u8r bs = Ok (vw_of [[2;3];[];[4]]%N).
Proof. eexists; eexists. split; vm_compute; reflexivity. Qed.

(** ** C14 Fixed-width to variable-width conversion *)
Theorem C14_fixed_to_variable :
  forall (T : Type) (osz : nat), 0 < osz ->
  forall (R : repr T) (valid : T -> Prop), repr_ok R valid ->
  forall (m : mode) (w : nat), 0 < w ->
  forall (rows : list (list T)) (v : fw T), fw_is w rows v ->
  forall (keep : T -> bool) (c : cursor),
    let kept := map (filter keep) rows in
    total_fits osz kept ->
    exists bs,
      (* exactly the bytes [bs] are written at the cursor, nothing else changes,
         the cursor ends behind them and their number is returned *)
      vw_write_from_fixed osz R m v keep c = Ok (cwrite c bs, length bs) /\
      (fits64 (length rows) -> Forall valid (fdata v) ->
         exists v', vw_from_bytes osz R bs = Ok v' /\ vw_observes kept v').
Proof. exact write_from_fixed_spec. Qed.
Print Assumptions C14_fixed_to_variable.

Example C14_nonvacuous :
  fw_is 2 [[1;0];[0;0];[5;6]]%N (mkFw [1;0;0;0;5;6]%N 2) /\
  total_fits 5 (map (filter (fun x => negb (x =? 0)%N)) [[1;0];[0;0];[5;6]]%N).
Proof. split; [repeat constructor|vm_compute; reflexivity]. Qed.

(** ** C15 Fixed-width collections behave as a list of equally long slices *)
Theorem C15_fixed_width_history :
  forall (T : Type) (m : mode) (w : nat) (ops : list (fw_op T)),
    0 < w -> Forall fw_op_wf ops ->
    exists res, fw_history w [] ops res /\
      (forall res', fw_history w [] ops res' -> res' = res) /\
      match res with
      | Some rows => exists v, ofold (fw_op_run m) ops (fw_with_width w) = Ok v /\
                               fwidth v = w /\ fw_observes m rows v
      | None => ofold (fw_op_run m) ops (fw_with_width w) = Fail Panicked
      end.
Proof. exact fw_history_from_width. Qed.
Print Assumptions C15_fixed_width_history.

(** A collection made with [new()] takes its width from the first slice. *)
Theorem C15_new_takes_width :
  forall (T : Type) (x : list T), x <> [] ->
    fw_push fw_new x = fw_push (fw_with_width (length x)) x.
Proof. exact fw_new_push. Qed.
Print Assumptions C15_new_takes_width.

Theorem C15_subslice :
  forall (T : Type) (w : nat) (rows : list (list T)) (v : fw T) (b e : nat),
    0 < w -> fw_is w rows v -> b <= e -> e <= length rows ->
    exists v', fw_subslice v b e = Ok v' /\ fw_is w (firstn (e - b) (skipn b rows)) v'.
Proof. exact @fw_is_subslice. Qed.
Print Assumptions C15_subslice.

(** [get_two_mut(to, from)] addresses exactly slices [to] and [from]. *)
Theorem C15_get_two_mut :
  forall (T : Type) (w : nat) (rows : list (list T)) (v : fw T) (to from : nat) (src : list T),
    0 < w -> fw_is w rows v -> to <> from -> to < length rows -> nth_error rows from = Some src ->
    exists v', fw_copy v to from = Ok v' /\ fw_is w (set_nth rows to src) v'.
Proof. exact @fw_copy_rows. Qed.
Print Assumptions C15_get_two_mut.

Example C15_nonvacuous :
  let ops := [FPush [1;2]; FExtend (mkFw [3;4;5;6] 2); FResize 4 0; FSet 1 [8;9]]%N in
  Forall fw_op_wf ops /\
  ofold (fw_op_run Debug) ops (fw_with_width 2) = Ok (mkFw [1;2;8;9;5;6;0;0]%N 2).
Proof.
  split; [|reflexivity].
  repeat constructor; intros o E; inversion E; reflexivity.
Qed.

(** ** C16 In-place permutation *)
Theorem C16_permute :
  forall (T : Type) (w n : nat), 0 < w ->
  forall (perm : list nat), is_perm n perm ->
  forall (orig : list (list T)), length orig = n ->
  forall (m : mode) (v : fw T), fw_is w orig v ->
    exists v', fw_permute m n v perm = Ok v' /\
               fw_is w (map (fun k => nth k orig []) perm) v'.
Proof. exact @fw_permute_ok. Qed.
Print Assumptions C16_permute.

Theorem C16_permute_wrong_length_refused :
  forall (T : Type) (m : mode) (fuel : nat) (v : fw T) (perm : list nat),
    length perm <> fw_len v -> fw_permute m fuel v perm = Fail Panicked.
Proof. exact fw_permute_wrong_length. Qed.
Print Assumptions C16_permute_wrong_length_refused.

Example C16_nonvacuous :
  is_perm 3 [1;2;0] /\
  fw_permute Debug 3 (mkFw [10;11;20;21;30;31] 2) [1;2;0] = Ok (mkFw [20;21;30;31;10;11] 2).
Proof. split; [|reflexivity]. unfold is_perm. cbn. apply Permutation_sym, (Permutation_cons_append [1;2] 0). Qed.

(** ** C17 Odd-width integers *)
Theorem C17_odd_round_trip :
  forall (k : nat) (n : N),
    ((n < 256 ^ N.of_nat k)%N ->
       exists b, odd_from k n = Ok b /\ length b = k /\ odd_into b = n) /\
    ((256 ^ N.of_nat k <= n)%N -> odd_from k n = Fail Panicked).
Proof. exact odd_spec. Qed.
Print Assumptions C17_odd_round_trip.

(** every stored byte pattern denotes a distinct value that converts back to it *)
Theorem C17_odd_bytes_bijective :
  forall (k : nat) (b : list N), length b = k -> bytes_ok b -> odd_from k (odd_into b) = Ok b.
Proof. exact odd_into_bijective. Qed.
Print Assumptions C17_odd_bytes_bijective.

Theorem C17_odd_max :
  forall k, odd_into (odd_max k) = (256 ^ N.of_nat k - 1)%N.
Proof. exact le_dec_max. Qed.
Print Assumptions C17_odd_max.

Theorem C17_three_five :
  (256 ^ N.of_nat three_byte = 2 ^ 24 /\ 256 ^ N.of_nat five_byte = 2 ^ 40)%N.
Proof. exact three_five_bounds. Qed.
Print Assumptions C17_three_five.

(** ** C58 Extending by an empty collection *)
Theorem C58_extend_by_empty_partial :
  forall (T : Type) (w : nat) (rows : list (list T)) (v : fw T),
    0 < w -> fw_is w rows v -> fw_extend v (fw_with_width w) = Ok v.
Proof. exact fw_extend_by_empty_same_width. Qed.
Print Assumptions C58_extend_by_empty_partial.

(** Missing from the partial theorem, and false: the empty collection made with
    [new()] has width 0, so extending a non-empty collection by it panics. *)
Theorem C58_extend_by_new_refuted :
  forall (T : Type) (v : fw T), 0 < fwidth v -> fw_extend v fw_new = Fail Panicked.
Proof. exact fw_extend_by_new_panics. Qed.
Print Assumptions C58_extend_by_new_refuted.

Example C58_nonvacuous : fw_is 2 [[1;2]] (mkFw [1;2] 2) /\ 0 < fwidth (mkFw [1;2] 2).
Proof. split; [repeat constructor|cbn; lia]. Qed.
