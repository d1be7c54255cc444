(** * Property theorems: compressed layers (C01-C05) *)
From Verif Require Import Base BaseFacts Bytes PBytes MSliceVec SSliceVec PFixed PVar PCursor MOffsets MSetVec SOffsets POffsets PSetVec PSetVecWrite PCvw.

(** ** C01 Compressed neighbour lists round-trip *)
Theorem C01_neighbour_lists_round_trip :
  forall (m : mode) (ls : list (list N)),
    Forall (fun l => Forall is_u32 l /\ length l <= 254) ls ->
    exists v, msv_build m ls = Ok v /\ msv_observes m ls v.
Proof. exact lists_round_trip. Qed.
Print Assumptions C01_neighbour_lists_round_trip.

(** both internal representations occur: a variable-byte one, a raw one, an
    empty one; and lists shorter than four, with duplicates *)
Example C01_nonvacuous :
  let ls := [[9;1;300;7;2]; [4294967295;0;2147483648;77]; []; [5;5;5]]%N in
  Forall (fun l => Forall is_u32 l /\ length l <= 254) ls /\
  (let* v := msv_build Debug ls in omapM (msv_get Debug v) [0;1;2;3])
  = Ok [[1;2;7;9;300]; [0;77;2147483648;4294967295]; []; [5;5;5]]%N.
Proof.
  split.
  - repeat constructor; unfold is_u32; cbn; lia.
  - vm_compute. reflexivity.
Qed.

(** ** C02 Over-long lists *)
(** debug builds reject lists of 255 ids and more *)
Theorem C02_debug_rejects :
  forall (ls : list (list N)) (l : list N),
    Forall (fun l => Forall is_u32 l /\ length l <= 254) ls -> 255 <= length l ->
    msv_build Debug (ls ++ [l]) = Fail Panicked.
Proof. exact long_debug_refused. Qed.
Print Assumptions C02_debug_rejects.

(** release builds preserve lists of exactly 255 ids *)
Theorem C02_release_255_preserved :
  forall (ls : list (list N)),
    Forall (fun l => Forall is_u32 l /\ length l <= 255) ls ->
    exists v, msv_build Release ls = Ok v /\ msv_observes Release ls v.
Proof. exact lists_255_release. Qed.
Print Assumptions C02_release_255_preserved.

(** The property is false in release builds: every list of 256 or more ids is
    silently replaced by its 255 smallest ids. *)
Theorem C02_release_truncates_refuted :
  forall (ls : list (list N)) (l : list N),
    Forall (fun l => Forall is_u32 l) ls -> Forall is_u32 l -> 256 <= length l ->
    exists v r dropped,
      msv_build Release (ls ++ [l]) = Ok v /\ msv_get Release v (length ls) = Ok r /\
      sorted_version l (r ++ dropped) /\ length r = 255 /\ dropped <> [].
Proof. exact long_release_truncated. Qed.
Print Assumptions C02_release_truncates_refuted.

Example C02_nonvacuous :
  let l := map N.of_nat (seq 0 300) in Forall is_u32 l /\ 256 <= length l.
Proof.
  split; [|cbn; lia]. apply Forall_forall. intros x Hx. apply in_map_iff in Hx as (k & <- & Hk).
  apply in_seq in Hk. unfold is_u32. lia.
Qed.

(** ** C03 Compressed offset table *)
Theorem C03_slices_faithful :
  forall (T : Type) (m : mode) (ls : list (list T)),
    (forall i x, nth_error ls i = Some x -> slice_accepted i x) ->
    exists v, cvw_build m ls = Ok v /\ cvw_observes m ls v.
Proof. exact @cvw_faithful. Qed.
Print Assumptions C03_slices_faithful.

Theorem C03_offsets_faithful :
  forall (m : mode) (os : list nat), offset_seq os ->
  exists o, ofold (offs_push m) os offs_new = Ok o /\ offs_len o = Ok (length os) /\
    (forall i, i < length os -> offs_get m o i = Ok (nth i os 0)) /\
    (forall i, i + 1 < length os -> offs_get_consecutive m o i = Ok (nth i os 0, nth (i + 1) os 0)) /\
    offs_last m o = Ok (match os with [] => None | _ => Some (last os 0) end).
Proof. exact table_faithful. Qed.
Print Assumptions C03_offsets_faithful.

(** refusals, inside a block of 60 *)
Theorem C03_bad_offsets_refused_partial :
  forall (m : mode) (os : list nat) (x : nat), offset_seq os -> (os = [] \/ length os mod 60 <> 0) ->
  (x < last os 0 \/ (65535 < N.of_nat (x - last os 0%nat))%N) ->
  ofold (offs_push m) (os ++ [x]) offs_new = Fail Panicked.
Proof. exact table_refused. Qed.
Print Assumptions C03_bad_offsets_refused_partial.

Theorem C03_long_slice_refused_partial :
  forall (T : Type) (m : mode) (ls : list (list T)) (x : list T),
    (forall i y, nth_error ls i = Some y -> slice_accepted i y) ->
    (length ls + 1) mod 60 <> 0 -> (65535 < N.of_nat (length x))%N ->
    cvw_build m (ls ++ [x]) = Fail Panicked.
Proof. exact @cvw_jump_refused. Qed.
Print Assumptions C03_long_slice_refused_partial.

(** What is missing, because it is false: at a block boundary nothing is
    checked, and a jump of exactly 65535 is accepted but lost. *)
Theorem C03_boundary_unchecked_refuted :
  forall (m : mode) (os : list nat) (x : nat),
    offset_seq os -> os <> [] -> length os mod 60 = 0 -> x < last os 0 ->
    exists o, ofold (offs_push m) (os ++ [x]) offs_new = Ok o /\ offs_get m o (length os) = Ok x.
Proof. exact table_boundary_unchecked. Qed.
Print Assumptions C03_boundary_unchecked_refuted.

Theorem C03_jump_65535_lost_refuted :
  forall (T : Type) (m : mode) (ls : list (list T)) (x : list T),
    (forall i y, nth_error ls i = Some y -> slice_accepted i y) ->
    (length ls + 1) mod 60 <> 0 -> N.of_nat (length x) = 65535%N ->
    exists v, cvw_build m (ls ++ [x]) = Ok v /\ cvw_len v = Ok (length ls).
Proof. exact @cvw_sentinel_lost. Qed.
Print Assumptions C03_jump_65535_lost_refuted.

(** 130 slices: three blocks of offsets *)
Example C03_nonvacuous :
  let ls := map (fun i => repeat i (i mod 7)) (seq 0 130) in
  (forall i x, nth_error ls i = Some x -> slice_accepted i x) /\
  (let* v := cvw_build Debug ls in let* r := cvw_get Debug v 59 in let* n := cvw_len v in Ok (r, n))
  = Ok ([59;59;59], 130).
Proof.
  split.
  - intros i x Hi. right. rewrite nth_error_map in Hi.
    destruct (nth_error (seq 0 130) i) as [k|]; [|discriminate]. cbn [option_map] in Hi.
    assert (Hx : x = repeat k (k mod 7)) by congruence. rewrite Hx, repeat_length.
    assert (H : k mod 7 < 7) by (apply Nat.mod_upper_bound; discriminate).
    revert H. generalize (k mod 7). intros r. lia.
  - vm_compute. reflexivity.
Qed.

Example C03_offsets_nonvacuous : offset_seq [0; 7; 7; 541; 541] /\ last [0; 7; 7; 541; 541] 0 = 541.
Proof.
  split; [|reflexivity].
  change [0; 7; 7; 541; 541] with (((((([] ++ [0]) ++ [7]) ++ [7]) ++ [541]) ++ [541])).
  repeat (apply OSsnoc; [|right; split; [apply Nat.leb_le|]; vm_compute; reflexivity]). constructor.
Qed.

(** ** C04 Compressed layer bytes *)
Theorem C04_layer_bytes_round_trip :
  forall (m : mode) (ls : list (list N)) (v : msv),
    Forall (fun l => Forall is_u32 l /\ length l <= 254) ls -> layer_fits (length ls) ->
    msv_build m ls = Ok v ->
    exists v', msv_from_bytes (fst (msv_write v)) = Ok v' /\ msv_observes m ls v' /\ v' = v /\
               snd (msv_write v) = length (fst (msv_write v)).
Proof. exact layer_bytes_round_trip. Qed.
Print Assumptions C04_layer_bytes_round_trip.

Theorem C04_compressed_slices_round_trip :
  forall (T : Type) (R : repr T) (valid : T -> Prop), repr_ok R valid ->
  forall (m : mode) (ls : list (list T)) (v : cvw T),
    (forall i y, nth_error ls i = Some y -> slice_accepted i y) ->
    Forall valid (concat ls) -> (N.of_nat (length ls + length (concat ls)) < 2 ^ 50)%N ->
    cvw_build m ls = Ok v ->
    exists v', cvw_from_bytes R (fst (cvw_write R v)) = Ok v' /\ cvw_observes m ls v' /\ v' = v /\
       snd (cvw_write R v) = length (fst (cvw_write R v)).
Proof. exact @cvw_bytes_ok. Qed.
Print Assumptions C04_compressed_slices_round_trip.

Example C04_nonvacuous :
  let ls := map (fun i => [N.of_nat i; 3; N.of_nat (i * i)]%N) (seq 0 70) in
  Forall (fun l => Forall is_u32 l /\ length l <= 254) ls /\ layer_fits (length ls) /\
  (let* v := msv_build Release ls in Ok (length (fst (msv_write v)))) = Ok 737.
Proof.
  split; [|split].
  - apply Forall_forall. intros l Hl. apply in_map_iff in Hl as (k & <- & Hk). apply in_seq in Hk.
    split; [|cbn; lia]. assert (k * k <= 70 * 70) by (apply Nat.mul_le_mono; lia).
    repeat constructor; unfold is_u32; lia.
  - unfold layer_fits. rewrite map_length, seq_length. reflexivity.
  - vm_compute. reflexivity.
Qed.

(** ** C05 Builder layer to compressed layer *)
Theorem C05_conversion_preserves_graph :
  forall (m : mode) (w : nat) (rows : list (list N)) (v : fw N) (keep : N -> bool) (c0 : cursor),
    0 < w -> w <= 254 -> fw_is w rows v -> Forall (Forall is_u32) rows -> layer_fits (length rows) ->
    exists c1 bs mv,
      msv_write_from_fixed m v keep c0 = Ok (c1, length bs) /\
      cbuf c1 = cbuf (cwrite c0 bs) /\ cpos c1 = cpos c0 + length bs /\
      msv_from_bytes (firstn (length bs) (skipn (cpos c0) (cbuf c1))) = Ok mv /\
      msv_observes m (map (filter keep) rows) mv.
Proof. exact conversion_ok. Qed.
Print Assumptions C05_conversion_preserves_graph.

Example C05_nonvacuous :
  let U := 4294967295%N in
  let rows := [[2;1;U];[0;U;U];[0;1;3];[U;U;U]]%N in
  let v := mkFw (concat rows) 3 in
  fw_is 3 rows v /\ Forall (Forall is_u32) rows /\
  (let* r := msv_write_from_fixed Debug v (fun x => negb (x =? U)%N) (mkCursor [1;2;3]%N 7) in
   let* mv := msv_from_bytes (skipn 7 (cbuf (fst r))) in
   let* a := msv_get Debug mv 0 in let* b := msv_get Debug mv 3 in Ok (a, b)) = Ok ([1;2]%N, []).
Proof.
  split; [|split].
  - repeat constructor.
  - repeat constructor; unfold is_u32; lia.
  - vm_compute. reflexivity.
Qed.
