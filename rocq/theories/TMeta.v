(** * Property theorems: exactly when an index can be saved (C07) *)
From Verif Require Import Base BaseFacts Bytes PBytes MSliceVec SSliceVec MOffsets SOffsets POffsets MSetVec PSetVec MJson PJson MIndexIo SIndexIo PIndexIo SMeta PMeta.

(** ** C07 Metadata block *)
(** The metadata block is a line of JSON with the decimal numbers: elements of
    each layer, bytes of each saved layer, elements, layers, neighbours of the
    first element; the rest of its text is 144 bytes and a comma between
    numbers of a list.  Saving succeeds if it has at most 1024 bytes and panics
    otherwise; there is no other outcome. *)
Theorem C07_exactly_when_it_fits :
  forall (m : mode) (L : layers) (G : list (list (list N))) (c : cursor),
    index_is m L G -> G <> [] -> last G [[]] <> [] ->
    exists (saved : list msv) (ns : list nat) (dcount dbytes : list nat) (d1 d2 d3 : nat),
      (* the layers as saved, and the neighbours of element 0 in the last layer *)
      Forall2 (comp_layer_is m) saved G /\ get_neighbors m L 0 (length G - 1) = Ok ns /\
      (* the digits of the numbers *)
      Forall2 decimals (map (@length (list N)) G) dcount /\
      Forall2 decimals (map (fun v => length (fst (msv_write v))) saved) dbytes /\
      decimals (length (last G [])) d1 /\ decimals (length G) d2 /\ decimals (length ns) d3 /\
      let text := 144 + (list_sum dcount + (length G - 1)) + (list_sum dbytes + (length G - 1)) + d1 + d2 + d3 in
      (text <= 1024 -> exists c', write_index m L c = Ok c') /\
      (1024 < text -> write_index m L c = Fail Panicked).
Proof.
  intros m L G c HI Hne Hlast. destruct (write_exact c HI Hne Hlast) as (mvs & ns & HM & En & _ & Hw).
  exists mvs, ns. do 2 eexists. do 3 eexists. split; [exact HM|]. split; [exact En|]. split; [apply decimals_map|]. split; [apply decimals_map|].
  split; [apply digits_decimals|]. split; [apply digits_decimals|]. split; [apply digits_decimals|].
  rewrite metadata_len, !nums_len_sum, last_map_len, !map_length, (Forall2_length HM) in Hw.
  cbv zeta. unfold bytes_of, METADATA_LEN in Hw. revert Hw. destruct (Nat.leb_spec (144 + (list_sum (map (fun x => length (digits (N.of_nat x))) (map (@length (list N)) G)) + (length G - 1)) +
    (list_sum (map (fun x => length (digits (N.of_nat x))) (map (fun v => length (fst (msv_write v))) mvs)) + (length G - 1)) + length (digits (N.of_nat (length (last G [])))) +
    length (digits (N.of_nat (length G))) + length (digits (N.of_nat (length ns)))) 1024) as [H|H]; intros Hw; split; intros H'; auto; exfalso; lia.
Qed.
Print Assumptions C07_exactly_when_it_fits.

(** consequences: up to 34 layers of less than 2^32 elements always fit *)
Theorem C07_fits_up_to_34_layers_partial :
  forall (m : mode) (L : layers) (G : list (list (list N))) (c : cursor),
    index_is m L G -> last G [[]] <> [] ->
    length G <= 34 -> Forall (fun g => (N.of_nat (length g) < 2 ^ 32)%N) G ->
    exists c', write_index m L c = Ok c'.
Proof.
  intros m L G c HI Hlast Hk Hs. destruct (Nat.eq_dec (length G) 0) as [E0|E0].
  { apply (write_succeeds c HI Hlast); auto. lia. }
  assert (Hne : G <> []) by (intros ->; cbn in E0; lia).
  destruct (write_exact c HI Hne Hlast) as (mvs & ns & HM & En & Hns & Hw).
  revert Hw. rewrite metadata_len. destruct (Nat.leb_spec (144 + nums_len (map (@length (list N)) G) + nums_len (map (fun v => length (bytes_of v)) mvs) +
     length (digits (N.of_nat (last (map (@length (list N)) G) 0))) + length (digits (N.of_nat (length (map (@length (list N)) G)))) +
     length (digits (N.of_nat (length ns)))) METADATA_LEN) as [H|H]; [auto|exfalso].
  assert (H10 : Forall (fun n => (N.of_nat n < 10 ^ N.of_nat 10)%N) (map (@length (list N)) G)).
  { apply Forall_map. eapply Forall_impl; [|exact Hs]. cbv beta. intros a Ha. eapply N.lt_le_trans; [exact Ha|apply dec_u32]. }
  assert (Hne' : map (@length (list N)) G <> []) by (destruct G; [congruence|discriminate]).
  pose proof (nums_len_lt (k := 10) ltac:(lia) H10 Hne') as H1.
  assert (Hne2 : map (fun v => length (bytes_of v)) mvs <> []) by (apply Forall2_length in HM; destruct mvs; [cbn in HM; lia|discriminate]).
  pose proof (nums_len_lt (k := 13) ltac:(lia) (comp_counts HM (proj1 HI) Hs) Hne2) as H2.
  assert (H3 : length (digits (N.of_nat (last (map (@length (list N)) G) 0))) <= 10).
  { apply digits_len; [lia|]. rewrite Forall_forall in H10. apply H10. now apply last_In. }
  assert (H4 : length (digits (N.of_nat (length (map (@length (list N)) G)))) <= 2).
  { apply digits_len; [lia|]. rewrite map_length. change (10 ^ N.of_nat 2)%N with 100%N. lia. }
  assert (H5 : length (digits (N.of_nat (length ns))) <= 3).
  { apply digits_len; [lia|]. change (10 ^ N.of_nat 3)%N with 1000%N. lia. }
  rewrite !map_length in *. rewrite <- (Forall2_length HM) in H1, Hk. unfold METADATA_LEN in H. lia.
Qed.
Print Assumptions C07_fits_up_to_34_layers_partial.

(** and layers of at least 10^d elements do not fit if there are too many of
    them: 88 layers of 1000 elements or more, 110 of 100, 147 of 10, 220 of 1 *)
Theorem C07_many_large_layers_refuted :
  forall (m : mode) (L : layers) (G : list (list (list N))) (c : cursor) (d : nat),
    index_is m L G -> G <> [] -> last G [[]] <> [] ->
    Forall (fun g => (10 ^ N.of_nat d <= N.of_nat (length g))%N) G ->
    880 <= 2 * (d + 2) * length G + d ->
    write_index m L c = Fail Panicked.
Proof.
  intros m L G c d HI Hne Hlast Hd Hk.
  destruct (write_exact c HI Hne Hlast) as (mvs & ns & HM & En & Hns & Hw).
  revert Hw. rewrite metadata_len. destruct (Nat.leb_spec (144 + nums_len (map (@length (list N)) G) + nums_len (map (fun v => length (bytes_of v)) mvs) +
     length (digits (N.of_nat (last (map (@length (list N)) G) 0))) + length (digits (N.of_nat (length (map (@length (list N)) G)))) +
     length (digits (N.of_nat (length ns)))) METADATA_LEN) as [H|H]; [exfalso|auto].
  assert (Hd' : Forall (fun n => (10 ^ N.of_nat d <= N.of_nat n)%N) (map (@length (list N)) G)) by now apply Forall_map.
  pose proof (nums_len_ge_dec Hd') as H1. pose proof (nums_len_ge_dec (comp_counts_ge HM (proj1 HI) Hd)) as H2.
  assert (H3 : d + 1 <= length (digits (N.of_nat (last (map (@length (list N)) G) 0)))).
  { apply digits_ge. rewrite Forall_forall in Hd'. apply Hd'. apply last_In. destruct G; [congruence|discriminate]. }
  pose proof (digits_len_pos (N.of_nat (length (map (@length (list N)) G)))). pose proof (digits_len_pos (N.of_nat (length ns))).
  rewrite !map_length in *. rewrite (Forall2_length HM) in H2. unfold METADATA_LEN in H. lia.
Qed.
Print Assumptions C07_many_large_layers_refuted.

(** The boundary is met: 146 layers of one element without neighbours can be
    saved (1023 bytes), 147 cannot. *)
Definition tiny_layers (k : nat) : layers := FixWidth (repeat (mkFw [UNUSED] 1) k).
Lemma tiny_layers_is m k : index_is m (tiny_layers k) (repeat [[]] k).
Proof.
  split.
  - apply Forall_forall. intros g Hg. apply repeat_spec in Hg. subst. reflexivity.
  - unfold tiny_layers. induction k; cbn [repeat]; constructor; auto.
    exists 1. split; [lia|]. split; [repeat constructor|]. repeat constructor; cbn; lia.
Qed.
Example C07_exact_nonvacuous :
  (forall k, index_is Debug (tiny_layers k) (repeat [[]] k)) /\
  last (repeat [[]] 147) [[]] <> @nil (list N) /\
  match write_index Debug (tiny_layers 146) (mkCursor [] 0) with Ok _ => true | Fail _ => false end = true /\
  write_index Debug (tiny_layers 147) (mkCursor [] 0) = Fail Panicked.
Proof.
  split; [intros k; apply tiny_layers_is|]. split; [cbn; discriminate|]. split; vm_compute; reflexivity.
Qed.

(** 88 layers of 1000 elements *)
Lemma blank_layer_is k : fix_layer_is (mkFw (repeat UNUSED k) 1) (repeat [] k).
Proof.
  exists 1. split; [lia|]. split; [split; [reflexivity|]; cbn [fdata]; split|].
  - induction k; cbn [repeat map concat app Nat.sub length]; [reflexivity|]. now f_equal.
  - apply Forall_map. apply Forall_forall. intros x Hx. apply repeat_spec in Hx. now subst.
  - apply Forall_forall. intros x Hx. apply repeat_spec in Hx. subst. repeat split; cbn; try lia. constructor.
Qed.
Lemma blank_layers_are m k n : layer_fits k -> index_is m (FixWidth (repeat (mkFw (repeat UNUSED k) 1) n)) (repeat (repeat [] k) n).
Proof.
  intros Hk. split.
  - apply Forall_forall. intros x Hx. apply repeat_spec in Hx. subst. now rewrite repeat_length.
  - induction n; cbn [repeat]; constructor; auto using blank_layer_is.
Qed.
Example C07_many_large_layers_nonvacuous :
  let L := FixWidth (repeat (mkFw (repeat UNUSED 1000) 1) 88) in
  let G := repeat (repeat (@nil N) 1000) 88 in
  index_is Release L G /\ Forall (fun g => (10 ^ N.of_nat 3 <= N.of_nat (length g))%N) G /\
  880 <= 2 * (3 + 2) * length G + 3.
Proof.
  cbv zeta. split; [apply blank_layers_are; reflexivity|]. split.
  - apply Forall_forall. intros x Hx. apply repeat_spec in Hx. subst x. rewrite (repeat_length (@nil N) 1000). apply N.leb_le. vm_compute. reflexivity.
  - apply Nat.leb_le. vm_compute. reflexivity.
Qed.
