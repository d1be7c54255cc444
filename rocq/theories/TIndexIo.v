(** * Property theorems: saving and loading an index (C06, C07, C09, C18, C47, C48) *)
From Verif Require Import Base BaseFacts Bytes PBytes MSliceVec SSliceVec MOffsets SOffsets MSetVec MJson MIndexIo SIndexIo PIndexIo PIndexCrash PIndexBuilder.

(** ** C06 Saved index loads back as the same graph *)
Theorem C06_saved_index_loads_back :
  forall (m : mode) (L : layers) (G : list (list (list N))) (c0 c1 : cursor),
    index_is m L G -> write_index m L c0 = Ok c1 ->
    exists L', load_layers (skipn (cpos c0) (cbuf c1)) = Ok L' /\ same_index m L L' /\ index_is m L' G.
Proof.
  intros m L G c0 c1 HI Hw. destruct (save_load _ HI Hw) as (L' & E & HI'). exists L'. split; [exact E|].
  split; [|exact HI']. exists G. split; apply index_is_shows; assumption.
Qed.
Print Assumptions C06_saved_index_loads_back.

(** ... and the save succeeds for up to 25 layers of less than 2^32 nodes, the
    last of them not empty *)
Theorem C06_save_succeeds :
  forall (m : mode) (L : layers) (G : list (list (list N))) (c : cursor),
    index_is m L G -> last G [[]] <> [] ->
    length G <= 25 -> Forall (fun g => (N.of_nat (length g) < 2 ^ 32)%N) G ->
    exists c', write_index m L c = Ok c'.
Proof. exact write_succeeds. Qed.
Print Assumptions C06_save_succeeds.

Definition ex_index : layers :=
  FixWidth [mkFw [1;UNUSED;0;UNUSED]%N 2; mkFw [2;1;0;UNUSED;0;UNUSED;UNUSED;UNUSED]%N 2].
Definition ex_graph : list (list (list N)) := [[[1];[0]]; [[2;1];[0];[0];[]]]%N.

Lemma ex_index_is m : index_is m ex_index ex_graph.
Proof.
  split; [repeat constructor|]. unfold ex_index, ex_graph.
  repeat (apply Forall2_cons || apply Forall2_nil).
  all: exists 2; split; [lia|]; split; [repeat constructor|].
  all: repeat (apply Forall_cons || apply Forall_nil); cbn [length]; repeat split; try lia.
  all: repeat constructor.
Qed.

Example C06_nonvacuous :
  index_is Debug ex_index ex_graph /\
  (let* c := write_index Debug ex_index (mkCursor [7;7;7]%N 3) in
   let* L' := load_layers (skipn 3 (cbuf c)) in
   let* a := get_neighbors Debug L' 0 1 in let* b := get_neighbors Debug L' 3 1 in
   let* n := index_len L' in Ok (a, b, n)) = Ok ([1;2], [], 4).
Proof. split; [apply ex_index_is|]. vm_compute. reflexivity. Qed.

(** ** C07 Metadata block *)
(** With up to 25 layers the block never overflows (this is C06_save_succeeds:
    no other reason to fail remains).  In general the property is false: every
    index of 220 layers or more cannot be saved, whatever it contains. *)
Theorem C07_fits_up_to_25_layers_partial :
  forall (m : mode) (L : layers) (G : list (list (list N))) (c : cursor),
    index_is m L G -> last G [[]] <> [] ->
    length G <= 25 -> Forall (fun g => (N.of_nat (length g) < 2 ^ 32)%N) G ->
    exists c', write_index m L c = Ok c'.
Proof. exact write_succeeds. Qed.
Print Assumptions C07_fits_up_to_25_layers_partial.

Theorem C07_many_layers_refuted :
  forall (m : mode) (L : layers) (c c' : cursor),
    220 <= layers_len L -> write_index m L c <> Ok c'.
Proof. exact too_many_layers. Qed.
Print Assumptions C07_many_layers_refuted.

(** such an index of well-formed layers exists *)
Example C07_nonvacuous :
  let L := FixWidth (repeat (mkFw [UNUSED] 1) 220) in
  index_is Debug L (repeat [[]] 220) /\ layers_len L = 220.
Proof.
  cbv zeta. split; [|reflexivity]. split.
  - apply Forall_forall. intros g Hg. apply repeat_spec in Hg. subst. reflexivity.
  - generalize 220. induction n; cbn [repeat]; constructor; auto.
    exists 1. split; [lia|]. split; [repeat constructor|]. repeat constructor; cbn; lia.
Qed.

(** ** C09 Re-opened builder *)
(** every row holds the [nn] smallest of the saved neighbours, ascending, then
    unused slots *)
Theorem C09_reopened_rows :
  forall (m : mode) (L : layers) (G : list (list (list N))) (c0 c1 : cursor) (nn : nat),
    0 < nn -> index_is m L G -> write_index m L c0 = Ok c1 ->
    exists ls, builder_from_bytes m nn (skipn (cpos c0) (cbuf c1)) = Ok ls /\
      Forall2 (fun l g => exists rows, fw_is nn rows l /\
        Forall2 (fun row ns => exists s, sorted_version ns s /\
                   row = firstn nn s ++ repeat UNUSED (nn - length s)) rows g) ls G.
Proof. intros m L G c0 c1 nn. exact (@builder_reopen m L G c0 c1 nn). Qed.
Print Assumptions C09_reopened_rows.

Theorem C09_reopened_same_graph :
  forall (m : mode) (L : layers) (G : list (list (list N))) (c0 c1 : cursor) (nn : nat),
    0 < nn -> index_is m L G -> write_index m L c0 = Ok c1 ->
    Forall (Forall (fun ns => length ns <= nn /\ Forall (fun x => (x < UNUSED)%N) ns)) G ->
    exists ls, builder_from_bytes m nn (skipn (cpos c0) (cbuf c1)) = Ok ls /\ same_index m L (FixWidth ls).
Proof. intros m L G c0 c1 nn. exact (@builder_keeps m L G c0 c1 nn). Qed.
Print Assumptions C09_reopened_same_graph.

Example C09_nonvacuous :
  (let* c := write_index Debug ex_index (mkCursor [] 0) in
   let* a := builder_from_bytes Debug 3 (cbuf c) in
   let* b := builder_from_bytes Debug 1 (cbuf c) in
   Ok (map fdata a, map fdata b))
  = let U := UNUSED in
    Ok ([[1;U;U;0;U;U]; [1;2;U;0;U;U;0;U;U;U;U;U]], [[1;0]; [1;0;0;U]])%N.
Proof. vm_compute. reflexivity. Qed.

(** ** C18 Typed views *)
Theorem C18_index_views_in_bounds_partial :
  forall (buffer : list N),
    ((exists L, load_layers buffer = Ok L) <-> (exists vs, index_views buffer = Ok vs)) /\
    forall vs, index_views buffer = Ok vs ->
      Forall (fun v => voff v + vcount v * vsize v <= length buffer) vs.
Proof. intros buffer. split; [apply views_iff_load|]. intros vs H. exact (index_views_inside _ H). Qed.
Print Assumptions C18_index_views_in_bounds_partial.

(** Collections: loading succeeds exactly when the views exist, the views lie in
    the buffer, and the collection consists of what they show. *)
Theorem C18_collection_views_in_bounds_partial :
  forall {T} (R : repr T) (buffer : list N) (osize oalign talign : nat), 0 < osize -> 0 < rsize R ->
    (forall vs, fw_views buffer (rsize R) talign = Ok vs ->
       Forall (fun v => voff v + vcount v * vsize v <= length buffer) vs /\ exists v, fw_load R buffer = Ok v) /\
    (forall v, fw_load R buffer = Ok v ->
       exists w, fw_views buffer (rsize R) talign = Ok [w] /\ fdata v = shown R buffer w) /\
    (forall vs, vw_views buffer osize oalign (rsize R) talign = Ok vs ->
       Forall (fun v => voff v + vcount v * vsize v <= length buffer) vs /\ exists v, vw_from_bytes osize R buffer = Ok v) /\
    (forall v, vw_from_bytes osize R buffer = Ok v ->
       exists w1 w2, vw_views buffer osize oalign (rsize R) talign = Ok [w1; w2] /\
         voffs v = shown (off_repr osize) buffer w1 /\ vdata v = shown R buffer w2).
Proof.
  intros T R buffer osize oalign talign Ho Ht. destruct (@fw_views_load _ R buffer talign Ht) as [F1 F2].
  destruct (@vw_views_load _ R osize buffer oalign talign Ho Ht) as [V1 V2].
  split; [|split; [exact F1|split; [|exact V1]]]; intros vs H.
  - split; [exact (fw_views_inside _ _ Ht H)|exact (F2 _ H)].
  - split; [exact (vw_views_inside _ _ _ Ho Ht H)|exact (V2 _ H)].
Qed.
Print Assumptions C18_collection_views_in_bounds_partial.
Example C18_collection_nonvacuous :
  vw_views (le_enc 8 2 ++ concat (map (le_enc 4) [0;1;3]%N) ++ [7;8;9]%N) 4 4 1 1 = Ok [mkView 8 3 4 4; mkView 20 3 1 1].
Proof. reflexivity. Qed.

(** What is missing, because it is false: alignment.  A saved index of two
    layers, placed at an address that is a multiple of 8 (as a memory map is),
    has its second offset table at an odd multiple of 2. *)
Theorem C18_misaligned_refuted :
  exists (L : layers) (G : list (list (list N))) (c : cursor) (vs : list view) (v : view),
    index_is Debug L G /\ write_index Debug L (mkCursor [] 0) = Ok c /\
    index_views (cbuf c) = Ok vs /\ In v vs /\ 0 < vcount v /\ valign v = 8 /\ voff v mod valign v <> 0.
Proof.
  exists ex_index, ex_graph.
  destruct (write_index Debug ex_index (mkCursor [] 0)) as [c|] eqn:E; [|vm_compute in E; discriminate].
  exists c. 
  assert (Hv : (let* c := write_index Debug ex_index (mkCursor [] 0) in index_views (cbuf c)) =
     Ok [mkView 1032 1 128 8; mkView 1160 10 1 1; mkView 1178 1 128 8; mkView 1306 17 1 1]) by (vm_compute; reflexivity).
  rewrite E in Hv. cbn [obind] in Hv.
  eexists. exists (mkView 1178 1 128 8). split; [apply ex_index_is|]. split; [reflexivity|].
  split; [exact Hv|]. split; [cbn; tauto|]. cbn [vcount valign voff]. split; [lia|]. split; [reflexivity|].
  vm_compute. discriminate.
Qed.
Print Assumptions C18_misaligned_refuted.

Theorem C18_first_table_aligned_partial :
  forall (buffer : list N) (vs : list view), index_views buffer = Ok vs ->
    match vs with v :: _ => voff v = 1032 /\ voff v mod 8 = 0 | [] => True end.
Proof. exact first_table_aligned. Qed.
Print Assumptions C18_first_table_aligned_partial.

(** ** C47 A successful save means the bytes were written *)
(** Whatever device calls fail: if [write_index] reports success, everything
    except possibly a suffix of the metadata block has reached the device. *)
Theorem C47_ok_means_layers_written_partial :
  forall (fails : nat -> option nat) (cap : nat) (m : mode) (L : layers) (d : device) r (d' : device),
    write_index_parts m L (cpos (dcur d)) = Ok r ->
    save_through fails cap d (fst r ++ [WWrite (snd r)]) = (d', true) ->
    exists k, cbuf (dcur d') = cbuf (cwrite (run_ops (dcur d) (fst r)) (firstn k (snd r))).
Proof. exact ok_all_but_metadata. Qed.
Print Assumptions C47_ok_means_layers_written_partial.

(** On a device that never fails everything is written. *)
Theorem C47_reliable_device_partial :
  forall (cap : nat) (m : mode) (L : layers) (d : device) (c' : cursor),
    write_index m L (dcur d) = Ok c' ->
    exists ops d', write_index_ops m L (cpos (dcur d)) = Ok ops /\
      save_through (fun _ => None) cap d ops = (d', true) /\ cbuf (dcur d') = cbuf c'.
Proof.
  intros cap m L d c'. unfold write_index. destruct (write_index_ops m L (cpos (dcur d))) as [ops|]; [|discriminate].
  cbn [obind]. intros H. injection H as <-. destruct (reliable_all_written cap d ops) as (d' & E & Hb). eauto.
Qed.
Print Assumptions C47_reliable_device_partial.

(** The property is false: for every index, one failing device call (the flush
    in [Drop]) makes [write_index] return [Ok] although the file cannot be
    loaded. *)
Theorem C47_error_lost_refuted :
  forall (cap : nat) (m : mode) (L : layers) (ops : list wop),
    1024 < cap -> write_index_ops m L 0 = Ok ops ->
    exists fails d', save_through fails cap (mkDev (mkCursor [] 0) 0) ops = (d', true) /\
      load_layers (cbuf (dcur d')) = Fail Panicked.
Proof. exact metadata_lost. Qed.
Print Assumptions C47_error_lost_refuted.

Example C47_nonvacuous :
  (let* ops := write_index_ops Debug ex_index 0 in Ok (length ops)) = Ok 26.
Proof. vm_compute. reflexivity. Qed.

(** ** C48 Crash while saving *)
(** Saving to a fresh file and stopping after any number of byte writes: if the
    file loads at all, it shows the whole index. *)
Theorem C48_fresh_file_all_or_nothing :
  forall (m : mode) (L : layers) (G : list (list (list N))) (ops : list wop) (k : nat) (L' : layers),
    index_is m L G -> write_index_ops m L 0 = Ok ops ->
    load_layers (crash_image (mkCursor [] 0) ops k) = Ok L' -> index_shows m L' G.
Proof. exact crash_safe. Qed.
Print Assumptions C48_fresh_file_all_or_nothing.

(** The second half (a crash leaves either the old or the new index) is false.
    Every caller in the code base truncates the existing file first; whatever
    index the file held before, every crash point before the last 1024 byte
    writes leaves a file that cannot be loaded at all: the old index is gone and
    the new one is not there. *)
Theorem C48_truncate_refuted :
  forall (m : mode) (L : layers) (ops : list wop) (k : nat),
    write_index_ops m L 0 = Ok ops -> k + 1024 <= length (concat (map op_bops ops)) ->
    load_layers (crash_image (mkCursor [] 0) ops k) = Fail Panicked.
Proof. exact crash_early_lost. Qed.
Print Assumptions C48_truncate_refuted.

(** and writing over an existing file without truncating it can leave a file that
    loads as an index that is neither the old nor the new one. *)
Definition ex_old : layers := FixWidth [mkFw [1;0]%N 1; mkFw [1;0;1]%N 1].
Definition ex_new : layers := FixWidth [mkFw [0;1]%N 1; mkFw [2;2;0]%N 1].
Definition edges (m : mode) (L : layers) : outcome (list (list (list nat))) :=
  let* ns := omapM (layer_len L) (seq 0 (layers_len L)) in
  omapM (fun p => omapM (fun j => get_neighbors m L j (fst p)) (seq 0 (snd p))) (combine (seq 0 (layers_len L)) ns).

Theorem C48_overwrite_in_place_refuted :
  exists k,
    (let* c := write_index Debug ex_old (mkCursor [] 0) in
     let* ops := write_index_ops Debug ex_new 0 in
     let* L' := load_layers (crash_image (mkCursor (cbuf c) 0) ops k) in
     let* e := edges Debug L' in let* e1 := edges Debug ex_old in let* e2 := edges Debug ex_new in
     Ok (e, e1, e2))
    = Ok ([[[0];[1]]; [[1];[0];[1]]], [[[1];[0]]; [[1];[0];[1]]], [[[0];[1]]; [[2];[2];[0]]]).
Proof. exists 160. vm_compute. reflexivity. Qed.
Print Assumptions C48_overwrite_in_place_refuted.

Example C48_nonvacuous :
  index_is Debug ex_index ex_graph /\
  (let* ops := write_index_ops Debug ex_index 0 in
   let n := length (concat (map op_bops ops)) in
   let img k := match load_layers (crash_image (mkCursor [] 0) ops k) with Ok L' => edges Debug L' | Fail e => Fail e end in
   Ok (n, img n, img (n - 1), img 40)) =
  Ok (1338, Ok [[[1];[0]]; [[1;2];[0];[0];[]]], Fail Panicked, Fail Panicked).
Proof. split; [apply ex_index_is|]. vm_compute. reflexivity. Qed.
