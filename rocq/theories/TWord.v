(** * C76: machine words.  Numbers up to 2^64 - 1 given as an index, read from a
    file or given as a search width. *)
From Verif Require Import Base BaseFacts Bytes PBytes MSliceVec SSliceVec PFixed PVar MOffsets MSetVec SOffsets
  POffsets PSetVec MIndexIo SIndexIo PIndexIo PIndexCrash MWord PWord.

(** ** Vectors and neighbour rows of one width *)

(** Indices in range: the item, whatever the profile. *)
Theorem C76_in_range :
  forall {T} (w : nat) (rows : list (list T)) (v : fw T) m i r,
    0 < w -> fw_is w rows v -> (N.of_nat (length rows * w) < 2 ^ 64)%N ->
    nth_error rows i = Some r ->
    wfw_get m v (N.of_nat i) = Ok r /\ wfw_get_mut m v (N.of_nat i) = Ok r.
Proof.
  intros T w rows v m i r Hw Hv Hf Hi. change (2 ^ 64)%N with WORD in Hf.
  pose proof (@wfw_data_len T w rows v Hv) as Hl. rewrite <- Hl in Hf.
  assert (Hlt : i < length rows) by (apply nth_error_Some; congruence).
  assert (E : wfw_get m v (N.of_nat i) = Ok r).
  { rewrite (wfw_in Hw Hv Hf m Hlt). exact (fw_is_get m i Hw Hv Hi). }
  split; [exact E|]. rewrite <- E. rewrite (wfw_in Hw Hv Hf m Hlt).
  unfold wfw_get_mut, fw_get. rewrite (fw_is_len Hw Hv).
  replace (N.of_nat i <? N.of_nat (length rows))%N with true by (symmetry; apply N.ltb_lt; lia).
  replace (i <? length rows) with true by (symmetry; apply Nat.ltb_lt; lia).
  replace (debug_assert m true) with (@Ok unit tt) by (destruct m; reflexivity). cbn [obind].
  rewrite (proj1 Hv). assert ((i + 1) * w <= length (fdata v)) by nia.
  rewrite usize_mul_small by nia. cbn [obind]. rewrite usize_add_small by nia. cbn [obind].
  rewrite <- wslice_nat. f_equal; lia.
Qed.
Print Assumptions C76_in_range.

(** With overflow checks and assertions every index beyond the end panics. *)
Theorem C76_checked_build_refuses :
  forall {T} (w : nat) (rows : list (list T)) (v : fw T) (idx : N),
    0 < w -> fw_is w rows v -> (N.of_nat (length rows) <= idx)%N ->
    wfw_get Debug v idx = Fail Panicked /\ wfw_get_mut Debug v idx = Fail Panicked.
Proof.
  intros T w rows v idx Hw Hv H. split; [now apply (wfw_debug Hw Hv)|now apply (wfw_mut_debug Hw Hv)].
Qed.
Print Assumptions C76_checked_build_refuses.

(** Without them too, as long as the position [idx * w] is below 2^64. *)
Theorem C76_reasonable_index_refused :
  forall {T} (w : nat) (rows : list (list T)) (v : fw T) m (idx : N),
    0 < w -> fw_is w rows v -> (N.of_nat w < 2 ^ 64)%N -> (N.of_nat (length rows * w) < 2 ^ 64)%N ->
    (N.of_nat (length rows) <= idx)%N -> (idx * N.of_nat w < 2 ^ 64)%N ->
    wfw_get m v idx = Fail Panicked.
Proof.
  intros T w rows v m idx Hw Hv Hk Hf H Hs. change (2 ^ 64)%N with WORD in *.
  rewrite <- (wfw_data_len Hv) in Hf. apply (wfw_small_out Hw Hv Hk Hf m H Hs). nia.
Qed.
Print Assumptions C76_reasonable_index_refused.

(** What a build without checks answers for any 64-bit number: the [w] numbers
    that start at position [idx * w] modulo 2^64, if there are that many. *)
Theorem C76_unchecked_build_exact_partial :
  forall {T} (w : nat) (rows : list (list T)) (v : fw T) (idx : N),
    0 < w -> fw_is w rows v -> (N.of_nat w < 2 ^ 64)%N -> (N.of_nat (length rows * w) < 2 ^ 64)%N ->
    (idx < 2 ^ 64)%N ->
    let p := ((idx * N.of_nat w) mod 2 ^ 64)%N in
    let answer := if (p + N.of_nat w <=? N.of_nat (length rows * w))%N
                  then Ok (firstn w (skipn (N.to_nat p) (concat rows))) else Fail Panicked in
    wfw_get Release v idx = answer /\ wfw_get_mut Release v idx = answer.
Proof.
  intros T w rows v idx Hw Hv Hk Hf Hi. change (2 ^ 64)%N with WORD in *. cbn zeta.
  rewrite <- (wfw_data_len Hv) in *. rewrite <- (proj1 (proj2 Hv)).
  split; [exact (wfw_release Hw Hv Hk Hf Hi)|exact (wfw_mut_release Hw Hv Hk Hf Hi)].
Qed.
Print Assumptions C76_unchecked_build_exact_partial.

(** Refuted: a collection of at least two vectors of at least two numbers always
    has an index beyond its end that is answered; when the width does not divide
    2^64 the answer is the end of the first vector and the start of the second. *)
Theorem C76_refuted :
  forall {T} (w : nat) (rows : list (list T)) (v : fw T) r0 r1,
    2 <= w -> fw_is w rows v -> (N.of_nat w < 2 ^ 64)%N -> (N.of_nat (length rows * w) < 2 ^ 64)%N ->
    nth_error rows 0 = Some r0 -> nth_error rows 1 = Some r1 ->
    exists idx k, (N.of_nat (length rows) <= idx < 2 ^ 64)%N /\ k < w /\
      N.of_nat k = (idx * N.of_nat w - 2 ^ 64)%N /\
      wfw_get Release v idx = Ok (skipn k r0 ++ firstn k r1) /\
      ((2 ^ 64 mod N.of_nat w <> 0)%N -> 0 < k).
Proof.
  intros T w rows v r0 r1 Hw2 Hv Hk Hf H0 H1. change (2 ^ 64)%N with WORD in *.
  assert (Hw : 0 < w) by lia. rewrite <- (wfw_data_len Hv) in Hf.
  destruct rows as [|a [|b rows]]; cbn in H0, H1; try discriminate.
  injection H0 as ->. injection H1 as ->.
  destruct (@wfw_wrapping T w (r0 :: r1 :: rows) v Hw Hv Hk Hf Hw2 ltac:(cbn; lia)) as [E Hout].
  destruct (@first_wrapping_spec w Hk Hw2) as (A & B & C).
  exists (first_wrapping w), (N.to_nat (first_wrapping w * N.of_nat w - WORD)).
  set (f := first_wrapping w) in *. clearbody f. set (k := N.to_nat (f * N.of_nat w - WORD)) in *.
  assert (Hkw : k < w) by (subst k; lia).
  split; [auto|]. split; [exact Hkw|]. split; [subst k; lia|]. split.
  - rewrite E. f_equal. destruct Hv as (_ & -> & HF). inversion HF as [|? ? L0 HF']; subst.
    inversion HF' as [|? ? L1 _]; subst. cbn [concat].
    rewrite skipn_app. replace (k - length r0) with 0 by lia. cbn [skipn].
    rewrite firstn_app, skipn_length. rewrite firstn_all2 by (rewrite skipn_length; lia). f_equal.
    rewrite firstn_app. replace (length r0 - (length r0 - k)) with k by lia.
    replace (k - length r1) with 0 by lia. cbn [firstn]. now rewrite app_nil_r.
  - intros Hnd. destruct (Nat.eq_dec k 0) as [E0|]; [|lia]. exfalso. apply Hnd.
    assert (EW : WORD = (f * N.of_nat w)%N) by (subst k; lia). rewrite EW. apply N.mod_mul. lia.
Qed.
Print Assumptions C76_refuted.

(** The numbers of two three-dimensional vectors; index 6148914691236517206. *)
Example C76_nonvacuous :
  fw_is 3 [[1;2;3];[4;5;6]]%N (mkFw [1;2;3;4;5;6]%N 3) /\
  wfw_get Release (mkFw [1;2;3;4;5;6]%N 3) 1 = Ok [4;5;6]%N /\
  wfw_get Release (mkFw [1;2;3;4;5;6]%N 3) 2 = Fail Panicked /\
  wfw_get Release (mkFw [1;2;3;4;5;6]%N 3) 6148914691236517206 = Ok [3;4;5]%N /\
  wfw_get_mut Release (mkFw [1;2;3;4;5;6]%N 3) 6148914691236517206 = Ok [3;4;5]%N /\
  wfw_get Debug (mkFw [1;2;3;4;5;6]%N 3) 6148914691236517206 = Fail Panicked /\
  wfw_get Release (mkFw [1;2;3;4]%N 2) 9223372036854775808 = Ok [1;2]%N.
Proof. split; [split; [reflexivity|split; [reflexivity|repeat constructor]]|]. vm_compute. repeat split. Qed.

(** [subslice(b, e)] *)
Theorem C76_subslice :
  forall {T} (w : nat) (rows : list (list T)) (v : fw T) m b e,
    0 < w -> fw_is w rows v -> (N.of_nat (length rows * w) < 2 ^ 64)%N -> b <= e <= length rows ->
    exists v', wfw_subslice m v (N.of_nat b) (N.of_nat e) = Ok v' /\
      fw_is w (firstn (e - b) (skipn b rows)) v'.
Proof.
  intros T w rows v m b e Hw Hv Hf Hbe. change (2 ^ 64)%N with WORD in Hf.
  pose proof (@wfw_data_len T w rows v Hv) as Hl.
  unfold wfw_subslice. rewrite (proj1 Hv).
  rewrite usize_mul_small by nia. cbn [obind]. rewrite usize_mul_small by nia. cbn [obind].
  replace (N.of_nat b * N.of_nat w)%N with (N.of_nat (b * w)) by lia.
  replace (N.of_nat e * N.of_nat w)%N with (N.of_nat (e * w)) by lia. rewrite wslice_nat.
  destruct Hv as (E & D & F).
  assert (Es : slice (fdata v) (b * w) (e * w) = Ok (concat (firstn (e - b) (skipn b rows)))).
  { unfold slice. replace (b * w <=? e * w) with true by (symmetry; apply Nat.leb_le; nia).
    replace (e * w <=? length (fdata v)) with true by (symmetry; apply Nat.leb_le; nia). cbn [andb]. f_equal. rewrite D.
    assert (Esk : forall k (l : list (list T)), Forall (fun r => length r = w) l -> skipn (k * w) (concat l) = concat (skipn k l)).
    { clear. induction k as [|k IH]; intros l Hl; [reflexivity|]. destruct l as [|r l]; [now rewrite !skipn_nil|].
      inversion Hl as [|? ? Hr Hl']; subst. cbn [concat skipn Nat.mul].
      rewrite skipn_app. rewrite skipn_all2 by lia. cbn [app].
      replace (length r + k * length r - length r) with (k * length r) by lia. now apply IH. }
    assert (Efn : forall k (l : list (list T)), Forall (fun r => length r = w) l -> firstn (k * w) (concat l) = concat (firstn k l)).
    { clear. induction k as [|k IH]; intros l Hl; [reflexivity|]. destruct l as [|r l]; [now rewrite !firstn_nil|].
      inversion Hl as [|? ? Hr Hl']; subst. cbn [concat firstn Nat.mul].
      rewrite firstn_app. rewrite firstn_all2 by lia.
      replace (length r + k * length r - length r) with (k * length r) by lia. f_equal. now apply IH. }
    rewrite Esk by auto. rewrite <- Nat.mul_sub_distr_r. apply Efn.
    rewrite Forall_forall in *. intros x Hx. apply F. rewrite <- (firstn_skipn b rows). apply in_or_app. now right. }
  rewrite Es. cbn [obind].
  assert (HF : Forall (fun r => length r = w) (firstn (e - b) (skipn b rows))).
  { rewrite Forall_forall in *. intros x Hx. apply F. rewrite <- (firstn_skipn b rows). apply in_or_app. right.
    rewrite <- (firstn_skipn (e - b) (skipn b rows)). apply in_or_app. now left. }
  unfold fw_with_data. replace (0 <? w) with true by (symmetry; apply Nat.ltb_lt; lia). cbn [oassert obind].
  rewrite (concat_length_const HF). rewrite Nat.mod_mul by lia. cbn [Nat.eqb oassert obind].
  eexists. split; [reflexivity|]. repeat split; auto.
Qed.
Print Assumptions C76_subslice.
Example C76_subslice_nonvacuous :
  wfw_subslice Release (mkFw [1;2;3;4;5;6]%N 2) 1 3 = Ok (mkFw [3;4;5;6]%N 2) /\
  (* the end wraps round: the second vector only *)
  wfw_subslice Release (mkFw [1;2;3;4;5;6]%N 2) 1 9223372036854775810 = Ok (mkFw [3;4]%N 2).
Proof. vm_compute. repeat split. Qed.

(** ** Neighbours of a node *)

(** In range: the answers of the other theorems, in every index. *)
Theorem C76_neighbours_in_range :
  forall m L G layer g idx,
    index_is m L G -> nth_error G layer = Some g -> idx < length g ->
    (forall ls l, L = FixWidth ls -> In l ls -> (N.of_nat (length (fdata l)) < 2 ^ 64)%N) ->
    wget_neighbors m L (N.of_nat idx) (N.of_nat layer) = get_neighbors m L idx layer /\
    exists ns, get_neighbors m L idx layer = Ok ns.
Proof.
  intros m L G layer g idx HI Hg Hi Hsz. split.
  2: { destruct (index_is_shows HI) as [_ S]. destruct (S _ _ Hg) as [_ S2].
       destruct (nth_error g idx) as [ns|] eqn:En; [|apply nth_error_None in En; lia].
       destruct (S2 _ _ En) as (ns' & E & _). eauto. }
  change (2 ^ 64)%N with WORD in Hsz. destruct HI as [Hfit HL].
  destruct L as [ls|ls]; cbn [wget_neighbors get_neighbors]; rewrite windex_nat.
  - destruct (nth_error_Forall2_l _ HL Hg) as (l & El & (w & Hw & Hl & _)).
    unfold index. rewrite El. cbn [ounwrap obind]. unfold wfw_neighbors, fw_neighbors.
    rewrite (wfw_in Hw Hl); [reflexivity| |now rewrite map_length].
    apply (Hsz ls l eq_refl). eapply nth_error_In; eauto.
  - destruct (nth_error_Forall2_l _ HL Hg) as (l & El & Hl).
    unfold index. rewrite El. cbn [ounwrap obind]. apply comp_layer_is_msv in Hl. destruct Hl as (es & Hv & HF).
    unfold wmsv_neighbors, msv_neighbors, msv_get.
    assert (Hlen : length es = length g) by (rewrite <- (Forall2_length HF); apply map_length).
    rewrite (@wcvw_in N es l); [| |lia].
    + destruct (cvw_get m l idx); reflexivity.
    + rewrite Hlen. rewrite Forall_forall in Hfit. apply Hfit. eapply nth_error_In; eauto.
Qed.
Print Assumptions C76_neighbours_in_range.

(** A compressed index (every index read from a file or from bytes, every
    reordered index) refuses every other node number and every other layer. *)
Theorem C76_compressed_index_refuses :
  forall m ls G,
    index_is m (Compressed ls) G ->
    (forall layer g idx, nth_error G layer = Some g -> (N.of_nat (length g) <= idx < 2 ^ 64)%N ->
       wget_neighbors m (Compressed ls) idx (N.of_nat layer) = Fail Panicked) /\
    (forall layer idx, (N.of_nat (length G) <= layer)%N ->
       wget_neighbors m (Compressed ls) idx layer = Fail Panicked).
Proof.
  intros m ls G [Hfit HL]. split.
  - intros layer g idx Hg Hi. change (2 ^ 64)%N with WORD in Hi. cbn [wget_neighbors]. rewrite windex_nat.
    destruct (nth_error_Forall2_l _ HL Hg) as (l & El & Hl).
    unfold index. rewrite El. cbn [ounwrap obind]. apply comp_layer_is_msv in Hl. destruct Hl as (es & Hv & HF).
    assert (Hlen : length es = length g) by (rewrite <- (Forall2_length HF); apply map_length).
    unfold wmsv_neighbors. rewrite (@wcvw_past N es l Hv); [reflexivity| |lia|lia].
    rewrite Hlen. rewrite Forall_forall in Hfit. apply Hfit. eapply nth_error_In; eauto.
  - intros layer idx H. cbn [wget_neighbors]. rewrite windex_out; [reflexivity|].
    now rewrite (Forall2_length HL).
Qed.
Print Assumptions C76_compressed_index_refuses.

Theorem C76_saved_index_refuses :
  forall m L G c0 c1,
    index_is m L G -> write_index m L c0 = Ok c1 ->
    exists L', load_layers (skipn (cpos c0) (cbuf c1)) = Ok L' /\
      forall layer g idx, nth_error G layer = Some g -> (N.of_nat (length g) <= idx < 2 ^ 64)%N ->
        wget_neighbors m L' idx (N.of_nat layer) = Fail Panicked.
Proof.
  intros m L G c0 c1 HI Hw. destruct (save_load _ HI Hw) as (L' & E & HI').
  exists L'. split; [exact E|].
  assert (exists ls, L' = Compressed ls) as (ls & ->).
  { unfold load_layers in E. repeat match type of E with
      | context [obind ?x _] => destruct x; cbn [obind] in E; [|discriminate] end.
    apply ok_inj in E. eauto. }
  apply (C76_compressed_index_refuses m ls G HI').
Qed.
Print Assumptions C76_saved_index_refuses.

(** The index of a builder (rows of one width): refuses in a checked build ... *)
Theorem C76_builder_index_checked :
  forall ls G layer g idx,
    index_is Debug (FixWidth ls) G -> nth_error G layer = Some g -> (N.of_nat (length g) <= idx)%N ->
    wget_neighbors Debug (FixWidth ls) idx (N.of_nat layer) = Fail Panicked.
Proof.
  intros ls G layer g idx [Hfit HL] Hg Hi. cbn [wget_neighbors]. rewrite windex_nat.
  destruct (nth_error_Forall2_l _ HL Hg) as (l & El & (w & Hw & Hl & _)).
  unfold index. rewrite El. cbn [ounwrap obind]. unfold wfw_neighbors.
  rewrite (wfw_debug Hw Hl) by (now rewrite map_length). reflexivity.
Qed.
Print Assumptions C76_builder_index_checked.

(** ... but otherwise invents neighbours: whenever a layer has at least two nodes
    and room for at least two neighbours each, some node number beyond its end is
    answered. *)
Theorem C76_builder_index_refuted :
  forall ls G layer g l,
    index_is Release (FixWidth ls) G -> nth_error G layer = Some g -> nth_error ls layer = Some l ->
    2 <= length g -> 2 <= fwidth l -> (N.of_nat (fwidth l) < 2 ^ 64)%N -> (N.of_nat (length (fdata l)) < 2 ^ 64)%N ->
    exists idx ns, (N.of_nat (length g) <= idx < 2 ^ 64)%N /\
      wget_neighbors Release (FixWidth ls) idx (N.of_nat layer) = Ok ns.
Proof.
  intros ls G layer g l [Hfit HL] Hg Hl Hn Hw2 Hk Hf. cbn [wget_neighbors]. change (2 ^ 64)%N with WORD in *.
  destruct (nth_error_Forall2_l _ HL Hg) as (l' & El & (w & Hw & Hv & _)).
  assert (l' = l) by congruence. subst l'. pose proof (proj1 Hv) as Ew. rewrite Ew in *.
  destruct (@wfw_wrapping N w _ l Hw Hv Hk Hf Hw2 ltac:(now rewrite map_length)) as [E Hout].
  destruct (@first_wrapping_spec w Hk Hw2) as (A & _). rewrite map_length in Hout.
  exists (first_wrapping w). unfold wfw_neighbors. eexists. split; [auto|].
  rewrite windex_nat. unfold index. rewrite El. cbn [ounwrap obind]. rewrite E. reflexivity.
Qed.
Print Assumptions C76_builder_index_refuted.

(** Two nodes that know each other, three slots each: a made-up node is answered
    when the layer is a builder's, and refused after saving; with two slots each the
    answer of node 2^63 + 1 is that of node 1. *)
Example C76_builder_index_nonvacuous :
  let U := UNUSED in
  let fix_layer := mkFw [1;U;U;0;U;U]%N 3 in
  wget_neighbors Release (FixWidth [fix_layer]) 6148914691236517205 0 = Fail Panicked /\
  wget_neighbors Release (FixWidth [fix_layer]) 12297829382473034411 0 = Ok [] /\
  wget_neighbors Release (FixWidth [mkFw [1;U;0;U]%N 2]) 9223372036854775809 0 = Ok [0] /\
  (let* c := write_index Release (FixWidth [fix_layer]) (mkCursor [] 0) in
   let* L := load_layers (cbuf c) in wget_neighbors Release L 1 0) = Ok [0] /\
  (let* c := write_index Release (FixWidth [fix_layer]) (mkCursor [] 0) in
   let* L := load_layers (cbuf c) in wget_neighbors Release L 12297829382473034411 0) = Fail Panicked /\
  (let* c := write_index Release (FixWidth [fix_layer]) (mkCursor [] 0) in
   let* L := load_layers (cbuf c) in wget_neighbors Release L 18446744073709551615 0) = Fail Panicked.
Proof. vm_compute. repeat split. Qed.

(** ** Slices of different lengths *)
Theorem C76_variable_width :
  forall {T} (rows : list (list T)) (v : vw T) m,
    vw_is rows v -> (N.of_nat (length rows) < 2 ^ 63)%N ->
    (forall i r, nth_error rows i = Some r -> wvw_get m v (N.of_nat i) = Ok r) /\
    (forall idx, (N.of_nat (length rows) <= idx < 2 ^ 64)%N -> wvw_get m v idx = Fail Panicked) /\
    wvw_len m v = Ok (N.of_nat (length rows)).
Proof.
  intros T rows v m Hv Hf. change (2 ^ 64)%N with WORD. change (2 ^ 63)%N with 9223372036854775808%N in Hf.
  pose proof (vw_is_eq Hv) as ->.
  assert (Hlo : length (voffs (vw_of rows)) = S (length rows)) by apply offsets_from_length.
  split; [|split].
  - intros i r Hi. assert (i < length rows) by (apply nth_error_Some; congruence).
    rewrite <- (vw_get_of _ _ Hi). unfold wvw_get, vw_get. rewrite windex_nat.
    destruct (index (voffs (vw_of rows)) i); cbn [obind]; auto.
    rewrite usize_add_small by (unfold WORD; lia). cbn [obind].
    replace (N.of_nat i + 1)%N with (N.of_nat (i + 1)) by lia. now rewrite windex_nat.
  - intros idx Hi. unfold wvw_get.
    destruct (windex (voffs (vw_of rows)) idx) as [b|e] eqn:Eb; cbn [obind].
    2: { unfold windex in Eb. destruct (N.ltb_spec idx (N.of_nat (length (voffs (vw_of rows))))) in Eb.
         - unfold index in Eb. destruct (nth_error (voffs (vw_of rows)) (N.to_nat idx)) eqn:En; [discriminate|].
           cbn in Eb. congruence.
         - congruence. }
    destruct (N.ltb_spec (idx + 1) WORD).
    + rewrite usize_add_small by auto. cbn [obind]. rewrite windex_out; [reflexivity|]. rewrite Hlo. lia.
    + exfalso. assert (Hn : windex (voffs (vw_of rows)) idx = Fail Panicked); [|congruence].
      apply windex_out. rewrite Hlo. unfold WORD in *. lia.
  - unfold wvw_len, usize_sub. rewrite Hlo. destruct (N.leb_spec 1 (N.of_nat (S (length rows)))); [f_equal; lia|lia].
Qed.
Print Assumptions C76_variable_width.
Example C76_variable_width_nonvacuous :
  vw_is [[7];[];[8;9]]%N (mkVw [0;1;1;3] [7;8;9]%N) /\
  wvw_get Release (mkVw [0;1;1;3] [7;8;9]%N) 2 = Ok [8;9]%N /\
  wvw_get Release (mkVw [0;1;1;3] [7;8;9]%N) 3 = Fail Panicked /\
  wvw_get Release (mkVw [0;1;1;3] [7;8;9]%N) 18446744073709551615 = Fail Panicked.
Proof. split; [split; reflexivity|]. vm_compute. repeat split. Qed.

(** Loading such a collection: as modelled elsewhere unless the size of the
    offset table leaves the range. *)
Theorem C76_variable_width_load :
  forall {T} (osz : nat) (R : repr T) m (buffer : list N) h,
    slice buffer 0 8 = Ok h -> ((1 + le_dec h) * N.of_nat osz < 2 ^ 64)%N -> (1 + le_dec h < 2 ^ 64)%N ->
    wvw_from_bytes osz R m buffer = vw_from_bytes osz R buffer.
Proof.
  intros T osz R m buffer h Hh Hm Ha. change (2 ^ 64)%N with WORD in *.
  unfold wvw_from_bytes, vw_from_bytes, load_header. change U64_LEN with 8. rewrite Hh. cbn [obind].
  destruct (slice buffer 8 (length buffer)) as [rest|]; cbn [obind]; auto.
  rewrite usize_add_small by auto. cbn [obind]. rewrite usize_mul_small by auto. cbn [obind].
  replace ((1 + le_dec h) * N.of_nat osz)%N with (N.of_nat ((1 + N.to_nat (le_dec h)) * osz)) by lia.
  change 0%N with (N.of_nat 0). rewrite !wslice_nat. reflexivity.
Qed.
Print Assumptions C76_variable_width_load.

(** Refuted: of a file whose header says 2^64 - 1 slices, a build without checks
    makes a collection that claims to hold 2^64 - 1 slices and refuses every one of
    them; a checked build panics. *)
Theorem C76_variable_width_load_refuted :
  forall {T} (osz : nat) (R : repr T) (tail : list N),
    wvw_from_bytes osz R Release (repeat 255%N 8 ++ tail) = Ok (mkVw [] (load_bytes_as R tail)) /\
    wvw_len Release (mkVw [] (load_bytes_as R tail)) = Ok (2 ^ 64 - 1)%N /\
    (forall idx, wvw_get Release (mkVw [] (load_bytes_as R tail)) idx = Fail Panicked) /\
    wvw_from_bytes osz R Debug (repeat 255%N 8 ++ tail) = Fail Panicked.
Proof.
  intros T osz R tail.
  assert (Hh : slice (repeat 255%N 8 ++ tail) 0 U64_LEN = Ok (repeat 255%N 8)) by reflexivity.
  assert (Hr : slice (repeat 255%N 8 ++ tail) U64_LEN (length (repeat 255%N 8 ++ tail)) = Ok tail).
  { unfold slice. change U64_LEN with 8. rewrite app_length. change (length (repeat 255%N 8)) with 8.
    replace (8 <=? 8 + length tail) with true by (symmetry; apply Nat.leb_le; lia).
    replace (8 + length tail <=? 8 + length tail) with true by (symmetry; apply Nat.leb_le; lia).
    cbn [andb]. replace (8 + length tail - 8) with (length tail) by lia.
    change (skipn 8 (repeat 255%N 8 ++ tail)) with tail. now rewrite firstn_all. }
  split; [|split; [reflexivity|split]].
  - unfold wvw_from_bytes. rewrite Hh. cbn [obind]. rewrite Hr. cbn [obind].
    rewrite usize_add_release. change ((1 + le_dec (repeat 255%N 8)) mod WORD)%N with 0%N. cbn [obind].
    rewrite usize_mul_release. cbn [N.mul obind]. change (0 mod WORD)%N with 0%N.
    unfold wslice at 1. cbn [N.leb N.compare andb]. destruct (N.leb_spec 0 (N.of_nat (length tail))); [|lia].
    cbn [N.to_nat N.sub firstn skipn obind].
    unfold wslice. destruct (N.leb_spec 0 (N.of_nat (length tail))); [|lia].
    destruct (N.leb_spec (N.of_nat (length tail)) (N.of_nat (length tail))); [|lia]. cbn [andb].
    rewrite N.sub_0_r, Nnat.Nat2N.id. cbn [N.to_nat skipn obind]. rewrite firstn_all.
    unfold load_bytes_as at 1. unfold chunks_exact. cbn [length]. destruct (rsize (off_repr osz)); reflexivity.
  - intros idx. unfold wvw_get. rewrite windex_out; [reflexivity|]. cbn [voffs length]. lia.
  - unfold wvw_from_bytes. rewrite Hh. cbn [obind]. rewrite Hr. reflexivity.
Qed.
Print Assumptions C76_variable_width_load_refuted.

(** ** Stored neighbour lists, whatever their bytes *)
Theorem C76_any_record :
  forall m c rest l,
    Forall (fun b => b < 256)%N (c :: rest) -> decode_into m (c :: rest) = Ok l ->
    length l = N.to_nat c /\ Forall (fun x => x < 2 ^ 32)%N l /\ (m = Debug -> StronglySorted N.le l).
Proof. intros m c rest l Hb E. exact (decode_any m Hb E). Qed.
Print Assumptions C76_any_record.

(** Refuted for builds without checks: the ids need not be ascending. *)
Theorem C76_any_record_order_refuted :
  exists rest l, Forall (fun b => b < 256)%N (2%N :: rest) /\ decode_into Release (2%N :: rest) = Ok l /\
    ~ StronglySorted N.le l.
Proof.
  exists [255;255;255;255;2;0;0;0]%N, [4294967295; 1]%N. split; [repeat constructor|]. split; [vm_compute; reflexivity|].
  intros H. inversion H as [|? ? _ HF]; subst. inversion HF; subst. lia.
Qed.
Print Assumptions C76_any_record_order_refuted.
Example C76_any_record_nonvacuous :
  decode_into Debug [2; 255;255;255;255; 0;0;0;0]%N = Ok [4294967295; 4294967295]%N /\
  decode_into Release [2; 255;255;255;255; 2;0;0;0]%N = Ok [4294967295; 1]%N /\
  decode_into Debug [2; 255;255;255;255; 2;0;0;0]%N = Fail Panicked.
Proof. vm_compute. repeat split. Qed.

(** ** A search width no memory can hold *)
Theorem C76_search_width :
  forall m max_search, search_prologue m max_search = Ok tt <-> (max_search < 2 ^ 59)%N.
Proof.
  intros m n. unfold search_prologue, heap_with_capacity. change (2 ^ 59)%N with 576460752303423488%N.
  destruct (N.leb_spec (16 * n) 9223372036854775807); cbn [oassert obind].
  - rewrite usize_mul_small by (unfold WORD; lia). cbn [obind]. split; [lia|auto].
  - split; [discriminate|lia].
Qed.
Print Assumptions C76_search_width.
Example C76_search_width_nonvacuous :
  search_prologue Release 576460752303423487 = Ok tt /\ search_prologue Release 576460752303423488 = Fail Panicked.
Proof. split; reflexivity. Qed.
