(** * Proofs: re-opening a builder from a saved index; typed views *)
From Verif Require Import Base BaseFacts Bytes PBytes MSliceVec SSliceVec PFixed PVar PCursor MOffsets SOffsets POffsets MSetVec PSetVec PSetVecWrite MJson PJson MIndexIo SIndexIo PIndexIo.
Set Implicit Arguments.

Definition row_of (nn : nat) (s : list N) : list N := firstn nn s ++ repeat UNUSED (nn - length s).

Lemma row_of_len nn s : length (row_of nn s) = nn.
Proof. unfold row_of. rewrite app_length, firstn_length, repeat_length. lia. Qed.

Lemma builder_layer_loop m nn l g : 0 < nn -> msv_is m (map sort_u32 g) l ->
  forall post pre, pre ++ post = g -> forall acc,
  fw_is nn (map (fun ns => row_of nn (sort_u32 ns)) pre) acc ->
  exists acc', ofold (fun new_layer i =>
           let* neighbors := msv_get m l i in
           fw_push new_layer (resize neighbors nn UNUSED)) (seq (length pre) (length post)) acc = Ok acc' /\
    fw_is nn (map (fun ns => row_of nn (sort_u32 ns)) g) acc'.
Proof.
  intros Hnn Hl. induction post as [|ns post IH]; intros pre E acc Hacc; cbn [length seq ofold].
  - rewrite app_nil_r in E. subst pre. eauto.
  - rewrite (msv_get_is (length pre) Hl (r := sort_u32 ns)).
    2:{ rewrite nth_error_map, <- E, nth_error_app2, Nat.sub_diag by lia. reflexivity. }
    cbn [obind]. change (resize (sort_u32 ns) nn UNUSED) with (row_of nn (sort_u32 ns)).
    unfold fw_push. destruct Hacc as (Hw & Hd & HF). rewrite Hw.
    destruct (Nat.eqb_spec nn 0); [lia|]. rewrite row_of_len, Nat.eqb_refl. cbn [oassert obind].
    destruct (IH (pre ++ [ns])) with (acc := mkFw (fdata acc ++ row_of nn (sort_u32 ns)) nn) as (acc' & E' & H').
    + now rewrite <- app_assoc.
    + rewrite map_app. cbn [map]. split; [reflexivity|]. split; [cbn [fdata]; rewrite Hd, concat_app; cbn; now rewrite app_nil_r|].
      apply Forall_app. split; auto. constructor; auto. apply row_of_len.
    + rewrite app_length, Nat.add_comm in E'. cbn [length Nat.add] in E'. eauto.
Qed.

Lemma builder_reopen m L G c0 c1 nn : 0 < nn -> index_is m L G -> write_index m L c0 = Ok c1 ->
  exists ls, builder_from_bytes m nn (skipn (cpos c0) (cbuf c1)) = Ok ls /\
    Forall2 (fun l g => exists rows, fw_is nn rows l /\
       Forall2 (fun row ns => exists s, sorted_version ns s /\ row = firstn nn s ++ repeat UNUSED (nn - length s)) rows g) ls G.
Proof.
  intros Hnn HI Hw. destruct (save_load _ HI Hw) as (L' & El & HI'). unfold builder_from_bytes. rewrite El. cbn [obind].
  destruct L' as [ls'|mvs].
  { unfold load_layers in El. destruct (read_layer_sizes _); [|discriminate]. cbn [obind] in El.
    destruct (load_loop _ _ _); discriminate. }
  destruct HI' as [_ HM]. clear -HM Hnn. induction HM as [|mv g mvs G Hmv HM IH].
  - exists []. split; auto.
  - destruct IH as (ls & E & HF). apply comp_layer_is_msv in Hmv.
    assert (EB : exists l, builder_layer m nn mv = Ok l /\ fw_is nn (map (fun ns => row_of nn (sort_u32 ns)) g) l).
    { unfold builder_layer. rewrite (msv_len_is Hmv). cbn [obind]. rewrite map_length.
      apply (builder_layer_loop Hnn Hmv g [] eq_refl). split; [reflexivity|]. split; [reflexivity|constructor]. }
    destruct EB as (l & El & Hl). exists (l :: ls). cbn [omapM]. rewrite El. cbn [obind]. rewrite E. cbn [obind].
    split; auto. constructor; auto. eexists. split; [exact Hl|]. clear.
    induction g as [|ns g IH]; cbn [map]; constructor; auto. exists (sort_u32 ns). split; [apply sort_sorted_version|reflexivity].
Qed.

(** with enough slots nothing is lost: the builder's index is the saved one *)
Lemma builder_keeps m L G c0 c1 nn : 0 < nn -> index_is m L G -> write_index m L c0 = Ok c1 ->
  Forall (Forall (fun ns => length ns <= nn /\ Forall (fun x => (x < UNUSED)%N) ns)) G ->
  exists ls, builder_from_bytes m nn (skipn (cpos c0) (cbuf c1)) = Ok ls /\ same_index m L (FixWidth ls).
Proof.
  intros Hnn HI Hw HG. destruct (@builder_reopen m L G c0 c1 nn Hnn HI Hw) as (ls & E & HF). exists ls. split; auto.
  exists G. split; [now apply index_is_shows|].
  pose proof (index_is_short HI) as Hsh.
  assert (HI2 : exists G', index_is m (FixWidth ls) G' /\ Forall2 (Forall2 (@Permutation N)) G' G).
  { destruct HI as [Hfit _]. clear -HF HG Hfit Hnn Hsh.
    induction HF as [|l g ls G (rows & Hl & Hr) HF IH].
    - exists []. split; [split; constructor|constructor].
    - inversion Hfit; inversion HG; inversion Hsh; subst. destruct IH as (G' & [HG'1 HG'2] & HP); auto.
      assert (Hrows : exists g', rows = map (fun ns => ns ++ repeat UNUSED (nn - length ns)) g' /\ Forall2 (@Permutation N) g' g /\
         Forall (fun ns => length ns <= nn /\ length ns <= 254 /\ Forall (fun x => (x < UNUSED)%N) ns) g').
      { clear -Hr H5 H9 Hnn. revert H5 H9. induction Hr as [|row ns rows g (s & [Hs1 Hs2] & ->) Hr IH]; intros H5 H9.
        - exists []. repeat split; constructor.
        - inversion H5 as [|? ? [Hn1 Hn2] H5']; inversion H9; subst. destruct IH as (g' & -> & HP & Hg'); auto.
          pose proof (Permutation_length Hs1) as HLs.
          exists (s :: g'). cbn [map]. rewrite firstn_all2 by lia. split; auto. split; [constructor; auto|].
          constructor; auto. split; [lia|]. split; [lia|]. now rewrite Hs1. }
      destruct Hrows as (g' & -> & HP1 & HF1). exists (g' :: G'). split; [split|]; constructor; auto.
      + now rewrite (Forall2_length HP1).
      + exists nn. auto. }
  destruct HI2 as (G' & HI2 & HP). destruct (index_is_shows HI2) as [HL HS]. split.
  - now rewrite HL, (Forall2_length HP).
  - intros i g Hi. destruct (nth_error_Forall2_l _ HP Hi) as (g' & Hi' & Hp). destruct (HS _ _ Hi') as [HS1 HS2].
    split; [now rewrite HS1, (Forall2_length Hp)|]. intros j ns Hj.
    destruct (nth_error_Forall2_l _ Hp Hj) as (ns2 & Hj' & Hpn). destruct (HS2 _ _ Hj') as (ns' & E' & HP').
    exists ns'. split; auto. rewrite HP'. now apply Permutation_map.
Qed.

(** ** Views stay inside the buffer *)
Definition view_inside (n : nat) (v : view) : Prop := voff v + vcount v * vsize v <= n.

Lemma view_of_inside off len size align n : off + len <= n -> 0 < size -> view_inside n (view_of off len size align).
Proof.
  intros H Hs. unfold view_inside, view_of. cbn [voff vcount vsize].
  pose proof (Nat.div_mod len size ltac:(lia)). lia.
Qed.

Lemma slice_len {A} (l : list A) b e r : slice l b e = Ok r -> b <= e /\ e <= length l /\ length r = e - b.
Proof.
  unfold slice. destruct (Nat.leb_spec b e), (Nat.leb_spec e (length l)); cbn [andb]; intros H1; inversion H1; subst.
  rewrite firstn_length, skipn_length. lia.
Qed.

Lemma cvw_views_inside off buffer tsize talign vs n : cvw_views off buffer tsize talign = Ok vs -> 0 < tsize ->
  off + length buffer <= n -> Forall (view_inside n) vs.
Proof.
  unfold cvw_views. intros H Ht Hn.
  destruct (load_header buffer) as [nb|]; [|discriminate]. cbn [obind] in H.
  destruct (slice buffer U64_LEN (length buffer)) as [rest|] eqn:E1; [|discriminate]. cbn [obind] in H.
  destruct (slice rest 0 nb) as [offs|] eqn:E2; [|discriminate]. cbn [obind] in H.
  destruct (slice rest nb (length rest)) as [data|] eqn:E3; [|discriminate]. cbn [obind] in H.
  apply slice_len in E1, E2, E3. inversion H; subst. repeat constructor; apply view_of_inside; auto; unfold CHUNK_SIZE; lia.
Qed.

Lemma index_views_inside buffer vs : index_views buffer = Ok vs -> Forall (view_inside (length buffer)) vs.
Proof.
  unfold index_views. destruct (read_layer_sizes buffer) as [sizes|]; [|discriminate]. cbn [obind].
  generalize METADATA_LEN. revert vs. induction sizes as [|s sizes IH]; intros vs start; cbn [load_views_loop].
  - intros H; inversion H; constructor.
  - destruct (slice buffer start (start + s)) as [layer|] eqn:E1; [|discriminate]. cbn [obind].
    destruct (cvw_views start layer 1 1) as [v1|] eqn:E2; [|discriminate]. cbn [obind].
    destruct (load_views_loop buffer (start + s) sizes) as [v2|] eqn:E3; [|discriminate]. cbn [obind].
    intros H; inversion H; subst. apply Forall_app. split.
    + apply slice_len in E1. eapply cvw_views_inside; [exact E2|lia|lia].
    + now apply (IH _ (start + s)).
Qed.

Lemma fw_views_inside buffer tsize talign vs : 0 < tsize -> fw_views buffer tsize talign = Ok vs ->
  Forall (view_inside (length buffer)) vs.
Proof.
  unfold fw_views. intros Ht H. destruct (load_header buffer) as [nb|]; [|discriminate]. cbn [obind] in H.
  destruct (slice buffer U64_LEN (length buffer)) as [rest|] eqn:E1; [|discriminate]. cbn [obind] in H.
  apply slice_len in E1. inversion H; subst. repeat constructor; apply view_of_inside; auto; lia.
Qed.

Lemma vw_views_inside buffer osize oalign tsize talign vs : 0 < osize -> 0 < tsize ->
  vw_views buffer osize oalign tsize talign = Ok vs -> Forall (view_inside (length buffer)) vs.
Proof.
  unfold vw_views. intros Ho Ht H. destruct (load_header buffer) as [n|]; [|discriminate]. cbn [obind] in H.
  set (nb := (1 + n) * osize) in *. clearbody nb.
  destruct (slice buffer U64_LEN (length buffer)) as [rest|] eqn:E1; [|discriminate]. cbn [obind] in H.
  destruct (slice rest 0 nb) as [offs|] eqn:E2; [|discriminate]. cbn [obind] in H.
  destruct (slice rest nb (length rest)) as [data|] eqn:E3; [|discriminate]. cbn [obind] in H.
  apply slice_len in E1, E2, E3. injection H as <-. apply Forall_cons; [apply view_of_inside; auto; lia|]. apply Forall_cons; [|apply Forall_nil]. apply view_of_inside; [|assumption]. unfold U64_LEN in *. lia.
Qed.

(** *** The loaded collections are what the views show *)
Lemma chunks_exact_n_firstn {A} n k (l : list A) : chunks_exact_n n k (firstn (n * k) l) = chunks_exact_n n k l.
Proof.
  revert l. induction n as [|n IH]; intros l; [reflexivity|]. cbn [chunks_exact_n].
  rewrite firstn_firstn. replace (Nat.min k (S n * k)) with k by (cbn [Nat.mul]; lia). f_equal.
  rewrite skipn_firstn_comm. replace (S n * k - k) with (n * k) by (cbn [Nat.mul]; lia). apply IH.
Qed.
Lemma load_bytes_view {T} (R : repr T) (l : list N) : 0 < rsize R ->
  load_bytes_as R (firstn (length l / rsize R * rsize R) l) = load_bytes_as R l.
Proof.
  intros Hs. unfold load_bytes_as, chunks_exact. f_equal.
  assert (Hle : length l / rsize R * rsize R <= length l) by (rewrite Nat.mul_comm; apply Nat.mul_div_le; lia).
  rewrite firstn_length, Nat.min_l by exact Hle. rewrite Nat.div_mul by lia. apply chunks_exact_n_firstn.
Qed.
Lemma shown_slice {T} (R : repr T) (buffer sub : list N) (b e align : nat) : 0 < rsize R ->
  slice buffer b e = Ok sub -> load_bytes_as R sub = shown R buffer (view_of b (length sub) (rsize R) align).
Proof.
  intros Hs E. unfold shown, view_of. cbn [vcount vsize voff]. 
  unfold slice in E. destruct ((b <=? e) && (e <=? length buffer)) eqn:Eb; [|discriminate].
  apply andb_true_iff in Eb as [E1 E2]. apply Nat.leb_le in E1, E2. injection E as <-.
  set (l := firstn (e - b) (skipn b buffer)). rewrite <- (@load_bytes_view _ R l Hs). f_equal.
  unfold l at 2. rewrite firstn_firstn. f_equal.
  assert (Hl : length l = e - b) by (unfold l; rewrite firstn_length, skipn_length; lia).
  rewrite Hl. pose proof (Nat.mul_div_le (e - b) (rsize R) ltac:(lia)). lia.
Qed.
Lemma slice_slice {A} (l : list A) a r b e s : slice l a (length l) = Ok r -> slice r b e = Ok s ->
  slice l (a + b) (a + e) = Ok s.
Proof.
  unfold slice. destruct ((a <=? length l) && (length l <=? length l)) eqn:Ea; [|discriminate].
  apply andb_true_iff in Ea as [Ea _]. apply Nat.leb_le in Ea. intros H. injection H as <-.
  assert (Hr : firstn (length l - a) (skipn a l) = skipn a l) by (apply firstn_all2; rewrite skipn_length; lia).
  rewrite Hr, skipn_length.
  destruct ((b <=? e) && (e <=? length l - a)) eqn:Eb; [|discriminate]. apply andb_true_iff in Eb as [E1 E2]. apply Nat.leb_le in E1, E2.
  intros H. injection H as <-.
  replace (a + b <=? a + e) with true by (symmetry; apply Nat.leb_le; lia).
  replace (a + e <=? length l) with true by (symmetry; apply Nat.leb_le; lia). cbn [andb]. do 2 f_equal; [lia|].
  rewrite skipn_skipn. f_equal. lia.
Qed.
Lemma fw_views_load {T} (R : repr T) (buffer : list N) align : 0 < rsize R ->
  (forall v, fw_load R buffer = Ok v -> exists w, fw_views buffer (rsize R) align = Ok [w] /\ fdata v = shown R buffer w) /\
  (forall vs, fw_views buffer (rsize R) align = Ok vs -> exists v, fw_load R buffer = Ok v).
Proof.
  intros Hs. unfold fw_load, fw_views. destruct (load_header buffer) as [n|]; cbn [obind]; [|split; intros ? H; discriminate].
  destruct (slice buffer U64_LEN (length buffer)) as [rest|] eqn:E; cbn [obind]; [|split; intros ? H; discriminate].
  split; [|eauto]. intros v H. injection H as <-. eexists. split; [reflexivity|]. cbn [fdata]. eapply shown_slice; eauto.
Qed.
Lemma vw_views_load {T} (R : repr T) (osz : nat) (buffer : list N) oalign align : 0 < osz -> 0 < rsize R ->
  (forall v, vw_from_bytes osz R buffer = Ok v -> exists w1 w2, vw_views buffer osz oalign (rsize R) align = Ok [w1; w2] /\
     voffs v = shown (off_repr osz) buffer w1 /\ vdata v = shown R buffer w2) /\
  (forall vs, vw_views buffer osz oalign (rsize R) align = Ok vs -> exists v, vw_from_bytes osz R buffer = Ok v).
Proof.
  intros Ho Hs. unfold vw_from_bytes, vw_views. destruct (load_header buffer) as [n|]; cbn [obind]; [|split; intros ? H; discriminate].
  set (nb := (1 + n) * osz). clearbody nb.
  destruct (slice buffer U64_LEN (length buffer)) as [rest|] eqn:E; cbn [obind]; [|split; intros ? H; discriminate].
  destruct (slice rest 0 nb) as [offs|] eqn:E1; cbn [obind]; [|split; intros ? H; discriminate].
  destruct (slice rest nb (length rest)) as [data|] eqn:E2; cbn [obind]; [|split; intros ? H; discriminate].
  split; [|eauto]. intros v H. injection H as <-. do 2 eexists. split; [reflexivity|]. cbn [voffs vdata]. split.
  - assert (E3 : slice buffer (U64_LEN + 0) (U64_LEN + nb) = Ok offs) by (eapply slice_slice; eauto). rewrite Nat.add_0_r in E3. eapply (@shown_slice _ (off_repr osz)); [exact Ho|exact E3].
  - assert (E3 : slice buffer (U64_LEN + nb) (U64_LEN + length rest) = Ok data) by (eapply slice_slice; eauto). eapply shown_slice; [exact Hs|exact E3].
Qed.

(** loading an index succeeds exactly when its views exist *)
Lemma views_iff_load buffer : (exists L, load_layers buffer = Ok L) <-> (exists vs, index_views buffer = Ok vs).
Proof.
  unfold load_layers, index_views. destruct (read_layer_sizes buffer) as [sizes|]; cbn [obind];
    [|split; intros [? ?]; discriminate].
  assert (H : forall sizes start, (exists L, load_loop buffer start sizes = Ok L) <-> (exists vs, load_views_loop buffer start sizes = Ok vs)).
  { clear. induction sizes as [|s sizes IH]; intros start; cbn [load_loop load_views_loop]; [split; eauto|].
    destruct (slice buffer start (start + s)) as [layer|]; cbn [obind]; [|split; intros [? ?]; discriminate].
    unfold msv_from_bytes, cvw_from_bytes, cvw_views.
    destruct (load_header layer) as [nb|]; cbn [obind]; [|split; intros [? ?]; discriminate].
    destruct (slice layer U64_LEN (length layer)) as [rest|]; cbn [obind]; [|split; intros [? ?]; discriminate].
    destruct (slice rest 0 nb) as [offs|]; cbn [obind]; [|split; intros [? ?]; discriminate].
    destruct (slice rest nb (length rest)) as [data|]; cbn [obind]; [|split; intros [? ?]; discriminate].
    specialize (IH (start + s)).
    destruct (load_loop buffer (start + s) sizes), (load_views_loop buffer (start + s) sizes); cbn [obind];
      split; intros [? ?]; eauto; try discriminate.
    - destruct (proj1 IH) as [? ?]; eauto; discriminate.
    - destruct (proj2 IH) as [? ?]; eauto; discriminate. }
  specialize (H sizes METADATA_LEN). destruct (load_loop buffer METADATA_LEN sizes); cbn [obind].
  - split; intros _; [apply H; eauto|eauto].
  - split; [intros [? ?]; discriminate|]. intros Hv. apply H in Hv as [? ?]. discriminate.
Qed.

(** the chunk table of the first layer is at offset 1032 *)
Lemma first_table_aligned buffer vs : index_views buffer = Ok vs ->
  match vs with v :: _ => voff v = 1032 /\ voff v mod 8 = 0 | [] => True end.
Proof.
  unfold index_views. destruct (read_layer_sizes buffer) as [sizes|]; [|discriminate]. cbn [obind].
  destruct sizes as [|s sizes]; cbn [load_views_loop]; [intros H; inversion H; exact I|].
  destruct (slice buffer METADATA_LEN (METADATA_LEN + s)) as [layer|]; [|discriminate]. cbn [obind].
  unfold cvw_views. destruct (load_header layer) as [nb|]; [|discriminate]. cbn [obind].
  destruct (slice layer U64_LEN (length layer)) as [rest|]; cbn [obind]; [|discriminate].
  destruct (slice rest 0 nb) as [offs|]; cbn [obind]; [|discriminate].
  destruct (slice rest nb (length rest)) as [data|]; cbn [obind]; [|discriminate].
  destruct (load_views_loop _ _ _); cbn [obind]; [|discriminate]. intros H. injection H as <-. cbn [app voff view_of].
  split; reflexivity.
Qed.
