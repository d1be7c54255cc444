(** * Theorems C66: what is built can be searched, saved, loaded and reordered *)
From Verif Require Import Base BaseFacts Bytes PBytes MSliceVec SSliceVec PFixed MOffsets SOffsets POffsets MSetVec MIndexIo SIndexIo PIndexIo PIndexCrash MSearch SSearch PHeap PSearch PSearchIx MBuild SBuild PBuilder PHistory MReorder SReorder PPipeline PPipelineB SPipeline PLayers TIndexIo TSearch TReorder TSlice TBuild.

Lemma built_graph {S E I} (V : benv S E) (cpush : S -> I -> outcome S) b m :
  sorts_by_dist (e_sort V) -> push_law (e_ops V) cpush -> reached V cpush b -> exists G,
    index_shows m (FixWidth (b_layers b)) G /\ graph_ok G /\ length G = length (b_layers b) /\
    length (last G []) = builder_len b /\ builder_len b <= c_len (e_ops V) (b_elems b) /\
    (k_nn (b_config b) <= 254 -> index_is m (FixWidth (b_layers b)) G /\ storable G).
Proof.
  intros Hs Hp Hr. destruct (reached_fine Hs Hp Hr) as [HB _]. apply fine_graph; auto. eapply reached_width; eauto.
Qed.

Lemma reached_search {S E I} (V : benv S E) (cpush : S -> I -> outcome S) b m dist f fuel max_search num_neighbors :
  sorts_by_dist (e_sort V) -> push_law (e_ops V) cpush -> reached V cpush b ->
  dist_is dist f (builder_len b) -> builder_len b < fuel -> 0 < max_search ->
  exists res, granne_search m fuel (FixWidth (b_layers b)) dist max_search num_neighbors = Ok res /\
    length res <= Nat.min num_neighbors max_search /\ StronglySorted closer res /\ NoDup (map fst res) /\
    (forall i d, In (i, d) res -> i < builder_len b /\ dist i = Ok d) /\
    (0 < builder_len b -> 0 < num_neighbors -> res <> []).
Proof.
  intros Hs Hp Hr Hd Hf Hms. destruct (built_graph V cpush b m Hs Hp Hr) as (G & HS & HG & HL & Hll & _).
  rewrite <- Hll in *.
  destruct (list_eq_dec (list_eq_dec (list_eq_dec N.eq_dec)) G []) as [->|Hne].
  { exists []. split; [apply C20_empty_index; rewrite (proj1 HS); reflexivity|]. cbn [length]. split; [lia|].
    split; [constructor|]. split; [constructor|]. split; [intros i d []|]. cbn. lia. }
  destruct (C19_results_well_formed m (FixWidth (b_layers b)) G dist f fuel max_search num_neighbors HS HG Hne Hd Hf Hms) as (res & Er & H1 & H2 & H3 & H4).
  exists res. split; [exact Er|]. split; [exact H1|]. split; [exact H2|]. split; [exact H3|]. split; [exact H4|].
  intros _ Hnn. destruct (C20_finds_something m (FixWidth (b_layers b)) G dist f fuel max_search num_neighbors HS HG Hne Hd Hf Hms Hnn) as (r & rs & E2).
  intros ->. rewrite E2 in Er. discriminate.
Qed.

Lemma reached_save {S E I} (V : benv S E) (cpush : S -> I -> outcome S) b m c :
  sorts_by_dist (e_sort V) -> push_law (e_ops V) cpush -> reached V cpush b ->
  k_nn (b_config b) <= 254 -> length (b_layers b) <= 25 ->
  exists c' L', write_index m (FixWidth (b_layers b)) c = Ok c' /\
    load_layers (skipn (cpos c) (cbuf c')) = Ok L' /\ same_index m (FixWidth (b_layers b)) L' /\
    forall dist f fuel max_search num_neighbors, dist_is dist f (builder_len b) -> builder_len b < fuel ->
      granne_search m fuel L' dist max_search num_neighbors =
      granne_search m fuel (FixWidth (b_layers b)) dist max_search num_neighbors.
Proof.
  intros Hs Hp Hr Hk Hl. destruct (built_graph V cpush b m Hs Hp Hr) as (G & HS & HG & HL & Hll & Hle & HI).
  destruct (HI Hk) as [HI' Hst]. clear HI.
  destruct (reached_fine Hs Hp Hr) as [(_ & [_ Hlen _] & _) _].
  assert (Hlast : last G [[]] <> []).
  { destruct G as [|g0 G0]; [discriminate|]. destruct (exists_last (l := g0 :: G0)) as (t & x & Et); [discriminate|]. rewrite Et, last_last.
    destruct HG as [HG _]. rewrite Et in HG. apply Forall_app in HG as [_ HG]. inversion HG as [|? ? Hx _]; subst. apply Hx. }
  destruct (C06_save_succeeds m (FixWidth (b_layers b)) G c HI' Hlast) as (c' & Ew); [rewrite HL; exact Hl| |].
  { apply Forall_forall. intros g Hg. apply In_nth_error in Hg as (i & Hi). pose proof (last_longest HG Hi) as H.
    rewrite Hll in H. apply N.le_lt_trans with (N.of_nat (c_len (e_ops V) (b_elems b))); [lia|].
    eapply N.le_lt_trans; [exact Hlen|]. reflexivity. }
  destruct (C06_saved_index_loads_back m (FixWidth (b_layers b)) G c c' HI' Ew) as (L' & El & Hsame & HI2).
  exists c', L'. split; [exact Ew|]. split; [exact El|]. split; [exact Hsame|].
  intros dist f fuel ms nn Hd Hf. rewrite <- Hll in Hd, Hf.
  eapply C08_neighbour_order_irrelevant; [| exact HS |exact HG|exact Hd|exact Hf]. now apply index_is_shows.
Qed.

(** ** C66 *)
(** Whatever was built, under whatever schedules, can be searched, whether it
    covers all elements, some, or none. *)
Theorem C66_built_index_can_be_searched :
  forall {S E I} (V : benv S E) (cpush : S -> I -> outcome S) b m dist f fuel max_search num_neighbors,
    sorts_by_dist (e_sort V) -> push_law (e_ops V) cpush -> built V cpush b ->
    dist_is dist f (builder_len b) -> builder_len b < fuel -> 0 < max_search ->
    exists res, granne_search m fuel (FixWidth (b_layers b)) dist max_search num_neighbors = Ok res /\
      length res <= Nat.min num_neighbors max_search /\ StronglySorted closer res /\ NoDup (map fst res) /\
      (forall i d, In (i, d) res -> i < builder_len b /\ dist i = Ok d) /\
      (0 < builder_len b -> 0 < num_neighbors -> res <> []).
Proof.
  intros S E I V cpush b m dist f fuel ms nn Hs Hp Hb. eapply reached_search; eauto. eapply built_reached; eauto.
Qed.
Print Assumptions C66_built_index_can_be_searched.

(** It can be saved anywhere in a file, and loaded from there; the loaded index
    gives the same result for every search.  (Lists of more than 254 ids do not
    survive, see C02; more than 25 layers need not fit, see C07.) *)
Theorem C66_built_index_survives_saving :
  forall {S E I} (V : benv S E) (cpush : S -> I -> outcome S) b m c,
    sorts_by_dist (e_sort V) -> push_law (e_ops V) cpush -> built V cpush b ->
    k_nn (b_config b) <= 254 -> length (b_layers b) <= 25 ->
    exists c' L', write_index m (FixWidth (b_layers b)) c = Ok c' /\
      load_layers (skipn (cpos c) (cbuf c')) = Ok L' /\ same_index m (FixWidth (b_layers b)) L' /\
      forall dist f fuel max_search num_neighbors, dist_is dist f (builder_len b) -> builder_len b < fuel ->
        granne_search m fuel L' dist max_search num_neighbors =
        granne_search m fuel (FixWidth (b_layers b)) dist max_search num_neighbors.
Proof. intros S E I V cpush b m c Hs Hp Hb. eapply reached_save; eauto. eapply built_reached; eauto. Qed.
Print Assumptions C66_built_index_survives_saving.

(** No history of pushes and builds makes more layers than the layer sizes call
    for: if layer number [K] takes all elements, there are at most [K + 1], unless
    there were more before. *)
Theorem C66_layers_added :
  forall {S E I} (V : benv S E) (cpush : S -> I -> outcome S) b cs b' K,
    sorts_by_dist (e_sort V) -> push_law (e_ops V) cpush -> built V cpush b -> calls V cpush b cs b' ->
    full_at (b_config b) K (builder_num_elements V b') -> length (b_layers b) <= K + 1 -> length (b_layers b') <= K + 1.
Proof.
  intros S E I V cpush b cs b' K Hs Hp Hb Hc Hf Hl.
  destruct (@calls_layers _ _ _ V cpush Hs Hp K b cs b' Hc (built_reached Hs Hp Hb) Hf Hl) as [H _]. exact H.
Qed.
Print Assumptions C66_layers_added.
Theorem C66_number_of_layers :
  forall {S E I} (V : benv S E) (cpush : S -> I -> outcome S) b K,
    sorts_by_dist (e_sort V) -> push_law (e_ops V) cpush -> built_once V cpush b ->
    full_at (b_config b) K (builder_num_elements V b) -> length (b_layers b) <= K + 1.
Proof. intros S E I V cpush b K Hs Hp Hb Hf. eapply built_layers; eauto. Qed.
Print Assumptions C66_number_of_layers.

(** A completely built index of at least two layers can be reordered: nodes are
    renamed and elements moved alike, layer by layer. *)
Theorem C66_built_index_can_be_reordered :
  forall {S E I} (V : benv S E) (cpush : S -> I -> outcome S) permute b m fuel,
    sorts_by_dist (e_sort V) -> push_law (e_ops V) cpush -> built V cpush b ->
    k_nn (b_config b) <= 254 -> 2 <= length (b_layers b) -> builder_len b = builder_num_elements V b ->
    permute_law (e_ops V) permute (b_elems b) -> builder_len b < fuel ->
    exists g' p, reorder (e_ops V) permute m fuel (mkGranne (FixWidth (b_layers b)) (b_elems b)) = Ok (g', p) /\
      is_perm (builder_len b) p /\
      renamed m (FixWidth (b_layers b)) (gr_layers g') p /\ elements_moved (e_ops V) (b_elems b) (gr_elems g') p.
Proof.
  intros S E I V cpush permute b m fuel Hs Hp Hb Hk H2 Hfull HP Hf.
  pose proof (built_reached Hs Hp Hb) as Hr. destruct (built_graph V cpush b m Hs Hp Hr) as (G & HS & HG & HL & Hll & Hle & HI).
  destruct (HI Hk) as [_ Hst]. destruct (reached_fine Hs Hp Hr) as [(_ & [Hc _ _] & _) _]. unfold builder_num_elements in Hfull.
  assert (Hel : has_elements (e_ops V) (b_elems b) (length (last G []))).
  { intros i Hi. rewrite Hll in Hi. destruct (ck_get Hc (i := i)) as (e & Ee); [lia|]. exists e. split; [exact Ee|].
    intros j Hj. rewrite Hll in Hj. apply (ck_dte Hc (i := j) (j := i)); auto; lia. }
  assert (HlG : 2 <= length G) by lia.
  assert (Hlen : c_len (e_ops V) (b_elems b) = length (last G [])) by lia.
  assert (Hfu : length (last G []) < fuel) by lia.
  destruct (@C38_reorder_order S E (e_ops V) permute m fuel (FixWidth (b_layers b)) G (b_elems b) HS HG HlG Hst Hlen Hel HP Hfu)
    as (g' & p & Er & [HK _] & _).
  exists g', p. split; [exact Er|]. split; [rewrite <- Hll; exact HK|].
  exact (@C39_reorder_renames S E (e_ops V) permute m fuel (FixWidth (b_layers b)) G (b_elems b) g' p HS HG HlG Hst Hlen Hel HP Hfu Er).
Qed.
Print Assumptions C66_built_index_can_be_reordered.

Lemma ex_full : full_at ex_cfg 2 8.
Proof. intros n Hn. cbn. lia. Qed.

(** The index of C32's example: three layers, searched, saved at offset 2 of a
    file, loaded, searched again. *)
Example C66_nonvacuous : exists b, built (ex_env Release) ex_push b /\
  full_at (b_config b) 2 (builder_num_elements (ex_env Release) b) /\ builder_len b = builder_num_elements (ex_env Release) b /\
  length (b_layers b) = 3 /\ k_nn (b_config b) = 2 /\
  (let query i := c_dte (vec_ops ex_d) (b_elems b) i 13%Z in
   let* r := granne_search Release 20 (FixWidth (b_layers b)) query 3 3 in
   let* c := write_index Release (FixWidth (b_layers b)) (mkCursor [7; 7]%N 2) in
   let* L := load_layers (skipn 2 (cbuf c)) in
   let* r' := granne_search Release 20 L query 3 3 in
   Ok (firstn 3 (cbuf c), r, r')) = Ok ([7; 7; 103]%N, [(4, 10%Z); (0, 60%Z); (6, 70%Z)], [(4, 10%Z); (0, 60%Z); (6, 70%Z)]).
Proof.
  destruct built_example as (b & E & Hb & _ & _). exists b. split; [exact Hb|].
  assert (H : (let* b := ex_result Release round_robin in Ok (b_config b, b_elems b, builder_len b, length (b_layers b))) = Ok (ex_cfg, (ex_elems ++ [20; 6])%Z, 8, 3))
    by (vm_compute; reflexivity).
  rewrite E in H. cbn [obind] in H. apply ok_inj in H. injection H as Hc He Hl HL. 
  assert (Hn : builder_num_elements (ex_env Release) b = 8) by (unfold builder_num_elements; rewrite He; reflexivity).
  rewrite Hn, Hl, HL, Hc. split; [apply ex_full|]. split; [reflexivity|]. split; [reflexivity|]. split; [reflexivity|].
  revert E. unfold ex_result. intros E. 
  assert (G : forall b', run_calls (ex_env Release) (mkBuilder ex_elems [] ex_cfg) (ex_calls round_robin) = Ok b' ->
    (let* b := run_calls (ex_env Release) (mkBuilder ex_elems [] ex_cfg) (ex_calls round_robin) in
     let query i := c_dte (vec_ops ex_d) (b_elems b) i 13%Z in
   let* r := granne_search Release 20 (FixWidth (b_layers b)) query 3 3 in
   let* c := write_index Release (FixWidth (b_layers b)) (mkCursor [7; 7]%N 2) in
   let* L := load_layers (skipn 2 (cbuf c)) in
   let* r' := granne_search Release 20 L query 3 3 in
   Ok (firstn 3 (cbuf c), r, r')) = Ok ([7; 7; 103]%N, [(4, 10%Z); (0, 60%Z); (6, 70%Z)], [(4, 10%Z); (0, 60%Z); (6, 70%Z)])).
  { intros _ _. vm_compute. reflexivity. }
  specialize (G b E). rewrite E in G. exact G.
Qed.
