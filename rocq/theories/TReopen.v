(** * Theorems C69: a saved index can be opened by a builder and built on *)
From Verif Require Import Base BaseFacts Bytes PBytes MSliceVec SSliceVec PFixed MOffsets SOffsets POffsets MSetVec MIndexIo SIndexIo PIndexIo PIndexCrash PIndexBuilder MSearch SSearch PHeap PSearch PSearchIx MBuild SBuild PBuilder PHistory PPipeline PPipelineB SPipeline TIndexIo TSearch TBuild TPipeline.

Lemma open_view m ls G ls' nn : 0 < nn -> index_is m (FixWidth ls) G ->
  Forall2 (fun l g => exists rows, fw_is nn rows l /\
     Forall2 (fun row ns => exists s, sorted_version ns s /\ row = firstn nn s ++ repeat UNUSED (nn - length s)) rows g) ls' G ->
  (forall i, layer_len (FixWidth ls') i = layer_len (FixWidth ls) i) /\
  forall i j ns, get_neighbors m (FixWidth ls) j i = Ok ns -> exists s, Permutation s ns /\ StronglySorted le s /\
    get_neighbors m (FixWidth ls') j i = Ok (firstn nn s).
Proof.
  intros Hnn [_ HL] HF. split.
  - intros i. cbn [layer_len]. unfold index. destruct (nth_error G i) as [g|] eqn:Eg.
    + destruct (nth_error_Forall2_l _ HL Eg) as (l & El & (w & Hw & Hl & _)).
      destruct (nth_error_Forall2_l _ HF Eg) as (l' & El' & (rows & Hl' & Hr)). rewrite El, El'. cbn [ounwrap obind].
      rewrite (fw_is_len Hw Hl), (fw_is_len Hnn Hl'), map_length. f_equal. apply (Forall2_length Hr).
    + apply nth_error_None in Eg. pose proof (Forall2_length HL) as H1. pose proof (Forall2_length HF) as H2.
      rewrite (proj2 (nth_error_None ls' i)), (proj2 (nth_error_None ls i)) by lia. reflexivity.
  - intros i j ns E. cbn [get_neighbors] in *. unfold index in *. destruct (nth_error G i) as [g|] eqn:Eg.
    2: { apply nth_error_None in Eg. pose proof (Forall2_length HL) as H1.
         rewrite (proj2 (nth_error_None ls i)) in E by lia. discriminate. }
    destruct (nth_error_Forall2_l _ HL Eg) as (l & El & (w & Hw & Hl & Hg)).
    destruct (nth_error_Forall2_l _ HF Eg) as (l' & El' & (rows & Hl' & Hr)). rewrite El in E. rewrite El'. cbn [ounwrap obind] in *.
    unfold fw_neighbors in *. destruct (nth_error g j) as [nj|] eqn:Ej.
    2: { apply nth_error_None in Ej. rewrite (@fw_is_get_out _ m w _ l j Hw Hl) in E by (rewrite map_length; lia). discriminate. }
    rewrite (@fw_is_get _ m w _ l j (nj ++ repeat UNUSED (w - length nj)) Hw Hl) in E by now rewrite nth_error_map, Ej.
    rewrite Forall_forall in Hg. destruct (Hg nj (nth_error_In _ _ Ej)) as (_ & _ & Hu). cbn [obind] in E. rewrite take_used_app in E by exact Hu.
    apply ok_inj in E. subst ns.
    destruct (nth_error_Forall2_l _ Hr Ej) as (row & Er & s & [Hs1 Hs2] & ->).
    rewrite (@fw_is_get _ m nn _ l' j _ Hnn Hl' Er). cbn [obind].
    assert (Hus : Forall (fun x => (x < UNUSED)%N) s) by now rewrite Hs1.
    rewrite take_used_app.
    2: { apply Forall_forall. intros x Hx. rewrite Forall_forall in Hus. apply Hus. eapply firstn_In; eauto. }
    exists (map N.to_nat s). split; [now apply Permutation_map|]. split; [|now rewrite firstn_map].
    clear -Hs2. induction Hs2 as [|x s Hs IH HF]; cbn [map]; constructor; auto. apply Forall_map.
    eapply Forall_impl; [|exact HF]. cbn beta. intros y Hy. lia.
Qed.

(** A builder [b] is saved and opened as [b'], configured by [cfg]: nothing but
    the neighbour lists may change; they are cut to the lowest ids if the new
    configuration has fewer neighbours. *)
Definition reopens {S E} (V : benv S E) (b : builder S) (cfg : config) (b' : builder S) : Prop :=
  b_elems b' = b_elems b /\ b_config b' = cfg /\
  length (b_layers b') = length (b_layers b) /\ builder_len b' = builder_len b /\
  (forall layer, layer_len (FixWidth (b_layers b')) layer = layer_len (FixWidth (b_layers b)) layer) /\
  (forall layer node ns, get_neighbors (e_mode V) (FixWidth (b_layers b)) node layer = Ok ns ->
     exists s, Permutation s ns /\ StronglySorted le s /\
       get_neighbors (e_mode V) (FixWidth (b_layers b')) node layer = Ok (firstn (k_nn cfg) s)).

Lemma reached_reopens {S E I} (V : benv S E) (cpush : S -> I -> outcome S) b cfg b' :
  sorts_by_dist (e_sort V) -> push_law (e_ops V) cpush -> reached V cpush b -> cfg_ok cfg -> reopened V b cfg b' ->
  reached V cpush b' /\ reopens V b cfg b'.
Proof.
  intros Hs Hp Hr Hcfg Ho. split; [eapply r_open; eauto; exact Coq.Init.Logic.I|].
  destruct (reached_all Hs Hp Hr) as [[HB Hid] HW].
  destruct (open_fine HB Hid HW Hcfg Ho) as (_ & _ & _ & H1 & H2 & H3 & H4).
  split; [exact H1|]. split; [exact H2|]. split; [exact H3|]. split; [exact H4|].
  destruct HB as (_ & Hel & R & Hch). destruct Ho as (c & c' & H254 & Ew & Eo).
  assert (HI : index_is (e_mode V) (FixWidth (b_layers b)) (map lists_of R)).
  { eapply chain_is; [apply (eo_len Hel)|exact Hch|]. eapply Forall_impl; [|exact HW]. cbn beta. intros l ->. exact H254. }
  assert (Hnn : 0 < k_nn cfg) by apply Hcfg.
  destruct (@builder_reopen (e_mode V) _ _ c c' (k_nn cfg) Hnn HI Ew) as (ls & Els & HF).
  unfold builder_open in Eo. destruct (builder_new V cfg (b_elems b)) as [bn|] eqn:En; [|discriminate]. cbn [obind] in Eo.
  assert (Ecf : b_config bn = cfg).
  { unfold builder_new in En. destruct (oassert _); [|discriminate]. cbn [obind] in En. apply ok_inj in En. now subst bn. }
  rewrite Ecf, Els in Eo. cbn [obind] in Eo. apply ok_inj in Eo. subst b'. cbn [b_layers].
  exact (open_view (e_mode V) (b_layers b) _ ls (k_nn cfg) Hnn HI HF).
Qed.

Lemma reached_can_reopen {S E I} (V : benv S E) (cpush : S -> I -> outcome S) b cfg c :
  sorts_by_dist (e_sort V) -> push_law (e_ops V) cpush -> reached V cpush b -> cfg_ok cfg ->
  k_nn (b_config b) <= 254 -> length (b_layers b) <= 25 ->
  exists c' b', write_index (e_mode V) (FixWidth (b_layers b)) c = Ok c' /\
    builder_open V cfg (skipn (cpos c) (cbuf c')) (b_elems b) = Ok b'.
Proof.
  intros Hs Hp Hr Hcfg H254 H25.
  destruct (reached_save V cpush b (e_mode V) c Hs Hp Hr H254 H25) as (c' & _ & Ew & _ & _ & _).
  destruct (reached_all Hs Hp Hr) as [[HB Hid] HW]. destruct HB as (_ & Hel & R & Hch).
  assert (HI : index_is (e_mode V) (FixWidth (b_layers b)) (map lists_of R)).
  { eapply chain_is; [apply (eo_len Hel)|exact Hch|]. eapply Forall_impl; [|exact HW]. cbn beta. intros l ->. exact H254. }
  assert (Hnn : 0 < k_nn cfg) by apply Hcfg.
  destruct (@builder_reopen (e_mode V) _ _ c c' (k_nn cfg) Hnn HI Ew) as (ls & Els & HF).
  exists c', (mkBuilder (b_elems b) ls cfg). split; [exact Ew|].
  unfold builder_open, builder_new. unfold idsafe in Hid. apply N.ltb_lt in Hid. rewrite Hid. cbn [oassert obind b_config b_elems].
  rewrite Els. reflexivity.
Qed.

(** ** C69 *)
(** Whatever was built can be saved, anywhere in a file, and opened from there by
    a builder with any configuration.  The new builder has the same elements,
    the same layers and the saved neighbours; it counts as built, so every
    theorem about builders (C26 to C36, C65, C66) goes on holding for it. *)
Theorem C69_saved_index_opens_in_a_builder :
  forall {S E I} (V : benv S E) (cpush : S -> I -> outcome S) b cfg c,
    sorts_by_dist (e_sort V) -> push_law (e_ops V) cpush -> built V cpush b -> cfg_ok cfg ->
    k_nn (b_config b) <= 254 -> length (b_layers b) <= 25 ->
    exists c' b', write_index (e_mode V) (FixWidth (b_layers b)) c = Ok c' /\
      builder_open V cfg (skipn (cpos c) (cbuf c')) (b_elems b) = Ok b' /\
      reopens V b cfg b' /\ built V cpush b'.
Proof.
  intros S E I V cpush b cfg c Hs Hp Hb Hcfg H254 H25.
  pose proof (built_reached Hs Hp Hb) as Hr.
  destruct (reached_can_reopen V cpush b cfg c Hs Hp Hr Hcfg H254 H25) as (c' & b' & Ew & Eo).
  assert (Ho : reopened V b cfg b') by (exists c, c'; auto).
  exists c', b'. split; [exact Ew|]. split; [exact Eo|]. split; [eapply reached_reopens; eauto|].
  eapply bt_open; eauto.
Qed.
Print Assumptions C69_saved_index_opens_in_a_builder.

(** With at least as many neighbours per node the index is the same, and so is
    every search. *)
Theorem C69_same_index_when_wide_enough :
  forall {S E I} (V : benv S E) (cpush : S -> I -> outcome S) b cfg b',
    sorts_by_dist (e_sort V) -> push_law (e_ops V) cpush -> built V cpush b -> cfg_ok cfg ->
    reopened V b cfg b' -> k_nn (b_config b) <= k_nn cfg ->
    (forall layer node ns, get_neighbors (e_mode V) (FixWidth (b_layers b)) node layer = Ok ns ->
       exists ns', get_neighbors (e_mode V) (FixWidth (b_layers b')) node layer = Ok ns' /\ Permutation ns' ns) /\
    (forall dist f fuel max_search num_neighbors, dist_is dist f (builder_len b) -> builder_len b < fuel ->
       granne_search (e_mode V) fuel (FixWidth (b_layers b')) dist max_search num_neighbors =
       granne_search (e_mode V) fuel (FixWidth (b_layers b)) dist max_search num_neighbors).
Proof.
  intros S E I V cpush b cfg b' Hs Hp Hb Hcfg Ho Hk. pose proof (built_reached Hs Hp Hb) as Hr.
  destruct (reached_reopens V cpush b cfg b' Hs Hp Hr Hcfg Ho) as [Hr' (_ & _ & HL & _ & Hll & Hn)].
  assert (H254 : k_nn (b_config b) <= 254) by (destruct Ho as (c & c' & H & _); exact H).
  destruct (built_graph V cpush b (e_mode V) Hs Hp Hr) as (G & HS & HG & HLG & Hlast & _ & HI). destruct (HI H254) as [HI' Hst].
  assert (Hshort : forall layer node ns, get_neighbors (e_mode V) (FixWidth (b_layers b)) node layer = Ok ns -> length ns <= k_nn (b_config b)).
  { intros layer node ns E0. pose proof (reached_width Hs Hp Hr) as HW. cbn [get_neighbors] in E0. unfold index in E0.
    destruct (nth_error (b_layers b) layer) as [l|] eqn:El; [|discriminate]. cbn [ounwrap obind] in E0.
    unfold widths in HW. rewrite Forall_forall in HW. specialize (HW l (nth_error_In _ _ El)).
    unfold fw_neighbors in E0. destruct (fw_get (e_mode V) l node) as [row|] eqn:Eg; [|discriminate]. cbn [obind] in E0. apply ok_inj in E0. subst ns.
    rewrite map_length. assert (Hrow : length row <= fwidth l).
    { unfold fw_get in Eg. destruct (debug_assert _ _); [|discriminate]. cbn [obind] in Eg.
      apply slice_len in Eg. lia. }
    rewrite <- HW. eapply Nat.le_trans; [|exact Hrow]. clear. induction row as [|x row IH]; cbn [take_while length]; [lia|].
    destruct (is_used x); cbn [length]; lia. }
  assert (Hperm : forall layer node ns, get_neighbors (e_mode V) (FixWidth (b_layers b)) node layer = Ok ns ->
       exists ns', get_neighbors (e_mode V) (FixWidth (b_layers b')) node layer = Ok ns' /\ Permutation ns' ns).
  { intros layer node ns E0. destruct (Hn layer node ns E0) as (s & Hp1 & _ & E1). exists s. split; [|exact Hp1].
    rewrite E1, firstn_all2; [reflexivity|]. rewrite (Permutation_length Hp1). specialize (Hshort _ _ _ E0). lia. }
  split; [exact Hperm|].
  intros dist f fuel ms nn Hd Hf.
  assert (HS' : index_shows (e_mode V) (FixWidth (b_layers b')) G).
  { destruct HS as [A B]. split; [cbn [layers_len] in *; congruence|]. intros i g Hi. destruct (B i g Hi) as [B1 B2].
    split; [now rewrite Hll|]. intros j ns Hj. destruct (B2 j ns Hj) as (ns1 & E1 & P1).
    destruct (Hperm _ _ _ E1) as (ns2 & E2 & P2). exists ns2. split; [exact E2|]. now rewrite P2. }
  rewrite <- Hlast in Hd, Hf. eapply C08_neighbour_order_irrelevant; eauto.
Qed.
Print Assumptions C69_same_index_when_wide_enough.

(** An older index can be opened with the elements as they are after more pushes
    and builds: that is the builder that saw only the pushes. *)
Definition is_push {I} (c : call I) : bool := match c with CPush _ => true | _ => false end.
Theorem C69_older_index_with_newer_elements :
  forall {S E I} (V : benv S E) (cpush : S -> I -> outcome S) b cs b1,
    sorts_by_dist (e_sort V) -> push_law (e_ops V) cpush -> built V cpush b -> calls V cpush b cs b1 ->
    exists b2, calls V cpush b (filter is_push cs) b2 /\ built V cpush b2 /\
      b_elems b2 = b_elems b1 /\ b_layers b2 = b_layers b /\ b_config b2 = b_config b.
Proof.
  intros S E I V cpush b cs b1 Hs Hp Hb Hc.
  assert (H : forall b2, b_elems b2 = b_elems b -> reached V cpush b ->
    exists b3, calls V cpush b2 (filter is_push cs) b3 /\ b_elems b3 = b_elems b1 /\ b_layers b3 = b_layers b2 /\ b_config b3 = b_config b2).
  { clear Hb. induction Hc as [b|b c b0 cs b1 Ec Hus Hcs IH]; intros b2 He Hr.
    - exists b2. cbn. split; [constructor|auto].
    - destruct c as [x|num fuel sched|fuel sched]; cbn [filter is_push].
      + cbn [do_call] in Ec. assert (Ec2 := Ec). unfold builder_push in Ec.
        destruct (oassert _) as [u|] eqn:Ea; [|discriminate]. cbn [obind] in Ec.
        destruct (cpush (b_elems b) x) as [s'|] eqn:Ex; [|discriminate]. cbn [obind] in Ec. apply ok_inj in Ec. subst b0. cbn [b_elems] in *.
        destruct (IH (mkBuilder s' (b_layers b2) (b_config b2))) as (b3 & H1 & H2 & H3 & H4); [reflexivity|eapply r_push; eauto|].
        exists b3. split; [|auto]. apply (calls_cons _ _ _ _ (mkBuilder s' (b_layers b2) (b_config b2))); [|exact Hus|exact H1].
        cbn [do_call]. unfold builder_push. rewrite He, Ea. cbn [obind]. rewrite Ex. reflexivity.
      + cbn [do_call] in Ec. destruct (build_reached Hs Hp Hr Ec) as [Hr' He']. apply IH; [congruence|exact Hr'].
      + cbn [do_call] in Ec. unfold build in Ec. destruct (build_reached Hs Hp Hr Ec) as [Hr' He']. apply IH; [congruence|exact Hr']. }
  destruct (H b eq_refl (built_reached Hs Hp Hb)) as (b2 & H1 & H2 & H3 & H4).
  exists b2. split; [exact H1|]. split; [eapply bt_calls; eauto|auto].
Qed.
Print Assumptions C69_older_index_with_newer_elements.

(** Opening does not check the elements: with fewer of them than the index has
    nodes it succeeds, and only building panics. *)
Theorem C69_missing_elements_noticed_late_refuted :
  forall {S E I} (V : benv S E) (cpush : S -> I -> outcome S) b cfg c s,
    sorts_by_dist (e_sort V) -> push_law (e_ops V) cpush -> built V cpush b -> cfg_ok cfg ->
    k_nn (b_config b) <= 254 -> length (b_layers b) <= 25 ->
    0 < c_len (e_ops V) s < builder_len b ->
    exists c' b', write_index (e_mode V) (FixWidth (b_layers b)) c = Ok c' /\
      builder_open V cfg (skipn (cpos c) (cbuf c')) s = Ok b' /\
      forall fuel sched, build V fuel b' sched = Fail Panicked.
Proof.
  intros S E I V cpush b cfg c s Hs Hp Hb Hcfg H254 H25 Hlt. pose proof (built_reached Hs Hp Hb) as Hr.
  destruct (reached_can_reopen V cpush b cfg c Hs Hp Hr Hcfg H254 H25) as (c' & b0 & Ew & Eo).
  assert (Ho : reopened V b cfg b0) by (exists c, c'; auto).
  destruct (reached_reopens V cpush b cfg b0 Hs Hp Hr Hcfg Ho) as [_ (_ & _ & _ & Hlen & _)].
  destruct (reached_fine Hs Hp Hr) as [_ Hid]. unfold idsafe in Hid.
  destruct (built_graph V cpush b (e_mode V) Hs Hp Hr) as (G & _ & _ & _ & _ & Hle & _).
  unfold builder_open, builder_new in Eo. rewrite (proj2 (N.ltb_lt _ _) Hid) in Eo. cbn [oassert obind b_config b_elems] in Eo.
  destruct (builder_from_bytes (e_mode V) (k_nn cfg) (skipn (cpos c) (cbuf c'))) as [ls|] eqn:El; [|discriminate].
  cbn [obind] in Eo. apply ok_inj in Eo. subst b0.
  exists c', (mkBuilder s ls cfg). split; [exact Ew|]. split.
  { unfold builder_open, builder_new. rewrite (proj2 (N.ltb_lt (N.of_nat (c_len (e_ops V) s)) UNUSED)) by lia.
    cbn [oassert obind b_config b_elems]. rewrite El. reflexivity. }
  intros fuel sched. unfold build, build_partial. cbn [builder_num_elements b_elems]. unfold builder_num_elements. cbn [b_elems].
  destruct (Nat.eqb_spec (c_len (e_ops V) s) 0); [lia|].
  assert (E1 : builder_len (mkBuilder s ls cfg) = builder_len b) by exact Hlen. rewrite E1.
  destruct (Nat.leb_spec (builder_len b) (c_len (e_ops V) s)); [lia|]. reflexivity.
Qed.
Print Assumptions C69_missing_elements_noticed_late_refuted.

(** The index of C32's example (three layers, two neighbours), saved at offset 2
    of a file, opened with three neighbours, one element pushed, built again. *)
Definition ex_cfg3 : config := mkConfig 3 3 true None (k_ideal ex_cfg).
Lemma ex_cfg3_ok : cfg_ok ex_cfg3.
Proof. split; [cbn; lia|]. split; [cbn; lia|]. split; [intros x Hx; discriminate|]. intros n Hn _. cbn [ex_cfg3 ex_cfg k_ideal]. lia. Qed.
Definition ex_reopen (cfg : config) (b : builder (list Z)) : outcome (builder (list Z)) :=
  let* c := write_index Release (FixWidth (b_layers b)) (mkCursor [7; 7]%N 2) in
  builder_open (ex_env Release) cfg (skipn 2 (cbuf c)) (b_elems b).
Definition robin9 : schedules := fun _ _ => concat (repeat (seq 0 9) 49).

Lemma bind_ok {A B} (o : outcome A) (f : A -> outcome B) r : obind o f = Ok r -> exists x, o = Ok x /\ f x = Ok r.
Proof. destruct o as [x|]; [|discriminate]. intros H. exists x. auto. Qed.

Example C69_nonvacuous : exists b b' b'', built (ex_env Release) ex_push b /\
  reopened (ex_env Release) b ex_cfg3 b' /\ calls (ex_env Release) ex_push b' [CPush 15%Z; CBuild 9 robin9] b'' /\
  built (ex_env Release) ex_push b'' /\
  list_view b = Ok [[[1]; [0]]; [[3]; [0]; []; [0]]; [[7; 4]; [5; 0]; []; [7; 5]; [0; 6]; [1; 3]; [4]; [0; 3]]] /\
  list_view b' = Ok [[[1]; [0]]; [[3]; [0]; []; [0]]; [[4; 7]; [0; 5]; []; [5; 7]; [0; 6]; [1; 3]; [4]; [0; 3]]] /\
  list_view b'' = Ok [[[1]; [0]]; [[3]; [0]; []; [0]]; [[7; 4; 8]; [5; 0]; []; [7; 5]; [8; 0; 6]; [1; 3]; [8; 4]; [0; 3]; [4; 6; 0]]] /\
  (let* n := ex_reopen (mkConfig 1 3 true None (k_ideal ex_cfg)) b in list_view n) =
    Ok [[[1]; [0]]; [[3]; [0]; []; [0]]; [[4]; [0]; []; [5]; [0]; [1]; [4]; [0]]].
Proof.
  destruct built_example as (b & Eb & Hb & Hv & _).
  assert (H : (let* b := ex_result Release round_robin in
     let* b' := ex_reopen ex_cfg3 b in
     let* v' := list_view b' in
     let* b2 := run_calls (ex_env Release) b' [CPush 15%Z; CBuild 9 robin9] in
     let* v2 := list_view b2 in
     let* n := ex_reopen (mkConfig 1 3 true None (k_ideal ex_cfg)) b in
     let* v3 := list_view n in
     Ok (k_nn (b_config b), length (b_elems b2), v', v2, v3)) =
    Ok (2, 9, [[[1]; [0]]; [[3]; [0]; []; [0]]; [[4; 7]; [0; 5]; []; [5; 7]; [0; 6]; [1; 3]; [4]; [0; 3]]],
        [[[1]; [0]]; [[3]; [0]; []; [0]]; [[7; 4; 8]; [5; 0]; []; [7; 5]; [8; 0; 6]; [1; 3]; [8; 4]; [0; 3]; [4; 6; 0]]],
        [[[1]; [0]]; [[3]; [0]; []; [0]]; [[4]; [0]; []; [5]; [0]; [1]; [4]; [0]]])) by (vm_compute; reflexivity).
  rewrite Eb in H. cbn [obind] in H.
  apply bind_ok in H as (b' & E1 & H). apply bind_ok in H as (v' & E2 & H). apply bind_ok in H as (b2 & E3 & H).
  apply bind_ok in H as (v2 & E4 & H). apply bind_ok in H as (n & E5 & H). apply bind_ok in H as (v3 & E6 & H).
  apply ok_inj in H. apply pair_equal_spec in H as [H ->]. apply pair_equal_spec in H as [H ->]. apply pair_equal_spec in H as [H ->].
  apply pair_equal_spec in H as [Hk Hl].
  assert (Ho : reopened (ex_env Release) b ex_cfg3 b').
  { unfold ex_reopen in E1. destruct (write_index Release (FixWidth (b_layers b)) (mkCursor [7; 7]%N 2)) as [c'|] eqn:Ew; [|discriminate].
    cbn [obind] in E1. exists (mkCursor [7; 7]%N 2), c'. split; [rewrite Hk; repeat constructor|]. split; [exact Ew|exact E1]. }
  assert (Hb' : built (ex_env Release) ex_push b') by (eapply bt_open; eauto using ex_cfg3_ok).
  assert (Hc : calls (ex_env Release) ex_push b' [CPush 15%Z; CBuild 9 robin9] b2).
  { apply run_calls_ok; [exact E3|rewrite Hl; lia|]. eapply built_reached; [apply isort_ok|apply C35_vec_push|exact Hb']. }
  exists b, b', b2. split; [exact Hb|]. split; [exact Ho|]. split; [exact Hc|]. split; [eapply bt_calls; eauto|].
  split; [exact Hv|]. split; [exact E2|]. split; [exact E4|]. rewrite E5. exact E6.
Qed.
