(** * Proofs: indexes that can be searched, saved and reordered, again and again *)
From Verif Require Import Base BaseFacts Bytes PBytes MSliceVec SSliceVec PFixed MOffsets SOffsets MSetVec PSetVec PSetVecWrite MIndexIo SIndexIo PIndexIo PIndexCrash MSearch SSearch PHeap PSearch PSearchIx MBuild SBuild MReorder SReorder PReorder PReorderOrder PReorderSim PPipelineB TIndexIo TSearch TReorder.
Open Scope nat_scope.

(** ** Two graphs shown by one index *)
Definition eqv (G G' : list (list (list N))) : Prop := Forall2 (Forall2 (@Permutation N)) G G'.

Lemma perm_to_nat (a b : list N) : Permutation (map N.to_nat a) (map N.to_nat b) -> Permutation a b.
Proof.
  intros H. apply (Permutation_map N.of_nat) in H. rewrite !map_map in H.
  rewrite !(map_ext (fun x => N.of_nat (N.to_nat x)) (fun x => x)) in H by (intros; apply N2Nat.id). now rewrite !map_id in H.
Qed.
Lemma Forall2_nth_intro {A B} (R : A -> B -> Prop) l l' : length l = length l' ->
  (forall i x y, nth_error l i = Some x -> nth_error l' i = Some y -> R x y) -> Forall2 R l l'.
Proof.
  revert l'. induction l as [|x l IH]; intros [|y l'] HL H; cbn in HL; try lia; constructor.
  - apply (H 0); reflexivity.
  - apply IH; [lia|]. intros i a b Ha Hb. apply (H (S i)); assumption.
Qed.
Lemma shows_eqv m L G G' : index_shows m L G -> index_shows m L G' -> eqv G G'.
Proof.
  intros [H1 H2] [H1' H2']. apply Forall2_nth_intro; [congruence|]. intros i g g' Hg Hg'.
  destruct (H2 i g Hg) as [E1 Hn]. destruct (H2' i g' Hg') as [E1' Hn'].
  apply Forall2_nth_intro; [congruence|]. intros j a b Ha Hb.
  destruct (Hn j a Ha) as (x & Ex & Px). destruct (Hn' j b Hb) as (x' & Ex' & Px').
  assert (x' = x) by congruence. subst x'. apply perm_to_nat. now rewrite <- Px, <- Px'.
Qed.
Lemma Forall2_len {A B} (R : A -> B -> Prop) l l' : Forall2 R l l' -> length l = length l'.
Proof. induction 1; cbn; auto. Qed.
Lemma Forall2_nth_r {A B} (R : A -> B -> Prop) l l' i y : Forall2 R l l' -> nth_error l' i = Some y ->
  exists x, nth_error l i = Some x /\ R x y.
Proof.
  intros H. revert i. induction H as [|a b l l' HR H IH]; intros [|i] Hy; cbn in *; try discriminate; [|now apply IH].
  injection Hy as <-. eauto.
Qed.
Lemma eqv_last G G' : eqv G G' -> length (last G []) = length (last G' []).
Proof.
  intros H. destruct (list_eq_dec (list_eq_dec (list_eq_dec N.eq_dec)) G []) as [->|Hne]; [inversion H; reflexivity|].
  pose proof (Forall2_len _ _ _ H) as HL.
  assert (Hne' : G' <> []) by (intros ->; destruct G; [congruence|discriminate]).
  pose proof (last_nth Hne') as HN. rewrite <- HL in HN. destruct (Forall2_nth_r _ _ _ _ _ H HN) as (x & Hx & HR).
  rewrite (last_nth Hne) in Hx. injection Hx as <-. exact (Forall2_len _ _ _ HR).
Qed.
Lemma eqv_graph_ok G G' : eqv G G' -> graph_ok G -> graph_ok G'.
Proof.
  intros H [H1 H2]. split.
  - apply Forall_forall. intros g' Hg'. apply In_nth_error in Hg' as (i & Hi). destruct (Forall2_nth_r _ _ _ _ _ H Hi) as (g & Hg & HR).
    rewrite Forall_forall in H1. destruct (H1 g (nth_error_In _ _ Hg)) as [Ha Hb]. pose proof (Forall2_len _ _ _ HR) as HL. split.
    + destruct g; [congruence|]. destruct g'; [discriminate|discriminate].
    + apply Forall_forall. intros ns' Hn. apply In_nth_error in Hn as (j & Hj). destruct (Forall2_nth_r _ _ _ _ _ HR Hj) as (ns & Hns & HP).
      rewrite <- HL. rewrite <- HP. rewrite Forall_forall in Hb. apply Hb. eapply nth_error_In; eauto.
  - intros i j g h Hi Hj Hij. destruct (Forall2_nth_r _ _ _ _ _ H Hi) as (g1 & E1 & R1). destruct (Forall2_nth_r _ _ _ _ _ H Hj) as (g2 & E2 & R2).
    rewrite <- (Forall2_len _ _ _ R1), <- (Forall2_len _ _ _ R2). eapply H2; eauto.
Qed.
Lemma eqv_storable G G' : eqv G G' -> storable G -> storable G'.
Proof.
  intros H [H1 H2]. split; [|now rewrite <- (eqv_last _ _ H)].
  apply Forall_forall. intros g' Hg'. apply In_nth_error in Hg' as (i & Hi). destruct (Forall2_nth_r _ _ _ _ _ H Hi) as (g & Hg & HR).
  rewrite Forall_forall in H1. specialize (H1 g (nth_error_In _ _ Hg)). apply Forall_forall. intros ns' Hn. apply In_nth_error in Hn as (j & Hj).
  destruct (Forall2_nth_r _ _ _ _ _ HR Hj) as (ns & Hns & HP). rewrite <- (Permutation_length HP). rewrite Forall_forall in H1. apply H1. eapply nth_error_In; eauto.
Qed.

(** ** Reordered layers can be written *)
Lemma omapM_forall {A B} (f : A -> outcome B) (P : B -> Prop) l : forall r, omapM f l = Ok r ->
  (forall x y, In x l -> f x = Ok y -> P y) -> Forall P r.
Proof.
  induction l as [|x l IH]; intros r E H; cbn [omapM] in E.
  - injection E as <-. constructor.
  - destruct (f x) as [y|] eqn:Ex; [|discriminate]. cbn [obind] in E. destruct (omapM f l) as [r'|] eqn:Er; [|discriminate]. cbn [obind] in E.
    injection E as <-. constructor; [apply (H x); [now left|exact Ex]|]. apply IH; [reflexivity|]. intros a b Ha. apply H. now right.
Qed.

Lemma reorder_layers_is m L G p L' :
  index_shows m L G -> graph_ok G -> storable G -> keeps_layers G p -> G <> [] ->
  reorder_layers m L p = Ok L' -> exists ls G', L' = Compressed ls /\ Forall2 (comp_layer_is m) ls G'.
Proof.
  intros HS HG [Hst Hn] HK Hne E. set (n := length (last G [])) in *. pose proof (proj1 HK) as HP. fold n in HP.
  destruct (reverse_ok HP) as (r & Er & Hr). unfold reorder_layers in E. rewrite Er in E. cbn [obind] in E.
  match type of E with obind ?a _ = _ => destruct a as [ls|] eqn:El; [|discriminate] end. cbn [obind] in E. injection E as <-.
  assert (HF : Forall (fun v => exists g', comp_layer_is m v g') ls).
  { eapply omapM_forall; [exact El|]. intros i v Hi Ev. apply in_seq in Hi. rewrite (proj1 HS) in Hi.
    destruct (nth_error G i) as [g|] eqn:Eg; [|apply nth_error_None in Eg; lia].
    destruct (layer_bridge HS Eg (graph_ok_nth HG Eg)) as [Hb _].
    pose proof (layers_len_pos HG Eg) as Hle. fold n in Hle.
    pose proof (keeps_layers_nth HK Eg) as HP'.
    destruct (proj2 HS _ _ Eg) as [Ell Hj]. cbn beta in Ev. rewrite Ell in Ev. cbn [obind] in Ev.
    assert (HF : Forall (fun x => x < length g) (firstn (length g) p)).
    { rewrite Forall_forall. intros x Hx. apply (Permutation_in _ HP') in Hx. apply in_seq in Hx. lia. }
    rewrite (@layer_ok_build m n (length g) (fun x => get_neighbors m L x i) (nb_of m L i) r) in Ev.
    - exists (map (new_row (nb_of m L i) r) (firstn (length g) p)). split; [|exact Ev].
      rewrite Forall_map. eapply Forall_impl; [|exact HF]. intros x Hx. cbn in Hx. unfold new_row. split.
      + rewrite Forall_map. rewrite Forall_forall. intros y Hy. destruct (Hb _ Hx) as [_ Hbx]. rewrite Forall_forall in Hbx.
        specialize (Hbx _ Hy). unfold is_u32. destruct Hr as (_ & _ & H2). destruct (H2 y) as [H2' _]; [lia|].
        apply N.lt_le_trans with (N.of_nat n); [lia|exact Hn].
      + rewrite map_length. destruct (nth_error g x) as [ns|] eqn:En; [|apply nth_error_None in En; lia].
        destruct (Hj _ _ En) as (ns' & E' & HP2). unfold nb_of. rewrite E', (Permutation_length HP2), map_length.
        rewrite Forall_forall in Hst. specialize (Hst _ (nth_error_In _ _ Eg)). rewrite Forall_forall in Hst.
        apply Hst. eapply nth_error_In; eauto.
    - intros x Hx. destruct (Hb _ Hx) as [H1 H2]. split; auto. eapply Forall_impl; [|exact H2]. cbn. lia.
    - apply Hr.
    - intros y Hy. now apply (proj2 (proj2 Hr)).
    - exact Hn.
    - rewrite (proj1 (@perm_seq_nth n p HP)). auto.
    - exact HF. }
  clear - HF. exists ls. assert (H : exists G', Forall2 (comp_layer_is m) ls G'); [|destruct H as (G' & H); eauto].
  induction HF as [|v ls (g & Hg) _ (G' & IH)]; [exists []; constructor|]. exists (g :: G'). now constructor.
Qed.

(** ** Indexes *)
Record ix (m : mode) (L : layers) (G : list (list (list N))) : Prop := mkIx {
  ix_is : index_is m L G;
  ix_graph : graph_ok G;
  ix_storable : storable G;
  ix_layers : length G <= 25;
  ix_nodes : (N.of_nat (length (last G [])) < 2 ^ 32)%N
}.

Section Ix.
  Context {m : mode} {L : layers} {G : list (list (list N))}.
  Hypothesis HI : ix m L G.
  Lemma ix_shows : index_shows m L G.
  Proof using HI. apply index_is_shows, ix_is, HI. Qed.
  Lemma ix_len : index_len L = Ok (length (last G [])).
  Proof using HI.
    pose proof ix_shows as HS. unfold index_len. rewrite (proj1 HS). destruct (Nat.ltb_spec 0 (length G)) as [H|H].
    - rewrite (layer_len_ok HS) by lia. now rewrite <- last_is_nth.
    - destruct G; [reflexivity|cbn in H; lia].
  Qed.

  Lemma ix_save : exists c L', write_index m L (mkCursor [] 0) = Ok c /\ load_layers (cbuf c) = Ok L' /\ same_index m L L' /\ ix m L' G.
  Proof using HI.
    destruct HI as [H1 H2 H3 H4 H5].
    assert (Hlast : last G [[]] <> []).
    { destruct G as [|g0 G0]; [discriminate|]. destruct (exists_last (l := g0 :: G0)) as (t & x & Et); [discriminate|]. rewrite Et, last_last.
      destruct H2 as [HG _]. rewrite Et in HG. apply Forall_app in HG as [_ HG]. inversion HG as [|? ? Hx _]; subst. apply Hx. }
    destruct (C06_save_succeeds m L G (mkCursor [] 0) H1 Hlast H4) as (c & Ew).
    { apply Forall_forall. intros g Hg. apply In_nth_error in Hg as (i & Hi). pose proof (last_longest H2 Hi) as H. lia. }
    destruct (C06_saved_index_loads_back m L G _ c H1 Ew) as (L' & El & Hs & HI2). cbn [cpos skipn] in El.
    exists c, L'. split; [exact Ew|]. split; [exact El|]. split; [exact Hs|]. now constructor.
  Qed.

  Lemma ix_search dist f fuel max_search num_neighbors :
    dist_is dist f (length (last G [])) -> length (last G []) < fuel -> 0 < max_search ->
    exists res, granne_search m fuel L dist max_search num_neighbors = Ok res /\
      length res <= Nat.min num_neighbors max_search /\ StronglySorted closer res /\ NoDup (map fst res) /\
      (forall i d, In (i, d) res -> i < length (last G []) /\ dist i = Ok d) /\
      (0 < length (last G []) -> 0 < num_neighbors -> res <> []).
  Proof using HI.
    intros Hd Hf Hms. pose proof ix_shows as HS. pose proof (ix_graph _ _ _ HI) as HG.
    destruct (list_eq_dec (list_eq_dec (list_eq_dec N.eq_dec)) G []) as [E|Hne].
    { rewrite E. exists []. split; [apply C20_empty_index; rewrite (proj1 HS), E; reflexivity|]. cbn [length]. split; [lia|].
      split; [constructor|]. split; [constructor|]. split; [intros i d []|]. cbn. lia. }
    destruct (C19_results_well_formed m L G dist f fuel max_search num_neighbors HS HG Hne Hd Hf Hms) as (res & Er & H1 & H2 & H3 & H4).
    exists res. split; [exact Er|]. split; [exact H1|]. split; [exact H2|]. split; [exact H3|]. split; [exact H4|].
    intros _ Hnn. destruct (C20_finds_something m L G dist f fuel max_search num_neighbors HS HG Hne Hd Hf Hms Hnn) as (r & rs & E2).
    intros ->. rewrite E2 in Er. discriminate.
  Qed.

  Lemma ix_reorder p : keeps_layers G p -> G <> [] ->
    exists L' G', reorder_layers m L p = Ok L' /\ ix m L' G' /\ length G' = length G /\
      length (last G' []) = length (last G []) /\ renamed m L L' p.
  Proof using HI.
    intros HK Hne. pose proof ix_shows as HS. destruct HI as [H1 H2 H3 H4 H5].
    destruct (@reorder_layers_ok m L G p HS H2 H3 HK Hne) as (L' & r & EL & Hr & HS').
    destruct (reorder_layers_is m L G p L' HS H2 H3 HK Hne EL) as (ls & G' & -> & HF).
    pose proof (@rename_graph_ok G p r H2 HK Hr) as HG1. pose proof (@rename_storable G p r H2 HK Hne Hr H3) as Hst1.
    pose proof (@rename_last_len G p r H2 HK Hne Hr) as HL1.
    assert (HS2 : index_shows m (Compressed ls) G').
    { split; [cbn [layers_len]; eapply Forall2_len; eauto|]. intros i g' Hi.
      destruct (Forall2_nth_r _ _ _ _ _ HF Hi) as (v & Hv & [Hok Hb]). destruct (lists_round_trip m Hok) as (v' & Ev & Hlen & Hget).
      assert (v' = v) by congruence. subst v'. cbn [layer_len get_neighbors]. unfold msv_neighbors. rewrite (proj2 (index_ok ls i v)) by exact Hv. cbn [obind].
      split; [now rewrite Hlen|]. intros j ns Hj. destruct (Hget j ns Hj) as (s & Es & Hs). rewrite Es. cbn [obind].
      eexists. split; [reflexivity|]. apply Permutation_map, Hs. }
    pose proof (shows_eqv _ _ _ _ HS' HS2) as Heq.
    exists (Compressed ls), G'. split; [exact EL|].
    assert (HL2 : length G' = length G) by (rewrite <- (Forall2_len _ _ _ Heq); apply map_length).
    assert (HL3 : length (last G' []) = length (last G [])) by (rewrite <- (eqv_last _ _ Heq); exact HL1).
    split; [|split; [exact HL2|split; [exact HL3|exact (@index_renamed G p r H2 HK Hr m L (Compressed ls) HS HS')]]].
    pose proof (eqv_graph_ok _ _ Heq HG1) as HG'. constructor; [|exact HG'|now apply (eqv_storable _ _ Heq)|lia|now rewrite HL3].
    split; [|exact HF]. apply Forall_forall. intros g Hg. apply In_nth_error in Hg as (i & Hi). pose proof (last_longest HG' Hi) as H.
    unfold layer_fits. revert H. rewrite HL3. revert H5. clear. intros. lia.
  Qed.
End Ix.
