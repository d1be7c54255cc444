(** * Property theorems: bounded heap and search (C08, C19-C24) *)
From Verif Require Import Base BaseFacts Bytes MSliceVec MOffsets MSetVec MIndexIo SIndexIo PIndexIo MSearch SSearch PHeap PSearch PSearchIx TIndexIo.

(** ** C24 Bounded heap *)
Theorem C24_heap_keeps_smallest :
  forall A (le : A -> A -> bool), total_order le ->
  forall (m : nat) (l : list A), 0 < m ->
    exists h, pushes le (msh_new m) l = Ok h /\ smallest le m l (msh_into_sorted_vec h).
Proof.
  intros A le (T1 & T2 & T3) m l Hm.
  destruct (msh_pushes_spec le T1 T2 T3 l Hm) as (h & E & Hh). exists h. split; [exact E|]. rewrite Hh.
  split; [|split].
  - apply firstn_sort_ok; assumption.
  - rewrite firstn_length, (Permutation_length (sort_by_perm le l)). reflexivity.
  - exists (skipn m (sort_by le l)). split.
    + rewrite firstn_skipn. symmetry. apply sort_by_perm.
    + assert (HS := sort_by_sorted le T1 T2 l). revert HS. generalize (sort_by le l). clear. intros s HS.
      rewrite <- (firstn_skipn m s) in HS. set (x := firstn m s) in *. set (y := skipn m s) in *. clearbody x y.
      induction x as [|c x IH]; cbn [app] in HS; intros a b Ha Hb; [destruct Ha|].
      inversion HS as [|? ? H1 H2]; subst. destruct Ha as [->|Ha]; [|eauto].
      rewrite Forall_forall in H2. apply H2. apply in_or_app. auto.
Qed.
Print Assumptions C24_heap_keeps_smallest.

(** [push] returns [true] exactly when the element was taken in; the heap grew,
    or a strictly larger element (the largest) was dropped for it. *)
Theorem C24_push_reports :
  forall A (le : A -> A -> bool), total_order le ->
  forall (m : nat) (l : list A) (x : A) (h : msh A), 0 < m -> pushes le (msh_new m) l = Ok h ->
    exists h' kept, msh_push le h x = Ok (h', kept) /\
      (kept = true ->
         Permutation (x :: hs h) (hs h') \/
         exists y, In y (hs h) /\ (forall z, In z (hs h) -> le z y = true) /\ x <> y /\ le x y = true /\
                   Permutation (x :: hs h) (y :: hs h')) /\
      (kept = false -> h' = h /\ length (hs h) = m /\ forall z, In z (hs h) -> le z x = true).
Proof.
  intros A le (T1 & T2 & T3) m l x h Hm E.
  destruct (msh_pushes_spec le T1 T2 T3 l Hm) as (h0 & E0 & Hh0).
  assert (h0 = h) by congruence. subst h0.
  assert (Hmax : hmax h = m).
  { clear Hh0 E0. assert (HG : forall l h0, pushes le h0 l = Ok h -> hmax h = hmax h0).
    { clear. induction l as [|a l IH]; intros h0 H; cbn [pushes] in H; [congruence|].
      destruct (msh_push le h0 a) as [[h1 b]|] eqn:Ep; [|discriminate]. cbn [obind fst] in H. rewrite (IH _ H).
      unfold msh_push in Ep. destruct (negb (msh_is_full h0)); [inversion Ep; reflexivity|].
      destruct (ounwrap (msh_peek h0)); [|discriminate]. cbn [obind] in Ep. destruct (lt_of le a a0); inversion Ep; subst; reflexivity. }
    now rewrite (HG _ _ E). }
  destruct (firstn_sort_ok le T1 T2 m l) as [Hs Hl]. unfold msh_into_sorted_vec in Hh0. rewrite <- Hh0 in Hs, Hl.
  destruct (@msh_push_spec A le T1 T2 T3 h x Hs) as (h' & b & Ep & _ & Hh' & Hb & Hf); [lia|lia|].
  exists h', b. split; [exact Ep|]. split.
  - intros Hb1. apply Hb in Hb1. destruct Hb1 as [H|(y & Hy & Hne & HP)]; [auto|]. right. exists y.
    assert (Hyin : In y (hs h)) by (eapply nth_error_In; eauto). split; [exact Hyin|].
    assert (Hlen : length (hs h) = m) by (assert (hmax h - 1 < length (hs h)) by (apply nth_error_Some; congruence); lia).
    assert (Hall : forall z, In z (hs h) -> le z y = true).
    { assert (HF : Forall (fun z => le z y = true) (hs h)).
      { apply (ssorted_last le T1 Hs). replace (length (hs h)) with (hmax h) by lia. exact Hy. }
      rewrite Forall_forall in HF. exact HF. }
    split; [exact Hall|]. split; [exact Hne|]. split; [|exact HP].
    assert (Hx' : In x (hs h')).
    { assert (In x (y :: hs h')) by (eapply Permutation_in; [exact HP|left; reflexivity]). destruct H as [->|]; [congruence|auto]. }
    unfold msh_push in Ep. assert (Hfull : msh_is_full h = true) by (unfold msh_is_full; apply Nat.leb_le; lia).
    rewrite Hfull in Ep. cbn [negb] in Ep.
    assert (Hpk : msh_peek h = Some y) by (unfold msh_peek; replace (length (hs h)) with (hmax h) by lia; exact Hy).
    rewrite Hpk in Ep. cbn [ounwrap obind] in Ep. unfold lt_of in Ep. destruct (le y x) eqn:Eyx; cbn [negb] in Ep.
    + exfalso. inversion Ep; subst b h'. apply Hne. apply T3; auto.
    + destruct (T1 x y); congruence.
  - intros Hb0. split; [apply Hf; exact Hb0|]. subst b. unfold msh_push in Ep.
    destruct (msh_is_full h) eqn:Ef; cbn [negb] in Ep; [|discriminate].
    unfold msh_is_full in Ef. apply Nat.leb_le in Ef. assert (Hlen : length (hs h) = m) by lia. split; [exact Hlen|].
    destruct (msh_peek h) as [p|] eqn:Epk; [|discriminate]. cbn [ounwrap obind] in Ep. unfold lt_of in Ep.
    destruct (le p x) eqn:Epx; cbn [negb] in Ep; [|discriminate].
    intros z Hz. pose proof (ssorted_last le T1 Hs Epk) as HF. rewrite Forall_forall in HF. eauto.
Qed.
Print Assumptions C24_push_reports.

Example C24_nonvacuous : total_order Nat.leb /\
  (let* h := pushes Nat.leb (msh_new 3) [5;1;4;1;9;0] in Ok (hs h)) = Ok [0;1;1].
Proof.
  split; [|reflexivity]. split; [|split]; intros *; rewrite ?Nat.leb_le; lia.
Qed.

(** ** C08 Search does not depend on the order of neighbours *)
Theorem C08_neighbour_order_irrelevant :
  forall m L1 L2 G dist f fuel max_search num_neighbors,
    index_shows m L1 G -> index_shows m L2 G -> graph_ok G -> dist_is dist f (length (last G [])) ->
    length (last G []) < fuel ->
    granne_search m fuel L1 dist max_search num_neighbors = granne_search m fuel L2 dist max_search num_neighbors.
Proof. intros *. apply search_same. Qed.
Print Assumptions C08_neighbour_order_irrelevant.

(** ... in particular saving and loading does not change any search result. *)
Theorem C08_saved_index_searches_the_same :
  forall m L G c0 c1 dist f fuel max_search num_neighbors,
    index_is m L G -> write_index m L c0 = Ok c1 ->
    graph_ok G -> dist_is dist f (length (last G [])) -> length (last G []) < fuel ->
    exists L', load_layers (skipn (cpos c0) (cbuf c1)) = Ok L' /\
      granne_search m fuel L' dist max_search num_neighbors = granne_search m fuel L dist max_search num_neighbors.
Proof.
  intros m L G c0 c1 dist f fuel ms nn HI Hw HG Hd Hf.
  destruct (C06_saved_index_loads_back m L G c0 c1 HI Hw) as (L' & E & _ & HI'). exists L'. split; [exact E|].
  apply (search_same (G := G) (f := f)); auto using index_is_shows.
Qed.
Print Assumptions C08_saved_index_searches_the_same.

(** ** C19 Well-formed results *)
Theorem C19_results_well_formed :
  forall m L G dist f fuel max_search num_neighbors,
    index_shows m L G -> graph_ok G -> G <> [] -> dist_is dist f (length (last G [])) ->
    length (last G []) < fuel -> 0 < max_search ->
    exists res, granne_search m fuel L dist max_search num_neighbors = Ok res /\
      length res <= Nat.min num_neighbors max_search /\
      StronglySorted closer res /\ NoDup (map fst res) /\
      (forall i d, In (i, d) res -> i < length (last G []) /\ dist i = Ok d).
Proof.
  intros m L G dist f fuel ms nn HS HG Hne Hd Hf Hms.
  destruct (search_main HS HG Hd Hf nn Hne Hms) as (ep & l & _ & _ & _ & E & (F1 & F2 & F3 & F4 & _)).
  eexists. split; [exact E|]. split; [rewrite firstn_length, map_length; lia|].
  assert (HSt := final_sorted F1 F2). split; [|split].
  - clear -HSt. revert nn. induction HSt as [|a s Hs IH Ha]; intros nn; [rewrite firstn_nil; constructor|].
    destruct nn; cbn [firstn]; constructor; auto. rewrite Forall_forall in *. intros b Hb. apply Ha. eapply firstn_In; eauto.
  - rewrite <- firstn_map, ids_swap. rewrite <- (firstn_skipn nn (map snd l)) in F2. exact (NoDup_appl _ _ F2).
  - intros i d Hin. apply firstn_In in Hin. apply in_map_iff in Hin as (k & Ek & Hk).
    destruct (F4 _ Hk) as (Ek2 & Hkn & _). unfold swap_key in Ek. inversion Ek; subst. split; [exact Hkn|].
    rewrite (Hd _ Hkn). rewrite Ek2. reflexivity.
Qed.
Print Assumptions C19_results_well_formed.

(** ** C20 Search terminates and finds something *)
Theorem C20_finds_something :
  forall m L G dist f fuel max_search num_neighbors,
    index_shows m L G -> graph_ok G -> G <> [] -> dist_is dist f (length (last G [])) ->
    length (last G []) < fuel -> 0 < max_search -> 0 < num_neighbors ->
    exists r res, granne_search m fuel L dist max_search num_neighbors = Ok (r :: res).
Proof.
  intros m L G dist f fuel ms nn HS HG Hne Hd Hf Hms Hnn.
  destruct (search_main HS HG Hd Hf nn Hne Hms) as (ep & l & _ & _ & _ & E & (_ & _ & _ & _ & _ & _ & r & Hr & _)).
  rewrite E. destruct l as [|k l]; [destruct Hr|]. destruct nn; [lia|]. cbn [map firstn]. eauto.
Qed.
Print Assumptions C20_finds_something.

Theorem C20_empty_index :
  forall m L dist fuel max_search num_neighbors,
    layers_len L = 0 -> granne_search m fuel L dist max_search num_neighbors = Ok [].
Proof. intros m L dist fuel ms nn H. unfold granne_search, graphs_of. rewrite H. reflexivity. Qed.
Print Assumptions C20_empty_index.

(** ** C21 Exhaustive search is exact *)
(** [R] lists the nodes reachable from the entry point in the bottom layer. *)
Theorem C21_exhaustive_is_exact :
  forall m L G dist f fuel max_search num_neighbors ep R,
    index_shows m L G -> graph_ok G -> G <> [] -> dist_is dist f (length (last G [])) ->
    length (last G []) < fuel -> 0 < max_search ->
    find_entrypoint fuel (removelast (graphs_of m L)) dist = Ok ep ->
    NoDup R -> (forall x, In x R <-> reach (last G []) ep x) -> length R <= max_search ->
    exists res, granne_search m fuel L dist max_search num_neighbors = Ok res /\
      length res = Nat.min num_neighbors (length R) /\
      StronglySorted closer res /\
      exists others, Permutation (map (fun x => (x, f x)) R) (res ++ others) /\
        forall a b, In a res -> In b others -> closer a b.
Proof.
  intros m L G dist f fuel ms nn ep R HS HG Hne Hd Hf Hms Hep HR HRin Hlen.
  destruct (search_main HS HG Hd Hf nn Hne Hms) as (ep' & l & E1 & Hepn & _ & E & HF).
  rewrite Hep in E1. inversion E1; subst ep'. clear E1.
  pose proof (exhaustive HS HG Hne Hepn HF HR HRin Hlen) as HP.
  destruct HF as (F1 & F2 & F3 & F4 & _). assert (HSt := final_sorted F1 F2).
  assert (HL : length (map swap_key l) = length R) by (rewrite <- (Permutation_length HP), !map_length; reflexivity).
  exists (firstn nn (map swap_key l)). split; [exact E|]. split; [rewrite firstn_length, HL; reflexivity|]. split.
  - clear -HSt. revert nn. induction HSt as [|a s Hs IH Ha]; intros nn; [rewrite firstn_nil; constructor|].
    destruct nn; cbn [firstn]; constructor; auto. rewrite Forall_forall in *. intros b Hb. apply Ha. eapply firstn_In; eauto.
  - exists (skipn nn (map swap_key l)). split.
    + rewrite firstn_skipn. rewrite <- HP, map_map.
      assert (map swap_key l = map (fun x => (snd x, f (snd x))) l) as ->; [|reflexivity].
      apply map_ext_in. intros k Hk. destruct (F4 _ Hk) as (Ek & _). rewrite Ek at 1. reflexivity.
    + revert HSt. generalize (map swap_key l). clear. intros s HS.
      rewrite <- (firstn_skipn nn s) in HS. set (x := firstn nn s) in *. set (y := skipn nn s) in *. clearbody x y.
      induction x as [|c x IH]; cbn [app] in HS; intros a b Ha Hb; [destruct Ha|].
      inversion HS as [|? ? H1 H2]; subst. destruct Ha as [->|Ha]; [|eauto].
      rewrite Forall_forall in H2. apply H2. apply in_or_app. auto.
Qed.
Print Assumptions C21_exhaustive_is_exact.

(** If every node of the bottom layer can be reached from every other and
    [max_search] is at least the number of nodes, search is exact k-NN. *)
Theorem C21_connected_is_exact :
  forall m L G dist f fuel max_search num_neighbors,
    index_shows m L G -> graph_ok G -> G <> [] -> dist_is dist f (length (last G [])) ->
    length (last G []) < fuel -> length (last G []) <= max_search ->
    (forall x y, x < length (last G []) -> y < length (last G []) -> reach (last G []) x y) ->
    exists res, granne_search m fuel L dist max_search num_neighbors = Ok res /\
      length res = Nat.min num_neighbors (length (last G [])) /\
      StronglySorted closer res /\
      forall x, x < length (last G []) -> ~ In x (map fst res) -> forall a, In a res -> closer a (x, f x).
Proof.
  intros m L G dist f fuel ms nn HS HG Hne Hd Hf Hms Hconn.
  assert (Hpos : 0 < length (last G [])).
  { destruct (graph_ok_nth HG (last_nth Hne)) as [H _]. destruct (last G []); [congruence|cbn; lia]. }
  destruct (search_main HS HG Hd Hf (ms := ms) nn Hne ltac:(lia)) as (ep & l & E1 & Hepn & _ & _ & HF).
  destruct (C21_exhaustive_is_exact m L G dist f fuel ms nn ep (seq 0 (length (last G []))) HS HG Hne Hd Hf)
    as (res & E & HL & HSo & others & HP & Hfar); auto; [lia|apply seq_NoDup| |rewrite seq_length; lia|].
  - intros x. rewrite in_seq. split; [intros Hx; apply Hconn; lia|]. intros Hr.
    assert (x < length (last G [])); [|lia]. induction Hr as [|y z Hy IH (ns & En & Hz)]; [exact Hepn|].
    destruct (graph_ok_nth HG (last_nth Hne)) as [_ HA]. rewrite Forall_forall in HA. apply nth_error_In in En.
    specialize (HA _ En). rewrite Forall_forall in HA. specialize (HA _ Hz). rewrite Nat2N.id in HA. exact HA.
  - exists res. split; [exact E|]. split; [rewrite HL, seq_length; reflexivity|]. split; [exact HSo|].
    intros x Hx Hni a Ha. apply Hfar; [exact Ha|].
    assert (Hin : In (x, f x) (res ++ others)).
    { eapply Permutation_in; [exact HP|]. apply in_map_iff. exists x. split; auto. apply in_seq. lia. }
    apply in_app_or in Hin as [Hin|Hin]; [|exact Hin]. exfalso. apply Hni. apply in_map_iff. exists (x, f x). auto.
Qed.
Print Assumptions C21_connected_is_exact.

(** ** C22 Closed under improvement *)
Theorem C22_no_neighbour_improves :
  forall m L G dist f fuel max_search num_neighbors,
    index_shows m L G -> graph_ok G -> G <> [] -> dist_is dist f (length (last G [])) ->
    length (last G []) < fuel -> 0 < max_search -> max_search <= num_neighbors ->
    exists res, granne_search m fuel L dist max_search num_neighbors = Ok res /\
      forall x y, In x (map fst res) -> edge (last G []) x y ->
        In y (map fst res) \/ (length res = max_search /\ forall i d, In (i, d) res -> (d <= f y)%Z).
Proof.
  intros m L G dist f fuel ms nn HS HG Hne Hd Hf Hms Hnn.
  destruct (search_main HS HG Hd Hf nn Hne Hms) as (ep & l & _ & _ & _ & E & (F1 & F2 & F3 & F4 & F5 & _)).
  rewrite firstn_all2 in E by (rewrite map_length; etransitivity; [exact F3|exact Hnn]).
  eexists. split; [exact E|]. intros x y Hx Hxy. rewrite ids_swap in *.
  destruct (layer_bridge HS (last_nth Hne) (graph_ok_nth HG (last_nth Hne))) as [_ He].
  assert (Hxn : x < length (last G [])).
  { apply in_map_iff in Hx as (k & <- & Hk). apply F4. exact Hk. }
  destruct (F5 x y Hx) as [H|[H1 H2]]; [apply He; assumption|left; exact H|right].
  split; [rewrite map_length; exact H1|]. intros i d Hin. apply in_map_iff in Hin as (k & Ek & Hk).
  unfold swap_key in Ek. inversion Ek; subst. apply H2. exact Hk.
Qed.
Print Assumptions C22_no_neighbour_improves.

(** The nearest result is at most as far as the entry point of the bottom layer
    and as node 0, where every search starts. *)
Theorem C22_not_farther_than_entry :
  forall m L G dist f fuel max_search num_neighbors,
    index_shows m L G -> graph_ok G -> G <> [] -> dist_is dist f (length (last G [])) ->
    length (last G []) < fuel -> 0 < max_search -> 0 < num_neighbors ->
    exists ep i d res, find_entrypoint fuel (removelast (graphs_of m L)) dist = Ok ep /\
      granne_search m fuel L dist max_search num_neighbors = Ok ((i, d) :: res) /\ (d <= f ep)%Z /\ (d <= f 0%nat)%Z.
Proof.
  intros m L G dist f fuel ms nn HS HG Hne Hd Hf Hms Hnn.
  destruct (search_main HS HG Hd Hf nn Hne Hms) as (ep & l & Eep & _ & Hle & E & (F1 & F2 & F3 & F4 & F5 & _ & r & Hr & Hrle)).
  destruct l as [|k l]; [destruct Hr|]. destruct nn; [lia|]. cbn [map firstn] in E.
  assert (Hkr : key_le k r = true).
  { destruct Hr as [->|Hr]; [apply key_le_refl|]. inversion F1 as [|? ? _ HFa]; subst. rewrite Forall_forall in HFa. auto. }
  apply key_le_fst in Hkr. apply key_le_fst in Hrle. apply key_le_fst in Hle. cbn [kof fst] in *.
  exists ep, (snd k), (fst k). eexists. split; [exact Eep|]. split; [exact E|]. split; lia.
Qed.
Print Assumptions C22_not_farther_than_entry.

(** ** C23 max_search = 0 *)
(** The property is false of the code: it panics on every non-empty index. *)
Theorem C23_zero_max_search_panics_refuted :
  forall m L G dist f fuel num_neighbors,
    index_shows m L G -> graph_ok G -> G <> [] -> dist_is dist f (length (last G [])) ->
    length (last G []) < fuel ->
    granne_search m fuel L dist 0 num_neighbors = Fail Panicked.
Proof.
  intros m L G dist f fuel nn HS HG Hne Hd Hf. unfold granne_search, search_internal. rewrite (graphs_split HS Hne).
  destruct (@entry_ok m L G dist f fuel HS HG Hd Hf (length G - 1)) as (ep & E & Hlt & _); [destruct G; [congruence|cbn; lia]|].
  rewrite E. cbn [obind]. specialize (Hlt _ (last_nth Hne)). unfold search_for_neighbors, s_init.
  rewrite (Hd _ Hlt). cbn [obind]. destruct fuel; [lia|]. reflexivity.
Qed.
Print Assumptions C23_zero_max_search_panics_refuted.

(** ** A concrete index meets the hypotheses *)
Definition ex_L : layers :=
  FixWidth [mkFw [1;UNUSED;0;UNUSED]%N 2; mkFw [2;1;3;0;0;UNUSED;2;UNUSED;UNUSED;UNUSED]%N 2].
Definition ex_G : list (list (list N)) := [[[1];[0]]; [[2;1];[3;0];[0];[2];[]]]%N.
Definition ex_dist (i : nat) : outcome Z := index [40; 30; 30; 10; 5]%Z i.
Definition ex_f (i : nat) : Z := nth i [40; 30; 30; 10; 5]%Z 0%Z.

Example search_nonvacuous :
  index_shows Debug ex_L ex_G /\ graph_ok ex_G /\ ex_G <> [] /\ dist_is ex_dist ex_f (length (last ex_G [])) /\
  granne_search Debug 6 ex_L ex_dist 3 10 = Ok [(3, 10%Z); (1, 30%Z); (2, 30%Z)] /\
  granne_search Debug 6 ex_L ex_dist 4 3 = Ok [(3, 10%Z); (1, 30%Z); (2, 30%Z)].
Proof.
  assert (HI : index_is Debug ex_L ex_G).
  { split; [repeat constructor|]. unfold ex_L, ex_G. repeat (apply Forall2_cons || apply Forall2_nil).
    all: exists 2; split; [lia|]; split; [repeat constructor|].
    all: repeat (apply Forall_cons || apply Forall_nil); cbn [length]; repeat split; try lia.
    all: repeat constructor. }
  split; [apply index_is_shows; exact HI|]. split; [|split; [discriminate|split; [|split; vm_compute; reflexivity]]].
  - split; [repeat constructor; try discriminate; cbn; lia|].
    intros [|[|i]] [|[|j]] g h; cbn [nth_error ex_G]; intros Hg Hh Hij; try lia;
      try (destruct i; discriminate); try (destruct j; discriminate); inversion Hg; inversion Hh; cbn; lia.
  - intros i Hi. cbn in Hi. do 5 (destruct i as [|i]; [reflexivity|]). lia.
Qed.
