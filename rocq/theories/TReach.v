(** * Theorems C65: small collections are connected, and searched exactly *)
From Coq Require Import Relation_Operators Operators_Properties.
From Verif Require Import Base BaseFacts MSliceVec SSliceVec PFixed MIndexIo SIndexIo PIndexIo PIndexCrash MSearch SSearch PHeap PSearch PSearchIx MBuild SBuild PSelect PRow PSLite PBuildInv PBuildRun PBuildLayer PBuildFair PBuilder PHistory PReach PPipeline SReach PReachB PReachC TSearch TBuild.

Lemma findable_conn {S E} (V : benv S E) s nn0 l rows x : (N.of_nat (c_len (e_ops V) s) <= UNUSED)%N ->
  lfine V s true nn0 l rows -> all_in V s rows -> x < length rows ->
  (conn rows x <-> findable V s (length rows) x).
Proof.
  intros Hlen Hl Ha Hx. split.
  - intros Hc. split; auto. destruct (Nat.eq_dec x 0) as [|H0]; auto. right. intros Hz.
    destruct (conn_live Hc) as [|Hv]; [auto|]. exact (y_zero (f_inv Hl) eq_refl Hz H0 Hv).
  - intros [_ [->|Hz]]; [apply conn_0|]. destruct (Ha x Hx) as [Hz'|]; [contradiction|auto].
Qed.

Lemma findable_list {S E} (V : benv S E) s n : cont_ok (e_ops V) s -> n <= c_len (e_ops V) s ->
  exists R, NoDup R /\ (forall x, In x R <-> findable V s n x) /\ length R <= n.
Proof.
  intros Hc. induction n as [|n IH]; intros Hn.
  - exists []. split; [constructor|]. split; auto. intros x. split; [intros []|]. intros [H _]. lia.
  - destruct IH as (R & H1 & H2 & H3); [lia|].
    assert (Hdec : findable V s (Datatypes.S n) n \/ ~ findable V s (Datatypes.S n) n).
    { destruct (ck_dist Hc (i := n) (j := n)) as (d & Ed); [lia..|].
      destruct (Nat.eq_dec n 0) as [->|H0]; [left; split; auto|].
      destruct (Z.lt_ge_cases (e_eps V) d) as [Hd|Hd].
      - right. intros [_ [Hx|Hx]]; [auto|]. apply Hx. exists d. auto.
      - left. split; auto. right. intros (d' & E' & Hd'). rewrite Ed in E'. injection E' as <-. lia. }
    assert (Hback : forall x, findable V s n x <-> findable V s (Datatypes.S n) x /\ x <> n).
    { intros x. unfold findable. split; [intros [Hx Hy]; repeat split; auto; lia|]. intros [[Hx Hy] Hz]. split; auto. lia. }
    destruct Hdec as [Hy|Hy].
    + exists (n :: R). split; [constructor; auto; rewrite H2, Hback; tauto|]. split; [|cbn; lia].
      intros x. cbn [In]. rewrite H2, Hback. split; [intros [<-|]; tauto|]. intros Hf. destruct (Nat.eq_dec n x); auto.
    + exists R. split; auto. split; [|lia]. intros x. rewrite H2, Hback. split; [tauto|]. intros Hf. split; auto. intros ->. auto.
Qed.

(** The layers of any builder whose collection is small enough: in each, every
    node except zero vectors reaches every other; the coarser layers' links are
    also in the finer layers. *)
Theorem C65_small_collections_are_connected :
  forall {S E I} (V : benv S E) (cpush : S -> I -> outcome S) b m,
    sorts_by_dist (e_sort V) -> push_law (e_ops V) cpush -> push_keeps_distances (e_ops V) cpush ->
    built_via V cpush (opened_with_room V) b ->
    roomy (b_config b) (builder_num_elements V b) -> few_duplicates V (b_elems b) (half (b_config b)) ->
    exists G, index_shows m (FixWidth (b_layers b)) G /\ graph_ok G /\
      (forall i g x y, nth_error G i = Some g -> findable V (b_elems b) (length g) x -> findable V (b_elems b) (length g) y -> reach g x y) /\
      (forall i j g h x y, i <= j -> nth_error G i = Some g -> nth_error G j = Some h -> edge g x y -> edge h x y).
Proof.
  intros S E I V cpush b m Hs Hp Hk Hb Hroom Hfew.
  pose proof (built_reached Hs Hp Hb) as Hr. destruct (reached_fine Hs Hp Hr) as [(Hcf & Hel & _) _].
  destruct (reached_conn Hs Hp Hk Hr Hroom Hfew) as (R & Hch & [Hgr Hcl] & Hall).
  assert (Hlen := eo_len Hel). exists (map lists_of R). split; [eapply chain_shows; eauto|]. split; [eapply chain_graph_ok; eauto|]. split.
  - intros i g x y Hi Hx Hy. rewrite nth_error_map in Hi. destruct (nth_error R i) as [rows|] eqn:Er; [|discriminate]. cbn in Hi. injection Hi as <-.
    assert (HL : length (lists_of rows) = length rows) by (unfold lists_of; apply map_length). rewrite HL in *.
    destruct Hch as [HF _].
    assert (Hl : exists l, lfine V (b_elems b) true (k_nn (b_config b)) l rows).
    { clear -HF Er. revert i Er. induction HF as [|l r ls R Hl HF IH]; intros [|i] Er; cbn in *; try discriminate; eauto.
      injection Er as <-. eauto. }
    destruct Hl as (l & Hl). rewrite Forall_forall in Hall. pose proof (Hall _ (nth_error_In _ _ Er)) as Ha.
    apply (findable_conn V _ _ _ _ x Hlen Hl Ha (proj1 Hx)) in Hx. apply (findable_conn V _ _ _ _ y Hlen Hl Ha (proj1 Hy)) in Hy.
    apply reach_rch. eapply rt_trans; [apply Hx|apply Hy].
  - intros i j g h x y Hij Hi Hj Hxy. rewrite nth_error_map in Hi, Hj.
    destruct (nth_error R i) as [r1|] eqn:E1; [|discriminate]. destruct (nth_error R j) as [r2|] eqn:E2; [|discriminate].
    cbn in Hi, Hj. injection Hi as <-. injection Hj as <-. apply edge_edg. apply edge_edg in Hxy.
    destruct (Nat.eq_dec i j) as [->|]; [rewrite E1 in E2; injection E2 as <-; auto|].
    refine (sorted_nth (i := i) (j := j) Hgr _ E1 E2 _ _ Hxy). lia.
Qed.
Print Assumptions C65_small_collections_are_connected.

(** Searching such an index with [max_search] at least the number of indexed
    elements gives exactly the nearest of all indexed elements (except zero
    vectors), for every query. *)
Theorem C65_small_collections_are_searched_exactly :
  forall {S E I} (V : benv S E) (cpush : S -> I -> outcome S) b m dist f fuel max_search num_neighbors,
    sorts_by_dist (e_sort V) -> push_law (e_ops V) cpush -> push_keeps_distances (e_ops V) cpush ->
    built_via V cpush (opened_with_room V) b -> 0 < builder_len b ->
    roomy (b_config b) (builder_num_elements V b) -> few_duplicates V (b_elems b) (half (b_config b)) ->
    dist_is dist f (builder_len b) -> builder_len b < fuel -> builder_len b <= max_search ->
    exists found res, NoDup found /\ (forall x, In x found <-> findable V (b_elems b) (builder_len b) x) /\
      granne_search m fuel (FixWidth (b_layers b)) dist max_search num_neighbors = Ok res /\
      length res = Nat.min num_neighbors (length found) /\
      StronglySorted closer res /\
      exists others, Permutation (map (fun x => (x, f x)) found) (res ++ others) /\
        forall a b, In a res -> In b others -> closer a b.
Proof.
  intros S E I V cpush b m dist f fuel ms nn Hs Hp Hk Hb Hpos Hroom Hfew Hd Hf Hms.
  pose proof (built_reached Hs Hp Hb) as Hr. destruct (reached_fine Hs Hp Hr) as [(Hcf & Hel & _) _].
  destruct (reached_conn Hs Hp Hk Hr Hroom Hfew) as (R & Hch & Hgr & Hall). assert (Hlen := eo_len Hel).
  assert (HS : index_shows m (FixWidth (b_layers b)) (map lists_of R)) by (eapply chain_shows; eauto).
  assert (HG : graph_ok (map lists_of R)) by (eapply chain_graph_ok; eauto).
  destruct (@nil_or_snoc _ (b_layers b)) as [Els|(p & l & Els)]; [rewrite (builder_len_none Els) in Hpos; lia|].
  assert (Hch' := Hch). rewrite Els in Hch'. destruct (chain_split Hch') as (R0 & rows & HR & Hch0 & Hl & Hg).
  assert (Hbl : builder_len b = length rows) by (eapply builder_len_app; eauto).
  assert (HlastG : last (map lists_of R) [] = lists_of rows) by (rewrite HR, map_app; cbn [map]; apply last_last).
  assert (HLr : length (lists_of rows) = length rows) by (unfold lists_of; apply map_length).
  assert (HLR : length R = Datatypes.S (length R0)) by (rewrite HR, app_length; cbn; lia).
  assert (Hd' : dist_is dist f (length (last (map lists_of R) []))) by (rewrite HlastG, HLr, <- Hbl; exact Hd).
  assert (Hf' : length (last (map lists_of R) []) < fuel) by (rewrite HlastG, HLr, <- Hbl; exact Hf).
  destruct (entry_conn HS HG Hgr Hd' Hf' (k := length R0)) as (ep & rows' & Eep & Er & Hep & Hcep); [lia|].
  assert (rows' = rows) as ->.
  { rewrite HR, nth_error_app2, Nat.sub_diag in Er by lia. injection Er as <-. reflexivity. }
  assert (Hcl : closed rows).
  { destruct Hgr as [_ Hcl]. rewrite Forall_forall in Hcl. apply Hcl. eapply nth_error_In; exact Er. }
  assert (Ha : all_in V (b_elems b) rows).
  { rewrite Forall_forall in Hall. apply Hall. eapply nth_error_In; exact Er. }
  destruct (findable_list V (b_elems b) (builder_len b) (eo_c Hel)) as (found & Hnd & Hin & Hfl); [rewrite Hbl; apply (f_max Hl)|].
  assert (Hreach : forall x, In x found <-> reach (last (map lists_of R) []) ep x).
  { intros x. rewrite Hin, HlastG, reach_rch, Hbl. split.
    - intros Hx. apply (findable_conn V _ _ _ _ x Hlen Hl Ha (proj1 Hx)) in Hx. eapply rt_trans; [apply Hcep|apply Hx].
    - intros Hx. pose proof (closed_conn Hcl Hcep Hx) as Hcx. apply (findable_conn V _ _ _ _ x Hlen Hl Ha); auto.
      destruct (conn_live Hcx) as [->|(r & Hrx & _)]; [lia|]. apply nth_error_Some. congruence. }
  assert (Eep' : find_entrypoint fuel (removelast (graphs_of m (FixWidth (b_layers b)))) dist = Ok ep).
  { unfold graphs_of. rewrite (proj1 HS), map_length, HLR, removelast_map_seq. exact Eep. }
  destruct (C21_exhaustive_is_exact m (FixWidth (b_layers b)) (map lists_of R) dist f fuel ms nn ep found HS HG)
    as (res & Eres & H1 & H2 & H3); auto; try lia.
  { rewrite HR, map_app. destruct (map lists_of R0); discriminate. }
  exists found, res. auto 10.
Qed.
Print Assumptions C65_small_collections_are_searched_exactly.

(** In particular, collections of at most [1 + half] elements (8 with the default
    of 30 neighbours) are searched exactly whatever the layer sizes and the
    elements. *)
Theorem C65_tiny_collections_are_searched_exactly :
  forall {S E I} (V : benv S E) (cpush : S -> I -> outcome S) b m dist f fuel max_search num_neighbors,
    sorts_by_dist (e_sort V) -> push_law (e_ops V) cpush -> push_keeps_distances (e_ops V) cpush ->
    built_via V cpush (opened_with_room V) b -> 0 < builder_len b -> builder_num_elements V b <= 1 + half (b_config b) ->
    dist_is dist f (builder_len b) -> builder_len b < fuel -> builder_len b <= max_search ->
    exists found res, NoDup found /\ (forall x, In x found <-> findable V (b_elems b) (builder_len b) x) /\
      granne_search m fuel (FixWidth (b_layers b)) dist max_search num_neighbors = Ok res /\
      length res = Nat.min num_neighbors (length found) /\
      StronglySorted closer res /\
      exists others, Permutation (map (fun x => (x, f x)) found) (res ++ others) /\
        forall a b, In a res -> In b others -> closer a b.
Proof.
  intros S E I V cpush b m dist f fuel ms nn Hs Hp Hk Hb Hpos Hn Hd Hf Hms.
  assert (Hcf : cfg_ok (b_config b)).
  { pose proof (built_reached Hs Hp Hb) as Hr. destruct (reached_fine Hs Hp Hr) as [(Hcf & _) _]. exact Hcf. }
  assert (Hnn : 0 < k_nn (b_config b)) by apply Hcf. unfold builder_num_elements in *.
  assert (H2 : k_nn (b_config b) / 2 <= k_nn (b_config b)) by (apply Nat.div_le_upper_bound; lia).
  assert (H4 : half (b_config b) <= Nat.max 1 (k_nn (b_config b) / 2)) by (unfold half; apply Nat.div_le_upper_bound; lia).
  eapply C65_small_collections_are_searched_exactly; eauto.
  - intros n l Hl. cbv zeta. unfold builder_num_elements in *. destruct (_ <? _); lia.
  - intros i e others Hi He Hnd Ho.
    assert (length others < c_len (e_ops V) (b_elems b)); [|lia].
    apply (@others_bound (c_len (e_ops V) (b_elems b)) i others Hnd); auto.
    + intros Hin. apply Ho in Hin. tauto.
    + apply Forall_forall. intros x Hx. apply Ho in Hx. tauto.
Qed.
Print Assumptions C65_tiny_collections_are_searched_exactly.

(** [Vec] containers meet the assumption on distances. *)
Lemma vec_keeps_distances {E} (d : E -> E -> Z) : push_keeps_distances (vec_ops d) (fun s (x : E) => Ok (s ++ [x])).
Proof.
  intros s x s' Es i e Hi. injection Es as <-. cbn [vec_ops c_dte c_len] in *. unfold index. now rewrite nth_error_app1.
Qed.

(** A history (built for 3 elements, one pushed, built again) with room: element
    3, a zero vector, is not found, the others are, in order. *)
Definition small_cfg : config := mkConfig 4 9 true None (fun n l => Nat.min n (match l with 0 => 2 | _ => n end)).
Definition small_calls : list (call Z) := [CBuildPartial 3 9 round_robin; CPush 12%Z; CBuild 9 round_robin].
Example C65_case : exists b,
  run_calls (ex_env Release) (mkBuilder [7; 3; 5; 0]%Z [] small_cfg) small_calls = Ok b /\ built_once (ex_env Release) ex_push b /\
  builder_len b = 5 /\ roomy (b_config b) (builder_num_elements (ex_env Release) b) /\
  few_duplicates (ex_env Release) (b_elems b) (half (b_config b)) /\
  list_view b = Ok [[[1]; [0]]; [[2; 1; 4]; [2; 0; 4]; [0; 1; 4]; []; [0; 2; 1]]] /\
  granne_search Release 9 (FixWidth (b_layers b)) (fun i => c_dte (e_ops (ex_env Release)) (b_elems b) i 11%Z) 5 9
    = Ok [(4, 10%Z); (0, 40%Z); (2, 60%Z); (1, 80%Z)].
Proof.
  set (V := ex_env Release).
  assert (Hv : (let* b := run_calls V (mkBuilder [7; 3; 5; 0]%Z [] small_cfg) small_calls in
     let* v := list_view b in
     let* r := granne_search Release 9 (FixWidth (b_layers b)) (fun i => c_dte (e_ops V) (b_elems b) i 11%Z) 5 9 in
     Ok (v, r, b_elems b, builder_len b)) =
     Ok ([[[1]; [0]]; [[2; 1; 4]; [2; 0; 4]; [0; 1; 4]; []; [0; 2; 1]]], [(4, 10%Z); (0, 40%Z); (2, 60%Z); (1, 80%Z)], [7; 3; 5; 0; 12]%Z, 5))
    by (vm_compute; reflexivity).
  destruct (run_calls V _ small_calls) as [b|] eqn:Eb; [|discriminate]. cbn [obind] in Hv.
  destruct (list_view b) as [v|] eqn:Ev; [|discriminate]. cbn [obind] in Hv.
  destruct (granne_search _ _ _ _ _ _) as [r|] eqn:Er; [|discriminate]. cbn [obind] in Hv.
  injection Hv as -> -> He Hl.
  assert (Hn : builder_new V small_cfg [7; 3; 5; 0]%Z = Ok (mkBuilder [7; 3; 5; 0]%Z [] small_cfg)) by reflexivity.
  assert (Hu : usable V [7; 3; 5; 0]%Z) by (apply ex_usable; cbn; lia).
  assert (Hc : cfg_ok small_cfg).
  { split; [cbn; lia|]. split; [cbn; lia|]. split; [discriminate|]. intros n Hn0 _. cbn [small_cfg k_ideal]. lia. }
  assert (Hb : built_once V ex_push b).
  { exists small_cfg, [7; 3; 5; 0]%Z, (mkBuilder [7; 3; 5; 0]%Z [] small_cfg), small_calls. split; [exact Hc|]. split; [exact Hu|].
    split; [exact Hn|]. apply run_calls_ok; [exact Eb|rewrite He; cbn; lia|]. eapply r_new; [exact Hc|exact Hu|exact Hn]. }
  assert (Hcf : b_config b = small_cfg).
  { assert (H : (let* b := run_calls V (mkBuilder [7; 3; 5; 0]%Z [] small_cfg) small_calls in Ok (b_config b)) = Ok small_cfg) by (vm_compute; reflexivity).
    rewrite Eb in H. cbn [obind] in H. now injection H. }
  exists b. split; [reflexivity|]. split; [exact Hb|]. split; [exact Hl|]. rewrite Hcf.
  split; [|split; [|split; [exact Ev|exact Er]]].
  - unfold builder_num_elements. rewrite He. intros n l Hl0. cbn [V ex_env e_ops vec_ops c_len length] in Hl0. cbv zeta. cbn [small_cfg k_expected k_ideal k_nn].
    replace (4 / 2) with 2 by reflexivity. rewrite Nat.max_id. destruct l as [|l]; match goal with |- context [?a <? ?b] => destruct (Nat.ltb_spec a b) end; lia.
  - rewrite He. intros i e others Hi He0 Hnd Ho. destruct others as [|x o]; [cbn; lia|exfalso].
    destruct (Ho x (or_introl eq_refl)) as (Hx & Hxi & d & Ed & Hde). cbn [V ex_env e_ops vec_ops c_len length c_get c_dte e_eps] in *.
    do 5 (destruct i as [|i]; [cbn in He0; injection He0 as <-; do 5 (destruct x as [|x]; [try (contradiction Hxi; reflexivity); vm_compute in Ed; injection Ed as <-; lia|]); lia|]). lia.
Qed.

(** Without room (one neighbour per node) an element that is no zero vector and
    no duplicate can become unreachable: searching for it does not find it. *)
Definition tight_cfg (k : nat) : config := mkConfig k 9 true None (fun n l => n).
Theorem C65_overflowing_lists_refuted :
  exists b b', built (ex_env Release) ex_push b /\ build (ex_env Release) 9 b one_by_one = Ok b' /\
    builder_len b' = 3 /\ findable (ex_env Release) (b_elems b') 3 1 /\
    list_view b' = Ok [[[2]; [0]; [0]]] /\
    granne_search Release 9 (FixWidth (b_layers b')) (fun i => c_dte (e_ops (ex_env Release)) (b_elems b') i 1%Z) 9 9
      = Ok [(0, 90%Z); (2, 100%Z)].
Proof.
  set (b := mkBuilder [10; 1; 11]%Z [] (tight_cfg 1)).
  assert (Hv : (let* b := build (ex_env Release) 9 b one_by_one in let* v := list_view b in
     let* r := granne_search Release 9 (FixWidth (b_layers b)) (fun i => c_dte (e_ops (ex_env Release)) (b_elems b) i 1%Z) 9 9 in
     Ok (v, r, b_elems b, builder_len b)) = Ok ([[[2]; [0]; [0]]], [(0, 90%Z); (2, 100%Z)], [10; 1; 11]%Z, 3)) by (vm_compute; reflexivity).
  destruct (build _ 9 b one_by_one) as [b'|] eqn:Eb; [|discriminate]. cbn [obind] in Hv.
  destruct (list_view b') as [v|] eqn:Ev; [|discriminate]. cbn [obind] in Hv.
  destruct (granne_search _ _ _ _ _ _) as [r|] eqn:Er; [|discriminate]. cbn [obind] in Hv.
  injection Hv as -> -> He Hl. exists b, b'. split; [|split; [exact Eb|]].
  - apply bt_once. exists (tight_cfg 1), [10; 1; 11]%Z, b, []. split; [split; [cbn; lia|split; [cbn; lia|split; [discriminate|intros n Hn _; cbn; lia]]]|].
    split; [apply ex_usable; cbn; lia|]. split; [reflexivity|constructor].
  - split; [exact Hl|]. split; [|split; [exact Ev|exact Er]]. rewrite He. split; [lia|]. right. intros (d & Ed & Hd). vm_compute in Ed. injection Ed as <-. cbn in Hd. lia.
Qed.
Print Assumptions C65_overflowing_lists_refuted.

(** With room but more duplicates than tolerated, a duplicate is not found. *)
Theorem C65_many_duplicates_refuted :
  exists b b', built (ex_env Release) ex_push b /\ build (ex_env Release) 9 b one_by_one = Ok b' /\
    roomy (b_config b') (builder_num_elements (ex_env Release) b') /\
    builder_len b' = 5 /\ findable (ex_env Release) (b_elems b') 5 4 /\
    granne_search Release 9 (FixWidth (b_layers b')) (fun i => c_dte (e_ops (ex_env Release)) (b_elems b') i 7%Z) 9 9
      = Ok [(0, 0%Z); (2, 0%Z); (3, 0%Z); (1, 10%Z)].
Proof.
  set (b := mkBuilder [7; 8; 7; 7; 7]%Z [] (tight_cfg 4)).
  assert (Hv : (let* b := build (ex_env Release) 9 b one_by_one in
     let* r := granne_search Release 9 (FixWidth (b_layers b)) (fun i => c_dte (e_ops (ex_env Release)) (b_elems b) i 7%Z) 9 9 in
     Ok (r, b_elems b, builder_len b, b_config b)) = Ok ([(0, 0%Z); (2, 0%Z); (3, 0%Z); (1, 10%Z)], [7; 8; 7; 7; 7]%Z, 5, tight_cfg 4)) by (vm_compute; reflexivity).
  destruct (build _ 9 b one_by_one) as [b'|] eqn:Eb; [|discriminate]. cbn [obind] in Hv.
  destruct (granne_search _ _ _ _ _ _) as [r|] eqn:Er; [|discriminate]. cbn [obind] in Hv.
  injection Hv as -> He Hl Hcf. exists b, b'. split; [|split; [exact Eb|]].
  - apply bt_once. exists (tight_cfg 4), [7; 8; 7; 7; 7]%Z, b, []. split; [split; [cbn; lia|split; [cbn; lia|split; [discriminate|intros n Hn _; cbn; lia]]]|].
    split; [apply ex_usable; cbn; lia|]. split; [reflexivity|constructor].
  - split; [|split; [exact Hl|split; [|exact Er]]].
    + unfold builder_num_elements. rewrite Hcf, He. intros n l Hn. cbn in Hn. cbv zeta. cbn [tight_cfg k_expected k_ideal k_nn]. rewrite Nat.max_id. destruct (Nat.ltb_spec n n); lia.
    + rewrite He. split; [lia|]. right. intros (d & Ed & Hd). vm_compute in Ed. injection Ed as <-. cbn in Hd. lia.
Qed.
Print Assumptions C65_many_duplicates_refuted.
