(** * Theorems: reordering (C37-C41) *)
From Verif Require Import Base BaseFacts Bytes MSliceVec SSliceVec PFixed PSliceMisc MOffsets MSetVec SOffsets MIndexIo SIndexIo PIndexIo MSearch SSearch PHeap PSearch PSearchIx TSearch MBuild MReorder SReorder PReorder PReorderOrder PReorderSim.

(** ** C37 reorder_by_keys returns a layer-preserving sorted permutation *)
Theorem C37_reorder_by_keys_order :
  forall {S E K} (C : cops S E) permute (le : K -> K -> bool) keys m L G s,
    key_order le -> index_shows m L G -> graph_ok G -> G <> [] -> storable G ->
    c_len C s = length (last G []) -> permute_law C permute s ->
    length keys = length (last G []) ->
    exists g' p, reorder_by_keys permute le m (mkGranne L s) keys = Ok (g', p) /\
      keeps_layers G p /\
      forall j, j < length G -> sorted_range le keys p (layer_start G j) (length (nth j G [])).
Proof.
  intros S E K C permute le keys m L G s Hle HS HG Hne Hst Hlen HPl Hk.
  destruct (@keys_order_ok K le keys Hle m L G HS HG Hk Hne) as (p & Ep & HK & Hsort).
  destruct (@reorder_layers_ok m L G p HS HG Hst HK Hne) as (L' & r & EL & _).
  destruct (HPl p) as (s' & Es & _); [rewrite Hlen; apply HK|].
  exists (mkGranne L' s'), p. unfold reorder_by_keys. cbn [gr_layers gr_elems]. rewrite Ep. cbn [obind]. rewrite EL. cbn [obind].
  rewrite Es. cbn [obind]. auto.
Qed.
Print Assumptions C37_reorder_by_keys_order.

Theorem C37_wrong_number_of_keys_refused :
  forall {S K} permute (le : K -> K -> bool) keys m L G (s : S),
    index_shows m L G -> length keys <> length (last G []) ->
    reorder_by_keys permute le m (mkGranne L s) keys = Fail Panicked.
Proof.
  intros S K permute le keys m L G s HS Hk. unfold reorder_by_keys, keys_order, index_len. cbn [gr_layers]. rewrite (proj1 HS).
  destruct (Nat.ltb_spec 0 (length G)) as [H|H].
  - rewrite (layer_len_ok HS) by lia. cbn [obind]. rewrite <- last_is_nth.
    destruct (Nat.eqb_spec (length (last G [])) (length keys)); [congruence|reflexivity].
  - destruct G; [|cbn in H; lia]. cbn [last length] in Hk. cbn [obind]. destruct keys; [cbn in Hk; congruence|reflexivity].
Qed.
Print Assumptions C37_wrong_number_of_keys_refused.

(** ** C38 reorder returns a layer-preserving permutation fixing the first layer *)
Theorem C38_reorder_order :
  forall {S E} (C : cops S E) permute m fuel L G s,
    index_shows m L G -> graph_ok G -> 2 <= length G -> storable G ->
    c_len C s = length (last G []) -> has_elements C s (length (last G [])) -> permute_law C permute s ->
    length (last G []) < fuel ->
    exists g' p, reorder C permute m fuel (mkGranne L s) = Ok (g', p) /\
      keeps_layers G p /\ (forall i, i < length (nth 0 G []) -> nth i p 0 = i).
Proof.
  intros S E C permute m fuel L G s HS HG H2 Hst Hlen Hel HPl Hf.
  assert (Hne : G <> []) by (intros ->; cbn in H2; lia).
  destruct (@compute_order_ok S E C s m L G fuel HS HG (proj2 Hst) Hf Hel H2) as (p & Ep & HK & H0).
  destruct (@reorder_layers_ok m L G p HS HG Hst HK Hne) as (L' & r & EL & _).
  destruct (HPl p) as (s' & Es & _); [rewrite Hlen; apply HK|].
  exists (mkGranne L' s'), p. unfold reorder. rewrite Ep. cbn [obind gr_layers gr_elems]. rewrite EL. cbn [obind].
  rewrite Es. cbn [obind]. split; auto. split; auto.
  intros i Hi. rewrite <- (nth_firstn_lt p (k := length (nth 0 G [])) 0 Hi), H0. now rewrite seq_nth.
Qed.
Print Assumptions C38_reorder_order.

(** ** C39 Reordering is a graph isomorphism and moves the elements along *)
Lemma after_order {S E} (C : cops S E) permute m L G s g' p :
  index_shows m L G -> graph_ok G -> G <> [] -> storable G -> keeps_layers G p ->
  c_len C s = length (last G []) -> permute_law C permute s ->
  (let* L := reorder_layers m L p in let* s := permute s p in Ok (mkGranne L s, p)) = Ok (g', p) ->
  exists r, inverse (length (last G [])) p r /\ index_shows m (gr_layers g') (rename_graph p r G) /\ elements_moved C s (gr_elems g') p.
Proof.
  intros HS HG Hne Hst HK Hlen HPl H.
  destruct (@reorder_layers_ok m L G p HS HG Hst HK Hne) as (L' & r & EL & Hr & HS').
  destruct (HPl p) as (s' & Es & Hmv); [rewrite Hlen; apply HK|]. rewrite EL in H. cbn [obind] in H. rewrite Es in H. cbn [obind] in H.
  injection H as <-. exists r. cbn [gr_layers gr_elems]. split; [exact Hr|]. split; [exact HS'|exact Hmv].
Qed.

Lemma reorder_after {S E} (C : cops S E) permute m fuel L G s g' p :
  index_shows m L G -> graph_ok G -> 2 <= length G -> storable G -> has_elements C s (length (last G [])) -> length (last G []) < fuel ->
  reorder C permute m fuel (mkGranne L s) = Ok (g', p) ->
  keeps_layers G p /\ nth 0 p 0 = 0 /\ (let* L := reorder_layers m L p in let* s := permute s p in Ok (mkGranne L s, p)) = Ok (g', p).
Proof.
  intros HS HG H2 Hst Hel Hf H.
  destruct (@compute_order_ok S E C s m L G fuel HS HG (proj2 Hst) Hf Hel H2) as (p' & Ep & HK & H0).
  unfold reorder in H. rewrite Ep in H. cbn [obind gr_layers gr_elems] in H.
  assert (p' = p).
  { destruct (reorder_layers m L p') as [L1|]; [|discriminate]. cbn [obind] in H. destruct (permute s p') as [s1|]; [|discriminate].
    cbn [obind] in H. now injection H as _ <-. }
  subst p'. split; auto. split; auto.
  assert (Hpos : 0 < length (nth 0 G [])) by (apply (@layer_pos G HG); lia).
  rewrite <- (nth_firstn_lt p (k := length (nth 0 G [])) 0 Hpos), H0. now rewrite seq_nth.
Qed.

Lemma reorder_by_keys_after {S K} permute (le : K -> K -> bool) keys m L G (s : S) g' p :
  key_order le -> index_shows m L G -> graph_ok G -> G <> [] -> storable G -> length keys = length (last G []) ->
  reorder_by_keys permute le m (mkGranne L s) keys = Ok (g', p) ->
  keeps_layers G p /\ (let* L := reorder_layers m L p in let* s := permute s p in Ok (mkGranne L s, p)) = Ok (g', p).
Proof.
  intros Hle HS HG Hne Hst Hk H.
  destruct (@keys_order_ok K le keys Hle m L G HS HG Hk Hne) as (p' & Ep & HK & _).
  unfold reorder_by_keys in H. cbn [gr_layers gr_elems] in H. rewrite Ep in H. cbn [obind] in H.
  assert (p' = p).
  { destruct (reorder_layers m L p') as [L1|]; [|discriminate]. cbn [obind] in H. destruct (permute s p') as [s1|]; [|discriminate].
    cbn [obind] in H. now injection H as _ <-. }
  subst p'. auto.
Qed.

Theorem C39_reorder_renames :
  forall {S E} (C : cops S E) permute m fuel L G s g' p,
    index_shows m L G -> graph_ok G -> 2 <= length G -> storable G ->
    c_len C s = length (last G []) -> has_elements C s (length (last G [])) -> permute_law C permute s ->
    length (last G []) < fuel ->
    reorder C permute m fuel (mkGranne L s) = Ok (g', p) ->
    renamed m L (gr_layers g') p /\ elements_moved C s (gr_elems g') p.
Proof.
  intros S E C permute m fuel L G s g' p HS HG H2 Hst Hlen Hel HPl Hf H.
  assert (Hne : G <> []) by (intros ->; cbn in H2; lia).
  destruct (reorder_after C permute m fuel L G s g' p HS HG H2 Hst Hel Hf H) as (HK & _ & H').
  destruct (after_order C permute m L G s g' p HS HG Hne Hst HK Hlen HPl H') as (r & Hr & HS' & Hmv).
  split; auto. eapply index_renamed; eauto.
Qed.
Print Assumptions C39_reorder_renames.

Theorem C39_reorder_by_keys_renames :
  forall {S E K} (C : cops S E) permute (le : K -> K -> bool) keys m L G s g' p,
    key_order le -> index_shows m L G -> graph_ok G -> G <> [] -> storable G ->
    c_len C s = length (last G []) -> permute_law C permute s ->
    length keys = length (last G []) ->
    reorder_by_keys permute le m (mkGranne L s) keys = Ok (g', p) ->
    renamed m L (gr_layers g') p /\ elements_moved C s (gr_elems g') p.
Proof.
  intros S E K C permute le keys m L G s g' p Hle HS HG Hne Hst Hlen HPl Hk H.
  destruct (reorder_by_keys_after permute le keys m L G s g' p Hle HS HG Hne Hst Hk H) as (HK & H').
  destruct (after_order C permute m L G s g' p HS HG Hne Hst HK Hlen HPl H') as (r & Hr & HS' & Hmv).
  split; auto. eapply index_renamed; eauto.
Qed.
Print Assumptions C39_reorder_by_keys_renames.

(** The built-in vector collections obey the law assumed of [permute]. *)
Theorem C39_vectors_permute :
  forall {T} m (d : list T -> list T -> outcome Z) w (rows : list (list T)) v, 0 < w -> fw_is w rows v ->
    permute_law (vectors_ops m d) (vectors_permute m) v /\ permute_refuses (vectors_ops m d) (vectors_permute m) v.
Proof.
  intros T m d w rows v Hw Hv. pose proof (fw_is_len Hw Hv) as HL. split.
  - intros p HP. cbn [vectors_ops c_len] in *. rewrite HL in *.
    destruct (@fw_permute_ok T w (length rows) Hw p HP rows eq_refl m v Hv) as (v' & Ev & Hv').
    exists v'. unfold vectors_permute. rewrite HL. split; auto.
    assert (HLp : length p = length rows) by (rewrite (Permutation_length HP), seq_length; auto).
    split; [rewrite (fw_is_len Hw Hv'), map_length; auto|]. intros i Hi.
    assert (E : fw_get m v' i = fw_get m v (nth i p 0)).
    { destruct (@perm_seq_nth (length rows) p HP) as (_ & Hlt & _).
      rewrite (@fw_is_get T m w rows v (nth i p 0) (nth (nth i p 0) rows []) Hw Hv) by (apply nth_error_nth'; auto).
      apply (@fw_is_get T m w _ v' i _ Hw Hv'). rewrite nth_error_map, (nth_error_nth' p 0) by lia. reflexivity. }
    cbn [vectors_ops c_get c_dte]. rewrite E. auto.
  - intros p Hp. apply fw_permute_wrong_length. exact Hp.
Qed.
Print Assumptions C39_vectors_permute.

(** ** C40 Search commutes with reordering *)
(** For [reorder], if no two elements are equally far from the query. *)
Theorem C40_reordered_search_partial :
  forall {S E} (C : cops S E) permute m fuel L G s g' p e f max_search num_neighbors,
    index_shows m L G -> graph_ok G -> 2 <= length G -> storable G ->
    c_len C s = length (last G []) -> has_elements C s (length (last G [])) -> permute_law C permute s ->
    length (last G []) < fuel -> 0 < max_search ->
    reorder C permute m fuel (mkGranne L s) = Ok (g', p) ->
    dist_is (fun i => c_dte C s i e) f (length (last G [])) ->
    (forall x y, x < length (last G []) -> y < length (last G []) -> f x = f y -> x = y) ->
    exists res, granne_search m fuel (gr_layers g') (fun i => c_dte C (gr_elems g') i e) max_search num_neighbors = Ok res /\
      granne_search m fuel L (fun i => c_dte C s i e) max_search num_neighbors =
        Ok (map (fun x => (nth (fst x) p 0, snd x)) res).
Proof.
  intros S E C permute m fuel L G s g' p e f ms nn HS HG H2 Hst Hlen Hel HPl Hf Hms H Hd Hties.
  assert (Hne : G <> []) by (intros ->; cbn in H2; lia).
  destruct (reorder_after C permute m fuel L G s g' p HS HG H2 Hst Hel Hf H) as (HK & H0 & H').
  destruct (after_order C permute m L G s g' p HS HG Hne Hst HK Hlen HPl H') as (r & Hr & HS' & Hmv).
  assert (ER := @search_renamed G p r HG HK Hne Hr m L (gr_layers g') (fun i => c_dte C s i e) (fun i => c_dte C (gr_elems g') i e) f fuel HS HS' Hd).
  rewrite ER; auto.
  - destruct (search_main HS HG Hd Hf nn Hne Hms) as (ep & l & _ & _ & _ & E1 & _). rewrite ER in E1; auto.
    + destruct (granne_search m fuel (gr_layers g') (fun i => c_dte C (gr_elems g') i e) ms nn) as [res|]; [|discriminate].
      exists res. auto.
    + intros x Hx. rewrite <- Hlen in Hx. apply Hmv. auto.
  - intros x Hx. rewrite <- Hlen in Hx. apply Hmv. auto.
Qed.
Print Assumptions C40_reordered_search_partial.

(** For [reorder_by_keys], if moreover element 0 (where searches start) stays. *)
Theorem C40_keys_search_partial :
  forall {S E K} (C : cops S E) permute (le : K -> K -> bool) keys m fuel L G s g' p e f max_search num_neighbors,
    key_order le -> index_shows m L G -> graph_ok G -> G <> [] -> storable G ->
    c_len C s = length (last G []) -> permute_law C permute s ->
    length keys = length (last G []) -> length (last G []) < fuel -> 0 < max_search ->
    reorder_by_keys permute le m (mkGranne L s) keys = Ok (g', p) ->
    nth 0 p 0 = 0 ->
    dist_is (fun i => c_dte C s i e) f (length (last G [])) ->
    (forall x y, x < length (last G []) -> y < length (last G []) -> f x = f y -> x = y) ->
    exists res, granne_search m fuel (gr_layers g') (fun i => c_dte C (gr_elems g') i e) max_search num_neighbors = Ok res /\
      granne_search m fuel L (fun i => c_dte C s i e) max_search num_neighbors =
        Ok (map (fun x => (nth (fst x) p 0, snd x)) res).
Proof.
  intros S E K C permute le keys m fuel L G s g' p e f ms nn Hle HS HG Hne Hst Hlen HPl Hk Hf Hms H H0 Hd Hties.
  destruct (reorder_by_keys_after permute le keys m L G s g' p Hle HS HG Hne Hst Hk H) as (HK & H').
  destruct (after_order C permute m L G s g' p HS HG Hne Hst HK Hlen HPl H') as (r & Hr & HS' & Hmv).
  assert (ER := @search_renamed G p r HG HK Hne Hr m L (gr_layers g') (fun i => c_dte C s i e) (fun i => c_dte C (gr_elems g') i e) f fuel HS HS' Hd).
  rewrite ER; auto.
  - destruct (search_main HS HG Hd Hf nn Hne Hms) as (ep & l & _ & _ & _ & E1 & _). rewrite ER in E1; auto.
    + destruct (granne_search m fuel (gr_layers g') (fun i => c_dte C (gr_elems g') i e) ms nn) as [res|]; [|discriminate].
      exists res. auto.
    + intros x Hx. rewrite <- Hlen in Hx. apply Hmv. auto.
  - intros x Hx. rewrite <- Hlen in Hx. apply Hmv. auto.
Qed.
Print Assumptions C40_keys_search_partial.

(** If the bottom layer is strongly connected and [max_search] covers it, the
    distances found are the same for every reordering: ties and a moved entry
    point do not matter. *)
Lemma closer_sorted_le l : StronglySorted closer l -> StronglySorted (fun a b => Z.leb a b = true) (map snd l).
Proof.
  induction 1 as [|a l HS IH HF]; cbn [map]; constructor; auto. rewrite Forall_map. eapply Forall_impl; [|exact HF].
  intros b [H|[H _]]; apply Z.leb_le; lia.
Qed.

Lemma smallest_unique (l1 l2 o1 o2 : list Z) :
  StronglySorted (fun a b => Z.leb a b = true) l1 -> StronglySorted (fun a b => Z.leb a b = true) l2 ->
  (forall a b, In a l1 -> In b o1 -> (a <= b)%Z) -> (forall a b, In a l2 -> In b o2 -> (a <= b)%Z) ->
  length l1 = length l2 -> Permutation (l1 ++ o1) (l2 ++ o2) -> l1 = l2.
Proof.
  intros S1 S2 B1 B2 HL HP.
  assert (Tot : forall x y, Z.leb x y = true \/ Z.leb y x = true) by (intros; rewrite !Z.leb_le; lia).
  assert (Tra : forall x y z, Z.leb x y = true -> Z.leb y z = true -> Z.leb x z = true) by (intros *; rewrite !Z.leb_le; lia).
  assert (Ant : forall x y, Z.leb x y = true -> Z.leb y x = true -> x = y) by (intros *; rewrite !Z.leb_le; lia).
  assert (HA : forall l o, StronglySorted (fun a b => Z.leb a b = true) l -> (forall a b, In a l -> In b o -> (a <= b)%Z) ->
     StronglySorted (fun a b => Z.leb a b = true) (l ++ sort_by Z.leb o)).
  { intros l o HS HB. induction HS as [|a l HS IH HF]; cbn [app]; [now apply sort_by_sorted|].
    constructor; [apply IH; intros; apply HB; [now right|auto]|]. apply Forall_app. split; auto.
    rewrite Forall_forall. intros b Hb. apply (Permutation_in _ (sort_by_perm Z.leb o)) in Hb. apply Z.leb_le. apply HB; auto. now left. }
  assert (E : l1 ++ sort_by Z.leb o1 = l2 ++ sort_by Z.leb o2).
  { apply (sorted_perm_unique Z.leb Ant); auto. rewrite !sort_by_perm. exact HP. }
  apply (f_equal (firstn (length l1))) in E. rewrite firstn_app, Nat.sub_diag, firstn_all in E.
  rewrite HL, firstn_app, Nat.sub_diag, firstn_all in E. cbn [firstn] in E. now rewrite !app_nil_r in E.
Qed.

Theorem C40_exhaustive_same_distances :
  forall {S E} (C : cops S E) m fuel L L' G s s' p e f max_search num_neighbors,
    index_shows m L G -> graph_ok G -> G <> [] -> keeps_layers G p ->
    c_len C s = length (last G []) ->
    renamed m L L' p -> elements_moved C s s' p ->
    length (last G []) < fuel -> length (last G []) <= max_search ->
    dist_is (fun i => c_dte C s i e) f (length (last G [])) ->
    (forall x y, x < length (last G []) -> y < length (last G []) -> reach (last G []) x y) ->
    exists res res', granne_search m fuel L (fun i => c_dte C s i e) max_search num_neighbors = Ok res /\
      granne_search m fuel L' (fun i => c_dte C s' i e) max_search num_neighbors = Ok res' /\
      map snd res' = map snd res /\
      Forall (fun x => snd x = f (nth (fst x) p 0)) res'.
Proof.
  intros S E C m fuel L L' G s s' p e f ms nn HS HG Hne HK Hlen HRn Hmv Hf Hms Hd Hconn.
  set (n := length (last G [])) in *.
  assert (Hpos : 0 < n) by (apply last_len_pos; auto).
  destruct (reverse_ok (proj1 HK)) as (r & _ & Hr).
  pose proof (@renamed_shows G p r HG HK Hr m L L' HS HRn) as HS'.
  pose proof (@rename_graph_ok G p r HG HK Hr) as HG'.
  pose proof (@rename_last_len G p r HG HK Hne Hr) as HL'. fold n in HL'.
  assert (Hne' : rename_graph p r G <> []) by (unfold rename_graph; destruct G; [congruence|discriminate]).
  assert (Hd' : dist_is (fun i => c_dte C s' i e) (fun i => f (nth i p 0)) (length (last (rename_graph p r G) []))).
  { rewrite HL'. intros i Hi. destruct Hmv as [_ Hmv]. rewrite Hlen in Hmv. destruct (Hmv i Hi) as [_ ->]. apply Hd.
    apply (proj1 (proj2 (@perm_seq_nth n p (proj1 HK)))). auto. }
  assert (Hconn' : forall x y, x < n -> y < n -> reach (last (rename_graph p r G) []) x y).
  { intros x y Hx Hy. exact (@reach_renamed G p r HG HK Hne Hr Hconn x y Hx Hy). }
  assert (HX : forall L0 G0 dist f0, index_shows m L0 G0 -> graph_ok G0 -> G0 <> [] -> length (last G0 []) = n ->
      dist_is dist f0 n -> (forall x y, x < n -> y < n -> reach (last G0 []) x y) ->
      exists res others, granne_search m fuel L0 dist ms nn = Ok res /\ length res = Nat.min nn n /\ StronglySorted closer res /\
        Permutation (map (fun x => (x, f0 x)) (seq 0 n)) (res ++ others) /\ forall a b, In a res -> In b others -> closer a b).
  { intros L0 G0 dist f0 A1 A2 A3 A4 A5 A6. rewrite <- A4 in A5, Hf, Hms, Hpos.
    destruct (search_main A1 A2 A5 Hf (ms := ms) nn A3 ltac:(lia)) as (ep & l & E1 & Hepn & _).
    destruct (C21_exhaustive_is_exact m L0 G0 dist f0 fuel ms nn ep (seq 0 n) A1 A2 A3 A5 Hf)
      as (res & E' & HLr & HSo & others & HP & Hfar); auto; [lia|apply seq_NoDup| |rewrite seq_length; lia|].
    - intros x. rewrite in_seq. split; [intros Hx; apply A6; lia|]. intros Hx.
      assert (x < n); [|lia]. induction Hx as [|y z Hy IH (ns & En & Hz)]; [lia|].
      destruct (graph_ok_nth A2 (last_nth A3)) as [_ HA]. rewrite Forall_forall in HA. apply nth_error_In in En.
      specialize (HA _ En). rewrite Forall_forall in HA. specialize (HA _ Hz). rewrite Nat2N.id in HA. lia.
    - rewrite seq_length in HLr. exists res, others. auto. }
  destruct (HX L G _ f HS HG Hne eq_refl Hd Hconn) as (res & oth & E1 & H1 & H2 & H3 & H4).
  rewrite HL' in Hd'. destruct (HX L' _ _ _ HS' HG' Hne' HL' Hd' Hconn') as (res' & oth' & E1' & H1' & H2' & H3' & H4').
  exists res, res'. split; auto. split; auto. split.
  - apply (@smallest_unique _ _ (map snd oth') (map snd oth)); auto using closer_sorted_le.
    + intros a b Ha Hb. apply in_map_iff in Ha as (a' & <- & Ha). apply in_map_iff in Hb as (b' & <- & Hb).
      destruct (H4' _ _ Ha Hb) as [H|[H _]]; lia.
    + intros a b Ha Hb. apply in_map_iff in Ha as (a' & <- & Ha). apply in_map_iff in Hb as (b' & <- & Hb).
      destruct (H4 _ _ Ha Hb) as [H|[H _]]; lia.
    + rewrite !map_length. lia.
    + rewrite <- !map_app. rewrite <- H3, <- H3'. rewrite !map_map. cbn [snd].
      rewrite <- (map_map (fun i => nth i p 0) f). apply Permutation_map.
      destruct (@perm_seq_nth n p (proj1 HK)) as (HLp & _). rewrite <- HLp, (map_nth_seq (fun x => x) 0 p), map_id. rewrite HLp. exact (proj1 HK).
  - rewrite Forall_forall. intros x Hx.
    assert (Hin : In x (map (fun x => (x, f (nth x p 0))) (seq 0 n))).
    { eapply Permutation_in; [symmetry; exact H3'|]. apply in_or_app. now left. }
    apply in_map_iff in Hin as (i & <- & _). reflexivity.
Qed.
Print Assumptions C40_exhaustive_same_distances.

(** ** C41 Reordering works for every index: false *)
(** fewer than two layers *)
Theorem C41_single_layer_panics_refuted :
  forall {S E} (C : cops S E) permute m fuel L G s,
    index_shows m L G -> length G < 2 -> reorder C permute m fuel (mkGranne L s) = Fail Panicked.
Proof.
  intros S E C permute m fuel L G s HS H2. unfold reorder, compute_order. cbn [gr_layers]. rewrite (proj1 HS).
  destruct G as [|g [|]]; cbn [length] in *; [| |lia].
  - assert (E0 : layer_len L 0 = Fail Panicked) by (destruct HS as [HL _]; destruct L as [[|]|[|]]; cbn in *; try lia; reflexivity).
    rewrite E0. reflexivity.
  - rewrite (layer_len_ok HS) by (cbn; lia). reflexivity.
Qed.
Print Assumptions C41_single_layer_panics_refuted.

(** an index that covers only a part of its elements *)
Theorem C41_partial_index_panics_refuted :
  forall {S E} (C : cops S E) permute m fuel L G s,
    index_shows m L G -> graph_ok G -> 2 <= length G -> storable G ->
    has_elements C s (length (last G [])) -> permute_refuses C permute s ->
    length (last G []) < fuel -> length (last G []) <> c_len C s ->
    reorder C permute m fuel (mkGranne L s) = Fail Panicked.
Proof.
  intros S E C permute m fuel L G s HS HG H2 Hst Hel HPr Hf Hlen.
  assert (Hne : G <> []) by (intros ->; cbn in H2; lia).
  destruct (@compute_order_ok S E C s m L G fuel HS HG (proj2 Hst) Hf Hel H2) as (p & Ep & HK & _).
  destruct (@reorder_layers_ok m L G p HS HG Hst HK Hne) as (L' & r & EL & _).
  unfold reorder. rewrite Ep. cbn [obind gr_layers gr_elems]. rewrite EL. cbn [obind].
  rewrite HPr; [reflexivity|]. now rewrite (is_perm_length (proj1 HK)).
Qed.
Print Assumptions C41_partial_index_panics_refuted.

(** every other index (two or more layers, all elements indexed) *)
Theorem C41_full_index_reorders :
  forall {S E} (C : cops S E) permute m fuel L G s,
    index_shows m L G -> graph_ok G -> 2 <= length G -> storable G ->
    c_len C s = length (last G []) -> has_elements C s (length (last G [])) -> permute_law C permute s ->
    length (last G []) < fuel ->
    exists g' p, reorder C permute m fuel (mkGranne L s) = Ok (g', p).
Proof.
  intros. destruct (@C38_reorder_order S E C permute m fuel L G s) as (g' & p & H' & _); eauto.
Qed.
Print Assumptions C41_full_index_reorders.

(** ** A concrete index (three layers, seven elements) *)
Definition rx_L : layers :=
  FixWidth [mkFw [UNUSED; UNUSED]%N 2;
            mkFw [1;2; 0;UNUSED; 0;UNUSED]%N 2;
            mkFw [3;4; 0;UNUSED; UNUSED;UNUSED; 5;UNUSED; UNUSED;UNUSED; 6;UNUSED; 0;1]%N 2].
Definition rx_G : list (list (list N)) :=
  [[[]]; [[1;2];[0];[0]]; [[3;4];[0];[];[5];[];[6];[0;1]]]%N.
(** distances between the elements 0..6 and to the query 7 *)
Definition rx_d (x y : nat) : Z :=
  match y with
  | 7 => nth x [10; 100; 100; 5; 5; 10; 1]%Z 0%Z
  | 8 => nth x [10; 100; 90; 5; 6; 11; 1]%Z 0%Z
  | 4 => if x =? 1 then 1%Z else 50%Z
  | _ => if x =? 2 then 1%Z else 50%Z
  end.
Definition rx_ops : cops (list nat) nat := vec_ops rx_d.
Definition rx_permute (s : list nat) (p : list nat) : outcome (list nat) :=
  if length p =? length s then Ok (map (fun k => nth k s 0) p) else Fail Panicked.
Definition rx_g : granne (list nat) := mkGranne rx_L (seq 0 7).

(** Ties: the order of equally distant elements decides what is explored, so the
    reordered index can return farther elements. *)
Theorem C40_ties_refuted :
  exists g' p, reorder rx_ops rx_permute Release 8 rx_g = Ok (g', p) /\ p = [0;1;2;4;3;5;6] /\
    granne_search Release 8 rx_L (fun i => c_dte rx_ops (seq 0 7) i 7) 3 3 = Ok [(6, 1%Z); (3, 5%Z); (4, 5%Z)] /\
    granne_search Release 8 (gr_layers g') (fun i => c_dte rx_ops (gr_elems g') i 7) 3 3 = Ok [(3, 5%Z); (4, 5%Z); (0, 10%Z)].
Proof.
  eexists. eexists. split; [vm_compute; reflexivity|]. split; [reflexivity|]. split; vm_compute; reflexivity.
Qed.
Print Assumptions C40_ties_refuted.

(** A key order that moves element 0 moves the entry point of every search. *)
Theorem C40_moved_entry_point_refuted :
  exists g' p, reorder_by_keys rx_permute Nat.leb Release (mkGranne (FixWidth [mkFw [UNUSED; UNUSED]%N 1]) [0; 3]) [1; 0] = Ok (g', p) /\ p = [1; 0] /\
    granne_search Release 8 (FixWidth [mkFw [UNUSED; UNUSED]%N 1]) (fun i => c_dte rx_ops [0; 3] i 8) 2 2 = Ok [(0, 10%Z)] /\
    granne_search Release 8 (gr_layers g') (fun i => c_dte rx_ops (gr_elems g') i 8) 2 2 = Ok [(0, 5%Z)].
Proof.
  eexists. eexists. split; [vm_compute; reflexivity|]. split; [reflexivity|]. split; vm_compute; reflexivity.
Qed.
Print Assumptions C40_moved_entry_point_refuted.

Lemma rx_permute_law s : permute_law rx_ops rx_permute s.
Proof.
  intros p HP. cbn [rx_ops vec_ops c_len] in *. destruct (@perm_seq_nth (length s) p HP) as (HL & Hlt & _).
  unfold rx_permute. rewrite HL, Nat.eqb_refl. eexists. split; [reflexivity|]. split; [now rewrite map_length|].
  intros i Hi. assert (E : index (map (fun k => nth k s 0) p) i = index s (nth i p 0)).
  { rewrite (index_nth s 0) by auto. apply index_ok. rewrite nth_error_map, (nth_error_nth' p 0) by lia. reflexivity. }
  cbn [rx_ops vec_ops c_get c_dte]. rewrite E. auto.
Qed.

Example reorder_nonvacuous :
  index_shows Release rx_L rx_G /\ graph_ok rx_G /\ 2 <= length rx_G /\ storable rx_G /\
  c_len rx_ops (seq 0 7) = length (last rx_G []) /\ has_elements rx_ops (seq 0 7) (length (last rx_G [])) /\
  permute_law rx_ops rx_permute (seq 0 7) /\ permute_refuses rx_ops rx_permute (seq 0 7) /\ key_order Nat.leb /\
  dist_is (fun i => c_dte rx_ops (seq 0 7) i 8) (fun i => rx_d i 8) 7 /\
  (forall x y, x < 7 -> y < 7 -> rx_d x 8 = rx_d y 8 -> x = y) /\
  exists g', reorder_by_keys rx_permute Nat.leb Release rx_g [3; 2; 1; 7; 5; 5; 6] = Ok (g', [0; 2; 1; 4; 5; 6; 3]).
Proof.
  assert (HI : index_is Release rx_L rx_G).
  { split; [repeat constructor|]. unfold rx_L, rx_G. repeat (apply Forall2_cons || apply Forall2_nil).
    all: exists 2; split; [lia|]; split; [repeat constructor|].
    all: repeat (apply Forall_cons || apply Forall_nil); cbn [length]; repeat split; try lia.
    all: repeat constructor. }
  split; [apply index_is_shows; exact HI|]. split.
  { split; [repeat constructor; try discriminate; cbn; lia|].
    intros [|[|[|i]]] [|[|[|j]]] g h; cbn [nth_error rx_G]; intros Hg Hh Hij; try lia;
      try (destruct i; discriminate); try (destruct j; discriminate); inversion Hg; inversion Hh; cbn; lia. }
  split; [cbn; lia|]. split.
  { split; [|cbn; lia]. repeat constructor; cbn; lia. }
  split; [reflexivity|]. split.
  { intros i Hi. cbn in Hi. exists i. split; [do 7 (destruct i as [|i]; [reflexivity|]); lia|].
    intros j Hj. cbn in Hj. do 7 (destruct j as [|j]; [eexists; reflexivity|]). lia. }
  split; [apply rx_permute_law|]. split.
  { intros p Hp. unfold rx_permute. cbn [rx_ops vec_ops c_len] in Hp. destruct (Nat.eqb_spec (length p) (length (seq 0 7))); [congruence|reflexivity]. }
  split. { split; intros *; rewrite ?Nat.leb_le; lia. }
  split. { intros i Hi. do 7 (destruct i as [|i]; [reflexivity|]). lia. }
  split. { intros x y Hx Hy. do 7 (destruct x as [|x]; [do 7 (destruct y as [|y]; [cbn; congruence|]); lia|]). lia. }
  eexists. vm_compute. reflexivity.
Qed.

(** a strongly connected layer, reordered so that element 0 moves *)
Example exhaustive_nonvacuous :
  let L := FixWidth [mkFw [1; 0]%N 1] in
  let G := [[[1]; [0]]]%N in
  index_shows Release L G /\ graph_ok G /\ keeps_layers G [1; 0] /\
  (forall x y, x < length (last G []) -> y < length (last G []) -> reach (last G []) x y) /\
  exists g', reorder_by_keys rx_permute Nat.leb Release (mkGranne L [0; 3]) [1; 0] = Ok (g', [1; 0]) /\
    granne_search Release 8 L (fun i => c_dte rx_ops [0; 3] i 8) 2 2 = Ok [(1, 5%Z); (0, 10%Z)] /\
    granne_search Release 8 (gr_layers g') (fun i => c_dte rx_ops (gr_elems g') i 8) 2 2 = Ok [(0, 5%Z); (1, 10%Z)].
Proof.
  cbv zeta. split; [apply index_is_shows; split; [repeat constructor|]|].
  { repeat (apply Forall2_cons || apply Forall2_nil). exists 1; split; [lia|]; split; [repeat constructor|].
    repeat (apply Forall_cons || apply Forall_nil); cbn [length]; repeat split; try lia. all: repeat constructor. }
  split. { split; [repeat constructor; try discriminate; cbn; lia|].
    intros [|i] [|j] g h; cbn [nth_error]; intros Hg Hh Hij; try lia;
      try (destruct i; discriminate); try (destruct j; discriminate); inversion Hg; inversion Hh; cbn; lia. }
  split. { split; [|constructor; [|constructor]]; apply perm_swap. }
  split. { assert (H01 : reach [[1]; [0]]%N 0 1) by (apply reach_step with 0; [constructor|exists [1%N]; cbn; auto]).
    assert (H10 : reach [[1]; [0]]%N 1 0) by (apply reach_step with 1; [constructor|exists [0%N]; cbn; auto]).
    intros x y Hx Hy. cbn in Hx, Hy |- *. do 2 (destruct x as [|x]; [do 2 (destruct y as [|y]; [auto; constructor|]); lia|]). lia. }
  eexists. split; [vm_compute; reflexivity|]. split; vm_compute; reflexivity.
Qed.
