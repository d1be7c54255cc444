(** * Property theorems: larger max_search and num_neighbors (C73) *)
From Verif Require Import Base BaseFacts Bytes MSliceVec MOffsets MSetVec MIndexIo SIndexIo PIndexIo MSearch SSearch PHeap PSearch PSearchIx PMono SMono TIndexIo TSearch.

(** The first [num_neighbors] answers do not depend on how many are asked for. *)
Theorem C73_fewer_neighbours_is_a_prefix :
  forall m L G dist f fuel max_search nn nn',
    index_shows m L G -> graph_ok G -> G <> [] -> dist_is dist f (length (last G [])) ->
    length (last G []) < fuel -> 0 < max_search -> nn <= nn' ->
    exists res', granne_search m fuel L dist max_search nn' = Ok res' /\
      granne_search m fuel L dist max_search nn = Ok (firstn nn res').
Proof.
  intros m L G dist f fuel ms nn nn' HS HG Hne Hd Hf Hms Hle.
  destruct (@entry_ok m L G dist f fuel HS HG Hd Hf (length G - 1)) as (ep & E & Hlt & _).
  { destruct G; [congruence|cbn; lia]. }
  specialize (Hlt _ (last_nth Hne)).
  destruct (PSearchIx.layer_search HS HG Hd Hf (last_nth Hne) Hlt Hms) as (l & El & _).
  exists (firstn nn' (map swap_key l)). unfold granne_search, search_internal. rewrite (graphs_split HS Hne), E. cbn [obind].
  rewrite El. cbn [obind]. split; [reflexivity|]. now rewrite firstn_firstn, Nat.min_l.
Qed.
Print Assumptions C73_fewer_neighbours_is_a_prefix.

(** Without ties a larger [max_search] and a larger [num_neighbors] never give
    fewer or worse results. *)
Theorem C73_larger_max_search_not_worse_partial :
  forall m L G dist f fuel ms ms' nn nn',
    index_shows m L G -> graph_ok G -> G <> [] -> dist_is dist f (length (last G [])) ->
    length (last G []) < fuel -> no_ties f (length (last G [])) ->
    0 < ms -> ms <= ms' -> nn <= nn' ->
    exists res res', granne_search m fuel L dist ms nn = Ok res /\
      granne_search m fuel L dist ms' nn' = Ok res' /\ not_worse res res'.
Proof.
  intros m L G dist f fuel ms ms' nn nn' HS HG Hne Hd Hf Hti Hms Hle Hnn. assert (Hms' : 0 < ms') by lia.
  destruct (@entry_ok m L G dist f fuel HS HG Hd Hf (length G - 1)) as (ep & E & Hlt & _).
  { destruct G; [congruence|cbn; lia]. }
  specialize (Hlt _ (last_nth Hne)).
  destruct (PSearchIx.layer_search HS HG Hd Hf (last_nth Hne) Hlt Hms) as (l & El & _).
  destruct (PSearchIx.layer_search HS HG Hd Hf (last_nth Hne) Hlt Hms') as (l' & El' & _).
  exists (firstn nn (map swap_key l)), (firstn nn' (map swap_key l')).
  split; [|split]; [unfold granne_search, search_internal; rewrite (graphs_split HS Hne), E; cbn [obind]; rewrite El; reflexivity
                   |unfold granne_search, search_internal; rewrite (graphs_split HS Hne), E; cbn [obind]; rewrite El'; reflexivity|].
  destruct (layer_bridge HS (last_nth Hne) (graph_ok_nth HG (last_nth Hne))) as [Hb _].
  pose proof (@sfn_mono (length (last G [])) f dist Hd Hti _ _ Hb ep Hlt ms ms' fuel fuel l l' Hms Hle El El') as HD.
  assert (HL : length l <= length l').
  { destruct (Nat.le_gt_cases (length l) (length l')) as [|Hgt]; [assumption|exfalso].
    destruct (nth_error l (length l')) as [k|] eqn:Ek; [|apply nth_error_None in Ek; lia].
    destruct (HD _ _ Ek) as (k' & Ek' & _). assert (length l' < length l') by (apply nth_error_Some; congruence). lia. }
  split; [rewrite !firstn_length, !map_length; lia|].
  intros i a b Ha Hbn. apply nth_firstn in Ha as [_ Ha]. apply nth_firstn in Hbn as [_ Hbn].
  rewrite nth_error_map in Ha, Hbn. destruct (nth_error l i) as [k|] eqn:Ek; [|discriminate]. destruct (HD _ _ Ek) as (k' & Ek' & Hk).
  rewrite Ek' in Hbn. cbn [option_map] in *. assert (a = swap_key k) by congruence. assert (b = swap_key k') by congruence. subst a b.
  cbn [swap_key snd]. now apply key_le_fst.
Qed.
Print Assumptions C73_larger_max_search_not_worse_partial.

(** A concrete index and query meet the hypotheses. *)
Definition c73_dist (i : nat) : outcome Z := index [40; 30; 20; 10; 5]%Z i.
Definition c73_f (i : nat) : Z := nth i [40; 30; 20; 10; 5]%Z 0%Z.
Example C73_nonvacuous :
  index_shows Debug ex_L ex_G /\ graph_ok ex_G /\ ex_G <> [] /\ dist_is c73_dist c73_f (length (last ex_G [])) /\
  no_ties c73_f (length (last ex_G [])) /\
  granne_search Debug 6 ex_L c73_dist 1 10 = Ok [(3, 10%Z)] /\
  granne_search Debug 6 ex_L c73_dist 3 10 = Ok [(3, 10%Z); (2, 20%Z); (1, 30%Z)].
Proof.
  destruct search_nonvacuous as (H1 & H2 & H3 & _). split; [exact H1|]. split; [exact H2|]. split; [exact H3|].
  split; [|split; [|split; vm_compute; reflexivity]].
  - intros i Hi. cbn in Hi. do 5 (destruct i as [|i]; [reflexivity|]). lia.
  - intros i j Hi Hj. cbn in Hi, Hj. do 5 (destruct i as [|i]; [do 5 (destruct j as [|j]; [cbn; (reflexivity || discriminate)|]); lia|]). lia.
Qed.

(** With ties the claim is false: asked for the one nearest element, a search
    with [max_search] 1 finds one at distance 1 and a search with [max_search] 2
    only one at distance 2. *)
Definition c73_L : layers :=
  FixWidth [mkFw [1;3; 2;UNUSED; 5;6; 4;UNUSED; UNUSED;UNUSED; UNUSED;UNUSED; UNUSED;UNUSED]%N 2].
Definition c73_G : list (list (list N)) := [[[1;3];[2];[5;6];[4];[];[];[]]]%N.
Definition c73_tied (i : nat) : outcome Z := index [10; 5; 5; 5; 1; 2; 3]%Z i.
Theorem C73_ties_refuted :
  exists m L G dist f fuel ms ms' res res',
    index_shows m L G /\ graph_ok G /\ G <> [] /\ dist_is dist f (length (last G [])) /\
    length (last G []) < fuel /\ 0 < ms <= ms' /\
    granne_search m fuel L dist ms 1 = Ok res /\ granne_search m fuel L dist ms' 1 = Ok res' /\ ~ not_worse res res'.
Proof.
  exists Debug, c73_L, c73_G, c73_tied, (fun i => nth i [10; 5; 5; 5; 1; 2; 3]%Z 0%Z), 8, 1, 2, [(4, 1%Z)], [(5, 2%Z)].
  assert (HI : index_is Debug c73_L c73_G).
  { split; [repeat constructor|]. unfold c73_L, c73_G. repeat (apply Forall2_cons || apply Forall2_nil).
    all: exists 2; split; [lia|]; split; [repeat constructor|].
    all: repeat (apply Forall_cons || apply Forall_nil); cbn [length]; repeat split; try lia.
    all: repeat constructor; cbn; lia. }
  split; [apply index_is_shows; exact HI|]. split.
  { split; [repeat constructor; try discriminate; cbn; lia|].
    intros [|i] [|j] g h; cbn [nth_error c73_G]; intros Hg Hh Hij; try lia;
      try (destruct i; discriminate); try (destruct j; discriminate); inversion Hg; inversion Hh; cbn; lia. }
  split; [discriminate|]. split.
  { intros i Hi. cbn in Hi. do 7 (destruct i as [|i]; [reflexivity|]). lia. }
  split; [cbn; lia|]. split; [lia|]. split; [vm_compute; reflexivity|]. split; [vm_compute; reflexivity|].
  intros [_ H]. specialize (H 0 (4, 1%Z) (5, 2%Z) eq_refl eq_refl). cbn in H. lia.
Qed.
Print Assumptions C73_ties_refuted.
