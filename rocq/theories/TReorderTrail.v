(** * Theorems: what [reorder] sorts by (C72) *)
From Verif Require Import Base BaseFacts Bytes MSliceVec SSliceVec MOffsets MSetVec SOffsets MIndexIo SIndexIo PIndexIo MSearch SSearch PHeap PSearch PSearchIx MBuild MReorder SReorder PReorder PReorderOrder SReorderTrail PReorderTrail TReorder.

(** There is one trail per element. *)
Lemma landmark_unique m fuel L dist i y y' : landmark m fuel L dist i y -> landmark m fuel L dist i y' -> y = y'.
Proof. intros (d & H) (d' & H'). rewrite H in H'. congruence. Qed.
Lemma place_unique n p first y a a' : is_perm n p -> new_place p first y a -> new_place p first y a' -> a = a'.
Proof.
  intros HP [A B] [A' B']. destruct (Nat.lt_ge_cases y first) as [H|H]; [rewrite A, A'; auto|].
  destruct (B H) as [B1 B2], (B' H) as [B1' B2']. destruct (@perm_seq_nth n p HP) as (HL & _ & Hinj & _). apply Hinj; try lia; congruence.
Qed.
Lemma trail_unique {S E} (C : cops S E) m fuel L s n p first l x a b : is_perm n p ->
  trail C m fuel L s p first l x a -> trail C m fuel L s p first l x b -> a = b.
Proof.
  intros HP [La (e & Ee & A)] [Lb (e' & Ee' & B)]. assert (e' = e) by congruence. subst e'. apply nth_ext with (d := 0) (d' := 0); [congruence|].
  intros i Hi. rewrite La in Hi. destruct (A i Hi) as (y & Hy & Py), (B i Hi) as (z & Hz & Pz).
  assert (z = y) by (eapply landmark_unique; eauto). subst z. eapply place_unique; eauto.
Qed.
Lemma precedes_irrefl a : ~ precedes a a.
Proof. intros (k & _ & _ & H). lia. Qed.
Lemma firstn_nth_eq (a b : list nat) n k : firstn n a = firstn n b -> k < n -> nth k a 0 = nth k b 0.
Proof. intros H Hk. rewrite <- (nth_firstn_lt a (k := n) 0 Hk), H. now apply nth_firstn_lt. Qed.
Lemma precedes_asym a b : length a = length b -> precedes a b -> ~ precedes b a.
Proof.
  intros HL (k & Hk & Hf & Hlt) (k' & Hk' & Hf' & Hlt').
  destruct (Nat.lt_trichotomy k k') as [H|[->|H]].
  - pose proof (firstn_nth_eq _ _ _ _ Hf' H). lia.
  - lia.
  - pose proof (firstn_nth_eq _ _ _ _ Hf H). lia.
Qed.

(** ** C72 Every layer is sorted by the trails of its elements *)
Theorem C72_order_by_trails_partial :
  forall {S E} (C : cops S E) permute m fuel L G s g' p,
    index_shows m L G -> graph_ok G -> 2 <= length G -> storable G -> has_elements C s (length (last G [])) ->
    length (last G []) < fuel ->
    reorder C permute m fuel (mkGranne L s) = Ok (g', p) ->
    forall l i j, 0 < l -> l < length G -> length (nth (l - 1) G []) <= i -> i < j -> j < length (nth l G []) ->
      exists a b, trail C m fuel L s p (length (nth 0 G [])) l (nth i p 0) a /\ trail C m fuel L s p (length (nth 0 G [])) l (nth j p 0) b /\
        (precedes a b \/ (a = b /\ nth i p 0 < nth j p 0)).
Proof.
  intros S E C permute m fuel L G s g' p HS HG H2 Hst Hel Hf H l i j Hl Hlt Hi Hij Hj.
  assert (Ep : compute_order C m fuel (mkGranne L s) = Ok p).
  { unfold reorder in H. destruct (compute_order C m fuel (mkGranne L s)) as [q|] eqn:Ep; [|discriminate]. cbn [obind] in H.
    destruct (reorder_layers m (gr_layers (mkGranne L s)) q) as [L1|]; [|discriminate]. cbn [obind] in H. destruct (permute (gr_elems (mkGranne L s)) q) as [s1|]; [|discriminate].
    cbn [obind] in H. now injection H as _ <-. }
  exact (@order_sorted S E C s m L G fuel HS HG (proj2 Hst) Hf Hel p H2 Ep l Hl Hlt i j Hi Hij Hj).
Qed.
Print Assumptions C72_order_by_trails_partial.

(** Elements of a layer with the same trail end up next to each other. *)
Theorem C72_same_trail_adjacent_partial :
  forall {S E} (C : cops S E) permute m fuel L G s g' p,
    index_shows m L G -> graph_ok G -> 2 <= length G -> storable G -> has_elements C s (length (last G [])) ->
    length (last G []) < fuel ->
    reorder C permute m fuel (mkGranne L s) = Ok (g', p) ->
    forall l i j k a b, 0 < l -> l < length G -> length (nth (l - 1) G []) <= i -> i < j -> j < k -> k < length (nth l G []) ->
      trail C m fuel L s p (length (nth 0 G [])) l (nth i p 0) a -> trail C m fuel L s p (length (nth 0 G [])) l (nth k p 0) a ->
      trail C m fuel L s p (length (nth 0 G [])) l (nth j p 0) b -> b = a.
Proof.
  intros S E C permute m fuel L G s g' p HS HG H2 Hst Hel Hf H l i j k a b Hl Hlt Hi Hij Hjk Hk Ti Tk Tj.
  destruct (reorder_after C permute m fuel L G s g' p HS HG H2 Hst Hel Hf H) as ((HP & _) & _ & _).
  assert (HU : forall x a b, trail C m fuel L s p (length (nth 0 G [])) l x a -> trail C m fuel L s p (length (nth 0 G [])) l x b -> a = b)
    by (intros; eapply trail_unique; eauto).
  destruct (C72_order_by_trails_partial C permute m fuel L G s g' p HS HG H2 Hst Hel Hf H l i j) as (a1 & b1 & T1 & T2 & H1); auto; try lia.
  destruct (C72_order_by_trails_partial C permute m fuel L G s g' p HS HG H2 Hst Hel Hf H l j k) as (b2 & a2 & T3 & T4 & H3); auto; try lia.
  rewrite (HU _ _ _ T1 Ti), (HU _ _ _ T2 Tj) in H1. rewrite (HU _ _ _ T3 Tj), (HU _ _ _ T4 Tk) in H3.
  destruct H1 as [H1|[-> _]]; [|reflexivity]. destruct H3 as [H3|[-> _]]; [|reflexivity]. exfalso. revert H3. apply precedes_asym; [|exact H1].
  rewrite (proj1 Ti), (proj1 Tj). reflexivity.
Qed.
Print Assumptions C72_same_trail_adjacent_partial.

(** What is found in the first layer does not count (all its elements count as 0):
    the elements of the second layer, too, stay where they are, and an index of
    two layers is not reordered at all. *)
Theorem C72_second_layer_unsorted_refuted :
  forall {S E} (C : cops S E) permute m fuel L G s g' p,
    index_shows m L G -> graph_ok G -> 2 <= length G -> storable G -> has_elements C s (length (last G [])) ->
    length (last G []) < fuel ->
    reorder C permute m fuel (mkGranne L s) = Ok (g', p) ->
    (forall i, i < length (nth 1 G []) -> nth i p 0 = i) /\
    (length G = 2 -> p = seq 0 (length (last G []))).
Proof.
  intros S E C permute m fuel L G s g' p HS HG H2 Hst Hel Hf H.
  destruct (reorder_after C permute m fuel L G s g' p HS HG H2 Hst Hel Hf H) as ((HP & HF) & _ & _).
  destruct (@compute_order_ok S E C s m L G fuel HS HG (proj2 Hst) Hf Hel H2) as (p' & Ep & _ & H0).
  assert (p' = p).
  { unfold reorder in H. rewrite Ep in H. cbn [obind gr_layers gr_elems] in H. destruct (reorder_layers m L p') as [L1|]; [|discriminate]. cbn [obind] in H. destruct (permute s p') as [s1|]; [|discriminate].
    cbn [obind] in H. now injection H as _ <-. }
  subst p'. set (n0 := length (nth 0 G [])) in *. set (n1 := length (nth 1 G [])) in *.
  assert (H01 : n0 <= n1) by (unfold n0, n1; apply layer_lens_mono; auto; lia).
  assert (Hlow : forall i, i < n0 -> nth i p 0 = i).
  { intros i Hi. rewrite <- (nth_firstn_lt p (k := n0) 0 Hi), H0. now rewrite seq_nth. }
  assert (Hinc : forall i j, n0 <= i -> i < j -> j < n1 -> nth i p 0 < nth j p 0).
  { intros i j Hi Hij Hj. destruct (C72_order_by_trails_partial C permute m fuel L G s g' p HS HG H2 Hst Hel Hf H 1 i j) as (a & b & Ta & Tb & Hab); auto; try lia.
    assert (Hz : forall x c, trail C m fuel L s p n0 1 x c -> x < length (last G []) -> c = [0]).
    { intros x c [Lc (e & Ee & Hc)] Hx. cbn in Lc. destruct c as [|c0 [|? ?]]; try discriminate. f_equal. destruct (Hc 0) as (y & Hy & [P1 _]); [cbn; lia|]. apply P1.
      destruct (Hel x Hx) as (e' & Ee' & Hde). assert (e' = e) by congruence. subst e'.
      destruct (@mark_ok m L G (fun j => c_dte C s j e) (fun i => match c_dte C s i e with Ok d => d | Fail _ => 0%Z end) fuel HS HG) with (i := 0) as (_ & _ & Hm & HL1); auto; [|exact (proj2 Hst)|lia|].
      { intros j0 Hj0. destruct (Hde j0 Hj0) as (d & ->). reflexivity. }
      rewrite (landmark_unique _ _ _ _ _ _ _ Hy HL1). exact Hm. }
    assert (Hn1 : n1 <= length (last G [])) by (rewrite last_is_nth; apply layer_lens_mono; auto; lia).
    destruct (@perm_seq_nth _ p HP) as (_ & Hltp & _).
    rewrite (Hz _ _ Ta), (Hz _ _ Tb) in Hab by (apply Hltp; lia). destruct Hab as [Hab|[_ Hab]]; [now apply precedes_irrefl in Hab|exact Hab]. }
  assert (HP1 : is_perm n1 (firstn n1 p)).
  { rewrite Forall_forall in HF. apply HF. apply nth_In. lia. }
  destruct (@perm_seq_nth n1 _ HP1) as (HL1 & Hlt1 & Hinj1 & _).
  assert (Hid : forall i, i < n1 -> nth i p 0 = i).
  { assert (Hge : forall d, n0 + d < n1 -> n0 + d <= nth (n0 + d) p 0).
    { induction d as [|d IH]; intros Hd.
      - rewrite Nat.add_0_r in *. destruct (Nat.lt_ge_cases (nth n0 p 0) n0) as [Hx|]; [|assumption]. exfalso.
        assert (nth n0 p 0 = n0); [|lia]. apply Hinj1; try lia. rewrite !(nth_firstn_lt p (k := n1) 0) by lia. now apply Hlow.
      - specialize (IH ltac:(lia)). specialize (Hinc (n0 + d) (n0 + Datatypes.S d) ltac:(lia) ltac:(lia) Hd). lia. }
    assert (Hle : forall d, d < n1 - n0 -> nth (n1 - 1 - d) p 0 <= n1 - 1 - d).
    { induction d as [|d IH]; intros Hd.
      - specialize (Hlt1 (n1 - 1 - 0) ltac:(lia)). rewrite (nth_firstn_lt p (k := n1) 0) in Hlt1 by lia. lia.
      - specialize (IH ltac:(lia)). specialize (Hinc (n1 - 1 - Datatypes.S d) (n1 - 1 - d) ltac:(lia) ltac:(lia) ltac:(lia)). lia. }
    intros i Hi. destruct (Nat.lt_ge_cases i n0) as [Hx|Hx]; [auto|].
    specialize (Hge (i - n0)). specialize (Hle (n1 - 1 - i)). replace (n0 + (i - n0)) with i in Hge by lia. replace (n1 - 1 - (n1 - 1 - i)) with i in Hle by lia. lia. }
  split; [exact Hid|]. intros HG2. assert (El : length (last G []) = n1) by (rewrite last_is_nth, HG2; reflexivity).
  apply nth_ext with (d := 0) (d' := 0); [rewrite (is_perm_length HP), seq_length; reflexivity|]. intros i Hi. rewrite (is_perm_length HP), El in Hi.
  rewrite seq_nth by lia. now apply Hid.
Qed.
Print Assumptions C72_second_layer_unsorted_refuted.

(** The three layers of C37's example: in the last one, element 4 (whose landmark
    in the second layer is 1) comes before 3, 5 and 6 (whose landmark is 2). *)
Example C72_nonvacuous :
  index_shows Release rx_L rx_G /\ graph_ok rx_G /\ 2 <= length rx_G /\ storable rx_G /\ has_elements rx_ops (seq 0 7) (length (last rx_G [])) /\
  length (last rx_G []) < 8 /\
  (exists g', reorder rx_ops rx_permute Release 8 (mkGranne rx_L (seq 0 7)) = Ok (g', [0; 1; 2; 4; 3; 5; 6])) /\
  trail rx_ops Release 8 rx_L (seq 0 7) [0; 1; 2; 4; 3; 5; 6] 1 2 4 [0; 1] /\
  trail rx_ops Release 8 rx_L (seq 0 7) [0; 1; 2; 4; 3; 5; 6] 1 2 3 [0; 2].
Proof.
  destruct reorder_nonvacuous as (A & B & C & D & _ & E & _). split; [exact A|]. split; [exact B|]. split; [exact C|]. split; [exact D|]. split; [exact E|].
  split; [cbn; lia|]. split; [eexists; vm_compute; reflexivity|].
  split; (split; [reflexivity|]; eexists; split; [reflexivity|]; intros [|[|i]] Hi; [| |cbn in Hi; lia]; eexists; (split; [eexists; vm_compute; reflexivity|]); split; cbn; intros; try lia; auto).
Qed.
