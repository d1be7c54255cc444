(** * Theorems C25-C31, C34-C36: building *)
From Verif Require Import Base BaseFacts MSliceVec SSliceVec PFixed MIndexIo MSearch PHeap PSearch MBuild SBuild PSelect PRow PSLite PBuildInv PBuildRun PBuildLayer PBuildFair PBuilder PHistory PBuildAny.

(** ** C25 Neighbour selection *)

(** All candidates are kept when they fit. *)
Theorem C25_keeps_all_that_fit :
  forall {S E} (V : benv S E) s cands maxn,
    length cands <= maxn -> select_neighbors V s cands maxn = Ok cands.
Proof.
  intros S E V s cands maxn H. unfold select_neighbors. destruct (Nat.leb_spec (length cands) maxn); [auto|lia].
Qed.
Print Assumptions C25_keeps_all_that_fit.

(** Otherwise the result is the candidates marked by [keep], where candidate
    [k] is marked iff fewer than [maxn] before it are, and it is no farther
    from the element ([d]) than from each marked one before it ([D m j]); at
    most [maxn] are marked. *)
Theorem C25_selection_heuristic :
  forall {S E} (V : benv S E) s (D : nat -> nat -> Z) cands maxn,
    pair_dist (e_ops V) s D -> Forall (fun x => fst x < c_len (e_ops V) s) cands ->
    StronglySorted (fun a b => (snd a <= snd b)%Z) cands -> maxn < length cands ->
    exists keep, length keep = length cands /\
      select_neighbors V s cands maxn = Ok (pick keep cands) /\ length (pick keep cands) <= maxn /\
      forall k j d, nth_error cands k = Some (j, d) ->
        (nth_error keep k = Some true <->
         length (pick (firstn k keep) (firstn k cands)) < maxn /\
         forall m dm, In (m, dm) (pick (firstn k keep) (firstn k cands)) -> (d <= D m j)%Z).
Proof.
  intros S E V s D cands maxn HD HF Hs Hm.
  destruct (@select_big _ _ V s D HD maxn cands Hm HF (fun _ => Hs)) as (keep & HL & E1 & HK).
  exists keep. split; auto. split; auto. split; [|exact HK]. eapply keep_bound; eauto.
Qed.
Print Assumptions C25_selection_heuristic.

(** The nearest candidate is always kept, first; with a limit of 1 it is the
    only one. *)
Theorem C25_nearest_kept_first :
  forall {S E} (V : benv S E) s (D : nat -> nat -> Z) cands maxn,
    pair_dist (e_ops V) s D -> Forall (fun x => fst x < c_len (e_ops V) s) cands ->
    StronglySorted (fun a b => (snd a <= snd b)%Z) cands -> 0 < maxn ->
    exists r, select_neighbors V s cands maxn = Ok r /\ length r <= maxn /\ nth_error r 0 = nth_error cands 0.
Proof.
  intros S E V s D cands maxn HD HF Hs Hm.
  destruct (@select_ok _ _ V s D HD maxn cands Hm HF (fun _ => Hs)) as (r & E1 & Hl & Hin & _ & H0).
  exists r. split; auto. split; auto. destruct cands as [|a cands].
  - destruct r as [|x r]; auto. destruct (Hin x). now left.
  - cbn [nth_error]. apply (H0 a). reflexivity.
Qed.
Print Assumptions C25_nearest_kept_first.

(** ** C26 Well-formed neighbour lists under every schedule *)

(** At every moment of a pass, whatever well-formed layers it started from: [n]
    lists of the same capacity, each holding ids of other nodes of the layer and
    then unused slots. *)
Theorem C26_well_formed_at_every_moment :
  forall {S E} (V : benv S E) s nn ms prev num last reinsert sched x rows ts,
    usable V s -> sorts_by_dist (e_sort V) -> (N.of_nat (c_len (e_ops V) s) < UNUSED)%N ->
    layers_wf nn num prev -> (last = fw_with_width (fwidth last) \/ layer_wf nn num last) ->
    (forall l, In l prev -> fw_len l <= fw_len last) ->
    0 < nn <= fwidth last -> 0 < ms -> 0 < num <= c_len (e_ops V) s -> (reinsert = true -> num = fw_len last) ->
    start_pass num last reinsert = Ok x -> run V s nn ms prev sched x = Ok (rows, ts) ->
    rows_wf (fwidth last) num rows.
Proof.
  intros S E V s nn ms prev num last re sched x rows ts [Hc Hfu] Hsort Hlen Hprev Hlast Hall Hnn Hms Hnum Hre Es Er.
  destruct (@any_start _ _ V s nn num prev last re Hprev Hlast Hall Hnn Hnum Hre) as (R & rows0 & HR & H1 & H2 & H3 & Hle & Hg & Hre').
  destruct (@pass_state _ _ V s Hc Hsort ltac:(lia) Hfu false nn nn ms prev R num last rows0 re sched x (rows, ts)
     HR H1 H2 ltac:(lia) Hg Hle Hnum) as [HI _]; auto.
  apply (rows_wf_inv V s). eapply change_base; [exact (z_lay HI)|]. intros ? [].
Qed.
Print Assumptions C26_well_formed_at_every_moment.

(** When a pass is complete, the layer is well-formed, has the requested number
    of nodes, and no list is longer than the limit. *)
Theorem C26_well_formed_after_pass :
  forall {S E} (V : benv S E) s nn ms prev num last reinsert sched l',
    usable V s -> sorts_by_dist (e_sort V) -> (N.of_nat (c_len (e_ops V) s) < UNUSED)%N ->
    layers_wf nn num prev -> (last = fw_with_width (fwidth last) \/ layer_wf nn num last) ->
    (forall l, In l prev -> fw_len l <= fw_len last) ->
    0 < nn <= fwidth last -> 0 < ms -> 0 < num <= c_len (e_ops V) s -> (reinsert = true -> num = fw_len last) ->
    index_elements V s nn ms prev num last reinsert sched = Ok l' ->
    layer_wf nn num l' /\ fwidth l' = fwidth last /\ fw_len l' = num /\
    forall m i ns, fw_neighbors m l' i = Ok ns -> length ns <= nn.
Proof.
  intros S E V s nn ms prev num last re sched l' [Hc Hfu] Hsort Hlen Hprev Hlast Hall Hnn Hms Hnum Hre Ei.
  destruct (@any_start _ _ V s nn num prev last re Hprev Hlast Hall Hnn Hnum Hre) as (R & rows0 & HR & H1 & H2 & H3 & Hle & Hg & Hre').
  destruct (@pass_ok _ _ V s Hc Hsort ltac:(lia) Hfu false nn nn ms prev R num last rows0 re sched
     HR H1 H2 ltac:(lia) ltac:(lia) Hg Hle Hnum) as (P1 & _); auto.
  destruct (P1 _ Ei) as (rows' & Hl' & Hw' & HL' & _ & Hb). split; [eapply fine_layer_wf; eauto; lia|]. split; auto.
  split; [rewrite (fw_is_len (f_w0 Hl') (f_is Hl')); auto|].
  intros m i ns. unfold fw_neighbors. destruct (fw_get m l' i) as [r|] eqn:Eg; [|discriminate]. cbn [obind]. intros E1. injection E1 as <-.
  destruct (nth_error rows' i) as [r'|] eqn:Er.
  - rewrite (fw_is_get m i (f_w0 Hl') (f_is Hl') Er) in Eg. injection Eg as <-. eapply Hb; eauto.
  - apply nth_error_None in Er. rewrite (fw_is_get_out m (f_w0 Hl') (f_is Hl') Er) in Eg. discriminate.
Qed.
Print Assumptions C26_well_formed_after_pass.

(** After a build from scratch, for layer sizes that do not decrease from layer
    to layer: no list exceeds [num_neighbors], halved (at least 1) in layers whose
    ideal size is less than the total number of elements. *)
Theorem C26_neighbour_limits :
  forall {S E} (V : benv S E) cfg s b0 fuel num sched b m L x ns,
    usable V s -> sorts_by_dist (e_sort V) -> cfg_ok cfg ->
    (forall n i j, 0 < n -> fits_usize n -> i <= j -> k_ideal cfg n i <= k_ideal cfg n j) ->
    builder_new V cfg s = Ok b0 -> build_partial V fuel b0 num sched = Ok b ->
    get_neighbors m (FixWidth (b_layers b)) x L = Ok ns ->
    let total := match k_expected cfg with Some t => t | None => c_len (e_ops V) s end in
    let size := k_ideal cfg (Nat.max total (c_len (e_ops V) s)) L in
    length ns <= if size <? total then Nat.max 1 (k_nn cfg / 2) else k_nn cfg.
Proof.
  intros S E V cfg s b0 fuel num sched b m L x ns Hus Hsort Hcfg Hmon En Eb Eg total size.
  assert (Hr : reached (I := unit) V (fun s _ => Fail Panicked) b0) by (eapply r_new; eauto).
  assert (Hpl : push_law (I := unit) (e_ops V) (fun s _ => Fail Panicked)) by (intros s0 x0 s' Hx; discriminate).
  destruct (reached_fine Hsort Hpl Hr) as [HB Hid].
  unfold builder_new in En. destruct (N.of_nat (c_len (e_ops V) s) <? UNUSED)%N; [|discriminate]. cbn [oassert obind] in En.
  injection En as <-. unfold build_partial in Eb. destruct (Nat.eqb_spec num 0).
  { injection Eb as <-. cbn in Eg. unfold index in Eg. destruct L; discriminate. }
  cbn [builder_len b_layers split_last nth_error length Nat.sub] in Eb. cbn [Nat.leb oassert obind] in Eb.
  unfold builder_num_elements in Eb. cbn [b_elems] in Eb.
  destruct (Nat.leb_spec num (c_len (e_ops V) s)) as [Hle|]; [|discriminate]. cbn [oassert obind Nat.ltb Nat.leb] in Eb.
  set (b0 := mkBuilder s [] cfg) in *.
  assert (Hlim : limited V b0) by (intros [|i] l Hl; discriminate).
  assert (Hl0 : builder_len b0 <= num <= c_len (e_ops V) (b_elems b0)) by (cbn; lia).
  assert (Hmx : 0 < Nat.max (builder_total V b0) (c_len (e_ops V) (b_elems b0))) by lia.
  pose proof (@build_loop_limited _ _ V Hsort true num sched fuel b0 HB Hl0 (fun i j => Hmon _ i j Hmx (total_fits (proj1 HB) (proj1 (proj2 HB)))) Hlim b Eb) as HL.
  destruct (@build_loop_ok _ _ V Hsort true num sched fuel b0 HB Hl0) as (P1 & _).
  destruct (P1 b Eb) as (_ & He & Hc & _ & _).
  cbn [get_neighbors] in Eg. unfold index in Eg. destruct (nth_error (b_layers b) L) as [l|] eqn:El; [|discriminate].
  cbn [ounwrap obind] in Eg. destruct (HL L l El) as (rows & His & Hb).
  unfold fw_neighbors in Eg. destruct (fw_get m l x) as [r|] eqn:Er; [|discriminate]. cbn [obind] in Eg. injection Eg as <-.
  assert (Hw : 0 < fwidth l).
  { destruct (P1 b Eb) as ((_ & _ & R & HF & _) & _). destruct (Forall2_nth HF El) as (rr & _ & Hl). apply (f_w0 Hl). }
  assert (Hrow : nth_error rows x = Some r).
  { destruct (nth_error rows x) as [r'|] eqn:Ex.
    - rewrite (fw_is_get m x Hw His Ex) in Er. congruence.
    - apply nth_error_None in Ex. rewrite (fw_is_get_out m Hw His Ex) in Er. discriminate. }
  specialize (Hb _ _ Hrow). unfold builder_nn, builder_ideal, builder_total in Hb. rewrite He, Hc in Hb. exact Hb.
Qed.
Print Assumptions C26_neighbour_limits.

(** ** C27 No duplicates under every schedule *)

(** In a builder made by [new] and any calls, with any schedules, every list is
    duplicate-free (and well-formed). *)
Theorem C27_no_duplicates_in_built_index :
  forall {S E I} (V : benv S E) (cpush : S -> I -> outcome S) b m L l x,
    sorts_by_dist (e_sort V) -> push_law (e_ops V) cpush -> built V cpush b ->
    nth_error (b_layers b) L = Some l -> x < fw_len l ->
    exists ns, get_neighbors m (FixWidth (b_layers b)) x L = Ok ns /\ nbrs_ok (fw_len l) x ns.
Proof.
  intros S E I V cpush b m L l x Hsort Hpush Hb HL Hx.
  destruct (reached_fine Hsort Hpush (built_reached Hsort Hpush Hb)) as [HB _].
  destruct (fine_neighbors m HB HL Hx) as (ns & E1 & H1 & _). eauto.
Qed.
Print Assumptions C27_no_duplicates_in_built_index.

(** And at every moment of every pass in such a history. *)
Theorem C27_no_duplicates_at_every_moment :
  forall {S E I} (V : benv S E) (cpush : S -> I -> outcome S) b rows,
    sorts_by_dist (e_sort V) -> push_law (e_ops V) cpush -> reached V cpush b -> mid_pass V b rows ->
    exists w n, rows_ok w n rows.
Proof.
  intros S E I V cpush b rows Hsort Hpush Hr Hm.
  destruct (reached_fine Hsort Hpush Hr) as [HB _]. destruct (mid_pass_inv Hsort HB Hm) as (w & n & HI).
  exists w, n. eapply lay_inv_rows; eauto.
Qed.
Print Assumptions C27_no_duplicates_at_every_moment.

(** [reached] covers every builder a user can get hold of. *)
Theorem C27_built_is_reached :
  forall {S E I} (V : benv S E) (cpush : S -> I -> outcome S) b,
    sorts_by_dist (e_sort V) -> push_law (e_ops V) cpush -> built V cpush b -> reached V cpush b.
Proof. intros. now apply built_reached. Qed.
Print Assumptions C27_built_is_reached.

(** ** C28, C29 Progress and absence of panics *)

(** Release builds: whatever the schedules, building to [num] elements never
    panics; it can only be cut short by schedules (or [fuel]) that end too early. *)
Theorem C29_release_never_panics :
  forall {S E I} (V : benv S E) (cpush : S -> I -> outcome S) b fuel num sched e,
    sorts_by_dist (e_sort V) -> push_law (e_ops V) cpush -> built V cpush b -> e_mode V = Release ->
    builder_len b <= num <= builder_num_elements V b ->
    build_partial V fuel b num sched = Fail e -> e = OutOfFuel.
Proof.
  intros S E I V cpush b fuel num sched e Hsort Hpush Hb Hm Hle Ef.
  destruct (reached_fine Hsort Hpush (built_reached Hsort Hpush Hb)) as [HB _].
  destruct (Nat.eq_dec num 0) as [->|Hn]; [discriminate|].
  destruct (@build_partial_ok _ _ V Hsort true fuel b num sched HB Hle ltac:(lia)) as (_ & P2 & _).
  apply P2; auto. intros i p. now left.
Qed.
Print Assumptions C29_release_never_panics.

(** Debug builds, one thread: likewise. *)
Theorem C29_single_threaded_never_panics :
  forall {S E I} (V : benv S E) (cpush : S -> I -> outcome S) b fuel num sched e,
    sorts_by_dist (e_sort V) -> push_law (e_ops V) cpush -> built V cpush b -> single_threaded sched ->
    builder_len b <= num <= builder_num_elements V b ->
    build_partial V fuel b num sched = Fail e -> e = OutOfFuel.
Proof.
  intros S E I V cpush b fuel num sched e Hsort Hpush Hb Hm Hle Ef.
  destruct (reached_fine Hsort Hpush (built_reached Hsort Hpush Hb)) as [HB _].
  destruct (Nat.eq_dec num 0) as [->|Hn]; [discriminate|].
  destruct (@build_partial_ok _ _ V Hsort true fuel b num sched HB Hle ltac:(lia)) as (_ & P2 & _).
  apply P2; auto. intros i p. right. apply Hm.
Qed.
Print Assumptions C29_single_threaded_never_panics.

(** Every fair schedule finishes: once each task of each pass has been given
    4n+7 steps, and layer sizes reach [num] from layer [K] on, [build_partial]
    succeeds, for every fuel above [K]. *)
Theorem C28_every_fair_schedule_finishes :
  forall {S E I} (V : benv S E) (cpush : S -> I -> outcome S) b fuel num sched K,
    sorts_by_dist (e_sort V) -> push_law (e_ops V) cpush -> built V cpush b ->
    e_mode V = Release \/ single_threaded sched ->
    let n := builder_num_elements V b in
    (forall i p, fair_schedule n (4 * n + 7) (sched i p)) ->
    builder_len b <= num <= n -> (forall i, K <= i -> num <= builder_ideal V b i) -> K < fuel ->
    exists b', build_partial V fuel b num sched = Ok b'.
Proof.
  intros S E I V cpush b fuel num sched K Hsort Hpush Hb Hm n Hf Hle HK Hfu.
  destruct (reached_fine Hsort Hpush (built_reached Hsort Hpush Hb)) as [HB _].
  destruct (Nat.eq_dec num 0) as [->|Hn]; [unfold build_partial; cbn; eauto|].
  destruct (@build_partial_ok _ _ V Hsort true fuel b num sched HB Hle ltac:(lia)) as (_ & _ & P3).
  apply (P3 ltac:(intros i p; destruct Hm as [Hm|Hm]; [now left|right; apply Hm]) Hf K); auto. lia.
Qed.
Print Assumptions C28_every_fair_schedule_finishes.

(** No pass runs forever: a schedule that only ever moves unfinished tasks is at
    most [tasks * (4n+7)] long, and from every state in which some task is not
    finished, each unfinished task can move. *)
Theorem C28_no_endless_schedule :
  forall {S E} (V : benv S E) s nn ms prev num last reinsert sched x,
    usable V s -> sorts_by_dist (e_sort V) -> (N.of_nat (c_len (e_ops V) s) < UNUSED)%N -> e_mode V = Release ->
    layers_wf nn num prev -> (last = fw_with_width (fwidth last) \/ layer_wf nn num last) ->
    (forall l, In l prev -> fw_len l <= fw_len last) ->
    0 < nn <= fwidth last -> 0 < ms -> 0 < num <= c_len (e_ops V) s -> (reinsert = true -> num = fw_len last) ->
    start_pass num last reinsert = Ok x ->
    (exists x', run V s nn ms prev sched x = Ok x') /\
    ((forall sched1 k sched2 x', sched = sched1 ++ k :: sched2 -> run V s nn ms prev sched1 x = Ok x' ->
        exists idx t, nth_error (snd x') k = Some (idx, t) /\ t <> TDone) ->
     length sched <= length (snd x) * (4 * num + 7)).
Proof.
  intros S E V s nn ms prev num last re sched x [Hc Hfu] Hsort Hlen Hrel Hprev Hlast Hall Hnn Hms Hnum Hre Es.
  destruct (@any_start _ _ V s nn num prev last re Hprev Hlast Hall Hnn Hnum Hre) as (R & rows0 & HR & H1 & H2 & H3 & Hle & Hg & Hre').
  assert (Hlen' : (N.of_nat (c_len (e_ops V) s) <= UNUSED)%N) by lia.
  rewrite (@start_pass_unfold _ _ V s Hlen' num last rows0 re H2 ltac:(lia) Hle) in Es. injection Es as <-.
  destruct (@start_inv _ _ V s Hlen' false nn nn ms prev R num last rows0 re HR H1 H2 ltac:(lia) Hg Hle ltac:(lia) Hre' Hnn Hms) as (HI & HL & _).
  assert (Hle2 : length (List.last R []) <= num) by (destruct Hg; lia).
  pose proof (@hprev_of _ _ V s Hc Hlen' false nn prev R num HR Hle2 ltac:(lia) Hfu) as Hp. split.
  - destruct (@run_release _ _ V s Hc Hsort Hlen' false (fwidth last) num ltac:(lia) nn ms prev Hnn Hms (base_of false R) Hp sched _ Hrel HI)
      as (x' & E1 & _). eauto.
  - intros Hb. pose proof (@busy_bound _ _ V s Hc Hsort Hlen' false (fwidth last) num ltac:(lia) nn ms prev Hnn Hms (base_of false R) Hp sched _ HI
      (fun _ _ _ _ _ _ HI' => chk_release Hrel HI') Hb) as Hbound.
    unfold start_state in *. cbn [snd] in *. rewrite (@init_total _ _ V s Hlen' (fwidth last) num ltac:(lia) nn ms Hnn Hms) in Hbound. rewrite map_length. exact Hbound.
Qed.
Print Assumptions C28_no_endless_schedule.

(** ** C30 build_partial indexes exactly the requested prefix *)
Theorem C30_length_after_build_partial :
  forall {S E I} (V : benv S E) (cpush : S -> I -> outcome S) b fuel num sched b',
    sorts_by_dist (e_sort V) -> push_law (e_ops V) cpush -> built V cpush b -> 0 < num ->
    build_partial V fuel b num sched = Ok b' ->
    builder_len b' = num /\ builder_len b <= num <= builder_num_elements V b /\ b_elems b' = b_elems b.
Proof.
  intros S E I V cpush b fuel num sched b' Hsort Hpush Hb Hn Eb.
  destruct (reached_fine Hsort Hpush (built_reached Hsort Hpush Hb)) as [HB _].
  assert (Hle : builder_len b <= num <= builder_num_elements V b).
  { unfold build_partial in Eb. destruct (Nat.eqb_spec num 0); [lia|].
    destruct (Nat.leb_spec (builder_len b) num); [|discriminate].
    destruct (Nat.leb_spec num (builder_num_elements V b)); [|discriminate]. lia. }
  destruct (@build_partial_ok _ _ V Hsort true fuel b num sched HB Hle Hn) as (P1 & _).
  destruct (P1 _ Eb) as (_ & H1 & _ & H2 & _). auto.
Qed.
Print Assumptions C30_length_after_build_partial.

(** A request outside the range is refused before any work (with no fuel and no
    steps given). *)
Theorem C30_out_of_range_refused :
  forall {S E} (V : benv S E) b fuel num sched,
    0 < num -> (num < builder_len b \/ builder_num_elements V b < num) ->
    build_partial V fuel b num sched = Fail Panicked.
Proof.
  intros S E V b fuel num sched Hn H. unfold build_partial. destruct (Nat.eqb_spec num 0); [lia|].
  destruct (Nat.leb_spec (builder_len b) num); [|reflexivity]. cbn [oassert obind].
  destruct (Nat.leb_spec num (builder_num_elements V b)); [lia|]. reflexivity.
Qed.
Print Assumptions C30_out_of_range_refused.

Theorem C30_zero_is_a_no_op :
  forall {S E} (V : benv S E) b fuel sched, build_partial V fuel b 0 sched = Ok b.
Proof. reflexivity. Qed.
Print Assumptions C30_zero_is_a_no_op.

Theorem C30_build_indexes_everything :
  forall {S E I} (V : benv S E) (cpush : S -> I -> outcome S) b fuel sched b',
    sorts_by_dist (e_sort V) -> push_law (e_ops V) cpush -> built V cpush b ->
    build V fuel b sched = Ok b' -> builder_len b' = builder_num_elements V b'.
Proof.
  intros S E I V cpush b fuel sched b' Hsort Hpush Hb Eb. unfold build in Eb.
  destruct (Nat.eq_dec (builder_num_elements V b) 0) as [H0|H0].
  - rewrite H0 in Eb. injection Eb as <-. rewrite H0.
    destruct (reached_fine Hsort Hpush (built_reached Hsort Hpush Hb)) as [HB _].
    destruct (bfine_split HB) as [H|(p & l & R & rows & Els & _ & Hl & _ & Hlen & _)]; [now apply builder_len_none|].
    pose proof (f_max Hl). unfold builder_num_elements in H0. lia.
  - destruct (C30_length_after_build_partial V cpush b fuel (builder_num_elements V b) sched b' Hsort Hpush Hb ltac:(lia) Eb) as (H1 & _ & H2).
    rewrite H1. unfold builder_num_elements. now rewrite H2.
Qed.
Print Assumptions C30_build_indexes_everything.

(** ** C31 Later builds only touch the last layer *)
Theorem C31_earlier_layers_untouched :
  forall {S E I} (V : benv S E) (cpush : S -> I -> outcome S) b fuel num sched b',
    sorts_by_dist (e_sort V) -> push_law (e_ops V) cpush -> built V cpush b ->
    build_partial V fuel b num sched = Ok b' ->
    forall L, Datatypes.S L < length (b_layers b) -> nth_error (b_layers b') L = nth_error (b_layers b) L.
Proof.
  intros S E I V cpush b fuel num sched b' Hsort Hpush Hb Eb L HL.
  destruct (Nat.eq_dec num 0) as [->|Hn]; [injection Eb as <-; auto|].
  destruct (C30_length_after_build_partial V cpush b fuel num sched b' Hsort Hpush Hb ltac:(lia) Eb) as (_ & Hle & _).
  destruct (reached_fine Hsort Hpush (built_reached Hsort Hpush Hb)) as [HB _].
  destruct (@build_partial_ok _ _ V Hsort true fuel b num sched HB Hle ltac:(lia)) as (P1 & _).
  destruct (P1 _ Eb) as (_ & _ & _ & _ & H2). destruct H2 as (p & l & l' & extra & E1 & E2 & _); [intros E0; rewrite E0 in HL; cbn in HL; lia|].
  rewrite E1, E2. rewrite E1, app_length in HL. cbn in HL. rewrite !nth_error_app1 by lia. reflexivity.
Qed.
Print Assumptions C31_earlier_layers_untouched.

(** Layer lengths are non-decreasing; no layer disappears and none shrinks. *)
Theorem C31_layer_lengths :
  forall {S E I} (V : benv S E) (cpush : S -> I -> outcome S) b,
    sorts_by_dist (e_sort V) -> push_law (e_ops V) cpush -> built V cpush b ->
    forall L1 L2 l1 l2, L1 <= L2 -> nth_error (b_layers b) L1 = Some l1 -> nth_error (b_layers b) L2 = Some l2 ->
      0 < fw_len l1 <= fw_len l2.
Proof.
  intros S E I V cpush b Hsort Hpush Hb L1 L2 l1 l2 HL H1 H2.
  destruct (reached_fine Hsort Hpush (built_reached Hsort Hpush Hb)) as [HB _].
  destruct (fine_layers HB) as [F1 F2]. destruct (F1 _ _ H1) as (_ & _ & H3). specialize (F2 _ _ _ _ HL H1 H2). lia.
Qed.
Print Assumptions C31_layer_lengths.

Theorem C31_layers_only_grow :
  forall {S E I} (V : benv S E) (cpush : S -> I -> outcome S) b fuel num sched b',
    sorts_by_dist (e_sort V) -> push_law (e_ops V) cpush -> built V cpush b ->
    build_partial V fuel b num sched = Ok b' ->
    length (b_layers b) <= length (b_layers b') /\ builder_len b <= builder_len b'.
Proof.
  intros S E I V cpush b fuel num sched b' Hsort Hpush Hb Eb.
  destruct (Nat.eq_dec num 0) as [->|Hn]; [injection Eb as <-; auto|].
  destruct (C30_length_after_build_partial V cpush b fuel num sched b' Hsort Hpush Hb ltac:(lia) Eb) as (Hl & Hle & _).
  destruct (reached_fine Hsort Hpush (built_reached Hsort Hpush Hb)) as [HB _].
  destruct (@build_partial_ok _ _ V Hsort true fuel b num sched HB Hle ltac:(lia)) as (P1 & _).
  destruct (P1 _ Eb) as (_ & _ & _ & _ & H2). split; [|lia].
  destruct (b_layers b) as [|l0 ls] eqn:E0; [cbn; lia|]. destruct H2 as (p & l & l' & extra & E1 & E2 & _); [discriminate|].
  rewrite E1, E2, !app_length. cbn. lia.
Qed.
Print Assumptions C31_layers_only_grow.

(** ** C34 Ids never collide with the unused marker *)
Theorem C34_ids_fit :
  forall {S E I} (V : benv S E) (cpush : S -> I -> outcome S) b i,
    sorts_by_dist (e_sort V) -> push_law (e_ops V) cpush -> built V cpush b ->
    (N.of_nat (builder_num_elements V b) <= 4294967294)%N /\
    (i < builder_num_elements V b -> to_id i = Ok (N.of_nat i) /\ N.of_nat i <> UNUSED /\ N.to_nat (N.of_nat i) = i).
Proof.
  intros S E I V cpush b i Hsort Hpush Hb.
  destruct (reached_fine Hsort Hpush (built_reached Hsort Hpush Hb)) as [_ Hid]. unfold idsafe in Hid.
  fold (builder_num_elements V b) in Hid. assert (HU : UNUSED = 4294967295%N) by reflexivity. rewrite HU in *.
  split; [lia|]. intros Hi. unfold to_id. destruct (N.ltb_spec (N.of_nat i) 4294967296); [|lia].
  split; auto. split; lia.
Qed.
Print Assumptions C34_ids_fit.

(** The checks that enforce it: at 2^32-1 elements [new] panics, and at 2^32-2
    [push] does. *)
Theorem C34_limit_enforced :
  forall {S E I} (V : benv S E) (cpush : S -> I -> outcome S),
    (forall cfg s, (4294967295 <= N.of_nat (c_len (e_ops V) s))%N -> builder_new V cfg s = Fail Panicked) /\
    (forall b x, (4294967294 <= N.of_nat (builder_num_elements V b))%N -> builder_push V cpush b x = Fail Panicked).
Proof.
  intros S E I V cpush. assert (HU : UNUSED = 4294967295%N) by reflexivity. split.
  - intros cfg s H. unfold builder_new. rewrite HU. destruct (N.ltb_spec (N.of_nat (c_len (e_ops V) s)) 4294967295); [lia|reflexivity].
  - intros b x H. unfold builder_push, builder_num_elements in *. rewrite HU.
    destruct (N.ltb_spec (N.of_nat (c_len (e_ops V) (b_elems b))) (4294967295 - 1)); [lia|reflexivity].
Qed.
Print Assumptions C34_limit_enforced.

(** ** C35 Pushed elements are invisible until built; ids are stable *)
Theorem C35_push_changes_no_list :
  forall {S E I} (V : benv S E) (cpush : S -> I -> outcome S) b x b',
    push_law (e_ops V) cpush -> builder_push V cpush b x = Ok b' ->
    builder_num_elements V b' = Datatypes.S (builder_num_elements V b) /\
    builder_len b' = builder_len b /\ b_layers b' = b_layers b /\
    forall i, i < builder_num_elements V b -> c_get (e_ops V) (b_elems b') i = c_get (e_ops V) (b_elems b) i.
Proof.
  intros S E I V cpush b x b' Hpush Ep. unfold builder_push in Ep.
  destruct (oassert _); [|discriminate]. cbn [obind] in Ep. destruct (cpush (b_elems b) x) as [s'|] eqn:Es; [|discriminate].
  cbn [obind] in Ep. injection Ep as <-. destruct (Hpush _ _ _ Es) as (H1 & H2 & _).
  unfold builder_num_elements, builder_len. cbn [b_elems b_layers]. auto.
Qed.
Print Assumptions C35_push_changes_no_list.

(** Through any further calls, with any schedules, every id keeps its element. *)
Theorem C35_ids_stable :
  forall {S E I} (V : benv S E) (cpush : S -> I -> outcome S) b cs b' i,
    sorts_by_dist (e_sort V) -> push_law (e_ops V) cpush -> built V cpush b -> calls V cpush b cs b' ->
    i < builder_num_elements V b -> c_get (e_ops V) (b_elems b') i = c_get (e_ops V) (b_elems b) i.
Proof.
  intros S E I V cpush b cs b' i Hsort Hpush Hb Hc Hi.
  destruct (calls_elems Hsort Hpush Hc (built_reached Hsort Hpush Hb)) as [_ H]. now apply H.
Qed.
Print Assumptions C35_ids_stable.

(** [Vec] containers: the pushed element gets the next id, and the law holds. *)
Theorem C35_vec_push :
  forall {E} (d : E -> E -> Z), push_law (vec_ops d) (fun s (x : E) => Ok (s ++ [x])) /\
    forall s (x : E), c_get (vec_ops d) (s ++ [x]) (length s) = Ok x.
Proof.
  intros E d. split.
  - intros s x s' Es. injection Es as <-. cbn [vec_ops c_len c_get c_dist]. rewrite app_length. cbn [length].
    split; [lia|]. split.
    + intros i Hi. unfold index. now rewrite nth_error_app1.
    + intros i j Hi Hj. unfold index. now rewrite !nth_error_app1.
  - intros s x. cbn. unfold index. rewrite nth_error_app2, Nat.sub_diag by lia. reflexivity.
Qed.
Print Assumptions C35_vec_push.

(** ** C36 Zero elements *)

(** The insertion of a zero element is a single step that changes nothing. *)
Theorem C36_inserting_zero_changes_nothing :
  forall {S E} (V : benv S E) s nn ms prev rows z,
    is_zero V s z -> task_step V s nn ms prev rows z TStart = Ok (rows, TDone).
Proof.
  intros S E V s nn ms prev rows z (d & Ed & Hd). cbn [task_step]. unfold start_task. rewrite Ed. cbn [obind].
  destruct (Z.ltb_spec (e_eps V) d); [reflexivity|lia].
Qed.
Print Assumptions C36_inserting_zero_changes_nothing.

(** In every history and under every schedule, a zero element other than element
    0 has no neighbours and is nobody's neighbour. *)
Theorem C36_zero_never_linked :
  forall {S E I} (V : benv S E) (cpush : S -> I -> outcome S) b m L l x z,
    sorts_by_dist (e_sort V) -> push_law (e_ops V) cpush -> built V cpush b ->
    is_zero V (b_elems b) z -> z <> 0 ->
    nth_error (b_layers b) L = Some l -> x < fw_len l ->
    exists ns, get_neighbors m (FixWidth (b_layers b)) x L = Ok ns /\ ~ In z ns /\ (x = z -> ns = []).
Proof.
  intros S E I V cpush b m L l x z Hsort Hpush Hb Hz Hz0 HL Hx.
  destruct (reached_fine Hsort Hpush (built_reached Hsort Hpush Hb)) as [HB _].
  destruct (fine_neighbors m HB HL Hx) as (ns & E1 & _ & _ & H). destruct (H z Hz Hz0). eauto.
Qed.
Print Assumptions C36_zero_never_linked.

(** (the selection keeps the order) *)
Lemma select_sorted {S E} (V : benv S E) s cands nn ns :
  StronglySorted (fun a b => (snd a <= snd b)%Z) cands -> select_neighbors V s cands nn = Ok ns ->
  StronglySorted (fun a b : nat * Z => (snd a <= snd b)%Z) ns.
Proof.
  intros Hs. unfold select_neighbors. destruct (length cands <=? nn); [intros E1; injection E1 as <-; auto|].
  destruct (debug_assert _ _); [|discriminate]. cbn [obind].
  assert (H : forall cands nb ns, sel_loop V s nn cands nb = Ok ns -> StronglySorted (fun a b => (snd a <= snd b)%Z) (nb ++ cands) ->
            StronglySorted (fun a b : nat * Z => (snd a <= snd b)%Z) ns).
  { clear. assert (Hfirst : forall (a b : list (nat * Z)), StronglySorted (fun a b => (snd a <= snd b)%Z) (a ++ b) -> StronglySorted (fun a b => (snd a <= snd b)%Z) a).
    { induction a as [|x a IH]; intros b Hx; [constructor|]. cbn [app] in Hx. inversion Hx as [|? ? H1 H2]; subst.
      constructor; [eapply IH; eauto|]. now apply Forall_app in H2 as [H2 _]. }
    induction cands as [|[j d] cands IH]; intros nb ns E1 Hs; cbn [sel_loop] in E1.
    - injection E1 as <-. now rewrite app_nil_r in Hs.
    - destruct (nn <=? length nb); [injection E1 as <-; eapply Hfirst; eauto|].
      destruct (c_get _ _ _) as [e|]; [|discriminate]. cbn [obind] in E1. destruct (sel_all V s d e nb) as [keep|]; [|discriminate].
      cbn [obind] in E1. apply (IH _ _ E1). destruct keep; [now rewrite <- app_assoc|].
      clear -Hs. induction nb as [|x nb IH]; cbn [app] in *.
      + now inversion Hs.
      + inversion Hs as [|? ? H1 H2]; subst. constructor; [auto|]. apply Forall_app in H2 as [H2 H3]. apply Forall_app. split; auto.
        now inversion H3. }
  intros E1. eapply H; eauto.
Qed.

(** An element is left unlinked exactly when more than [nn/2] of its selected
    neighbours are closer than the threshold. *)
Theorem C36_duplicates_not_linked :
  forall {S E} (V : benv S E) s nn idx found ns,
    StronglySorted (fun a b => (snd a <= snd b)%Z) found ->
    select_neighbors V s (filter (fun x => negb (fst x =? idx)) found) nn = Ok ns ->
    choose V s nn idx found =
      Ok (if nn / 2 <? length (filter (fun x => (snd x <? e_eps V)%Z) ns) then TDone else TTest ns).
Proof.
  intros S E V s nn idx found ns Hso Esel.
  assert (Hsn : StronglySorted (fun a b => (snd a <= snd b)%Z) ns).
  { eapply select_sorted; [|exact Esel]. now apply filter_sorted. }
  unfold choose. rewrite Esel. cbn [obind].
  assert (H : forall k, (nth_error ns k = None -> length (filter (fun x => (snd x <? e_eps V)%Z) ns) <= k) /\
     (forall y d, nth_error ns k = Some (y, d) ->
        (d <? e_eps V)%Z = (k <? length (filter (fun x => (snd x <? e_eps V)%Z) ns)))).
  { clear Esel. induction Hsn as [|a ns Hs IH HF]; intros k; cbn [filter].
    - split; [cbn; lia|]. destruct k; discriminate.
    - split.
      + intros Hk. apply nth_error_None in Hk. cbn [length] in Hk.
        destruct k as [|k]; [lia|]. destruct (IH k) as [H1 _].
        destruct (snd a <? e_eps V)%Z; cbn [length].
        * apply le_n_S, H1, nth_error_None. lia.
        * apply Nat.le_trans with k; [|lia]. apply H1, nth_error_None. lia.
      + intros y d Hk. destruct (Z.ltb_spec (snd a) (e_eps V)) as [Ha|Ha].
        * cbn [length]. destruct k as [|k]; cbn [nth_error] in Hk.
          -- injection Hk as ->. cbn [snd] in Ha. destruct (Z.ltb_spec d (e_eps V)); [|lia]. symmetry. apply Nat.ltb_lt. lia.
          -- destruct (IH k) as [_ H2]. rewrite (H2 _ _ Hk). reflexivity.
        * assert (Hnil : filter (fun x => (snd x <? e_eps V)%Z) ns = []).
          { clear -HF Ha. induction HF as [|b ns Hb HF IH]; auto. cbn [filter]. destruct (Z.ltb_spec (snd b) (e_eps V)); [lia|auto]. }
          rewrite Hnil. cbn [length]. destruct (Z.ltb_spec d (e_eps V)) as [Hd|]; [|symmetry; apply Nat.ltb_ge; lia].
          exfalso. destruct k as [|k]; cbn [nth_error] in Hk.
          -- injection Hk as ->. cbn in Ha. lia.
          -- rewrite Forall_forall in HF. apply nth_error_In in Hk. specialize (HF _ Hk). cbn in HF. lia. }
  destruct (H (nn / 2)) as [H1 H2]. destruct (nth_error ns (nn / 2)) as [[y d]|] eqn:En.
  - rewrite <- (H2 y d eq_refl). reflexivity.
  - specialize (H1 eq_refl). destruct (Nat.ltb_spec (nn / 2) (length (filter (fun x => (snd x <? e_eps V)%Z) ns))); [lia|reflexivity].
Qed.
Print Assumptions C36_duplicates_not_linked.

(** ** Concrete cases, and where the code falls short *)

(** [Vec] containers always work. *)
Lemma vec_cont_ok {E} (d : E -> E -> Z) s : cont_ok (vec_ops d) s.
Proof.
  assert (Hg : forall i, i < length s -> exists e, index s i = Ok e).
  { intros i Hi. unfold index. destruct (nth_error s i) as [e|] eqn:En; [exists e; reflexivity|]. apply nth_error_None in En. lia. }
  constructor; cbn [vec_ops c_len c_get c_dte c_dist c_dists]; auto.
  - intros i j e Hi _ _. destruct (Hg i Hi) as (x & ->). cbn. eauto.
  - intros i j Hi Hj. destruct (Hg i Hi) as (x & ->), (Hg j Hj) as (y & ->). cbn. eauto.
  - intros i js Hi HF. destruct (Hg i Hi) as (x & ->). cbn [obind]. induction HF as [|j js Hj HF IH]; [exists []; auto|].
    cbn [omapM]. destruct (Hg j Hj) as (y & ->). cbn [obind]. destruct IH as (ds & -> & HL). cbn [obind]. eexists. split; [reflexivity|].
    cbn. now rewrite HL.
Qed.

Fixpoint insert_d (x : nat * Z) (l : list (nat * Z)) : list (nat * Z) :=
  match l with [] => [x] | y :: t => if (snd x <=? snd y)%Z then x :: l else y :: insert_d x t end.
Definition isort : list (nat * Z) -> list (nat * Z) := fold_right insert_d [].
Lemma isort_ok : sorts_by_dist isort.
Proof.
  assert (Hp : forall x l, Permutation (insert_d x l) (x :: l)).
  { intros x. induction l as [|y l IH]; cbn [insert_d]; auto. destruct (snd x <=? snd y)%Z; auto. rewrite IH. apply perm_swap. }
  intros l. split.
  - induction l as [|x l IH]; cbn [isort fold_right]; auto. fold (isort l). rewrite Hp. auto.
  - induction l as [|x l IH]; cbn [isort fold_right]; [constructor|]. fold (isort l).
    induction IH as [|y l' Hs IH' HF]; cbn [insert_d]; [repeat constructor|].
    destruct (Z.leb_spec (snd x) (snd y)) as [Hle|Hgt].
    + constructor; [constructor; auto|]. constructor; auto. eapply Forall_impl; [|exact HF]. cbn. intros; lia.
    + constructor; auto. rewrite Forall_forall in *. intros z Hz. apply (Permutation_in _ (Hp x l')) in Hz as [<-|Hz]; [lia|auto].
Qed.

(** points on a line, 0 standing for a zero vector *)
Definition ex_d (x y : Z) : Z := if ((x =? 0) || (y =? 0))%Z then 100 else 10 * Z.abs (x - y).
Definition ex_env (m : mode) : benv (list Z) Z := mkEnv m 20 (vec_ops ex_d) isort 5.
Definition ex_push (s : list Z) (x : Z) : outcome (list Z) := Ok (s ++ [x]).
Definition ex_cfg : config :=
  mkConfig 2 3 true None (fun n l => Nat.min n (match l with 0 => 2 | 1 => 4 | _ => n end)).
Definition round_robin : schedules := fun _ _ => concat (repeat (seq 0 8) 39).
Definition one_by_one : schedules := fun _ _ => concat (map (fun i => repeat i 39) (seq 0 8)).
Definition ex_elems : list Z := [7; 3; 0; 5; 12; 3]%Z.
Definition ex_calls (sched : schedules) : list (call Z) :=
  [CBuildPartial 3 9 sched; CPush 20%Z; CPush 6%Z; CBuild 9 sched].

Definition list_view (b : builder (list Z)) : outcome (list (list (list nat))) :=
  omapM (fun L => let* l := index (b_layers b) L in
                  omapM (fun x => get_neighbors Release (FixWidth (b_layers b)) x L) (seq 0 (fw_len l)))
        (seq 0 (length (b_layers b))).

Lemma ex_cfg_ok : cfg_ok ex_cfg.
Proof. split; [cbn; lia|]. split; [cbn; lia|]. split; [intros x Hx; try discriminate; injection Hx as <-; reflexivity|]. intros n Hn _. cbn [ex_cfg k_ideal]. lia. Qed.
Lemma ex_usable m s : length s < 20 -> usable (ex_env m) s.
Proof. intros H. split; [apply vec_cont_ok|exact H]. Qed.

Fixpoint run_calls (V : benv (list Z) Z) (b : builder (list Z)) (cs : list (call Z)) : outcome (builder (list Z)) :=
  match cs with [] => Ok b | c :: cs => let* b' := do_call V ex_push b c in run_calls V b' cs end.
Lemma run_calls_ok m b cs b' : run_calls (ex_env m) b cs = Ok b' ->
  length (b_elems b') < 20 -> reached (ex_env m) ex_push b -> calls (ex_env m) ex_push b cs b'.
Proof.
  revert b. induction cs as [|c cs IH]; cbn [run_calls]; intros b E1 HL Hr.
  - injection E1 as <-. constructor.
  - destruct (do_call (ex_env m) ex_push b c) as [b1|] eqn:Ec; [|discriminate]. cbn [obind] in E1.
    assert (Hpl : push_law (e_ops (ex_env m)) ex_push) by apply C35_vec_push.
    assert (Hlen : length (b_elems b1) <= length (b_elems b')).
    { clear -E1 Hpl. revert b1 E1. induction cs as [|c cs IH]; cbn [run_calls]; intros b1 E1; [injection E1 as <-; auto|].
      destruct (do_call (ex_env m) ex_push b1 c) as [b2|] eqn:Ec; [|discriminate]. cbn [obind] in E1. specialize (IH _ E1).
      eapply Nat.le_trans; [|exact IH]. clear -Ec.
      assert (Hil : forall b num sched b', index_last (ex_env m) b num sched = Ok b' -> b_elems b' = b_elems b).
      { intros b num sched b'. unfold index_last. destruct (split_last (b_layers b)) as [[l p]|]; [|discriminate]. cbn [ounwrap obind].
        destruct (_ <=? fw_len l); [intros H; injection H as <-; auto|].
        destruct (index_elements _ _ _ _ _ _ _ _ _) as [l1|]; [|discriminate]. cbn [obind].
        destruct (k_reinsert (b_config b)); cbn [obind].
        - destruct (index_elements _ _ _ _ _ _ _ _ _) as [l2|]; [|discriminate]. cbn [obind]. intros H. injection H as <-. reflexivity.
        - intros H. injection H as <-. reflexivity. }
      assert (Hlp : forall fuel b num sched b', build_loop (ex_env m) fuel b num sched = Ok b' -> b_elems b' = b_elems b).
      { induction fuel as [|fuel IHf]; intros b num sched b'; cbn [build_loop]; destruct (num <=? builder_len b);
          try (intros H; injection H as <-; auto); try discriminate.
        destruct (index_last (ex_env m) (add_layer b) num sched) as [b3|] eqn:E3; [|discriminate]. cbn [obind].
        intros H. apply IHf in H. apply Hil in E3. rewrite H, E3. reflexivity. }
      assert (Hbp : forall fuel b num sched b', build_partial (ex_env m) fuel b num sched = Ok b' -> b_elems b' = b_elems b).
      { intros fuel b num sched b'. unfold build_partial. destruct (num =? 0); [intros H; injection H as <-; auto|].
        destruct (oassert _); [|discriminate]. cbn [obind]. destruct (oassert _); [|discriminate]. cbn [obind].
        destruct (0 <? length (b_layers b)); cbn [obind]; [|apply Hlp].
        destruct (index_last (ex_env m) b num sched) as [b3|] eqn:E3; [|discriminate]. cbn [obind].
        intros H. apply Hlp in H. apply Hil in E3. congruence. }
      destruct c as [x|num fuel sched|fuel sched]; cbn [do_call] in Ec.
      - unfold builder_push in Ec. destruct (oassert _); [|discriminate]. cbn [obind ex_push] in Ec. injection Ec as <-.
        cbn [b_elems]. rewrite app_length. lia.
      - apply Hbp in Ec. rewrite Ec. auto.
      - unfold build in Ec. apply Hbp in Ec. rewrite Ec. auto. }
    assert (Hu : usable (ex_env m) (b_elems b1)) by (apply ex_usable; lia).
    econstructor; [exact Ec|exact Hu|]. apply IH; auto.
    eapply calls_reached; [apply isort_ok|exact Hpl| |exact Hr]. econstructor; [exact Ec|exact Hu|constructor].
Qed.

(** A history with pushes between builds, under two schedules; element 2 is a
    zero element. *)
Definition ex_result (m : mode) (sched : schedules) : outcome (builder (list Z)) :=
  run_calls (ex_env m) (mkBuilder ex_elems [] ex_cfg) (ex_calls sched).

Example built_example :
  exists b, ex_result Release round_robin = Ok b /\ built (ex_env Release) ex_push b /\
    list_view b = Ok [[[1]; [0]]; [[3]; [0]; []; [0]];
                      [[7; 4]; [5; 0]; []; [7; 5]; [0; 6]; [1; 3]; [4]; [0; 3]]] /\
    is_zero (ex_env Release) (b_elems b) 2.
Proof.
  assert (Hv : (let* b := ex_result Release round_robin in let* v := list_view b in Ok (v, b_elems b)) =
     Ok ([[[1]; [0]]; [[3]; [0]; []; [0]]; [[7; 4]; [5; 0]; []; [7; 5]; [0; 6]; [1; 3]; [4]; [0; 3]]], (ex_elems ++ [20; 6])%Z))
    by (vm_compute; reflexivity).
  destruct (ex_result Release round_robin) as [b|] eqn:Eb; [|discriminate]. cbn [obind] in Hv.
  destruct (list_view b) as [v|] eqn:Ev; [|discriminate]. cbn [obind] in Hv. injection Hv as -> He.
  exists b. split; auto. split; [|split; [auto|exists 100%Z; rewrite He; split; [reflexivity|cbn; lia]]].
  assert (Hn : builder_new (ex_env Release) ex_cfg ex_elems = Ok (mkBuilder ex_elems [] ex_cfg)) by reflexivity.
  assert (Hu : usable (ex_env Release) ex_elems) by (apply ex_usable; cbn; lia).
  apply bt_once. exists ex_cfg, ex_elems, (mkBuilder ex_elems [] ex_cfg), (ex_calls round_robin).
  split; [apply ex_cfg_ok|]. split; [exact Hu|]. split; [exact Hn|]. apply run_calls_ok; [exact Eb| |].
  - rewrite He. cbn. lia.
  - eapply r_new; [apply ex_cfg_ok|exact Hu|exact Hn].
Qed.

(** one thread, debug build: the same index *)
Example built_debug_example :
  (let* b := ex_result Debug one_by_one in list_view b) =
    Ok [[[1]; [0]]; [[3]; [0]; []; [0]]; [[7; 4]; [5; 0]; []; [7; 5]; [0; 6]; [1; 3]; [4]; [0; 3]]] /\
  (forall n m, n <= 8 -> m <= 39 -> forall i p, fair_schedule n m (round_robin i p)).
Proof.
  split; [vm_compute; reflexivity|]. intros n m Hn Hm i p k Hk.
  assert (H : count_occ Nat.eq_dec (round_robin i p) k = 39); [|lia].
  do 8 (destruct k as [|k]; [vm_compute; reflexivity|]). lia.
Qed.

(** The selection heuristic at work, for the element at 7 and a limit of 3: each
    of the candidates 2 to 5 is closer to a kept one than to the element. *)
Example select_example :
  select_neighbors (ex_env Debug) [8; 5; 4; 11; 1; 30]%Z
     [(0, 10%Z); (1, 20%Z); (2, 30%Z); (3, 40%Z); (4, 60%Z); (5, 230%Z)] 3
  = Ok [(0, 10%Z); (1, 20%Z)] /\
  pair_dist (vec_ops ex_d) [8; 5; 4; 11; 1; 30]%Z (fun n j => ex_d (nth n [8; 5; 4; 11; 1; 30] 0) (nth j [8; 5; 4; 11; 1; 30] 0)%Z)%Z.
Proof.
  split; [vm_compute; reflexivity|]. intros n j Hn Hj. cbn in Hn, Hj. cbn [vec_ops c_get c_dte].
  exists (nth j [8; 5; 4; 11; 1; 30]%Z 0%Z). split.
  - do 6 (destruct j as [|j]; [reflexivity|]). lia.
  - do 6 (destruct n as [|n]; [reflexivity|]). lia.
Qed.

(** Debug builds with several threads do panic: elements 0 and 1 are inserted
    concurrently into the first layer; task 0 finds no neighbours and its slot
    unused; task 1 links itself to node 0; then task 0 checks its slot again
    ([debug_assert_eq!] in [initialize_node]). *)
Theorem C29_debug_race_refuted :
  exists b sched, built (ex_env Debug) ex_push b /\ build (ex_env Debug) 9 b sched = Fail Panicked /\
    (let* b' := build (ex_env Release) 9 b sched in list_view b') = Ok [[[1]; [0]]].
Proof.
  exists (mkBuilder [7; 3]%Z [] ex_cfg), (fun _ _ => [0;0;0;0] ++ repeat 1 20 ++ repeat 0 20).
  split; [|split; vm_compute; reflexivity].
  apply bt_once. exists ex_cfg, [7; 3]%Z, (mkBuilder [7; 3]%Z [] ex_cfg), []. split; [apply ex_cfg_ok|].
  split; [apply ex_usable; cbn; lia|]. split; [reflexivity|constructor].
Qed.
Print Assumptions C29_debug_race_refuted.

(** A zero element with id 0 does get linked: the other insertions start from
    node 0 and link back to it. *)
Theorem C36_zero_element_0_linked_refuted :
  exists b b', built (ex_env Release) ex_push b /\ is_zero (ex_env Release) (b_elems b) 0 /\
    build (ex_env Release) 9 b round_robin = Ok b' /\ list_view b' = Ok [[[1]; [0]]].
Proof.
  destruct (build (ex_env Release) 9 (mkBuilder [0; 3]%Z [] ex_cfg) round_robin) as [b'|] eqn:Eb; [|vm_compute in Eb; discriminate].
  exists (mkBuilder [0; 3]%Z [] ex_cfg), b'. split; [|split; [exists 100%Z; split; [reflexivity|cbn; lia]|]].
  - apply bt_once. exists ex_cfg, [0; 3]%Z, (mkBuilder [0; 3]%Z [] ex_cfg), []. split; [apply ex_cfg_ok|].
    split; [apply ex_usable; cbn; lia|]. split; [reflexivity|constructor].
  - split; auto. assert (Hv : (let* b := build (ex_env Release) 9 (mkBuilder [0; 3]%Z [] ex_cfg) round_robin in list_view b) = Ok [[[1]; [0]]])
      by (vm_compute; reflexivity). rewrite Eb in Hv. exact Hv.
Qed.
Print Assumptions C36_zero_element_0_linked_refuted.

(** Configurations excluded by [cfg_ok] do fail: no neighbours, or no search. *)
Theorem C29_zero_settings_panic :
  build (ex_env Release) 9 (mkBuilder [7; 3]%Z [] (mkConfig 0 3 true None (fun n _ => n))) round_robin = Fail Panicked /\
  build (ex_env Release) 9 (mkBuilder [7; 3]%Z [] (mkConfig 2 0 true None (fun n _ => n))) round_robin = Fail Panicked.
Proof. split; vm_compute; reflexivity. Qed.
