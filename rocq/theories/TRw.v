(** * Theorems C42-C46: the concurrent builder *)
From Coq Require Import Permutation Sorted ZArith Reals Lra.
From Flocq Require Import Core.
From Verif Require Import Base BaseFacts MSliceVec MIndexIo MSearch MBuild SBuild MLocks MRw SRw PBuildRun PRwSeq PRwLock PRwIds PRwConc PRwTop PRwSingle PRwLive SSliceVec PFixed MFloat MLayerSize SLayerSize PLayerR TBuild TLayerSize.
Close Scope R_scope. Close Scope Z_scope. Open Scope nat_scope.

(** ** C42 Ids *)

(** Whatever the threads do, in whatever order, whoever gets the locks: all ids
    returned so far are distinct; those of one call are increasing, at most as
    many as the elements passed, and the element stored at the j-th id is the
    j-th element passed. *)
Theorem C42_ids_unique_and_correct :
  forall S E I (V : benv S E) (cpush : S -> I -> outcome S) elem cfg max W0 P progs sched y,
    appends (e_ops V) cpush elem -> safe_locks P ->
    rrun V cpush cfg max P [] sched (rstart W0 progs) = Ok y ->
    let n0 := c_len (e_ops V) (w_elems W0) in let s := w_elems (fst y) in
    NoDup (concat (map snd (inserts y))) /\
    forall xs ids, In (xs, ids) (inserts y) ->
      StronglySorted lt ids /\ length ids <= length xs /\
      forall j i x, nth_error ids j = Some i -> nth_error xs j = Some x ->
        n0 <= i < c_len (e_ops V) s /\ c_get (e_ops V) s i = Ok (elem x).
Proof.
  intros S E I V cpush elem cfg max W0 P progs sched y Ha HP Er n0 s.
  pose proof (run_ids (proj1 Ha) HP Er) as [HL HT (hist & Hh & Hn & Hp)].
  destruct (pushed_get Ha Hh) as (_ & _ & Hg). fold s in Hg, Hn. fold n0 in Hg, Hn, Hp.
  split.
  - eapply inserts_nodup; [exact HT|]. rewrite Hp, map_fst_combine_seq. apply seq_NoDup.
  - intros xs ids Hin. destruct (insert_log HT Hin) as (dn & rest & Ex & Hlen & Hs & HF & _). split; auto.
    split; [rewrite Ex, app_length; lia|]. intros j i x Hi Hx.
    pose proof (insert_claims Hin (nth_combine Hi Hx)) as Hc.
    apply (Permutation_in _ Hp) in Hc. apply in_combine_seq in Hc as [H1 H2].
    assert (i - n0 < length hist) by (apply nth_error_Some; congruence).
    split; [lia|]. rewrite <- (Hg _ _ H2). f_equal. lia.
Qed.
Print Assumptions C42_ids_unique_and_correct.

(** Elements are never moved, overwritten or removed. *)
Theorem C42_elements_are_kept :
  forall S E I (V : benv S E) (cpush : S -> I -> outcome S) cfg max P h sched y y',
    push_law (e_ops V) cpush -> rrun V cpush cfg max P h sched y = Ok y' ->
    let s := w_elems (fst y) in let s' := w_elems (fst y') in
    c_len (e_ops V) s <= c_len (e_ops V) s' /\
    forall i, i < c_len (e_ops V) s -> c_get (e_ops V) s' i = c_get (e_ops V) s i.
Proof.
  intros S E I V cpush cfg max P h sched y y' Hp Er s s'. destruct (run_elems Er) as (xs & Hx). fold s s' in Hx.
  clear Er. clearbody s s'. revert s Hx. induction xs as [|x xs IH]; intros s Hx; cbn [ofold] in Hx.
  - injection Hx as <-. auto.
  - destruct (cpush s x) as [s1|] eqn:E1; [|discriminate]. cbn [obind] in Hx. destruct (Hp _ _ _ E1) as (HL & Hg & _).
    destruct (IH _ Hx) as [H1 H2]. split; [lia|]. intros i Hi. rewrite H2 by lia. auto.
Qed.
Print Assumptions C42_elements_are_kept.

(** When all threads are finished, the ids returned are exactly those of the new
    elements: none is lost. *)
Theorem C42_ids_without_gaps :
  forall S E I (V : benv S E) (cpush : S -> I -> outcome S) cfg max W0 P progs sched y,
    push_law (e_ops V) cpush -> safe_locks P ->
    rrun V cpush cfg max P [] sched (rstart W0 progs) = Ok y -> Forall finished (snd y) ->
    let n0 := c_len (e_ops V) (w_elems W0) in
    Permutation (concat (map snd (inserts y))) (seq n0 (c_len (e_ops V) (w_elems (fst y)) - n0)).
Proof.
  intros S E I V cpush cfg max W0 P progs sched y Hp HP Er HF n0.
  refine (quiet_returned (V := V) (W0 := W0) (cfg := mkConfig 1 1 true None (fun _ _ => 0)) _ _ (run_ids Hp HP Er) _); [cbn; lia|cbn; lia|].
  intros i t Ht. rewrite Forall_forall in HF. destruct (HF t) as [-> _]; [eapply nth_error_In; eauto|reflexivity].
Qed.
Print Assumptions C42_ids_without_gaps.

(** The number of elements never exceeds [max_elements]. *)
Theorem C42_at_most_max :
  forall S E I (V : benv S E) (cpush : S -> I -> outcome S) cfg max W0 P progs sched y,
    session V cpush cfg max W0 P progs -> rrun V cpush cfg max P [] sched (rstart W0 progs) = Ok y ->
    c_len (e_ops V) (w_elems (fst y)) <= max.
Proof.
  intros S E I V cpush cfg max W0 P progs sched y [H1 H2 H3 H4 H5 H6 H7] Er.
  pose proof (ww_width H4) as [Hnn _]. pose proof (ww_ms H4) as Hms.
  destruct (ci_shared (run_conc H1 H2 H3 H5 Hnn Hms H6 H7 (wf_start cpush H4 H5) Er)) as (hist & R & rows & k & Hsh & _).
  eapply sh_max; eauto.
Qed.
Print Assumptions C42_at_most_max.

(** ** C43 Capacity *)

(** At every moment there is a row for every element; a call of [insert_batch]
    that has returned fewer ids than it was given elements found
    [max_elements] reached. *)
Theorem C43_capacity :
  forall S E I (V : benv S E) (cpush : S -> I -> outcome S) cfg max W0 P progs sched y,
    session V cpush cfg max W0 P progs -> rrun V cpush cfg max P [] sched (rstart W0 progs) = Ok y ->
    c_len (e_ops V) (w_elems (fst y)) <= length (w_cur (fst y)) /\
    forall xs ids, In (xs, ids) (inserts y) ->
      length ids = length xs \/ c_len (e_ops V) (w_elems (fst y)) = max.
Proof.
  intros S E I V cpush cfg max W0 P progs sched y [H1 H2 H3 H4 H5 H6 H7] Er.
  pose proof (ww_width H4) as [Hnn _]. pose proof (ww_ms H4) as Hms.
  destruct (ci_shared (run_conc H1 H2 H3 H5 Hnn Hms H6 H7 (wf_start cpush H4 H5) Er)) as (hist & R & rows & k & Hsh & _).
  split; [pose proof (sh_len Hsh); lia|]. intros xs ids Hin.
  pose proof (run_ids H2 H6 Er) as [_ HT _]. destruct (insert_log HT Hin) as (dn & rest & -> & Hlen & _ & _ & Hr).
  destruct rest as [|x rest]; [left; rewrite app_nil_r; auto|right]. assert (Hne : x :: rest <> []) by discriminate. specialize (Hr Hne).
  assert (c_len (e_ops V) (w_elems (fst y)) <= max) by (eapply sh_max; eauto). lia.
Qed.
Print Assumptions C43_capacity.

(** No call panics (in a release build, where the assertions that race with
    other insertions are compiled out: see C34). *)
Theorem C43_no_panic :
  forall S E I (V : benv S E) (cpush : S -> I -> outcome S) cfg max W0 P progs sched,
    session V cpush cfg max W0 P progs -> e_mode V = Release ->
    exists y, rrun V cpush cfg max P [] sched (rstart W0 progs) = Ok y.
Proof.
  intros S E I V cpush cfg max W0 P progs sched [H1 H2 H3 H4 H5 H6 H7] Hm.
  pose proof (ww_width H4) as [Hnn _]. pose proof (ww_ms H4) as Hms.
  eapply (run_release H1 H2 H3 H5 Hnn Hms H6 H7 sched (wf_start cpush H4 H5) Hm).
Qed.
Print Assumptions C43_no_panic.

(** [RwGranneBuilder::new] on a builder that has not been built yields a
    builder in order. *)
Theorem C43_new_is_in_order :
  forall S E (V : benv S E) cfg max fuel s sched b0 b1,
    sorts_by_dist (e_sort V) ->
    cfg_ok cfg -> usable V s -> builder_new V cfg s = Ok b0 -> 0 < max -> c_len (e_ops V) s <= max -> fits_usize max ->
    (forall i j, i <= j -> k_ideal cfg max i <= k_ideal cfg max j) -> (forall i, k_ideal cfg max i <= max) ->
    build V fuel (mkBuilder s [] (mkConfig (k_nn cfg) (k_ms cfg) (k_reinsert cfg) (Some max) (k_ideal cfg))) sched = Ok b1 ->
    exists W, rw_new V max fuel b0 sched = Ok W /\ rw_wf V cfg W /\ sizes_ok cfg max W /\ length (w_cur W) = k_ideal cfg max (length (w_prev W)) /\ w_elems W = s.
Proof. intros. eapply rw_new_wf; eauto. Qed.
Print Assumptions C43_new_is_in_order.

(** Not for every builder, though: if the next layer is to be smaller than the
    number of elements (as happens when the builder was loaded from an index
    built with a larger layer multiplier), adding it truncates the rows of
    indexed elements, and the call panics holding the locks. *)
Theorem C43_shrinking_layer_panics_refuted :
  forall S E I (V : benv S E) (cpush : S -> I -> outcome S) cfg max W P (x : I),
    live_locks P -> 0 < k_nn cfg -> w_width W = k_nn cfg -> Forall (fun r => length r = k_nn cfg) (w_cur W) ->
    length (w_cur W) = c_len (e_ops V) (w_elems W) -> c_len (e_ops V) (w_elems W) < max ->
    k_ideal cfg max (Datatypes.S (length (w_prev W))) < c_len (e_ops V) (w_elems W) ->
    rrun V cpush cfg max P [] (repeat (0, 0) 9) (rstart W [[RInsert [x]]]) = Fail Panicked.
Proof.
  intros S E I V cpush cfg max W P x HL Hnn Hw HF Hfull Hmax Hid.
  change (repeat (0, 0) 9) with (map (fun k : nat => (0, k)) (repeat 0 9)).
  rewrite (@solo_run S E I V cpush cfg max P HL 0 (repeat 0 9) [] []).
  2:{ intros j t Ht Hj. destruct j as [|[|j]]; [congruence| |]; discriminate. }
  assert (Hleb : (max <=? c_len (e_ops V) (w_elems W)) = false) by (apply Nat.leb_gt; lia).
  assert (Hlf : layer_full V W = true) by (apply Nat.leb_le; lia).
  assert (His : fw_is (k_nn cfg) (w_cur W) (mkFw (concat (w_cur W)) (k_nn cfg))) by (split; [|split]; auto).
  assert (Hlay : layer_of_rows (w_cur W) (w_width W) = Ok (mkFw (concat (w_cur W)) (k_nn cfg))).
  { unfold layer_of_rows, fw_with_data. rewrite Hw. destruct (Nat.ltb_spec 0 (k_nn cfg)); [|lia]. cbn [oassert obind].
    rewrite (concat_length_const HF), Nat.mod_mul by lia. reflexivity. }
  assert (Hnew : exists W', new_layer cfg max W = Ok W' /\ w_elems W' = w_elems W /\ length (w_cur W') < c_len (e_ops V) (w_elems W)).
  { unfold new_layer. rewrite Hlay. cbn [obind]. rewrite app_length. cbn [length]. rewrite Nat.add_1_r.
    pose proof (fw_is_resize (k_ideal cfg max (Datatypes.S (length (w_prev W)))) UNUSED Hnn His) as Hrs.
    unfold rows_of_layer. rewrite (proj1 Hrs). destruct (Nat.ltb_spec 0 (k_nn cfg)); [|lia]. cbn [oassert obind].
    rewrite (fw_is_iter Hnn Hrs). cbn [obind]. eexists. split; [reflexivity|]. cbn [w_elems w_cur]. split; auto.
    rewrite app_length, repeat_length, firstn_length. lia. }
  destruct Hnew as (W' & Enew & Hel & Hlt).
  cbn [repeat map rrun rsys_step rstart fst snd nth_error set_nth thread_step t_pc t_todo t_log t_batch begin_call obind yes].
  rewrite Hleb. cbn [rrun rsys_step fst snd nth_error set_nth thread_step t_pc t_todo t_log t_batch obind yes].
  rewrite Hlf. cbn [rrun rsys_step fst snd nth_error set_nth thread_step t_pc t_todo t_log t_batch obind yes].
  rewrite Enew. cbn [rrun rsys_step fst snd nth_error set_nth thread_step t_pc t_todo t_log t_batch obind yes].
  unfold split_batch. rewrite Hel. destruct (Nat.leb_spec (c_len (e_ops V) (w_elems W)) (length (w_cur W'))); [lia|]. reflexivity.
Qed.
Print Assumptions C43_shrinking_layer_panics_refuted.

(** For instance: an index of 6 elements, with layers of 2, 4 and 6 nodes, opened
    by a concurrent builder for 8 elements with another layer multiplier. *)
Example C43_shrinking_layer_example :
  forall k : nat -> nat -> nat, k 8 2 <= 6 -> k 8 3 < 6 ->
  let cfg := mkConfig 2 3 true None k in
  exists b W, build (ex_env Release) 9 (mkBuilder ex_elems [] ex_cfg) round_robin = Ok b /\
    rw_new (ex_env Release) 8 9 (mkBuilder (b_elems b) (b_layers b) cfg) round_robin = Ok W /\
    length (w_cur W) = 6 /\
    forall P : rpolicy (list Z) Z Z, live_locks P ->
      rrun (ex_env Release) ex_push cfg 8 P [] (repeat (0, 0) 9) (rstart W [[RInsert [1%Z]]]) = Fail Panicked.
Proof.
  intros k H2 H3 cfg.
  destruct (build (ex_env Release) 9 (mkBuilder ex_elems [] ex_cfg) round_robin) as [b|] eqn:Eb; [|vm_compute in Eb; discriminate].
  assert (Hb : exists l2 l4 c6, b_elems b = ex_elems /\ b_layers b = [l2; l4; mkFw (concat c6) 2] /\ length c6 = 6 /\ Forall (fun r => length r = 2) c6).
  { vm_compute in Eb. injection Eb as <-. cbn [b_elems b_layers]. eexists _, _.
    match goal with |- exists c6, _ /\ [_; _; mkFw ?d 2] = _ /\ _ => exists (chunks 2 d) end.
    split; [reflexivity|]. split; [reflexivity|]. split; [reflexivity|]. repeat (constructor; [reflexivity|]). constructor. }
  destruct Hb as (l2 & l4 & c6 & He & Hl & HL & HF). exists b.
  assert (His : fw_is 2 c6 (mkFw (concat c6) 2)) by (split; [|split]; auto).
  assert (Hlen : fw_len (mkFw (concat c6) 2) = 6) by (rewrite (fw_is_len (w := 2) ltac:(lia) His); auto).
  assert (Hrw : rw_new (ex_env Release) 8 9 (mkBuilder (b_elems b) (b_layers b) cfg) round_robin = Ok (mkRw ex_elems c6 2 [l2; l4])).
  { rewrite He, Hl. set (c := mkConfig 2 3 true (Some 8) k). set (ls := [l2; l4; mkFw (concat c6) 2]).
    assert (Hsp : split_last ls = Some (mkFw (concat c6) 2, [l2; l4])) by reflexivity.
    assert (Hll : length ls = 3) by reflexivity. clearbody ls.
    assert (Hlen6 : builder_len (mkBuilder ex_elems ls c) = 6) by (unfold builder_len; cbn [b_layers]; rewrite Hsp; auto).
    assert (Hil : index_last (ex_env Release) (mkBuilder ex_elems ls c) 6 round_robin = Ok (mkBuilder ex_elems ls c)).
    { unfold index_last. cbn [b_layers]. rewrite Hsp. cbn [ounwrap obind]. rewrite Hll, Hlen.
      change (builder_ideal (ex_env Release) (mkBuilder ex_elems ls c) (3 - 1)) with (k 8 2).
      destruct (Nat.leb_spec (k 8 2) 6); [reflexivity|lia]. }
    assert (Hbu : build (ex_env Release) 9 (mkBuilder ex_elems ls c) round_robin = Ok (mkBuilder ex_elems ls c)).
    { unfold build. change (builder_num_elements (ex_env Release) (mkBuilder ex_elems ls c)) with 6.
      unfold build_partial. rewrite Hlen6. cbn [b_layers]. rewrite Hll.
      change (builder_num_elements (ex_env Release) (mkBuilder ex_elems ls c)) with 6. cbn [Nat.eqb Nat.leb oassert obind Nat.ltb].
      rewrite Hil. cbn [obind build_loop]. rewrite Hlen6. reflexivity. }
    unfold rw_new. cbn [b_config b_elems b_layers cfg k_nn k_ms k_reinsert k_ideal]. fold c. rewrite Hbu. cbn [obind b_layers b_elems]. rewrite Hsp, Hlen.
    cbn [length]. rewrite Nat.max_l by auto.
    pose proof (fw_is_resize (w := 2) 6 UNUSED ltac:(lia) His) as Hrs. rewrite firstn_all2, HL in Hrs by lia. cbn [Nat.sub repeat] in Hrs. rewrite app_nil_r in Hrs.
    unfold rows_of_layer. rewrite (proj1 Hrs), (fw_is_iter (w := 2) ltac:(lia) Hrs). reflexivity. }
  exists (mkRw ex_elems c6 2 [l2; l4]). split; [reflexivity|]. split; [exact Hrw|]. split; [exact HL|].
  intros P HP. apply C43_shrinking_layer_panics_refuted; cbn [w_width w_cur w_elems w_prev length]; auto.
  all: cbn; lia.
Qed.

(** ** C44 Deadlock *)

(** Not true as stated.  A batch that does not fit in the current layer keeps its
    guard of [write_lock] while it asks for a second one for the rest; with locks
    that make readers wait behind a waiting writer ([parking_lot]'s do), a
    [write] that arrives in between waits for the first guard, and the second
    waits for it: both calls hang, whatever happened and whatever happens. *)
Definition ex_rw : outcome (rw (list Z)) := rw_new (ex_env Release) 8 9 (mkBuilder [] [] ex_cfg) round_robin.
Definition to_second_guard : list (nat * nat) := map (pair 0) (repeat 0 12 ++ concat (repeat [0; 1] 8) ++ [0]).

Theorem C44_split_batch_and_write_deadlock_refuted :
  exists W, ex_rw = Ok W /\ length (w_cur W) = 2 /\
  forall P : rpolicy (list Z) Z Z, safe_locks P -> live_locks P -> writer_preferring P ->
  exists sched y, rrun (ex_env Release) ex_push ex_cfg 8 P [] sched
                    (rstart W [[RInsert [7; 3; 5]%Z]; [RSave]]) = Ok y /\ deadlock P y.
Proof.
  destruct ex_rw as [W|] eqn:EW; [|vm_compute in EW; discriminate]. exists W. split; auto.
  vm_compute in EW. injection EW as <-. split; [reflexivity|]. intros P HP HL HW.
  set (W := mkRw _ _ _ _).
  set (y0 := rstart W [[RInsert [7; 3; 5]%Z]; [RSave]]).
  assert (E1 : exists W1 b l, rrun (ex_env Release) ex_push ex_cfg 8 P [] to_second_guard y0 =
     Ok (W1, [mkThread (IGuard [5%Z] [0; 1] 1) b [] l; mkThread Idle [] [RSave] []])).
  { unfold to_second_guard. rewrite (@solo_run _ _ _ (ex_env Release) ex_push ex_cfg 8 P HL 0 _ [] []).
    2:{ intros j t Ht Hj. destruct j as [|[|[|j]]]; cbn in Ht; try discriminate; [congruence|]. injection Ht as <-. reflexivity. }
    eexists _, _, _. vm_compute. reflexivity. }
  destruct E1 as (W1 & b & l & E1).
  set (y := (W1, [mkThread (IGuard [5%Z] [0; 1] 1) b [] l; mkThread WGuard [] [] []]) : rsys (list Z) Z Z).
  exists (to_second_guard ++ [(1, 0)]), y. split.
  - rewrite rrun_app, E1. reflexivity.
  - assert (W0 : waits y 0 LWrite ARead) by (eexists; split; reflexivity).
    assert (W2 : waits y 1 LWrite AWrite) by (eexists; split; reflexivity).
    assert (H0 : has_lock y 0 LWrite ARead) by (eexists; split; [reflexivity|cbn; auto]).
    split.
    + exists (mkThread WGuard [] [] []). split; [right; left; reflexivity|]. intros [H _]. discriminate.
    + intros h [|[|i]] (t & Ht & Hf & Hg).
      * specialize (Hg LWrite ARead W0). rewrite (HW h y 0 1 LWrite W0 W2) in Hg. discriminate.
      * specialize (Hg LWrite AWrite W2). destruct (HP h y 1 LWrite AWrite W2 Hg 0 ARead H0). discriminate.
      * destruct i; discriminate.
Qed.
Print Assumptions C44_split_batch_and_write_deadlock_refuted.

(** That is the only way to get stuck: in every deadlock, some thread waits in
    [write] for [write_lock], some thread waits in [insert_batch] for a further
    guard of [write_lock] while it holds one, and all others are finished, wait
    in [write], or wait for [write_lock] in [insert_batch].  Searches never get
    stuck. *)
Theorem C44_only_deadlock :
  forall S E I (P : rpolicy S E I) y, live_locks P -> deadlock P y ->
    (exists i, waits y i LWrite AWrite) /\
    (exists j, waits y j LWrite ARead /\ has_lock y j LWrite ARead) /\
    (forall k t, nth_error (snd y) k = Some t -> finished t \/ exists a, waits y k LWrite a).
Proof.
  intros S E I P y HL Hd. destruct (stuck_case HL Hd) as ((i & t & Hi & Ei) & (j & u & xs & acc & d & Hj & Ej) & Hall).
  split; [exists i, t; rewrite Ei; auto|]. split.
  - exists j. split; exists u; rewrite Ej; split; auto. cbn. auto.
  - intros k t' Hk. destruct (Hall k t' Hk) as [H|[H|(xs' & acc' & d' & H)]]; auto; right.
    + exists AWrite, t'. rewrite H. auto.
    + exists ARead, t'. rewrite H. auto.
Qed.
Print Assumptions C44_only_deadlock.

(** So nothing gets stuck if readers need not wait behind waiting writers. *)
Theorem C44_no_deadlock_without_writer_preference :
  forall S E I (P : rpolicy S E I) y, live_locks P -> reader_preferring P -> ~ deadlock P y.
Proof. intros S E I P y HL HR. apply reader_pref_no_deadlock; auto. Qed.
Print Assumptions C44_no_deadlock_without_writer_preference.

(** Nor if elements are inserted one at a time ([insert]), provided each layer is
    larger than the one before until [max_elements] is reached. *)
Theorem C44_single_inserts_never_deadlock :
  forall S E I (V : benv S E) (cpush : S -> I -> outcome S) cfg max W0 P progs sched y,
    session V cpush cfg max W0 P progs -> live_locks P ->
    (forall cs xs, In cs progs -> In (RInsert xs) cs -> length xs <= 1) ->
    (forall i, k_ideal cfg max i < max -> k_ideal cfg max i < k_ideal cfg max (Datatypes.S i)) ->
    (length (w_cur W0) < max -> length (w_cur W0) < k_ideal cfg max (Datatypes.S (length (w_prev W0)))) ->
    rrun V cpush cfg max P [] sched (rstart W0 progs) = Ok y -> ~ deadlock P y.
Proof.
  intros S E I V cpush cfg max W0 P progs sched y Hs HL H1 Hg H0 Hr.
  pose proof Hs as [_ Hp _ _ _ _ _]. refine (single_no_deadlock Hp Hg Hs _ H0 HL Hr).
  apply Forall_forall. intros cs Hcs. apply Forall_forall. intros c Hc. destruct c; cbn [single_call]; auto. eapply H1; eauto.
Qed.
Print Assumptions C44_single_inserts_never_deadlock.

(** Nor do the calls keep each other busy for ever: there is no endless sequence
    of moves each of which gets something done (provided the sizes of the layers
    reach [max_elements] at all). *)
Theorem C44_no_endless_run :
  forall S E I (V : benv S E) (cpush : S -> I -> outcome S) cfg max W0 P progs (f : nat -> nat * nat),
    session V cpush cfg max W0 P progs -> sizes_reach cfg max W0 ->
    ~ forall k, exists y, rrun V cpush cfg max P [] (map f (seq 0 k)) (rstart W0 progs) = Ok y /\
                          effective P (map f (seq 0 k)) y (f k).
Proof. intros S E I V cpush cfg max W0 P progs f Hs [(L & HL) H0]. exact (no_endless_run Hs HL H0 (f := f)). Qed.
Print Assumptions C44_no_endless_run.

(** So with locks that do not make readers wait behind waiting writers, every
    run can be continued until every call has returned. *)
Theorem C44_every_call_returns :
  forall S E I (V : benv S E) (cpush : S -> I -> outcome S) cfg max W0 P progs sched y,
    session V cpush cfg max W0 P progs -> sizes_reach cfg max W0 -> live_locks P -> reader_preferring P -> e_mode V = Release ->
    rrun V cpush cfg max P [] sched (rstart W0 progs) = Ok y ->
    exists more y', rrun V cpush cfg max P [] (sched ++ more) (rstart W0 progs) = Ok y' /\ Forall finished (snd y').
Proof.
  intros S E I V cpush cfg max W0 P progs sched y Hs [(L & HL) H0] Hlv HR Hm Hr.
  destruct (runs_out Hs HL H0 Hm Hr) as (more & y' & E1 & Hno). exists more, y'. rewrite rrun_app, Hr. cbn [obind]. split; auto.
  destruct (nobody_goes Hlv Hno) as [H|H]; auto. elim (reader_pref_goes Hlv HR H Hno).
Qed.
Print Assumptions C44_every_call_returns.

(** And with locks that do, if elements are inserted one at a time and the layers
    grow. *)
Theorem C44_every_single_insert_returns :
  forall S E I (V : benv S E) (cpush : S -> I -> outcome S) cfg max W0 P progs sched y,
    session V cpush cfg max W0 P progs -> sizes_reach cfg max W0 -> live_locks P -> e_mode V = Release ->
    (forall cs xs, In cs progs -> In (RInsert xs) cs -> length xs <= 1) ->
    (forall i, k_ideal cfg max i < max -> k_ideal cfg max i < k_ideal cfg max (Datatypes.S i)) ->
    (length (w_cur W0) < max -> length (w_cur W0) < k_ideal cfg max (Datatypes.S (length (w_prev W0)))) ->
    rrun V cpush cfg max P [] sched (rstart W0 progs) = Ok y ->
    exists more y', rrun V cpush cfg max P [] (sched ++ more) (rstart W0 progs) = Ok y' /\ Forall finished (snd y').
Proof.
  intros S E I V cpush cfg max W0 P progs sched y Hs [(L & HL) H0] Hlv Hm H1 Hg Hf Hr. pose proof Hs as [_ Hp _ _ _ _ _].
  destruct (runs_out Hs HL H0 Hm Hr) as (more & y' & E1 & Hno). exists more, y'.
  assert (Hr' : rrun V cpush cfg max P [] (sched ++ more) (rstart W0 progs) = Ok y') by (rewrite rrun_app, Hr; exact E1). split; auto.
  destruct (nobody_goes Hlv Hno) as [H|H]; auto. exfalso.
  assert (H1' : Forall (Forall single_call) progs).
  { apply Forall_forall. intros cs Hcs. apply Forall_forall. intros c Hc. destruct c; cbn [single_call]; auto. eapply H1; eauto. }
  destruct (run_single Hp Hg Hs H1' Hf Hr') as [_ HT]. destruct (stuck_case_at Hlv H Hno) as (_ & (j & u & xs & acc & d & Hj & Ej) & _).
  destruct (HT _ _ Hj) as [Hsg _]. rewrite Ej in Hsg. cbn [single] in Hsg. destruct Hsg. discriminate.
Qed.
Print Assumptions C44_every_single_insert_returns.

(** The sizes do reach [max_elements], in exact arithmetic for every multiplier
    above 1, and in floating point (for the assumptions see C32). *)
Theorem C44_sizes_reach_max :
  forall (m : R) (n : nat), (1 < m)%R -> 1 <= n -> exists l, layer_size_R m n l = Z.of_nat n.
Proof.
  intros m n Hm Hn. exists (Z.to_nat (layer_exponent_R m n)). apply size_top; auto.
  rewrite Z2Nat.id; [lia|]. unfold layer_exponent_R. apply Zfloor_lub. apply Rmult_le_pos.
  - assert (1 <= INR n)%R by (change 1%R with (INR 1); apply le_INR; lia). destruct (Rle_lt_or_eq_dec _ _ H) as [H1|<-]; [|rewrite ln_1; lra].
    left. rewrite <- ln_1. apply ln_increasing; lra.
  - left. apply Rinv_0_lt_compat. rewrite <- ln_1. apply ln_increasing; lra.
Qed.
Print Assumptions C44_sizes_reach_max.

(** ... while layers strictly grow, in exact arithmetic, for multipliers of 2 or more. *)
Theorem C44_layers_grow :
  forall (m : R) (n l : nat), (2 <= m)%R -> 1 <= n ->
    (layer_size_R m n l < Z.of_nat n)%Z -> (layer_size_R m n l < layer_size_R m n (Datatypes.S l))%Z.
Proof.
  intros m n l Hm Hn Hlt. assert (Hm1 : (1 < m)%R) by lra.
  pose proof (Q_step m n Hm1 l) as Hs. pose proof (Q_0 m n Hm1 Hn) as [HQ0 _].
  unfold layer_size_R in *. set (Q := fun l => (INR n / Rpower m (IZR (layer_exponent_R m n) - INR l))%R) in *.
  assert (HQ : (1 <= Q l)%R).
  { clear -HQ0 Hm1 Hn. fold (Q 0) in HQ0. induction l as [|l IH]; [exact HQ0|]. eapply Rle_trans; [exact IH|]. apply (Q_mono m n Hm1 Hn l). }
  fold (Q l) in Hlt |- *. fold (Q (Datatypes.S l)) in Hs |- *. fold (Q l) in Hs.
  pose proof (Zceil_ub (Q (Datatypes.S l))) as B1. pose proof (Zceil_lb (Q l)) as A2.
  assert (Hc : (Zceil (Q l) < Zceil (Q (Datatypes.S l)))%Z).
  { apply lt_IZR. nra. }
  lia.
Qed.
Print Assumptions C44_layers_grow.

(** ** C45 What is saved *)

(** Whatever else is going on, [write] saves the elements and layers of one
    moment, at which no insertion was under way: the data had been obtained by
    running insertions to the end one after the other, and the ids of all
    elements inserted by then had been returned.  The last saved layer has a
    node for every saved element, and all layers are well-formed. *)
Theorem C45_saved_snapshot :
  forall S E I (V : benv S E) (cpush : S -> I -> outcome S) cfg max W0 P progs sched y t s ls,
    session V cpush cfg max W0 P progs -> rrun V cpush cfg max P [] sched (rstart W0 progs) = Ok y ->
    In t (snd y) -> In (Saved s ls) (t_log t) ->
    let n0 := c_len (e_ops V) (w_elems W0) in let n := c_len (e_ops V) s in
    (exists h1 h2 y1, sched = h1 ++ h2 /\ rrun V cpush cfg max P [] h1 (rstart W0 progs) = Ok y1 /\
       s = w_elems (fst y1) /\ Permutation (concat (map snd (inserts y1))) (seq n0 (n - n0)) /\
       pieces V cpush cfg max W0 (fst y1) /\
       (0 < n -> exists l, ls = w_prev (fst y1) ++ [l] /\ fdata l = concat (firstn n (w_cur (fst y1))))) /\
    (n = 0 -> ls = []) /\
    (0 < n -> exists l prev, ls = prev ++ [l] /\ fw_len l = n) /\
    layers_wf (k_nn cfg) n ls.
Proof.
  intros S E I V cpush cfg max W0 P progs sched y t s ls [H1 H2 H3 H4 H5 H6 H7] Er Ht Hin n0 n.
  pose proof (ww_width H4) as [Hnn _]. pose proof (ww_ms H4) as Hms. pose proof (wf_start cpush H4 H5) as Hgs.
  apply In_nth_error in Ht as (i & Hi).
  destruct (ci_saved (run_conc H1 H2 H3 H5 Hnn Hms H6 H7 Hgs Er) Hi Hin) as (h1 & h2 & y1 & Eh & E1 & (Hp & Es & Hs) & Ha).
  subst s. destruct (ci_shared (run_conc H1 H2 H3 H5 Hnn Hms H6 H7 Hgs E1)) as (hist & R & rows & k & Hsh & _).
  destruct (saved_layers_wf Hnn Hsh Hs) as (S1 & S2 & S3). split; [|split; [|split]]; auto.
  - exists h1, h2, y1. split; auto. split; auto. split; auto. split; auto. split; auto. intros Hn.
    destruct (S2 Hn) as (l & -> & Hl). exists l. split; auto.
    unfold saved_layers, fw_with_data in Hs. destruct (Nat.ltb_spec 0 (k_nn cfg)); [|lia]. cbn [oassert obind] in Hs.
    destruct (cur_is Hsh) as (_ & _ & HF). rewrite (concat_length_const HF), Nat.mod_mul in Hs by lia. cbn [Nat.eqb oassert obind] in Hs.
    fold n in Hs. destruct (Nat.ltb_spec 0 n); [|lia].
    pose proof (sh_len Hsh) as HLc. fold n in HLc.
    destruct (fw_is_subslice Hnn (cur_is Hsh) (Nat.le_0_l n)) as (l' & El & His); [lia|].
    unfold fw_subslice in *. rewrite El in Hs. cbn [obind] in Hs. injection Hs as Hs. apply app_inj_tail in Hs as [_ <-].
    rewrite Nat.sub_0_r in His. cbn [skipn] in His. apply His.
  - intros Hn. destruct (S2 Hn) as (l & -> & Hl). exists l, (w_prev (fst y1)). auto.
Qed.
Print Assumptions C45_saved_snapshot.

(** ** C46 Searching *)

(** What a search returns was correct at the moment it returned, whatever was
    being inserted meanwhile, and it found something if there was more than one
    layer then. *)
Theorem C46_results_correct :
  forall S E I (V : benv S E) (cpush : S -> I -> outcome S) cfg max W0 P progs sched y t q ms nn out,
    session V cpush cfg max W0 P progs -> rrun V cpush cfg max P [] sched (rstart W0 progs) = Ok y ->
    In t (snd y) -> In (Found q ms nn out) (t_log t) ->
    exists h1 h2 y1, sched = h1 ++ h2 /\ rrun V cpush cfg max P [] h1 (rstart W0 progs) = Ok y1 /\
      correct_for V (fst y1) q ms nn out /\
      (w_prev (fst y1) <> [] -> 0 < nn -> out <> []).
Proof.
  intros S E I V cpush cfg max W0 P progs sched y t q ms nn out [H1 H2 H3 H4 H5 H6 H7] Er Ht Hin.
  pose proof (ww_width H4) as [Hnn _]. pose proof (ww_ms H4) as Hms. pose proof (wf_start cpush H4 H5) as Hgs.
  apply In_nth_error in Ht as (i & Hi).
  destruct (ci_shared (run_conc H1 H2 H3 H5 Hnn Hms H6 H7 Hgs Er)) as (hist & R & rows & k & _ & Hth).
  pose proof (to_log (Hth _ _ Hi)) as HF. rewrite Forall_forall in HF. specialize (HF _ Hin). cbn [back_then] in HF.
  destruct HF as (h1 & h2 & y1 & Eh & E1 & F1 & F2 & F3 & F4 & F5 & F6). exists h1, h2, y1. unfold correct_for. auto 12.
Qed.
Print Assumptions C46_results_correct.

(** In particular a builder that started with several layers always answers. *)
Theorem C46_finds_something_partial :
  forall S E I (V : benv S E) (cpush : S -> I -> outcome S) cfg max W0 P progs sched y t q ms nn out,
    session V cpush cfg max W0 P progs -> rrun V cpush cfg max P [] sched (rstart W0 progs) = Ok y ->
    In t (snd y) -> In (Found q ms nn out) (t_log t) -> w_prev W0 <> [] -> 0 < nn -> out <> [].
Proof.
  intros S E I V cpush cfg max W0 P progs sched y t q ms nn out Hs Er Ht Hin Hp.
  pose proof (C46_results_correct S E I V cpush cfg max W0 P progs sched y t q ms nn out Hs Er Ht Hin) as (h1 & h2 & y1 & _ & E1 & _ & Hne).
  apply Hne. destruct Hs as [H1 H2 H3 H4 H5 H6 H7]. pose proof (ww_width H4) as [Hnn _]. pose proof (ww_ms H4) as Hms.
  exact (PRwConc.ci_prev (run_conc H1 H2 H3 H5 Hnn Hms H6 H7 (wf_start cpush H4 H5) E1) Hp).
Qed.
Print Assumptions C46_finds_something_partial.

(** Not true as stated: until a second layer has been added, no search finds
    anything, however many elements there are. *)
Theorem C46_first_layer_not_searched_refuted :
  forall S E I (V : benv S E) (cpush : S -> I -> outcome S) cfg max W0 P progs sched y t q ms nn out,
    rrun V cpush cfg max P [] sched (rstart W0 progs) = Ok y -> w_prev (fst y) = [] ->
    In t (snd y) -> In (Found q ms nn out) (t_log t) -> out = [].
Proof.
  intros S E I V cpush cfg max W0 P progs sched y t q ms nn out Er Hp Ht Hin.
  assert (HQ : w_prev (fst y) = [] -> forall t, In t (snd y) ->
     (forall q ms nn out, In (Found q ms nn out) (t_log t) -> out = []) /\ forall q ms nn st, t_pc t <> SLoop q ms nn st).
  { clear Hp Ht Hin. revert Er. apply (rrun_inv (Q := fun y => w_prev (fst y) = [] -> forall t, In t (snd y) ->
     (forall q ms nn out, In (Found q ms nn out) (t_log t) -> out = []) /\ forall q ms nn st, t_pc t <> SLoop q ms nn st)).
    - intros h [W ts] m y' IH Es Hp u Hu. unfold rsys_step in Es. cbn [fst snd] in *. destruct (nth_error ts (fst m)) as [v|] eqn:Ev; [|injection Es as <-; auto].
      destruct (thread_step V cpush cfg max W v (P h (W, ts) (fst m)) (snd m)) as [[W' v']|] eqn:E1; [|discriminate]. cbn [obind fst snd] in Es. injection Es as <-. cbn [fst snd] in *.
      assert (Hp0 : w_prev W = []).
      { revert E1. generalize (P h (W, ts) (fst m)). intros ok E1. destruct v as [p ba td lg]. unfold thread_step in E1. cbn [t_pc t_batch t_todo t_log] in E1.
        destruct p; inv_step E1; injection E1 as <- <-; auto. unfold new_layer in Ex. inv_step Ex. injection Ex as <-. cbn in Hp. destruct (w_prev W); discriminate. }
      specialize (IH Hp0). apply In_nth_error in Hu as (j & Hj). rewrite nth_error_set_nth in Hj.
      destruct ((fst m =? j) && (fst m <? length ts)) eqn:Eb; [|apply IH; eapply nth_error_In; eauto].
      injection Hj as <-. destruct (IH v) as [I1 I2]; [eapply nth_error_In; eauto|].
      revert E1. generalize (P h (W, ts) (fst m)). intros ok E1. destruct v as [p ba td lg]. unfold thread_step in E1. cbn [t_pc t_batch t_todo t_log] in *.
      destruct p; inv_step E1; injection E1 as <- <-; cbn [t_pc t_log]; split; try discriminate; auto;
        try (intros q1 ms1 nn1 o1 Hi; apply in_app_or in Hi as [Hi|[Hi|[]]]; [eapply I1; exact Hi|try discriminate]; fail);
        try (intros q1 ms1 nn1 st1; destruct r; discriminate).
      + destruct (max <=? c_len (e_ops V) (w_elems W)); discriminate.
      + destruct (layer_full V W); discriminate.
      + destruct rest; discriminate.
      + unfold rw_entry in Ex. rewrite Hp0 in Ex. cbn in Ex. discriminate.
      + intros q1 ms1 nn1 o1 Hi. apply in_app_or in Hi as [Hi|[Hi|[]]]; [eapply I1; exact Hi|]. now injection Hi as <- <- <- <-.
      + elim (I2 _ _ _ _ eq_refl).
      + elim (I2 _ _ _ _ eq_refl).
    - cbn [fst snd rstart]. intros _ u Hu. apply in_map_iff in Hu as (cs & <- & _). split; [intros ? ? ? ? []|discriminate]. }
  eapply HQ; eauto.
Qed.
Print Assumptions C46_first_layer_not_searched_refuted.

(** ** Concrete cases *)

(** [parking_lot]-like locks: a waiting writer keeps new readers out; and locks
    that let readers pass it. *)
Definition lk_eqb (a b : lk) : bool := match a, b with LElems, LElems | LLayers, LLayers | LWrite, LWrite => true | _, _ => false end.
Definition acc_eqb (a b : access) : bool := match a, b with ARead, ARead | AWrite, AWrite => true | _, _ => false end.
Definition held {S E I} (y : rsys S E I) (l : lk) (a : access) : bool :=
  existsb (fun t => existsb (fun g => lk_eqb (fst g) l && acc_eqb (snd g) a) (guards (t_pc t))) (snd y).
Definition wanted {S E I} (y : rsys S E I) (l : lk) (a : access) : bool :=
  existsb (fun t => match wants (t_pc t) with Some (l', a') => lk_eqb l' l && acc_eqb a' a | None => false end) (snd y).
Definition rw_locks {S E I} (readers_wait : bool) : rpolicy S E I := fun _ y i =>
  match nth_error (snd y) i with
  | None => false
  | Some t => match wants (t_pc t) with
              | None => true
              | Some (l, AWrite) => negb (held y l ARead) && negb (held y l AWrite)
              | Some (l, ARead) => negb (held y l AWrite) && negb (readers_wait && wanted y l AWrite)
              end
  end.

Lemma lk_eqb_ok a b : lk_eqb a b = true <-> a = b. Proof. destruct a, b; cbn; split; congruence. Qed.
Lemma acc_eqb_ok a b : acc_eqb a b = true <-> a = b. Proof. destruct a, b; cbn; split; congruence. Qed.
Lemma held_ok {S E I} (y : rsys S E I) l a : held y l a = true <-> exists j, has_lock y j l a.
Proof.
  unfold held. rewrite existsb_exists. split.
  - intros (t & Ht & H). apply existsb_exists in H as ([l' a'] & Hg & H). apply andb_prop in H as [H1 H2].
    apply lk_eqb_ok in H1. apply acc_eqb_ok in H2. cbn in *. subst. apply In_nth_error in Ht as (j & Hj). exists j, t. auto.
  - intros (j & t & Ht & Hg). exists t. split; [eapply nth_error_In; eauto|]. apply existsb_exists. exists (l, a). split; auto.
    cbn. apply andb_true_intro. split; [now apply lk_eqb_ok|now apply acc_eqb_ok].
Qed.
Lemma wanted_ok {S E I} (y : rsys S E I) l a : wanted y l a = true <-> exists j, waits y j l a.
Proof.
  unfold wanted. rewrite existsb_exists. split.
  - intros (t & Ht & H). destruct (wants (t_pc t)) as [[l' a']|] eqn:Ew; [|discriminate]. apply andb_prop in H as [H1 H2].
    apply lk_eqb_ok in H1. apply acc_eqb_ok in H2. subst. apply In_nth_error in Ht as (j & Hj). exists j, t. auto.
  - intros (j & t & Ht & Hg). exists t. split; [eapply nth_error_In; eauto|]. rewrite Hg.
    apply andb_true_intro. split; [now apply lk_eqb_ok|now apply acc_eqb_ok].
Qed.

Lemma rw_locks_safe {S E I} b : safe_locks (rw_locks b : rpolicy S E I).
Proof.
  intros h y i l a (t & Ht & Hw) Hp j c Hc. unfold rw_locks in Hp. rewrite Ht, Hw in Hp.
  assert (Hh : held y l c = true) by (apply held_ok; eauto). destruct a.
  - apply andb_prop in Hp as [Hp _]. destruct c; auto. rewrite Hh in Hp. discriminate.
  - apply andb_prop in Hp as [Hp Hp2]. destruct c; [rewrite Hh in Hp|rewrite Hh in Hp2]; discriminate.
Qed.
Lemma rw_locks_live {S E I} b : live_locks (rw_locks b : rpolicy S E I).
Proof.
  assert (Hno : forall (y : rsys S E I) l a, (forall j, ~ has_lock y j l a) -> held y l a = false).
  { intros y l a H. destruct (held y l a) eqn:Eh; auto. apply held_ok in Eh as (j & Hj). elim (H _ Hj). }
  assert (Hnw : forall (y : rsys S E I) l a, (forall j, ~ waits y j l a) -> wanted y l a = false).
  { intros y l a H. destruct (wanted y l a) eqn:Eh; auto. apply wanted_ok in Eh as (j & Hj). elim (H _ Hj). }
  constructor.
  - intros h y i l a Hi Hf. destruct (wanted y l AWrite) eqn:Ew.
    + apply wanted_ok in Ew as (j & Hj). exists j, AWrite. split; auto. destruct Hj as (t & Ht & Hw). unfold rw_locks. rewrite Ht, Hw.
      rewrite !Hno by (intros; apply Hf). reflexivity.
    + exists i, a. split; auto. destruct Hi as (t & Ht & Hw). unfold rw_locks. rewrite Ht, Hw, Ew, !Hno by (intros; apply Hf).
      destruct a; cbn; rewrite ?andb_false_r; reflexivity.
  - intros h y i l (t & Ht & Hw) H1 H2. unfold rw_locks. rewrite Ht, Hw, Hno, Hnw by auto. cbn. now rewrite andb_false_r.
Qed.
Lemma rw_locks_writers {S E I} : writer_preferring (rw_locks true : rpolicy S E I).
Proof.
  intros h y i j l (t & Ht & Hw) Hj. unfold rw_locks. rewrite Ht, Hw. assert (Ew : wanted y l AWrite = true) by (apply wanted_ok; eauto).
  rewrite Ew. apply andb_false_r.
Qed.
Lemma rw_locks_readers {S E I} : reader_preferring (rw_locks false : rpolicy S E I).
Proof.
  intros h y i l (t & Ht & Hw) Hn. unfold rw_locks. rewrite Ht, Hw. destruct (held y l AWrite) eqn:Eh; [|reflexivity].
  apply held_ok in Eh as (j & Hj). elim (Hn _ Hj).
Qed.

Definition ex_progs : list (list (rcall Z Z)) :=
  [[RInsert [7; 3; 5]; RSearch 6 3 2]; [RSearch 4 3 1; RSave]; [RInsert [12; 4]]]%Z.
(* every thread in turn, several times over *)
Definition ex_order : list (nat * nat) := concat (repeat [(0, 0); (2, 0); (1, 0); (0, 1); (2, 1)] 60).

Lemma ex_session b W progs : ex_rw = Ok W -> (forall cs q ms nn, In cs progs -> In (RSearch q ms nn) cs -> 0 < ms) ->
  session (ex_env Release) ex_push ex_cfg 8 W (rw_locks b) progs.
Proof.
  intros EW Hms. assert (Hw : forall h s, ofold ex_push h (w_elems W) = Ok s -> True) by auto. vm_compute in EW. injection EW as <-. cbn [w_elems].
  constructor.
  - apply isort_ok.
  - apply C35_vec_push.
  - constructor; [constructor|].
    + cbn. discriminate.
    + intros h s _ Hl. apply ex_usable. cbn in Hl. lia.
    + intros h s x _ _. eexists. reflexivity.
  - constructor; cbn; try lia.
    + exists [], 2. split; [reflexivity|]. split; [reflexivity|]. intros [|i] r Hr; discriminate.
    + split; constructor.
  - constructor; cbn [w_cur length w_prev ex_cfg k_ideal]; try lia.
    + intros [|[|i]] [|[|j]] Hij; lia.
  - apply rw_locks_safe.
  - apply Forall_forall. intros cs Hcs. apply Forall_forall. intros c Hc. destruct c as [xs|q ms nn|]; cbn [call_ok]; auto. split; [eauto|].
    intros h s i _ _ Hi. cbn [ex_env e_ops vec_ops c_dte c_len] in *. unfold index. destruct (nth_error s i) eqn:En; [cbn; eauto|]. apply nth_error_None in En. lia.
Qed.

(** Three threads at once.  The batch of the first is split: its last element is
    inserted after the batch of the third.  The search of the second, made early,
    finds nothing; the one of the first, made late, finds the nearest elements;
    the saved index has all five elements. *)
Example C42_C46_example :
  exists W y, ex_rw = Ok W /\ session (ex_env Release) ex_push ex_cfg 8 W (rw_locks false) ex_progs /\
    appends (e_ops (ex_env Release)) ex_push (fun x => x) /\
    rrun (ex_env Release) ex_push ex_cfg 8 (rw_locks false) [] ex_order (rstart W ex_progs) = Ok y /\
    Forall finished (snd y) /\ w_elems (fst y) = [7; 3; 12; 4; 5]%Z /\
    inserts y = [([7; 3; 5]%Z, [0; 1; 4]); ([12; 4]%Z, [2; 3])] /\
    flat_map (fun t => flat_map (fun r => match r with Found q _ _ out => [(q, out)] | _ => [] end) (t_log t)) (snd y) =
      [(6%Z, [(0, 10%Z); (4, 10%Z)]); (4%Z, [])] /\
    flat_map (fun t => flat_map (fun r => match r with Saved s ls => [(s, map fw_len ls)] | _ => [] end) (t_log t)) (snd y) =
      [([7; 3; 12; 4; 5]%Z, [2; 4; 5])].
Proof.
  destruct ex_rw as [W|] eqn:EW; [|vm_compute in EW; discriminate].
  destruct (rrun (ex_env Release) ex_push ex_cfg 8 (rw_locks false) [] ex_order (rstart W ex_progs)) as [y|] eqn:Ey.
  2:{ vm_compute in EW. injection EW as <-. vm_compute in Ey. discriminate. }
  exists W, y. split; auto. split.
  { apply ex_session; auto. intros cs q ms nn Hcs Hc. cbn in Hcs. destruct Hcs as [<-|[<-|[<-|[]]]]; cbn in Hc;
      repeat (destruct Hc as [Hc|Hc]; [try discriminate Hc; injection Hc; intros; subst; lia|]); destruct Hc. }
  split.
  { split; [apply C35_vec_push|]. intros s x s' Hs. injection Hs as <-. cbn. unfold index. rewrite nth_error_app2, Nat.sub_diag by auto. reflexivity. }
  split; auto. vm_compute in EW. injection EW as <-. vm_compute in Ey. injection Ey as <-.
  split; [repeat (constructor; [split; reflexivity|]); constructor|]. repeat split.
Qed.

(** Two elements inserted, and a search for one of them finds nothing. *)
Example C46_first_layer_example :
  exists W y, ex_rw = Ok W /\
    rrun (ex_env Release) ex_push ex_cfg 8 (rw_locks true) [] (map (pair 0) (concat (repeat [0; 1] 30)))
      (rstart W [[RInsert [7; 3]; RSearch 7 3 2]]%Z) = Ok y /\
    Forall finished (snd y) /\ w_elems (fst y) = [7; 3]%Z /\
    exists t, snd y = [t] /\ t_log t = [Inserted [7; 3]%Z [0; 1]; Found 7%Z 3 2 []].
Proof.
  destruct ex_rw as [W|] eqn:EW; [|vm_compute in EW; discriminate]. vm_compute in EW. injection EW as <-.
  eexists _, _. split; [reflexivity|]. split; [vm_compute; reflexivity|]. split; [repeat (constructor; [split; reflexivity|]); constructor|].
  split; [reflexivity|]. eexists. split; reflexivity.
Qed.

(** Single insertions and a [write], with [parking_lot]-like locks. *)
Example C44_single_example :
  exists W, ex_rw = Ok W /\ forall sched y,
    rrun (ex_env Release) ex_push ex_cfg 8 (rw_locks true) [] sched
      (rstart W [[RInsert [7]; RInsert [3]; RInsert [5]]; [RSave; RSearch 3 2 1]]%Z) = Ok y -> ~ deadlock (rw_locks true) y.
Proof.
  destruct ex_rw as [W|] eqn:EW; [|vm_compute in EW; discriminate]. exists W. split; auto. intros sched y.
  apply C44_single_inserts_never_deadlock.
  - apply ex_session; auto. intros cs q ms nn Hcs Hc. cbn in Hcs. destruct Hcs as [<-|[<-|[]]]; cbn in Hc;
      repeat (destruct Hc as [Hc|Hc]; [try discriminate Hc; injection Hc; intros; subst; lia|]); destruct Hc.
  - apply rw_locks_live.
  - intros cs xs Hcs Hc. cbn in Hcs. destruct Hcs as [<-|[<-|[]]]; cbn in Hc;
      repeat (destruct Hc as [Hc|Hc]; [try discriminate Hc; injection Hc; intros; subst; cbn; lia|]); destruct Hc.
  - intros [|[|i]]; cbn; lia.
  - vm_compute in EW. injection EW as <-. cbn. lia.
Qed.

(** The deadlock, with [parking_lot]-like locks. *)
Example C44_deadlock_example :
  exists W sched y, ex_rw = Ok W /\ session (ex_env Release) ex_push ex_cfg 8 W (rw_locks true) [[RInsert [7; 3; 5]]; [RSave]]%Z /\
    rrun (ex_env Release) ex_push ex_cfg 8 (rw_locks true) [] sched (rstart W [[RInsert [7; 3; 5]]; [RSave]]%Z) = Ok y /\
    deadlock (rw_locks true) y.
Proof.
  destruct C44_split_batch_and_write_deadlock_refuted as (W & EW & _ & H).
  destruct (H (rw_locks true) (rw_locks_safe true) (rw_locks_live true) rw_locks_writers) as (sched & y & Er & Hd).
  exists W, sched, y. split; auto. split; [|auto]. apply ex_session; auto. intros cs q ms nn Hcs Hc. cbn in Hcs.
  destruct Hcs as [<-|[<-|[]]]; cbn in Hc; repeat (destruct Hc as [Hc|Hc]; [discriminate Hc|]); destruct Hc.
Qed.

(** A session whose locks do not prefer writers: from wherever it is, it can
    finish. *)
Example C44_every_call_returns_example :
  exists W, ex_rw = Ok W /\ session (ex_env Release) ex_push ex_cfg 8 W (rw_locks false) ex_progs /\ sizes_reach ex_cfg 8 W /\
  forall sched, exists more y', rrun (ex_env Release) ex_push ex_cfg 8 (rw_locks false) [] (sched ++ more) (rstart W ex_progs) = Ok y' /\ Forall finished (snd y').
Proof.
  destruct ex_rw as [W|] eqn:EW; [|vm_compute in EW; discriminate]. exists W. split; auto.
  assert (Hs : session (ex_env Release) ex_push ex_cfg 8 W (rw_locks false) ex_progs).
  { apply ex_session; auto. intros cs q ms nn Hcs Hc. cbn in Hcs. destruct Hcs as [<-|[<-|[<-|[]]]]; cbn in Hc;
      repeat (destruct Hc as [Hc|Hc]; [try discriminate Hc; injection Hc; intros; subst; lia|]); destruct Hc. }
  assert (Hr : sizes_reach ex_cfg 8 W).
  { vm_compute in EW. injection EW as <-. split; [exists 2; reflexivity|cbn; lia]. }
  split; auto. split; auto. intros sched.
  destruct (C43_no_panic _ _ _ (ex_env Release) ex_push ex_cfg 8 W (rw_locks false) ex_progs sched Hs eq_refl) as (y & Ey).
  eapply C44_every_call_returns; eauto; [apply rw_locks_live|apply rw_locks_readers].
Qed.

(** [new] with the layer sizes computed in floating point (for the assumptions see C32). *)
Theorem C43_new_with_multiplier :
  forall S E (V : benv S E) nn ms re L (mul : f32) max fuel s sched b0 b1,
    sorts_by_dist (e_sort V) -> 0 < nn -> 0 < ms ->
    pow_up L (f64_of_f32 mul) -> (forall n, 1 <= n -> fits_usize n -> log_ok L (f64_of_f32 mul) n) ->
    let cfg := config_of nn ms re None L mul in
    usable V s -> builder_new V cfg s = Ok b0 -> 0 < max -> c_len (e_ops V) s <= max -> fits_usize max ->
    build V fuel (mkBuilder s [] (config_of nn ms re (Some max) L mul)) sched = Ok b1 ->
    exists W, rw_new V max fuel b0 sched = Ok W /\ rw_wf V cfg W /\ sizes_ok cfg max W /\ length (w_cur W) = k_ideal cfg max (length (w_prev W)) /\ w_elems W = s.
Proof.
  intros S E V nn ms re L mul max fuel s sched b0 b1 Hsort Hnn Hms HL Hlog cfg Hus Hn Hm Hle Hf Hb.
  assert (Hsz : forall n, 1 <= n -> fits_usize n -> (forall l, 1 <= layer_size L mul n l <= n) /\
              (forall l l', l <= l' -> layer_size L mul n l <= layer_size L mul n l')).
  { intros n H1 H2. destruct (C32_sizes_with_monotonic_powf L mul n H1 H2 HL (Hlog n H1 H2)) as (P1 & P2 & _). split; auto. }
  eapply C43_new_is_in_order; eauto.
  - split; auto. split; auto. split; [discriminate|]. intros n H1 H2. destruct (Hsz n H1 H2) as [P1 _]. specialize (P1 0). cbn [cfg config_of k_ideal]. lia.
  - intros i j Hij. cbn [cfg config_of k_ideal]. destruct (Hsz max Hm Hf) as [_ P2]. auto.
  - intros i. cbn [cfg config_of k_ideal]. destruct (Hsz max Hm Hf) as [P1 _]. apply P1.
Qed.
Print Assumptions C43_new_with_multiplier.
