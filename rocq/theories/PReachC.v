(** * Proofs: small collections are searched exactly *)
From Coq Require Import Relation_Operators Operators_Properties.
From Verif Require Import Base BaseFacts MSliceVec SSliceVec PFixed MIndexIo SIndexIo PIndexIo PIndexCrash MSearch SSearch PHeap PSearch PSearchIx MBuild SBuild PSelect PRow PSLite PBuildInv PBuildRun PBuildLayer PBuildFair PBuilder PHistory PReach PPipeline SReach PReachB POffsets SOffsets.
Set Implicit Arguments.
Unset Strict Implicit.

Section ReachC.
  Context {S E I : Type} (V : benv S E) (cpush : S -> I -> outcome S).
  Local Notation C := (e_ops V).
  Hypothesis Hsort : sorts_by_dist (e_sort V).
  Hypothesis Hpush : push_law C cpush.
  Hypothesis Hkeep : push_keeps_distances C cpush.

  Lemma few_pull s x s' k : cpush s x = Ok s' -> few_duplicates V s' k -> few_duplicates V s k.
  Proof.
    intros Ep Hf i e others Hi He Hnd Ho. destruct (Hpush Ep) as (HL & Hg & _).
    apply (Hf i e others); auto; [lia|now rewrite Hg|].
    intros y Hy. destruct (Ho y Hy) as (H1 & H2 & d & H3 & H4). split; [lia|]. split; auto. exists d. split; auto.
    now rewrite (Hkeep Ep) by auto.
  Qed.

  Lemma open_ids nn r r2 : length (row_ids r) <= nn -> Forall (fun x => (N.of_nat x < UNUSED)%N) (row_ids r) -> row_opened nn r2 r ->
    Permutation (row_ids r2) (row_ids r).
  Proof using Type.
    intros Hl HF (s & [Hp _] & ->).
    assert (Hls : length s = length (row_ids r)) by (rewrite (Permutation_length Hp), map_length; reflexivity).
    assert (Hperm : Permutation (map N.to_nat s) (row_ids r)).
    { rewrite Hp, map_map. erewrite map_ext; [rewrite map_id; reflexivity|]. intros x. apply Nat2N.id. }
    rewrite firstn_all2 by lia.
    assert (E0 : row_ids (s ++ repeat UNUSED (nn - length s)) = map N.to_nat s); [|now rewrite E0].
    eapply row_ids_shows with (w := nn).
    - split; [rewrite map_length; lia|]. rewrite map_map, map_length. f_equal. erewrite map_ext; [now rewrite map_id|]. intros x. apply N2Nat.id.
    - now rewrite Hperm.
  Qed.

  Lemma open_conn b cfg b' : cfg_ok (b_config b) -> elems_ok V (b_elems b) -> idsafe V b -> widths b -> cinv V b -> cfg_ok cfg -> reopened V b cfg b' ->
    k_nn (b_config b) <= k_nn cfg -> cinv V b'.
  Proof using Type.
    intros Hcf Hel Hid HW (R & Hch & [Hgr Hcl] & Hall) Hcfg Ho Hnn.
    destruct (open_chain Hcf Hel Hch Hid HW Hcfg Ho) as (He & Hc & HW' & R2 & HR & Hch').
    exists R2. split; [exact Hch'|]. rewrite He in *.
    assert (HE : Forall2 (fun rows2 rows => length rows2 = length rows /\ forall x y, edg rows2 x y <-> edg rows x y) R2 R).
    { destruct Hch as [HF _]. unfold widths in HW. assert (HwR : Forall (fun rows => exists l, fwidth l = k_nn (b_config b) /\ lfine V (b_elems b) true (k_nn (b_config b)) l rows) R).
      { clear -HF HW. revert HW. induction HF as [|l rows ls R Hl HF IH]; intros HW; constructor; inversion HW; subst; eauto. }
      clear -HR HwR Hel Hnn. induction HR as [|rows2 rows R2 R Hrr HR IH]; constructor; inversion HwR as [|? ? (l & Hw & Hl) HwR']; subst; auto.
      split; [apply (Forall2_length Hrr)|]. 
      assert (Hids : forall x r r2, nth_error rows x = Some r -> row_opened (k_nn cfg) r2 r -> Permutation (row_ids r2) (row_ids r)).
      { intros x r r2 Hr Hro. destruct (@wf_ids _ _ V (b_elems b) (eo_len Hel) true (fwidth l) (length rows) (f_max Hl) (f_w0 Hl) x r (y_row (f_inv Hl) Hr)) as [[H1 _] (_ & _ & H2)].
        apply (@open_ids (k_nn cfg) r r2); [rewrite Hw in H1; lia| |exact Hro].
        eapply Forall_impl; [|exact H2]. cbn beta. intros y Hy. pose proof (f_max Hl). pose proof (eo_len Hel). lia. }
      intros x y. split.
      - intros (r2 & Hr2 & Hy). destruct (Forall2_nth' Hrr Hr2) as (r & Hr & Hro). exists r. split; auto.
        now rewrite <- (Hids x r r2 Hr Hro).
      - intros (r & Hr & Hy). destruct (nth_error rows2 x) as [r2|] eqn:E2.
        + destruct (Forall2_nth' Hrr E2) as (r' & Hr' & Hro). rewrite Hr in Hr'. injection Hr' as <-. exists r2. split; auto.
          now rewrite (Hids x r r2 Hr Hro).
        + apply nth_error_None in E2. rewrite (Forall2_length Hrr) in E2. assert (x < length rows) by (apply nth_error_Some; congruence). lia. }
    assert (Hrch : forall rows2 rows, (forall x y, edg rows2 x y <-> edg rows x y) -> forall x, conn rows2 x <-> conn rows x).
    { intros rows2 rows H x. unfold conn, rch. split; intros [A B]; split; (eapply rch_mono; [|eassumption]); intros u v; apply H. }
    split; [split|].
    - clear -HE Hgr. induction HE as [|r2 r R2 R [HL He] HE IH]; [constructor|]. inversion Hgr as [|? ? Hg' HF]; subst. constructor; [now apply IH|].
      clear IH Hgr Hg'. revert HF. induction HE as [|q2 q R2 R [HL' He'] HE IH]; intros HF; constructor; inversion HF as [|? ? Hm HF']; subst; auto.
      intros x y Hxy. apply He', Hm, He, Hxy.
    - clear -HE Hcl Hrch. revert Hcl. induction HE as [|r2 r R2 R [HL He] HE IH]; intros Hcl; constructor; inversion Hcl as [|? ? Hc HF]; subst; auto.
      intros x y Hxy. apply (Hrch _ _ He). apply (Hc x). now apply He.
    - clear -HE Hall Hrch. revert Hall. induction HE as [|r2 r R2 R [HL He] HE IH]; intros Hall; constructor; inversion Hall as [|? ? Hc HF]; subst; auto.
      intros x Hx. rewrite HL in Hx. destruct (Hc x Hx) as [Hz|Hz]; auto. right. now apply (Hrch _ _ He).
  Qed.

  Theorem reached_conn b : reached_via V cpush (opened_with_room V) b -> roomy (b_config b) (c_len C (b_elems b)) ->
    few_duplicates V (b_elems b) (half (b_config b)) -> cinv V b.
  Proof.
    induction 1 as [cfg s b Hcf Hus En | b x b' Hr IH Ep Hus | b num sched b' Hr IH Hne Hpos Hle Ei | b num sched b' Hr IH Hle Ei | b cfg b' Hr IH Hcf Ho (Ho1 & Ho2 & Ho3)]; intros Hroom Hfew.
    - unfold builder_new in En. destruct (oassert _); [|discriminate]. cbn [obind] in En. apply ok_inj in En. subst b.
      exists []. split; [split; constructor|]. split; [split; constructor|]. constructor.
    - destruct (reached_fine Hsort Hpush Hr) as [HB _]. destruct (push_fine Hpush HB Ep Hus) as (_ & _ & Hl & Hc & Epu).
      destruct (Hpush Epu) as (HL & Hg & Hd). rewrite Hc, HL in *.
      destruct IH as (R & Hch & Hgr & Hall).
      { intros n l Hn. apply Hroom. lia. }
      { eapply few_pull; eauto. }
      exists R. rewrite Hl, Hc. split; [|split; [auto|]].
      + destruct Hch as [HF HS]. split; auto. eapply Forall2_imp; [|exact HF]. intros l rows Hlf. eapply lfine_push; [| |exact Hlf]; auto. lia.
      + destruct Hch as [HF HS]. clear -HF Hall Hd. induction HF as [|l rows ls R Hlf HF IHF]; [constructor|]. inversion Hall as [|? ? H1 H2]; subst.
        constructor; [|exact (IHF H2)]. intros y Hy. destruct (H1 y Hy) as [(d & Ed & Hz)|]; auto. left.
        pose proof (f_max Hlf). exists d. split; auto. rewrite Hd by lia. auto.
    - destruct (reached_fine Hsort Hpush Hr) as [HB _].
      destruct (index_existing_ok Hsort (b := b) (max_num := num) sched HB) as (P1 & _); auto.
      destruct (P1 _ Ei) as ([_ He1 Hcf1 _ _] & _). rewrite He1, Hcf1 in *.
      destruct (existing_conn Hsort HB (IH Hroom Hfew) Hne Hle Hpos Hroom Hfew Ei) as [H1 _]. exact H1.
    - destruct (reached_fine Hsort Hpush Hr) as [HB _].
      destruct (add_layer_ok Hsort (b := b) (max_num := num) sched HB) as (P1 & _); auto.
      destruct (P1 _ Ei) as ([_ He1 Hcf1 _ _] & _). rewrite He1, Hcf1 in *.
      destruct (next_conn Hsort HB (IH Hroom Hfew) Hle Hroom Hfew Ei) as [H1 _]. exact H1.
    - destruct (reached_fine Hsort Hpush Hr) as [(Hcf0 & Hel & _) Hid]. apply (@open_conn b cfg b' Hcf0 Hel Hid (reached_width Hsort Hpush Hr) (IH Ho1 Ho2) Hcf Ho Ho3).
  Qed.
End ReachC.

(** ** The graph seen through the interface *)
Lemma edge_edg rows x y : edge (lists_of rows) x y <-> edg rows x y.
Proof.
  unfold edge, edg, lists_of. split.
  - intros (ns & E1 & H1). rewrite nth_error_map in E1. destruct (nth_error rows x) as [r|] eqn:Er; [|discriminate]. cbn in E1. injection E1 as <-.
    exists r. split; auto. apply in_map_iff in H1 as (z & Hz & Hi). apply Nat2N.inj in Hz. now subst.
  - intros (r & Er & H1). exists (map N.of_nat (row_ids r)). rewrite nth_error_map, Er. split; auto. now apply in_map.
Qed.
Lemma reach_rch rows x y : reach (lists_of rows) x y <-> rch rows x y.
Proof.
  split.
  - induction 1 as [|y z H1 IH Hz]; [apply rt_refl|]. eapply rt_trans; [exact IH|]. apply rt_step. now apply edge_edg.
  - intros H. apply clos_rt_rtn1 in H. induction H as [|y z Hz H1 IH]; [constructor|]. econstructor; [exact IH|]. now apply edge_edg.
Qed.

Lemma closed_conn rows x y : closed rows -> conn rows x -> rch rows x y -> conn rows y.
Proof.
  intros Hc Hx H. apply clos_rt_rtn1 in H. induction H as [|y z Hz H1 IH]; auto. eapply Hc; eauto.
Qed.

Lemma entry_conn m L R dist f fuel : index_shows m L (map lists_of R) -> graph_ok (map lists_of R) -> grown R ->
  dist_is dist f (length (last (map lists_of R) [])) -> length (last (map lists_of R) []) < fuel ->
  forall k, k < length R -> exists ep rows, find_entrypoint fuel (map (fun i j => get_neighbors m L j i) (seq 0 k)) dist = Ok ep /\
    nth_error R k = Some rows /\ ep < length rows /\ conn rows ep.
Proof.
  intros HS HG [Hgr Hcl] Hd Hf. induction k as [|k IH]; intros Hk.
  - destruct (nth_error R 0) as [rows|] eqn:E0; [|apply nth_error_None in E0; lia].
    exists 0, rows. split; [reflexivity|]. split; auto. split; [|apply conn_0].
    assert (HG0 : nth_error (map lists_of R) 0 = Some (lists_of rows)) by now rewrite nth_error_map, E0.
    destruct (graph_ok_nth HG HG0) as [Hne _]. destruct rows; [cbn in Hne; congruence|cbn; lia].
  - destruct IH as (ep & rows & E & Er & Hlt & Hcn); [lia|].
    destruct (nth_error R (S k)) as [rows'|] eqn:E0; [|apply nth_error_None in E0; lia].
    assert (HGk : nth_error (map lists_of R) k = Some (lists_of rows)) by now rewrite nth_error_map, Er.
    assert (HGk' : nth_error (map lists_of R) (S k) = Some (lists_of rows')) by now rewrite nth_error_map, E0.
    assert (HLr : length (lists_of rows) = length rows) by (unfold lists_of; apply map_length).
    assert (HLr' : length (lists_of rows') = length rows') by (unfold lists_of; apply map_length).
    destruct (@PSearchIx.layer_search m L (map lists_of R) dist f fuel HS HG Hd Hf k (lists_of rows) ep 1 HGk ltac:(lia) ltac:(lia)) as (l & El & HF).
    unfold find_entrypoint in *. rewrite seq_S, map_app, ofold_app, E. cbn [obind map ofold Nat.add]. rewrite El. cbn [obind].
    pose proof HF as (F1 & F2 & F3 & F4 & F5 & F6 & r & F7 & F8).
    destruct l as [|a [|b t]]; [destruct F7| |cbn in F3; lia]. cbn [map index nth_error ounwrap obind fst swap_key].
    destruct (F4 a (or_introl eq_refl)) as (_ & Ha & Hra).
    exists (snd a), rows'. split; [reflexivity|]. split; auto.
    assert (Hem : emono rows rows') by (exact (sorted_nth Hgr (Nat.lt_succ_diag_r k) Er E0)).
    destruct HG as [HGl HGm]. pose proof (HGm k (S k) _ _ HGk HGk' ltac:(lia)) as Hlen.
    split; [lia|]. apply (conn_mono Hem).
    assert (Hrr : reach (lists_of rows) ep (snd a)).
    { eapply PSearchIx.rch_reach; [exact HS|exact HGk|apply (graph_ok_nth (conj HGl HGm) HGk)|lia|exact Hra]. }
    apply reach_rch in Hrr. eapply closed_conn; [|exact Hcn|exact Hrr].
    rewrite Forall_forall in Hcl. apply Hcl. eapply nth_error_In; eauto.
Qed.
