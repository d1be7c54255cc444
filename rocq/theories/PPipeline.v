(** * Proofs: from the builder to search, saving and reordering *)
From Verif Require Import Base BaseFacts Bytes MSliceVec SSliceVec PFixed MOffsets SOffsets POffsets MSetVec MIndexIo SIndexIo PIndexIo PIndexCrash MSearch SSearch PHeap PSearch MBuild SBuild PSelect PRow PSLite PBuildInv PBuildRun PBuildLayer PBuildFair PBuilder PHistory SReorder.
From Verif Require Export POpen.
Set Implicit Arguments.
Unset Strict Implicit.

Section Pipe.
  Context {S E : Type} (V : benv S E).
  Local Notation C := (e_ops V).

  Lemma chain_graph_ok s nn0 ls R : (N.of_nat (c_len C s) <= UNUSED)%N -> chain V s true nn0 ls R -> graph_ok (map lists_of R).
  Proof.
    intros Hlen [HF HS]. split.
    - apply Forall_map. clear HS. induction HF as [|l rows ls R Hl HF IH]; constructor; auto. split.
      + unfold lists_of. pose proof (f_pos Hl). destruct rows; [cbn in *; lia|discriminate].
      + unfold lists_of at 2. apply Forall_map. rewrite Forall_forall. intros r Hr. apply In_nth_error in Hr as (i & Hi).
        destruct (@wf_ids _ _ V s Hlen true (fwidth l) (length rows) (f_max Hl) (f_w0 Hl) i r (y_row (f_inv Hl) Hi)) as [_ (_ & _ & HF')].
        apply Forall_map. eapply Forall_impl; [|exact HF']. cbn beta. intros x Hx. unfold lists_of. now rewrite Nat2N.id, map_length.
    - intros i j g h Hi Hj Hij. rewrite nth_error_map in Hi, Hj.
      destruct (nth_error R i) as [r1|] eqn:E1; [|discriminate]. destruct (nth_error R j) as [r2|] eqn:E2; [|discriminate].
      cbn in Hi, Hj. injection Hi as <-. injection Hj as <-. unfold lists_of. rewrite !map_length.
      destruct (Nat.eq_dec i j) as [->|]; [rewrite E1 in E2; injection E2 as ->; auto|].
      refine (proj1 (sorted_nth (i := i) (j := j) HS _ E1 E2)). lia.
  Qed.

  Lemma chain_shows s nn0 ls R m : (N.of_nat (c_len C s) <= UNUSED)%N -> chain V s true nn0 ls R ->
    index_shows m (FixWidth ls) (map lists_of R).
  Proof.
    intros Hlen [HF HS]. split; [cbn [layers_len]; now rewrite map_length, (Forall2_length HF)|].
    intros i g Hi. rewrite nth_error_map in Hi. destruct (nth_error R i) as [rows|] eqn:Er; [|discriminate]. cbn in Hi. injection Hi as <-.
    assert (Hl : exists l, nth_error ls i = Some l /\ lfine V s true nn0 l rows).
    { clear -HF Er. revert i Er. induction HF as [|l r ls R Hl HF IH]; intros [|i] Er; cbn in *; try discriminate; eauto.
      injection Er as <-. eauto. }
    destruct Hl as (l & El & Hl). cbn [layer_len get_neighbors]. unfold index. rewrite El. cbn [ounwrap obind].
    split; [rewrite (fw_is_len (f_w0 Hl) (f_is Hl)); unfold lists_of; now rewrite map_length|].
    intros j ns Hj. unfold lists_of in Hj. rewrite nth_error_map in Hj. destruct (nth_error rows j) as [r|] eqn:Ej; [|discriminate].
    cbn in Hj. injection Hj as <-. exists (row_ids r). split.
    - unfold fw_neighbors. rewrite (fw_is_get m j (f_w0 Hl) (f_is Hl) Ej). reflexivity.
    - rewrite map_map. rewrite <- (map_id (row_ids r)) at 1. erewrite map_ext; [reflexivity|]. intros x. cbn. now rewrite Nat2N.id.
  Qed.

End Pipe.
