(** * Proofs: building on top of any well-formed layers *)
From Verif Require Import Base BaseFacts MSliceVec SSliceVec PFixed MIndexIo MSearch PHeap PSearch MBuild SBuild PSelect PRow PSLite PBuildInv PBuildRun PBuildLayer PBuildFair PBuilder PHistory.
Set Implicit Arguments.
Unset Strict Implicit.

Section Any.
  Context {S E : Type} (V : benv S E) (s : S).
  Local Notation C := (e_ops V).

  Lemma rows_wf_inv w n rows : rows_wf w n rows <-> lay_inv V s false w n none rows.
  Proof.
    split.
    - intros [H1 H2]. constructor; auto.
      + intros i r Hr. destruct (H2 i r Hr) as (ns & H3 & H4 & H5). exists ns. split; auto. split; [discriminate|]. auto.
      + intros i r y _ _ HU. discriminate.
      + discriminate.
      + intros x [].
    - intros HI. split; [apply (y_len HI)|]. intros i r Hr. destruct (y_row HI Hr) as (ns & H1 & _ & H2). exists ns. split; auto.
  Qed.

  Lemma rows_wf_is w rows l : fwidth l = w -> 0 < w -> fdata l = concat rows -> rows_wf w (length rows) rows -> fw_is w rows l.
  Proof.
    intros Hw Hw0 Hd [_ Hr]. split; auto. split; auto. rewrite Forall_forall. intros r Hin.
    apply In_nth_error in Hin as (i & Hi). destruct (Hr i r Hi) as (ns & Hs & _). eapply row_shows_length; eauto.
  Qed.

  Lemma layer_wf_fine nn max l : max <= c_len C s -> layer_wf nn max l -> exists rows, lfine V s false nn l rows /\ fw_len l = length rows.
  Proof.
    intros Hm (Hw & Hnn & Hl & rows & Hd & Hr). assert (His : fw_is (fwidth l) rows l) by (apply rows_wf_is; auto).
    rewrite (fw_is_len Hw His) in Hl. exists rows. split; [|apply (fw_is_len Hw His)].
    constructor; auto; try lia. now apply rows_wf_inv.
  Qed.

  Lemma fine_layer_wf nn max l rows : lfine V s false nn l rows -> length rows <= max -> layer_wf nn max l.
  Proof.
    intros Hl Hm. split; [apply Hl|]. split; [apply Hl|]. split.
    - rewrite (fw_is_len (f_w0 Hl) (f_is Hl)). split; [apply Hl|auto].
    - exists rows. split; [apply (f_is Hl)|]. apply rows_wf_inv, (f_inv Hl).
  Qed.

  Lemma layers_wf_chain nn max ls : max <= c_len C s -> layers_wf nn max ls ->
    exists R, chain V s false nn ls R /\ length (last R []) <= max.
  Proof.
    intros Hm [HF HS].
    assert (H : exists R, Forall2 (fun l rows => lfine V s false nn l rows /\ fw_len l = length rows) ls R).
    { clear HS. induction HF as [|l ls Hl HF IH]; [exists []; constructor|]. destruct IH as (R & HR).
      destruct (layer_wf_fine Hm Hl) as (rows & H). exists (rows :: R). constructor; auto. }
    destruct H as (R & HR). exists R. split; [split|].
    - eapply Forall2_imp; [|exact HR]. intros a b H0; exact (proj1 H0).
    - clear HF. induction HR as [|l rows ls R [_ Hl] HR IH]; [constructor|]. inversion HS as [|? ? HS' HA]; subst.
      constructor; [auto|]. rewrite Forall_forall in *. intros r Hr. apply In_nth_error in Hr as (i & Hi).
      split; [|discriminate]. clear IH HS' HS. revert i Hi. induction HR as [|l2 r2 ls R [_ H2] HR IH2]; intros [|i] Hi; try discriminate.
      + cbn in Hi. injection Hi as ->. rewrite <- Hl, <- H2. apply HA. now left.
      + apply (IH2 (fun x Hx => HA x (or_intror Hx)) i Hi).
    - clear HS. assert (Hall : Forall (fun r => length r <= max) R).
      { induction HR as [|l rows ls R [Hl0 Hl] HR IH]; constructor; [|inversion HF; subst; auto].
        inversion HF as [|? ? (_ & _ & H & _) _]; subst. rewrite <- Hl. lia. }
      destruct R as [|r R] using rev_ind; [cbn; lia|]. rewrite last_last. apply Forall_app in Hall as [_ H]. now inversion H.
  Qed.
  Lemma any_start nn num prev last (re : bool) :
    layers_wf nn num prev -> (last = fw_with_width (fwidth last) \/ layer_wf nn num last) ->
    (forall l, In l prev -> fw_len l <= fw_len last) ->
    0 < nn <= fwidth last -> 0 < num <= c_len C s -> (re = true -> num = fw_len last) ->
    exists R rows0, chain V s false nn prev R /\ (rows0 = [] \/ lfine V s false nn last rows0) /\
      fw_is (fwidth last) rows0 last /\ fw_len last = length rows0 /\ length rows0 <= num /\
      grows false (List.last R []) rows0 /\ (re = true -> num = length rows0).
  Proof.
    intros Hprev Hlast Hall Hnn Hnum Hre.
    destruct (@layers_wf_chain nn num prev ltac:(lia) Hprev) as (R & HR & HRl).
    assert (Hex : exists rows0, (rows0 = [] \/ lfine V s false nn last rows0) /\ fw_is (fwidth last) rows0 last /\ fw_len last = length rows0).
    { destruct Hlast as [Hl|Hl].
      - exists []. split; auto. assert (fw_is (fwidth last) [] last) by (rewrite Hl; apply fw_is_with_width). split; auto.
        apply (fw_is_len (w := fwidth last)); auto. lia.
      - destruct (@layer_wf_fine nn num last ltac:(lia) Hl) as (rows0 & H1 & H2). exists rows0. split; auto. split; auto. apply (f_is H1). }
    destruct Hex as (rows0 & H1 & H2 & H3).
    assert (Hle : length rows0 <= num).
    { rewrite <- H3. destruct Hlast as [Hl|(_ & _ & Hl & _)]; [|lia].
      assert (Hz : fw_len last = 0); [|lia]. apply (fw_is_len (w := fwidth last) (rows := [])); [lia|]. rewrite Hl. apply fw_is_with_width. }
    assert (Hg : grows false (List.last R []) rows0).
    { split; [|discriminate]. destruct R as [|r R _] using rev_ind; [cbn; lia|]. rewrite last_last.
      destruct HR as [HF _]. apply Forall2_app_inv_r in HF as (p1 & p2 & _ & HF & ->). inversion HF as [|l r' p3 ? Hl Hn]; subst. inversion Hn; subst.
      rewrite <- (fw_is_len (f_w0 Hl) (f_is Hl)), <- H3. apply Hall. apply in_or_app. right. now left. }
    exists R, rows0. rewrite <- H3 in *. auto 10.
  Qed.
End Any.
