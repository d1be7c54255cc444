(** * Proofs: the number of layers of a built index *)
From Verif Require Import Base BaseFacts MSliceVec SSliceVec PFixed MIndexIo PIndexCrash MSearch PHeap PSearch MBuild SBuild PSelect PRow PSLite PBuildInv PBuildRun PBuildLayer PBuildFair PBuilder PHistory SPipeline.
Set Implicit Arguments.
Unset Strict Implicit.

Section Lay.
  Context {S E I : Type} (V : benv S E) (cpush : S -> I -> outcome S).
  Local Notation C := (e_ops V).
  Hypothesis Hsort : sorts_by_dist (e_sort V).
  Hypothesis Hpush : push_law C cpush.
  Variable K : nat.

  Definition filled (b : builder S) (num : nat) : Prop :=
    b_layers b = [] \/ (num <= builder_ideal V b (length (b_layers b) - 1) -> builder_len b = num).

  Lemma full_ideal b : full_at (b_config b) K (c_len C (b_elems b)) -> c_len C (b_elems b) <= builder_ideal V b K.
  Proof. intros H. specialize (H (c_len C (b_elems b)) (le_n _)). exact H. Qed.

  Lemma loop_layers num sched : forall fuel b b', reached V cpush b -> num <= c_len C (b_elems b) ->
    full_at (b_config b) K (c_len C (b_elems b)) -> length (b_layers b) <= K + 1 -> filled b num ->
    build_loop V fuel b num sched = Ok b' -> length (b_layers b') <= K + 1 /\ b_config b' = b_config b.
  Proof.
    induction fuel as [|fuel IH]; intros b b' Hr Hle Hfull Hlen Hfil; cbn [build_loop];
      destruct (Nat.leb_spec num (builder_len b)); intros E1; try (apply ok_inj in E1; subst b'; auto); try discriminate.
    destruct (index_last V (add_layer b) num sched) as [b1|] eqn:E2; [|discriminate]. cbn [obind] in E1.
    assert (Hr1 : reached V cpush b1) by (eapply r_next; eauto).
    destruct (reached_fine Hsort Hpush Hr) as [HB _].
    destruct (add_layer_ok Hsort (b := b) (max_num := num) sched HB) as (P1 & _); auto.
    destruct (P1 _ E2) as ([_ He1 Hc1 _ Hreach _] & l' & Els & _).
    assert (HL1 : length (b_layers b1) = length (b_layers b) + 1) by (rewrite Els, app_length; reflexivity).
    assert (Hj : length (b_layers b) <= K).
    { destruct Hfil as [E0|Hfil]; [rewrite E0; cbn; lia|].
      destruct (Nat.eq_dec (length (b_layers b)) (K + 1)) as [Hk|]; [exfalso|lia]. rewrite Hk in Hfil.
      replace (K + 1 - 1) with K in Hfil by lia. pose proof (full_ideal Hfull). lia. }
    destruct (IH b1 b' Hr1) as [H1 H2]; rewrite ?He1, ?Hc1; auto; [lia| |split; auto; congruence].
    right. rewrite HL1. replace (length (b_layers b) + 1 - 1) with (length (b_layers b)) by lia.
    unfold builder_ideal, builder_total. rewrite Hc1, He1. exact Hreach.
  Qed.

  Lemma build_layers fuel b num sched b' : reached V cpush b ->
    full_at (b_config b) K (c_len C (b_elems b)) -> length (b_layers b) <= K + 1 ->
    build_partial V fuel b num sched = Ok b' -> length (b_layers b') <= K + 1 /\ b_config b' = b_config b.
  Proof.
    intros Hr Hfull Hlen. unfold build_partial. destruct (Nat.eqb_spec num 0); [intros E1; apply ok_inj in E1; subst b'; auto|].
    destruct (Nat.leb_spec (builder_len b) num) as [Hle1|]; [|discriminate]. cbn [oassert obind].
    destruct (Nat.leb_spec num (builder_num_elements V b)) as [Hle2|]; [|discriminate]. cbn [oassert obind].
    destruct (Nat.ltb_spec 0 (length (b_layers b))) as [Hls|Hls]; cbn [obind].
    - assert (Hne : b_layers b <> []) by (intros E0; rewrite E0 in Hls; cbn in Hls; lia).
      destruct (index_last V b num sched) as [b1|] eqn:E2; [|discriminate]. cbn [obind]. intros E1.
      assert (Hr1 : reached V cpush b1) by (apply (@r_last _ _ _ V cpush _ b num sched b1); auto; lia).
      destruct (reached_fine Hsort Hpush Hr) as [HB _].
      destruct (index_existing_ok Hsort (b := b) (max_num := num) sched HB) as (P1 & _); auto; [lia|].
      destruct (P1 _ E2) as ([_ He1 Hc1 _ Hreach _] & p & l & l' & Els & Els' & _).
      assert (HL1 : length (b_layers b1) = length (b_layers b)) by (rewrite Els, Els', !app_length; reflexivity).
      destruct (@loop_layers num sched fuel b1 b' Hr1) as [H1 H2]; rewrite ?He1, ?Hc1; auto; [lia| |split; auto; congruence].
      right. rewrite HL1. unfold builder_ideal, builder_total. rewrite Hc1, He1. exact Hreach.
    - apply loop_layers; auto. left. destruct (b_layers b); auto. cbn in Hls. lia.
  Qed.

  Lemma full_le cfg N N' : N <= N' -> full_at cfg K N' -> full_at cfg K N.
  Proof. intros HN H n Hn. apply H. lia. Qed.

  Lemma calls_layers b cs b' : calls V cpush b cs b' -> reached V cpush b ->
    full_at (b_config b) K (c_len C (b_elems b')) -> length (b_layers b) <= K + 1 ->
    length (b_layers b') <= K + 1 /\ b_config b' = b_config b.
  Proof.
    induction 1 as [b|b c b1 cs b' Ec Hus Hcs IH]; auto. intros Hr Hfull Hlen.
    assert (Hr1 : reached V cpush b1) by (eapply calls_reached; [exact Hsort|exact Hpush|eapply calls_cons; [exact Ec|exact Hus|apply calls_nil]|exact Hr]).
    destruct (calls_elems Hsort Hpush Hcs Hr1) as [Hle _].
    destruct (calls_elems Hsort Hpush (@calls_cons _ _ _ V cpush b c b1 [] b1 Ec Hus (calls_nil V cpush b1)) Hr) as [Hle0 _].
    assert (Hs : length (b_layers b1) <= K + 1 /\ b_config b1 = b_config b).
    { destruct c as [x|num fuel sched|fuel sched]; cbn [do_call] in Ec.
      - destruct (reached_fine Hsort Hpush Hr) as [HB _]. destruct (push_fine Hpush HB Ec Hus) as (_ & _ & -> & -> & _). auto.
      - eapply build_layers; [exact Hr| |exact Hlen|exact Ec]. eapply full_le; [|exact Hfull]. lia.
      - eapply build_layers; [exact Hr| |exact Hlen|exact Ec]. eapply full_le; [|exact Hfull]. lia. }
    destruct Hs as [H1 H2]. destruct (IH Hr1) as [H3 H4]; [rewrite H2; auto|auto|]. split; auto. congruence.
  Qed.

  Theorem built_layers b : built_once V cpush b -> full_at (b_config b) K (c_len C (b_elems b)) -> length (b_layers b) <= K + 1.
  Proof.
    intros (cfg & s & b0 & cs & H1 & H2 & H3 & H4) Hf.
    assert (Hr : reached V cpush b0) by (eapply r_new; eauto).
    assert (Hc : b_config b = b_config b0).
    { clear -H4 Hr Hsort Hpush. induction H4 as [b|b c b1 cs b' Ec Hus Hcs IH]; auto.
      assert (Hr1 : reached V cpush b1) by (eapply calls_reached; [exact Hsort|exact Hpush|eapply calls_cons; [exact Ec|exact Hus|apply calls_nil]|exact Hr]).
      rewrite (IH Hr1). clear IH.
      assert (Hil : forall b num sched b', index_last V b num sched = Ok b' -> b_config b' = b_config b).
      { intros b0 num sched b2. unfold index_last. destruct (split_last (b_layers b0)) as [[l p]|]; [|discriminate]. cbn [ounwrap obind].
        destruct (_ <=? fw_len l); [intros H; apply ok_inj in H; subst b2; auto|].
        destruct (index_elements _ _ _ _ _ _ _ _ _) as [l1|]; [|discriminate]. cbn [obind].
        destruct (k_reinsert (b_config b0)); cbn [obind].
        - destruct (index_elements _ _ _ _ _ _ _ _ _) as [l2|]; [|discriminate]. cbn [obind]. intros H. apply ok_inj in H. subst b2. reflexivity.
        - intros H. apply ok_inj in H. subst b2. reflexivity. }
      assert (Hlp : forall fuel b num sched b', build_loop V fuel b num sched = Ok b' -> b_config b' = b_config b).
      { induction fuel as [|fuel IHf]; intros b0 num sched b2; cbn [build_loop]; destruct (num <=? builder_len b0);
          try (intros H; apply ok_inj in H; subst b2; auto); try discriminate.
        destruct (index_last V (add_layer b0) num sched) as [b3|] eqn:E3; [|discriminate]. cbn [obind].
        intros H. apply IHf in H. apply Hil in E3. rewrite H, E3. reflexivity. }
      assert (Hbp : forall fuel b num sched b', build_partial V fuel b num sched = Ok b' -> b_config b' = b_config b).
      { intros fuel b0 num sched b2. unfold build_partial. destruct (num =? 0); [intros H; apply ok_inj in H; subst b2; auto|].
        destruct (oassert _); [|discriminate]. cbn [obind]. destruct (oassert _); [|discriminate]. cbn [obind].
        destruct (0 <? length (b_layers b0)); cbn [obind]; [|apply Hlp].
        destruct (index_last V b0 num sched) as [b3|] eqn:E3; [|discriminate]. cbn [obind].
        intros H. apply Hlp in H. apply Hil in E3. congruence. }
      destruct c as [x|num fuel sched|fuel sched]; cbn [do_call] in Ec.
      - unfold builder_push in Ec. destruct (oassert _); [|discriminate]. cbn [obind] in Ec. destruct (cpush _ _); [|discriminate].
        cbn [obind] in Ec. apply ok_inj in Ec. subst b1. reflexivity.
      - eapply Hbp; eauto.
      - eapply Hbp; eauto. }
    rewrite Hc in Hf. destruct (calls_layers H4 Hr Hf) as [H5 _]; auto.
    unfold builder_new in H3. destruct (oassert _); [|discriminate]. cbn [obind] in H3. apply ok_inj in H3. subst b0. cbn. lia.
  Qed.
End Lay.
