(** * Proofs: saving the index of a builder and opening it again *)
From Verif Require Import Base BaseFacts Bytes MSliceVec SSliceVec PFixed MOffsets SOffsets POffsets MSetVec MIndexIo SIndexIo PIndexIo PIndexCrash PIndexBuilder MSearch PHeap PSearch MBuild SBuild PSelect PRow PSLite PBuildInv PBuildRun PBuildLayer PBuildFair PBuilder.
Set Implicit Arguments.
Unset Strict Implicit.

(** the neighbour lists shown by the rows of a layer *)
Definition lists_of (rows : list (list N)) : list (list N) := map (fun r => map N.of_nat (row_ids r)) rows.

Lemma Forall2_nth' {A B} (P : A -> B -> Prop) l1 l2 i a : Forall2 P l1 l2 -> nth_error l1 i = Some a ->
  exists b, nth_error l2 i = Some b /\ P a b.
Proof.
  intros H. revert i. induction H as [|x y l1 l2 Hxy H IH]; intros [|i] Hi; try discriminate.
  - cbn in Hi. injection Hi as <-. exists y. auto.
  - apply IH. exact Hi.
Qed.

Section Pipe.
  Context {S E : Type} (V : benv S E).
  Local Notation C := (e_ops V).

  Lemma index_elements_width s nn ms prev num l re sched l' :
    index_elements V s nn ms prev num l re sched = Ok l' -> fwidth l' = fwidth l.
  Proof.
    unfold index_elements. destruct (start_pass num l re) as [x|]; [|discriminate]. cbn [obind].
    destruct (run V s nn ms prev sched x) as [x'|]; [|discriminate]. cbn [obind].
    destruct (all_done (snd x')); [|discriminate]. destruct (limit_rows V s nn (fst x')) as [rows'|]; [|discriminate]. cbn [obind].
    intros H. apply ok_inj in H. subst l'. reflexivity.
  Qed.

  Definition widths (b : builder S) : Prop := Forall (fun l => fwidth l = k_nn (b_config b)) (b_layers b).

  Lemma index_last_width b num sched b' : widths b -> index_last V b num sched = Ok b' -> widths b'.
  Proof.
    unfold widths, index_last. intros HW. destruct (split_last (b_layers b)) as [[l prev]|] eqn:Esp; [|discriminate]. cbn [ounwrap obind].
    apply split_last_some in Esp. destruct (builder_ideal V b (length (b_layers b) - 1) <=? fw_len l).
    { intros H. apply ok_inj in H. subst b'. auto. }
    destruct (index_elements V (b_elems b) _ _ prev _ l false _) as [l1|] eqn:E1; [|discriminate]. cbn [obind].
    apply index_elements_width in E1.
    assert (Hfin : forall l2, fwidth l2 = fwidth l -> Ok (mkBuilder (b_elems b) (prev ++ [l2]) (b_config b)) = Ok b' ->
              Forall (fun l => fwidth l = k_nn (b_config b')) (b_layers b')).
    { intros l2 Hl2 H. apply ok_inj in H. subst b'. cbn [b_layers b_config]. rewrite Esp in HW. apply Forall_app in HW as [H1 H2].
      apply Forall_app. split; auto. inversion H2; subst. constructor; [congruence|constructor]. }
    destruct (k_reinsert (b_config b)).
    - destruct (index_elements V (b_elems b) _ _ prev _ l1 true _) as [l2|] eqn:E2; [|discriminate]. cbn [obind].
      apply index_elements_width in E2. apply Hfin. congruence.
    - cbn [obind]. now apply Hfin.
  Qed.

  Lemma add_layer_width b : widths b -> widths (add_layer b).
  Proof.
    unfold widths, add_layer. cbn [b_layers b_config]. intros HW. apply Forall_app. split; auto. constructor; [|constructor].
    destruct (split_last (b_layers b)) as [[l p]|] eqn:Esp; [|reflexivity]. apply split_last_some in Esp. rewrite Esp in HW.
    apply Forall_app in HW as [_ H]. inversion H; auto.
  Qed.

  Lemma shows_lists s nn0 l rows : (N.of_nat (c_len C s) <= UNUSED)%N -> lfine V s true nn0 l rows -> fwidth l <= 254 ->
    fix_layer_is l (lists_of rows).
  Proof.
    intros Hlen Hl Hw. exists (fwidth l). split; [apply (f_w0 Hl)|]. split.
    - assert (E0 : map (fun ns => ns ++ repeat UNUSED (fwidth l - length ns)) (lists_of rows) = rows); [|rewrite E0; apply (f_is Hl)].
      unfold lists_of. rewrite map_map. rewrite <- (map_id rows) at 2. apply map_ext_in. intros r Hr.
      apply In_nth_error in Hr as (i & Hi).
      destruct (@wf_ids _ _ V s Hlen true (fwidth l) (length rows) (f_max Hl) (f_w0 Hl) i r (y_row (f_inv Hl) Hi)) as [[H1 H2] _].
      rewrite map_length. now rewrite H2 at 3.
    - unfold lists_of. rewrite Forall_forall. intros ns Hns. apply in_map_iff in Hns as (r & <- & Hr).
      apply In_nth_error in Hr as (i & Hi).
      destruct (@wf_ids _ _ V s Hlen true (fwidth l) (length rows) (f_max Hl) (f_w0 Hl) i r (y_row (f_inv Hl) Hi)) as [[H1 H2] (_ & _ & HF)].
      rewrite map_length. split; [lia|]. split; [lia|]. rewrite Forall_forall in *. intros x Hx. apply in_map_iff in Hx as (y & <- & Hy).
      apply HF in Hy. pose proof (f_max Hl). lia.
  Qed.

  Lemma chain_is s nn0 ls R m : (N.of_nat (c_len C s) <= UNUSED)%N -> chain V s true nn0 ls R -> Forall (fun l => fwidth l <= 254) ls ->
    index_is m (FixWidth ls) (map lists_of R).
  Proof.
    intros Hlen [HF HS] HW. split.
    - apply Forall_map. clear HS HW. induction HF as [|l rows ls R Hl HF IH]; constructor; auto.
      unfold lists_of. rewrite map_length. pose proof (f_max Hl). unfold layer_fits. 
      assert (UNUSED = 4294967295%N) by reflexivity. lia.
    - clear HS. induction HF as [|l rows ls R Hl HF IH]; cbn [map]; constructor; inversion HW; subst; auto. eapply shows_lists; eauto.
  Qed.

  (** ** Opening *)
  Definition idsafe (b : builder S) : Prop := (N.of_nat (c_len C (b_elems b)) < UNUSED)%N.
  Definition row_opened (nn : nat) (r2 r : list N) : Prop :=
    exists s, sorted_version (map N.of_nat (row_ids r)) s /\ r2 = firstn nn s ++ repeat UNUSED (nn - length s).

  Lemma open_row nn n i r r2 : 0 < nn -> (N.of_nat n <= UNUSED)%N -> nb_ok true n i (row_ids r) -> row_opened nn r2 r ->
    wf_row true nn n i r2 /\ incl (row_ids r2) (row_ids r) /\ (row_ids r <> [] -> row_ids r2 <> []) /\ length r2 = nn.
  Proof using Type.
    intros Hnn Hn Hok (s & [Hp _] & ->).
    set (ids := firstn nn (map N.to_nat s)).
    assert (Hperm : Permutation (map N.to_nat s) (row_ids r)).
    { rewrite Hp, map_map. erewrite map_ext; [rewrite map_id; reflexivity|]. intros x. apply Nat2N.id. }
    assert (Hincl : incl ids (row_ids r)).
    { intros x Hx. unfold ids in Hx. apply firstn_In in Hx. now rewrite <- Hperm. }
    assert (Hnd : nb_ok true n i ids).
    { destruct Hok as (H1 & H2 & H3). split; [|split].
      - intros HU. specialize (H1 HU). rewrite <- Hperm, <- (firstn_skipn nn) in H1. now apply NoDup_appl in H1.
      - intros Hi. apply H2. auto.
      - rewrite Forall_forall in *. auto. }
    assert (Hlen : length s = length (row_ids r)) by (rewrite <- (Permutation_length Hperm), map_length; reflexivity).
    assert (Hlids : length ids = Nat.min nn (length s)) by (unfold ids; now rewrite firstn_length, map_length).
    assert (Hsh : row_shows nn (firstn nn s ++ repeat UNUSED (nn - length s)) ids).
    { split; [lia|]. f_equal; [|f_equal; lia]. unfold ids. rewrite firstn_map, map_map. erewrite map_ext; [rewrite map_id; reflexivity|].
      intros x. apply N2Nat.id. }
    assert (Hids : row_ids (firstn nn s ++ repeat UNUSED (nn - length s)) = ids).
    { eapply row_ids_shows; eauto. destruct Hnd as (_ & _ & HF). eapply Forall_impl; [|exact HF]. cbn beta. intros x Hx.
      eapply N.lt_le_trans; [|exact Hn]. lia. }
    rewrite Hids. split; [exists ids; auto|]. split; [exact Hincl|]. split.
    - intros Hne Hnil. apply (f_equal (@length nat)) in Hnil. rewrite Hlids in Hnil. cbn in Hnil. rewrite Hlen in Hnil.
      destruct (row_ids r); [congruence|cbn in Hnil; lia].
    - rewrite app_length, firstn_length, repeat_length. lia.
  Qed.

  Definition opened (nn : nat) (l2 : fw N) (rows2 rows : list (list N)) : Prop :=
    fw_is nn rows2 l2 /\ Forall2 (row_opened nn) rows2 rows.

  Lemma open_live nn0 s l rows nn l2 rows2 : (N.of_nat (c_len C s) <= UNUSED)%N -> lfine V s true nn0 l rows -> 0 < nn ->
    opened nn l2 rows2 rows -> (forall x, live rows x <-> live rows2 x) /\ fwidth l2 = nn /\ lfine V s true nn l2 rows2.
  Proof using Type.
    intros Hlen Hl Hnn [His HF].
    assert (HL : length rows2 = length rows) by (apply (Forall2_length HF)).
    assert (Hw : fwidth l2 = nn) by apply His.
    assert (Hrow : forall i r2, nth_error rows2 i = Some r2 -> exists r, nth_error rows i = Some r /\
       wf_row true nn (length rows) i r2 /\ incl (row_ids r2) (row_ids r) /\ (row_ids r <> [] -> row_ids r2 <> []) /\ length r2 = nn).
    { intros i r2 Hi. destruct (Forall2_nth' HF Hi) as (r & Hr & Ho). exists r. split; auto.
      destruct (@wf_ids _ _ V s Hlen true (fwidth l) (length rows) (f_max Hl) (f_w0 Hl) i r (y_row (f_inv Hl) Hr)) as [_ H2].
      apply open_row; auto. pose proof (f_max Hl). lia. }
    assert (Hlive : forall x, live rows x <-> live rows2 x).
    { intros x. split.
      - intros (r & Hr & Hne). destruct (nth_error rows2 x) as [r2|] eqn:E2.
        + destruct (Hrow x r2 E2) as (r' & Hr' & _ & _ & H & _). exists r2. split; auto. apply H. congruence.
        + apply nth_error_None in E2. assert (x < length rows) by (apply nth_error_Some; congruence). lia.
      - intros (r2 & Hr2 & Hne). destruct (Hrow x r2 Hr2) as (r & Hr & _ & Hin & _). exists r. split; auto.
        intros E0. rewrite E0 in Hin. destruct (row_ids r2) as [|y ys]; [congruence|]. exact (Hin y (or_introl eq_refl)). }
    split; [exact Hlive|]. split; [exact Hw|]. constructor; rewrite ?Hw, ?HL; auto.
    - apply (f_pos Hl).
    - apply (f_max Hl).
    - constructor.
      + exact HL.
      + intros i r Hr. now destruct (Hrow i r Hr) as (r' & _ & H & _).
      + intros i r2 y Hr Hy. destruct (Hrow i r2 Hr) as (r & Hr' & _ & Hin & _).
        intros HU Hy0. destruct (y_link (f_inv Hl) Hr' (Hin y Hy) HU Hy0) as [H1 H2]. split; now apply Hlive.
      + intros HU z Hz Hz0 Hlv. apply (y_zero (f_inv Hl) HU Hz Hz0). now apply Hlive.
      + intros x [].
  Qed.

  Lemma open_chain b cfg b' R : cfg_ok (b_config b) -> elems_ok V (b_elems b) -> chain V (b_elems b) true (k_nn (b_config b)) (b_layers b) R ->
    idsafe b -> widths b -> cfg_ok cfg -> reopened V b cfg b' ->
    b_elems b' = b_elems b /\ b_config b' = cfg /\ widths b' /\ exists R2,
      Forall2 (Forall2 (row_opened (k_nn cfg))) R2 R /\
      chain V (b_elems b') true (k_nn (b_config b')) (b_layers b') R2.
  Proof using Type.
    intros Hcf Hel Hch Hid HW Hcfg (c & c' & H254 & Ew & Eo).
    assert (Hnn : 0 < k_nn cfg) by apply Hcfg.
    assert (HI : index_is (e_mode V) (FixWidth (b_layers b)) (map lists_of R)).
    { eapply chain_is; [apply (eo_len Hel)|exact Hch|]. eapply Forall_impl; [|exact HW]. cbn beta. intros l ->. exact H254. }
    destruct (@builder_reopen (e_mode V) _ _ c c' (k_nn cfg) Hnn HI Ew) as (ls & Els & HF).
    unfold builder_open, builder_new in Eo. unfold idsafe in Hid. apply N.ltb_lt in Hid. rewrite Hid in Eo. cbn [oassert obind b_config b_elems] in Eo.
    rewrite Els in Eo. cbn [obind] in Eo. apply ok_inj in Eo. subst b'. cbn [b_elems b_config b_layers]. apply N.ltb_lt in Hid.
    split; [reflexivity|]. split; [reflexivity|].
    assert (HR : exists R2, Forall2 (fun l2 rows2 => fwidth l2 = k_nn cfg /\ lfine V (b_elems b) true (k_nn cfg) l2 rows2) ls R2 /\
       Forall2 (fun rows2 rows => Forall2 (row_opened (k_nn cfg)) rows2 rows /\ forall x, live rows x <-> live rows2 x) R2 R).
    { destruct Hch as [HFl _]. clear -HFl HF Hnn Hel. revert ls HF. 
      induction HFl as [|l rows ll R Hl HFl IH]; intros ls HF; inversion HF as [|l2 g ls2 G (rows2 & His & HR2) HF2]; subst.
      - exists []. split; constructor.
      - destruct (IH _ HF2) as (R2 & HA & HB).
        assert (Hop : opened (k_nn cfg) l2 rows2 rows).
        { split; [exact His|]. clear -HR2. unfold lists_of in HR2. remember (map (fun r => map N.of_nat (row_ids r)) rows) as g eqn:Eg.
          revert rows Eg. induction HR2 as [|r2 ns rows2 g Hr HR2 IH]; intros [|r rows] Eg; try discriminate; constructor.
          - cbn in Eg. injection Eg as -> _. exact Hr.
          - apply IH. cbn in Eg. now injection Eg. }
        destruct (open_live (eo_len Hel) Hl Hnn Hop) as (H1 & H2 & H3).
        exists (rows2 :: R2). split; constructor; auto. split; auto. apply Hop. }
    destruct HR as (R2 & HA & HB).
    split.
    { unfold widths. cbn [b_layers b_config]. clear -HA. induction HA as [|l r ls R [H _] HA IH]; constructor; auto. }
    exists R2. split.
    { clear -HB. induction HB as [|r2 r R2 R [H _] HB IH]; constructor; auto. }
    split.
    - clear -HA. induction HA as [|l r ls R [_ H] HA IH]; constructor; auto.
    - destruct Hch as [_ HS]. clear -HB HS. induction HB as [|r2 r R2 R [HL Hl] HB IH]; [constructor|].
      inversion HS as [|? ? HS' HA]; subst. constructor; [apply IH, HS'|].
      clear IH HS HS'. revert HA. induction HB as [|q2 q R2 R [HL' Hl'] HB IH]; intros HA; constructor; inversion HA as [|? ? [H1 H2] H3]; subst; auto.
      split; [rewrite (Forall2_length HL), (Forall2_length HL'); exact H1|]. intros HU x Hx. apply Hl', H2; auto. now apply Hl.
  Qed.

  Lemma open_fine b cfg b' : bfine V true b -> idsafe b -> widths b -> cfg_ok cfg -> reopened V b cfg b' ->
    bfine V true b' /\ idsafe b' /\ widths b' /\ b_elems b' = b_elems b /\ b_config b' = cfg /\
    length (b_layers b') = length (b_layers b) /\ builder_len b' = builder_len b.
  Proof using Type.
    intros (Hcf & Hel & R & Hch) Hid HW Hcfg Ho.
    destruct (open_chain Hcf Hel Hch Hid HW Hcfg Ho) as (He & Hc & HW' & R2 & HR & Hch').
    assert (HlR : length R2 = length R) by apply (Forall2_length HR).
    assert (HlA : length (b_layers b') = length R2) by apply (Forall2_length (proj1 Hch')).
    assert (Hll : length (b_layers b) = length R) by apply (Forall2_length (proj1 Hch)).
    split; [split; [rewrite Hc; exact Hcfg|]; split; [rewrite He; exact Hel|]; eauto|].
    split; [unfold idsafe; rewrite He; exact Hid|]. split; [exact HW'|].
    split; [exact He|]. split; [exact Hc|]. split; [lia|].
    destruct (split_last (b_layers b)) as [[l p]|] eqn:E0; [apply split_last_some in E0|apply split_last_nil in E0].
    2: { rewrite E0 in Hll. cbn in Hll. assert (E1 : b_layers b' = []) by (destruct (b_layers b'); auto; cbn [length] in HlA; lia).
      now rewrite (builder_len_none E0), (builder_len_none E1). }
    rewrite E0 in Hch. destruct (chain_split Hch) as (R0 & rows & -> & _ & Hl & _). rewrite (builder_len_app E0 Hl).
    apply Forall2_app_inv_r in HR as (R20 & R21 & HB0 & HB1 & ->). inversion HB1 as [|rows2 ? ? ? HL HBn]; subst. inversion HBn; subst.
    destruct (split_last (b_layers b')) as [[l' p']|] eqn:E1; [apply split_last_some in E1|apply split_last_nil in E1].
    2: { rewrite E1 in HlA. rewrite app_length in HlA. cbn in HlA. lia. }
    rewrite E1 in Hch'. destruct (chain_split Hch') as (R3 & rows3 & E3 & _ & Hl' & _). apply app_inj_tail in E3 as [_ <-].
    rewrite (builder_len_app E1 Hl'). apply (Forall2_length HL).
  Qed.
End Pipe.
