(** * Proofs: connectedness of small collections through a builder's history *)
From Coq Require Import Relation_Operators Operators_Properties.
From Verif Require Import Base BaseFacts MSliceVec SSliceVec PFixed MIndexIo SIndexIo PIndexIo PIndexCrash MSearch SSearch PHeap PSearch PSearchIx MBuild SBuild PSelect PRow PSLite PBuildInv PBuildRun PBuildLayer PBuildFair PBuilder PHistory PReach PPipeline SReach.
Set Implicit Arguments.
Unset Strict Implicit.

Lemma nil_or_snoc {A} (l : list A) : l = [] \/ exists l0 x, l = l0 ++ [x].
Proof. destruct l as [|a l]; auto. right. destruct (@exists_last _ (a :: l)) as (l0 & x & ->); [discriminate|]. eauto. Qed.

Section ReachB.
  Context {S E : Type} (V : benv S E).
  Local Notation C := (e_ops V).
  Hypothesis Hsort : sorts_by_dist (e_sort V).

  Definition all_in (s : S) (rows : list (list N)) : Prop := forall x, x < length rows -> zero_elem V s x \/ conn rows x.

  Lemma few_dups_le s k n : cont_ok C s -> n <= c_len C s -> few_duplicates V s k -> dups_le V s n k.
  Proof.
    intros Hc Hn Hf idx e l Hi He Hnd Hl. apply (Hf idx e l); auto; [lia|].
    intros x Hx. destruct (Hl x Hx) as (H1 & H2 & H3). split; [lia|]. split; auto.
    destruct (ck_dte Hc (i := x) (j := idx) (e := e)) as (d & Ed); [lia..|auto|]. exists d. split; auto.
    unfold fE in H3. rewrite Ed in H3. exact H3.
  Qed.

  Lemma dups_weak s n k k' : k <= k' -> dups_le V s n k -> dups_le V s n k'.
  Proof. intros Hk Hd idx e l H1 H2 H3 H4. pose proof (Hd idx e l H1 H2 H3 H4). lia. Qed.

  Lemma half_nn b ideal : 0 < k_nn (b_config b) -> half (b_config b) <= builder_nn V b ideal / 2.
  Proof.
    intros Hk. unfold half, builder_nn. destruct (ideal <? builder_total V b); auto. apply Nat.div_le_mono; [lia|].
    pose proof (Nat.div_le_upper_bound (k_nn (b_config b)) 2 (k_nn (b_config b))). lia.
  Qed.

  Lemma roomy_nn b num : roomy (b_config b) (c_len C (b_elems b)) -> num <= c_len C (b_elems b) -> forall i,
    Nat.min num (builder_ideal V b i) <= builder_nn V b (builder_ideal V b i) + 1.
  Proof.
    intros Hr Hn i. specialize (Hr (c_len C (b_elems b)) i (le_n _)). cbv zeta in Hr.
    unfold builder_nn, builder_ideal, builder_total in *.
    destruct (_ <? _) in *; lia.
  Qed.

  Lemma index_last_conn b prev R l rows max_num sched b' :
    cfg_ok (b_config b) -> elems_ok V (b_elems b) -> b_layers b = prev ++ [l] ->
    chain V (b_elems b) true (k_nn (b_config b)) prev R -> grown R ->
    ((rows = [] /\ prev = []) \/ lfine V (b_elems b) true (k_nn (b_config b)) l rows) ->
    fw_is (fwidth l) rows l -> k_nn (b_config b) <= fwidth l -> grows true (last R []) rows -> emono (last R []) rows ->
    closed rows -> all_in (b_elems b) rows ->
    length rows <= max_num -> 0 < max_num <= c_len C (b_elems b) ->
    roomy (b_config b) (c_len C (b_elems b)) -> few_duplicates V (b_elems b) (half (b_config b)) ->
    index_last V b max_num sched = Ok b' ->
    b_elems b' = b_elems b /\ b_config b' = b_config b /\
    exists l' rows', b_layers b' = prev ++ [l'] /\ lfine V (b_elems b) true (k_nn (b_config b)) l' rows' /\
      grows true (last R []) rows' /\ emono (last R []) rows' /\ closed rows' /\ all_in (b_elems b) rows'.
  Proof.
    intros Hcfg Hel Hls Hch Hgr Hrows His Hw Hg Hme Hcl Hall Hle Hmax Hroom Hfew Ei.
    pose proof (total_fits Hcfg Hel) as Hfit. destruct Hcfg as (Hnn & Hms & _ & Hid). destruct Hel as [Hc Hlen Hfu].
    assert (Hw0 : 0 < fwidth l) by lia.
    unfold index_last in Ei. rewrite Hls, split_last_app in Ei. cbn [ounwrap obind] in Ei.
    replace (length (prev ++ [l]) - 1) with (length prev) in Ei by (rewrite app_length; cbn; lia).
    set (ideal := builder_ideal V b (length prev)) in *.
    assert (Hid0 : rows = [] -> 0 < ideal).
    { intros E0. destruct Hrows as [[_ ->]|Hl]; [apply Hid; [lia|exact Hfit]|]. pose proof (f_pos Hl) as Hp0. rewrite E0 in Hp0. cbn in Hp0. lia. }
    assert (Hrows' : rows = [] \/ lfine V (b_elems b) true (k_nn (b_config b)) l rows) by (destruct Hrows as [[? _]|]; auto).
    clear Hrows. rename Hrows' into Hrows. rewrite (fw_is_len Hw0 His) in Ei.
    destruct (Nat.leb_spec ideal (length rows)) as [Hi|Hi].
    { apply ok_inj in Ei. subst b'. split; auto. split; auto. exists l, rows. split; auto. split; [|auto].
      destruct Hrows as [E0|Hl]; auto. specialize (Hid0 E0). rewrite E0 in Hi. cbn in Hi. lia. }
    set (num := Nat.min max_num ideal) in *. set (nn := builder_nn V b ideal) in *. set (s := b_elems b) in *.
    assert (Hnnb : 0 < nn <= k_nn (b_config b)) by (apply builder_nn_ok; auto).
    assert (Hnum : length rows <= num) by lia.
    assert (Hnum2 : 0 < num <= c_len C s) by lia.
    assert (Hsm : num <= nn + 1) by (exact (@roomy_nn b max_num Hroom (proj2 Hmax) (length prev))).
    assert (Hdup : dups_le V s num (nn / 2)).
    { eapply dups_weak; [apply half_nn; auto|]. apply few_dups_le; auto; lia. }
    destruct (index_elements V s nn _ prev num l false _) as [l1|] eqn:E1; [|discriminate]. cbn [obind] in Ei.
    destruct (@pass_conn _ _ V s Hc Hsort Hlen Hfu (k_nn (b_config b)) nn (k_ms (b_config b)) prev R num l rows false _ l1
      Hch Hgr Hrows Hcl His Hw0 Hw Hg Hme Hnum Hnum2 ltac:(discriminate) ltac:(lia) Hms Hsm Hdup E1)
      as (rows1 & Hl1 & Hwl & HL1 & Hlv1 & Hm1 & Hc1 & Hn1).
    assert (Hg1 : grows true (last R []) rows1) by (destruct Hg as [G1 G2]; split; [lia|auto]).
    assert (Hme1 : emono (last R []) rows1) by (eapply emono_trans; eauto).
    assert (Hall1 : all_in s rows1).
    { intros x Hx. rewrite HL1 in Hx. destruct (Nat.lt_ge_cases x (length rows)) as [Hlt|Hge]; [|apply Hn1; lia].
      destruct (Hall x Hlt) as [Hz|Hz]; [auto|]. right. exact (conn_mono Hm1 Hz). }
    destruct (k_reinsert (b_config b)).
    - destruct (index_elements V s nn _ prev num l1 true _) as [l2|] eqn:E2; [|discriminate]. cbn [obind] in Ei.
      apply ok_inj in Ei. subst b'. cbn [b_elems b_config b_layers]. split; auto. split; auto.
      destruct (@pass_conn _ _ V s Hc Hsort Hlen Hfu (k_nn (b_config b)) nn (Nat.max 1 (k_ms (b_config b) / 2)) prev R num l1 rows1 true _ l2
        Hch Hgr (or_intror Hl1) Hc1 (f_is Hl1) (f_w0 Hl1) (f_w Hl1) Hg1 Hme1 ltac:(lia) Hnum2 ltac:(auto) ltac:(lia) ltac:(lia) Hsm Hdup E2)
        as (rows2 & Hl2 & Hwl2 & HL2 & Hlv2 & Hm2 & Hc2 & _).
      exists l2, rows2. split; auto. split; auto. split; [destruct Hg1 as [G1 G2]; split; [lia|auto]|]. split; [eapply emono_trans; eauto|].
      split; auto. intros x Hx. destruct (Hall1 x) as [Hz|Hz]; [lia|auto|]. right. exact (conn_mono Hm2 Hz).
    - cbn [obind] in Ei. apply ok_inj in Ei. subst b'. cbn [b_elems b_config b_layers]. split; auto. split; auto.
      exists l1, rows1. auto 10.
  Qed.

  Definition cinv (b : builder S) : Prop := exists R,
    chain V (b_elems b) true (k_nn (b_config b)) (b_layers b) R /\ grown R /\ Forall (all_in (b_elems b)) R.

  Lemma sorted_snoc {A} (P : A -> A -> Prop) (l : list A) (x : A) : StronglySorted P l -> Forall (fun a => P a x) l -> StronglySorted P (l ++ [x]).
  Proof using Type.
    intros H. induction H as [|a l Hs IH HF]; intros Hx; cbn [app]; [repeat constructor|]. inversion Hx; subst.
    constructor; auto. apply Forall_app. auto.
  Qed.
  Lemma sorted_unsnoc {A} (P : A -> A -> Prop) (l : list A) (x : A) : StronglySorted P (l ++ [x]) -> StronglySorted P l /\ Forall (fun a => P a x) l.
  Proof using Type.
    induction l as [|a l IH]; cbn [app]; intros H; [split; constructor|]. inversion H as [|? ? H1 H2]; subst. destruct (IH H1) as [Ha Hb].
    apply Forall_app in H2 as [H2 H3]. inversion H3; subst. split; constructor; auto.
  Qed.
  Lemma last_mono R rows : StronglySorted emono R -> emono (last R []) rows -> Forall (fun r => emono r rows) R.
  Proof using Type.
    intros HS Hm. destruct (@nil_or_snoc _ R) as [->|(R0 & z & ->)]; [constructor|]. rewrite last_last in Hm.
    apply sorted_unsnoc in HS as [_ HA]. apply Forall_app. split; [|constructor; [exact Hm|constructor]].
    eapply Forall_impl; [|exact HA]. intros a Ha. exact (emono_trans Ha Hm).
  Qed.

  Lemma grown_snoc R rows : grown R -> emono (last R []) rows -> closed rows -> grown (R ++ [rows]).
  Proof using Type.
    intros [H1 H2] Hm Hc. split; [apply sorted_snoc; auto; now apply last_mono|]. apply Forall_app. auto.
  Qed.
  Lemma grown_split R rows : grown (R ++ [rows]) -> grown R /\ emono (last R []) rows /\ closed rows.
  Proof using Type.
    intros [H1 H2]. apply sorted_unsnoc in H1 as [H1 H3]. apply Forall_app in H2 as [H2 H4]. inversion H4; subst.
    split; [split; auto|]. split; auto. destruct (@nil_or_snoc _ R) as [->|(R0 & z & ->)]; [apply emono_nil|]. rewrite last_last.
    apply Forall_app in H3 as [_ H3]. inversion H3; auto.
  Qed.

  Lemma existing_conn b num sched b' : bfine V true b -> cinv b -> b_layers b <> [] ->
    builder_len b <= num <= c_len C (b_elems b) -> 0 < num ->
    roomy (b_config b) (c_len C (b_elems b)) -> few_duplicates V (b_elems b) (half (b_config b)) ->
    index_last V b num sched = Ok b' -> cinv b' /\ b_elems b' = b_elems b /\ b_config b' = b_config b.
  Proof.
    intros (Hcfg & Hel & _) (R & Hch & Hgr & Hall) Hne Hle Hpos Hroom Hfew Ei.
    destruct (@nil_or_snoc _ (b_layers b)) as [|(p & l & Els)]; [congruence|]. rewrite Els in Hch.
    destruct (chain_split Hch) as (R0 & rows & -> & Hch0 & Hl & Hg).
    apply grown_split in Hgr as (Hgr & Hm & Hcl). apply Forall_app in Hall as [Ha1 Ha2]. inversion Ha2 as [|? ? Ha3 _]; subst.
    assert (Hbl : builder_len b = length rows) by (eapply builder_len_app; eauto).
    destruct (@index_last_conn b p R0 l rows num sched b' Hcfg Hel Els Hch0 Hgr (or_intror Hl) (f_is Hl) (f_w Hl) Hg Hm Hcl Ha3 ltac:(lia) ltac:(lia) Hroom Hfew Ei)
      as (He & Hcf & l' & rows' & Els' & Hl' & Hg' & Hm' & Hc' & Ha').
    split; [|auto]. exists (R0 ++ [rows']). rewrite He, Hcf, Els'. split; [apply chain_app; auto|]. split; [apply grown_snoc; auto|].
    apply Forall_app. auto.
  Qed.

  Lemma next_conn b num sched b' : bfine V true b -> cinv b ->
    builder_len b < num <= c_len C (b_elems b) ->
    roomy (b_config b) (c_len C (b_elems b)) -> few_duplicates V (b_elems b) (half (b_config b)) ->
    index_last V (add_layer b) num sched = Ok b' -> cinv b' /\ b_elems b' = b_elems b /\ b_config b' = b_config b.
  Proof.
    intros (Hcfg & Hel & _) (R & Hch & Hgr & Hall) Hle Hroom Hfew Ei.
    assert (Hex : exists l rows, b_layers (add_layer b) = b_layers b ++ [l] /\
       ((rows = [] /\ b_layers b = []) \/ lfine V (b_elems b) true (k_nn (b_config b)) l rows) /\ fw_is (fwidth l) rows l /\
       k_nn (b_config b) <= fwidth l /\ grows true (last R []) rows /\ emono (last R []) rows /\ closed rows /\ all_in (b_elems b) rows /\ builder_len b = length rows).
    { destruct (@nil_or_snoc _ (b_layers b)) as [Els|(p & l & Els)].
      - exists (fw_with_width (k_nn (b_config b))), []. unfold add_layer. rewrite Els in *. cbn [split_last nth_error length Nat.sub b_layers].
        destruct Hch as [HF _]. inversion HF; subst.
        split; auto. split; auto. split; [apply fw_is_with_width|]. split; [cbn; lia|].
        split; [apply grows_refl|]. split; [apply emono_refl|]. split; [apply closed_nil|]. split; [intros x Hx; cbn in Hx; lia|]. now apply builder_len_none.
      - rewrite Els in Hch. destruct (chain_split Hch) as (R0 & rows & -> & Hch0 & Hl & Hg).
        apply grown_split in Hgr as (Hgr & Hm & Hcl). apply Forall_app in Hall as [Ha1 Ha2]. inversion Ha2 as [|? ? Ha3 _]; subst.
        exists l, rows. unfold add_layer. rewrite Els, split_last_app. cbn [b_layers]. split; auto. split; auto. split; [apply Hl|]. split; [apply Hl|].
        rewrite last_last. split; [apply grows_refl|]. split; [apply emono_refl|]. split; auto. split; auto. eapply builder_len_app; eauto. }
    destruct Hex as (l & rows & Els & Hrows & His & Hw & Hg & Hm & Hcl & Ha & Hbl).
    destruct (@index_last_conn (add_layer b) (b_layers b) R l rows num sched b' Hcfg Hel Els Hch Hgr Hrows His Hw Hg Hm Hcl Ha ltac:(lia) ltac:(cbn; lia) Hroom Hfew Ei)
      as (He & Hcf & l' & rows' & Els' & Hl' & Hg' & Hm' & Hc' & Ha').
    cbn [add_layer b_elems b_config] in *.
    split; [|auto]. exists (R ++ [rows']). rewrite He, Hcf, Els'. split; [apply chain_app; auto|]. split; [apply grown_snoc; auto|].
    apply Forall_app. auto.
  Qed.
End ReachB.
