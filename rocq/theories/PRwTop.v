(** * Proofs: starting states, ids, waiting *)
From Verif Require Import Base BaseFacts MSliceVec SSliceVec PFixed MIndexIo MSearch PHeap PSearch MBuild SBuild PSelect PRow PSLite PBuildInv PBuildRun PBuildLayer PBuildFair PBuilder PHistory PBuildAny MLocks MRw SRw PRwSeq PRwLock PRwIds PRwConc.
Set Implicit Arguments.
Unset Strict Implicit.

(** ** Starting states *)
Lemma wf_start {S E I} (V : benv S E) (cpush : S -> I -> outcome S) cfg max (W0 : rw S) :
  rw_wf V cfg W0 -> sizes_ok cfg max W0 -> good_start V cpush cfg max W0 false.
Proof.
  intros [[Hnn Hw] Hms (rows & k & Hc & Hr) Hp] Hs.
  destruct (layers_wf_chain (le_n _) Hp) as (R & Hch & Hlast).
  exists R, rows, k. assert (HL : length rows = c_len (e_ops V) (w_elems W0)) by apply Hr.
  constructor; auto.
  - eapply change_base; [apply rows_wf_inv; exact Hr|]. intros x (HU & _). discriminate.
  - lia.
  - apply (so_pos Hs).
  - apply (so_cur Hs).
Qed.

Section New.
  Context {S E : Type} (V : benv S E).
  Local Notation C := (e_ops V).
  Hypothesis Hsort : sorts_by_dist (e_sort V).

  Definition last_width (b : builder S) : nat :=
    match split_last (b_layers b) with Some (l, _) => fwidth l | None => k_nn (b_config b) end.

  Lemma index_last_width b num sched b' : index_last V b num sched = Ok b' -> b_layers b <> [] ->
    last_width b' = last_width b /\ b_config b' = b_config b.
  Proof.
    unfold index_last, last_width. destruct (split_last (b_layers b)) as [[l p]|] eqn:Es; [|discriminate]. cbn [ounwrap obind].
    destruct (_ <=? fw_len l). { intros H _. injection H as <-. rewrite Es. auto. }
    assert (Hw : forall nn ms prev n l0 re sc l1, index_elements V (b_elems b) nn ms prev n l0 re sc = Ok l1 -> fwidth l1 = fwidth l0).
    { intros nn ms prev n l0 re sc l1. unfold index_elements. destruct (start_pass n l0 re); [|discriminate]. cbn [obind].
      destruct (run _ _ _ _ _ _ _) as [x|]; [|discriminate]. cbn [obind]. destruct (all_done (snd x)); [|discriminate].
      destruct (limit_rows _ _ _ _); [|discriminate]. cbn [obind]. intros H. injection H as <-. reflexivity. }
    destruct (index_elements _ _ _ _ _ _ _ _ _) as [l1|] eqn:E1; [|discriminate]. cbn [obind]. apply Hw in E1.
    destruct (k_reinsert (b_config b)); cbn [obind].
    - destruct (index_elements _ _ _ _ _ _ _ _ _) as [l2|] eqn:E2; [|discriminate]. cbn [obind]. apply Hw in E2.
      intros H _. injection H as <-. cbn [b_layers b_config]. rewrite split_last_app. split; auto. congruence.
    - intros H _. injection H as <-. cbn [b_layers b_config]. rewrite split_last_app. auto.
  Qed.

  Lemma build_loop_top num sched : forall fuel b b', bfine V true b -> builder_len b < num <= c_len C (b_elems b) ->
    build_loop V fuel b num sched = Ok b' ->
    num <= builder_ideal V b (length (b_layers b') - 1) /\ b_layers b' <> [] /\ last_width b' = last_width b.
  Proof.
    induction fuel as [|fuel IH]; intros b b' HB Hle; cbn [build_loop].
    - destruct (Nat.leb_spec num (builder_len b)); [lia|discriminate].
    - destruct (Nat.leb_spec num (builder_len b)); [lia|].
      destruct (index_last V (add_layer b) num sched) as [b1|] eqn:E1; [|discriminate]. cbn [obind].
      destruct (add_layer_ok Hsort sched HB Hle) as (P1 & _). destruct (P1 _ E1) as (HP & l' & Els & _).
      assert (Hwid : last_width b1 = last_width b).
      { destruct (index_last_width E1) as [H1 _].
        { unfold add_layer. cbn [b_layers]. destruct (b_layers b); discriminate. }
        rewrite H1. unfold last_width, add_layer. cbn [b_layers]. rewrite split_last_app. destruct (split_last (b_layers b)) as [[l p]|]; reflexivity. }
      assert (Hid : forall i, builder_ideal V b1 i = builder_ideal V b i).
      { intros i. unfold builder_ideal, builder_total. now rewrite (sp_cfg HP), (sp_elems HP). }
      destruct (Nat.leb_spec num (builder_len b1)) as [Hd|Hd].
      + destruct fuel as [|fuel]; cbn [build_loop]; (destruct (Nat.leb_spec num (builder_len b1)); [|lia]); intros H2; injection H2 as <-;
        (split; [|split; [rewrite Els; destruct (b_layers b); discriminate|auto]]);
        pose proof (sp_short HP); rewrite Els, app_length; cbn [length]; replace (length (b_layers b) + 1 - 1) with (length (b_layers b)) by lia; lia.
      + intros H2. destruct (IH b1 b' (sp_fine HP)) as (H3 & H4 & H5); auto; [rewrite (sp_elems HP); lia|].
        rewrite Hid in H3. split; auto. split; auto. congruence.
  Qed.

  Lemma fine_wf (s : S) (w max : nat) l rows : lfine V s true w l rows -> length rows <= max -> layer_wf w max l.
  Proof.
    intros [H1 H2 H3 H4 H5 H6] Hm. split; auto. split; auto. rewrite (fw_is_len H3 H1). split; [lia|]. exists rows. split; [apply H1|].
    split; auto. intros i r Hr. destruct (y_row H6 Hr) as (ns & Hs & _ & Ho). exists ns. split; auto.
  Qed.

  Lemma chain_wf s w ls R : chain V s true w ls R -> layers_wf w (c_len C s) ls.
  Proof.
    intros [HF HS]. assert (HF' : Forall2 (fun l r => layer_wf w (c_len C s) l /\ fw_len l = length r) ls R).
    { eapply Forall2_imp; [|exact HF]. intros l r Hl. split; [eapply fine_wf; eauto; apply (f_max Hl)|apply (fw_is_len (f_w0 Hl) (f_is Hl))]. }
    clear HF. split.
    - clear HS. induction HF' as [|l r ls R [Hl _] HF IH]; constructor; auto.
    - revert HS. induction HF' as [|l r ls R [_ Hl] HF IH]; intros HS; constructor; inversion HS as [|? ? HS' HA]; subst; auto.
      clear -HF HA Hl. induction HF as [|l1 r1 ls R [_ Hl1] HF IH]; constructor; inversion HA as [|? ? [H1 _] HA']; subst; auto. lia.
  Qed.

  (** [RwGranneBuilder::new] on a builder that has not been built *)
  Lemma rw_new_wf cfg max fuel s sched b0 b1 :
    cfg_ok cfg -> usable V s -> builder_new V cfg s = Ok b0 -> 0 < max -> c_len C s <= max -> fits_usize max ->
    (forall i j, i <= j -> k_ideal cfg max i <= k_ideal cfg max j) -> (forall i, k_ideal cfg max i <= max) ->
    build V fuel (mkBuilder s [] (mkConfig (k_nn cfg) (k_ms cfg) (k_reinsert cfg) (Some max) (k_ideal cfg))) sched = Ok b1 ->
    exists W, rw_new V max fuel b0 sched = Ok W /\ rw_wf V cfg W /\ sizes_ok cfg max W /\ length (w_cur W) = k_ideal cfg max (length (w_prev W)) /\ w_elems W = s.
  Proof.
    intros Hcf Hus En Hm Hn Hfit Hmono Hmax Eb.
    unfold builder_new in En. destruct (N.ltb_spec (N.of_nat (c_len C s)) UNUSED) as [Hid|]; [|discriminate]. cbn [oassert obind] in En. injection En as <-.
    set (cf := mkConfig (k_nn cfg) (k_ms cfg) (k_reinsert cfg) (Some max) (k_ideal cfg)) in *.
    pose proof Hcf as (Hnn & Hms & _ & Hpos).
    assert (HB : bfine V true (mkBuilder s [] cf)).
    { split; [split; [auto|split; [auto|split; [intros x Hx; injection Hx as <-; auto|auto]]]|].
      split; [constructor; [apply Hus|cbn; lia|apply Hus]|]. exists []. split; constructor. }
    assert (Hbi : forall i, builder_ideal V (mkBuilder s [] cf) i = k_ideal cfg max i).
    { intros i. unfold builder_ideal, builder_total. cbn [b_config b_elems cf k_expected k_ideal]. now rewrite Nat.max_l by lia. }
    assert (H1 : (b_layers b1 = [] /\ c_len C s = 0 /\ b_elems b1 = s) \/
      (exists p l R rows, b_layers b1 = p ++ [l] /\ b_elems b1 = s /\ chain V s true (k_nn cfg) p R /\ lfine V s true (k_nn cfg) l rows /\
         length rows = c_len C s /\ fwidth l = k_nn cfg /\ c_len C s <= k_ideal cfg max (length p))).
    { unfold build, builder_num_elements in Eb. cbn [b_elems] in Eb. destruct (Nat.eq_dec (c_len C s) 0) as [H0|H0].
      - left. rewrite H0 in Eb. cbn in Eb. injection Eb as <-. auto.
      - right. destruct (@build_partial_ok _ _ V Hsort true fuel _ (c_len C s) sched HB) as (P1 & _).
        { unfold builder_len. cbn. lia. } { lia. }
        destruct (P1 _ Eb) as (HB1 & He & Hc & HL & _). cbn [b_elems b_config] in He, Hc.
        unfold build_partial in Eb. destruct (Nat.eqb_spec (c_len C s) 0); [lia|].
        destruct (oassert _); [|discriminate]. cbn [obind] in Eb. destruct (oassert _); [|discriminate]. cbn [obind b_layers length Nat.ltb Nat.leb] in Eb.
        destruct (@build_loop_top (c_len C s) sched fuel _ b1 HB) as (T1 & T2 & T3); auto.
        { unfold builder_len. cbn. lia. }
        destruct (bfine_split HB1) as [|(p & l & R & rows & Els & Hch & Hl & _ & Hlen & _)]; [congruence|].
        exists p, l, R, rows. rewrite He, Hc in *. cbn [cf k_nn] in *. split; auto. split; auto. split; auto. split; auto. split; [lia|].
        rewrite Hbi in T1. unfold last_width in T3. rewrite Els, split_last_app in T3. cbn in T3. split; auto.
        rewrite Els, app_length in T1. cbn [length] in T1. replace (length p + 1 - 1) with (length p) in T1 by lia. auto. }
    unfold rw_new. cbn [b_config b_elems b_layers]. fold cf. rewrite Eb. cbn [obind].
    assert (Hgo : forall l p rows, fw_is (k_nn cfg) rows l -> length rows = c_len C s -> rows_wf (k_nn cfg) (c_len C s) rows ->
       layers_wf (k_nn cfg) (c_len C s) p -> c_len C s <= k_ideal cfg max (length p) -> b_elems b1 = s ->
       exists W, (let num := Nat.max (fw_len l) (k_ideal cfg max (length p)) in
           let current := fw_resize l num UNUSED in
           let* rows := rows_of_layer current in Ok (mkRw (b_elems b1) rows (fwidth current) p)) = Ok W /\
         rw_wf V cfg W /\ sizes_ok cfg max W /\ length (w_cur W) = k_ideal cfg max (length (w_prev W)) /\ w_elems W = s).
    { intros l p rows His HL Hwf Hp Hle He. cbn zeta. rewrite (fw_is_len Hnn His), HL.
      rewrite Nat.max_r by auto. set (sz := k_ideal cfg max (length p)) in *.
      pose proof (fw_is_resize sz UNUSED Hnn His) as Hrs. rewrite firstn_all2 in Hrs by lia.
      assert (Hwl : fwidth (fw_resize l sz UNUSED) = k_nn cfg) by apply Hrs.
      unfold rows_of_layer. rewrite Hwl. destruct (Nat.ltb_spec 0 (k_nn cfg)); [|lia]. cbn [oassert obind].
      rewrite (fw_is_iter Hnn Hrs). cbn [obind]. eexists. split; [reflexivity|]. rewrite He.
      assert (Hll : length (rows ++ repeat (repeat UNUSED (k_nn cfg)) (sz - length rows)) = sz) by (rewrite app_length, repeat_length; lia).
      split; [|split; [|split; [exact Hll|reflexivity]]].
      - constructor; cbn [w_elems w_cur w_width w_prev]; auto. exists rows, (sz - length rows). split; auto.
      - constructor; cbn [w_elems w_cur w_width w_prev]; auto.
        + rewrite Hll. specialize (Hpos max Hm Hfit). specialize (Hmono 0 (length p) ltac:(lia)). unfold sz. lia.
        + rewrite Hll. apply Hmono. lia. }
    destruct H1 as [(E0 & Hz & He)|(p & l & R & rows & Els & He & Hch & Hl & HL & Hw & Hle)].
    - rewrite E0. cbn [split_last nth_error length Nat.sub]. apply (Hgo _ [] []); auto.
      + apply fw_is_with_width.
      + split; [cbn; lia|]. intros [|i] r Hr; discriminate.
      + split; constructor.
      + lia.
    - rewrite Els, split_last_app. apply (Hgo l p rows); auto.
      + rewrite <- Hw. apply (f_is Hl).
      + rewrite <- HL, <- Hw. split; auto. intros i r Hr. destruct (y_row (f_inv Hl) Hr) as (ns & Hs & _ & Ho). exists ns. auto.
      + eapply chain_wf; eauto.
  Qed.
End New.

(** ** Elements *)
Lemma pushed_get {S E I} (C : cops S E) (cpush : S -> I -> outcome S) elem : appends C cpush elem ->
  forall hist s0 s, ofold cpush hist s0 = Ok s ->
  c_len C s = c_len C s0 + length hist /\
  (forall i, i < c_len C s0 -> c_get C s i = c_get C s0 i) /\
  (forall j x, nth_error hist j = Some x -> c_get C s (c_len C s0 + j) = Ok (elem x)).
Proof.
  intros [Hp Hx]. induction hist as [|x hist IH]; intros s0 s Ef; cbn [ofold] in Ef.
  - injection Ef as <-. cbn [length]. split; [lia|]. split; auto. intros [|j] x Hj; discriminate.
  - destruct (cpush s0 x) as [s1|] eqn:E1; [|discriminate]. cbn [obind] in Ef. destruct (Hp _ _ _ E1) as (HL & Hg & _).
    destruct (IH _ _ Ef) as (HL2 & Hg2 & Hn2). rewrite HL in *. cbn [length]. split; [lia|]. split.
    + intros i Hi. rewrite Hg2 by lia. auto.
    + intros [|j] y Hj; cbn [nth_error] in Hj.
      * injection Hj as <-. rewrite Nat.add_0_r, Hg2 by lia. eauto.
      * rewrite <- (Hn2 j y Hj). f_equal. lia.
Qed.

Lemma in_combine_seq {A} (l : list A) i x n : In (i, x) (combine (seq n (length l)) l) ->
  n <= i /\ nth_error l (i - n) = Some x.
Proof.
  revert n. induction l as [|a l IH]; intros n; cbn [length seq combine In]; [intros []|].
  intros [H|H].
  - injection H as <- <-. rewrite Nat.sub_diag. auto.
  - apply IH in H as [H1 H2]. split; [lia|]. replace (i - n) with (Datatypes.S (i - Datatypes.S n)) by lia. auto.
Qed.
Lemma map_fst_combine_seq {A} (l : list A) n : map fst (combine (seq n (length l)) l) = seq n (length l).
Proof. revert n. induction l as [|a l IH]; intros n; cbn; auto. now rewrite IH. Qed.

Lemma NoDup_flat_map {A B} (f : A -> list B) l x : NoDup (flat_map f l) -> In x l -> NoDup (f x).
Proof.
  induction l as [|a l IH]; cbn; intros H Hx; [destruct Hx|]. destruct Hx as [->|Hx].
  - exact (NoDup_appl _ _ H).
  - apply IH; auto. exact (NoDup_appr _ _ H).
Qed.

Section Ids2.
  Context {S E I : Type} (V : benv S E) (cpush : S -> I -> outcome S) (cfg : config) (max : nat) (W0 : rw S).
  Local Notation C := (e_ops V).

  Lemma nth_combine {A B} (ids : list A) (xs : list B) j i x : nth_error ids j = Some i -> nth_error xs j = Some x -> In (i, x) (combine ids xs).
  Proof.
    revert xs j. induction ids as [|a ids IH]; intros [|b xs] [|j]; cbn; try discriminate.
    - intros H1 H2. injection H1 as ->. injection H2 as ->. auto.
    - intros H1 H2. right. eapply IH; eauto.
  Qed.

  Lemma insert_claims (y : rsys S E I) xs ids : In (xs, ids) (inserts y) -> incl (combine ids xs) (flat_map claims (snd y)).
  Proof.
    intros Hin z Hz. unfold inserts in Hin. apply in_flat_map in Hin as (t & Ht & Hin). apply in_flat_map in Hin as (r & Hr & Hin).
    apply in_flat_map. exists t. split; auto. unfold claims. apply in_or_app. left. apply in_flat_map. exists r. split; auto.
    destruct r; cbn in Hin; try contradiction. destruct Hin as [Hin|[]]. injection Hin as -> ->. auto.
  Qed.

  Lemma insert_log n (y : rsys S E I) xs ids : (forall i t, nth_error (snd y) i = Some t -> thread_ids max n t) ->
    In (xs, ids) (inserts y) -> got n xs ids (fun rest => rest <> [] -> max <= n).
  Proof.
    intros HT Hin. unfold inserts in Hin. apply in_flat_map in Hin as (t & Ht & Hin). apply in_flat_map in Hin as (r & Hr & Hin).
    apply In_nth_error in Ht as (i & Hi). destruct (HT _ _ Hi) as [_ HF]. rewrite Forall_forall in HF. specialize (HF _ Hr).
    destruct r; cbn in Hin; try contradiction. destruct Hin as [Hin|[]]. injection Hin as -> ->. exact HF.
  Qed.

  (** ids of all returned calls are distinct *)
  Lemma inserts_nodup (y : rsys S E I) : (forall i t, nth_error (snd y) i = Some t -> thread_ids max (c_len C (w_elems (fst y))) t) ->
    NoDup (map fst (flat_map claims (snd y))) -> NoDup (concat (map snd (inserts y))).
  Proof.
    intros HT. unfold inserts. destruct y as [W ts]. cbn [fst snd] in *. induction ts as [|t ts IH]; cbn [flat_map]; [auto|].
    rewrite !map_app, concat_app. intros HN.
    assert (Hsub : concat (map snd (flat_map inserted_in (t_log t))) = map fst (flat_map log_claims (t_log t))).
    { destruct (HT 0 t eq_refl) as [_ HF]. clear -HF. induction HF as [|r l Hr HF IH]; cbn [flat_map]; auto.
      rewrite !map_app, concat_app, IH. f_equal. destruct r as [xs ids| |]; cbn; auto. rewrite app_nil_r.
      destruct Hr as (d & re & -> & Hlen & _). clear -Hlen. revert d Hlen. induction ids as [|i ids IH]; intros [|x d]; cbn; intros H; try lia; auto.
      f_equal. apply IH. lia. }
    rewrite Hsub. unfold claims at 1 in HN. rewrite map_app in HN.
    apply NoDup_app_intro.
    - exact (NoDup_appl _ _ (NoDup_appl _ _ HN)).
    - apply IH; [intros i u Hu; apply (HT (Datatypes.S i) u Hu)|]. exact (NoDup_appr _ _ HN).
    - intros x Hx Hx2. refine (NoDup_app_disj _ _ x HN _ _).
      + apply in_or_app. auto.
      + clear -Hx2 HT. assert (HT' : forall u, In u ts -> thread_ids max (c_len C (w_elems W)) u).
        { intros u Hu. apply In_nth_error in Hu as (i & Hi). apply (HT (Datatypes.S i) u Hi). }
        clear HT. apply in_concat in Hx2 as (ids & Hids & Hx2). apply in_map_iff in Hids as ((xs & ids') & E1 & Hin). cbn in E1. subst ids'.
        apply in_flat_map in Hin as (u & Hu & Hin). destruct (HT' u Hu) as [_ HF]. apply in_flat_map in Hin as (r & Hr & Hin).
        rewrite Forall_forall in HF. specialize (HF _ Hr). destruct r; cbn in Hin; try contradiction. destruct Hin as [Hin|[]]. injection Hin as -> ->.
        destruct HF as (d & re & -> & Hlen & _). apply In_nth_error in Hx2 as (j & Hj).
        assert (Hj2 : j < length d) by (rewrite Hlen; apply nth_error_Some; congruence).
        destruct (nth_error d j) as [z|] eqn:Ez; [|apply nth_error_None in Ez; lia].
        apply in_map_iff. exists (x, z). split; auto. apply in_flat_map. exists u. split; auto. unfold claims. apply in_or_app. left.
        apply in_flat_map. exists (Inserted (d ++ re) ids). split; auto. cbn [log_claims].
        eapply nth_combine; [exact Hj|]. rewrite nth_error_app1; auto.
  Qed.
End Ids2.

(** ** Waiting *)
Section Wait.
  Context {S E I : Type} (P : rpolicy S E I).
  Hypothesis HL : live_locks P.

  Lemma waiting h (y : rsys S E I) i t : nth_error (snd y) i = Some t -> ~ can_go P h y i -> finished t \/ exists l a, wants (t_pc t) = Some (l, a).
  Proof.
    intros Ht Hn. destruct (wants (t_pc t)) as [[l a]|] eqn:Ew; [eauto|].
    destruct (t_pc t) eqn:Ep; try discriminate;
      try (exfalso; apply Hn; exists t; split; auto; split; [intros [H _]; congruence|intros l a (u & Hu & Hw); congruence]).
    destruct (t_todo t) as [|c cs] eqn:Et; [left; split; auto|].
    exfalso. apply Hn. exists t. split; auto. split; [intros [_ H]; congruence|]. intros l a (u & Hu & Hw).
    rewrite Ht in Hu. injection Hu as <-. rewrite Ep in Hw. discriminate.
  Qed.

  Lemma stuck_case_at h (y : rsys S E I) : (exists t, In t (snd y) /\ ~ finished t) -> (forall i, ~ can_go P h y i) ->
    (exists i t, nth_error (snd y) i = Some t /\ t_pc t = WGuard) /\
    (exists j u xs acc d, nth_error (snd y) j = Some u /\ t_pc u = IGuard xs acc (Datatypes.S d)) /\
    (forall k t, nth_error (snd y) k = Some t -> finished t \/ t_pc t = WGuard \/ exists xs acc d, t_pc t = IGuard xs acc d).
  Proof.
    intros (t0 & Ht0 & Hf0) Hst.
    assert (Hgo : forall i l a, waits y i l a -> P h y i = true -> False).
    { intros i l a (t & Ht & Hw) Hp. apply (Hst i). exists t. split; auto. split; [|intros; auto]. intros [E0 _]. rewrite E0 in Hw. discriminate. }
    assert (Hw : forall i t, nth_error (snd y) i = Some t -> finished t \/ exists l a, wants (t_pc t) = Some (l, a)).
    { intros i t Ht. eapply waiting; eauto. }
    assert (Hfree : forall l, (forall j b, ~ has_lock y j l b) -> forall i a, ~ waits y i l a).
    { intros l Hn i a Hi. destruct (ll_free HL h Hi Hn) as (j & b & Hj & Hp). eapply Hgo; eauto. }
    assert (HLL : forall j b, ~ has_lock y j LLayers b).
    { intros j b (t & Ht & Hin). destruct (Hw _ _ Ht) as [[E0 _]|(l & a & Ha)]; [rewrite E0 in Hin; destruct Hin|].
      destruct (t_pc t); try discriminate; cbn [guards In] in Hin;
        repeat match goal with H : _ \/ _ |- _ => destruct H | H : False |- _ => destruct H | H : (_, _) = (_, _) |- _ => discriminate H
               | H : In _ (repeat _ _) |- _ => apply repeat_spec in H end; discriminate. }
    assert (HnL : forall i a, ~ waits y i LLayers a) by (apply Hfree; auto).
    assert (HEE : forall j b, ~ has_lock y j LElems b).
    { intros j b (t & Ht & Hin). destruct (Hw _ _ Ht) as [[E0 _]|(l & a & Ha)]; [rewrite E0 in Hin; destruct Hin|].
      assert (Hnl : l <> LLayers) by (intros ->; apply (HnL j a); exists t; auto).
      destruct (t_pc t); try discriminate; cbn [guards In wants] in Hin, Ha; try (injection Ha as <- <-; congruence);
        repeat match goal with H : _ \/ _ |- _ => destruct H | H : False |- _ => destruct H | H : (_, _) = (_, _) |- _ => discriminate H
               | H : In _ (repeat _ _) |- _ => apply repeat_spec in H end; discriminate. }
    assert (HnE : forall i a, ~ waits y i LElems a) by (apply Hfree; auto).
    assert (Hall : forall k t, nth_error (snd y) k = Some t -> finished t \/ t_pc t = WGuard \/ exists xs acc d, t_pc t = IGuard xs acc d).
    { intros k t Ht. destruct (Hw _ _ Ht) as [H|(l & a & Ha)]; auto. right.
      assert (Hnl : l <> LLayers) by (intros ->; apply (HnL k a); exists t; auto).
      assert (Hne : l <> LElems) by (intros ->; apply (HnE k a); exists t; auto).
      destruct (t_pc t); cbn [wants] in Ha; try discriminate; injection Ha as <- <-; try congruence; eauto. }
    assert (HIG : exists j u xs acc d, nth_error (snd y) j = Some u /\ t_pc u = IGuard xs acc (Datatypes.S d)).
    { destruct (Exists_dec (fun t : thread S E I => exists xs acc d, t_pc t = IGuard xs acc (Datatypes.S d)) (snd y)) as [Hex|Hno].
      { intros t. destruct (t_pc t) eqn:Ep; try (right; intros (? & ? & ? & ?); discriminate).
        destruct d; [right; intros (? & ? & ? & ?); discriminate|left; eauto]. }
      - apply Exists_exists in Hex as (u & Hu & xs & acc & d & E0). apply In_nth_error in Hu as (j & Hj). exists j, u, xs, acc, d. auto.
      - exfalso. assert (HWW : forall j b, ~ has_lock y j LWrite b).
        { intros j b (t & Ht & Hin). destruct (Hall _ _ Ht) as [[E0 _]|[E0|(xs & acc & d & E0)]]; rewrite E0 in Hin; try (destruct Hin; fail).
          destruct d; [destruct Hin|]. apply Hno. apply Exists_exists. exists t. split; [eapply nth_error_In; eauto|eauto]. }
        apply In_nth_error in Ht0 as (k & Hk). destruct (Hall _ _ Hk) as [H|[E0|(xs & acc & d & E0)]]; [tauto| |].
        + apply (Hfree _ HWW k AWrite). exists t0. rewrite E0. auto.
        + apply (Hfree _ HWW k ARead). exists t0. rewrite E0. auto. }
    split; [|split; auto].
    destruct (Exists_dec (fun t : thread S E I => t_pc t = WGuard) (snd y)) as [Hex|Hno].
    { intros t. destruct (t_pc t); try (right; discriminate). auto. }
    - apply Exists_exists in Hex as (u & Hu & E0). apply In_nth_error in Hu as (j & Hj). eauto.
    - exfalso. destruct HIG as (j & u & xs & acc & d & Hj & E0). eapply (Hgo j LWrite ARead); [exists u; rewrite E0; auto|].
      apply (ll_share HL h (l := LWrite)).
      + exists u. rewrite E0. auto.
      + intros k (t & Ht & Hin). destruct (Hall _ _ Ht) as [[E1 _]|[E1|(xs1 & acc1 & d1 & E1)]]; rewrite E1 in Hin; try (destruct Hin; fail).
        cbn [guards] in Hin. apply repeat_spec in Hin. discriminate.
      + intros k (t & Ht & Hwt). destruct (Hall _ _ Ht) as [[E1 _]|[E1|(xs1 & acc1 & d1 & E1)]]; rewrite E1 in Hwt; try discriminate.
        apply Hno. apply Exists_exists. exists t. split; [eapply nth_error_In; eauto|auto].
  Qed.

  Lemma stuck_case (y : rsys S E I) : deadlock P y ->
    (exists i t, nth_error (snd y) i = Some t /\ t_pc t = WGuard) /\
    (exists j u xs acc d, nth_error (snd y) j = Some u /\ t_pc u = IGuard xs acc (Datatypes.S d)) /\
    (forall k t, nth_error (snd y) k = Some t -> finished t \/ t_pc t = WGuard \/ exists xs acc d, t_pc t = IGuard xs acc d).
  Proof. intros [H1 H2]. apply (@stuck_case_at []); auto. Qed.

  Lemma reader_pref_goes h (y : rsys S E I) : reader_preferring P -> (exists t, In t (snd y) /\ ~ finished t) -> ~ forall i, ~ can_go P h y i.
  Proof.
    intros HR Hex Hst. destruct (stuck_case_at Hex Hst) as (_ & (j & u & xs & acc & d & Hj & E0) & Hall).
    apply (Hst j). exists u. split; auto. split; [intros [E1 _]; congruence|]. intros l a (u' & Hu' & Hw).
    rewrite Hj in Hu'. injection Hu' as <-. rewrite E0 in Hw. cbn in Hw. injection Hw as <- <-.
    apply (HR h) with (l := LWrite).
    - exists u. rewrite E0. auto.
    - intros k (t & Ht & Hin). destruct (Hall _ _ Ht) as [[E1 _]|[E1|(xs1 & acc1 & d1 & E1)]]; rewrite E1 in Hin; try (destruct Hin; fail).
      cbn [guards] in Hin. apply repeat_spec in Hin. discriminate.
  Qed.

  Lemma reader_pref_no_deadlock (y : rsys S E I) : reader_preferring P -> ~ deadlock P y.
  Proof.
    intros HR [Hex Hst]. eapply (reader_pref_goes (h := [])); eauto.
  Qed.
End Wait.

(** ** A thread with nobody else around is granted every lock *)
Section Solo.
  Context {S E I : Type} (V : benv S E) (cpush : S -> I -> outcome S) (cfg : config) (max : nat) (P : rpolicy S E I).
  Hypothesis HL : live_locks P.

  Definition yes : rpolicy S E I := fun _ _ _ => true.
  Definition alone (i : nat) (y : rsys S E I) : Prop := forall j t, nth_error (snd y) j = Some t -> j <> i -> t_pc t = Idle.

  Lemma alone_granted h y i l a : alone i y -> waits y i l a -> P h y i = true.
  Proof.
    intros Ha Hw. pose proof Hw as (t & Ht & Ew).
    assert (Hh : forall j l' b, has_lock y j l' b -> j = i /\ In (l', b) (guards (t_pc t))).
    { intros j l' b (u & Hu & Hin). destruct (Nat.eq_dec j i) as [->|Hne]; [split; auto; congruence|].
      rewrite (Ha _ _ Hu Hne) in Hin. destruct Hin. }
    assert (Hi : forall j l' b, waits y j l' b -> j = i /\ wants (t_pc t) = Some (l', b)).
    { intros j l' b (u & Hu & Hin). destruct (Nat.eq_dec j i) as [->|Hne]; [split; auto; congruence|].
      rewrite (Ha _ _ Hu Hne) in Hin. discriminate. }
    destruct a.
    - apply (ll_share HL h Hw).
      + intros j Hj. apply Hh in Hj as [_ Hin]. destruct (t_pc t); try discriminate; cbn [wants guards In] in *; injection Ew as <-;
          repeat match goal with H : _ \/ _ |- _ => destruct H | H : False |- _ => destruct H | H : (_, _) = (_, _) |- _ => discriminate H
               | H : In _ (repeat _ _) |- _ => apply repeat_spec in H end; discriminate.
      + intros j Hj. apply Hi in Hj as [_ Hj]. congruence.
    - destruct (ll_free HL h Hw) as (j & b & Hj & Hp).
      + intros j b Hj. apply Hh in Hj as [_ Hin]. destruct (t_pc t); try discriminate; cbn [wants guards In] in *; injection Ew as <-;
          repeat match goal with H : _ \/ _ |- _ => destruct H | H : False |- _ => destruct H | H : (_, _) = (_, _) |- _ => discriminate H
               | H : In _ (repeat _ _) |- _ => apply repeat_spec in H end; discriminate.
      + apply Hi in Hj as [-> _]. auto.
  Qed.

  Lemma step_no_want W t ok ok' k : wants (t_pc t) = None -> thread_step V cpush cfg max W t ok k = thread_step V cpush cfg max W t ok' k.
  Proof. unfold thread_step. destruct (t_pc t); try discriminate; reflexivity. Qed.

  Lemma solo_step h h' y i k : alone i y -> rsys_step V cpush cfg max P h y (i, k) = rsys_step V cpush cfg max yes h' y (i, k).
  Proof.
    intros Ha. unfold rsys_step. cbn [fst snd]. destruct (nth_error (snd y) i) as [t|] eqn:Et; auto.
    destruct (wants (t_pc t)) as [[l a]|] eqn:Ew; [|now rewrite (step_no_want _ (P h y i) (yes h' y i) k Ew)].
    rewrite (@alone_granted h y i l a Ha); [reflexivity|]. exists t. auto.
  Qed.

  Lemma solo_alone h y i k y' : alone i y -> rsys_step V cpush cfg max yes h y (i, k) = Ok y' -> alone i y'.
  Proof.
    intros Ha. unfold rsys_step. cbn [fst snd]. destruct (nth_error (snd y) i) as [t|]; [|intros H; injection H as <-; auto].
    destruct (thread_step _ _ _ _ _ _ _ _) as [r|]; [|discriminate]. cbn [obind]. intros H. injection H as <-.
    intros j u Hu Hne. cbn [snd] in Hu. rewrite nth_error_set_nth in Hu. destruct (Nat.eqb_spec i j); [congruence|]. cbn [andb] in Hu. apply (Ha _ _ Hu). auto.
  Qed.

  Lemma solo_run i ks : forall h h' y, alone i y ->
    rrun V cpush cfg max P h (map (fun k => (i, k)) ks) y = rrun V cpush cfg max yes h' (map (fun k => (i, k)) ks) y.
  Proof.
    induction ks as [|k ks IH]; intros h h' y Ha; cbn [map rrun]; auto.
    rewrite (solo_step h h' k Ha). destruct (rsys_step V cpush cfg max yes h' y (i, k)) as [y1|] eqn:E1; cbn [obind]; auto.
    apply IH. eapply solo_alone; eauto.
  Qed.

  Lemma rrun_app h l1 l2 y : rrun V cpush cfg max P h (l1 ++ l2) y =
    let* y' := rrun V cpush cfg max P h l1 y in rrun V cpush cfg max P (h ++ l1) l2 y'.
  Proof.
    revert h y. induction l1 as [|m l1 IH]; intros h y; cbn [app rrun obind].
    - now rewrite app_nil_r.
    - destruct (rsys_step V cpush cfg max P h y m) as [y1|]; cbn [obind]; auto. rewrite IH, <- app_assoc. reflexivity.
  Qed.
End Solo.

Lemma step_elems {S E I} (V : benv S E) (cpush : S -> I -> outcome S) cfg max P h y m y' :
  rsys_step V cpush cfg max P h y m = Ok y' -> exists xs, ofold cpush xs (w_elems (fst y)) = Ok (w_elems (fst y')).
Proof.
  unfold rsys_step. destruct (nth_error (snd y) (fst m)) as [t|]; [|intros H; injection H as <-; exists []; auto].
  destruct (thread_step V cpush cfg max (fst y) t (P h y (fst m)) (snd m)) as [[W' t']|] eqn:Es; [|discriminate]. cbn [obind fst snd].
  intros H. injection H as <-. cbn [fst]. revert Es. generalize (P h y (fst m)) as ok. intros ok. destruct y as [W ts]. cbn [fst].
  destruct t as [p ba td lg]. unfold thread_step. cbn [t_pc t_batch t_todo t_log].
  destruct p; intros Es; inv_step Es; injection Es as <- <-; cbn [w_elems]; try (exists []; reflexivity).
  - unfold new_layer in Ex. inv_step Ex. injection Ex as <-. exists []. reflexivity.
  - exists [i]. cbn [ofold]. rewrite Ex0. reflexivity.
Qed.

Lemma run_elems {S E I} (V : benv S E) (cpush : S -> I -> outcome S) cfg max P sched h y y' :
  rrun V cpush cfg max P h sched y = Ok y' -> exists xs, ofold cpush xs (w_elems (fst y)) = Ok (w_elems (fst y')).
Proof.
  apply (rrun_inv (Q := fun z => exists xs, ofold cpush xs (w_elems (fst y)) = Ok (w_elems (fst z)))).
  - intros h0 z m z' (xs & Hx) Es. destruct (step_elems Es) as (xs' & Hx'). exists (xs ++ xs'). rewrite ofold_app, Hx. auto.
  - exists []. auto.
Qed.

(** what is saved *)
Lemma saved_layers_wf {S E I} (V : benv S E) (cpush : S -> I -> outcome S) cfg max W0 hist W R rows k ls : 0 < k_nn cfg ->
  shared V cpush cfg max W0 false hist W R rows k -> saved_layers V cfg (w_elems W) (w_cur W) (w_prev W) = Ok ls ->
  let n := c_len (e_ops V) (w_elems W) in
  (n = 0 -> ls = []) /\ (0 < n -> exists l, ls = w_prev W ++ [l] /\ fw_len l = n) /\ layers_wf (k_nn cfg) n ls.
Proof.
  intros Hnn H Es n. destruct (cur_is H) as (Hw1 & _ & HF).
  unfold saved_layers, fw_with_data in Es. destruct (Nat.ltb_spec 0 (k_nn cfg)); [|lia]. cbn [oassert obind] in Es.
  rewrite (concat_length_const HF), Nat.mod_mul in Es by lia. cbn [Nat.eqb oassert obind] in Es. fold n in Es.
  pose proof (sh_len H) as HLc. pose proof (y_len (sh_lay H)) as HLr. fold n in HLc, HLr.
  destruct (Nat.ltb_spec 0 n) as [Hn|Hn].
  2:{ injection Es as <-. split; auto. split; [lia|]. split; constructor. }
  destruct (fw_is_subslice Hnn (cur_is H) (Nat.le_0_l n)) as (l & El & His); [lia|].
  unfold fw_subslice in *. rewrite El in Es. cbn [obind] in Es. injection Es as <-.
  rewrite Nat.sub_0_r in His. cbn [skipn] in His. rewrite (sh_cur H) in His. unfold with_room in His.
  rewrite firstn_app, HLr, Nat.sub_diag, firstn_all2, app_nil_r in His by lia.
  assert (Hlen : fw_len l = n) by (rewrite (fw_is_len Hnn His); auto).
  split; [lia|]. split; [eauto|].
  assert (Hl : lfine V (w_elems W) false (k_nn cfg) l rows).
  { assert (Hwl : fwidth l = k_nn cfg) by apply His. constructor; rewrite ?Hwl; auto; try lia.
    rewrite HLr. eapply change_base; [apply (sh_lay H)|]. intros x []. }
  pose proof (sh_grows H) as Hg. pose proof (sh_chain H) as Hch.
  assert (HC : chain V (w_elems W) false (k_nn cfg) (w_prev W ++ [l]) (R ++ [rows])).
  { apply chain_app; auto. split; auto. discriminate. }
  destruct HC as [HF2 HS2]. clear -HF2 HS2.
  assert (HF' : Forall2 (fun l r => layer_wf (k_nn cfg) n l /\ fw_len l = length r) (w_prev W ++ [l]) (R ++ [rows])).
  { eapply Forall2_imp; [|exact HF2]. intros l0 r Hl. split; [eapply fine_layer_wf; [exact Hl|apply (f_max Hl)]|apply (fw_is_len (f_w0 Hl) (f_is Hl))]. }
  clear HF2. revert HF' HS2. generalize (w_prev W ++ [l]) (R ++ [rows]). intros ls Rs HF HS. split.
  - clear HS. induction HF as [|l0 r ls Rs [Hl _] HF IH]; constructor; auto.
  - revert HS. induction HF as [|l0 r ls Rs [_ Hl] HF IH]; intros HS; constructor; inversion HS as [|? ? HS' HA]; subst; auto.
    clear -HF HA Hl. induction HF as [|l1 r1 ls Rs [_ Hl1] HF IH]; constructor; inversion HA as [|? ? [H1 _] HA']; subst; auto. lia.
Qed.
