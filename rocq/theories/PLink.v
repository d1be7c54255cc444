(** * Proofs: what inserting one element does to the layer *)
From Verif Require Import Base BaseFacts MSliceVec SSliceVec PFixed MIndexIo MSearch PHeap PSearch MBuild SBuild PSelect PRow PSLite PBuildInv PIndexCrash PBuildRun PBuildLayer PBuilder PHistory PBuildAny TBuild SLink.
Set Implicit Arguments.
Unset Strict Implicit.

Section Link.
  Context {S E : Type} (V : benv S E) (s : S).
  Local Notation C := (e_ops V).
  Hypothesis Hc : cont_ok C s.
  Hypothesis Hsort : sorts_by_dist (e_sort V).
  Hypothesis Hlen : (N.of_nat (c_len C s) <= UNUSED)%N.
  Variables (w n : nat).
  Hypothesis Hn : n <= c_len C s.
  Variables (nn ms : nat) (prev : list (fw N)).
  Hypothesis Hnn : 0 < nn <= w.
  Hypothesis Hms : 0 < ms.
  Let Hw : 0 < w. Proof. lia. Qed.
  Local Notation none := (fun _ : nat => False).
  Hypothesis Hprev : forall idx e, idx < n -> c_get C s idx = Ok e ->
    exists r, granne_search (e_mode V) (e_fuel V) (FixWidth prev) (fun i => c_dte C s i e) 1 1 = Ok r /\
      forall x, In x r -> fst x < n /\ (false = true -> fst x <> 0 -> none (fst x) /\ none 0).

  Lemma connect_links i r j d r' : wf_row false w n i r -> i < n -> j < n -> i <> j ->
    connect_nodes V s r i j d = Ok r' ->
    wf_row false w n i r' /\ linked_to V s w i j d (row_ids r) (row_ids r').
  Proof.
    intros Hr Hi Hj Hij Ec.
    destruct (@connect_ok _ _ V s Hc Hsort Hlen false w n Hn Hw i r j d Hr Hi Hj)
      as (r1 & E1 & Hwf & _ & Hne & Hsub & _ & Hthere & Hroom).
    rewrite Ec in E1. injection E1 as <-. split; auto.
    destruct (in_dec Nat.eq_dec j (row_ids r)) as [Hin|Hnin].
    { rewrite (Hthere Hij Hin). now constructor. }
    destruct (wf_ids (V:=V) Hlen Hn Hw Hr) as [[Hlw Hre] (_ & Hni & Hlt)].
    destruct (Nat.lt_ge_cases (length (row_ids r)) w) as [Hl|Hl].
    { rewrite (Hroom Hij Hnin Hl). now constructor. }
    assert (Hfl : length (row_ids r) = w) by lia.
    assert (HL : length r = w) by (rewrite Hre, app_length, map_length, repeat_length; lia).
    assert (Hre' : r = map N.of_nat (row_ids r)).
    { rewrite Hre at 1. rewrite Hfl, Nat.sub_diag. cbn [repeat]. apply app_nil_r. }
    revert Ec. unfold connect_nodes. destruct (Nat.eqb_spec i j); [contradiction|].
    rewrite to_id_ok by lia. cbn [obind].
    destruct (position _ r) as [p|] eqn:Ep.
    { exfalso. apply position_some in Ep as (x & Hx & Hpx & _). rewrite Hre' in Hx. apply nth_error_In in Hx.
      apply in_map_iff in Hx as (z & <- & Hz). apply orb_true_iff in Hpx as [Hp|Hp]; apply N.eqb_eq in Hp.
      - rewrite Forall_forall in Hlt. apply Hlt in Hz. lia.
      - apply Nat2N.inj in Hp. now subst. }
    unfold add_and_limit. rewrite Nat.leb_refl. cbn [oassert obind].
    assert (HltC : Forall (fun j => j < c_len C s) (row_ids r)) by (eapply Forall_impl; [|exact Hlt]; cbn; intros; lia).
    destruct (ck_dists Hc (i := i) (js := row_ids r)) as (ds & Eds & Lds); [lia|auto|].
    rewrite Eds. cbn [obind]. destruct (Hsort (combine (row_ids r) ds ++ [(j, d)])) as [HP HS].
    destruct (select_neighbors V s (e_sort V (combine (row_ids r) ds ++ [(j, d)])) (length r)) as [sel|] eqn:Esel; [|discriminate].
    cbn [obind].
    assert (HsF : Forall (fun x => fst x < c_len C s) (e_sort V (combine (row_ids r) ds ++ [(j, d)]))).
    { rewrite Forall_forall in *. intros x Hx. apply (Permutation_in _ HP) in Hx. apply in_app_or in Hx as [Hx|[<-|[]]]; [|cbn; lia].
      destruct x as [x dx]. apply in_combine_l in Hx. apply HltC. exact Hx. }
    destruct (@select_ok _ _ V s _ (Dof_ok (V := V) Hc) (length r) (e_sort V (combine (row_ids r) ds ++ [(j, d)])))
      as (sel' & Esel' & Lsel & Hsubs & HndS & Hfirst); auto; [lia|].
    rewrite Esel in Esel'. injection Esel' as <-.
    assert (HselF : Forall (fun x => fst x < n) sel).
    { rewrite Forall_forall in *. intros x Hx. apply Hsubs in Hx. apply (Permutation_in _ HP) in Hx.
      apply in_app_or in Hx as [Hx|[<-|[]]]; [|cbn; lia]. destruct x as [x dx]. apply in_combine_l in Hx. now apply Hlt. }
    rewrite to_id_map.
    2:{ eapply Forall_impl; [|exact HselF]. cbn. intros a Ha. lia. }
    cbn [obind]. intros E1. apply (f_equal (fun x => match x with Ok y => y | Fail _ => [] end)) in E1. cbv beta iota in E1.
    assert (Hsh : row_shows w r' (map fst sel)).
    { rewrite <- E1, HL. apply pad_shows. rewrite map_length. lia. }
    assert (Eids : row_ids r' = map fst sel).
    { apply (row_ids_shows Hsh). rewrite Forall_forall in *. intros x Hx. apply in_map_iff in Hx as (y & <- & Hy). apply HselF in Hy. lia. }
    rewrite Eids. rewrite HL in Esel.
    eapply lk_full; eauto.
  Qed.

  Local Notation linv := (lay_inv V s false w n none).
  Local Notation step := (task_step V s nn ms prev).

  Lemma linv_set rows i r' : linv rows -> i < n -> wf_row false w n i r' -> linv (set_nth rows i r').
  Proof.
    intros HI Hi Hr'. constructor.
    - rewrite set_nth_length. apply (y_len HI).
    - intros k r0. rewrite nth_error_set_nth. destruct (Nat.eqb_spec i k) as [<-|]; cbn [andb]; [|apply (y_row HI)].
      destruct (i <? length rows); [intros E0; injection E0 as <-; auto|]. apply (y_row HI).
    - intros k r0 y _ _ HU. discriminate.
    - discriminate.
    - intros x [].
  Qed.

  (** steps of one task alone, until it is done *)
  Inductive ends (idx : nat) : list (list N) -> tstate E -> list (list N) -> Prop :=
  | en_done rows : ends idx rows TDone rows
  | en_step rows t rows1 t1 rows' : step rows idx t = Ok (rows1, t1) -> ends idx rows1 t1 rows' ->
      ends idx rows t rows'.

  Lemma run_ends idx sched : forall rows t rows',
    run V s nn ms prev sched (rows, [(idx, t)]) = Ok (rows', [(idx, TDone)]) -> ends idx rows t rows'.
  Proof.
    induction sched as [|k sched IH]; intros rows t rows' Er; unfold run in *; cbn [ofold] in Er.
    - injection Er as <- ->. constructor.
    - destruct k as [|k].
      + cbn [sys_step nth_error] in Er. destruct (step rows idx t) as [[rows1 t1]|] eqn:Es; [|discriminate].
        cbn [obind fst snd set_nth] in Er. eapply en_step; eauto.
      + cbn [sys_step nth_error] in Er. replace (nth_error (@nil (nat * tstate E)) k) with (@None (nat * tstate E)) in Er by (destruct k; auto).
        cbn [obind] in Er. eauto.
  Qed.

  Lemma ends_done idx rows rows' : ends idx rows TDone rows' -> rows' = rows.
  Proof.
    intros H. remember TDone as t eqn:Et. induction H as [|rows t rows1 t1 rows' Hs He IH]; auto.
    subst t. cbn [task_step] in Hs. injection Hs as <- <-. auto.
  Qed.

  Lemma ends_inv idx rows t rows' : t <> TDone -> ends idx rows t rows' ->
    exists rows1 t1, step rows idx t = Ok (rows1, t1) /\ ends idx rows1 t1 rows'.
  Proof. intros Ht H. inversion H; subst; [congruence|eauto]. Qed.

  Lemma upd_inv' rows i f rows1 : update_row rows i f = Ok rows1 ->
    exists r r', nth_error rows i = Some r /\ f r = Ok r' /\ rows1 = set_nth rows i r'.
  Proof.
    unfold update_row, index. destruct (nth_error rows i) as [r|]; [|discriminate]. cbn [ounwrap obind].
    destruct (f r) as [r'|] eqn:Ef; [|discriminate]. cbn [obind]. intros E1.
    apply (f_equal (fun x => match x with Ok y => y | Fail _ => [] end)) in E1. cbv beta iota in E1. subst rows1. eauto.
  Qed.

  Lemma back_links idx todo : forall rows rows', linv rows -> idx < n -> nbrs_ok n idx (map fst todo) ->
    ends idx rows (TBack todo) rows' ->
    linv rows' /\
    forall i r, nth_error rows i = Some r ->
    exists r', nth_error rows' i = Some r' /\
      (forall d, In (i, d) todo -> linked_to V s w i idx d (row_ids r) (row_ids r')) /\
      (~ In i (map fst todo) -> r' = r).
  Proof.
    induction todo as [|[y d] todo IH]; intros rows rows' HI Hidx Hok He.
    - apply ends_inv in He as (rows1 & t1 & Hs & He); [|discriminate]. cbn [task_step] in Hs. injection Hs as <- <-.
      apply ends_done in He. subst rows'. split; auto. intros i r Hr. exists r. split; auto. split; [intros d []|auto].
    - apply ends_inv in He as (rows1 & t1 & Hs & He); [|discriminate]. cbn [task_step] in Hs.
      destruct (update_row rows y _) as [rows2|] eqn:Eu; [|discriminate]. cbn [obind] in Hs. injection Hs as <- <-.
      apply upd_inv' in Eu as (r0 & r1 & Hr0 & Ec & ->).
      destruct Hok as (Hnd & Hni & HF). cbn [map fst] in *. inversion Hnd as [|? ? Hny Hnd']; subst.
      inversion HF as [|? ? Hyn HF']; subst. clear Hnd HF. rename Hnd' into Hnd. rename HF' into HF.
      assert (Hyi : y <> idx) by (intros ->; apply Hni; left; auto).
      assert (Hy2 : y < length rows) by (apply nth_error_Some; congruence).
      destruct (connect_links (y_row HI Hr0) Hyn Hidx Hyi Ec) as [Hwf Hlk].
      assert (HI2 : linv (set_nth rows y r1)) by (apply linv_set; auto).
      destruct (IH (set_nth rows y r1) rows' HI2 Hidx) as [HI' HR]; auto.
      { split; [auto|]. split; auto. intros H. apply Hni. right; auto. }
      split; auto. intros i r Hr.
      destruct (Nat.eq_dec i y) as [->|Hiy].
      + rewrite Hr0 in Hr. injection Hr as <-.
        destruct (HR y r1) as (r' & Hr' & _ & Hsame). { now apply nth_error_set_nth_eq. }
        exists r'. split; auto. rewrite (Hsame Hny). split; [|intros H; exfalso; apply H; left; auto].
        intros d' [Ed|Hd']; [injection Ed as <-; auto|]. exfalso. apply Hny. apply in_map_iff. exists (y, d'). auto.
      + destruct (HR i r) as (r' & Hr' & Hlk' & Hsame). { rewrite nth_error_set_nth_neq; auto. }
        exists r'. split; auto. split; [|intros H; apply Hsame; intros H'; apply H; right; auto].
        intros d' [Ed|Hd']; [congruence|]. now apply Hlk'.
  Qed.

  (** the own row, when it is not empty *)
  Lemma own_links idx ns todo : forall rows rows' r, linv rows -> idx < n -> nbrs_ok n idx (map fst todo) ->
    nth_error rows idx = Some r -> ends idx rows (TOwn todo ns) rows' ->
    exists r1, wf_row false w n idx r1 /\ linked_all V s w idx todo (row_ids r) (row_ids r1) /\
      ends idx (set_nth rows idx r1) (TBack ns) rows'.
  Proof.
    induction todo as [|[y d] todo IH]; intros rows rows' r HI Hidx Hok Hr He.
    - apply ends_inv in He as (rows1 & t1 & Hs & He); [|discriminate]. cbn [task_step] in Hs. injection Hs as <- <-.
      exists r. split; [apply (y_row HI Hr)|]. split; [constructor|]. now rewrite set_nth_same.
    - apply ends_inv in He as (rows1 & t1 & Hs & He); [|discriminate]. cbn [task_step] in Hs.
      destruct (update_row rows idx _) as [rows2|] eqn:Eu; [|discriminate]. cbn [obind] in Hs. injection Hs as <- <-.
      apply upd_inv' in Eu as (r0 & r1 & Hr0 & Ec & ->). rewrite Hr in Hr0. injection Hr0 as <-.
      destruct Hok as (Hnd & Hni & HF). cbn [map fst] in *. inversion Hnd as [|? ? Hny Hnd']; subst.
      inversion HF as [|? ? Hyn HF']; subst. clear Hnd HF. rename Hnd' into Hnd. rename HF' into HF.
      assert (Hyi : idx <> y) by (intros ->; apply Hni; left; auto).
      assert (Hil : idx < length rows) by (apply nth_error_Some; congruence).
      destruct (connect_links (y_row HI Hr) Hidx Hyn Hyi Ec) as [Hwf Hlk].
      destruct (IH (set_nth rows idx r1) rows' r1) as (r2 & Hw2 & Hla & He2); auto.
      { now apply linv_set. }
      { split; [auto|]. split; auto. intros H. apply Hni. right; auto. }
      { now apply nth_error_set_nth_eq. }
      exists r2. split; auto. split; [econstructor; eauto|]. 
      replace (set_nth rows idx r2) with (set_nth (set_nth rows idx r1) idx r2); auto.
      apply nth_error_ext. intros q. rewrite !nth_error_set_nth, set_nth_length.
      destruct (Nat.eqb_spec idx q); cbn [andb]; auto. destruct (idx <? length rows); auto.
  Qed.

  Lemma finish rows idx r1 chosen rows' r : linv rows -> idx < n -> nth_error rows idx = Some r ->
    nbrs_ok n idx (map fst chosen) -> wf_row false w n idx r1 ->
    (row_ids r = [] -> row_ids r1 = map fst chosen) ->
    (row_ids r <> [] -> linked_all V s w idx chosen (row_ids r) (row_ids r1)) ->
    ends idx (set_nth rows idx r1) (TBack chosen) rows' ->
    rows_linked V s w rows idx chosen rows'.
  Proof.
    intros HI Hidx Hr Hok Hwf Hempty Hfull He.
    assert (HI1 : linv (set_nth rows idx r1)) by (apply linv_set; auto).
    assert (Hil : idx < length rows) by (apply nth_error_Some; congruence).
    assert (Hnidx : ~ In idx (map fst chosen)) by apply Hok.
    destruct (back_links HI1 Hidx Hok He) as [HI' HR]. split; [rewrite (y_len HI'), (y_len HI); auto|].
    intros i r0 Hr0. destruct (Nat.eq_dec i idx) as [->|Hne].
    - rewrite Hr in Hr0. injection Hr0 as <-.
      destruct (HR idx r1) as (r' & Hr' & Hlk & Hsame); [now apply nth_error_set_nth_eq|].
      rewrite (Hsame Hnidx) in *. exists r1. split; auto.
      split; [destruct Hwf as (z & Hz & _); eapply row_shows_length; eauto|].
      split; auto. split; auto. split; [|tauto]. intros d Hd. exfalso. apply Hnidx. apply in_map_iff. exists (idx, d). auto.
    - destruct (HR i r0) as (r' & Hr' & Hlk & Hsame); [rewrite nth_error_set_nth_neq; auto|].
      exists r'. split; auto.
      split; [destruct (y_row HI' Hr') as (z & Hz & _); eapply row_shows_length; eauto|].
      split; [tauto|]. split; [tauto|]. auto.
  Qed.

  Lemma test_links rows idx chosen rows' : linv rows -> idx < n -> nbrs_ok n idx (map fst chosen) ->
    length chosen <= nn -> ends idx rows (TTest chosen) rows' -> rows_linked V s w rows idx chosen rows'.
  Proof.
    intros HI Hidx Hok Hl He. 
    apply ends_inv in He as (rows1 & t1 & Hs & He); [|discriminate]. cbn [task_step] in Hs. unfold index in Hs.
    destruct (nth_error rows idx) as [r|] eqn:Hr; [|discriminate]. cbn [ounwrap obind] in Hs.
    pose proof (y_row HI Hr) as Hwr.
    destruct (empty_row_head (V:=V) Hlen Hn Hw Hwr) as (x & Hx & Hxu). rewrite Hx in Hs. cbn [ounwrap obind] in Hs.
    assert (Hil : idx < length rows) by (apply nth_error_Some; congruence).
    injection Hs as <- <-. destruct (x =? UNUSED)%N eqn:Exu.
    - assert (Hre : row_ids r = []) by (now apply Hxu).
      assert (He2 : ends idx rows (TInit chosen) rows').
      { destruct (e_mode V); auto. apply ends_inv in He as (rows1 & t1 & Hs & He); [|discriminate]. cbn [task_step] in Hs.
        unfold index in Hs. rewrite Hr in Hs. cbn [ounwrap obind] in Hs. rewrite Hx in Hs. cbn [ounwrap obind] in Hs.
        rewrite Exu in Hs. cbn [oassert obind] in Hs. injection Hs as <- <-. auto. }
      apply ends_inv in He2 as (rows2 & t2 & Hs & He2); [|discriminate]. cbn [task_step] in Hs.
      destruct (update_row rows idx _) as [rows3|] eqn:Eu; [|discriminate]. cbn [obind] in Hs. injection Hs as <- <-.
      apply upd_inv' in Eu as (r0 & r1 & Hr0 & Ei & ->). rewrite Hr in Hr0. injection Hr0 as <-.
      destruct (@init_ok _ _ V s Hlen false w n Hn Hw idx r chosen) as (r' & Er' & Hwf' & _ & Hids); auto; try discriminate; try lia.
      rewrite Ei in Er'. injection Er' as <-. rewrite Hre, skipn_nil, app_nil_r in Hids.
      eapply finish; eauto. tauto.
    - assert (Hre : row_ids r <> []) by (intros H; apply Hxu in H; congruence).
      destruct (own_links HI Hidx Hok Hr He) as (r1 & Hwf & Hla & He1).
      eapply finish; eauto. tauto.
  Qed.

  (** the search in a layer that does not change *)
  Lemma search_links rows idx e : linv rows -> idx < n -> c_get C s idx = Ok e -> forall m st rows', smeas n st <= m ->
    slite n (fE V s e) ms (lnk false rows) st ->
    ends idx rows (TSearch e st) rows' ->
    exists fuel st' t, s_loop fuel (read_ids rows) (fun i => c_dte C s i e) st = Ok (hs (s_res st')) /\
      slite n (fE V s e) ms (lnk false rows) st' /\
      choose V s nn idx (map (fun k => (snd k, fst k)) (hs (s_res st'))) = Ok t /\ ends idx rows t rows'.
  Proof.
    intros HI Hidx Hge. induction m as [m IHm] using lt_wf_ind. intros st rows' Hm Hst He.
    apply ends_inv in He as (rows1 & t1 & Hs & He); [|discriminate]. cbn [task_step] in Hs.
    destruct (slite_pop Hms Hst) as [Ep|(k & pq & Epq & Ep)]; rewrite Ep in Hs; cbn [obind] in Hs.
    - unfold msh_into_sorted_vec in Hs. destruct (choose V s nn idx _) as [t|] eqn:Ech; [|discriminate]. cbn [obind] in Hs. injection Hs as <- <-.
      exists 1, st, t. split; [cbn [s_loop]; rewrite Ep; reflexivity|]. auto.
    - assert (Hk : snd k < n).
      { destruct (l_key Hst (k := k)) as [_ Hv]; [right; rewrite Epq; left; auto|]. now apply (l_vis Hst) in Hv. }
      destruct (read_ids rows (snd k)) as [row|] eqn:Erow; [|discriminate]. cbn [obind] in Hs.
      assert (HrF : Forall (fun x => x < n /\ lnk false rows x) row).
      { unfold read_ids, index in Erow. destruct (nth_error rows (snd k)) as [rk|] eqn:Erk; [|discriminate].
        cbn [ounwrap obind] in Erow. injection Erow as <-.
        destruct (wf_ids (V:=V) Hlen Hn Hw (y_row HI Erk)) as [_ (_ & _ & HF)]. rewrite Forall_forall in *.
        intros x Hx. split; auto. eapply (y_link HI); eauto. }
      destruct (@slite_expand n (fE V s e) (fun i => c_dte C s i e) (fE_ok Hc Hlen Hn Hnn Hms Hidx Hge) ms Hms _ st k pq _ Hst Epq HrF)
          as (st' & Ex & Hst' & Hlt).
      rewrite Ex in Hs. cbn [obind] in Hs. injection Hs as <- <-.
      destruct (IHm (smeas n st')) with (st := st') (rows' := rows') as (fuel & st2 & t & H1 & H2 & H3 & H4); auto; [lia|].
      exists (Datatypes.S fuel), st2, t. split; auto. cbn [s_loop]. rewrite Ep. cbn [obind]. rewrite Erow. cbn [obind].
      rewrite Ex. cbn [obind]. exact H1.
  Qed.

  Lemma insertion_links rows idx sched rows' : rows_wf w n rows -> idx < n ->
    run V s nn ms prev sched (rows, [(idx, TStart)]) = Ok (rows', [(idx, TDone)]) ->
    (is_zero V s idx /\ rows' = rows) \/
    (~ is_zero V s idx /\ exists chosen, chosen_for V s nn ms prev rows idx chosen /\
       ((mostly_duplicates V nn chosen /\ rows' = rows) \/
        (~ mostly_duplicates V nn chosen /\ rows_linked V s w rows idx chosen rows'))).
  Proof.
    intros Hrows Hidx Er. apply run_ends in Er. apply (rows_wf_inv V s) in Hrows.
    assert (HI : linv rows) by exact Hrows. clear Hrows.
    apply ends_inv in Er as (rows1 & t1 & Hs & He); [|discriminate]. cbn [task_step] in Hs.
    destruct (start_task V s ms prev idx) as [t|] eqn:Es; [|discriminate]. cbn [obind] in Hs. injection Hs as <- <-.
    unfold start_task in Es. destruct (ck_dist Hc (i := idx) (j := idx)) as (dd & Edd); [lia..|].
    rewrite Edd in Es. cbn [obind] in Es. destruct (Z.ltb_spec (e_eps V) dd) as [Hd|Hd].
    { injection Es as <-. left. split; [exists dd; auto|]. now apply ends_done in He. }
    right. split. { intros (d & Ed & Hd'). rewrite Edd in Ed. injection Ed as <-. lia. }
    destruct (ck_get Hc (i := idx)) as (e & Hge); [lia|]. rewrite Hge in Es. cbn [obind] in Es.
    destruct (Hprev Hidx Hge) as (r & Hr & Hrn). rewrite Hr in Es. cbn [obind] in Es.
    remember (match r with [] => 0 | x :: _ => fst x end) as ep eqn:Eep.
    assert (Hep : ep < n).
    { rewrite Eep. destruct r as [|x r]; [lia|]. destruct (Hrn x (or_introl eq_refl)); auto. }
    destruct (@slite_init n (fE V s e) (fun i => c_dte C s i e) (fE_ok Hc Hlen Hn Hnn Hms Hidx Hge) ms Hms (lnk false rows) ep Hep) as (st & Est & Hst).
    { intros HU. discriminate HU. }
    rewrite Est in Es. cbn [obind] in Es. injection Es as <-.
    destruct (search_links HI Hidx Hge (le_n _) Hst He) as (fuel & st' & t & Hloop & Hst' & Hch & He').
    destruct (slite_result Hst') as (H1 & H2 & H3). unfold msh_into_sorted_vec in *.
    remember (map (fun k : key => (snd k, fst k)) (hs (s_res st'))) as found eqn:Ef.
    assert (HcF : Forall (fun x => fst x < n /\ fst x <> idx) (filter (fun x => negb (fst x =? idx)) found)).
    { rewrite Forall_forall. intros [x d] Hx. apply filter_In in Hx as [Hx Hb]. cbn in *.
      apply negb_true_iff, Nat.eqb_neq in Hb. destruct (H2 x d Hx). auto. }
    destruct (@select_ok _ _ V s _ (Dof_ok (V := V) Hc) nn (filter (fun x => negb (fst x =? idx)) found)) as (ns & Esel & Hl & Hsub & HndS & _).
    { lia. } { eapply Forall_impl; [|exact HcF]. cbn. intros a Ha. lia. }
    { intros _. now apply filter_sorted. }
    exists ns. split.
    { exists e, r, fuel, found. split; auto. split; auto. split; auto.
      unfold search_for_neighbors. rewrite <- Eep, Est. cbn [obind]. rewrite Hloop. cbn [obind]. now rewrite Ef. }
    assert (Hch2 : choose V s nn idx found = Ok t) by (rewrite Ef; exact Hch).
    rewrite (C36_duplicates_not_linked V s nn idx found ns H3 Esel) in Hch2. apply ok_inj in Hch2. subst t.
    unfold mostly_duplicates. destruct (Nat.ltb_spec (nn / 2) (length (filter (fun x => (snd x <? e_eps V)%Z) ns))) as [Hdup|Hdup].
    - left. split; auto. now apply ends_done in He'.
    - right. split; [lia|]. apply test_links; auto. split; [|split].
      + apply HndS. now apply filter_pair_nodup.
      + intros H. apply in_map_iff in H as (x & Ex & Hx). apply Hsub in Hx. rewrite Forall_forall in HcF. apply HcF in Hx. tauto.
      + rewrite Forall_forall. intros y Hy. apply in_map_iff in Hy as (x & <- & Hx). apply Hsub in Hx. rewrite Forall_forall in HcF. apply HcF in Hx. tauto.
  Qed.
End Link.

(** ** One step under any schedule *)
Section StepLink.
  Context {S E : Type} (V : benv S E) (s : S).
  Local Notation C := (e_ops V).
  Hypothesis Hc : cont_ok C s.
  Hypothesis Hsort : sorts_by_dist (e_sort V).
  Hypothesis Hlen : (N.of_nat (c_len C s) <= UNUSED)%N.
  Variables (w n : nat).
  Hypothesis Hn : n <= c_len C s.
  Variables (nn ms : nat) (prev : list (fw N)).
  Hypothesis Hnn : 0 < nn <= w.
  Hypothesis Hms : 0 < ms.
  Variable B : nat -> Prop.
  Let Hw : 0 < w. Proof. lia. Qed.

  Lemma wf_weak i r : wf_row true w n i r -> wf_row false w n i r.
  Proof. intros (ns & H1 & H2 & H3). exists ns. split; auto. split; [discriminate|auto]. Qed.

  Lemma row_changes_refl i r : row_changes V s w i r r.
  Proof. now constructor. Qed.

  Lemma step_links rows ts k x' : sys_inv V s true w n nn ms B (rows, ts) ->
    sys_step V s nn ms prev (rows, ts) k = Ok x' ->
    forall i r, nth_error rows i = Some r -> exists r', nth_error (fst x') i = Some r' /\ row_changes V s w i r r'.
  Proof.
    intros HI Es i r Hr. unfold sys_step in Es. destruct (nth_error ts k) as [[idx t]|] eqn:Ek.
    2:{ apply ok_inj in Es. subst x'. exists r. split; auto. apply row_changes_refl. }
    destruct (task_step V s nn ms prev rows idx t) as [[rows' t']|] eqn:Et; [|discriminate]. cbn [obind fst snd] in Es.
    apply ok_inj in Es. subst x'. cbn [fst].
    destruct (z_task HI (nth_error_In _ _ Ek)) as [Hidx Ht]. cbn [fst] in Ht.
    pose proof (z_lay HI) as HL. cbn [fst] in HL.
    assert (Hsame : rows' = rows -> exists r', nth_error rows' i = Some r' /\ row_changes V s w i r r').
    { intros ->. exists r. split; auto. apply row_changes_refl. }
    assert (Hupd : forall y f, update_row rows y f = Ok rows' ->
              (forall r0 r1, nth_error rows y = Some r0 -> f r0 = Ok r1 -> row_changes V s w y r0 r1) ->
              exists r', nth_error rows' i = Some r' /\ row_changes V s w i r r').
    { intros y f Eu Hf. apply upd_inv' in Eu as (r0 & r1 & Hr0 & Ef & ->).
      assert (Hy : y < length rows) by (apply nth_error_Some; congruence).
      destruct (Nat.eq_dec i y) as [->|Hne].
      - exists r1. split; [now apply nth_error_set_nth_eq|]. rewrite Hr in Hr0. injection Hr0 as <-. eauto.
      - exists r. split; [rewrite nth_error_set_nth_neq; auto|apply row_changes_refl]. }
    destruct t as [|e st|ns|ns|ns|todo ns|todo|]; cbn [task_step] in Et.
    - destruct (start_task _ _ _ _ _); [|discriminate]. cbn [obind] in Et. apply ok_inj in Et. apply Hsame. congruence.
    - destruct (s_pop st) as [[[k0 st']|]|]; [| |discriminate]; cbn [obind] in Et.
      + destruct (read_ids rows (snd k0)) as [row|]; [|discriminate]. cbn [obind] in Et.
        destruct (s_expand _ _ _ _) as [st''|]; [|discriminate]. cbn [obind] in Et. apply ok_inj in Et. apply Hsame. congruence.
      + destruct (choose _ _ _ _ _); [|discriminate]. cbn [obind] in Et. apply ok_inj in Et. apply Hsame. congruence.
    - destruct (index rows idx) as [row|]; [|discriminate]. cbn [obind] in Et.
      destruct (index row 0) as [v|]; [|discriminate]. cbn [obind] in Et. apply ok_inj in Et. apply Hsame. congruence.
    - destruct (index rows idx) as [row|]; [|discriminate]. cbn [obind] in Et.
      destruct (index row 0) as [v|]; [|discriminate]. cbn [obind] in Et. destruct (oassert _); [|discriminate].
      cbn [obind] in Et. apply ok_inj in Et. apply Hsame. congruence.
    - destruct (update_row rows idx _) as [rows2|] eqn:Eu; [|discriminate]. cbn [obind] in Et. apply ok_inj in Et.
      injection Et as -> _. eapply Hupd; [exact Eu|]. intros r0 r1 Hr0 Ei.
      destruct Ht as (_ & (Hok & _ & Hl) & Hfr).
      assert (Hor : true = true -> row_ids r0 = [] \/ ns = []).
      { intros _. destruct (Hfr eq_refl) as [[_ ->]|[_ Hnl]]; auto. left. destruct (row_ids r0) eqn:E0; auto. exfalso. apply Hnl.
        exists r0. split; auto. congruence. }
      destruct (@init_ok _ _ V s Hlen true w n Hn Hw idx r0 ns (y_row HL Hr0) Hor) as (r' & Er' & Hwf' & Hnil & Hids); auto; try lia.
      rewrite Ei in Er'. injection Er' as <-. destruct (Hor eq_refl) as [H0| ->].
      + now apply rc_first.
      + rewrite (Hnil eq_refl). apply row_changes_refl.
    - destruct todo as [|[y d] todo]; [apply ok_inj in Et; apply Hsame; congruence|].
      destruct (update_row rows idx _) as [rows2|] eqn:Eu; [|discriminate]. cbn [obind] in Et. apply ok_inj in Et.
      injection Et as -> _. eapply Hupd; [exact Eu|]. intros r0 r1 Hr0 Ec.
      destruct Ht as (((_ & Hni & HF) & _) & _ & Hinc).
      assert (Hy : In y (map fst ns)) by (apply in_map_iff; exists (y, d); split; auto; apply Hinc; left; auto).
      rewrite Forall_forall in HF.
      eapply rc_link with (j := y) (d := d).
      eapply (@connect_links _ _ V s Hc Hsort Hlen w n Hn nn ms Hnn Hms); [apply wf_weak, (y_row HL Hr0)|auto|auto| |exact Ec].
      intros ->. auto.
    - destruct todo as [|[y d] todo]; [apply ok_inj in Et; apply Hsame; congruence|].
      destruct (update_row rows y _) as [rows2|] eqn:Eu; [|discriminate]. cbn [obind] in Et. apply ok_inj in Et.
      injection Et as -> _. eapply Hupd; [exact Eu|]. intros r0 r1 Hr0 Ec.
      destruct Ht as (((_ & Hni & HF) & _) & _).
      assert (Hy : In y (map fst ((y, d) :: todo))) by (left; auto).
      rewrite Forall_forall in HF.
      eapply rc_link with (j := idx) (d := d).
      eapply (@connect_links _ _ V s Hc Hsort Hlen w n Hn nn ms Hnn Hms); [apply wf_weak, (y_row HL Hr0)|auto|auto| |exact Ec].
      intros ->. auto.
    - apply ok_inj in Et. apply Hsame. congruence.
  Qed.
End StepLink.

Section MidRun.
  Context {S E : Type} (V : benv S E).
  Hypothesis Hsort : sorts_by_dist (e_sort V).

  Lemma mid_run_inv b w nn' ms0 prev0 x0 : bfine V true b -> mid_run V b w nn' ms0 prev0 x0 ->
    0 < nn' <= w /\ 0 < ms0 /\ exists n B, n <= c_len (e_ops V) (b_elems b) /\ sys_inv V (b_elems b) true w n nn' ms0 B x0.
  Proof.
    intros HB Hm.
    assert (Hex : forall b0 last prev, b0 = b \/ b0 = add_layer b -> split_last (b_layers b0) = Some (last, prev) ->
       exists R rows, chain V (b_elems b) true (k_nn (b_config b)) prev R /\
       (rows = [] \/ lfine V (b_elems b) true (k_nn (b_config b)) last rows) /\ fw_is (fwidth last) rows last /\
       k_nn (b_config b) <= fwidth last /\ grows true (List.last R []) rows /\ fw_len last = length rows).
    { intros b0 last prev Hb0 Esp. apply split_last_some in Esp.
      destruct (bfine_split HB) as [Els|(p & l & R & rows0 & Els & Hch & Hl & Hg & Hlen & HL)].
      - destruct Hb0 as [-> | ->]; [rewrite Els in Esp; destruct prev; discriminate|].
        unfold add_layer in Esp. rewrite Els in Esp. cbn [split_last nth_error length Nat.sub b_layers app] in Esp.
        destruct prev as [|? prev]; [|destruct prev; discriminate]. injection Esp as <-.
        exists [], []. split; [split; constructor|]. split; auto. split; [apply fw_is_with_width|]. split; [cbn; lia|].
        split; [apply grows_refl|]. apply (@fw_is_len _ (k_nn (b_config b))); [apply HB|apply fw_is_with_width].
      - destruct Hb0 as [-> | ->].
        + rewrite Els in Esp. apply app_inj_tail in Esp as [-> ->]. exists R, rows0.
          split; auto. split; auto. split; [apply Hl|]. split; [apply Hl|]. split; auto. apply (fw_is_len (f_w0 Hl) (f_is Hl)).
        + unfold add_layer in Esp. rewrite Els, split_last_app in Esp. cbn [b_layers] in Esp. apply app_inj_tail in Esp as [<- <-].
          exists (R ++ [rows0]), rows0. split; [apply chain_app; auto|]. split; auto. split; [apply Hl|]. split; [apply Hl|].
          split; [rewrite HL; apply grows_refl|]. apply (fw_is_len (f_w0 Hl) (f_is Hl)). }
    destruct HB as ((Hnn0 & Hms1 & Hid0) & [Hc Hlen Hfu] & _). unfold builder_num_elements in *.
    destruct Hm as [b0 last prev num nn ms sched x x' Hb0 Esp Hle Hnum Hnn Hms Es Er
                   |b0 last prev num nn ms sched l1 ms' sched' x x' Hb0 Esp Hle Hnum Hnn Hms Hms' Ei Es Er];
      destruct (Hex b0 last prev Hb0 Esp) as (R & rows0 & Hch & Hrows & His & Hw & Hg & Hlr); rewrite Hlr in Hle.
    - destruct (@pass_state _ _ V (b_elems b) Hc Hsort Hlen Hfu true (k_nn (b_config b)) nn ms prev R num last rows0 false sched x x'
        Hch Hrows His ltac:(lia) Hg Hle Hnum ltac:(discriminate) ltac:(lia) Hms Es Er) as [HI _].
      split; [unfold builder_num_elements in *; lia|]. split; auto. eexists num, _. split; [unfold builder_num_elements in *; lia|exact HI].
    - destruct (@pass_ok _ _ V (b_elems b) Hc Hsort Hlen Hfu true (k_nn (b_config b)) nn ms prev R num last rows0 false sched
        Hch Hrows His ltac:(lia) Hw Hg Hle Hnum ltac:(discriminate) ltac:(lia) Hms) as (P1 & _).
      destruct (P1 _ Ei) as (rows1 & Hl1 & Hw1 & HL1 & Hm1 & _).
      destruct (@pass_state _ _ V (b_elems b) Hc Hsort Hlen Hfu true (k_nn (b_config b)) nn ms' prev R num l1 rows1 true sched' x x'
        Hch (or_intror Hl1) (f_is Hl1) (f_w0 Hl1)) as [HI _]; auto.
      + destruct Hg as [Hg1 Hg2]. split; [lia|]. auto.
      + lia.
      + rewrite Hw1. lia.
      + rewrite Hw1 in HI. split; [lia|]. split; auto. eexists num, _. split; [|exact HI]. apply Hnum.
  Qed.
End MidRun.
