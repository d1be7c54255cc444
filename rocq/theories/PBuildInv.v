(** * Proofs: invariants of concurrent insertion *)
From Verif Require Import Base BaseFacts MSliceVec MIndexIo MSearch PHeap PSearch MBuild SBuild PSelect PRow PSLite.
Set Implicit Arguments.
Unset Strict Implicit.

(** node [y] has at least one neighbour *)
Definition live (rows : list (list N)) (y : nat) : Prop :=
  exists r, nth_error rows y = Some r /\ row_ids r <> [].
(** a linked node other than node 0 has neighbours, and then so does node 0 *)
Definition lnk (U : bool) (rows : list (list N)) (y : nat) : Prop :=
  U = true -> y <> 0 -> live rows y /\ live rows 0.

Lemma live_dec rows y : live rows y \/ ~ live rows y.
Proof.
  unfold live. destruct (nth_error rows y) as [r|].
  - destruct (row_ids r) eqn:E.
    + right. intros (r' & E1 & H). congruence.
    + left. exists r. split; auto. congruence.
  - right. intros (r' & E1 & _). discriminate.
Qed.

Lemma live_set rows i r' y : i < length rows ->
  (live (set_nth rows i r') y <-> (y = i /\ row_ids r' <> []) \/ (y <> i /\ live rows y)).
Proof.
  intros Hi. unfold live. rewrite nth_error_set_nth. destruct (Nat.ltb_spec i (length rows)); [|lia].
  rewrite andb_true_r. destruct (Nat.eqb_spec i y) as [<-|Hne].
  - split.
    + intros (r & E1 & H1). injection E1 as <-. auto.
    + intros [[_ H1]|[H1 _]]; [eauto|tauto].
  - split.
    + intros H1. right. auto.
    + intros [[H1 _]|[_ H1]]; [congruence|auto].
Qed.

Section Inv.
  Context {S E : Type} (V : benv S E) (s : S).
  Local Notation C := (e_ops V).
  Hypothesis Hc : cont_ok C s.
  Hypothesis Hsort : sorts_by_dist (e_sort V).
  Hypothesis Hlen : (N.of_nat (c_len C s) <= UNUSED)%N.
  Variables (U : bool) (w n : nat).
  Hypothesis Hn : n <= c_len C s.
  Variables (nn ms : nat) (prev : list (fw N)).
  Hypothesis Hnn : 0 < nn <= w.
  Hypothesis Hms : 0 < ms.
  Variable B : nat -> Prop.
  Hypothesis Hprev : forall idx e, idx < n -> c_get C s idx = Ok e ->
    exists r, granne_search (e_mode V) (e_fuel V) (FixWidth prev) (fun i => c_dte C s i e) 1 1 = Ok r /\
      forall x, In x r -> fst x < n /\ (U = true -> fst x <> 0 -> B (fst x) /\ B 0).

  Definition zero_elem (z : nat) : Prop := exists d, c_dist C s z z = Ok d /\ (e_eps V < d)%Z.

  Record lay_inv (rows : list (list N)) : Prop := mkLayInv {
    y_len : length rows = n;
    y_row : forall i r, nth_error rows i = Some r -> wf_row U w n i r;
    y_link : forall i r y, nth_error rows i = Some r -> In y (row_ids r) -> lnk U rows y;
    y_zero : U = true -> forall z, zero_elem z -> z <> 0 -> ~ live rows z;
    y_base : forall x, B x -> live rows x
  }.

  Lemma upd_inv rows i r r' : lay_inv rows -> nth_error rows i = Some r -> wf_row U w n i r' ->
    (row_ids r <> [] -> row_ids r' <> []) ->
    (forall y, In y (row_ids r') -> In y (row_ids r) \/ lnk U (set_nth rows i r') y) ->
    (U = true -> zero_elem i -> i <> 0 -> row_ids r' = []) ->
    lay_inv (set_nth rows i r') /\ (forall x, live rows x -> live (set_nth rows i r') x).
  Proof.
    intros HI Hr Hw' Hne Hin Hz.
    assert (Hi : i < length rows) by (apply nth_error_Some; congruence).
    assert (Hmono : forall x, live rows x -> live (set_nth rows i r') x).
    { intros x Hx. apply live_set; auto. destruct (Nat.eq_dec x i) as [->|]; [|auto]. left. split; auto.
      destruct Hx as (r0 & E0 & H0). rewrite Hr in E0. injection E0 as <-. auto. }
    assert (Hlm : forall y, lnk U rows y -> lnk U (set_nth rows i r') y).
    { intros y Hy HU Hy0. destruct (Hy HU Hy0). auto. }
    split; auto. constructor.
    - rewrite set_nth_length. apply (y_len HI).
    - intros j r0. rewrite nth_error_set_nth. destruct (Nat.ltb_spec i (length rows)); [|lia]. rewrite andb_true_r.
      destruct (Nat.eqb_spec i j) as [<-|]; [|apply (y_row HI)]. intros E0. injection E0 as <-. auto.
    - intros j r0 y. rewrite nth_error_set_nth. destruct (Nat.ltb_spec i (length rows)); [|lia]. rewrite andb_true_r.
      destruct (Nat.eqb_spec i j) as [<-|].
      + intros E0. injection E0 as <-. intros Hy. destruct (Hin y Hy) as [Hy'|]; auto.
        apply Hlm. eapply (y_link HI); eauto.
      + intros E0 Hy. apply Hlm. eapply (y_link HI); eauto.
    - intros HU z Hzz Hz0 Hl. apply live_set in Hl; auto. destruct Hl as [[-> Hl]|[_ Hl]].
      + apply Hl. auto.
      + now apply (y_zero HI HU) in Hl.
    - intros x Hx. apply Hmono. now apply (y_base HI).
  Qed.

  Definition ns_ok (rows : list (list N)) (idx : nat) (ns : list (nat * Z)) : Prop :=
    nbrs_ok n idx (map fst ns) /\ (forall y, In y (map fst ns) -> lnk U rows y) /\ length ns <= nn.

  Definition fresh (rows : list (list N)) (idx : nat) (ns : list (nat * Z)) : Prop :=
    U = true -> (idx = 0 /\ ns = []) \/ (idx <> 0 /\ ~ live rows idx).

  Definition fE (e : E) (i : nat) : Z := match c_dte C s i e with Ok d => d | Fail _ => 0%Z end.

  Definition task_inv (rows : list (list N)) (idx : nat) (t : tstate E) : Prop :=
    idx < n /\
    match t with
    | TStart | TDone => True
    | TSearch e st => ~ zero_elem idx /\ c_get C s idx = Ok e /\ slite n (fE e) ms (lnk U rows) st
    | TTest ns => ~ zero_elem idx /\ ns_ok rows idx ns
    | TCheck ns => e_mode V = Debug /\ ~ zero_elem idx /\ ns_ok rows idx ns /\ fresh rows idx ns
    | TInit ns => ~ zero_elem idx /\ ns_ok rows idx ns /\ fresh rows idx ns
    | TOwn todo ns => ns_ok rows idx ns /\ live rows idx /\ incl todo ns
    | TBack todo => ns_ok rows idx todo /\ (todo <> [] -> live rows idx)
    end.

  Definition tmeas (t : tstate E) : nat :=
    match t with
    | TStart => 4 * n + 7
    | TSearch e st => smeas n st + 2 * n + 6
    | TTest ns => 2 * length ns + 5
    | TCheck ns => length ns + 4
    | TInit ns => length ns + 3
    | TOwn todo ns => length todo + length ns + 3
    | TBack todo => length todo + 1
    | TDone => 0
    end.

  Lemma ns_ok_mono rows rows' idx ns : (forall x, live rows x -> live rows' x) ->
    ns_ok rows idx ns -> ns_ok rows' idx ns.
  Proof.
    intros Hm (H1 & H2 & H3). split; [auto|]. split; auto. intros y Hy HU Hy0. destruct (H2 y Hy HU Hy0). auto.
  Qed.

  (** the invariant of a task survives the steps of the others *)
  Lemma task_inv_mono rows rows' idx t : (forall x, live rows x -> live rows' x) ->
    (U = true -> idx <> 0 -> live rows' idx -> live rows idx) ->
    task_inv rows idx t -> task_inv rows' idx t.
  Proof.
    intros Hm Hnn' [Hi Ht]. split; auto.
    assert (Hfr : forall ns, fresh rows idx ns -> fresh rows' idx ns).
    { intros ns H HU. destruct (H HU) as [H0|[H1 H2]]; [left; auto|right]. split; auto. }
    pose proof (fun ns => @ns_ok_mono rows rows' idx ns Hm) as Hns.
    destruct t; auto.
    - destruct Ht as (H1 & H2 & H3). split; auto. split; auto. eapply slite_mono; [|exact H3].
      intros x Hx HU Hx0. destruct (Hx HU Hx0). auto.
    - destruct Ht as (H1 & H2). auto.
    - destruct Ht as (H0 & H1 & H2 & H3). auto 10.
    - destruct Ht as (H1 & H2 & H3). auto.
    - destruct Ht as (H1 & H2 & H3). auto.
    - destruct Ht as (H1 & H2). auto.
  Qed.

  Lemma fE_ok e idx : idx < n -> c_get C s idx = Ok e -> forall i, i < n -> c_dte C s i e = Ok (fE e i).
  Proof.
    intros Hi He i Hin. destruct (ck_dte Hc (i := i) (j := idx) (e := e)) as (d & Hd); auto; try lia.
    unfold fE. now rewrite Hd.
  Qed.

  Lemma start_ok rows idx : lay_inv rows -> idx < n ->
    exists t, start_task V s ms prev idx = Ok t /\ task_inv rows idx t /\ tmeas t < tmeas TStart /\
      (zero_elem idx -> t = TDone) /\ (t = TDone -> zero_elem idx).
  Proof.
    intros HI Hi. unfold start_task. destruct (ck_dist Hc (i := idx) (j := idx)) as (dd & Edd); [lia..|].
    rewrite Edd. cbn [obind]. destruct (Z.ltb_spec (e_eps V) dd) as [Hd|Hd].
    { exists TDone. split; auto. split; [split; auto|]. split; [cbn; lia|]. split; auto. intros _. exists dd. auto. }
    assert (Hnz : ~ zero_elem idx).
    { intros (d & Ed & Hd'). rewrite Edd in Ed. injection Ed as <-. lia. }
    destruct (ck_get Hc (i := idx)) as (e & He); [lia|]. rewrite He. cbn [obind].
    destruct (Hprev Hi He) as (r & -> & Hr). cbn [obind].
    set (ep := match r with [] => 0 | x :: _ => fst x end).
    assert (Hep : ep < n /\ lnk U rows ep).
    { unfold ep. destruct r as [|x r]; [split; [lia|intros _ H; now elim H]|].
      destruct (Hr x (or_introl eq_refl)) as [H1 H2]. split; auto.
      intros HU H0. destruct (H2 HU H0). split; now apply (y_base HI). }
    destruct Hep as [He1 He2].
    destruct (@slite_init n (fE e) (fun i => c_dte C s i e) (fE_ok Hi He) ms Hms (lnk U rows) ep He1 He2) as (st & Est & Hst).
    rewrite Est. cbn [obind]. exists (TSearch e st). split; auto. split; [split; auto|].
    split; [|split; [tauto|discriminate]].
    unfold s_init in Est. rewrite (fE_ok Hi He He1) in Est. cbn [obind] in Est. injection Est as <-.
    cbn [tmeas]. unfold smeas. cbn [s_vis s_pq length]. lia.
  Qed.

  Lemma filter_pair_nodup {A B'} (g : A -> bool) (p : A -> B') l : NoDup (map p l) -> NoDup (map p (filter g l)).
  Proof.
    induction l as [|a l IH]; cbn; auto. intros H. inversion H as [|? ? Hni Hnd]; subst.
    destruct (g a); auto. cbn. constructor; auto. intros Hin. apply Hni. apply in_map_iff in Hin as (z & Ez & Hz).
    apply filter_In in Hz as [Hz _]. apply in_map_iff. eauto.
  Qed.
  Lemma filter_sorted {A} (R : A -> A -> Prop) (g : A -> bool) l : StronglySorted R l -> StronglySorted R (filter g l).
  Proof.
    induction 1 as [|a l Hs IH HF]; cbn; [constructor|]. destruct (g a); auto. constructor; auto.
    rewrite Forall_forall in *. intros x Hx. apply filter_In in Hx as [Hx _]. auto.
  Qed.

  Lemma choose_ok rows idx found : ~ zero_elem idx -> idx < n ->
    NoDup (map fst found) -> (forall x d, In (x, d) found -> x < n /\ lnk U rows x) -> dsorted found ->
    exists t, choose V s nn idx found = Ok t /\ task_inv rows idx t /\ tmeas t < 2 * n + 6 /\
      (t = TDone \/ exists ns, t = TTest ns).
  Proof.
    intros Hz Hi Hnd Hf Hso. unfold choose.
    set (cands := filter (fun x => negb (fst x =? idx)) found).
    assert (HcF : forall x, In x cands -> fst x < n /\ lnk U rows (fst x) /\ fst x <> idx).
    { intros [x d] Hx. unfold cands in Hx. apply filter_In in Hx as [Hx Hb]. destruct (Hf _ _ Hx) as [H1 H2].
      cbn in *. apply negb_true_iff, Nat.eqb_neq in Hb. auto. }
    assert (Hcn : NoDup (map fst cands)) by (now apply filter_pair_nodup).
    destruct (@select_ok _ _ V s _ (Dof_ok (V := V) Hc) nn cands) as (ns & -> & Hl & Hsub & HndS & Hfirst).
    { lia. } { rewrite Forall_forall. intros x Hx. apply HcF in Hx. lia. }
    { intros _. now apply filter_sorted. }
    cbn [obind].
    assert (Hns : ns_ok rows idx ns).
    { split; [|split; auto].
      - split; [auto|]. split.
        + intros H. apply in_map_iff in H as (x & Ex & Hx). apply Hsub in Hx. apply HcF in Hx. tauto.
        + rewrite Forall_forall. intros y Hy. apply in_map_iff in Hy as (x & <- & Hx). apply Hsub in Hx. apply HcF in Hx. tauto.
      - intros y Hy. apply in_map_iff in Hy as (x & <- & Hx). apply Hsub in Hx. apply HcF in Hx. tauto. }
    assert (Hln : length ns <= n).
    { rewrite <- (map_length fst). apply NoDup_bounded; [auto|]. intros x Hx. destruct Hns as [(_ & _ & H) _].
      rewrite Forall_forall in H. auto. }
    destruct (nth_error ns (nn / 2)) as [[y d]|].
    - destruct (d <? e_eps V)%Z.
      + exists TDone. split; [auto|]. split; [split; auto|]. split; [cbn; lia|]. left; auto.
      + exists (TTest ns). split; [auto|]. split; [split; auto|]. split; [cbn; lia|]. right; eauto.
    - exists (TTest ns). split; [auto|]. split; [split; auto|]. split; [cbn; lia|]. right; eauto.
  Qed.

  (** one step of a task *)
  Lemma task_step_ok rows idx t : lay_inv rows -> task_inv rows idx t ->
    (forall ns, t = TCheck ns -> (U = true -> idx = 0) -> ~ live rows idx) ->
    exists rows' t', task_step V s nn ms prev rows idx t = Ok (rows', t') /\ lay_inv rows' /\
      (forall x, live rows x -> live rows' x) /\
      (U = true -> forall x, x <> 0 -> x <> idx -> live rows' x -> live rows x) /\
      task_inv rows' idx t' /\ (t <> TDone -> tmeas t' < tmeas t).
  Proof.
    intros HI [Hi Ht] Hchk.
    assert (Hrow : exists r, nth_error rows idx = Some r).
    { destruct (nth_error rows idx) eqn:En; eauto. apply nth_error_None in En. rewrite (y_len HI) in En. lia. }
    destruct Hrow as (r & Hr). pose proof (y_row HI Hr) as Hwr.
    assert (Hw0 : 0 < w) by lia.
    destruct t as [|e st|ns|ns|ns|todo ns|todo|]; cbn [task_step].
    - (* TStart *)
      destruct (start_ok HI Hi) as (t' & -> & Hti & Hm & _). cbn [obind]. exists rows, t'. split; [auto|]. split; [auto|]. split; [auto|]. split; [auto|]. split; auto.
    - (* TSearch *)
      destruct Ht as (Hz & He & Hst).
      destruct (slite_pop Hms Hst) as [->|(k & pq & Epq & ->)]; cbn [obind].
      + destruct (slite_result Hst) as (H1 & H2 & H3).
        destruct (@choose_ok rows idx _ Hz Hi H1) as (t' & Ech & Hti & Hm & _); auto.
        { intros x d Hx. destruct (H2 x d Hx) as (? & ? & _). auto. }
        match goal with |- context [choose V s nn idx ?f] =>
          replace (choose V s nn idx f) with (Ok t') by (symmetry; exact Ech) end.
        cbn [obind]. exists rows, t'. split; [auto|]. split; [auto|]. split; [auto|]. split; [auto|]. split; [auto|].
        intros _. cbn [tmeas]. lia.
      + assert (Hk : snd k < n).
        { destruct (l_key Hst (k := k)) as [_ Hv]; [right; rewrite Epq; left; auto|]. now apply (l_vis Hst) in Hv. }
        unfold read_ids, index. destruct (nth_error rows (snd k)) as [rk|] eqn:Erk.
        2:{ apply nth_error_None in Erk. rewrite (y_len HI) in Erk. lia. }
        cbn [ounwrap obind].
        assert (HrF : Forall (fun x => x < n /\ lnk U rows x) (row_ids rk)).
        { destruct (wf_ids (V:=V) Hlen Hn Hw0 (y_row HI Erk)) as [_ (_ & _ & HF)]. rewrite Forall_forall in *.
          intros x Hx. split; auto. eapply (y_link HI); eauto. }
        destruct (@slite_expand n (fE e) (fun i => c_dte C s i e) (fE_ok Hi He) ms Hms _ st k pq _ Hst Epq HrF)
          as (st' & -> & Hst' & Hm). cbn [obind].
        exists rows, (TSearch e st'). split; [auto|]. split; [auto|]. split; [auto|]. split; [auto|]. split; [split; auto|].
        intros _. cbn [tmeas]. lia.
    - (* TTest *)
      destruct Ht as (Hz & Hns). unfold index. rewrite Hr. cbn [ounwrap obind].
      destruct (empty_row_head Hlen Hn Hw0 Hwr) as (x & Hx & Hxu). rewrite Hx. cbn [ounwrap obind].
      eexists _, _. split; [reflexivity|]. split; [auto|]. split; [auto|]. split; [auto|].
      destruct (x =? UNUSED)%N eqn:Exu.
      + assert (He : row_ids r = []) by (now apply Hxu).
        assert (Hnl : ~ live rows idx).
        { intros (r0 & E0 & H0). rewrite Hr in E0. injection E0 as <-. auto. }
        assert (Hfr : fresh rows idx ns).
        { intros HU. destruct (Nat.eq_dec idx 0) as [->|H0]; [left|right; auto]. split; auto.
          destruct ns as [|[y d] ns]; auto. exfalso.
          destruct Hns as ((_ & Hni & _) & Hlk & _). destruct (Hlk y) as [_ Hl0]; [left; auto|auto| |auto].
          intros ->. apply Hni. left; auto. }
        destruct (e_mode V) eqn:Em; (split; [split; auto|]); intros _; cbn; lia.
      + assert (Hne : row_ids r <> []).
        { intros H0. apply Hxu in H0. congruence. }
        split; [split; auto|].
        { split; [auto|]. split; [exists r; auto|apply incl_refl]. }
        intros _. cbn. lia.
    - (* TCheck *)
      destruct Ht as (Hmd & Hz & Hns & Hfr). unfold index. rewrite Hr. cbn [ounwrap obind].
      destruct (empty_row_head Hlen Hn Hw0 Hwr) as (x & Hx & Hxu). rewrite Hx. cbn [ounwrap obind].
      assert (Hnl : ~ live rows idx).
      { destruct U eqn:EU.
        - destruct (Hfr EU) as [[-> ->]|[_ H]]; auto. eapply Hchk; eauto.
        - eapply Hchk; eauto. discriminate. }
      assert (He : row_ids r = []).
      { destruct (row_ids r) eqn:E0; auto. exfalso. apply Hnl. exists r. split; auto. congruence. }
      apply Hxu in He. rewrite He. cbn [oassert obind].
      eexists _, _. split; [reflexivity|]. split; [auto|]. split; [auto|]. split; [auto|]. split; [split; auto|].
      intros _. cbn. lia.
    - (* TInit *)
      destruct Ht as (Hz & Hns & Hfr). unfold update_row, index. rewrite Hr. cbn [ounwrap obind].
      destruct Hns as (Hok & Hlk & Hl).
      assert (Hor : U = true -> row_ids r = [] \/ ns = []).
      { intros HU. destruct (Hfr HU) as [[_ ->]|[_ H]]; auto. left. destruct (row_ids r) eqn:E0; auto. exfalso. apply H. exists r. split; auto. congruence. }
      destruct (@init_ok _ _ V s Hlen U w n Hn Hw0 idx r ns) as (r' & -> & Hwf' & He1 & He2); auto; [lia|].
      cbn [obind].
      assert (Hil : idx < length rows) by (apply nth_error_Some; congruence).
      destruct (@upd_inv rows idx r r') as [HI' Hm]; auto.
      { intros H0. destruct ns; [rewrite He1; auto|]. rewrite He2. discriminate. }
      { intros y Hy. rewrite He2 in Hy. apply in_app_or in Hy as [Hy|Hy]; [|left; eapply skipn_In; eauto].
        destruct ns as [|a t]; [destruct Hy|].
        right. intros HU Hy0. destruct (Hlk y Hy HU Hy0) as [H1 H2].
        assert (Hm1 : forall x, live rows x -> live (set_nth rows idx r') x).
        { intros x Hx. apply live_set; auto. destruct (Nat.eq_dec x idx) as [->|]; [left|auto]. split; auto.
          rewrite He2. discriminate. }
        auto. }
      { tauto. }
      eexists _, _. split; [reflexivity|]. split; [auto|]. split; [auto|]. split.
      { intros HU x Hx0 Hxi Hl'. apply live_set in Hl'; auto. tauto. }
      split; [split; auto|].
      { split; [eapply ns_ok_mono; [exact Hm|split; auto]|]. intros Hne. apply live_set; auto. left. split; auto.
        rewrite He2. destruct ns; [tauto|discriminate]. }
      intros _. cbn. lia.
    - (* TOwn *)
      destruct Ht as (Hns & Hl & Hinc). destruct todo as [|[y d] todo].
      + eexists _, _. split; [reflexivity|]. split; [auto|]. split; [auto|]. split; [auto|]. split; [split; auto|].
        intros _. cbn. lia.
      + unfold update_row, index. rewrite Hr. cbn [ounwrap obind].
        assert (Hy : In y (map fst ns)) by (apply in_map_iff; exists (y, d); split; auto; apply Hinc; left; auto).
        assert (Hyn : y < n /\ y <> idx).
        { destruct Hns as [(_ & Hni & HF) _]. rewrite Forall_forall in HF. split; auto. intros ->. auto. }
        destruct (@connect_ok _ _ V s Hc Hsort Hlen U w n Hn Hw0 idx r y d) as (r' & -> & Hwf' & _ & Hne & Hin & Hmn & _); auto; [tauto|].
        cbn [obind].
        assert (Hil : idx < length rows) by (apply nth_error_Some; congruence).
        assert (Hrne : row_ids r <> []).
        { destruct Hl as (r0 & E0 & H0). rewrite Hr in E0. injection E0 as <-. auto. }
        destruct (@upd_inv rows idx r r') as [HI' Hm]; auto.
        { intros x Hx. destruct (Hin x Hx) as [|[_ ->]]; auto. right. intros HU Hy0.
          destruct Hns as (_ & Hlk & _). destruct (Hlk y Hy HU Hy0) as [H1 H2].
          assert (Hm1 : forall x, live rows x -> live (set_nth rows idx r') x).
          { intros z Hz. apply live_set; auto. destruct (Nat.eq_dec z idx) as [->|]; [left|auto]. split; auto. }
          auto. }
        { intros HU Hz H0. exfalso. apply (y_zero HI HU Hz H0). auto. }
        eexists _, _. split; [reflexivity|]. split; [auto|]. split; [auto|]. split.
        { intros HU x Hx0 Hxi Hl'. apply live_set in Hl'; auto. tauto. }
        split; [split; auto|].
        { split; [eapply ns_ok_mono; [exact Hm|auto]|]. split; auto. intros z Hz. apply Hinc. right; auto. }
        intros _. cbn. lia.
    - (* TBack *)
      destruct Ht as (Hns & Hl). destruct todo as [|[y d] todo].
      + eexists _, _. split; [reflexivity|]. split; [auto|]. split; [auto|]. split; [auto|]. split; [split; auto|].
        intros _. cbn. lia.
      + assert (Hli : live rows idx) by (apply Hl; discriminate).
        destruct Hns as ((Hnd & Hni & HF) & Hlk & Hll). cbn [map] in Hnd, Hni, HF, Hlk. cbn [fst] in *.
        assert (Hyn : y < n) by (inversion HF; auto).
        assert (Hyi : y <> idx) by (intros ->; apply Hni; left; auto).
        destruct (nth_error rows y) as [ry|] eqn:Ery.
        2:{ apply nth_error_None in Ery. rewrite (y_len HI) in Ery. lia. }
        unfold update_row, index. rewrite Ery. cbn [ounwrap obind].
        destruct (@connect_ok _ _ V s Hc Hsort Hlen U w n Hn Hw0 y ry idx d) as (r' & -> & Hwf' & _ & Hne & Hin & Hmn & _); auto.
        { apply (y_row HI Ery). }
        cbn [obind].
        assert (Hyl : y < length rows) by (apply nth_error_Some; congruence).
        assert (Hm1 : forall x, live rows x -> live (set_nth rows y r') x).
        { intros z Hz. apply live_set; auto. destruct (Nat.eq_dec z y) as [->|]; [left|auto]. split; auto. }
        assert (Hly : live (set_nth rows y r') y) by (apply live_set; auto).
        destruct (@upd_inv rows y ry r') as [HI' Hm]; auto.
        { intros x Hx. destruct (Hin x Hx) as [|[_ ->]]; auto. right. intros HU Hi0. split; auto.
          destruct (Nat.eq_dec y 0) as [->|Hy0]; auto. apply Hm1. apply (Hlk y); auto. left; auto. }
        { intros HU Hz H0. exfalso. apply (y_zero HI HU Hz H0). apply (Hlk y); auto. left; auto. }
        eexists _, _. split; [reflexivity|]. split; [auto|]. split; [auto|]. split.
        { intros HU x Hx0 Hxi Hl'. apply live_set in Hl'; auto. destruct Hl' as [[-> _]|[_ Hl']]; auto.
          apply (Hlk y); auto. left; auto. }
        split; [split; auto|].
        { split; auto. split; [|split].
          - split; [now inversion Hnd|]. split; [intros H; apply Hni; right; auto|now inversion HF].
          - intros z Hz HU Hz0. destruct (Hlk z) as [H1 H2]; auto. right; auto.
          - cbn [length] in Hll. lia. }
        intros _. cbn. lia.
    - exists rows, TDone. split; [auto|]. split; [auto|]. split; [auto|]. split; [auto|]. split; [split; auto|]. tauto.
  Qed.
End Inv.
