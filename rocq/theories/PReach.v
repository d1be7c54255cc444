(** * Proofs: connectedness of layers whose lists cannot overflow *)
From Coq Require Import Relation_Operators Operators_Properties.
From Verif Require Import Base BaseFacts MSliceVec SSliceVec PFixed MIndexIo PIndexCrash MSearch PHeap PSearch MBuild SBuild PSelect PRow PSLite PBuildInv PBuildRun PBuildLayer PBuildFair PBuilder PHistory PLink.
Set Implicit Arguments.
Unset Strict Implicit.

(** [y] is in the list of [x] *)
Definition edg (rows : list (list N)) (x y : nat) : Prop :=
  exists r, nth_error rows x = Some r /\ In y (row_ids r).
Definition rch (rows : list (list N)) : nat -> nat -> Prop := clos_refl_trans nat (edg rows).
(** connected to node 0, in both directions *)
Definition conn (rows : list (list N)) (x : nat) : Prop := rch rows 0 x /\ rch rows x 0.

Definition emono (rows rows' : list (list N)) : Prop := forall x y, edg rows x y -> edg rows' x y.

Lemma rch_mono rows rows' x y : emono rows rows' -> rch rows x y -> rch rows' x y.
Proof. intros Hm. induction 1; [apply rt_step; auto|apply rt_refl|eapply rt_trans; eauto]. Qed.
Lemma conn_mono rows rows' x : emono rows rows' -> conn rows x -> conn rows' x.
Proof. intros Hm [H1 H2]. split; eapply rch_mono; eauto. Qed.
Lemma conn_0 rows : conn rows 0.
Proof. split; apply rt_refl. Qed.
Lemma rch_first rows x y : rch rows x y -> x = y \/ exists z, edg rows x z.
Proof.
  intros H. apply clos_rt_rt1n in H. destruct H as [|z y0 Hz _]; eauto.
Qed.
Lemma edg_live rows x y : edg rows x y -> live rows x.
Proof. intros (r & Hr & Hy). exists r. split; auto. intros E0. rewrite E0 in Hy. destruct Hy. Qed.
Lemma conn_live rows x : conn rows x -> x = 0 \/ live rows x.
Proof. intros [_ H]. destruct (rch_first H) as [->|(z & Hz)]; auto. right. eapply edg_live; eauto. Qed.
Lemma conn_live0 rows x : conn rows x -> x <> 0 -> live rows 0.
Proof. intros [H _] H0. destruct (rch_first H) as [E0|(z & Hz)]; [congruence|]. eapply edg_live; eauto. Qed.
(** connecting [x] with a connected node in both directions *)
Lemma conn_edges rows x y : conn rows y -> edg rows x y -> edg rows y x -> conn rows x.
Proof.
  intros [H1 H2] Hxy Hyx. split.
  - eapply rt_trans; [exact H1|]. now apply rt_step.
  - eapply rt_trans; [apply rt_step; exact Hxy|auto].
Qed.

Lemma edg_set rows i r' x y : i < length rows ->
  (edg (set_nth rows i r') x y <-> (x = i /\ In y (row_ids r')) \/ (x <> i /\ edg rows x y)).
Proof.
  intros Hi. unfold edg. rewrite nth_error_set_nth. destruct (Nat.ltb_spec i (length rows)); [|lia].
  rewrite andb_true_r. destruct (Nat.eqb_spec i x) as [<-|Hne].
  - split.
    + intros (r & E1 & H1). injection E1 as <-. auto.
    + intros [[_ H1]|[H1 _]]; [eauto|tauto].
  - split.
    + intros H1. right. auto.
    + intros [[H1 _]|[_ H1]]; [congruence|auto].
Qed.

Lemma emono_set rows i r r' : nth_error rows i = Some r -> incl (row_ids r) (row_ids r') ->
  emono rows (set_nth rows i r').
Proof.
  intros Hr Hinc x y Hxy. assert (Hi : i < length rows) by (apply nth_error_Some; congruence).
  apply edg_set; auto. destruct (Nat.eq_dec x i) as [->|]; [left|auto]. split; auto.
  destruct Hxy as (r0 & E0 & Hy). rewrite Hr in E0. injection E0 as <-. auto.
Qed.

Lemma others_bound n i l : NoDup l -> ~ In i l -> i < n -> Forall (fun x => x < n) l -> length l < n.
Proof.
  intros Hnd Hni Hi HF. pose proof (@NoDup_bounded (i :: l) n) as H. cbn [length] in H. apply H.
  - constructor; auto.
  - intros x [<-|Hx]; auto. rewrite Forall_forall in HF. auto.
Qed.

Lemma nth_error_firstn {A} (l : list A) k q : q < k -> nth_error (firstn k l) q = nth_error l q.
Proof. revert k q. induction l as [|a l IH]; intros [|k] [|q] H; cbn; auto; try lia. apply IH. lia. Qed.

Section Reach.
  Context {S E : Type} (V : benv S E) (s : S).
  Local Notation C := (e_ops V).
  Hypothesis Hc : cont_ok C s.
  Hypothesis Hsort : sorts_by_dist (e_sort V).
  Hypothesis Hlen : (N.of_nat (c_len C s) <= UNUSED)%N.
  Variables (w n : nat).
  Hypothesis Hn : n <= c_len C s.
  Variables (nn ms : nat) (prev : list (fw N)).
  Hypothesis Hnn : 0 < nn <= w.
  Hypothesis Hms : 0 < ms.
  Hypothesis Hsmall : n <= nn + 1.
  Variable B : nat -> Prop.
  Variable K : nat -> Prop.
  Hypothesis Hprev : forall idx e, idx < n -> c_get C s idx = Ok e ->
    exists r, granne_search (e_mode V) (e_fuel V) (FixWidth prev) (fun i => c_dte C s i e) 1 1 = Ok r /\
      forall x, In x r -> fst x < n /\ K (fst x).
  Hypothesis Hdup : forall idx e l, idx < n -> c_get C s idx = Ok e -> NoDup l ->
    (forall x, In x l -> x < n /\ x <> idx /\ (fE V s e x < e_eps V)%Z) -> length l <= nn / 2.
  Let Hw : 0 < w. Proof. lia. Qed.

  Local Notation linv := (lay_inv V s true w n B).
  Local Notation tinv := (task_inv V s true n nn ms).

  Record creach (rows : list (list N)) : Prop := mkCreach {
    k_edge : forall x y, edg rows x y -> conn rows y;
    k_base : forall x, K x -> conn rows x
  }.

  Definition ns_conn (rows : list (list N)) (idx : nat) (ns : list (nat * Z)) : Prop :=
    (forall y, In y (map fst ns) -> conn rows y) /\ (ns <> [] \/ conn rows idx).

  Definition tconn (rows : list (list N)) (idx : nat) (t : tstate E) : Prop :=
    match t with
    | TStart => True
    | TSearch e st => slite n (fE V s e) ms (conn rows) st /\ (s_pq st <> [] \/ hs (s_res st) <> [])
    | TTest ns | TCheck ns | TInit ns => ns_conn rows idx ns
    | TOwn todo ns => ns_conn rows idx ns /\ forall y, In y (map fst ns) -> In y (map fst todo) \/ edg rows idx y
    | TBack todo => ns_conn rows idx todo /\ forall y, In y (map fst todo) -> edg rows idx y
    | TDone => zero_elem V s idx \/ conn rows idx
    end.

  Lemma ns_conn_mono rows rows' idx ns : emono rows rows' -> ns_conn rows idx ns -> ns_conn rows' idx ns.
  Proof.
    intros Hm [H1 H2]. split; [intros y Hy; eapply conn_mono; eauto|]. destruct H2; auto. right. eapply conn_mono; eauto.
  Qed.

  Lemma tconn_mono rows rows' idx t : emono rows rows' -> tconn rows idx t -> tconn rows' idx t.
  Proof.
    intros Hm. pose proof (fun ns => @ns_conn_mono rows rows' idx ns Hm) as Hns. destruct t; cbn [tconn]; auto.
    - intros [H1 H2]. split; auto. eapply slite_mono; [|exact H1]. intros x. now apply conn_mono.
    - intros [H1 H2]. split; auto. intros y Hy. destruct (H2 y Hy); auto.
    - intros [H1 H2]. split; auto.
    - intros [H1|H1]; auto. right. eapply conn_mono; eauto.
  Qed.

  (** with few nodes, connecting only adds *)
  Lemma connect_small i r j d r' : wf_row true w n i r -> i < n -> j < n -> i <> j ->
    connect_nodes V s r i j d = Ok r' ->
    incl (row_ids r) (row_ids r') /\ In j (row_ids r') /\ forall x, In x (row_ids r') -> In x (row_ids r) \/ x = j.
  Proof.
    intros Hr Hi Hj Hij Ec.
    destruct (@connect_ok _ _ V s Hc Hsort Hlen true w n Hn Hw i r j d Hr Hi Hj) as (r0 & E0 & _ & _ & _ & Hin & _ & Hthere & Hnew).
    rewrite Ec in E0. injection E0 as <-.
    destruct (wf_ids (V := V) Hlen Hn Hw Hr) as [_ (Hnd & Hni & HF)].
    destruct (in_dec Nat.eq_dec j (row_ids r)) as [Hj'|Hj'].
    - rewrite (Hthere Hij Hj') in *. split; [apply incl_refl|]. split; auto.
    - assert (Hlt : length (j :: row_ids r) < n).
      { apply (@others_bound n i); auto.
        - constructor; auto.
        - intros [<-|H]; auto. }
      cbn [length] in Hlt. rewrite (Hnew Hij Hj') by lia. split; [apply incl_appl, incl_refl|].
      split; [apply in_or_app; right; left; auto|]. intros x Hx. apply in_app_or in Hx as [|[->|[]]]; auto.
  Qed.

  Lemma cands_le idx found : idx < n -> NoDup (map fst found) -> (forall x, In x found -> fst x < n) ->
    length (filter (fun x : nat * Z => negb (fst x =? idx)) found) <= nn.
  Proof.
    intros Hi Hnd Hf. set (l := filter _ found).
    assert (length (map fst l) < n); [|rewrite map_length in *; lia].
    apply (@others_bound n idx); auto.
    - unfold l. now apply filter_pair_nodup.
    - intros H. apply in_map_iff in H as (x & Ex & Hx). unfold l in Hx. apply filter_In in Hx as [_ Hx].
      apply negb_true_iff, Nat.eqb_neq in Hx. auto.
    - rewrite Forall_forall. intros y Hy. apply in_map_iff in Hy as (x & <- & Hx). unfold l in Hx. apply filter_In in Hx as [Hx _]. auto.
  Qed.

  Lemma task_conn rows idx t rows' t' : linv rows -> tinv rows idx t -> creach rows -> tconn rows idx t ->
    task_step V s nn ms prev rows idx t = Ok (rows', t') ->
    emono rows rows' /\ creach rows' /\ tconn rows' idx t'.
  Proof.
    intros HI [Hi Ht] HK HT Es.
    assert (Hsame : rows' = rows -> tconn rows idx t' -> emono rows rows' /\ creach rows' /\ tconn rows' idx t').
    { intros -> H. split; [intros x y; auto|]. auto. }
    destruct t as [|e st|ns|ns|ns|todo ns|todo|]; cbn [task_step] in Es.
    - (* TStart *)
      destruct (start_task V s ms prev idx) as [t1|] eqn:E1; [|discriminate]. cbn [obind] in Es.
      apply ok_inj in Es. injection Es as <- <-. apply Hsame; auto. unfold start_task in E1.
      destruct (c_dist C s idx idx) as [dd|] eqn:Ed; [|discriminate]. cbn [obind] in E1.
      destruct (Z.ltb_spec (e_eps V) dd) as [Hdd|Hdd].
      { apply ok_inj in E1. subst t1. left. exists dd. auto. }
      destruct (c_get C s idx) as [e|] eqn:Ee; [|discriminate]. cbn [obind] in E1.
      destruct (Hprev Hi Ee) as (r & Er & Hr). rewrite Er in E1. cbn [obind] in E1.
      set (ep := match r with [] => 0 | x :: _ => fst x end) in *.
      assert (Hep : ep < n /\ conn rows ep).
      { unfold ep. destruct r as [|x r]; [split; [lia|apply conn_0]|]. destruct (Hr x (or_introl eq_refl)) as [H1 H2].
        split; auto. now apply (k_base HK). }
      destruct Hep as [He1 He2].
      destruct (@slite_init n (fE V s e) (fun i => c_dte C s i e) (fE_ok Hc Hlen Hn Hnn Hms Hi Ee) ms Hms (conn rows) ep He1 He2) as (st & Est & Hst).
      rewrite Est in E1. cbn [obind] in E1. apply ok_inj in E1. subst t1. cbn [tconn]. split; auto. left.
      unfold s_init in Est. destruct (c_dte C s ep e); [|discriminate]. cbn [obind] in Est. apply ok_inj in Est. subst st. discriminate.
    - (* TSearch *)
      destruct Ht as (Hz & He & Hst0). destruct HT as [Hst Hne].
      destruct (slite_pop Hms Hst) as [Ep|(k & pq & Epq & Ep)]; rewrite Ep in Es; cbn [obind] in Es.
      + (* the result *)
        assert (Hres : hs (s_res st) <> []).
        { destruct Hne as [Hne|]; auto. unfold s_pop in Ep. destruct (s_pq st) as [|[d i] pq]; [congruence|].
          destruct (msh_is_full (s_res st)) eqn:Ef; [|discriminate]. unfold msh_is_full in Ef. apply Nat.leb_le in Ef.
          rewrite (l_max Hst) in Ef. intros E0. rewrite E0 in Ef. cbn in Ef. lia. }
        destruct (slite_result Hst) as (H1 & H2 & H3).
        match type of Es with context [choose V s nn idx ?f] => remember f as found eqn:Ef0 end.
        assert (Ef1 : found = map (fun k : key => (snd k, fst k)) (msh_into_sorted_vec (s_res st))) by exact Ef0. clear Ef0.
        rewrite <- Ef1 in H1, H2, H3.
        assert (Hfne : found <> []).
        { rewrite Ef1. unfold msh_into_sorted_vec. destruct (hs (s_res st)); [congruence|discriminate]. }
        destruct (choose V s nn idx found) as [t1|] eqn:Ech; [|discriminate]. cbn [obind] in Es. apply ok_inj in Es.
        injection Es as <- <-. apply Hsame; auto. unfold choose in Ech.
        set (cands := filter (fun x => negb (fst x =? idx)) found) in *.
        assert (Hlc : length cands <= nn).
        { apply cands_le; auto. intros [x d] Hx. apply (H2 x d Hx). }
        assert (Hcf : forall x, In x cands -> fst x < n /\ fst x <> idx /\ conn rows (fst x) /\ snd x = fE V s e (fst x)).
        { intros [x d] Hx. unfold cands in Hx. apply filter_In in Hx as [Hx Hb]. cbn [fst] in Hb.
          apply negb_true_iff, Nat.eqb_neq in Hb. destruct (H2 x d Hx) as (? & ? & ?). cbn. auto. }
        assert (Hse : select_neighbors V s cands nn = Ok cands).
        { unfold select_neighbors. destruct (Nat.leb_spec (length cands) nn); [auto|lia]. }
        rewrite Hse in Ech. cbn [obind] in Ech.
        assert (Hcn : NoDup (map fst cands)) by (now apply filter_pair_nodup).
        assert (Hnsc : ns_conn rows idx cands).
        { split.
          - intros y Hy. apply in_map_iff in Hy as (x & <- & Hx). apply (Hcf x Hx).
          - destruct cands as [|c cs] eqn:Ecs; [right|left; discriminate].
            destruct found as [|[x d] fo] eqn:Efo; [congruence|].
            destruct (H2 x d (or_introl eq_refl)) as (_ & Hx & _).
            destruct (Nat.eq_dec x idx) as [->|Hx0]; auto. exfalso.
            assert (Hin : In (x, d) cands) by (unfold cands; apply filter_In; split; [left; auto|]; cbn [fst]; apply negb_true_iff, Nat.eqb_neq; auto).
            rewrite Ecs in Hin. destruct Hin. }
        destruct (nth_error cands (nn / 2)) as [[y d]|] eqn:En.
        * destruct (Z.ltb_spec d (e_eps V)) as [Hd|Hd]; apply ok_inj in Ech; subst t1; [|exact Hnsc].
          exfalso. (* more than nn / 2 duplicates *)
          assert (Hsc : StronglySorted (fun a b => (snd a <= snd b)%Z) cands) by (now apply filter_sorted).
          assert (Hall : forall x, In x (firstn (Datatypes.S (nn / 2)) cands) -> (snd x < e_eps V)%Z).
          { intros x Hx. apply In_nth_error in Hx as (q & Hq).
            assert (Hql : q < length (firstn (Datatypes.S (nn / 2)) cands)) by (apply nth_error_Some; congruence).
            rewrite firstn_length in Hql. rewrite nth_error_firstn in Hq by lia.
            assert (snd x <= d)%Z; [|lia].
            destruct (Nat.eq_dec q (nn / 2)) as [->|Hqn]; [rewrite En in Hq; injection Hq as <-; cbn; lia|].
            clear -Hsc Hq En Hql Hqn. revert q Hq En Hql Hqn. generalize (nn / 2). induction Hsc as [|a l Hs IH HF]; intros m q Hq En Hql Hqn; [destruct q; discriminate|].
            destruct m as [|m]; [lia|]. destruct q as [|q].
            - cbn in Hq, En. injection Hq as ->. rewrite Forall_forall in HF. apply (HF (y, d)). eapply nth_error_In; eauto.
            - cbn in Hq, En. apply (IH m q); auto; cbn [length] in *; lia. }
          assert (Hdl : length (map fst (firstn (Datatypes.S (nn / 2)) cands)) <= nn / 2).
          { apply (@Hdup idx e); auto.
            - rewrite <- firstn_map. rewrite <- (firstn_skipn (Datatypes.S (nn / 2)) (map fst cands)) in Hcn. eapply NoDup_appl; eauto.
            - intros x Hx. apply in_map_iff in Hx as (z & <- & Hzi). pose proof (Hall z Hzi) as Hzd. apply firstn_In in Hzi.
              destruct (Hcf z Hzi) as (? & ? & _ & Ez). rewrite Ez in Hzd. auto. }
          rewrite map_length, firstn_length in Hdl.
          assert (nn / 2 < length cands) by (apply nth_error_Some; congruence). lia.
        * apply ok_inj in Ech. subst t1. exact Hnsc.
      + assert (Hk : snd k < n /\ conn rows (snd k)).
        { destruct (l_key Hst (k := k)) as [_ Hv]; [right; rewrite Epq; left; auto|]. now apply (l_vis Hst) in Hv. }
        destruct Hk as [Hk Hkc].
        unfold read_ids, index in Es. destruct (nth_error rows (snd k)) as [rk|] eqn:Erk; [|discriminate].
        cbn [ounwrap obind] in Es.
        assert (HrF : Forall (fun x => x < n /\ conn rows x) (row_ids rk)).
        { destruct (wf_ids (V:=V) Hlen Hn Hw (y_row HI Erk)) as [_ (_ & _ & HF)]. rewrite Forall_forall in *.
          intros x Hx. split; auto. apply (k_edge HK (x := snd k)). exists rk. auto. }
        destruct (@slite_expand n (fE V s e) (fun i => c_dte C s i e) (fE_ok Hc Hlen Hn Hnn Hms Hi He) ms Hms _ st k pq _ Hst Epq HrF)
          as (st' & Est & Hst' & Hm).
        rewrite Est in Es. cbn [obind] in Es. apply ok_inj in Es. injection Es as <- <-. apply Hsame; auto. cbn [tconn].
        split; auto. right. unfold s_expand in Est. cbn [s_res] in Est.
        destruct (@push_key (s_res st) k) as (h' & b & Epk & Hmax & Hsrt & Hl2 & Hpos & _).
        { apply (l_sort Hst). } { rewrite (l_max Hst). apply (l_len Hst). } { rewrite (l_max Hst). auto. }
        rewrite Epk in Est. cbn [obind fst] in Est. destruct (ofold _ _ _) as [q|]; [|discriminate]. cbn [obind] in Est.
        apply ok_inj in Est. subst st'. cbn [s_res]. intros E0. rewrite E0 in Hpos. cbn in Hpos. lia.
    - (* TTest *)
      destruct (index rows idx) as [row|]; [|discriminate]. cbn [obind] in Es.
      destruct (index row 0) as [v|]; [|discriminate]. cbn [obind] in Es. apply ok_inj in Es. injection Es as <- <-.
      apply Hsame; auto. destruct (v =? UNUSED)%N; [destruct (e_mode V); exact HT|]. cbn [tconn]. split; [exact HT|auto].
    - (* TCheck *)
      destruct (index rows idx) as [row|]; [|discriminate]. cbn [obind] in Es.
      destruct (index row 0) as [v|]; [|discriminate]. cbn [obind] in Es. destruct (oassert _); [|discriminate].
      cbn [obind] in Es. apply ok_inj in Es. injection Es as <- <-. apply Hsame; auto.
    - (* TInit *)
      destruct (update_row rows idx _) as [rows2|] eqn:Eu; [|discriminate]. cbn [obind] in Es. apply ok_inj in Es.
      injection Es as -> <-. apply upd_inv' in Eu as (r0 & r1 & Hr0 & Ei & ->).
      destruct Ht as (_ & (Hok & _ & Hl) & Hfr). destruct HT as [HT1 HT2].
      assert (Hor : true = true -> row_ids r0 = [] \/ ns = []).
      { intros _. destruct (Hfr eq_refl) as [[_ ->]|[_ Hnl]]; auto. left. destruct (row_ids r0) eqn:E0; auto. exfalso. apply Hnl.
        exists r0. split; auto. congruence. }
      destruct (@init_ok _ _ V s Hlen true w n Hn Hw idx r0 ns (y_row HI Hr0) Hor) as (r' & Er' & Hwf' & Hnil & Hids); auto; try lia.
      rewrite Ei in Er'. injection Er' as <-.
      assert (Hil : idx < length rows) by (apply nth_error_Some; congruence).
      assert (Hm : emono rows (set_nth rows idx r1)).
      { eapply emono_set; [exact Hr0|]. intros x Hx. destruct (Hor eq_refl) as [E0| ->]; [rewrite E0 in Hx; destruct Hx|].
        rewrite (Hnil eq_refl). auto. }
      split; auto. split.
      + constructor.
        * intros x y Hxy. apply edg_set in Hxy; auto. destruct Hxy as [[-> Hy]|[_ Hxy]].
          -- rewrite Hids in Hy. apply in_app_or in Hy as [Hy|Hy]; [eapply conn_mono; eauto|].
             apply (conn_mono Hm). apply (k_edge HK (x := idx)). exists r0. split; auto. eapply skipn_In; eauto.
          -- apply (conn_mono Hm). eapply (k_edge HK); eauto.
        * intros x Hx. apply (conn_mono Hm). now apply (k_base HK).
      + cbn [tconn]. split; [apply (ns_conn_mono Hm); split; auto|].
        intros y Hy. apply edg_set; auto. left. split; auto. rewrite Hids. apply in_or_app; auto.
    - (* TOwn *)
      destruct HT as [HT1 HT2]. destruct todo as [|[y d] todo].
      { apply ok_inj in Es. injection Es as <- <-. apply Hsame; auto. cbn [tconn]. split; auto.
        intros y Hy. destruct (HT2 y Hy) as [[]|]; auto. }
      destruct (update_row rows idx _) as [rows2|] eqn:Eu; [|discriminate]. cbn [obind] in Es. apply ok_inj in Es.
      injection Es as -> <-. apply upd_inv' in Eu as (r0 & r1 & Hr0 & Ec & ->).
      destruct Ht as (((_ & Hni & HF) & _) & _ & Hinc).
      assert (Hy : In y (map fst ns)) by (apply in_map_iff; exists (y, d); split; auto; apply Hinc; left; auto).
      rewrite Forall_forall in HF.
      destruct (@connect_small idx r0 y d r1 (y_row HI Hr0)) as (Hinc1 & Hy1 & Hsub); auto; [intros ->; auto|].
      assert (Hil : idx < length rows) by (apply nth_error_Some; congruence).
      assert (Hm : emono rows (set_nth rows idx r1)) by (eapply emono_set; eauto).
      split; auto. split.
      + constructor.
        * intros x z Hxz. apply edg_set in Hxz; auto. destruct Hxz as [[-> Hz]|[_ Hxz]].
          -- apply (conn_mono Hm). destruct (Hsub z Hz) as [Hz'| ->]; [|apply HT1; auto].
             apply (k_edge HK (x := idx)). exists r0. auto.
          -- apply (conn_mono Hm). eapply (k_edge HK); eauto.
        * intros x Hx. apply (conn_mono Hm). now apply (k_base HK).
      + cbn [tconn]. split; [apply (ns_conn_mono Hm); auto|]. intros z Hz. destruct (HT2 z Hz) as [[Hz'|Hz']|Hz']; auto.
        cbn [fst] in Hz'. subst z. right. apply edg_set; auto.
    - (* TBack *)
      destruct HT as [[HT1 HT2] HT3]. destruct todo as [|[y d] todo].
      { apply ok_inj in Es. injection Es as <- <-. apply Hsame; auto. cbn [tconn]. right. destruct HT2; [congruence|auto]. }
      destruct (update_row rows y _) as [rows2|] eqn:Eu; [|discriminate]. cbn [obind] in Es. apply ok_inj in Es.
      injection Es as -> <-. apply upd_inv' in Eu as (r0 & r1 & Hr0 & Ec & ->).
      destruct Ht as (((_ & Hni & HF) & _) & _).
      assert (Hy : In y (map fst ((y, d) :: todo))) by (left; auto).
      rewrite Forall_forall in HF.
      assert (Hyi : y <> idx) by (intros ->; auto).
      destruct (@connect_small y r0 idx d r1 (y_row HI Hr0)) as (Hinc1 & Hy1 & Hsub); auto.
      assert (Hil : y < length rows) by (apply nth_error_Some; congruence).
      assert (Hm : emono rows (set_nth rows y r1)) by (eapply emono_set; eauto).
      assert (Hci : conn (set_nth rows y r1) idx).
      { apply (@conn_edges _ idx y); [apply (conn_mono Hm); auto|apply Hm, HT3; auto|]. apply edg_set; auto. }
      split; auto. split.
      + constructor.
        * intros x z Hxz. apply edg_set in Hxz; auto. destruct Hxz as [[-> Hz]|[_ Hxz]].
          -- destruct (Hsub z Hz) as [Hz'| ->]; auto.
             apply (conn_mono Hm). apply (k_edge HK (x := y)). exists r0. auto.
          -- apply (conn_mono Hm). eapply (k_edge HK); eauto.
        * intros x Hx. apply (conn_mono Hm). now apply (k_base HK).
      + cbn [tconn]. split; [split; [|right; auto]|].
        * intros z Hz. apply (conn_mono Hm). apply HT1. right; auto.
        * intros z Hz. apply Hm, HT3. right; auto.
    - apply ok_inj in Es. injection Es as <- <-. apply Hsame; auto.
  Qed.

  Definition sconn (x : sys) : Prop :=
    creach (fst x) /\ forall idx t, In (idx, t) (snd x) -> tconn (fst x) idx t.

  Hypothesis HprevB : forall idx e, idx < n -> c_get C s idx = Ok e ->
    exists r, granne_search (e_mode V) (e_fuel V) (FixWidth prev) (fun i => c_dte C s i e) 1 1 = Ok r /\
      forall x, In x r -> fst x < n /\ (true = true -> fst x <> 0 -> B (fst x) /\ B 0).

  Lemma step_conn x k x' : sys_inv V s true w n nn ms B x -> sconn x -> sys_step V s nn ms prev x k = Ok x' ->
    sconn x' /\ emono (fst x) (fst x') /\ map fst (snd x') = map fst (snd x).
  Proof.
    intros HI [HK HT] Es. destruct x as [rows ts]. cbn [fst snd] in *. unfold sys_step in Es.
    destruct (nth_error ts k) as [[idx t]|] eqn:Ek.
    2:{ apply ok_inj in Es. subst x'. split; [split; auto|]. split; [intros x y; auto|auto]. }
    destruct (task_step V s nn ms prev rows idx t) as [[rows' t']|] eqn:Et; [|discriminate]. cbn [obind fst snd] in Es.
    apply ok_inj in Es. subst x'. cbn [fst snd].
    assert (Hin : In (idx, t) ts) by (eapply nth_error_In; eauto).
    destruct (@task_conn rows idx t rows' t' (z_lay HI) (z_task HI Hin) HK (HT _ _ Hin) Et) as (Hm & HK' & HT').
    split; [split; [auto|]|split; [auto|]].
    - intros i u Hu. apply In_set_nth in Hu as [Eq|(j & Hj & Eu)]; [injection Eq as -> ->; auto|].
      eapply tconn_mono; [exact Hm|]. apply HT. eapply nth_error_In; eauto.
    - rewrite map_set_nth. cbn [fst]. apply set_nth_same. erewrite map_nth_error; eauto. reflexivity.
  Qed.
End Reach.

(** ** Passes *)
Definition closed (rows : list (list N)) : Prop := forall x y, edg rows x y -> conn rows y.

Lemma emono_refl rows : emono rows rows.
Proof. intros x y; auto. Qed.
Lemma emono_trans r1 r2 r3 : emono r1 r2 -> emono r2 r3 -> emono r1 r3.
Proof. intros H1 H2 x y H. auto. Qed.
Lemma emono_nil rows : emono [] rows.
Proof. intros x y (r & E0 & _). destruct x; discriminate. Qed.
Lemma closed_eq rows rows' : emono rows rows' -> emono rows' rows -> closed rows -> closed rows'.
Proof. intros H1 H2 Hc x y Hxy. apply (conn_mono H1). eapply Hc. apply H2. eauto. Qed.
Lemma closed_nil : closed [].
Proof. intros x y (r & E0 & _). destruct x; discriminate. Qed.

Section PassReach.
  Context {S E : Type} (V : benv S E) (s : S).
  Local Notation C := (e_ops V).
  Hypothesis Hc : cont_ok C s.
  Hypothesis Hsort : sorts_by_dist (e_sort V).
  Hypothesis Hlen : (N.of_nat (c_len C s) <= UNUSED)%N.
  Hypothesis Hfuel : c_len C s < e_fuel V.
  Local Notation lfin := (lfine V s true).
  Local Notation ch := (chain V s true).

  Lemma run_conn w n nn ms prev B K (Hn : n <= c_len C s) (Hnn : 0 < nn <= w) (Hms : 0 < ms) (Hsmall : n <= nn + 1)
    (Hprev : forall idx e, idx < n -> c_get C s idx = Ok e ->
      exists r, granne_search (e_mode V) (e_fuel V) (FixWidth prev) (fun i => c_dte C s i e) 1 1 = Ok r /\
        forall x, In x r -> fst x < n /\ K (fst x))
    (HprevB : forall idx e, idx < n -> c_get C s idx = Ok e ->
      exists r, granne_search (e_mode V) (e_fuel V) (FixWidth prev) (fun i => c_dte C s i e) 1 1 = Ok r /\
        forall x, In x r -> fst x < n /\ (true = true -> fst x <> 0 -> B (fst x) /\ B 0))
    (Hdup : forall idx e l, idx < n -> c_get C s idx = Ok e -> NoDup l ->
      (forall x, In x l -> x < n /\ x <> idx /\ (fE V s e x < e_eps V)%Z) -> length l <= nn / 2) sched :
    forall x x', sys_inv V s true w n nn ms B x -> sconn V s n ms K x -> run V s nn ms prev sched x = Ok x' ->
      sconn V s n ms K x' /\ emono (fst x) (fst x').
  Proof.
    unfold run. induction sched as [|k sched IH]; intros x x' HI HC Er; cbn [ofold] in Er.
    - apply ok_inj in Er. subst x'. split; auto. apply emono_refl.
    - destruct (sys_step V s nn ms prev x k) as [x1|] eqn:E1; [|discriminate]. cbn [obind] in Er.
      destruct (@step_conn _ _ V s Hc Hsort Hlen w n Hn nn ms prev Hnn Hms Hsmall B K Hprev Hdup x k x1 HI HC E1) as (HC1 & Hm1 & _).
      destruct (@step_meas _ _ V s Hc Hsort Hlen true w n Hn nn ms prev Hnn Hms B HprevB x k x1 HI E1) as (HI1 & _).
      destruct (IH x1 x' HI1 HC1 Er) as (H1 & H2). split; auto. eapply emono_trans; eauto.
  Qed.

  Lemma layer_search_conn nn0 l rows e fuel ms ep g : lfin nn0 l rows -> dte_ok V s e -> closed rows ->
    length rows < fuel -> 0 < ms -> ep < length rows -> conn rows ep ->
    (forall x, x < length rows -> g x = fw_neighbors (e_mode V) l x) ->
    exists res, search_for_neighbors fuel g (fun i => c_dte C s i e) ep ms = Ok res /\
      res <> [] /\ forall x, In x res -> fst x < length rows /\ conn rows (fst x).
  Proof.
    intros Hf Hq Hcl Hfu Hms Hep Hlk Hg.
    set (nb := fun x => match nth_error rows x with Some r => row_ids r | None => [] end).
    assert (Hn : length rows <= c_len C s) by apply (f_max Hf).
    assert (Hd : forall i, i < length rows -> c_dte C s i e = Ok (fE V s e i)).
    { intros i Hin. destruct (Hq i) as (d & Hd); [lia|]. unfold fE. now rewrite Hd. }
    assert (Hnb : forall x, x < length rows -> g x = Ok (nb x) /\ Forall (fun y => y < length rows) (nb x)).
    { intros x Hx. unfold nb. destruct (nth_error rows x) as [r|] eqn:Er; [|apply nth_error_None in Er; lia].
      rewrite Hg by auto. split; [apply (read_layer (e_mode V) Hf Er)|].
      pose proof (f_w0 Hf) as Hw0.
      destruct (@wf_ids _ _ V s Hlen true (fwidth l) (length rows) Hn Hw0 x r) as [_ (_ & _ & H)]; auto.
      apply (y_row (f_inv Hf) Er). }
    destruct (@sfn_ok (length rows) (fE V s e) _ Hd g nb Hnb ms ep Hms Hep fuel Hfu) as (l0 & E0 & HF).
    rewrite E0. eexists. split; [reflexivity|]. destruct HF as (_ & _ & _ & Hk & _ & _ & (r & Hr & _)).
    split; [destruct l0; [destruct Hr|discriminate]|].
    intros x Hx. apply in_map_iff in Hx as (k & <- & Hkk). cbn [fst]. destruct (Hk k Hkk) as (_ & Hlt & Hrch). split; auto.
    clear Hkk Hlt. induction Hrch as [|y z Hy IH Hyn Hz]; auto.
    unfold nb in Hz. destruct (nth_error rows y) as [ry|] eqn:Ery; [|destruct Hz].
    apply (Hcl y). exists ry. auto.
  Qed.

  Definition grown (R : list (list (list N))) : Prop := StronglySorted emono R /\ Forall closed R.

  Lemma find_conn nn0 e fuel : dte_ok V s e -> c_len C s < fuel ->
    forall (ls : list (fw N)) R gs, Forall2 (lfin nn0) ls R -> StronglySorted (grows true) R -> grown R ->
    Forall2 (fun g l => forall x, g x = fw_neighbors (e_mode V) l x) gs ls ->
    forall ep r0, (R <> [] -> emono r0 (hd [] R)) -> (R <> [] -> ep < length (hd [] R)) -> conn r0 ep ->
    exists ep', ofold (fun entrypoint layer =>
           let* res := search_for_neighbors fuel layer (fun i => c_dte C s i e) entrypoint 1 in
           let* r := index res 0 in Ok (fst r)) gs ep = Ok ep' /\
      (R <> [] -> ep' < length (last R r0)) /\ conn (last R r0) ep'.
  Proof.
    intros Hq Hfu. induction ls as [|l ls IH]; intros R gs HF HS [HM HK] HG ep r0 H0 Hep Hlk.
    - inversion HF; subst. inversion HG; subst. exists ep. cbn. split; auto. split; [congruence|auto].
    - inversion HF as [|? rows ? R' Hl HF']; subst. inversion HG as [|g ? gs' ? Hg HG']; subst.
      inversion HS as [|? ? HS' HA]; subst. inversion HM as [|? ? HM' HB]; subst. inversion HK as [|? ? HK0 HK']; subst. cbn [ofold].
      specialize (H0 ltac:(discriminate)). specialize (Hep ltac:(discriminate)). cbn [hd] in H0, Hep.
      destruct (@layer_search_conn nn0 l rows e fuel 1 ep g) as (res & -> & Hne & Hres); auto; [pose proof (f_max Hl); lia|eapply conn_mono; eauto|].
      cbn [obind]. destruct res as [|x res]; [congruence|]. cbn [index nth_error ounwrap obind].
      destruct (Hres x (or_introl eq_refl)) as [Hx1 Hx2].
      destruct (IH R' gs' HF' HS' (conj HM' HK') HG' (fst x) rows) as (ep' & E1 & H1 & H2); auto.
      { intros HR. destruct R' as [|r1 R']; [congruence|]. inversion HB; subst. auto. }
      { intros HR. destruct R' as [|r1 R']; [congruence|]. inversion HA as [|? ? [Hle _] _]; subst. cbn [hd]. lia. }
      exists ep'. split; auto. destruct R' as [|r1 R'].
      + inversion HF'; subst. inversion HG'; subst. cbn [ofold] in E1. apply ok_inj in E1. subst ep'. cbn [last] in *. auto.
      + rewrite (last_indep rows r0) in H1, H2 by discriminate. split; auto. intros _. apply H1. discriminate.
  Qed.

  Lemma prev_conn nn0 ls R e : ch nn0 ls R -> grown R -> dte_ok V s e ->
    exists r, granne_search (e_mode V) (e_fuel V) (FixWidth ls) (fun i => c_dte C s i e) 1 1 = Ok r /\
      forall x, In x r -> fst x < length (last R []) /\ conn (last R []) (fst x).
  Proof.
    intros [HF HS] HGr Hq. unfold granne_search, search_internal.
    pose proof (@graphs_of_fix _ _ V s Hlen (e_mode V) ls) as HG. set (gs := graphs_of (e_mode V) (FixWidth ls)) in *. clearbody gs.
    destruct (split_last gs) as [[g top]|] eqn:Esp.
    2:{ exists []. split; auto. intros x []. }
    apply split_last_some in Esp. subst gs.
    apply Forall2_app_inv_l in HG as (lt & lb & HGt & HGb & ->). inversion HGb as [|? l ? ? Hg HGn]; subst. inversion HGn; subst.
    apply Forall2_app_inv_l in HF as (Rt & Rb & HFt & HFb & ->). inversion HFb as [|? rows ? ? Hl HFn]; subst. inversion HFn; subst.
    destruct HGr as [HM HK]. apply Forall_app in HK as [HKt HKb]. inversion HKb as [|? ? HKl _]; subst.
    assert (Hgen : forall (P : list (list N) -> list (list N) -> Prop), StronglySorted P (Rt ++ [rows]) -> StronglySorted P Rt /\ Forall (fun r => P r rows) Rt).
    { intros P HP. clear -HP. induction Rt as [|a Rt IH]; [split; constructor|]. cbn [app] in HP. inversion HP as [|? ? H1 H2]; subst.
      destruct (IH H1). apply Forall_app in H2 as [H2 H3]. inversion H3; subst. split; constructor; auto. }
    destruct (Hgen _ HS) as [HSt HAt]. destruct (Hgen _ HM) as [HMt HBt]. unfold find_entrypoint.
    assert (Hep : exists ep, ofold (fun entrypoint layer =>
           let* res := search_for_neighbors (e_fuel V) layer (fun i => c_dte C s i e) entrypoint 1 in
           let* r := index res 0 in Ok (fst r)) top 0 = Ok ep /\ ep < length rows /\ conn rows ep).
    { destruct Rt as [|r1 Rt].
      - inversion HFt; subst. inversion HGt; subst. exists 0. cbn. split; auto. split; [apply (f_pos Hl)|]. apply conn_0.
      - destruct (@find_conn nn0 e (e_fuel V) Hq Hfuel lt (r1 :: Rt) top HFt HSt (conj HMt HKt) HGt 0 r1) as (ep & E1 & H1 & H2).
        + intros _. cbn [hd]. apply emono_refl.
        + intros _. inversion HFt; subst. cbn [hd]. eapply f_pos; eauto.
        + apply conn_0.
        + exists ep. split; auto. rewrite Forall_forall in HAt, HBt.
          assert (Hin : In (last (r1 :: Rt) r1) (r1 :: Rt)).
          { destruct (@exists_last _ (r1 :: Rt)) as (q & z & Eq); [discriminate|]. rewrite Eq, last_last. apply in_or_app. right; left; auto. }
          destruct (HAt _ Hin) as [Hle _]. specialize (H1 ltac:(discriminate)). split; [lia|]. eapply conn_mono; [apply (HBt _ Hin)|auto]. }
    destruct Hep as (ep & -> & Hep & Hlk). cbn [obind].
    destruct (@layer_search_conn nn0 l rows e (e_fuel V) 1 ep g) as (res & -> & Hne & Hres); auto.
    { pose proof (f_max Hl). lia. }
    cbn [obind]. eexists. split; [reflexivity|]. rewrite last_last.
    intros x Hx. apply firstn_In in Hx. auto.
  Qed.

  (** lists that fit are kept by the final pass *)
  Lemma limit_keeps w n i r nn r' : n <= c_len C s -> 0 < nn <= w -> n <= nn + 1 -> wf_row true w n i r -> i < n ->
    add_and_limit V s r i [] nn = Ok r' -> incl (row_ids r) (row_ids r') /\ incl (row_ids r') (row_ids r).
  Proof.
    intros Hn Hnn Hsm Hr Hi Ea. assert (Hw : 0 < w) by lia.
    destruct (@limit_ok _ _ V s Hc Hsort Hlen true w n Hn Hw i r nn Hr Hi Hnn) as (r0 & E0 & Hwf & _ & Hinc & _).
    rewrite Ea in E0. apply ok_inj in E0. subst r0. split; auto.
    destruct (wf_ids (V := V) Hlen Hn Hw Hr) as [Hsh (Hnd & Hni & Hlt)].
    assert (Hln : length (row_ids r) <= nn).
    { assert (length (row_ids r) < n); [|lia]. apply (@others_bound n i); auto. }
    unfold add_and_limit in Ea. pose proof (row_shows_length Hsh) as HL. rewrite HL in Ea.
    destruct (oassert (nn <=? w)); [|discriminate]. cbn [obind] in Ea.
    destruct (ck_dists Hc (i := i) (js := row_ids r)) as (ds & Eds & Lds); [lia|eapply Forall_impl; [|exact Hlt]; cbn; intros; lia|].
    rewrite Eds in Ea. cbn [obind] in Ea. rewrite app_nil_r in Ea.
    destruct (Hsort (combine (row_ids r) ds)) as [HP _].
    assert (Hcl : length (e_sort V (combine (row_ids r) ds)) = length (row_ids r)).
    { rewrite (Permutation_length HP), combine_length. lia. }
    unfold select_neighbors in Ea. rewrite Hcl in Ea. destruct (Nat.leb_spec (length (row_ids r)) nn); [|lia]. cbn [obind] in Ea.
    assert (HF : Forall (fun x : nat * Z => fst x < n) (e_sort V (combine (row_ids r) ds))).
    { rewrite Forall_forall in *. intros x Hx. apply (Permutation_in _ HP) in Hx. apply (in_map fst) in Hx. rewrite combine_fst in Hx; auto. }
    rewrite to_id_map in Ea.
    2:{ eapply Forall_impl; [|exact HF]. cbn. intros z Hz. lia. }
    cbn [obind] in Ea. apply ok_inj in Ea.
    assert (Hshow : row_shows w r' (map fst (e_sort V (combine (row_ids r) ds)))).
    { rewrite <- Ea. apply pad_shows. rewrite map_length. lia. }
    rewrite (row_ids_shows Hshow).
    2:{ rewrite Forall_forall in *. intros x Hx. apply in_map_iff in Hx as (y & <- & Hy). specialize (HF y Hy). lia. }
    intros x Hx. apply in_map_iff. rewrite <- (@combine_fst _ _ (row_ids r) ds) in Hx by auto.
    apply in_map_iff in Hx as (y & <- & Hy). exists y. split; auto. eapply Permutation_in; [symmetry; exact HP|auto].
  Qed.

  Lemma limit_rows_keeps w n nn B rows rows' : n <= c_len C s -> 0 < nn <= w -> n <= nn + 1 -> lay_inv V s true w n B rows ->
    limit_rows V s nn rows = Ok rows' -> emono rows rows' /\ emono rows' rows.
  Proof.
    intros Hn Hnn Hsm HI El. unfold limit_rows in El.
    assert (Hpt : length rows' = length rows /\ forall i r r', nth_error rows i = Some r -> nth_error rows' i = Some r' ->
              add_and_limit V s r i [] nn = Ok r').
    { assert (H : forall a l l', omapM (fun x => add_and_limit V s (snd x) (fst x) [] nn) (combine (seq a (length l)) l) = Ok l' ->
         length l' = length l /\ forall i r r', nth_error l i = Some r -> nth_error l' i = Some r' -> add_and_limit V s r (a + i) [] nn = Ok r').
      { intros a l. revert a. induction l as [|r l IH]; intros a l' H; cbn [length seq combine omapM] in H.
        - apply ok_inj in H. subst l'. split; auto. intros [|i]; discriminate.
        - cbn [fst snd] in H. destruct (add_and_limit V s r a [] nn) as [r1|] eqn:E1; [|discriminate]. cbn [obind] in H.
          destruct (omapM _ (combine (seq (Datatypes.S a) _) l)) as [l1|] eqn:E2; [|discriminate]. cbn [obind] in H. apply ok_inj in H. subst l'.
          destruct (IH _ _ E2) as [H1 H2]. split; [cbn; now rewrite H1|].
          intros [|i] q q' Hq Hq'; cbn in Hq, Hq'.
          + rewrite Nat.add_0_r. congruence.
          + rewrite <- Nat.add_succ_comm. eauto. }
      apply (H 0). exact El. }
    destruct Hpt as [HL Hpt].
    assert (Hboth : forall x r, nth_error rows x = Some r -> exists r', nth_error rows' x = Some r' /\
              incl (row_ids r) (row_ids r') /\ incl (row_ids r') (row_ids r)).
    { intros x r Hr. assert (Hx : x < length rows) by (apply nth_error_Some; congruence).
      destruct (nth_error rows' x) as [r'|] eqn:Er'; [|apply nth_error_None in Er'; lia].
      exists r'. split; auto. eapply limit_keeps; eauto; [apply (y_row HI Hr)|rewrite <- (y_len HI); auto]. }
    split.
    - intros x y (r & Hr & Hy). destruct (Hboth x r Hr) as (r' & Hr' & H1 & _). exists r'. auto.
    - intros x y (r' & Hr' & Hy). assert (Hx : x < length rows') by (apply nth_error_Some; congruence).
      destruct (nth_error rows x) as [r|] eqn:Er; [|apply nth_error_None in Er; lia].
      destruct (Hboth x r Er) as (r1 & Hr1 & _ & H2). rewrite Hr' in Hr1. injection Hr1 as <-. exists r. auto.
  Qed.

  (** at most [k] other elements are within the threshold of any element *)
  Definition dups_le (n k : nat) : Prop := forall idx e l, idx < n -> c_get C s idx = Ok e -> NoDup l ->
    (forall x, In x l -> x < n /\ x <> idx /\ (fE V s e x < e_eps V)%Z) -> length l <= k.

  Lemma start_edges num rows (re : bool) w : 0 < w -> emono rows (fst (start_state (E := E) num rows re w)) /\ emono (fst (start_state (E := E) num rows re w)) rows.
  Proof using Type.
    intros Hw. unfold start_state. cbn [fst]. destruct re; [split; apply emono_refl|].
    assert (Hemp : row_ids (repeat UNUSED w) = []) by (destruct w; reflexivity).
    split; intros x y (r & Hr & Hy).
    - exists r. split; auto. rewrite nth_error_app1; auto. apply nth_error_Some. congruence.
    - destruct (Nat.lt_ge_cases x (length rows)) as [Hx|Hx].
      + rewrite nth_error_app1 in Hr by auto. exists r. auto.
      + rewrite nth_error_app2 in Hr by auto. apply nth_error_In, repeat_spec in Hr. subst r. rewrite Hemp in Hy. destruct Hy.
  Qed.

  Theorem pass_conn nn0 nn ms prev R num l rows reinsert sched l' :
    ch nn0 prev R -> grown R -> (rows = [] \/ lfin nn0 l rows) -> closed rows -> fw_is (fwidth l) rows l -> 0 < fwidth l -> nn0 <= fwidth l ->
    grows true (last R []) rows -> emono (last R []) rows ->
    length rows <= num -> 0 < num <= c_len C s -> (reinsert = true -> num = length rows) -> 0 < nn <= fwidth l -> 0 < ms ->
    num <= nn + 1 -> dups_le num (nn / 2) ->
    index_elements V s nn ms prev num l reinsert sched = Ok l' ->
    exists rows', lfin nn0 l' rows' /\ fwidth l' = fwidth l /\ length rows' = num /\ (forall x, live rows x -> live rows' x) /\
      emono rows rows' /\ closed rows' /\ forall x, length rows <= x < num -> zero_elem V s x \/ conn rows' x.
  Proof.
    intros Hch Hgr Hrows Hcl His Hw Hw0 Hg Hme Hle Hmax Hre Hnn Hms Hsm Hdup Ei.
    destruct (@pass_ok _ _ V s Hc Hsort Hlen Hfuel true nn0 nn ms prev R num l rows reinsert sched Hch Hrows His Hw Hw0 Hg Hle Hmax Hre Hnn Hms) as (P1 & _).
    destruct (P1 l' Ei) as (rows' & Hl' & Hwl & HL' & Hlive & _). exists rows'. split; auto. split; auto. split; auto. split; auto.
    destruct (@start_inv _ _ V s Hlen true nn0 nn ms prev R num l rows reinsert Hch Hrows His Hw Hg Hle ltac:(lia) Hre Hnn Hms) as (HI & HL & Hlv).
    assert (Hle2 : length (last R []) <= num) by (destruct Hg; lia).
    pose proof (@hprev_of _ _ V s Hc Hlen true nn0 prev R num Hch Hle2 ltac:(lia) Hfuel) as HprevB.
    assert (Hprev : forall idx e, idx < num -> c_get C s idx = Ok e ->
      exists r, granne_search (e_mode V) (e_fuel V) (FixWidth prev) (fun i => c_dte C s i e) 1 1 = Ok r /\
        forall x, In x r -> fst x < num /\ conn (last R []) (fst x)).
    { intros idx e Hidx He. destruct (@prev_conn nn0 prev R e Hch Hgr) as (r & Er & Hr); [eapply dte_elem; eauto; lia|].
      exists r. split; auto. intros x Hx. destruct (Hr x Hx). split; auto. lia. }
    rewrite (@index_elements_unfold _ _ V s Hlen nn ms prev num l rows reinsert sched His Hw Hle) in Ei.
    destruct (run V s nn ms prev sched (start_state num rows reinsert (fwidth l))) as [x'|] eqn:Er; [|discriminate]. cbn [obind] in Ei.
    destruct (all_done (snd x')) eqn:Ed; [|discriminate].
    destruct (limit_rows V s nn (fst x')) as [rows2|] eqn:El; [|discriminate]. cbn [obind] in Ei. apply ok_inj in Ei.
    destruct (@start_edges num rows reinsert (fwidth l) Hw) as [Hs1 Hs2].
    assert (HC0 : sconn V s num ms (conn (last R [])) (start_state num rows reinsert (fwidth l))).
    { split.
      - constructor.
        + apply (closed_eq Hs1 Hs2 Hcl).
        + intros x Hx. eapply conn_mono; [|exact Hx]. eapply emono_trans; eauto.
      - intros idx t Ht. unfold start_state in Ht. cbn [snd] in Ht. apply in_map_iff in Ht as (i & Et & _). injection Et as <- <-. exact Logic.I. }
    destruct (@run_conn (fwidth l) num nn ms prev (base_of true R) (conn (last R [])) ltac:(lia) Hnn Hms Hsm Hprev HprevB Hdup sched _ _ HI HC0 Er) as ([HK HT] & Hm).
    destruct (@run_inv _ _ V s Hc Hsort Hlen true (fwidth l) num ltac:(lia) nn ms prev Hnn Hms (base_of true R) HprevB sched _ _ HI Er) as (HI' & Hids & _ & _).
    destruct (@limit_rows_keeps (fwidth l) num nn _ (fst x') rows2 ltac:(lia) Hnn Hsm (z_lay HI') El) as [Hk1 Hk2].
    assert (Heq : rows2 = rows').
    { destruct (@limit_rows_ok _ _ V s Hc Hsort Hlen true (fwidth l) num nn (base_of true R) (fst x') ltac:(lia) Hnn (z_lay HI')) as (rows3 & E3 & HI2 & _).
      rewrite El in E3. apply ok_inj in E3. subst rows3.
      assert (His2 : fw_is (fwidth l') rows2 l').
      { rewrite <- Ei. split; [reflexivity|]. split; auto. cbn [fwidth].
        rewrite Forall_forall. intros r Hr. apply In_nth_error in Hr as (i & Hi). destruct (y_row HI2 Hi) as (ns & Hsh & _).
        eapply row_shows_length; eauto. }
      pose proof (fw_is_iter (f_w0 Hl') His2) as E1. pose proof (fw_is_iter (f_w0 Hl') (f_is Hl')) as E2. rewrite E1 in E2. now apply ok_inj in E2. }
    subst rows2.
    split; [eapply emono_trans; [exact Hs1|eapply emono_trans; eauto]|]. split; [eapply closed_eq; eauto; exact (k_edge HK)|].
    intros x Hx.
    destruct reinsert; [rewrite (Hre eq_refl) in Hx; lia|].
    assert (Hin : In x (map fst (snd x'))).
    { rewrite Hids. unfold start_state. cbn [snd]. rewrite map_map. cbn [fst]. rewrite map_id. apply in_seq.
      rewrite app_length, repeat_length. lia. }
    apply in_map_iff in Hin as ([i t] & Ex & Hin). cbn [fst] in Ex. subst i.
    unfold all_done in Ed. rewrite forallb_forall in Ed. pose proof (Ed _ Hin) as Hdn. cbn [snd] in Hdn. destruct t; try discriminate.
    specialize (HT _ _ Hin). cbn [tconn] in HT. destruct HT as [|HT]; auto. right. eapply conn_mono; eauto.
  Qed.
End PassReach.
