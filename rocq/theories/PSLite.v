(** * Proofs: a search step whose row may be any snapshot (concurrent search) *)
From Verif Require Import Base BaseFacts MSliceVec MIndexIo MSearch PHeap PSearch.
Set Implicit Arguments.
Unset Strict Implicit.

Section Lite.
  Variables (n : nat) (f : nat -> Z) (dist : nat -> outcome Z).
  Hypothesis Hdist : forall i, i < n -> dist i = Ok (f i).
  Variable ms : nat.
  Hypothesis Hms : 0 < ms.

  Record slite (P : nat -> Prop) (st : sst) : Prop := mkSlite {
    l_max : hmax (s_res st) = ms;
    l_len : length (hs (s_res st)) <= ms;
    l_sort : ksorted (hs (s_res st));
    l_psort : ksorted (s_pq st);
    l_key : forall k, In k (hs (s_res st)) \/ In k (s_pq st) -> k = kof f (snd k) /\ In (snd k) (s_vis st);
    l_nodup : NoDup (map snd (s_pq st) ++ map snd (hs (s_res st)));
    l_vnodup : NoDup (s_vis st);
    l_vis : forall x, In x (s_vis st) -> x < n /\ P x
  }.

  Lemma slite_mono (P Q : nat -> Prop) st : (forall x, P x -> Q x) -> slite P st -> slite Q st.
  Proof. intros H [? ? ? ? ? ? ? HV]. constructor; auto. intros x Hx. destruct (HV x Hx). auto. Qed.

  Lemma slite_init (P : nat -> Prop) ep : ep < n -> P ep -> exists st, s_init dist ep ms = Ok st /\ slite P st.
  Proof.
    intros He HP. unfold s_init. rewrite Hdist by auto. cbn [obind]. eexists. split; [reflexivity|].
    constructor; cbn [s_res s_pq s_vis msh_new hs hmax length map app]; auto; try lia; try (repeat constructor; auto; fail).
    - intros k [[]|[<-|[]]]. cbn. auto.
    - intros x [<-|[]]. auto.
  Qed.

  Definition smeas (st : sst) : nat := 2 * (n - length (s_vis st)) + length (s_pq st).

  Lemma slite_pop (P : nat -> Prop) st : slite P st ->
    s_pop st = Ok None \/
    (exists k pq, s_pq st = k :: pq /\ s_pop st = Ok (Some (k, mkSst (s_res st) pq (s_vis st)))).
  Proof.
    intros H. unfold s_pop. destruct (s_pq st) as [|[d i] pq]; auto.
    destruct (msh_is_full (s_res st)) eqn:Ef; [|right; eauto].
    unfold msh_is_full in Ef. apply Nat.leb_le in Ef. rewrite (l_max H) in Ef.
    unfold msh_peek. destruct (nth_error (hs (s_res st)) (length (hs (s_res st)) - 1)) as [p|] eqn:Ep.
    - cbn [ounwrap obind]. destruct (fst p <? d)%Z; eauto.
    - apply nth_error_None in Ep. lia.
  Qed.

  Lemma slite_expand (P : nat -> Prop) st k pq row : slite P st -> s_pq st = k :: pq ->
    Forall (fun x => x < n /\ P x) row ->
    exists st', s_expand dist (mkSst (s_res st) pq (s_vis st)) k row = Ok st' /\ slite P st' /\
      smeas st' < smeas st.
  Proof.
    intros HI Epq Hrow. unfold s_expand. cbn [s_res s_pq s_vis].
    destruct (l_key HI (k := k)) as [Ek Hkv]; [right; rewrite Epq; left; auto|].
    destruct (@push_key (s_res st) k) as (h' & b & Ep & Hmax & Hsort & Hlen & Hpos & Hsub & Hkeep & Hfull & HND).
    { apply (l_sort HI). } { rewrite (l_max HI). apply (l_len HI). } { rewrite (l_max HI). auto. }
    rewrite (l_max HI) in *. rewrite Ep. cbn [obind fst].
    assert (Hpkf : msh_is_full h' = true -> msh_peek h' <> None).
    { intros _. unfold msh_peek. intros H. apply nth_error_None in H. lia. }
    assert (Hps : ksorted pq) by (pose proof (l_psort HI) as H; rewrite Epq in H; now inversion H).
    assert (HrowF : Forall (fun x => x < n) row) by (eapply Forall_impl; [|exact Hrow]; cbn; tauto).
    destruct (@visit_fold n f dist Hdist h' row HrowF Hpkf pq (s_vis st) Hps) as (new & pq' & Ef & HNn & HIn & Hps' & HPq).
    rewrite Ef. cbn [obind fst snd]. eexists. split; [reflexivity|].
    pose proof (l_nodup HI) as HN0. rewrite Epq in HN0. cbn [map app] in HN0.
    assert (Hpqv : forall x, In x (map snd pq) -> In x (s_vis st)).
    { intros x Hx. apply in_map_iff in Hx as (q & <- & Hq). apply (l_key HI). right. rewrite Epq. right; auto. }
    assert (Hresv : forall x, In x (map snd (hs (s_res st))) -> In x (s_vis st)).
    { intros x Hx. apply in_map_iff in Hx as (q & <- & Hq). apply (l_key HI). auto. }
    set (acc := filter (accept h') (map (kof f) new)) in *.
    assert (Hacc : forall x, In x (map snd acc) -> In x new).
    { intros x Hx. apply in_map_iff in Hx as (q & <- & Hq). unfold acc in Hq. apply filter_In in Hq as [Hq _].
      apply in_map_iff in Hq as (z & <- & Hz). exact Hz. }
    assert (HaccN : NoDup (map snd acc)).
    { assert (Hg : forall l, NoDup l -> NoDup (map snd (filter (accept h') (map (kof f) l)))).
      { induction l as [|a l IH]; cbn [map filter]; [constructor|]. intros Hl. inversion Hl; subst.
        destruct (accept h' (kof f a)); auto. cbn [map]. constructor; auto.
        intros H. apply in_map_iff in H as (q & Eq & Hq). apply filter_In in Hq as [Hq _].
        apply in_map_iff in Hq as (z & Ez & Hz). subst q. cbn in Eq. subst z. auto. }
      apply Hg. auto. }
    assert (HNnew : forall x, In x new -> ~ In x (s_vis st)) by (intros x Hx; apply HIn; auto).
    assert (Hvn : NoDup (rev new ++ s_vis st)).
    { apply NoDup_app_intro; [now apply NoDup_rev|apply (l_vnodup HI)|]. intros x Hx. apply in_rev in Hx. auto. }
    assert (Hvl : forall x, In x (rev new ++ s_vis st) -> x < n /\ P x).
    { intros x Hx. apply in_app_or in Hx as [Hx|Hx]; [|now apply (l_vis HI)].
      apply in_rev in Hx. apply HIn in Hx as [Hx _]. rewrite Forall_forall in Hrow. auto. }
    split.
    - constructor; cbn [s_res s_pq s_vis]; auto.
      + intros q [Hq|Hq].
        * destruct (Hsub q Hq) as [->|Hq'].
          { split; auto. apply in_or_app; auto. }
          destruct (l_key HI (or_introl Hq')) as [H1 H2]. split; auto. apply in_or_app; auto.
        * apply (Permutation_in _ HPq) in Hq. apply in_app_or in Hq as [Hq|Hq].
          -- unfold acc in Hq. apply filter_In in Hq as [Hq _]. apply in_map_iff in Hq as (z & <- & Hz). cbn. split; auto.
             apply in_or_app. left. now apply in_rev in Hz.
          -- destruct (l_key HI (k := q)) as [H1 H2]; [right; rewrite Epq; right; auto|]. split; auto. apply in_or_app; auto.
      + inversion HN0 as [|? ? Hk0 HN1]; subst.
        assert (HNr : NoDup (map snd (hs h'))).
        { apply HND. cbn [map]. constructor; [|exact (NoDup_appr _ _ HN1)]. intros H. apply Hk0. apply in_or_app; auto. }
        apply NoDup_app_intro; auto.
        * eapply Permutation_NoDup; [apply Permutation_map; symmetry; exact HPq|]. rewrite map_app.
          apply NoDup_app_intro; auto; [exact (NoDup_appl _ _ HN1)|].
          intros x Hx Hx'. apply (HNnew x); auto.
        * intros x Hx Hx'. apply in_map_iff in Hx' as (q & Eq & Hq). destruct (Hsub q Hq) as [->|Hq'].
          -- assert (Hxp : In x (map snd acc) \/ In x (map snd pq)).
             { assert (In x (map snd (acc ++ pq))) by (eapply Permutation_in; [apply Permutation_map; exact HPq|auto]).
               rewrite map_app in H. now apply in_app_or in H. }
             subst x. destruct Hxp as [Hx'|Hx'].
             ++ apply (HNnew (snd k)); auto.
             ++ apply Hk0. apply in_or_app; auto.
          -- assert (Hxr : In x (map snd (hs (s_res st)))) by (apply in_map_iff; eauto).
             assert (Hxp : In x (map snd acc) \/ In x (map snd pq)).
             { assert (In x (map snd (acc ++ pq))) by (eapply Permutation_in; [apply Permutation_map; exact HPq|auto]).
               rewrite map_app in H. now apply in_app_or in H. }
             destruct Hxp as [Hx'|Hx'].
             ++ apply (HNnew x); auto.
             ++ exact (NoDup_app_disj _ _ _ HN1 Hx' Hxr).
    - unfold smeas. cbn [s_vis s_pq]. rewrite (Permutation_length HPq), app_length, Epq. cbn [length].
      assert (length acc <= length new).
      { pose proof (@NoDup_incl_length _ (map snd acc) new HaccN Hacc) as Hi. rewrite map_length in Hi. exact Hi. }
      assert (length (rev new ++ s_vis st) <= n) by (apply NoDup_bounded; auto; intros x Hx; now apply Hvl).
      rewrite app_length, rev_length in *. lia.
  Qed.

  (** what the search returns *)
  Lemma slite_result (P : nat -> Prop) st : slite P st ->
    let found := map (fun k : key => (snd k, fst k)) (msh_into_sorted_vec (s_res st)) in
    NoDup (map fst found) /\ (forall x d, In (x, d) found -> x < n /\ P x /\ d = f x) /\
    StronglySorted (fun a b => (snd a <= snd b)%Z) found.
  Proof.
    intros H. cbn zeta. unfold msh_into_sorted_vec. split; [|split].
    - rewrite map_map. cbn. exact (NoDup_appr _ _ (l_nodup H)).
    - intros x d Hx. apply in_map_iff in Hx as (k & E1 & Hk). injection E1 as <- <-.
      destruct (l_key H (or_introl Hk)) as [E2 Hv]. destruct (l_vis H Hv). repeat split; auto. now rewrite E2 at 1.
    - pose proof (l_sort H) as Hs. induction Hs as [|a l Hs IH HF]; cbn [map]; constructor; auto.
      rewrite Forall_forall in *. intros x Hx. apply in_map_iff in Hx as (k & <- & Hk). cbn. apply key_le_fst. auto.
  Qed.
End Lite.
