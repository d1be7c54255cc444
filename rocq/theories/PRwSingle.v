(** * Proofs: threads inserting single elements never get stuck *)
From Verif Require Import Base BaseFacts MSliceVec MIndexIo MSearch MBuild SBuild PBuildRun MLocks MRw SRw PRwSeq PRwLock PRwIds PRwConc PRwTop.
Set Implicit Arguments.
Unset Strict Implicit.

Section Single.
  Context {S E I : Type} (V : benv S E) (cpush : S -> I -> outcome S) (cfg : config) (max : nat).
  Local Notation C := (e_ops V).
  Local Notation n_of W := (c_len C (w_elems W)).
  Local Notation tstep := (thread_step V cpush cfg max).
  Hypothesis Hpush : push_law C cpush.
  Hypothesis Hgrow : forall i, k_ideal cfg max i < max -> k_ideal cfg max i < k_ideal cfg max (Datatypes.S i).

  Definition single_call (c : rcall E I) : Prop := match c with RInsert xs => length xs <= 1 | _ => True end.

  Definition single (W : rw S) (p : pc S E I) : Prop :=
    match p with
    | ICheck xs _ d | ITest xs _ d => length xs <= 1 /\ (1 <= d -> max <= n_of W)
    | IGuard xs _ d => length xs <= 1 /\ d = 0
    | IElems xs _ _ | ILayers xs _ _ | IRoom xs _ _ => length xs <= 1
    | INew xs _ _ => length xs <= 1
    | ISplit xs _ _ => length xs <= 1 /\ (n_of W < length (w_cur W) \/ max <= n_of W)
    | IPush _ _ rest _ _ | IDownL _ rest _ _ | IDownE _ rest _ _ | IIndex _ _ rest _ _ => length rest <= 1 /\ (rest <> [] -> max <= n_of W)
    | _ => True
    end.
  Definition single_thread (W : rw S) (t : thread S E I) : Prop := single W (t_pc t) /\ Forall single_call (t_todo t).
  Definition may_grow (W : rw S) : Prop := length (w_cur W) < max -> length (w_cur W) < k_ideal cfg max (Datatypes.S (length (w_prev W))).

  Lemma run_cur s prev nn ms x k y : sys_step V s nn ms prev x k = Ok y -> length (fst y) = length (fst x).
  Proof.
    unfold sys_step. destruct x as [rows ts]. destruct (nth_error ts k) as [[idx t]|]; [|intros H; injection H as <-; auto].
    destruct (task_step V s nn ms prev rows idx t) as [[r t']|] eqn:E1; [|discriminate]. cbn [obind fst snd]. intros H. injection H as <-. cbn [fst].
    assert (Hu : forall i f r', update_row rows i f = Ok r' -> length r' = length rows).
    { intros i f r'. unfold update_row. destruct (index rows i); [|discriminate]. cbn [obind]. destruct (f a); [|discriminate]. cbn [obind].
      intros H. injection H as <-. apply set_nth_length. }
    destruct t as [|e st|ns|ns|ns|[|[n d] todo] ns|[|[n d] todo]|]; cbn [task_step] in E1; inv_step E1; injection E1 as <- <-; eauto.
  Qed.

  Lemma step_single W t ok k W' t' : n_of W <= length (w_cur W) -> w_width W = k_nn cfg ->
    (layer_full V W = true -> forall W1, new_layer cfg max W = Ok W1 ->
       length (w_cur W1) = k_ideal cfg max (length (w_prev W1)) /\ length (w_prev W1) = Datatypes.S (length (w_prev W))) ->
    (forall xs acc d, t_pc t = INew xs acc d -> layer_full V W = true) ->
    tstep W t ok k = Ok (W', t') -> may_grow W -> single_thread W t ->
    may_grow W' /\ single_thread W' t' /\ n_of W <= n_of W' /\ (crit (t_pc t) = false -> W' = W).
  Proof.
    intros Hcap Hwid Hnew Hfull Es Hg [Hs Ht]. destruct t as [p ba td lg]. unfold thread_step in Es. cbn [t_pc t_batch t_todo t_log] in *.
    destruct p; cbn [single] in Hs; inv_step Es; injection Es as <- <-; unfold single_thread; cbn [t_pc t_todo single crit]; auto 6.
    - (* a call begins *)
      inversion Ht; subst. destruct r; cbn [begin_call single single_call] in *; auto. split; auto. split; auto. split; auto. split; auto. lia.
    - (* the length is tested *)
      destruct (Nat.leb_spec max (n_of W)); cbn [single]; auto. split; auto. split; auto. split; [|auto]. destruct Hs as [H1 H2]. split; auto.
      destruct d; auto. specialize (H2 ltac:(lia)). lia.
    - destruct Hs. auto 6.
    - (* room *)
      destruct (layer_full V W) eqn:Ef; cbn [single]; auto. split; auto. split; auto. split; auto. split; auto.
      unfold layer_full in Ef. apply Nat.leb_gt in Ef. auto.
    - (* new layer *)
      specialize (Hfull _ _ _ eq_refl). destruct (Hnew Hfull _ eq_refl) as [H1 H2].
      assert (He : w_elems a = w_elems W) by (unfold new_layer in Ex; inv_step Ex; injection Ex as <-; auto).
      unfold layer_full in Hfull. apply Nat.leb_le in Hfull. rewrite He. split; [|split; [|split; [lia|discriminate]]].
      + intros Hm. rewrite H1 in *. apply Hgrow. auto.
      + split; auto. split; auto. destruct (Nat.lt_ge_cases (length (w_cur W)) max) as [Hlt|Hge]; [|right; lia].
        left. specialize (Hg Hlt). rewrite H1, H2. lia.
    - (* split *)
      destruct Hs as [H1 H2]. unfold split_batch in Ex. inv_step Ex. injection Ex as <- <- <-. split; auto. split; [|split; [auto|discriminate]]. split; auto.
      rewrite skipn_length. split; [lia|]. intros Hne. destruct H2 as [H2|H2]; auto. exfalso. apply Hne. apply skipn_all2. lia.
    - (* push *)
      destruct (Hpush Ex0) as (HL & _). cbn [w_elems]. rewrite HL. split; [exact Hg|]. split; [|split; [auto|discriminate]].
      destruct Hs as [H1 H2]. split; [|exact Ht]. split; [exact H1|]. intros Hne. specialize (H2 Hne). lia.
    - (* done *)
      split; auto. split; [|split; [auto|discriminate]]. split; auto. destruct rest as [|x rest]; cbn [single]; auto. destruct Hs as [H1 H2]. split; auto.
      intros _. apply H2. discriminate.
    - (* a task moves *)
      apply run_cur in Ex. cbn [fst] in Ex. cbn [w_elems]. split; [unfold may_grow; cbn [w_cur w_prev]; rewrite Ex; auto|]. split; [|split; [auto|discriminate]]. auto.
  Qed.

  Lemma single_other W W' t : n_of W <= n_of W' -> crit (t_pc t) = false -> single_thread W t -> single_thread W' t.
  Proof.
    intros Hn Hc [Hs Ht]. split; auto. destruct (t_pc t); cbn [single crit] in *; auto; try discriminate; destruct Hs as [H1 H2]; split; auto; intros H; specialize (H2 H); lia.
  Qed.

  Context (W0 : rw S) (P : rpolicy S E I) (progs : list (list (rcall E I))).
  Hypothesis Hse : session V cpush cfg max W0 P progs.
  Hypothesis Hsingle : Forall (Forall single_call) progs.
  Hypothesis Hfirst : may_grow W0.

  Lemma run_single sched y : rrun V cpush cfg max P [] sched (rstart W0 progs) = Ok y ->
    may_grow (fst y) /\ forall i t, nth_error (snd y) i = Some t -> single_thread (fst y) t.
  Proof.
    destruct Hse as [S1 S2 S3 S4 S5 S6 S7]. pose proof (ww_width S4) as [Hnn Hw]. pose proof (ww_ms S4) as Hms.
    revert y. induction sched as [|m sched IH] using rev_ind; intros y Hr.
    - cbn in Hr. injection Hr as <-. split; auto. cbn [snd rstart]. intros i t Ht. rewrite nth_error_map in Ht.
      destruct (nth_error progs i) as [cs|] eqn:Ei; [|discriminate]. cbn in Ht. injection Ht as <-. split; [exact Logic.I|]. cbn [t_todo].
      rewrite Forall_forall in Hsingle. apply Hsingle. eapply nth_error_In; eauto.
    - rewrite rrun_app in Hr. destruct (rrun V cpush cfg max P [] sched (rstart W0 progs)) as [y1|] eqn:E1; [|discriminate].
      cbn [obind rrun] in Hr. destruct (rsys_step V cpush cfg max P ([] ++ sched) y1 m) as [y2|] eqn:E2; [|discriminate]. cbn [obind] in Hr. injection Hr as <-.
      destruct (IH _ eq_refl) as [Hg HT].
      pose proof (run_conc S1 S2 S3 S5 Hnn Hms S6 S7 (wf_start cpush S4 S5) E1) as HC.
      destruct (ci_shared HC) as (hist & R & rows & k & Hsh & Hth). pose proof (ii_lock (ci_ids HC)) as HL.
      destruct y1 as [W ts]. unfold rsys_step in E2. cbn [fst snd] in *. destruct (nth_error ts (fst m)) as [t|] eqn:Et.
      2:{ injection E2 as <-. auto. }
      destruct (tstep W t (P ([] ++ sched) (W, ts) (fst m)) (snd m)) as [[W' t']|] eqn:E3; [|discriminate]. cbn [obind fst snd] in E2. injection E2 as <-.
      cbn [fst snd]. destruct (@step_single W t (P ([] ++ sched) (W, ts) (fst m)) (snd m) W' t') as (G1 & G2 & G3 & G4).
      + pose proof (sh_len Hsh). lia.
      + apply (sh_width Hsh).
      + intros Hf W1 EW. destruct (new_layer_ok (V := V) S5 Hnn Hms Hsh Hf) as (W2 & k2 & E4 & _ & _ & H5 & H6). rewrite EW in E4. injection E4 as <-. auto.
      + intros xs acc d Ep. pose proof (to_pc (Hth _ _ Et)) as Hl. rewrite Ep in Hl. cbn [local] in Hl. tauto.
      + exact E3.
      + exact Hg.
      + apply (HT _ _ Et).
      + split; auto. intros j u Hu. rewrite nth_error_set_nth in Hu. destruct (Nat.eqb_spec (fst m) j) as [Ej|Hne].
        * destruct (Nat.ltb_spec (fst m) (length ts)); cbn [andb] in Hu; [injection Hu as <-; auto|].
          assert (fst m < length ts) by (apply nth_error_Some; congruence). lia.
        * cbn [andb] in Hu. destruct (crit (t_pc t)) eqn:Ec.
          -- eapply single_other; [exact G3| |apply (HT _ _ Hu)]. apply (li_crit HL Hne Et Hu Ec).
          -- rewrite G4 by auto. apply (HT _ _ Hu).
  Qed.

  Lemma single_no_deadlock sched y : live_locks P -> rrun V cpush cfg max P [] sched (rstart W0 progs) = Ok y -> ~ deadlock P y.
  Proof.
    intros HL Hr Hd. destruct (run_single Hr) as [_ HT]. destruct (stuck_case HL Hd) as (_ & (j & u & xs & acc & d & Hj & Ej) & _).
    destruct (HT _ _ Hj) as [Hs _]. rewrite Ej in Hs. cbn [single] in Hs. destruct Hs. discriminate.
  Qed.
End Single.
