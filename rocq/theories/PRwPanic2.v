(** * Proofs: what holds while calls of a shared builder panic *)
From Verif Require Import Base BaseFacts MSliceVec SSliceVec PFixed MIndexIo MSearch PHeap PSearch MBuild SBuild PSelect PRow PSLite PBuildInv PBuildRun PBuildLayer PBuildFair PBuilder PHistory PBuildAny MLocks MRw SRw PRwSeq PRwLock PRwIds PRwConc PRwTop MRwPanic SRwPanic PRwPanic.
Set Implicit Arguments.
Unset Strict Implicit.

Section PanicRun.
  Context {S E I : Type} (V : benv S E) (cpush : S -> I -> outcome S).
  Context (cfg : config) (max : nat) (W0 : rw S) (P : rpolicy S E I) (progs : list (list (rcall E I))).
  Local Notation C := (e_ops V).
  Local Notation n_of W := (c_len C (w_elems W)).
  Hypothesis Hse : psession V cpush cfg max W0 P progs.
  Local Notation shared := (shared V cpush cfg max W0 false).
  Local Notation tstep := (thread_step V cpush cfg max).
  Local Notation start := (rstart W0 progs).
  Local Notation rstep := (rsys_step V cpush cfg max P).
  Local Notation pstep := (psys_step V cpush cfg max P).
  Local Notation pr := (prun V cpush cfg max P).

  (** what a search or [write] returned was right when it finished *)
  Definition pback (h : list (nat * nat)) (r : result S E I) : Prop :=
    match r with
    | Found q ms nn out => exists h1 h2 y1, h = h1 ++ h2 /\ pr [] h1 start = Ok y1 /\ correct_for V (fst y1) q ms nn out
    | Saved s ls => exists h1 h2 y1, h = h1 ++ h2 /\ pr [] h1 start = Ok y1 /\ psaved V cfg (fst y1) s ls
    | _ => True
    end.
  Lemma pback_snoc h m r : pback h r -> pback (h ++ [m]) r.
  Proof.
    destruct r; cbn [pback]; auto; intros (h1 & h2 & y1 & -> & H); exists h1, (h2 ++ [m]), y1; rewrite app_assoc; auto.
  Qed.

  Record pinv (h : list (nat * nat)) (y : rsys S E I) : Prop := mkPInv {
    pi_lock : lock_inv y;
    pi_thread : forall i t, nth_error (snd y) i = Some t -> thread_ids max (n_of (fst y)) t;
    pi_hist : exists hist lost, ofold cpush hist (w_elems W0) = Ok (w_elems (fst y)) /\
      n_of (fst y) = n_of W0 + length hist /\
      Permutation (flat_map claims (snd y) ++ lost) (combine (seq (n_of W0) (length hist)) hist);
    pi_shared : exists hist R rows k, shared hist (fst y) R rows k /\
      forall i t, nth_error (snd y) i = Some t -> pthread_ok V cpush cfg max W0 false (pback h) (fst y) R rows k t
  }.

  Lemma prun_snoc h l m y : pr h (l ++ [m]) y = let* y' := pr h l y in pstep (h ++ l) y' m.
  Proof.
    revert h y. induction l as [|a l IH]; intros h y; cbn [app prun].
    - rewrite app_nil_r. cbn [obind]. destruct (pstep h y m); auto.
    - destruct (pstep h y a) as [y1|]; cbn [obind]; auto. rewrite IH, <- app_assoc. reflexivity.
  Qed.

  Lemma set_cases (ts : list (thread S E I)) i0 t' j u : i0 < length ts -> nth_error (set_nth ts i0 t') j = Some u ->
    (j = i0 /\ u = t') \/ (j <> i0 /\ nth_error ts j = Some u).
  Proof.
    intros Hlt. rewrite nth_error_set_nth. destruct (Nat.ltb_spec i0 (length ts)); [|lia]. rewrite andb_true_r.
    destruct (Nat.eqb_spec i0 j) as [->|Hne]; auto. intros H2. injection H2 as <-. auto.
  Qed.

  Lemma unwind_lock (W : rw S) (ts : list (thread S E I)) i0 t : nth_error ts i0 = Some t -> lock_inv (W, ts) -> lock_inv (W, set_nth ts i0 (unwind t)).
  Proof.
    intros Ht [H1 H2]. assert (Hlt : i0 < length ts) by (apply nth_error_Some; congruence). constructor; cbn [fst snd] in *.
    - intros i j u1 u2 l a b Hij Hu1 Hu2 Ha Hb. destruct (set_cases Hlt Hu1) as [[-> ->]|[_ Hu1']]; [destruct Ha|].
      destruct (set_cases Hlt Hu2) as [[-> ->]|[_ Hu2']]; [destruct Hb|]. eapply H1; eauto.
    - intros i j u1 u2 Hij Hu1 Hu2 Ha. destruct (set_cases Hlt Hu1) as [[-> ->]|[_ Hu1']]; [discriminate|].
      destruct (set_cases Hlt Hu2) as [[-> ->]|[_ Hu2']]; [reflexivity|]. eapply H2; eauto.
  Qed.

  Lemma claims_unwind ts i0 (t : thread S E I) : nth_error ts i0 = Some t ->
    exists lost, Permutation (flat_map claims ts) (flat_map claims (set_nth ts i0 (unwind t)) ++ lost).
  Proof.
    revert i0. induction ts as [|u ts IH]; intros [|i0]; cbn [nth_error]; try discriminate; intros H.
    - injection H as ->. exists (combine (mine (t_pc t)) (t_batch t)). cbn [set_nth flat_map]. unfold claims at 1 3. unfold unwind at 1 2 3. cbn [t_pc t_batch t_log mine combine].
      rewrite app_nil_r, <- !app_assoc. apply Permutation_app_head. apply Permutation_app_comm.
    - destruct (IH _ H) as (lost & HP). exists lost. cbn [set_nth flat_map]. rewrite <- app_assoc. apply Permutation_app_head. exact HP.
  Qed.

  Lemma pstep_inv h y m : pr [] h start = Ok y -> pinv h y ->
    exists y', pstep h y m = Ok y' /\ pinv (h ++ [m]) y' /\
      forall e, rstep h y m = Fail e -> e = Panicked /\ exists t, nth_error (snd y) (fst m) = Some t /\ to_blame cpush (fst y) t.
  Proof.
    intros Hrun [HL HT (hi & lost & Hh & Hn & Hp) (hist & R & rows & k & Hsh & Hth)].
    destruct Hse as [Hmode Hsort Hpush Hrefuse Hwork [[Hnn _] Hms _ _] Hsizes HP Hcalls].
    destruct y as [W ts]. cbn [fst snd] in *. remember (fst m) as i0 eqn:Ei0.
    assert (Hth' : forall i t, nth_error ts i = Some t -> pthread_ok V cpush cfg max W0 false (pback (h ++ [m])) W R rows k t).
    { intros i t Ht. destruct (Hth _ _ Ht) as [T1 T2 T3]. constructor; auto. eapply Forall_impl; [|exact T3]. intros r. apply pback_snoc. }
    destruct (nth_error ts i0) as [t|] eqn:Et.
    2:{ exists (W, ts). unfold psys_step. assert (Er : rstep h (W, ts) m = Ok (W, ts)) by (unfold rsys_step; cbn [snd]; now rewrite <- Ei0, Et).
      rewrite Er. split; auto. split; [|discriminate]. constructor; auto; eauto 10. }
    set (ok := P h (W, ts) i0).
    assert (Hr : rstep h (W, ts) m = let* r := tstep W t ok (snd m) in Ok (fst r, set_nth ts i0 (snd r))).
    { unfold rsys_step. cbn [fst snd]. rewrite <- Ei0, Et. reflexivity. }
    assert (Hi0 : i0 < length ts) by (apply nth_error_Some; congruence).
    destruct (@pstep_local _ _ _ V cpush cfg max W0 Hmode Hsort Hpush Hrefuse Hwork Hsizes Hnn Hms false (pback (h ++ [m])) hist W R rows k t ok (snd m))
      as [(W' & t' & hist' & R' & rows' & k' & Es & Hsh' & Ht' & Hch)|(Es & Hb)]; auto.
    { intros [xs ids|q ms nn out|s ls]; cbn [pback]; auto; intros Hf; exists h, [m], (W, ts); auto. }
    { eauto. }
    - rewrite Es in Hr. cbn [obind fst snd] in Hr. exists (W', set_nth ts i0 t'). unfold psys_step. rewrite Hr. split; auto.
      split; [|discriminate]. pose proof (step_lock HP HL Hr) as HL'.
      destruct (step_ids Hpush Es (HT _ _ Et)) as (xs & Hx & Hnx & HT' & Hpx & Hcx).
      constructor; cbn [fst snd]; auto.
      + intros j u Hu. destruct (set_cases Hi0 Hu) as [[-> ->]|[Hne Hu']]; auto.
        destruct xs as [|x xs]; [|apply (@thread_mono _ _ _ max (n_of W))].
        * cbn [length] in Hnx. rewrite Nat.add_0_r in Hnx. rewrite Hnx. eauto.
        * lia.
        * apply (li_crit HL (i := i0) (j := j) (t := t) (u := u)); auto. apply Hcx. discriminate.
        * eauto.
      + exists (hi ++ xs), lost. rewrite app_length. split; [rewrite ofold_app, Hh; auto|]. split; [lia|].
        rewrite (flat_map_set Et Hpx). rewrite seq_app, combine_app_eq by apply seq_length. rewrite Hn, <- app_assoc.
        rewrite (Permutation_app_comm _ lost), app_assoc. apply Permutation_app_tail. auto.
      + exists hist', R', rows', k'. split; auto. intros j u Hu. destruct (set_cases Hi0 Hu) as [[-> ->]|[Hne Hu']]; auto.
        eapply (@pother_ok _ _ _ V cpush cfg max W0 false (pback h) (pback (h ++ [m])) hist W R rows k hist' W' R' rows' k' t u i0 j ts); eauto.
        intros r. apply pback_snoc.
    - rewrite Es in Hr. cbn [obind] in Hr. exists (W, set_nth ts i0 (unwind t)). unfold psys_step. rewrite Hr. cbn [fst snd]. rewrite <- Ei0, Et.
      split; auto. split.
      + constructor; cbn [fst snd].
        * apply unwind_lock; auto.
        * intros j u Hu. destruct (set_cases Hi0 Hu) as [[-> ->]|[Hne Hu']]; eauto.
          destruct (HT _ _ Et) as [_ Hlog]. constructor; [|exact Hlog]. exists [], []. cbn. repeat split; constructor.
        * destruct (claims_unwind Et) as (l2 & HP2). exists hi, (l2 ++ lost). split; auto. split; auto. rewrite app_assoc, <- HP2. exact Hp.
        * exists hist, R, rows, k. split; auto. intros j u Hu. destruct (set_cases Hi0 Hu) as [[-> ->]|[Hne Hu']]; eauto.
          destruct (Hth' _ _ Et) as [T1 T2 T3]. constructor; cbn [unwind t_pc t_todo t_log plocal]; auto.
      + intros e H. assert (He : e = Panicked) by congruence. clear H Hr. subst e. split; auto. exists t. split; auto. destruct (HT _ _ Et) as [(dn & rest & Hb1 & _ & _ & _ & Hb2) _].
        destruct t as [p ba td lg]. cbn [t_pc t_batch] in *. destruct p; cbn [blame] in Hb; try contradiction.
        * destruct todo as [|x todo]; [contradiction|]. left. exists x. split; auto. cbn [rest_ok] in Hb2. destruct Hb2 as (-> & _).
          subst ba. apply in_or_app. right. left. reflexivity.
        * subst. right. exists q, nn, st. reflexivity.
  Qed.

  Lemma pstart_inv : pinv [] start.
  Proof.
    destruct Hse as [Hmode Hsort Hpush Hrefuse Hwork Hwf Hsizes HP Hcalls]. destruct (@wf_start _ _ _ V cpush cfg max W0 Hwf Hsizes) as (R & rows & k & H).
    pose proof (start_ids (E := E) V cpush max W0 progs) as [I1 I2 (hist & H1 & H2 & H3)].
    constructor; auto.
    - exists hist, []. rewrite app_nil_r. auto.
    - exists [], R, rows, k. split; auto. intros i t Ht. destruct (start_nth Ht) as (cs & Et). 
      cbn [rstart snd] in Ht. rewrite nth_error_map in Ht. destruct (nth_error progs i) as [cs'|] eqn:Ei; [|discriminate]. cbn in Ht. injection Ht as <-.
      constructor; cbn [t_pc t_todo t_log plocal]; auto. rewrite Forall_forall in Hcalls. apply Hcalls. eapply nth_error_In; eauto.
  Qed.

  Lemma prun_inv sched : exists y, pr [] sched start = Ok y /\ pinv sched y.
  Proof.
    induction sched as [|m sched IH] using rev_ind.
    - exists start. split; auto. apply pstart_inv.
    - destruct IH as (y & Hy & HI). rewrite prun_snoc, Hy. cbn [obind app]. destruct (pstep_inv m Hy HI) as (y' & E2 & H2 & _). eauto.
  Qed.

  Lemma prun_blame sched y m e : pr [] sched start = Ok y -> rstep sched y m = Fail e ->
    e = Panicked /\ exists t, nth_error (snd y) (fst m) = Some t /\ to_blame cpush (fst y) t.
  Proof.
    intros Hy He. destruct (prun_inv sched) as (y1 & Hy1 & HI). rewrite Hy in Hy1. injection Hy1 as <-.
    destruct (pstep_inv m Hy HI) as (y' & _ & _ & H). auto.
  Qed.

  (** ** The data that are left *)
  Lemma shared_wf hist W R rows k : shared hist W R rows k -> rw_wf V cfg W /\ sizes_ok cfg max W.
  Proof.
    destruct Hse as [Hmode Hsort Hpush Hrefuse Hwork [[Hnn _] Hms _ _] Hsizes HP Hcalls]. intros H. split; constructor.
    - split; auto. apply (sh_width H).
    - auto.
    - exists rows, k. split; [apply (sh_cur H)|]. pose proof (y_len (sh_lay H)) as HL. split; [lia|].
      intros i r Hr. destruct (y_row (sh_lay H) Hr) as (ns & Hs & _ & Ho). exists ns. auto.
    - destruct (sh_chain H) as [HF HS]. pose proof (sh_grows H) as Hg. pose proof (y_len (sh_lay H)) as HL.
      assert (HF' : Forall2 (fun l r => layer_wf (k_nn cfg) (n_of W) l /\ fw_len l = length r) (w_prev W) R).
      { eapply Forall2_imp; [|exact HF]. intros l r Hl. split; [eapply fine_layer_wf; [exact Hl|apply (f_max Hl)]|apply (fw_is_len (f_w0 Hl) (f_is Hl))]. }
      clear HF. revert HF' HS. clear. generalize (w_prev W) R. intros ls Rs HF HS. split.
      + clear HS. induction HF as [|l0 r ls Rs [Hl _] HF IH]; constructor; auto.
      + revert HS. induction HF as [|l0 r ls Rs [_ Hl] HF IH]; intros HS; constructor; inversion HS as [|? ? HS' HA]; subst; auto.
        clear -HF HA Hl. induction HF as [|l1 r1 ls Rs [_ Hl1] HF IH]; constructor; inversion HA as [|? ? [H1 _] HA']; subst; auto. lia.
    - apply (sh_pos H).
    - apply (so_mono Hsizes).
    - apply (so_max Hsizes).
    - apply (sh_cap H).
  Qed.

  Lemma prun_left sched y : pr [] sched start = Ok y ->
    rw_wf V cfg (fst y) /\ sizes_ok cfg max (fst y) /\ n_of (fst y) <= max /\
    exists hist, ofold cpush hist (w_elems W0) = Ok (w_elems (fst y)) /\ n_of (fst y) = n_of W0 + length hist.
  Proof.
    intros Hy. destruct (prun_inv sched) as (y1 & Hy1 & [HL HT (hi & lost & Hh & Hn & Hp) (hist & R & rows & k & Hsh & Hth)]).
    rewrite Hy in Hy1. injection Hy1 as <-. destruct (shared_wf Hsh) as [H1 H2]. split; auto. split; auto. split; [|eauto].
    destruct Hse as [Hmode Hsort Hpush Hrefuse Hwork [[Hnn _] Hms _ _] Hsizes HP Hcalls]. exact (sh_max Hsizes Hnn Hms Hsh).
  Qed.

  Lemma prun_saved sched y s ls : pr [] sched start = Ok y -> psaved V cfg (fst y) s ls ->
    s = w_elems (fst y) /\
    let n := c_len C s in (n = 0 -> ls = []) /\ (0 < n -> exists l, ls = w_prev (fst y) ++ [l] /\ fw_len l = n /\ fdata l = concat (firstn n (w_cur (fst y)))) /\ layers_wf (k_nn cfg) n ls.
  Proof.
    intros Hy [-> Hs]. split; auto. destruct (prun_inv sched) as (y1 & Hy1 & [HL HT _ (hist & R & rows & k & Hsh & Hth)]).
    rewrite Hy in Hy1. injection Hy1 as <-. destruct Hse as [_ _ _ _ _ [[Hnn _] _ _ _] _ _ _]. destruct (saved_layers_wf Hnn Hsh Hs) as (S1 & S2 & S3).
    intros n. split; auto. split; auto. intros Hn. fold n in S2.
    destruct (S2 Hn) as (l & -> & Hl). exists l. split; auto. split; auto.
    unfold saved_layers, fw_with_data in Hs. destruct (Nat.ltb_spec 0 (k_nn cfg)); [|lia]. cbn [oassert obind] in Hs.
    destruct (cur_is Hsh) as (_ & _ & HF). rewrite (concat_length_const HF), Nat.mod_mul in Hs by lia. cbn [Nat.eqb oassert obind] in Hs.
    fold n in Hs. destruct (Nat.ltb_spec 0 n); [|lia].
    pose proof (sh_len Hsh) as HLc. fold n in HLc.
    destruct (fw_is_subslice Hnn (cur_is Hsh) (Nat.le_0_l n)) as (l' & El & His); [lia|].
    unfold fw_subslice in *. rewrite El in Hs. cbn [obind] in Hs. injection Hs as Hs. apply app_inj_tail in Hs as [_ <-].
    rewrite Nat.sub_0_r in His. cbn [skipn] in His. apply His.
  Qed.
End PanicRun.
