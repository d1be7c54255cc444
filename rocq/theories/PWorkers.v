(** * Proofs: calls made from the tasks of a pool *)
From Verif Require Import Base BaseFacts MSliceVec MIndexIo MSearch MBuild SBuild PBuildRun MLocks MRw SRw PRwSeq PRwLock PRwIds PRwConc PRwTop PRwSingle
  PSearch PSetVec MWorkers SWorkers.
Set Implicit Arguments.
Unset Strict Implicit.

Section Workers.
  Context {S E I : Type} (V : benv S E) (cpush : S -> I -> outcome S) (cfg : config) (max : nat) (pooled : bool).
  Context (P : rpolicy S E I).
  Local Notation wstep := (wstep V cpush cfg max pooled P).
  Local Notation wrun := (wrun V cpush cfg max pooled P).
  Local Notation rrun := (rrun V cpush cfg max P).
  Local Notation tstep := (thread_step V cpush cfg max).

  (** ** The jobs run as threads *)
  Lemma wstep_hist y0 y m y' : rrun [] (k_hist y) y0 = Ok (k_sys y) -> wstep y m = Ok y' -> rrun [] (k_hist y') y0 = Ok (k_sys y').
  Proof.
    intros H. destruct m as [i k|w j|w]; cbn [MWorkers.wstep].
    - destruct (may_move pooled y i); [|intros E0; injection E0 as <-; auto].
      destruct (rsys_step V cpush cfg max P (k_hist y) (k_sys y) (i, k)) as [z|] eqn:Ez; [|discriminate]. cbn [obind].
      intros E0. injection E0 as <-. cbn [k_hist k_sys]. rewrite rrun_app, H. cbn [obind app MRw.rrun]. rewrite Ez. reflexivity.
    - destruct (may_take pooled y w && existsb (Nat.eqb j) (k_jobs y)); intros E0; injection E0 as <-; auto.
    - destruct (nth_error (k_stacks y) w) as [[|i s]|]; try (intros E0; injection E0 as <-; auto; fail).
      destruct (at_job y i is_finished); intros E0; injection E0 as <-; auto.
  Qed.

  Lemma wrun_inv (Q : wsys S E I -> Prop) : (forall y m y', Q y -> wstep y m = Ok y' -> Q y') ->
    forall ms y y', Q y -> wrun ms y = Ok y' -> Q y'.
  Proof.
    intros HQ. induction ms as [|m ms IH]; intros y y' Hy; cbn [MWorkers.wrun].
    - intros H. injection H as <-. auto.
    - destruct (wstep y m) as [y1|] eqn:E1; [|discriminate]. cbn [obind]. apply IH. eauto.
  Qed.

  Lemma wrun_hist W n progs ms y : wrun ms (wstart W n progs) = Ok y -> rrun [] (k_hist y) (rstart W progs) = Ok (k_sys y).
  Proof.
    apply (@wrun_inv (fun y => rrun [] (k_hist y) (rstart W progs) = Ok (k_sys y))); [|reflexivity].
    intros y1 m y2. apply wstep_hist.
  Qed.

  (** ** Stacks *)
  (** a move of a thread in the insertion loop, which may not leave it *)
  Lemma install_stays W t ok k W' t' ts ids rest acc d : t_pc t = IIndex ts ids rest acc d -> all_done ts = false ->
    tstep W t ok k = Ok (W', t') -> exists ts', t_pc t' = IIndex ts' ids rest acc d /\ w_elems W' = w_elems W.
  Proof.
    intros Hp Hd. unfold thread_step. rewrite Hp, Hd.
    destruct (sys_step V (w_elems W) (k_nn cfg) (k_ms cfg) (w_prev W) (w_cur W, ts) k); [|discriminate]. cbn [obind].
    intros H. injection H as <- <-. cbn [t_pc w_elems]. eauto.
  Qed.

  Lemma nth_set_nth_iff {A} (l : list A) i x j u : nth_error (set_nth l i x) j = Some u ->
    (j = i /\ u = x /\ i < length l) \/ (j <> i /\ nth_error l j = Some u).
  Proof.
    rewrite nth_error_set_nth. destruct (Nat.ltb_spec i (length l)).
    - rewrite andb_true_r. destruct (Nat.eqb_spec i j) as [->|]; [|auto]. intros H2. injection H2 as <-. auto.
    - rewrite andb_false_r. destruct (Nat.eq_dec j i) as [->|]; auto. intros H2. assert (i < length l) by (apply nth_error_Some; congruence). lia.
  Qed.

  Lemma In_set_nth {A} (l : list A) w (x y : A) : In x (set_nth l w y) -> x = y \/ In x l.
  Proof.
    intros H. apply In_nth_error in H as (k & Hk). apply nth_set_nth_iff in Hk as [(-> & -> & _)|[_ Hk]]; auto.
    right. eapply nth_error_In; eauto.
  Qed.

  Lemma split_nth {A} (l : list A) w x : nth_error l w = Some x ->
    l = firstn w l ++ x :: skipn (Datatypes.S w) l /\ forall y, set_nth l w y = firstn w l ++ y :: skipn (Datatypes.S w) l.
  Proof.
    revert w. induction l as [|a l IH]; intros [|w] H; cbn in H; try discriminate.
    - injection H as ->. split; [reflexivity|]. intros y. reflexivity.
    - destruct (IH _ H) as [A1 A2]. split.
      + cbn [firstn skipn app]. f_equal. exact A1.
      + intros y. specialize (A2 y). cbn [firstn app]. change (skipn (Datatypes.S (Datatypes.S w)) (a :: l)) with (skipn (Datatypes.S w) l).
        rewrite <- A2. reflexivity.
  Qed.

  (** who is where *)
  Record stacks_inv (progs : list (list (rcall E I))) (y : wsys S E I) : Prop := mkSI {
    si_nodup : NoDup (concat (k_stacks y) ++ k_jobs y);
    si_new : forall i t, In i (k_jobs y) -> nth_error (snd (k_sys y)) i = Some t -> exists cs, t = mkThread Idle [] cs [];
    si_rest : forall i t, nth_error (snd (k_sys y)) i = Some t -> In i (concat (k_stacks y)) \/ In i (k_jobs y) \/ finished t;
    si_some : forall i, In i (concat (k_stacks y)) \/ In i (k_jobs y) -> i < length (snd (k_sys y));
    si_flat : pooled = false -> Forall (fun s => length s <= 1) (k_stacks y);
    si_below : forall w i s j t, nth_error (k_stacks y) w = Some (i :: s) -> In j s -> nth_error (snd (k_sys y)) j = Some t ->
               exists ts ids rest acc d, t_pc t = IIndex ts ids rest acc d
  }.

  Lemma on_top_in (y : wsys S E I) i : on_top y i = true -> exists w s, nth_error (k_stacks y) w = Some (i :: s).
  Proof.
    unfold on_top. rewrite existsb_exists. intros (s & Hs & H). destruct s as [|j s]; [discriminate|]. apply Nat.eqb_eq in H. subst.
    apply In_nth_error in Hs as (w & Hw). eauto.
  Qed.
  Lemma top_on (y : wsys S E I) w i s : nth_error (k_stacks y) w = Some (i :: s) -> on_top y i = true.
  Proof. intros H. unfold on_top. apply existsb_exists. exists (i :: s). split; [eapply nth_error_In; eauto|]. apply Nat.eqb_refl. Qed.

  Lemma in_stack (y : wsys S E I) w s i : nth_error (k_stacks y) w = Some s -> In i s -> In i (concat (k_stacks y)).
  Proof. intros H Hi. apply in_concat. exists s. split; auto. eapply nth_error_In; eauto. Qed.

  Lemma below_not_top (y : wsys S E I) w i s j : NoDup (concat (k_stacks y)) -> nth_error (k_stacks y) w = Some (i :: s) -> In j s -> on_top y j = false.
  Proof.
    intros HN Hs Hj.
    assert (Hij : i <> j).
    { intros ->. destruct (split_nth Hs) as [L1 _]. rewrite L1, concat_app in HN. cbn [concat] in HN. apply NoDup_appr in HN. apply NoDup_appl in HN. inversion HN; subst. tauto. }
    destruct (on_top y j) eqn:Eo; auto. apply on_top_in in Eo as (w' & s' & Hs'). exfalso.
      destruct (split_nth Hs) as [L1 L2]. rewrite L1, concat_app in HN. cbn [concat] in HN.
      destruct (Nat.lt_trichotomy w' w) as [Hlt|[->|Hgt]].
      - apply (NoDup_app_disj _ _ j HN).
        + apply in_concat. exists (j :: s'). split; [|left; auto]. apply nth_error_In with w'. rewrite nth_error_firstn_lt; auto.
        + right. apply in_or_app. auto.
      - rewrite Hs in Hs'. injection Hs' as -> ->. congruence.
      - apply NoDup_appr in HN. apply (NoDup_app_disj _ _ j HN).
        + right. auto.
        + apply in_concat. exists (j :: s'). split; [|left; auto]. apply nth_error_In with (w' - Datatypes.S w). rewrite nth_error_skipn'.
          replace (Datatypes.S w + (w' - Datatypes.S w)) with w' by lia. auto.
  Qed.

  Lemma step_stacks progs y m y' : stacks_inv progs y -> wstep y m = Ok y' -> stacks_inv progs y'.
  Proof.
    intros [H1 H2 H3 H4 H5 H6]. destruct m as [i k|w j|w]; cbn [MWorkers.wstep].
    - destruct (may_move pooled y i) eqn:Em; [|intros E0; injection E0 as <-; constructor; auto].
      destruct (rsys_step V cpush cfg max P (k_hist y) (k_sys y) (i, k)) as [z|] eqn:Ez; [|discriminate]. cbn [obind].
      intros E0. injection E0 as <-.
      assert (Hi : In i (concat (k_stacks y))).
      { unfold may_move in Em. apply orb_prop in Em as [Em|Em].
        - apply on_top_in in Em as (w & s & Hw). eapply in_stack; [exact Hw|left; auto].
        - unfold at_job in Em. destruct (nth_error (snd (k_sys y)) i) as [t|] eqn:Et; [|discriminate].
          destruct (H3 _ _ Et) as [H|[H|[H _]]]; auto.
          + destruct (H2 _ _ H Et) as (cs & ->). discriminate.
          + unfold in_install in Em. rewrite H in Em. discriminate. }
      assert (Hnj : ~ In i (k_jobs y)).
      { intros Hj. apply (NoDup_app_disj _ _ i H1); auto. }
      unfold rsys_step in Ez. cbn [fst snd] in Ez. destruct (nth_error (snd (k_sys y)) i) as [t|] eqn:Et.
      2:{ injection Ez as <-. constructor; auto. }
      destruct (tstep (fst (k_sys y)) t (P (k_hist y) (k_sys y) i) k) as [[W' t']|] eqn:Es; [|discriminate]. cbn [obind fst snd] in Ez. injection Ez as <-.
      constructor; cbn [k_sys k_hist k_stacks k_jobs fst snd]; auto.
      + intros j u Hj Hu. apply nth_set_nth_iff in Hu as [(-> & _)|[_ Hu]]; [tauto|eauto].
      + intros j u Hu. apply nth_set_nth_iff in Hu as [(-> & _)|[_ Hu]]; eauto.
      + intros j Hj. rewrite set_nth_length. auto.
      + intros w i1 s j u Hs Hj Hu. apply nth_set_nth_iff in Hu as [(-> & -> & _)|[_ Hu]]; [|eauto].
        pose proof (below_not_top (NoDup_appl _ _ H1) Hs Hj) as Hnt. unfold may_move in Em. rewrite Hnt in Em. cbn [orb] in Em. unfold at_job in Em. rewrite Et in Em.
        destruct (H6 _ _ _ _ _ Hs Hj Et) as (ts & ids & rest & acc & d & Hpc). unfold in_install in Em. rewrite Hpc in Em.
        apply andb_prop in Em as [_ Em]. apply negb_true_iff in Em. destruct (install_stays Hpc Em Es) as (ts' & A & _). eauto 9.
    - destruct (may_take pooled y w && existsb (Nat.eqb j) (k_jobs y)) eqn:Em; [|intros E0; injection E0 as <-; constructor; auto].
      apply andb_prop in Em as [Em1 Em2]. apply existsb_exists in Em2 as (j' & Hj & Ej). apply Nat.eqb_eq in Ej. subst j'.
      intros E0. injection E0 as <-. unfold may_take in Em1. destruct (nth_error (k_stacks y) w) as [s|] eqn:Es; [|discriminate].
      rewrite (nth_error_nth _ _ [] Es).
      destruct (split_nth Es) as [L1 L2]. set (a := firstn w (k_stacks y)) in *. set (b := skipn (Datatypes.S w) (k_stacks y)) in *. clearbody a b.
      assert (Hin : forall i, In i (concat (a ++ (j :: s) :: b)) <-> i = j \/ In i (concat (k_stacks y))).
      { intros i. rewrite L1, !concat_app. cbn [concat]. rewrite !in_app_iff. cbn [In]. intuition auto. }
      assert (Hrm : forall i, In i (remove Nat.eq_dec j (k_jobs y)) <-> In i (k_jobs y) /\ i <> j).
      { intros i. split; [apply in_remove|]. intros [A B]. now apply in_in_remove. }
      constructor; cbn [k_sys k_hist k_stacks k_jobs fst snd]; rewrite ?L2; auto.
      + rewrite L1 in H1. rewrite !concat_app in *. cbn [concat] in *.
        apply NoDup_app_intro.
        * apply NoDup_appl in H1 as H1a. 
          assert (Hnj : ~ In j (concat a ++ s ++ concat b)) by (intros Hx; apply (NoDup_app_disj _ _ j H1); auto).
          change ((j :: s) ++ concat b) with (j :: s ++ concat b). apply NoDup_Add with (a := j) (l := concat a ++ s ++ concat b); [apply Add_app|]. auto.
        * apply NoDup_appr in H1. clear -H1. induction H1 as [|x l Hx Hl IH]; cbn; [constructor|].
          destruct (Nat.eq_dec j x); auto. constructor; auto. intros Hin. apply in_remove in Hin as [Hin _]. tauto.
        * intros i Hi Hi2. apply Hrm in Hi2 as [Hi2 Hne]. apply (NoDup_app_disj _ _ i H1); auto.
          rewrite !in_app_iff in *. cbn [app In] in Hi. rewrite ?in_app_iff in Hi. intuition congruence.
      + intros i t Hi Ht. apply Hrm in Hi as [Hi _]. eauto.
      + intros i t Ht. rewrite Hin, Hrm. destruct (H3 _ _ Ht) as [H|[H|H]]; auto. destruct (Nat.eq_dec i j); auto.
      + intros i. rewrite Hin, Hrm. intros [[->|H]|[H _]]; auto.
      + intros Hp. specialize (H5 Hp). rewrite L1 in H5. apply Forall_app in H5 as [F1 F2]. inversion F2; subst. apply Forall_app. split; auto. constructor; auto.
        destruct s as [|i s]; [auto|]. unfold at_job in Em1. destruct (nth_error (snd (k_sys y)) i) as [t|]; [|discriminate].
        unfold in_install in Em1. destruct (t_pc t); discriminate.
      + intros w1 i1 s1 j1 u Hs1 Hj1 Hu. rewrite <- L2 in Hs1. apply nth_set_nth_iff in Hs1 as [(-> & E0 & _)|[_ Hs1]]; [|eauto].
        injection E0 as -> ->. destruct s as [|i s]; [destruct Hj1|]. destruct Hj1 as [<-|Hj1]; [|eauto].
        unfold at_job in Em1. rewrite Hu in Em1. unfold in_install in Em1. destruct (t_pc u); try discriminate. eauto 9.
    - destruct (nth_error (k_stacks y) w) as [[|i s]|] eqn:Es; try (intros E0; injection E0 as <-; constructor; auto; fail).
      destruct (at_job y i is_finished) eqn:Ef; [|intros E0; injection E0 as <-; constructor; auto].
      intros E0. injection E0 as <-.
      destruct (split_nth Es) as [L1 L2]. set (a := firstn w (k_stacks y)) in *. set (b := skipn (Datatypes.S w) (k_stacks y)) in *. clearbody a b.
      assert (Hin : forall k, In k (concat (k_stacks y)) <-> k = i \/ In k (concat (a ++ s :: b))).
      { intros k. rewrite L1, !concat_app. cbn [concat]. rewrite !in_app_iff. cbn [In]. intuition auto. }
      constructor; cbn [k_sys k_hist k_stacks k_jobs fst snd]; rewrite ?L2; auto.
      + rewrite L1 in H1. rewrite !concat_app in *. cbn [concat] in *. rewrite <- !app_assoc in *. apply (NoDup_remove_1 _ _ _ H1).
      + intros k t Ht. destruct (H3 _ _ Ht) as [H|H]; auto. apply Hin in H as [->|H]; auto. right; right.
        unfold at_job in Ef. rewrite Ht in Ef. unfold is_finished in Ef. split; destruct (t_pc t); try discriminate; auto. destruct (t_todo t); [auto|discriminate].
      + intros k [Hk|Hk]; apply H4; auto. left. apply Hin. auto.
      + intros Hp. specialize (H5 Hp). rewrite L1 in H5. apply Forall_app in H5 as [F1 F2]. inversion F2 as [|? ? F3 F4]; subst. apply Forall_app. split; auto. constructor; auto.
        cbn [length] in F3. lia.
      + intros w1 i1 s1 j1 u Hs1 Hj1 Hu. rewrite <- L2 in Hs1. apply nth_set_nth_iff in Hs1 as [(-> & E0 & _)|[_ Hs1]]; [|eauto].
        subst s. eapply (H6 w i (i1 :: s1) j1); eauto. right. auto.
  Qed.

  Lemma start_stacks W n progs : stacks_inv progs (wstart W n progs).
  Proof.
    assert (Hc : concat (repeat (@nil nat) n) = []) by (induction n; auto).
    constructor; cbn [wstart k_sys k_hist k_stacks k_jobs]; rewrite ?Hc; cbn [app].
    - apply seq_NoDup.
    - intros i t _ Ht. eapply start_nth; eauto.
    - intros i t Ht. right; left. apply in_seq. split; [lia|]. cbn [rstart snd] in Ht. assert (i < length (map (fun cs : list (rcall E I) => mkThread (S := S) Idle [] cs []) progs)) as Hlt by (apply nth_error_Some; congruence). rewrite map_length in Hlt. lia.
    - intros i [[]|Hi]. apply in_seq in Hi. cbn [rstart snd]. rewrite map_length. lia.
    - intros _. apply Forall_forall. intros s Hs. apply repeat_spec in Hs. subst. auto.
    - intros w i s j t Hs. apply nth_error_In in Hs. apply repeat_spec in Hs. discriminate.
  Qed.

  Lemma run_stacks W n progs ms y : wrun ms (wstart W n progs) = Ok y -> stacks_inv progs y.
  Proof. apply (@wrun_inv (stacks_inv progs)); [|apply start_stacks]. intros y1 m y2. apply step_stacks. Qed.

  (** ** A job on top of one whose lock it wants *)
  Lemma stuck_step progs y m y' w i j : safe_locks P -> stacks_inv progs y -> waits_for_itself y w i j -> wstep y m = Ok y' -> waits_for_itself y' w i j.
  Proof.
    intros HP HI Hw. pose proof Hw as (s & Hs & Hj & (ti & Hti & Hwi) & t & ts & ids & rest & acc & d & Ht & Hpc).
    pose proof (si_nodup HI) as HN. apply NoDup_appl in HN.
    assert (Hij : i <> j).
    { intros ->. destruct (split_nth Hs) as [L1 _]. rewrite L1, concat_app in HN. cbn [concat] in HN. apply NoDup_appr in HN. apply NoDup_appl in HN. inversion HN; subst. tauto. }
    pose proof (below_not_top HN Hs Hj) as Hjtop.
    destruct m as [i0 k|w0 j0|w0]; cbn [MWorkers.wstep].
    - destruct (may_move pooled y i0) eqn:Em; [|intros E0; injection E0 as <-; auto].
      destruct (rsys_step V cpush cfg max P (k_hist y) (k_sys y) (i0, k)) as [z|] eqn:Ez; [|discriminate]. cbn [obind]. intros E0. injection E0 as <-.
      unfold rsys_step in Ez. cbn [fst snd] in Ez. destruct (nth_error (snd (k_sys y)) i0) as [t0|] eqn:Et0; [|injection Ez as <-; exact Hw].
      destruct (tstep (fst (k_sys y)) t0 (P (k_hist y) (k_sys y) i0) k) as [[W' t']|] eqn:Es; [|discriminate]. cbn [obind fst snd] in Ez. injection Ez as <-.
      exists s. cbn [k_sys k_stacks fst snd]. split; auto. split; auto.
      assert (Hl0 : i0 < length (snd (k_sys y))) by (apply nth_error_Some; congruence).
      assert (Hsame : forall q, nth_error (set_nth (snd (k_sys y)) i0 t') q = if i0 =? q then Some t' else nth_error (snd (k_sys y)) q).
      { intros q. rewrite nth_error_set_nth. destruct (Nat.ltb_spec i0 (length (snd (k_sys y)))); [|lia]. rewrite andb_true_r. reflexivity. }
      split.
      + unfold waits. rewrite Hsame. destruct (Nat.eqb_spec i0 i) as [->|]; [|eauto]. exists t'. split; auto.
        assert (Hno : P (k_hist y) (k_sys y) i = false).
        { destruct (P (k_hist y) (k_sys y) i) eqn:Ep; auto. exfalso.
          destruct (HP (k_hist y) (k_sys y) i LElems AWrite (ex_intro _ ti (conj Hti Hwi)) Ep j ARead) as [H _]; [|discriminate].
          exists t. rewrite Hpc. cbn. auto. }
        rewrite Hti in Et0. injection Et0 as <-. rewrite Hno in Es. unfold thread_step in Es.
        destruct (t_pc ti) eqn:Ei; try discriminate Hwi. injection Es as <- <-. rewrite Ei. auto.
      + rewrite Hsame. destruct (Nat.eqb_spec i0 j) as [->|]; [|eauto 9].
        unfold may_move in Em. rewrite Hjtop in Em. cbn [orb] in Em. unfold at_job in Em. rewrite Ht in Em. unfold in_install in Em. rewrite Hpc in Em.
        apply andb_prop in Em as [_ Em]. apply negb_true_iff in Em. rewrite Ht in Et0. injection Et0 as <-.
        destruct (install_stays Hpc Em Es) as (ts' & A & _). exists t', ts', ids, rest, acc, d. auto.
    - destruct (may_take pooled y w0 && existsb (Nat.eqb j0) (k_jobs y)) eqn:Em; [|intros E0; injection E0 as <-; auto].
      apply andb_prop in Em as [Em _]. intros E0. injection E0 as <-. exists s. cbn [k_sys k_stacks].
      split; [|split; [auto|split; [exists ti; auto|eauto 9]]]. rewrite nth_error_set_nth.
      destruct (Nat.eqb_spec w0 w) as [->|]; [|auto]. exfalso. unfold may_take in Em. rewrite Hs in Em. unfold at_job in Em. rewrite Hti in Em.
      unfold in_install in Em. destruct (t_pc ti); discriminate.
    - destruct (nth_error (k_stacks y) w0) as [[|i0 s0]|] eqn:E0; try (intros H; injection H as <-; auto; fail).
      destruct (at_job y i0 is_finished) eqn:Ef; [|intros H; injection H as <-; auto]. intros H. injection H as <-. exists s. cbn [k_sys k_stacks].
      split; [|split; [auto|split; [exists ti; auto|eauto 9]]]. rewrite nth_error_set_nth.
      destruct (Nat.eqb_spec w0 w) as [->|]; [|auto]. exfalso. rewrite Hs in E0. injection E0 as <- <-. unfold at_job in Ef. rewrite Hti in Ef.
      unfold is_finished in Ef. destruct (t_pc ti); discriminate.
  Qed.

  Lemma stuck_forever progs : safe_locks P -> forall ms y y' w i j, stacks_inv progs y -> waits_for_itself y w i j ->
    wrun ms y = Ok y' -> waits_for_itself y' w i j.
  Proof.
    intros HP. induction ms as [|m ms IH]; intros y y' w i j HI Hw; cbn [MWorkers.wrun].
    - intros H. injection H as <-. auto.
    - destruct (wstep y m) as [y1|] eqn:E1; [|discriminate]. cbn [obind]. apply IH.
      + eapply step_stacks; eauto.
      + eapply stuck_step; eauto.
  Qed.

  (** nobody else changes the data while a thread is in its insertion loop *)
  Lemma not_crit_data W t ok k W' t' : crit (t_pc t) = false -> tstep W t ok k = Ok (W', t') -> W' = W.
  Proof.
    intros Hc. destruct t as [p ba td lg]. unfold thread_step. cbn [t_pc t_batch t_todo t_log] in *.
    destruct p; try discriminate Hc; intros Es; inv_step Es; injection Es as <- _; reflexivity.
  Qed.

  Lemma stuck_elems progs : safe_locks P -> forall ms y y' w i j, stacks_inv progs y -> lock_inv (k_sys y) -> waits_for_itself y w i j ->
    wrun ms y = Ok y' -> w_elems (fst (k_sys y')) = w_elems (fst (k_sys y)).
  Proof.
    intros HP. induction ms as [|m ms IH]; intros y y' w i j HI HL Hw; cbn [MWorkers.wrun].
    - intros H. injection H as <-. auto.
    - destruct (wstep y m) as [y1|] eqn:E1; [|discriminate]. cbn [obind].
      pose proof (stuck_step HP HI Hw E1) as Hw1. pose proof (step_stacks HI E1) as HI1.
      assert (H : lock_inv (k_sys y1) /\ w_elems (fst (k_sys y1)) = w_elems (fst (k_sys y))).
      { destruct m as [i0 k|w0 j0|w0]; cbn [MWorkers.wstep] in E1.
        - destruct (may_move pooled y i0); [|injection E1 as <-; auto].
          destruct (rsys_step V cpush cfg max P (k_hist y) (k_sys y) (i0, k)) as [z|] eqn:Ez; [|discriminate]. cbn [obind] in E1. injection E1 as <-.
          cbn [k_sys]. split; [eapply step_lock; eauto|].
          unfold rsys_step in Ez. cbn [fst snd] in Ez. destruct (nth_error (snd (k_sys y)) i0) as [t0|] eqn:Et0; [|injection Ez as <-; auto].
          destruct (tstep (fst (k_sys y)) t0 (P (k_hist y) (k_sys y) i0) k) as [[W' t']|] eqn:Es; [|discriminate]. cbn [obind fst snd] in Ez. injection Ez as <-.
          destruct Hw as (s & Hs & Hj & _ & t & ts & ids & rest & acc & d & Ht & Hpc).
          cbn [fst]. destruct (Nat.eq_dec i0 j) as [->|Hne].
          + rewrite Ht in Et0. injection Et0 as <-. destruct Hw1 as (_ & _ & _ & _ & t1 & ts1 & ids1 & rest1 & acc1 & d1 & Ht1 & Hpc1).
            cbn [k_sys snd] in Ht1. unfold thread_step in Es. rewrite Hpc in Es. inv_step Es; injection Es as <- <-; reflexivity.
          + assert (Hc : crit (t_pc t0) = false).
            { apply (li_crit HL (i := j) (j := i0) (t := t)); auto. rewrite Hpc. reflexivity. }
            now rewrite (not_crit_data Hc Es).
        - destruct (may_take pooled y w0 && existsb (Nat.eqb j0) (k_jobs y)); injection E1 as <-; auto.
        - destruct (nth_error (k_stacks y) w0) as [[|i0 s0]|]; try (injection E1 as <-; auto; fail).
          destruct (at_job y i0 is_finished); injection E1 as <-; auto. }
      intros Hr. destruct H as [HL1 H]. rewrite <- H. eapply (IH y1 y' w i j); eauto.
  Qed.

  (** ** Without a pool of its own *)
  (** nobody who is in the middle of a call can go on *)
  Lemma busy_stuck h (y : rsys S E I) : live_locks P -> (exists t, In t (snd y) /\ t_pc t <> Idle) ->
    (forall i t, nth_error (snd y) i = Some t -> t_pc t <> Idle -> ~ can_go P h y i) ->
    (exists j u xs acc d, nth_error (snd y) j = Some u /\ t_pc u = IGuard xs acc (Datatypes.S d)) /\
    (exists j u, nth_error (snd y) j = Some u /\ t_pc u = WGuard).
  Proof.
    intros HL (t0 & Ht0 & Hf0) Hst.
    assert (Hgo : forall i l a, waits y i l a -> P h y i = true -> False).
    { intros i l a (t & Ht & Hw) Hp. assert (Hni : t_pc t <> Idle) by (intros E0; rewrite E0 in Hw; discriminate).
      apply (Hst i t Ht Hni). exists t. split; auto. split; [|intros; auto]. intros [E0 _]. rewrite E0 in Hw. discriminate. }
    assert (Hw : forall i t, nth_error (snd y) i = Some t -> t_pc t = Idle \/ exists l a, wants (t_pc t) = Some (l, a)).
    { intros i t Ht. destruct (t_pc t) eqn:Ep; auto; right; rewrite <- Ep; 
        assert (Hni : t_pc t <> Idle) by congruence;
        destruct (waiting Ht (Hst i t Ht Hni)) as [[H _]|H]; auto; congruence. }
    assert (Hfree : forall l, (forall j b, ~ has_lock y j l b) -> forall i a, ~ waits y i l a).
    { intros l Hn i a Hi. destruct (ll_free HL h Hi Hn) as (j & b & Hj & Hp). eapply Hgo; eauto. }
    assert (HLL : forall j b, ~ has_lock y j LLayers b).
    { intros j b (t & Ht & Hin). destruct (Hw _ _ Ht) as [E0|(l & a & Ha)]; [rewrite E0 in Hin; destruct Hin|].
      destruct (t_pc t); try discriminate; cbn [guards In] in Hin;
        repeat match goal with H : _ \/ _ |- _ => destruct H | H : False |- _ => destruct H | H : (_, _) = (_, _) |- _ => discriminate H
               | H : In _ (repeat _ _) |- _ => apply repeat_spec in H end; discriminate. }
    assert (HnL : forall i a, ~ waits y i LLayers a) by (apply Hfree; auto).
    assert (HEE : forall j b, ~ has_lock y j LElems b).
    { intros j b (t & Ht & Hin). destruct (Hw _ _ Ht) as [E0|(l & a & Ha)]; [rewrite E0 in Hin; destruct Hin|].
      assert (Hnl : l <> LLayers) by (intros ->; apply (HnL j a); exists t; auto).
      destruct (t_pc t); try discriminate; cbn [guards In wants] in Hin, Ha; try (injection Ha as <- <-; congruence);
        repeat match goal with H : _ \/ _ |- _ => destruct H | H : False |- _ => destruct H | H : (_, _) = (_, _) |- _ => discriminate H
               | H : In _ (repeat _ _) |- _ => apply repeat_spec in H end; discriminate. }
    assert (HnE : forall i a, ~ waits y i LElems a) by (apply Hfree; auto).
    assert (Hall : forall k t, nth_error (snd y) k = Some t -> t_pc t = Idle \/ t_pc t = WGuard \/ exists xs acc d, t_pc t = IGuard xs acc d).
    { intros k t Ht. destruct (Hw _ _ Ht) as [H|(l & a & Ha)]; auto. right.
      assert (Hnl : l <> LLayers) by (intros ->; apply (HnL k a); exists t; auto).
      assert (Hne : l <> LElems) by (intros ->; apply (HnE k a); exists t; auto).
      destruct (t_pc t); cbn [wants] in Ha; try discriminate; injection Ha as <- <-; try congruence; eauto. }
    assert (HIG : exists j u xs acc d, nth_error (snd y) j = Some u /\ t_pc u = IGuard xs acc (Datatypes.S d)).
    {
    destruct (Exists_dec (fun t : thread S E I => exists xs acc d, t_pc t = IGuard xs acc (Datatypes.S d)) (snd y)) as [Hex|Hno].
    { intros t. destruct (t_pc t) eqn:Ep; try (right; intros (? & ? & ? & ?); discriminate).
      destruct d; [right; intros (? & ? & ? & ?); discriminate|left; eauto]. }
    - apply Exists_exists in Hex as (u & Hu & xs & acc & d & E0). apply In_nth_error in Hu as (j & Hj). exists j, u, xs, acc, d. auto.
    - exfalso. assert (HWW : forall j b, ~ has_lock y j LWrite b).
      { intros j b (t & Ht & Hin). destruct (Hall _ _ Ht) as [E0|[E0|(xs & acc & d & E0)]]; rewrite E0 in Hin; try (destruct Hin; fail).
        destruct d; [destruct Hin|]. apply Hno. apply Exists_exists. exists t. split; [eapply nth_error_In; eauto|eauto]. }
      apply In_nth_error in Ht0 as (k & Hk). destruct (Hall _ _ Hk) as [H|[E0|(xs & acc & d & E0)]]; [tauto| |].
      + apply (Hfree _ HWW k AWrite). exists t0. rewrite E0. auto.
      + apply (Hfree _ HWW k ARead). exists t0. rewrite E0. auto. }
    split; auto.
    destruct (Exists_dec (fun t : thread S E I => t_pc t = WGuard) (snd y)) as [Hex|Hno].
    { intros t. destruct (t_pc t); try (right; discriminate). auto. }
    - apply Exists_exists in Hex as (u & Hu & E0). apply In_nth_error in Hu as (j & Hj). eauto.
    - exfalso. destruct HIG as (j & u & xs & acc & d & Hj & E0). eapply (Hgo j LWrite ARead); [exists u; rewrite E0; auto|].
      apply (ll_share HL h (l := LWrite)).
      + exists u. rewrite E0. auto.
      + intros k (t & Ht & Hin). destruct (Hall _ _ Ht) as [E1|[E1|(xs1 & acc1 & d1 & E1)]]; rewrite E1 in Hin; try (destruct Hin; fail).
        cbn [guards] in Hin. apply repeat_spec in Hin. discriminate.
      + intros k (t & Ht & Hwt). destruct (Hall _ _ Ht) as [E1|[E1|(xs1 & acc1 & d1 & E1)]]; rewrite E1 in Hwt; try discriminate.
        apply Hno. apply Exists_exists. exists t. split; [eapply nth_error_In; eauto|auto].
  Qed.
End Workers.
