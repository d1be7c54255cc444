(** * Proofs: when the tasks of a pool get everything done *)
From Verif Require Import Base BaseFacts MSliceVec MIndexIo MSearch MBuild SBuild PBuildRun MLocks MRw SRw PRwSeq PRwLock PRwIds PRwConc PRwTop PRwSingle PRwLive
  PSearch MWorkers SWorkers PWorkers.
Set Implicit Arguments.
Unset Strict Implicit.

Section Progress.
  Context {S E I : Type} (V : benv S E) (cpush : S -> I -> outcome S) (cfg : config) (max : nat) (pooled : bool).
  Context (P : rpolicy S E I).
  Local Notation wstep := (wstep V cpush cfg max pooled P).
  Local Notation wrun := (wrun V cpush cfg max pooled P).
  Local Notation tstep := (thread_step V cpush cfg max).

  Lemma finished_dec (t : thread S E I) : finished t \/ ~ finished t.
  Proof. unfold finished. destruct (t_pc t); try (right; intros [H _]; discriminate). destruct (t_todo t); [left; auto|right; intros [_ H]; discriminate]. Qed.

  (** nothing possible: every worker has a job, whose innermost one is in the
      middle of a call and can not go on *)
  Lemma nothing_possible progs (y : wsys S E I) : stacks_inv pooled progs y -> k_stacks y <> [] -> (forall m, ~ possible pooled P y m) -> ~ all_returned y ->
    (exists t, In t (snd (k_sys y)) /\ t_pc t <> Idle) /\
    (forall w i s t, nth_error (k_stacks y) w = Some (i :: s) -> nth_error (snd (k_sys y)) i = Some t -> t_pc t <> Idle /\ ~ can_go P (k_hist y) (k_sys y) i) /\
    (forall i t, nth_error (snd (k_sys y)) i = Some t -> t_pc t <> Idle -> In i (concat (k_stacks y))).
  Proof.
    intros HI Hne Hno Hret.
    assert (Htop : forall w i s t, nth_error (k_stacks y) w = Some (i :: s) -> nth_error (snd (k_sys y)) i = Some t -> t_pc t <> Idle /\ ~ can_go P (k_hist y) (k_sys y) i).
    { intros w i s t Hs Ht.
      assert (Hng : ~ can_go P (k_hist y) (k_sys y) i).
      { intros Hc. destruct (effective_of Hc) as (k & He). apply (Hno (WMove i k)). split; auto. unfold may_move. rewrite (top_on Hs). reflexivity. }
      split; auto. intros Hi. destruct (finished_dec t) as [Hf|Hf].
      - apply (Hno (WReturn w)). exists i, s, t. auto.
      - apply Hng. exists t. split; auto. split; auto. intros l a (u & Hu & Hw). rewrite Ht in Hu. injection Hu as <-. rewrite Hi in Hw. discriminate. }
    split; [|split; auto].
    - assert (Hex : exists w i s, nth_error (k_stacks y) w = Some (i :: s)).
      { destruct (k_jobs y) as [|j js] eqn:Ej.
        - destruct (Exists_dec (fun s : list nat => s <> []) (k_stacks y)) as [Hx|Hx].
          { intros [|a l]; [right; auto|left; discriminate]. }
          + apply Exists_exists in Hx as ([|i s] & Hs & Hx); [congruence|]. apply In_nth_error in Hs as (w & Hw). eauto.
          + exfalso. apply Hret. split; auto. intros s Hs. destruct s as [|a l]; auto. exfalso. apply Hx. apply Exists_exists. exists (a :: l). split; auto. discriminate.
        - destruct (k_stacks y) as [|[|i s] ss] eqn:Es; [congruence| |exists 0, i, s; reflexivity].
          exfalso. apply (Hno (WTake 0 j)). split; [unfold may_take; rewrite Es; reflexivity|]. rewrite Ej. left. auto. }
      destruct Hex as (w & i & s & Hw).
      assert (Hi : i < length (snd (k_sys y))) by (apply (si_some HI); left; eapply in_stack; [exact Hw|left; auto]).
      destruct (nth_error (snd (k_sys y)) i) as [t|] eqn:Et; [|apply nth_error_None in Et; lia].
      destruct (Htop _ _ _ _ Hw Et) as [A _]. exists t. split; auto. eapply nth_error_In; eauto.
    - intros i t Ht Hi. destruct (si_rest HI Ht) as [H|[H|[H _]]]; auto; [|congruence]. destruct (si_new HI H Ht) as (cs & ->). now elim Hi.
  Qed.

  Lemma possible_dec (y : wsys S E I) m : possible pooled P y m \/ ~ possible pooled P y m.
  Proof.
    destruct m as [i k|w j|w]; cbn [possible].
    - destruct (may_move pooled y i); [|right; intros [H _]; discriminate].
      destruct (can_go_dec P (k_hist y) (k_sys y) i) as [Hc|Hc]; [|right; intros [_ [H _]]; auto].
      pose proof Hc as (t & Ht & _).
      assert (Hd : effective P (k_hist y) (k_sys y) (i, k) \/ ~ effective P (k_hist y) (k_sys y) (i, k)).
      { destruct (t_pc t) eqn:Ep; try (left; split; [exact Hc|]; cbn [fst snd]; intros; congruence).
        destruct (all_done ts) eqn:Ed; [left; split; [exact Hc|]; cbn [fst snd]; intros; congruence|].
        destruct (nth_error ts k) as [[idx st]|] eqn:Ek.
        - assert (Hst : st = TDone \/ st <> TDone) by (destruct st; try (right; discriminate); left; auto).
          destruct Hst as [->|Hst].
          + right. intros [_ H]. cbn [fst snd] in H. destruct (H _ _ _ _ _ _ Ht Ep Ed) as (idx' & st' & H1 & H2). rewrite Ek in H1. injection H1 as <- <-. congruence.
          + left. split; [exact Hc|]. cbn [fst snd]. intros t1 ts1 ids1 rest1 acc1 d1 Ht1 Ep1 _. assert (t1 = t) by congruence. subst t1. rewrite Ep in Ep1. injection Ep1 as <- <- <- <- <-. eauto.
        - right. intros [_ H]. cbn [fst snd] in H. destruct (H _ _ _ _ _ _ Ht Ep Ed) as (idx' & st' & H1 & H2). congruence. }
      destruct Hd; auto. right. intros [_ H']. auto.
    - destruct (may_take pooled y w); [|right; intros [H _]; discriminate]. destruct (in_dec Nat.eq_dec j (k_jobs y)); [auto|right; tauto].
    - destruct (nth_error (k_stacks y) w) as [[|i s]|] eqn:Es; try (right; intros (i & s0 & t & H & _); discriminate).
      destruct (nth_error (snd (k_sys y)) i) as [t|] eqn:Et.
      + destruct (finished_dec t) as [Hf|Hf]; [left; eauto 6|]. right. intros (i' & s' & t' & H1 & H2 & H3). injection H1 as <- <-. rewrite Et in H2. injection H2 as <-. auto.
      + right. intros (i' & s' & t' & H1 & H2 & H3). injection H1 as <- <-. congruence.
  Qed.

  (** the possible moves can be searched through *)
  Lemma possible_search progs (y : wsys S E I) : stacks_inv pooled progs y -> (exists m, possible pooled P y m) \/ forall m, ~ possible pooled P y m.
  Proof.
    intros HI.
    assert (Hlist : forall (l : list wmove), (exists m, possible pooled P y m) \/ forall m, In m l -> ~ possible pooled P y m).
    { induction l as [|m l [IH|IH]]; [right; intros m []|auto|]. destruct (possible_dec y m) as [H|H]; [eauto|]. right. intros m' [<-|Hm]; auto. }
    set (nt := length (snd (k_sys y))). set (nw := length (k_stacks y)).
    destruct (Hlist (map (fun p => WTake (fst p) (snd p)) (list_prod (seq 0 nw) (k_jobs y)) ++ map WReturn (seq 0 nw))) as [H|H]; auto.
    assert (Hm : (exists i k, possible pooled P y (WMove i k)) \/ forall i k, ~ possible pooled P y (WMove i k)).
    { assert (Hk : forall q, (exists i k, possible pooled P y (WMove i k)) \/ forall i, i < q -> forall k, ~ possible pooled P y (WMove i k)).
      { induction q as [|q [IH|IH]]; [right; lia|auto|]. destruct (may_move pooled y q) eqn:Em.
        - destruct (can_go_dec P (k_hist y) (k_sys y) q) as [Hc|Hc].
          + destruct (effective_of Hc) as (k & He). left. exists q, k. split; auto.
          + right. intros i Hi k [Hp [Hq _]]. destruct (Nat.eq_dec i q) as [->|]; [auto|]. apply (IH i ltac:(lia) k). split; [auto|]. split; auto. exfalso.
            destruct (Nat.eq_dec i q); [congruence|]. apply (IH i ltac:(lia) k). destruct (effective_of Hq) as (k' & He'). exfalso. apply (IH i ltac:(lia) k'). split; auto.
        - right. intros i Hi k [Hp Hq]. destruct (Nat.eq_dec i q) as [->|]; [congruence|]. apply (IH i ltac:(lia) k). split; auto. }
      destruct (Hk nt) as [Hx|Hx]; auto. right. intros i k Hp. pose proof Hp as [_ [(t & Ht & _) _]]. cbn [fst] in Ht. apply (Hx i) with (k := k); auto.
      unfold nt. apply nth_error_Some. congruence. }
    destruct Hm as [(i & k & Hp)|Hm]; [eauto|]. right. intros [i k|w j|w] Hp; [eapply Hm; eauto| |].
    - apply (H (WTake w j)); auto. apply in_or_app. left. destruct Hp as [Hp Hj]. apply in_map_iff. exists (w, j). split; auto. apply in_prod; auto.
      apply in_seq. split; [lia|]. unfold may_take in Hp. destruct (nth_error (k_stacks y) w) eqn:Ew; [|discriminate]. cbn. apply nth_error_Some. congruence.
    - apply (H (WReturn w)); auto. apply in_or_app. right. destruct Hp as (i & s & t & Hw & _). apply in_map. apply in_seq. split; [lia|]. cbn. apply nth_error_Some. congruence.
  Qed.
End Progress.

Section Returns.
  Context {S E I : Type} (V : benv S E) (cpush : S -> I -> outcome S) (cfg : config) (max : nat) (pooled : bool).
  Context (W0 : rw S) (P : rpolicy S E I) (progs : list (list (rcall E I))) (n : nat).
  Hypothesis Hse : session V cpush cfg max W0 P progs.
  Local Notation wstep := (wstep V cpush cfg max pooled P).
  Local Notation wrun := (wrun V cpush cfg max pooled P).
  Local Notation start := (wstart W0 n progs).

  Lemma wrun_app a b y : wrun (a ++ b) y = (let* y' := wrun a y in wrun b y').
  Proof. revert y. induction a as [|m a IH]; intros y; cbn [app MWorkers.wrun obind]; auto. destruct (wstep y m); cbn [obind]; auto. Qed.

  Lemma wstep_release y ms m : e_mode V = Release -> wrun ms start = Ok y -> exists y', wstep y m = Ok y'.
  Proof.
    intros Hm Hr. destruct Hse as [S1 S2 S3 S4 S5 S6 S7]. pose proof (ww_width S4) as [Hnn Hw]. pose proof (ww_ms S4) as Hms.
    destruct m as [i k|w j|w]; cbn [MWorkers.wstep].
    - destruct (may_move pooled y i); [|eauto].
      destruct (run_release S1 S2 S3 S5 Hnn Hms S6 S7 (k_hist y ++ [(i, k)]) (wf_start cpush S4 S5) Hm) as (y2 & Hr2).
      rewrite rrun_app, (wrun_hist Hr) in Hr2. cbn [obind rrun app] in Hr2.
      destruct (rsys_step V cpush cfg max P (k_hist y) (k_sys y) (i, k)); [cbn [obind]; eauto|discriminate].
    - destruct (may_take pooled y w && existsb (Nat.eqb j) (k_jobs y)); eauto.
    - destruct (nth_error (k_stacks y) w) as [[|i s]|]; eauto. destruct (at_job y i is_finished); eauto.
  Qed.

  Lemma wrun_release ms : e_mode V = Release -> exists y, wrun ms start = Ok y.
  Proof.
    intros Hm. induction ms as [|m ms (y & IH)] using rev_ind; [eexists; reflexivity|].
    destruct (wstep_release m Hm IH) as (y' & E1). exists y'. rewrite wrun_app, IH. cbn [obind MWorkers.wrun]. rewrite E1. reflexivity.
  Qed.

  Context (L : nat) (HL : k_ideal cfg max L = max) (H0 : k_ideal cfg max (length (w_prev W0)) <= length (w_cur W0)).
  Definition pending (y : wsys S E I) : nat := 2 * length (k_jobs y) + length (concat (k_stacks y)).

  Lemma all_returned_dec (y : wsys S E I) : all_returned y \/ ~ all_returned y.
  Proof.
    unfold all_returned. destruct (k_jobs y) as [|j js]; [|right; intros [H _]; discriminate].
    destruct (Exists_dec (fun s : list nat => s <> []) (k_stacks y)) as [Hx|Hx].
    { intros [|a l]; [right; auto|left; discriminate]. }
    - right. intros [_ H]. apply Exists_exists in Hx as (s & Hs & Hx). auto.
    - left. split; auto. intros s Hs. destruct s as [|a l]; auto. exfalso. apply Hx. apply Exists_exists. exists (a :: l). split; auto. discriminate.
  Qed.

  Lemma possible_less ms y m y' : wrun ms start = Ok y -> possible pooled P y m -> wstep y m = Ok y' ->
    left V max L (fst (k_sys y')) < left V max L (fst (k_sys y)) \/
    (left V max L (fst (k_sys y')) <= left V max L (fst (k_sys y)) /\
     (weight V max (k_sys y') < weight V max (k_sys y) \/ (weight V max (k_sys y') <= weight V max (k_sys y) /\ pending y' < pending y))).
  Proof.
    intros Hr Hp. destruct m as [i k|w j|w]; cbn [possible] in Hp; cbn [MWorkers.wstep].
    - destruct Hp as [Hmv He]. rewrite Hmv. destruct (rsys_step V cpush cfg max P (k_hist y) (k_sys y) (i, k)) as [z|] eqn:Ez; [|discriminate]. cbn [obind].
      intros H. injection H as <-. cbn [k_sys]. destruct (effective_less Hse HL H0 (wrun_hist Hr) He Ez) as [H|[H1 H2]]; auto.
    - destruct Hp as [Hmv Hj]. rewrite Hmv. assert (Ex : existsb (Nat.eqb j) (k_jobs y) = true).
      { apply existsb_exists. exists j. split; auto. apply Nat.eqb_refl. }
      rewrite Ex. cbn [andb]. intros H. injection H as <-. cbn [k_sys]. right. split; auto. right. split; auto. unfold pending. cbn [k_jobs k_stacks].
      pose proof (remove_length_lt Nat.eq_dec _ _ Hj) as Hlt. unfold may_take in Hmv. destruct (nth_error (k_stacks y) w) as [s|] eqn:Es; [|discriminate].
      rewrite (nth_error_nth _ _ [] Es). destruct (split_nth Es) as [L1 L2]. rewrite L2. apply (f_equal (fun l => length (concat l))) in L1.
      rewrite !concat_app in *. cbn [concat] in *. rewrite !app_length in *. cbn [length] in *. lia.
    - destruct Hp as (i & s & t & Hs & Ht & Hf). rewrite Hs. unfold at_job. rewrite Ht.
      assert (Hf2 : is_finished t = true) by (destruct Hf as [A B]; unfold is_finished; rewrite A, B; auto).
      rewrite Hf2. intros H. injection H as <-. cbn [k_sys]. right. split; auto. right. split; auto. unfold pending. cbn [k_jobs k_stacks].
      destruct (split_nth Hs) as [L1 L2]. rewrite L2. apply (f_equal (fun l => length (concat l))) in L1.
      rewrite !concat_app in *. cbn [concat] in *. rewrite !app_length in *. cbn [length] in *. lia.
  Qed.

  Lemma returns : e_mode V = Release ->
    (forall ms y, wrun ms start = Ok y -> ~ all_returned y -> exists m, possible pooled P y m) ->
    forall ms y, wrun ms start = Ok y -> exists more y', wrun (ms ++ more) start = Ok y' /\ all_returned y'.
  Proof.
    intros Hm Hpr.
    assert (Hgo : forall a b c ms y, wrun ms start = Ok y -> left V max L (fst (k_sys y)) <= a -> weight V max (k_sys y) <= b -> pending y <= c ->
      exists more y', wrun (ms ++ more) start = Ok y' /\ all_returned y'); [|intros ms y Hr; eapply Hgo; eauto].
    induction a as [a IHa] using lt_wf_ind. induction b as [b IHb] using lt_wf_ind. induction c as [c IHc] using lt_wf_ind. intros ms y Hr Ha Hb Hc.
    destruct (all_returned_dec y) as [Hd|Hd]; [exists [], y; now rewrite app_nil_r|].
    destruct (Hpr _ _ Hr Hd) as (m & Hp). destruct (wstep_release m Hm Hr) as (y1 & E1).
    assert (Hr1 : wrun (ms ++ [m]) start = Ok y1) by (rewrite wrun_app, Hr; cbn [obind MWorkers.wrun]; rewrite E1; reflexivity).
    assert (Hnext : exists more y', wrun ((ms ++ [m]) ++ more) start = Ok y' /\ all_returned y').
    { destruct (possible_less Hr Hp E1) as [H|[H1 [H|[H2 H3]]]].
      - eapply (IHa (left V max L (fst (k_sys y1)))); [lia|exact Hr1| | |]; eauto.
      - eapply (IHb (weight V max (k_sys y1))); [lia|exact Hr1|lia|eauto|eauto].
      - eapply (IHc (pending y1)); [lia|exact Hr1|lia|lia|eauto]. }
    destruct Hnext as (more & y' & A & B). exists (m :: more), y'. rewrite <- app_assoc in A. auto.
  Qed.
End Returns.

(** ** Two situations in which something is always possible *)
Section NoPool.
  Context {S E I : Type} (V : benv S E) (cpush : S -> I -> outcome S) (cfg : config) (max : nat).
  Context (W0 : rw S) (P : rpolicy S E I) (progs : list (list (rcall E I))) (n : nat).
  Hypothesis Hse : session V cpush cfg max W0 P progs.
  Hypothesis Hlive : live_locks P.
  Hypothesis Hn : 0 < n.

  Lemma stacks_len pooled ms y : wrun V cpush cfg max pooled P ms (wstart W0 n progs) = Ok y -> k_stacks y <> [].
  Proof.
    intros Hr He. assert (H : length (k_stacks y) = n); [|rewrite He in H; cbn in H; lia].
    revert Hr. apply (@wrun_inv _ _ _ V cpush cfg max pooled P (fun y => length (k_stacks y) = n)); [|cbn; apply repeat_length].
    intros y1 m y2 Hl. destruct m as [i k|w j|w]; cbn [wstep].
    - destruct (may_move pooled y1 i); [|intros H; injection H as <-; auto].
      destruct (rsys_step V cpush cfg max P (k_hist y1) (k_sys y1) (i, k)); [|discriminate]. cbn [obind]. intros H. injection H as <-. auto.
    - destruct (may_take pooled y1 w && existsb (Nat.eqb j) (k_jobs y1)); intros H; injection H as <-; auto. cbn [k_stacks]. now rewrite set_nth_length.
    - destruct (nth_error (k_stacks y1) w) as [[|i s]|]; try (intros H; injection H as <-; auto; fail).
      destruct (at_job y1 i is_finished); intros H; injection H as <-; auto. cbn [k_stacks]. now rewrite set_nth_length.
  Qed.

  Section Single.
    Hypothesis Hsingle : Forall (Forall single_call) progs.
    Hypothesis Hgrow : forall i, k_ideal cfg max i < max -> k_ideal cfg max i < k_ideal cfg max (Datatypes.S i).
    Hypothesis Hfirst : may_grow cfg max W0.

    Lemma flat_progress ms y : wrun V cpush cfg max false P ms (wstart W0 n progs) = Ok y -> ~ all_returned y -> exists m, possible false P y m.
    Proof.
      intros Hr Hd. pose proof (run_stacks Hr) as HI. destruct (possible_search P HI) as [H|Hno]; auto. exfalso.
      destruct (nothing_possible HI (stacks_len Hr) Hno Hd) as (Hex & Htop & Hin).
      destruct (@busy_stuck _ _ _ P (k_hist y) (k_sys y) Hlive Hex) as [(j & u & xs & acc & d & Hj & Ej) _].
      - intros i t Ht Hi. pose proof (Hin _ _ Ht Hi) as Hc. apply in_concat in Hc as (s & Hs & His).
        pose proof (si_flat HI eq_refl) as HF. rewrite Forall_forall in HF. specialize (HF _ Hs).
        destruct s as [|a [|b s]]; cbn [length] in HF; [destruct His| |lia]. destruct His as [->|[]]. apply In_nth_error in Hs as (w & Hw).
        destruct (Htop _ _ _ _ Hw Ht). auto.
      - pose proof Hse as [_ Hp _ _ _ _ _]. destruct (run_single Hp Hgrow Hse Hsingle Hfirst (wrun_hist Hr)) as [_ HT].
        destruct (HT _ _ Hj) as [Hs _]. rewrite Ej in Hs. cbn [single] in Hs. destruct Hs. discriminate.
    Qed.
  End Single.

  (** jobs other than [j0] search, and nobody saves *)
  Section OneWriter.
    Context (j0 : nat) (pooled : bool).
    Definition one_call (i : nat) (c : rcall E I) : Prop := match c with RSearch _ _ _ => True | RInsert _ => i = j0 | RSave => False end.
    Definition one_pc (i : nat) (p : pc S E I) : Prop :=
      match p with
      | Idle | SElems _ _ _ | SLayers _ _ _ | SEntry _ _ _ | SLoop _ _ _ _ => True
      | WGuard | WElems | WLayers | WData | WRow _ _ _ => False
      | _ => i = j0
      end.
    Hypothesis Hone : forall i cs c, nth_error progs i = Some cs -> In c cs -> one_call i c.

    Lemma step_one i W t ok k W' t' : thread_step V cpush cfg max W t ok k = Ok (W', t') -> one_pc i (t_pc t) -> Forall (one_call i) (t_todo t) ->
      one_pc i (t_pc t') /\ Forall (one_call i) (t_todo t').
    Proof.
      destruct t as [p ba td lg]. unfold thread_step. cbn [t_pc t_batch t_todo t_log].
      destruct p; cbn [one_pc]; intros Es Hp Ht; try contradiction; inv_step Es; injection Es as _ <-; cbn [t_pc t_todo one_pc]; auto.
      - inversion Ht; subst. split; auto. destruct r; cbn [begin_call one_pc one_call] in *; auto.
      - destruct (max <=? c_len (e_ops V) (w_elems W)); cbn [one_pc]; auto.
      - destruct (layer_full V W); cbn [one_pc]; auto.
      - destruct rest; cbn [one_pc]; auto.
    Qed.

    Lemma run_one h y : rrun V cpush cfg max P [] h (rstart W0 progs) = Ok y ->
      forall i t, nth_error (snd y) i = Some t -> one_pc i (t_pc t) /\ Forall (one_call i) (t_todo t).
    Proof.
      apply (@rrun_inv _ _ _ V cpush cfg max (fun y => forall i t, nth_error (snd y) i = Some t -> one_pc i (t_pc t) /\ Forall (one_call i) (t_todo t)) P).
      - intros h1 y1 m y2 HQ. unfold rsys_step. destruct (nth_error (snd y1) (fst m)) as [t|] eqn:Et; [|intros H; injection H as <-; auto].
        destruct (thread_step V cpush cfg max (fst y1) t (P h1 y1 (fst m)) (snd m)) as [[W' t']|] eqn:Es; [|discriminate]. cbn [obind fst snd]. intros H. injection H as <-.
        cbn [snd]. intros i u Hu. apply nth_set_nth_iff in Hu as [(-> & -> & _)|[_ Hu]]; [|auto]. destruct (HQ _ _ Et). eapply step_one; eauto.
      - intros i t Ht. cbn [rstart snd] in Ht. rewrite nth_error_map in Ht. destruct (nth_error progs i) as [cs|] eqn:Ei; [|discriminate]. cbn in Ht. injection Ht as <-.
        split; [exact Logic.I|]. cbn [t_todo]. apply Forall_forall. intros c Hc. eapply Hone; eauto.
    Qed.

    Lemma one_progress ms y : wrun V cpush cfg max pooled P ms (wstart W0 n progs) = Ok y -> ~ all_returned y -> exists m, possible pooled P y m.
    Proof.
      intros Hr Hd. pose proof (run_stacks Hr) as HI. destruct (possible_search P HI) as [H|Hno]; auto. exfalso.
      destruct (nothing_possible HI (stacks_len Hr) Hno Hd) as (Hex & Htop & Hin). pose proof (run_one (wrun_hist Hr)) as HQ.
      destruct (@busy_stuck _ _ _ P (k_hist y) (k_sys y) Hlive Hex) as [_ (j & u & Hj & Ej)].
      - intros i t Ht Hi Hc. pose proof (Hin _ _ Ht Hi) as Hcc. apply in_concat in Hcc as (s & Hs & His). apply In_nth_error in Hs as (w & Hw).
        destruct s as [|a s]; [destruct His|]. destruct His as [->|His]; [destruct (Htop _ _ _ _ Hw Ht); auto|].
        destruct (si_below HI Hw His Ht) as (ts & ids & rest & acc & d & Hpc).
        (* the job on top of the inserting one is a search *)
        assert (Hal : a < length (snd (k_sys y))) by (apply (si_some HI); left; eapply in_stack; [exact Hw|left; auto]).
        destruct (nth_error (snd (k_sys y)) a) as [ta|] eqn:Ea; [|apply nth_error_None in Ea; lia].
        destruct (Htop _ _ _ _ Hw Ea) as [Hai Hag].
        pose proof (HQ _ _ Ht) as [H1 _]. rewrite Hpc in H1. cbn [one_pc] in H1. subst i.
        assert (Hne : a <> j0).
        { intros ->. assert (t = ta) by congruence. subst ta. pose proof (below_not_top (NoDup_appl _ _ (si_nodup HI)) Hw His) as Hnt. rewrite (top_on Hw) in Hnt. discriminate. }
        assert (Hnow : forall l j1, l <> LWrite -> ~ has_lock (k_sys y) j1 l AWrite /\ ~ waits (k_sys y) j1 l AWrite).
        { intros l j1 Hl. split; intros (v & Hv & Hx); destruct (HQ _ _ Hv) as [Hq _].
          - destruct (Nat.eq_dec j1 j0) as [->|Hj1].
            + assert (v = t) by congruence. subst v. rewrite Hpc in Hx. cbn in Hx. destruct Hx as [Hx|[Hx|Hx]]; try discriminate. apply repeat_spec in Hx. congruence.
            + destruct (t_pc v); cbn [one_pc] in Hq; try congruence; try contradiction; cbn in Hx; intuition discriminate.
          - destruct (Nat.eq_dec j1 j0) as [->|Hj1].
            + assert (v = t) by congruence. subst v. rewrite Hpc in Hx. discriminate.
            + destruct (t_pc v); cbn [one_pc] in Hq; try congruence; try contradiction; discriminate. }
        apply Hag. exists ta. split; auto. split; [intros [H2 _]; auto|]. intros l b Hw1.
        assert (Hlb : l <> LWrite /\ b = ARead).
        { destruct Hw1 as (v & Hv & Hx). assert (v = ta) by congruence. subst v. destruct (HQ _ _ Ea) as [Hq _].
          destruct (t_pc ta); cbn [one_pc] in Hq; try congruence; try contradiction; cbn in Hx; try discriminate; injection Hx as <- <-; split; auto; discriminate. }
        destruct Hlb as [Hl ->]. apply (ll_share Hlive (k_hist y) (l := l)); auto; intros j1; apply (Hnow l j1 Hl).
      - destruct (HQ _ _ Hj) as [Hq _]. rewrite Ej in Hq. destruct Hq.
    Qed.
  End OneWriter.
End NoPool.
