(** * Proofs: mutual exclusion in the concurrent builder *)
From Verif Require Import Base BaseFacts MSliceVec MIndexIo MSearch MBuild SBuild PBuildRun MLocks MRw SRw.
Set Implicit Arguments.
Unset Strict Implicit.

(** a thread between acquiring [elements] exclusively and the end of its insertions *)
Definition crit {S E I} (p : pc S E I) : bool :=
  match p with
  | ILayers _ _ _ | IRoom _ _ _ | INew _ _ _ | ISplit _ _ _ | IPush _ _ _ _ _ | IDownL _ _ _ _ | IDownE _ _ _ _
  | IIndex _ _ _ _ _ => true
  | _ => false
  end.

Lemma crit_guard {S E I} (p : pc S E I) : crit p = true -> exists a, In (LElems, a) (guards p).
Proof. destruct p; cbn; try discriminate; intros _; eauto. Qed.

Lemma repeat_in {A} (x y : A) n : In x (repeat y n) -> x = y.
Proof. apply repeat_spec. Qed.

(** invert a step *)
Ltac inv_step H :=
  repeat match type of H with
  | (if ?b then _ else _) = Ok _ => let Eb := fresh "Eb" in destruct b eqn:Eb
  | (match ?x with _ => _ end) = Ok _ => let Ex := fresh "Ex" in destruct x eqn:Ex
  | obind ?x _ = Ok _ => let Ex := fresh "Ex" in destruct x eqn:Ex; cbn [obind] in H; [|discriminate H]
  | Fail _ = Ok _ => discriminate H
  end.

Section Lock.
  Context {S E I : Type} (V : benv S E) (cpush : S -> I -> outcome S) (cfg : config) (max : nat).
  Local Notation tstep := (thread_step V cpush cfg max).

  (** every guard after a step was there before, is a weakened one, or was granted *)
  Lemma step_guards W t ok k W' t' l a : tstep W t ok k = Ok (W', t') -> In (l, a) (guards (t_pc t')) ->
    In (l, a) (guards (t_pc t)) \/ (a = ARead /\ In (l, AWrite) (guards (t_pc t))) \/ (ok = true /\ wants (t_pc t) = Some (l, a)).
  Proof.
    destruct t as [p ba td lg]. unfold thread_step. cbn [t_pc t_batch t_todo t_log].
    destruct p; cbn [guards wants]; intros Es; inv_step Es; injection Es as <- <-; cbn [t_pc t_batch t_todo t_log] in *; cbn [guards];
      try (now auto);
      try (intros H; cbn [In repeat] in H; cbn [In]; rewrite ?in_app_iff in *; cbn [In]; intuition (subst; auto); try congruence; fail).
    - destruct r; cbn [begin_call guards repeat]; auto.
    - destruct (max <=? c_len (e_ops V) (w_elems W)); cbn [guards In]; auto.
    - destruct (layer_full V W); cbn [guards In]; auto.
    - destruct rest; cbn [guards In]; auto.
  Qed.

  Lemma step_crit W t ok k W' t' : tstep W t ok k = Ok (W', t') -> crit (t_pc t') = true ->
    crit (t_pc t) = true \/ (ok = true /\ wants (t_pc t) = Some (LElems, AWrite)).
  Proof.
    destruct t as [p ba td lg]. unfold thread_step. cbn [t_pc t_batch t_todo t_log].
    destruct p; cbn [wants crit]; intros Es; inv_step Es; injection Es as <- <-; cbn [t_pc crit]; auto; try discriminate.
    - destruct r; discriminate.
    - destruct (max <=? c_len (e_ops V) (w_elems W)); discriminate.
  Qed.

  (** ** Mutual exclusion *)
  Record lock_inv (y : rsys S E I) : Prop := mkLockInv {
    li_compat : forall i j t u l a b, i <> j -> nth_error (snd y) i = Some t -> nth_error (snd y) j = Some u ->
                In (l, a) (guards (t_pc t)) -> In (l, b) (guards (t_pc u)) -> a = ARead /\ b = ARead;
    li_crit : forall i j t u, i <> j -> nth_error (snd y) i = Some t -> nth_error (snd y) j = Some u ->
              crit (t_pc t) = true -> crit (t_pc u) = false
  }.

  Lemma step_lock P h y m y' : safe_locks P -> lock_inv y -> rsys_step V cpush cfg max P h y m = Ok y' -> lock_inv y'.
  Proof.
    intros HP HI. destruct y as [W ts]. unfold rsys_step. cbn [fst snd]. destruct (nth_error ts (fst m)) as [t|] eqn:Et.
    2:{ intros H. injection H as <-. auto. }
    destruct (tstep W t (P h (W, ts) (fst m)) (snd m)) as [[W' t']|] eqn:Es; [|discriminate]. cbn [obind fst snd].
    intros H. injection H as <-. remember (fst m) as i0 eqn:Ei0. clear Ei0.
    assert (Hi0 : i0 < length ts) by (apply nth_error_Some; congruence).
    assert (Hnth : forall j u, nth_error (set_nth ts i0 t') j = Some u -> (j = i0 /\ u = t') \/ (j <> i0 /\ nth_error ts j = Some u)).
    { intros j u. rewrite nth_error_set_nth. destruct (Nat.ltb_spec i0 (length ts)); [|lia]. rewrite andb_true_r. destruct (Nat.eqb_spec i0 j) as [->|].
      - intros H2. injection H2 as <-. auto.
      - auto. }
    assert (Hother : forall j u l a b, j <> i0 -> nth_error ts j = Some u -> In (l, a) (guards (t_pc t')) -> In (l, b) (guards (t_pc u)) ->
              a = ARead /\ b = ARead).
    { intros j u l a b Hj Hu Ha Hb. destruct (step_guards Es Ha) as [H1|[[-> H1]|[Hok H1]]].
      - apply (li_compat HI (i := i0) (j := j) (t := t) (u := u) (l := l)); auto.
      - destruct (li_compat HI (i := i0) (j := j) (t := t) (u := u) (l := l) (a := AWrite) (b := b)) as [H _]; auto. discriminate.
      - eapply (HP h (W, ts) i0 l a); [| exact Hok |].
        + exists t. auto.
        + exists u. split; [exact Hu|exact Hb]. }
    constructor; cbn [fst snd].
    - intros i j u1 u2 l a b Hij H1 H2 Ha Hb. destruct (Hnth _ _ H1) as [[-> ->]|[Hi H1']]; destruct (Hnth _ _ H2) as [[-> ->]|[Hj H2']]; [tauto| | |].
      + eapply Hother; eauto.
      + destruct (Hother i u1 l b a) as [? ?]; auto.
      + eapply (li_compat HI Hij); eauto.
    - assert (Hc : forall j u, j <> i0 -> nth_error ts j = Some u -> crit (t_pc t') = true -> crit (t_pc u) = false).
      { intros j u Hj Hu Hct. destruct (step_crit Es Hct) as [H1|[Hok H1]].
        - eapply (li_crit HI (i := i0) (j := j)); eauto.
        - destruct (crit (t_pc u)) eqn:Ec; auto. destruct (crit_guard Ec) as (a & Ha).
          destruct (HP h (W, ts) i0 LElems AWrite (ex_intro _ t (conj Et H1)) Hok j a) as [H _]; [exists u; auto|discriminate]. }
      intros i j u1 u2 Hij H1 H2 Hcu. destruct (Hnth _ _ H1) as [[-> ->]|[Hi H1']]; destruct (Hnth _ _ H2) as [[-> ->]|[Hj H2']]; [tauto| | |].
      + eapply Hc; eauto.
      + destruct (crit (t_pc t')) eqn:Ec; auto. rewrite (Hc i u1) in Hcu; auto.
      + eapply (li_crit HI Hij); eauto.
  Qed.

  Lemma start_nth (W : rw S) progs i t : nth_error (snd (rstart (E := E) (I := I) W progs)) i = Some t ->
    exists cs, t = mkThread Idle [] cs [].
  Proof. unfold rstart. cbn [snd]. rewrite nth_error_map. destruct (nth_error progs i); [|discriminate]. cbn. intros H. injection H as <-. eauto. Qed.

  Lemma start_lock (W : rw S) progs : lock_inv (rstart W progs).
  Proof.
    constructor.
    - intros i j t u l a b _ H1 _ Ha _. destruct (start_nth H1) as (cs & ->). destruct Ha.
    - intros i j t u _ H1 _ Hc. destruct (start_nth H1) as (cs & ->). discriminate.
  Qed.

  (** an invariant of single steps holds in every run *)
  Lemma rrun_inv (Q : rsys S E I -> Prop) P : (forall h y m y', Q y -> rsys_step V cpush cfg max P h y m = Ok y' -> Q y') ->
    forall sched h y y', Q y -> rrun V cpush cfg max P h sched y = Ok y' -> Q y'.
  Proof.
    intros HQ. induction sched as [|m sched IH]; intros h y y' Hy; cbn [rrun].
    - intros H. injection H as <-. auto.
    - destruct (rsys_step V cpush cfg max P h y m) as [y1|] eqn:E1; [|discriminate]. cbn [obind]. apply IH. eauto.
  Qed.
End Lock.
