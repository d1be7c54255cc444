(** * Proofs: all schedules of the insertion tasks of a layer *)
From Verif Require Import Base BaseFacts MSliceVec MIndexIo MSearch PHeap PSearch MBuild SBuild PSelect PRow PSLite PBuildInv.
Set Implicit Arguments.
Unset Strict Implicit.

Lemma In_set_nth {A} (l : list A) i x y : In y (set_nth l i x) -> y = x \/ exists j, j <> i /\ nth_error l j = Some y.
Proof.
  intros H. apply In_nth_error in H as (j & Hj). rewrite nth_error_set_nth in Hj.
  destruct (Nat.eqb_spec i j) as [Eij|Hne]; cbn [andb] in Hj.
  - subst j. destruct (i <? length l) eqn:El.
    + injection Hj as <-. auto.
    + exfalso. apply Nat.ltb_ge in El. assert (i < length l) by (apply nth_error_Some; congruence). lia.
  - right. exists j. auto.
Qed.

Lemma map_set_nth {A B} (g : A -> B) (l : list A) i x : map g (set_nth l i x) = set_nth (map g l) i (g x).
Proof. revert i. induction l as [|a l IH]; intros [|i]; cbn; auto. now rewrite IH. Qed.

Lemma set_nth_same {A} (l : list A) i x : nth_error l i = Some x -> set_nth l i x = l.
Proof. revert i. induction l as [|a l IH]; intros [|i]; cbn; intros H; try discriminate; auto; [congruence|]. now rewrite IH. Qed.

Lemma sum_set_nth (l : list nat) i a b : nth_error l i = Some a -> sum_nat (set_nth l i b) + a = sum_nat l + b.
Proof.
  revert i. induction l as [|c l IH]; intros [|i]; cbn; intros H; try discriminate.
  - injection H as <-. lia.
  - specialize (IH _ H). unfold sum_nat in IH. lia.
Qed.

Section Run.
  Context {S E : Type} (V : benv S E) (s : S).
  Local Notation C := (e_ops V).
  Hypothesis Hc : cont_ok C s.
  Hypothesis Hsort : sorts_by_dist (e_sort V).
  Hypothesis Hlen : (N.of_nat (c_len C s) <= UNUSED)%N.
  Variables (U : bool) (w n : nat).
  Hypothesis Hn : n <= c_len C s.
  Variables (nn ms : nat) (prev : list (fw N)).
  Hypothesis Hnn : 0 < nn <= w.
  Hypothesis Hms : 0 < ms.
  Variable B : nat -> Prop.
  Hypothesis Hprev : forall idx e, idx < n -> c_get C s idx = Ok e ->
    exists r, granne_search (e_mode V) (e_fuel V) (FixWidth prev) (fun i => c_dte C s i e) 1 1 = Ok r /\
      forall x, In x r -> fst x < n /\ (U = true -> fst x <> 0 -> B (fst x) /\ B 0).

  Local Notation linv := (lay_inv V s U w n B).
  Local Notation tinv := (task_inv V s U n nn ms).
  Local Notation step := (sys_step V s nn ms prev).
  Local Notation runs := (run V s nn ms prev).
  Local Notation meas := (tmeas (E := E) n).

  Record sys_inv (x : sys) : Prop := mkSysInv {
    z_lay : linv (fst x);
    z_ids : NoDup (map fst (snd x));
    z_task : forall idx t, In (idx, t) (snd x) -> tinv (fst x) idx t
  }.

  Definition total (ts : tasks) : nat := sum_nat (map (fun x => meas (snd x)) ts).

  (** the step chosen is not a failing debug check *)
  Definition chk (x : sys) (k : nat) : Prop :=
    forall idx ns, nth_error (snd x) k = Some (idx, TCheck ns : tstate E) ->
      (U = true -> idx = 0) -> ~ live (fst x) idx.

  Lemma sys_step_ok x k : sys_inv x -> chk x k ->
    exists x', step x k = Ok x' /\ sys_inv x' /\ map fst (snd x') = map fst (snd x) /\
      (forall y, live (fst x) y -> live (fst x') y) /\
      (forall idx t, nth_error (snd x) k = Some (idx, t) -> t <> TDone -> total (snd x') < total (snd x)) /\
      total (snd x') <= total (snd x).
  Proof.
    intros HI Hchk. destruct x as [rows ts]. cbn [fst snd] in *. unfold sys_step.
    destruct (nth_error ts k) as [[idx t]|] eqn:Ek.
    2:{ exists (rows, ts). split; [auto|]. split; [auto|]. split; [auto|]. split; [auto|]. split; [discriminate|auto]. }
    assert (Hin : In (idx, t) ts) by (eapply nth_error_In; eauto).
    pose proof (z_task HI Hin) as Ht. cbn [fst] in Ht.
    destruct (@task_step_ok _ _ V s Hc Hsort Hlen U w n Hn nn ms prev Hnn Hms B Hprev rows idx t (z_lay HI) Ht)
      as (rows' & t' & Est & HI' & Hm & Hnew & Ht' & Hme).
    { intros ns -> HU. eapply Hchk; eauto. }
    assert (Hdd : t <> TDone \/ (t = TDone /\ t' = TDone)).
    { destruct t; try (left; discriminate). right. split; auto. cbn [task_step] in Est. congruence. }
    rewrite Est. cbn [obind fst snd]. eexists. split; [reflexivity|]. cbn [fst snd].
    assert (Hids : map fst (set_nth ts k (idx, t')) = map fst ts).
    { rewrite map_set_nth. cbn [fst]. apply set_nth_same. erewrite map_nth_error; eauto. reflexivity. }
    assert (Htot : total (set_nth ts k (idx, t')) + meas t = total ts + meas t').
    { unfold total. rewrite map_set_nth. cbn [snd]. apply sum_set_nth. erewrite map_nth_error; eauto. reflexivity. }
    split; [|split; [exact Hids|split; [exact Hm|split]]].
    - constructor; cbn [fst snd]; auto.
      + rewrite Hids. apply (z_ids HI).
      + intros i' u Hu. apply In_set_nth in Hu as [Eq|(j & Hj & Eu)].
        { injection Eq as -> ->. auto. }
        assert (Hne : i' <> idx).
        { intros ->. apply Hj. pose proof (z_ids HI) as HN. cbn [snd] in HN. rewrite NoDup_nth_error in HN. apply HN.
          - rewrite map_length. apply nth_error_Some. congruence.
          - erewrite !map_nth_error by eauto. reflexivity. }
        eapply task_inv_mono; [exact Hm| |apply (z_task HI (nth_error_In _ _ Eu))].
        intros HU H0 Hl. cbn [fst]. apply Hnew; auto.
    - intros i' u Eu Hd. injection Eu as <- <-. specialize (Hme Hd). lia.
    - destruct Hdd as [Hd|[-> ->]]; [specialize (Hme Hd)|]; lia.
  Qed.

  (** ** No debug checks in release builds, and none that can fail in order *)
  Lemma chk_release x k : e_mode V = Release -> sys_inv x -> chk x k.
  Proof.
    intros Hm HI idx ns Hk _. apply nth_error_In in Hk. apply (z_task HI) in Hk.
    destruct Hk as (_ & Hd & _). congruence.
  Qed.

  (** no task is about to run a debug check that could fail *)
  Definition calm (x : sys) : Prop := forall k, chk x k.

  Lemma run_ok sched : forall x, sys_inv x ->
    (forall sched1 k sched2 x', sched = sched1 ++ k :: sched2 -> runs sched1 x = Ok x' -> sys_inv x' -> chk x' k) ->
    exists x', runs sched x = Ok x' /\ sys_inv x' /\ map fst (snd x') = map fst (snd x) /\
      (forall y, live (fst x) y -> live (fst x') y) /\ total (snd x') <= total (snd x).
  Proof.
    induction sched as [|k sched IH]; intros x HI Hchk.
    - exists x. split; [auto|]. auto.
    - destruct (sys_step_ok HI (k := k)) as (x1 & E1 & HI1 & Hid1 & Hm1 & _ & Ht1).
      { apply (Hchk [] k sched x); auto. }
      destruct (IH x1 HI1) as (x' & E' & HI' & Hid' & Hm' & Ht').
      { intros s1 k' s2 x2 Es Er. apply (Hchk (k :: s1) k' s2 x2); [cbn; now rewrite Es|].
        unfold run in *. cbn [ofold]. rewrite E1. exact Er. }
      exists x'. split; [unfold run in *; cbn [ofold]; rewrite E1; exact E'|]. split; auto. split; [congruence|].
      split; auto. lia.
  Qed.

  Lemma run_release sched x : e_mode V = Release -> sys_inv x ->
    exists x', runs sched x = Ok x' /\ sys_inv x' /\ map fst (snd x') = map fst (snd x) /\
      (forall y, live (fst x) y -> live (fst x') y) /\ total (snd x') <= total (snd x).
  Proof. intros Hm HI. apply run_ok; auto. intros. now apply chk_release. Qed.

  (** busy schedules are bounded *)
  Definition busy (x : sys) (sched : list nat) : Prop :=
    forall sched1 k sched2 x', sched = sched1 ++ k :: sched2 -> runs sched1 x = Ok x' ->
      exists idx t, nth_error (snd x') k = Some (idx, t) /\ t <> TDone.

  Lemma busy_bound sched : forall x, sys_inv x ->
    (forall sched1 k sched2 x', sched = sched1 ++ k :: sched2 -> runs sched1 x = Ok x' -> sys_inv x' -> chk x' k) ->
    busy x sched -> length sched <= total (snd x).
  Proof.
    induction sched as [|k sched IH]; intros x HI Hchk Hb; [cbn; lia|].
    destruct (sys_step_ok HI (k := k)) as (x1 & E1 & HI1 & Hid1 & Hm1 & Hdec & Ht1).
    { apply (Hchk [] k sched x); auto. }
    destruct (Hb [] k sched x eq_refl eq_refl) as (idx & t & Ek & Hd). specialize (Hdec _ _ Ek Hd).
    cbn [length]. assert (length sched <= total (snd x1)); [|lia].
    apply IH; auto.
    - intros s1 k' s2 x2 Es Er. apply (Hchk (k :: s1) k' s2 x2); [cbn; now rewrite Es|].
      unfold run in *. cbn [ofold]. rewrite E1. exact Er.
    - intros s1 k' s2 x2 Es Er. apply (Hb (k :: s1) k' s2 x2); [cbn; now rewrite Es|].
      unfold run in *. cbn [ofold]. rewrite E1. exact Er.
  Qed.

  Lemma not_done_exists ts : all_done ts = false ->
    exists k idx t, nth_error ts k = Some (idx, t : tstate E) /\ t <> TDone.
  Proof.
    intros H. induction ts as [|[i t] ts IH]; [discriminate|]. unfold all_done in H. cbn [forallb snd] in H.
    destruct (is_done t) eqn:Ed; cbn [andb] in H.
    - destruct (IH H) as (k & idx & u & Hk & Hu). exists (Datatypes.S k), idx, u. auto.
    - exists 0, i, t. split; auto. intros ->. discriminate.
  Qed.

  (** every state can be driven to completion *)
  Lemma completes m : forall x, total (snd x) <= m -> sys_inv x -> e_mode V = Release ->
    exists sched x', runs sched x = Ok x' /\ all_done (snd x') = true.
  Proof.
    induction m as [|m IH]; intros x Hm HI Hr; destruct (all_done (snd x)) eqn:Ed.
    - exists [], x. auto.
    - exfalso. destruct (not_done_exists Ed) as (k & idx & t & Hk & Ht).
      destruct (sys_step_ok HI (k := k)) as (x1 & _ & _ & _ & _ & Hdec & _); [now apply chk_release|].
      specialize (Hdec _ _ Hk Ht). lia.
    - exists [], x. auto.
    - destruct (not_done_exists Ed) as (k & idx & t & Hk & Ht).
      destruct (sys_step_ok HI (k := k)) as (x1 & E1 & HI1 & _ & _ & Hdec & _); [now apply chk_release|].
      specialize (Hdec _ _ Hk Ht).
      destruct (IH x1) as (sched & x' & Er & Hd); auto; [lia|].
      exists (k :: sched), x'. split; auto. unfold run in *. cbn [ofold]. now rewrite E1.
  Qed.

  (** ** The initial state *)
  Lemma init_inv rows ids : linv rows -> NoDup ids -> Forall (fun i => i < n) ids ->
    sys_inv (rows, map (fun i => (i, TStart)) ids).
  Proof.
    intros HI Hnd HF. constructor; cbn [fst snd]; auto.
    - rewrite map_map. cbn. now rewrite map_id.
    - intros idx t Hin. apply in_map_iff in Hin as (i & Eq & Hi). injection Eq as -> <-.
      rewrite Forall_forall in HF. split; auto.
  Qed.

  Lemma init_total ids : total (map (fun i => (i, TStart)) ids) = length ids * (4 * n + 7).
  Proof. unfold total. rewrite map_map. induction ids as [|i ids IH]; auto. cbn [map sum_nat fold_right length snd meas tmeas] in *. unfold sum_nat in IH. cbn [snd tmeas] in IH. lia. Qed.

  (** ** Tasks run one after the other, in the order of the list *)
  Lemma step_check x k x' idx ns : step x k = Ok x' -> nth_error (snd x') k = Some (idx, TCheck ns : tstate E) ->
    nth_error (snd x) k = Some (idx, TTest ns) /\ fst x' = fst x /\
    exists row, nth_error (fst x) idx = Some row /\ nth_error row 0 = Some UNUSED.
  Proof.
    destruct x as [rows ts]. unfold sys_step. destruct (nth_error ts k) as [[i t]|] eqn:Ek.
    2:{ intros E1. injection E1 as <-. cbn [snd]. congruence. }
    destruct (task_step V s nn ms prev rows i t) as [[rows' t']|] eqn:Et; [|discriminate]. cbn [obind fst snd].
    intros E1. injection E1 as <-. cbn [fst snd].
    assert (Hk : k < length ts) by (apply nth_error_Some; congruence).
    rewrite nth_error_set_nth_eq by auto. intros E2. injection E2 as -> ->.
    destruct t as [|e st|ns'|ns'|ns'|todo ns'|todo|]; cbn [task_step] in Et.
    - exfalso. unfold start_task in Et.
      destruct (c_dist (e_ops V) s idx idx) as [dd|]; [|discriminate]. cbn [obind] in Et.
      destruct (e_eps V <? dd)%Z; [discriminate|].
      destruct (c_get (e_ops V) s idx) as [e|]; [|discriminate]. cbn [obind] in Et.
      destruct (granne_search _ _ _ _ _ _) as [r|]; [|discriminate]. cbn [obind] in Et.
      destruct (s_init _ _ _) as [st|]; [|discriminate]. discriminate.
    - exfalso. destruct (s_pop st) as [[[k0 st']|]|]; [| |discriminate]; cbn [obind] in Et.
      + destruct (read_ids rows (snd k0)) as [row|]; [|discriminate]. cbn [obind] in Et.
        destruct (s_expand _ _ _ _) as [st''|]; [|discriminate]. discriminate.
      + unfold choose in Et. destruct (select_neighbors _ _ _ _) as [l|]; [|discriminate]. cbn [obind] in Et.
        destruct (nth_error l (nn / 2)) as [[y d]|]; cbn [obind] in Et; [destruct (d <? e_eps V)%Z|]; discriminate.
    - unfold index in Et. destruct (nth_error rows idx) as [row|] eqn:Er; [|discriminate]. cbn [ounwrap obind] in Et.
      destruct (nth_error row 0) as [v|] eqn:Ev; [|discriminate]. cbn [ounwrap obind] in Et.
      destruct (N.eqb_spec v UNUSED) as [->|]; [|discriminate].
      destruct (e_mode V); [|discriminate]. injection Et as <- <-. split; auto. split; auto. exists row. auto.
    - exfalso. unfold index in Et. destruct (nth_error rows idx) as [row|] eqn:Er; [|discriminate]. cbn [ounwrap obind] in Et.
      destruct (nth_error row 0) as [v|] eqn:Ev; [|discriminate]. cbn [ounwrap obind] in Et.
      destruct (oassert _); discriminate.
    - exfalso. destruct (update_row _ _ _); discriminate.
    - exfalso. destruct todo as [|[y d] todo]; [discriminate|]. destruct (update_row _ _ _); discriminate.
    - exfalso. destruct todo as [|[y d] todo]; [discriminate|]. destruct (update_row _ _ _); discriminate.
    - discriminate.
  Qed.

  (** tasks after [k] have not started, and task [k] is not about to fail *)
  Definition upto (x : sys) (k : nat) : Prop :=
    (forall p idx t, k < p -> nth_error (snd x) p = Some (idx, t) -> t = TStart) /\ chk x k.

  Lemma upto_step x k k' x' : sys_inv x -> upto x k -> k <= k' -> step x k' = Ok x' ->
    chk x k' /\ (sys_inv x' -> upto x' k').
  Proof.
    intros HI [H1 H2] Hk Es. split.
    - destruct (Nat.eq_dec k k') as [<-|]; auto. intros idx ns Hx. apply H1 in Hx; [discriminate|lia].
    - intros HI'. split.
      + intros p idx t Hp Hx. apply (H1 p idx t); [lia|].
        destruct x as [rows ts]. unfold sys_step in Es. cbn [snd]. destruct (nth_error ts k') as [[i u]|].
        * destruct (task_step _ _ _ _ _ _ _ _) as [[rows' u']|]; [|discriminate]. cbn [obind] in Es.
          injection Es as <-. cbn [snd] in Hx. rewrite nth_error_set_nth_neq in Hx by lia. auto.
        * injection Es as <-. auto.
      + intros idx ns Hx _. destruct (step_check Es Hx) as (Ht & Er & row & Hrow & Hu). rewrite Er.
        intros (r & Er' & Hne). rewrite Hrow in Er'. injection Er' as <-.
        pose proof (z_lay HI) as HL. destruct (@empty_row_head _ _ V s Hlen U w n Hn ltac:(lia) idx row) as (v & Hv & Hiff).
        { apply (y_row HL Hrow). }
        apply Hne. apply Hiff. rewrite Hu in Hv. injection Hv as <-. apply N.eqb_refl.
  Qed.

  Lemma run_in_order sched : StronglySorted le sched -> forall x k0, sys_inv x -> upto x k0 ->
    Forall (fun k => k0 <= k) sched ->
    exists x', runs sched x = Ok x' /\ sys_inv x' /\ map fst (snd x') = map fst (snd x) /\
      (forall y, live (fst x) y -> live (fst x') y) /\ total (snd x') <= total (snd x).
  Proof.
    induction 1 as [|k sched Hs IH HF]; intros x k0 HI Hup Hge.
    - exists x. split; [reflexivity|]. auto.
    - inversion Hge as [|? ? Hk Hge']; subst.
      assert (Hck : chk x k).
      { destruct Hup as [H1 H2]. destruct (Nat.eq_dec k0 k) as [<-|]; auto.
        intros idx ns Hx. apply H1 in Hx; [discriminate|lia]. }
      destruct (sys_step_ok HI Hck) as (x1 & E1 & HI1 & Hid1 & Hm1 & _ & Ht1).
      destruct (upto_step HI Hup Hk E1) as [_ Hup1]. specialize (Hup1 HI1).
      destruct (IH x1 k HI1 Hup1 HF) as (x' & E' & HI' & Hid' & Hm' & Ht').
      exists x'. split; [unfold run in *; cbn [ofold]; rewrite E1; exact E'|]. split; auto. split; [congruence|].
      split; auto. lia.
  Qed.

  Lemma init_upto rows ids : upto (rows, map (fun i => (i, TStart)) ids) 0.
  Proof.
    assert (H : forall p idx t, nth_error (map (fun i => (i, TStart)) ids) p = Some (idx, t : tstate E) -> t = TStart).
    { intros p idx t Hx. apply nth_error_In in Hx. apply in_map_iff in Hx as (i & Eq & _). congruence. }
    split; cbn [snd]; eauto. intros idx ns Hx. apply H in Hx. discriminate.
  Qed.
End Run.
