(** * Proofs: successful runs keep the invariant, fair schedules finish *)
From Verif Require Import Base BaseFacts MSliceVec SSliceVec PFixed MIndexIo MSearch PHeap PSearch MBuild SBuild PSelect PRow PSLite PBuildInv PBuildRun PBuildLayer.
Set Implicit Arguments.
Unset Strict Implicit.

Section Fair.
  Context {S E : Type} (V : benv S E) (s : S).
  Local Notation C := (e_ops V).
  Hypothesis Hc : cont_ok C s.
  Hypothesis Hsort : sorts_by_dist (e_sort V).
  Hypothesis Hlen : (N.of_nat (c_len C s) <= UNUSED)%N.
  Variables (U : bool) (w n : nat).
  Hypothesis Hn : n <= c_len C s.
  Variables (nn ms : nat) (prev : list (fw N)).
  Hypothesis Hnn : 0 < nn <= w.
  Hypothesis Hms : 0 < ms.
  Variable B : nat -> Prop.
  Hypothesis Hprev : forall idx e, idx < n -> c_get C s idx = Ok e ->
    exists r, granne_search (e_mode V) (e_fuel V) (FixWidth prev) (fun i => c_dte C s i e) 1 1 = Ok r /\
      forall x, In x r -> fst x < n /\ (U = true -> fst x <> 0 -> B (fst x) /\ B 0).

  Local Notation step := (sys_step V s nn ms prev).
  Local Notation runs := (run V s nn ms prev).
  Local Notation sinv := (sys_inv V s U w n nn ms B).
  Local Notation meas := (tmeas (E := E) n).

  (** a step that does not panic is not a failing check *)
  Lemma ok_chk x k x' : sinv x -> step x k = Ok x' -> chk U x k.
  Proof.
    intros HI Es idx ns Hk _. destruct x as [rows ts]. cbn [fst snd] in *. unfold sys_step in Es. rewrite Hk in Es.
    cbn [task_step] in Es. unfold index in Es.
    destruct (nth_error rows idx) as [row|] eqn:Er; [|discriminate]. cbn [ounwrap obind] in Es.
    destruct (nth_error row 0) as [v|] eqn:Ev; [|discriminate]. cbn [ounwrap obind] in Es.
    destruct (N.eqb_spec v UNUSED) as [->|]; [|discriminate].
    intros (r & Er' & Hne). rewrite Er in Er'. injection Er' as <-.
    pose proof (z_lay HI) as HL.
    destruct (@empty_row_head _ _ V s Hlen U w n Hn ltac:(lia) idx row (y_row HL Er)) as (v & Hv & Hiff).
    apply Hne, Hiff. rewrite Ev in Hv. injection Hv as <-. apply N.eqb_refl.
  Qed.

  Definition mk (x : sys (E := E)) (k : nat) : nat :=
    match nth_error (snd x) k with Some (_, t) => meas t | None => 0 end.

  Lemma meas_pos t : t <> TDone -> 0 < meas t.
  Proof. destruct t; cbn; intros; try lia. congruence. Qed.

  Lemma step_meas x k x' : sinv x -> step x k = Ok x' ->
    sinv x' /\ map fst (snd x') = map fst (snd x) /\ (forall y, live (fst x) y -> live (fst x') y) /\
    mk x' k <= mk x k - 1 /\ (forall j, j <> k -> mk x' j = mk x j).
  Proof.
    intros HI Es. pose proof (ok_chk HI Es) as Hck.
    destruct (@sys_step_ok _ _ V s Hc Hsort Hlen U w n Hn nn ms prev Hnn Hms B Hprev x k HI Hck)
      as (x1 & E1 & HI1 & Hid & Hm & Hdec & Hle).
    rewrite Es in E1. injection E1 as <-. split; auto. split; auto. split; auto.
    destruct x as [rows ts]. unfold sys_step in Es. unfold mk. cbn [fst snd] in *.
    destruct (nth_error ts k) as [[idx t]|] eqn:Ek.
    2:{ injection Es as <-. cbn [snd]. rewrite Ek. auto. }
    destruct (task_step V s nn ms prev rows idx t) as [[rows' t']|] eqn:Et; [|discriminate]. cbn [obind fst snd] in Es.
    injection Es as <-. cbn [snd] in *.
    assert (Hk : k < length ts) by (apply nth_error_Some; congruence).
    rewrite nth_error_set_nth_eq by auto. split.
    - assert (Htot : total n (set_nth ts k (idx, t')) + meas t = total n ts + meas t').
      { unfold total. rewrite map_set_nth. cbn [snd]. apply sum_set_nth. erewrite map_nth_error; eauto. reflexivity. }
      assert (Hdd : t <> TDone \/ (t = TDone /\ t' = TDone)).
      { destruct t; try (left; discriminate). right. split; auto. cbn [task_step] in Et. congruence. }
      destruct Hdd as [Hd|[-> ->]].
      + specialize (Hdec _ _ eq_refl Hd). pose proof (meas_pos Hd). lia.
      + cbn [tmeas]. lia.
    - intros j Hj. rewrite nth_error_set_nth_neq by auto. reflexivity.
  Qed.

  Lemma run_inv sched : forall x x', sinv x -> runs sched x = Ok x' ->
    sinv x' /\ map fst (snd x') = map fst (snd x) /\ (forall y, live (fst x) y -> live (fst x') y) /\
    (forall j, mk x' j <= mk x j - count_occ Nat.eq_dec sched j).
  Proof.
    unfold run. induction sched as [|k sched IH]; intros x x' HI Er.
    - cbn [ofold] in Er. injection Er as <-. split; auto. split; auto. split; auto. intros j. cbn. lia.
    - cbn [ofold] in Er. destruct (step x k) as [x1|] eqn:E1; [|discriminate]. cbn [obind] in Er.
      destruct (step_meas HI E1) as (HI1 & Hid1 & Hm1 & Hk1 & Hj1).
      destruct (IH x1 x' HI1 Er) as (HI' & Hid' & Hm' & Hk'). split; auto. split; [congruence|]. split; auto.
      intros j. specialize (Hk' j). cbn [count_occ]. destruct (Nat.eq_dec k j) as [->|]; [lia|].
      rewrite Hj1 in Hk' by auto. lia.
  Qed.

  Lemma fair_done rows ids sched x' : sinv (rows, map (fun i => (i, TStart)) ids) ->
    fair_schedule (length ids) (4 * n + 7) sched ->
    runs sched (rows, map (fun i => (i, TStart)) ids) = Ok x' -> all_done (snd x') = true.
  Proof.
    intros HI Hf Er. destruct (run_inv HI Er) as (HI' & Hid & _ & Hk). destruct (all_done (snd x')) eqn:Ed; auto. exfalso.
    destruct (not_done_exists Ed) as (k & idx & t & Hkx & Ht). specialize (Hk k). unfold mk in Hk. rewrite Hkx in Hk.
    pose proof (meas_pos Ht). cbn [snd] in Hk. rewrite nth_error_map in Hk.
    destruct (nth_error ids k) as [i|] eqn:Ei; cbn [option_map] in Hk; [|lia].
    assert (k < length ids) by (apply nth_error_Some; congruence). specialize (Hf k H0). cbn [tmeas] in Hk. lia.
  Qed.
End Fair.
