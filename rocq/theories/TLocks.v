(** * C28 (and C25-C29, C36 transferred): the row locks of an insertion pass *)
From Verif Require Import Base BaseFacts Bytes MSliceVec SSliceVec PFixed MOffsets MSetVec MIndexIo SIndexIo MSearch SSearch PSearch MBuild SBuild PSelect PRow PSLite PBuildInv PBuildRun PBuildLayer PBuildFair PBuilder PHistory PBuildAny TBuild MLocks SLocks PLocks.

(** A state reachable by moving the tasks of [x] with the locks [P]. *)
Definition lock_reachable {S E} (V : benv S E) s nn ms prev (P : policy (E := E)) (x : sys (E := E)) (h : list nat) (y : msys E) : Prop :=
  mrun V s nn ms prev P [] h (m_start x) = Ok y.

(** Locks make each access to a row atomic: whatever the tasks do with loads,
    stores and locks, the rows and the task states are those of a run in which
    every access is one step; a panic likewise.  So every theorem about [run]
    and [index_elements] speaks about the locked program. *)
Theorem C28_locked_runs_are_schedules :
  forall {S E} (V : benv S E) s nn ms prev (P : policy (E := E)) x h,
    fair_locks P ->
    (forall y, lock_reachable V s nn ms prev P x h y ->
       exists sched, length sched <= length h /\
         run V s nn ms prev sched x = Ok (fst y, map (fun m => (m_idx m, m_t m)) (snd y))) /\
    (forall e, mrun V s nn ms prev P [] h (m_start x) = Fail e ->
       exists sched, run V s nn ms prev sched x = Fail e).
Proof.
  intros S E V s nn ms prev P x h HP.
  destruct (@mrun_refines _ _ V s nn ms prev P HP h [] (m_start x) (minv_start x)) as [H1 H2]. rewrite abs_start in *. split; auto.
  intros y Hy. destruct (H1 y Hy) as (_ & sched & Hl & Hr). exists sched. split; auto.
Qed.
Print Assumptions C28_locked_runs_are_schedules.

(** A task that waits for a lock holds none; no task ever holds two; and a lock
    held for writing is held by nobody else. *)
Theorem C28_no_wait_while_holding :
  forall {S E} (V : benv S E) s nn ms prev (P : policy (E := E)) x h y k,
    fair_locks P -> lock_reachable V s nn ms prev P x h y ->
    (forall i a, asks y k i a -> forall j b, ~ holds y k j b) /\
    (forall m, nth_error (snd y) k = Some m -> length (m_held m) <= 1) /\
    (forall j i b, holds y j i AWrite -> holds y k i b -> j = k).
Proof.
  intros S E V s nn ms prev P x h y k HP Hy.
  destruct (@mrun_refines _ _ V s nn ms prev P HP h [] (m_start x) (minv_start x)) as [H1 _].
  destruct (H1 y Hy) as [HI _]. split; [|split].
  - intros i a Ha. eapply minv_waits; eauto.
  - intros m Hm. eapply minv_one; eauto.
  - intros j i b H2 H3. eapply v_excl; eauto.
Qed.
Print Assumptions C28_no_wait_while_holding.

(** No deadlock: as long as some task is not finished, some task can move. *)
Theorem C28_no_deadlock :
  forall {S E} (V : benv S E) s nn ms prev (P : policy (E := E)) x h y,
    fair_locks P -> lock_reachable V s nn ms prev P x h y ->
    forallb m_finished (snd y) = true \/ exists k, can_move P h y k.
Proof.
  intros S E V s nn ms prev P x h y HP Hy.
  destruct (@mrun_refines _ _ V s nn ms prev P HP h [] (m_start x) (minv_start x)) as [H1 _].
  destruct (H1 y Hy) as [HI _]. destruct (forallb m_finished (snd y)) eqn:Ef; auto. right.
  apply minv_progress; auto. clear - Ef. induction (snd y) as [|m l IH]; [discriminate|]. cbn [forallb] in Ef.
  destruct (m_finished m) eqn:Em; [|exists 0, m; auto]. destruct (IH Ef) as (k & m' & H1 & H2). exists (Datatypes.S k), m'. auto.
Qed.
Print Assumptions C28_no_deadlock.

(** Release builds, any pass over a well-formed layer: no move panics, a history
    of effective moves is at most [5 * tasks * (4n+7)] long, and where it cannot
    be prolonged every task is finished and the rows are the outcome of an
    insertion pass [index_elements] of MBuild.v (before the final limiting). *)
Theorem C28_locked_pass_finishes :
  forall {S E} (V : benv S E) s nn ms prev num last reinsert (P : policy (E := E)) x h,
    usable V s -> sorts_by_dist (e_sort V) -> (N.of_nat (c_len (e_ops V) s) < UNUSED)%N -> e_mode V = Release ->
    layers_wf nn num prev -> (last = fw_with_width (fwidth last) \/ layer_wf nn num last) ->
    (forall l, In l prev -> fw_len l <= fw_len last) ->
    0 < nn <= fwidth last -> 0 < ms -> 0 < num <= c_len (e_ops V) s -> (reinsert = true -> num = fw_len last) ->
    start_pass num last reinsert = Ok x -> fair_locks P ->
    (exists y, lock_reachable V s nn ms prev P x h y) /\
    ((forall h1 k h2 y, h = h1 ++ k :: h2 -> lock_reachable V s nn ms prev P x h1 y -> can_move P h1 y k) ->
     length h <= 5 * (length (snd x) * (4 * num + 7))) /\
    (forall y, lock_reachable V s nn ms prev P x h y -> (forall k, ~ can_move P h y k) ->
       forallb m_finished (snd y) = true /\
       exists sched, index_elements V s nn ms prev num last reinsert sched =
         (let* rows := limit_rows V s nn (fst y) in Ok (mkFw (concat rows) (fwidth last)))).
Proof.
  intros S E V s nn ms prev num last re P x h [Hc Hfu] Hsort Hlen Hrel Hprev Hlast Hall Hnn Hms Hnum Hre Es HP.
  assert (Es0 := Es).
  destruct (@any_start _ _ V s nn num prev last re Hprev Hlast Hall Hnn Hnum Hre) as (R & rows0 & HR & H1 & H2 & H3 & Hle & Hg & Hre').
  assert (Hlen' : (N.of_nat (c_len (e_ops V) s) <= UNUSED)%N) by lia.
  rewrite (@start_pass_unfold _ _ V s Hlen' num last rows0 re H2 ltac:(lia) Hle) in Es. injection Es as <-.
  destruct (@start_inv _ _ V s Hlen' false nn nn ms prev R num last rows0 re HR H1 H2 ltac:(lia) Hg Hle ltac:(lia) Hre' Hnn Hms) as (HI & HL & _).
  assert (Hle2 : length (List.last R []) <= num) by (destruct Hg; lia).
  pose proof (@hprev_of _ _ V s Hc Hlen' false nn prev R num HR Hle2 ltac:(lia) Hfu) as Hp.
  set (x := start_state num rows0 re (fwidth last)) in *.
  destruct (@mrun_refines _ _ V s nn ms prev P HP h [] (m_start x) (minv_start x)) as [Q1 Q2]. rewrite abs_start in *.
  assert (Hex : exists y, lock_reachable V s nn ms prev P x h y).
  { unfold lock_reachable. destruct (mrun V s nn ms prev P [] h (m_start x)) as [y|e] eqn:Er; [eauto|]. exfalso.
    destruct (Q2 _ eq_refl) as (sched & Hs).
    destruct (@run_release _ _ V s Hc Hsort Hlen' false (fwidth last) num ltac:(lia) nn ms prev Hnn Hms (base_of false R) Hp sched _ Hrel HI)
      as (x' & E1 & _). rewrite E1 in Hs. discriminate. }
  split; auto. split.
  - intros Hmv.
    pose proof (@moves_bounded _ _ V s Hc Hsort Hlen' false (fwidth last) num ltac:(lia) nn ms prev Hnn Hms (base_of false R) Hp P HP h [] (m_start x)
      (minv_start x)) as Hb. rewrite abs_start in Hb. specialize (Hb HI Hmv Hex).
    rewrite (@mtotal_start E num x) in Hb. unfold x, start_state in *. cbn [snd] in *.
    rewrite (@init_total _ _ V s Hlen' (fwidth last) num ltac:(lia) nn ms Hnn Hms) in Hb. rewrite map_length. exact Hb.
  - intros y Hy Hstuck.
    assert (Hfin : forallb m_finished (snd y) = true).
    { destruct (C28_no_deadlock V s nn ms prev P x h y HP Hy) as [Hf|[k Hk]]; auto. exfalso. eapply Hstuck; eauto. }
    split; auto. destruct (Q1 y Hy) as (_ & sched & _ & Hr). exists sched.
    unfold index_elements. rewrite Es0. cbn [obind]. rewrite Hr. cbn [obind abs fst snd].
    assert (Hd : all_done (map (fun m => (m_idx m, m_t m)) (snd y)) = true).
    { unfold all_done. rewrite forallb_forall. intros p Hin. apply in_map_iff in Hin as (m & <- & Hin). rewrite forallb_forall in Hfin.
      specialize (Hfin m Hin). unfold m_finished in Hfin. apply andb_true_iff in Hfin. apply Hfin. }
    rewrite Hd. reflexivity.
Qed.
Print Assumptions C28_locked_pass_finishes.

(** ** Non-vacuity: two lock policies, and a run *)

(** the guards of all tasks on lock [i] *)
Definition guards {E} (y : msys E) (i : nat) : list access :=
  flat_map (fun m => map snd (filter (fun g => fst g =? i) (m_held m))) (snd y).
Definition compatible (a : access) (l : list access) : bool :=
  match a with ARead => forallb (fun b => access_eqb b ARead) l | AWrite => match l with [] => true | _ => false end end.
(** everybody who is compatible is let in *)
Definition lax {E} : policy (E := E) := fun _ y k =>
  match nth_error (snd y) k with
  | Some m => match m_code m with IAcq i a :: _ => compatible a (guards y i) | _ => false end
  | None => false
  end.
(** is somebody asking to write row [i]? *)
Definition writer_asks {E} (y : msys E) (i : nat) : bool :=
  existsb (fun m => match m_code m with IAcq j AWrite :: _ => j =? i | _ => false end) (snd y).
(** like [lax], but readers wait behind waiting writers *)
Definition writers_first {E} : policy (E := E) := fun h y k =>
  match nth_error (snd y) k with
  | Some m => match m_code m with IAcq i ARead :: _ => negb (writer_asks y i) && lax h y k | _ => lax h y k end
  | None => false
  end.

Lemma guards_holds {E} (y : msys E) i b : In b (guards y i) <-> exists j, holds y j i b.
Proof.
  unfold guards, holds. rewrite in_flat_map. split.
  - intros (m & Hm & Hb). apply in_map_iff in Hb as ([i' b'] & <- & Hb). apply filter_In in Hb as [Hb He]. apply Nat.eqb_eq in He. cbn in *. subst i'.
    apply In_nth_error in Hm as [j Hj]. eauto.
  - intros (j & m & Hj & Hb). exists m. split; [eapply nth_error_In; eauto|]. apply in_map_iff. exists (i, b). split; auto.
    apply filter_In. split; auto. cbn. apply Nat.eqb_refl.
Qed.
Lemma access_eqb_eq a b : access_eqb a b = true <-> a = b.
Proof. destruct a, b; cbn; split; congruence. Qed.
Lemma compatible_ok a l : compatible a l = true -> forall b, In b l -> a = ARead /\ b = ARead.
Proof.
  destruct a; cbn [compatible].
  - intros H b Hb. rewrite forallb_forall in H. apply H, access_eqb_eq in Hb. auto.
  - destruct l; [|discriminate]. intros _ b [].
Qed.
Lemma no_guards {E} (y : msys E) i : (forall j b, ~ holds y j i b) -> guards y i = [].
Proof.
  intros H. destruct (guards y i) as [|b l] eqn:Eg; auto. exfalso.
  assert (Hb : In b (guards y i)) by (rewrite Eg; now left). apply guards_holds in Hb as [j Hj]. eapply H; eauto.
Qed.

Example lax_fair {E} : fair_locks (lax (E := E)).
Proof.
  split.
  - intros h y k i a (m & c & Hk & Hc) HP j b Hb. unfold lax in HP. rewrite Hk, Hc in HP.
    apply (compatible_ok a (guards y i) HP). apply guards_holds. eauto.
  - intros h y k i a (m & c & Hk & Hc) Hfree. exists k, a. split; [exists m, c; auto|].
    unfold lax. rewrite Hk, Hc. rewrite no_guards by auto. now destruct a.
Qed.

Example writers_first_fair {E} : fair_locks (writers_first (E := E)).
Proof.
  split.
  - intros h y k i a Ha HP. apply (@fl_safe _ _ lax_fair h y k i a Ha).
    destruct Ha as (m & c & Hk & Hc). unfold writers_first in HP. rewrite Hk, Hc in HP. destruct a; auto.
    now apply andb_true_iff in HP.
  - intros h y k i a Ha Hfree.
    destruct (writer_asks y i) eqn:Ew.
    + unfold writer_asks in Ew. apply existsb_exists in Ew as (m & Hm & Hc). apply In_nth_error in Hm as [k' Hk'].
      destruct (m_code m) as [|[i' [] | | | ] c] eqn:Ec; try discriminate. apply Nat.eqb_eq in Hc. subst i'.
      exists k', AWrite. split; [exists m, c; auto|]. unfold writers_first, lax. rewrite Hk', Ec. now rewrite no_guards.
    + destruct Ha as (m & c & Hk & Hc). exists k, a. split; [exists m, c; auto|]. unfold writers_first, lax. rewrite Hk, Hc.
      rewrite no_guards by auto. destruct a; cbn; auto. now rewrite Ew.
Qed.

(** A pass over 6 elements with all tasks moving in turn, each lock contended:
    it finishes, and at some moment tasks wait in vain. *)
Definition lock_ex_run : outcome (msys Z) :=
  let* x := start_pass 6 (fw_with_width 3) false in
  mrun (ex_env Release) ex_elems 3 4 [] writers_first [] (concat (repeat [0; 1; 2; 3; 4; 5] 60)) (m_start x).
Example lock_ex_finishes :
  (let* y := lock_ex_run in Ok (forallb m_finished (snd y), map (row_ids) (fst y))) =
  Ok (true, [[3; 4]; [0]; []; [0]; [0]; [0]]).
Proof. vm_compute. reflexivity. Qed.
Definition lock_ex_at (n : nat) : list nat :=
  match (let* x := start_pass 6 (fw_with_width 3) false in
         mrun (ex_env Release) ex_elems 3 4 [] writers_first [] (firstn n (concat (repeat [0; 1; 2; 3; 4; 5] 60))) (m_start x)) with
  | Ok y => filter (fun k => match nth_error (snd y) k with
                             | Some m => match m_code m with IAcq _ _ :: _ => negb (writers_first [] y k) | _ => false end
                             | None => false end) (seq 0 6)
  | Fail _ => []
  end.
Example lock_ex_waits : lock_ex_at 130 = [3; 4; 5].
Proof. vm_compute. reflexivity. Qed.
