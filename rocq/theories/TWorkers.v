(** * C77: the concurrent builder called from the tasks of a rayon pool *)
From Verif Require Import Base BaseFacts MSliceVec MIndexIo MSearch MBuild SBuild PBuildRun MLocks MRw SRw PRwSeq PRwLock PRwIds PRwConc PRwTop PRwSingle PRwLive TBuild TRw
  MWorkers SWorkers PWorkers PWorkers2.
Close Scope R_scope. Close Scope Z_scope. Open Scope nat_scope.

(** What tasks do is what threads of their own would do, with some schedule: all
    that C42, C43, C45 and C46 say about identifiers, capacity, saved snapshots
    and search results holds for tasks too. *)
Theorem C77_tasks_run_as_threads :
  forall S E I (V : benv S E) (cpush : S -> I -> outcome S) cfg max pooled W0 P progs n ms y,
    wrun V cpush cfg max pooled P ms (wstart W0 n progs) = Ok y ->
    exists sched, rrun V cpush cfg max P [] sched (rstart W0 progs) = Ok (k_sys y).
Proof. intros S E I V cpush cfg max pooled W0 P progs n ms y Hr. exists (k_hist y). exact (wrun_hist Hr). Qed.
Print Assumptions C77_tasks_run_as_threads.

(** Nor do they panic. *)
Theorem C77_no_panic :
  forall S E I (V : benv S E) (cpush : S -> I -> outcome S) cfg max pooled W0 P progs n ms,
    session V cpush cfg max W0 P progs -> e_mode V = Release ->
    exists y, wrun V cpush cfg max pooled P ms (wstart W0 n progs) = Ok y.
Proof. intros S E I V cpush cfg max pooled W0 P progs n ms Hs Hm. exact (wrun_release pooled n Hs ms Hm). Qed.
Print Assumptions C77_no_panic.

(** But they may hang.  A worker whose task waits for the exclusive lock of the
    elements on top of a task that is inserting waits for ever: neither task
    ever returns, and the builder never takes another element, whatever the
    other workers do and whatever kind of (safe) locks are used. *)
Theorem C77_stuck_for_ever :
  forall S E I (V : benv S E) (cpush : S -> I -> outcome S) cfg max pooled W0 P progs n ms y w i j more y',
    safe_locks P ->
    wrun V cpush cfg max pooled P ms (wstart W0 n progs) = Ok y -> waits_for_itself y w i j ->
    wrun V cpush cfg max pooled P more y = Ok y' ->
    waits_for_itself y' w i j /\ ~ all_returned y' /\
    (forall k t, k = i \/ k = j -> nth_error (snd (k_sys y')) k = Some t -> ~ finished t) /\
    w_elems (fst (k_sys y')) = w_elems (fst (k_sys y)).
Proof.
  intros S E I V cpush cfg max pooled W0 P progs n ms y w i j more y' HP Hr Hw Hm.
  pose proof (run_stacks Hr) as HI. pose proof (stuck_forever HP HI Hw Hm) as Hw'.
  split; [exact Hw'|]. pose proof Hw' as (s & Hs & Hj & (t & Ht & Hwt) & u & ts & ids & rest & acc & d & Hu & Hpc). split; [|split].
  - intros [_ H]. apply nth_error_In in Hs. specialize (H _ Hs). discriminate.
  - intros k v [-> | ->] Hv [Hf _].
    + assert (v = t) by congruence. subst v. rewrite Hf in Hwt. discriminate.
    + assert (v = u) by congruence. subst v. congruence.
  - refine (stuck_elems HP HI _ Hw Hm). refine (rrun_inv (Q := lock_inv (S := S) (E := E) (I := I)) _ (start_lock W0 progs) (wrun_hist Hr)).
    intros h y1 m y2 HL E2. eapply step_lock; eauto.
Qed.
Print Assumptions C77_stuck_for_ever.

(** And this happens: two tasks on one worker, each of which inserts a single
    element, in a builder with a pool of its own (more than one thread), with
    locks that prefer writers and with locks that do not.  On threads of their
    own the same calls never hang (C44). *)
Definition two_inserts : list (list (rcall Z Z)) := [[RInsert [7]]; [RInsert [3]]]%Z.
Definition into_the_trap : list wmove :=
  [WTake 0 0] ++ map (WMove 0) (repeat 0 12) ++ [WTake 0 1] ++ map (WMove 1) (repeat 0 4).

Theorem C77_every_task_returns_refuted :
  exists W, ex_rw = Ok W /\ forall b : bool,
    session (ex_env Release) ex_push ex_cfg 8 W (rw_locks b) two_inserts /\
    exists y, wrun (ex_env Release) ex_push ex_cfg 8 true (rw_locks b) into_the_trap (wstart W 1 two_inserts) = Ok y /\
      waits_for_itself y 0 1 0 /\
      forall more y', wrun (ex_env Release) ex_push ex_cfg 8 true (rw_locks b) more y = Ok y' -> ~ all_returned y'.
Proof.
  destruct ex_rw as [W|] eqn:EW; [|vm_compute in EW; discriminate]. exists W. split; auto. intros b. split.
  - apply ex_session; auto. intros cs q ms nn Hcs Hc. cbn in Hcs. destruct Hcs as [<-|[<-|[]]]; cbn in Hc; destruct Hc as [Hc|[]]; discriminate Hc.
  - vm_compute in EW. injection EW as <-.
    match goal with |- exists y, ?run = Ok y /\ _ => destruct run as [y|] eqn:Ey; [|destruct b; vm_compute in Ey; discriminate] end.
    exists y. split; auto.
    assert (Hw : waits_for_itself y 0 1 0).
    { destruct b; vm_compute in Ey; injection Ey as <-; (eexists; split; [reflexivity|]; split; [left; reflexivity|]; split; [eexists; split; reflexivity|]; repeat eexists). }
    split; auto. intros more y' Hm. refine (proj1 (proj2 (C77_stuck_for_ever _ _ _ _ _ _ _ _ _ _ _ _ _ _ _ _ _ _ _ (rw_locks_safe b) Ey Hw Hm))).
Qed.
Print Assumptions C77_every_task_returns_refuted.

(** If the builder's pool has a single thread, the insertion loop runs on the
    worker, which takes no other task meanwhile: tasks that insert elements one
    at a time always return. *)
Theorem C77_single_threaded_builder :
  forall S E I (V : benv S E) (cpush : S -> I -> outcome S) cfg max W0 P progs n ms y,
    session V cpush cfg max W0 P progs -> sizes_reach cfg max W0 -> live_locks P -> e_mode V = Release -> 0 < n ->
    (forall cs xs, In cs progs -> In (RInsert xs) cs -> length xs <= 1) ->
    (forall i, k_ideal cfg max i < max -> k_ideal cfg max i < k_ideal cfg max (Datatypes.S i)) ->
    (length (w_cur W0) < max -> length (w_cur W0) < k_ideal cfg max (Datatypes.S (length (w_prev W0)))) ->
    wrun V cpush cfg max false P ms (wstart W0 n progs) = Ok y ->
    (~ all_returned y -> exists m, possible false P y m) /\
    exists more y', wrun V cpush cfg max false P (ms ++ more) (wstart W0 n progs) = Ok y' /\ all_returned y'.
Proof.
  intros S E I V cpush cfg max W0 P progs n ms y Hs [(L & HL) H0] Hlv Hm Hn H1 Hg Hf Hr.
  assert (H1' : Forall (Forall single_call) progs).
  { apply Forall_forall. intros cs Hcs. apply Forall_forall. intros c Hc. destruct c; cbn [single_call]; auto. eapply H1; eauto. }
  assert (Hp : forall ms y, wrun V cpush cfg max false P ms (wstart W0 n progs) = Ok y -> ~ all_returned y -> exists m, possible false P y m).
  { intros ms1 y1. exact (flat_progress Hs Hlv Hn H1' Hg Hf (ms := ms1) (y := y1)). }
  split; [eauto|]. exact (returns Hs HL H0 Hm Hp Hr).
Qed.
Print Assumptions C77_single_threaded_builder.

(** So do tasks of which one inserts (batches of any size) and the others search,
    also if the builder has a pool of its own. *)
Theorem C77_one_inserting_task :
  forall S E I (V : benv S E) (cpush : S -> I -> outcome S) cfg max pooled W0 P progs n ms y j,
    session V cpush cfg max W0 P progs -> sizes_reach cfg max W0 -> live_locks P -> e_mode V = Release -> 0 < n ->
    (forall i cs c, nth_error progs i = Some cs -> In c cs ->
       match c with RSearch _ _ _ => True | RInsert _ => i = j | RSave => False end) ->
    wrun V cpush cfg max pooled P ms (wstart W0 n progs) = Ok y ->
    (~ all_returned y -> exists m, possible pooled P y m) /\
    exists more y', wrun V cpush cfg max pooled P (ms ++ more) (wstart W0 n progs) = Ok y' /\ all_returned y'.
Proof.
  intros S E I V cpush cfg max pooled W0 P progs n ms y j Hs [(L & HL) H0] Hlv Hm Hn H1 Hr.
  assert (Hp : forall ms y, wrun V cpush cfg max pooled P ms (wstart W0 n progs) = Ok y -> ~ all_returned y -> exists m, possible pooled P y m).
  { intros ms1 y1. exact (one_progress Hlv Hn (j0 := j) H1 (ms := ms1) (y := y1)). }
  split; [eauto|]. exact (returns Hs HL H0 Hm Hp Hr).
Qed.
Print Assumptions C77_one_inserting_task.

(** When every task has returned, every call of every task has been made. *)
Theorem C77_returned_means_done :
  forall S E I (V : benv S E) (cpush : S -> I -> outcome S) cfg max pooled W0 P progs n ms y,
    wrun V cpush cfg max pooled P ms (wstart W0 n progs) = Ok y -> all_returned y -> Forall finished (snd (k_sys y)).
Proof.
  intros S E I V cpush cfg max pooled W0 P progs n ms y Hr [Hj Hs]. pose proof (run_stacks Hr) as HI.
  apply Forall_forall. intros t Ht. apply In_nth_error in Ht as (i & Hi). destruct (si_rest HI Hi) as [H|[H|H]]; auto.
  - exfalso. apply in_concat in H as (s & H1 & H2). rewrite (Hs _ H1) in H2. destruct H2.
  - rewrite Hj in H. destruct H.
Qed.
Print Assumptions C77_returned_means_done.

(** The two tasks of the trap, with a single-threaded builder: they return, and
    the elements get the identifiers 0 and 1. *)
Example C77_single_threaded_example :
  exists W y, ex_rw = Ok W /\
    wrun (ex_env Release) ex_push ex_cfg 8 false (rw_locks true)
      (into_the_trap ++ concat (repeat [WMove 0 0; WMove 1 0; WReturn 0; WTake 0 1] 40)) (wstart W 1 two_inserts) = Ok y /\
    all_returned y /\ inserts (k_sys y) = [([7]%Z, [0]); ([3]%Z, [1])].
Proof.
  destruct ex_rw as [W|] eqn:EW; [|vm_compute in EW; discriminate]. vm_compute in EW. injection EW as <-.
  eexists _, _. split; [reflexivity|]. split; [vm_compute; reflexivity|]. split; [split; [reflexivity|]|reflexivity].
  intros s [<-|[]]. reflexivity.
Qed.

(** One task inserts a batch that does not fit in the layer, two search, on one
    worker: a search runs on top of the insertion. *)
Example C77_one_inserting_example :
  exists W y, ex_rw = Ok W /\
    wrun (ex_env Release) ex_push ex_cfg 8 true (rw_locks true)
      ([WTake 0 0] ++ map (WMove 0) (repeat 0 13) ++ [WTake 0 1] ++ map (WMove 1) (repeat 0 4) ++ [WReturn 0] ++
       concat (repeat [WMove 0 0; WMove 0 1; WReturn 0] 40) ++ [WTake 0 2] ++ map (WMove 2) (repeat 0 20) ++ [WReturn 0])
      (wstart W 1 [[RInsert [7; 3; 5]]; [RSearch 6 3 2]; [RSearch 6 3 2]]%Z) = Ok y /\
    all_returned y /\ inserts (k_sys y) = [([7; 3; 5]%Z, [0; 1; 2])] /\
    flat_map (fun t => flat_map (fun r => match r with Found q _ _ out => [(q, out)] | _ => [] end) (t_log t)) (snd (k_sys y)) =
      [(6%Z, []); (6%Z, [(0, 10%Z); (2, 10%Z)])].
Proof.
  destruct ex_rw as [W|] eqn:EW; [|vm_compute in EW; discriminate]. vm_compute in EW. injection EW as <-.
  eexists _, _. split; [reflexivity|]. split; [vm_compute; reflexivity|]. split; [split; [reflexivity|]|split; reflexivity].
  intros s [<-|[]]. reflexivity.
Qed.
