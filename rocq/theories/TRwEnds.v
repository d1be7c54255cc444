(** * Theorems C82 (continued), C83: saves to files come to an end; the number of layers of a shared builder *)
From Verif Require Import Base BaseFacts Bytes MSliceVec MIndexIo SIndexIo MSearch MBuild SBuild MLocks MRw SRw PRwLock PRwTop PRwCount MRwFiles SRwFiles PRwFiles2 PRwFiles3 TBuild TRw TRwFiles.

(** ** C82 *)
(** No schedule of threads that insert, search and save to files makes a release
    build panic, whatever the files are called and whatever the buffers do,
    provided the saved index fits the format: layers of the builder and of its
    start at most 34 with those C83 allows for, at most 254 neighbours per
    node. *)
Theorem C82_no_panic :
  forall S E I (V : benv S E) (cpush : S -> I -> outcome S) cfg max ewrite B W0 P
    (progs : list (list (rcall E I) * list (option target))) d0 L sched,
    session V cpush cfg max W0 P (map fst progs) ->
    k_ideal cfg max L = max -> k_ideal cfg max (length (w_prev W0)) <= length (w_cur W0) -> e_mode V = Release ->
    Nat.max L (length (w_prev W0)) + (length progs - 1) < 34 -> k_nn cfg <= 254 -> Forall (fun l => fwidth l <= 254) (w_prev W0) ->
    exists X, frun V cpush cfg max ewrite B P [] sched (fstart d0 W0 progs) = Ok X.
Proof. intros S E I V cpush cfg max ewrite B W0 P progs d0 L sched Hs HL H0 Hm Hc Hn Hw. eapply frun_ok; eauto. Qed.
Print Assumptions C82_no_panic.

(** And with locks that do not make readers wait behind waiting writers, every run
    can be continued until every call has returned and no thread is in a save. *)
Theorem C82_every_call_returns :
  forall S E I (V : benv S E) (cpush : S -> I -> outcome S) cfg max ewrite B W0 P
    (progs : list (list (rcall E I) * list (option target))) d0 L sched X,
    session V cpush cfg max W0 P (map fst progs) ->
    k_ideal cfg max L = max -> k_ideal cfg max (length (w_prev W0)) <= length (w_cur W0) -> e_mode V = Release ->
    Nat.max L (length (w_prev W0)) + (length progs - 1) < 34 -> k_nn cfg <= 254 -> Forall (fun l => fwidth l <= 254) (w_prev W0) ->
    live_locks P -> reader_preferring P ->
    frun V cpush cfg max ewrite B P [] sched (fstart d0 W0 progs) = Ok X ->
    exists more X', frun V cpush cfg max ewrite B P [] (sched ++ more) (fstart d0 W0 progs) = Ok X' /\
      Forall finished (snd (fs_base X')) /\ forall i ip ep, ~ saving X' i ip ep.
Proof. intros S E I V cpush cfg max ewrite B W0 P progs d0 L sched X Hs HL H0 Hm Hc Hn Hw Hlv HR HX. eapply all_end; eauto. Qed.
Print Assumptions C82_every_call_returns.

(** Two threads that save to the same files, one of them after an insertion: from
    wherever they are, they can finish. *)
Example C82_every_call_returns_nonvacuous :
  exists W, ex_rw = Ok W /\ session (ex_env Release) ex_push ex_cfg 8 W (rw_locks false) (map fst exf_progs) /\
  forall sched, exists more X', frun (ex_env Release) ex_push ex_cfg 8 exf_write exf_buf (rw_locks false) [] (sched ++ more) (fstart exf_old W exf_progs) = Ok X' /\
    Forall finished (snd (fs_base X')) /\ forall i ip ep, ~ saving X' i ip ep.
Proof.
  destruct ex_rw as [W|] eqn:EW; [|vm_compute in EW; discriminate]. exists W. split; [reflexivity|].
  assert (Hs : session (ex_env Release) ex_push ex_cfg 8 W (rw_locks false) (map fst exf_progs)) by (apply exf_session; exact EW).
  split; [exact Hs|]. intros sched.
  assert (H0 : k_ideal ex_cfg 8 (length (w_prev W)) <= length (w_cur W) /\ w_prev W = []).
  { vm_compute in EW. injection EW as <-. split; [cbn; lia|reflexivity]. }
  destruct H0 as [H0 Hp].
  assert (HL : k_ideal ex_cfg 8 2 = 8) by reflexivity.
  assert (Hc : Nat.max 2 (length (w_prev W)) + (length exf_progs - 1) < 34) by (rewrite Hp; cbn; lia).
  assert (Hn : k_nn ex_cfg <= 254) by (cbn; lia).
  assert (Hw : Forall (fun l : fw N => fwidth l <= 254) (w_prev W)) by (rewrite Hp; constructor).
  destruct (C82_no_panic _ _ _ (ex_env Release) ex_push ex_cfg 8 exf_write exf_buf W (rw_locks false) exf_progs exf_old 2 sched Hs HL H0 eq_refl Hc Hn Hw) as (X & HX).
  exact (C82_every_call_returns _ _ _ (ex_env Release) ex_push ex_cfg 8 exf_write exf_buf W (rw_locks false) exf_progs exf_old 2 sched X Hs HL H0 eq_refl Hc Hn Hw (rw_locks_live false) rw_locks_readers HX).
Qed.

(** ** C83 Number of layers *)
(** Let [L] be the first layer whose size is to be [max_elements] (or any later one).
    In every run the finished layers are at most [L] (or those there were at
    the start, if more) and one for each further thread. *)
Theorem C83_number_of_layers :
  forall S E I (V : benv S E) (cpush : S -> I -> outcome S) cfg max W0 P progs L sched y,
    session V cpush cfg max W0 P progs ->
    k_ideal cfg max L = max -> k_ideal cfg max (length (w_prev W0)) <= length (w_cur W0) ->
    rrun V cpush cfg max P [] sched (rstart W0 progs) = Ok y ->
    length (w_prev (fst y)) <= Nat.max L (length (w_prev W0)) + (length progs - 1).
Proof. intros. eapply layers_bound; eauto. Qed.
Print Assumptions C83_number_of_layers.

(** So a single thread makes no layer too many. *)
Theorem C83_one_thread :
  forall S E I (V : benv S E) (cpush : S -> I -> outcome S) cfg max W0 P calls L sched y,
    session V cpush cfg max W0 P [calls] ->
    k_ideal cfg max L = max -> k_ideal cfg max (length (w_prev W0)) <= length (w_cur W0) ->
    rrun V cpush cfg max P [] sched (rstart W0 [calls]) = Ok y ->
    length (w_prev (fst y)) <= Nat.max L (length (w_prev W0)).
Proof.
  intros S E I V cpush cfg max W0 P calls L sched y Hs HL H0 Hr.
  pose proof (C83_number_of_layers _ _ _ _ _ _ _ _ _ _ L _ _ Hs HL H0 Hr) as H. cbn [length] in H. lia.
Qed.
Print Assumptions C83_one_thread.

(** A finished layer is as wide as the configuration says, unless it was there at
    the start. *)
Theorem C83_width_of_layers :
  forall S E I (V : benv S E) (cpush : S -> I -> outcome S) cfg max W0 P progs sched y l,
    session V cpush cfg max W0 P progs ->
    rrun V cpush cfg max P [] sched (rstart W0 progs) = Ok y ->
    In l (w_prev (fst y)) -> In l (w_prev W0) \/ fwidth l = k_nn cfg.
Proof. intros S E I V cpush cfg max W0 P progs sched y l Hs Hr Hl. exact (widths_run Hs Hr Hl). Qed.
Print Assumptions C83_width_of_layers.

(** ** What does not hold *)
(** The builder for 2 elements, whose one layer has room for both. *)
Definition ex_rw2 : outcome (rw (list Z)) := rw_new (ex_env Release) 2 9 (mkBuilder [] [] ex_cfg) round_robin.
Lemma ex_session2 b W progs : ex_rw2 = Ok W -> (forall cs q ms nn, In cs progs -> In (RSearch q ms nn) cs -> 0 < ms) ->
  session (ex_env Release) ex_push ex_cfg 2 W (rw_locks b) progs.
Proof.
  intros EW Hms. vm_compute in EW. injection EW as <-. cbn [w_elems].
  constructor.
  - apply isort_ok.
  - apply C35_vec_push.
  - constructor; [constructor|].
    + cbn. discriminate.
    + intros h s _ Hl. apply ex_usable. cbn in Hl. lia.
    + intros h s x _ _. eexists. reflexivity.
  - constructor; cbn; try lia.
    + exists [], 2. split; [reflexivity|]. split; [reflexivity|]. intros [|i] r Hr; discriminate.
    + split; constructor.
  - constructor; cbn [w_cur length w_prev ex_cfg k_ideal]; try lia.
    + intros [|[|i]] [|[|j]] Hij; lia.
  - apply rw_locks_safe.
  - apply Forall_forall. intros cs Hcs. apply Forall_forall. intros c Hc. destruct c as [xs|q ms nn|]; cbn [call_ok]; auto. split; [eauto|].
    intros h s i _ _ Hi. cbn [ex_env e_ops vec_ops c_dte c_len] in *. unfold index. destruct (nth_error s i) eqn:En; [cbn; eauto|]. apply nth_error_None in En. lia.
Qed.

(** No layer is needed after the first, and yet two are added, one by each thread that
    had found room before the third filled it: the bound is reached. *)
Definition ex_race : list (nat * nat) :=
  map (pair 1) (repeat 0 3) ++ map (pair 2) (repeat 0 3) ++
  map (pair 0) (concat (repeat [0; 1] 40)) ++ map (pair 1) (repeat 0 20) ++ map (pair 2) (repeat 0 20).
Theorem C83_extra_layers_refuted :
  exists W y, ex_rw2 = Ok W /\
    session (ex_env Release) ex_push ex_cfg 2 W (rw_locks false) [[RInsert [7; 3]]; [RInsert [5]]; [RInsert [12]]]%Z /\
    k_ideal ex_cfg 2 0 = 2 /\ length (w_prev W) = 0 /\ length (w_cur W) = 2 /\
    rrun (ex_env Release) ex_push ex_cfg 2 (rw_locks false) [] ex_race (rstart W [[RInsert [7; 3]]; [RInsert [5]]; [RInsert [12]]]%Z) = Ok y /\
    Forall finished (snd y) /\ w_elems (fst y) = [7; 3]%Z /\ map (@fw_len N) (w_prev (fst y)) = [2; 2] /\ length (w_cur (fst y)) = 2.
Proof.
  destruct ex_rw2 as [W|] eqn:EW; [|vm_compute in EW; discriminate]. exists W.
  pose proof (ex_session2 false W [[RInsert [7; 3]]; [RInsert [5]]; [RInsert [12]]]%Z EW) as Hs.
  assert (Hq : (let* y := rrun (ex_env Release) ex_push ex_cfg 2 (rw_locks false) [] ex_race (rstart W [[RInsert [7; 3]]; [RInsert [5]]; [RInsert [12]]]%Z) in
     Ok (map (fun t => match t_pc t, t_todo t with Idle, [] => true | _, _ => false end) (snd y), w_elems (fst y), map (@fw_len N) (w_prev (fst y)), length (w_cur (fst y)))) =
     Ok ([true; true; true], [7; 3]%Z, [2; 2], 2)).
  { vm_compute in EW. injection EW as <-. vm_compute. reflexivity. }
  destruct (rrun _ _ _ _ _ _ _ _) as [y|] eqn:Ey; [|discriminate]. cbn [obind] in Hq.
  assert (Hinj : forall A (x y : A), Ok x = Ok y -> x = y) by (intros A x z Hxz; injection Hxz; auto). apply Hinj in Hq. clear Hinj.
  apply pair_equal_spec in Hq as [Hq H4]. apply pair_equal_spec in Hq as [Hq H3]. apply pair_equal_spec in Hq as [H1 H2].
  exists y. split; [reflexivity|]. split.
  { apply Hs. intros cs q ms nn Hcs Hc. cbn in Hcs. destruct Hcs as [<-|[<-|[<-|[]]]]; cbn in Hc; repeat (destruct Hc as [Hc|Hc]; [discriminate Hc|]); destruct Hc. }
  split; [reflexivity|]. vm_compute in EW. injection EW as EW. split; [rewrite <- EW; reflexivity|]. split; [rewrite <- EW; reflexivity|].
  split; [reflexivity|]. split; [|auto]. apply Forall_forall. intros t Ht. apply In_nth_error in Ht as (i & Hi).
  assert (Hb : nth_error [true; true; true] i = Some match t_pc t, t_todo t with Idle, [] => true | _, _ => false end) by (rewrite <- H1, nth_error_map, Hi; reflexivity).
  destruct i as [|[|[|i]]]; cbn in Hb; try (destruct i; discriminate); split; destruct (t_pc t), (t_todo t); congruence.
Qed.
Print Assumptions C83_extra_layers_refuted.
