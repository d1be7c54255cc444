(** * Theorems C82: saving a shared builder to files *)
From Coq Require Import Permutation.
From Verif Require Import Base BaseFacts Bytes MSliceVec MIndexIo SIndexIo PIndexIo MSearch MBuild SBuild MLocks MRw SRw PRwLock PRwTop MRwFiles SRwFiles PRwFiles PRwFiles2 TBuild TRw.

(** When a call of [save_index_and_elements_to_disk] returns and no other thread
    is in such a call for one of its files at that moment, the elements file is
    exactly what [write] of the saved elements produces, and the index file
    loads as the saved layers; whatever the threads did before, in whatever order,
    and whatever the files were.  [s], [ls]: what the call saved, the builder
    at a moment between its call and its return (C45). *)
Theorem C82_completed_save :
  forall S E I (V : benv S E) (cpush : S -> I -> outcome S) cfg max ewrite B W0 P
    (progs : list (list (rcall E I) * list (option target))) d0 sched X m X' i ip ep s ls,
    session V cpush cfg max W0 P (map fst progs) -> keeps_bytes B -> grows cpush ewrite ->
    names_apart (concat (map snd progs)) ->
    frun V cpush cfg max ewrite B P [] sched (fstart d0 W0 progs) = Ok X ->
    fstep V cpush cfg max ewrite B P sched X m = Ok X' ->
    save_returns X X' i ip ep s ls ->
    (forall j, j <> i -> ~ saving_to X j ip /\ ~ saving_to X j ep) ->
    Forall (fun l => fwidth l <= 254) ls ->
    fs_disk X' ep = Some (ewrite s) /\
    exists bytes L, fs_disk X' ip = Some bytes /\ load_layers bytes = Ok L /\ same_index (e_mode V) (FixWidth ls) L.
Proof.
  intros S E I V cpush cfg max ewrite B W0 P progs d0 sched X m X' i ip ep s ls Hses HB HG HT HX HX' Hret Halone Hw.
  pose proof Hses as [_ _ Hwork _ _ HP _].
  assert (HI : finv V cfg ewrite B (concat (map snd progs)) X).
  { eapply finv_run; eauto. apply finv_start. reflexivity. }
  destruct (save_done HB HI HX' Hret Halone) as (He & c0 & c1 & Hc0 & Hwi & Hip). split; [exact He|].
  assert (Hfr : frun V cpush cfg max ewrite B P [] (sched ++ [m]) (fstart d0 W0 progs) = Ok X').
  { rewrite frun_snoc, HX. exact HX'. }
  destruct (base_run HP Hfr) as (D & sched' & _ & Hr).
  destruct Hret as (_ & t & t' & _ & Ht' & Hlog).
  assert (Hses' : session V cpush cfg max W0 (replay D) (map fst progs)).
  { destruct Hses. constructor; auto. apply replay_safe. }
  destruct (C45_saved_snapshot S E I V cpush cfg max W0 (replay D) (map fst progs) sched' (fs_base X') t' s ls Hses' Hr) as ((h1 & h2 & y1 & _ & Hr1 & Es & _) & _ & _ & Hwf).
  { eapply nth_error_In; eauto. }
  { rewrite Hlog. apply in_or_app. right. left. reflexivity. }
  pose proof (C42_at_most_max S E I V cpush cfg max W0 (replay D) (map fst progs) h1 y1 Hses' Hr1) as Hmax. rewrite <- Es in Hmax.
  pose proof (ew_ids Hwork) as Hids.
  destruct (@layers_wf_index (e_mode V) _ _ _ Hwf ltac:(lia) Hw) as (G & HG').
  destruct (save_load _ HG' Hwi) as (L & EL & HL). rewrite Hc0 in EL. cbn [skipn] in EL.
  exists (cbuf c1), L. split; [exact Hip|]. split; [exact EL|]. exists G. split; apply index_is_shows; assumption.
Qed.
Print Assumptions C82_completed_save.

(** In particular every save of a thread is complete when it returns if no other
    thread is ever told to save to one of its files. *)
Theorem C82_own_files :
  forall S E I (V : benv S E) (cpush : S -> I -> outcome S) cfg max ewrite B W0 P
    (progs : list (list (rcall E I) * list (option target))) d0 sched X m X' i ip ep s ls,
    session V cpush cfg max W0 P (map fst progs) -> keeps_bytes B -> grows cpush ewrite ->
    names_apart (concat (map snd progs)) ->
    frun V cpush cfg max ewrite B P [] sched (fstart d0 W0 progs) = Ok X ->
    fstep V cpush cfg max ewrite B P sched X m = Ok X' ->
    save_returns X X' i ip ep s ls ->
    (forall j p ip' ep', j <> i -> nth_error progs j = Some p -> In (Some (ip', ep')) (snd p) -> ip' <> ip /\ ep' <> ep) ->
    Forall (fun l => fwidth l <= 254) ls ->
    fs_disk X' ep = Some (ewrite s) /\
    exists bytes L, fs_disk X' ip = Some bytes /\ load_layers bytes = Ok L /\ same_index (e_mode V) (FixWidth ls) L.
Proof.
  intros S E I V cpush cfg max ewrite B W0 P progs d0 sched X m X' i ip ep s ls Hses HB HG HT HX HX' Hret Hown Hw.
  eapply C82_completed_save; eauto.
  assert (HO : own_names progs X) by (eapply own_run; [apply own_start|eauto]).
  pose proof Hret as ((ci & Hci & Hgi) & _). destruct (HO _ _ Hci) as (pi & Hpi & _ & Hini). specialize (Hini _ Hgi).
  assert (Hall : forall j p ip' ep', nth_error progs j = Some p -> In (Some (ip', ep')) (snd p) -> In (Some (ip', ep')) (concat (map snd progs))).
  { intros j p ip' ep' Hp Hin. apply in_concat. exists (snd p). split; [|exact Hin]. apply in_map. eapply nth_error_In; eauto. }
  intros j Hj. split; intros (ip' & ep' & (c & Hc & Hg) & Hf); destruct (HO _ _ Hc) as (p & Hp & _ & Hin); specialize (Hin _ Hg);
    destruct (Hown j p ip' ep' Hj Hp Hin) as [N1 N2].
  - destruct Hf as [Hf|Hf]; [congruence|]. eapply (HT ip ep ip' ep'); eauto.
  - destruct Hf as [Hf|Hf]; [|congruence]. eapply (HT ip' ep' ip ep); eauto.
Qed.
Print Assumptions C82_own_files.

(** Saving to files changes nothing for the threads: what they do, with the files'
    moves left out, is a run of the builder under locks that work; so everything
    said about its runs (C42-C46) holds. *)
Theorem C82_same_builder :
  forall S E I (V : benv S E) (cpush : S -> I -> outcome S) cfg max ewrite B W0 P
    (progs : list (list (rcall E I) * list (option target))) d0 sched X,
    safe_locks P -> frun V cpush cfg max ewrite B P [] sched (fstart d0 W0 progs) = Ok X ->
    exists P' sched', safe_locks P' /\ rrun V cpush cfg max P' [] sched' (rstart W0 (map fst progs)) = Ok (fs_base X).
Proof.
  intros S E I V cpush cfg max ewrite B W0 P progs d0 sched X HP HX.
  destruct (base_run HP HX) as (D & sched' & _ & Hr). exists (replay D), sched'. split; [apply replay_safe|exact Hr].
Qed.
Print Assumptions C82_same_builder.

(** A file stays as it is as long as no thread is in a save to it. *)
Theorem C82_files_left_alone :
  forall S E I (V : benv S E) (cpush : S -> I -> outcome S) cfg max ewrite B (P : rpolicy S E I) h sched X X' f,
    frun V cpush cfg max ewrite B P h sched X = Ok X' ->
    (forall s1 s2 X1 j, sched = s1 ++ s2 -> frun V cpush cfg max ewrite B P h s1 X = Ok X1 -> ~ saving_to X1 j f) ->
    fs_disk X' f = fs_disk X f.
Proof. intros. eapply frun_frame; eauto. Qed.
Print Assumptions C82_files_left_alone.

(** ** Concrete cases *)
Definition exf_write (s : list Z) : list N := map Z.to_N s.
(** writes of one byte; the last byte of the elements when the file is closed *)
Definition exf_buf : buffering :=
  mkBuffering (fun bs => (map (fun b => [b]) (removelast bs), match bs with [] => [] | _ => [[last bs 0%N]] end)) (fun ops => ops).
Definition exf_ip : fname := [105]%N.
Definition exf_ep : fname := [101]%N.
Lemma exf_keeps : keeps_bytes exf_buf.
Proof.
  constructor; [|reflexivity]. intros bs. cbn [exf_buf bf_elems fst snd].
  assert (Hc : forall l : list N, concat (map (fun b => [b]) l) = l) by (induction l as [|b l IH]; cbn; congruence).
  destruct bs as [|b bs]; [reflexivity|]. rewrite concat_app, Hc. cbn [concat app]. symmetry. apply app_removelast_last. discriminate.
Qed.
Lemma exf_grows : grows ex_push exf_write.
Proof. intros s x s' H. injection H as <-. unfold exf_write. rewrite !map_length, app_length. lia. Qed.

Definition exf_progs : list (list (rcall Z Z) * list (option target)) :=
  [([RInsert [7; 3]; RSave]%Z, [Some (exf_ip, exf_ep)]); ([RSave], [Some (exf_ip, exf_ep)])].
Definition exf_alone : list (nat * nat) := map (pair 0) (firstn 54 (concat (repeat [0; 1] 30))).
Lemma exf_session b W : ex_rw = Ok W -> session (ex_env Release) ex_push ex_cfg 8 W (rw_locks b) (map fst exf_progs).
Proof.
  intros EW. apply ex_session; auto. intros cs q ms nn Hcs Hc. cbn in Hcs. destruct Hcs as [<-|[<-|[]]]; cbn in Hc;
    repeat (destruct Hc as [Hc|Hc]; [discriminate Hc|]); destruct Hc.
Qed.
Lemma exf_apart : names_apart (concat (map snd exf_progs)).
Proof.
  intros ip ep ip' ep' H1 H2.
  assert (H : forall a b, In (Some (a, b)) (concat (map snd exf_progs)) -> a = exf_ip /\ b = exf_ep).
  { intros a b [H|[H|[]]]; split; congruence. }
  destruct (H _ _ H1) as [-> _]. destruct (H _ _ H2) as [_ ->]. discriminate.
Qed.


(** what can be seen around the last move of a run *)
Definition exf_seen (progs : list (list (rcall Z Z) * list (option target))) (b : bool) (d : fdisk) (sched : list (nat * nat)) (m : nat * nat) W :=
  let* X := frun (ex_env Release) ex_push ex_cfg 8 exf_write exf_buf (rw_locks b) [] sched (fstart d W progs) in
  let* X' := fstep (ex_env Release) ex_push ex_cfg 8 exf_write exf_buf (rw_locks b) sched X m in
  Ok (map f_tgt (fs_ctl X), map (fun t => t_log t) (snd (fs_base X)), map (fun t => t_log t) (snd (fs_base X')),
      (fs_disk X' exf_ep, option_map (@length N) (fs_disk X' exf_ip))).

Lemma exf_seen_inv progs b d sched m W tg lg lg' fl : exf_seen progs b d sched m W = Ok (tg, lg, lg', fl) ->
  exists X X', frun (ex_env Release) ex_push ex_cfg 8 exf_write exf_buf (rw_locks b) [] sched (fstart d W progs) = Ok X /\
    fstep (ex_env Release) ex_push ex_cfg 8 exf_write exf_buf (rw_locks b) sched X m = Ok X' /\
    (forall j ip ep, saving X j ip ep <-> nth_error tg j = Some (Some (ip, ep))) /\
    (forall i ip ep s ls l, nth_error tg i = Some (Some (ip, ep)) -> nth_error lg i = Some l -> nth_error lg' i = Some (l ++ [Saved s ls]) ->
       save_returns X X' i ip ep s ls) /\
    fs_disk X' exf_ep = fst fl /\ option_map (@length N) (fs_disk X' exf_ip) = snd fl.
Proof.
  unfold exf_seen. intros H.
  destruct (frun _ _ _ _ _ _ _ _ _ _) as [X|] eqn:EX; [|discriminate]. cbn [obind] in H.
  destruct (fstep _ _ _ _ _ _ _ _ _ _) as [X'|] eqn:EX'; [|discriminate]. cbn [obind] in H. exists X, X'.
  assert (Hinj : forall A (x y : A), Ok x = Ok y -> x = y) by (intros A x y Hxy; injection Hxy; auto). apply Hinj in H. clear Hinj.
  apply pair_equal_spec in H as [H H4]. apply pair_equal_spec in H as [H H3]. apply pair_equal_spec in H as [H1 H2]. subst tg lg lg' fl.
  split; [reflexivity|]. split; [exact EX'|].
  assert (Hsv : forall j ip ep, saving X j ip ep <-> nth_error (map f_tgt (fs_ctl X)) j = Some (Some (ip, ep))).
  { intros j ip ep. rewrite nth_error_map. split.
    - intros (c & Hc & Hg). rewrite Hc. cbn. now rewrite Hg.
    - intros Hc. destruct (nth_error (fs_ctl X) j) as [c|] eqn:Ec; [|discriminate]. cbn in Hc. exists c. split; [exact Ec|]. injection Hc as Hc. exact Hc. }
  split; [exact Hsv|]. split; [|split; reflexivity].
  intros i ip ep s ls l H1 H2 H3. split; [apply Hsv; exact H1|]. rewrite nth_error_map in H2, H3.
  destruct (nth_error (snd (fs_base X)) i) as [t|] eqn:Et; [|discriminate]. destruct (nth_error (snd (fs_base X')) i) as [t'|] eqn:Et'; [|discriminate].
  cbn in H2, H3. exists t, t'. split; [reflexivity|]. split; [reflexivity|]. congruence.
Qed.

Definition exf_old : fdisk := fun _ => Some [9; 9; 9; 9]%N.
Definition exf_log : list (result (list Z) Z Z) := [Inserted [7; 3]%Z [0; 1]].
Definition exf_layers : list (fw N) := [mkFw [1; UNUSED; 0; UNUSED]%N 2].

(** One thread inserts two elements and saves; nobody else saves meanwhile. *)
Example C82_nonvacuous :
  exists W X X', ex_rw = Ok W /\ session (ex_env Release) ex_push ex_cfg 8 W (rw_locks true) (map fst exf_progs) /\
    keeps_bytes exf_buf /\ grows ex_push exf_write /\ names_apart (concat (map snd exf_progs)) /\
    frun (ex_env Release) ex_push ex_cfg 8 exf_write exf_buf (rw_locks true) [] exf_alone (fstart exf_old W exf_progs) = Ok X /\
    fstep (ex_env Release) ex_push ex_cfg 8 exf_write exf_buf (rw_locks true) exf_alone X (0, 0) = Ok X' /\
    save_returns X X' 0 exf_ip exf_ep [7; 3]%Z exf_layers /\ Forall (fun l => fwidth l <= 254) exf_layers /\
    (forall j, j <> 0 -> ~ saving_to X j exf_ip /\ ~ saving_to X j exf_ep) /\
    fs_disk X' exf_ep = Some [7; 3]%N.
Proof.
  destruct ex_rw as [W|] eqn:EW; [|vm_compute in EW; discriminate].
  assert (Hs : exf_seen exf_progs true exf_old exf_alone (0, 0) W =
    Ok ([Some (exf_ip, exf_ep); None], [exf_log; []], [exf_log ++ [Saved [7; 3]%Z exf_layers]; []], (Some [7; 3]%N, Some 1170))).
  { vm_compute in EW. injection EW as <-. vm_compute. reflexivity. }
  destruct (exf_seen_inv _ _ _ _ _ _ _ _ _ _ Hs) as (X & X' & H1 & H2 & H3 & H4 & H5 & _). exists W, X, X'.
  split; [reflexivity|]. split; [apply exf_session; exact EW|]. split; [apply exf_keeps|]. split; [apply exf_grows|]. split; [apply exf_apart|].
  split; [exact H1|]. split; [exact H2|]. split; [apply (H4 0 exf_ip exf_ep _ _ exf_log); reflexivity|].
  split; [repeat constructor; cbn; lia|]. split; [|exact H5].
  intros [|[|j]] Hj; [congruence| |]; (split; intros (a & b & Ha & _); apply H3 in Ha; cbn in Ha; try discriminate; destruct j; discriminate).
Qed.

(** ** What does not hold *)

(** The promise "when the call has returned, the files hold what it saved" fails if
    another thread calls it for the same files: its call has emptied them,
    before waiting for its turn. *)
Definition exf_overlap : list (nat * nat) := exf_alone ++ [(1, 0); (1, 0); (1, 0)].
Theorem C82_files_emptied_by_a_waiting_save_refuted :
  exists W X X', ex_rw = Ok W /\ session (ex_env Release) ex_push ex_cfg 8 W (rw_locks true) (map fst exf_progs) /\
    live_locks (rw_locks true : rpolicy (list Z) Z Z) /\
    keeps_bytes exf_buf /\ grows ex_push exf_write /\ names_apart (concat (map snd exf_progs)) /\
    frun (ex_env Release) ex_push ex_cfg 8 exf_write exf_buf (rw_locks true) [] exf_overlap (fstart exf_old W exf_progs) = Ok X /\
    fstep (ex_env Release) ex_push ex_cfg 8 exf_write exf_buf (rw_locks true) exf_overlap X (0, 0) = Ok X' /\
    save_returns X X' 0 exf_ip exf_ep [7; 3]%Z exf_layers /\
    fs_disk X' exf_ep = Some [] /\ fs_disk X' exf_ip = Some [].
Proof.
  destruct ex_rw as [W|] eqn:EW; [|vm_compute in EW; discriminate].
  assert (Hs : exf_seen exf_progs true exf_old exf_overlap (0, 0) W =
    Ok ([Some (exf_ip, exf_ep); Some (exf_ip, exf_ep)], [exf_log; []], [exf_log ++ [Saved [7; 3]%Z exf_layers]; []], (Some [], Some 0))).
  { vm_compute in EW. injection EW as <-. vm_compute. reflexivity. }
  destruct (exf_seen_inv _ _ _ _ _ _ _ _ _ _ Hs) as (X & X' & H1 & H2 & H3 & H4 & H5 & H6). exists W, X, X'.
  split; [reflexivity|]. split; [apply exf_session; exact EW|]. split; [apply rw_locks_live|]. split; [apply exf_keeps|]. split; [apply exf_grows|]. split; [apply exf_apart|].
  split; [exact H1|]. split; [exact H2|]. split; [apply (H4 0 exf_ip exf_ep _ _ exf_log); reflexivity|]. split; [exact H5|].
  cbn [snd] in H6. destruct (fs_disk X' exf_ip) as [[|x l]|]; [reflexivity|discriminate|discriminate].
Qed.
Print Assumptions C82_files_emptied_by_a_waiting_save_refuted.

(** The same with a second thread that saves to other files. *)
Definition exf_progs2 : list (list (rcall Z Z) * list (option target)) :=
  [([RInsert [7; 3]; RSave]%Z, [Some (exf_ip, exf_ep)]); ([RSave], [Some ([106], [102])%N])].
Example C82_own_files_nonvacuous :
  exists W X X', ex_rw = Ok W /\ session (ex_env Release) ex_push ex_cfg 8 W (rw_locks true) (map fst exf_progs2) /\
    names_apart (concat (map snd exf_progs2)) /\
    frun (ex_env Release) ex_push ex_cfg 8 exf_write exf_buf (rw_locks true) [] exf_overlap (fstart exf_old W exf_progs2) = Ok X /\
    fstep (ex_env Release) ex_push ex_cfg 8 exf_write exf_buf (rw_locks true) exf_overlap X (0, 0) = Ok X' /\
    save_returns X X' 0 exf_ip exf_ep [7; 3]%Z exf_layers /\
    (forall j p ip' ep', j <> 0 -> nth_error exf_progs2 j = Some p -> In (Some (ip', ep')) (snd p) -> ip' <> exf_ip /\ ep' <> exf_ep) /\
    fs_disk X' exf_ep = Some [7; 3]%N.
Proof.
  destruct ex_rw as [W|] eqn:EW; [|vm_compute in EW; discriminate].
  assert (Hs : exf_seen exf_progs2 true exf_old exf_overlap (0, 0) W =
    Ok ([Some (exf_ip, exf_ep); Some ([106], [102])%N], [exf_log; []], [exf_log ++ [Saved [7; 3]%Z exf_layers]; []], (Some [7; 3]%N, Some 1170))).
  { vm_compute in EW. injection EW as <-. vm_compute. reflexivity. }
  destruct (exf_seen_inv _ _ _ _ _ _ _ _ _ _ Hs) as (X & X' & H1 & H2 & H3 & H4 & H5 & _). exists W, X, X'.
  split; [reflexivity|]. split; [exact (exf_session true W EW)|]. split.
  { intros ip ep ip' ep' [K|[K|[]]] [L|[L|[]]]; injection K as <- <-; injection L as <- <-; discriminate. }
  split; [exact H1|]. split; [exact H2|]. split; [apply (H4 0 exf_ip exf_ep _ _ exf_log); reflexivity|]. split; [|exact H5].
  intros [|[|j]] p ip' ep' Hj Hp; [congruence| |destruct j; discriminate]. injection Hp as <-. intros [K|[]]. injection K as <- <-. split; discriminate.
Qed.

(** Nor does the promise "a save replaces what was saved before, or leaves it":
    both files are emptied before the call waits for its turn.  While a large batch
    is being inserted that may take long; and in the deadlock of C44 it takes
    for ever: whatever was in the files, whatever locks make readers wait behind
    a waiting writer, both are empty and remain so. *)
Theorem C82_old_files_lost_refuted :
  exists W, ex_rw = Ok W /\
  forall (P : rpolicy (list Z) Z Z) ewrite B d0 ip ep, safe_locks P -> live_locks P -> writer_preferring P -> ip <> ep ->
  exists sched X, frun (ex_env Release) ex_push ex_cfg 8 ewrite B P [] sched
                    (fstart d0 W [([RInsert [7; 3; 5]%Z], []); ([RSave], [Some (ip, ep)])]) = Ok X /\
    fs_disk X ip = Some [] /\ fs_disk X ep = Some [] /\ deadlock P (fs_base X) /\
    forall h sched', frun (ex_env Release) ex_push ex_cfg 8 ewrite B P h sched' X = Ok X.
Proof.
  destruct ex_rw as [W|] eqn:EW; [|vm_compute in EW; discriminate]. exists W. split; [reflexivity|].
  vm_compute in EW. injection EW as <-. intros P ewrite B d0 ip ep HP HL HW Hie.
  set (W := mkRw _ _ _ _).
  set (y0 := rstart W [[RInsert [7; 3; 5]%Z]; [RSave]] : rsys (list Z) Z Z).
  assert (E1 : exists W1 b l, rrun (ex_env Release) ex_push ex_cfg 8 P [] to_second_guard y0 =
     Ok (W1, [mkThread (IGuard [5%Z] [0; 1] 1) b [] l; mkThread Idle [] [RSave] []])).
  { unfold to_second_guard. rewrite (@solo_run _ _ _ (ex_env Release) ex_push ex_cfg 8 P HL 0 _ [] []).
    2:{ intros j t Ht Hj. destruct j as [|[|[|j]]]; cbn in Ht; try discriminate; [congruence|]. injection Ht as <-. reflexivity. }
    eexists _, _, _. vm_compute. reflexivity. }
  destruct E1 as (W1 & b & l & E1).
  set (y := (W1, [mkThread (IGuard [5%Z] [0; 1] 1) b [] l; mkThread WGuard [] [] []]) : rsys (list Z) Z Z).
  set (d1 := fput (fput d0 ep []) ip []).
  set (X := (d1, y, [mkFctl [] None [] None 0 0; mkFctl [] (Some (ip, ep)) [] None 0 0]) : fsys (list Z) Z Z).
  assert (W0 : waits y 0 LWrite ARead) by (eexists; split; reflexivity).
  assert (W2 : waits y 1 LWrite AWrite) by (eexists; split; reflexivity).
  assert (H0 : has_lock y 0 LWrite ARead) by (eexists; split; [reflexivity|cbn; auto]).
  assert (N0 : forall h, P h y 0 = false) by (intros h; apply (HW h y 0 1 LWrite W0 W2)).
  assert (N1 : forall h, P h y 1 = false).
  { intros h. destruct (P h y 1) eqn:E; [|reflexivity]. destruct (HP h y 1 LWrite AWrite W2 E 0 ARead H0). discriminate. }
  exists (to_second_guard ++ [(1, 0); (1, 0); (1, 0)]), X. split; [|split; [|split; [|split]]].
  - rewrite frun_app. unfold to_second_guard, fstart. cbn [map fst snd].
    set (cs0 := [mkFctl [] None [] None 0 0; mkFctl [Some (ip, ep)] None [] None 0 0]).
    fold y0.
    rewrite (@no_save_run _ _ _ (ex_env Release) ex_push ex_cfg 8 ewrite B P 0 d0 cs0 (mkFctl [] None [] None 0 0) _ eq_refl eq_refl eq_refl [] y0
               (mkThread Idle [] [RInsert [7; 3; 5]%Z] []) eq_refl eq_refl).
    2:{ cbn. intros [H|[]]. discriminate. }
    unfold to_second_guard in E1. rewrite E1. reflexivity.
  - unfold fs_disk. cbn [X fst]. apply fput_same.
  - unfold fs_disk. cbn [X fst]. unfold d1. rewrite fput_other by auto. apply fput_same.
  - unfold fs_base. cbn [X fst snd]. split.
    + exists (mkThread WGuard [] [] []). split; [right; left; reflexivity|]. intros [H _]. discriminate.
    + intros h [|[|i]] (t & Ht & Hf & Hg).
      * specialize (Hg LWrite ARead W0). rewrite N0 in Hg. discriminate.
      * specialize (Hg LWrite AWrite W2). rewrite N1 in Hg. discriminate.
      * destruct i; discriminate.
  - assert (Hst : forall h m, fstep (ex_env Release) ex_push ex_cfg 8 ewrite B P h X m = Ok X).
    { intros h [[|[|i]] k].
      - unfold fstep, X. cbn [fst snd nth_error f_pending]. unfold rsys_step. cbn [fst snd nth_error y]. fold y. unfold thread_step. cbn [t_pc]. rewrite N0. reflexivity.
      - unfold fstep, X. cbn [fst snd nth_error f_pending]. unfold rsys_step. cbn [fst snd nth_error y]. fold y. unfold thread_step. cbn [t_pc]. rewrite N1. reflexivity.
      - unfold fstep, X. cbn [fst snd nth_error]. destruct i; reflexivity. }
    intros h sched'. revert h. induction sched' as [|m sched' IH]; intros h; cbn [frun]; [reflexivity|]. rewrite Hst. cbn [obind]. apply IH.
Qed.
Print Assumptions C82_old_files_lost_refuted.


(** The file names have to be apart (nothing checks them): one name for both files
    and the saved index cannot be loaded. *)
Theorem C82_one_name_for_both_refuted :
  exists W X X' bytes, ex_rw = Ok W /\
    frun (ex_env Release) ex_push ex_cfg 8 exf_write exf_buf (rw_locks true) [] exf_alone
      (fstart exf_old W [([RInsert [7; 3]; RSave]%Z, [Some (exf_ip, exf_ip)])]) = Ok X /\
    fstep (ex_env Release) ex_push ex_cfg 8 exf_write exf_buf (rw_locks true) exf_alone X (0, 0) = Ok X' /\
    map f_tgt (fs_ctl X) = [Some (exf_ip, exf_ip)] /\ map f_tgt (fs_ctl X') = [None] /\
    fs_disk X' exf_ip = Some bytes /\ load_layers bytes = Fail Panicked.
Proof.
  destruct ex_rw as [W|] eqn:EW; [|vm_compute in EW; discriminate].
  set (d := fstart exf_old W [([RInsert [7; 3]; RSave]%Z, [Some (exf_ip, exf_ip)])] : fsys (list Z) Z Z).
  assert (Hs : (let* X := frun (ex_env Release) ex_push ex_cfg 8 exf_write exf_buf (rw_locks true) [] exf_alone d in
                let* X' := fstep (ex_env Release) ex_push ex_cfg 8 exf_write exf_buf (rw_locks true) exf_alone X (0, 0) in
                Ok (map f_tgt (fs_ctl X), map f_tgt (fs_ctl X'),
                    match fs_disk X' exf_ip with
                    | Some b => match load_layers b with Fail Panicked => true | _ => false end
                    | None => false end)) = Ok ([Some (exf_ip, exf_ip)], [None], true)).
  { unfold d. vm_compute in EW. injection EW as <-. vm_compute. reflexivity. }
  destruct (frun _ _ _ _ _ _ _ _ _ d) as [X|] eqn:EX; [|discriminate]. cbn [obind] in Hs.
  destruct (fstep _ _ _ _ _ _ _ _ X _) as [X'|] eqn:EX'; [|discriminate]. cbn [obind] in Hs.
  assert (Hinj : forall A (x y : A), Ok x = Ok y -> x = y) by (intros A x y Hxy; injection Hxy; auto). apply Hinj in Hs. clear Hinj.
  apply pair_equal_spec in Hs as [Hs H3]. apply pair_equal_spec in Hs as [H1 H2].
  destruct (fs_disk X' exf_ip) as [bytes|] eqn:Eb; [|discriminate]. exists W, X, X', bytes.
  split; [reflexivity|]. split; [exact EX|]. split; [exact EX'|]. split; [exact H1|]. split; [exact H2|]. split; [exact Eb|].
  destruct (load_layers bytes) as [L|[]]; try discriminate. reflexivity.
Qed.
Print Assumptions C82_one_name_for_both_refuted.
