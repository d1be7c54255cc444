(** * Proofs: every interleaving of calls of which some panic *)
From Verif Require Import Base BaseFacts MSliceVec SSliceVec PFixed MIndexIo MSearch PHeap PSearch MBuild SBuild PSelect PRow PSLite PBuildInv PBuildRun PBuildLayer PBuildFair PBuilder PHistory PBuildAny MLocks MRw SRw PRwSeq PRwLock PRwIds PRwConc PRwTop MRwPanic SRwPanic.
Set Implicit Arguments.
Unset Strict Implicit.

Section PanicStep.
  Context {S E I : Type} (V : benv S E) (cpush : S -> I -> outcome S).
  Context (cfg : config) (max : nat) (W0 : rw S).
  Local Notation C := (e_ops V).
  Local Notation n_of W := (c_len C (w_elems W)).
  Hypothesis Hmode : e_mode V = Release.
  Hypothesis Hsort : sorts_by_dist (e_sort V).
  Hypothesis Hpush : push_law C cpush.
  Hypothesis Hrefuse : forall s x e, cpush s x = Fail e -> e = Panicked.
  Hypothesis Hwork : elems_use V cpush max (w_elems W0).
  Hypothesis Hsizes : sizes_ok cfg max W0.
  Hypothesis Hnn : 0 < k_nn cfg.
  Hypothesis Hms : 0 < k_ms cfg.
  Variable U : bool.
  Local Notation shared := (shared V cpush cfg max W0 U).
  Local Notation sinv W R := (sys_inv V (w_elems W) U (k_nn cfg) (n_of W) (k_nn cfg) (k_ms cfg) (base_of U R)).
  Local Notation tstep := (thread_step V cpush cfg max).
  Local Notation qok := (query_ok V cpush max (w_elems W0)).

  Definition psearching (W : rw S) (q : E) (ms : nat) (st : sst) : Prop :=
    (0 < ms /\ slite (n_of W) (fE V (w_elems W) q) ms (fun _ => True) st) \/
    (ms = 0 /\ exists d i, st = mkSst (msh_new 0) [(d, i)] [i]).

  (** what is known about a thread, given the shared data *)
  Definition plocal (W : rw S) (R : list (list (list N))) (rows : list (list N)) (k : nat) (p : pc S E I) : Prop :=
    match p with
    | IElems _ _ d | ILayers _ _ d | IRoom _ _ d | ISplit _ _ d => 1 <= d
    | INew _ _ d => 1 <= d /\ layer_full V W = true
    | IPush todo ids _ _ d => 1 <= d /\ length todo <= k /\
        exists b, ids = seq b (length ids) /\ b + length ids = n_of W + length todo
    | IDownL ids _ _ d | IDownE ids _ _ d => 1 <= d /\ exists b, ids = seq b (length ids) /\ b + length ids = n_of W
    | IIndex ts _ _ _ d => 1 <= d /\ sinv W R (rows, ts)
    | SElems q ms nn | SLayers q ms nn | SEntry q ms nn => qok (RSearch q ms nn)
    | SLoop q ms nn st => qok (RSearch q ms nn) /\ psearching W q ms st
    | WRow s k0 rows0 => s = w_elems W /\ k0 <= length (w_cur W) /\ rows0 = firstn k0 (w_cur W)
    | _ => True
    end.

  Definition psaved (W : rw S) (s : S) (ls : list (fw N)) : Prop :=
    s = w_elems W /\ saved_layers V cfg s (w_cur W) (w_prev W) = Ok ls.
  Record pthread_ok (Q : result S E I -> Prop) (W : rw S) (R : list (list (list N))) (rows : list (list N)) (k : nat) (t : thread S E I) : Prop := mkPThreadOk {
    po_pc : plocal W R rows k (t_pc t);
    po_todo : Forall qok (t_todo t);
    po_log : Forall Q (t_log t)
  }.

  Lemma pquery_dist hist W R rows k q ms nn : shared hist W R rows k -> qok (RSearch q ms nn) ->
    forall i, i < n_of W -> c_dte C (w_elems W) i q = Ok (fE V (w_elems W) q i).
  Proof.
    intros H Hq i Hi. destruct (Hq _ _ _ (sh_hist H) (sh_max Hsizes Hnn Hms H) Hi) as (d & Hd). unfold fE. now rewrite Hd.
  Qed.

  Lemma pread_ok hist W R rows k x : shared hist W R rows k -> x < n_of W ->
    exists r, read_ids (w_cur W) x = Ok r /\ Forall (fun y => y < n_of W /\ True) r.
  Proof.
    intros H Hx. pose proof (rows_len H) as HL. destruct (nth_error rows x) as [r|] eqn:Er; [|apply nth_error_None in Er; lia].
    exists (row_ids r). unfold read_ids. rewrite (sh_cur H). unfold with_room.
    rewrite (@index_app1 _ rows (repeat (repeat UNUSED (k_nn cfg)) k) x r).
    2:{ unfold index. now rewrite Er. }
    split; auto.
    destruct (@wf_ids _ _ V (w_elems W) (sh_ids Hwork Hsizes Hnn Hms H) U (k_nn cfg) (n_of W) (le_n _) ltac:(lia) x r) as [_ (_ & _ & HF)].
    { apply (y_row (sh_lay H) Er). }
    eapply Forall_impl; [|exact HF]. cbn. auto.
  Qed.

  (** ** One step of a thread *)
  Definition blame (W : rw S) (p : pc S E I) : Prop :=
    match p with
    | IPush (x :: _) _ _ _ _ => cpush (w_elems W) x = Fail Panicked
    | SLoop _ ms _ _ => ms = 0
    | _ => False
    end.

  Lemma pstep_local (Q : result S E I -> Prop) hist W R rows k t ok j :
    (forall r : result S E I, match r with Inserted _ _ => True | Found q ms nn out => correct_for V W q ms nn out | Saved s ls => psaved W s ls end -> Q r) ->
    shared hist W R rows k -> pthread_ok Q W R rows k t ->
    (exists W' t' hist' R' rows' k', tstep W t ok j = Ok (W', t') /\
      shared hist' W' R' rows' k' /\ pthread_ok Q W' R' rows' k' t' /\
      ((W' = W /\ hist' = hist /\ R' = R /\ rows' = rows /\ k' = k) \/
       (crit (t_pc t) = true /\ In (LWrite, ARead) (guards (t_pc t)) /\
        (w_elems W' = w_elems W \/ In (LElems, AWrite) (guards (t_pc t)))))) \/
    (tstep W t ok j = Fail Panicked /\ blame W (t_pc t)).
  Proof.
    intros HQ H [Hpc Htd Hlg]. destruct t as [p ba td lg]. cbn [t_pc t_batch t_todo t_log] in *.
    assert (Hsame : forall t', tstep W (mkThread p ba td lg) ok j = Ok (W, t') -> pthread_ok Q W R rows k t' ->
      (exists W' t' hist' R' rows' k', tstep W (mkThread p ba td lg) ok j = Ok (W', t') /\
      shared hist' W' R' rows' k' /\ pthread_ok Q W' R' rows' k' t' /\
      ((W' = W /\ hist' = hist /\ R' = R /\ rows' = rows /\ k' = k) \/
       (crit p = true /\ In (LWrite, ARead) (guards p) /\ (w_elems W' = w_elems W \/ In (LElems, AWrite) (guards p))))) \/
      (tstep W (mkThread p ba td lg) ok j = Fail Panicked /\ blame W p)).
    { intros t' Es Ht. left. exists W, t', hist, R, rows, k. split; auto. split; auto. split; auto. left. auto. }
    unfold thread_step in *. cbn [t_pc t_batch t_todo t_log] in *.
    destruct p; cbn [plocal crit blame] in *.
    - (* Idle *)
      destruct td as [|c cs]; [eapply Hsame; [reflexivity|constructor; cbn; auto]|].
      inversion Htd; subst. eapply Hsame; [reflexivity|].
      constructor; cbn [t_pc t_todo t_log]; auto. destruct c; cbn [begin_call plocal]; auto.
    - destruct ok; (eapply Hsame; [reflexivity|constructor; cbn [t_pc t_todo t_log plocal]; auto]).
    - eapply Hsame; [reflexivity|constructor; cbn [t_pc t_todo t_log plocal]; auto].
      destruct (max <=? n_of W); cbn [plocal]; auto.
    - destruct ok; (eapply Hsame; [reflexivity|constructor; cbn [t_pc t_todo t_log plocal]; auto; lia]).
    - destruct ok; (eapply Hsame; [reflexivity|constructor; cbn [t_pc t_todo t_log plocal]; auto]).
    - destruct ok; (eapply Hsame; [reflexivity|constructor; cbn [t_pc t_todo t_log plocal]; auto]).
    - eapply Hsame; [reflexivity|constructor; cbn [t_pc t_todo t_log]; auto].
      destruct (layer_full V W) eqn:Ef; cbn [plocal]; auto.
    - (* INew *)
      left. destruct Hpc as (Hd & Hf). destruct (new_layer_ok (V := V) Hsizes Hnn Hms H Hf) as (W' & k' & E1 & H1 & He & Hl & Hc).
      exists W', (mkThread (ISplit xs acc d) ba td lg), hist, (R ++ [rows]), rows, k'. rewrite E1. cbn [obind].
      split; auto. split; auto. split.
      { constructor; cbn [t_pc t_todo t_log plocal]; auto. }
      right. split; auto. split; [|left; auto].
      destruct d; [lia|]. cbn. auto.
    - (* ISplit *)
      pose proof (split_ok Hnn Hms xs H) as Es. set (num := Nat.min (length xs) k) in *. rewrite Es in Hsame |- *. cbn [obind] in *.
      eapply Hsame; [reflexivity|constructor; cbn [t_pc t_todo t_log plocal]; auto].
      split; auto. rewrite firstn_length, seq_length. split; [unfold num; lia|]. exists (n_of W). split; auto. unfold num. lia.
    - (* IPush *)
      destruct Hpc as (Hd & Hk & b & Hids & Hn).
      destruct todo as [|x todo].
      { eapply Hsame; [reflexivity|constructor; cbn [t_pc t_todo t_log plocal]; auto].
        split; auto. exists b. split; auto. cbn [length] in Hn. lia. }
      destruct k as [|k]; [cbn [length] in Hk; lia|].
      destruct (cpush (w_elems W) x) as [s'|e] eqn:Ep.
      2:{ right. rewrite (Hrefuse Ep) in *. auto. }
      left. destruct (push_ok (V := V) Hpush Hwork Hsizes Hnn Hms H Ep) as (H1 & HL).
      eexists _, _, (hist ++ [x]), R, _, k. cbn [obind]. split; [reflexivity|]. split; [exact H1|]. split.
      { constructor; cbn [t_pc t_todo t_log plocal]; auto. split; auto. cbn [w_elems length] in *. split; [lia|]. exists b. split; auto. lia. }
      right. split; auto. cbn [guards]. split; [|right; right; left; auto].
      destruct d; [lia|]. cbn. auto.
    - eapply Hsame; [reflexivity|constructor; cbn [t_pc t_todo t_log plocal]; auto].
    - (* IDownE *)
      destruct Hpc as (Hd & b & Hids & Hn).
      eapply Hsame; [reflexivity|constructor; cbn [t_pc t_todo t_log plocal]; auto]. split; auto.
      eapply tasks_start; eauto.
      + rewrite Hids. apply seq_NoDup.
      + rewrite Hids. apply Forall_forall. intros i Hi. apply in_seq in Hi. lia.
    - (* IIndex *)
      destruct Hpc as (Hd & HI).
      destruct (all_done ts) eqn:Edone.
      { eapply Hsame; [reflexivity|constructor; cbn [t_pc t_todo t_log]; auto; destruct rest; cbn [plocal]; auto]. }
      destruct (@step_ok _ _ _ V cpush cfg max W0 Hsort Hwork Hsizes Hnn Hms U hist W R rows k ts j H HI) as (rows' & ts' & E2 & _ & HI' & _ & H' & _); auto.
      left. eexists _, _, hist, R, rows', k. rewrite E2. cbn [obind fst snd]. split; [reflexivity|]. split; [exact H'|]. split.
      { constructor; cbn [t_pc t_todo t_log plocal]; auto. }
      right. split; auto. split; [|left; reflexivity].
      destruct d; [lia|]. cbn. auto.
    - (* IReturn *)
      eapply Hsame; [reflexivity|constructor; cbn [t_pc t_todo t_log plocal]; auto].
      apply Forall_app. split; [auto|]. constructor; [apply (HQ (Inserted _ _)); exact Logic.I|constructor].
    - destruct ok; (eapply Hsame; [reflexivity|constructor; cbn [t_pc t_todo t_log plocal]; auto]).
    - destruct ok; (eapply Hsame; [reflexivity|constructor; cbn [t_pc t_todo t_log plocal]; auto]).
    - (* SEntry *)
      pose proof (pquery_dist H Hpc) as Hqd. pose proof (sh_use Hwork Hsizes Hnn Hms H) as [Hus Hfu].
      assert (Hdt : dte_ok V (w_elems W) q) by (intros i Hi; eexists; eauto).
      destruct (prev_ok (V := V) (s := w_elems W) (U := U) (sh_ids Hwork Hsizes Hnn Hms H) (sh_chain H) Hdt Hfu) as (r & Er & Hne & Hr).
      unfold rw_entry in *. rewrite Er in Hsame |- *. cbn [obind] in *. destruct r as [|x r].
      { eapply Hsame; [reflexivity|constructor; cbn [t_pc t_todo t_log plocal]; auto].
        apply Forall_app. split; auto. constructor; [|constructor]. apply HQ. unfold correct_for.
        cbn [length map]. split; [cbn; lia|]. split; [cbn; lia|]. split; [intros ? ? []|]. split; constructor. }
      destruct (Hr x (or_introl eq_refl)) as [Hx _]. pose proof (sh_grows H) as Hg. pose proof (rows_len H) as HL.
      destruct (Nat.eq_dec ms 0) as [->|Hms0].
      { unfold s_init in *. rewrite (Hqd (fst x)) in Hsame |- * by lia. cbn [obind] in *.
        eapply Hsame; [reflexivity|constructor; cbn [t_pc t_todo t_log plocal]; auto].
        split; auto. right. split; eauto. }
      destruct (@slite_init (n_of W) (fE V (w_elems W) q) (fun i => c_dte C (w_elems W) i q) Hqd ms ltac:(lia) (fun _ => True) (fst x)) as (st & Est & Hst); [lia|exact Logic.I|].
      rewrite Est in Hsame |- *. cbn [obind] in *.
      eapply Hsame; [reflexivity|constructor; cbn [t_pc t_todo t_log plocal]; auto].
      split; auto. left. split; auto. lia.
    - (* SLoop *)
      destruct Hpc as (Hpc & [[Hms0 Hst]|(-> & d & i & ->)]).
      2:{ right. cbn. auto. }
      pose proof (pquery_dist H Hpc) as Hqd.
      destruct (slite_pop Hms0 Hst) as [E1|(k0 & pq & Epq & E1)]; rewrite E1 in Hsame |- *; cbn [obind] in *.
      { eapply Hsame; [reflexivity|constructor; cbn [t_pc t_todo t_log plocal]; auto].
        apply Forall_app. split; auto. constructor; [|constructor]. apply HQ.
        destruct (@slite_result _ _ _ _ st Hst) as (R1 & R2 & R3). cbn zeta in R1, R2, R3. set (out := map (fun k : key => (snd k, fst k)) (msh_into_sorted_vec (s_res st))) in R1, R2, R3 |- *.
        rewrite <- (firstn_skipn nn out) in R1, R3. rewrite map_app in R1.
        split; [rewrite firstn_length; lia|]. split.
        { rewrite firstn_length. unfold out, msh_into_sorted_vec. rewrite map_length. pose proof (l_len Hst) as Hll. etransitivity; [apply Nat.le_min_r|]. exact Hll. }
        split.
        { intros x d Hx. apply firstn_In in Hx. destruct (R2 _ _ Hx) as (Hx1 & _ & ->). auto. }
        split; [exact (NoDup_appl _ _ R1)|exact (sorted_appl_ R3)]. }
      destruct (l_key Hst (k := k0)) as [_ Hv]; [right; rewrite Epq; left; auto|]. destruct (l_vis Hst Hv) as [Hlt _].
      destruct (pread_ok H Hlt) as (row & Erow & Hrow). rewrite Erow in Hsame |- *. cbn [obind] in *.
      destruct (slite_expand Hqd Hms0 Hst Epq Hrow) as (st' & E2 & Hst' & _).
      rewrite E2 in Hsame |- *. cbn [obind] in *.
      eapply Hsame; [reflexivity|constructor; cbn [t_pc t_todo t_log plocal]; auto].
      split; auto. left. auto.
    - destruct ok; (eapply Hsame; [reflexivity|constructor; cbn [t_pc t_todo t_log plocal]; auto]).
    - destruct ok; (eapply Hsame; [reflexivity|constructor; cbn [t_pc t_todo t_log plocal]; auto]).
    - destruct ok; (eapply Hsame; [reflexivity|constructor; cbn [t_pc t_todo t_log plocal]; auto]).
    - eapply Hsame; [reflexivity|constructor; cbn [t_pc t_todo t_log plocal]; auto].
      split; auto. split; [lia|auto].
    - (* WRow *)
      destruct Hpc as (-> & Hk0 & ->). destruct (Nat.ltb_spec k0 (length (w_cur W))) as [Hlt|Hge].
      { destruct (nth_error (w_cur W) k0) as [r|] eqn:Er; [|apply nth_error_None in Er; lia].
        unfold index in *. rewrite Er in Hsame |- *. cbn [ounwrap obind] in *.
        eapply Hsame; [reflexivity|constructor; cbn [t_pc t_todo t_log plocal]; auto].
        split; auto. split; [lia|]. symmetry. apply firstn_S_nth_. auto. }
      rewrite firstn_all2 in * by lia.
      destruct (saved_layers V cfg (w_elems W) (w_cur W) (w_prev W)) as [ls|] eqn:Els; cbn [obind] in *.
      { eapply Hsame; [reflexivity|constructor; cbn [t_pc t_todo t_log plocal]; auto].
        apply Forall_app. split; auto. constructor; [|constructor]. apply HQ. split; auto. }
      exfalso. revert Els. unfold saved_layers, fw_with_data. destruct (Nat.ltb_spec 0 (k_nn cfg)); [|lia]. cbn [oassert obind].
      destruct (cur_is H) as (_ & _ & HF). rewrite (concat_length_const HF), Nat.mod_mul by lia. cbn [Nat.eqb oassert obind].
      destruct (Nat.ltb_spec 0 (n_of W)); [|discriminate]. pose proof (sh_len H) as HLc.
      destruct (fw_is_subslice Hnn (cur_is H) (Nat.le_0_l (n_of W))) as (l & El & _); [lia|]. unfold fw_subslice in *. rewrite El. discriminate.
  Qed.

  (** ** Other threads *)
  Lemma pother_ok (Q Q' : result S E I -> Prop) (hist : list I) W R rows k (hist' : list I) W' R' rows' k' t u i j ts :
    lock_inv (W, ts) -> i <> j -> nth_error ts i = Some t -> nth_error ts j = Some u ->
    (W' = W /\ hist' = hist /\ R' = R /\ rows' = rows /\ k' = k) \/
    (crit (t_pc t) = true /\ In (LWrite, ARead) (guards (t_pc t)) /\
     (w_elems W' = w_elems W \/ In (LElems, AWrite) (guards (t_pc t)))) ->
    (forall r, Q r -> Q' r) -> pthread_ok Q W R rows k u -> pthread_ok Q' W' R' rows' k' u.
  Proof.
    intros HL Hij Ht Hu Hch HQ [Hpc Htd Hlg]. apply (Forall_impl _ HQ) in Hlg. constructor; auto.
    destruct Hch as [(-> & _ & -> & -> & ->)|(Hc & Hw & He)]; auto.
    assert (Hcu : crit (t_pc u) = false) by (apply (li_crit HL Hij Ht Hu Hc)).
    assert (Hno : forall l a, In (l, AWrite) (guards (t_pc t)) -> In (l, a) (guards (t_pc u)) -> False).
    { intros l a H1 H2. destruct (li_compat HL Hij Ht Hu H1 H2). discriminate. }
    assert (Hnw : In (LWrite, AWrite) (guards (t_pc u)) -> False).
    { intros H2. destruct (li_compat HL Hij Ht Hu Hw H2). discriminate. }
    destruct (t_pc u); cbn [plocal crit guards In] in *; auto; try discriminate.
    - (* SLoop *)
      destruct Hpc as (Hca & Hs). split; auto. destruct He as [He|He]; [unfold psearching; rewrite He; auto|].
      exfalso. eapply (Hno LElems ARead); auto.
    - exfalso. apply Hnw. auto.
  Qed.
End PanicStep.
