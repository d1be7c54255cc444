(** * Proofs: every interleaving of the calls of a concurrent builder *)
From Verif Require Import Base BaseFacts MSliceVec SSliceVec PFixed MIndexIo MSearch PHeap PSearch MBuild SBuild PSelect PRow PSLite PBuildInv PBuildRun PBuildLayer PBuildFair PBuilder PHistory PBuildAny MLocks MRw SRw PRwSeq PRwLock PRwIds.
Set Implicit Arguments.
Unset Strict Implicit.

Lemma expand_nonempty dist st k row st' : s_expand dist st k row = Ok st' -> hs (s_res st') <> [].
Proof.
  assert (Hins : forall x l, insert_by key_le x l <> []).
  { intros x [|a l]; cbn; [discriminate|]. destruct (key_le x a); discriminate. }
  unfold s_expand. destruct (msh_push key_le (s_res st) k) as [[h b]|] eqn:Ep; [|discriminate]. cbn [obind fst snd].
  destruct (ofold _ row _); [|discriminate]. cbn [obind]. intros H. injection H as <-. cbn [s_res].
  unfold msh_push in Ep. destruct (negb (msh_is_full (s_res st))); [injection Ep as <- _; apply Hins|].
  destruct (msh_peek (s_res st)) as [p|] eqn:Epk; [|discriminate]. cbn [ounwrap obind] in Ep.
  destruct (lt_of key_le k p); injection Ep as <- _; [apply Hins|]. intros H0. unfold msh_peek in Epk. rewrite H0 in Epk. discriminate.
Qed.

Lemma sorted_appl_ {A} (Q : A -> A -> Prop) l1 l2 : StronglySorted Q (l1 ++ l2) -> StronglySorted Q l1.
Proof. induction l1 as [|a l IH]; cbn; intros H; [constructor|]. inversion H; subst. constructor; auto. now apply Forall_app in H3 as [? _]. Qed.
Lemma firstn_S_nth_ {A} (l : list A) k x : nth_error l k = Some x -> firstn (S k) l = firstn k l ++ [x].
Proof. revert l. induction k as [|k IH]; intros [|a l]; cbn [nth_error]; try discriminate; intros H; [injection H as ->; auto|]. cbn [firstn app]. f_equal. apply IH. auto. Qed.

Section Conc.
  Context {S E I : Type} (V : benv S E) (cpush : S -> I -> outcome S).
  Context (cfg : config) (max : nat) (W0 : rw S).
  Local Notation C := (e_ops V).
  Local Notation n_of W := (c_len C (w_elems W)).
  Hypothesis Hsort : sorts_by_dist (e_sort V).
  Hypothesis Hpush : push_law C cpush.
  Hypothesis Hwork : elems_work V cpush max (w_elems W0).
  Hypothesis Hsizes : sizes_ok cfg max W0.
  Hypothesis Hnn : 0 < k_nn cfg.
  Hypothesis Hms : 0 < k_ms cfg.
  Variable U : bool.
  Local Notation shared := (shared V cpush cfg max W0 U).
  Local Notation pieces := (pieces V cpush cfg max W0).
  Local Notation sinv W R := (sys_inv V (w_elems W) U (k_nn cfg) (n_of W) (k_nn cfg) (k_ms cfg) (base_of U R)).
  Local Notation tstep := (thread_step V cpush cfg max).
  Local Notation callok := (call_ok V cpush max (w_elems W0)).

  Definition room (Wb W : rw S) : Prop := if layer_full V Wb then new_layer cfg max Wb = Ok W else W = Wb.
  Definition starts (ids : list nat) : tasks (E := E) := map (fun i => (i, TStart)) ids.

  Definition pushing (W : rw S) (k : nat) (todo : list I) (ids : list nat) (rest : list I) : Prop :=
    exists Wb W1 xs dn, pieces Wb /\ room Wb W1 /\ split_batch V W1 xs = Ok (dn ++ todo, ids, rest) /\
      ofold cpush dn (w_elems W1) = Ok (w_elems W) /\
      w_cur W = w_cur W1 /\ w_width W = w_width W1 /\ w_prev W = w_prev W1 /\ length todo <= k /\
      ids = seq (n_of W1) (length (dn ++ todo)) /\ n_of W = n_of W1 + length dn.

  Definition indexing (W : rw S) (R : list (list (list N))) (rows : list (list N)) (ts : tasks) (ids : list nat) (rest : list I) : Prop :=
    (exists Wb W1 xs todo sched, pieces Wb /\ room Wb W1 /\ split_batch V W1 xs = Ok (todo, ids, rest) /\
      ofold cpush todo (w_elems W1) = Ok (w_elems W) /\ w_width W = w_width W1 /\ w_prev W = w_prev W1 /\
      run V (w_elems W) (k_nn cfg) (k_ms cfg) (w_prev W1) sched (w_cur W1, starts ids) = Ok (w_cur W, ts)) /\
    sinv W R (rows, ts).

  Definition searching (W : rw S) (q : E) (ms : nat) (st : sst) : Prop :=
    slite (n_of W) (fE V (w_elems W) q) ms (fun _ => True) st /\ (s_pq st <> [] \/ hs (s_res st) <> []).

  (** what is known about a thread, given the shared data *)
  Definition local (W : rw S) (R : list (list (list N))) (rows : list (list N)) (k : nat) (p : pc S E I) : Prop :=
    match p with
    | ICheck _ acc d | ITest _ acc d | IGuard _ acc d | IReturn acc d => d = 0 -> acc = []
    | IElems _ _ d => 1 <= d
    | ILayers _ _ d | IRoom _ _ d => 1 <= d /\ pieces W
    | INew _ _ d => 1 <= d /\ pieces W /\ layer_full V W = true
    | ISplit _ _ d => 1 <= d /\ exists Wb, pieces Wb /\ room Wb W
    | IPush todo ids rest _ d => 1 <= d /\ pushing W k todo ids rest
    | IDownL ids rest _ d | IDownE ids rest _ d => 1 <= d /\ pushing W k [] ids rest
    | IIndex ts ids rest _ d => 1 <= d /\ indexing W R rows ts ids rest
    | SElems q ms nn | SLayers q ms nn | SEntry q ms nn => callok (RSearch q ms nn)
    | SLoop q ms nn st => callok (RSearch q ms nn) /\ searching W q ms st
    | WRow s k0 rows0 => s = w_elems W /\ k0 <= length (w_cur W) /\ rows0 = firstn k0 (w_cur W)
    | Idle | WGuard | WElems | WLayers | WData => True
    end.

  (** what a finished search or [write] returned *)
  Definition found_ok (W : rw S) (q : E) (ms nn : nat) (out : list (nat * Z)) : Prop :=
    length out <= nn /\ length out <= ms /\
      (forall x d, In (x, d) out -> x < n_of W /\ c_dte C (w_elems W) x q = Ok d) /\
      NoDup (map fst out) /\ StronglySorted (fun a b => (snd a <= snd b)%Z) out /\
      (w_prev W <> [] -> 0 < nn -> out <> []).
  Definition saved_ok (W : rw S) (s : S) (ls : list (fw N)) : Prop :=
    pieces W /\ s = w_elems W /\ saved_layers V cfg s (w_cur W) (w_prev W) = Ok ls.
  (** [Q]: what is known about results *)
  Record thread_ok (Q : result S E I -> Prop) (W : rw S) (R : list (list (list N))) (rows : list (list N)) (k : nat) (t : thread S E I) : Prop := mkThreadOk {
    to_pc : local W R rows k (t_pc t);
    to_todo : Forall callok (t_todo t);
    to_log : Forall Q (t_log t)
  }.

  (** the last piece is still going on *)
  Lemma room_shared hist Wb W1 R rows k : shared hist Wb R rows k -> room Wb W1 -> exists R1 k1, shared hist W1 R1 rows k1.
  Proof.
    intros H Hr. unfold room in Hr. destruct (layer_full V Wb) eqn:Ef.
    - destruct (new_layer_ok (V := V) Hsizes Hnn Hms H Ef) as (W2 & k2 & E2 & H2 & _). rewrite Hr in E2. injection E2 as <-. eauto.
    - subst. eauto.
  Qed.

  Lemma rows_len hist W R rows k : shared hist W R rows k -> length rows = n_of W.
  Proof. intros H. apply (y_len (sh_lay H)). Qed.

  (** reading a row of a node *)
  Lemma read_ok hist W R rows k x : shared hist W R rows k -> x < n_of W ->
    exists r, read_ids (w_cur W) x = Ok r /\ Forall (fun y => y < n_of W /\ True) r.
  Proof.
    intros H Hx. pose proof (rows_len H) as HL. destruct (nth_error rows x) as [r|] eqn:Er; [|apply nth_error_None in Er; lia].
    exists (row_ids r). unfold read_ids. rewrite (sh_cur H). unfold with_room.
    rewrite (@index_app1 _ rows (repeat (repeat UNUSED (k_nn cfg)) k) x r).
    2:{ unfold index. now rewrite Er. }
    split; auto.
    destruct (@wf_ids _ _ V (w_elems W) (sh_ids Hwork Hsizes Hnn Hms H) U (k_nn cfg) (n_of W) (le_n _) ltac:(lia) x r) as [_ (_ & _ & HF)].
    { apply (y_row (sh_lay H) Er). }
    eapply Forall_impl; [|exact HF]. cbn. auto.
  Qed.

  Lemma query_dist hist W R rows k q ms nn : shared hist W R rows k -> callok (RSearch q ms nn) ->
    forall i, i < n_of W -> c_dte C (w_elems W) i q = Ok (fE V (w_elems W) q i).
  Proof.
    intros H (_ & Hq) i Hi. destruct (Hq _ _ _ (sh_hist H) (sh_max Hsizes Hnn Hms H) Hi) as (d & Hd). unfold fE. now rewrite Hd.
  Qed.

  (** ** One step of a thread *)
  Definition needs_quiet (p : pc S E I) (ok : bool) : Prop :=
    match p with IElems _ _ _ => ok = true | WRow _ _ _ => True | _ => False end.

  Lemma step_local (Q : result S E I -> Prop) hist W R rows k t ok j :
    (forall r : result S E I, match r with Inserted _ _ => True | Found q ms nn out => found_ok W q ms nn out | Saved s ls => saved_ok W s ls end -> Q r) ->
    shared hist W R rows k -> thread_ok Q W R rows k t -> (w_prev W0 <> [] -> w_prev W <> []) ->
    (needs_quiet (t_pc t) ok -> pieces W) ->
    e_mode V = Release \/ (exists z, tstep W t ok j = Ok z) ->
    exists W' t' hist' R' rows' k', tstep W t ok j = Ok (W', t') /\
      shared hist' W' R' rows' k' /\ thread_ok Q W' R' rows' k' t' /\ (w_prev W0 <> [] -> w_prev W' <> []) /\
      (crit (t_pc t) = true -> crit (t_pc t') = false -> pieces W') /\
      ((W' = W /\ hist' = hist /\ R' = R /\ rows' = rows /\ k' = k) \/
       (crit (t_pc t) = true /\ In (LWrite, ARead) (guards (t_pc t)) /\
        (w_elems W' = w_elems W \/ In (LElems, AWrite) (guards (t_pc t))))).
  Proof.
    intros HQ H [Hpc Htd Hlg] Hpv Hq Hmode. destruct t as [p ba td lg]. cbn [t_pc t_batch t_todo t_log] in *.
    (* a step that leaves the data alone *)
    assert (Hsame : forall t', tstep W (mkThread p ba td lg) ok j = Ok (W, t') -> thread_ok Q W R rows k t' ->
      (crit p = true -> crit (t_pc t') = false -> pieces W) ->
      exists W' t' hist' R' rows' k', tstep W (mkThread p ba td lg) ok j = Ok (W', t') /\
      shared hist' W' R' rows' k' /\ thread_ok Q W' R' rows' k' t' /\ (w_prev W0 <> [] -> w_prev W' <> []) /\
      (crit p = true -> crit (t_pc t') = false -> pieces W') /\
      ((W' = W /\ hist' = hist /\ R' = R /\ rows' = rows /\ k' = k) \/
       (crit p = true /\ In (LWrite, ARead) (guards p) /\ (w_elems W' = w_elems W \/ In (LElems, AWrite) (guards p))))).
    { intros t' Es Ht Hc. exists W, t', hist, R, rows, k. split; auto. split; auto. split; auto. split; auto. split; auto. left. auto. }
    unfold thread_step in *. cbn [t_pc t_batch t_todo t_log] in *.
    destruct p; cbn [local needs_quiet crit] in *.
    - (* Idle *)
      destruct td as [|c cs]; [eapply Hsame; [reflexivity|constructor; cbn; auto|discriminate]|].
      inversion Htd; subst. eapply Hsame; [reflexivity| |discriminate].
      constructor; cbn [t_pc t_todo t_log]; auto. destruct c; cbn [begin_call local]; auto.
    - destruct ok; (eapply Hsame; [reflexivity|constructor; cbn [t_pc t_todo t_log local]; auto|discriminate]).
    - eapply Hsame; [reflexivity|constructor; cbn [t_pc t_todo t_log local]; auto|discriminate].
      destruct (max <=? n_of W); cbn [local]; auto.
    - destruct ok; (eapply Hsame; [reflexivity|constructor; cbn [t_pc t_todo t_log local]; auto; lia|discriminate]).
    - destruct ok; (eapply Hsame; [reflexivity|constructor; cbn [t_pc t_todo t_log local]; auto|discriminate]).
    - destruct ok; (eapply Hsame; [reflexivity|constructor; cbn [t_pc t_todo t_log local]; auto|cbn [t_pc crit]; discriminate]).
    - destruct Hpc as [Hd Hps]. eapply Hsame; [reflexivity|constructor; cbn [t_pc t_todo t_log]; auto|].
      + destruct (layer_full V W) eqn:Ef; cbn [local]; auto. split; auto. exists W. split; auto. unfold room. rewrite Ef. auto.
      + cbn [t_pc]. destruct (layer_full V W); discriminate.
    - (* INew *)
      destruct Hpc as (Hd & Hps & Hf). destruct (new_layer_ok (V := V) Hsizes Hnn Hms H Hf) as (W' & k' & E1 & H1 & He & Hl & Hc).
      exists W', (mkThread (ISplit xs acc d) ba td lg), hist, (R ++ [rows]), rows, k'. rewrite E1. cbn [obind].
      split; auto. split; auto. split.
      { constructor; cbn [t_pc t_todo t_log local]; auto. split; auto. exists W. split; auto. unfold room. rewrite Hf. auto. }
      split; [intros _ E0; rewrite E0 in Hl; discriminate|]. split; [discriminate|]. right. split; auto. split; [|left; auto].
      destruct d; [lia|]. cbn. auto.
    - (* ISplit *)
      destruct Hpc as (Hd & Wb & Hps & Hr). pose proof (split_ok Hnn Hms xs H) as Es. set (num := Nat.min (length xs) k) in *. rewrite Es in Hmode, Hsame |- *. cbn [obind] in *.
      eapply Hsame; [reflexivity|constructor; cbn [t_pc t_todo t_log local]; auto|discriminate].
      split; auto. exists Wb, W, xs, []. cbn [app ofold length]. split; auto. split; auto. split; auto. split; auto.
      split; auto. split; auto. split; auto. rewrite firstn_length.
      split; [unfold num; lia|]. split; [f_equal; unfold num; lia|]. lia.
    - (* IPush *)
      destruct Hpc as (Hd & Wb & W1 & xs & dn & Hps & Hr & Es & Ef & Hc & Hw & Hp & Hk & Hids & Hn).
      destruct todo as [|x todo].
      { eapply Hsame; [reflexivity|constructor; cbn [t_pc t_todo t_log local]; auto|discriminate].
        split; auto. exists Wb, W1, xs, dn. auto 12. }
      destruct k as [|k]; [cbn [length] in Hk; lia|].
      destruct (push_works (V := V) Hsizes Hnn Hms x Hwork H) as (s' & Ep). destruct (push_ok (V := V) Hpush Hwork Hsizes Hnn Hms H Ep) as (H1 & HL).
      eexists _, _, (hist ++ [x]), R, _, k. rewrite Ep. cbn [obind]. split; [reflexivity|]. split; [exact H1|]. split.
      { constructor; cbn [t_pc t_todo t_log local]; auto. split; auto. exists Wb, W1, xs, (dn ++ [x]). cbn [w_elems w_prev w_cur w_width].
        rewrite <- app_assoc. cbn [app]. split; auto. split; auto. split; auto. split.
        { rewrite ofold_app, Ef. cbn [obind ofold]. now rewrite Ep. }
        split; auto. split; auto. split; auto. split; [cbn [length] in Hk; lia|]. split; auto. rewrite app_length. cbn [length]. lia. }
      cbn [w_prev]. split; auto. split; [discriminate|]. right. split; auto. cbn [guards]. split; [|right; right; left; auto].
      destruct d; [lia|]. cbn. auto.
    - eapply Hsame; [reflexivity|constructor; cbn [t_pc t_todo t_log local]; auto|discriminate].
    - (* IDownE *)
      destruct Hpc as (Hd & Wb & W1 & xs & dn & Hps & Hr & Es & Ef & Hc & Hw & Hp & Hk & Hids & Hn). rewrite app_nil_r in *.
      eapply Hsame; [reflexivity|constructor; cbn [t_pc t_todo t_log local]; auto|discriminate]. split; auto. split.
      + exists Wb, W1, xs, dn, []. split; auto. split; auto. split; auto. split; auto. split; auto. split; auto. cbn. now rewrite Hc.
      + eapply tasks_start; eauto.
        * rewrite Hids. apply seq_NoDup.
        * rewrite Hids. apply Forall_forall. intros i Hi. apply in_seq in Hi. lia.
    - (* IIndex *)
      destruct Hpc as (Hd & (Wb & W1 & xs & todo & sched & Hps & Hr & Es & Ef & Hw & Hp & Erun) & HI).
      destruct (all_done ts) eqn:Edone.
      { eapply Hsame; [reflexivity|constructor; cbn [t_pc t_todo t_log]; auto; destruct rest; cbn [local]; lia|].
        intros _ _. eapply pcs_next; [exact Hps|]. destruct W as [s cur w prev]. cbn [w_elems w_cur w_width w_prev] in *. subst w prev.
        eapply piece_intro; eauto. }
      destruct (@step_ok _ _ _ V cpush cfg max W0 Hsort Hwork Hsizes Hnn Hms U hist W R rows k ts j H HI) as (rows' & ts' & E2 & _ & HI' & _ & H' & _).
      { destruct Hmode as [Hm|(z & Hz)]; [left; auto|right]. destruct (sys_step V (w_elems W) (k_nn cfg) (k_ms cfg) (w_prev W) (w_cur W, ts) j); [eauto|discriminate]. }
      eexists _, _, hist, R, rows', k. rewrite E2. cbn [obind fst snd]. split; [reflexivity|]. split; [exact H'|]. split.
      { constructor; cbn [t_pc t_todo t_log local]; auto. split; auto. split; auto.
        exists Wb, W1, xs, todo, (sched ++ [j]). cbn [w_elems w_prev w_cur w_width]. split; auto. split; auto. split; auto. split; auto. split; auto. split; auto.
        rewrite run_snoc, Erun. cbn [obind]. rewrite <- Hp. exact E2. }
      cbn [w_prev]. split; auto. split; [discriminate|]. right. split; auto. split; [|left; reflexivity].
      destruct d; [lia|]. cbn. auto.
    - (* IReturn *)
      eapply Hsame; [reflexivity|constructor; cbn [t_pc t_todo t_log local]; auto|discriminate].
      apply Forall_app. split; [auto|]. constructor; [apply (HQ (Inserted _ _)); exact Logic.I|constructor].
    - destruct ok; (eapply Hsame; [reflexivity|constructor; cbn [t_pc t_todo t_log local]; auto|discriminate]).
    - destruct ok; (eapply Hsame; [reflexivity|constructor; cbn [t_pc t_todo t_log local]; auto|discriminate]).
    - (* SEntry *)
      pose proof (query_dist H Hpc) as Hqd. pose proof (sh_use Hwork Hsizes Hnn Hms H) as [Hus Hfu].
      assert (Hdt : dte_ok V (w_elems W) q) by (intros i Hi; eexists; eauto).
      destruct (prev_ok (V := V) (s := w_elems W) (U := U) (sh_ids Hwork Hsizes Hnn Hms H) (sh_chain H) Hdt Hfu) as (r & Er & Hne & Hr).
      unfold rw_entry in *. rewrite Er in Hsame |- *. cbn [obind] in *. destruct r as [|x r].
      { eapply Hsame; [reflexivity|constructor; cbn [t_pc t_todo t_log local]; auto|discriminate].
        apply Forall_app. split; auto. constructor; [|constructor]. apply HQ.
        cbn [length map]. split; [cbn; lia|]. split; [cbn; lia|]. split; [intros ? ? []|]. split; [constructor|]. split; [constructor|].
        intros H0 _. elim (Hne H0). reflexivity. }
      destruct (Hr x (or_introl eq_refl)) as [Hx _]. pose proof (sh_grows H) as Hg. pose proof (rows_len H) as HL.
      destruct Hpc as (Hms0 & Hpc).
      destruct (@slite_init (n_of W) (fE V (w_elems W) q) (fun i => c_dte C (w_elems W) i q) Hqd ms Hms0 (fun _ => True) (fst x)) as (st & Est & Hst); [lia|exact Logic.I|].
      rewrite Est in Hsame |- *. cbn [obind] in *.
      eapply Hsame; [reflexivity|constructor; cbn [t_pc t_todo t_log local]; auto|discriminate].
      split; [split; auto|]. split; auto. left. unfold s_init in Est. destruct (c_dte C (w_elems W) (fst x) q); [|discriminate]. cbn [obind] in Est. injection Est as <-. discriminate.
    - (* SLoop *)
      destruct Hpc as (Hpc & Hst & Hne). pose proof (query_dist H Hpc) as Hqd. destruct Hpc as (Hms0 & Hpc).
      destruct (slite_pop Hms0 Hst) as [E1|(k0 & pq & Epq & E1)]; rewrite E1 in Hsame |- *; cbn [obind] in *.
      { eapply Hsame; [reflexivity|constructor; cbn [t_pc t_todo t_log local]; auto|discriminate].
        apply Forall_app. split; auto. constructor; [|constructor]. apply HQ.
        destruct (@slite_result _ _ _ _ st Hst) as (R1 & R2 & R3). cbn zeta in R1, R2, R3. set (out := map (fun k : key => (snd k, fst k)) (msh_into_sorted_vec (s_res st))) in R1, R2, R3 |- *.
        rewrite <- (firstn_skipn nn out) in R1, R3. rewrite map_app in R1.
        split; [rewrite firstn_length; lia|]. split.
        { rewrite firstn_length. unfold out, msh_into_sorted_vec. rewrite map_length. pose proof (l_len Hst) as Hll. etransitivity; [apply Nat.le_min_r|]. exact Hll. }
        split.
        { intros x d Hx. apply firstn_In in Hx. destruct (R2 _ _ Hx) as (Hx1 & _ & ->). auto. }
        split; [exact (NoDup_appl _ _ R1)|]. split; [exact (sorted_appl_ R3)|].
        intros _ Hnn0. assert (Ho : hs (s_res st) <> []).
        { unfold s_pop in E1. destruct (s_pq st) as [|[d0 i0] pq0]; [destruct Hne; congruence|].
          destruct (msh_is_full (s_res st)) eqn:Efull; [|discriminate]. unfold msh_is_full in Efull. apply Nat.leb_le in Efull.
          rewrite (l_max Hst) in Efull. intros E0. rewrite E0 in Efull. cbn in Efull. lia. }
        unfold out, msh_into_sorted_vec. destruct (hs (s_res st)); [congruence|]. destruct nn; [lia|]. discriminate. }
      destruct (l_key Hst (k := k0)) as [_ Hv]; [right; rewrite Epq; left; auto|]. destruct (l_vis Hst Hv) as [Hlt _].
      destruct (read_ok H Hlt) as (row & Erow & Hrow). rewrite Erow in Hsame |- *. cbn [obind] in *.
      destruct (slite_expand Hqd Hms0 Hst Epq Hrow) as (st' & E2 & Hst' & _).
      rewrite E2 in Hsame |- *. cbn [obind] in *.
      eapply Hsame; [reflexivity|constructor; cbn [t_pc t_todo t_log local]; auto|discriminate].
      split; [split; auto|]. split; auto. right. eapply expand_nonempty; eauto.
    - destruct ok; (eapply Hsame; [reflexivity|constructor; cbn [t_pc t_todo t_log local]; auto|discriminate]).
    - destruct ok; (eapply Hsame; [reflexivity|constructor; cbn [t_pc t_todo t_log local]; auto|discriminate]).
    - destruct ok; (eapply Hsame; [reflexivity|constructor; cbn [t_pc t_todo t_log local]; auto|discriminate]).
    - eapply Hsame; [reflexivity|constructor; cbn [t_pc t_todo t_log local]; auto|discriminate].
      split; auto. split; [lia|auto].
    - (* WRow *)
      destruct Hpc as (-> & Hk0 & ->). destruct (Nat.ltb_spec k0 (length (w_cur W))) as [Hlt|Hge].
      { destruct (nth_error (w_cur W) k0) as [r|] eqn:Er; [|apply nth_error_None in Er; lia].
        unfold index in *. rewrite Er in Hsame |- *. cbn [ounwrap obind] in *.
        eapply Hsame; [reflexivity|constructor; cbn [t_pc t_todo t_log local]; auto|discriminate].
        split; auto. split; [lia|]. symmetry. apply firstn_S_nth_. auto. }
      rewrite firstn_all2 in * by lia.
      destruct (saved_layers V cfg (w_elems W) (w_cur W) (w_prev W)) as [ls|] eqn:Els; cbn [obind] in *.
      { eapply Hsame; [reflexivity|constructor; cbn [t_pc t_todo t_log local]; auto|discriminate].
        apply Forall_app. split; auto. constructor; [|constructor]. apply HQ. split; auto. }
      exfalso. revert Els. unfold saved_layers, fw_with_data. destruct (Nat.ltb_spec 0 (k_nn cfg)); [|lia]. cbn [oassert obind].
      destruct (cur_is H) as (_ & _ & HF). rewrite (concat_length_const HF), Nat.mod_mul by lia. cbn [Nat.eqb oassert obind].
      destruct (Nat.ltb_spec 0 (n_of W)); [|discriminate]. pose proof (sh_len H) as HLc.
      destruct (fw_is_subslice Hnn (cur_is H) (Nat.le_0_l (n_of W))) as (l & El & _); [lia|]. unfold fw_subslice in *. rewrite El. discriminate.
  Qed.

  Lemma step_log W t ok j W' t' s ls : tstep W t ok j = Ok (W', t') -> In (Saved s ls) (t_log t') ->
    In (Saved s ls) (t_log t) \/
    (exists k0 rows0, t_pc t = WRow s k0 rows0 /\ length (w_cur W) <= k0 /\ saved_layers V cfg s rows0 (w_prev W) = Ok ls).
  Proof.
    destruct t as [p ba td lg]. unfold thread_step. cbn [t_pc t_batch t_todo t_log].
    destruct p; intros Es; inv_step Es; injection Es as <- <-; cbn [t_log]; auto;
      intros Hin; apply in_app_or in Hin as [Hin|[Hin|[]]]; auto; try discriminate.
    injection Hin as -> ->. right. exists k, rows. apply Nat.ltb_ge in Eb. auto.
  Qed.

  (** ** Other threads *)
  Lemma other_ok (Q Q' : result S E I -> Prop) hist W R rows k hist' W' R' rows' k' t u i j ts :
    shared hist W R rows k -> shared hist' W' R' rows' k' ->
    lock_inv (W, ts) -> i <> j -> nth_error ts i = Some t -> nth_error ts j = Some u ->
    (W' = W /\ hist' = hist /\ R' = R /\ rows' = rows /\ k' = k) \/
    (crit (t_pc t) = true /\ In (LWrite, ARead) (guards (t_pc t)) /\
     (w_elems W' = w_elems W \/ In (LElems, AWrite) (guards (t_pc t)))) ->
    (forall r, Q r -> Q' r) -> thread_ok Q W R rows k u -> thread_ok Q' W' R' rows' k' u.
  Proof.
    intros H H' HL Hij Ht Hu Hch HQ [Hpc Htd Hlg]. apply (Forall_impl _ HQ) in Hlg. constructor; auto.
    destruct Hch as [(-> & -> & -> & -> & ->)|(Hc & Hw & He)]; auto.
    assert (Hcu : crit (t_pc u) = false) by (apply (li_crit HL Hij Ht Hu Hc)).
    assert (Hno : forall l a, In (l, AWrite) (guards (t_pc t)) -> In (l, a) (guards (t_pc u)) -> False).
    { intros l a H1 H2. destruct (li_compat HL Hij Ht Hu H1 H2). discriminate. }
    assert (Hnw : In (LWrite, AWrite) (guards (t_pc u)) -> False).
    { intros H2. destruct (li_compat HL Hij Ht Hu Hw H2). discriminate. }
    destruct (t_pc u); cbn [local crit guards In] in *; auto; try discriminate.
    - (* SLoop *)
      destruct Hpc as (Hca & Hs & Hne). split; auto. destruct He as [He|He]; [unfold searching; rewrite He; split; auto|].
      exfalso. eapply (Hno LElems ARead); auto.
    - exfalso. apply Hnw. auto.
  Qed.

  (** ** The invariant of the system *)
  Context (P : rpolicy S E I) (progs : list (list (rcall E I))).
  Hypothesis HP : safe_locks P.
  Hypothesis Hcalls : calls_ok V cpush max (w_elems W0) progs.
  Local Notation start := (rstart W0 progs).
  Local Notation rstep := (rsys_step V cpush cfg max P).
  Local Notation rr := (rrun V cpush cfg max P).

  Definition quiet (y : rsys S E I) : Prop := forall i t, nth_error (snd y) i = Some t -> crit (t_pc t) = false.

  (** every id handed out belongs to a call that has returned *)
  Definition all_returned (y : rsys S E I) : Prop :=
    Permutation (concat (map snd (inserts y))) (seq (n_of W0) (n_of (fst y) - n_of W0)).

  (** what a search returned was right when it finished *)
  Definition back_then (h : list (nat * nat)) (r : result S E I) : Prop :=
    match r with
    | Found q ms nn out => exists h1 h2 y1, h = h1 ++ h2 /\ rr [] h1 start = Ok y1 /\ found_ok (fst y1) q ms nn out
    | _ => True
    end.
  Lemma back_then_snoc h m r : back_then h r -> back_then (h ++ [m]) r.
  Proof.
    destruct r; cbn [back_then]; auto. intros (h1 & h2 & y1 & -> & H). exists h1, (h2 ++ [m]), y1. rewrite app_assoc. auto.
  Qed.

  Record conc_inv (h : list (nat * nat)) (y : rsys S E I) : Prop := mkConcInv {
    ci_ids : ids_inv V cpush max W0 y;
    ci_prev : w_prev W0 <> [] -> w_prev (fst y) <> [];
    ci_shared : exists hist R rows k, shared hist (fst y) R rows k /\
                forall i t, nth_error (snd y) i = Some t -> thread_ok (back_then h) (fst y) R rows k t;
    ci_quiet : quiet y -> pieces (fst y);
    ci_saved : forall i t s ls, nth_error (snd y) i = Some t -> In (Saved s ls) (t_log t) ->
               exists h1 h2 y1, h = h1 ++ h2 /\ rr [] h1 start = Ok y1 /\ saved_ok (fst y1) s ls /\ all_returned y1
  }.

  Lemma rrun_snoc h l m y : rr h (l ++ [m]) y = let* y' := rr h l y in rstep (h ++ l) y' m.
  Proof.
    revert h y. induction l as [|a l IH]; intros h y; cbn [app rrun].
    - rewrite app_nil_r. cbn [obind]. destruct (rstep h y m); auto.
    - destruct (rstep h y a) as [y1|]; cbn [obind]; auto. rewrite IH, <- app_assoc. reflexivity.
  Qed.

  (** nobody is inserting: all ids have been returned *)
  Lemma quiet_returned y : ids_inv V cpush max W0 y -> (forall i t, nth_error (snd y) i = Some t -> mine (t_pc t) = []) -> all_returned y.
  Proof.
    intros [HL HT (hist & Hh & Hn & Hp)] Hm. unfold all_returned. replace (n_of (fst y) - n_of W0) with (length hist) by lia.
    assert (H1 : map fst (flat_map claims (snd y)) = concat (map snd (inserts y))).
    { unfold inserts. clear Hp HL Hn. destruct y as [W ts]. cbn [fst snd] in *. induction ts as [|t ts IH]; cbn [flat_map]; auto.
      rewrite !map_app, concat_app, IH.
      - f_equal. unfold claims. rewrite (Hm 0 t eq_refl). cbn [combine]. rewrite app_nil_r.
        destruct (HT 0 t eq_refl) as [_ Hlog]. clear -Hlog. induction Hlog as [|r l Hr Hl IHl]; cbn [flat_map]; auto.
        rewrite !map_app, concat_app, IHl. f_equal. destruct r as [xs ids| |]; cbn; auto. rewrite app_nil_r.
        destruct Hr as (d & re & -> & Hlen & _). clear -Hlen. revert d Hlen. induction ids as [|i ids IH]; intros [|x d]; cbn; intros H; try lia; auto.
        f_equal. apply IH. lia.
      - intros i u Hu. apply (HT (Datatypes.S i) u Hu).
      - intros i u Hu. apply (Hm (Datatypes.S i) u Hu). }
    rewrite <- H1, Hp. clear. generalize (n_of W0). induction hist as [|x l IH]; intros n; cbn; auto.
  Qed.

  Lemma step_conc h y m : rr [] h start = Ok y -> conc_inv h y -> e_mode V = Release \/ (exists z, rstep h y m = Ok z) ->
    exists y', rstep h y m = Ok y' /\ conc_inv (h ++ [m]) y'.
  Proof.
    intros Hrun [Hids Hpv (hist & R & rows & k & Hsh & Hth) Hqu Hsv] Hmode.
    destruct y as [W ts]. cbn [fst snd] in *. remember (fst m) as i0 eqn:Ei0.
    assert (Hsv' : forall i t s ls, nth_error ts i = Some t -> In (Saved s ls) (t_log t) ->
               exists h1 h2 y1, h ++ [m] = h1 ++ h2 /\ rr [] h1 start = Ok y1 /\ saved_ok (fst y1) s ls /\ all_returned y1).
    { intros i t s ls H1 H2. destruct (Hsv _ _ _ _ H1 H2) as (h1 & h2 & y1 & -> & H3). exists h1, (h2 ++ [m]), y1. rewrite app_assoc. auto. }
    destruct (nth_error ts i0) as [t|] eqn:Et.
    2:{ exists (W, ts). unfold rsys_step. cbn [snd]. rewrite <- Ei0, Et. split; auto. constructor; auto. exists hist, R, rows, k. split; auto. intros i u Hu. destruct (Hth _ _ Hu) as [T1 T2 T3]. constructor; auto. exact (Forall_impl _ (@back_then_snoc h m) T3). }
    set (ok := P h (W, ts) i0). pose proof (ii_lock Hids) as HL.
    assert (Hstep : forall z, tstep W t ok (snd m) = Ok z -> rstep h (W, ts) m = Ok (fst z, set_nth ts i0 (snd z))).
    { intros z Hz. unfold rsys_step. cbn [fst snd]. rewrite <- Ei0, Et. fold ok. rewrite Hz. reflexivity. }
    assert (Hnq : needs_quiet (t_pc t) ok -> quiet (W, ts)).
    { intros Hn j u Hu. cbn [snd] in Hu. destruct (crit (t_pc u)) eqn:Ec; auto. exfalso.
      destruct (Nat.eq_dec j i0) as [->|Hne].
      { rewrite Hu in Et. injection Et as ->. destruct (t_pc t); cbn in *; auto; discriminate. }
      pose proof (to_pc (Hth _ _ Hu)) as Hlu. destruct (t_pc t) eqn:Ep; cbn [needs_quiet] in Hn; try contradiction.
      - destruct (crit_guard Ec) as (a & Ha).
        destruct (HP (h := h) (y := (W, ts)) (i := i0) (l := LElems) (a := AWrite)) with (j := j) (b := a) as [H1 _]; [exists t; rewrite Ep; auto|auto|exists u; auto|discriminate].
      - assert (Hw : In (LWrite, ARead) (guards (t_pc u))).
        { destruct (t_pc u); try discriminate; cbn [local] in Hlu; cbn [guards]; destruct Hlu as [Hd _]; destruct d; try lia; cbn; auto 6. }
        destruct (li_compat HL (i := i0) (j := j) (t := t) (u := u) (l := LWrite) (a := AWrite) (b := ARead)) as [H1 _]; auto; [rewrite Ep; cbn; auto|discriminate]. }
    destruct (@step_local (back_then (h ++ [m])) hist W R rows k t ok (snd m)) as (W' & t' & hist' & R' & rows' & k' & Es & Hsh' & Hth' & Hpv' & Hcr & Hch); auto.
    { intros [xs ids|q ms nn out|s ls]; cbn [back_then]; auto. intros Hf. exists h, [m], (W, ts). auto. }
    { destruct (Hth _ _ Et) as [T1 T2 T3]. constructor; auto. eapply Forall_impl; [|exact T3]. intros r. apply back_then_snoc. }
    { destruct Hmode as [Hm|(z & Hz)]; auto. right. unfold rsys_step in Hz. cbn [fst snd] in Hz. rewrite <- Ei0, Et in Hz. fold ok in Hz.
      destruct (tstep W t ok (snd m)) as [r|]; [eauto|discriminate]. }
    specialize (Hstep _ Es). cbn [fst snd] in Hstep. exists (W', set_nth ts i0 t'). split; auto.
    assert (Hi0 : i0 < length ts) by (apply nth_error_Some; congruence).
    assert (Hnth : forall j u, nth_error (set_nth ts i0 t') j = Some u -> (j = i0 /\ u = t') \/ (j <> i0 /\ nth_error ts j = Some u)).
    { intros j u. rewrite nth_error_set_nth. destruct (Nat.ltb_spec i0 (length ts)); [|lia]. rewrite andb_true_r. destruct (Nat.eqb_spec i0 j) as [->|].
      - intros H2. injection H2 as <-. auto.
      - auto. }
    constructor; cbn [fst snd]; auto.
    - eapply step_ids_inv; eauto.
    - exists hist', R', rows', k'. split; auto. intros j u Hu. destruct (Hnth _ _ Hu) as [[-> ->]|[Hne Hu']]; auto.
      eapply (@other_ok (back_then h) (back_then (h ++ [m])) hist W R rows k hist' W' R' rows' k' t u i0 j ts); eauto. intros r. apply back_then_snoc.
    - intros Hq'. assert (Hct' : crit (t_pc t') = false).
      { apply (Hq' i0). cbn [snd]. rewrite nth_error_set_nth, Nat.eqb_refl. destruct (Nat.ltb_spec i0 (length ts)); [auto|lia]. }
      destruct (crit (t_pc t)) eqn:Ect; [auto|]. destruct Hch as [(-> & _)|(H0 & _)]; [|congruence].
      apply Hqu. intros j u Hu. cbn [snd] in Hu. destruct (Nat.eq_dec j i0) as [->|Hne]; [congruence|].
      apply (Hq' j). cbn [snd]. rewrite nth_error_set_nth. destruct (Nat.eqb_spec i0 j); [congruence|auto].
    - intros j u s ls Hu Hin. destruct (Hnth _ _ Hu) as [[-> ->]|[Hne Hu']]; [|eauto].
      destruct (step_log Es Hin) as [Hold|(k0 & rows0 & Ep & Hk0 & Els)]; [eauto|].
      exists h, [m], (W, ts). split; auto. split; auto. pose proof (to_pc (Hth _ _ Et)) as Hl. rewrite Ep in Hl. cbn [local] in Hl.
      destruct Hl as (-> & Hle & ->). rewrite firstn_all2 in Els by auto.
      assert (Hq0 : quiet (W, ts)) by (apply Hnq; rewrite Ep; exact Logic.I). split; [split; auto|].
      apply quiet_returned; auto. intros j u Hu0. cbn [snd] in Hu0. destruct (Nat.eq_dec j i0) as [->|Hne].
      { rewrite Hu0 in Et. injection Et as ->. rewrite Ep. reflexivity. }
      assert (Hnw : ~ In (LWrite, ARead) (guards (t_pc u))).
      { intros H0. destruct (li_compat HL (i := i0) (j := j) (t := t) (u := u) (l := LWrite) (a := AWrite) (b := ARead)) as [H1 _]; auto; [rewrite Ep; cbn; auto|discriminate]. }
      pose proof (to_pc (Hth _ _ Hu0)) as Hl. pose proof (Hq0 _ _ Hu0) as Hc.
      destruct (t_pc u); cbn [mine crit local guards] in *; auto; try discriminate; destruct d; auto; try lia; elim Hnw; cbn; auto.
  Qed.

  Definition good_start : Prop := exists R rows k, shared [] W0 R rows k.

  Lemma start_conc : good_start -> conc_inv [] start.
  Proof.
    intros (R & rows & k & H). constructor; cbn [rstart fst snd]; auto.
    - apply start_ids.
    - exists [], R, rows, k. split; auto. intros i t Ht.
      rewrite nth_error_map in Ht. destruct (nth_error progs i) as [cs|] eqn:Ei; [|discriminate]. cbn in Ht. injection Ht as <-.
      constructor; cbn [t_pc t_todo t_log local]; auto. unfold calls_ok in Hcalls. rewrite Forall_forall in Hcalls. apply Hcalls. eapply nth_error_In; eauto.
    - intros _. constructor.
    - intros i t s ls Ht Hin. destruct (start_nth (E := E) (W := W0) Ht) as (cs & ->). destruct Hin.
  Qed.

  Lemma run_conc sched y : good_start -> rr [] sched start = Ok y -> conc_inv sched y.
  Proof.
    intros Hg. revert y. induction sched as [|m sched IH] using rev_ind; intros y Hr.
    - cbn in Hr. injection Hr as <-. apply start_conc; auto.
    - rewrite rrun_snoc in Hr. destruct (rr [] sched start) as [y1|] eqn:E1; [|discriminate]. cbn [obind app] in Hr.
      destruct (@step_conc sched y1 m E1 (IH _ eq_refl)) as (y' & E2 & H2); [eauto|]. congruence.
  Qed.

  Lemma run_release sched : good_start -> e_mode V = Release -> exists y, rr [] sched start = Ok y.
  Proof.
    intros Hg Hm. induction sched as [|m sched IH] using rev_ind.
    - cbn. eauto.
    - destruct IH as (y & Hy). rewrite rrun_snoc, Hy. cbn [obind app].
      destruct (@step_conc sched y m Hy (run_conc Hg Hy)) as (y' & E2 & H2); eauto.
  Qed.
End Conc.
