(** * Proofs: the ids handed out by the concurrent builder *)
From Verif Require Import Base BaseFacts MSliceVec MIndexIo MSearch MBuild SBuild PBuildRun MLocks MRw SRw PRwSeq PRwLock.
Set Implicit Arguments.
Unset Strict Implicit.

Lemma combine_app_eq {A B} (a1 a2 : list A) (b1 b2 : list B) : length a1 = length b1 ->
  combine (a1 ++ a2) (b1 ++ b2) = combine a1 b1 ++ combine a2 b2.
Proof. revert b1. induction a1 as [|x a1 IH]; intros [|y b1]; cbn; intros H; try lia; auto. rewrite IH; auto. Qed.
Lemma combine_app_r {A B} (a : list A) (b1 b2 : list B) : length a = length b1 -> combine a (b1 ++ b2) = combine a b1.
Proof. intros H. rewrite <- (app_nil_r a) at 1. rewrite combine_app_eq by auto. cbn. now rewrite app_nil_r. Qed.

Lemma sorted_snoc l (x : nat) : StronglySorted lt l -> Forall (fun i => i < x) l -> StronglySorted lt (l ++ [x]).
Proof.
  induction 1 as [|a l Hs IH Ha]; intros HF; cbn; [repeat constructor|]. inversion HF; subst. constructor; auto.
  apply Forall_app. split; auto.
Qed.
Lemma firstn_seq_snoc a n k : k < n -> firstn (Datatypes.S k) (seq a n) = firstn k (seq a n) ++ [a + k].
Proof.
  revert a n. induction k as [|k IH]; intros a [|n] H; try lia; cbn [seq firstn app].
  - now rewrite Nat.add_0_r.
  - rewrite <- Nat.add_succ_comm. specialize (IH (Datatypes.S a) n ltac:(lia)). cbn [firstn] in IH. now rewrite IH.
Qed.
Lemma flat_map_set {A B} (f : A -> list B) l i t t' extra : nth_error l i = Some t -> Permutation (f t') (f t ++ extra) ->
  Permutation (flat_map f (set_nth l i t')) (flat_map f l ++ extra).
Proof.
  intros Hi Hp. revert i Hi. induction l as [|a l IH]; intros [|i] Hi; try discriminate; cbn [set_nth flat_map].
  - cbn in Hi. injection Hi as ->. rewrite Hp, <- !app_assoc. apply Permutation_app_head, Permutation_app_comm.
  - rewrite <- app_assoc. apply Permutation_app_head. apply IH; auto.
Qed.

Section Ids.
  Context {S E I : Type} (V : benv S E) (cpush : S -> I -> outcome S) (cfg : config) (max : nat) (W0 : rw S).
  Local Notation C := (e_ops V).
  Local Notation n_of W := (c_len C (w_elems W)).
  Local Notation tstep := (thread_step V cpush cfg max).
  Hypothesis Hpush : push_law C cpush.

  (** the ids a thread has obtained in the call it is in *)
  Definition mine (p : pc S E I) : list nat :=
    match p with
    | ICheck _ acc _ | ITest _ acc _ | IGuard _ acc _ | IElems _ acc _ | ILayers _ acc _ | IRoom _ acc _ | INew _ acc _
    | ISplit _ acc _ | IReturn acc _ => acc
    | IPush todo ids _ acc _ => acc ++ firstn (length ids - length todo) ids
    | IDownL ids _ acc _ | IDownE ids _ acc _ | IIndex _ ids _ acc _ => acc ++ ids
    | _ => []
    end.

  Definition rest_ok (n : nat) (p : pc S E I) (full : Prop) (rest : list I) : Prop :=
    match p with
    | ICheck xs _ _ | ITest xs _ _ | IGuard xs _ _ | IElems xs _ _ | ILayers xs _ _ | IRoom xs _ _ | INew xs _ _
    | ISplit xs _ _ => rest = xs
    | IPush todo ids r acc _ =>
        rest = todo ++ r /\ length todo <= length ids /\
        exists b, ids = seq b (length ids) /\ b + (length ids - length todo) = n
    | IDownL _ r _ _ | IDownE _ r _ _ | IIndex _ _ r _ _ => rest = r
    | IReturn _ _ => rest <> [] -> full
    | _ => True
    end.

  (** [ids] is what a batch got so far *)
  Definition got (n : nat) (xs : list I) (ids : list nat) (Q : list I -> Prop) : Prop :=
    exists done rest, xs = done ++ rest /\ length done = length ids /\ StronglySorted lt ids /\
      Forall (fun i => i < n) ids /\ Q rest.

  Definition log_ok (n : nat) (r : result S E I) : Prop :=
    match r with Inserted xs ids => got n xs ids (fun rest => rest <> [] -> max <= n) | _ => True end.

  Record thread_ids (n : nat) (t : thread S E I) : Prop := mkThreadIds {
    ti_pc : got n (t_batch t) (mine (t_pc t)) (rest_ok n (t_pc t) (max <= n));
    ti_log : Forall (log_ok n) (t_log t)
  }.

  Lemma got_mono n n' xs ids (Q Q' : list I -> Prop) : n <= n' -> (forall r, Q r -> Q' r) -> got n xs ids Q -> got n' xs ids Q'.
  Proof.
    intros Hn HQ (d & r & H1 & H2 & H3 & H4 & H5). exists d, r. split; auto. split; auto. split; auto. split; auto.
    eapply Forall_impl; [|exact H4]. cbn. intros; lia.
  Qed.

  Lemma log_mono n n' l : n <= n' -> Forall (log_ok n) l -> Forall (log_ok n') l.
  Proof.
    intros Hn. apply Forall_impl. intros [xs ids| |]; cbn; auto. apply got_mono; auto. intros r H Hr. specialize (H Hr). lia.
  Qed.

  Lemma thread_mono n n' t : n <= n' -> crit (t_pc t) = false -> thread_ids n t -> thread_ids n' t.
  Proof.
    intros Hn Hc [H1 H2]. constructor; [|eapply log_mono; eauto]. eapply got_mono; [exact Hn| |exact H1].
    intros r. destruct (t_pc t); cbn [rest_ok crit] in *; auto; try discriminate. intros H Hr. specialize (H Hr). lia.
  Qed.

  (** pairs (id, element) obtained by a thread *)
  Definition log_claims (r : result S E I) : list (nat * I) :=
    match r with Inserted xs ids => combine ids xs | _ => [] end.
  Definition claims (t : thread S E I) : list (nat * I) :=
    flat_map log_claims (t_log t) ++ combine (mine (t_pc t)) (t_batch t).

  (** a step appends at most one element, which it claims *)
  Lemma step_ids W t ok k W' t' : tstep W t ok k = Ok (W', t') -> thread_ids (n_of W) t ->
    exists xs, ofold cpush xs (w_elems W) = Ok (w_elems W') /\ n_of W' = n_of W + length xs /\
      thread_ids (n_of W') t' /\ Permutation (claims t') (claims t ++ combine (seq (n_of W) (length xs)) xs) /\
      (xs <> [] -> crit (t_pc t) = true).
  Proof.
    destruct t as [p ba td lg]. intros Es [Hg Hl]. cbn [t_pc t_batch t_todo t_log] in *.
    destruct Hg as (dn & rest & Hb & Hlen & Hso & HF & HQ).
    assert (Hstill : forall W1 p1 b1 td1 lg1,
       w_elems W1 = w_elems W -> got (n_of W) b1 (mine p1) (rest_ok (n_of W) p1 (max <= n_of W)) -> Forall (log_ok (n_of W)) lg1 ->
       Permutation (claims (mkThread p1 b1 td1 lg1)) (claims (mkThread p ba td lg)) ->
       exists xs, ofold cpush xs (w_elems W) = Ok (w_elems W1) /\ n_of W1 = n_of W + length xs /\
         thread_ids (n_of W1) (mkThread p1 b1 td1 lg1) /\
         Permutation (claims (mkThread p1 b1 td1 lg1)) (claims (mkThread p ba td lg) ++ combine (seq (n_of W) (length xs)) xs) /\
         (xs <> [] -> crit p = true)).
    { intros W1 p1 b1 td1 lg1 He H1 H2 H3. exists []. cbn [ofold length seq combine]. rewrite He, app_nil_r, Nat.add_0_r.
      split; auto. split; auto. split; [constructor; auto|]. split; [auto|congruence]. }
    unfold thread_step in Es. cbn [t_pc t_batch t_todo t_log] in Es.
    destruct p; cbn [mine rest_ok] in *; inv_step Es; injection Es as <- <-;
      try (apply Hstill; [reflexivity|exists dn, rest; cbn [mine rest_ok]; auto 10; fail|assumption|reflexivity]; fail).
    - (* a call begins *)
      apply Hstill; auto.
      + destruct r; cbn [begin_call mine rest_ok]; [exists [], xs|exists [], []|exists [], []]; repeat split; auto; constructor.
      + unfold claims. cbn [t_pc t_batch t_todo t_log mine]. destruct r; cbn [begin_call mine]; cbn [combine]; auto.
    - (* the length is tested *)
      destruct (Nat.leb_spec max (n_of W)); apply Hstill; auto; exists dn, rest; cbn [mine rest_ok]; auto 10.
    - destruct (layer_full V W); apply Hstill; auto; exists dn, rest; cbn [mine rest_ok]; auto 10.
    - unfold new_layer in Ex. inv_step Ex. injection Ex as <-. apply Hstill; cbn [w_elems]; auto. exists dn, rest; cbn [mine rest_ok]; auto 10.
    - (* the batch is split *)
      unfold split_batch in Ex. inv_step Ex. injection Ex as <- <- <-. set (num := Nat.min (length xs) (length (w_cur W) - n_of W)).
      assert (Hn0 : length (seq (n_of W) num) - length (firstn num xs) = 0) by (rewrite seq_length, firstn_length; lia).
      apply Hstill; auto.
      + cbn [mine]. rewrite Hn0. cbn [firstn]. rewrite app_nil_r. exists dn, rest. cbn [rest_ok].
        split; auto. split; auto. split; auto. split; auto. split; [rewrite firstn_skipn; auto|].
        split; [rewrite seq_length, firstn_length; lia|]. exists (n_of W). rewrite seq_length, firstn_length. split; auto. lia.
      + unfold claims. cbn [t_pc t_batch t_todo t_log mine]. rewrite Hn0. cbn [firstn]. now rewrite app_nil_r.
    - (* all elements are appended *)
      destruct HQ as (-> & Hle & b & Hids & Hbn). cbn [length app] in *. rewrite Nat.sub_0_r, firstn_all in *.
      apply Hstill; auto; [exists dn, rest0; cbn [mine rest_ok]; auto 10|]. unfold claims. cbn [t_pc t_batch t_todo t_log mine length].
      now rewrite Nat.sub_0_r, firstn_all.
    - (* an element is appended *)
      destruct HQ as (-> & Hle & b & Hids & Hbn). destruct (Hpush Ex0) as (HL & _). cbn [length] in *.
      exists [i]. cbn [ofold w_elems length seq combine]. rewrite Ex0. cbn [obind]. split; auto. split; [lia|].
      set (q := length ids - Datatypes.S (length l)) in *.
      assert (Hq : length ids - length l = Datatypes.S q) by lia.
      assert (Hfst : firstn (Datatypes.S q) ids = firstn q ids ++ [n_of W]).
      { pose proof (@firstn_seq_snoc b (length ids) q ltac:(lia)) as Hf. rewrite <- Hids in Hf. rewrite Hf. do 2 f_equal. lia. }
      assert (Hmine : mine (IPush l ids rest0 acc d : pc S E I) = (acc ++ firstn q ids) ++ [n_of W]).
      { cbn [mine]. rewrite Hq, Hfst, app_assoc. auto. }
      assert (HF' : Forall (fun j => j < c_len C a) ((acc ++ firstn q ids) ++ [n_of W])).
      { rewrite HL. apply Forall_app. split; [eapply Forall_impl; [|exact HF]; cbn; intros; lia|]. constructor; auto. }
      split; [|split; [|intros _; reflexivity]].
      + constructor; cbn [t_pc t_batch t_todo t_log]; [|eapply log_mono; [|exact Hl]; lia].
        exists (dn ++ [i]), (l ++ rest0). rewrite Hmine. split; [rewrite Hb, <- app_assoc; auto|].
        split; [rewrite !app_length; cbn [length]; rewrite !app_length in Hlen; lia|].
        split; [apply sorted_snoc; auto|]. split; [auto|]. cbn [rest_ok]. split; auto. split; [lia|]. exists b. split; auto. lia.
      + unfold claims. cbn [t_pc t_batch t_todo t_log]. rewrite Hmine. cbn [mine length]. fold q. rewrite <- (app_assoc (flat_map log_claims lg)).
        apply Permutation_app_head. rewrite Hb.
        replace (dn ++ (i :: l) ++ rest0) with ((dn ++ [i]) ++ l ++ rest0) by (rewrite <- app_assoc; auto).
        rewrite combine_app_r by (rewrite !app_length; cbn [length]; rewrite app_length in Hlen; lia).
        rewrite combine_app_eq by auto. cbn [combine]. rewrite <- !app_assoc, combine_app_r by auto. auto.
    - (* the tasks are done *)
      destruct rest0 as [|x0 rest0]; apply Hstill; auto; exists dn, rest; cbn [mine rest_ok]; auto 10. subst. repeat split; auto. congruence.
    - (* the call returns *)
      apply Hstill; auto.
      + exists [], []. cbn [mine rest_ok]. repeat split; constructor.
      + apply Forall_app. split; [auto|]. constructor; [|constructor]. exists dn, rest. auto 10.
      + unfold claims. cbn [t_pc t_batch t_todo t_log mine]. rewrite flat_map_app. cbn [flat_map log_claims combine]. now rewrite !app_nil_r.
    - apply Hstill; auto.
      + exists [], []. cbn [mine rest_ok]. repeat split; constructor.
      + apply Forall_app. split; [auto|]. constructor; [exact Logic.I|constructor].
      + unfold claims. cbn [t_pc t_batch t_todo t_log mine]. rewrite flat_map_app. cbn [flat_map log_claims combine]. now rewrite !app_nil_r.
    - apply Hstill; auto.
      + exists [], []. cbn [mine rest_ok]. repeat split; constructor.
      + apply Forall_app. split; [auto|]. constructor; [exact Logic.I|constructor].
      + unfold claims. cbn [t_pc t_batch t_todo t_log mine]. rewrite flat_map_app. cbn [flat_map log_claims combine]. now rewrite !app_nil_r.
    - apply Hstill; auto.
      + exists [], []. cbn [mine rest_ok]. repeat split; constructor.
      + apply Forall_app. split; [auto|]. constructor; [exact Logic.I|constructor].
      + unfold claims. cbn [t_pc t_batch t_todo t_log mine]. rewrite flat_map_app. cbn [flat_map log_claims combine]. now rewrite !app_nil_r.
  Qed.

  (** ** The invariant of the system *)
  Record ids_inv (y : rsys S E I) : Prop := mkIdsInv {
    ii_lock : lock_inv y;
    ii_thread : forall i t, nth_error (snd y) i = Some t -> thread_ids (n_of (fst y)) t;
    ii_hist : exists hist, ofold cpush hist (w_elems W0) = Ok (w_elems (fst y)) /\
      n_of (fst y) = n_of W0 + length hist /\
      Permutation (flat_map claims (snd y)) (combine (seq (n_of W0) (length hist)) hist)
  }.

  Lemma start_ids progs : ids_inv (rstart W0 progs).
  Proof.
    constructor; [apply start_lock| |].
    - intros i t Hi. destruct (start_nth Hi) as (cs & ->). constructor; [|constructor]. exists [], []. cbn. repeat split; constructor.
    - exists []. split; auto. split; [cbn; lia|]. cbn [length seq combine]. unfold rstart. cbn [snd].
      induction progs as [|c progs IH]; cbn; auto.
  Qed.

  Lemma step_ids_inv P h y m y' : safe_locks P -> ids_inv y -> rsys_step V cpush cfg max P h y m = Ok y' -> ids_inv y'.
  Proof.
    intros HP [HL HT (hist & Hh & Hn & Hp)] Es. pose proof (step_lock HP HL Es) as HL'.
    destruct y as [W ts]. unfold rsys_step in Es. cbn [fst snd] in *. destruct (nth_error ts (fst m)) as [t|] eqn:Et.
    2:{ injection Es as <-. constructor; auto. exists hist. auto. }
    destruct (tstep W t (P h (W, ts) (fst m)) (snd m)) as [[W' t']|] eqn:E1; [|discriminate]. cbn [obind fst snd] in Es. injection Es as <-.
    destruct (step_ids E1 (HT _ _ Et)) as (xs & Hx & Hnx & HT' & Hpx & Hcx).
    constructor; auto.
    - cbn [fst snd]. intros j u Hu. rewrite nth_error_set_nth in Hu. assert (Hlt : fst m < length ts) by (apply nth_error_Some; congruence).
      apply Nat.ltb_lt in Hlt. rewrite Hlt, andb_true_r in Hu. destruct (Nat.eqb_spec (fst m) j) as [Ej|Hne].
      + injection Hu as <-. auto.
      + destruct xs as [|x xs]; [|apply (@thread_mono (n_of W))].
        * cbn [length] in Hnx. rewrite Nat.add_0_r in Hnx. rewrite Hnx. eauto.
        * lia.
        * apply (li_crit HL Hne Et Hu). apply Hcx. discriminate.
        * eauto.
    - exists (hist ++ xs). cbn [fst snd]. rewrite app_length. split; [rewrite ofold_app, Hh; auto|]. split; [lia|].
      rewrite (flat_map_set Et Hpx). rewrite seq_app, combine_app_eq by apply seq_length. rewrite Hn.
      apply Permutation_app_tail. auto.
  Qed.

  Lemma run_ids P h sched progs y : safe_locks P -> rrun V cpush cfg max P h sched (rstart W0 progs) = Ok y -> ids_inv y.
  Proof. intros HP. apply rrun_inv; [|apply start_ids]. intros. eapply step_ids_inv; eauto. Qed.
End Ids.
