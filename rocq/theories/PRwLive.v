(** * Proofs: the calls of a concurrent builder do not go on for ever *)
From Verif Require Import Base BaseFacts MSliceVec SSliceVec PFixed MIndexIo MSearch PHeap PSearch MBuild SBuild PSelect PRow PSLite PBuildInv PBuildRun PBuildLayer PBuildFair PBuilder PHistory PBuildAny MLocks MRw SRw PRwSeq PRwLock PRwIds PRwConc PRwTop PRwSingle.
Set Implicit Arguments.
Unset Strict Implicit.

Section Live.
  Context {S E I : Type} (V : benv S E) (cpush : S -> I -> outcome S) (cfg : config) (max : nat).
  Local Notation C := (e_ops V).
  Local Notation n_of W := (c_len C (w_elems W)).
  Local Notation tstep := (thread_step V cpush cfg max).

  (** ** Weights *)
  (** [n] elements, [c] rows *)
  Definition full (n : nat) : bool := max <=? n.
  Definition cont (n : nat) (rest : list I) : nat := match rest with [] => 1 | _ => if full n then 3 else 16 end.
  Definition tot (n : nat) (ids : list nat) : nat := length ids * (4 * n + 7).
  Definition pcw (n c : nat) (p : pc S E I) : nat :=
    match p with
    | Idle => 0
    | ICheck _ _ _ => if full n then 3 else 16
    | ITest _ _ _ => if full n then 2 else 15
    | IGuard _ _ _ => if full n then 16 else 14
    | IElems _ _ _ => if full n then 15 else 13
    | ILayers _ _ _ => if full n then 14 else 12
    | IRoom _ _ _ => if full n then 13 else 11
    | INew _ _ _ => if full n then 12 else 10
    | ISplit xs _ _ => if n <? c then 10 else 8 + cont n xs
    | IPush [] ids rest _ _ => 7 + tot n ids + cont n rest
    | IPush (_ :: _) _ _ _ _ => 1
    | IDownL ids rest _ _ => 6 + tot n ids + cont n rest
    | IDownE ids rest _ _ => 5 + tot n ids + cont n rest
    | IIndex ts _ rest _ _ => 4 + total n ts + cont n rest
    | IReturn _ _ => 1
    | SElems _ _ _ => 2 * n + 6
    | SLayers _ _ _ => 2 * n + 5
    | SEntry _ _ _ => 2 * n + 4
    | SLoop _ _ _ st => 1 + smeas n st
    | WGuard => c + 6
    | WElems => c + 5
    | WLayers => c + 4
    | WData => c + 3
    | WRow _ k _ => (c - k) + 1
    end.
  Definition callw (n c : nat) (r : rcall E I) : nat :=
    match r with RInsert _ => 18 | RSearch _ _ _ => 2 * n + 8 | RSave => c + 8 end.
  Definition tw (n c : nat) (t : thread S E I) : nat := pcw n c (t_pc t) + sum_nat (map (callw n c) (t_todo t)).
  Definition weight (y : rsys S E I) : nat :=
    sum_nat (map (tw (n_of (fst y)) (length (w_cur (fst y)))) (snd y)).

  (** how much there is left to insert: elements, layers *)
  Definition left (L : nat) (W : rw S) : nat := (max - n_of W) + (L - length (w_prev W)).

  (** the task that is to move, if any, has something left to do *)
  Definition busy_task (t : thread S E I) (k : nat) : Prop :=
    forall ts ids rest acc d, t_pc t = IIndex ts ids rest acc d -> all_done ts = false ->
    exists idx st, nth_error ts k = Some (idx, st) /\ st <> TDone.

  Lemma starts_total n (ids : list nat) : total n (map (fun i => (i, TStart (E := E))) ids) = tot n ids.
  Proof. unfold total, tot. rewrite map_map. induction ids as [|i ids IH]; auto. cbn [map sum_nat fold_right length snd tmeas] in *. unfold sum_nat in IH. cbn [snd tmeas] in IH. lia. Qed.

  Context (W0 : rw S).
  Hypothesis Hsort : sorts_by_dist (e_sort V).
  Hypothesis Hpush : push_law C cpush.
  Hypothesis Hwork : elems_work V cpush max (w_elems W0).
  Hypothesis Hsizes : sizes_ok cfg max W0.
  Hypothesis Hnn : 0 < k_nn cfg.
  Hypothesis Hms : 0 < k_ms cfg.
  Variable U : bool.
  Context (L : nat).
  Hypothesis HLmax : k_ideal cfg max L = max.
  Definition big (W : rw S) : Prop := k_ideal cfg max (length (w_prev W)) <= length (w_cur W).

  Lemma step_weight Q hist W R rows k t ok j W' t' :
    shared V cpush cfg max W0 U hist W R rows k -> thread_ok V cpush cfg max W0 U Q W R rows k t -> big W ->
    tstep W t ok j = Ok (W', t') -> ~ finished t -> (wants (t_pc t) <> None -> ok = true) -> busy_task t j ->
    big W' /\
    (left L W' < left L W \/
     (left L W' <= left L W /\ n_of W' = n_of W /\ length (w_cur W') = length (w_cur W) /\
      tw (n_of W) (length (w_cur W)) t' < tw (n_of W) (length (w_cur W)) t)).
  Proof.
    intros H [Hpc Htd _] Hbig Es Hf Hok Hbusy. pose proof (sh_len H) as HLc. pose proof (sh_max Hsizes Hnn Hms H) as Hmax.
    pose proof (sh_cap H) as Hcap. pose proof (so_max Hsizes (Datatypes.S (length (w_prev W)))) as Hm1.
    destruct t as [p ba td lg]. unfold thread_step in Es. cbn [t_pc t_batch t_todo t_log] in *. unfold tw. cbn [t_pc t_todo].
    assert (Hsame : forall t1, Ok (W, t1) = Ok (W', t') -> 
      pcw (n_of W) (length (w_cur W)) (t_pc t1) + sum_nat (map (callw (n_of W) (length (w_cur W))) (t_todo t1)) <
      pcw (n_of W) (length (w_cur W)) p + sum_nat (map (callw (n_of W) (length (w_cur W))) td) ->
      big W' /\ (left L W' < left L W \/
     (left L W' <= left L W /\ n_of W' = n_of W /\ length (w_cur W') = length (w_cur W) /\
      pcw (n_of W) (length (w_cur W)) (t_pc t') + sum_nat (map (callw (n_of W) (length (w_cur W))) (t_todo t')) <
      pcw (n_of W) (length (w_cur W)) p + sum_nat (map (callw (n_of W) (length (w_cur W))) td)))).
    { intros t1 He Hlt. injection He as <- <-. split; auto. }
    destruct p; cbn [local wants] in *;
      try (assert (ok = true) by (apply Hok; discriminate); subst ok);
      try (eapply Hsame; [exact Es|]; cbn [t_pc t_todo pcw]; destruct (full (n_of W)); lia).
    - (* Idle *)
      destruct td as [|c cs]; [elim Hf; split; auto|]. eapply Hsame; [exact Es|]. cbn [t_pc t_todo].
      destruct c; cbn [begin_call pcw map sum_nat fold_right callw]; unfold sum_nat; try (destruct (full (n_of W))); lia.
    - (* ITest *)
      eapply Hsame; [exact Es|]. cbn [t_pc t_todo]. change (max <=? n_of W) with (full (n_of W)). destruct (full (n_of W)) eqn:Ef; cbn [pcw]; rewrite Ef; lia.
    - (* IRoom *)
      eapply Hsame; [exact Es|]. cbn [t_pc t_todo]. unfold layer_full. destruct (Nat.leb_spec (length (w_cur W)) (n_of W)); cbn [pcw].
      + destruct (full (n_of W)); lia.
      + destruct (Nat.ltb_spec (n_of W) (length (w_cur W))); [|lia]. destruct (full (n_of W)); lia.
    - (* INew *)
      destruct Hpc as (Hd & Hps & Hlf). destruct (new_layer_ok (V := V) Hsizes Hnn Hms H Hlf) as (W1 & k1 & E1 & H1 & He & Hl & Hc).
      rewrite E1 in Es. cbn [obind] in Es. injection Es as <- <-. unfold layer_full in Hlf. apply Nat.leb_le in Hlf.
      split; [unfold big; rewrite Hc; lia|]. unfold left. rewrite He. cbn [t_pc t_todo pcw].
      destruct (full (n_of W)) eqn:Ef; unfold full in Ef; [apply Nat.leb_le in Ef|apply Nat.leb_gt in Ef].
      + right. rewrite Hl in Hc. assert (length (w_cur W1) = max) by (pose proof (so_max Hsizes (Datatypes.S (length (w_prev W)))); lia).
        split; [lia|]. split; [auto|]. split; [lia|].
        destruct (Nat.ltb_spec (n_of W) (length (w_cur W))); [lia|]. unfold cont, full.
        destruct (Nat.leb_spec max (n_of W)); [|lia]. destruct xs; lia.
      + left. destruct (Nat.lt_ge_cases (length (w_prev W)) L) as [Hlt|Hge]; [rewrite Hl; lia|].
        pose proof (so_mono Hsizes L (length (w_prev W)) Hge). unfold big in Hbig. lia.
    - (* ISplit *)
      rewrite (split_ok Hnn Hms xs H) in Es. cbn [obind] in Es. eapply Hsame; [exact Es|]. cbn [t_pc t_todo pcw].
      set (num := Nat.min (length xs) k). destruct (Nat.ltb_spec (n_of W) (length (w_cur W))) as [Hlt|Hge].
      + destruct xs as [|x xs]; [cbn [firstn skipn length num]; cbn [num Nat.min length seq]; unfold tot, cont; cbn; lia|].
        destruct num as [|num'] eqn:En; [unfold num in En; cbn [length] in En; lia|]. cbn [firstn]. lia.
      + assert (num = 0) as -> by (unfold num; lia). cbn [firstn skipn seq]. unfold tot. cbn [length]. lia.
    - (* IPush *)
      destruct todo as [|x todo].
      { eapply Hsame; [exact Es|]. cbn [t_pc t_todo pcw]. lia. }
      destruct Hpc as (Hd & Wb & W1 & xs & dn & Hps & Hr & Es1 & Ef & Hc & Hw & Hp & Hk & Hids & Hn).
      destruct (cpush (w_elems W) x) as [s'|] eqn:Ep; [|discriminate]. cbn [obind] in Es. injection Es as <- <-.
      destruct (Hpush Ep) as (HL1 & _). cbn [length] in Hk. split; [exact Hbig|]. left. unfold left. cbn [w_elems w_prev]. rewrite HL1. lia.
    - (* IDownE *)
      eapply Hsame; [exact Es|]. cbn [t_pc t_todo pcw]. rewrite starts_total. lia.
    - (* IIndex *)
      destruct (all_done ts) eqn:Edone.
      { eapply Hsame; [exact Es|]. cbn [t_pc t_todo pcw]. destruct rest; cbn [pcw cont]; destruct (full (n_of W)); lia. }
      destruct Hpc as (Hd & _ & HI). destruct (sys_step V (w_elems W) (k_nn cfg) (k_ms cfg) (w_prev W) (w_cur W, ts) j) as [x|] eqn:Ex; [|discriminate].
      destruct (@step_ok _ _ _ V cpush cfg max W0 Hsort Hwork Hsizes Hnn Hms U hist W R rows k ts j H HI) as (rows' & ts' & E2 & _ & _ & _ & _ & Hdec).
      { right. eauto. }
      rewrite Ex in E2. injection E2 as ->. cbn [obind fst snd] in Es. apply run_cur in Ex. cbn [fst] in Ex. injection Es as <- <-.
      split; [unfold big; cbn [w_prev w_cur]; rewrite Ex; exact Hbig|]. right. unfold left. cbn [w_elems w_prev w_cur t_pc t_todo pcw].
      split; [lia|]. split; auto. split; [exact Ex|]. destruct (Hbusy _ _ _ _ _ eq_refl Edone) as (idx & st & H1 & H2).
      specialize (Hdec _ _ H1 H2). lia.
    - (* SEntry *)
      destruct (rw_entry V W q) as [[e|]|]; cbn [obind] in Es; [| |discriminate].
      2:{ eapply Hsame; [exact Es|]. cbn [t_pc t_todo pcw]. lia. }
      destruct (s_init _ e ms) as [st|] eqn:Est; [|discriminate]. cbn [obind] in Es. eapply Hsame; [exact Es|]. cbn [t_pc t_todo pcw].
      unfold s_init in Est. destruct (c_dte C (w_elems W) e q); [|discriminate]. cbn [obind] in Est. injection Est as <-.
      unfold smeas. cbn [s_vis s_pq length]. lia.
    - (* SLoop *)
      destruct Hpc as (Hpc & Hst & _). pose proof (query_dist Hsizes Hnn Hms H Hpc) as Hqd. destruct Hpc as (Hms0 & _).
      destruct (slite_pop Hms0 Hst) as [E1|(k0 & pq & Epq & E1)]; rewrite E1 in Es; cbn [obind] in Es.
      { eapply Hsame; [exact Es|]. cbn [t_pc t_todo pcw]. lia. }
      destruct (l_key Hst (k := k0)) as [_ Hv]; [right; rewrite Epq; left; auto|]. destruct (l_vis Hst Hv) as [Hlt _].
      destruct (read_ok Hwork Hsizes Hnn Hms H Hlt) as (row & Erow & Hrow). rewrite Erow in Es. cbn [obind] in Es.
      destruct (slite_expand Hqd Hms0 Hst Epq Hrow) as (st' & E2 & _ & Hdec). rewrite E2 in Es. cbn [obind] in Es.
      eapply Hsame; [exact Es|]. cbn [t_pc t_todo pcw]. lia.
    - (* WRow *)
      destruct (Nat.ltb_spec k0 (length (w_cur W))).
      + destruct (index (w_cur W) k0); [|discriminate]. cbn [obind] in Es. eapply Hsame; [exact Es|]. cbn [t_pc t_todo pcw]. lia.
      + destruct (saved_layers V cfg s rows0 (w_prev W)); [|discriminate]. cbn [obind] in Es. eapply Hsame; [exact Es|]. cbn [t_pc t_todo pcw]. lia.
  Qed.
End Live.

Section Runs.
  Context {S E I : Type} (V : benv S E) (cpush : S -> I -> outcome S) (cfg : config) (max : nat).
  Context (W0 : rw S) (P : rpolicy S E I) (progs : list (list (rcall E I))).
  Local Notation C := (e_ops V).
  Local Notation n_of W := (c_len C (w_elems W)).
  Local Notation rstep := (rsys_step V cpush cfg max P).
  Local Notation rr := (rrun V cpush cfg max P).
  Local Notation start := (rstart W0 progs).
  Hypothesis Hse : session V cpush cfg max W0 P progs.
  Context (L : nat).
  Hypothesis HL : k_ideal cfg max L = max.
  Hypothesis H0 : k_ideal cfg max (length (w_prev W0)) <= length (w_cur W0).
  Local Notation weight := (weight V max).
  Local Notation left := (left V max L).

  Lemma big_step h y m y' : rr [] h start = Ok y -> big cfg max (fst y) -> rstep h y m = Ok y' -> big cfg max (fst y').
  Proof.
    intros Hr Hb E2. destruct Hse as [S1 S2 S3 S4 S5 S6 S7]. pose proof (ww_width S4) as [Hnn Hw]. pose proof (ww_ms S4) as Hms.
    pose proof (run_conc S1 S2 S3 S5 Hnn Hms S6 S7 (wf_start cpush S4 S5) Hr) as HC.
    destruct (ci_shared HC) as (hist & R & rows & k & Hsh & Hth). destruct y as [W ts]. unfold rsys_step in E2. cbn [fst snd] in *.
    destruct (nth_error ts (fst m)) as [t|] eqn:Et; [|injection E2 as <-; auto].
    pose proof (to_pc (Hth _ _ Et)) as Hl. revert E2 Hl. generalize (P h (W, ts) (fst m)) as ok. intros ok E2 Hl.
    destruct (thread_step V cpush cfg max W t ok (snd m)) as [[W' t']|] eqn:E3; [|discriminate]. cbn [obind fst snd] in E2. injection E2 as <-. cbn [fst].
    destruct t as [p ba td lg]. unfold thread_step in E3. cbn [t_pc t_batch t_todo t_log] in *.
    destruct p; cbn [local] in Hl; inv_step E3; injection E3 as <- <-; auto.
    - destruct Hl as (_ & _ & Hf). destruct (new_layer_ok (V := V) S5 Hnn Hms Hsh Hf) as (W2 & k2 & E4 & _ & _ & H5 & H6). rewrite Ex in E4. injection E4 as <-.
      unfold big. lia.
    - apply run_cur in Ex. cbn [fst] in Ex. unfold big in *. cbn [w_cur w_prev]. rewrite Ex. exact Hb.
  Qed.

  Lemma big_run h y : rr [] h start = Ok y -> big cfg max (fst y).
  Proof.
    revert y. induction h as [|m h IH] using rev_ind; intros y Hr.
    - cbn in Hr. injection Hr as <-. exact H0.
    - rewrite rrun_app in Hr. destruct (rr [] h start) as [y1|] eqn:E1; [|discriminate]. cbn [obind rrun app] in Hr.
      destruct (rstep h y1 m) as [y2|] eqn:E2; [|discriminate]. cbn [obind] in Hr. injection Hr as <-. eapply big_step; eauto.
  Qed.

  Lemma effective_less h y m y' : rr [] h start = Ok y -> effective P h y m -> rstep h y m = Ok y' ->
    left (fst y') < left (fst y) \/ (left (fst y') <= left (fst y) /\ weight y' < weight y).
  Proof.
    intros Hr [(t & Et & Hf & Hg) Hb] E2. destruct Hse as [S1 S2 S3 S4 S5 S6 S7]. pose proof (ww_width S4) as [Hnn Hw]. pose proof (ww_ms S4) as Hms.
    pose proof (run_conc S1 S2 S3 S5 Hnn Hms S6 S7 (wf_start cpush S4 S5) Hr) as HC. pose proof (big_run Hr) as Hbig.
    destruct (ci_shared HC) as (hist & R & rows & k & Hsh & Hth). destruct y as [W ts]. unfold rsys_step in E2. cbn [fst snd] in *.
    rewrite Et in E2. destruct (thread_step V cpush cfg max W t (P h (W, ts) (fst m)) (snd m)) as [[W' t']|] eqn:E3; [|discriminate]. cbn [obind fst snd] in E2. injection E2 as <-.
    destruct (@step_weight _ _ _ V cpush cfg max W0 S1 S2 S3 S5 Hnn Hms false L HL (back_then V cpush cfg max W0 P progs h) hist W R rows k t
      (P h (W, ts) (fst m)) (snd m) W' t' Hsh (Hth _ _ Et) Hbig E3 Hf) as [_ [Hlt|(Hle & Hn & Hc & Hlt)]].
    - intros Hw1. destruct (wants (t_pc t)) as [[l a]|] eqn:Ew; [|congruence]. apply (Hg l a). exists t. auto.
    - intros ts0 ids rest acc d Ep Hd. eapply Hb; eauto.
    - left. exact Hlt.
    - right. cbn [fst]. split; auto. unfold PRwLive.weight. cbn [fst snd]. rewrite Hn, Hc, map_set_nth.
      set (f := tw max (n_of W) (length (w_cur W))) in *.
      assert (Hs : sum_nat (set_nth (map f ts) (fst m) (f t')) + f t = sum_nat (map f ts) + f t').
      { apply sum_set_nth. erewrite map_nth_error; eauto. }
      lia.
  Qed.

  (** ** No endless run *)
  Lemma no_endless_run (f : nat -> nat * nat) :
    ~ forall k, exists y, rr [] (map f (seq 0 k)) start = Ok y /\ effective P (map f (seq 0 k)) y (f k).
  Proof.
    intros H. assert (Hgo : forall a b k y, rr [] (map f (seq 0 k)) start = Ok y -> left (fst y) <= a -> weight y <= b -> False).
    { induction a as [a IHa] using lt_wf_ind. induction b as [b IHb] using lt_wf_ind. intros k y Hr Ha Hb.
      destruct (H k) as (y1 & Hr1 & He). rewrite Hr in Hr1. injection Hr1 as <-.
      destruct (H (Datatypes.S k)) as (y' & Hr' & _). pose proof Hr' as Hrs. rewrite seq_S, map_app, rrun_app, Hr in Hr'. cbn [obind map rrun app Nat.add] in Hr'.
      destruct (rstep (map f (seq 0 k)) y (f k)) as [y2|] eqn:E2; [|discriminate]. cbn [obind] in Hr'. injection Hr' as ->.
      destruct (effective_less Hr He E2) as [Hlt|[Hle Hlt]].
      - eapply (IHa (left (fst y'))); [lia|exact Hrs|lia|apply le_n].
      - eapply (IHb (weight y')); [lia|exact Hrs|lia|apply le_n]. }
    eapply (Hgo _ _ 0 start); [reflexivity|apply le_n|apply le_n].
  Qed.

  (** ** Going on until nobody can *)
  Lemma can_go_dec h (y : rsys S E I) i : can_go P h y i \/ ~ can_go P h y i.
  Proof.
    destruct (nth_error (snd y) i) as [t|] eqn:Et; [|right; intros (t & Ht & _); congruence].
    assert (Hfd : finished t \/ ~ finished t).
    { unfold finished. destruct (t_pc t); try (right; intros [H _]; discriminate). destruct (t_todo t); [left; auto|right; intros [_ H]; discriminate]. }
    destruct Hfd as [Hf|Hf]; [right; intros (u & Hu & H1 & _); rewrite Et in Hu; injection Hu as <-; tauto|].
    destruct (wants (t_pc t)) as [[l a]|] eqn:Ew.
    - destruct (P h y i) eqn:Ep; [left; exists t; auto|right]. intros (u & Hu & _ & H1). rewrite (H1 l a) in Ep; [discriminate|]. exists t. auto.
    - left. exists t. split; auto. split; auto. intros l a (u & Hu & Hw). congruence.
  Qed.

  Lemma can_go_search h (y : rsys S E I) : (exists i, can_go P h y i) \/ forall i, ~ can_go P h y i.
  Proof.
    assert (Hk : forall k, (exists i, can_go P h y i) \/ forall i, i < k -> ~ can_go P h y i).
    { induction k as [|k [IH|IH]]; [right; lia|auto|]. destruct (can_go_dec h y k) as [Hk|Hk]; [eauto|].
      right. intros i Hi. destruct (Nat.eq_dec i k) as [->|]; [auto|]. apply IH. lia. }
    destruct (Hk (length (snd y))) as [H|H]; [auto|]. right. intros i Hc. pose proof Hc as (t & Ht & _). apply (H i); auto. apply nth_error_Some. congruence.
  Qed.

  Lemma effective_of h (y : rsys S E I) i : can_go P h y i -> exists k, effective P h y (i, k).
  Proof.
    intros Hc. pose proof Hc as (t & Ht & _).
    assert (Hbt : exists k, forall ts ids rest acc d, t_pc t = IIndex ts ids rest acc d -> all_done ts = false -> exists idx st, nth_error ts k = Some (idx, st) /\ st <> TDone).
    { destruct (t_pc t) eqn:Ep; try (exists 0; intros; discriminate).
      destruct (all_done ts) eqn:Ed; [exists 0; intros ? ? ? ? ? H; injection H; intros; subst; congruence|].
      assert (Hex : exists k idx st, nth_error ts k = Some (idx, st) /\ st <> TDone).
      { clear -Ed. induction ts as [|[idx st] ts IH]; [discriminate|]. unfold all_done in Ed. cbn [forallb snd] in Ed.
        destruct st; try (exists 0; do 2 eexists; split; [reflexivity|discriminate]).
        cbn in Ed. destruct (IH Ed) as (k & idx' & st & H1 & H2). exists (Datatypes.S k), idx', st. auto. }
      destruct Hex as (k & idx & st & H1 & H2). exists k. intros ? ? ? ? ? H _. injection H; intros; subst. eauto. }
    destruct Hbt as (k & Hk). exists k. split; [exact Hc|]. cbn [fst snd]. intros t0 ts ids rest acc d Ht0 Ep. rewrite Ht in Ht0. injection Ht0 as <-. eauto.
  Qed.

  Lemma runs_out h y : e_mode V = Release -> rr [] h start = Ok y ->
    exists more y', rr h more y = Ok y' /\ forall i, ~ can_go P (h ++ more) y' i.
  Proof.
    intros Hm. destruct Hse as [S1 S2 S3 S4 S5 S6 S7]. pose proof (ww_width S4) as [Hnn Hw]. pose proof (ww_ms S4) as Hms.
    assert (Hgo : forall a b h y, rr [] h start = Ok y -> left (fst y) <= a -> weight y <= b ->
      exists more y', rr h more y = Ok y' /\ forall i, ~ can_go P (h ++ more) y' i); [|intros Hr; eapply Hgo; eauto].
    induction a as [a IHa] using lt_wf_ind. induction b as [b IHb] using lt_wf_ind. intros h1 y1 Hr Ha Hb.
    destruct (can_go_search h1 y1) as [(i & Hi)|Hno].
    2:{ exists [], y1. split; auto. now rewrite app_nil_r. }
    destruct (effective_of Hi) as (k & He).
    destruct (run_release S1 S2 S3 S5 Hnn Hms S6 S7 (h1 ++ [(i, k)]) (wf_start cpush S4 S5) Hm) as (y2 & Hr2).
    pose proof Hr2 as Hrs. rewrite rrun_app, Hr in Hr2. cbn [obind rrun app] in Hr2. destruct (rstep h1 y1 (i, k)) as [y3|] eqn:E3; [|discriminate]. cbn [obind] in Hr2. injection Hr2 as ->.
    assert (Hnext : exists more y', rr (h1 ++ [(i, k)]) more y2 = Ok y' /\ forall i0, ~ can_go P ((h1 ++ [(i, k)]) ++ more) y' i0).
    { destruct (effective_less Hr He E3) as [Hlt|[Hle Hlt]].
      - eapply (IHa (left (fst y2))); [lia|exact Hrs|lia|apply le_n].
      - eapply (IHb (weight y2)); [lia|exact Hrs|lia|apply le_n]. }
    destruct Hnext as (more & y' & H1 & H2). exists ((i, k) :: more), y'. cbn [rrun]. rewrite E3. cbn [obind]. split; auto.
    now rewrite <- app_assoc in H2.
  Qed.

  Lemma nobody_goes h (y : rsys S E I) : live_locks P -> (forall i, ~ can_go P h y i) ->
    Forall finished (snd y) \/ exists t, In t (snd y) /\ ~ finished t.
  Proof.
    intros _ _. induction (snd y) as [|t ts IH]; [left; constructor|].
    assert (Hfd : finished t \/ ~ finished t).
    { unfold finished. destruct (t_pc t); try (right; intros [H _]; discriminate). destruct (t_todo t); [left; auto|right; intros [_ H]; discriminate]. }
    destruct Hfd as [Hf|Hf]; [|right; exists t; split; [left; auto|auto]]. destruct IH as [IH|(u & Hu & Hn)]; [left; constructor; auto|right; exists u; split; [right; auto|auto]].
  Qed.
End Runs.
