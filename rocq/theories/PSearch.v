(** * Proofs: the best-first search loop *)
From Verif Require Import Base BaseFacts MSliceVec MIndexIo MSearch PHeap.
Set Implicit Arguments.

(** ** Keys *)
Lemma key_le_iff a b : key_le a b = true <-> (fst a < fst b)%Z \/ (fst a = fst b /\ snd a <= snd b).
Proof.
  unfold key_le. rewrite orb_true_iff, andb_true_iff, Z.ltb_lt, Z.eqb_eq, Nat.leb_le. tauto.
Qed.
Lemma key_le_total a b : key_le a b = true \/ key_le b a = true.
Proof. rewrite !key_le_iff. lia. Qed.
Lemma key_le_trans a b c : key_le a b = true -> key_le b c = true -> key_le a c = true.
Proof. rewrite !key_le_iff. lia. Qed.
Lemma key_le_antisym a b : key_le a b = true -> key_le b a = true -> a = b.
Proof. rewrite !key_le_iff. destruct a, b; cbn. intros. f_equal; lia. Qed.
Lemma key_le_refl a : key_le a a = true.
Proof. rewrite key_le_iff. right. auto. Qed.
Lemma key_le_fst a b : key_le a b = true -> (fst a <= fst b)%Z.
Proof. rewrite key_le_iff. lia. Qed.

Definition ksorted := StronglySorted (fun a b => key_le a b = true).

Lemma ksorted_split m l : ksorted l -> forall a b, In a (firstn m l) -> In b (skipn m l) -> key_le a b = true.
Proof.
  intros H. rewrite <- (firstn_skipn m l) in H. set (x := firstn m l) in *. set (y := skipn m l) in *. clearbody x y.
  induction x as [|c x IH]; cbn [app] in H; intros a b Ha Hb; [destruct Ha|].
  inversion H as [|? ? H1 H2]; subst. destruct Ha as [->|Ha]; [|eauto].
  rewrite Forall_forall in H2. apply H2. apply in_or_app. auto.
Qed.

Lemma firstn_In {A} m (l : list A) x : In x (firstn m l) -> In x l.
Proof. intros H. rewrite <- (firstn_skipn m l). apply in_or_app. auto. Qed.
Lemma skipn_In {A} m (l : list A) x : In x (skipn m l) -> In x l.
Proof. intros H. rewrite <- (firstn_skipn m l). apply in_or_app. auto. Qed.

Lemma mem_iff x l : mem x l = true <-> In x l.
Proof.
  unfold mem. rewrite existsb_exists. split.
  - intros (y & Hy & E). apply Nat.eqb_eq in E. now subst.
  - intros H. exists x. split; auto. apply Nat.eqb_refl.
Qed.
Lemma mem_false x l : mem x l = false <-> ~ In x l.
Proof. rewrite <- mem_iff. destruct (mem x l); split; congruence. Qed.

Lemma NoDup_bounded (l : list nat) n : NoDup l -> (forall x, In x l -> x < n) -> length l <= n.
Proof.
  intros H1 H2. rewrite <- (seq_length n 0). apply NoDup_incl_length; auto.
  intros x Hx. apply in_seq. specialize (H2 _ Hx). lia.
Qed.

Lemma NoDup_appl {A} (l r : list A) : NoDup (l ++ r) -> NoDup l.
Proof.
  induction l as [|a l IH]; cbn [app]; [constructor|]. intros H. inversion H as [|? ? Hni Hnd]; subst.
  constructor; auto. intros Hin. apply Hni. apply in_or_app; auto.
Qed.
Lemma NoDup_appr {A} (l r : list A) : NoDup (l ++ r) -> NoDup r.
Proof. induction l as [|a l IH]; cbn [app]; auto. intros H. inversion H; auto. Qed.
Lemma NoDup_app_disj {A} (l r : list A) x : NoDup (l ++ r) -> In x l -> In x r -> False.
Proof.
  induction l as [|a l IH]; cbn [app]; intros H Hl Hr; [destruct Hl|]. inversion H as [|? ? Hni Hnd]; subst.
  destruct Hl as [->|Hl]; auto. apply Hni. apply in_or_app; auto.
Qed.
Lemma NoDup_app_intro {A} (l r : list A) : NoDup l -> NoDup r -> (forall x, In x l -> ~ In x r) -> NoDup (l ++ r).
Proof.
  induction l as [|a l IH]; cbn [app]; auto. intros Hl Hr Hd. inversion Hl as [|? ? Hni Hnd]; subst. constructor.
  - intros H. apply in_app_or in H as [H|H]; auto. apply (Hd a); auto. left; auto.
  - apply IH; auto. intros x Hx. apply Hd. right; auto.
Qed.

(** ** Pushing a key *)
Lemma push_key h k : ksorted (hs h) -> length (hs h) <= hmax h -> 0 < hmax h ->
  exists h' b, msh_push key_le h k = Ok (h', b) /\ hmax h' = hmax h /\ ksorted (hs h') /\
    length (hs h') <= hmax h /\ 0 < length (hs h') /\
    (forall r, In r (hs h') -> r = k \/ In r (hs h)) /\
    (forall r, r = k \/ In r (hs h) ->
       In r (hs h') \/ (length (hs h') = hmax h /\ forall r', In r' (hs h') -> key_le r' r = true)) /\
    (length (hs h) = hmax h -> length (hs h') = hmax h /\
       forall r', In r' (hs h') -> exists r, In r (hs h) /\ key_le r' r = true) /\
    (NoDup (map snd (k :: hs h)) -> NoDup (map snd (hs h'))).
Proof.
  intros Hs Hl Hm.
  destruct (@msh_push_spec key key_le key_le_total key_le_trans key_le_antisym h k Hs Hl Hm) as (h' & b & E & E1 & E2 & _).
  set (ins := insert_by key_le k (hs h)) in *.
  assert (HP : Permutation ins (k :: hs h)) by apply insert_by_perm.
  assert (HS : ksorted ins) by (apply insert_by_sorted; auto using key_le_total; exact key_le_trans).
  assert (HL : length ins = S (length (hs h))) by (rewrite (Permutation_length HP); auto).
  assert (HIn : forall r, In r ins <-> r = k \/ In r (hs h)).
  { intros r. split; intros H.
    - apply (Permutation_in _ HP) in H. destruct H; auto.
    - apply (Permutation_in _ (Permutation_sym HP)). destruct H; [left|right]; auto. }
  exists h', b. rewrite E2. split; [auto|]. split; [auto|]. split; [now apply ssorted_firstn|].
  split; [rewrite firstn_length; lia|]. split; [rewrite firstn_length; lia|].
  split; [intros r Hr; apply HIn; eapply firstn_In; eauto|].
  split; [|split].
  - intros r Hr. apply HIn in Hr. rewrite <- (firstn_skipn (hmax h) ins) in Hr. apply in_app_or in Hr as [Hr|Hr]; auto.
    right. split.
    + rewrite firstn_length. assert (length (skipn (hmax h) ins) <> 0) by (destruct (skipn (hmax h) ins); [destruct Hr|discriminate]).
      rewrite skipn_length in H. lia.
    + intros r' Hr'. eapply ksorted_split; eauto.
  - intros Hf. split; [rewrite firstn_length; lia|]. intros r' Hr'.
    assert (Hr2 := firstn_In _ _ _ Hr'). apply HIn in Hr2. destruct Hr2 as [->|Hr2].
    2:{ exists r'. split; auto. apply key_le_refl. }
    assert (length (skipn (hmax h) ins) = 1) by (rewrite skipn_length; lia).
    destruct (skipn (hmax h) ins) as [|z [|]] eqn:Ez; try discriminate.
    assert (Hz : In z ins) by (apply (skipn_In (hmax h)); rewrite Ez; left; auto).
    assert (Hkz : key_le k z = true) by (eapply ksorted_split; [exact HS|exact Hr'|rewrite Ez; left; auto]).
    apply HIn in Hz. destruct Hz as [->|Hz]; [|eauto].
    exists k. split; [|apply key_le_refl].
    assert (HP2 : Permutation (firstn (hmax h) ins ++ [k]) (k :: hs h)) by (rewrite <- Ez, firstn_skipn; auto).
    rewrite <- Permutation_cons_append in HP2. apply Permutation_cons_inv in HP2. eapply Permutation_in; eauto.
  - intros HN. assert (HN2 : NoDup (map snd ins)) by (eapply Permutation_NoDup; [apply Permutation_map; symmetry; exact HP|exact HN]).
    rewrite <- (firstn_skipn (hmax h) ins), map_app in HN2. exact (NoDup_appl _ _ HN2).
Qed.

Section Loop.
  Variables (n : nat) (f : nat -> Z) (dist : nat -> outcome Z).
  Hypothesis Hdist : forall i, i < n -> dist i = Ok (f i).

  Definition kof (x : nat) : key := (f x, x).
  Definition accept (res : msh key) (k : key) : bool :=
    negb (msh_is_full res) || match msh_peek res with Some p => (fst k <? fst p)%Z | None => false end.

  Lemma visit_fold res row : Forall (fun x => x < n) row ->
    (msh_is_full res = true -> msh_peek res <> None) ->
    forall pq vis, ksorted pq ->
    exists new pq', ofold (s_visit dist res) row (pq, vis) = Ok (pq', rev new ++ vis) /\ NoDup new /\
      (forall x, In x new <-> In x row /\ ~ In x vis) /\ ksorted pq' /\
      Permutation pq' (filter (accept res) (map kof new) ++ pq).
  Proof.
    intros Hrow Hpk. induction Hrow as [|x row Hx Hrow IH]; intros pq vis Hs; cbn [ofold].
    - exists [], pq. repeat split; auto; try constructor; try tauto.
    - unfold s_visit at 1. destruct (mem x vis) eqn:Em.
      + cbn [obind]. apply mem_iff in Em. destruct (IH pq vis Hs) as (new & pq' & E & HN & HI & Hs' & HP).
        exists new, pq'. repeat split; auto.
        * right. now apply HI.
        * now apply HI.
        * intros [[->|H] H']; [tauto|]. apply HI. auto.
      + apply mem_false in Em. rewrite Hdist by auto. cbn [obind].
        assert (Ha : (if negb (msh_is_full res) then Ok true
                      else let* p := ounwrap (msh_peek res) in Ok (f x <? fst p)%Z) = Ok (accept res (kof x))).
        { unfold accept, kof. destruct (msh_is_full res) eqn:Ef; cbn [negb orb]; auto.
          destruct (msh_peek res); [reflexivity|]. exfalso. now apply Hpk. }
        rewrite Ha. cbn [obind].
        set (pq1 := if accept res (kof x) then insert_by key_le (f x, x) pq else pq).
        assert (Hs1 : ksorted pq1).
        { unfold pq1. destruct (accept res (kof x)); auto. apply insert_by_sorted; auto using key_le_total. exact key_le_trans. }
        destruct (IH pq1 (x :: vis) Hs1) as (new & pq' & E & HN & HI & Hs' & HP).
        exists (x :: new), pq'. split; [|split; [|split; [|split]]]; auto.
        * rewrite E. cbn [rev]. rewrite <- app_assoc. reflexivity.
        * constructor; auto. intros H. apply HI in H. cbn in H. tauto.
        * intros y. cbn [In]. split.
          -- intros [->|H]; [tauto|]. apply HI in H. cbn in H. tauto.
          -- intros [[->|H] H']; auto. destruct (Nat.eq_dec x y); auto. right. apply HI. cbn. tauto.
        * rewrite HP. cbn [map filter]. unfold pq1. destruct (accept res (kof x)); auto.
          cbn [app]. rewrite insert_by_perm. symmetry. apply Permutation_middle.
  Qed.

  Variables (nbrs : nat -> outcome (list nat)) (nb : nat -> list nat).
  Hypothesis Hnb : forall x, x < n -> nbrs x = Ok (nb x) /\ Forall (fun y => y < n) (nb x).

  Inductive rch (x : nat) : nat -> Prop :=
  | rch_refl : rch x x
  | rch_step y z : rch x y -> y < n -> In z (nb y) -> rch x z.

  Variables (ms ep : nat).
  Hypothesis Hms : 0 < ms.
  Hypothesis Hep : ep < n.

  Record inv (E : list nat) (st : sst) : Prop := {
    i_max : hmax (s_res st) = ms;
    i_len : length (hs (s_res st)) <= ms;
    i_sort : ksorted (hs (s_res st));
    i_psort : ksorted (s_pq st);
    i_key : forall k, In k (hs (s_res st)) \/ In k (s_pq st) -> k = kof (snd k) /\ snd k < n;
    i_nodup : NoDup (map snd (s_pq st) ++ E);
    i_rnodup : NoDup (map snd (hs (s_res st)));
    i_resE : incl (map snd (hs (s_res st))) E;
    i_pqvis : incl (map snd (s_pq st)) (s_vis st);
    i_Evis : incl E (s_vis st);
    i_En : forall x, In x E -> x < n;
    i_reach : forall x, In x (s_vis st) -> rch ep x;
    i_exp : forall x y, In x E -> In y (nb x) -> In y (s_vis st);
    i_cover : forall x, In x (s_vis st) ->
        In x (map snd (hs (s_res st))) \/ In x (map snd (s_pq st)) \/
        (length (hs (s_res st)) = ms /\ forall r, In r (hs (s_res st)) -> (fst r <= f x)%Z);
    i_ep : In ep (s_vis st);
    i_near : (E = [] /\ hs (s_res st) = [] /\ s_pq st = [kof ep]) \/
             exists r, In r (hs (s_res st)) /\ key_le r (kof ep) = true
  }.

  Lemma inv_init : exists st, s_init dist ep ms = Ok st /\ inv [] st.
  Proof.
    unfold s_init. rewrite Hdist by auto. cbn [obind]. eexists. split; [reflexivity|].
    constructor; cbn [s_res s_pq s_vis msh_new hs hmax length map app].
    - reflexivity.
    - lia.
    - constructor.
    - repeat constructor.
    - intros k [[]|[<-|[]]]. cbn. auto.
    - repeat constructor. auto.
    - constructor.
    - intros x [].
    - intros x Hx. exact Hx.
    - intros x [].
    - intros x [].
    - intros x [<-|[]]. constructor.
    - intros x y [].
    - intros x [<-|[]]. right. left. left. reflexivity.
    - left; auto.
    - left. auto.
  Qed.

  Lemma peek_full st : length (hs (s_res st)) = ms -> exists p, msh_peek (s_res st) = Some p /\ In p (hs (s_res st)).
  Proof.
    intros H. unfold msh_peek. destruct (nth_error (hs (s_res st)) (length (hs (s_res st)) - 1)) as [p|] eqn:E.
    - exists p. split; auto. eapply nth_error_In; eauto.
    - apply nth_error_None in E. lia.
  Qed.

  Lemma full_iff E st : inv E st -> (msh_is_full (s_res st) = true <-> length (hs (s_res st)) = ms).
  Proof. intros H. unfold msh_is_full. rewrite (i_max H), Nat.leb_le. pose proof (i_len H). lia. Qed.

  Definition final (l : list key) : Prop :=
    ksorted l /\ NoDup (map snd l) /\ length l <= ms /\
    (forall k, In k l -> k = kof (snd k) /\ snd k < n /\ rch ep (snd k)) /\
    (forall x y, In x (map snd l) -> In y (nb x) ->
       In y (map snd l) \/ (length l = ms /\ forall r, In r l -> (fst r <= f y)%Z)) /\
    (In ep (map snd l) \/ (length l = ms /\ forall r, In r l -> (fst r <= f ep)%Z)) /\
    (exists r, In r l /\ key_le r (kof ep) = true).

  Lemma pop_cases E st : inv E st ->
    (s_pop st = Ok None /\ final (hs (s_res st))) \/
    (exists k pq, s_pq st = k :: pq /\ s_pop st = Ok (Some (k, mkSst (s_res st) pq (s_vis st)))).
  Proof.
    intros HI. unfold s_pop.
    assert (Hmk : forall (Hrem : forall x, In x (s_vis st) -> In x (map snd (s_pq st)) ->
                       length (hs (s_res st)) = ms /\ forall r, In r (hs (s_res st)) -> (fst r <= f x)%Z),
       (exists r, In r (hs (s_res st)) /\ key_le r (kof ep) = true) -> final (hs (s_res st))).
    { intros Hrem Hn. unfold final. split; [apply (i_sort HI)|]. split; [apply (i_rnodup HI)|]. split; [apply (i_len HI)|].
      split; [|split; [|split]]; auto.
      - intros k Hk. destruct (i_key HI k (or_introl Hk)) as [E1 E2]. split; auto. split; auto.
        apply (i_reach HI). apply (i_Evis HI), (i_resE HI). apply in_map. auto.
      - intros x y Hx Hy. assert (Hv : In y (s_vis st)) by (eapply (i_exp HI); [apply (i_resE HI); eauto|auto]).
        destruct (i_cover HI y Hv) as [H|[H|H]]; auto.
      - destruct (i_cover HI ep (i_ep HI)) as [H|[H|H]]; auto. right. apply Hrem; auto. apply (i_ep HI). }
    destruct (s_pq st) as [|[d idx] pq] eqn:Epq.
    - left. split; auto. apply Hmk.
      + intros x _ [].
      + destruct (i_near HI) as [(_ & _ & H)|H]; auto. rewrite Epq in H. discriminate.
    - destruct (msh_is_full (s_res st)) eqn:Ef; [|right; eauto].
      apply (full_iff HI) in Ef. destruct (peek_full st Ef) as (p & Hp & Hpin). rewrite Hp. cbn [ounwrap obind].
      destruct (Z.ltb_spec (fst p) d) as [Hd|Hd]; [|right; eauto].
      left. split; auto. apply Hmk.
      + intros x _ Hx. split; auto. intros r Hr.
        assert (Hrp : key_le r p = true).
        { pose proof (ssorted_last key_le key_le_total (i_sort HI) Hp) as HF. rewrite Forall_forall in HF. auto. }
        apply in_map_iff in Hx as (k & Ek & Hk).
        assert (Hkd : (d <= fst k)%Z).
        { pose proof (i_psort HI) as Hps. rewrite Epq in Hps. inversion Hps as [|? ? _ HF]; subst. destruct Hk as [<-|Hk]; [reflexivity|].
          rewrite Forall_forall in HF. apply HF in Hk. apply key_le_fst in Hk. exact Hk. }
        destruct (i_key HI k) as [Ek2 _]; [right; rewrite Epq; exact Hk|]. rewrite Ek2 in Hkd. cbn in Hkd. rewrite Ek in Hkd.
        apply key_le_fst in Hrp. lia.
      + destruct (i_near HI) as [(_ & H & _)|H]; auto. rewrite H in Ef. cbn in Ef. lia.
  Qed.

  Lemma expand_inv E st k pq : inv E st -> s_pq st = k :: pq ->
    exists st', s_expand dist (mkSst (s_res st) pq (s_vis st)) k (nb (snd k)) = Ok st' /\ inv (snd k :: E) st' /\ snd k < n.
  Proof.
    intros HI Epq. unfold s_expand. cbn [s_res s_pq s_vis].
    destruct (i_key HI k) as [Ek Hkn]; [right; rewrite Epq; left; auto|].
    destruct (@push_key (s_res st) k) as (h' & b & Ep & Hmax & Hsort & Hlen & Hpos & Hsub & Hkeep & Hfull & HND).
    { apply (i_sort HI). } { rewrite (i_max HI). apply (i_len HI). } { rewrite (i_max HI). auto. }
    rewrite (i_max HI) in *. rewrite Ep. cbn [obind fst].
    assert (Hpkf : msh_is_full h' = true -> msh_peek h' <> None).
    { intros _. unfold msh_peek. intros H. apply nth_error_None in H. lia. }
    assert (Hps : ksorted pq) by (pose proof (i_psort HI) as H; rewrite Epq in H; now inversion H).
    destruct (Hnb Hkn) as [_ HnbF].
    destruct (@visit_fold h' (nb (snd k)) HnbF Hpkf pq (s_vis st) Hps) as (new & pq' & Ef & HNn & HIn & Hps' & HPq).
    rewrite Ef. cbn [obind fst snd]. eexists. split; [reflexivity|]. split; [|exact Hkn].
    pose proof (i_nodup HI) as HN0. rewrite Epq in HN0. cbn [map app] in HN0.
    assert (Hpq'In : forall x, In x (map snd pq') <->
              (In x new /\ accept h' (kof x) = true) \/ In x (map snd pq)).
    { intros x. split; intros H.
      - apply in_map_iff in H as (q & Eq & Hq). apply (Permutation_in _ HPq) in Hq. apply in_app_or in Hq as [Hq|Hq].
        + apply filter_In in Hq as [Hq Ha]. apply in_map_iff in Hq as (z & Ez & Hz). subst q. cbn in Eq. subst z. auto.
        + right. apply in_map_iff. eauto.
      - apply in_map_iff. destruct H as [[H Ha]|H].
        + exists (kof x). split; auto. apply (Permutation_in _ (Permutation_sym HPq)). apply in_or_app. left.
          apply filter_In. split; auto. now apply in_map.
        + apply in_map_iff in H as (q & Eq & Hq). exists q. split; auto.
          apply (Permutation_in _ (Permutation_sym HPq)). apply in_or_app. auto. }
    assert (Hnewn : forall x, In x new -> x < n).
    { intros x Hx. apply HIn in Hx. rewrite Forall_forall in HnbF. apply HnbF. tauto. }
    assert (HkE : ~ In (snd k) E).
    { inversion HN0 as [|? ? Hni Hnd]; subst. intros H. apply Hni. apply in_or_app. auto. }
    constructor; cbn [s_res s_pq s_vis].
    - lia.
    - auto.
    - auto.
    - auto.
    - intros q [Hq|Hq].
      + destruct (Hsub q Hq) as [->|Hq']; auto. apply (i_key HI). auto.
      + apply (Permutation_in _ HPq) in Hq. apply in_app_or in Hq as [Hq|Hq].
        * apply filter_In in Hq as [Hq _]. apply in_map_iff in Hq as (z & <- & Hz). cbn. auto.
        * apply (i_key HI). right. rewrite Epq. right. auto.
    - (* NoDup *)
      assert (HND2 : NoDup (map snd pq')).
      { eapply Permutation_NoDup; [apply Permutation_map; symmetry; exact HPq|]. rewrite map_app.
        assert (Hfm : forall l, NoDup l -> (forall x, In x l -> In x new) -> NoDup (map snd (filter (accept h') (map kof l)))).
        { induction l as [|a l IH]; cbn [map filter]; [constructor|]. intros Hl Hsub'. inversion Hl; subst.
          assert (IHl : NoDup (map snd (filter (accept h') (map kof l)))) by (apply IH; auto; intros; apply Hsub'; right; auto).
          destruct (accept h' (kof a)); auto. cbn [map]. constructor; auto.
          intros H. apply in_map_iff in H as (q & Eq & Hq). apply filter_In in Hq as [Hq _].
          apply in_map_iff in Hq as (z & Ez & Hz). subst q. cbn in Eq. subst z. auto. }
        assert (Hpqn : NoDup (map snd pq)).
        { inversion HN0 as [|? ? _ Hq]; subst. exact (NoDup_appl _ _ Hq). }
        assert (Hdisj : forall x, In x (map snd (filter (accept h') (map kof new))) -> ~ In x (map snd pq)).
        { intros x Hx H. apply in_map_iff in Hx as (q & Eq & Hq). apply filter_In in Hq as [Hq _].
          apply in_map_iff in Hq as (z & Ez & Hz). subst q. cbn in Eq. subst z. apply HIn in Hz. apply Hz.
          apply (i_pqvis HI). rewrite Epq. right. auto. }
        apply NoDup_app_intro; auto. }
      assert (HNE : NoDup (snd k :: E)).
      { constructor; auto. inversion HN0 as [|? ? _ Hq]; subst. exact (NoDup_appr _ _ Hq). }
      assert (Hdisj : forall x, In x (map snd pq') -> ~ In x (snd k :: E)).
      { intros x Hx H. apply Hpq'In in Hx. destruct Hx as [[Hx _]|Hx].
        - apply HIn in Hx. apply Hx. destruct H as [<-|H]; [apply (i_pqvis HI); rewrite Epq; left; auto|apply (i_Evis HI); auto].
        - inversion HN0 as [|? ? Hk0 Hq]; subst. destruct H as [<-|H].
          + apply Hk0. apply in_or_app; auto.
          + exact (NoDup_app_disj _ _ _ Hq Hx H). }
      apply NoDup_app_intro; auto.
    - apply HND. cbn [map]. constructor; [|apply (i_rnodup HI)]. intros H. apply HkE. apply (i_resE HI). auto.
    - intros x Hx. apply in_map_iff in Hx as (q & Eq & Hq). destruct (Hsub q Hq) as [->|Hq']; [left; auto|].
      right. apply (i_resE HI). apply in_map_iff. eauto.
    - intros x Hx. apply Hpq'In in Hx. apply in_or_app. destruct Hx as [[Hx _]|Hx].
      + left. now apply in_rev in Hx.
      + right. apply (i_pqvis HI). rewrite Epq. right. auto.
    - intros x [<-|Hx]; apply in_or_app; right.
      + apply (i_pqvis HI). rewrite Epq. left; auto.
      + apply (i_Evis HI). auto.
    - intros x [<-|Hx]; auto. now apply (i_En HI).
    - intros x Hx. apply in_app_or in Hx as [Hx|Hx]; [|now apply (i_reach HI)].
      apply in_rev in Hx. apply HIn in Hx. eapply rch_step; [|exact Hkn|apply Hx].
      apply (i_reach HI). apply (i_pqvis HI). rewrite Epq. left; auto.
    - intros x y [<-|Hx] Hy; apply in_or_app.
      + destruct (in_dec Nat.eq_dec y (s_vis st)); auto. left. apply -> in_rev. apply HIn. auto.
      + right. eapply (i_exp HI); eauto.
    - intros x Hx. apply in_app_or in Hx as [Hx|Hx].
      + apply in_rev in Hx. destruct (accept h' (kof x)) eqn:Ea.
        { right. left. apply Hpq'In. auto. }
        right. right. unfold accept in Ea. apply orb_false_iff in Ea as [Ea1 Ea2]. apply negb_false_iff in Ea1.
        assert (HL : length (hs h') = ms) by (unfold msh_is_full in Ea1; apply Nat.leb_le in Ea1; lia). split; auto.
        intros r Hr. destruct (msh_peek h') as [p|] eqn:Epk; [|exfalso; now apply Hpkf].
        apply Z.ltb_ge in Ea2. cbn in Ea2.
        pose proof (ssorted_last key_le key_le_total Hsort Epk) as HF. rewrite Forall_forall in HF. apply HF in Hr.
        apply key_le_fst in Hr. lia.
      + destruct (i_cover HI x Hx) as [H|[H|[H1 H2]]].
        * apply in_map_iff in H as (q & Eq & Hq). destruct (Hkeep q (or_intror Hq)) as [H'|[Hf1 Hf2]].
          { left. apply in_map_iff. eauto. }
          right. right. split; auto. intros r Hr. apply Hf2 in Hr. apply key_le_fst in Hr.
          destruct (i_key HI q (or_introl Hq)) as [E2 _]. rewrite E2 in Hr. cbn in Hr. now rewrite Eq in Hr.
        * rewrite Epq in H. cbn [map] in H. destruct H as [<-|H].
          { destruct (Hkeep k (or_introl eq_refl)) as [H'|[Hf1 Hf2]]; [left; now apply in_map|].
            right. right. split; auto. intros r Hr. apply Hf2 in Hr. apply key_le_fst in Hr. rewrite Ek in Hr. exact Hr. }
          right. left. apply Hpq'In. auto.
        * right. right. destruct (Hfull H1) as [Hf1 Hf2]. split; auto. intros r Hr. destruct (Hf2 r Hr) as (r0 & Hr0 & Hle).
          apply key_le_fst in Hle. specialize (H2 r0 Hr0). lia.
    - apply in_or_app. right. apply (i_ep HI).
    - right.
      assert (Hone : forall r, r = k \/ In r (hs (s_res st)) -> key_le r (kof ep) = true ->
                exists r', In r' (hs h') /\ key_le r' (kof ep) = true).
      { intros r Hr Hle. destruct (Hkeep r Hr) as [H'|[_ Hf2]]; [eauto|].
        destruct (hs h') as [|r' t] eqn:Eh; [cbn in Hpos; lia|]. exists r'. split; [left; auto|].
        eapply key_le_trans; [apply Hf2; left; auto|auto]. }
      destruct (i_near HI) as [(_ & _ & H)|(r & Hr & Hle)]; [|eauto].
      rewrite Epq in H. inversion H; subst. eapply Hone; [left; reflexivity|apply key_le_refl].
  Qed.

  Lemma loop_ok : forall fuel st E, inv E st -> n < fuel + length E ->
    exists l, s_loop fuel nbrs dist st = Ok l /\ final l.
  Proof.
    induction fuel as [|fuel IH]; intros st E HI Hf.
    - exfalso. assert (length E <= n); [|lia]. apply NoDup_bounded; [|apply (i_En HI)].
      exact (NoDup_appr _ _ (i_nodup HI)).
    - cbn [s_loop]. destruct (pop_cases HI) as [[-> HF]|(k & pq & Epq & ->)]; cbn [obind].
      + eauto.
      + destruct (expand_inv HI Epq) as (st' & Ee & HI' & Hkn).
        destruct (Hnb Hkn) as [-> _]. cbn [obind]. rewrite Ee. cbn [obind].
        apply (IH _ _ HI'). cbn [length]. lia.
  Qed.

  Lemma sfn_ok fuel : n < fuel ->
    exists l, search_for_neighbors fuel nbrs dist ep ms = Ok (map (fun k => (snd k, fst k)) l) /\ final l.
  Proof.
    intros Hf. unfold search_for_neighbors. destruct inv_init as (st & -> & HI). cbn [obind].
    destruct (loop_ok fuel HI) as (l & -> & HF); [cbn [length]; lia|]. cbn [obind]. eauto.
  Qed.
End Loop.

(** ** The order of neighbours is irrelevant *)
Section Order.
  Variables (n : nat) (f : nat -> Z) (dist : nat -> outcome Z).
  Hypothesis Hdist : forall i, i < n -> dist i = Ok (f i).
  Variables (nbrs1 nbrs2 : nat -> outcome (list nat)) (nb1 nb2 : nat -> list nat).
  Hypothesis Hnb1 : forall x, x < n -> nbrs1 x = Ok (nb1 x) /\ Forall (fun y => y < n) (nb1 x).
  Hypothesis Hnb2 : forall x, x < n -> nbrs2 x = Ok (nb2 x) /\ Forall (fun y => y < n) (nb2 x).
  Hypothesis Hsame : forall x y, x < n -> (In y (nb1 x) <-> In y (nb2 x)).

  Lemma loop_same : forall fuel res pq vis1 vis2,
    ksorted (hs res) -> length (hs res) <= hmax res -> 0 < hmax res -> ksorted pq ->
    Forall (fun k => snd k < n) pq -> (forall x, In x vis1 <-> In x vis2) ->
    s_loop fuel nbrs1 dist (mkSst res pq vis1) = s_loop fuel nbrs2 dist (mkSst res pq vis2).
  Proof.
    induction fuel as [|fuel IH]; intros res pq vis1 vis2 Hs Hl Hm Hp Hpn Hv; cbn [s_loop]; auto.
    unfold s_pop. cbn [s_pq s_res s_vis]. destruct pq as [|[d idx] pq]; [reflexivity|].
    inversion Hpn as [|? ? Hi Hpn']; subst. cbn in Hi.
    assert (Hgo : (let* row := nbrs1 (snd (d, idx)) in
                   let* st'' := s_expand dist (mkSst res pq vis1) (d, idx) row in s_loop fuel nbrs1 dist st'') =
                  (let* row := nbrs2 (snd (d, idx)) in
                   let* st'' := s_expand dist (mkSst res pq vis2) (d, idx) row in s_loop fuel nbrs2 dist st'')).
    { cbn [snd]. destruct (Hnb1 Hi) as [-> HF1]. destruct (Hnb2 Hi) as [-> HF2]. cbn [obind].
      unfold s_expand. cbn [s_res s_pq s_vis].
      destruct (@push_key res (d, idx) Hs Hl Hm) as (h' & b & -> & Hmax & Hsort & Hlen & Hpos & _). cbn [obind fst].
      assert (Hpkf : msh_is_full h' = true -> msh_peek h' <> None).
      { intros _. unfold msh_peek. intros H. apply nth_error_None in H. lia. }
      assert (Hps : ksorted pq) by (now inversion Hp).
      destruct (@visit_fold n f dist Hdist h' (nb1 idx) HF1 Hpkf pq vis1 Hps) as (new1 & pq1 & -> & HN1 & HI1 & Hs1 & HP1).
      destruct (@visit_fold n f dist Hdist h' (nb2 idx) HF2 Hpkf pq vis2 Hps) as (new2 & pq2 & -> & HN2 & HI2 & Hs2 & HP2).
      cbn [obind fst snd].
      assert (HPn : Permutation new1 new2).
      { apply NoDup_Permutation; auto. intros x. rewrite HI1, HI2, Hv, Hsame by auto. tauto. }
      assert (pq1 = pq2) as ->.
      { apply (sorted_perm_unique key_le key_le_antisym); auto. rewrite HP1, HP2.
        apply Permutation_app_tail. assert (HPm := Permutation_map (kof f) HPn). clear -HPm.
        induction HPm as [|x l l' HP IH|x y l|l l' l'' HP1 IH1 HP2 IH2]; cbn [filter]; auto.
        - destruct (accept h' x); auto.
        - destruct (accept h' x), (accept h' y); auto. apply perm_swap.
        - etransitivity; eauto. }
      apply IH; auto; try lia.
      - rewrite Forall_forall. intros q Hq. apply (Permutation_in _ HP2) in Hq. apply in_app_or in Hq as [Hq|Hq].
        + apply filter_In in Hq as [Hq _]. apply in_map_iff in Hq as (z & <- & Hz). cbn. apply HI2 in Hz.
          rewrite Forall_forall in HF2. apply HF2. tauto.
        + rewrite Forall_forall in Hpn'. auto.
      - intros x. rewrite !in_app_iff, <- !in_rev, Hv. split; (intros [H|H]; [left|right; auto]).
        + eapply Permutation_in; eauto.
        + eapply Permutation_in; [symmetry|]; eauto. }
    destruct (msh_is_full res); [|exact Hgo].
    destruct (ounwrap (msh_peek res)) as [p|]; [|reflexivity]. cbn [obind].
    destruct (fst p <? d)%Z; [reflexivity|exact Hgo].
  Qed.

  Lemma sfn_same fuel ep ms : ep < n ->
    search_for_neighbors fuel nbrs1 dist ep ms = search_for_neighbors fuel nbrs2 dist ep ms.
  Proof.
    intros Hep. unfold search_for_neighbors, s_init. rewrite Hdist by auto. cbn [obind].
    destruct ms as [|ms].
    - destruct fuel; reflexivity.
    - rewrite (@loop_same fuel (msh_new (S ms)) [(f ep, ep)] [ep] [ep]); auto.
      + constructor.
      + cbn. lia.
      + cbn. lia.
      + repeat constructor.
      + tauto.
  Qed.
End Order.
