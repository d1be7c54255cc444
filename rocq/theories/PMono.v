(** * Proofs: larger max_search *)
From Verif Require Import Base BaseFacts Bytes MSliceVec MOffsets MSetVec MIndexIo SIndexIo PIndexIo MSearch SSearch PHeap PSearch PSearchIx.
Set Implicit Arguments. Unset Strict Implicit.

(** every entry of the first list is matched by one at least as good *)
Definition dom (l l' : list key) : Prop :=
  forall i k, nth_error l i = Some k -> exists k', nth_error l' i = Some k' /\ key_le k' k = true.

Lemma dom_refl l : dom l l.
Proof. intros i k H. exists k. split; auto using key_le_refl. Qed.
Lemma dom_trans a b c : dom a b -> dom b c -> dom a c.
Proof.
  intros H1 H2 i k Hk. destruct (H1 _ _ Hk) as (k1 & E1 & L1). destruct (H2 _ _ E1) as (k2 & E2 & L2).
  exists k2. split; auto. eapply key_le_trans; eauto.
Qed.
Lemma dom_insert x l : ksorted l -> dom l (insert_by key_le x l).
Proof.
  induction l as [|a l IH]; intros Hs i k H; [destruct i; discriminate|].
  cbn [insert_by]. inversion Hs as [|? ? Hs' Hall]; subst. destruct (key_le x a) eqn:E.
  - destruct i as [|i]; cbn [nth_error] in *.
    + assert (a = k) by congruence. subst. eauto.
    + (* entry i of a :: l is at most entry i of l *)
      clear IH E x Hs. revert a i k H Hs' Hall. induction l as [|b l IH]; intros a i k H Hs' Hall; [destruct i; discriminate|].
      inversion Hall; subst. inversion Hs' as [|? ? Hs2 Hall2]; subst.
      destruct i as [|i]; cbn [nth_error] in *.
      * exists a. split; auto. assert (b = k) by congruence. subst. assumption.
      * apply IH; auto.
  - destruct i as [|i]; cbn [nth_error] in *.
    + assert (a = k) by congruence. subst. exists k. auto using key_le_refl.
    + apply IH; auto.
Qed.
Lemma nth_firstn {A} n (l : list A) i x : nth_error (firstn n l) i = Some x <-> i < n /\ nth_error l i = Some x.
Proof.
  revert l i; induction n as [|n IH]; intros [|a l] [|i]; cbn [firstn nth_error]; try (split; [discriminate|intros [? ?]; (discriminate || lia)]).
  - split; [intros H; split; [lia|auto]|tauto].
  - rewrite IH. split; intros [H1 H2]; split; auto; lia.
Qed.
Lemma dom_firstn a b n m : n <= m -> dom a b -> dom (firstn n a) (firstn m b).
Proof.
  intros Hnm H i k Hk. apply nth_firstn in Hk as [Hi Hk]. destruct (H _ _ Hk) as (k' & E & Hle). exists k'. split; auto.
  apply nth_firstn. split; auto; lia.
Qed.

Section Mono.
  Variables (n : nat) (f : nat -> Z) (dist : nat -> outcome Z).
  Hypothesis Hdist : forall i, i < n -> dist i = Ok (f i).
  Hypothesis Hinj : forall i j, i < n -> j < n -> f i = f j -> i = j.
  Variables (nbrs : nat -> outcome (list nat)) (nb : nat -> list nat).
  Hypothesis Hnb : forall x, x < n -> nbrs x = Ok (nb x) /\ Forall (fun y => y < n) (nb x).
  Variables (ep : nat).
  Hypothesis Hep : ep < n.
  Local Notation inv := (inv n f nb).

  (** one iteration, in terms of sets *)
  Lemma expand_shape ms E st k pq : 0 < ms -> inv ms ep E st -> s_pq st = k :: pq ->
    exists st2, s_expand dist (mkSst (s_res st) pq (s_vis st)) k (nb (snd k)) = Ok st2 /\ inv ms ep (snd k :: E) st2 /\
      hs (s_res st2) = firstn ms (insert_by key_le k (hs (s_res st))) /\
      (forall x, In x (s_vis st2) <-> In x (s_vis st) \/ In x (nb (snd k))) /\
      (forall q, In q (s_pq st2) <-> In q pq \/ exists x, q = kof f x /\ In x (nb (snd k)) /\ ~ In x (s_vis st) /\ accept (s_res st2) (kof f x) = true).
  Proof using Hdist Hnb Hep.
    intros Hms HI Epq. destruct (@expand_inv n f dist Hdist nbrs nb Hnb ms ep Hms Hep E st k pq HI Epq) as (st2 & E2 & HI2 & Hkn).
    exists st2. split; [exact E2|]. split; [exact HI2|].
    unfold s_expand in E2. cbn [s_res s_pq s_vis] in E2.
    destruct (@msh_push_spec key key_le key_le_total key_le_trans key_le_antisym (s_res st) k (i_sort HI)) as (h' & b & Ep & Hmax & Hh & _).
    { rewrite (i_max HI). apply (i_len HI). } { rewrite (i_max HI). exact Hms. }
    rewrite (i_max HI) in *. rewrite Ep in E2. cbn [obind fst] in E2.
    assert (Hpos : 0 < length (hs h')).
    { rewrite Hh, firstn_length, (Permutation_length (insert_by_perm key_le k (hs (s_res st)))). cbn. lia. }
    assert (Hpkf : msh_is_full h' = true -> msh_peek h' <> None).
    { intros _. unfold msh_peek. intros H. apply nth_error_None in H. lia. }
    assert (Hps : ksorted pq) by (pose proof (i_psort HI) as H; rewrite Epq in H; now inversion H).
    destruct (Hnb Hkn) as [_ HnbF].
    destruct (@visit_fold n f dist Hdist h' (nb (snd k)) HnbF Hpkf pq (s_vis st) Hps) as (new & pq' & Ef & HNn & HIn & Hps' & HPq).
    rewrite Ef in E2. cbn [obind fst snd] in E2. assert (Est : st2 = mkSst h' pq' (rev new ++ s_vis st)) by congruence. subst st2.
    cbn [s_res s_pq s_vis] in *. split; [exact Hh|]. split.
    - intros x. rewrite in_app_iff, <- in_rev, HIn. destruct (in_dec Nat.eq_dec x (s_vis st)); tauto.
    - intros q. split.
      + intros Hq. apply (Permutation_in _ HPq) in Hq. apply in_app_or in Hq as [Hq|Hq]; [right|now left].
        apply filter_In in Hq as [Hq Ha]. apply in_map_iff in Hq as (x & <- & Hx). apply HIn in Hx. exists x. tauto.
      + intros Hq. apply (Permutation_in _ (Permutation_sym HPq)). apply in_or_app. destruct Hq as [Hq|(x & -> & H1 & H2 & H3)]; [now right|left].
        apply filter_In. split; auto. apply in_map. apply HIn. auto.
  Qed.

  Record coupled (ms ms' : nat) (E : list nat) (Q : list key) (st st' : sst) : Prop := {
    c_inv : inv ms ep E st;
    c_inv' : inv ms' ep E st';
    c_Q : ksorted Q;
    c_res : hs (s_res st) = firstn ms Q;
    c_res' : hs (s_res st') = firstn ms' Q;
    c_vis : forall x, In x (s_vis st) <-> In x (s_vis st');
    c_pq : incl (s_pq st) (s_pq st')
  }.

  Lemma in_firstn_le {A} a b (l : list A) x : a <= b -> In x (firstn a l) -> In x (firstn b l).
  Proof using Type.
    clear. intros Hab H. replace (firstn a l) with (firstn a (firstn b l)) in H by (rewrite firstn_firstn; f_equal; lia). eapply firstn_In; eauto.
  Qed.

  (** what the smaller search keeps, the larger one keeps *)
  Lemma peek_le ms ms' E st E' st' Q p p' : ms <= ms' -> inv ms ep E st -> inv ms' ep E' st' ->
    hs (s_res st) = firstn ms Q -> hs (s_res st') = firstn ms' Q ->
    msh_peek (s_res st) = Some p -> msh_peek (s_res st') = Some p' -> key_le p p' = true.
  Proof using n ep Hep.
    intros Hle HI HI' H1 H2 Hp Hp'. pose proof (ssorted_last key_le key_le_total (i_sort HI') Hp') as HF. rewrite Forall_forall in HF.
    apply HF. rewrite H2. apply in_firstn_le with ms; auto. rewrite <- H1. eapply nth_error_In; eauto.
  Qed.
  Lemma full_full ms ms' E st E' st' Q : ms <= ms' -> inv ms ep E st -> inv ms' ep E' st' ->
    hs (s_res st) = firstn ms Q -> hs (s_res st') = firstn ms' Q ->
    msh_is_full (s_res st') = true -> msh_is_full (s_res st) = true.
  Proof using n ep Hep.
    intros Hle HI HI' H1 H2. unfold msh_is_full. rewrite (i_max HI), (i_max HI'), H1, H2, !firstn_length, !Nat.leb_le. lia.
  Qed.

  (** the same element is next *)
  Lemma same_pop ms ms' E Q st st' k pq : 0 < ms -> ms <= ms' -> coupled ms ms' E Q st st' ->
    s_pq st = k :: pq -> s_pop st = Ok (Some (k, mkSst (s_res st) pq (s_vis st))) ->
    exists pq', s_pq st' = k :: pq' /\ s_pop st' = Ok (Some (k, mkSst (s_res st') pq' (s_vis st'))) /\ incl pq pq'.
  Proof using Hinj Hep.
    intros Hms Hle HC Epq Hpop. destruct HC as [HI HI' HQ HR HR' HV HP]. assert (Hms' : 0 < ms') by lia.
    destruct k as [d idx].
    (* not the end of the smaller search *)
    assert (Hnot : forall p, msh_is_full (s_res st) = true -> msh_peek (s_res st) = Some p -> (d <= fst p)%Z).
    { intros p Hf Hp. unfold s_pop in Hpop. rewrite Epq, Hf, Hp in Hpop. cbn [ounwrap obind] in Hpop.
      destruct (Z.ltb_spec (fst p) d); [discriminate|lia]. }
    assert (Hkin : In (d, idx) (s_pq st')) by (apply HP; rewrite Epq; left; auto).
    destruct (s_pq st') as [|c pq'] eqn:Epq'; [destruct Hkin|].
    assert (Ec : c = (d, idx)).
    { pose proof (i_psort HI') as Hs'. rewrite Epq' in Hs'. inversion Hs' as [|? ? _ Hall]; subst. rewrite Forall_forall in Hall.
      destruct Hkin as [|Hkin]; [assumption|]. pose proof (Hall _ Hkin) as Hck.
      assert (Hcin : In c (s_pq st')) by (rewrite Epq'; left; auto).
      destruct (i_key HI' _ (or_intror Hcin)) as [Ekc Hcn].
      assert (Hcv : In (snd c) (s_vis st)) by (apply HV, (i_pqvis HI'); apply in_map; exact Hcin).
      assert (HcE : ~ In (snd c) E).
      { pose proof (i_nodup HI') as HN. intros HE. eapply NoDup_app_disj; [exact HN| |exact HE]. now apply in_map. }
      destruct (i_cover HI _ Hcv) as [H|[H|[H1 H2]]].
      - exfalso. apply HcE. apply (i_resE HI). exact H.
      - apply in_map_iff in H as (q & Eq & Hq). assert (q = c).
        { destruct (i_key HI _ (or_intror Hq)) as [Ekq _]. rewrite Ekq, Ekc, Eq. reflexivity. }
        subst q. pose proof (i_psort HI) as Hs. rewrite Epq in Hs. inversion Hs as [|? ? _ Hall2]; subst. rewrite Forall_forall in Hall2.
        rewrite Epq in Hq. destruct Hq as [|Hq]; [congruence|]. apply key_le_antisym; auto.
      - exfalso. destruct (peek_full Hms Hep st H1) as (p & Hp & Hpin).
        assert (Hfull : msh_is_full (s_res st) = true) by (unfold msh_is_full; rewrite (i_max HI), H1; apply Nat.leb_refl).
        specialize (Hnot p Hfull Hp). specialize (H2 p Hpin). apply key_le_fst in Hck. cbn [fst] in Hck.
        assert (Hfc : fst c = f (snd c)) by (rewrite Ekc at 1; reflexivity).
        destruct (i_key HI _ (or_introl Hpin)) as [Ekp Hpn]. assert (Hfp : fst p = f (snd p)) by (rewrite Ekp at 1; reflexivity).
        assert (snd p = snd c) by (apply Hinj; auto; lia). apply HcE. rewrite <- H. apply (i_resE HI). now apply in_map. }
    subst c. exists pq'. split; [reflexivity|]. split.
    - unfold s_pop. rewrite Epq'. destruct (msh_is_full (s_res st')) eqn:Ef'; [|reflexivity].
      pose proof (full_full Hle HI HI' HR HR' Ef') as Ef.
      assert (Hl1 : length (hs (s_res st)) = ms) by (apply (full_iff Hms Hep HI); exact Ef).
      assert (Hl2 : length (hs (s_res st')) = ms') by (apply (full_iff Hms' Hep HI'); exact Ef').
      destruct (peek_full Hms Hep st Hl1) as (p & Hp & _). destruct (peek_full Hms' Hep st' Hl2) as (p' & Hp' & _).
      pose proof (peek_le Hle HI HI' HR HR' Hp Hp') as Hpp. apply key_le_fst in Hpp. specialize (Hnot p Ef Hp).
      rewrite Hp'. cbn [ounwrap obind]. destruct (Z.ltb_spec (fst p') d); [lia|reflexivity].
    - intros q Hq. assert (Hq2 : In q ((d, idx) :: pq')) by (apply HP; rewrite Epq; right; auto).
      destruct Hq2 as [<-|]; auto. exfalso. pose proof (i_nodup HI) as HN. rewrite Epq in HN. cbn [map app] in HN. inversion HN as [|? ? Hni _]; subst.
      apply Hni. apply in_or_app. left. apply in_map_iff. exists (d, idx). auto.
  Qed.

  Lemma same_step ms ms' E Q st st' k pq : 0 < ms -> ms <= ms' -> coupled ms ms' E Q st st' ->
    s_pq st = k :: pq -> s_pop st = Ok (Some (k, mkSst (s_res st) pq (s_vis st))) ->
    exists pq' st2 st2', s_pop st' = Ok (Some (k, mkSst (s_res st') pq' (s_vis st'))) /\
      s_expand dist (mkSst (s_res st) pq (s_vis st)) k (nb (snd k)) = Ok st2 /\
      s_expand dist (mkSst (s_res st') pq' (s_vis st')) k (nb (snd k)) = Ok st2' /\
      snd k < n /\ coupled ms ms' (snd k :: E) (insert_by key_le k Q) st2 st2'.
  Proof using Hdist Hinj Hnb Hep.
    intros Hms Hle HC Epq Hpop. destruct (same_pop Hms Hle HC Epq Hpop) as (pq' & Epq' & Hpop' & Hincl).
    destruct HC as [HI HI' HQ HR HR' HV HP].
    destruct (expand_shape Hms HI Epq) as (st2 & E2 & HI2 & HR2 & HV2 & HP2).
    assert (Hms' : 0 < ms') by lia.
    destruct (expand_shape Hms' HI' Epq') as (st2' & E2' & HI2' & HR2' & HV2' & HP2').
    exists pq', st2, st2'. split; [exact Hpop'|]. split; [exact E2|]. split; [exact E2'|].
    destruct (i_key HI k) as [_ Hkn]; [right; rewrite Epq; left; auto|]. split; [exact Hkn|].
    assert (HQ2 : ksorted (insert_by key_le k Q)) by (apply insert_by_sorted; auto using key_le_total; exact key_le_trans).
    assert (H1 : hs (s_res st2) = firstn ms (insert_by key_le k Q)).
    { rewrite HR2, HR. apply insert_firstn; auto using key_le_total. }
    assert (H1' : hs (s_res st2') = firstn ms' (insert_by key_le k Q)).
    { rewrite HR2', HR'. apply insert_firstn; auto using key_le_total. }
    constructor; auto.
    - intros x. rewrite HV2, HV2', HV. reflexivity.
    - intros q Hq. apply HP2'. apply HP2 in Hq. destruct Hq as [Hq|(x & -> & Hx & Hnv & Ha)]; [left; auto|right].
      exists x. split; [reflexivity|]. split; [exact Hx|]. split; [now rewrite <- HV|].
      unfold accept in *. destruct (msh_is_full (s_res st2')) eqn:Ef'; [|reflexivity]. cbn [negb orb].
      pose proof (full_full Hle HI2 HI2' H1 H1' Ef') as Ef. rewrite Ef in Ha. cbn [negb orb] in Ha.
      assert (Hl2 : length (hs (s_res st2')) = ms') by (apply (full_iff Hms' Hep HI2'); exact Ef').
      destruct (peek_full Hms' Hep st2' Hl2) as (p' & Hp' & _).
      destruct (msh_peek (s_res st2)) as [p|] eqn:Hp; [|discriminate]. rewrite Hp'.
      pose proof (peek_le Hle HI2 HI2' H1 H1' Hp Hp') as Hpp. apply key_le_fst in Hpp. apply Z.ltb_lt in Ha. apply Z.ltb_lt. lia.
  Qed.

  (** a search that goes on only improves *)
  Lemma goes_on ms : 0 < ms -> forall fuel E Q st l, inv ms ep E st -> ksorted Q -> hs (s_res st) = firstn ms Q ->
    s_loop fuel nbrs dist st = Ok l -> exists Q', l = firstn ms Q' /\ dom Q Q'.
  Proof using Hdist Hnb Hep.
    intros Hms. induction fuel as [|fuel IH]; intros E Q st l HI HQ HR Hl; [discriminate|]. cbn [s_loop] in Hl.
    destruct (pop_cases Hms Hep HI) as [[Hp _]|(k & pq & Epq & Hp)]; rewrite Hp in Hl; cbn [obind] in Hl.
    - assert (l = hs (s_res st)) by (unfold msh_into_sorted_vec in Hl; congruence). subst l. exists Q. split; auto using dom_refl.
    - destruct (expand_shape Hms HI Epq) as (st2 & E2 & HI2 & HR2 & _).
      destruct (i_key HI k) as [_ Hkn]; [right; rewrite Epq; left; auto|].
      destruct (Hnb Hkn) as [En _]. rewrite En in Hl. cbn [obind] in Hl. rewrite E2 in Hl. cbn [obind] in Hl.
      assert (HQ2 : ksorted (insert_by key_le k Q)) by (apply insert_by_sorted; auto using key_le_total; exact key_le_trans).
      destruct (IH (snd k :: E) (insert_by key_le k Q) st2 l HI2 HQ2) as (Q' & El & Hd); [|exact Hl|].
      + rewrite HR2, HR. apply insert_firstn; auto using key_le_total.
      + exists Q'. split; auto. eapply dom_trans; [|exact Hd]. now apply dom_insert.
  Qed.

  Lemma loops ms ms' : 0 < ms -> ms <= ms' -> forall fuel fuel' E Q st st' l l', coupled ms ms' E Q st st' ->
    s_loop fuel nbrs dist st = Ok l -> s_loop fuel' nbrs dist st' = Ok l' -> dom l l'.
  Proof using Hdist Hinj Hnb Hep.
    intros Hms Hle. assert (Hms' : 0 < ms') by lia.
    induction fuel as [|fuel IH]; intros fuel' E Q st st' l l' HC Hl Hl'; [discriminate|]. cbn [s_loop] in Hl.
    destruct (pop_cases Hms Hep (c_inv HC)) as [[Hp _]|(k & pq & Epq & Hp)].
    - rewrite Hp in Hl. cbn [obind] in Hl. assert (l = hs (s_res st)) by (unfold msh_into_sorted_vec in Hl; congruence). subst l.
      destruct (goes_on Hms' (c_inv' HC) (c_Q HC) (c_res' HC) Hl') as (Q' & -> & Hd). rewrite (c_res HC). now apply dom_firstn.
    - destruct (same_step Hms Hle HC Epq Hp) as (pq' & st2 & st2' & Hp' & E2 & E2' & Hkn & HC2).
      rewrite Hp in Hl. cbn [obind] in Hl. destruct (Hnb Hkn) as [En _]. rewrite En in Hl. cbn [obind] in Hl. rewrite E2 in Hl. cbn [obind] in Hl.
      destruct fuel' as [|fuel']; [discriminate|]. cbn [s_loop] in Hl'. rewrite Hp' in Hl'. cbn [obind] in Hl'.
      rewrite En in Hl'. cbn [obind] in Hl'. rewrite E2' in Hl'. cbn [obind] in Hl'.
      exact (IH _ _ _ _ _ _ _ HC2 Hl Hl').
  Qed.

  Lemma sfn_mono ms ms' fuel fuel' l l' : 0 < ms -> ms <= ms' ->
    search_for_neighbors fuel nbrs dist ep ms = Ok (map (fun k => (snd k, fst k)) l) ->
    search_for_neighbors fuel' nbrs dist ep ms' = Ok (map (fun k => (snd k, fst k)) l') -> dom l l'.
  Proof using Hdist Hinj Hnb Hep.
    intros Hms Hle Hl Hl'. assert (Hms' : 0 < ms') by lia. unfold search_for_neighbors in *.
    destruct (inv_init f dist Hdist nb Hms Hep) as (st & Es & HI). destruct (inv_init f dist Hdist nb Hms' Hep) as (st' & Es' & HI').
    rewrite Es in Hl. rewrite Es' in Hl'. cbn [obind] in *.
    destruct (s_loop fuel nbrs dist st) as [a|] eqn:Ea; [|discriminate]. destruct (s_loop fuel' nbrs dist st') as [a'|] eqn:Ea'; [|discriminate].
    cbn [obind] in *.
    assert (Hinjm : forall x y : list key, Ok (map (fun k : key => (snd k, fst k)) x) = Ok (map (fun k : key => (snd k, fst k)) y) -> x = y).
    { intros x y H. assert (H1 : map (fun k : key => (snd k, fst k)) x = map (fun k : key => (snd k, fst k)) y) by congruence. clear -H1.
      revert y H1. induction x as [|[d i] x IH]; intros [|[d' i'] y] H; cbn in H; try discriminate; [reflexivity|].
      inversion H; subst. f_equal. auto. }
    apply Hinjm in Hl. apply Hinjm in Hl'. subst a a'.
    unfold s_init in Es, Es'. rewrite (Hdist Hep) in Es, Es'. cbn [obind] in Es, Es'.
    assert (E1 : st = mkSst (msh_new ms) [(f ep, ep)] [ep]) by congruence. assert (E2 : st' = mkSst (msh_new ms') [(f ep, ep)] [ep]) by congruence.
    subst st st'. refine (@loops ms ms' Hms Hle fuel fuel' [] [] _ _ l l' _ Ea Ea').
    constructor; auto; cbn [s_res s_pq s_vis msh_new hs].
    - constructor.
    - now rewrite firstn_nil.
    - now rewrite firstn_nil.
    - reflexivity.
    - intros x Hx. exact Hx.
  Qed.
End Mono.
