(** * Proofs: the builder *)
From Verif Require Import Base BaseFacts MSliceVec SSliceVec PFixed MIndexIo MSearch PHeap PSearch MBuild SBuild PSelect PRow PSLite PBuildInv PBuildRun PBuildLayer PBuildFair.
Set Implicit Arguments.
Unset Strict Implicit.

Lemma fw_is_with_width w : fw_is w [] (fw_with_width w : fw N).
Proof. split; [reflexivity|]. split; [reflexivity|constructor]. Qed.

Section Pass.
  Context {S E : Type} (V : benv S E) (s : S).
  Local Notation C := (e_ops V).
  Hypothesis Hc : cont_ok C s.
  Hypothesis Hsort : sorts_by_dist (e_sort V).
  Hypothesis Hlen : (N.of_nat (c_len C s) <= UNUSED)%N.
  Hypothesis Hfuel : c_len C s < e_fuel V.
  Variable U : bool.
  Local Notation lfin := (lfine V s U).
  Local Notation ch := (chain V s U).

  Lemma grows_refl r : grows U r r.
  Proof using Type. split; auto. Qed.
  Lemma grows_trans r1 r2 r3 : grows U r1 r2 -> grows U r2 r3 -> grows U r1 r3.
  Proof using Type. intros [H1 H2] [H3 H4]. split; [eapply Nat.le_trans; eauto|]. auto. Qed.

  Lemma chain_app nn0 ls R l rows : ch nn0 ls R -> lfin nn0 l rows -> grows U (last R []) rows ->
    ch nn0 (ls ++ [l]) (R ++ [rows]).
  Proof using Type.
    intros [HF HS] Hl Hg. split; [apply Forall2_app; auto|].
    clear HF Hl. induction R as [|r R IH]; cbn [app]; [repeat constructor|].
    inversion HS as [|? ? HS' HA]; subst. constructor.
    - apply IH; auto. destruct R as [|r1 R]; [cbn [last]; split; cbn; [apply Nat.le_0_l|]|].
      + intros HU x (r0 & E0 & _). destruct x; discriminate.
      + exact Hg.
    - apply Forall_app. split; auto. constructor; [|constructor].
      destruct R as [|r1 R]; [exact Hg|]. eapply grows_trans; [|exact Hg].
      rewrite Forall_forall in HA. apply HA.
      change (last (r :: r1 :: R) []) with (last (r1 :: R) []).
      destruct (@exists_last _ (r1 :: R)) as (q & z & Eq); [discriminate|]. rewrite Eq, last_last. apply in_or_app. right. left. auto.
  Qed.

  Lemma chain_split nn0 ls l R : ch nn0 (ls ++ [l]) R ->
    exists R0 rows, R = R0 ++ [rows] /\ ch nn0 ls R0 /\ lfin nn0 l rows /\ grows U (last R0 []) rows.
  Proof using Type.
    intros [HF HS]. apply Forall2_app_inv_l in HF as (R0 & R1 & HF0 & HF1 & ->).
    inversion HF1 as [|? rows ? ? Hl HFn]; subst. inversion HFn; subst.
    exists R0, rows. split; auto.
    assert (H : StronglySorted (grows U) R0 /\ Forall (fun r => grows U r rows) R0).
    { clear -HS. induction R0 as [|r R0 IH]; [split; constructor|]. cbn [app] in HS.
      inversion HS as [|? ? HS' HA]; subst. destruct (IH HS'). apply Forall_app in HA as [HA HB]. inversion HB; subst.
      split; constructor; auto. }
    destruct H as [H1 H2]. split; [split; auto|]. split; auto.
    destruct R0 as [|r R0]; [split; cbn; [apply Nat.le_0_l|]|].
    - intros _ x (r0 & E0 & _). destruct x; discriminate.
    - rewrite Forall_forall in H2. apply H2. destruct (@exists_last _ (r :: R0)) as (q & z & Eq); [discriminate|].
      rewrite Eq, last_last. apply in_or_app. right. left. auto.
  Qed.

  Definition fair_all (sched : list nat) : Prop := fair_schedule (c_len C s) (4 * c_len C s + 7) sched.

  (** states during a pass *)
  Lemma pass_state nn0 nn ms prev R num l rows reinsert sched x x' :
    ch nn0 prev R -> (rows = [] \/ lfin nn0 l rows) -> fw_is (fwidth l) rows l -> 0 < fwidth l ->
    grows U (last R []) rows ->
    length rows <= num -> 0 < num <= c_len C s -> (reinsert = true -> num = length rows) -> 0 < nn <= fwidth l -> 0 < ms ->
    start_pass num l reinsert = Ok x -> run V s nn ms prev sched x = Ok x' ->
    sys_inv V s U (fwidth l) num nn ms (base_of U R) x' /\ (forall y, live rows y -> live (fst x') y).
  Proof.
    intros Hch Hrows His Hw Hg Hle Hmax Hre Hnn Hms Es Er.
    rewrite (@start_pass_unfold _ _ V s Hlen num l rows reinsert His Hw Hle) in Es. injection Es as <-.
    destruct (@start_inv _ _ V s Hlen U nn0 nn ms prev R num l rows reinsert Hch Hrows His Hw Hg Hle ltac:(lia) Hre Hnn Hms) as (HI & HL & Hlv).
    assert (Hle2 : length (last R []) <= num) by (destruct Hg; lia).
    pose proof (@hprev_of _ _ V s Hc Hlen U nn0 prev R num Hch Hle2 ltac:(lia) Hfuel) as Hprev.
    destruct (@run_inv _ _ V s Hc Hsort Hlen U (fwidth l) num ltac:(lia) nn ms prev Hnn Hms (base_of U R) Hprev sched _ _ HI Er)
      as (HI' & _ & Hm & _). auto.
  Qed.

  Theorem pass_ok nn0 nn ms prev R num l rows reinsert sched :
    ch nn0 prev R -> (rows = [] \/ lfin nn0 l rows) -> fw_is (fwidth l) rows l -> 0 < fwidth l -> nn0 <= fwidth l ->
    grows U (last R []) rows ->
    length rows <= num -> 0 < num <= c_len C s -> (reinsert = true -> num = length rows) -> 0 < nn <= fwidth l -> 0 < ms ->
    (forall l', index_elements V s nn ms prev num l reinsert sched = Ok l' ->
       exists rows', lfin nn0 l' rows' /\ fwidth l' = fwidth l /\ length rows' = num /\
                 (forall x, live rows x -> live rows' x) /\
                 (forall i r, nth_error rows' i = Some r -> length (row_ids r) <= nn)) /\
    (schedule_ok V sched -> forall e, index_elements V s nn ms prev num l reinsert sched = Fail e -> e = OutOfFuel) /\
    (schedule_ok V sched -> fair_all sched -> exists l', index_elements V s nn ms prev num l reinsert sched = Ok l').
  Proof.
    intros Hch Hrows His Hw Hw0 Hg Hle Hmax Hre Hnn Hms.
    destruct (@start_inv _ _ V s Hlen U nn0 nn ms prev R num l rows reinsert Hch Hrows His Hw Hg Hle ltac:(lia) Hre Hnn Hms) as (HI & HL & Hlv).
    assert (Hle2 : length (last R []) <= num) by (destruct Hg; lia).
    pose proof (@hprev_of _ _ V s Hc Hlen U nn0 prev R num Hch Hle2 ltac:(lia) Hfuel) as Hprev.
    assert (Hnof : schedule_ok V sched -> forall e, index_elements V s nn ms prev num l reinsert sched = Fail e -> e = OutOfFuel).
    { intros Hs e Ee. pose proof (@index_elements_ok _ _ V s Hc Hsort Hlen U nn0 nn ms prev R num l rows reinsert sched
        Hch Hrows His Hw Hw0 Hg Hle Hmax Hre Hnn Hms Hfuel Hs) as H. now rewrite Ee in H. }
    split; [|split; [exact Hnof|]].
    - intros l'. rewrite (@index_elements_unfold _ _ V s Hlen nn ms prev num l rows reinsert sched His Hw Hle).
      destruct (run V s nn ms prev sched (start_state num rows reinsert (fwidth l))) as [x'|] eqn:Er; [|discriminate].
      cbn [obind]. destruct (all_done (snd x')) eqn:Ed; [|discriminate].
      destruct (@run_inv _ _ V s Hc Hsort Hlen U (fwidth l) num ltac:(lia) nn ms prev Hnn Hms (base_of U R) Hprev sched _ _ HI Er)
        as (HI' & _ & Hm & _).
      destruct (@limit_rows_ok _ _ V s Hc Hsort Hlen U (fwidth l) num nn (base_of U R) (fst x') ltac:(lia) Hnn (z_lay HI')) as (rows' & -> & HI2 & Hm2 & _ & Hb).
      cbn [obind]. intros E1. injection E1 as <-. exists rows'.
      assert (HL' : length rows' = num) by apply (y_len HI2).
      assert (Hw' : Forall (fun r => length r = fwidth l) rows').
      { rewrite Forall_forall. intros r Hr. apply In_nth_error in Hr as (i & Hi). destruct (y_row HI2 Hi) as (ns & Hsh & _).
        eapply row_shows_length; eauto. }
      split; [|split; [reflexivity|split; [auto|split; auto]]].
      constructor; cbn [fwidth]; auto.
      + split; [reflexivity|]. split; auto.
      + lia.
      + lia.
      + rewrite HL'. eapply change_base; [exact HI2|]. intros x [].
    - intros Hs Hf. rewrite (@index_elements_unfold _ _ V s Hlen nn ms prev num l rows reinsert sched His Hw Hle) in *.
      destruct (run V s nn ms prev sched (start_state num rows reinsert (fwidth l))) as [x'|e] eqn:Er.
      + cbn [obind] in *.
        assert (Ed : all_done (snd x') = true).
        { eapply (@fair_done _ _ V s Hc Hsort Hlen U (fwidth l) num ltac:(lia) nn ms prev Hnn Hms (base_of U R) Hprev); [exact HI| |exact Er].
          intros k Hk. eapply Nat.le_trans; [|apply Hf].
          - lia.
          - eapply Nat.lt_le_trans; [exact Hk|]. destruct reinsert; rewrite ?rev_length, seq_length, ?app_length, ?repeat_length.
            + rewrite <- (Hre eq_refl). lia.
            + lia. }
        rewrite Ed in *.
        destruct (@run_inv _ _ V s Hc Hsort Hlen U (fwidth l) num ltac:(lia) nn ms prev Hnn Hms (base_of U R) Hprev sched _ _ HI Er)
          as (HI' & _ & Hm & _).
        destruct (@limit_rows_ok _ _ V s Hc Hsort Hlen U (fwidth l) num nn (base_of U R) (fst x') ltac:(lia) Hnn (z_lay HI')) as (rows' & -> & _).
        cbn [obind]. eauto.
      + exfalso. cbn [obind] in *. specialize (Hnof Hs e eq_refl). subst e.
        assert (Hne : exists x', run V s nn ms prev sched (start_state num rows reinsert (fwidth l)) = Ok x').
        { destruct Hs as [Hrel|Hord].
          - destruct (@run_release _ _ V s Hc Hsort Hlen U (fwidth l) num ltac:(lia) nn ms prev Hnn Hms (base_of U R) Hprev sched _ Hrel HI)
              as (x' & E1 & _). eauto.
          - destruct (@run_in_order _ _ V s Hc Hsort Hlen U (fwidth l) num ltac:(lia) nn ms prev Hnn Hms (base_of U R) Hprev sched Hord _ 0 HI)
              as (x' & E1 & _); eauto.
            + apply init_upto.
            + rewrite Forall_forall. intros; lia. }
        destruct Hne as (x' & Ex). congruence.
  Qed.
End Pass.

(** ** Builders *)
Definition scheds_ok {S E} (V : benv S E) (sched : schedules) : Prop := forall i p, schedule_ok V (sched i p).

Section Builder.
  Context {S E : Type} (V : benv S E).
  Local Notation C := (e_ops V).
  Hypothesis Hsort : sorts_by_dist (e_sort V).
  Variable U : bool.

  Record elems_ok (s : S) : Prop := mkElemsOk {
    eo_c : cont_ok C s;
    eo_len : (N.of_nat (c_len C s) <= UNUSED)%N;
    eo_fuel : c_len C s < e_fuel V
  }.

  Definition bfine (b : builder S) : Prop :=
    cfg_ok (b_config b) /\ elems_ok (b_elems b) /\
    exists R, chain V (b_elems b) U (k_nn (b_config b)) (b_layers b) R.

  Definition fair_scheds (s : S) (sched : schedules) : Prop := forall i p, fair_all V s (sched i p).

  Lemma total_fits b : cfg_ok (b_config b) -> elems_ok (b_elems b) ->
    fits_usize (Nat.max (builder_total V b) (c_len C (b_elems b))).
  Proof using Type.
    intros (_ & _ & Hx & _) [_ Hl _].
    assert (H1 : fits_usize (c_len C (b_elems b))) by (unfold fits_usize; eapply N.le_lt_trans; [exact Hl|reflexivity]).
    unfold builder_total. destruct (k_expected (b_config b)) as [x|]; [specialize (Hx x eq_refl)|];
    destruct (Nat.max_dec x (c_len C (b_elems b))) as [E1|E1] || destruct (Nat.max_dec (c_len C (b_elems b)) (c_len C (b_elems b))) as [E1|E1]; rewrite E1; auto.
  Qed.

  Lemma builder_nn_ok b ideal : 0 < k_nn (b_config b) -> 0 < builder_nn V b ideal <= k_nn (b_config b).
  Proof.
    intros H. unfold builder_nn. destruct (ideal <? builder_total V b); [|lia].
    pose proof (Nat.div_le_upper_bound (k_nn (b_config b)) 2 (k_nn (b_config b))). lia.
  Qed.

  Lemma index_last_ok b prev R l rows max_num sched :
    cfg_ok (b_config b) -> elems_ok (b_elems b) -> b_layers b = prev ++ [l] ->
    chain V (b_elems b) U (k_nn (b_config b)) prev R ->
    ((rows = [] /\ prev = []) \/ lfine V (b_elems b) U (k_nn (b_config b)) l rows) ->
    fw_is (fwidth l) rows l -> k_nn (b_config b) <= fwidth l -> grows U (last R []) rows ->
    length rows <= max_num -> 0 < max_num <= c_len C (b_elems b) ->
    let ideal := builder_ideal V b (length prev) in
    (forall b', index_last V b max_num sched = Ok b' ->
       b_elems b' = b_elems b /\ b_config b' = b_config b /\
       exists l' rows', b_layers b' = prev ++ [l'] /\ lfine V (b_elems b) U (k_nn (b_config b)) l' rows' /\
         fwidth l' = fwidth l /\ length rows <= length rows' /\ (forall x, live rows x -> live rows' x) /\
         ((ideal <= length rows /\ l' = l /\ rows' = rows) \/
          (length rows < ideal /\ length rows' = Nat.min max_num ideal /\
           forall i r, nth_error rows' i = Some r -> length (row_ids r) <= builder_nn V b ideal))) /\
    (scheds_ok V sched -> forall e, index_last V b max_num sched = Fail e -> e = OutOfFuel) /\
    (scheds_ok V sched -> fair_scheds (b_elems b) sched -> exists b', index_last V b max_num sched = Ok b').
  Proof.
    intros Hcfg Hel Hls Hch Hrows His Hw Hg Hle Hmax ideal.
    pose proof (total_fits Hcfg Hel) as Hfit. destruct Hcfg as (Hnn & Hms & _ & Hid). destruct Hel as [Hc Hlen Hfu].
    assert (Hw0 : 0 < fwidth l) by lia.
    assert (Hid0 : rows = [] -> 0 < ideal).
    { intros E0. destruct Hrows as [[_ ->]|Hl]; [apply Hid; [lia|exact Hfit]|]. pose proof (f_pos Hl) as Hp0. rewrite E0 in Hp0. cbn in Hp0. lia. }
    assert (Hrows' : rows = [] \/ lfine V (b_elems b) U (k_nn (b_config b)) l rows) by (destruct Hrows as [[? _]|]; auto).
    clear Hrows. rename Hrows' into Hrows.
    unfold index_last. rewrite Hls, split_last_app. cbn [ounwrap obind].
    replace (length (prev ++ [l]) - 1) with (length prev) by (rewrite app_length; cbn; lia).
    fold ideal. rewrite (fw_is_len Hw0 His).
    destruct (Nat.leb_spec ideal (length rows)) as [Hi|Hi].
    { split; [|split].
      - intros b' E1. injection E1 as <-. split; auto. split; auto. exists l, rows.
        destruct Hrows as [E0|Hl]; [specialize (Hid0 E0); subst rows; cbn in Hi; lia|]. split; auto 10.
      - discriminate.
      - eauto. }
    set (num := Nat.min max_num ideal). set (nn := builder_nn V b ideal). set (s := b_elems b) in *.
    assert (Hnnb : 0 < nn <= k_nn (b_config b)) by (apply builder_nn_ok; auto).
    assert (Hnum : length rows <= num) by lia.
    assert (Hnum2 : 0 < num <= c_len C s) by lia.
    destruct (@pass_ok _ _ V s Hc Hsort Hlen Hfu U (k_nn (b_config b)) nn (k_ms (b_config b)) prev R num l rows false
      (sched (length prev) false) Hch Hrows His Hw0 Hw Hg Hnum Hnum2 ltac:(discriminate) ltac:(lia) Hms) as (P1 & P2 & P3).
    set (r1 := index_elements V s nn (k_ms (b_config b)) prev num l false (sched (length prev) false)) in *. clearbody r1.
    set (ms2 := Nat.max 1 (k_ms (b_config b) / 2)).
    assert (Hsec : forall l1 rows1, lfine V s U (k_nn (b_config b)) l1 rows1 -> fwidth l1 = fwidth l -> length rows1 = num ->
       (forall x, live rows x -> live rows1 x) ->
       (forall l', index_elements V s nn ms2 prev num l1 true (sched (length prev) true) = Ok l' ->
         exists rows', lfine V s U (k_nn (b_config b)) l' rows' /\ fwidth l' = fwidth l1 /\ length rows' = num /\
                 (forall x, live rows1 x -> live rows' x) /\
                 (forall i r, nth_error rows' i = Some r -> length (row_ids r) <= nn)) /\
       (schedule_ok V (sched (length prev) true) -> forall e, index_elements V s nn ms2 prev num l1 true (sched (length prev) true) = Fail e -> e = OutOfFuel) /\
       (schedule_ok V (sched (length prev) true) -> fair_all V s (sched (length prev) true) ->
         exists l', index_elements V s nn ms2 prev num l1 true (sched (length prev) true) = Ok l')).
    { intros l1 rows1 Hl1 Hwl HL1 Hm1. apply pass_ok with (R := R); auto.
      - apply (f_is Hl1).
      - apply (f_w0 Hl1).
      - apply (f_w Hl1).
      - destruct Hg as [Hg1 Hg2]. split; [lia|]. auto.
      - lia.
      - rewrite Hwl. lia.
      - lia. }
    destruct (k_reinsert (b_config b)).
    - split; [|split].
      + destruct r1 as [l1|]; [|discriminate]. cbn [obind]. destruct (P1 l1 eq_refl) as (rows1 & Hl1 & Hwl & HL1 & Hm1 & Hb1).
        destruct (Hsec l1 rows1 Hl1 Hwl HL1 Hm1) as (Q1 & _ & _). intros b'.
        destruct (index_elements V s nn _ prev num l1 true _) as [l2|] eqn:E2; [|discriminate]. cbn [obind].
        intros E1. injection E1 as <-. cbn [b_elems b_config b_layers]. split; auto. split; auto.
        destruct (Q1 l2 eq_refl) as (rows2 & Hl2 & Hwl2 & HL2 & Hm2 & Hb2). exists l2, rows2.
        split; auto. split; auto. split; [congruence|]. split; [lia|]. split; auto. 
      + intros Hs e. destruct r1 as [l1|e1]; cbn [obind].
        * destruct (P1 l1 eq_refl) as (rows1 & Hl1 & Hwl & HL1 & Hm1 & Hb1).
          destruct (Hsec l1 rows1 Hl1 Hwl HL1 Hm1) as (_ & Q2 & _).
          destruct (index_elements V s nn _ prev num l1 true _) as [l2|e2] eqn:E2; [discriminate|]. cbn [obind].
          intros E1. injection E1 as <-. now apply Q2.
        * intros E1. injection E1 as <-. now apply P2.
      + intros Hs Hf. destruct (P3 (Hs _ _) (Hf _ _)) as (l1 & ->). cbn [obind].
        destruct (P1 l1 eq_refl) as (rows1 & Hl1 & Hwl & HL1 & Hm1 & Hb1).
        destruct (Hsec l1 rows1 Hl1 Hwl HL1 Hm1) as (_ & _ & Q3). destruct (Q3 (Hs _ _) (Hf _ _)) as (l2 & ->). cbn [obind]. eauto.
    - split; [|split].
      + intros b'. destruct r1 as [l1|]; [|discriminate]. cbn [obind]. destruct (P1 l1 eq_refl) as (rows1 & Hl1 & Hwl & HL1 & Hm1 & Hb1).
        intros E1. injection E1 as <-. cbn [b_elems b_config b_layers]. split; auto. split; auto. exists l1, rows1.
        split; auto. split; auto. split; [congruence|]. split; [lia|]. split; auto.
      + intros Hs e. destruct r1 as [l1|e1]; cbn [obind]; [discriminate|]. intros E1. injection E1 as <-. now apply P2.
      + intros Hs Hf. destruct (P3 (Hs _ _) (Hf _ _)) as (l1 & ->). cbn [obind]. eauto.
  Qed.

  Lemma builder_len_app b p l nn0 rows : b_layers b = p ++ [l] -> lfine V (b_elems b) U nn0 l rows ->
    builder_len b = length rows.
  Proof. intros E1 Hl. unfold builder_len. rewrite E1, split_last_app. apply (fw_is_len (f_w0 Hl) (f_is Hl)). Qed.

  Lemma builder_len_none (b : builder S) : b_layers b = [] -> builder_len b = 0.
  Proof. intros E1. unfold builder_len. rewrite E1. reflexivity. Qed.

  Lemma bfine_split b : bfine b ->
    b_layers b = [] \/ exists p l R rows, b_layers b = p ++ [l] /\ chain V (b_elems b) U (k_nn (b_config b)) p R /\
      lfine V (b_elems b) U (k_nn (b_config b)) l rows /\ grows U (last R []) rows /\ builder_len b = length rows /\
      last (R ++ [rows]) [] = rows.
  Proof.
    intros (_ & _ & R & Hch). destruct (split_last (b_layers b)) as [[l p]|] eqn:Esp.
    - right. apply split_last_some in Esp. rewrite Esp in Hch.
      destruct (chain_split Hch) as (R0 & rows & -> & H1 & H2 & H3).
      exists p, l, R0, rows. split; auto. split; auto. split; auto. split; auto. split; [eapply builder_len_app; eauto|apply last_last].
    - left. now apply split_last_nil.
  Qed.

  (** the common effect of the two ways in which layers are indexed *)
  Record step_post (b b' : builder S) (i num : nat) : Prop := mkStepPost {
    sp_fine : bfine b';
    sp_elems : b_elems b' = b_elems b;
    sp_cfg : b_config b' = b_config b;
    sp_len : builder_len b <= builder_len b' <= num;
    sp_reach : num <= builder_ideal V b i -> builder_len b' = num;
    sp_short : builder_len b' <= Nat.max (builder_len b) (builder_ideal V b i)
  }.

  Lemma index_existing_ok b max_num sched : bfine b -> b_layers b <> [] ->
    builder_len b <= max_num <= c_len C (b_elems b) -> 0 < max_num ->
    (forall b', index_last V b max_num sched = Ok b' ->
       step_post b b' (length (b_layers b) - 1) max_num /\
       exists p l l', b_layers b = p ++ [l] /\ b_layers b' = p ++ [l'] /\ fwidth l' = fwidth l) /\
    (scheds_ok V sched -> forall e, index_last V b max_num sched = Fail e -> e = OutOfFuel) /\
    (scheds_ok V sched -> fair_scheds (b_elems b) sched -> exists b', index_last V b max_num sched = Ok b').
  Proof.
    intros HB Hne Hle Hpos. destruct (bfine_split HB) as [|(p & l & R & rows & Els & Hch & Hl & Hg & Hlen & _)]; [congruence|].
    destruct HB as (Hcfg & Hel & _). rewrite Hlen in Hle.
    destruct (@index_last_ok b p R l rows max_num sched Hcfg Hel Els Hch (or_intror Hl) (f_is Hl) (f_w Hl) Hg ltac:(lia) ltac:(lia))
      as (P1 & P2 & P3).
    split; [|split; auto]. intros b' E1. destruct (P1 b' E1) as (He & Hcf & l' & rows' & Els' & Hl' & Hwl & Hle' & Hm & Halt).
    rewrite <- He, <- Hcf in Hl', Hch.
    split; [|exists p, l, l'; auto].
    assert (Hlen' : builder_len b' = length rows') by (eapply builder_len_app; eauto).
    replace (length (b_layers b) - 1) with (length p) by (rewrite Els, app_length; cbn; lia).
    constructor; auto.
    - split; [rewrite Hcf; auto|]. split; [rewrite He; auto|]. rewrite Els'. eexists. eapply chain_app; eauto.
      split; [destruct Hg; lia|]. intros HU x Hx. apply Hm. now apply Hg.
    - rewrite Hlen, Hlen'. split; auto. destruct Halt as [(_ & _ & ->)|(_ & -> & _)]; lia.
    - rewrite Hlen'. intros Hr. destruct Halt as [(Hx & _ & ->)|(_ & -> & _)]; lia.
    - rewrite Hlen, Hlen'. destruct Halt as [(Hx & _ & ->)|(_ & -> & _)]; lia.
  Qed.

  (** no list of the layer is longer than [k] *)
  Definition nbound (l : fw N) (k : nat) : Prop :=
    exists rows, fw_is (fwidth l) rows l /\ forall i r, nth_error rows i = Some r -> length (row_ids r) <= k.

  Lemma add_layer_ok b max_num sched : bfine b ->
    builder_len b < max_num <= c_len C (b_elems b) ->
    (forall b', index_last V (add_layer b) max_num sched = Ok b' ->
       step_post b b' (length (b_layers b)) max_num /\
       exists l', b_layers b' = b_layers b ++ [l'] /\
         (nbound l' (builder_nn V b (builder_ideal V b (length (b_layers b)))) \/ exists p, b_layers b = p ++ [l'])) /\
    (scheds_ok V sched -> forall e, index_last V (add_layer b) max_num sched = Fail e -> e = OutOfFuel) /\
    (scheds_ok V sched -> fair_scheds (b_elems b) sched -> exists b', index_last V (add_layer b) max_num sched = Ok b').
  Proof.
    intros HB Hle.
    assert (Hex : exists l R rows, b_layers (add_layer b) = b_layers b ++ [l] /\
       chain V (b_elems b) U (k_nn (b_config b)) (b_layers b) R /\
       ((rows = [] /\ b_layers b = []) \/ lfine V (b_elems b) U (k_nn (b_config b)) l rows) /\ fw_is (fwidth l) rows l /\
       k_nn (b_config b) <= fwidth l /\ grows U (last R []) rows /\ builder_len b = length rows /\
       ((exists p, b_layers b = p ++ [l]) \/ (rows = [] /\ b_layers b = []))).
    { destruct (bfine_split HB) as [Els|(p & l & R & rows & Els & Hch & Hl & Hg & Hlen & HL)].
      - exists (fw_with_width (k_nn (b_config b))), [], []. unfold add_layer. rewrite Els. cbn [split_last nth_error length Nat.sub b_layers].
        split; auto. split; [split; constructor|]. split; auto. split; [apply fw_is_with_width|]. split; [cbn; lia|].
        split; [apply grows_refl|]. split; [now apply builder_len_none|auto].
      - exists l, (R ++ [rows]), rows. unfold add_layer. rewrite Els, split_last_app. cbn [b_layers].
        split; auto. split; [apply chain_app; auto|]. split; auto. split; [apply Hl|]. split; [apply Hl|].
        split; [rewrite HL; apply grows_refl|]. split; eauto. }
    destruct Hex as (l & R & rows & Els & Hch & Hrows & His & Hw & Hg & Hlen & Hwas).
    destruct HB as (Hcfg & Hel & _).
    destruct (@index_last_ok (add_layer b) (b_layers b) R l rows max_num sched Hcfg Hel Els Hch Hrows His Hw Hg ltac:(lia) ltac:(cbn; lia))
      as (P1 & P2 & P3).
    change (builder_ideal V (add_layer b)) with (builder_ideal V b) in P1.
    split; [|split; auto]. intros b' E1. destruct (P1 b' E1) as (He & Hcf & l' & rows' & Els' & Hl' & Hwl & Hle' & Hm & Halt).
    cbn [add_layer b_elems b_config] in He, Hcf, Hl'.
    rewrite <- He, <- Hcf in Hl', Hch.
    split.
    2:{ exists l'. split; auto. destruct Halt as [(Hid & -> & ->)|(_ & _ & Hbd)].
        - destruct Hwas as [|[E0 E1']]; auto. subst rows. pose proof (total_fits Hcfg Hel) as Hfit. destruct Hcfg as (_ & _ & _ & Hpos).
          specialize (Hpos (Nat.max (builder_total V b) (c_len C (b_elems b))) ltac:(lia) Hfit).
          unfold builder_ideal in Hid. rewrite E1' in Hid. cbn [add_layer b_config length] in *. lia.
        - left. exists rows'. split; [apply Hl'|]. exact Hbd. }
    assert (Hlen' : builder_len b' = length rows') by (eapply builder_len_app; eauto).
    constructor; auto.
    - split; [rewrite Hcf; auto|]. split; [rewrite He; auto|]. rewrite Els'. eexists. eapply chain_app; eauto.
      split; [destruct Hg; lia|]. intros HU x Hx. apply Hm. now apply Hg.
    - rewrite Hlen, Hlen'. split; auto. destruct Halt as [(_ & _ & ->)|(_ & -> & _)]; lia.
    - rewrite Hlen'. intros Hr. destruct Halt as [(Hx & _ & ->)|(_ & -> & _)]; lia.
    - rewrite Hlen, Hlen'. destruct Halt as [(Hx & _ & ->)|(_ & -> & _)]; lia.
  Qed.

  Lemma build_loop_ok num sched : forall fuel b, bfine b ->
    builder_len b <= num <= c_len C (b_elems b) ->
    (forall b', build_loop V fuel b num sched = Ok b' ->
       bfine b' /\ b_elems b' = b_elems b /\ b_config b' = b_config b /\ builder_len b' = num /\
       exists extra, b_layers b' = b_layers b ++ extra) /\
    (scheds_ok V sched -> forall e, build_loop V fuel b num sched = Fail e -> e = OutOfFuel) /\
    (scheds_ok V sched -> fair_scheds (b_elems b) sched ->
      forall L, (forall i, L <= i -> num <= builder_ideal V b i) -> L < fuel + length (b_layers b) -> 0 < fuel ->
      exists b', build_loop V fuel b num sched = Ok b').
  Proof.
    induction fuel as [|fuel IH]; intros b HB Hle.
    - cbn [build_loop]. destruct (Nat.leb_spec num (builder_len b)); split; [|split| |split].
      + intros b' E1. injection E1 as <-. split; auto. split; auto. split; auto. split; [lia|]. exists []. now rewrite app_nil_r.
      + discriminate.
      + intros; lia.
      + discriminate.
      + congruence.
      + intros; lia.
    - cbn [build_loop]. destruct (Nat.leb_spec num (builder_len b)) as [Hd|Hd].
      + split; [|split; [discriminate|eauto]]. intros b' E1. injection E1 as <-. split; auto. split; auto. split; auto. split; [lia|].
        exists []. now rewrite app_nil_r.
      + destruct (add_layer_ok sched HB (max_num := num)) as (P1 & P2 & P3); [lia|].
        destruct (index_last V (add_layer b) num sched) as [b1|e1].
        * cbn [obind]. destruct (P1 b1 eq_refl) as ([HB1 He1 Hc1 Hl1 Hr1 Hsh1] & l' & Els1 & _).
          destruct (IH b1 HB1) as (Q1 & Q2 & Q3); [rewrite He1; lia|].
          split; [|split; [auto|]].
          -- intros b' E1. destruct (Q1 b' E1) as (H1 & H2 & H3 & H4 & extra & H5). split; auto. split; [congruence|].
             split; [congruence|]. split; auto. exists (l' :: extra). rewrite H5, Els1, <- app_assoc. reflexivity.
          -- intros Hs Hf L HL HfL _.
             destruct (Nat.le_gt_cases L (length (b_layers b))) as [HLb|HLb].
             ++ specialize (Hr1 (HL _ HLb)). exists b1. destruct fuel; cbn [build_loop]; rewrite Hr1, Nat.leb_refl; reflexivity.
             ++ apply (Q3 Hs) with (L := L).
                ** now rewrite He1.
                ** intros i Hi. specialize (HL i Hi). unfold builder_ideal, builder_total in *. now rewrite He1, Hc1.
                ** rewrite Els1, app_length. cbn [length]. lia.
                ** lia.
        * cbn [obind]. split; [discriminate|]. split; [intros Hs e E1; injection E1 as <-; auto|].
          intros Hs Hf L _ _ _. destruct (P3 Hs Hf) as (b' & E1). discriminate.
  Qed.

  (** layers that are all too small: the loop does not end *)
  Lemma build_loop_stuck num sched : forall fuel b, bfine b ->
    builder_len b < num <= c_len C (b_elems b) -> (forall i, builder_ideal V b i < num) ->
    forall b', build_loop V fuel b num sched <> Ok b'.
  Proof.
    induction fuel as [|fuel IH]; intros b HB Hle Hid b'; cbn [build_loop];
    (destruct (Nat.leb_spec num (builder_len b)) as [Hd|Hd]; [lia|]); [discriminate|].
    destruct (add_layer_ok sched HB (max_num := num)) as (P1 & _); [lia|].
    destruct (index_last V (add_layer b) num sched) as [b1|e1]; cbn [obind]; [|discriminate].
    destruct (P1 b1 eq_refl) as ([HB1 He1 Hc1 Hl1 Hr1 Hsh1] & _).
    apply IH; auto.
    - rewrite He1. specialize (Hid (length (b_layers b))). lia.
    - intros i. specialize (Hid i). unfold builder_ideal, builder_total in *. now rewrite He1, Hc1.
  Qed.

  (** neighbour limits, for layer sizes that do not decrease *)
  Definition limited (b : builder S) : Prop :=
    forall i l, nth_error (b_layers b) i = Some l -> nbound l (builder_nn V b (builder_ideal V b i)).

  Lemma builder_nn_mono b i j : 0 < k_nn (b_config b) -> i <= j -> builder_nn V b i <= builder_nn V b j.
  Proof using Type.
    unfold builder_nn. intros Hk Hij. pose proof (Nat.div_le_upper_bound (k_nn (b_config b)) 2 (k_nn (b_config b))).
    destruct (Nat.ltb_spec i (builder_total V b)), (Nat.ltb_spec j (builder_total V b)); try lia.
  Qed.

  Lemma build_loop_limited num sched : forall fuel b, bfine b -> 
    builder_len b <= num <= c_len C (b_elems b) ->
    (forall i j, i <= j -> builder_ideal V b i <= builder_ideal V b j) -> limited b ->
    forall b', build_loop V fuel b num sched = Ok b' -> limited b'.
  Proof.
    induction fuel as [|fuel IH]; intros b HB Hle Hmon Hlim b'; cbn [build_loop];
      destruct (Nat.leb_spec num (builder_len b)) as [Hd|Hd]; intros E1; try (injection E1 as <-; exact Hlim); try discriminate.
    destruct (add_layer_ok sched HB (max_num := num)) as (P1 & _); [lia|].
    destruct (index_last V (add_layer b) num sched) as [b1|]; [|discriminate]. cbn [obind] in E1.
    destruct (P1 b1 eq_refl) as ([HB1 He1 Hc1 Hl1 Hr1 Hsh1] & l' & Els1 & Halt).
    assert (Hid : forall i, builder_ideal V b1 i = builder_ideal V b i).
    { intros i. unfold builder_ideal, builder_total. now rewrite He1, Hc1. }
    assert (Hnn1 : forall i, builder_nn V b1 i = builder_nn V b i).
    { intros i. unfold builder_nn, builder_total. now rewrite He1, Hc1. }
    refine (IH b1 HB1 _ _ _ b' E1).
    - rewrite He1. lia.
    - intros i j Hij. rewrite !Hid. auto.
    - intros i l. rewrite Els1, Hid, Hnn1. intros Hi. destruct (Nat.lt_ge_cases i (length (b_layers b))) as [Hlt|Hge].
      + rewrite nth_error_app1 in Hi by auto. auto.
      + rewrite nth_error_app2 in Hi by auto. destruct (i - length (b_layers b)) as [|z] eqn:Ez; [|destruct z; discriminate].
        cbn in Hi. injection Hi as <-. replace i with (length (b_layers b)) by lia.
        destruct Halt as [H|(p & Hp)]; auto.
        assert (Hlast : nth_error (b_layers b) (length p) = Some l') by (rewrite Hp, nth_error_app2, Nat.sub_diag by lia; reflexivity).
        destruct (Hlim _ _ Hlast) as (rows & H1 & H2). exists rows. split; auto. intros x r Hx.
        eapply Nat.le_trans; [eapply H2; eauto|]. apply builder_nn_mono; [apply HB|apply Hmon].
        rewrite Hp, app_length. lia.
  Qed.

  Theorem build_partial_ok fuel b num sched : bfine b ->
    builder_len b <= num <= c_len C (b_elems b) -> 0 < num ->
    (forall b', build_partial V fuel b num sched = Ok b' ->
       bfine b' /\ b_elems b' = b_elems b /\ b_config b' = b_config b /\ builder_len b' = num /\
       (b_layers b <> [] -> exists p l l' extra, b_layers b = p ++ [l] /\ b_layers b' = p ++ l' :: extra /\
          fwidth l' = fwidth l)) /\
    (scheds_ok V sched -> forall e, build_partial V fuel b num sched = Fail e -> e = OutOfFuel) /\
    (scheds_ok V sched -> fair_scheds (b_elems b) sched ->
      forall L, (forall i, L <= i -> num <= builder_ideal V b i) -> L < fuel -> 0 < fuel ->
      exists b', build_partial V fuel b num sched = Ok b').
  Proof.
    intros HB Hle Hpos. unfold build_partial. destruct (Nat.eqb_spec num 0); [lia|].
    destruct (Nat.leb_spec (builder_len b) num); [|lia]. cbn [oassert obind].
    unfold builder_num_elements. destruct (Nat.leb_spec num (c_len C (b_elems b))); [|lia]. cbn [oassert obind].
    destruct (Nat.ltb_spec 0 (length (b_layers b))) as [Hls|Hls].
    - destruct (index_existing_ok (b := b) (max_num := num) sched HB) as (P1 & P2 & P3); auto.
      { intros E0. rewrite E0 in Hls. cbn in Hls. lia. }
      destruct (index_last V b num sched) as [b1|e1]; cbn [obind].
      + destruct (P1 b1 eq_refl) as ([HB1 He1 Hc1 Hl1 Hr1 Hsh1] & p & l & l' & Els & Els1 & Hwl).
        destruct (build_loop_ok (num := num) sched fuel HB1) as (Q1 & Q2 & Q3); [rewrite He1; lia|].
        split; [|split; [auto|]].
        * intros b' E1. destruct (Q1 b' E1) as (H1 & H2 & H3 & H4 & extra & H5). split; auto. split; [congruence|].
          split; [congruence|]. split; auto. intros _. exists p, l, l', extra. split; auto. split; auto.
          rewrite H5, Els1, <- app_assoc. reflexivity.
        * intros Hs Hf L HL HfL Hf0. apply (Q3 Hs) with (L := L); auto.
          -- now rewrite He1.
          -- intros i Hi. specialize (HL i Hi). unfold builder_ideal, builder_total in *. now rewrite He1, Hc1.
          -- lia.
      + split; [discriminate|]. split; [intros Hs e E1; injection E1 as <-; auto|].
        intros Hs Hf L _ _ _. destruct (P3 Hs Hf) as (b' & E1). discriminate.
    - cbn [obind]. destruct (build_loop_ok (num := num) sched fuel HB Hle) as (Q1 & Q2 & Q3).
      split; [|split; [auto|]].
      + intros b' E1. destruct (Q1 b' E1) as (H1 & H2 & H3 & H4 & extra & H5). repeat (split; auto).
        intros Hne. destruct (b_layers b); [congruence|cbn in Hls; lia].
      + intros Hs Hf L HL HfL Hf0. apply (Q3 Hs) with (L := L); auto. lia.
  Qed.

  Lemma build_partial_stuck fuel b num sched : bfine b ->
    builder_len b < num <= c_len C (b_elems b) -> (forall i, builder_ideal V b i < num) ->
    forall b', build_partial V fuel b num sched <> Ok b'.
  Proof.
    intros HB Hle Hid b'. unfold build_partial. destruct (Nat.eqb_spec num 0); [lia|].
    destruct (Nat.leb_spec (builder_len b) num); [|lia]. cbn [oassert obind].
    unfold builder_num_elements. destruct (Nat.leb_spec num (c_len C (b_elems b))); [|lia]. cbn [oassert obind].
    destruct (Nat.ltb_spec 0 (length (b_layers b))) as [Hls|Hls].
    - destruct (index_existing_ok (b := b) (max_num := num) sched HB) as (P1 & _);
        [intros E0; rewrite E0 in Hls; cbn in Hls; lia|lia|lia|].
      destruct (index_last V b num sched) as [b1|e1]; cbn [obind]; [|discriminate].
      destruct (P1 b1 eq_refl) as ([HB1 He1 Hc1 Hl1 Hr1 Hsh1] & _).
      apply build_loop_stuck; auto.
      + rewrite He1. specialize (Hid (length (b_layers b) - 1)). lia.
      + intros i. specialize (Hid i). unfold builder_ideal, builder_total in *. now rewrite He1, Hc1.
    - cbn [obind]. apply build_loop_stuck; auto.
  Qed.
End Builder.

(** layers of ideal size 0: nothing is ever indexed *)
Section Zero.
  Context {S E : Type} (V : benv S E).
  Lemma index_last_zero (b : builder S) num sched : b_layers b <> [] -> (forall i, builder_ideal V b i = 0) ->
    index_last V b num sched = Ok b.
  Proof.
    intros Hne Hz. unfold index_last. destruct (split_last (b_layers b)) as [[l p]|] eqn:Esp.
    - cbn [ounwrap obind]. rewrite Hz. reflexivity.
    - apply split_last_nil in Esp. congruence.
  Qed.

  Lemma build_loop_zero num sched : forall fuel (b : builder S), builder_len b < num -> (forall i, builder_ideal V b i = 0) ->
    build_loop V fuel b num sched = Fail OutOfFuel.
  Proof.
    induction fuel as [|fuel IH]; intros b Hl Hz; cbn [build_loop]; (destruct (Nat.leb_spec num (builder_len b)) as [Hd|Hd]; [lia|]); auto.
    rewrite index_last_zero.
    - cbn [obind]. apply IH; auto. unfold add_layer, builder_len in *. cbn [b_layers].
      rewrite split_last_app. destruct (split_last (b_layers b)) as [[l p]|]; auto. cbn. unfold fw_len, fw_with_width. cbn.
      destruct (k_nn (b_config b)); cbn; lia.
    - cbn [add_layer b_layers]. intros E0. apply app_eq_nil in E0. destruct E0; discriminate.
    - exact Hz.
  Qed.
End Zero.
