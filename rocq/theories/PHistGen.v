(** * Histories of builders over any container with a partial push *)
From Coq Require Import ZArith Lia.
From Verif Require Import Base BaseFacts Bytes MSliceVec SSliceVec MIndexIo SIndexIo PIndexCrash MSearch SSearch MBuild SBuild MReorder SAngular.
From Verif Require Import PBuildLayer PBuilder PHistory SPipeline PLayers PPipelineB TBuild TPipeline.
Close Scope R_scope. Close Scope Z_scope.
Open Scope nat_scope.
Set Implicit Arguments.

Lemma same_len m L L' : same_index m L L' -> index_len L' = index_len L.
Proof.
  intros (G & [HA HB] & [HA' HB']). unfold index_len. rewrite HA, HA'. destruct (Nat.ltb_spec 0 (length G)) as [H|H]; [|reflexivity].
  destruct (nth_error G (length G - 1)) as [g|] eqn:Eg; [|apply nth_error_None in Eg; lia].
  destruct (HB _ _ Eg) as [-> _]. destruct (HB' _ _ Eg) as [-> _]. reflexivity.
Qed.
Lemma builder_index_len {S} (b : builder S) : index_len (FixWidth (b_layers b)) = Ok (builder_len b).
Proof.
  unfold index_len, builder_len. cbn [layers_len layer_len]. destruct (split_last (b_layers b)) as [[l p]|] eqn:E.
  - apply split_last_some in E. rewrite E, app_length. cbn [length]. rewrite Nat.add_sub.
    replace (0 <? length p + 1) with true by (symmetry; apply Nat.ltb_lt; lia).
    unfold index. rewrite nth_error_app2, Nat.sub_diag by lia. reflexivity.
  - apply split_last_nil in E. rewrite E. reflexivity.
Qed.

Section Gen.
  Context {S E I : Type} (V : benv S E) (cpush gpush : S -> I -> outcome S).
  Hypothesis Hsort : sorts_by_dist (e_sort V).
  Hypothesis Hlaw : push_law (e_ops V) gpush.
  (** the container [s] holds the elements [l]; [ok l]: such a list can be held *)
  Variables (Holds : list I -> S -> Prop) (ok : list I -> Prop).
  Hypothesis Hlen : forall l s, Holds l s -> c_len (e_ops V) s = length l.
  Hypothesis Hcont : forall l s, Holds l s -> ok l -> cont_ok (e_ops V) s.
  Hypothesis Hpush : forall l s x, Holds l s -> ok (l ++ [x]) ->
    exists s', cpush s x = Ok s' /\ gpush s x = Ok s' /\ Holds (l ++ [x]) s'.
  Hypothesis Hpre : forall l l', ok (l ++ l') -> ok l.

  Definition ginv (l : list I) (b : builder S) : Prop :=
    reached V gpush b /\ Holds l (b_elems b) /\ ok l /\ builder_len b <= length l.

  Lemma Holds_usable l s : Holds l s -> ok l -> length l < e_fuel V -> usable V s.
  Proof using Hlen Hcont. intros H Hk Hf. constructor; [eapply Hcont; eauto|]. now rewrite (Hlen H). Qed.

  Lemma ginv_new cfg l s b0 : cfg_ok cfg -> Holds l s -> ok l -> length l < e_fuel V ->
    builder_new V cfg s = Ok b0 -> ginv l b0.
  Proof using Hlen Hcont.
    intros Hcfg Hh Hk Hf E0.
    assert (Eb : b0 = mkBuilder s [] cfg).
    { unfold builder_new in E0. destruct (oassert _); [|discriminate]. cbn [obind] in E0. apply ok_inj in E0. auto. }
    subst b0. split; [|split; [exact Hh|split; [exact Hk|cbn; lia]]].
    eapply r_new; [exact Hcfg| |exact E0]. eapply Holds_usable; eauto.
  Qed.
  Lemma gnew_ok cfg l s : Holds l s -> (N.of_nat (length l) < 4294967295)%N -> builder_new V cfg s = Ok (mkBuilder s [] cfg).
  Proof using Hlen.
    intros Hh Hn. unfold builder_new. rewrite (Hlen Hh).
    replace (N.of_nat (length l) <? UNUSED)%N with true; [reflexivity|]. symmetry. apply N.ltb_lt. unfold UNUSED. lia.
  Qed.

  (** pushes and complete builds *)
  Definition plain (c : call I) : Prop := match c with CBuildPartial _ _ _ => False | _ => True end.

  (** between [b] and [b']: the configuration stays, and layers are added only
      where the layer sizes call for them *)
  Definition gsame (N : nat) (b b' : builder S) : Prop :=
    b_config b' = b_config b /\
    forall K, SPipeline.full_at (b_config b) K N -> length (b_layers b) <= K + 1 -> length (b_layers b') <= K + 1.

  Lemma ginv_build l b num fuel sched b' N : ginv l b -> length l <= N -> build_partial V fuel b num sched = Ok b' ->
    ginv l b' /\ gsame N b b'.
  Proof using Hlen Hsort Hlaw.
    intros (Hr & Hh & Hk & Hl) HN Eb. destruct (@build_reached _ _ _ V _ Hsort Hlaw _ fuel b num sched b' Hr Eb) as [Hr' He].
    split; [split; [exact Hr'|]; rewrite He; split; [exact Hh|]; split; [exact Hk|]|].
    - destruct (built_graph V gpush b' Release Hsort Hlaw Hr') as (G & _ & _ & _ & _ & H & _). rewrite He, (Hlen Hh) in H. exact H.
    - split.
      + pose proof Eb as Eb'. unfold build_partial in Eb. destruct (Nat.eqb_spec num 0); [apply ok_inj in Eb; now subst b'|].
        destruct (Nat.leb_spec (builder_len b) num); [|discriminate]. cbn [oassert obind] in Eb.
        destruct (Nat.leb_spec num (builder_num_elements V b)); [|discriminate].
        destruct (reached_fine Hsort Hlaw Hr) as [HB _].
        destruct (@build_partial_ok _ _ V Hsort true fuel b num sched HB) as (P1 & _); [unfold builder_num_elements in *; lia|lia|].
        destruct (P1 b' Eb') as (_ & _ & H1 & _). exact H1.
      + intros K Hfull HK. destruct (@build_layers _ _ _ V gpush Hsort Hlaw K fuel b num sched b' Hr) as [H _]; auto.
        intros n Hn. apply Hfull. rewrite (Hlen Hh) in Hn. lia.
  Qed.

  Lemma gsame_trans N b b1 b2 : gsame N b b1 -> gsame N b1 b2 -> gsame N b b2.
  Proof using. intros [H1 H2] [H3 H4]. rewrite H1 in *. split; auto. Qed.

  Lemma ginv_hist cs : forall l b, ginv l b -> ok (l ++ pushed cs) -> length l + length (pushed cs) < e_fuel V ->
    (N.of_nat (length l + length (pushed cs)) < 4294967295)%N ->
    match history V cpush b cs with
    | Ok b' => ginv (l ++ pushed cs) b' /\ gsame (length l + length (pushed cs)) b b'
    | Fail e => e_mode V = Release -> Forall plain cs -> e = OutOfFuel
    end.
  Proof using Hlen Hcont Hpush Hpre Hsort Hlaw.
    induction cs as [|c cs IH]; intros l b HI Hk Hf Hn.
    - cbn. rewrite app_nil_r. split; [exact HI|split; auto].
    - pose proof HI as (Hr & Hh & _ & Hl).
      destruct c as [x|num fuel sched|fuel sched]; cbn [history do_call pushed length] in *.
      + replace (l ++ x :: pushed cs) with ((l ++ [x]) ++ pushed cs) in Hk |- * by (rewrite <- app_assoc; reflexivity).
        destruct (@Hpush l (b_elems b) x Hh (Hpre _ _ Hk)) as (v' & E1 & E2 & Hh').
        assert (Ep : builder_push V gpush b x = Ok (mkBuilder v' (b_layers b) (b_config b))).
        { unfold builder_push. rewrite (Hlen Hh).
          assert (H : (N.of_nat (length l) <? UNUSED - 1)%N = true) by (apply N.ltb_lt; unfold UNUSED; lia).
          rewrite H. cbn [oassert obind]. rewrite E2. reflexivity. }
        replace (builder_push V cpush b x) with (builder_push V gpush b x) by (unfold builder_push; now rewrite E1, E2).
        rewrite Ep. cbn [obind].
        assert (Hl' : length (l ++ [x]) = Datatypes.S (length l)) by (rewrite app_length; cbn; lia).
        assert (HI' : ginv (l ++ [x]) (mkBuilder v' (b_layers b) (b_config b))).
        { split; [|split; [exact Hh'|split; [eapply Hpre; exact Hk|]]].
          * eapply r_push; [exact Hr|exact Ep|]. cbn [b_elems]. eapply Holds_usable; [exact Hh'|eapply Hpre; exact Hk|lia].
          * unfold builder_len in *. cbn [b_layers]. lia. }
        specialize (IH _ _ HI' Hk ltac:(lia) ltac:(lia)). rewrite Hl' in IH. cbn [Nat.add] in IH. rewrite Nat.add_succ_r.
        destruct (history V cpush _ cs); [exact IH|]. intros H1 H2. inversion H2; auto.
      + destruct (build_partial V fuel b num sched) as [b'|e] eqn:Eb; cbn [obind].
        * destruct (@ginv_build l b _ _ _ b' (length l + length (pushed cs)) HI ltac:(lia) Eb) as [HI' Hs]. specialize (IH l b' HI' Hk Hf Hn).
          destruct (history V cpush b' cs); [destruct IH; eauto using gsame_trans|]. intros H1 H2. inversion H2; contradiction.
        * intros _ H2. inversion H2; contradiction.
      + unfold build. destruct (build_partial V fuel b _ sched) as [b'|e] eqn:Eb; cbn [obind].
        * destruct (@ginv_build l b _ _ _ b' (length l + length (pushed cs)) HI ltac:(lia) Eb) as [HI' Hs]. specialize (IH l b' HI' Hk Hf Hn).
          destruct (history V cpush b' cs); [destruct IH; eauto using gsame_trans|]. intros H1 H2. inversion H2; auto.
        * intros Hrel _. set (num := builder_num_elements V b) in *.
          assert (En : num = length l) by (unfold num, builder_num_elements; exact (Hlen Hh)).
          destruct (Nat.eq_dec num 0) as [E0|E0].
          { rewrite E0 in Eb. discriminate Eb. }
          destruct (reached_fine Hsort Hlaw Hr) as [HB _].
          assert (Hle : builder_len b <= num <= c_len (e_ops V) (b_elems b)) by (rewrite (Hlen Hh); lia).
          destruct (@build_partial_ok _ _ V Hsort true fuel b num sched HB Hle ltac:(lia)) as (_ & P2 & _).
          apply P2; auto. intros i p. now left.
  Qed.

  (** after a complete build everything is indexed *)
  Lemma history_app (c1 c2 : list (call I)) : forall b, history V cpush b (c1 ++ c2) = let* b1 := history V cpush b c1 in history V cpush b1 c2.
  Proof using.
    induction c1 as [|c c1 IH]; intros b; cbn [app history]; [reflexivity|]. destruct (do_call V cpush b c); cbn [obind]; auto.
  Qed.
  Lemma ginv_last cs l b fuel sched b' : ginv l b -> ok (l ++ pushed cs) -> length l + length (pushed cs) < e_fuel V ->
    (N.of_nat (length l + length (pushed cs)) < 4294967295)%N ->
    history V cpush b (cs ++ [CBuild fuel sched]) = Ok b' -> builder_len b' = length l + length (pushed cs).
  Proof using Hlen Hcont Hpush Hpre Hsort Hlaw.
    intros HI Hk Hf Hn Eh. rewrite history_app in Eh. pose proof (@ginv_hist cs l b HI Hk Hf Hn) as H.
    destruct (history V cpush b cs) as [b1|]; [|discriminate]. destruct H as [(Hr & Hh & Hk1 & Hl) _]. cbn [obind history do_call] in Eh.
    destruct (build V fuel b1 sched) as [b2|] eqn:Eb; [|discriminate]. cbn [obind] in Eh. assert (b2 = b') by congruence. subst b2. clear Eh.
    unfold build in Eb. set (num := builder_num_elements V b1) in *.
    assert (En : num = length l + length (pushed cs)) by (unfold num, builder_num_elements; rewrite (Hlen Hh), app_length; reflexivity).
    rewrite app_length in Hl. destruct (Nat.eq_dec num 0) as [E0|E0].
    - rewrite E0 in Eb. cbn in Eb. apply ok_inj in Eb. subst b'. lia.
    - destruct (reached_fine Hsort Hlaw Hr) as [HB _].
      destruct (@build_partial_ok _ _ V Hsort true fuel b1 num sched HB) as (P1 & _); [rewrite (Hlen Hh), app_length; lia|lia|].
      destruct (P1 b' Eb) as (_ & _ & _ & H & _). lia.
  Qed.

  (** what can be done with the result *)
  Lemma ginv_search l b m dy (D : I -> outcome Z) fuel ms nn : ginv l b ->
    (forall i x, nth_error l i = Some x -> dy i = D x /\ exists d, D x = Ok d) -> length l < fuel -> 0 < ms ->
    exists res, granne_search m fuel (FixWidth (b_layers b)) dy ms nn = Ok res /\
      length res <= Nat.min nn ms /\ StronglySorted closer res /\ NoDup (map fst res) /\
      (forall i d, In (i, d) res -> i < builder_len b /\ exists x, nth_error l i = Some x /\ D x = Ok d) /\
      (0 < builder_len b -> 0 < nn -> res <> []).
  Proof using Hsort Hlaw.
    intros (Hr & Hh & Hk & Hl) Hdy Hf Hms.
    set (f := fun i => match dy i with Ok d => d | Fail _ => 0%Z end).
    assert (Hd : dist_is dy f (builder_len b)).
    { intros i Hi. destruct (nth_error l i) as [x|] eqn:Ex; [|apply nth_error_None in Ex; lia].
      destruct (Hdy i x Ex) as (E1 & d & E2). unfold f. rewrite E1, E2. reflexivity. }
    assert (Hfb : builder_len b < fuel) by lia.
    destruct (reached_search V _ b m dy f fuel ms nn Hsort Hlaw Hr Hd Hfb Hms) as (res & Er & H1 & H2 & H3 & H4 & H5).
    exists res. split; [exact Er|]. split; [exact H1|]. split; [exact H2|]. split; [exact H3|]. split; [|exact H5].
    intros i d Hin. destruct (H4 i d Hin) as [Hi Ed]. split; [exact Hi|].
    destruct (nth_error l i) as [x|] eqn:Ex; [|apply nth_error_None in Ex; lia].
    exists x. split; [reflexivity|]. destruct (Hdy i x Ex) as [E1 _]. congruence.
  Qed.

  Lemma ginv_save l b m : ginv l b -> k_nn (b_config b) <= 254 -> length (b_layers b) <= 25 ->
    exists c L', write_index m (FixWidth (b_layers b)) (mkCursor [] 0) = Ok c /\ load_layers (cbuf c) = Ok L' /\
      same_index m (FixWidth (b_layers b)) L' /\ index_len L' = Ok (builder_len b) /\
      forall dy (D : I -> outcome Z) fuel ms nn,
        (forall i x, nth_error l i = Some x -> dy i = D x /\ exists d, D x = Ok d) -> length l < fuel ->
        granne_search m fuel L' dy ms nn = granne_search m fuel (FixWidth (b_layers b)) dy ms nn.
  Proof using Hsort Hlaw.
    intros (Hr & Hh & Hk & Hl) Hnn H25.
    destruct (reached_save V _ b m (mkCursor [] 0) Hsort Hlaw Hr Hnn H25) as (c & L' & Ew & El & Hs & Hsame).
    exists c, L'. split; [exact Ew|]. split; [exact El|]. split; [exact Hs|]. split.
    - rewrite (same_len Hs). apply builder_index_len.
    - intros dy D fuel ms nn Hdy Hf. apply Hsame with (f := fun i => match dy i with Ok d => d | Fail _ => 0%Z end); [|lia].
      intros i Hi. destruct (nth_error l i) as [x|] eqn:Ex; [|apply nth_error_None in Ex; lia].
      destruct (Hdy i x Ex) as (E1 & d & E2). rewrite E1, E2. reflexivity.
  Qed.
End Gen.
