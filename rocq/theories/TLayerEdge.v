(** * Theorems C33: layer multipliers 0 and infinity *)
From Coq Require Import ZArith Reals Lra Lia.
From Flocq Require Import Core IEEE754.BinarySingleNaN.
From Verif Require Import Base Bytes MSliceVec MIndexIo MFloat MBuild MLayerSize SBuild SLayerSize PFloat PLayerF PLayerCr SLayerAcc PLayerEdge TLayerAcc PBuildInv PBuilder PHistory PIndexCrash TBuild TReopen.
Open Scope R_scope.

Section Bits.
  Context {S E : Type} (V : benv S E).
  Hypothesis Hsort : sorts_by_dist (e_sort V).
  Local Notation bfine := (bfine V true).

  Lemma ideal_of (b b1 : builder S) i : b_elems b1 = b_elems b -> b_config b1 = b_config b -> builder_ideal V b1 i = builder_ideal V b i.
  Proof using Type. intros He Hc. unfold builder_ideal, builder_total. now rewrite He, Hc. Qed.

  (** all further layers too small *)
  Lemma loop_stuck_from num sched : forall fuel b, bfine b ->
    (builder_len b < num <= c_len (e_ops V) (b_elems b))%nat -> (forall i, (length (b_layers b) <= i)%nat -> (builder_ideal V b i < num)%nat) ->
    forall b', build_loop V fuel b num sched <> Ok b'.
  Proof using Hsort.
    induction fuel as [|fuel IH]; intros b HB Hle Hid b'; cbn [build_loop];
    (destruct (Nat.leb_spec num (builder_len b)) as [Hd|Hd]; [lia|]); [discriminate|].
    destruct (@add_layer_ok _ _ V Hsort true b num sched HB ltac:(lia)) as (P1 & _).
    destruct (index_last V (add_layer b) num sched) as [b1|e1]; cbn [obind]; [|discriminate].
    destruct (P1 b1 eq_refl) as ([HB1 He1 Hc1 Hl1 Hr1 Hsh1] & l' & Els & _).
    apply IH; auto.
    - rewrite He1. specialize (Hid (length (b_layers b)) ltac:(lia)). lia.
    - intros i Hi. rewrite (ideal_of b b1) by auto. apply Hid. rewrite Els, app_length in Hi. cbn in Hi. lia.
  Qed.
  Lemma partial_stuck_from fuel b num sched : bfine b -> b_layers b <> [] ->
    (builder_len b < num <= c_len (e_ops V) (b_elems b))%nat -> (forall i, (length (b_layers b) - 1 <= i)%nat -> (builder_ideal V b i < num)%nat) ->
    forall b', build_partial V fuel b num sched <> Ok b'.
  Proof using Hsort.
    intros HB Hne Hle Hid b'. unfold build_partial. destruct (Nat.eqb_spec num 0); [lia|].
    destruct (Nat.leb_spec (builder_len b) num); [|lia]. cbn [oassert obind].
    unfold builder_num_elements. destruct (Nat.leb_spec num (c_len (e_ops V) (b_elems b))); [|lia]. cbn [oassert obind].
    destruct (Nat.ltb_spec 0 (length (b_layers b))) as [Hls|Hls]; [|destruct (b_layers b); [congruence|cbn in Hls; lia]].
    destruct (@index_existing_ok _ _ V Hsort true b num sched HB Hne ltac:(lia) ltac:(lia)) as (P1 & _).
    destruct (index_last V b num sched) as [b1|e1]; cbn [obind]; [|discriminate].
    destruct (P1 b1 eq_refl) as ([HB1 He1 Hc1 Hl1 Hr1 Hsh1] & p & l & l' & Els & Els1 & _).
    apply loop_stuck_from; auto.
    - rewrite He1. specialize (Hid (length (b_layers b) - 1)%nat ltac:(lia)). lia.
    - intros i Hi. rewrite (ideal_of b b1) by auto. apply Hid. rewrite Els1 in Hi. rewrite Els. rewrite app_length in *. cbn [length] in *. lia.
  Qed.

  (** the first layer takes everything *)
  Lemma partial_first b num sched : bfine b -> (length (b_layers b) <= 1)%nat ->
    scheds_ok V sched -> fair_scheds V (b_elems b) sched ->
    (builder_len b <= num <= c_len (e_ops V) (b_elems b))%nat -> (0 < num)%nat -> (num <= builder_ideal V b 0)%nat ->
    exists b', build_partial V 1 b num sched = Ok b' /\ length (b_layers b') = 1%nat.
  Proof using Hsort.
    intros HB H1 Hs Hf Hle Hpos Hid. unfold build_partial. destruct (Nat.eqb_spec num 0); [lia|].
    destruct (Nat.leb_spec (builder_len b) num); [|lia]. cbn [oassert obind].
    unfold builder_num_elements. destruct (Nat.leb_spec num (c_len (e_ops V) (b_elems b))); [|lia]. cbn [oassert obind].
    destruct (Nat.ltb_spec 0 (length (b_layers b))) as [Hls|Hls].
    - destruct (@index_existing_ok _ _ V Hsort true b num sched HB ltac:(intros E0; rewrite E0 in Hls; cbn in Hls; lia) ltac:(lia) ltac:(lia)) as (P1 & _ & P3).
      destruct (P3 Hs Hf) as (b1 & E1). rewrite E1. cbn [obind]. destruct (P1 b1 E1) as ([HB1 He1 Hc1 Hl1 Hr1 Hsh1] & p & l & l' & Els & Els1 & _).
      assert (Hn : builder_len b1 = num) by (apply Hr1; replace (length (b_layers b) - 1)%nat with 0%nat by lia; exact Hid).
      cbn [build_loop]. rewrite Hn, Nat.leb_refl. exists b1. split; [reflexivity|]. rewrite Els1. rewrite Els in H1. rewrite app_length in *. cbn [length] in *. lia.
    - assert (E0 : b_layers b = []) by (destruct (b_layers b); [reflexivity|cbn in Hls; lia]).
      cbn [obind build_loop]. destruct (Nat.leb_spec num (builder_len b)) as [Hd|Hd].
      { assert (builder_len b = 0%nat) by (apply builder_len_none; exact E0). lia. }
      destruct (@add_layer_ok _ _ V Hsort true b num sched HB ltac:(lia)) as (P1 & _ & P3).
      destruct (P3 Hs Hf) as (b1 & E1). rewrite E1. cbn [obind]. destruct (P1 b1 E1) as ([HB1 He1 Hc1 Hl1 Hr1 Hsh1] & l' & Els & _).
      assert (Hn : builder_len b1 = num) by (apply Hr1; rewrite E0; exact Hid).
      rewrite Hn, Nat.leb_refl. exists b1. split; [reflexivity|]. rewrite Els, E0. reflexivity.
  Qed.
End Bits.

(** ** C33, continued *)
(** With an infinite multiplier every layer is full, and every build finishes. *)
Theorem C33_infinite_multiplier_terminates :
  forall {S E I} (V : benv S E) (cpush : S -> I -> outcome S) b nn ms re L num sched,
    sorts_by_dist (e_sort V) -> push_law (e_ops V) cpush -> built V cpush b ->
    b_config b = config_of nn ms re None L (B754_infinity false) -> edge_laws L ->
    e_mode V = Release \/ single_threaded sched ->
    let n := builder_num_elements V b in
    (forall i p, fair_schedule n (4 * n + 7) (sched i p)) ->
    (builder_len b <= num <= n)%nat ->
    exists b', build_partial V 1 b num sched = Ok b'.
Proof.
  intros S E I V cpush b nn ms re L num sched Hsort Hpush Hb Hcfg HL Hm n Hf Hle.
  destruct (Nat.eq_dec num 0) as [->|Hn0]; [unfold build_partial; cbn; eauto|].
  destruct (reached_fine Hsort Hpush (built_reached Hsort Hpush Hb)) as [(Hcf & Hel & _) _].
  eapply (C28_every_fair_schedule_finishes V cpush b 1 num sched 0); eauto.
  intros i Hi. unfold builder_ideal, builder_total. rewrite Hcfg. cbn [config_of k_ideal k_expected].
  destruct Hel as [_ Hl _]. rewrite Nat.max_id. unfold n, builder_num_elements, UNUSED in *.
  destruct i as [|i]; [rewrite edge_first|rewrite edge_inf]; auto; try lia.
Qed.
Print Assumptions C33_infinite_multiplier_terminates.

(** With multiplier 0 the first layer takes everything and the others are empty.
    So a builder with at most one layer finishes ... *)
Theorem C33_zero_multiplier_terminates :
  forall {S E I} (V : benv S E) (cpush : S -> I -> outcome S) b nn ms re L sign num sched,
    sorts_by_dist (e_sort V) -> push_law (e_ops V) cpush -> built V cpush b ->
    b_config b = config_of nn ms re None L (B754_zero sign) -> edge_laws L ->
    (length (b_layers b) <= 1)%nat ->
    e_mode V = Release \/ single_threaded sched ->
    let n := builder_num_elements V b in
    (forall i p, fair_schedule n (4 * n + 7) (sched i p)) ->
    (builder_len b <= num <= n)%nat -> (1 <= num)%nat ->
    exists b', build_partial V 1 b num sched = Ok b' /\ length (b_layers b') = 1%nat.
Proof.
  intros S E I V cpush b nn ms re L sign num sched Hsort Hpush Hb Hcfg HL H1 Hm n Hf Hle Hn0.
  destruct (reached_fine Hsort Hpush (built_reached Hsort Hpush Hb)) as [HB _].
  apply partial_first; auto.
  - intros i p; destruct Hm as [Hm|Hm]; [now left|right; apply Hm].
  - destruct HB as (Hcf & Hel & _). destruct Hel as [_ Hl _]. unfold builder_ideal, builder_total. rewrite Hcfg. cbn [config_of k_ideal k_expected].
    rewrite Nat.max_id. unfold n, builder_num_elements, UNUSED in *. rewrite edge_first; eauto; lia.
Qed.
Print Assumptions C33_zero_multiplier_terminates.

(** ... as every builder made by [new] does, but one that was opened with two or
    more layers never takes up another element. *)
Theorem C33_zero_multiplier_opened_never_returns_refuted :
  forall {S E I} (V : benv S E) (cpush : S -> I -> outcome S) b nn ms re L sign fuel num sched,
    sorts_by_dist (e_sort V) -> push_law (e_ops V) cpush -> built V cpush b ->
    b_config b = config_of nn ms re None L (B754_zero sign) -> edge_laws L ->
    (2 <= length (b_layers b))%nat ->
    (builder_len b < num <= builder_num_elements V b)%nat ->
    forall b', build_partial V fuel b num sched <> Ok b'.
Proof.
  intros S E I V cpush b nn ms re L sign fuel num sched Hsort Hpush Hb Hcfg HL H2 Hnum b'.
  destruct (reached_fine Hsort Hpush (built_reached Hsort Hpush Hb)) as [HB _].
  apply partial_stuck_from; auto.
  - intros E0. rewrite E0 in H2. cbn in H2. lia.
  - intros i Hi. destruct HB as (Hcf & Hel & _). destruct Hel as [_ Hl _]. unfold builder_ideal, builder_total. rewrite Hcfg. cbn [config_of k_ideal k_expected].
    rewrite Nat.max_id. unfold builder_num_elements, UNUSED in *. rewrite edge_zero; auto; lia.
Qed.
Print Assumptions C33_zero_multiplier_opened_never_returns_refuted.

(** ** Non-vacuity: a C library with these laws *)
Definition edge_ln (x : f64) : f64 :=
  match x with B754_zero _ => B754_infinity true | B754_infinity false => B754_infinity false | _ => cr_ln x end.
Definition edge_pow (x y : f64) : f64 :=
  match y with
  | B754_zero _ => Bone
  | _ => if Bltb y (B754_zero false)
         then match x with B754_zero _ => B754_infinity false | B754_infinity false => B754_zero false | _ => cr_pow x y end
         else cr_pow x y
  end.
Definition edge_libm : libm := mkLibm edge_ln edge_pow.
Lemma edge_libm_ok : edge_laws edge_libm.
Proof.
  split; try reflexivity.
  - intros x Hx H1. destruct (ac_ln _ C32_correct_rounding_is_accurate x Hx H1) as [F _].
    cbn [ln64 edge_libm] in *. destruct x as [s|s| |]; try discriminate; [cbn [B2R] in H1; lra|exact F].
  - intros s y Hy. exists false. cbn [powf64 edge_libm]. unfold edge_pow. destruct y; try discriminate; rewrite Hy; reflexivity.
  - intros y Hy. cbn [powf64 edge_libm]. unfold edge_pow. destruct y; try discriminate; rewrite Hy; reflexivity.
Qed.
Definition edge_cfg (mul : f32) : config := config_of 2 3 true None edge_libm mul.
Lemma edge_cfg_ok mul : (exists s, mul = B754_zero s) \/ mul = B754_infinity false -> cfg_ok (edge_cfg mul).
Proof.
  intros Hm. split; [cbn; lia|]. split; [cbn; lia|]. split; [discriminate|]. intros n Hn Hf. cbn [edge_cfg config_of k_ideal].
  apply edge_first_pos; auto using edge_libm_ok. unfold fits_usize in Hf. lia.
Qed.

(** six elements, multiplier 0 or infinity, one layer *)
Example C33_edge_terminates : forall mul, mul = B754_zero false \/ mul = B754_infinity false ->
  exists b', build_partial (ex_env Release) 1 (mkBuilder ex_elems [] (edge_cfg mul)) 6 round_robin = Ok b'.
Proof.
  intros mul Hm.
  assert (Hb : built (ex_env Release) ex_push (mkBuilder ex_elems [] (edge_cfg mul))).
  { apply bt_once. exists (edge_cfg mul), ex_elems, (mkBuilder ex_elems [] (edge_cfg mul)), [].
    split; [apply edge_cfg_ok; destruct Hm as [->| ->]; eauto|]. split; [apply ex_usable; cbn; lia|]. split; [reflexivity|constructor]. }
  assert (Hfair : forall (i : nat) (p : bool), fair_schedule (builder_num_elements (ex_env Release) (mkBuilder ex_elems [] (edge_cfg mul)))
             (4 * builder_num_elements (ex_env Release) (mkBuilder ex_elems [] (edge_cfg mul)) + 7) (round_robin i p)).
  { intros i p k Hk. unfold round_robin. cbn [builder_num_elements ex_env e_ops vec_ops c_len b_elems ex_elems length] in Hk.
    cbn [builder_num_elements ex_env e_ops vec_ops c_len b_elems ex_elems length Nat.mul Nat.add].
    do 6 (destruct k as [|k]; [vm_compute; lia|]). lia. }
  assert (Hle : (builder_len (mkBuilder ex_elems [] (edge_cfg mul)) <= 6 <= builder_num_elements (ex_env Release) (mkBuilder ex_elems [] (edge_cfg mul)))%nat)
    by (cbn; unfold builder_len; cbn; lia).
  destruct Hm as [->| ->].
  - destruct (C33_zero_multiplier_terminates (ex_env Release) ex_push (mkBuilder ex_elems [] (edge_cfg (B754_zero false))) 2 3 true edge_libm false 6 round_robin)
      as (b' & E & _); try assumption; try (cbn; lia); [apply isort_ok|apply C35_vec_push|reflexivity|apply edge_libm_ok|now left|exists b'; exact E].
  - apply (C33_infinite_multiplier_terminates (ex_env Release) ex_push (mkBuilder ex_elems [] (edge_cfg (B754_infinity false))) 2 3 true edge_libm 6 round_robin);
      try assumption; [apply isort_ok|apply C35_vec_push|reflexivity|apply edge_libm_ok|now left].
Qed.

(** the three-layer index of C69's example, opened with multiplier 0 and one
    element pushed *)
Example C33_zero_opened : exists b b2, built (ex_env Release) ex_push b /\ calls (ex_env Release) ex_push b [CPush 15%Z] b2 /\
  b_config b2 = edge_cfg (B754_zero false) /\ length (b_layers b2) = 3%nat /\ builder_len b2 = 8%nat /\
  forall fuel sched b', build (ex_env Release) fuel b2 sched <> Ok b'.
Proof.
  destruct built_example as (b0 & Eb & Hb & Hv & _).
  assert (H : (let* b := ex_result Release round_robin in
     let* b' := ex_reopen (edge_cfg (B754_zero false)) b in
     let* b2 := run_calls (ex_env Release) b' [CPush 15%Z] in
     Ok (k_nn (b_config b), length (b_elems b2), length (b_layers b2), builder_len b2)) = Ok (2, 9, 3, 8)%nat) by (vm_compute; reflexivity).
  rewrite Eb in H. cbn [obind] in H. apply bind_ok in H as (b & E1 & H). apply bind_ok in H as (b2 & E2 & H).
  apply ok_inj in H. apply pair_equal_spec in H as [H Hlen]. apply pair_equal_spec in H as [H Hls]. apply pair_equal_spec in H as [Hk Hl].
  assert (Hcfg : b_config b = edge_cfg (B754_zero false)).
  { unfold ex_reopen in E1. apply bind_ok in E1 as (c & _ & E1). unfold builder_open, builder_new in E1.
    apply bind_ok in E1 as (n0 & En & E1). apply bind_ok in En as (u & _ & En). apply ok_inj in En. apply bind_ok in E1 as (ls & _ & E1). apply ok_inj in E1.
    rewrite <- E1, <- En. reflexivity. }
  assert (Ho : reopened (ex_env Release) b0 (edge_cfg (B754_zero false)) b).
  { unfold ex_reopen in E1. apply bind_ok in E1 as (c' & Ew & E1). exists (mkCursor [7; 7]%N 2), c'. split; [rewrite Hk; repeat constructor|]. split; [exact Ew|exact E1]. }
  assert (Hb' : built (ex_env Release) ex_push b) by (eapply bt_open; eauto; apply edge_cfg_ok; eauto).
  assert (Hc : calls (ex_env Release) ex_push b [CPush 15%Z] b2).
  { apply run_calls_ok; [exact E2|rewrite Hl; lia|]. eapply built_reached; [apply isort_ok|apply C35_vec_push|exact Hb']. }
  assert (Hcfg2 : b_config b2 = edge_cfg (B754_zero false)).
  { rewrite <- Hcfg. cbn [run_calls do_call] in E2. apply bind_ok in E2 as (b3 & E2 & E3). apply ok_inj in E3. rewrite <- E3.
    unfold builder_push in E2. apply bind_ok in E2 as (u & _ & E2). apply bind_ok in E2 as (s' & _ & E2). apply ok_inj in E2. rewrite <- E2. reflexivity. }
  exists b, b2. repeat (split; [assumption|]). intros fuel sched b'.
  apply (C33_zero_multiplier_opened_never_returns_refuted (ex_env Release) ex_push b2 2 3 true edge_libm false); try assumption; [apply isort_ok|apply C35_vec_push| |apply edge_libm_ok| |].
  - eapply bt_calls; eauto.
  - lia.
  - rewrite Hlen. unfold builder_num_elements. cbn [ex_env e_ops vec_ops c_len]. rewrite Hl. lia.
Qed.
