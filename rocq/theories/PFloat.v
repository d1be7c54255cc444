(** * Facts about IEEE numbers as extended reals *)
From Coq Require Import ZArith Reals Lra Lia.
From Flocq Require Import Core IEEE754.BinarySingleNaN.
From Verif Require Import MFloat.
Open Scope R_scope.

Section FloatFacts.
  Context (prec emax : Z) {Hp : Prec_gt_0 prec} {He : Prec_lt_emax prec emax}.
  Local Notation bf := (binary_float prec emax).
  Local Notation fexp := (SpecFloat.fexp prec emax).
  Local Notation big := (bpow radix2 emax).
  Local Notation rnd := (round radix2 fexp (round_mode mode_NE)).

  (** the value, infinities being plus or minus 2^emax *)
  Definition B2X (x : bf) : R :=
    match x with
    | B754_infinity s => if s then - big else big
    | _ => B2R x
    end.
  Definition sat (r : R) : R := if Rlt_bool (Rabs r) big then r else if Rlt_bool r 0 then - big else big.

  Lemma big_pos : 0 < big.
  Proof. apply bpow_gt_0. Qed.

  Lemma B2X_finite x : is_finite x = true -> B2X x = B2R x.
  Proof. destruct x; cbn; auto; discriminate. Qed.

  Lemma B2X_lt x : is_finite x = true -> - big < B2X x < big.
  Proof.
    intros H. rewrite (B2X_finite _ H). pose proof (abs_B2R_lt_emax _ _ x) as Ha. now apply Rabs_lt_inv.
  Qed.

  Lemma Bleb_X x y : is_nan x = false -> is_nan y = false -> (Bleb x y = true <-> B2X x <= B2X y).
  Proof.
    intros Hx Hy. pose proof big_pos as Hb.
    destruct (is_finite x) eqn:Fx, (is_finite y) eqn:Fy.
    - rewrite (Bleb_correct _ _ x y Fx Fy), !B2X_finite by auto.
      destruct (Rle_bool_spec (B2R x) (B2R y)); split; auto; try discriminate; lra.
    - pose proof (B2X_lt x Fx) as Hl. destruct y as [s| [|] | |]; try discriminate; cbn [B2X];
      (split; [|intros; try lra]).
      + destruct x as [[]| | |[]]; try discriminate.
      + intros; lra.
      + destruct x as [[]| | |[]]; try discriminate; reflexivity.
    - pose proof (B2X_lt y Fy) as Hl. destruct x as [s| [|] | |]; try discriminate; cbn [B2X];
      (split; [|intros; try lra]).
      + intros; lra.
      + destruct y as [[]| | |[]]; try discriminate; reflexivity.
      + destruct y as [[]| | |[]]; try discriminate.
    - destruct x as [s| [|] | |], y as [s'| [|] | |]; try discriminate; cbn [B2X]; split; try discriminate; try reflexivity; intros; try lra.
  Qed.

  Lemma sat_le a b : a <= b -> sat a <= sat b.
  Proof.
    intros H. unfold sat. pose proof big_pos as Hb.
    destruct (Rlt_bool_spec (Rabs a) big) as [Ha|Ha], (Rlt_bool_spec (Rabs b) big) as [Hb'|Hb'];
    try apply Rabs_lt_inv in Ha; try apply Rabs_lt_inv in Hb';
    repeat match goal with |- context[Rlt_bool ?x 0] => destruct (Rlt_bool_spec x 0) end; try lra.
    - rewrite Rabs_left in Hb' by auto. lra.
    - rewrite Rabs_pos_eq in Ha by auto. lra.
  Qed.
  Lemma sat_id a : - big < a < big -> sat a = a.
  Proof. intros H. unfold sat. rewrite Rlt_bool_true; auto. now apply Rabs_lt. Qed.
  Lemma sat_ge a c : - big <= c -> c <= big -> c <= a -> c <= sat a.
  Proof.
    intros H1 H2 H3. unfold sat. pose proof big_pos as Hb. destruct (Rlt_bool_spec (Rabs a) big) as [Ha|Ha]; auto.
    destruct (Rlt_bool_spec a 0); [|lra]. rewrite Rabs_left in Ha by auto. lra.
  Qed.
  Lemma sat_le_of a c : - big <= c -> c <= big -> a <= c -> sat a <= c.
  Proof.
    intros H1 H2 H3. unfold sat. pose proof big_pos as Hb. destruct (Rlt_bool_spec (Rabs a) big) as [Ha|Ha]; auto.
    destruct (Rlt_bool_spec a 0); [lra|]. rewrite Rabs_pos_eq in Ha by auto. lra.
  Qed.

  Lemma sat_bound a : - big <= sat a <= big.
  Proof.
    unfold sat. pose proof big_pos as Hb. destruct (Rlt_bool_spec (Rabs a) big) as [Ha|Ha].
    - apply Rabs_lt_inv in Ha. lra.
    - destruct (Rlt_bool a 0); lra.
  Qed.

  (** a number whose [B2SF] is the overflow result *)
  Lemma overflow_X (x : bf) s : B2SF x = binary_overflow prec emax mode_NE s ->
    is_nan x = false /\ B2X x = if s then - big else big.
  Proof. intros H. destruct x; cbn in H; try discriminate. injection H as ->. split; reflexivity. Qed.

  Lemma rnd_le a b : a <= b -> rnd a <= rnd b.
  Proof. apply round_le; auto with typeclass_instances. apply fexp_correct; auto. Qed.

  Lemma div_X (x y : bf) : is_finite x = true -> is_finite y = true -> B2R y <> 0 ->
    is_nan (Bdiv mode_NE x y) = false /\ B2X (Bdiv mode_NE x y) = sat (rnd (B2R x / B2R y)).
  Proof.
    intros Hx Hy Hy0. pose proof (Bdiv_correct _ _ _ _ mode_NE x y Hy0) as H. unfold sat.
    destruct (Rlt_bool (Rabs (rnd (B2R x / B2R y))) big) eqn:El.
    - destruct H as (H1 & H2 & _). rewrite Hx in H2. split; [destruct (Bdiv mode_NE x y); auto; discriminate|].
      rewrite B2X_finite; auto.
    - apply overflow_X in H. destruct H as [H1 ->]. split; auto.
      (* the sign *)
      assert (Hx0 : B2R x <> 0).
      { intros E0. rewrite E0 in El. unfold Rdiv in El. rewrite Rmult_0_l, round_0, Rabs_R0 in El by auto with typeclass_instances.
        rewrite Rlt_bool_true in El by apply big_pos. discriminate. }
      assert (Hsx : forall z : bf, is_finite z = true -> B2R z <> 0 -> Rlt_bool (B2R z) 0 = Bsign z).
      { intros z Hz Hz0. destruct z as [s| | |s mz ez Hz']; try discriminate; [now destruct Hz0|]. cbn [Bsign B2R].
        destruct s; [rewrite Rlt_bool_true|rewrite Rlt_bool_false]; auto.
        - now apply F2R_lt_0.
        - now apply F2R_ge_0. }
      assert (Hs : xorb (Bsign x) (Bsign y) = Rlt_bool (B2R x / B2R y) 0).
      { rewrite <- !Hsx by auto.
        destruct (Rlt_bool_spec (B2R x) 0), (Rlt_bool_spec (B2R y) 0); cbn [xorb]; symmetry;
        [apply Rlt_bool_false|apply Rlt_bool_true|apply Rlt_bool_true|apply Rlt_bool_false].
        - left. unfold Rdiv. rewrite <- Rmult_opp_opp. apply Rmult_lt_0_compat; [lra|]. rewrite <- Rinv_opp. apply Rinv_0_lt_compat. lra.
        - unfold Rdiv. assert (0 < / B2R y) by (apply Rinv_0_lt_compat; lra). nra.
        - unfold Rdiv. assert (0 < / - B2R y) by (apply Rinv_0_lt_compat; lra). rewrite Rinv_opp in H2. nra.
        - unfold Rdiv. apply Rmult_le_pos; auto. left. apply Rinv_0_lt_compat. lra. }
      rewrite Hs. destruct (Rlt_bool_spec (B2R x / B2R y) 0) as [Hn|Hn].
      + rewrite Rlt_bool_true; auto.
        assert (Hle : rnd (B2R x / B2R y) <= 0) by (rewrite <- (round_0 radix2 fexp (round_mode mode_NE)); apply rnd_le; lra).
        destruct Hle as [|E0]; auto. exfalso. rewrite E0, Rabs_R0 in El. rewrite Rlt_bool_true in El by apply big_pos. discriminate.
      + rewrite Rlt_bool_false; auto. rewrite <- (round_0 radix2 fexp (round_mode mode_NE)). apply rnd_le; lra.
  Qed.

  Lemma minus_X (x y : bf) : is_finite x = true -> is_finite y = true ->
    is_nan (Bminus mode_NE x y) = false /\ B2X (Bminus mode_NE x y) = sat (rnd (B2R x - B2R y)).
  Proof.
    intros Hx Hy. pose proof (Bminus_correct _ _ _ _ mode_NE x y Hx Hy) as H. unfold sat.
    destruct (Rlt_bool (Rabs (rnd (B2R x - B2R y))) big) eqn:El.
    - destruct H as (H1 & H2 & _). split; [destruct (Bminus mode_NE x y); auto; discriminate|]. now rewrite B2X_finite.
    - destruct H as [H Hs]. apply overflow_X in H. destruct H as [H1 ->]. split; auto.
      assert (Hsz : forall z : bf, is_finite z = true -> if Bsign z then B2R z <= 0 else 0 <= B2R z).
      { intros z Hz. destruct z as [[]| | |[] mz ez Hz']; try discriminate; cbn [Bsign B2R]; try lra.
        - left. now apply F2R_lt_0.
        - now apply F2R_ge_0. }
      pose proof (Hsz x Hx) as H2. pose proof (Hsz y Hy) as H3. rewrite Hs in H2 |- *.
      assert (Hne : rnd (B2R x - B2R y) <> 0).
      { intros E0. rewrite E0, Rabs_R0 in El. rewrite Rlt_bool_true in El by apply big_pos. discriminate. }
      destruct (Bsign y); cbn [negb] in *.
      + rewrite Rlt_bool_false; auto. rewrite <- (round_0 radix2 fexp (round_mode mode_NE)). apply rnd_le. lra.
      + rewrite Rlt_bool_true; auto. assert (rnd (B2R x - B2R y) <= 0); [|lra].
        rewrite <- (round_0 radix2 fexp (round_mode mode_NE)). apply rnd_le. lra.
  Qed.

  Lemma norm_gen (z e : Z) :
    let r := F2R (Float radix2 z e) in
    is_nan (binary_normalize prec emax Hp He mode_NE z e false) = false /\
    B2X (binary_normalize prec emax Hp He mode_NE z e false) = sat (rnd r) /\
    (0 <= r -> Bsign (binary_normalize prec emax Hp He mode_NE z e false) = false).
  Proof.
    intros r. pose proof (binary_normalize_correct _ _ _ _ mode_NE z e false) as H. cbn zeta in H. fold r in H. unfold sat.
    destruct (Rlt_bool (Rabs (rnd r)) big) eqn:El.
    - destruct H as (H1 & H2 & H3). split; [destruct (binary_normalize prec emax Hp He mode_NE z e false); auto; discriminate|].
      rewrite B2X_finite by auto. split; auto. intros Hr. rewrite H3. destruct (Rcompare_spec r 0); auto. lra.
    - assert (H' := H). apply overflow_X in H'. destruct H' as [H1 ->]. split; auto.
      assert (Hne : rnd r <> 0).
      { intros E0. rewrite E0, Rabs_R0 in El. rewrite Rlt_bool_true in El by apply big_pos. discriminate. }
      destruct (Rlt_bool_spec r 0).
      + split; [|intros; lra]. rewrite Rlt_bool_true; auto. assert (rnd r <= 0); [|lra].
        rewrite <- (round_0 radix2 fexp (round_mode mode_NE)). apply rnd_le. lra.
      + split.
        * rewrite Rlt_bool_false; auto. rewrite <- (round_0 radix2 fexp (round_mode mode_NE)). apply rnd_le. lra.
        * intros _. destruct (binary_normalize prec emax Hp He mode_NE z e false); cbn in H; try discriminate. now injection H.
  Qed.

  Lemma norm_X (z : Z) :
    is_nan (binary_normalize prec emax Hp He mode_NE z 0 false) = false /\
    B2X (binary_normalize prec emax Hp He mode_NE z 0 false) = sat (rnd (IZR z)).
  Proof.
    destruct (norm_gen z 0) as (H1 & H2 & _). split; auto. rewrite H2. f_equal. f_equal. unfold F2R. cbn. ring.
  Qed.

  Lemma near_R (md : mode) (x : bf) : is_finite x = true ->
    is_finite (Bnearbyint md x) = true /\ B2R (Bnearbyint md x) = IZR (round_mode md (B2R x)).
  Proof.
    intros Hx. destruct (Bnearbyint_correct _ _ _ md x) as (H1 & H2 & _). rewrite Hx in H2. split; auto.
    rewrite H1. unfold round, F2R, scaled_mantissa, cexp, FIX_exp. cbn. rewrite !Rmult_1_r. reflexivity.
  Qed.

  Lemma trunc_Z (x : bf) z : B2R x = IZR z -> Btrunc x = z.
  Proof.
    intros H. apply eq_IZR. rewrite (Btrunc_correct prec emax He), H.
    unfold round, F2R, scaled_mantissa, cexp, FIX_exp. cbn. rewrite !Rmult_1_r. f_equal. apply Ztrunc_IZR.
  Qed.
End FloatFacts.
Arguments B2X {prec emax}.
