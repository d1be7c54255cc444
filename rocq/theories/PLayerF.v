(** * Proofs: layer sizes in floating point *)
From Coq Require Import ZArith Reals Lra Lia.
From Flocq Require Import Core IEEE754.BinarySingleNaN.
From Verif Require Import Base MFloat MLayerSize SLayerSize PFloat.
Open Scope R_scope.

Local Notation fexp := (SpecFloat.fexp 53 1024).
Local Notation big := (bpow radix2 1024).
Local Notation rnd := (round radix2 fexp (round_mode mode_NE)).
Local Notation sat := (sat 1024).

Lemma fexp_ok : Valid_exp fexp.
Proof. apply fexp_correct; reflexivity. Qed.
#[local] Existing Instance fexp_ok.

(** numbers below 2^53 are exact *)
Lemma int_format z : (Z.abs z <= 2 ^ 53)%Z -> generic_format radix2 fexp (IZR z).
Proof.
  intros H. replace fexp with (FLT_exp (3 - 1024 - 53) 53).
  2:{ reflexivity. }
  destruct (Z.eq_dec (Z.abs z) (2 ^ 53)) as [E|Hne].
  - apply generic_format_abs_inv. rewrite <- abs_IZR, E. replace (IZR (2 ^ 53)) with (bpow radix2 53) by reflexivity.
    apply generic_format_bpow. unfold FLT_exp. lia.
  - apply generic_format_FLT. exists (Float radix2 z 0); cbn; [unfold F2R; cbn; ring|lia|lia].
Qed.

Lemma rnd_int z : (Z.abs z <= 2 ^ 53)%Z -> rnd (IZR z) = IZR z.
Proof. intros. apply round_generic; auto with typeclass_instances. now apply int_format. Qed.

Lemma usize_X n : is_nan (f64_of_usize n) = false /\ B2X (f64_of_usize n) = sat (rnd (INR n)).
Proof. unfold f64_of_usize. rewrite INR_IZR_INZ. apply norm_X. Qed.

Lemma rnd_le64 a b : a <= b -> rnd a <= rnd b.
Proof. exact (rnd_le 53 1024 a b). Qed.

Lemma big_is : big = IZR (2 ^ 1024).
Proof. reflexivity. Qed.

Lemma pow53_big : IZR (2 ^ 53) < big.
Proof. rewrite big_is. apply IZR_lt. reflexivity. Qed.

Lemma pow64_small (z : Z) : (0 <= z <= 2 ^ 64)%Z -> 0 <= rnd (IZR z) <= IZR (2 ^ 64).
Proof.
  intros H. split.
  - replace 0 with (rnd 0) by (apply round_0; auto with typeclass_instances). apply rnd_le64. apply (IZR_le 0). lia.
  - replace (IZR (2 ^ 64)) with (rnd (IZR (2 ^ 64))).
    + apply rnd_le64. apply IZR_le. lia.
    + apply round_generic; auto with typeclass_instances. replace (IZR (2 ^ 64)) with (bpow radix2 64) by reflexivity.
      apply generic_format_bpow. vm_compute. discriminate.
Qed.

Lemma usize_finite n : (Z.of_nat n <= 2 ^ 64)%Z ->
  is_finite (f64_of_usize n) = true /\ B2R (f64_of_usize n) = rnd (INR n).
Proof.
  intros H. destruct (usize_X n) as [H1 H2].
  pose proof (pow64_small (Z.of_nat n) ltac:(lia)) as Hr. rewrite <- INR_IZR_INZ in Hr.
  assert (Hb : IZR (2 ^ 64) < big) by (rewrite big_is; apply IZR_lt; reflexivity).
  rewrite sat_id in H2 by lra.
  assert (Hf : is_finite (f64_of_usize n) = true).
  { destruct (f64_of_usize n) as [s| [] | |s mm e Hb']; auto; cbn [B2X] in H2; try discriminate; rewrite ?big_is in *; lra. }
  split; auto. now rewrite <- H2, B2X_finite.
Qed.

(** the conversion back to [usize] after rounding up *)
Lemma ceil_cast (q : f64) : is_nan q = false ->
  f64_to_usize (f64_ceil q) = Z.max 0 (Z.min (2 ^ 64 - 1) (Zceil (B2X q))).
Proof.
  intros Hq. destruct (is_finite q) eqn:Fq.
  - destruct (near_R 53 1024 mode_UP q Fq) as [F1 V1]. rewrite B2X_finite by auto.
    unfold f64_ceil, f64_to_usize. rewrite (trunc_Z _ _ _ _ V1). cbn [round_mode] in *.
    destruct (Bnearbyint mode_UP q); try discriminate; reflexivity.
  - destruct q as [s| [] | |]; try discriminate; cbn [B2X f64_ceil].
    + change (f64_to_usize (f64_ceil (B754_infinity true))) with 0%Z. rewrite big_is, <- opp_IZR, Zceil_IZR. reflexivity.
    + change (f64_to_usize (f64_ceil (B754_infinity false))) with (2 ^ 64 - 1)%Z. rewrite big_is, Zceil_IZR. reflexivity.
Qed.

Lemma Zceil_mono a b : a <= b -> (Zceil a <= Zceil b)%Z.
Proof. intros. apply Zceil_glb. eapply Rle_trans; [eassumption|apply Zceil_ub]. Qed.

(** facts about the exponent that hold whatever the multiplier *)
Section Exponent.
  Variables (L : libm) (m : f64) (n : nat).
  Local Notation k := (layer_exponent L n m).
  Hypothesis Hk : is_finite k = true.
  Local Notation ex l := (f64_sub k (f64_of_usize l)).
  Lemma ex_X l : is_nan (ex l) = false /\
    ((is_finite (f64_of_usize l) = true /\ B2X (ex l) = sat (rnd (B2R k - B2R (f64_of_usize l)))) \/
     (f64_of_usize l = B754_infinity false /\ B2X (ex l) = - big)).
  Proof.
    destruct (usize_X l) as [H1 H2].
    destruct (is_finite (f64_of_usize l)) eqn:Fl.
    - destruct (minus_X 53 1024 k (f64_of_usize l) Hk Fl) as [M1 M2]. split; auto.
    - assert (Hi : f64_of_usize l = B754_infinity false).
      { destruct (f64_of_usize l) as [s| [] | |]; try discriminate; auto. cbn [B2X] in H2.
        assert (0 <= sat (rnd (INR l))); [|pose proof (big_pos 1024); lra].
        apply sat_ge; try (pose proof (big_pos 1024); lra).
        replace 0 with (rnd 0) by (apply round_0; auto with typeclass_instances). apply rnd_le64, pos_INR. }
      rewrite Hi. split; [|right; split; auto]; destruct k as [s| | |]; try discriminate; reflexivity.
  Qed.

  Lemma ex_le l : Bleb (ex l) k = true.
  Proof.
    assert (Hkn : is_nan k = false) by (destruct k; auto; discriminate).
    destruct (ex_X l) as [H1 [[Fl H2]|[_ H2]]]; apply (Bleb_X 53 1024); auto; rewrite H2.
    - rewrite B2X_finite by auto. apply sat_le_of.
      + pose proof (B2X_lt 53 1024 k Hk) as Hb. rewrite B2X_finite in Hb by auto. lra.
      + pose proof (B2X_lt 53 1024 k Hk) as Hb. rewrite B2X_finite in Hb by auto. lra.
      + replace (B2R k) with (rnd (B2R k)) at 2.
        2:{ apply round_generic; auto with typeclass_instances. apply generic_format_B2R. }
        apply rnd_le64. destruct (usize_X l) as [_ Hl]. rewrite B2X_finite in Hl by auto.
        assert (0 <= B2R (f64_of_usize l)); [|lra]. rewrite Hl. apply sat_ge; try (pose proof (big_pos 1024); lra).
        replace 0 with (rnd 0) by (apply round_0; auto with typeclass_instances). apply rnd_le64, pos_INR.
    - pose proof (B2X_lt 53 1024 k Hk) as Hb. lra.
  Qed.

  Lemma ex_mono l l' : (l <= l')%nat -> Bleb (ex l') (ex l) = true.
  Proof.
    intros Hl. destruct (ex_X l) as [N1 H1], (ex_X l') as [N2 H2]. apply (Bleb_X 53 1024); auto.
    assert (HX : B2X (f64_of_usize l) <= B2X (f64_of_usize l')).
    { destruct (usize_X l) as [_ ->], (usize_X l') as [_ ->]. apply sat_le, rnd_le64, le_INR; auto. }
    pose proof (big_pos 1024) as Hbp. destruct H2 as [[F2 H2]|[I2 H2]].
    - destruct H1 as [[F1 H1]|[I1 H1]].
      + rewrite H1, H2. apply sat_le, rnd_le64. rewrite !B2X_finite in HX by auto. lra.
      + exfalso. rewrite I1 in HX. cbn [B2X] in HX. pose proof (B2X_lt 53 1024 _ F2). lra.
    - rewrite H2. destruct H1 as [[F1 H1]|[I1 H1]]; rewrite H1; [|lra]. apply sat_bound.
  Qed.

  Lemma ex_neg l : B2R k <= INR l -> Bleb (ex l) (B754_zero false) = true.
  Proof.
    intros H. destruct (ex_X l) as [N1 H1]. apply (Bleb_X 53 1024); auto. cbn [B2X B2R].
    pose proof (big_pos 1024) as Hb. destruct H1 as [[F1 H1]|[I1 H1]]; rewrite H1; [|lra].
    apply sat_le_of; try lra. replace 0 with (rnd 0) at 1 by (apply round_0; auto with typeclass_instances).
    apply rnd_le64. assert (B2R k <= B2R (f64_of_usize l)); [|lra].
    destruct (usize_X l) as [_ Hl]. rewrite B2X_finite in Hl by auto. rewrite Hl.
    pose proof (B2X_lt 53 1024 _ Hk) as Hkb. rewrite B2X_finite in Hkb by auto.
    apply sat_ge; try lra. replace (B2R k) with (rnd (B2R k)).
    2:{ apply round_generic; auto with typeclass_instances. apply generic_format_B2R. }
    now apply rnd_le64.
  Qed.

  Lemma ex_zero : Bleb k (ex 0) = true.
  Proof.
    assert (Hkn : is_nan k = false) by (destruct k; auto; discriminate).
    destruct (ex_X 0) as [N1 H1]. apply (Bleb_X 53 1024); auto.
    change (f64_of_usize 0) with (B754_zero false : f64) in *. destruct H1 as [[_ H1]|[I _]]; [|discriminate].
    rewrite H1. cbn [B2R]. rewrite Rminus_0_r, B2X_finite by auto.
    pose proof (B2X_lt 53 1024 k Hk) as Hb. rewrite B2X_finite in Hb by auto.
    rewrite round_generic; auto with typeclass_instances; [|apply generic_format_B2R]. rewrite sat_id; lra.
  Qed.

End Exponent.

  Lemma sign_X (x : f64) : is_nan x = false -> Bsign x = false -> 0 <= B2X x.
  Proof.
    intros H1 H2. destruct x as [s| s | |s mm e Hb]; try discriminate; cbn [Bsign] in H2; subst s; cbn [B2X B2R]; try lra.
    - pose proof (big_pos 1024). lra.
    - now apply F2R_ge_0.
  Qed.

Section FloatSize.
  Variables (L : libm) (mul : f32).
  Local Notation m := (f64_of_f32 mul).
  Hypothesis HL : pow_up L m.
  Variable n : nat.
  Hypothesis Hn : (1 <= n)%nat.
  Hypothesis Hn64 : (Z.of_nat n <= 2 ^ 64)%Z.
  Hypothesis Hlog : log_ok L m n.
  Local Notation k := (layer_exponent L n m).
  Local Notation ex l := (f64_sub k (f64_of_usize l)).
  Local Notation pw l := (powf64 L m (ex l)).
  Local Notation qq l := (f64_div (f64_of_usize n) (pw l)).

  Lemma pw_num l : is_nan (pw l) = false /\ is_finite (pw l) = true /\ 0 <= B2R (pw l) /\ Bsign (pw l) = false.
  Proof.
    destruct (ex_X L m n (lo_fin _ _ _ Hlog) l) as [N1 _]. destruct (pu_num _ _ HL _ N1) as [N2 H0]. split; auto.
    assert (Hle : Bleb (pw l) (powf64 L m k) = true) by (apply (pu_mono _ _ HL), (ex_le L m n (lo_fin _ _ _ Hlog))).
    pose proof (lo_pow _ _ _ Hlog) as Fp. pose proof (B2X_lt 53 1024 _ Fp) as Hlt.
    apply (Bleb_X 53 1024) in Hle; auto. 2:{ destruct (powf64 L m k); auto; discriminate. }
    pose proof (sign_X _ N2 H0) as H1. pose proof (big_pos 1024) as Hb.
    assert (F : is_finite (pw l) = true).
    { destruct (pw l) as [s| [] | |]; auto; try discriminate; cbn [B2X] in *; lra. }
    split; auto. rewrite B2X_finite in H1 by auto. auto.
  Qed.

  Lemma nf_fin : is_finite (f64_of_usize n) = true /\ 1 <= B2R (f64_of_usize n).
  Proof.
    destruct (usize_finite n Hn64) as [F E]. split; auto. rewrite E.
    replace 1 with (rnd 1) by (apply (rnd_int 1); lia). apply rnd_le64. replace 1 with (INR 1) by reflexivity. now apply le_INR.
  Qed.

  (** the quotient, as an extended real *)
  Definition qx (p : R) : R := if Req_EM_T p 0 then big else sat (rnd (B2R (f64_of_usize n) / p)).

  Lemma qq_X l : is_nan (qq l) = false /\ B2X (qq l) = qx (B2R (pw l)).
  Proof.
    destruct nf_fin as [F E]. destruct (pw_num l) as (N1 & F1 & P1 & S1). unfold qx.
    destruct (Req_EM_T (B2R (pw l)) 0) as [E0|Hne].
    - assert (Hz : pw l = B754_zero false).
      { destruct (pw l) as [s| | |s mm e Hb]; try discriminate; cbn [Bsign] in S1; subst s; auto. exfalso. cbn [B2R] in E0.
        assert (0 < F2R (Float radix2 (Z.pos mm) e)) by now apply F2R_gt_0. cbn in E0. lra. }
      rewrite Hz. destruct (f64_of_usize n) as [s'| | |s' mm e Hb]; try discriminate; [cbn in E; lra|].
      destruct s'; [|split; reflexivity]. exfalso. cbn [B2R] in E. assert (F2R (Float radix2 (cond_Zopp true (Z.pos mm)) e) < 0) by now apply F2R_lt_0. lra.
    - apply (div_X 53 1024); auto.
  Qed.

  Lemma qx_mono p p' : 0 <= p' -> p' <= p -> qx p <= qx p'.
  Proof.
    intros H0 H. unfold qx. destruct (Req_EM_T p' 0) as [E'|E']; destruct (Req_EM_T p 0) as [E|E]; try lra.
    - apply sat_bound.
    - apply sat_le, rnd_le64. destruct nf_fin as [_ Hf]. unfold Rdiv. apply Rmult_le_compat_l; [lra|]. apply Rinv_le; lra.
  Qed.

  Lemma qx_pos l : 0 < qx (B2R (pw l)).
  Proof.
    destruct (pw_num l) as (N1 & F1 & P1 & S1). unfold qx. pose proof (big_pos 1024) as Hb.
    destruct (Req_EM_T (B2R (pw l)) 0) as [E0|Hne]; auto. destruct nf_fin as [_ Hf].
    apply Rlt_le_trans with (bpow radix2 (-1074)); [apply bpow_gt_0|].
    assert (Hs : bpow radix2 (-1074) <= big) by (apply bpow_le; lia).
    apply sat_ge; auto; [pose proof (bpow_gt_0 radix2 (-1074)); lra|].
    replace (bpow radix2 (-1074)) with (rnd (bpow radix2 (-1074))).
    2:{ apply round_generic; auto with typeclass_instances. apply generic_format_bpow. vm_compute. discriminate. }
    apply rnd_le64. pose proof (B2X_lt 53 1024 _ F1) as Hl. rewrite B2X_finite in Hl by auto.
    apply Rle_trans with (/ big).
    - rewrite <- bpow_opp. apply bpow_le. lia.
    - apply Rle_trans with (1 / B2R (pw l)).
      + unfold Rdiv. rewrite Rmult_1_l. apply Rinv_le; lra.
      + unfold Rdiv. apply Rmult_le_compat_r; [|lra]. left. apply Rinv_0_lt_compat. lra.
  Qed.

  Local Notation size := (layer_size L mul n).

  Lemma size_is l : Z.of_nat (size l) = Z.min (Z.min (2 ^ 64 - 1) (Zceil (qx (B2R (pw l))))) (Z.of_nat n) /\
    (1 <= Zceil (qx (B2R (pw l))))%Z.
  Proof.
    destruct (qq_X l) as [N1 E1]. unfold layer_size. rewrite (ceil_cast _ N1), E1.
    assert (Hc : (1 <= Zceil (qx (B2R (pw l))))%Z).
    { apply Zlt_le_succ with (n := 0%Z). apply lt_IZR. eapply Rlt_le_trans; [apply qx_pos|apply Zceil_ub]. }
    split; auto. rewrite Z2Nat.id; lia.
  Qed.

  Lemma sizeF_pos l : (1 <= size l <= n)%nat.
  Proof. destruct (size_is l) as [H1 H2]. lia. Qed.

  Lemma sizeF_mono l l' : (l <= l')%nat -> (size l <= size l')%nat.
  Proof.
    intros H. destruct (size_is l) as [H1 _], (size_is l') as [H2 _].
    assert (Zceil (qx (B2R (pw l))) <= Zceil (qx (B2R (pw l'))))%Z; [|lia].
    apply Zceil_mono, qx_mono.
    - apply pw_num.
    - pose proof (pu_mono _ _ HL _ _ (ex_mono L m n (lo_fin _ _ _ Hlog) l l' H)) as Hle.
      destruct (pw_num l) as (N1 & F1 & _), (pw_num l') as (N2 & F2 & _).
      apply (Bleb_X 53 1024) in Hle; auto. now rewrite !B2X_finite in Hle.
  Qed.

  Lemma sizeF_top l c : B2R k <= INR l -> (c <= n)%nat -> (Z.of_nat c <= 2 ^ 53)%Z -> (c <= size l)%nat.
  Proof.
    intros H Hc Hc53. destruct (size_is l) as [H1 H2].
    assert (Z.of_nat c <= Zceil (qx (B2R (pw l))))%Z; [|lia].
    apply le_IZR. eapply Rle_trans; [|apply Zceil_ub].
    destruct (pw_num l) as (N1 & F1 & P1 & _).
    assert (Hp : B2R (pw l) <= 1).
    { pose proof (pu_mono _ _ HL _ _ (ex_neg L m n (lo_fin _ _ _ Hlog) l H)) as Hle. rewrite (pu_zero _ _ HL) in Hle.
      apply (Bleb_X 53 1024) in Hle; auto. rewrite B2X_finite in Hle by auto.
      rewrite B2X_finite, Bone_correct in Hle; auto. }
    pose proof (big_pos 1024) as Hb. pose proof pow53_big as Hb53.
    assert (Hc' : IZR (Z.of_nat c) <= IZR (2 ^ 53)) by now apply IZR_le.
    assert (Hc0 : 0 <= IZR (Z.of_nat c)) by (apply (IZR_le 0); lia).
    unfold qx. destruct (Req_EM_T (B2R (pw l)) 0) as [E0|Hne]; [lra|].
    apply sat_ge; try lra. rewrite <- (rnd_int (Z.of_nat c)) by lia. apply rnd_le64.
    destruct (usize_finite n Hn64) as [Fn En]. 
    assert (Hcn : IZR (Z.of_nat c) <= B2R (f64_of_usize n)).
    { rewrite En. rewrite <- (rnd_int (Z.of_nat c)) by lia. apply rnd_le64. rewrite INR_IZR_INZ. apply IZR_le. lia. }
    apply Rmult_le_reg_r with (B2R (pw l)); [lra|]. unfold Rdiv. rewrite Rmult_assoc, Rinv_l by lra. nra.
  Qed.
End FloatSize.

(** multipliers between 0 and 1 *)
Section FloatSmall.
  Variables (L : libm) (mul : f32).
  Local Notation m := (f64_of_f32 mul).
  Hypothesis HL : pow_down L m.
  Variable n : nat.
  Hypothesis Hn : (1 <= n)%nat.
  Hypothesis Hn64 : (Z.of_nat n <= 2 ^ 64)%Z.
  Hypothesis Hlog : log_fin L m n.
  Local Notation k := (layer_exponent L n m).
  Local Notation ex l := (f64_sub k (f64_of_usize l)).
  Local Notation pw l := (powf64 L m (ex l)).
  Local Notation qq l := (f64_div (f64_of_usize n) (pw l)).
  Local Notation size := (layer_size L mul n).
  Let Hk := lf_fin _ _ _ Hlog.

  Lemma pwd_num l : is_nan (pw l) = false /\ Bsign (pw l) = false.
  Proof. destruct (ex_X L m n Hk l) as [N1 _]. apply (pd_num _ _ HL _ N1). Qed.

  Lemma pwd_ge l : log_small L m n -> B2R (f64_of_usize n) <= B2X (pw l).
  Proof.
    intros H2. destruct (pwd_num l) as [N2 _].
    assert (Nk : is_nan (powf64 L m k) = false) by (pose proof (lf_pow _ _ _ Hlog); destruct (powf64 L m k); auto; discriminate).
    pose proof (pd_mono _ _ HL _ _ (ex_le L m n Hk l)) as H1. apply (Bleb_X 53 1024) in H1; auto.
    destruct (usize_finite n Hn64) as [F E].
    assert (Nn : is_nan (f64_of_usize n) = false) by (destruct (f64_of_usize n); auto; discriminate).
    apply (Bleb_X 53 1024) in H2; auto. rewrite B2X_finite in H2 by auto. lra.
  Qed.

  Lemma qqd_pos l : is_finite (pw l) = true -> is_nan (qq l) = false /\ 0 < B2X (qq l).
  Proof.
    destruct (nf_fin n Hn Hn64) as [Fn En]. destruct (pwd_num l) as [N1 S1]. intros Fp.
    destruct (Req_EM_T (B2R (pw l)) 0) as [E0|Hne].
    - assert (Hz : pw l = B754_zero false).
      { destruct (pw l) as [s| | |s mm e Hb]; try discriminate; cbn [Bsign] in S1; subst s; auto. exfalso. cbn [B2R] in E0.
        assert (0 < F2R (Float radix2 (Z.pos mm) e)) by now apply F2R_gt_0. cbn in E0. lra. }
      rewrite Hz. destruct (f64_of_usize n) as [s'| | |s' mm e Hb]; try discriminate; [cbn in En; lra|].
      destruct s'; [exfalso; cbn [B2R] in En; assert (F2R (Float radix2 (cond_Zopp true (Z.pos mm)) e) < 0) by (now apply F2R_lt_0); lra|].
      split; [reflexivity|]. apply (big_pos 1024).
    - pose proof (sign_X _ N1 S1) as Hp0. rewrite B2X_finite in Hp0 by auto.
      destruct (div_X 53 1024 (f64_of_usize n) (pw l)) as [D1 D2]; auto. split; auto.
      unfold f64_div. rewrite D2. pose proof (big_pos 1024) as Hb.
      apply Rlt_le_trans with (bpow radix2 (-1074)); [apply bpow_gt_0|].
      assert (Hs : bpow radix2 (-1074) <= big) by (apply bpow_le; lia).
      apply sat_ge; auto; [pose proof (bpow_gt_0 radix2 (-1074)); lra|].
      replace (bpow radix2 (-1074)) with (rnd (bpow radix2 (-1074))).
      2:{ apply round_generic; auto with typeclass_instances. apply generic_format_bpow. vm_compute. discriminate. }
      apply rnd_le64. pose proof (B2X_lt 53 1024 _ Fp) as Hl. rewrite B2X_finite in Hl by auto.
      apply Rle_trans with (/ big).
      + rewrite <- bpow_opp. apply bpow_le. lia.
      + apply Rle_trans with (1 / B2R (pw l)).
        * unfold Rdiv. rewrite Rmult_1_l. apply Rinv_le; lra.
        * unfold Rdiv. apply Rmult_le_compat_r; [|lra]. left. apply Rinv_0_lt_compat. lra.
  Qed.

  Lemma qqd_le l : log_small L m n -> is_nan (qq l) = false /\ B2X (qq l) <= 1.
  Proof.
    intros Hs. destruct (nf_fin n Hn Hn64) as [Fn En]. destruct (pwd_num l) as [N1 _]. pose proof (pwd_ge l Hs) as G1.
    pose proof (big_pos 1024) as Hb. assert (H1b : 1 < big) by (rewrite big_is; apply (IZR_lt 1); reflexivity).
    destruct (is_finite (pw l)) eqn:Fp.
    - rewrite B2X_finite in G1 by auto.
      destruct (div_X 53 1024 (f64_of_usize n) (pw l)) as [D1 D2]; auto; [intro; lra|]. split; auto.
      unfold f64_div. rewrite D2.
      apply sat_le_of; try lra. replace 1 with (rnd 1) by (apply (rnd_int 1); lia). apply rnd_le64.
      apply Rmult_le_reg_r with (B2R (pw l)); [lra|]. unfold Rdiv. rewrite Rmult_assoc, Rinv_l by lra. lra.
    - destruct (pw l) as [s| [] | |]; try discriminate; cbn [B2X] in G1; [exfalso; lra|].
      destruct (f64_of_usize n) as [s| | |s mm e Hbd]; try discriminate; cbn; split; auto; lra.
  Qed.

  Lemma sizeD_le l : log_small L m n -> (size l <= 1)%nat.
  Proof.
    intros Hs. destruct (qqd_le l Hs) as [N1 H1]. unfold layer_size. rewrite (ceil_cast _ N1).
    assert (Hc : (Zceil (B2X (qq l)) <= 1)%Z) by (apply Zceil_glb; exact H1). lia.
  Qed.

  Lemma sizeD_0 : (1 <= size 0 <= n)%nat.
  Proof.
    assert (F : is_finite (pw 0) = true).
    { pose proof (pd_mono _ _ HL _ _ (ex_zero L m n Hk)) as H. destruct (pwd_num 0) as [Np Sp].
      pose proof (lf_pow _ _ _ Hlog) as Fk. pose proof (sign_X _ Np Sp) as Hp0.
      assert (Nk : is_nan (powf64 L m k) = false) by (destruct (powf64 L m k); auto; discriminate).
      apply (Bleb_X 53 1024) in H; auto. pose proof (B2X_lt 53 1024 _ Fk) as Hb. 
      destruct (pw 0) as [s| [] | |]; auto; try discriminate; cbn [B2X] in *; pose proof (big_pos 1024); lra. }
    destruct (qqd_pos 0 F) as [N1 H2]. unfold layer_size. rewrite (ceil_cast _ N1).
    assert (Hc1 : (1 <= Zceil (B2X (qq 0)))%Z).
    { apply Zlt_le_succ with (n := 0%Z). apply lt_IZR. eapply Rlt_le_trans; [exact H2|apply Zceil_ub]. }
    lia.
  Qed.
End FloatSmall.

(** NaN and negative multipliers *)
Lemma mul_R (mul : f32) : is_finite mul = true ->
  is_finite (f64_of_f32 mul) = true /\ B2R (f64_of_f32 mul) = B2R mul.
Proof.
  destruct mul as [s| | |s mm e Hb]; try discriminate; intros _; [split; reflexivity|].
  cbn [f64_of_f32 B2R].
  assert (Hfmt : generic_format radix2 fexp (F2R (Float radix2 (cond_Zopp s (Z.pos mm)) e))).
  { pose proof (FLT_format_B2R 24 128 _ (B754_finite s mm e Hb)) as Hf. destruct Hf as [f Hr Hm He].
    replace fexp with (FLT_exp (-1074) 53) by reflexivity. cbn [B2R] in Hr. rewrite Hr.
    apply generic_format_FLT. exists f; auto.
    - eapply Z.lt_trans; [exact Hm|reflexivity].
    - eapply Z.le_trans; [|exact He]. vm_compute. discriminate. }
  set (r := F2R _) in *.
  assert (Hlt : - big < r < big).
  { pose proof (abs_B2R_lt_emax 24 128 (B754_finite s mm e Hb)) as Ha. cbn [B2R] in Ha. fold r in Ha.
    apply Rabs_lt_inv in Ha. assert (bpow radix2 128 <= big) by (apply bpow_le; lia). lra. }
  pose proof (binary_normalize_correct 53 1024 _ _ mode_NE (if s then Z.neg mm else Z.pos mm) e s) as H. cbn zeta in H.
  replace (F2R (Float radix2 (if s then Z.neg mm else Z.pos mm) e)) with r in H by (unfold r; now destruct s).
  rewrite (round_generic radix2 fexp (round_mode mode_NE) r Hfmt) in H.
  rewrite Rlt_bool_true in H by (apply Rabs_lt; lra). destruct H as (H1 & H2 & _). split; auto.
Qed.

Lemma widen_neg (x : f32) : Bltb x (B754_zero false) = true -> Bltb (f64_of_f32 x) (B754_zero false) = true.
Proof.
  intros H. destruct (is_finite x) eqn:F.
  - destruct (mul_R x F) as [F' E']. rewrite Bltb_correct in H |- * by auto. rewrite E'.
    cbn [B2R] in *. exact H.
  - destruct x as [s| [] | |]; try discriminate; reflexivity.
Qed.

Lemma sizeN L mul n l : nan_laws L -> is_nan mul = true \/ Bltb mul (B754_zero false) = true ->
  layer_size L mul n l = 0%nat.
Proof.
  intros HL H. unfold layer_size.
  assert (Hl : ln64 L (f64_of_f32 mul) = B754_nan).
  { destruct H as [H|H].
    - destruct mul; try discriminate. apply (nl_ln_nan _ HL).
    - apply (nl_ln_neg _ HL). now apply widen_neg. }
  assert (Hk : layer_exponent L n (f64_of_f32 mul) = B754_nan).
  { unfold layer_exponent, log64. rewrite Hl. unfold f64_div. destruct (ln64 L (f64_of_usize n)); reflexivity. }
  rewrite Hk. replace (f64_sub B754_nan (f64_of_usize l)) with (B754_nan : f64) by (destruct (f64_of_usize l); reflexivity).
  rewrite (nl_pow_nan _ HL).
  - replace (f64_div (f64_of_usize n) B754_nan) with (B754_nan : f64) by (destruct (f64_of_usize n); reflexivity).
    cbn. lia.
  - destruct H as [H|H]; [right; destruct mul; try discriminate; reflexivity|]. left.
    apply widen_neg in H. unfold Bltb, Bleb, SpecFloat.SFltb, SpecFloat.SFleb in *.
    now destruct (SpecFloat.SFcompare _ _) as [[]|].
Qed.

(** multiplier 1 *)
Lemma sizeF_one L n l : (Z.of_nat n <= 2 ^ 53)%Z -> (forall y, powf64 L Bone y = Bone) -> layer_size L Bone n l = n.
Proof.
  intros Hn HL. unfold layer_size. replace (f64_of_f32 Bone) with (Bone : f64) by (apply B2SF_inj; reflexivity).
  rewrite HL. destruct (usize_finite n) as [F E]; [lia|].
  rewrite INR_IZR_INZ, rnd_int in E by lia.
  destruct (div_X 53 1024 (f64_of_usize n) Bone) as [D1 D2]; auto.
  { rewrite Bone_correct. intro; lra. }
  unfold f64_div. rewrite (ceil_cast _ D1), D2, Bone_correct, E.
  unfold Rdiv. rewrite Rinv_1, Rmult_1_r, rnd_int by lia.
  pose proof pow53_big. assert (0 <= IZR (Z.of_nat n) <= IZR (2 ^ 53)) by (split; apply IZR_le; lia).
  rewrite sat_id by lra. rewrite Zceil_IZR. lia.
Qed.
