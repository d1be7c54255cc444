(** * The code of an f32 is ordered like the number *)
From Coq Require Import ZArith Lia Reals.
From Flocq Require Import Core IEEE754.BinarySingleNaN.
From Verif Require Import Base MFloat MAngular.
Open Scope Z_scope.

Lemma bounded_32 m e : SpecFloat.bounded 24 128 m e = true ->
  -149 <= e <= 104 /\ Z.pos m < 2 ^ 24 /\ (-149 < e -> 2 ^ 23 <= Z.pos m).
Proof.
  unfold SpecFloat.bounded. rewrite Bool.andb_true_iff. intros [H1 H2].
  apply Z.leb_le in H2. apply (canonical_canonical_mantissa 24 128 false) in H1.
  unfold canonical, cexp in H1. unfold FLT_exp in H1.
  assert (Hne : Z.neg m <> 0 \/ True) by auto.
  assert (E : mag_val radix2 _ (mag radix2 (F2R (Float radix2 (cond_Zopp false (Z.pos m)) e))) = Zdigits radix2 (Z.pos m) + e).
  { cbn [cond_Zopp]. rewrite mag_F2R by discriminate. rewrite Zdigits_mag by discriminate. reflexivity. }
  rewrite E in H1. clear E. cbn [Fexp] in H1. unfold SpecFloat.fexp, SpecFloat.emin in H1.
  pose proof (Zdigits_correct radix2 (Z.pos m)) as [D1 D2]. rewrite Z.abs_eq in D1, D2 by lia.
  set (d := Zdigits radix2 (Z.pos m)) in *.
  assert (Hd : d <= 24) by lia.
  assert (P : forall k, Zpower radix2 k = 2 ^ k) by reflexivity. rewrite !P in D1, D2.
  split; [lia|]. split.
  - eapply Z.lt_le_trans; [exact D2|]. apply Z.pow_le_mono_r; lia.
  - intros He. assert (d = 24) by lia. now subst d; rewrite H in D1.
Qed.

Lemma code_bounds m e : SpecFloat.bounded 24 128 m e = true -> 0 < (e + 149) * 2 ^ 23 + Z.pos m < 255 * 2 ^ 23.
Proof. intros H. apply bounded_32 in H as (H1 & H2 & H3). lia. Qed.

Lemma code_mono m1 e1 m2 e2 : SpecFloat.bounded 24 128 m1 e1 = true -> SpecFloat.bounded 24 128 m2 e2 = true ->
  e1 < e2 -> (e1 + 149) * 2 ^ 23 + Z.pos m1 < (e2 + 149) * 2 ^ 23 + Z.pos m2.
Proof.
  intros H1 H2 He. apply bounded_32 in H1 as (A1 & A2 & A3). apply bounded_32 in H2 as (B1 & B2 & B3).
  specialize (B3 ltac:(lia)). lia.
Qed.

Lemma code_compare (x y : f32) : is_nan x = false -> is_nan y = false ->
  Bcompare x y = Some (f32_code x ?= f32_code y).
Proof.
  intros Hx Hy. unfold Bcompare.
  destruct x as [sx|sx| |sx mx ex Bx]; try discriminate; destruct y as [sy|sy| |sy my ey By]; try discriminate;
    cbn [B2SF SpecFloat.SFcompare f32_code];
    try pose proof (code_bounds _ _ Bx) as Cx; try pose proof (code_bounds _ _ By) as Cy.
  - reflexivity.
  - now destruct sy.
  - destruct sy; cbn [cond_Zopp]; symmetry; f_equal; [apply Z.compare_gt_iff|apply Z.compare_lt_iff]; lia.
  - now destruct sx.
  - now destruct sx, sy.
  - destruct sx, sy; cbn [cond_Zopp]; symmetry; f_equal; first [apply Z.compare_lt_iff; lia|apply Z.compare_gt_iff; lia].
  - destruct sx; cbn [cond_Zopp]; symmetry; f_equal; [apply Z.compare_lt_iff|apply Z.compare_gt_iff]; lia.
  - destruct sx, sy; cbn [cond_Zopp]; symmetry; f_equal; first [apply Z.compare_lt_iff; lia|apply Z.compare_gt_iff; lia].
  - destruct sx, sy; cbn [cond_Zopp].
    + (* both negative *)
      symmetry. destruct (Z.compare_spec ex ey) as [He|He|He].
      * subst ey. f_equal. rewrite Pos.compare_cont_spec. destruct (Pos.compare_spec mx my) as [H|H|H]; cbn.
        -- subst. apply Z.compare_refl.
        -- apply Z.compare_gt_iff. lia.
        -- apply Z.compare_lt_iff. lia.
      * f_equal. apply Z.compare_gt_iff. pose proof (code_mono _ _ _ _ Bx By He). lia.
      * f_equal. apply Z.compare_lt_iff. pose proof (code_mono _ _ _ _ By Bx He). lia.
    + symmetry. f_equal. apply Z.compare_lt_iff. lia.
    + symmetry. f_equal. apply Z.compare_gt_iff. lia.
    + symmetry. destruct (Z.compare_spec ex ey) as [He|He|He].
      * subst ey. f_equal. rewrite Pos.compare_cont_spec. destruct (Pos.compare_spec mx my) as [H|H|H]; cbn.
        -- subst. apply Z.compare_refl.
        -- apply Z.compare_lt_iff. lia.
        -- apply Z.compare_gt_iff. lia.
      * f_equal. apply Z.compare_lt_iff. exact (code_mono _ _ _ _ Bx By He).
      * f_equal. apply Z.compare_gt_iff. exact (code_mono _ _ _ _ By Bx He).
Qed.
