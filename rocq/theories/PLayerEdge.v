(** * Proofs: layer sizes for multipliers 0 and infinity *)
From Coq Require Import ZArith Reals Lra Lia.
From Flocq Require Import Core IEEE754.BinarySingleNaN.
From Verif Require Import Base MFloat MLayerSize SLayerSize PFloat PLayerF.
Open Scope R_scope.
Local Notation rnd := (round radix2 (SpecFloat.fexp 53 1024) (round_mode mode_NE)).

Lemma usize_shape l : (1 <= l)%nat -> (Z.of_nat l <= 2 ^ 64)%Z -> exists mm e H, f64_of_usize l = B754_finite false mm e H.
Proof.
  intros Hl H64. destruct (usize_finite l H64) as [F E].
  assert (1 <= B2R (f64_of_usize l)).
  { rewrite E. replace 1 with (rnd 1) by (apply (rnd_int 1); lia). apply rnd_le64. replace 1 with (INR 1) by reflexivity. now apply le_INR. }
  destruct (f64_of_usize l) as [s|s| |[] mm e Hb]; try discriminate; cbn [B2R] in *; try lra; eauto.
  exfalso. assert (F2R (Float radix2 (cond_Zopp true (Z.pos mm)) e) < 0) by (apply F2R_lt_0; reflexivity). lra.
Qed.
Lemma usize_0 : f64_of_usize 0 = B754_zero false.
Proof. reflexivity. Qed.

(** the exponent is a zero *)
Lemma edge_exponent L mul n : edge_laws L -> (exists s, mul = B754_zero s) \/ mul = B754_infinity false ->
  (1 <= n)%nat -> (Z.of_nat n <= 2 ^ 64)%Z ->
  exists s, layer_exponent L n (f64_of_f32 mul) = B754_zero s.
Proof.
  intros HL Hm Hn H64. unfold layer_exponent, log64.
  assert (Hl : exists s, ln64 L (f64_of_f32 mul) = B754_infinity s).
  { destruct Hm as [[s ->]| ->]; cbn [f64_of_f32]; [rewrite (el_ln_zero _ HL)|rewrite (el_ln_inf _ HL)]; eauto. }
  destruct Hl as [s ->]. destruct (usize_shape n Hn H64) as (mm & e & Hb & E).
  destruct (usize_finite n H64) as [F Ev].
  assert (H1 : 1 <= B2R (f64_of_usize n)).
  { rewrite Ev. replace 1 with (rnd 1) by (apply (rnd_int 1); lia). apply rnd_le64. replace 1 with (INR 1) by reflexivity. now apply le_INR. }
  pose proof (el_ln_num _ HL _ F H1) as Hf. destruct (ln64 L (f64_of_usize n)) as [s'|s'| |s' m' e' Hb']; try discriminate; cbn; eauto.
Qed.

Lemma edge_first L mul n : edge_laws L -> (exists s, mul = B754_zero s) \/ mul = B754_infinity false ->
  (1 <= n)%nat -> (Z.of_nat n <= 2 ^ 53)%Z -> layer_size L mul n 0 = n.
Proof.
  intros HL Hm Hn H53. destruct (edge_exponent L mul n HL Hm Hn ltac:(lia)) as [s Es].
  unfold layer_size. rewrite Es, usize_0.
  replace (f64_sub (B754_zero s) (B754_zero false)) with (B754_zero s : f64) by (destruct s; reflexivity).
  rewrite (el_pow_0 _ HL). destruct (usize_finite n) as [F E]; [lia|].
  rewrite INR_IZR_INZ, rnd_int in E by lia.
  destruct (div_X 53 1024 (f64_of_usize n) Bone) as [D1 D2]; auto.
  { rewrite Bone_correct. intro; lra. }
  unfold f64_div. rewrite (ceil_cast _ D1), D2, Bone_correct, E.
  unfold Rdiv. rewrite Rinv_1, Rmult_1_r, rnd_int by lia.
  pose proof pow53_big. assert (0 <= IZR (Z.of_nat n) <= IZR (2 ^ 53)) by (split; apply IZR_le; lia).
  rewrite sat_id by lra. rewrite Zceil_IZR. lia.
Qed.

(** later layers: empty for multiplier 0, full for infinity *)
Lemma usize_sign l : (1 <= l)%nat -> Bltb (f64_sub (B754_zero true) (f64_of_usize l)) (B754_zero false) = true /\ Bltb (f64_sub (B754_zero false) (f64_of_usize l)) (B754_zero false) = true.
Proof.
  intros Hl. destruct (usize_X l) as [H1 H2].
  assert (Hp : 1 <= B2X (f64_of_usize l)).
  { rewrite H2. assert (1 <= rnd (INR l)).
    { replace 1 with (rnd 1) by (apply (rnd_int 1); lia). apply rnd_le64. replace 1 with (INR 1) by reflexivity. now apply le_INR. }
    assert (1 < bpow radix2 1024) by (change 1 with (bpow radix2 0); apply bpow_lt; lia).
    unfold sat. destruct (Rlt_bool _ _); [lra|]. rewrite Rlt_bool_false by lra. lra. }
  destruct (f64_of_usize l) as [s| [] | |[] mm e Hb]; try discriminate; cbn [B2X B2R] in Hp; try lra; try (split; reflexivity).
  - pose proof (big_pos 1024). lra.
  - exfalso. assert (F2R (Float radix2 (cond_Zopp true (Z.pos mm)) e) < 0) by (apply F2R_lt_0; reflexivity). cbn [cond_Zopp] in *. lra.
Qed.
Lemma edge_diff L mul n l : edge_laws L -> (exists s, mul = B754_zero s) \/ mul = B754_infinity false ->
  (1 <= n)%nat -> (Z.of_nat n <= 2 ^ 64)%Z -> (1 <= l)%nat ->
  Bltb (f64_sub (layer_exponent L n (f64_of_f32 mul)) (f64_of_usize l)) (B754_zero false) = true.
Proof.
  intros HL Hm Hn H64 Hl. destruct (edge_exponent L mul n HL Hm Hn H64) as [s ->]. destruct s; now apply usize_sign.
Qed.
Lemma edge_zero L s n l : edge_laws L -> (1 <= n)%nat -> (Z.of_nat n <= 2 ^ 64)%Z -> (1 <= l)%nat ->
  layer_size L (B754_zero s) n l = 0%nat.
Proof.
  intros HL Hn H64 Hl. pose proof (edge_diff L (B754_zero s) n l HL ltac:(eauto) Hn H64 Hl) as Hd.
  unfold layer_size. cbn [f64_of_f32] in *.
  destruct (el_pow_zero _ HL s _ Hd) as [s' ->].
  destruct (usize_shape n Hn H64) as (m' & e' & H' & ->). destruct s'; cbn; lia.
Qed.
Lemma edge_inf L n l : edge_laws L -> (1 <= n)%nat -> (Z.of_nat n < 2 ^ 64)%Z -> (1 <= l)%nat ->
  layer_size L (B754_infinity false) n l = n.
Proof.
  intros HL Hn H64 Hl. pose proof (edge_diff L (B754_infinity false) n l HL ltac:(eauto) Hn ltac:(lia) Hl) as Hd.
  unfold layer_size. cbn [f64_of_f32] in *.
  rewrite (el_pow_inf _ HL _ Hd).
  destruct (usize_shape n Hn ltac:(lia)) as (m' & e' & H' & ->). cbn. lia.
Qed.
Lemma edge_first_pos L mul n : edge_laws L -> (exists s, mul = B754_zero s) \/ mul = B754_infinity false ->
  (1 <= n)%nat -> (Z.of_nat n <= 2 ^ 64)%Z -> (1 <= layer_size L mul n 0)%nat.
Proof.
  intros HL Hm Hn H64. destruct (edge_exponent L mul n HL Hm Hn H64) as [s Es].
  unfold layer_size. rewrite Es, usize_0.
  replace (f64_sub (B754_zero s) (B754_zero false)) with (B754_zero s : f64) by (destruct s; reflexivity).
  rewrite (el_pow_0 _ HL). destruct (usize_finite n) as [F E]; [lia|].
  destruct (div_X 53 1024 (f64_of_usize n) Bone) as [D1 D2]; auto.
  { rewrite Bone_correct. intro; lra. }
  unfold f64_div. rewrite (ceil_cast _ D1), D2, Bone_correct.
  unfold Rdiv. rewrite Rinv_1, Rmult_1_r.
  rewrite round_generic; [|apply valid_rnd_round_mode|apply generic_format_B2R].
  assert (H1 : 1 <= B2R (f64_of_usize n)).
  { rewrite E. replace 1 with (rnd 1) by (apply (rnd_int 1); lia). apply rnd_le64. replace 1 with (INR 1) by reflexivity. now apply le_INR. }
  rewrite sat_id.
  - assert (1 <= Zceil (B2R (f64_of_usize n)))%Z by (apply Zlt_le_succ with (n := 0%Z), lt_IZR; eapply Rlt_le_trans; [|apply Zceil_ub]; lra). lia.
  - pose proof (abs_B2R_lt_emax _ _ (f64_of_usize n)) as Hx. apply Rabs_def2 in Hx. lra.
Qed.
