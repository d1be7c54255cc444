(** * Proofs: layer sizes over the real numbers *)
From Coq Require Import ZArith Reals Lra Lia.
From Flocq Require Import Core.
From Verif Require Import Base MFloat MLayerSize.
Open Scope R_scope.

Section RealSize.
  Variables (m : R) (n : nat).
  Hypothesis Hm : 1 < m.
  Hypothesis Hn : (1 <= n)%nat.
  Local Notation K := (layer_exponent_R m n).
  Local Notation Q l := (INR n / Rpower m (IZR K - INR l)).
  Local Notation size := (layer_size_R m n).

  Lemma ln_m_pos : 0 < ln m.
  Proof. rewrite <- ln_1. apply ln_increasing; lra. Qed.
  Lemma INR_n : 1 <= INR n.
  Proof. replace 1 with (INR 1) by reflexivity. now apply le_INR. Qed.
  Lemma ln_n_nonneg : 0 <= ln (INR n).
  Proof.
    pose proof INR_n as H. destruct (Req_dec (INR n) 1) as [->|Hne]; [rewrite ln_1; lra|].
    left. rewrite <- ln_1. apply ln_increasing; lra.
  Qed.
  Lemma pw_pos x : 0 < Rpower m x.
  Proof. unfold Rpower. apply exp_pos. Qed.
  Lemma pw_le x y : x <= y -> Rpower m x <= Rpower m y.
  Proof. intros. apply Rle_Rpower; lra. Qed.
  Lemma pw_lt x y : x < y -> Rpower m x < Rpower m y.
  Proof. intros. apply Rpower_lt; lra. Qed.

  Lemma log_pw : Rpower m (ln (INR n) / ln m) = INR n.
  Proof.
    unfold Rpower. replace (ln (INR n) / ln m * ln m) with (ln (INR n)) by (field; pose proof ln_m_pos; lra).
    apply exp_ln. pose proof INR_n. lra.
  Qed.

  Lemma K_nonneg : (0 <= K)%Z.
  Proof.
    unfold layer_exponent_R. apply Zfloor_lub. apply Rmult_le_pos; [apply ln_n_nonneg|].
    left. apply Rinv_0_lt_compat, ln_m_pos.
  Qed.

  Lemma Q_pos l : 0 < Q l.
  Proof. apply Rmult_lt_0_compat; [pose proof INR_n; lra|]. apply Rinv_0_lt_compat, pw_pos. Qed.

  Lemma Q_step l : Q (S l) = m * Q l.
  Proof.
    rewrite S_INR. replace (IZR K - INR l) with ((IZR K - (INR l + 1)) + 1) by ring.
    rewrite Rpower_plus, Rpower_1 by lra. pose proof (pw_pos (IZR K - (INR l + 1))). field. split; lra.
  Qed.

  Lemma Q_0 : 1 <= Q 0 < m.
  Proof.
    cbn [INR]. rewrite Rminus_0_r. pose proof (pw_pos (IZR K)) as Hp.
    assert (HK : Rpower m (IZR K) <= INR n).
    { rewrite <- log_pw. apply pw_le. apply Zfloor_lb. }
    assert (HK1 : INR n < Rpower m (IZR K + 1)).
    { rewrite <- log_pw at 1. apply pw_lt. apply Zfloor_ub. }
    rewrite Rpower_plus, Rpower_1 in HK1 by lra. split.
    - apply Rmult_le_reg_r with (Rpower m (IZR K)); auto. unfold Rdiv. rewrite Rmult_assoc, Rinv_l by lra. lra.
    - apply Rmult_lt_reg_r with (Rpower m (IZR K)); auto. unfold Rdiv. rewrite Rmult_assoc, Rinv_l by lra. lra.
  Qed.

  Lemma Q_mono l : Q l <= Q (S l).
  Proof. rewrite Q_step. pose proof (Q_pos l). nra. Qed.

  Lemma Q_top l : (K <= Z.of_nat l)%Z -> INR n <= Q l.
  Proof.
    intros H. assert (Hp : Rpower m (IZR K - INR l) <= 1).
    { rewrite <- (Rpower_O m) by lra. apply pw_le. rewrite INR_IZR_INZ. apply IZR_le in H. lra. }
    pose proof (pw_pos (IZR K - INR l)) as H0. pose proof INR_n.
    apply Rmult_le_reg_r with (Rpower m (IZR K - INR l)); auto. unfold Rdiv. rewrite Rmult_assoc, Rinv_l by lra. nra.
  Qed.

  Lemma Zceil_le' a b : a <= b -> (Zceil a <= Zceil b)%Z.
  Proof. intros. apply Zceil_glb. eapply Rle_trans; [eassumption|apply Zceil_ub]. Qed.

  Lemma size_pos l : (1 <= size l <= Z.of_nat n)%Z.
  Proof.
    unfold layer_size_R. assert (1 <= Zceil (Q l))%Z; [|lia].
    apply Zlt_le_succ with (n := 0%Z). apply lt_IZR. eapply Rlt_le_trans; [apply Q_pos|apply Zceil_ub].
  Qed.
  Lemma size_mono l : (size l <= size (S l))%Z.
  Proof. unfold layer_size_R. pose proof (Zceil_le' _ _ (Q_mono l)). lia. Qed.
  Lemma size_top l : (K <= Z.of_nat l)%Z -> size l = Z.of_nat n.
  Proof.
    intros H. unfold layer_size_R. assert (Z.of_nat n <= Zceil (Q l))%Z; [|lia].
    apply le_IZR. rewrite <- INR_IZR_INZ. eapply Rle_trans; [apply Q_top; eauto|apply Zceil_ub].
  Qed.
  Lemma size_first : IZR (size 0) < m + 1.
  Proof.
    unfold layer_size_R. apply Rle_lt_trans with (IZR (Zceil (Q 0))); [apply IZR_le; lia|].
    pose proof (Zceil_lb (Q 0)). pose proof Q_0. lra.
  Qed.
  Lemma size_growth l : IZR (size (S l)) < m * IZR (size l) + 1 /\
    (size (S l) = Z.of_nat n \/ m * (IZR (size l) - 1) < IZR (size (S l))).
  Proof.
    unfold layer_size_R. set (a := Zceil (Q l)). set (b := Zceil (Q (S l))).
    pose proof (Zceil_ub (Q l)) as A1. pose proof (Zceil_lb (Q l)) as A2.
    pose proof (Zceil_ub (Q (S l))) as B1. pose proof (Zceil_lb (Q (S l))) as B2. fold a in A1, A2. fold b in B1, B2.
    pose proof (Q_step l) as Hs. pose proof INR_n as Hn1. pose proof (Q_mono l) as Hmo. pose proof (Zceil_le' _ _ Hmo) as Hab. fold a b in Hab.
    pose proof (INR_IZR_INZ n) as En.
    split.
    - destruct (Z.le_gt_cases a (Z.of_nat n)) as [Ha|Ha].
      + rewrite (Z.min_l a) by lia. apply Rle_lt_trans with (IZR b); [apply IZR_le; lia|]. nra.
      + rewrite (Z.min_r a) by lia. rewrite (Z.min_r b) by lia. rewrite <- En. nra.
    - destruct (Z.le_gt_cases b (Z.of_nat n)) as [Hb|Hb].
      + right. rewrite (Z.min_l b) by lia. rewrite (Z.min_l a) by lia. nra.
      + left. lia.
  Qed.
End RealSize.

(** multipliers below 1 *)
Section RealSmall.
  Variables (m : R) (n : nat).
  Hypothesis Hm : 0 < m < 1.
  Hypothesis Hn : (1 <= n)%nat.
  Lemma size_small l : layer_size_R m n l = 1%Z.
  Proof.
    assert (Hn1 : 1 <= INR n) by (replace 1 with (INR 1) by reflexivity; now apply le_INR).
    assert (Hlm : ln m < 0) by (rewrite <- ln_1; apply ln_increasing; lra).
    set (K := layer_exponent_R m n).
    assert (Hp : INR n <= Rpower m (IZR K - INR l)).
    { assert (E : INR n = Rpower m (ln (INR n) / ln m)).
      { unfold Rpower. replace (ln (INR n) / ln m * ln m) with (ln (INR n)) by (field; lra). symmetry. apply exp_ln. lra. }
      rewrite E at 1. unfold Rpower.
      assert (Hle : IZR K - INR l <= ln (INR n) / ln m).
      { pose proof (Zfloor_lb (ln (INR n) / ln m)). pose proof (pos_INR l). unfold K, layer_exponent_R. lra. }
      assert (H2 : ln (INR n) / ln m * ln m <= (IZR K - INR l) * ln m) by nra.
      destruct H2 as [H2|H2]; [left; now apply exp_increasing|right; now rewrite H2]. }
    unfold layer_size_R. fold K. assert (Hc : Zceil (INR n / Rpower m (IZR K - INR l)) = 1%Z).
    { apply Zceil_imp. replace (IZR (1 - 1)) with 0 by reflexivity. split.
      - apply Rmult_lt_0_compat; [lra|]. apply Rinv_0_lt_compat. lra.
      - apply Rmult_le_reg_r with (Rpower m (IZR K - INR l)); [lra|]. unfold Rdiv. rewrite Rmult_assoc, Rinv_l by lra. lra. }
    rewrite Hc. lia.
  Qed.
End RealSmall.
