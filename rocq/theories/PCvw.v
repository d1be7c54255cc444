(** * Proofs: histories of compressed slice vectors (C03) *)
From Verif Require Import Base BaseFacts Bytes PBytes MSliceVec SSliceVec PFixed PVar MOffsets SOffsets POffsets.
Set Implicit Arguments.

Section H.
  Context {T : Type}.
  Implicit Types (ls : list (list T)) (v : cvw T).

  Lemma next_ok_slice ls x : slice_accepted (length ls) x ->
    next_offset_ok (offsets_from 0 ls) (length (concat ls ++ x)).
  Proof.
    intros [H|H].
    - left. split.
      + destruct ls; discriminate.
      + rewrite offsets_from_length. now rewrite Nat.add_comm in H.
    - now apply next_ok_row.
  Qed.

  Lemma cvw_push_gen m ls v x : cvw_is ls v -> slice_accepted (length ls) x ->
    exists v', cvw_push m v x = Ok v' /\ cvw_is (ls ++ [x]) v'.
  Proof.
    intros [Ho Hd] Hx. unfold cvw_push. rewrite Hd.
    destruct (@offs_push_is m _ _ _ Ho (next_ok_slice _ Hx)) as (o' & E & Ho').
    rewrite E. cbn. eexists; split; [reflexivity|]. split.
    - cbn [coffs]. rewrite offsets_from_snoc. cbn [Nat.add]. rewrite app_length in Ho'. exact Ho'.
    - cbn [cdata]. rewrite concat_app. cbn. now rewrite app_nil_r.
  Qed.

  Lemma cvw_history m ls : forall pre v, cvw_is pre v ->
    (forall i x, nth_error ls i = Some x -> slice_accepted (length pre + i) x) ->
    exists v', ofold (cvw_push m) ls v = Ok v' /\ cvw_is (pre ++ ls) v'.
  Proof.
    induction ls as [|x t IH]; intros pre v Hv Hok.
    - exists v. rewrite app_nil_r. auto.
    - destruct (@cvw_push_gen m pre v x Hv) as (v1 & E1 & Hv1).
      { specialize (Hok 0 x eq_refl). now rewrite Nat.add_0_r in Hok. }
      destruct (IH (pre ++ [x]) v1 Hv1) as (v2 & E2 & Hv2).
      { intros i y Hi. specialize (Hok (S i) y Hi). rewrite app_length. cbn [length].
        now replace (length pre + 1 + i) with (length pre + S i) by lia. }
      exists v2. cbn [ofold]. rewrite E1. cbn [obind]. rewrite <- app_assoc in Hv2. auto.
  Qed.

  Lemma cvw_build_ok m ls :
    (forall i x, nth_error ls i = Some x -> slice_accepted i x) ->
    exists v, cvw_build m ls = Ok v /\ cvw_is ls v.
  Proof.
    intros H. unfold cvw_build. destruct (@cvw_is_new T m) as (v0 & E0 & H0). rewrite E0. cbn [obind].
    destruct (@cvw_history m ls [] v0 H0) as (v & E & Hv); auto. eauto.
  Qed.

  Lemma cvw_is_observes m ls v : cvw_is ls v -> cvw_observes m ls v.
  Proof. intros H. split; [apply (cvw_len_is H)|]. intros i x Hi. eapply cvw_get_is; eauto. Qed.

  Lemma cvw_faithful m ls :
    (forall i x, nth_error ls i = Some x -> slice_accepted i x) ->
    exists v, cvw_build m ls = Ok v /\ cvw_observes m ls v.
  Proof. intros H. destruct (cvw_build_ok m ls H) as (v & E & Hv). exists v. split; auto. now apply cvw_is_observes. Qed.

  Lemma cvw_build_snoc m ls x v : cvw_build m ls = Ok v -> cvw_build m (ls ++ [x]) = cvw_push m v x.
  Proof.
    unfold cvw_build. destruct (cvw_new m) as [v0|]; [|discriminate]. cbn [obind].
    intros E. rewrite ofold_app, E. cbn [obind ofold]. now destruct (cvw_push m v x).
  Qed.

  Lemma cvw_jump_refused m ls x :
    (forall i y, nth_error ls i = Some y -> slice_accepted i y) ->
    (length ls + 1) mod 60 <> 0 -> (65535 < N.of_nat (length x))%N ->
    cvw_build m (ls ++ [x]) = Fail Panicked.
  Proof.
    intros H Hm Hx. destruct (cvw_build_ok m ls H) as (v & E & Ho & Hd).
    rewrite (cvw_build_snoc m ls x E). unfold cvw_push. rewrite Hd.
    rewrite (@offs_push_refused m (coffs v) (offsets_from 0 ls) (length (concat ls ++ x)) Ho); auto.
    - right. rewrite offsets_from_length. now rewrite Nat.add_comm in Hm.
    - right. rewrite (offsets_from_last 0 ls), last_last, app_length. cbn [Nat.add].
      replace (length (concat ls) + length x - length (concat ls)) with (length x) by lia. auto.
  Qed.

  (** a slice of exactly 65535 elements inside a block is lost *)
  Lemma cvw_sentinel_lost m ls x :
    (forall i y, nth_error ls i = Some y -> slice_accepted i y) ->
    (length ls + 1) mod 60 <> 0 -> N.of_nat (length x) = 65535%N ->
    exists v, cvw_build m (ls ++ [x]) = Ok v /\ cvw_len v = Ok (length ls).
  Proof.
    intros H Hm Hx. destruct (cvw_build_ok m ls H) as (v & E & Ho & Hd).
    rewrite (cvw_build_snoc m ls x E). unfold cvw_push. rewrite Hd.
    rewrite (@offs_push_sentinel m (coffs v) (offsets_from 0 ls) (length (concat ls ++ x)) Ho); auto.
    - cbn [obind]. eexists; split; [reflexivity|]. unfold cvw_len. cbn [coffs].
      rewrite (offs_is_len Ho), offsets_from_length. cbn. f_equal. lia.
    - right. rewrite offsets_from_length. now rewrite Nat.add_comm in Hm.
    - rewrite (offsets_from_last 0 ls), last_last, app_length. cbn [Nat.add]. f_equal.
      rewrite <- Hx. now rewrite Nat2N.id.
  Qed.

  Lemma cvw_bytes_ok (R : repr T) valid (HR : repr_ok R valid) m ls v :
    (forall i y, nth_error ls i = Some y -> slice_accepted i y) ->
    Forall valid (concat ls) -> (N.of_nat (length ls + length (concat ls)) < 2 ^ 50)%N ->
    cvw_build m ls = Ok v ->
    exists v', cvw_from_bytes R (fst (cvw_write R v)) = Ok v' /\ cvw_observes m ls v' /\ v' = v /\
       snd (cvw_write R v) = length (fst (cvw_write R v)).
  Proof.
    intros H Hval Hfit E. destruct (cvw_build_ok m ls H) as (v' & E' & Hv). rewrite E in E'. inversion E'; subst v'.
    pose proof (@cvw_round_trip T R valid HR ls v [] Hv Hval) as RT. rewrite app_nil_r in RT.
    change (2 ^ 50)%N with 1125899906842624%N in Hfit.
    destruct RT as [R1 R2].
    - unfold fits64. change (2 ^ 64)%N with 18446744073709551616%N. lia.
    - destruct Hv as [Ho Hd]. rewrite (offs_is_bytes Ho), offsets_from_length.
      unfold fits64. change CHUNK_SIZE with 128. change (2 ^ 64)%N with 18446744073709551616%N.
      assert ((S (length ls) - 1) / 60 <= length ls) by (apply Nat.div_le_upper_bound; lia). lia.
    - cbn. destruct HR; auto.
    - exists v. split; auto. split; auto. now apply cvw_is_observes.
  Qed.
End H.

Lemma table_faithful m os : offset_seq os ->
  exists o, ofold (offs_push m) os offs_new = Ok o /\ offs_len o = Ok (length os) /\
    (forall i, i < length os -> offs_get m o i = Ok (nth i os 0)) /\
    (forall i, i + 1 < length os -> offs_get_consecutive m o i = Ok (nth i os 0, nth (i + 1) os 0)) /\
    offs_last m o = Ok (match os with [] => None | _ => Some (last os 0) end).
Proof.
  intros H. destruct (offs_history m H) as (o & E & Ho). exists o. split; auto.
  split; [apply (offs_is_len Ho)|]. split; [|split].
  - intros. now apply offs_get_is.
  - intros. now apply offs_get_consecutive_is.
  - now apply offs_last_is.
Qed.

Lemma table_refused m os x : offset_seq os -> (os = [] \/ length os mod 60 <> 0) ->
  (x < last os 0 \/ (65535 < N.of_nat (x - last os 0%nat))%N) ->
  ofold (offs_push m) (os ++ [x]) offs_new = Fail Panicked.
Proof.
  intros H Hb Hx. destruct (offs_history m H) as (o & E & Ho).
  rewrite ofold_app, E. cbn [obind ofold]. rewrite (offs_push_refused m Ho); auto.
Qed.

(** at a block boundary a decreasing offset is accepted *)
Lemma table_boundary_unchecked m os x : offset_seq os -> os <> [] -> length os mod 60 = 0 -> x < last os 0 ->
  exists o, ofold (offs_push m) (os ++ [x]) offs_new = Ok o /\ offs_get m o (length os) = Ok x.
Proof.
  intros H Hne Hm Hx. destruct (@table_faithful m (os ++ [x])) as (o & E & _ & Hg & _).
  - constructor; auto. left. auto.
  - exists o. split; auto. rewrite Hg by (rewrite app_length; cbn; lia). f_equal.
    rewrite app_nth2, Nat.sub_diag by lia. reflexivity.
Qed.
