(** * Proofs: histories of compressed layers, their bytes, and the conversion
    from fixed-width layers *)
From Verif Require Import Base BaseFacts Bytes PBytes MSliceVec SSliceVec PFixed PVar PCursor MOffsets SOffsets POffsets MSetVec PSetVec.
Set Implicit Arguments.

Lemma msv_history_ok m ls : Forall (push_ok m) ls -> forall rows v, msv_is m rows v ->
  exists v', ofold (msv_push m) ls v = Ok v' /\ msv_is m (rows ++ map (stored m) ls) v'.
Proof.
  induction 1 as [|l ls Hl Hls IH]; intros rows v Hv.
  - exists v. cbn. rewrite app_nil_r. auto.
  - destruct (msv_push_is Hv Hl) as (v1 & E1 & Hv1). destruct (IH _ _ Hv1) as (v2 & E2 & Hv2).
    exists v2. cbn [ofold]. rewrite E1. cbn [obind map]. rewrite <- app_assoc in Hv2. auto.
Qed.

Lemma msv_build_ok m ls : Forall (push_ok m) ls ->
  exists v, msv_build m ls = Ok v /\ msv_is m (map (stored m) ls) v.
Proof.
  intros H. unfold msv_build. destruct (msv_is_new m) as (v0 & E0 & H0). rewrite E0. cbn [obind].
  destruct (msv_history_ok H H0) as (v & E & Hv). eauto.
Qed.

Lemma msv_is_fits m rows v : msv_is m rows v -> layer_fits (length rows) ->
  fits64 (length (cdata v)) /\ fits64 (offs_num_bytes (coffs v)).
Proof.
  intros (es & [Ho Hd] & HF) Hl. pose proof (msv_is_total _ HF) as Ht. unfold layer_fits, fits64 in *.
  split.
  - rewrite Hd. change (2 ^ 50)%N with 1125899906842624%N in Hl. change (2 ^ 64)%N with 18446744073709551616%N. lia.
  - rewrite (offs_is_bytes Ho), offsets_from_length, <- (Forall2_length HF).
    change CHUNK_SIZE with 128. change (2 ^ 50)%N with 1125899906842624%N in Hl. change (2 ^ 64)%N with 18446744073709551616%N.
    assert ((S (length rows) - 1) / 60 <= length rows) by (apply Nat.div_le_upper_bound; lia). lia.
Qed.

Lemma msv_round_trip m rows v : msv_is m rows v -> layer_fits (length rows) ->
  msv_from_bytes (fst (msv_write v)) = Ok v /\ snd (msv_write v) = length (fst (msv_write v)).
Proof.
  intros Hv Hl. destruct (msv_is_fits Hv Hl) as [H1 H2]. destruct Hv as (es & Hc & HF).
  pose proof (@cvw_round_trip N u8r (uint_valid 1) u8r_ok es v [] Hc) as H.
  rewrite app_nil_r in H. apply H; auto.
  - eapply msv_is_bytes_valid; eauto.
  - destruct Hc as [_ <-]. auto.
Qed.

(** ** Conversion from a fixed-width layer *)
Section Conv.
  Context (m : mode) (w : nat) (Hw : 0 < w) (rows : list (list N)) (v : fw N) (Hv : fw_is w rows v)
          (keep : N -> bool) (Hok : Forall (fun r => push_ok m (filter keep r)) rows).

  Let W (e : list N) := write_as_bytes u8r e.
  Lemma W_len e : length (W e) = length e.
  Proof. unfold W. rewrite (write_as_bytes_length u8r_ok). cbn. lia. Qed.
  Lemma W_app a b : W (a ++ b) = W a ++ W b.
  Proof. apply write_as_bytes_app. Qed.

  Lemma conv_loop (b vbase p0 : nat) (h : list N) (c00 : cursor) rs : Forall (fun r => push_ok m (filter keep r)) rs ->
    forall es c mv,
      cvw_is es mv -> holds c vbase (W (concat es)) -> cpos c = vbase + length (concat es) ->
      b <= vbase -> b <= length (cbuf c) -> frame b (vbase + length (concat es)) c00 c ->
      holds c p0 h -> p0 + length h <= vbase ->
      exists es' c' mv',
        ofold (fun (s : cursor * nat * offsets) row =>
               let '(c, total_len, offs) := s in
               let* e := set_encode m (sort_u32 (filter keep row)) in
               let c := cwrite c (write_as_bytes u8r e) in
               let total_len := total_len + length e in
               let* offs := offs_push m offs total_len in
               Ok (c, total_len, offs)) rs (c, length (concat es), coffs mv)
        = Ok (c', length (concat (es ++ es')), coffs mv') /\
        ofold (msv_push m) (map (filter keep) rs) mv = Ok mv' /\
        length es' = length rs /\
        cvw_is (es ++ es') mv' /\ holds c' vbase (W (concat (es ++ es'))) /\
        cpos c' = vbase + length (concat (es ++ es')) /\
        b <= length (cbuf c') /\
        frame b (vbase + length (concat (es ++ es'))) c00 c' /\ holds c' p0 h.
  Proof.
    induction 1 as [|r rs Hr Hrs IH]; intros es c mv Hmv Hh Hp Hb Hlen Hf Hh0 Hp0.
    - exists [], c, mv. rewrite app_nil_r. cbn. intuition.
    - destruct (push_encode Hr) as (e & E & D & Hl & Hl1 & Hbk).
      cbn [ofold map]. rewrite E. cbn [obind].
      destruct (@cvw_push_is N m es mv e Hmv) as (mv1 & Emv & Hmv1); [lia|].
      assert (Epush : msv_push m mv (filter keep r) = Ok mv1) by (unfold msv_push; rewrite E; exact Emv).
      rewrite Epush. unfold cvw_push in Emv. destruct Hmv as [Ho Hd]. rewrite Hd, app_length in Emv.
      destruct (offs_push m (coffs mv) (length (concat es) + length e)) as [o1|] eqn:Eo; [|discriminate].
      cbn [obind] in Emv. inversion Emv as [Emv1]. clear Emv. cbn [obind].
      assert (Ec : concat (es ++ [e]) = concat es ++ e) by (rewrite concat_app; cbn; now rewrite app_nil_r).
      destruct (IH (es ++ [e]) (cwrite c (write_as_bytes u8r e)) mv1) as
        (es' & c' & mv' & E' & Ep' & HL' & Hmv' & Hh' & Hp' & Hlen' & Hf' & Hh0'); auto.
      + rewrite Ec, W_app. apply holds_app. split.
        * apply holds_frame; auto. right. rewrite W_len. lia.
        * rewrite W_len, <- Hp. apply holds_written.
      + rewrite cwrite_pos. fold (W e). rewrite W_len, Ec, app_length. lia.
      + pose proof (cwrite_mono c (write_as_bytes u8r e)). lia.
      + eapply frame_trans.
        * eapply frame_weaken; [exact Hf|lia|]. rewrite Ec, app_length. lia.
        * apply frame_write; auto; try lia. fold (W e). rewrite W_len, Ec, app_length. lia.
      + apply holds_frame; auto. right. lia.
      + rewrite <- Emv1 in E'. cbn [coffs] in E'. rewrite Ec, app_length in E'.
        exists (e :: es'), c', mv'.
        assert (Ees : (es ++ [e]) ++ es' = es ++ e :: es') by now rewrite <- app_assoc.
        rewrite Ees in *. cbn [length].
        split; [exact E'|]. split; [rewrite Emv1; exact Ep'|]. split; [lia|]. intuition.
  Qed.

  Lemma conv_ok c0 :
    layer_fits (length rows) ->
    exists mv c1, msv_build m (map (filter keep) rows) = Ok mv /\
      msv_write_from_fixed m v keep c0 = Ok (c1, length (fst (msv_write mv))) /\
      cbuf c1 = cbuf (cwrite c0 (fst (msv_write mv))) /\
      cpos c1 = cpos c0 + length (fst (msv_write mv)).
  Proof.
    intros Hfit. unfold msv_write_from_fixed. cbv zeta.
    assert (HLr : fw_len v = length rows) by (apply (fw_is_len Hw Hv)). rewrite HLr.
    set (bfo := (1 + length rows / OFFSETS_PER_CHUNK) * CHUNK_SIZE).
    set (hdr := le_enc 8 (N.of_nat bfo)).
    destruct (@cvw_is_new N m) as (mv0 & E0 & Hmv0).
    assert (Eoffs : offs_push m offs_new 0 = Ok (coffs mv0)).
    { unfold cvw_new in E0. destruct (offs_push m offs_new 0); [|discriminate]. cbn in E0. inversion E0. reflexivity. }
    rewrite Eoffs. cbn [obind].
    set (c1 := cwrite c0 hdr). assert (Hp1 : cpos c1 = cpos c0 + 8).
    { unfold c1. rewrite cwrite_pos. unfold hdr. now rewrite le_enc_length. }
    set (vbase := cpos c1 + bfo). set (c2 := cseek c1 vbase).
    assert (Hhdr : length hdr = 8) by apply le_enc_length.
    assert (Hlen1 : cpos c0 + 8 <= length (cbuf c1)).
    { unfold c1. rewrite cwrite_length. clearbody hdr. destruct hdr; [discriminate|]. rewrite Hhdr. lia. }
    destruct (@conv_loop (cpos c0) vbase (cpos c0) hdr c1 rows Hok [] c2 mv0) as
        (es & c3 & mv & E & Ep & HL & Hmv & Hh & Hp & Hlen & Hf & Hh0).
    { exact Hmv0. }
    { apply holds_nil. }
    { unfold c2; cbn [cseek cbuf cpos concat length]; lia. }
    { unfold vbase. lia. }
    { unfold c2; cbn [cseek cbuf cpos concat length]; lia. }
    { apply frame_seek. apply frame_refl. }
    { apply holds_seek. apply holds_written. }
    { unfold vbase. lia. }
    cbn [app concat length] in *.
    assert (Hloop : (if fw_is_empty v then Ok (c2, 0, coffs mv0)
       else let* rows0 := fw_iter v in
          ofold (fun (s : cursor * nat * offsets) row =>
               let '(c, total_len, offs) := s in
               let* e := set_encode m (sort_u32 (filter keep row)) in
               let c := cwrite c (write_as_bytes u8r e) in
               let total_len := total_len + length e in
               let* offs := offs_push m offs total_len in
               Ok (c, total_len, offs)) rows0 (c2, 0, coffs mv0)) = Ok (c3, length (concat es), coffs mv)).
    { unfold fw_is_empty. rewrite HLr. destruct rows as [|r rs] eqn:Er.
      - cbn [length Nat.eqb]. cbn in E. exact E.
      - rewrite <- Er in *. rewrite (fw_is_iter Hw Hv). cbn [obind].
        destruct (Nat.eqb_spec (length rows) 0) as [Ez|Ez]; [rewrite Er in Ez; discriminate|]. exact E. }
    cbv zeta in Hloop. rewrite Hloop. cbn [obind].
    assert (Hbuild : msv_build m (map (filter keep) rows) = Ok mv).
    { unfold msv_build, msv_new. rewrite E0. exact Ep. }
    assert (Hmsv : msv_is m (map (stored m) (map (filter keep) rows)) mv).
    { destruct (@msv_build_ok m (map (filter keep) rows)) as (mv' & E' & H'); [now rewrite Forall_map|].
      rewrite Hbuild in E'. inversion E'; subst. auto. }
    destruct Hmv as [Ho Hd].
    assert (Hbytes : offs_num_bytes (coffs mv) = bfo).
    { rewrite (offs_is_bytes Ho), offsets_from_length, HL.
      unfold bfo. change OFFSETS_PER_CHUNK with 60. f_equal. f_equal. f_equal. lia. }
    assert (Hwc : write_as_bytes_count chunk_repr (coffs mv) = bfo) by (rewrite <- Hbytes; reflexivity).
    rewrite Hwc, Nat.eqb_refl. cbn [oassert obind].
    assert (Hcv : Forall chunk_valid (coffs mv)).
    { apply (offs_is_valid Ho). apply Forall_forall. intros x Hx. apply offsets_from_le in Hx.
      destruct (msv_is_fits Hmsv) as [H64 _]; [now rewrite !map_length|]. rewrite Hd in H64.
      unfold fits64 in *. lia. }
    set (tab := write_as_bytes chunk_repr (coffs mv)).
    assert (Htab : length tab = bfo) by (unfold tab; rewrite (chunks_bytes_length Hcv); exact Hbytes).
    assert (Ebs : fst (msv_write mv) = hdr ++ tab ++ W (concat es)).
    { unfold msv_write, cvw_write. cbn [fst]. rewrite Hd, Hbytes. reflexivity. }
    assert (Lbs : length (fst (msv_write mv)) = 8 + bfo + length (concat es)).
    { rewrite Ebs, !app_length, W_len, Htab, Hhdr. lia. }
    set (c4 := cseek c3 (cpos c1)). set (c5 := cwrite c4 tab).
    assert (Hp4 : cpos c4 = cpos c1) by reflexivity.
    exists mv, (cseek c5 (cpos c3)). split; [exact Hbuild|]. split; [|split].
    - f_equal. f_equal. rewrite Lbs, Hp. unfold vbase. lia.
    - cbn [cseek cbuf]. rewrite (@piecewise_is_cwrite c0 hdr (fst (msv_write mv)) c5); auto.
      + lia.
      + exists (tab ++ W (concat es)). exact Ebs.
      + fold c1. rewrite Lbs. apply (@frame_trans _ _ c1 c4 c5).
        * apply frame_seek. eapply frame_weaken; [exact Hf|lia|]. unfold vbase. lia.
        * apply frame_write; unfold c4; cbn [cseek cbuf cpos]; lia.
      + rewrite Ebs. apply holds_app. split; [|rewrite Hhdr; apply holds_app; split].
        * unfold c5. apply holds_frame; [|right; rewrite Hp4; lia].
          apply holds_seek. exact Hh0.
        * replace (cpos c0 + 8) with (cpos c4) by lia. apply holds_written.
        * unfold c5. apply holds_frame; [|left; rewrite Hp4, Htab; lia].
          apply holds_seek. replace (cpos c0 + 8 + length tab) with vbase by (unfold vbase; lia). exact Hh.
    - cbn [cseek cpos]. rewrite Lbs, Hp. unfold vbase. lia.
  Qed.
End Conv.

(** ** Statements for the property theorems *)
Lemma push_ok_254 m l : Forall is_u32 l -> length l <= 254 -> push_ok m l.
Proof. intros. split; auto. destruct m; auto; lia. Qed.

Lemma sort_sorted_version l : sorted_version l (sort_u32 l).
Proof. split; [apply sort_u32_perm|apply sort_u32_sorted]. Qed.

Lemma msv_is_observes m ls v :
  msv_is m (map sort_u32 ls) v -> msv_observes m ls v.
Proof.
  intros H. split.
  - rewrite (msv_len_is H). now rewrite map_length.
  - intros i l Hi. exists (sort_u32 l). split; [|apply sort_sorted_version].
    apply (msv_get_is i H). now rewrite nth_error_map, Hi.
Qed.

Lemma map_stored_short m ls : Forall (fun l => length l <= 255) ls -> map (stored m) ls = map sort_u32 ls.
Proof. induction 1; cbn [map]; auto. rewrite stored_short by auto. now f_equal. Qed.

Lemma short_lists_ok m ls : Forall (fun l => Forall is_u32 l /\ length l <= 254) ls ->
  exists v, msv_build m ls = Ok v /\ msv_is m (map sort_u32 ls) v.
Proof.
  intros H. destruct (@msv_build_ok m ls) as (v & E & Hv).
  - eapply Forall_impl; [|exact H]. intros l [H1 H2]. now apply push_ok_254.
  - exists v. split; auto. rewrite map_stored_short in Hv; auto.
    eapply Forall_impl; [|exact H]. cbn. intros l [_ H2]. lia.
Qed.

Lemma lists_round_trip m ls : Forall (fun l => Forall is_u32 l /\ length l <= 254) ls ->
  exists v, msv_build m ls = Ok v /\ msv_observes m ls v.
Proof.
  intros H. destruct (short_lists_ok m H) as (v & E & Hv). exists v. split; auto. now apply msv_is_observes.
Qed.

Lemma lists_255_release ls : Forall (fun l => Forall is_u32 l /\ length l <= 255) ls ->
  exists v, msv_build Release ls = Ok v /\ msv_observes Release ls v.
Proof.
  intros H. destruct (@msv_build_ok Release ls) as (v & E & Hv).
  - eapply Forall_impl; [|exact H]. intros l [H1 H2]. split; auto.
  - exists v. split; auto. apply msv_is_observes. rewrite map_stored_short in Hv; auto.
    eapply Forall_impl; [|exact H]. cbn. intros l [_ H2]. lia.
Qed.

Lemma long_debug_refused ls l :
  Forall (fun l => Forall is_u32 l /\ length l <= 254) ls -> 255 <= length l ->
  msv_build Debug (ls ++ [l]) = Fail Panicked.
Proof.
  intros H Hl. destruct (short_lists_ok Debug H) as (v & E & Hv).
  unfold msv_build in *. destruct (msv_new Debug) as [v0|]; [|discriminate]. cbn [obind] in *.
  rewrite ofold_app, E. cbn [obind ofold]. unfold msv_push.
  rewrite set_encode_long_debug by (now rewrite sort_u32_length). reflexivity.
Qed.

Lemma long_release_truncated ls l :
  Forall (fun l => Forall is_u32 l) ls -> Forall is_u32 l -> 256 <= length l ->
  exists v r dropped, msv_build Release (ls ++ [l]) = Ok v /\ msv_get Release v (length ls) = Ok r /\
    sorted_version l (r ++ dropped) /\ length r = 255 /\ dropped <> [].
Proof.
  intros H Hu Hl. destruct (@msv_build_ok Release (ls ++ [l])) as (v & E & Hv).
  - apply Forall_app. split; [|constructor; auto].
    + eapply Forall_impl; [|exact H]. intros a Ha. split; auto.
    + split; auto.
  - exists v, (firstn 255 (sort_u32 l)), (skipn 255 (sort_u32 l)). split; auto. split; [|split; [|split]].
    + apply (msv_get_is (length ls) Hv). rewrite map_app, nth_error_app2; rewrite map_length; [|lia].
      rewrite Nat.sub_diag. reflexivity.
    + rewrite firstn_skipn. apply sort_sorted_version.
    + rewrite firstn_length, sort_u32_length. lia.
    + intros Hn. assert (Hs : length (skipn 255 (sort_u32 l)) = 0) by now rewrite Hn.
      rewrite skipn_length, sort_u32_length in Hs. lia.
Qed.

Lemma layer_bytes_round_trip m ls v :
  Forall (fun l => Forall is_u32 l /\ length l <= 254) ls -> layer_fits (length ls) ->
  msv_build m ls = Ok v ->
  exists v', msv_from_bytes (fst (msv_write v)) = Ok v' /\ msv_observes m ls v' /\ v' = v /\
             snd (msv_write v) = length (fst (msv_write v)).
Proof.
  intros H Hl E. destruct (short_lists_ok m H) as (v' & E' & Hv). rewrite E in E'. inversion E'; subst v'.
  destruct (msv_round_trip Hv) as [R1 R2]; [now rewrite map_length|].
  exists v. split; auto. split; [now apply msv_is_observes|]. auto.
Qed.

Lemma filter_len {A} (p : A -> bool) l : length (filter p l) <= length l.
Proof. induction l as [|x t IH]; cbn [filter length]; auto. destruct (p x); cbn [length]; lia. Qed.

Lemma conversion_ok m w rows v keep c0 :
  0 < w -> w <= 254 -> fw_is w rows v -> Forall (Forall is_u32) rows -> layer_fits (length rows) ->
  exists c1 bs mv,
    msv_write_from_fixed m v keep c0 = Ok (c1, length bs) /\
    cbuf c1 = cbuf (cwrite c0 bs) /\ cpos c1 = cpos c0 + length bs /\
    msv_from_bytes (firstn (length bs) (skipn (cpos c0) (cbuf c1))) = Ok mv /\
    msv_observes m (map (filter keep) rows) mv.
Proof.
  intros Hw Hw2 Hv Hu Hfit.
  assert (Hf : Forall (fun l => Forall is_u32 l /\ length l <= 254) (map (filter keep) rows)).
  { rewrite Forall_map. destruct Hv as (_ & _ & Hlen). rewrite Forall_forall in *. intros r Hr. split.
    - specialize (Hu r Hr). rewrite Forall_forall in *. intros x Hx. apply filter_In in Hx. apply Hu. tauto.
    - specialize (Hlen r Hr). pose proof (filter_len keep r). lia. }
  destruct (@conv_ok m w Hw rows v Hv keep) with (c0 := c0) as (mv & c1 & Eb & Ew & Hbuf & Hpos); auto.
  { rewrite Forall_map in Hf. eapply Forall_impl; [|exact Hf]. intros r [H1 H2]. now apply push_ok_254. }
  exists c1, (fst (msv_write mv)), mv. split; auto. split; auto. split; auto.
  destruct (short_lists_ok m Hf) as (mv' & E' & Hmv). rewrite Eb in E'. inversion E'; subst mv'.
  destruct (msv_round_trip Hmv) as [R1 R2]; [now rewrite !map_length|]. split.
  - rewrite Hbuf, holds_read; auto. apply holds_written.
  - now apply msv_is_observes.
Qed.
