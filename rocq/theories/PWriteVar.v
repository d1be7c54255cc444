(** * write_as_variable_width_slice_vector: interleaved chunked writing *)
From Verif Require Import Base BaseFacts Bytes PBytes MSliceVec SSliceVec PFixed PVar PCursor.
Set Implicit Arguments.

Section W.
  Context {T : Type} (osz : nat) (Hosz : 0 < osz) (R : repr T) (valid : T -> Prop) (HR : repr_ok R valid).
  Context (m : mode) (w : nat) (Hw : 0 < w) (rows : list (list T)) (v : fw T) (Hv : fw_is w rows v)
          (keep : T -> bool).

  Let n := length rows.
  Let frows := map (filter keep) rows.
  Context (Hfit : total_fits osz frows).

  Let K k := length (concat (firstn k frows)).

  Lemma K_le k : K k <= length (concat frows).
  Proof.
    unfold K. rewrite <- (firstn_skipn k frows) at 2. rewrite concat_app, app_length. lia.
  Qed.

  Lemma K_S k r : nth_error rows k = Some r -> K (S k) = K k + length (filter keep r).
  Proof.
    intros H. unfold K. replace (S k) with (k + 1) by lia.
    rewrite (concat_firstn_S frows k (r := filter keep r)).
    - now rewrite app_length.
    - unfold frows. now rewrite nth_error_map, H.
  Qed.

  Lemma off_ok k : off_from osz (K k) = Ok (K k).
  Proof. apply off_from_ok. pose proof (K_le k). unfold total_fits in Hfit. lia. Qed.

  Definition vals k := write_as_bytes R (concat (firstn k frows)).
  Definition offs k := map K (seq 1 k).

  Lemma vals_len k : length (vals k) = K k * rsize R.
  Proof. unfold vals. now rewrite (write_as_bytes_length HR). Qed.

  Lemma vals_S k r : nth_error rows k = Some r ->
    vals (S k) = vals k ++ write_as_bytes R (filter keep r).
  Proof.
    intros H. unfold vals. replace (S k) with (k + 1) by lia.
    rewrite (concat_firstn_S frows k (r := filter keep r)).
    - now rewrite write_as_bytes_app.
    - unfold frows. now rewrite nth_error_map, H.
  Qed.

  Lemma offs_S k : offs (S k) = offs k ++ [K (S k)].
  Proof. unfold offs. rewrite seq_S, map_app. reflexivity. Qed.

  (** the value-writing loop of one chunk *)
  Lemma vals_loop vbase off cnt c :
    off + cnt <= n -> cpos c = vbase + length (vals off) -> holds c vbase (vals off) ->
    forall os,
    exists c',
      ofold (fun (s : cursor * nat * list nat) i =>
                let '(c, total, offs) := s in
                let* row := fw_get m v (off + i) in
                let kept := filter keep row in
                let total' := total + length kept in
                let c' := cwrite c (write_as_bytes R kept) in
                let* o := off_from osz total' in
                Ok (c', total', offs ++ [o]))
              (seq 0 cnt) (c, K off, os)
      = Ok (c', K (off + cnt), os ++ map K (seq (S off) cnt)) /\
      cpos c' = vbase + length (vals (off + cnt)) /\
      holds c' vbase (vals (off + cnt)) /\
      length (cbuf c) <= length (cbuf c') /\
      (forall b e, b <= length (cbuf c) -> b <= vbase -> vbase + length (vals (off + cnt)) <= e ->
         frame b e c c') /\
      (forall p bs, p + length bs <= vbase -> holds c p bs -> holds c' p bs).
  Proof.
    intros Hn Hpos Hh os. induction cnt as [|cnt IH].
    - exists c. cbn. rewrite Nat.add_0_r, app_nil_r.
      repeat (split; auto).
    - destruct IH as (c1 & E & Hp1 & Hh1 & Hlen & Hfr & Hlow); [lia|].
      rewrite seq_S, ofold_app, E. cbn [obind ofold Nat.add].
      destruct (nth_error rows (off + cnt)) as [r|] eqn:Er;
        [|apply nth_error_None in Er; unfold n in *; lia].
      rewrite (fw_is_get m _ Hw Hv Er). cbn [obind].
      rewrite <- (K_S _ Er), off_ok. cbn [obind].
      exists (cwrite c1 (write_as_bytes R (filter keep r))).
      replace (off + S cnt) with (S (off + cnt)) by lia.
      assert (HLS : length (vals (S (off + cnt))) = length (vals (off + cnt)) + length (write_as_bytes R (filter keep r)))
        by (rewrite (vals_S _ Er), app_length; lia).
      split; [|split; [|split; [|split; [|split]]]].
      + f_equal. f_equal. rewrite <- app_assoc. f_equal. rewrite seq_S, map_app. reflexivity.
      + rewrite cwrite_pos, Hp1. lia.
      + rewrite (vals_S _ Er). apply holds_app. split.
        * apply holds_frame; auto. right. lia.
        * rewrite <- Hp1. apply holds_written.
      + etransitivity; [exact Hlen|]. apply cwrite_mono.
      + intros b e H1 H2 H3. eapply frame_trans.
        * apply Hfr; auto. lia.
        * apply frame_write; lia.
      + intros p bs Hp Hx. apply holds_frame; auto. right. lia.
  Qed.

  Definition hdr : list N := le_enc 8 (N.of_nat n) ++ write_as_bytes (off_repr osz) [0].

  Record st_inv (base : nat) (c0 : cursor) (k : nat) (st : cursor * nat * nat * nat) : Prop := {
    si_op : snd (fst (fst st)) = base + 8 + osz + k * osz;
    si_vp : snd (fst st) = base + 8 + osz + n * osz + K k * rsize R;
    si_tot : snd st = K k;
    si_len : base <= length (cbuf (fst (fst (fst st))));
    si_hdr : holds (fst (fst (fst st))) base (hdr ++ write_as_bytes (off_repr osz) (offs k));
    si_val : holds (fst (fst (fst st))) (base + 8 + osz + n * osz) (vals k);
    si_fr : forall e, base + 8 + osz + n * osz + length (concat frows) * rsize R <= e ->
            frame base e c0 (fst (fst (fst st)));
  }.

  Lemma hdr_len : length hdr = 8 + osz.
  Proof.
    unfold hdr. rewrite app_length, le_enc_length, (write_as_bytes_length (off_repr_ok Hosz)). cbn. lia.
  Qed.

  Lemma chunk_ok base c0 k st chunk cs :
    0 < cs -> k = Nat.min n (chunk * cs) -> chunk * cs < n -> st_inv base c0 k st ->
    exists st', wavw_chunk osz R m v keep cs st chunk = Ok st' /\
                st_inv base c0 (Nat.min n (S chunk * cs)) st'.
  Proof.
    intros Hcs Hk Hlt HI. destruct st as [[[c op] vp] tot].
    destruct HI as [Hop Hvp Htot Hlen Hhdr Hval Hfr]. cbn [fst snd] in *.
    unfold wavw_chunk. rewrite (fw_is_len Hw Hv). fold n.
    assert (Hkk : k = chunk * cs) by lia.
    set (cnt := Nat.min cs (n - chunk * cs)).
    assert (Hcnt : chunk * cs + cnt = Nat.min n (S chunk * cs)) by (cbn; unfold cnt; lia).
    set (vbase := base + 8 + osz + n * osz) in *.
    destruct (@vals_loop vbase (chunk * cs) cnt (cseek c vp)) with (os := @nil nat)
      as (c1 & E & Hp1 & Hh1 & Hl1 & Hf1 & Hlow1).
    - lia.
    - cbn [cpos cseek]. rewrite vals_len, <- Hkk. exact Hvp.
    - rewrite <- Hkk. exact Hval.
    - subst tot. rewrite Hkk. cbv zeta in E. rewrite E. cbn [obind app].
      eexists; split; [reflexivity|].
      rewrite Hcnt in *.
      set (k' := Nat.min n (S chunk * cs)) in *.
      assert (Hk' : k' = chunk * cs + cnt) by lia.
      assert (Hk'n : k' <= n) by lia.
      assert (Hnew : length (write_as_bytes (off_repr osz) (map K (seq (S (chunk * cs)) cnt))) = cnt * osz).
      { rewrite (write_as_bytes_length (off_repr_ok Hosz)), map_length, seq_length. reflexivity. }
      assert (Hv' : vbase + length (vals k') <= vbase + length (concat frows) * rsize R).
      { rewrite vals_len. pose proof (K_le k'). nia. }
      assert (Hh' : holds c1 base (hdr ++ write_as_bytes (off_repr osz) (offs k))).
      { apply Hlow1; [|exact Hhdr].
        rewrite app_length, hdr_len, (write_as_bytes_length (off_repr_ok Hosz)).
        unfold offs. rewrite map_length, seq_length. cbn [rsize off_repr]. unfold vbase. nia. }
      constructor; cbn [fst snd cpos cwrite cseek].
      + rewrite Hnew, Hop, Hk'. nia.
      + rewrite Hp1. now rewrite vals_len.
      + reflexivity.
      + change (base <= length (cbuf (cwrite (cseek c1 op) (write_as_bytes (off_repr osz) (map K (seq (S (chunk * cs)) cnt)))))).
        etransitivity; [|apply cwrite_mono]. cbn [cbuf cseek] in *. lia.
      + change (holds (cwrite (cseek c1 op) (write_as_bytes (off_repr osz) (map K (seq (S (chunk * cs)) cnt)))) base
                  (hdr ++ write_as_bytes (off_repr osz) (offs k'))).
        assert (Eo : offs k' = offs k ++ map K (seq (S (chunk * cs)) cnt)).
        { unfold offs. rewrite Hk', Hkk, seq_app, map_app. reflexivity. }
        rewrite Eo, write_as_bytes_app, app_assoc. apply holds_app. split.
        * apply holds_frame; [exact Hh'|]. right. cbn [cpos cseek].
          rewrite app_length, hdr_len, (write_as_bytes_length (off_repr_ok Hosz)).
          unfold offs. rewrite map_length, seq_length. cbn [rsize off_repr]. lia.
        * replace (base + length (hdr ++ write_as_bytes (off_repr osz) (offs k))) with op.
          -- apply (holds_written (cseek c1 op)).
          -- rewrite app_length, hdr_len, (write_as_bytes_length (off_repr_ok Hosz)).
             unfold offs. rewrite map_length, seq_length. cbn [rsize off_repr]. lia.
      + change (holds (cwrite (cseek c1 op) (write_as_bytes (off_repr osz) (map K (seq (S (chunk * cs)) cnt)))) vbase (vals k')).
        apply holds_frame; [exact Hh1|]. left. cbn [cpos cseek]. rewrite Hnew. unfold vbase. nia.
      + intros e He. change (frame base e c0 (cwrite (cseek c1 op) (write_as_bytes (off_repr osz) (map K (seq (S (chunk * cs)) cnt))))).
        eapply frame_trans; [apply Hfr; exact He|].
        eapply frame_trans.
        * apply frame_seek with (q := vp). apply frame_refl.
        * eapply frame_trans; [apply (Hf1 base e)|].
          -- cbn [cbuf cseek]. lia.
          -- unfold vbase. lia.
          -- lia.
          -- eapply frame_trans; [apply frame_seek with (q := op); apply frame_refl|].
             apply frame_write; cbn [cbuf cpos cseek] in *; try lia.
             rewrite Hnew. unfold vbase in *. nia.
  Qed.

  Lemma chunks_fold_ok base c0 cs st nc :
    0 < cs -> (nc = 0 \/ (nc - 1) * cs < n) -> st_inv base c0 0 st ->
    exists st', ofold (wavw_chunk osz R m v keep cs) (seq 0 nc) st = Ok st' /\
                st_inv base c0 (Nat.min n (nc * cs)) st'.
  Proof.
    intros Hcs Hnc HI. induction nc as [|nc IH].
    - exists st. cbn. rewrite Nat.min_0_r. auto.
    - destruct IH as (st1 & E & HI1); [destruct nc; [auto|right; nia]|].
      rewrite seq_S, ofold_app, E. cbn [obind ofold Nat.add].
      destruct (@chunk_ok base c0 _ st1 nc cs Hcs eq_refl) as (st2 & E2 & HI2); auto.
      { destruct Hnc; [lia|]. replace (S nc - 1) with nc in H by lia. lia. }
      exists st2. rewrite E2. cbn. auto.
  Qed.

  Lemma offs_all : 0 :: offs n = offsets_from 0 frows.
  Proof.
    apply nth_error_ext. intros i.
    assert (Hl : length frows = n) by (unfold frows; rewrite map_length; auto).
    destruct (Nat.leb_spec i n).
    - rewrite offsets_from_nth by lia. cbn [Nat.add].
      destruct i as [|i]; [reflexivity|]. cbn [nth_error]. unfold offs.
      rewrite nth_error_map.
      rewrite (nth_error_nth' (seq 1 n) 0) by (rewrite seq_length; lia).
      rewrite seq_nth by lia. reflexivity.
    - transitivity (@None nat); [|symmetry]; apply nth_error_None.
      + cbn. unfold offs. rewrite map_length, seq_length. lia.
      + rewrite offsets_from_length. lia.
  Qed.

  Lemma write_from_fixed_ok c :
    vw_write_from_fixed osz R m v keep c =
    Ok (cwrite c (vw_bytes osz R frows), length (vw_bytes osz R frows)).
  Proof.
    unfold vw_write_from_fixed. rewrite (fw_is_len Hw Hv). fold n.
    rewrite off_from_ok by (apply N.neq_0_lt_0; apply N.pow_nonzero; lia).
    cbn [obind].
    set (c1 := cwrite (cwrite c (le_enc 8 (N.of_nat n))) (write_as_bytes (off_repr osz) [0])).
    set (cs := Nat.max 100 (n / 100)).
    set (nc := (n + cs - 1) / cs).
    assert (Hcs : 0 < cs) by lia.
    assert (Hz : length (write_as_bytes (off_repr osz) [0]) = osz)
      by (rewrite (write_as_bytes_length (off_repr_ok Hosz)); cbn; lia).
    assert (Hp1 : cpos c1 = cpos c + 8 + osz).
    { unfold c1. rewrite !cwrite_pos, le_enc_length, Hz. lia. }
    assert (Hh1 : holds c1 (cpos c) hdr).
    { unfold c1, hdr. apply holds_app. split.
      - apply holds_frame; [apply holds_written|]. rewrite cwrite_pos. lia.
      - replace (cpos c + length (le_enc 8 (N.of_nat n))) with (cpos (cwrite c (le_enc 8 (N.of_nat n)))) by reflexivity.
        apply holds_written. }
    assert (Hbase1 : cpos c <= length (cbuf c1)).
    { unfold c1. etransitivity; [|apply cwrite_mono]. rewrite cwrite_length.
      pose proof (le_enc_length 8 (N.of_nat n)). destruct (le_enc 8 (N.of_nat n)); cbn in *; lia. }
    set (c0' := cwrite c (le_enc 8 (N.of_nat n))) in *.
    assert (Hfr1 : forall e, cpos c + 8 + osz <= e -> frame (cpos c) e c0' c1).
    { intros e He. unfold c1. apply frame_write.
      - unfold c0'. rewrite cwrite_length.
        pose proof (le_enc_length 8 (N.of_nat n)). destruct (le_enc 8 (N.of_nat n)); cbn in *; lia.
      - unfold c0'. rewrite cwrite_pos. lia.
      - unfold c0'. rewrite cwrite_pos, le_enc_length, Hz. lia. }
    destruct (@chunks_fold_ok (cpos c) c0' cs (c1, cpos c1, cpos c1 + n * osz, 0) nc Hcs)
      as (st & E & HI).
    - destruct (Nat.eq_dec nc 0); [auto|right].
      unfold nc in *. assert ((n + cs - 1) / cs * cs <= n + cs - 1).
      { rewrite Nat.mul_comm. apply Nat.mul_div_le. lia. }
      nia.
    - constructor; cbn [fst snd]; auto.
      + lia.
      + replace (K 0) with 0 by reflexivity. rewrite Hp1. lia.
      + unfold offs. cbn. rewrite app_nil_r. exact Hh1.
      + unfold vals. cbn. apply holds_nil.
      + intros e He. apply Hfr1. nia.
    - rewrite E. cbn [obind]. destruct st as [[[c' op'] vp'] tot']. 
      assert (Hmin : Nat.min n (nc * cs) = n).
      { unfold nc. pose proof (Nat.div_mod (n + cs - 1) cs ltac:(lia)) as Hd.
        pose proof (Nat.mod_upper_bound (n + cs - 1) cs ltac:(lia)). nia. }
      rewrite Hmin in HI. destruct HI as [Hop Hvp Htot Hlen Hhdr Hval Hfr]. cbn [fst snd] in *.
      assert (HK : K n = length (concat frows)).
      { unfold K. f_equal. f_equal. apply firstn_all2. unfold frows. rewrite map_length. auto. }
      assert (HVB : vals n = write_as_bytes R (concat frows)).
      { unfold vals. f_equal. f_equal. apply firstn_all2. unfold frows. rewrite map_length. auto. }
      assert (HHO : hdr ++ write_as_bytes (off_repr osz) (offs n) =
                    le_enc 8 (N.of_nat (length frows)) ++ write_as_bytes (off_repr osz) (offsets_from 0 frows)).
      { rewrite <- offs_all. unfold hdr. rewrite <- app_assoc, <- write_as_bytes_app.
        unfold frows. rewrite map_length. reflexivity. }
      assert (HLO : length (write_as_bytes (off_repr osz) (offsets_from 0 frows)) = osz + n * osz).
      { rewrite (write_as_bytes_length (off_repr_ok Hosz)), offsets_from_length.
        unfold frows. rewrite map_length. cbn. reflexivity. }
      assert (HLB : length (vw_bytes osz R frows) = 8 + osz + n * osz + length (concat frows) * rsize R).
      { unfold vw_bytes. rewrite !app_length, le_enc_length, HLO, (write_as_bytes_length HR). lia. }
      assert (HB : cbuf c' = cbuf (cwrite c (vw_bytes osz R frows))).
      { apply piecewise_is_cwrite with (first := le_enc 8 (N.of_nat n)).
        - rewrite le_enc_length. lia.
        - eexists. unfold vw_bytes. replace (length frows) with n by (unfold frows; now rewrite map_length).
          reflexivity.
        - apply Hfr. lia.
        - unfold vw_bytes. rewrite app_assoc, <- HHO, <- HVB. apply holds_app. split; auto.
          rewrite HHO, app_length, le_enc_length, HLO.
          replace (cpos c + (8 + (osz + n * osz))) with (cpos c + 8 + osz + n * osz) by lia. exact Hval. }
      f_equal. f_equal.
      + unfold cseek. rewrite HB.
        destruct (cwrite c (vw_bytes osz R frows)) as [b p] eqn:Ec. cbn [cbuf].
        f_equal. apply (f_equal cpos) in Ec. rewrite cwrite_pos in Ec. cbn [cpos] in Ec. rewrite HK in Hvp. lia.
      + rewrite HK in Hvp. lia.
  Qed.
End W.
