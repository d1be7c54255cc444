(** * Proofs about machine words, C76 *)
From Verif Require Import Base BaseFacts Bytes PBytes MSliceVec SSliceVec PFixed PVar MOffsets MSetVec SOffsets
  POffsets PSetVec MIndexIo SIndexIo PIndexIo PIndexCrash MWord.
Set Implicit Arguments.

Lemma word_pos : (0 < WORD)%N. Proof. reflexivity. Qed.

Lemma usize_mul_release a b : usize_mul Release a b = Ok ((a * b) mod WORD)%N.
Proof. unfold usize_mul. destruct (N.ltb_spec (a * b) WORD); auto. now rewrite N.mod_small. Qed.
Lemma usize_add_release a b : usize_add Release a b = Ok ((a + b) mod WORD)%N.
Proof. unfold usize_add. destruct (N.ltb_spec (a + b) WORD); auto. now rewrite N.mod_small. Qed.
Lemma usize_mul_small m a b : (a * b < WORD)%N -> usize_mul m a b = Ok (a * b)%N.
Proof. unfold usize_mul. intros H. now apply N.ltb_lt in H as ->. Qed.
Lemma usize_add_small m a b : (a + b < WORD)%N -> usize_add m a b = Ok (a + b)%N.
Proof. unfold usize_add. intros H. now apply N.ltb_lt in H as ->. Qed.

Lemma wslice_nat {A} (l : list A) b e : wslice l (N.of_nat b) (N.of_nat e) = slice l b e.
Proof.
  unfold wslice, slice.
  destruct (N.leb_spec (N.of_nat b) (N.of_nat e)); destruct (Nat.leb_spec b e); try lia; cbn [andb]; auto.
  destruct (N.leb_spec (N.of_nat e) (N.of_nat (length l))); destruct (Nat.leb_spec e (length l)); try lia; auto.
  now rewrite <- Nnat.Nat2N.inj_sub, !Nnat.Nat2N.id.
Qed.

Lemma windex_nat {A} (l : list A) i : windex l (N.of_nat i) = index l i.
Proof.
  unfold windex. destruct (N.ltb_spec (N.of_nat i) (N.of_nat (length l))).
  - now rewrite Nnat.Nat2N.id.
  - unfold index. rewrite (proj2 (nth_error_None l i)) by lia. reflexivity.
Qed.

Section Fixed.
  Context {T : Type} (k : nat) (rows : list (list T)) (v : fw T).
  Context (Hw : 0 < k) (Hv : fw_is k rows v) (Hk : (N.of_nat k < WORD)%N)
          (Hfit : (N.of_nat (length (fdata v)) < WORD)%N).
  Let w := N.of_nat k.

  Lemma wfw_data_len : length (fdata v) = length rows * k.
  Proof. destruct Hv as (_ & D & F). rewrite D. now apply concat_length_const. Qed.

  Lemma wfw_in m idx : idx < length rows -> wfw_get m v (N.of_nat idx) = fw_get m v idx.
  Proof.
    clear Hk. intros Hi. unfold wfw_get, fw_get. rewrite (fw_is_len Hw Hv). pose proof wfw_data_len as Hl.
    replace (N.of_nat idx <? N.of_nat (length rows))%N with (idx <? length rows).
    2: { destruct (Nat.ltb_spec idx (length rows)); destruct (N.ltb_spec (N.of_nat idx) (N.of_nat (length rows))); auto; lia. }
    destruct (debug_assert m (idx <? length rows)); cbn [obind]; auto. rewrite (proj1 Hv).
    assert ((idx + 1) * k <= length (fdata v)) by nia.
    rewrite usize_mul_small by nia. cbn [obind].
    rewrite usize_add_small by nia. cbn [obind].
    rewrite usize_mul_small by nia. cbn [obind].
    rewrite <- wslice_nat. f_equal; lia.
  Qed.

  Lemma wfw_debug idx : (N.of_nat (length rows) <= idx)%N -> wfw_get Debug v idx = Fail Panicked.
  Proof.
    intros H. clear Hk Hfit. unfold wfw_get. rewrite (fw_is_len Hw Hv). cbn [debug_assert].
    destruct (N.ltb_spec idx (N.of_nat (length rows))); [lia|]. reflexivity.
  Qed.

  (** without overflow checks: the piece of width [w] at position [idx * w] modulo
      2^64, if that fits *)
  Definition wraps_to (idx : N) : outcome (list T) :=
    if ((idx * w) mod WORD + w <=? N.of_nat (length (fdata v)))%N
    then Ok (firstn k (skipn (N.to_nat ((idx * w) mod WORD)) (fdata v)))
    else Fail Panicked.

  Lemma wrap_slice (B : N) : (B < WORD)%N ->
    wslice (fdata v) B ((B + w) mod WORD) =
    if (B + w <=? N.of_nat (length (fdata v)))%N
    then Ok (firstn k (skipn (N.to_nat B) (fdata v))) else Fail Panicked.
  Proof.
    intros HB. unfold wslice. destruct (N.ltb_spec (B + w) WORD) as [Hlt|Hge].
    - rewrite (N.mod_small (B + w)) by auto. destruct (N.leb_spec B (B + w)); [|lia]. cbn [andb].
      replace (N.to_nat (B + w - B)) with k by (subst w; lia). reflexivity.
    - assert (Hsm : ((B + w) mod WORD < B)%N).
      { replace (B + w)%N with ((B + w - WORD) + 1 * WORD)%N at 1 by lia.
        rewrite N.mod_add by (unfold WORD; lia). rewrite N.mod_small; subst w; lia. }
      destruct (N.leb_spec B ((B + w) mod WORD)); [lia|]. cbn [andb].
      destruct (N.leb_spec (B + w) (N.of_nat (length (fdata v)))); [lia|reflexivity].
  Qed.

  Lemma wfw_release idx : (idx < WORD)%N -> wfw_get Release v idx = wraps_to idx.
  Proof.
    intros Hi. unfold wfw_get. cbn [debug_assert obind]. rewrite (proj1 Hv). fold w.
    rewrite usize_mul_release, usize_add_release. cbn [obind]. rewrite usize_mul_release. cbn [obind].
    assert (Hm : (((idx + 1) mod WORD * w) mod WORD = ((idx * w) mod WORD + w) mod WORD)%N).
    { rewrite N.mul_mod_idemp_l by (unfold WORD; lia). rewrite N.add_mod_idemp_l by (unfold WORD; lia). f_equal. lia. }
    rewrite Hm. apply wrap_slice. apply N.mod_lt. unfold WORD; lia.
  Qed.

  Lemma wfw_mut_release idx : (idx < WORD)%N -> wfw_get_mut Release v idx = wraps_to idx.
  Proof.
    intros Hi. unfold wfw_get_mut. cbn [debug_assert obind]. rewrite (proj1 Hv). fold w.
    rewrite usize_mul_release. cbn [obind]. rewrite usize_add_release. cbn [obind].
    apply wrap_slice. apply N.mod_lt. unfold WORD; lia.
  Qed.

  Lemma wfw_mut_debug idx : (N.of_nat (length rows) <= idx)%N -> wfw_get_mut Debug v idx = Fail Panicked.
  Proof.
    intros H. clear Hk Hfit. unfold wfw_get_mut. rewrite (fw_is_len Hw Hv). cbn [debug_assert].
    destruct (N.ltb_spec idx (N.of_nat (length rows))); [lia|]. reflexivity.
  Qed.

  (** below 2^64 / w nothing wraps *)
  Lemma wfw_small_out m idx : (N.of_nat (length rows) <= idx)%N -> (idx * w < WORD)%N -> (idx < WORD)%N ->
    wfw_get m v idx = Fail Panicked.
  Proof.
    intros Hi Hs Hx. destruct m; [now apply wfw_debug|]. rewrite wfw_release by auto. unfold wraps_to.
    rewrite N.mod_small by auto. pose proof wfw_data_len.
    destruct (N.leb_spec (idx * w + w) (N.of_nat (length (fdata v)))); [|reflexivity].
    exfalso. subst w. nia.
  Qed.

  (** the first index whose position wraps *)
  Definition first_wrapping : N := ((WORD + w - 1) / w)%N.

  Lemma first_wrapping_spec : 2 <= k ->
    (first_wrapping < WORD)%N /\ (WORD <= first_wrapping * w)%N /\ (first_wrapping * w < WORD + w)%N.
  Proof.
    intros Hk2. clear Hfit Hv Hw. unfold first_wrapping.
    pose proof (N.div_mod (WORD + w - 1) w ltac:(subst w; lia)) as E.
    pose proof (N.mod_lt (WORD + w - 1) w ltac:(subst w; lia)) as L.
    set (q := ((WORD + w - 1) / w)%N) in *. set (r := ((WORD + w - 1) mod w)%N) in *.
    assert (w * q <= WORD + w - 1)%N by lia. assert (2 <= w)%N by (subst w; lia).
    pose proof word_pos.
    repeat split; try nia.
  Qed.

  Lemma wfw_wrapping : 2 <= k -> 2 <= length rows ->
    wfw_get Release v first_wrapping =
    Ok (firstn k (skipn (N.to_nat (first_wrapping * w - WORD)) (fdata v))) /\
    (N.of_nat (length rows) <= first_wrapping)%N.
  Proof.
    intros Hk2 Hr. destruct (first_wrapping_spec Hk2) as (A & B & C). pose proof wfw_data_len as Hl.
    assert (Ew : w = N.of_nat k) by reflexivity. assert (2 <= w)%N by lia.
    set (f := first_wrapping) in *. clearbody f.
    rewrite wfw_release by auto. unfold wraps_to.
    replace ((f * w) mod WORD)%N with (f * w - WORD)%N.
    2: { replace (f * w)%N with ((f * w - WORD) + 1 * WORD)%N at 2 by lia.
         rewrite N.mod_add by (unfold WORD; lia). rewrite N.mod_small; lia. }
    split.
    - destruct (N.leb_spec (f * w - WORD + w) (N.of_nat (length (fdata v)))); [reflexivity|].
      exfalso. nia.
    - nia.
  Qed.
End Fixed.

(** ** Compressed tables: reading past the end *)
Definition dsum (l : list N) : nat := fold_right (fun d s => N.to_nat d + s) 0 l.

Lemma dsum_app a b : dsum (a ++ b) = dsum a + dsum b.
Proof. unfold dsum. induction a as [|x a IH]; cbn [app fold_right]; lia. Qed.

Lemma psums_last a ds : last (psums a ds) a = a + dsum ds.
Proof.
  revert a. induction ds as [|d t IH]; intros a; cbn [psums].
  - cbn. lia.
  - rewrite last_cons. rewrite IH. unfold dsum. cbn [fold_right]. lia.
Qed.

Lemma chunk_fold_cases m (c : chunk) k : k <= length (cdeltas c) ->
  let f := ofold (fun res i =>
                 let* d := index (cdeltas c) i in
                 let* _ := debug_assert m (negb (DUNUSED =? d)%N) in
                 Ok (res + N.to_nat d))
               (seq 0 k) 0 in
  f = Fail Panicked \/ f = Ok (dsum (firstn k (cdeltas c))).
Proof.
  induction k as [|k IH]; intros Hk; cbn zeta; [right; reflexivity|].
  rewrite seq_S, ofold_app. destruct (IH ltac:(lia)) as [E|E]; rewrite E; cbn [obind]; [now left|].
  cbn [ofold Nat.add].
  destruct (nth_error (cdeltas c) k) as [d|] eqn:Ed; [|apply nth_error_None in Ed; lia].
  rewrite (proj2 (index_ok _ _ _) Ed). cbn [obind].
  destruct m; cbn [debug_assert].
  - destruct (negb (DUNUSED =? d)%N); cbn [oassert obind]; [|now left].
    right. rewrite (firstn_snoc _ _ Ed), dsum_app. cbn [dsum fold_right]. f_equal. lia.
  - cbn [obind]. right. rewrite (firstn_snoc _ _ Ed), dsum_app. cbn [dsum fold_right]. f_equal. lia.
Qed.

Section Past.
  Context (c : chunk) (ini : nat) (ds : list N) (H : chunk_is c ini ds).

  Lemma chunk_get_past m i x : length ds <= i + 1 -> i < 60 -> chunk_get m c i = Ok x -> ini + dsum ds <= x.
  Proof.
    intros Hi H60 E. destruct H as (Hini & Hd & Hl & _). unfold chunk_get in E.
    change OFFSETS_PER_CHUNK with 60 in E. destruct (Nat.ltb_spec i 60); [|lia]. cbn [oassert obind] in E.
    assert (Hlen : length (cdeltas c) = 60) by (rewrite Hd, app_length, repeat_length; lia).
    destruct (@chunk_fold_cases m c (i + 1) ltac:(lia)) as [F|F]; cbn zeta in F; rewrite F in E; cbn [obind] in E; [discriminate|].
    apply ok_inj in E. rewrite Hd, firstn_app, firstn_all2, dsum_app in E by lia. lia.
  Qed.

  Lemma chunk_get_total m i : i < 60 -> (exists x, chunk_get m c i = Ok x) \/ chunk_get m c i = Fail Panicked.
  Proof.
    intros H60. destruct H as (Hini & Hd & Hl & _). unfold chunk_get.
    change OFFSETS_PER_CHUNK with 60. destruct (Nat.ltb_spec i 60); [|lia]. cbn [oassert obind].
    assert (Hlen : length (cdeltas c) = 60) by (rewrite Hd, app_length, repeat_length; lia).
    destruct (@chunk_fold_cases m c (i + 1) ltac:(lia)) as [F|F]; cbn zeta in F; rewrite F; cbn [obind]; eauto.
  Qed.
End Past.

(** the offsets of a position past the end of the table are never a range of the
    data *)
Lemma offs_past m o os i : offs_is o os -> os <> [] -> length os <= i + 1 ->
  offs_get_consecutive m o i = Fail Panicked \/
  exists a b, offs_get_consecutive m o i = Ok (a, b) /\ last os 0 < b.
Proof.
  intros (ocs & lc & isegs & [ini ds] & -> & HF & Hfull & Hc & -> & H0 & H1) Hne Hi. cbn [fst snd] in *.
  pose proof (Forall2_length HF) as HL.
  assert (Hlen : length (concat (map seg_offs isegs) ++ seg_offs (ini, ds)) = length isegs * 60 + length ds).
  { rewrite app_length, (segs_concat_len Hfull). unfold seg_offs. cbn [fst snd]. now rewrite psums_length. }
  rewrite Hlen in Hi.
  assert (Hds : ds <> []).
  { destruct isegs as [|s t]; [|apply H1; congruence]. cbn in Hne. intros ->. apply Hne. reflexivity. }
  assert (Hlast : last (concat (map seg_offs isegs) ++ seg_offs (ini, ds)) 0 = ini + dsum ds).
  { unfold seg_offs at 2. cbn [fst snd].
    assert (Hp : psums ini ds <> []) by (destruct ds; [congruence|discriminate]).
    rewrite last_app_ne by auto. rewrite (last_indep 0 ini Hp). apply psums_last. }
  rewrite Hlast. clear Hne Hlast.
  assert (Hd1 : 1 <= length ds) by (destruct ds; [congruence|cbn; lia]).
  pose proof (Nat.div_mod i 60 ltac:(lia)) as Hdm. pose proof (Nat.mod_upper_bound i 60 ltac:(lia)) as Hmb.
  assert (Hl60 : length ds <= 60) by apply Hc.
  assert (Hq : length ocs <= i / 60) by nia.
  unfold offs_get_consecutive. change OFFSETS_PER_CHUNK with 60.
  assert (Hout : forall j, length ocs < j / 60 -> forall m', offs_get m' (ocs ++ [lc]) j = Fail Panicked).
  { intros j Hj m'. unfold offs_get. change OFFSETS_PER_CHUNK with 60. unfold index.
    rewrite (proj2 (nth_error_None _ _)) by (rewrite app_length; cbn [length]; lia). reflexivity. }
  destruct (Nat.eqb_spec ((i + 1) mod 60) 0) as [E|E].
  - assert (Hj : length ocs < (i + 1) / 60).
    { pose proof (Nat.div_mod (i + 1) 60 ltac:(lia)). nia. }
    rewrite (Hout _ Hj). destruct (Nat.eq_dec (length ocs) (i / 60)) as [Eq|Nq].
    + unfold offs_get. change OFFSETS_PER_CHUNK with 60. rewrite (proj2 (index_ok _ _ lc)).
      2: { rewrite <- Eq, nth_error_app2, Nat.sub_diag by lia. reflexivity. }
      cbn [obind]. destruct (chunk_get_total Hc m Hmb) as [[x ->]| ->]; now left.
    + rewrite Hout by lia. now left.
  - destruct (Nat.eq_dec (length ocs) (i / 60)) as [Eq|Nq].
    + rewrite (proj2 (index_ok _ _ lc)).
      2: { rewrite <- Eq, nth_error_app2, Nat.sub_diag by lia. reflexivity. }
      cbn [obind]. unfold chunk_get_consecutive. change OFFSETS_PER_CHUNK with 60.
      destruct (Nat.ltb_spec (i mod 60 + 1) 60); cbn [oassert obind]; [|now left].
      destruct (chunk_get m lc (i mod 60)) as [x|e] eqn:Ex; cbn [obind].
      2: { destruct (chunk_get_total Hc m Hmb) as [[x Hx]|Hx]; rewrite Hx in Ex; [discriminate|left; congruence]. }
      right. destruct Hc as (Hini & Hdd & Hdl & Hdf).
      assert (Hx : ini + dsum ds <= x).
      { eapply (@chunk_get_past lc ini ds); [repeat split; eauto| |exact Hmb|exact Ex]. nia. }
      rewrite (proj2 (index_ok _ _ DUNUSED)).
      2: { rewrite Hdd, nth_error_app2 by nia. apply nth_error_repeat. nia. }
      cbn [obind]. eexists _, _. split; [reflexivity|].
      assert (0 < N.to_nat DUNUSED) by (rewrite dunused_val; lia). lia.
    + left. unfold index. rewrite (proj2 (nth_error_None _ _)) by (rewrite app_length; cbn [length]; lia). reflexivity.
Qed.

Lemma cvw_get_past {T} m (rows : list (list T)) v i : cvw_is rows v -> length rows <= i -> cvw_get m v i = Fail Panicked.
Proof.
  intros [Ho Hd] Hi. unfold cvw_get.
  assert (Hne : offsets_from 0 rows <> []) by (destruct rows; discriminate).
  destruct (@offs_past m _ _ i Ho Hne) as [E|(a & b & E & Hb)]; [rewrite offsets_from_length; lia| |].
  - now rewrite E.
  - rewrite E. cbn [obind fst snd]. rewrite (offsets_from_last 0 rows), last_last in Hb. cbn [Nat.add] in Hb.
    unfold slice. rewrite Hd. destruct (Nat.leb_spec b (length (concat rows))); [lia|]. now rewrite andb_false_r.
Qed.

Lemma msv_get_past m rows v i : msv_is m rows v -> length rows <= i -> msv_get m v i = Fail Panicked.
Proof.
  intros (es & Hv & HF) Hi. unfold msv_get. rewrite (cvw_get_past m Hv); [reflexivity|].
  now rewrite <- (Forall2_length HF).
Qed.

(** ** Word indices into compressed tables *)
Lemma windex_out {A} (l : list A) i : (N.of_nat (length l) <= i)%N -> windex l i = Fail Panicked.
Proof. intros H. unfold windex. destruct (N.ltb_spec i (N.of_nat (length l))); [lia|reflexivity]. Qed.

Lemma woffs_get_nat m o i : woffs_get m o (N.of_nat i) = offs_get m o i.
Proof.
  unfold woffs_get, offs_get. change OFFSETS_PER_CHUNK with 60. change 60%N with (N.of_nat 60).
  rewrite <- Nnat.Nat2N.inj_div, <- Nnat.Nat2N.inj_mod, windex_nat, Nnat.Nat2N.id. reflexivity.
Qed.

Lemma woffs_consecutive_nat m o i : (N.of_nat i + 1 < WORD)%N ->
  woffs_get_consecutive m o (N.of_nat i) = offs_get_consecutive m o i.
Proof.
  intros Hi. unfold woffs_get_consecutive, offs_get_consecutive. change OFFSETS_PER_CHUNK with 60.
  rewrite usize_add_small by auto. cbn [obind].
  replace (N.of_nat i + 1)%N with (N.of_nat (i + 1)) by lia. rewrite !woffs_get_nat.
  change 60%N with (N.of_nat 60).
  rewrite <- Nnat.Nat2N.inj_div, <- !Nnat.Nat2N.inj_mod, windex_nat, Nnat.Nat2N.id.
  replace (N.of_nat ((i + 1) mod 60) =? 0)%N with ((i + 1) mod 60 =? 0); [reflexivity|].
  destruct (Nat.eqb_spec ((i + 1) mod 60) 0); destruct (N.eqb_spec (N.of_nat ((i + 1) mod 60)) 0); auto; lia.
Qed.

Lemma woffs_consecutive_max m o : (N.of_nat (length o) * 60 < WORD)%N ->
  woffs_get_consecutive m o (WORD - 1) = Fail Panicked.
Proof.
  intros Ho. unfold woffs_get_consecutive, usize_add.
  replace (WORD - 1 + 1 <? WORD)%N with false by reflexivity.
  destruct m; [reflexivity|]. cbn [obind].
  replace ((WORD - 1 + 1) mod WORD)%N with 0%N by reflexivity. cbn [N.modulo N.eqb N.div_eucl snd].
  unfold woffs_get at 1. rewrite windex_out; [reflexivity|].
  unfold WORD in *. apply N.div_le_lower_bound; lia.
Qed.

Section WCvw.
  Context {T : Type} (rows : list (list T)) (v : cvw T) (Hv : cvw_is rows v) (Hf : layer_fits (length rows)).

  Lemma table_small : (N.of_nat (length (coffs v)) * 60 < WORD)%N.
  Proof.
    destruct Hv as [Ho _]. pose proof (offs_is_bytes Ho) as E. unfold offs_num_bytes in E.
    rewrite offsets_from_length in E. change CHUNK_SIZE with 128 in E.
    assert (length (coffs v) = 1 + (S (length rows) - 1) / 60) by lia.
    replace (S (length rows) - 1) with (length rows) in H by lia.
    pose proof (Nat.div_le_upper_bound (length rows) 60 (length rows) ltac:(lia) ltac:(lia)).
    unfold layer_fits in Hf. change (2 ^ 50)%N with 1125899906842624%N in Hf. unfold WORD. lia.
  Qed.

  Lemma wcvw_in m i : i < length rows -> wcvw_get m v (N.of_nat i) = cvw_get m v i.
  Proof.
    intros Hi. unfold wcvw_get, cvw_get. rewrite woffs_consecutive_nat; [reflexivity|].
    unfold layer_fits in Hf. change (2 ^ 50)%N with 1125899906842624%N in Hf. unfold WORD. lia.
  Qed.

  Lemma wcvw_past m idx : (N.of_nat (length rows) <= idx)%N -> (idx < WORD)%N -> wcvw_get m v idx = Fail Panicked.
  Proof.
    intros Hi Hw. destruct (N.eqb_spec idx (WORD - 1)) as [->|Hne].
    - unfold wcvw_get. rewrite woffs_consecutive_max; [reflexivity|apply table_small].
    - rewrite <- (Nnat.N2Nat.id idx). transitivity (cvw_get m v (N.to_nat idx)).
      + unfold wcvw_get, cvw_get. rewrite woffs_consecutive_nat; [reflexivity|]. rewrite Nnat.N2Nat.id. lia.
      + apply (cvw_get_past m Hv). lia.
  Qed.
End WCvw.

(** ** Any record: what decoding can produce *)
Lemma u32m_val : U32M = 4294967296%N. Proof. reflexivity. Qed.

Lemma u32_add_u32 m a b x : is_u32 a -> is_u32 b -> u32_add m a b = Ok x -> is_u32 x.
Proof.
  unfold is_u32, u32_add. rewrite u32m_val. intros Ha Hb E. destruct (N.ltb_spec (a + b) 4294967296).
  - apply ok_inj in E. lia.
  - destruct m; [discriminate|]. apply ok_inj in E. lia.
Qed.

Lemma delta_decode_from_u32 m l : forall p r, is_u32 p -> Forall is_u32 l -> delta_decode_from m p l = Ok r ->
  length r = length l /\ Forall is_u32 r.
Proof.
  induction l as [|d t IH]; intros p r Hp Hl E; cbn [delta_decode_from] in E.
  - apply ok_inj in E. subst r. auto.
  - inversion Hl as [|? ? Hd Ht]; subst. destruct (u32_add m d p) as [x|] eqn:Ex; cbn [obind] in E; [|discriminate].
    pose proof (u32_add_u32 m Hd Hp Ex) as Hx.
    destruct (delta_decode_from m x t) as [r'|] eqn:Er; cbn [obind] in E; [|discriminate].
    apply ok_inj in E. subst r. destruct (IH _ _ Hx Ht Er). split; cbn; auto.
Qed.

Lemma delta_decode_u32 m l r : Forall is_u32 l -> delta_decode m l = Ok r -> length r = length l /\ Forall is_u32 r.
Proof.
  destruct l as [|x t]; intros Hl E; cbn [delta_decode] in E.
  - apply ok_inj in E. subst r. auto.
  - inversion Hl as [|? ? Hd Ht]; subst. destruct (delta_decode_from m x t) as [r'|] eqn:Er; cbn [obind] in E; [|discriminate].
    apply ok_inj in E. subst r. destruct (delta_decode_from_u32 m Hd Ht Er). split; cbn; auto.
Qed.

Lemma delta_decode_from_asc l : forall p r, delta_decode_from Debug p l = Ok r ->
  Forall (N.le p) r /\ StronglySorted N.le r.
Proof.
  induction l as [|d t IH]; intros p r E; cbn [delta_decode_from] in E.
  - apply ok_inj in E. subst r. split; constructor.
  - unfold u32_add in E. destruct (N.ltb_spec (d + p) U32M); cbn [obind] in E; [|discriminate].
    destruct (delta_decode_from Debug (d + p) t) as [r'|] eqn:Er; cbn [obind] in E; [|discriminate].
    apply ok_inj in E. subst r. destruct (IH _ _ Er) as [A B]. split.
    + constructor; [lia|]. eapply Forall_impl; [|exact A]. cbn. intros; lia.
    + constructor; auto.
Qed.

Lemma delta_decode_asc l r : delta_decode Debug l = Ok r -> StronglySorted N.le r.
Proof.
  destruct l as [|x t]; intros E; cbn [delta_decode] in E.
  - apply ok_inj in E. subst r. constructor.
  - destruct (delta_decode_from Debug x t) as [r'|] eqn:Er; cbn [obind] in E; [|discriminate].
    apply ok_inj in E. subst r. destruct (delta_decode_from_asc _ _ Er). constructor; auto.
Qed.

Lemma le_dec_u32 l : bytes_ok l -> length l <= 4 -> is_u32 (le_dec l).
Proof.
  intros Hb Hl. pose proof (le_dec_bound Hb) as H. unfold is_u32.
  assert (256 ^ N.of_nat (length l) <= 256 ^ 4)%N by (apply N.pow_le_mono_r; lia).
  change (256 ^ 4)%N with 4294967296%N in *. lia.
Qed.

Lemma slice_bytes l b e r : bytes_ok l -> slice l b e = Ok r -> bytes_ok r.
Proof.
  intros H E. apply slice_ok in E as (_ & _ & ->). unfold bytes_ok in *.
  rewrite Forall_forall in *. intros x Hx. apply H.
  rewrite <- (firstn_skipn b l). apply in_or_app. right.
  rewrite <- (firstn_skipn (e - b) (skipn b l)). apply in_or_app. now left.
Qed.

Lemma vb_decode_u32 input count r : bytes_ok input -> vb_decode input count = Ok r ->
  length (fst r) = count /\ Forall is_u32 (fst r).
Proof.
  intros Hb. unfold vb_decode. intros E.
  destruct (slice input 0 ((count + 3) / 4)) as [ctrl|] eqn:Ec; cbn [obind] in E; [|discriminate].
  destruct (slice input ((count + 3) / 4) (length input)) as [data|] eqn:Ed; cbn [obind] in E; [|discriminate].
  pose proof (slice_bytes _ _ Hb Ed) as Hd. clear Ec Ed.
  match type of E with context [ofold ?f _ _] => set (F := f) in E end.
  assert (HF : forall k s, ofold F (seq 0 k) ([], 0) = Ok s -> length (fst s) = k /\ Forall is_u32 (fst s)).
  { induction k as [|k IH]; intros s Es.
    - apply ok_inj in Es. subst s. split; [reflexivity|constructor].
    - rewrite seq_S, ofold_app in Es. destruct (ofold F (seq 0 k) ([], 0)) as [s0|]; cbn [obind] in Es; [|discriminate].
      destruct (IH _ eq_refl) as [A B]. cbn [ofold Nat.add] in Es. unfold F in Es at 1. destruct s0 as [acc pos].
      destruct (vb_tag_at ctrl k) as [tag|] eqn:Et; cbn [obind] in Es; [|discriminate].
      destruct (slice data pos (pos + (tag + 1))) as [bs|] eqn:Eb; cbn [obind] in Es; [|discriminate].
      apply ok_inj in Es. subst s. cbn [fst] in *. split.
      + rewrite app_length. cbn [length]. lia.
      + apply Forall_app. split; auto. constructor; auto. apply le_dec_u32; [eapply slice_bytes; eauto|].
        apply slice_length in Eb.
        unfold vb_tag_at in Et. destruct (index ctrl (k / 4)) as [b|]; cbn [obind] in Et; [|discriminate].
        apply ok_inj in Et. pose proof (N.mod_lt (b / 4 ^ N.of_nat (k mod 4)) 4 ltac:(lia)).
        lia. }
  destruct (ofold F (seq 0 count) ([], 0)) as [s|] eqn:Es; cbn [obind] in E; [|discriminate].
  apply ok_inj in E. subst r. cbn [fst]. now apply HF.
Qed.

Lemma chunks_exact_n_bytes n k l : bytes_ok l -> Forall bytes_ok (chunks_exact_n n k l) /\
  Forall (fun c => length c <= k) (chunks_exact_n n k l) /\ length (chunks_exact_n n k l) = n.
Proof.
  revert l. induction n as [|n IH]; intros l Hb; cbn [chunks_exact_n].
  - repeat split; constructor.
  - assert (Hs : bytes_ok (skipn k l)).
    { unfold bytes_ok in *. rewrite Forall_forall in *. intros x Hx. apply Hb.
      rewrite <- (firstn_skipn k l). apply in_or_app. now right. }
    assert (Hf : bytes_ok (firstn k l)).
    { unfold bytes_ok in *. rewrite Forall_forall in *. intros x Hx. apply Hb.
      rewrite <- (firstn_skipn k l). apply in_or_app. now left. }
    destruct (IH _ Hs) as (A & B & C). repeat split; try (constructor; auto).
    + rewrite firstn_length. lia.
    + cbn [length]. now rewrite C.
Qed.

Lemma decode_any m c rest l : bytes_ok (c :: rest) -> decode_into m (c :: rest) = Ok l ->
  length l = N.to_nat c /\ Forall is_u32 l /\ (m = Debug -> StronglySorted N.le l).
Proof.
  intros Hb E. unfold decode_into in E. cbn [index nth_error ounwrap obind] in E.
  inversion Hb as [|? ? Hc Hr]; subst.
  destruct (slice (c :: rest) 1 (length (c :: rest))) as [rest'|] eqn:Es; cbn [obind] in E; [|discriminate].
  pose proof (slice_bytes _ _ Hb Es) as Hb'. clear Es Hb Hr.
  destruct (Nat.eqb_spec (length rest') (N.to_nat c * 4)) as [El|El]; cbn [negb] in E.
  - assert (HF : length (map le_dec (firstn (N.to_nat c) (chunks_exact 4 rest'))) = N.to_nat c /\
                 Forall is_u32 (map le_dec (firstn (N.to_nat c) (chunks_exact 4 rest')))).
    { unfold chunks_exact. rewrite El, Nat.div_mul by lia.
      destruct (@chunks_exact_n_bytes (N.to_nat c) 4 rest' Hb') as (A & B & C). split.
      - rewrite map_length, firstn_length, C. lia.
      - rewrite firstn_all2 by lia. rewrite Forall_map, Forall_forall in *. intros x Hx.
        apply le_dec_u32; auto. }
    destruct HF as [A B]. destruct (delta_decode_u32 m B E). split; [congruence|]. split; auto.
    intros ->. eapply delta_decode_asc; eauto.
  - destruct (vb_decode rest' (Nat.max MIN_NUMBERS_TO_ENCODE (N.to_nat c))) as [r|] eqn:Er; cbn [obind] in E; [|discriminate].
    destruct (vb_decode_u32 _ Hb' Er) as [A B].
    destruct (debug_assert m (length rest' =? snd r)); cbn [obind] in E; [|discriminate].
    assert (C : Forall is_u32 (resize (fst r) (N.to_nat c) 0%N)).
    { unfold resize. apply Forall_app. split.
      - rewrite Forall_forall in *. intros x Hx. apply B. rewrite <- (firstn_skipn (N.to_nat c) (fst r)).
        apply in_or_app. now left.
      - apply Forall_forall. intros x Hx. apply repeat_spec in Hx. subst x. reflexivity. }
    destruct (delta_decode_u32 m C E) as [D F]. rewrite resize_length in D. split; auto. split; auto.
    intros ->. eapply delta_decode_asc; eauto.
Qed.
