(** * Proofs about compressed neighbour lists *)
From Verif Require Import Base BaseFacts Bytes PBytes MSliceVec SSliceVec PFixed PVar PCursor MOffsets SOffsets POffsets MSetVec.
Set Implicit Arguments.

(** ** chunks *)
Lemma chunks_step {A} k (l : list A) : 0 < k -> l <> [] -> chunks k l = firstn k l :: chunks k (skipn k l).
Proof.
  intros Hk Hl. destruct l as [|x t]; [congruence|]. unfold chunks at 1. cbn [length chunks_fuel]. f_equal.
  apply chunks_fuel_indep; auto. rewrite skipn_length. cbn [length]. lia.
Qed.

Lemma nth_error_firstn_lt {A} (l : list A) n i : i < n -> nth_error (firstn n l) i = nth_error l i.
Proof.
  revert n i; induction l as [|x t IH]; intros n i H.
  - now rewrite firstn_nil.
  - destruct n; [lia|]. destruct i; cbn; auto. apply IH. lia.
Qed.

Lemma nth_error_skipn' {A} (l : list A) n i : nth_error (skipn n l) i = nth_error l (n + i).
Proof. revert l; induction n; intros l; cbn; auto. destruct l; cbn; auto. now destruct i. Qed.

Lemma chunks_nth {A} k (l : list A) i : 0 < k -> i < length l ->
  exists q, nth_error (chunks k l) (i / k) = Some q /\ nth_error q (i mod k) = nth_error l i.
Proof.
  intros Hk. remember (length l) as n eqn:En. revert l i En.
  induction n as [n IH] using lt_wf_ind. intros l i En Hi.
  assert (Hne : l <> []) by (destruct l; [cbn in En; lia|congruence]).
  rewrite (chunks_step Hk Hne).
  destruct (Nat.ltb_spec i k) as [Hlt|Hge].
  - rewrite Nat.div_small, Nat.mod_small by auto. cbn. eexists; split; [reflexivity|].
    now apply nth_error_firstn_lt.
  - destruct (IH (length (skipn k l))) with (l := skipn k l) (i := i - k) as (q & Hq & Hn); auto.
    + rewrite skipn_length. lia.
    + rewrite skipn_length. lia.
    + exists q.
      replace (i / k) with (S ((i - k) / k)).
      2:{ replace i with ((i - k) + 1 * k) at 2 by lia. rewrite Nat.div_add by lia. lia. }
      replace (i mod k) with ((i - k) mod k).
      2:{ replace i with ((i - k) + 1 * k) at 2 by lia. rewrite Nat.mod_add by lia. lia. }
      cbn. split; auto. rewrite Hn, nth_error_skipn'. f_equal. lia.
Qed.

Lemma chunks_length {A} k (l : list A) : 0 < k -> length (chunks k l) = (length l + (k - 1)) / k.
Proof.
  intros Hk. remember (length l) as n eqn:En. revert l En.
  induction n as [n IH] using lt_wf_ind. intros l En.
  destruct l as [|x t].
  - cbn in En. subst. cbn. symmetry. apply Nat.div_small. lia.
  - rewrite chunks_step by (auto; congruence). cbn [length].
    rewrite (IH (length (skipn k (x :: t)))) by (rewrite ?skipn_length; cbn [length] in *; lia).
    rewrite skipn_length, <- En.
    destruct (Nat.leb_spec k n).
    + replace (n + (k - 1)) with ((n - k + (k - 1)) + 1 * k) by lia. rewrite Nat.div_add by lia. lia.
    + replace (n - k) with 0 by lia. cbn [Nat.add]. rewrite (Nat.div_small (k - 1)) by lia.
      replace (n + (k - 1)) with ((n - 1) + 1 * k) by (cbn [length] in *; lia). rewrite Nat.div_add by lia.
      rewrite Nat.div_small by lia. lia.
Qed.

(** ** stream-vbyte *)
Lemma vb_len_bounds n : 1 <= vb_len n <= 4.
Proof. unfold vb_len. destruct (n <? 256)%N, (n <? 65536)%N, (n <? 16777216)%N; lia. Qed.

Lemma vb_dec_enc n : is_u32 n -> le_dec (le_enc (vb_len n) n) = n.
Proof.
  intros H. apply le_dec_enc. unfold vb_len, is_u32 in *.
  destruct (N.ltb_spec n 256); [cbn; lia|].
  destruct (N.ltb_spec n 65536); [cbn; lia|].
  destruct (N.ltb_spec n 16777216); cbn; lia.
Qed.

Lemma vb_tag_lt n : (vb_tag n < 4)%N.
Proof. unfold vb_tag. pose proof (vb_len_bounds n). lia. Qed.

Lemma vb_control_tag q j n : nth_error q j = Some n ->
  ((vb_control q / 4 ^ N.of_nat j) mod 4 = vb_tag n)%N.
Proof.
  revert j; induction q as [|x t IH]; intros [|j] H; cbn [nth_error] in H; try discriminate.
  - inversion H; subst. cbn [vb_control]. change (4 ^ N.of_nat 0)%N with 1%N. rewrite N.div_1_r.
    rewrite N.mul_comm, N.mod_add by lia. apply N.mod_small. apply vb_tag_lt.
  - cbn [vb_control]. rewrite Nat2N.inj_succ, N.pow_succ_r'.
    rewrite <- N.div_div by (try lia; apply N.pow_nonzero; lia).
    replace ((vb_tag x + 4 * vb_control t) / 4)%N with (vb_control t).
    + now apply IH.
    + rewrite N.mul_comm, N.div_add by lia. rewrite N.div_small by apply vb_tag_lt. lia.
Qed.

Definition vb_data (ns : list N) : list N := concat (map (fun n => le_enc (vb_len n) n) ns).

Lemma firstn_snoc {A} (l : list A) i x : nth_error l i = Some x -> firstn (S i) l = firstn i l ++ [x].
Proof.
  revert i; induction l as [|y t IH]; intros [|i] H; cbn in *; try discriminate.
  - now inversion H.
  - f_equal. now apply IH.
Qed.

Lemma vb_data_app a b : vb_data (a ++ b) = vb_data a ++ vb_data b.
Proof. unfold vb_data. now rewrite map_app, concat_app. Qed.

Lemma vb_loop ns k :
  Forall is_u32 ns -> k <= length ns ->
  ofold (fun (s : list N * nat) i =>
               let '(acc, pos) := s in
               let* tag := vb_tag_at (map vb_control (chunks 4 ns)) i in
               let* bs := slice (vb_data ns) pos (pos + (tag + 1)) in
               Ok (acc ++ [le_dec bs], pos + (tag + 1)))
             (seq 0 k) ([], 0)
  = Ok (firstn k ns, length (vb_data (firstn k ns))).
Proof.
  intros Hu. induction k as [|k IH]; intros Hk; [reflexivity|].
  rewrite seq_S, ofold_app, IH by lia. cbn [obind ofold Nat.add].
  destruct (nth_error ns k) as [n|] eqn:En; [|apply nth_error_None in En; lia].
  assert (Htag : vb_tag_at (map vb_control (chunks 4 ns)) k = Ok (vb_len n - 1)).
  { unfold vb_tag_at. destruct (@chunks_nth _ 4 ns k) as (q & Hq & Hn); [lia|lia|].
    rewrite (proj2 (index_ok (map vb_control (chunks 4 ns)) (k / 4) (vb_control q))).
    2:{ rewrite nth_error_map, Hq. reflexivity. }
    cbn [obind]. rewrite En in Hn. rewrite (vb_control_tag _ _ Hn). unfold vb_tag. now rewrite Nat2N.id. }
  rewrite Htag. cbn [obind].
  pose proof (vb_len_bounds n) as Hb. replace (vb_len n - 1 + 1) with (vb_len n) by lia.
  assert (Hs : slice (vb_data ns) (length (vb_data (firstn k ns)))
                 (length (vb_data (firstn k ns)) + vb_len n) = Ok (le_enc (vb_len n) n)).
  { assert (E : ns = firstn k ns ++ n :: skipn (S k) ns).
    { rewrite <- (firstn_skipn k ns) at 1. f_equal. now apply skipn_nth_error. }
    rewrite E at 1. rewrite vb_data_app.
    change (n :: skipn (S k) ns) with ([n] ++ skipn (S k) ns). rewrite vb_data_app.
    assert (E1 : vb_data [n] = le_enc (vb_len n) n) by (unfold vb_data; cbn [map concat]; apply app_nil_r).
    rewrite E1. apply slice_ok. rewrite !app_length, le_enc_length. split; [lia|]. split; [lia|].
    rewrite skipn_app_len by reflexivity.
    replace (length (vb_data (firstn k ns)) + vb_len n - length (vb_data (firstn k ns))) with (vb_len n) by lia.
    rewrite firstn_app_len; auto. apply le_enc_length. }
  rewrite Hs. cbn [obind].
  assert (Hn : is_u32 n) by (rewrite Forall_forall in Hu; apply Hu; eapply nth_error_In; eauto).
  rewrite (vb_dec_enc Hn). rewrite (firstn_snoc _ _ En). f_equal. f_equal.
  rewrite vb_data_app, app_length. f_equal. unfold vb_data. cbn. now rewrite app_nil_r, le_enc_length.
Qed.

Lemma vb_round_trip ns : Forall is_u32 ns ->
  vb_decode (vb_encode ns) (length ns) = Ok (ns, length (vb_encode ns)).
Proof.
  intros Hu. unfold vb_decode, vb_encode. fold (vb_data ns).
  assert (HL : length (map vb_control (chunks 4 ns)) = (length ns + 3) / 4).
  { rewrite map_length, chunks_length by lia. reflexivity. }
  rewrite <- HL.
  replace (slice (map vb_control (chunks 4 ns) ++ vb_data ns) 0 (length (map vb_control (chunks 4 ns))))
    with (Ok (map vb_control (chunks 4 ns))).
  2:{ symmetry. apply slice_ok. rewrite app_length. split; [lia|]. split; [lia|]. cbn [skipn].
      rewrite Nat.sub_0_r, firstn_app_len; auto. }
  cbn [obind].
  replace (slice (map vb_control (chunks 4 ns) ++ vb_data ns) (length (map vb_control (chunks 4 ns)))
             (length (map vb_control (chunks 4 ns) ++ vb_data ns)))
    with (Ok (vb_data ns)).
  2:{ symmetry. apply slice_ok. rewrite app_length. split; [lia|]. split; [lia|].
      rewrite skipn_app_len by auto. symmetry. apply firstn_all2. lia. }
  cbn [obind]. rewrite vb_loop by auto. cbn [obind fst snd].
  rewrite firstn_all, app_length. reflexivity.
Qed.

Lemma vb_encode_bytes ns : bytes_ok (vb_encode ns).
Proof.
  unfold vb_encode, bytes_ok. apply Forall_app. split.
  - apply Forall_forall. intros b Hb. apply in_map_iff in Hb as (q & <- & Hq).
    assert (Hl : forall q, length q <= 4 -> (vb_control q < 256)%N).
    { clear. intros q Hq.
      assert (forall q, (vb_control q < 4 ^ N.of_nat (length q))%N) as Hb.
      { clear. induction q as [|x t IH]; [cbn; lia|]. cbn [vb_control length].
        rewrite Nat2N.inj_succ, N.pow_succ_r'. pose proof (vb_tag_lt x). lia. }
      specialize (Hb q). eapply N.lt_le_trans; [exact Hb|].
      change 256%N with (4 ^ 4)%N. apply N.pow_le_mono_r; lia. }
    apply Hl. clear Hl. revert Hq. generalize ns. intros l.
    unfold chunks. generalize (length l) at 1. intros fuel. revert l.
    induction fuel as [|f IH]; intros l Hq; [destruct Hq|].
    destruct l as [|x l]; [destruct Hq|]. cbn [chunks_fuel] in Hq. destruct Hq as [<-|Hq].
    + rewrite firstn_length. lia.
    + eapply IH; eauto.
  - apply Forall_concat. apply Forall_map. apply Forall_forall. intros n _. apply le_enc_bytes.
Qed.

(** ** delta coding *)
Definition sortedN (l : list N) : Prop := StronglySorted N.le l.

Lemma delta_from_ok m prev l :
  sortedN (prev :: l) -> Forall is_u32 (prev :: l) ->
  exists ds, delta_encode_from m prev l = Ok ds /\ length ds = length l /\ Forall is_u32 ds /\
    delta_decode_from m prev ds = Ok l.
Proof.
  revert prev; induction l as [|x t IH]; intros prev Hs Hu.
  - exists []. repeat split; auto.
  - inversion Hs as [|? ? Hs' Hle]; subst. inversion Hu as [|? ? Hp Hu']; subst.
    destruct (IH x Hs' Hu') as (ds & E & HL & HU & D).
    cbn [delta_encode_from]. rewrite E. cbn [obind].
    inversion Hle as [|? ? Hpx _]; subst.
    unfold u32_sub. apply N.leb_le in Hpx as Hb. rewrite Hb. cbn [obind].
    inversion Hu' as [|? ? Hx _]; subst. unfold is_u32 in *.
    exists ((x - prev)%N :: ds). split; [reflexivity|]. split; [cbn; lia|]. split.
    + constructor; auto. lia.
    + cbn [delta_decode_from]. unfold u32_add.
      replace (x - prev + prev)%N with x by lia.
      assert (Hb2 : (x <? U32M)%N = true) by (apply N.ltb_lt; unfold U32M; lia).
      rewrite Hb2. cbn [obind]. rewrite D. reflexivity.
Qed.

Lemma delta_ok_all m l : sortedN l -> Forall is_u32 l ->
  exists ds, delta_encode m l = Ok ds /\ length ds = length l /\ Forall is_u32 ds /\ delta_decode m ds = Ok l.
Proof.
  destruct l as [|x t]; intros Hs Hu.
  - exists []. repeat split; auto.
  - destruct (delta_from_ok m Hs Hu) as (ds & E & HL & HU & D). cbn [delta_encode]. rewrite E. cbn [obind].
    exists (x :: ds). split; [reflexivity|]. split; [cbn; lia|]. inversion Hu; subst. split; [constructor; auto|].
    cbn [delta_decode]. rewrite D. reflexivity.
Qed.

(** ** set_encode / decode_into *)
Lemma u32_valid l : Forall is_u32 l -> Forall (uint_valid 4) l.
Proof. apply Forall_impl. unfold is_u32, uint_valid. cbn. auto. Qed.

Lemma u32r_ok : repr_ok u32r (uint_valid 4).
Proof. apply uint_repr_ok. lia. Qed.

Definition short_enough (m : mode) (n : nat) : Prop := match m with Debug => n < 255 | Release => n < 256 end.

Lemma set_encode_ok m l :
  sortedN l -> Forall is_u32 l -> short_enough m (length l) ->
  exists e, set_encode m l = Ok e /\ decode_into m e = Ok l /\ length e <= 1021 /\ 1 <= length e /\ bytes_ok e.
Proof.
  intros Hs Hu Hl. unfold set_encode.
  assert (Hd : debug_assert m (length l <? 255) = Ok tt).
  { destruct m; [|reflexivity]. apply Nat.ltb_lt in Hl. cbn [debug_assert]. now rewrite Hl. }
  rewrite Hd. cbn [obind].
  assert (Hl255 : length l <= 255) by (destruct m; unfold short_enough in Hl; lia).
  assert (Hr : (if 255 <=? length l then resize l 255 0%N else l) = l).
  { destruct (Nat.leb_spec 255 (length l)); auto. unfold resize.
    replace (255 - length l) with 0 by lia. cbn [repeat]. rewrite app_nil_r. apply firstn_all2. lia. }
  rewrite Hr. destruct (delta_ok_all m Hs Hu) as (ds & E & HL & HU & D).
  rewrite E. cbn [obind]. rewrite HL.
  set (ds' := if length l <? MIN_NUMBERS_TO_ENCODE then resize ds MIN_NUMBERS_TO_ENCODE 0%N else ds).
  assert (Hds' : exists k, ds' = ds ++ repeat 0%N k /\ length ds' = Nat.max 4 (length l)).
  { unfold ds', MIN_NUMBERS_TO_ENCODE. destruct (Nat.ltb_spec (length l) 4).
    - exists (4 - length ds). unfold resize. rewrite firstn_all2 by lia. split; auto.
      rewrite app_length, repeat_length. lia.
    - exists 0. cbn [repeat]. rewrite app_nil_r. split; auto. lia. }
  destruct Hds' as (k & Eds & HLds). clearbody ds'.
  assert (Hf : firstn (length l) ds' = ds) by (rewrite Eds; apply firstn_app_len; auto).
  assert (HUds : Forall is_u32 ds').
  { rewrite Eds. apply Forall_app. split; auto. apply Forall_forall. intros x Hx. apply repeat_spec in Hx.
    rewrite Hx. unfold is_u32. lia. }
  assert (Hc : (N.of_nat (length l) mod 256 = N.of_nat (length l))%N) by (apply N.mod_small; lia).
  rewrite Hc, Hf. eexists; split; [reflexivity|].
  assert (Hraw : length (concat (map (le_enc 4) ds)) = 4 * length l).
  { rewrite (@concat_length_const _ 4); [rewrite map_length; lia|].
    rewrite Forall_map. apply Forall_forall. intros. apply le_enc_length. }
  destruct (Nat.leb_spec (4 * length l) (length (vb_encode ds'))) as [Hcase|Hcase].
  - split; [|split; [|split]].
    + unfold decode_into. unfold index at 1. cbn [nth_error ounwrap obind].
      replace (slice (N.of_nat (length l) :: concat (map (le_enc 4) ds)) 1
                 (length (N.of_nat (length l) :: concat (map (le_enc 4) ds))))
        with (Ok (concat (map (le_enc 4) ds))).
      2:{ symmetry. apply slice_ok. cbn [length skipn]. split; [lia|]. split; [lia|].
          symmetry. apply firstn_all2. lia. }
      cbn [obind]. rewrite Nat2N.id, Hraw.
      replace (4 * length l =? length l * 4) with true by (symmetry; apply Nat.eqb_eq; lia). cbn [negb].
      rewrite chunks_exact_of_concat; [|lia|].
      2:{ rewrite Forall_map. apply Forall_forall. intros. apply le_enc_length. }
      rewrite firstn_all2 by (rewrite map_length; lia).
      pose proof (map_dec_enc u32r_ok (u32_valid HU)) as Em. cbn [rdec renc u32r uint_repr] in Em.
      rewrite Em. exact D.
    + cbn [length]. rewrite Hraw. lia.
    + cbn [length]. lia.
    + constructor; [unfold is_byte; lia|]. apply Forall_concat. apply Forall_map.
      apply Forall_forall. intros n _. apply le_enc_bytes.
  - split; [|split; [|split]].
    + unfold decode_into. unfold index at 1. cbn [nth_error ounwrap obind].
      replace (slice (N.of_nat (length l) :: vb_encode ds') 1
                 (length (N.of_nat (length l) :: vb_encode ds')))
        with (Ok (vb_encode ds')).
      2:{ symmetry. apply slice_ok. cbn [length skipn]. split; [lia|]. split; [lia|].
          symmetry. apply firstn_all2. lia. }
      cbn [obind]. rewrite Nat2N.id.
      replace (length (vb_encode ds') =? length l * 4) with false by (symmetry; apply Nat.eqb_neq; lia).
      cbn [negb]. change MIN_NUMBERS_TO_ENCODE with 4. rewrite <- HLds, (vb_round_trip HUds).
      cbn [obind fst snd]. rewrite Nat.eqb_refl.
      replace (debug_assert m true) with (@Ok unit tt) by (destruct m; reflexivity). cbn [obind].
      unfold resize. rewrite Hf. replace (length l - length ds') with 0 by lia. cbn [repeat].
      now rewrite app_nil_r.
    + cbn [length]. lia.
    + cbn [length]. lia.
    + constructor; [unfold is_byte; lia|]. apply vb_encode_bytes.
Qed.

(** over-long lists: debug builds refuse, release builds keep the first 255 *)
Lemma set_encode_long_debug l : 255 <= length l -> set_encode Debug l = Fail Panicked.
Proof.
  intros H. unfold set_encode. cbn [debug_assert].
  destruct (Nat.ltb_spec (length l) 255); [lia|]. reflexivity.
Qed.

Lemma set_encode_long_release l : 255 <= length l -> set_encode Release l = set_encode Release (firstn 255 l).
Proof.
  intros H. unfold set_encode. cbn [debug_assert obind].
  destruct (Nat.leb_spec 255 (length l)); [|lia].
  destruct (Nat.leb_spec 255 (length (firstn 255 l))) as [H1|H1].
  - unfold resize. rewrite firstn_firstn. rewrite firstn_length in *.
    replace (Nat.min 255 (length l)) with 255 by lia. replace (255 - length l) with 0 by lia.
    replace (Nat.min 255 255) with 255 by lia. rewrite Nat.sub_diag. reflexivity.
  - rewrite firstn_length in H1. lia.
Qed.

(** ** sorting *)
Lemma sort_u32_perm l : Permutation (sort_u32 l) l.
Proof. apply sort_by_perm. Qed.

Lemma N_leb_total x y : (x <=? y)%N = true \/ (y <=? x)%N = true.
Proof. destruct (N.leb_spec x y); auto. right. apply N.leb_le. lia. Qed.

Lemma sort_u32_sorted l : sortedN (sort_u32 l).
Proof.
  pose proof (@sort_by_sorted N N.leb) as H.
  assert (Hs : StronglySorted (fun a b => (a <=? b)%N = true) (sort_u32 l)).
  { apply H; [apply N_leb_total|]. intros x y z H1 H2. apply N.leb_le in H1, H2. apply N.leb_le. lia. }
  unfold sortedN. induction Hs as [|a t Hs IH Hf]; constructor; auto.
  eapply Forall_impl; [|exact Hf]. cbn. intros. now apply N.leb_le.
Qed.

Lemma sort_u32_u32 l : Forall is_u32 l -> Forall is_u32 (sort_u32 l).
Proof. intros H. eapply Permutation_Forall; [symmetry; apply sort_u32_perm|auto]. Qed.

Lemma sort_u32_length l : length (sort_u32 l) = length l.
Proof. apply Permutation_length, sort_u32_perm. Qed.

Lemma sortedN_firstn k l : sortedN l -> sortedN (firstn k l).
Proof.
  unfold sortedN. revert k; induction l as [|x t IH]; intros k H.
  - rewrite firstn_nil. constructor.
  - destruct k; cbn; [constructor|]. inversion H; subst. constructor; auto.
    apply Forall_forall. intros y Hy. rewrite Forall_forall in H3. apply H3.
    rewrite <- (firstn_skipn k t). apply in_or_app; auto.
Qed.

(** ** MultiSetVector *)
Definition stored (m : mode) (l : list N) : list N :=
  match m with Debug => sort_u32 l | Release => firstn 255 (sort_u32 l) end.

(** what [push] accepts *)
Definition push_ok (m : mode) (l : list N) : Prop :=
  Forall is_u32 l /\ match m with Debug => length l < 255 | Release => True end.

Lemma stored_short m l : length l <= 255 -> stored m l = sort_u32 l.
Proof. intros H. destruct m; [reflexivity|]. cbn [stored]. apply firstn_all2. rewrite sort_u32_length. auto. Qed.

Definition msv_is (m : mode) (rows : list (list N)) (v : msv) : Prop :=
  exists es, cvw_is es v /\
    Forall2 (fun r e => decode_into m e = Ok r /\ length e <= 1021 /\ 1 <= length e /\ bytes_ok e) rows es.

Lemma msv_is_new m : exists v, msv_new m = Ok v /\ msv_is m [] v.
Proof.
  destruct (@cvw_is_new N m) as (v & E & H). exists v. split; auto. exists []. split; auto.
Qed.

Lemma push_encode m l : push_ok m l ->
  exists e, set_encode m (sort_u32 l) = Ok e /\ decode_into m e = Ok (stored m l) /\
    length e <= 1021 /\ 1 <= length e /\ bytes_ok e.
Proof.
  intros [Hu Hl]. destruct (Nat.ltb_spec (length l) 256) as [Hs|Hs].
  - rewrite stored_short by lia. apply set_encode_ok.
    + apply sort_u32_sorted.
    + now apply sort_u32_u32.
    + rewrite sort_u32_length. destruct m; unfold short_enough; auto.
  - destruct m; [lia|]. rewrite set_encode_long_release by (rewrite sort_u32_length; lia).
    cbn [stored]. apply set_encode_ok.
    + apply sortedN_firstn, sort_u32_sorted.
    + apply sort_u32_u32 in Hu. rewrite Forall_forall in *. intros x Hx. apply Hu.
      rewrite <- (firstn_skipn 255 (sort_u32 l)). apply in_or_app; auto.
    + unfold short_enough. rewrite firstn_length, sort_u32_length. lia.
Qed.

Lemma msv_push_is m rows v l : msv_is m rows v -> push_ok m l ->
  exists v', msv_push m v l = Ok v' /\ msv_is m (rows ++ [stored m l]) v'.
Proof.
  intros (es & Hv & HF) Hp. destruct (push_encode Hp) as (e & E & D & Hl & Hl1 & Hb).
  unfold msv_push. rewrite E. cbn [obind].
  destruct (@cvw_push_is N m es v e Hv) as (v' & Ev & Hv'); [lia|].
  exists v'. split; auto. exists (es ++ [e]). split; auto. apply Forall2_app; auto.
Qed.

Lemma msv_len_is m rows v : msv_is m rows v -> msv_len v = Ok (length rows).
Proof.
  intros (es & Hv & HF). unfold msv_len. rewrite (cvw_len_is Hv). f_equal. symmetry.
  eapply Forall2_length; eauto.
Qed.

Lemma msv_get_is m rows v i r : msv_is m rows v -> nth_error rows i = Some r -> msv_get m v i = Ok r.
Proof.
  intros (es & Hv & HF) Hi. destruct (nth_error_Forall2 _ HF Hi) as (e & He & D & _).
  unfold msv_get. rewrite (cvw_get_is m i Hv He). exact D.
Qed.

Lemma u8r_ok : repr_ok u8r (uint_valid 1).
Proof. apply uint_repr_ok. lia. Qed.

Lemma msv_is_bytes_valid m rows es :
  Forall2 (fun r e => decode_into m e = Ok r /\ length e <= 1021 /\ 1 <= length e /\ bytes_ok e) rows es ->
  Forall (uint_valid 1) (concat es).
Proof.
  induction 1 as [|r e rows es (_ & _ & _ & Hb) H IH]; cbn; [constructor|]. apply Forall_app. split; auto.
Qed.

Lemma msv_is_total m rows es :
  Forall2 (fun r e => decode_into m e = Ok r /\ length e <= 1021 /\ 1 <= length e /\ bytes_ok e) rows es ->
  length rows <= length (concat es) <= 1021 * length rows.
Proof.
  induction 1 as [|r e rows es (_ & H1 & H2 & _) H IH]; cbn [concat length]; [lia|].
  rewrite app_length. lia.
Qed.
