(** * Proofs: when the metadata block fits *)
From Verif Require Import Base BaseFacts Bytes PBytes MSliceVec SSliceVec PFixed PVar PCursor MOffsets SOffsets POffsets MSetVec PSetVec PSetVecWrite MJson PJson MIndexIo SIndexIo PIndexIo SMeta.
From Coq Require Import Decimal DecimalNat DecimalN.
Set Implicit Arguments. Unset Strict Implicit.

Lemma uint_acc_lt u acc : (Npos (Pos.of_uint_acc u acc) < (Npos acc + 1) * 10 ^ N.of_nat (length (uint_bytes u)))%N.
Proof.
  revert acc; induction u; intros acc; cbn [uint_bytes length Pos.of_uint_acc];
    try (rewrite Nat2N.inj_succ, N.pow_succ_r'; eapply N.lt_le_trans; [apply IHu|]; rewrite N.mul_assoc; apply N.mul_le_mono_r; lia).
  cbn. lia.
Qed.
Lemma uint_lt u : (N.of_uint u < 10 ^ N.of_nat (length (uint_bytes u)))%N.
Proof.
  induction u; cbn [uint_bytes length]; try (rewrite Nat2N.inj_succ, N.pow_succ_r');
  try (cbn [N.of_uint Pos.of_uint]; eapply N.lt_le_trans; [apply uint_acc_lt|]; apply N.mul_le_mono_r; lia).
  - cbn. lia.
  - change (N.of_uint (D0 u)) with (N.of_uint u). lia.
Qed.
Lemma digits_decimals n : decimals n (length (digits (N.of_nat n))).
Proof.
  split; [apply digits_len_pos|]. split.
  - unfold digits. rewrite <- (DecimalN.Unsigned.of_to (N.of_nat n)) at 1. apply uint_lt.
  - destruct (Nat.eq_dec (length (digits (N.of_nat n))) 1) as [E|E]; [now left|right]. pose proof (digits_len_pos (N.of_nat n)) as Hp.
    destruct (N.le_gt_cases (10 ^ N.of_nat (length (digits (N.of_nat n)) - 1)) (N.of_nat n)) as [H|H]; [exact H|].
    exfalso. apply digits_len in H; lia.
Qed.

Lemma nums_len_sum l : nums_len l = list_sum (map (fun x => length (digits (N.of_nat x))) l) + (length l - 1).
Proof.
  induction l as [|x [|y l] IH]; [reflexivity|rewrite nums_len_1; cbn; lia|].
  rewrite nums_len_cons, IH. cbn [map list_sum fold_right length]. cbn. lia.
Qed.
Lemma decimals_map l : Forall2 decimals l (map (fun x => length (digits (N.of_nat x))) l).
Proof. induction l; constructor; auto using digits_decimals. Qed.
Lemma last_map_len (G : list (list (list N))) : last (map (@length (list N)) G) 0 = length (last G []).
Proof. induction G as [|g [|h G] IH]; try reflexivity. exact IH. Qed.

Lemma write_exact m L G c : index_is m L G -> G <> [] -> last G [[]] <> [] ->
  exists mvs ns, Forall2 (comp_layer_is m) mvs G /\ get_neighbors m L 0 (length G - 1) = Ok ns /\ length ns <= 254 /\
    (if length (metadata_text (length ns) (map (@length (list N)) G) (map (fun v => length (bytes_of v)) mvs)) <=? METADATA_LEN
     then exists c', write_index m L c = Ok c' else write_index m L c = Fail Panicked).
Proof.
  intros HI Hne Hlast. destruct (nn_of_ok HI Hlast) as (nn & Enn & Hnn). pose proof (index_is_shows HI) as HS.
  unfold nn_of in Enn. rewrite (proj1 HS) in Enn.
  assert (Hpos : 0 <? length G = true) by (apply Nat.ltb_lt; destruct G; [congruence|cbn; lia]). rewrite Hpos in Enn.
  destruct (get_neighbors m L 0 (length G - 1)) as [ns|] eqn:En; [|discriminate]. cbn [obind] in Enn. assert (nn = length ns) by congruence. subst nn.
  destruct (layers_save HI) as (mvs & HM & Hops). destruct (Hops (cpos c + METADATA_LEN)) as (ops & E & _).
  exists mvs, ns. split; [exact HM|]. split; [reflexivity|]. split; [exact Hnn|].
  unfold write_index, write_index_ops, write_index_parts. rewrite (proj1 HS), Hpos, En. cbn [obind].
  pose proof (layer_counts_ok HS) as Hc. rewrite (proj1 HS) in Hc. rewrite Hc. cbn [obind]. rewrite E. cbn [obind].
  destruct (_ <=? METADATA_LEN); cbn [oassert obind]; eauto.
Qed.

(** layers are small *)
Lemma bytes_of_ge m v g : comp_layer_is m v g -> layer_fits (length g) -> length g <= length (bytes_of v).
Proof.
  intros Hv Hf. apply comp_layer_is_msv in Hv. assert (Hf' : layer_fits (length (map sort_u32 g))) by now rewrite map_length.
  destruct (msv_round_trip Hv Hf') as [_ E]. fold (bytes_of v) in E.
  rewrite <- E. destruct Hv as (es & [Ho Hd] & HF). pose proof (msv_is_total _ HF) as Ht.
  unfold msv_write, cvw_write. cbn [snd]. unfold write_as_bytes_count. cbn [rsize chunk_repr u8r uint_repr].
  rewrite Hd. rewrite map_length in *. lia.
Qed.
Lemma bytes_of_small m v g : comp_layer_is m v g -> layer_fits (length g) -> (N.of_nat (length g) < 2 ^ 32)%N ->
  length g <= length (bytes_of v) /\ (N.of_nat (length (bytes_of v)) < 10 ^ 13)%N.
Proof.
  intros Hv Hf Hs. apply comp_layer_is_msv in Hv. assert (Hf' : layer_fits (length (map sort_u32 g))) by now rewrite map_length.
  destruct (msv_round_trip Hv Hf') as [_ E]. fold (bytes_of v) in E.
  rewrite <- E. destruct Hv as (es & [Ho Hd] & HF). pose proof (msv_is_total _ HF) as Ht.
  unfold msv_write, cvw_write. cbn [snd]. unfold write_as_bytes_count.
  pose proof (offs_is_bytes Ho) as Hb. rewrite offsets_from_length in Hb. unfold offs_num_bytes in Hb.
  cbn [rsize chunk_repr u8r uint_repr]. rewrite Hb, Hd. pose proof (Forall2_length HF) as HL. rewrite <- HL.
  rewrite map_length in *. change CHUNK_SIZE with 128. change (2 ^ 32)%N with 4294967296%N in Hs. change (10 ^ 13)%N with 10000000000000%N.
  assert ((S (length g) - 1) / 60 <= length g) by (apply Nat.div_le_upper_bound; lia). lia.
Qed.

Lemma comp_counts m mvs G : Forall2 (comp_layer_is m) mvs G -> Forall (fun g => layer_fits (length g)) G ->
  Forall (fun g => (N.of_nat (length g) < 2 ^ 32)%N) G ->
  Forall (fun n => (N.of_nat n < 10 ^ N.of_nat 13)%N) (map (fun v => length (bytes_of v)) mvs).
Proof.
  induction 1 as [|v g mvs G Hv H IH]; intros Hf Hs; inversion Hf; inversion Hs; subst; cbn [map]; constructor; auto.
  now apply (bytes_of_small Hv).
Qed.
Lemma comp_counts_ge m mvs G d : Forall2 (comp_layer_is m) mvs G -> Forall (fun g => layer_fits (length g)) G ->
  Forall (fun g => (10 ^ N.of_nat d <= N.of_nat (length g))%N) G ->
  Forall (fun n => (10 ^ N.of_nat d <= N.of_nat n)%N) (map (fun v => length (bytes_of v)) mvs).
Proof.
  induction 1 as [|v g mvs G Hv H IH]; intros Hf Hs; inversion Hf; inversion Hs; subst; cbn [map]; constructor; auto.
  pose proof (bytes_of_ge Hv ltac:(assumption)). lia.
Qed.
Lemma nums_len_lt k l : 0 < k -> Forall (fun n => (N.of_nat n < 10 ^ N.of_nat k)%N) l -> l <> [] ->
  nums_len l + 1 <= (k + 1) * length l.
Proof.
  intros Hk H Hl. rewrite nums_len_sum.
  assert (list_sum (map (fun x => length (digits (N.of_nat x))) l) <= k * length l).
  { clear Hl. induction H as [|x l Hx H IH]; [cbn; lia|]. pose proof (digits_len Hk Hx). cbn [map list_sum fold_right length] in *. cbn. unfold list_sum in *. lia. }
  destruct l; [congruence|]. cbn [length] in *. lia.
Qed.
Lemma digits_ge n d : (10 ^ N.of_nat d <= N.of_nat n)%N -> d + 1 <= length (digits (N.of_nat n)).
Proof.
  intros H. destruct (digits_decimals n) as (_ & Hlt & _).
  destruct (Nat.le_gt_cases (d + 1) (length (digits (N.of_nat n)))) as [|Hc]; [assumption|exfalso].
  assert (10 ^ N.of_nat (length (digits (N.of_nat n))) <= 10 ^ N.of_nat d)%N by (apply N.pow_le_mono_r; lia). lia.
Qed.
Lemma nums_len_ge_dec d l : Forall (fun n => (10 ^ N.of_nat d <= N.of_nat n)%N) l -> (d + 2) * length l <= nums_len l + 1.
Proof.
  intros H. rewrite nums_len_sum.
  assert ((d + 1) * length l <= list_sum (map (fun x => length (digits (N.of_nat x))) l)).
  { induction H as [|x l Hx H IH]; [cbn; lia|]. pose proof (digits_ge Hx). cbn [map list_sum fold_right length] in *. cbn. unfold list_sum in *. lia. }
  destruct l; cbn [length] in *; lia.
Qed.
