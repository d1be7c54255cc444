(** * Proofs about compressed offset tables and compressed slice vectors *)
From Verif Require Import Base BaseFacts Bytes PBytes MSliceVec SSliceVec PFixed PVar MOffsets SOffsets.
Set Implicit Arguments.

Opaque DUNUSED.

Lemma Forall2_length {A B} (P : A -> B -> Prop) l1 l2 : Forall2 P l1 l2 -> length l1 = length l2.
Proof. induction 1; cbn; auto. Qed.

(** running sums of deltas *)
Fixpoint psums (ini : nat) (ds : list N) : list nat :=
  match ds with
  | [] => []
  | d :: t => (ini + N.to_nat d) :: psums (ini + N.to_nat d) t
  end.

Lemma psums_length ini ds : length (psums ini ds) = length ds.
Proof. revert ini; induction ds; intros; cbn; auto. Qed.

Lemma last_cons {A} (x : A) l d : last (x :: l) d = last l x.
Proof.
  revert x d; induction l as [|y t IH]; intros x d; [reflexivity|].
  change (last (x :: y :: t) d) with (last (y :: t) d). rewrite !IH. reflexivity.
Qed.

Lemma psums_app ini ds d :
  psums ini (ds ++ [d]) = psums ini ds ++ [last (psums ini ds) ini + N.to_nat d].
Proof.
  revert ini; induction ds as [|x t IH]; intros ini; cbn [psums app]; [reflexivity|].
  rewrite IH. cbn [app]. f_equal. f_equal. f_equal. f_equal. now rewrite last_cons.
Qed.

Lemma last_nth {A} (l : list A) d : l <> [] -> last l d = nth (length l - 1) l d.
Proof.
  induction l as [|x t IH]; [congruence|]. intros _.
  destruct t as [|y t]; [reflexivity|].
  change (last (x :: y :: t) d) with (last (y :: t) d). rewrite IH by congruence.
  cbn [length]. replace (S (S (length t)) - 1) with (S (S (length t) - 1)) by lia. reflexivity.
Qed.

Definition delta_ok (d : N) : Prop := (d < 65535)%N.

Definition chunk_is (c : chunk) (ini : nat) (ds : list N) : Prop :=
  cinitial c = ini /\ cdeltas c = ds ++ repeat DUNUSED (60 - length ds) /\
  length ds <= 60 /\ Forall delta_ok ds.

Lemma dunused_val : DUNUSED = 65535%N.
Proof. reflexivity. Qed.

Lemma delta_ok_neq d : delta_ok d -> (d =? DUNUSED)%N = false.
Proof. unfold delta_ok. rewrite dunused_val. intros. apply N.eqb_neq. lia. Qed.

Lemma chunk_is_new ini : chunk_is (chunk_new ini) ini [].
Proof. repeat split; cbn; auto; lia. Qed.

Section Chunk.
  Context (c : chunk) (ini : nat) (ds : list N) (H : chunk_is c ini ds).

  Lemma chunk_len_is : chunk_len c = length ds.
  Proof.
    destruct H as (Hi & Hd & Hl & Hf). unfold chunk_len. rewrite Hd.
    rewrite take_while_app_stop; auto.
    - eapply Forall_impl; [|exact Hf]. cbn. intros d Hd'. now rewrite delta_ok_neq.
    - destruct (60 - length ds); cbn; [exact I|]. now rewrite N.eqb_refl.
  Qed.

  Lemma deltas_nth i : i < length ds -> nth i (cdeltas c) DUNUSED = nth i ds DUNUSED.
  Proof. intros Hi. destruct H as (_ & Hd & _). rewrite Hd, app_nth1; auto. Qed.

  Lemma deltas_nth_out i : length ds <= i -> nth i (cdeltas c) DUNUSED = DUNUSED.
  Proof.
    intros Hi. destruct H as (_ & Hd & _). rewrite Hd, app_nth2 by auto. apply nth_repeat.
  Qed.

  Lemma chunk_is_empty_is : chunk_is_empty c = (length ds =? 0).
  Proof.
    unfold chunk_is_empty. destruct (Nat.eqb_spec (length ds) 0).
    - rewrite deltas_nth_out by lia. apply N.eqb_refl.
    - rewrite deltas_nth by lia. apply delta_ok_neq.
      destruct H as (_ & _ & _ & Hf). rewrite Forall_forall in Hf. apply Hf. apply nth_In. lia.
  Qed.

  Lemma chunk_is_full_is : chunk_is_full c = (length ds =? 60).
  Proof.
    unfold chunk_is_full. cbn [OFFSETS_PER_CHUNK Nat.sub].
    destruct H as (_ & _ & Hl & Hf).
    destruct (Nat.eqb_spec (length ds) 60) as [E|E].
    - rewrite deltas_nth by (unfold OFFSETS_PER_CHUNK; lia). rewrite delta_ok_neq; auto.
      rewrite Forall_forall in Hf. apply Hf. apply nth_In. unfold OFFSETS_PER_CHUNK; lia.
    - rewrite deltas_nth_out by (unfold OFFSETS_PER_CHUNK; lia). now rewrite N.eqb_refl.
  Qed.

  Lemma chunk_get_sum m k :
    k <= length ds ->
    ofold (fun res i =>
                 let* d := index (cdeltas c) i in
                 let* _ := debug_assert m (negb (DUNUSED =? d)%N) in
                 Ok (res + N.to_nat d))
               (seq 0 k) 0
    = Ok (last (psums 0 (firstn k ds)) 0).
  Proof.
    induction k as [|k IH]; intros Hk; [reflexivity|].
    rewrite seq_S, ofold_app, IH by lia. cbn [obind ofold Nat.add].
    destruct (nth_error ds k) as [d|] eqn:Ed; [|apply nth_error_None in Ed; lia].
    assert (Hi : index (cdeltas c) k = Ok d).
    { apply index_ok. destruct H as (_ & Hd & _). rewrite Hd, nth_error_app1; auto. }
    rewrite Hi. cbn [obind].
    assert (Hdk : delta_ok d).
    { destruct H as (_ & _ & _ & Hf). rewrite Forall_forall in Hf. apply Hf. eapply nth_error_In; eauto. }
    rewrite N.eqb_sym, (delta_ok_neq Hdk). cbn [negb].
    replace (debug_assert m true) with (@Ok unit tt) by (destruct m; reflexivity). cbn [obind].
    assert (Ef : firstn (S k) ds = firstn k ds ++ [d]).
    { clear -Ed. revert k Ed. induction ds as [|x t IH]; intros [|k] Ed; cbn in *; try discriminate.
      - now inversion Ed.
      - f_equal. now apply IH. }
    rewrite Ef, psums_app. rewrite last_last. reflexivity.
  Qed.

  Lemma psums_shift a k l : last (psums (a + k) l) (a + k) = k + last (psums a l) a.
  Proof.
    revert a k; induction l as [|d t IH]; intros a k; cbn [psums].
    - cbn. lia.
    - rewrite !last_cons. replace (a + k + N.to_nat d) with ((a + N.to_nat d) + k) by lia.
      apply IH.
  Qed.

  Lemma psums_last_nth a k : 0 < k -> k <= length ds ->
    last (psums a (firstn k ds)) a = nth (k - 1) (psums a ds) 0.
  Proof.
    revert a k. clear. induction ds as [|d t IH]; intros a k Hk Hl; cbn in Hl; [lia|].
    destruct k as [|k]; [lia|]. cbn [firstn psums]. rewrite last_cons.
    destruct k as [|k]; [reflexivity|].
    rewrite IH by lia. replace (S (S k) - 1) with (S (S k - 1)) by lia. reflexivity.
  Qed.

  Lemma chunk_get_is m i : i < length ds -> chunk_get m c i = Ok (nth i (psums ini ds) 0).
  Proof.
    intros Hi. destruct H as (Hini & _ & Hl & _). unfold chunk_get.
    destruct (Nat.ltb_spec i OFFSETS_PER_CHUNK); [|unfold OFFSETS_PER_CHUNK in *; lia].
    cbn [oassert obind]. rewrite chunk_get_sum by lia. cbn [obind]. f_equal. rewrite Hini.
    pose proof (psums_shift 0 ini (firstn (i + 1) ds)) as E. cbn [Nat.add] in E.
    rewrite Nat.add_comm. rewrite <- E. rewrite psums_last_nth by lia. f_equal. lia.
  Qed.

  Lemma psums_nth_S a i : S i < length ds ->
    nth (S i) (psums a ds) 0 = nth i (psums a ds) 0 + N.to_nat (nth (S i) ds 0%N).
  Proof.
    revert a i. clear. induction ds as [|d t IH]; intros a i Hi; cbn in Hi; [lia|].
    cbn [psums nth]. destruct t as [|d' t]; [cbn in Hi; lia|].
    destruct i as [|i].
    - reflexivity.
    - apply (IH (a + N.to_nat d) i). lia.
  Qed.

  Lemma chunk_get_consecutive_is m i : i + 1 < length ds ->
    chunk_get_consecutive m c i = Ok (nth i (psums ini ds) 0, nth (i + 1) (psums ini ds) 0).
  Proof.
    intros Hi. unfold chunk_get_consecutive. pose proof H as (Hini & Hd & Hl & _).
    destruct (Nat.ltb_spec (i + 1) OFFSETS_PER_CHUNK); [|unfold OFFSETS_PER_CHUNK in *; lia].
    cbn [oassert obind]. rewrite chunk_get_is by lia. cbn [obind].
    assert (Hx : index (cdeltas c) (i + 1) = Ok (nth (i + 1) ds 0%N)).
    { apply index_ok. rewrite Hd, nth_error_app1 by lia. now apply nth_error_nth'. }
    rewrite Hx. cbn [obind]. f_equal. f_equal.
    replace (i + 1) with (S i) by lia. rewrite psums_nth_S by lia. reflexivity.
  Qed.

  Lemma chunk_last_is m : chunk_last m c =
    Ok (match ds with [] => None | _ => Some (last (psums ini ds) 0) end).
  Proof.
    unfold chunk_last. rewrite chunk_is_empty_is, chunk_len_is.
    destruct ds as [|d t] eqn:Eds; [reflexivity|].
    rewrite <- Eds in *. assert (Hne : 0 < length ds) by (rewrite Eds; cbn; lia).
    destruct (Nat.eqb_spec (length ds) 0); [lia|].
    rewrite chunk_get_is by lia. cbn [omap]. f_equal. f_equal.
    rewrite last_nth by (rewrite Eds; discriminate). now rewrite psums_length.
  Qed.

  Lemma chunk_push_is m x :
    length ds < 60 ->
    last (psums ini ds) ini <= x ->
    (N.of_nat (x - last (psums ini ds) ini) < 65535)%N ->
    exists c', chunk_push m c x = Ok c' /\
      chunk_is c' ini (ds ++ [N.of_nat (x - last (psums ini ds) ini)]) /\
      psums ini (ds ++ [N.of_nat (x - last (psums ini ds) ini)]) = psums ini ds ++ [x].
  Proof.
    intros Hl Hge Hd. pose proof H as (Hini & Hde & _ & Hf).
    set (lst := last (psums ini ds) ini) in *.
    unfold chunk_push. rewrite chunk_is_full_is.
    destruct (Nat.eqb_spec (length ds) 60); [lia|]. cbn [negb oassert obind].
    rewrite chunk_last_is. cbn [obind].
    assert (El : match match ds with [] => None | _ => Some (last (psums ini ds) 0) end with
                 | Some x0 => x0 | None => cinitial c end = lst).
    { unfold lst. destruct ds as [|d t]; [exact Hini|]. cbn [psums]. now rewrite !last_cons. }
    rewrite El. apply Nat.leb_le in Hge as Hb. rewrite Hb. cbn [oassert obind].
    assert (Hb2 : (N.of_nat (x - lst) <=? 65535)%N = true) by (apply N.leb_le; lia).
    rewrite Hb2. cbn [oassert obind]. rewrite chunk_len_is.
    assert (Hlen : length (cdeltas c) = 60).
    { rewrite Hde, app_length, repeat_length. lia. }
    replace (store (cdeltas c) (length ds) (N.of_nat (x - lst)))
      with (Ok (set_nth (cdeltas c) (length ds) (N.of_nat (x - lst))))
      by (symmetry; apply store_ok; split; [lia|auto]).
    cbn [obind]. eexists; split; [reflexivity|]. split.
    - repeat split; cbn [cinitial cdeltas]; auto.
      + rewrite Hde, set_nth_app.
        destruct (Nat.ltb_spec (length ds) (length ds)); [lia|].
        rewrite Nat.sub_diag, app_length. cbn [length].
        replace (60 - length ds) with (S (60 - (length ds + 1))) by lia. cbn [repeat set_nth].
        now rewrite <- app_assoc.
      + rewrite app_length. cbn. lia.
      + apply Forall_app. split; auto.
    - rewrite psums_app. f_equal. f_equal. fold lst. rewrite Nat2N.id. lia.
  Qed.

  (** a delta that the type cannot hold, or a decrease, is refused *)
  Lemma chunk_push_refused m x :
    length ds < 60 ->
    x < last (psums ini ds) ini \/ (65535 < N.of_nat (x - last (psums ini ds) ini))%N ->
    chunk_push m c x = Fail Panicked.
  Proof.
    intros Hl Hbad. pose proof H as (Hini & Hde & _ & Hf).
    set (lst := last (psums ini ds) ini) in *.
    unfold chunk_push. rewrite chunk_is_full_is.
    destruct (Nat.eqb_spec (length ds) 60); [lia|]. cbn [negb oassert obind].
    rewrite chunk_last_is. cbn [obind].
    assert (El : match match ds with [] => None | _ => Some (last (psums ini ds) 0) end with
                 | Some x0 => x0 | None => cinitial c end = lst).
    { unfold lst. destruct ds as [|d t]; [exact Hini|]. cbn [psums]. now rewrite !last_cons. }
    rewrite El. destruct (Nat.leb_spec lst x); cbn [oassert obind]; [|reflexivity].
    destruct Hbad as [Hb|Hb]; [lia|].
    assert (Hb2 : (N.of_nat (x - lst) <=? 65535)%N = false) by (apply N.leb_gt; lia).
    rewrite Hb2. reflexivity.
  Qed.

  (** the sentinel delta is accepted but not recorded *)
  Lemma chunk_push_sentinel m x :
    length ds < 60 -> x = last (psums ini ds) ini + N.to_nat 65535 -> chunk_push m c x = Ok c.
  Proof.
    intros Hl Hx. pose proof H as (Hini & Hde & _ & Hf).
    set (lst := last (psums ini ds) ini) in *.
    unfold chunk_push. rewrite chunk_is_full_is.
    destruct (Nat.eqb_spec (length ds) 60); [lia|]. cbn [negb oassert obind].
    rewrite chunk_last_is. cbn [obind].
    assert (El : match match ds with [] => None | _ => Some (last (psums ini ds) 0) end with
                 | Some x0 => x0 | None => cinitial c end = lst).
    { unfold lst. destruct ds as [|d t]; [exact Hini|]. cbn [psums]. now rewrite !last_cons. }
    rewrite El. destruct (Nat.leb_spec lst x) as [Hle|Hlt]; [|exfalso; rewrite Hx in Hlt; lia].
    cbn [oassert obind].
    assert (Ed : N.of_nat (x - lst) = 65535%N).
    { rewrite Hx. rewrite Nat.add_comm, Nat.add_sub. apply N2Nat.id. }
    rewrite Ed. rewrite N.leb_refl. cbn [oassert obind]. rewrite chunk_len_is.
    assert (Hlen : length (cdeltas c) = 60).
    { rewrite Hde, app_length, repeat_length. lia. }
    replace (store (cdeltas c) (length ds) 65535%N)
      with (Ok (set_nth (cdeltas c) (length ds) 65535%N))
      by (symmetry; apply store_ok; split; [lia|auto]).
    cbn [obind]. f_equal. destruct c as [ci cd]. cbn [cinitial cdeltas] in *. f_equal.
    apply nth_error_ext. intros i. rewrite nth_error_set_nth.
    destruct (Nat.eqb_spec (length ds) i) as [Ei|Ei]; cbn [andb]; auto.
    destruct (Nat.ltb_spec (length ds) (length cd)); auto.
    subst i. rewrite Hde, nth_error_app2, Nat.sub_diag by lia.
    assert (Hr : nth_error (repeat DUNUSED (60 - length ds)) 0 = Some DUNUSED) by (clear -Hl; destruct (60 - length ds) eqn:E0; [lia|reflexivity]). rewrite Hr. now rewrite dunused_val.
  Qed.
End Chunk.

(** ** Offsets *)
Definition seg := (nat * list N)%type.
Definition seg_offs (s : seg) : list nat := psums (fst s) (snd s).

(** [offs_is o os]: the table [o] stores the sequence [os]. *)
Definition offs_is (o : offsets) (os : list nat) : Prop :=
  exists ocs lc isegs (lseg : seg),
    o = ocs ++ [lc] /\
    Forall2 (fun c (s : seg) => chunk_is c (fst s) (snd s)) ocs isegs /\
    Forall (fun s : seg => length (snd s) = 60) isegs /\
    chunk_is lc (fst lseg) (snd lseg) /\
    os = concat (map seg_offs isegs) ++ seg_offs lseg /\
    (isegs = [] -> fst lseg = 0) /\
    (isegs <> [] -> snd lseg <> []).

Lemma segs_concat_len isegs :
  Forall (fun s : seg => length (snd s) = 60) isegs ->
  length (concat (map seg_offs isegs)) = length isegs * 60.
Proof.
  intros H. rewrite (@concat_length_const _ 60); [now rewrite map_length|].
  rewrite Forall_map. eapply Forall_impl; [|exact H]. cbn. intros s Hs. unfold seg_offs.
  now rewrite psums_length.
Qed.

Lemma olast_snoc {A} (l : list A) x : olast (l ++ [x]) = Ok x.
Proof.
  unfold olast. apply index_ok. rewrite app_length. cbn [length].
  rewrite nth_error_app2 by lia. replace (length l + 1 - 1 - length l) with 0 by lia. reflexivity.
Qed.

Lemma offs_is_new : offs_is offs_new [].
Proof.
  exists [], (chunk_new 0), [], (0, []). repeat split; auto; cbn; try lia.
  all: try constructor.
Qed.


Lemma offs_is_len o os : offs_is o os -> offs_len o = Ok (length os).
Proof.
  intros (ocs & lc & isegs & [ini ds] & -> & HF & Hfull & Hc & -> & _ & _). cbn [fst snd] in *.
  unfold offs_len. rewrite olast_snoc. cbn [obind]. rewrite (chunk_len_is Hc).
  rewrite !app_length, (segs_concat_len Hfull). unfold seg_offs. cbn [fst snd length].
  rewrite psums_length. f_equal.
  rewrite <- (Forall2_length HF). unfold OFFSETS_PER_CHUNK. lia.
Qed.

Lemma offs_is_bytes o os : offs_is o os -> offs_num_bytes o = (1 + (length os - 1) / 60) * CHUNK_SIZE.
Proof.
  intros (ocs & lc & isegs & [ini ds] & -> & HF & Hfull & Hc & -> & H0 & H1). cbn [fst snd] in *.
  unfold offs_num_bytes. f_equal. rewrite !app_length, (segs_concat_len Hfull), (Forall2_length HF).
  unfold seg_offs. cbn [fst snd length]. rewrite psums_length.
  destruct Hc as (_ & _ & Hl & _).
  destruct isegs as [|s t].
  - cbn [length Nat.mul Nat.add]. rewrite Nat.div_small by lia. reflexivity.
  - assert (Hd : ds <> []) by (apply H1; congruence). destruct ds as [|d ds]; [congruence|].
    cbn [length] in *. set (k := S (length t)).
    replace (k * 60 + S (length ds) - 1) with (length ds + k * 60) by lia.
    rewrite Nat.div_add by lia. rewrite Nat.div_small by lia. lia.
Qed.

Lemma nth_error_Forall2 {A B} (P : A -> B -> Prop) l1 l2 i a :
  Forall2 P l1 l2 -> nth_error l1 i = Some a -> exists b, nth_error l2 i = Some b /\ P a b.
Proof.
  intros H; revert i; induction H as [|x y l1 l2 Hxy H IH]; intros [|i] Hi; cbn in *; try discriminate.
  - inversion Hi; subst. eauto.
  - eauto.
Qed.

Lemma concat_nth_full isegs i :
  Forall (fun s : seg => length (snd s) = 60) isegs ->
  forall s, nth_error isegs (i / 60) = Some s ->
  nth_error (concat (map seg_offs isegs)) i = nth_error (seg_offs s) (i mod 60).
Proof.
  intros H. revert i; induction H as [|s t Hs Ht IH]; intros i s' Hn.
  - destruct (i / 60); discriminate.
  - cbn [map concat]. assert (Hls : length (seg_offs s) = 60) by (unfold seg_offs; now rewrite psums_length).
    destruct (Nat.ltb_spec i 60).
    + rewrite Nat.div_small in Hn by auto. cbn in Hn. inversion Hn; subst.
      rewrite nth_error_app1 by lia. now rewrite Nat.mod_small.
    + rewrite nth_error_app2 by lia. rewrite Hls.
      replace i with ((i - 60) + 1 * 60) in Hn by lia. rewrite Nat.div_add in Hn by lia.
      replace ((i - 60) / 60 + 1) with (S ((i - 60) / 60)) in Hn by lia. cbn in Hn.
      rewrite (IH _ _ Hn). f_equal. replace i with ((i - 60) + 1 * 60) at 2 by lia.
      now rewrite Nat.mod_add.
Qed.

(** where index [i] lives *)
Lemma offs_locate o os i : offs_is o os -> i < length os ->
  exists c ini ds, index o (i / 60) = Ok c /\ chunk_is c ini ds /\ i mod 60 < length ds /\
    nth_error os i = nth_error (psums ini ds) (i mod 60) /\
    (forall k, i mod 60 + k < length ds -> nth_error os (i + k) = nth_error (psums ini ds) (i mod 60 + k)) /\
    (i + 1 < length os -> (i + 1) mod 60 <> 0 -> i mod 60 + 1 < length ds).
Proof.
  intros (ocs & lc & isegs & [ini ds] & -> & HF & Hfull & Hc & -> & H0 & H1) Hi. cbn [fst snd] in *.
  rewrite app_length, (segs_concat_len Hfull) in Hi. unfold seg_offs in Hi at 1. cbn [fst snd] in Hi.
  rewrite psums_length in Hi. pose proof (Forall2_length HF) as HL.
  pose proof (Nat.div_mod i 60 ltac:(lia)) as Hdm. pose proof (Nat.mod_upper_bound i 60 ltac:(lia)) as Hmb.
  destruct (Nat.ltb_spec i (length isegs * 60)) as [Hlt|Hge].
  - assert (Hdiv : i / 60 < length ocs).
    { rewrite HL. apply Nat.div_lt_upper_bound; lia. }
    destruct (nth_error ocs (i / 60)) as [c|] eqn:Ec; [|apply nth_error_None in Ec; lia].
    destruct (nth_error_Forall2 _ HF Ec) as ([ini' ds'] & Es & Hc'). cbn [fst snd] in *.
    assert (Hds : length ds' = 60).
    { rewrite Forall_forall in Hfull. apply (Hfull (ini', ds')). eapply nth_error_In; eauto. }
    assert (Hk : forall k, i mod 60 + k < length ds' ->
       nth_error (concat (map seg_offs isegs) ++ seg_offs (ini, ds)) (i + k)
       = nth_error (psums ini' ds') (i mod 60 + k)).
    { intros k Hk. rewrite Hds in Hk.
      assert (Ediv : (i + k) / 60 = i / 60).
      { rewrite Hdm at 1. replace (60 * (i / 60) + i mod 60 + k) with ((i mod 60 + k) + (i / 60) * 60) by lia.
        rewrite Nat.div_add by lia. rewrite Nat.div_small by lia. reflexivity. }
      assert (Emod : (i + k) mod 60 = i mod 60 + k).
      { rewrite Hdm at 1. replace (60 * (i / 60) + i mod 60 + k) with ((i mod 60 + k) + (i / 60) * 60) by lia.
        rewrite Nat.mod_add by lia. now rewrite Nat.mod_small by lia. }
      rewrite nth_error_app1.
      - rewrite (@concat_nth_full isegs (i + k) Hfull (ini', ds')) by (rewrite Ediv; exact Es).
        now rewrite Emod.
      - rewrite (segs_concat_len Hfull). pose proof (Nat.div_mod (i + k) 60 ltac:(lia)). nia. }
    exists c, ini', ds'. split; [|split; [auto|split; [lia|split; [|split; [auto|]]]]].
    + apply index_ok. rewrite nth_error_app1; auto.
    + specialize (Hk 0). rewrite !Nat.add_0_r in Hk. apply Hk. lia.
    + intros _ Hm. rewrite Hds.
      assert ((i + 1) mod 60 = (i mod 60 + 1) mod 60).
      { rewrite Hdm at 1. replace (60 * (i / 60) + i mod 60 + 1) with ((i mod 60 + 1) + (i / 60) * 60) by lia.
        now rewrite Nat.mod_add by lia. }
      destruct (Nat.eq_dec (i mod 60) 59) as [E|E]; [|lia].
      exfalso. apply Hm. rewrite H, E. reflexivity.
  - destruct Hc as (Hini & Hde & Hl & Hf).
    assert (Ediv : i / 60 = length isegs) by nia.
    assert (Emod : i mod 60 = i - length isegs * 60) by nia.
    exists lc, ini, ds. split; [|split; [repeat split; auto|split; [lia|split; [|split]]]].
    + apply index_ok. rewrite Ediv, <- HL, nth_error_app2, Nat.sub_diag by lia. reflexivity.
    + rewrite nth_error_app2; rewrite (segs_concat_len Hfull); [|lia].
      unfold seg_offs. cbn [fst snd]. f_equal. lia.
    + intros k Hk. rewrite nth_error_app2; rewrite (segs_concat_len Hfull); [|lia].
      unfold seg_offs. cbn [fst snd]. f_equal. lia.
    + intros Hlt Hm. rewrite app_length, (segs_concat_len Hfull) in Hlt.
      unfold seg_offs in Hlt. cbn [fst snd] in Hlt. rewrite psums_length in Hlt. lia.
Qed.

Lemma nth_error_nth0 (l : list nat) i : i < length l -> nth_error l i = Some (nth i l 0).
Proof. apply nth_error_nth'. Qed.

Lemma offs_get_is m o os i : offs_is o os -> i < length os -> offs_get m o i = Ok (nth i os 0).
Proof.
  intros H Hi. destruct (offs_locate H Hi) as (c & ini & ds & Hidx & Hc & Hm & Hn & _).
  unfold offs_get. change OFFSETS_PER_CHUNK with 60. rewrite Hidx. cbn [obind].
  rewrite (chunk_get_is Hc m Hm). f_equal.
  rewrite (nth_error_nth0 _ Hi) in Hn. rewrite nth_error_nth0 in Hn by (rewrite psums_length; auto).
  congruence.
Qed.

Lemma offs_get_consecutive_is m o os i :
  offs_is o os -> i + 1 < length os ->
  offs_get_consecutive m o i = Ok (nth i os 0, nth (i + 1) os 0).
Proof.
  intros H Hi. unfold offs_get_consecutive. change OFFSETS_PER_CHUNK with 60.
  destruct (Nat.eqb_spec ((i + 1) mod 60) 0) as [E|E].
  - rewrite (offs_get_is m H) by lia. cbn [obind]. rewrite (offs_get_is m H) by lia. reflexivity.
  - destruct (@offs_locate o os i H) as (c & ini & ds & Hidx & Hc & Hm & Hn & Hk & Hc2); [lia|].
    rewrite Hidx. cbn [obind]. specialize (Hc2 Hi E).
    rewrite (chunk_get_consecutive_is Hc m _ Hc2). f_equal.
    specialize (Hk 1 Hc2).
    rewrite (@nth_error_nth0 os i) in Hn by lia. rewrite (@nth_error_nth0 os (i + 1)) in Hk by lia.
    rewrite nth_error_nth0 in Hn by (rewrite psums_length; lia).
    rewrite nth_error_nth0 in Hk by (rewrite psums_length; lia).
    congruence.
Qed.

Lemma offs_last_is m o os : offs_is o os ->
  offs_last m o = Ok (match os with [] => None | _ => Some (last os 0) end).
Proof.
  intros (ocs & lc & isegs & [ini ds] & -> & HF & Hfull & Hc & -> & H0 & H1). cbn [fst snd] in *.
  unfold offs_last. destruct (ocs ++ [lc]) eqn:E; [destruct ocs; discriminate|]. rewrite <- E.
  rewrite olast_snoc. cbn [obind]. rewrite (chunk_last_is Hc).
  destruct isegs as [|s t].
  - cbn [map concat app]. unfold seg_offs. cbn [fst snd]. destruct ds; reflexivity.
  - assert (Hd : ds <> []) by (apply H1; congruence). destruct ds as [|d ds]; [congruence|].
    set (pre := concat (map seg_offs (s :: t))). unfold seg_offs. cbn [fst snd].
    assert (Hne : psums ini (d :: ds) <> []) by discriminate.
    destruct (pre ++ psums ini (d :: ds)) eqn:E2.
    { apply app_eq_nil in E2 as [_ E2]. congruence. }
    rewrite <- E2. f_equal. f_equal.
    destruct (exists_last Hne) as (l' & a & ->). rewrite app_assoc, !last_last. reflexivity.
Qed.

Lemma last_app_ne {A} (a b : list A) d : b <> [] -> last (a ++ b) d = last b d.
Proof.
  intros Hb. destruct (exists_last Hb) as (l & x & ->). rewrite app_assoc, !last_last. reflexivity.
Qed.

Lemma last_indep {A} (l : list A) d d' : l <> [] -> last l d = last l d'.
Proof. intros Hb. destruct (exists_last Hb) as (l' & x & ->). now rewrite !last_last. Qed.

Lemma offs_push_is m o os x :
  offs_is o os -> next_offset_ok os x -> exists o', offs_push m o x = Ok o' /\ offs_is o' (os ++ [x]).
Proof.
  intros (ocs & lc & isegs & [ini ds] & -> & HF & Hfull & Hc & -> & H0 & H1) Hx. cbn [fst snd] in *.
  unfold offs_push. rewrite olast_snoc. cbn [obind]. rewrite (chunk_is_full_is Hc).
  pose proof Hc as (Hini & Hde & Hl & Hf).
  destruct (Nat.eqb_spec (length ds) 60) as [Efull|Enf].
  - destruct (@chunk_push_is (chunk_new x) x [] (chunk_is_new x) m x) as (c' & E & Hc' & Eo).
    + cbn; lia.
    + cbn; lia.
    + cbn. rewrite Nat.sub_diag. cbn. lia.
    + rewrite E. cbn [obind]. eexists; split; [reflexivity|].
      exists (ocs ++ [lc]), c', (isegs ++ [(ini, ds)]), (x, [N.of_nat (x - x)]).
      cbn [psums last fst snd app] in *.
      split; [reflexivity|]. split; [apply Forall2_app; auto|]. split; [apply Forall_app; auto|].
      split; [exact Hc'|]. split; [|split; [|discriminate]].
      * rewrite map_app, concat_app. cbn [map concat]. rewrite app_nil_r. f_equal.
        unfold seg_offs. cbn [fst snd psums]. cbn in Eo. inversion Eo as [Ey]. now rewrite Ey.
      * intros Hn. destruct isegs; discriminate.
  - assert (Hcase : last (psums ini ds) ini <= x /\ (N.of_nat (x - last (psums ini ds) ini) < 65535)%N).
    { assert (Hlast : last (concat (map seg_offs isegs) ++ seg_offs (ini, ds)) 0 = last (psums ini ds) ini).
      { unfold seg_offs at 2. cbn [fst snd]. destruct ds as [|d t].
        - destruct isegs; [cbn; rewrite H0; auto|]. exfalso. apply H1; auto. discriminate.
        - rewrite last_app_ne by discriminate. apply last_indep. discriminate. }
      destruct Hx as [[Hne Hmod]|[Hge Hlt]]; [|now rewrite Hlast in *].
      exfalso. rewrite app_length, (segs_concat_len Hfull) in Hmod. unfold seg_offs in Hmod. cbn [fst snd] in Hmod.
      rewrite psums_length, Nat.add_comm, Nat.mod_add in Hmod by lia.
      rewrite Nat.mod_small in Hmod by lia.
      destruct ds; [|discriminate]. destruct isegs.
      - cbn in Hne. congruence.
      - apply H1; auto. discriminate. }
    destruct Hcase as [Hge Hlt].
    destruct (@chunk_push_is lc ini ds Hc m x) as (c' & E & Hc' & Eo); auto; try lia.
    rewrite E. cbn [obind].
    replace (store (ocs ++ [lc]) (length (ocs ++ [lc]) - 1) c') with (Ok (ocs ++ [c'])).
    2:{ symmetry. apply store_ok. rewrite app_length. cbn [length]. split; [lia|].
        rewrite set_nth_app. destruct (Nat.ltb_spec (length ocs + 1 - 1) (length ocs)); [lia|].
        replace (length ocs + 1 - 1 - length ocs) with 0 by lia. reflexivity. }
    eexists; split; [reflexivity|].
    exists ocs, c', isegs, (ini, ds ++ [N.of_nat (x - last (psums ini ds) ini)]). cbn [fst snd].
    repeat split; auto; try apply Hc'.
    + rewrite <- app_assoc. f_equal. unfold seg_offs. cbn [fst snd]. now rewrite Eo.
    + intros _ Hx'. destruct ds; discriminate.
Qed.

Lemma offs_push_refused m o os x :
  offs_is o os ->
  (os = [] \/ length os mod 60 <> 0) ->
  (x < last os 0 \/ (65535 < N.of_nat (x - last os 0%nat))%N) ->
  offs_push m o x = Fail Panicked.
Proof.
  intros (ocs & lc & isegs & [ini ds] & -> & HF & Hfull & Hc & -> & H0 & H1) Hnb Hx. cbn [fst snd] in *.
  unfold offs_push. rewrite olast_snoc. cbn [obind]. rewrite (chunk_is_full_is Hc).
  pose proof Hc as (Hini & Hde & Hl & Hf).
  rewrite app_length, (segs_concat_len Hfull) in Hnb. unfold seg_offs in Hnb at 2 3. cbn [fst snd] in Hnb.
  rewrite psums_length, Nat.add_comm, Nat.mod_add in Hnb by lia.
  destruct (Nat.eqb_spec (length ds) 60) as [Efull|Enf].
  - exfalso. destruct Hnb as [Hnb|Hnb].
    + apply app_eq_nil in Hnb as [_ Hnb]. destruct ds; [cbn in Efull; lia|discriminate].
    + rewrite Efull in Hnb. apply Hnb. reflexivity.
  - assert (Hlast : last (concat (map seg_offs isegs) ++ seg_offs (ini, ds)) 0 = last (psums ini ds) ini).
    { unfold seg_offs at 2. cbn [fst snd]. destruct ds as [|d t].
      - destruct isegs; [cbn; rewrite H0; auto|]. exfalso. apply H1; auto. discriminate.
      - rewrite last_app_ne by discriminate. apply last_indep. discriminate. }
    rewrite Hlast in Hx. rewrite (chunk_push_refused Hc m); auto. lia.
Qed.

(** finding: a jump of exactly 65535 inside a block leaves the table unchanged *)
Lemma offs_push_sentinel m o os x :
  offs_is o os ->
  (os = [] \/ length os mod 60 <> 0) ->
  x = last os 0 + N.to_nat 65535 ->
  offs_push m o x = Ok o.
Proof.
  intros (ocs & lc & isegs & [ini ds] & -> & HF & Hfull & Hc & -> & H0 & H1) Hnb Hx. cbn [fst snd] in *.
  unfold offs_push. rewrite olast_snoc. cbn [obind]. rewrite (chunk_is_full_is Hc).
  pose proof Hc as (Hini & Hde & Hl & Hf).
  rewrite app_length, (segs_concat_len Hfull) in Hnb. unfold seg_offs in Hnb at 2 3. cbn [fst snd] in Hnb.
  rewrite psums_length, Nat.add_comm, Nat.mod_add in Hnb by lia.
  destruct (Nat.eqb_spec (length ds) 60) as [Efull|Enf].
  - exfalso. destruct Hnb as [Hnb|Hnb].
    + apply app_eq_nil in Hnb as [_ Hnb]. destruct ds; [cbn in Efull; lia|discriminate].
    + rewrite Efull in Hnb. apply Hnb. reflexivity.
  - assert (Hlast : last (concat (map seg_offs isegs) ++ seg_offs (ini, ds)) 0 = last (psums ini ds) ini).
    { unfold seg_offs at 2. cbn [fst snd]. destruct ds as [|d t].
      - destruct isegs; [cbn; rewrite H0; auto|]. exfalso. apply H1; auto. discriminate.
      - rewrite last_app_ne by discriminate. apply last_indep. discriminate. }
    rewrite Hlast in Hx. rewrite (@chunk_push_sentinel lc ini ds Hc m x); auto; [|lia].
    cbn [obind]. apply store_ok. rewrite app_length. cbn [length]. split; [lia|].
    rewrite set_nth_app. destruct (Nat.ltb_spec (length ocs + 1 - 1) (length ocs)); [lia|].
    replace (length ocs + 1 - 1 - length ocs) with 0 by lia. reflexivity.
Qed.

Lemma offs_history m os : offset_seq os ->
  exists o, ofold (offs_push m) os offs_new = Ok o /\ offs_is o os.
Proof.
  induction 1 as [|os x Hos (o & E & Ho) Hx].
  - exists offs_new. split; [reflexivity|apply offs_is_new].
  - destruct (@offs_push_is m o os x Ho Hx) as (o' & E' & Ho').
    exists o'. rewrite ofold_app, E. cbn [obind ofold]. rewrite E'. auto.
Qed.

(** ** Bytes of the table *)
Definition chunk_valid (c : chunk) : Prop :=
  fits64 (cinitial c) /\ length (cdeltas c) = 60 /\ Forall (uint_valid 2) (cdeltas c).

Lemma u16_ok : repr_ok u16r (uint_valid 2).
Proof. apply uint_repr_ok. lia. Qed.

(** encoded length only for chunks with 60 deltas: a weaker interface than [repr_ok] *)
Lemma chunk_enc_len c : length (cdeltas c) = 60 -> length (renc chunk_repr c) = CHUNK_SIZE.
Proof.
  intros H. cbn [renc chunk_repr]. rewrite app_length, le_enc_length, (write_as_bytes_length u16_ok), H. reflexivity.
Qed.

Lemma chunk_dec_enc c : chunk_valid c -> rdec chunk_repr (renc chunk_repr c) = c.
Proof.
  intros (H64 & Hl & Hv). cbn [rdec renc chunk_repr].
  rewrite firstn_app_len, skipn_app_len by apply le_enc_length.
  rewrite le_dec_enc by exact H64. rewrite Nat2N.id. rewrite (load_write u16_ok) by auto. now destruct c.
Qed.

Lemma chunks_bytes_length o : Forall chunk_valid o -> length (write_as_bytes chunk_repr o) = length o * CHUNK_SIZE.
Proof.
  intros H. unfold write_as_bytes. rewrite (@concat_length_const _ CHUNK_SIZE).
  - now rewrite map_length.
  - rewrite Forall_map. eapply Forall_impl; [|exact H]. intros c (_ & Hl & _). now apply chunk_enc_len.
Qed.

Lemma chunks_load_write o : Forall chunk_valid o -> load_bytes_as chunk_repr (write_as_bytes chunk_repr o) = o.
Proof.
  intros H. unfold load_bytes_as, write_as_bytes. cbn [rsize chunk_repr].
  rewrite chunks_exact_of_concat.
  - induction H as [|c o Hc Ho IH]; cbn [map]; auto. rewrite chunk_dec_enc by auto. now f_equal.
  - unfold CHUNK_SIZE. lia.
  - rewrite Forall_map. eapply Forall_impl; [|exact H]. intros c (_ & Hl & _). now apply chunk_enc_len.
Qed.

(** all initials of the table are offsets (or 0), hence bounded *)
Lemma chunk_is_valid c ini ds : chunk_is c ini ds -> fits64 ini -> chunk_valid c.
Proof.
  intros (Hi & Hd & Hl & Hf) H64. repeat split.
  - now rewrite Hi.
  - rewrite Hd, app_length, repeat_length. lia.
  - rewrite Hd. apply Forall_app. split.
    + eapply Forall_impl; [|exact Hf]. unfold delta_ok, uint_valid. cbn. intros; lia.
    + apply Forall_forall. intros x Hx. apply repeat_spec in Hx. subst. rewrite dunused_val.
      unfold uint_valid. cbn. lia.
Qed.

Lemma psums_ge ini ds x : In x (psums ini ds) -> ini <= x.
Proof.
  revert ini; induction ds as [|d t IH]; intros ini H; cbn in H; [destruct H|].
  destruct H as [<-|H]; [lia|]. apply IH in H. lia.
Qed.

Lemma offs_is_valid o os : offs_is o os -> Forall fits64 os -> Forall chunk_valid o.
Proof.
  intros (ocs & lc & isegs & [ini ds] & -> & HF & Hfull & Hc & -> & H0 & H1) Hv. cbn [fst snd] in *.
  apply Forall_app in Hv as [Hv1 Hv2].
  assert (Hseg : forall ini ds, ds <> [] -> Forall fits64 (psums ini ds) -> fits64 ini).
  { intros i' d' Hd Hf. destruct d' as [|d d']; [congruence|]. cbn in Hf. inversion Hf; subst.
    unfold fits64 in *. lia. }
  apply Forall_app. split.
  - clear H0 H1 Hc Hv2. induction HF as [|c s ocs isegs Hcs HF IH]; constructor.
    + inversion Hfull; subst. cbn in Hv1. apply Forall_app in Hv1 as [Hv1 _].
      eapply chunk_is_valid; [exact Hcs|]. apply (Hseg _ (snd s)); auto.
      destruct (snd s); [discriminate|congruence].
    + inversion Hfull; subst. cbn in Hv1. apply Forall_app in Hv1 as [_ Hv1]. auto.
  - constructor; [|constructor]. eapply chunk_is_valid; [exact Hc|].
    destruct isegs as [|s t].
    + rewrite H0 by auto. unfold fits64. cbn. lia.
    + apply (Hseg ini ds); auto. apply H1. congruence.
Qed.

(** ** Compressed slice vector *)
Section CVW.
  Context {T : Type}.
  Implicit Types (rows : list (list T)) (v : cvw T).

  Definition cvw_is rows v : Prop := offs_is (coffs v) (offsets_from 0 rows) /\ cdata v = concat rows.

  Lemma next_ok_row rows x :
    (N.of_nat (length x) < 65535)%N ->
    next_offset_ok (offsets_from 0 rows) (length (concat rows ++ x)).
  Proof.
    intros H. right. rewrite (offsets_from_last 0 rows), last_last. cbn [Nat.add].
    rewrite app_length. split; [lia|].
    replace (length (concat rows) + length x - length (concat rows)) with (length x) by lia. auto.
  Qed.

  Lemma cvw_is_new m : exists v, cvw_new m = Ok v /\ cvw_is [] v.
  Proof.
    unfold cvw_new. destruct (@offs_push_is m offs_new [] 0 offs_is_new) as (o & E & Ho).
    - right. cbn. lia.
    - rewrite E. cbn. eexists; split; [reflexivity|]. split; auto.
  Qed.

  Lemma cvw_push_is m rows v x :
    cvw_is rows v -> (N.of_nat (length x) < 65535)%N ->
    exists v', cvw_push m v x = Ok v' /\ cvw_is (rows ++ [x]) v'.
  Proof.
    intros [Ho Hd] Hx. unfold cvw_push. rewrite Hd.
    destruct (@offs_push_is m _ _ _ Ho (next_ok_row rows x Hx)) as (o' & E & Ho').
    rewrite E. cbn. eexists; split; [reflexivity|]. split.
    - cbn [coffs]. rewrite offsets_from_snoc. cbn [Nat.add]. rewrite app_length in Ho'. exact Ho'.
    - cbn [cdata]. rewrite concat_app. cbn. now rewrite app_nil_r.
  Qed.

  Lemma cvw_len_is rows v : cvw_is rows v -> cvw_len v = Ok (length rows).
  Proof.
    intros [Ho Hd]. unfold cvw_len. rewrite (offs_is_len Ho), offsets_from_length. cbn. f_equal. lia.
  Qed.

  Lemma cvw_get_is m rows v i r : cvw_is rows v -> nth_error rows i = Some r -> cvw_get m v i = Ok r.
  Proof.
    intros [Ho Hd] Hi. assert (Hlt : i < length rows) by (apply nth_error_Some; congruence).
    unfold cvw_get. rewrite (offs_get_consecutive_is m i Ho) by (rewrite offsets_from_length; lia).
    cbn [obind fst snd]. rewrite Hd.
    assert (E1 := @offsets_from_nth _ 0 rows i ltac:(lia)).
    assert (E2 := @offsets_from_nth _ 0 rows (i + 1) ltac:(lia)).
    rewrite nth_error_nth0 in E1 by (rewrite offsets_from_length; lia).
    rewrite nth_error_nth0 in E2 by (rewrite offsets_from_length; lia).
    cbn [Nat.add] in E1, E2. inversion E1 as [E1']. inversion E2 as [E2']. rewrite E1', E2'.
    rewrite slice_concat_range by lia. replace (i + 1 - i) with 1 by lia.
    rewrite (skipn_nth_error _ _ Hi). cbn. now rewrite app_nil_r.
  Qed.

  Context (R : repr T) (valid : T -> Prop) (HR : repr_ok R valid).

  Lemma cvw_round_trip rows v tail :
    cvw_is rows v -> Forall valid (concat rows) -> fits64 (length (concat rows)) ->
    fits64 (offs_num_bytes (coffs v)) -> length tail < rsize R ->
    cvw_from_bytes R (fst (cvw_write R v) ++ tail) = Ok v /\
    snd (cvw_write R v) = length (fst (cvw_write R v)).
  Proof.
    intros [Ho Hd] Hval H64 Hnb Htail.
    assert (Hcv : Forall chunk_valid (coffs v)).
    { apply (offs_is_valid Ho). apply Forall_forall. intros x Hx. apply offsets_from_le in Hx.
      unfold fits64 in *. lia. }
    pose proof (chunks_bytes_length Hcv) as HL.
    split.
    - unfold cvw_from_bytes, cvw_write. cbn [fst]. rewrite <- !app_assoc.
      rewrite load_header_enc by auto. cbn [obind]. rewrite slice_after_header. cbn [obind].
      set (ob := write_as_bytes chunk_repr (coffs v)) in *. set (db := write_as_bytes R (cdata v)).
      assert (E1 : slice (ob ++ db ++ tail) 0 (offs_num_bytes (coffs v)) = Ok ob).
      { apply slice_ok. rewrite app_length. unfold offs_num_bytes. split; [lia|]. split; [lia|].
        cbn [skipn]. rewrite Nat.sub_0_r. symmetry. apply firstn_app_len. exact HL. }
      assert (E2 : slice (ob ++ db ++ tail) (offs_num_bytes (coffs v)) (length (ob ++ db ++ tail)) = Ok (db ++ tail)).
      { apply slice_ok. rewrite app_length. unfold offs_num_bytes. split; [lia|]. split; [lia|].
        rewrite skipn_app_len by exact HL. symmetry. apply firstn_all2. lia. }
      rewrite E1, E2. cbn [obind]. unfold ob, db. rewrite chunks_load_write by auto.
      rewrite Hd. rewrite (load_write_tail HR) by auto. rewrite <- Hd. now destruct v.
    - unfold cvw_write, write_as_bytes_count. cbn [fst snd].
      rewrite !app_length, le_enc_length, HL, (write_as_bytes_length HR). cbn [rsize chunk_repr]. lia.
  Qed.
End CVW.
