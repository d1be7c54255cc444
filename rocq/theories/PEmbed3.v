(** * Proofs about the reordering keys of sum embeddings *)
From Verif Require Import Base BaseFacts Bytes PBytes MSliceVec SSliceVec PFixed PVar MSearch MBuild SReorder MEmbed SEmbed PEmbed PEmbed2.
Set Implicit Arguments. Unset Strict Implicit.

Definition kle (a b : Z * nat) : bool := (fst a <=? fst b)%Z.

Lemma kle_refl x : kle x x = true. Proof. unfold kle. apply Z.leb_refl. Qed.
Lemma kle_total x y : kle x y = true \/ kle y x = true.
Proof. unfold kle. rewrite !Z.leb_le. lia. Qed.
Lemma kle_trans x y z : kle x y = true -> kle y z = true -> kle x z = true.
Proof. unfold kle. rewrite !Z.leb_le. lia. Qed.

Lemma insert_filter z x l :
  filter (fun a : Z * nat => (fst a =? z)%Z) (insert_by kle x l) =
  filter (fun a => (fst a =? z)%Z) (x :: l).
Proof.
  induction l as [|y t IH]; [reflexivity|]. cbn [insert_by]. destruct (kle x y) eqn:E; [reflexivity|].
  cbn [filter] in *. rewrite IH. unfold kle in E. apply Z.leb_gt in E.
  destruct (Z.eqb_spec (fst y) z), (Z.eqb_spec (fst x) z); try reflexivity. lia.
Qed.
Lemma sort_filter z l : filter (fun a : Z * nat => (fst a =? z)%Z) (sort_by kle l) = filter (fun a => (fst a =? z)%Z) l.
Proof.
  induction l as [|x t IH]; [reflexivity|]. cbn [sort_by]. rewrite insert_filter. cbn [filter]. now rewrite IH.
Qed.

Lemma sorted_nth {A} (R : A -> A -> Prop) (l : list A) d : StronglySorted R l ->
  forall i j, i < j -> j < length l -> R (nth i l d) (nth j l d).
Proof.
  induction 1 as [|x t Ht IH Hx]; intros i j Hij Hj; [cbn in Hj; lia|].
  destruct j as [|j]; [lia|]. cbn in Hj. destruct i as [|i]; cbn [nth].
  - rewrite Forall_forall in Hx. apply Hx. apply nth_In. lia.
  - apply IH; lia.
Qed.

Section Sort.
  Variable norms : list Z.
  Let norm (w : nat) : Z := nth w norms 0%Z.

  Definition ranked_asc (ids s : list nat) : Prop :=
    Permutation s ids /\
    (forall i j, i < j -> j < length s -> (norm (nth i s 0%nat) <= norm (nth j s 0%nat))%Z) /\
    (forall z, filter (fun t => (norm t =? z)%Z) s = filter (fun t => (norm t =? z)%Z) ids).

  Lemma filter_map_snd (f : nat -> bool) (g : Z * nat -> bool) l :
    (forall a, In a l -> g a = f (snd a)) -> filter f (map snd l) = map snd (filter g l).
  Proof.
    induction l as [|a l IH]; intros H; [reflexivity|]. cbn [map filter].
    rewrite (H a (or_introl eq_refl)). destruct (f (snd a)); cbn [map]; rewrite IH; auto; intros; apply H; now right.
  Qed.

  Lemma sort_by_norm_ok ids : Forall (fun w => w < length norms) ids ->
    exists s, sort_by_norm norms ids = Ok s /\ ranked_asc ids s.
  Proof.
    intros H. unfold sort_by_norm. destruct (Nat.ltb_spec (length ids) 2) as [Hl|Hl].
    - exists ids. split; [reflexivity|]. split; [reflexivity|]. split; [intros; lia|reflexivity].
    - rewrite (@omapM_pure _ _ _ (fun w => (norm w, w))).
      2:{ intros w Hw. rewrite Forall_forall in H. rewrite (@index_nth _ norms w 0%Z (H w Hw)). reflexivity. }
      cbn [obind]. change (fun a b : Z * nat => (fst a <=? fst b)%Z) with kle.
      set (l := map (fun w => (norm w, w)) ids).
      assert (Hin : forall a, In a (sort_by kle l) -> fst a = norm (snd a)).
      { intros a Ha. eapply Permutation_in in Ha; [|apply sort_by_perm].
        unfold l in Ha. apply in_map_iff in Ha as (w & <- & _). reflexivity. }
      eexists. split; [reflexivity|]. split; [|split].
      + transitivity (map snd l); [apply Permutation_map, sort_by_perm|].
        unfold l. rewrite map_map. cbn [snd]. now rewrite map_id.
      + intros i j Hij Hj. rewrite map_length in Hj.
        assert (Hs := @sort_by_sorted _ kle kle_total kle_trans l).
        pose proof (sorted_nth (0%Z, 0%nat) Hs Hij Hj) as Hle. apply Z.leb_le in Hle.
        assert (Hi : i < length (sort_by kle l)) by lia.
        rewrite (Hin _ (nth_In _ _ Hi)), (Hin _ (nth_In _ _ Hj)) in Hle.
        change 0%nat with (snd (0%Z, 0%nat)). rewrite !map_nth. exact Hle.
      + intros z. rewrite (@filter_map_snd _ (fun a => (fst a =? z)%Z)).
        2:{ intros a Ha. now rewrite (Hin a Ha). }
        rewrite sort_filter. rewrite <- (@filter_map_snd (fun t => (norm t =? z)%Z)).
        * unfold l. rewrite map_map. cbn [snd]. now rewrite map_id.
        * intros a Ha. unfold l in Ha. apply in_map_iff in Ha as (w & <- & _). reflexivity.
  Qed.

  Lemma filter_rev {A} (f : A -> bool) l : filter f (rev l) = rev (filter f l).
  Proof.
    induction l as [|a l IH]; [reflexivity|]. cbn [rev filter]. rewrite filter_app, IH. cbn [filter].
    destruct (f a); [reflexivity|]. now rewrite app_nil_r.
  Qed.

  Lemma key_ok ids s : ranked_asc ids s ->
    let len := Nat.min (length (rev s)) NUM_WORDS in
    exists h, slice (rev s) 0 len = Ok h /\ is_key norm ids (h ++ repeat 0 (NUM_WORDS - len)).
  Proof.
    intros (Hp & Hs & Hf) len. pose proof (Permutation_length Hp) as Hl.
    exists (firstn len (rev s)). split.
    { apply slice_ok. split; [lia|]. split; [unfold len; lia|]. cbn [skipn]. now rewrite Nat.sub_0_r. }
    assert (Elen : len = Nat.min (length s) 8) by (unfold len, NUM_WORDS; now rewrite rev_length).
    clearbody len. unfold NUM_WORDS.
    assert (Hlen : length (firstn len (rev s)) = len) by (rewrite firstn_length, rev_length; lia).
    split; [rewrite app_length, repeat_length; lia|].
    exists (skipn len (rev s)). cbv zeta.
    replace (Nat.min 8 (length ids)) with len by lia.
    rewrite firstn_app, Hlen, Nat.sub_diag. cbn [firstn]. rewrite app_nil_r.
    rewrite (firstn_all2 (firstn len (rev s))) by lia. rewrite firstn_skipn.
    split; [|split; [|split; [|split]]].
    - rewrite <- Hp. symmetry. apply Permutation_rev.
    - intros i j Hij Hj. rewrite rev_length in Hj. rewrite !rev_nth by lia. apply Hs; lia.
    - intros z. rewrite filter_rev. now rewrite Hf.
    - rewrite skipn_length, rev_length. lia.
    - rewrite skipn_app, Hlen, Nat.sub_diag. rewrite skipn_all2 by lia. reflexivity.
  Qed.
End Sort.

Section P.
  Context {F : Type} (fadd : F -> F -> F) (fzero : F) (fnrm : list F -> outcome Z) (nrm : list F -> Z).
  Notation se := (@se_of F).

  Lemma create_single w embs els m i : dims w embs -> i < length embs ->
    se_create_embedding fadd fzero m (se w embs els) [i] = Ok (nth i embs []).
  Proof.
    intros Hd Hi. unfold se_create_embedding, se_embedding_of.
    rewrite (@se_of_get F w embs els m i _ Hd (nth_error_nth' embs [] Hi)). reflexivity.
  Qed.

  Lemma word_norms_ok w embs els m : dims w embs -> (forall v, In v embs -> fnrm v = Ok (nrm v)) ->
    word_norms fadd fzero fnrm m (se w embs els) = Ok (map nrm embs).
  Proof.
    intros Hd Hn. unfold word_norms.
    pose proof (se_of_num els Hd) as Hl. unfold se_num_embeddings in Hl. rewrite Hl.
    rewrite (@omapM_pure _ _ _ (fun i => nrm (nth i embs []))).
    - f_equal. rewrite <- (pick_seq [] embs) at 2. unfold pick. now rewrite map_map.
    - intros i Hi. apply in_seq in Hi. rewrite create_single by (auto; lia). cbn [obind]. apply Hn, nth_In. lia.
  Qed.

  Lemma word_norms_refused w embs els m : dims w embs ->
    (forall v, In v embs -> (exists z, fnrm v = Ok z) \/ fnrm v = Fail Panicked) ->
    (exists v, In v embs /\ fnrm v = Fail Panicked) ->
    word_norms fadd fzero fnrm m (se w embs els) = Fail Panicked.
  Proof.
    intros Hd Hn (v & Hv & Hf). unfold word_norms.
    pose proof (se_of_num els Hd) as Hl. unfold se_num_embeddings in Hl. rewrite Hl.
    apply omapM_fail.
    - intros i Hi. apply in_seq in Hi. rewrite create_single by (auto; lia). cbn [obind]. apply Hn, nth_In. lia.
    - apply In_nth_error in Hv as [i Hi]. assert (i < length embs) by (apply nth_error_Some; congruence).
      exists i. split; [apply in_seq; lia|]. rewrite create_single by (auto; lia). cbn [obind].
      now rewrite (nth_error_nth _ _ _ Hi).
  Qed.

  Lemma keys_ok w embs els m : ids_fit els -> dims w embs ->
    (forall v, In v embs -> fnrm v = Ok (nrm v)) ->
    Forall (Forall (fun i => i < length embs)) els ->
    exists keys, compute_keys fadd fzero fnrm m (se w embs els) = Ok keys /\
      length keys = length els /\
      forall q terms, nth_error els q = Some terms ->
        is_key (fun i => nrm (nth i embs [])) terms (nth q keys []).
  Proof.
    intros He Hd Hn Hr. unfold compute_keys. rewrite (word_norms_ok els m Hd Hn). cbn [obind].
    rewrite se_of_len.
    assert (Hkey : forall q terms, nth_error els q = Some terms ->
      exists key, reorder_key (map nrm embs) (se w embs els) q = Ok key /\
        is_key (fun i => nrm (nth i embs [])) terms key).
    { intros q terms Hq. unfold reorder_key. rewrite (terms_of w embs He Hq). cbn [obind].
      assert (Hin : Forall (fun i => i < length (map nrm embs)) terms).
      { rewrite map_length. rewrite Forall_forall in Hr. apply Hr. eapply nth_error_In; eauto. }
      destruct (sort_by_norm_ok Hin) as (s & Es & Hs). rewrite Es. cbn [obind].
      destruct (key_ok Hs) as (h & Eh & Hk). rewrite Eh. cbn [obind]. eexists. split; [reflexivity|].
      destruct Hk as (Hk1 & lo & H1 & H2 & H3 & H4). split; [exact Hk1|]. exists lo.
      rewrite map_length in Hin.
      assert (Hnm : forall i, In i terms -> nth i (map nrm embs) 0%Z = nrm (nth i embs [])).
      { intros i Hi. rewrite Forall_forall in Hin. rewrite (nth_indep _ 0%Z (nrm [])) by (rewrite map_length; auto). apply map_nth. }
      cbv zeta in *. set (r := firstn _ _ ++ lo) in *.
      split; [exact H1|]. split; [|split; [|exact H4]].
      - intros i j Hij Hj. assert (Hi : i < length r) by lia.
        rewrite <- !Hnm by (eapply Permutation_in; [exact H1|]; apply nth_In; lia). now apply H2.
      - intros z. specialize (H3 z).
        rewrite (filter_ext_in (fun t => (nrm (nth t embs []) =? z)%Z) (fun t => (nth t (map nrm embs) 0 =? z)%Z) r).
        2:{ intros a Ha. rewrite Hnm; auto. eapply Permutation_in; eauto. }
        rewrite H3. f_equal. apply filter_ext_in. intros a Ha. now rewrite Hnm. }
    assert (Hex : forall n, n <= length els -> exists keys, omapM (reorder_key (map nrm embs) (se w embs els)) (seq (length els - n) n) = Ok keys /\
      length keys = n /\ forall q terms, length els - n <= q -> nth_error els q = Some terms ->
        is_key (fun i => nrm (nth i embs [])) terms (nth (q - (length els - n)) keys [])).
    { induction n as [|n IH]; intros Hn'.
      - exists []. split; [reflexivity|]. split; [reflexivity|]. intros q t Hq Ht. exfalso. assert (q < length els) by (apply nth_error_Some; congruence). lia.
      - destruct IH as (keys & Ek & Hlk & Hk); [lia|]. cbn [seq omapM].
        destruct (nth_error els (length els - S n)) as [t|] eqn:Et; [|apply nth_error_None in Et; lia].
        destruct (Hkey _ _ Et) as (key & Ekey & Hkk). rewrite Ekey. cbn [obind].
        replace (S (length els - S n)) with (length els - n) by lia. rewrite Ek. cbn [obind].
        exists (key :: keys). split; [reflexivity|]. split; [cbn; lia|].
        intros q t' Hq Ht'. destruct (Nat.eq_dec q (length els - S n)) as [->|Hne].
        + rewrite Nat.sub_diag. cbn [nth]. congruence.
        + replace (q - (length els - S n)) with (S (q - (length els - n))) by lia. cbn [nth]. apply Hk; auto. lia. }
    destruct (Hex (length els) (le_n _)) as (keys & Ek & Hlk & Hk). rewrite Nat.sub_diag in *.
    exists keys. split; [exact Ek|]. split; [exact Hlk|]. intros q terms Hq.
    specialize (Hk q terms (Nat.le_0_l _) Hq). now rewrite Nat.sub_0_r in Hk.
  Qed.
End P.
