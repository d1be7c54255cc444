(** * Proofs about sum embeddings: permuting, writing *)
From Verif Require Import Base BaseFacts Bytes PBytes MSliceVec SSliceVec PFixed PVar MSearch MBuild SReorder MEmbed SEmbed PEmbed.
Set Implicit Arguments. Unset Strict Implicit.

Section P1.
  Context {F : Type}.
  Notation se := (@se_of F).

  Definition pick {A} (d : A) (l : list A) (p : list nat) : list A := map (fun i => nth i l d) p.

  Lemma vw_of_nil {T} : @vw_new T = vw_of [].
  Proof. reflexivity. Qed.

  Lemma chunk_fold w embs els ids : forall rows,
    Forall (fun i => i < length els) ids ->
    total_fits five_byte (rows ++ map (map enc_id) (pick [] els ids)) ->
    ofold (fun a id => let* e := vw_get (se_els (se w embs els)) id in els_push a e) ids (vw_of rows)
    = Ok (vw_of (rows ++ map (map enc_id) (pick [] els ids))).
  Proof.
    induction ids as [|i ids IH]; intros rows Hi Ht.
    - cbn. now rewrite app_nil_r.
    - inversion Hi as [|? ? Hi1 Hi2]; subst. cbn [ofold]. cbn [se_els se_of].
      rewrite (@vw_get_of _ _ i (map enc_id (nth i els []))).
      2:{ rewrite nth_error_map, (nth_error_nth' els [] Hi1). reflexivity. }
      cbn [obind]. unfold els_push. cbn [pick map] in *.
      change (map enc_id (nth i els []) :: map (map enc_id) (map (fun i0 => nth i0 els []) ids))
        with ([map enc_id (nth i els [])] ++ map (map enc_id) (pick [] els ids)) in *.
      rewrite app_assoc in *. rewrite vw_push_of by (eapply total_fits_prefix; eauto). cbn [obind].
      now apply IH.
  Qed.

  Lemma chunk_ok w embs els ids :
    Forall (fun i => i < length els) ids -> total_fits five_byte (map (map enc_id) (pick [] els ids)) ->
    se_permute_chunk (se w embs els) ids = Ok (vw_of (map (map enc_id) (pick [] els ids))).
  Proof. intros. unfold se_permute_chunk. rewrite vw_of_nil. now apply (@chunk_fold w embs els ids []). Qed.

  Lemma extend_fold cs : forall rows : list (list emb_id),
    total_fits five_byte (rows ++ concat cs) ->
    ofold (fun e ch => els_extend e ch) (map (@vw_of _) cs) (vw_of rows) = Ok (vw_of (rows ++ concat cs)).
  Proof.
    induction cs as [|c cs IH]; intros rows Ht; cbn [map ofold concat] in *.
    - now rewrite app_nil_r.
    - unfold els_extend. rewrite app_assoc in *. rewrite vw_extend_of by (eapply total_fits_prefix; eauto).
      cbn [obind]. now apply IH.
  Qed.

  Lemma total_fits_suffix {T} osz (a b : list (list T)) : total_fits osz (a ++ b) -> total_fits osz b.
  Proof. unfold total_fits. rewrite concat_app, app_length. lia. Qed.

  Lemma total_fits_chunk {T} osz (cs : list (list (list T))) c : In c cs -> total_fits osz (concat cs) -> total_fits osz c.
  Proof.
    intros Hc. apply in_split in Hc as (a & b & ->). rewrite concat_app. cbn [concat]. intros H.
    eapply total_fits_prefix, total_fits_suffix, H.
  Qed.

  Lemma permute_of w embs els p :
    length p = length els -> Forall (fun i => i < length els) p -> ids_fit (pick [] els p) ->
    se_permute (se w embs els) p = Ok (se w embs (pick [] els p)).
  Proof.
    intros Hl Hp [_ Ht]. unfold se_permute. rewrite se_of_len, Hl, Nat.eqb_refl. cbn [oassert obind].
    set (cz := Nat.max _ _). assert (Hcz : 0 < cz).
    { unfold cz. assert (0 < 10000) by (apply Nat.ltb_lt; vm_compute; reflexivity). lia. }
    apply total_enc in Ht.
    set (g := fun c => map (map enc_id) (pick [] els c)).
    assert (E : concat (map g (chunks cz p)) = map (map enc_id) (pick [] els p)).
    { unfold g, pick. rewrite <- (@chunks_concat _ cz p Hcz) at 2. rewrite !concat_map, !map_map. reflexivity. }
    rewrite <- E in Ht.
    rewrite (@omapM_pure _ _ _ (fun c => vw_of (g c))).
    - cbn [obind]. rewrite <- (map_map g (@vw_of _)).
      rewrite vw_of_nil. rewrite extend_fold; cbn [app]; auto. rewrite E. reflexivity.
    - intros c Hc. apply chunk_ok.
      + rewrite Forall_forall in *. intros x Hx. apply Hp. rewrite <- (@chunks_concat _ cz p Hcz). apply in_concat. eauto.
      + eapply total_fits_chunk; [|exact Ht]. apply in_map_iff. exists c. auto.
  Qed.

  Lemma permute_wrong_length w embs els p : length p <> length els -> se_permute (se w embs els) p = Fail Panicked.
  Proof.
    intros H. unfold se_permute. rewrite se_of_len. destruct (Nat.eqb_spec (length els) (length p)); [lia|]. reflexivity.
  Qed.

  Lemma push_cases (v : elements) x : (exists v', els_push v x = Ok v') \/ els_push v x = Fail Panicked.
  Proof. unfold els_push, vw_push, off_from. destruct (_ <? _)%N; cbn; eauto. Qed.

  Lemma get_cases w embs els i :
    (exists e, vw_get (se_els (se w embs els)) i = Ok e) \/ vw_get (se_els (se w embs els)) i = Fail Panicked.
  Proof.
    cbn [se_els se_of]. destruct (Nat.lt_ge_cases i (length els)) as [H|H].
    - left. exists (map enc_id (nth i els [])). apply vw_get_of. rewrite nth_error_map, (nth_error_nth' els [] H). reflexivity.
    - right. apply vw_get_out. now rewrite map_length.
  Qed.

  Lemma chunk_cases w embs els ids : forall a : elements,
    let r := ofold (fun a id => let* e := vw_get (se_els (se w embs els)) id in els_push a e) ids a in
    (exists v, r = Ok v) \/ r = Fail Panicked.
  Proof.
    induction ids as [|i ids IH]; intros a; cbn [ofold]; [left; eauto|].
    destruct (get_cases w embs els i) as [[e ->]| ->]; cbn [obind]; [|auto].
    destruct (push_cases a e) as [[v ->]| ->]; cbn [obind]; auto.
  Qed.

  Lemma chunk_out w embs els ids : forall a : elements,
    Exists (fun i => length els <= i) ids ->
    ofold (fun a id => let* e := vw_get (se_els (se w embs els)) id in els_push a e) ids a = Fail Panicked.
  Proof.
    induction ids as [|i ids IH]; intros a He; [inversion He|]. cbn [ofold].
    destruct (Nat.lt_ge_cases i (length els)) as [H|H].
    - assert (He' : Exists (fun i => length els <= i) ids) by (inversion He; subst; auto; lia).
      destruct (get_cases w embs els i) as [[e ->]| ->]; cbn [obind]; [|auto].
      destruct (push_cases a e) as [[v ->]| ->]; cbn [obind]; auto.
    - cbn [se_els se_of]. rewrite vw_get_out; [reflexivity|]. now rewrite map_length.
  Qed.

  Lemma permute_out w embs els p : Exists (fun i => length els <= i) p -> se_permute (se w embs els) p = Fail Panicked.
  Proof.
    intros He. unfold se_permute. destruct (_ =? _); cbn [oassert obind]; [|reflexivity].
    set (cz := Nat.max _ _). assert (Hcz : 0 < cz).
    { unfold cz. assert (0 < 10000) by (apply Nat.ltb_lt; vm_compute; reflexivity). lia. }
    rewrite omapM_fail; [reflexivity| |].
    - intros c _. apply chunk_cases.
    - apply Exists_exists in He as (i & Hi & Hb). rewrite <- (@chunks_concat _ cz p Hcz) in Hi.
      apply in_concat in Hi as (c & Hc & Hic). exists c. split; auto. apply chunk_out. apply Exists_exists. eauto.
  Qed.

  Lemma pick_seq {A} (d : A) l : pick d l (seq 0 (length l)) = l.
  Proof.
    unfold pick. apply nth_error_ext. intros i. rewrite nth_error_map.
    destruct (Nat.lt_ge_cases i (length l)) as [H|H].
    - rewrite (nth_error_nth' (seq 0 (length l)) 0) by (now rewrite seq_length). cbn.
      rewrite seq_nth by auto. cbn. symmetry. now apply nth_error_nth'.
    - rewrite (proj2 (nth_error_None (seq 0 (length l)) i)) by (now rewrite seq_length). cbn.
      symmetry. now apply nth_error_None.
  Qed.

  Lemma pick_perm {A} (d : A) l p : Permutation p (seq 0 (length l)) -> Permutation (pick d l p) l.
  Proof.
    intros H. transitivity (pick d l (seq 0 (length l))); [unfold pick; now apply Permutation_map|].
    now rewrite pick_seq.
  Qed.

  Lemma concat_perm {A} (a b : list (list A)) : Permutation a b -> length (concat a) = length (concat b).
  Proof.
    induction 1; cbn [concat]; rewrite ?app_length; lia.
  Qed.

  Lemma ids_fit_perm a b : Permutation a b -> ids_fit a -> ids_fit b.
  Proof.
    intros H [H1 H2]. split.
    - rewrite Forall_forall in *. intros x Hx. apply H1. eapply Permutation_in; [symmetry|]; eauto.
    - now rewrite <- (concat_perm H).
  Qed.

  Lemma permute_perm w embs els p : ids_fit els -> Permutation p (seq 0 (length els)) ->
    se_permute (se w embs els) p = Ok (se w embs (pick [] els p)).
  Proof.
    intros He Hp. apply permute_of.
    - rewrite (Permutation_length Hp). apply seq_length.
    - rewrite Forall_forall. intros x Hx. eapply Permutation_in in Hx; [|exact Hp]. apply in_seq in Hx. lia.
    - eapply ids_fit_perm; [|exact He]. symmetry. now apply pick_perm.
  Qed.

  Lemma nth_pick {A} (d : A) l p i : i < length p -> nth i (pick d l p) d = nth (nth i p 0) l d.
  Proof.
    intros H. unfold pick. rewrite (nth_indep _ d (nth 0 l d)) by (now rewrite map_length). now rewrite (map_nth (fun i => nth i l d)).
  Qed.

End P1.

Section P.
  Context {F : Type} (fadd : F -> F -> F) (fzero : F).
  Notation se := (@se_of F).
  Context (fnorm : list F -> list F) (fdist : list F -> list F -> outcome Z).

  Lemma create_embs_only w embs els els' m ids :
    se_create_embedding fadd fzero m (se w embs els) ids = se_create_embedding fadd fzero m (se w embs els') ids.
  Proof. reflexivity. Qed.

  Lemma embedding_moved w embs els p m i : ids_fit els -> Permutation p (seq 0 (length els)) -> i < length els ->
    se_get_embedding fadd fzero m (se w embs (pick [] els p)) i = se_get_embedding fadd fzero m (se w embs els) (nth i p 0).
  Proof.
    intros He Hp Hi. pose proof (Permutation_length Hp) as Hl. rewrite seq_length in Hl.
    assert (Hpi : nth i p 0 < length els).
    { assert (Hin : In (nth i p 0) p) by (apply nth_In; lia). eapply Permutation_in in Hin; [|exact Hp]. apply in_seq in Hin. lia. }
    rewrite (@get_embedding_of F fadd fzero w embs (pick [] els p) m i (nth (nth i p 0) els [])).
    - rewrite (@get_embedding_of F fadd fzero w embs els m (nth i p 0) (nth (nth i p 0) els [])); auto.
      now apply nth_error_nth'.
    - eapply ids_fit_perm; [|exact He]. symmetry. now apply pick_perm.
    - rewrite (nth_error_nth' (pick [] els p) []).
      + rewrite nth_pick by lia. reflexivity.
      + unfold pick. rewrite map_length. lia.
  Qed.

  Lemma se_permute_law m w embs els : ids_fit els ->
    permute_law (se_ops fadd fzero fnorm fdist m) (@se_permute F) (se w embs els) /\
    permute_refuses (se_ops fadd fzero fnorm fdist m) (@se_permute F) (se w embs els).
  Proof.
    intros He. split.
    - intros p Hp. cbn [c_len se_ops] in *. rewrite se_of_len in *. unfold is_perm in Hp.
      pose proof (Permutation_length Hp) as Hl. rewrite seq_length in Hl.
      exists (se w embs (pick [] els p)). split; [now apply permute_perm|].
      split; [rewrite se_of_len; unfold pick; now rewrite map_length|].
      intros i Hi. cbn [c_get c_dte se_ops]. unfold se_dist_to_element, se_get.
      rewrite (@embedding_moved w embs els p m i) by auto. auto.
    - intros p Hp. cbn [c_len se_ops] in *. rewrite se_of_len in *. now apply permute_wrong_length.
  Qed.

  (** ** Writing and loading *)
  Definition id_valid : emb_id -> Prop := uint_valid three_byte.
  Lemma id_repr_ok : repr_ok id_repr id_valid.
  Proof. apply uint_repr_ok. unfold three_byte. lia. Qed.

  Lemma write_load w embs els : ids_fit els -> fits64 (length els) ->
    se_from_bytes (se_embs (se w embs els)) (fst (se_write (se w embs els))) = Ok (se w embs els).
  Proof.
    intros [H1 H2] H64. unfold se_from_bytes, els_from_bytes, se_write, els_write. cbn [se_els se_of].
    assert (H5 : 0 < five_byte) by (unfold five_byte; lia).
    rewrite (@vw_write_of _ five_byte H5 id_repr id_valid id_repr_ok). cbn [fst].
    rewrite <- (app_nil_r (vw_bytes _ _ _)).
    rewrite (@vw_from_bytes_of _ five_byte H5 id_repr id_valid id_repr_ok).
    - cbn [obind]. reflexivity.
    - now apply total_enc.
    - now rewrite map_length.
    - rewrite <- concat_map. apply Forall_forall. intros x Hx. apply in_map_iff in Hx as (y & <- & Hy).
      apply in_concat in Hy as (e & He & Hy). rewrite !Forall_forall in H1. specialize (H1 e He). rewrite Forall_forall in H1.
      exact (H1 y Hy).
    - cbn. unfold three_byte. lia.
  Qed.
End P.
