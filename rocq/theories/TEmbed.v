(** * Theorems C49, C50, C59: sum embeddings *)
From Verif Require Import Base BaseFacts Bytes PBytes MSliceVec SSliceVec PFixed PVar MSearch MBuild SReorder MEmbed SEmbed PEmbed PEmbed2 PEmbed3.

(** ** C49: stored terms and their sums *)

(** Every history of pushes from the empty collection: when the ids are below
    2^24, their total number below 2^40 and the embeddings of one dimension, the
    collection returns exactly the pushed ids, and embeddings that are the
    left-to-right componentwise sums. *)
Theorem C49_history :
  forall {F} (fadd : F -> F -> F) fzero m ops w,
    ids_fit (pushed ops) -> dims w (pushed_embeddings ops) ->
    exists c, se_run ops se_new = Ok c /\ behaves fadd fzero m w (pushed_embeddings ops) (pushed ops) c.
Proof. intros. now apply history_ok. Qed.
Print Assumptions C49_history.

(** ... and otherwise some call of the history panics. *)
Theorem C49_history_refused :
  forall {F} (ops : list (se_op F)),
    Forall (fun v => v <> []) (pushed_embeddings ops) ->
    (~ ids_fit (pushed ops) \/ forall w, ~ dims w (pushed_embeddings ops)) ->
    se_run ops se_new = Fail Panicked.
Proof. intros F ops Hv Hn. exact (history_refused Hv Hn). Qed.
Print Assumptions C49_history_refused.

(** Writing the elements and loading them again, with the same embeddings, gives
    a collection that behaves the same. *)
Theorem C49_write_and_load :
  forall {F} (fadd : F -> F -> F) fzero m ops w c,
    ids_fit (pushed ops) -> dims w (pushed_embeddings ops) -> fits64 (length (pushed ops)) ->
    se_run ops se_new = Ok c ->
    exists c', se_from_bytes (se_embs c) (fst (se_write c)) = Ok c' /\
      behaves fadd fzero m w (pushed_embeddings ops) (pushed ops) c'.
Proof.
  intros F fadd fzero m ops w c He Hd H64 Hr. rewrite (se_new_of w), run_ok in Hr by auto. cbn [app] in Hr.
  apply (f_equal (fun r => match r with Ok c => c | _ => se_new end)) in Hr. subst c.
  eexists. split; [now apply write_load|]. now apply se_of_behaves.
Qed.
Print Assumptions C49_write_and_load.

(** A collection without any embeddings: in a release build ids that refer to
    nothing are not noticed. *)
Theorem C49_missing_embeddings_unnoticed :
  forall {F} (fadd : F -> F -> F) fzero i, (N.of_nat i < 2 ^ 24)%N ->
    exists c, se_run [SPush [i]] se_new = Ok c /\
      se_get_embedding fadd fzero Release c 0 = Ok [] /\ se_get_embedding fadd fzero Debug c 0 = Fail Panicked.
Proof.
  intros F fadd fzero i Hi. exists (se_of 1 [] [[i]]).
  assert (He : ids_fit [[i]]) by (split; [repeat constructor; exact Hi|cbn; lia]).
  split; [|split].
  - rewrite (se_new_of 1). apply (@run_ok F 1 [SPush [i]] [] []); auto. split; [lia|constructor].
  - rewrite (@get_embedding_of F fadd fzero 1 [] [[i]] Release 0 [i]); auto.
    unfold se_create_embedding, se_embedding_of, fw_get. cbn. now rewrite !Nat.mul_0_r.
  - rewrite (@get_embedding_of F fadd fzero 1 [] [[i]] Debug 0 [i]); auto.
Qed.
Print Assumptions C49_missing_embeddings_unnoticed.

(** ** C50: permuting *)

(** A collection with elements [els], permuted by [p]: element [i] is afterwards
    what element [nth i p] was; everything else stays. *)
Theorem C50_permute :
  forall {F} (fadd : F -> F -> F) fzero m ops w c p,
    ids_fit (pushed ops) -> dims w (pushed_embeddings ops) ->
    se_run ops se_new = Ok c -> is_perm (length (pushed ops)) p ->
    exists c', se_permute c p = Ok c' /\
      behaves fadd fzero m w (pushed_embeddings ops) (map (fun i => nth i (pushed ops) []) p) c'.
Proof.
  intros F fadd fzero m ops w c p He Hd Hr Hp. rewrite (se_new_of w), run_ok in Hr by auto. cbn [app] in Hr.
  apply (f_equal (fun r => match r with Ok c => c | _ => se_new end)) in Hr. subst c.
  eexists. split; [apply permute_perm; auto|]. apply se_of_behaves; auto.
  eapply ids_fit_perm; [|exact He]. symmetry. now apply pick_perm.
Qed.
Print Assumptions C50_permute.

(** A list of another length, or naming an element that does not exist, is
    refused. *)
Theorem C50_permute_refused :
  forall {F} ops w (c : sumemb F) p,
    ids_fit (pushed ops) -> dims w (pushed_embeddings ops) -> se_run ops se_new = Ok c ->
    length p <> length (pushed ops) \/ Exists (fun i => length (pushed ops) <= i) p ->
    se_permute c p = Fail Panicked.
Proof.
  intros F ops w c p He Hd Hr Hp. rewrite (se_new_of w), run_ok in Hr by auto. cbn [app] in Hr.
  apply (f_equal (fun r => match r with Ok c => c | _ => se_new end)) in Hr. subst c.
  destruct Hp; [now apply permute_wrong_length|now apply permute_out].
Qed.
Print Assumptions C50_permute_refused.

(** As an element container, sum embeddings satisfy the law of [permute] that the
    theorems on reordering an index ask for ([C45] to [C48]), for whatever
    normalisation and distance. *)
Theorem C50_container_law :
  forall {F} (fadd : F -> F -> F) fzero fnorm fdist m ops w c,
    ids_fit (pushed ops) -> dims w (pushed_embeddings ops) -> se_run ops se_new = Ok c ->
    permute_law (se_ops fadd fzero fnorm fdist m) (@se_permute F) c /\
    permute_refuses (se_ops fadd fzero fnorm fdist m) (@se_permute F) c.
Proof.
  intros F fadd fzero fnorm fdist m ops w c He Hd Hr. rewrite (se_new_of w), run_ok in Hr by auto. cbn [app] in Hr.
  apply (f_equal (fun r => match r with Ok c => c | _ => se_new end)) in Hr. subst c.
  now apply se_permute_law.
Qed.
Print Assumptions C50_container_law.

(** ** C59: reordering keys *)

(** When the norm of no embedding is NaN ([fnrm v = Ok (nrm v)]) and every term
    refers to an embedding: one key per element, holding its terms of largest
    norm. *)
Theorem C59_keys :
  forall {F} (fadd : F -> F -> F) fzero (fnrm : list F -> outcome Z) nrm m ops w c,
    ids_fit (pushed ops) -> dims w (pushed_embeddings ops) -> se_run ops se_new = Ok c ->
    (forall v, In v (pushed_embeddings ops) -> fnrm v = Ok (nrm v)) ->
    Forall (Forall (fun i => i < length (pushed_embeddings ops))) (pushed ops) ->
    exists keys, compute_keys fadd fzero fnrm m c = Ok keys /\
      length keys = length (pushed ops) /\
      forall q terms, nth_error (pushed ops) q = Some terms ->
        is_key (fun i => nrm (nth i (pushed_embeddings ops) [])) terms (nth q keys []).
Proof.
  intros F fadd fzero fnrm nrm m ops w c He Hd Hr Hn Hi. rewrite (se_new_of w), run_ok in Hr by auto. cbn [app] in Hr.
  apply (f_equal (fun r => match r with Ok c => c | _ => se_new end)) in Hr. subst c.
  now apply keys_ok.
Qed.
Print Assumptions C59_keys.

(** An embedding whose norm is NaN makes the call panic, whether or not it is used. *)
Theorem C59_nan_panics :
  forall {F} (fadd : F -> F -> F) fzero (fnrm : list F -> outcome Z) m ops w c,
    ids_fit (pushed ops) -> dims w (pushed_embeddings ops) -> se_run ops se_new = Ok c ->
    (forall v, In v (pushed_embeddings ops) -> (exists z, fnrm v = Ok z) \/ fnrm v = Fail Panicked) ->
    (exists v, In v (pushed_embeddings ops) /\ fnrm v = Fail Panicked) ->
    compute_keys fadd fzero fnrm m c = Fail Panicked.
Proof.
  intros F fadd fzero fnrm m ops w c He Hd Hr Hn Hi. rewrite (se_new_of w), run_ok in Hr by auto. cbn [app] in Hr.
  apply (f_equal (fun r => match r with Ok c => c | _ => se_new end)) in Hr. subst c.
  unfold compute_keys. now rewrite word_norms_refused.
Qed.
Print Assumptions C59_nan_panics.

(** ** A concrete collection that meets the hypotheses *)
Definition ex_ops : list (se_op Z) :=
  [SPushEmbedding [1; 2; 3]%Z; SPush [1; 0; 1]; SPushEmbedding [10; -20; 30]%Z; SPush []; SPush [2];
   SPushEmbedding [100; 200; 300]%Z; SPush [2; 0; 1; 0; 2; 1; 0; 2; 2; 1]].
Definition ex_nrm (v : list Z) : Z := fold_right Z.add 0%Z (map (fun x => x * x)%Z v).
Example C49_example :
  ids_fit (pushed ex_ops) /\ dims 3 (pushed_embeddings ex_ops) /\ fits64 (length (pushed ex_ops)) /\
  Forall (Forall (fun i => i < length (pushed_embeddings ex_ops))) (pushed ex_ops) /\
  exists c, se_run ex_ops se_new = Ok c /\
    se_get_terms c 0 = Ok [1; 0; 1] /\ se_get_embedding Z.add 0%Z Debug c 0 = Ok [21; -38; 63]%Z /\
    se_get_embedding Z.add 0%Z Debug c 1 = Ok [0; 0; 0]%Z /\
    compute_keys Z.add 0%Z (fun v => Ok (ex_nrm v)) Debug c =
      Ok [[1; 1; 0; 0; 0; 0; 0; 0]; repeat 0 8; [2; 0; 0; 0; 0; 0; 0; 0]; [2; 2; 2; 2; 1; 1; 1; 0]] /\
    exists c', se_permute c [3; 1; 0; 2] = Ok c' /\ se_get_terms c' 2 = Ok [1; 0; 1] /\ se_get_terms c' 3 = Ok [2].
Proof.
  split; [split; [repeat constructor|cbn; lia]|]. split; [split; [lia|repeat constructor]|].
  split; [unfold fits64; cbn; lia|]. split; [cbn; repeat constructor|].
  eexists. split; [vm_compute; reflexivity|].
  repeat (split; [vm_compute; reflexivity|]). eexists. repeat split; vm_compute; reflexivity.
Qed.

Example C49_example_refused :
  Forall (fun v : list Z => v <> []) (pushed_embeddings [SPushEmbedding [1]%Z; SPushEmbedding [1; 2]%Z]) /\
  (forall w, ~ dims w (pushed_embeddings [SPushEmbedding [1]%Z; SPushEmbedding [1; 2]%Z])) /\
  (forall n, n = N.to_nat (2 ^ 24) -> ~ ids_fit (pushed [SPush (F := Z) [n]])).
Proof.
  split; [repeat constructor; discriminate|]. split.
  - intros w [_ H]. cbn in H. inversion H as [|? ? H1 H2]; subst. inversion H2 as [|? ? H3 _]; subst. discriminate.
  - intros n -> [H _]. cbn [pushed flat_map app] in H. apply Forall_inv, Forall_inv in H. rewrite N2Nat.id in H. lia.
Qed.
