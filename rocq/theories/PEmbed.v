(** * Proofs about sum embeddings *)
From Verif Require Import Base BaseFacts Bytes PBytes MSliceVec SSliceVec PFixed PVar MSearch MBuild SReorder MEmbed SEmbed.
Set Implicit Arguments. Unset Strict Implicit.

Definition id_ok (i : nat) : Prop := (N.of_nat i < 2 ^ 24)%N.

Lemma id_from_ok i : id_ok i -> id_from i = Ok (enc_id i).
Proof.
  unfold id_ok, id_from, odd_from, enc_id, three_byte. intros H.
  replace (256 ^ N.of_nat 3)%N with (2 ^ 24)%N by reflexivity.
  apply N.ltb_lt in H as Hb. rewrite Hb. cbn [obind]. unfold odd_into. now rewrite le_dec_enc.
Qed.
Lemma id_from_bad i : ~ id_ok i -> id_from i = Fail Panicked.
Proof.
  unfold id_ok, id_from, odd_from, three_byte. intros H.
  replace (256 ^ N.of_nat 3)%N with (2 ^ 24)%N by reflexivity.
  destruct (N.ltb_spec (N.of_nat i) (2 ^ 24)); [tauto|reflexivity].
Qed.
Lemma id_into_enc i : id_ok i -> id_into (enc_id i) = i.
Proof. intros _. apply Nat2N.id. Qed.
Lemma map_into_enc l : Forall id_ok l -> map id_into (map enc_id l) = l.
Proof.
  intros H. rewrite map_map. rewrite <- (map_id l) at 2. apply map_ext_in. intros a Ha.
  apply id_into_enc. rewrite Forall_forall in H. auto.
Qed.
Lemma id_dec i : id_ok i \/ ~ id_ok i.
Proof. unfold id_ok. lia. Qed.
Lemma ids_dec l : Forall id_ok l \/ Exists (fun i => ~ id_ok i) l.
Proof.
  induction l as [|a l IH]; [left; constructor|].
  destruct (id_dec a); [|right; now left]. destruct IH; [left; now constructor|right; now right].
Qed.
Lemma ids_from_ok l : Forall id_ok l -> omapM id_from l = Ok (map enc_id l).
Proof.
  intros H. apply omapM_pure. intros a Ha. apply id_from_ok. rewrite Forall_forall in H. auto.
Qed.
Lemma ids_from_bad l : Exists (fun i => ~ id_ok i) l -> omapM id_from l = Fail Panicked.
Proof.
  intros H. apply omapM_fail.
  - intros a _. destruct (id_dec a); [left; eexists; now apply id_from_ok|right; now apply id_from_bad].
  - apply Exists_exists in H as (a & Ha & Hb). exists a. split; auto. now apply id_from_bad.
Qed.

Lemma concat_map_length {A B} (f : A -> B) ls : length (concat (map (map f) ls)) = length (concat ls).
Proof. rewrite <- concat_map. apply map_length. Qed.

Lemma total_enc els : total_fits five_byte (map (map enc_id) els) <-> (N.of_nat (length (concat els)) < 2 ^ 40)%N.
Proof. unfold total_fits. rewrite concat_map_length. reflexivity. Qed.

Lemma ids_fit_prefix a b : ids_fit (a ++ b) -> ids_fit a.
Proof.
  intros [H1 H2]. apply Forall_app in H1 as [H1 _]. rewrite concat_app, app_length in H2. split; auto. lia.
Qed.

Section P1.
  Context {F : Type}.
  Notation se := (@se_of F).

  Lemma embs_is w embs : Forall (fun v => length v = w) embs -> embs <> [] ->
    fw_is w embs (se_embs (se w embs [])).
  Proof. intros H Hn. destruct embs; [congruence|]. repeat split; auto. Qed.

  Lemma se_of_len w embs els : se_len (se w embs els) = length els.
  Proof. unfold se_len. cbn [se_els se_of]. rewrite vw_len_of. apply map_length. Qed.

  Lemma se_of_num w embs els : dims w embs -> se_num_embeddings (se w embs els) = length embs.
  Proof.
    intros [Hw H]. destruct embs as [|e t]; [reflexivity|].
    apply (@fw_is_len F w (e :: t)); auto. now apply (@embs_is w (e :: t)).
  Qed.

  Lemma se_of_get w embs els m i v : dims w embs -> nth_error embs i = Some v ->
    fw_get m (se_embs (se w embs els)) i = Ok v.
  Proof.
    intros [Hw H] Hi. destruct embs as [|e t]; [now destruct i|].
    apply (@fw_is_get F m w (e :: t)); auto. now apply (@embs_is w (e :: t)).
  Qed.

  Lemma se_of_get_out w embs els m i : dims w embs -> length embs <= i -> embs <> [] \/ m = Debug ->
    fw_get m (se_embs (se w embs els)) i = Fail Panicked.
  Proof.
    intros [Hw H] Hi Hm. destruct embs as [|e t].
    - destruct Hm as [Hm| ->]; [congruence|]. unfold fw_get. cbn. reflexivity.
    - apply (@fw_is_get_out F m w (e :: t)); auto. now apply (@embs_is w (e :: t)).
  Qed.

  Lemma push_of w embs els e : ids_fit (els ++ [e]) -> se_push (se w embs els) e = Ok (se w embs (els ++ [e])).
  Proof.
    intros [H1 H2]. unfold se_push. apply Forall_app in H1 as [_ H1]. apply Forall_inv in H1.
    rewrite (ids_from_ok H1). cbn [obind]. unfold els_push. cbn [se_els se_of].
    rewrite vw_push_of.
    - cbn [obind]. unfold se_of. cbn [se_embs]. now rewrite map_app.
    - replace (map (map enc_id) els ++ [map enc_id e]) with (map (map enc_id) (els ++ [e])) by (now rewrite map_app).
      now apply total_enc.
  Qed.

  Lemma push_refused w embs els e : ids_fit els -> ~ ids_fit (els ++ [e]) -> se_push (se w embs els) e = Fail Panicked.
  Proof.
    intros [H1 H2] Hn. unfold se_push. destruct (ids_dec e) as [He|He].
    - rewrite (ids_from_ok He). cbn [obind]. unfold els_push. cbn [se_els se_of].
      rewrite vw_push_refused; [reflexivity|].
      replace (map (map enc_id) els ++ [map enc_id e]) with (map (map enc_id) (els ++ [e])) by (now rewrite map_app).
      rewrite total_enc. intros H. apply Hn. split; auto. apply Forall_app. split; auto.
    - now rewrite (ids_from_bad He).
  Qed.

  Lemma push_emb_of w embs els v : dims w embs -> length v = w ->
    se_push_embedding (se w embs els) v = Ok (se w (embs ++ [v]) els).
  Proof.
    intros [Hw H] Hv. unfold se_push_embedding. cbn [se_embs se_of se_els].
    destruct embs as [|e t].
    - unfold fw_push. cbn [fwidth fdata]. cbn [Nat.eqb]. rewrite Nat.eqb_refl. cbn [oassert obind app]. unfold se_of. cbn [app concat]. now rewrite app_nil_r, Hv.
    - unfold fw_push. cbn [fwidth fdata]. destruct (Nat.eqb_spec w 0); [lia|].
      rewrite (proj2 (Nat.eqb_eq w (length v))) by auto. cbn [oassert obind].
      unfold se_of. cbn [app]. rewrite app_comm_cons, concat_app. cbn [concat]. now rewrite app_nil_r.
  Qed.

  Lemma push_emb_refused w embs els v : dims w embs -> embs <> [] -> length v <> w ->
    se_push_embedding (se w embs els) v = Fail Panicked.
  Proof.
    intros [Hw H] Hn Hv. unfold se_push_embedding. cbn [se_embs se_of se_els].
    destruct embs as [|e t]; [congruence|].
    unfold fw_push. cbn [fwidth fdata]. destruct (Nat.eqb_spec w 0); [lia|].
    destruct (Nat.eqb_spec w (length v)); [lia|]. reflexivity.
  Qed.

  Lemma terms_of w embs els i t : ids_fit els -> nth_error els i = Some t -> se_get_terms (se w embs els) i = Ok t.
  Proof.
    intros [H1 H2] Hi. unfold se_get_terms. cbn [se_els se_of].
    rewrite (@vw_get_of _ _ i (map enc_id t)).
    - cbn [obind]. f_equal. apply map_into_enc. rewrite Forall_forall in H1. eapply H1, nth_error_In, Hi.
    - now rewrite nth_error_map, Hi.
  Qed.
  Lemma terms_out w embs els i : length els <= i -> se_get_terms (se w embs els) i = Fail Panicked.
  Proof.
    intros Hi. unfold se_get_terms. cbn [se_els se_of]. rewrite vw_get_out; [reflexivity|]. now rewrite map_length.
  Qed.

  Lemma pushed_app a b : @pushed F (a ++ b) = pushed a ++ pushed b.
  Proof. apply flat_map_app. Qed.
  Lemma pushed_embeddings_app a b : @pushed_embeddings F (a ++ b) = pushed_embeddings a ++ pushed_embeddings b.
  Proof. apply flat_map_app. Qed.

  Lemma run_ok w ops : forall embs els,
    ids_fit (els ++ pushed ops) -> dims w (embs ++ pushed_embeddings ops) ->
    se_run ops (se w embs els) = Ok (se w (embs ++ pushed_embeddings ops) (els ++ pushed ops)).
  Proof.
    induction ops as [|o ops IH]; intros embs els He Hd.
    - cbn. now rewrite !app_nil_r.
    - unfold se_run. cbn [ofold]. destruct o as [e|v]; cbn [se_run1].
      + change (pushed (SPush e :: ops)) with (e :: pushed ops) in *.
        change (pushed_embeddings (SPush e :: ops)) with (@pushed_embeddings F ops) in *.
        replace (els ++ e :: pushed ops) with ((els ++ [e]) ++ pushed ops) in * by (now rewrite <- app_assoc).
        rewrite push_of by (eapply ids_fit_prefix; eauto). cbn [obind]. now apply IH.
      + change (pushed (SPushEmbedding v :: ops)) with (@pushed F ops) in *.
        change (pushed_embeddings (SPushEmbedding v :: ops)) with (v :: pushed_embeddings ops) in *.
        replace (embs ++ v :: pushed_embeddings ops) with ((embs ++ [v]) ++ pushed_embeddings ops) in * by (now rewrite <- app_assoc).
        rewrite push_emb_of.
        * cbn [obind]. now apply IH.
        * destruct Hd as [Hw Hd]. rewrite !Forall_app in Hd. split; tauto.
        * destruct Hd as [Hw Hd]. rewrite !Forall_app in Hd. destruct Hd as [[_ Hd] _]. now apply Forall_inv in Hd.
  Qed.

  Lemma fit_dec els : ids_fit els \/ ~ ids_fit els.
  Proof.
    unfold ids_fit.
    assert (H : Forall (Forall (fun i => (N.of_nat i < 2 ^ 24)%N)) els \/ ~ Forall (Forall (fun i => (N.of_nat i < 2 ^ 24)%N)) els).
    { induction els as [|e t IH]; [left; constructor|].
      destruct (ids_dec e) as [He|He].
      - destruct IH as [IH|IH]; [left; now constructor|right; intros H; apply IH; now inversion H].
      - right. intros H. apply Forall_inv in H. apply Exists_exists in He as (i & Hi & Hn).
        rewrite Forall_forall in H. apply Hn. now apply H. }
    destruct H; [|right; tauto].
    destruct (N.lt_decidable (N.of_nat (length (concat els))) (2 ^ 40)); [left|right]; tauto.
  Qed.

  Lemma run_refused w ops : forall embs els,
    ids_fit els -> dims w embs -> Forall (fun v => v <> []) (pushed_embeddings ops) ->
    (embs <> [] \/ match pushed_embeddings ops with [] => True | v :: _ => length v = w end) ->
    ~ (ids_fit (els ++ pushed ops) /\ dims w (embs ++ pushed_embeddings ops)) ->
    se_run ops (se w embs els) = Fail Panicked.
  Proof.
    induction ops as [|o ops IH]; intros embs els He Hd Hv Hw Hn.
    - exfalso. apply Hn. cbn. now rewrite !app_nil_r.
    - unfold se_run. cbn [ofold]. destruct o as [e|v]; cbn [se_run1].
      + change (pushed (SPush e :: ops)) with (e :: pushed ops) in *.
        change (pushed_embeddings (SPush e :: ops)) with (@pushed_embeddings F ops) in *.
        replace (els ++ e :: pushed ops) with ((els ++ [e]) ++ pushed ops) in * by (now rewrite <- app_assoc).
        destruct (fit_dec (els ++ [e])) as [Hf|Hf].
        * rewrite push_of by auto. cbn [obind]. now apply IH.
        * now rewrite push_refused.
      + change (pushed (SPushEmbedding v :: ops)) with (@pushed F ops) in *.
        change (pushed_embeddings (SPushEmbedding v :: ops)) with (v :: pushed_embeddings ops) in *.
        replace (embs ++ v :: pushed_embeddings ops) with ((embs ++ [v]) ++ pushed_embeddings ops) in * by (now rewrite <- app_assoc).
        inversion Hv as [|? ? Hv1 Hv2]; subst.
        destruct (Nat.eq_dec (length v) w) as [Hl|Hl].
        * rewrite push_emb_of by auto. cbn [obind]. apply IH; auto.
          -- destruct Hd as [Hw0 Hd]. split; auto. apply Forall_app. split; auto.
          -- left. destruct embs; discriminate.
        * rewrite push_emb_refused; auto. destruct Hw as [Hw|Hw]; [auto|congruence].
  Qed.

  Lemma se_new_of w : se_new = se w [] [].
  Proof. reflexivity. Qed.

  Lemma history_refused ops : Forall (fun v => v <> []) (@pushed_embeddings F ops) ->
    (~ ids_fit (pushed ops) \/ forall w, ~ dims w (pushed_embeddings ops)) ->
    se_run ops se_new = Fail Panicked.
  Proof.
    intros Hv Hn.
    set (w := match pushed_embeddings ops with [] => 1 | v :: _ => length v end).
    assert (Hw : 0 < w).
    { unfold w. destruct (pushed_embeddings ops) as [|v t] eqn:E; [lia|]. apply Forall_inv in Hv. destruct v; [congruence|cbn; lia]. }
    rewrite (se_new_of w). apply run_refused; auto.
    - split; [constructor|cbn; lia].
    - split; auto.
    - right. unfold w. destruct (pushed_embeddings ops); auto.
    - cbn [app]. intros [H1 H2]. destruct Hn as [Hn|Hn]; [auto|eapply Hn; eauto].
  Qed.
End P1.

Section P.
  Context {F : Type} (fadd : F -> F -> F) (fzero : F).
  Notation se := (@se_of F).

  Lemma get_embedding_of w embs els m i t : ids_fit els -> nth_error els i = Some t ->
    se_get_embedding fadd fzero m (se w embs els) i = se_create_embedding fadd fzero m (se w embs els) t.
  Proof.
    intros H Hi. unfold se_get_embedding, se_create_embedding. cbn [se_els se_of].
    rewrite (@vw_get_of _ _ i (map enc_id t)).
    - cbn [obind]. rewrite map_into_enc; auto. destruct H as [H _]. rewrite Forall_forall in H. eapply H, nth_error_In, Hi.
    - now rewrite nth_error_map, Hi.
  Qed.
  Lemma get_embedding_out w embs els m i : length els <= i ->
    se_get_embedding fadd fzero m (se w embs els) i = Fail Panicked.
  Proof.
    intros Hi. unfold se_get_embedding. cbn [se_els se_of]. rewrite vw_get_out; [reflexivity|]. now rewrite map_length.
  Qed.

  Lemma comp_zip x y k : length x = length y -> k < length x ->
    comp fzero (map (fun p => fadd (fst p) (snd p)) (combine x y)) k = fadd (comp fzero x k) (comp fzero y k).
  Proof.
    revert y k; induction x as [|a x IH]; intros [|b y] k Hl Hk; cbn in *; try lia.
    destruct k; [reflexivity|]. apply IH; lia.
  Qed.

  Lemma sum_fold m w embs els ids : forall data, dims w embs -> length data = w ->
    Forall (fun i => i < length embs) ids ->
    exists r, ofold (fun data x => let* e := fw_get m (se_embs (se w embs els)) x in sum_into fadd data e) ids data = Ok r /\
      length r = w /\ forall k, k < w ->
        comp fzero r k = fold_left fadd (map (fun i => comp fzero (nth i embs []) k) ids) (comp fzero data k).
  Proof.
    induction ids as [|i ids IH]; intros data Hd Hl Hi.
    - exists data. repeat split; auto.
    - inversion Hi as [|? ? Hi1 Hi2]; subst. cbn [ofold].
      assert (Hn : nth_error embs i = Some (nth i embs [])) by (now apply nth_error_nth').
      rewrite (@se_of_get F (length data) embs els m i _ Hd Hn). cbn [obind].
      assert (Hlen : length (nth i embs []) = length data).
      { destruct Hd as [_ Hd]. rewrite Forall_forall in Hd. apply Hd. eapply nth_error_In; eauto. }
      unfold sum_into at 1. rewrite (proj2 (Nat.eqb_eq _ _)) by (now rewrite Hlen). cbn [oassert obind].
      set (d' := map _ (combine data (nth i embs []))).
      assert (Hl' : length d' = length data) by (unfold d'; rewrite map_length, combine_length; lia).
      destruct (IH d') as (r & Hr & Hr1 & Hr2); auto. exists r. split; [exact Hr|]. split; [auto|].
      intros k Hk. rewrite Hr2 by lia. cbn [map fold_left]. f_equal. unfold d'. apply comp_zip; lia.
  Qed.

  Lemma create_ok w embs els m ids : dims w embs -> Forall (fun i => i < length embs) ids ->
    exists r, se_create_embedding fadd fzero m (se w embs els) ids = Ok r /\ is_embedding fadd fzero w embs ids r.
  Proof.
    intros Hd Hi. unfold se_create_embedding, se_embedding_of. destruct ids as [|i ids].
    - pose proof (se_of_num els Hd) as Hn. unfold se_num_embeddings in Hn. rewrite Hn.
      destruct embs as [|e t]; cbn [length Nat.ltb Nat.leb].
      + exists []. split; [reflexivity|]. split; [reflexivity|]. cbn. lia.
      + eexists. split; [reflexivity|]. cbn [fwidth se_embs se_of]. split; [apply repeat_length|].
        intros k Hk. unfold comp. cbn [map left_sum]. apply nth_repeat.
    - inversion Hi as [|? ? Hi1 Hi2]; subst.
      assert (Hn : nth_error embs i = Some (nth i embs [])) by (now apply nth_error_nth').
      rewrite (@se_of_get F w embs els m i _ Hd Hn). cbn [obind].
      assert (Hlen : length (nth i embs []) = w).
      { destruct Hd as [_ Hd]. rewrite Forall_forall in Hd. apply Hd. eapply nth_error_In; eauto. }
      destruct (@sum_fold m w embs els ids (nth i embs []) Hd Hlen Hi2) as (r & Hr & Hr1 & Hr2).
      exists r. split; [exact Hr|]. split.
      + destruct embs; [cbn in Hi1; lia|auto].
      + intros k Hk. rewrite Hr2 by lia. reflexivity.
  Qed.

  Lemma sum_fold_out m w embs els ids : forall data, dims w embs -> embs <> [] \/ m = Debug -> length data = w ->
    Exists (fun i => length embs <= i) ids ->
    ofold (fun data x => let* e := fw_get m (se_embs (se w embs els)) x in sum_into fadd data e) ids data = Fail Panicked.
  Proof.
    induction ids as [|i ids IH]; intros data Hd Hm Hl He; [inversion He|]. cbn [ofold].
    destruct (Nat.lt_ge_cases i (length embs)) as [Hi|Hi].
    - assert (Hn : nth_error embs i = Some (nth i embs [])) by (now apply nth_error_nth').
      rewrite (@se_of_get F w embs els m i _ Hd Hn). cbn [obind].
      assert (Hlen : length (nth i embs []) = w).
      { destruct Hd as [_ Hd]. rewrite Forall_forall in Hd. apply Hd. eapply nth_error_In; eauto. }
      unfold sum_into at 1. rewrite (proj2 (Nat.eqb_eq _ _)) by lia. cbn [oassert obind].
      apply IH; auto.
      + rewrite map_length, combine_length. lia.
      + inversion He; subst; auto. lia.
    - now rewrite (@se_of_get_out F w embs els m i Hd Hi Hm).
  Qed.

  Lemma create_out w embs els m ids : dims w embs -> embs <> [] \/ m = Debug ->
    Exists (fun i => length embs <= i) ids ->
    se_create_embedding fadd fzero m (se w embs els) ids = Fail Panicked.
  Proof.
    intros Hd Hm He. unfold se_create_embedding, se_embedding_of. destruct ids as [|i ids]; [inversion He|].
    destruct (Nat.lt_ge_cases i (length embs)) as [Hi|Hi].
    - assert (Hn : nth_error embs i = Some (nth i embs [])) by (now apply nth_error_nth').
      rewrite (@se_of_get F w embs els m i _ Hd Hn). cbn [obind].
      assert (Hlen : length (nth i embs []) = w).
      { destruct Hd as [_ Hd]. rewrite Forall_forall in Hd. apply Hd. eapply nth_error_In; eauto. }
      apply sum_fold_out; auto. inversion He; subst; auto. lia.
    - now rewrite (@se_of_get_out F w embs els m i Hd Hi Hm).
  Qed.

  Lemma se_of_behaves m w embs els : ids_fit els -> dims w embs -> behaves fadd fzero m w embs els (se w embs els).
  Proof.
    intros He Hd. repeat split.
    - apply se_of_len.
    - now apply se_of_num.
    - intros. now apply terms_of.
    - intros. now apply terms_out.
    - intros. now apply create_ok.
    - intros. now apply create_out.
    - intros. now apply get_embedding_of.
    - intros. now apply get_embedding_out.
  Qed.

  Lemma history_ok m ops w : ids_fit (pushed ops) -> dims w (pushed_embeddings ops) ->
    exists c, se_run ops se_new = Ok c /\ behaves fadd fzero m w (pushed_embeddings ops) (pushed ops) c.
  Proof.
    intros He Hd. exists (se w (pushed_embeddings ops) (pushed ops)). split.
    - rewrite (se_new_of w). now rewrite run_ok.
    - now apply se_of_behaves.
  Qed.
End P.
