(** * Proofs: inserting pieces into a concurrent builder, one after the other *)
From Verif Require Import Base BaseFacts MSliceVec SSliceVec PFixed MIndexIo MSearch PHeap PSearch MBuild SBuild PSelect PRow PSLite PBuildInv PBuildRun PBuildLayer PBuildFair PBuilder PHistory PBuildAny MLocks MRw SRw.
Set Implicit Arguments.
Unset Strict Implicit.

Lemma set_nth_app1 {A} (l1 l2 : list A) i x : i < length l1 -> set_nth (l1 ++ l2) i x = set_nth l1 i x ++ l2.
Proof. revert i. induction l1 as [|a l IH]; intros [|i]; cbn; intros; try lia; auto. rewrite IH; auto; lia. Qed.

Lemma index_app1 {A} (l1 l2 : list A) i x : index l1 i = Ok x -> index (l1 ++ l2) i = Ok x.
Proof.
  unfold index. destruct (nth_error l1 i) eqn:E1; [|discriminate]. rewrite nth_error_app1; [now rewrite E1|].
  apply nth_error_Some. congruence.
Qed.

Lemma ofold_app {A T} (f : T -> A -> outcome T) l1 l2 s :
  ofold f (l1 ++ l2) s = let* s' := ofold f l1 s in ofold f l2 s'.
Proof. revert s. induction l1 as [|a l IH]; intros s; cbn; auto. destruct (f s a); cbn; auto. Qed.

(** ** Rows beyond those of the nodes are never touched *)
Section Tail.
  Context {S E : Type} (V : benv S E) (s : S) (nn ms : nat) (prev : list (fw N)).

  Lemma update_row_app rows tail i f rows' : update_row rows i f = Ok rows' -> update_row (rows ++ tail) i f = Ok (rows' ++ tail).
  Proof.
    unfold update_row. destruct (index rows i) as [row|] eqn:E1; [|discriminate]. rewrite (index_app1 tail E1). cbn [obind].
    destruct (f row) as [row'|]; [|discriminate]. cbn [obind]. intros H. injection H as <-. rewrite set_nth_app1; auto.
    unfold index in E1. destruct (nth_error rows i) eqn:E2; [|discriminate]. apply nth_error_Some. congruence.
  Qed.

  Lemma task_step_app rows tail idx t rows' t' : task_step V s nn ms prev rows idx t = Ok (rows', t') ->
    task_step V s nn ms prev (rows ++ tail) idx t = Ok (rows' ++ tail, t').
  Proof.
    destruct t as [|e st|ns|ns|ns|[|[n d] todo] ns|[|[n d] todo]|]; cbn [task_step].
    - destruct (start_task V s ms prev idx); [|discriminate]. cbn [obind]. intros H. injection H as <- <-. auto.
    - destruct (s_pop st) as [[[k st']|]|]; cbn [obind]; [| |discriminate].
      + unfold read_ids. destruct (index rows (snd k)) as [row|] eqn:E1; [|discriminate]. rewrite (index_app1 tail E1). cbn [obind].
        destruct (s_expand _ st' k (row_ids row)); [|discriminate]. cbn [obind]. intros H. injection H as <- <-. auto.
      + destruct (choose V s nn idx _); [|discriminate]. cbn [obind]. intros H. injection H as <- <-. auto.
    - destruct (index rows idx) as [row|] eqn:E1; [|discriminate]. rewrite (index_app1 tail E1). cbn [obind].
      destruct (index row 0); [|discriminate]. cbn [obind]. intros H. injection H as <- <-. auto.
    - destruct (index rows idx) as [row|] eqn:E1; [|discriminate]. rewrite (index_app1 tail E1). cbn [obind].
      destruct (index row 0); [|discriminate]. cbn [obind]. destruct (oassert _); [|discriminate]. cbn [obind].
      intros H. injection H as <- <-. auto.
    - destruct (update_row rows idx _) as [r|] eqn:E1; [|discriminate]. rewrite (update_row_app tail E1). cbn [obind].
      intros H. injection H as <- <-. auto.
    - intros H. injection H as <- <-. auto.
    - destruct (update_row rows idx _) as [r|] eqn:E1; [|discriminate]. rewrite (update_row_app tail E1). cbn [obind].
      intros H. injection H as <- <-. auto.
    - intros H. injection H as <- <-. auto.
    - destruct (update_row rows n _) as [r|] eqn:E1; [|discriminate]. rewrite (update_row_app tail E1). cbn [obind].
      intros H. injection H as <- <-. auto.
    - intros H. injection H as <- <-. auto.
  Qed.

  Lemma sys_step_app rows tail ts k rows' ts' : sys_step V s nn ms prev (rows, ts) k = Ok (rows', ts') ->
    sys_step V s nn ms prev (rows ++ tail, ts) k = Ok (rows' ++ tail, ts').
  Proof.
    unfold sys_step. destruct (nth_error ts k) as [[idx t]|].
    - destruct (task_step V s nn ms prev rows idx t) as [[r t']|] eqn:E1; [|discriminate]. rewrite (task_step_app tail E1).
      cbn [obind fst snd]. intros H. injection H as <- <-. auto.
    - intros H. injection H as <- <-. auto.
  Qed.

  Lemma run_snoc sched k x : run V s nn ms prev (sched ++ [k]) x =
    let* x' := run V s nn ms prev sched x in sys_step V s nn ms prev x' k.
  Proof.
    unfold run. rewrite ofold_app. destruct (ofold _ sched x); cbn [obind ofold]; auto.
    destruct (sys_step V s nn ms prev a k); auto.
  Qed.
End Tail.

Section Seq.
  Context {S E I : Type} (V : benv S E) (cpush : S -> I -> outcome S).
  Context (cfg : config) (max : nat) (W0 : rw S).
  Local Notation C := (e_ops V).
  Local Notation n_of W := (c_len C (w_elems W)).
  Hypothesis Hsort : sorts_by_dist (e_sort V).
  Hypothesis Hpush : push_law C cpush.
  Hypothesis Hwork : elems_use V cpush max (w_elems W0).
  Hypothesis Hsizes : sizes_ok cfg max W0.
  Hypothesis Hnn : 0 < k_nn cfg.
  Hypothesis Hms : 0 < k_ms cfg.
  Variable U : bool.

  (** the invariant between any two steps *)
  Record shared (hist : list I) (W : rw S) (R : list (list (list N))) (rows : list (list N)) (k : nat) : Prop := mkShared {
    sh_hist : ofold cpush hist (w_elems W0) = Ok (w_elems W);
    sh_width : w_width W = k_nn cfg;
    sh_cur : w_cur W = with_room (k_nn cfg) rows k;
    sh_chain : chain V (w_elems W) U (k_nn cfg) (w_prev W) R;
    sh_lay : lay_inv V (w_elems W) U (k_nn cfg) (n_of W) (base_of U R) rows;
    sh_grows : length (last R []) <= length rows;
    sh_pos : 0 < length (w_cur W);
    sh_cap : length (w_cur W) <= k_ideal cfg max (Datatypes.S (length (w_prev W)))
  }.

  Lemma sh_len hist W R rows k : shared hist W R rows k -> length (w_cur W) = n_of W + k.
  Proof. intros H. rewrite (sh_cur H). unfold with_room. rewrite app_length, repeat_length, (y_len (sh_lay H)). auto. Qed.
  Lemma sh_max hist W R rows k : shared hist W R rows k -> n_of W <= max.
  Proof. intros H. pose proof (sh_len H). pose proof (sh_cap H). pose proof (so_max Hsizes (Datatypes.S (length (w_prev W)))). lia. Qed.
  Lemma sh_use hist W R rows k : shared hist W R rows k -> usable V (w_elems W).
  Proof. intros H. apply (ew_use Hwork (h := hist)); [apply (sh_hist H)|apply (sh_max H)]. Qed.
  Lemma sh_ids hist W R rows k : shared hist W R rows k -> (N.of_nat (n_of W) <= UNUSED)%N.
  Proof. intros H. pose proof (sh_max H). pose proof (ew_ids Hwork). lia. Qed.

  Lemma row_len s n B rows : lay_inv V s U (k_nn cfg) n B rows -> Forall (fun r => length r = k_nn cfg) rows.
  Proof.
    intros H. apply Forall_forall. intros r Hr. apply In_nth_error in Hr as (i & Hi). destruct (y_row H Hi) as (ns & Hs & _).
    eapply row_shows_length; eauto.
  Qed.
  Lemma cur_is hist W R rows k : shared hist W R rows k -> fw_is (k_nn cfg) (w_cur W) (mkFw (concat (w_cur W)) (k_nn cfg)).
  Proof.
    intros H. split; auto. split; auto. rewrite (sh_cur H). apply Forall_app. split; [eapply row_len, (sh_lay H)|].
    apply Forall_forall. intros r Hr. apply repeat_spec in Hr. subst. apply repeat_length.
  Qed.
  Lemma layer_ok_ hist W R rows k : shared hist W R rows k ->
    layer_of_rows (w_cur W) (w_width W) = Ok (mkFw (concat (w_cur W)) (k_nn cfg)).
  Proof.
    intros H. pose proof (cur_is H) as (_ & _ & HF). unfold layer_of_rows, fw_with_data. rewrite (sh_width H).
    destruct (Nat.ltb_spec 0 (k_nn cfg)); [|lia]. cbn [oassert obind]. rewrite (concat_length_const HF), Nat.mod_mul by lia. reflexivity.
  Qed.

  (** ** A new layer *)
  Lemma new_layer_ok hist W R rows k : shared hist W R rows k -> layer_full V W = true ->
    exists W' k', new_layer cfg max W = Ok W' /\ shared hist W' (R ++ [rows]) rows k' /\ w_elems W' = w_elems W /\
      length (w_prev W') = Datatypes.S (length (w_prev W)) /\ length (w_cur W') = k_ideal cfg max (length (w_prev W')).
  Proof.
    intros H Hf. unfold layer_full in Hf. apply Nat.leb_le in Hf. pose proof (sh_len H) as HL. assert (k = 0) by lia. subst k.
    assert (Hcr : w_cur W = rows) by (rewrite (sh_cur H); unfold with_room; cbn [repeat]; now rewrite app_nil_r).
    assert (Hp : 0 < length rows) by (rewrite <- Hcr; apply (sh_pos H)).
    pose proof (cur_is H) as His. pose proof (sh_cap H) as Hcap. rewrite Hcr in His, Hcap. set (l := mkFw (concat rows) (k_nn cfg)) in *.
    unfold new_layer. rewrite (layer_ok_ H), Hcr. cbn [obind]. fold l.
    rewrite app_length. cbn [length]. rewrite Nat.add_1_r. set (sz := k_ideal cfg max (Datatypes.S (length (w_prev W)))).
    pose proof (fw_is_resize sz UNUSED Hnn His) as Hrs. fold sz in Hcap.
    rewrite firstn_all2 in Hrs by lia. unfold rows_of_layer.
    change (fwidth (fw_resize l sz UNUSED)) with (k_nn cfg). destruct (Nat.ltb_spec 0 (k_nn cfg)); [|lia]. cbn [oassert obind].
    rewrite (fw_is_iter Hnn Hrs). cbn [obind]. eexists. exists (sz - length rows). split; [reflexivity|].
    cbn [w_elems w_prev w_cur w_width]. rewrite app_length. cbn [length]. rewrite Nat.add_1_r.
    assert (Hll : length (rows ++ repeat (repeat UNUSED (k_nn cfg)) (sz - length rows)) = sz).
    { rewrite app_length, repeat_length. lia. }
    split; [|rewrite Hll; auto].
    assert (HLR : length rows = n_of W) by apply (y_len (sh_lay H)).
    assert (Hfin : lfine V (w_elems W) U (k_nn cfg) l rows).
    { constructor; cbn [fwidth l]; auto.
      - lia.
      - rewrite HLR. eapply change_base; [apply (sh_lay H)|]. intros x []. }
    assert (Hg : grows U (last R []) rows).
    { split; [apply (sh_grows H)|]. intros HU x Hx. apply (y_base (sh_lay H)). split; auto. }
    constructor; cbn [w_elems w_prev w_cur w_width]; auto.
    - apply (sh_hist H).
    - apply (sh_width H).
    - apply chain_app; auto. apply (sh_chain H).
    - eapply change_base; [apply (sh_lay H)|]. intros x (HU & Hx). rewrite last_last in Hx. auto.
    - rewrite last_last. auto.
    - rewrite Hll. lia.
    - rewrite Hll, app_length. cbn [length]. rewrite Nat.add_1_r. apply (so_mono Hsizes). lia.
  Qed.

  (** ** One element more *)
  Lemma lay_inv_push s s' w n B rows : n <= c_len C s ->
    (forall i j, i < c_len C s -> j < c_len C s -> c_dist C s' i j = c_dist C s i j) ->
    lay_inv V s U w n B rows -> lay_inv V s' U w n B rows.
  Proof.
    intros Hle Hd [I1 I2 I3 I4 I5]. constructor; auto.
    intros HU z (d & Ed & Hz) Hz0 Hl. apply (I4 HU z); auto.
    destruct Hl as (r & Hr & _). assert (z < length rows) by (apply nth_error_Some; congruence).
    exists d. rewrite <- Hd by lia. auto.
  Qed.

  Lemma push_ok hist W R rows k x s' : shared hist W R rows (Datatypes.S k) -> cpush (w_elems W) x = Ok s' ->
    shared (hist ++ [x]) (mkRw s' (w_cur W) (w_width W) (w_prev W)) R (rows ++ [repeat UNUSED (k_nn cfg)]) k /\
    c_len C s' = Datatypes.S (n_of W).
  Proof.
    intros H Ep. destruct (Hpush Ep) as (HL & Hg & Hd).
    assert (HLR : length rows = n_of W) by apply (y_len (sh_lay H)).
    assert (Hh : ofold cpush (hist ++ [x]) (w_elems W0) = Ok s') by (rewrite ofold_app, (sh_hist H); cbn [obind ofold]; now rewrite Ep).
    assert (Hm : c_len C s' <= max).
    { pose proof (sh_len H). pose proof (sh_cap H). pose proof (so_max Hsizes (Datatypes.S (length (w_prev W)))). lia. }
    pose proof (ew_use Hwork Hh Hm) as [Hus Hfu]. split; [|auto].
    constructor; cbn [w_elems w_prev w_cur w_width]; auto; try apply H.
    - rewrite (sh_cur H). unfold with_room. rewrite <- app_assoc. reflexivity.
    - destruct (sh_chain H) as [HF HS]. split; auto. eapply Forall2_imp; [|exact HF].
      intros l r Hl. eapply lfine_push; [| |exact Hl]; auto. lia.
    - pose proof (@lay_inv_push (w_elems W) s' (k_nn cfg) (n_of W) (base_of U R) rows ltac:(lia) Hd (sh_lay H)) as H1.
      assert (H1' : lay_inv V s' U (k_nn cfg) (n_of W) none rows) by (eapply change_base; [exact H1|intros y []]).
      assert (Hc : (N.of_nat (c_len C s') <= UNUSED)%N) by (pose proof (ew_ids Hwork); lia).
      destruct (@resized_inv _ _ V s' Hc U (k_nn cfg) (n_of W) (c_len C s') rows) as [H2 H3]; auto; try lia.
      rewrite HL in *. replace (Datatypes.S (n_of W) - n_of W) with 1 in * by lia. cbn [repeat] in *.
      eapply change_base; [exact H2|]. intros y Hy. apply H3. apply (y_base H1 Hy).
    - rewrite app_length. pose proof (sh_grows H). lia.
  Qed.

  Lemma push_works hist W R rows k x : elems_work V cpush max (w_elems W0) -> shared hist W R rows (Datatypes.S k) -> exists s', cpush (w_elems W) x = Ok s'.
  Proof.
    intros Hfull H. apply (ew_push Hfull (h := hist)); [apply (sh_hist H)|].
    pose proof (sh_len H). pose proof (sh_cap H). pose proof (so_max Hsizes (Datatypes.S (length (w_prev W)))). lia.
  Qed.

  Lemma pushes_ok xs : forall hist W R rows k s', shared hist W R rows (length xs + k) -> ofold cpush xs (w_elems W) = Ok s' ->
    exists rows', shared (hist ++ xs) (mkRw s' (w_cur W) (w_width W) (w_prev W)) R rows' k /\
      c_len C s' = n_of W + length xs.
  Proof.
    induction xs as [|x xs IH]; intros hist W R rows k s' H Ef; cbn [ofold] in Ef.
    - injection Ef as <-. rewrite app_nil_r, Nat.add_0_r. exists rows. destruct W; auto.
    - destruct (cpush (w_elems W) x) as [s1|] eqn:E1; [|discriminate]. cbn [obind] in Ef. cbn [length Nat.add] in H.
      destruct (push_ok H E1) as [H1 HL]. destruct (IH _ (mkRw s1 (w_cur W) (w_width W) (w_prev W)) _ _ _ _ H1 Ef) as (rows' & H2 & HL2).
      cbn [w_elems w_prev w_cur w_width] in *. rewrite <- app_assoc in H2. exists rows'. split; auto. cbn [length]. lia.
  Qed.

  (** ** Indexing *)
  Local Notation sinv W R := (sys_inv V (w_elems W) U (k_nn cfg) (n_of W) (k_nn cfg) (k_ms cfg) (base_of U R)).
  Local Notation step W := (sys_step V (w_elems W) (k_nn cfg) (k_ms cfg) (w_prev W)).

  Lemma tasks_start hist W R rows k ids : shared hist W R rows k -> NoDup ids -> Forall (fun i => i < n_of W) ids ->
    sinv W R (rows, map (fun i => (i, TStart)) ids).
  Proof. intros H Hnd HF. apply init_inv; auto. apply (sh_lay H). Qed.

  Lemma step_ok hist W R rows k ts j : shared hist W R rows k -> sinv W R (rows, ts) ->
    e_mode V = Release \/ (exists z, step W (w_cur W, ts) j = Ok z) ->
    exists rows' ts', step W (w_cur W, ts) j = Ok (with_room (k_nn cfg) rows' k, ts') /\
      step W (rows, ts) j = Ok (rows', ts') /\
      sinv W R (rows', ts') /\ map fst ts' = map fst ts /\
      shared hist (mkRw (w_elems W) (with_room (k_nn cfg) rows' k) (w_width W) (w_prev W)) R rows' k /\
      (forall idx t, nth_error ts j = Some (idx, t) -> t <> TDone -> total (n_of W) ts' < total (n_of W) ts).
  Proof.
    intros H HI Hm. pose proof (sh_use H) as [Hus Hfu]. pose proof (sh_ids H) as Hids. pose proof (sh_grows H) as Hgr.
    assert (HLR : length rows = n_of W) by apply (y_len (sh_lay H)).
    pose proof (@hprev_of _ _ V (w_elems W) Hus Hids U (k_nn cfg) (w_prev W) R (n_of W) (sh_chain H) ltac:(lia) (le_n _) Hfu) as Hprev.
    assert (Hck : chk U (rows, ts) j).
    { destruct Hm as [Hm|(z & Hz)]; [eapply chk_release; eauto|].
      intros idx ns Hk _ (r & Er & Hne). cbn [fst snd] in *. rewrite (sh_cur H) in Hz. unfold with_room, sys_step in Hz. rewrite Hk in Hz.
      cbn [task_step] in Hz. unfold index in Hz. rewrite nth_error_app1 in Hz by (apply nth_error_Some; congruence). rewrite Er in Hz.
      cbn [ounwrap obind] in Hz. destruct (nth_error r 0) as [v|] eqn:Ev; [|discriminate]. cbn [ounwrap obind] in Hz.
      destruct (N.eqb_spec v UNUSED) as [->|]; [|discriminate]. apply Hne.
      destruct r as [|v r]; [discriminate|]. cbn in Ev. injection Ev as ->. reflexivity. }
    destruct (@sys_step_ok _ _ V (w_elems W) Hus Hsort Hids U (k_nn cfg) (n_of W) (le_n _) (k_nn cfg) (k_ms cfg) (w_prev W)
       ltac:(lia) Hms (base_of U R) Hprev (rows, ts) j HI Hck) as ([rows' ts'] & E1 & HI1 & Hid & Hlv & Hdec & _).
    exists rows', ts'. pose proof (sys_step_app (repeat (repeat UNUSED (k_nn cfg)) k) E1) as E2.
    split; [rewrite (sh_cur H); exact E2|]. split; auto. split; auto. split; auto. cbn [fst snd] in *.
    assert (HL' : length rows' = n_of W) by apply (y_len (z_lay HI1)).
    split; [|exact Hdec]. constructor; cbn [w_elems w_prev w_cur w_width]; auto; try apply H.
    - apply (z_lay HI1).
    - lia.
    - unfold with_room. rewrite app_length, repeat_length. pose proof (sh_pos H). rewrite (sh_len H) in *. lia.
    - unfold with_room. rewrite app_length, repeat_length, HL'. pose proof (sh_cap H). rewrite (sh_len H) in *. lia.
  Qed.

  (** a prefix of the run of the tasks *)
  Lemma run_shared hist W R rows k ids sched cur ts : shared hist W R rows k -> NoDup ids -> Forall (fun i => i < n_of W) ids ->
    run V (w_elems W) (k_nn cfg) (k_ms cfg) (w_prev W) sched (w_cur W, map (fun i => (i, TStart)) ids) = Ok (cur, ts) ->
    exists rows', sinv W R (rows', ts) /\ map fst ts = ids /\ cur = with_room (k_nn cfg) rows' k /\
      shared hist (mkRw (w_elems W) cur (w_width W) (w_prev W)) R rows' k.
  Proof.
    intros H Hnd HF. revert cur ts. induction sched as [|j sched IH] using rev_ind; intros cur ts Er.
    - cbn in Er. injection Er as <- <-. exists rows. split; [eapply tasks_start; eauto|]. split.
      + rewrite map_map. cbn. apply map_id.
      + split; [apply (sh_cur H)|]. destruct W; auto.
    - rewrite run_snoc in Er. destruct (run _ _ _ _ _ sched _) as [[cur1 ts1]|] eqn:E1; [|discriminate]. cbn [obind] in Er.
      destruct (IH _ _ eq_refl) as (rows1 & HI1 & Hid1 & Hc1 & H1).
      destruct (@step_ok hist (mkRw (w_elems W) cur1 (w_width W) (w_prev W)) R rows1 k ts1 j H1 HI1) as (rows2 & ts2 & E2 & _ & HI2 & Hid2 & H2 & _).
      { right. eexists. exact Er. }
      cbn [w_elems w_prev w_cur w_width] in *. rewrite Er in E2. injection E2 as -> ->. exists rows2. split; auto. split; [congruence|]. auto.
  Qed.

  (** ** Pieces *)
  Definition good (W : rw S) : Prop := exists hist R rows k, shared hist W R rows k.

  Lemma split_ok hist W R rows k (xs : list I) : shared hist W R rows k ->
    split_batch V W xs = Ok (firstn (Nat.min (length xs) k) xs, seq (n_of W) (Nat.min (length xs) k), skipn (Nat.min (length xs) k) xs).
  Proof.
    intros H. unfold split_batch. pose proof (sh_len H). destruct (Nat.leb_spec (n_of W) (length (w_cur W))); [|lia].
    cbn [oassert obind]. replace (length (w_cur W) - n_of W) with k by lia. reflexivity.
  Qed.

  Lemma piece_good W xs W' ids rest : good W -> piece V cpush cfg max W xs W' ids rest -> good W'.
  Proof.
    intros (hist & R & rows & k & H) Hp. destruct Hp as [W W1 xs todo ids rest s sched cur ts Hf Es Ep Er Hd].
    assert (H1 : exists R1 k1, shared hist W1 R1 rows k1).
    { destruct (layer_full V W) eqn:Ef.
      - destruct (new_layer_ok H Ef) as (W2 & k2 & E2 & H2 & _). rewrite Hf in E2. injection E2 as <-. eauto.
      - subst. eauto. }
    destruct H1 as (R1 & k1 & H1). rewrite (split_ok xs H1) in Es. injection Es as <- <- <-.
    set (num := Nat.min (length xs) k1) in *.
    assert (Hk : k1 = length (firstn num xs) + (k1 - num)) by (rewrite firstn_length; lia). rewrite Hk in H1.
    destruct (pushes_ok H1 Ep) as (rows2 & H2 & HL2).
    assert (HF : Forall (fun i => i < n_of (mkRw s (w_cur W1) (w_width W1) (w_prev W1))) (seq (n_of W1) num)).
    { apply Forall_forall. intros i Hi. apply in_seq in Hi. cbn [w_elems]. rewrite HL2, firstn_length. lia. }
    destruct (run_shared (sched := sched) (cur := cur) (ts := ts) H2 (seq_NoDup _ _) HF Er) as (rows3 & _ & _ & _ & H3).
    cbn [w_elems w_prev w_cur w_width] in *. do 4 eexists. exact H3.
  Qed.

  Lemma pieces_good W : good W0 -> pieces V cpush cfg max W0 W -> good W.
  Proof. intros H0. induction 1; auto. eapply piece_good; eauto. Qed.
End Seq.
