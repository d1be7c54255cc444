(** * Proofs: crashes while saving, failing writers, builder re-opening, views *)
From Coq Require Import String.
From Verif Require Import Base BaseFacts Bytes PBytes MSliceVec SSliceVec PFixed PVar PCursor MOffsets SOffsets POffsets MSetVec PSetVec PSetVecWrite MJson PJson PJsonText MIndexIo SIndexIo PIndexIo.
Set Implicit Arguments.

Lemma ok_inj {A} (a a' : A) : Ok a = Ok a' -> a = a'.
Proof. congruence. Qed.
Lemma ok_pair_inj {A B} (a a' : A) (b b' : B) : Ok (a, b) = Ok (a', b') -> a = a' /\ b = b'.
Proof. split; congruence. Qed.

(** ** Everything before the metadata block is written above it *)
Fixpoint writes_above (b pos : nat) (ops : list wop) : Prop :=
  match ops with
  | [] => True
  | WWrite bs :: t => b <= pos /\ writes_above b (pos + length bs) t
  | WSeek p :: t => writes_above b p t
  end.
Fixpoint end_pos (pos : nat) (ops : list wop) : nat :=
  match ops with
  | [] => pos
  | WWrite bs :: t => end_pos (pos + length bs) t
  | WSeek p :: t => end_pos p t
  end.

Lemma writes_above_app b a : forall pos c,
  writes_above b pos (a ++ c) <-> writes_above b pos a /\ writes_above b (end_pos pos a) c.
Proof.
  induction a as [|[bs|p] a IH]; intros pos c; cbn [app writes_above end_pos].
  - tauto.
  - rewrite IH. tauto.
  - apply IH.
Qed.
Lemma end_pos_app a : forall pos c, end_pos pos (a ++ c) = end_pos (end_pos pos a) c.
Proof. induction a as [|[bs|p] a IH]; intros pos c; cbn [app end_pos]; auto. Qed.

Lemma run_ops_pos ops : forall c, cpos (run_ops c ops) = end_pos (cpos c) ops.
Proof.
  induction ops as [|[bs|p] ops IH]; intros c; auto; cbn [run_ops fold_left run_op end_pos].
  - fold (run_ops (cwrite c bs) ops). rewrite IH, cwrite_pos. reflexivity.
  - fold (run_ops (cseek c p) ops). rewrite IH. reflexivity.
Qed.

Lemma only_writes_above b ops : Forall (fun o => exists bs, o = WWrite bs) ops ->
  forall pos, b <= pos -> writes_above b pos ops /\ pos <= end_pos pos ops.
Proof.
  induction 1 as [|o ops (bs & ->) H IH]; intros pos Hp; cbn [writes_above end_pos]; [auto|].
  destruct (IH (pos + length bs)) as [H1 H2]; [lia|]. split; [split|]; auto. lia.
Qed.

Lemma fixed_layer_above m v keep pos ops n b : fixed_layer_ops m v keep pos = Ok (ops, n) -> b <= pos ->
  writes_above b pos ops /\ b <= end_pos pos ops.
Proof.
  unfold fixed_layer_ops. cbv zeta. set (bfo := _ * CHUNK_SIZE).
  destruct (offs_push m offs_new 0) as [o0|]; [|discriminate]. cbn [obind].
  match goal with |- obind ?x _ = _ -> _ => destruct x as [[[ops1 t1] o1]|] eqn:E; [|discriminate] end. cbn [obind].
  destruct (oassert _); [|discriminate]. cbn [obind]. intros H Hb. apply ok_pair_inj in H as [Ho Hn]. subst ops. clear Hn.
  assert (HW : Forall (fun o => exists bs, o = WWrite bs) ops1).
  { destruct (fw_is_empty v); [inversion E; subst; constructor|].
    destruct (fw_iter v) as [rows|]; [|discriminate]. cbn [obind] in E.
    assert (HG : forall rs ops0 t0 o0 r, ofold (fun (s : list wop * nat * offsets) row =>
               let '(ops, total_len, offs) := s in
               let* e := set_encode m (sort_u32 (filter keep row)) in
               let total_len := total_len + length e in
               let* offs := offs_push m offs total_len in
               Ok (ops ++ [WWrite (write_as_bytes u8r e)], total_len, offs)) rs (ops0, t0, o0) = Ok r ->
               Forall (fun o => exists bs, o = WWrite bs) ops0 -> Forall (fun o => exists bs, o = WWrite bs) (fst (fst r))).
    { clear. induction rs as [|r rs IH]; intros ops0 t0 o0 r0; cbn [ofold]; [intros H; inversion H; auto|].
      destruct (set_encode m _); [|discriminate]. cbn [obind]. destruct (offs_push m o0 _); [|discriminate]. cbn [obind].
      intros H Ha. apply (IH _ _ _ _ H). apply Forall_app. split; auto. repeat constructor. eauto. }
    apply (HG _ _ _ _ _ E). constructor. }
  set (T := [WSeek (pos + 8 + bfo + t1); WSeek (pos + 8); WWrite (write_as_bytes chunk_repr o1); WSeek (pos + 8 + bfo + t1)]).
  destruct (only_writes_above (b := b) HW (pos := pos + 8 + bfo)) as [HW1 HW2]; [lia|].
  split.
  - apply writes_above_app. split; [cbn [writes_above]; lia|].
    apply writes_above_app. split; [exact HW1|]. unfold T. cbn [writes_above end_pos]. lia.
  - rewrite !end_pos_app. unfold T. cbn [end_pos]. lia.
Qed.

Lemma layers_above m L pos ops ss :
  match L with
  | FixWidth ls => fixed_layers_ops m ls pos
  | Compressed ls => Ok (compressed_layers_ops ls)
  end = Ok (ops, ss) -> 
  forall b p, b <= p -> b <= pos -> writes_above b p ops /\ b <= end_pos p ops.
Proof.
  destruct L as [ls|ls].
  - revert pos ops ss; induction ls as [|l ls IH]; intros pos ops ss; cbn [fixed_layers_ops].
    + intros H b p Hb Hp. inversion H; subst. cbn. auto.
    + destruct (fixed_layer_ops m l is_used pos) as [[o1 n1]|] eqn:E1; [|discriminate]. cbn [obind fst snd].
      destruct (fixed_layers_ops m ls (pos + n1)) as [[o2 s2]|] eqn:E2; [|discriminate]. cbn [obind fst snd].
      intros H b p Hb Hp. inversion H; subst.
      assert (H1 : writes_above b p o1 /\ b <= end_pos p o1).
      { destruct (@fixed_layer_above m l is_used pos o1 n1 b E1 Hp) as [A B].
        (* the first operation is a seek, so the start position is irrelevant *)
        unfold fixed_layer_ops in E1. cbv zeta in E1. destruct (offs_push m offs_new 0); [|discriminate]. cbn [obind] in E1.
        match type of E1 with obind ?x _ = _ => destruct x as [[[a1 a2] a3]|]; [|discriminate] end. cbn [obind] in E1.
        destruct (oassert _); [|discriminate]. cbn [obind] in E1. apply ok_pair_inj in E1 as [Ho Hn]. subst o1. split; [exact A|exact B]. }
      destruct (IH _ _ _ E2 b (end_pos p o1)) as [A B]; [tauto|lia|].
      rewrite writes_above_app, end_pos_app. tauto.
  - intros H b p Hb _. injection H as H. assert (Ho : ops = fst (compressed_layers_ops ls)) by (rewrite H; auto).
    assert (HW : Forall (fun o => exists bs, o = WWrite bs) ops).
    { rewrite Ho. clear. induction ls; cbn [compressed_layers_ops fst]; [constructor|].
      apply Forall_app. split; auto. unfold compressed_layer_ops. cbn [fst]. repeat constructor; eauto. }
    destruct (only_writes_above (b := b) HW Hb). split; auto. lia.
Qed.

Lemma parts_above m L r : write_index_parts m L 0 = Ok r -> writes_above METADATA_LEN 0 (fst r).
Proof.
  unfold write_index_parts. fold (nn_of m L).
  destruct (nn_of m L) as [nn|]; [|discriminate]. cbn [obind].
  destruct (omapM (layer_len L) (seq 0 (layers_len L))) as [cs|] eqn:Ec; [|discriminate]. cbn [obind].
  destruct (match L with FixWidth ls => fixed_layers_ops m ls (0 + METADATA_LEN)
            | Compressed ls => Ok (compressed_layers_ops ls) end) as [[ops ss]|] eqn:E; [|discriminate]. cbn [obind].
  destruct (oassert _); [|discriminate]. cbn [obind]. intros H; apply ok_inj in H; subst. cbn [fst].
  cbn [app writes_above]. apply writes_above_app. split; [|exact I].
  exact (proj1 (@layers_above m L (0 + METADATA_LEN) ops ss E METADATA_LEN (0 + METADATA_LEN) (Nat.le_refl _) (Nat.le_refl _))).
Qed.

(** ** Byte-level prefixes *)
Definition low_zero (c : cursor) : Prop := forall i, i < METADATA_LEN -> byte_at c i = None \/ byte_at c i = Some 0%N.

Lemma low_zero_write c bs : low_zero c -> METADATA_LEN <= cpos c -> low_zero (cwrite c bs).
Proof.
  intros H Hp i Hi. rewrite byte_at_cwrite.
  destruct (Nat.leb_spec (cpos c) i); [lia|]. cbn [andb].
  destruct (i <? length (cbuf c)); [now apply H|]. destruct ((i <? cpos c) && negb (length bs =? 0)); auto.
Qed.

Lemma crash_low_zero ops : forall c, low_zero c -> writes_above METADATA_LEN (cpos c) ops ->
  forall k, low_zero (fold_left run_bop (firstn k (concat (map op_bops ops))) c).
Proof.
  induction ops as [|[bs|p] ops IH]; intros c Hc Hw k; cbn [map concat op_bops].
  - now rewrite firstn_nil.
  - destruct Hw as [Hp Hw]. rewrite firstn_app, fold_left_app.
    assert (HB : forall bs c, low_zero c -> METADATA_LEN <= cpos c ->
              forall k, low_zero (fold_left run_bop (firstn k (map BByte bs)) c)).
    { clear. induction bs as [|b bs IH]; intros c Hc Hp k; [now rewrite firstn_nil|].
      destruct k; cbn [map firstn fold_left run_bop]; auto. apply IH; [now apply low_zero_write|]. rewrite cwrite_pos. lia. }
    rewrite map_length. destruct (Nat.leb_spec (length bs) k).
    + replace (firstn k (map BByte bs)) with (map BByte bs) by (symmetry; apply firstn_all2; rewrite map_length; lia).
      assert (HA : fold_left run_bop (map BByte bs) c = cwrite c bs).
      { clear. revert c. induction bs as [|b bs IH]; intros c; cbn [map fold_left run_bop]; [now rewrite cwrite_nil|].
        rewrite IH, cwrite_app. reflexivity. }
      rewrite HA. apply IH; [now apply low_zero_write|]. now rewrite cwrite_pos.
    + replace (k - length bs) with 0 by lia. cbn [firstn fold_left]. now apply HB.
  - destruct k; [exact Hc|]. cbn [app firstn fold_left run_bop]. apply IH; [|exact Hw]. exact Hc.
Qed.

Lemma bytes_run bs : forall c, fold_left run_bop (map BByte bs) c = cwrite c bs.
Proof.
  induction bs as [|b bs IH]; intros c; cbn [map fold_left run_bop]; [now rewrite cwrite_nil|].
  rewrite IH, cwrite_app. reflexivity.
Qed.

Lemma bops_run ops : forall c, fold_left run_bop (concat (map op_bops ops)) c = run_ops c ops.
Proof.
  induction ops as [|[bs|p] ops IH]; intros c; auto; cbn [map concat op_bops]; rewrite fold_left_app, IH.
  - rewrite bytes_run. reflexivity.
  - reflexivity.
Qed.

Lemma low_zero_rejected c : low_zero c -> load_layers (cbuf c) = Fail Panicked.
Proof.
  intros H. unfold load_layers, read_layer_sizes. cbv zeta.
  assert (E : beqN (firstn (length LIBRARY_STR) (firstn METADATA_LEN (cbuf c))) LIBRARY_STR = false).
  { specialize (H 0). unfold byte_at in H. destruct (cbuf c) as [|b t]; [reflexivity|].
    destruct H as [H|H]; [unfold METADATA_LEN; lia|discriminate|]. cbn in H. inversion H; subst. reflexivity. }
  rewrite E. reflexivity.
Qed.

(** a metadata block that was only partly written is rejected *)
Lemma torn_block_rejected (block : list N) k rest :
  k < METADATA_LEN -> load_layers (firstn k block ++ repeat 0%N (METADATA_LEN - length (firstn k block)) ++ rest) = Fail Panicked.
Proof.
  intros Hk. unfold load_layers, read_layer_sizes. cbv zeta.
  set (p := firstn k block). assert (Hp : length p <= k) by (unfold p; rewrite firstn_length; lia).
  replace (firstn METADATA_LEN (p ++ repeat 0%N (METADATA_LEN - length p) ++ rest)) with (p ++ repeat 0%N (METADATA_LEN - length p)).
  2:{ rewrite app_assoc, firstn_app. rewrite (app_length p), repeat_length.
      replace (METADATA_LEN - (length p + (METADATA_LEN - length p))) with 0 by lia.
      rewrite firstn_O, app_nil_r. symmetry. apply firstn_all2. rewrite app_length, repeat_length. lia. }
  destruct (beqN (firstn (length LIBRARY_STR) (p ++ repeat 0%N (METADATA_LEN - length p))) LIBRARY_STR); [|reflexivity].
  cbn [oassert obind].
  destruct (json_parse (skipn (length LIBRARY_STR) (p ++ repeat 0%N (METADATA_LEN - length p)))) as [v|] eqn:E; [|reflexivity].
  exfalso. apply json_parse_nonul in E. unfold nonul in E. rewrite Forall_forall in E.
  apply (E 0%N); auto.
  apply (nth_error_In _ (METADATA_LEN - 1 - length LIBRARY_STR)).
  rewrite nth_error_skipn'. change (length LIBRARY_STR) with 6.
  replace (6 + (METADATA_LEN - 1 - 6)) with (METADATA_LEN - 1) by (unfold METADATA_LEN; lia).
  rewrite nth_error_app2 by (unfold METADATA_LEN in *; lia).
  apply nth_error_repeat. unfold METADATA_LEN in *. lia.
Qed.

Definition empty_block : list N := resize (metadata_text 0 [] []) METADATA_LEN 32%N.
Lemma empty_prefixes : forallb (fun j => match load_layers (firstn j empty_block) with
                                         | Ok (Compressed []) => true | Ok _ => false | Fail _ => true end) (seq 0 1025) = true.
Proof. vm_compute. reflexivity. Qed.

Lemma zero_prefix_bytes (l : list N) n : n <= length l -> (forall i, i < n -> nth_error l i = Some 0%N) ->
  l = repeat 0%N n ++ skipn n l.
Proof.
  revert n; induction l as [|b l IH]; intros n Hn H.
  - destruct n; [reflexivity|cbn in Hn; lia].
  - destruct n; [reflexivity|]. cbn [repeat app skipn]. pose proof (H 0 ltac:(lia)) as H0. cbn in H0. inversion H0; subst.
    f_equal. apply IH; [cbn in Hn; lia|]. intros i Hi. apply (H (S i)). lia.
Qed.

Lemma crash_safe m L G ops k L' : index_is m L G -> write_index_ops m L 0 = Ok ops ->
  load_layers (crash_image (mkCursor [] 0) ops k) = Ok L' -> index_shows m L' G.
Proof.
  intros HI. unfold write_index_ops. destruct (write_index_parts m L 0) as [r|] eqn:Er; [|discriminate].
  cbn [obind]. intros H; apply ok_inj in H; subst. unfold crash_image.
  rewrite map_app, concat_app. cbn [map concat op_bops]. rewrite app_nil_r.
  rewrite firstn_app, fold_left_app. set (B := concat (map op_bops (fst r))).
  assert (Hlz0 : low_zero (mkCursor [] 0)) by (intros i _; left; unfold byte_at; cbn; now destruct i).
  destruct (Nat.ltb_spec k (length B)) as [Hk|Hk].
  { replace (k - length B) with 0 by lia. cbn [firstn fold_left]. intros H.
    rewrite low_zero_rejected in H; [discriminate|]. apply crash_low_zero; auto. apply (parts_above _ _ Er). }
  replace (firstn k B) with B by (symmetry; apply firstn_all2; lia). replace (fold_left run_bop B (mkCursor [] 0)) with (run_ops (mkCursor [] 0) (fst r)) by (symmetry; apply bops_run). rewrite firstn_map, bytes_run.
  set (j := k - length B). clearbody j.
  assert (Hlz : low_zero (run_ops (mkCursor [] 0) (fst r))).
  { rewrite <- bops_run. pose proof (@crash_low_zero (fst r) (mkCursor [] 0) Hlz0 (parts_above _ _ Er) (length B)) as H.
    fold B in H. rewrite firstn_all in H. exact H. }
  destruct (save_image _ HI Er) as (mvs & nn & ops & HM & Esnd & Hlen & Efst & Hrun).
  set (block := snd r) in *.
  assert (Hblk : length block = METADATA_LEN) by (rewrite Esnd; now apply block_len).
  rewrite Efst, !run_ops_app in Hlz |- *. cbn [run_ops fold_left run_op] in Hlz |- *.
  fold (run_ops (cseek (cseek (mkCursor [] 0) 0) (0 + METADATA_LEN)) ops) in Hlz |- *.
  rewrite Hrun in Hlz |- * by reflexivity. set (bs := concat (map bytes_of mvs)) in *.
  unfold cseek at 2 3 in Hlz. unfold cseek at 2 3. cbn [cbuf cpos] in Hlz |- *. rewrite Nat.add_0_l in *.
  destruct mvs as [|mv mvs].
  { (* no layers *)
    inversion HM; subst G. cbn in bs. subst bs. rewrite cwrite_nil. unfold cseek. cbn [cbuf].
    pose proof (cwrite_append [] (firstn j block)) as HA0. change (length (@nil N)) with 0 in HA0. rewrite HA0. clear HA0. cbn [app cbuf].
    assert (Hb : block = empty_block).
    { assert (HL0 : L = FixWidth [] \/ L = Compressed []) by (destruct HI as [_ HI2]; destruct L; inversion HI2; auto).
      assert (E0 : omap snd (write_index_parts m L 0) = Ok empty_block).
      { destruct HL0 as [-> | ->]; vm_compute; reflexivity. }
      rewrite Er in E0. cbn [omap] in E0. injection E0 as E0. exact E0. }
    rewrite Hb in *.
    assert (Hj : firstn j empty_block = firstn (Nat.min j 1024) empty_block).
    { destruct (Nat.leb_spec j 1024); [f_equal; lia|]. rewrite !firstn_all2; auto; rewrite Hblk; unfold METADATA_LEN; lia. }
    rewrite Hj. pose proof empty_prefixes as Hf. rewrite forallb_forall in Hf.
    specialize (Hf (Nat.min j 1024)). cbv beta in Hf. intros Hl. rewrite Hl in Hf.
    assert (Hc : L' = Compressed []).
    { destruct L' as [ls|ls].
      - discriminate Hf. apply in_seq. lia.
      - destruct ls; auto. discriminate Hf. apply in_seq. lia. }
    subst L'. split; auto. intros i g Hi. destruct i; discriminate. }
  assert (Hbs : bs <> []).
  { inversion HM as [|? ? g0 G0 Hg0 ? E1 E2]; subst G. destruct HI as [Hfit _]. inversion Hfit; subst.
    destruct (bytes_of_len Hg0) as [H8 _]; auto. unfold bs. cbn [map concat]. intros E.
    apply app_eq_nil in E as [E _]. rewrite E in H8. cbn in H8. lia. }
  rewrite (@cwrite_gap [] METADATA_LEN bs (Nat.le_0_l _) Hbs).
  cbn [app length cbuf]. rewrite Nat.sub_0_r.
  assert (Hbuf : cbuf (cwrite (cseek (mkCursor (repeat 0%N METADATA_LEN ++ bs) (METADATA_LEN + length bs)) 0) (firstn j block))
                 = firstn j block ++ repeat 0%N (METADATA_LEN - length (firstn j block)) ++ bs).
  { unfold cseek. cbn [cbuf]. set (pfx := firstn j block).
    assert (Hpl : length pfx <= METADATA_LEN) by (unfold pfx; rewrite firstn_length; lia).
    replace (repeat 0%N METADATA_LEN) with (repeat 0%N (length pfx) ++ repeat 0%N (METADATA_LEN - length pfx))
      by (rewrite <- repeat_app; f_equal; lia).
    rewrite <- app_assoc. pose proof (@cwrite_overwrite [] (repeat 0%N (length pfx)) (repeat 0%N (METADATA_LEN - length pfx) ++ bs) pfx) as HO.
    cbn [app length] in HO. rewrite HO by (now rewrite repeat_length). reflexivity. }
  rewrite Hbuf. destruct (Nat.ltb_spec j METADATA_LEN) as [Hj|Hj].
  { rewrite torn_block_rejected by auto. discriminate. }
  rewrite firstn_all2 by lia. rewrite Hblk, Nat.sub_diag. cbn [repeat app].
  rewrite <- (app_nil_r bs). unfold bs. rewrite Esnd.
  rewrite (@load_saved m (mv :: mvs) G nn _ [] HM (proj1 HI) eq_refl Hlen). intros H; apply ok_inj in H; subst.
  apply index_is_shows. split; [apply HI|exact HM].
Qed.

(** ** [BufWriter] *)
Definition logical (w : bufw) : cursor := cwrite (dcur (bdev w)) (bbuf w).

Lemma bw_flush_ok fails w w' : bw_flush fails w = (w', true) -> logical w' = logical w /\ bbuf w' = [].
Proof.
  unfold bw_flush, dev_write, logical. destruct w as [d buf]; cbn [bbuf bdev]. destruct buf as [|b buf].
  - intros H; inversion H; subst. auto.
  - destruct (fails (dcalls d)); intros H; inversion H; subst. cbn [bdev bbuf dcur]. now rewrite cwrite_nil.
Qed.

Lemma bw_write_ok fails cap w bs w' : bw_write fails cap w bs = (w', true) -> logical w' = cwrite (logical w) bs.
Proof.
  unfold bw_write. destruct (Nat.ltb_spec (length bs) (cap - length (bbuf w))) as [H1|H1].
  { intros H; inversion H; subst. unfold logical. cbn [bdev bbuf]. now rewrite cwrite_app. }
  assert (HS : forall w0, logical w0 = logical w -> (cap <= length bs -> bbuf w0 = [] \/ bs = []) ->
     (if cap <=? length bs then let '(d, _, ok) := dev_write fails (bdev w0) bs in (mkBufw d (bbuf w0), ok)
      else (mkBufw (bdev w0) (bbuf w0 ++ bs), true)) = (w', true) -> logical w' = cwrite (logical w) bs).
  { intros w0 Hl Hb. destruct (Nat.leb_spec cap (length bs)) as [H2|H2].
    - unfold dev_write. destruct (fails (dcalls (bdev w0))); intros H; inversion H; subst.
      rewrite <- Hl. unfold logical. cbn [bdev bbuf dcur]. destruct (Hb H2) as [Hn|Hn]; rewrite Hn.
      + now rewrite !cwrite_nil.
      + now rewrite !cwrite_nil.
    - intros H; inversion H; subst. rewrite <- Hl. unfold logical. cbn [bdev bbuf]. now rewrite cwrite_app. }
  destruct (Nat.ltb_spec (cap - length (bbuf w)) (length bs)) as [H2|H2].
  - destruct (bw_flush fails w) as [w0 ok] eqn:Ef. destruct ok; [|discriminate].
    apply bw_flush_ok in Ef as [E1 E2]. apply HS; auto.
  - apply HS; auto. intros H3. destruct (bbuf w) as [|b t]; auto. destruct bs; auto. cbn [length] in *. lia.
Qed.

Lemma bw_seek_ok fails w p w' : bw_seek fails w p = (w', true) -> logical w' = cseek (logical w) p /\ bbuf w' = [].
Proof.
  unfold bw_seek. destruct (bw_flush fails w) as [w0 ok] eqn:Ef. destruct ok; [|discriminate].
  apply bw_flush_ok in Ef as [E1 E2]. unfold dev_seek. destruct (fails (dcalls (bdev w0))); intros H; inversion H; subst.
  unfold logical in *. cbn [bdev bbuf dcur]. rewrite E2, cwrite_nil in *. rewrite E1. auto.
Qed.

Lemma bw_run_ok fails cap ops : forall w w', bw_run fails cap w ops = (w', true) -> logical w' = run_ops (logical w) ops.
Proof.
  induction ops as [|o ops IH]; intros w w'; cbn [bw_run]; [intros H; inversion H; auto|].
  destruct (match o with WWrite bs => bw_write fails cap w bs | WSeek p => bw_seek fails w p end) as [w0 ok] eqn:E.
  destruct ok; [|discriminate]. intros H. rewrite (IH _ _ H).
  assert (logical w0 = run_op (logical w) o) as ->; [|reflexivity].
  destruct o as [bs|p]; cbn [run_op].
  - exact (bw_write_ok _ _ _ _ E).
  - exact (proj1 (bw_seek_ok _ _ _ E)).
Qed.

Lemma bw_run_app fails cap a : forall w b, bw_run fails cap w (a ++ b) =
  let '(w1, ok) := bw_run fails cap w a in if ok then bw_run fails cap w1 b else (w1, false).
Proof.
  induction a as [|o a IH]; intros w b; cbn [app bw_run]; auto.
  destruct (match o with WWrite bs => bw_write fails cap w bs | WSeek p => bw_seek fails w p end) as [w0 ok].
  destruct ok; auto.
Qed.

(** the operations before the metadata block end with a seek, which flushes *)
Lemma parts_end m L pos r : write_index_parts m L pos = Ok r -> exists ops, fst r = ops ++ [WSeek pos].
Proof.
  unfold write_index_parts. fold (nn_of m L).
  destruct (nn_of m L) as [nn|]; [|discriminate]. cbn [obind].
  destruct (omapM (layer_len L) (seq 0 (layers_len L))) as [cs|] eqn:Ec; [|discriminate]. cbn [obind].
  destruct (match L with FixWidth ls => fixed_layers_ops m ls (pos + METADATA_LEN)
            | Compressed ls => Ok (compressed_layers_ops ls) end) as [[ops ss]|] eqn:E; [|discriminate]. cbn [obind].
  destruct (oassert _); [|discriminate]. cbn [obind]. intros H; apply ok_inj in H; subst. cbn [fst].
  rewrite app_assoc. eauto.
Qed.

Lemma parts_block_len m L pos r : write_index_parts m L pos = Ok r -> length (snd r) = METADATA_LEN.
Proof.
  unfold write_index_parts. fold (nn_of m L).
  destruct (nn_of m L) as [nn|]; [|discriminate]. cbn [obind].
  destruct (omapM (layer_len L) (seq 0 (layers_len L))) as [cs|] eqn:Ec; [|discriminate]. cbn [obind].
  destruct (match L with FixWidth ls => fixed_layers_ops m ls (pos + METADATA_LEN)
            | Compressed ls => Ok (compressed_layers_ops ls) end) as [[ops ss]|] eqn:E; [|discriminate]. cbn [obind].
  destruct (Nat.leb_spec (length (metadata_text nn cs ss)) METADATA_LEN); [|discriminate]. cbn [oassert obind].
  intros H1; apply ok_inj in H1; subst. cbn [snd]. now apply block_len.
Qed.

Lemma ok_all_but_metadata fails cap m L d r d' :
  write_index_parts m L (cpos (dcur d)) = Ok r ->
  save_through fails cap d (fst r ++ [WWrite (snd r)]) = (d', true) ->
  exists k, cbuf (dcur d') = cbuf (cwrite (run_ops (dcur d) (fst r)) (firstn k (snd r))).
Proof.
  intros Er. unfold save_through. rewrite bw_run_app.
  destruct (bw_run fails cap (mkBufw d []) (fst r)) as [w1 ok1] eqn:E1. destruct ok1.
  2:{ destruct (bw_flush fails w1) as [w2 ok2]. discriminate. }
  assert (Hb1 : bbuf w1 = []).
  { destruct (@parts_end _ _ _ _ Er) as (ops & Eo). rewrite Eo, bw_run_app in E1.
    destruct (bw_run fails cap (mkBufw d []) ops) as [w0 ok0]. destruct ok0; [|discriminate].
    cbn [bw_run] in E1. destruct (bw_seek fails w0 (cpos (dcur d))) as [w0' ok] eqn:Es. destruct ok; [|discriminate].
    inversion E1; subst. now apply bw_seek_ok in Es. }
  pose proof (bw_run_ok _ _ _ _ E1) as Hl. unfold logical in Hl. cbn [bdev bbuf] in Hl. rewrite Hb1, !cwrite_nil in Hl.
  rewrite <- Hl. cbn [bw_run].
  destruct (bw_write fails cap w1 (snd r)) as [w2 ok2] eqn:E2. destruct ok2.
  2:{ destruct (bw_flush fails w2). discriminate. }
  pose proof (bw_write_ok _ _ _ _ E2) as Hl2. unfold logical in Hl2. rewrite Hb1, cwrite_nil in Hl2.
  destruct (bw_flush fails w2) as [w3 ok3] eqn:E3. intros H; assert (d' = bdev w3) by congruence; clear H; subst d'.
  destruct ok3.
  - apply bw_flush_ok in E3 as [E3 E3']. unfold logical in E3. rewrite E3', cwrite_nil in E3. rewrite E3, Hl2.
    exists (length (snd r)). now rewrite firstn_all.
  - unfold bw_flush, dev_write in E3. destruct w2 as [d2 b2]. cbn [bbuf bdev] in *.
    destruct b2 as [|x b2]; [discriminate|]. destruct (fails (dcalls d2)) as [k|]; inversion E3; subst. cbn [bdev dcur].
    (* the block was buffered whole *)
    unfold bw_write in E2. rewrite Hb1 in E2. cbn [length] in E2. rewrite Nat.sub_0_r in E2.
    unfold bw_flush in E2. rewrite Hb1 in E2.
    destruct (Nat.ltb_spec (length (snd r)) cap).
    + inversion E2; subst. cbn [app] in *. exists k. reflexivity.
    + destruct (cap <? length (snd r)); cbn [bbuf bdev] in E2.
      all: destruct (cap <=? length (snd r)); [unfold dev_write in E2; destruct (fails (dcalls (bdev w1))); inversion E2; rewrite Hb1 in *; congruence|].
      all: inversion E2; subst; rewrite Hb1 in *; cbn [app] in *; exists k; congruence.
Qed.

Lemma bw_write_total cap w bs : exists w', bw_write (fun _ => None) cap w bs = (w', true).
Proof.
  unfold bw_write, bw_flush, dev_write. destruct (length bs <? cap - length (bbuf w)); [eauto|].
  destruct (cap - length (bbuf w) <? length bs); destruct (bbuf w); destruct (cap <=? length bs); eauto.
Qed.
Lemma bw_seek_total w p : exists w', bw_seek (fun _ => None) w p = (w', true).
Proof. unfold bw_seek, bw_flush, dev_seek, dev_write. destruct (bbuf w); eauto. Qed.
Lemma bw_run_total cap ops : forall w, exists w', bw_run (fun _ => None) cap w ops = (w', true).
Proof.
  induction ops as [|o ops IH]; intros w; cbn [bw_run]; [eauto|]. destruct o as [bs|p].
  - destruct (bw_write_total cap w bs) as (w0 & ->). apply IH.
  - destruct (bw_seek_total w p) as (w0 & ->). apply IH.
Qed.

Lemma reliable_all_written cap d ops :
  exists d', save_through (fun _ => None) cap d ops = (d', true) /\ cbuf (dcur d') = cbuf (run_ops (dcur d) ops).
Proof.
  unfold save_through. destruct (bw_run_total cap ops (mkBufw d [])) as (w & E). rewrite E.
  pose proof (bw_run_ok _ _ _ _ E) as Hl. unfold logical in Hl. cbn [bdev bbuf] in Hl. rewrite cwrite_nil in Hl.
  destruct (bw_flush (fun _ => None) w) as [w2 ok2] eqn:E2. exists (bdev w2). split; auto.
  assert (ok2 = true) as -> by (unfold bw_flush, dev_write in E2; destruct (bbuf w); inversion E2; auto).
  apply bw_flush_ok in E2 as [E3 E4]. unfold logical in E3. rewrite E4, cwrite_nil in E3. now rewrite E3, Hl.
Qed.

(** runs only depend on the outcome of the calls made *)
Definition agree_below (n : nat) (f g : nat -> option nat) : Prop := forall i, i < n -> f i = g i.

Lemma calls_mono_op cap f w o w' ok :
  match o with WWrite bs => bw_write f cap w bs | WSeek p => bw_seek f w p end = (w', ok) ->
  dcalls (bdev w) <= dcalls (bdev w').
Proof.
  destruct o as [bs|p].
  - unfold bw_write, bw_flush, dev_write. destruct (length bs <? cap - length (bbuf w)).
    { intros H; inversion H; subst; auto. }
    destruct (cap - length (bbuf w) <? length bs); destruct (bbuf w); destruct (f (dcalls (bdev w))) eqn:F1;
      destruct (cap <=? length bs); cbn [bdev dcalls bbuf];
      try destruct (f (S (dcalls (bdev w)))); intros H; inversion H; subst; cbn [bdev dcalls]; lia.
  - unfold bw_seek, bw_flush, dev_seek, dev_write. destruct (bbuf w); destruct (f (dcalls (bdev w))); cbn [bdev dcalls bbuf];
      try destruct (f (S (dcalls (bdev w)))); intros H; inversion H; subst; cbn [bdev dcalls]; lia.
Qed.

Lemma op_agree cap f g w o w' ok :
  match o with WWrite bs => bw_write f cap w bs | WSeek p => bw_seek f w p end = (w', ok) ->
  agree_below (dcalls (bdev w')) f g ->
  match o with WWrite bs => bw_write g cap w bs | WSeek p => bw_seek g w p end = (w', ok).
Proof.
  intros H Ha. destruct o as [bs|p].
  - unfold bw_write, bw_flush, dev_write in *. destruct (length bs <? cap - length (bbuf w)); auto.
    destruct (cap - length (bbuf w) <? length bs); destruct (bbuf w) eqn:Eb.
    all: destruct (cap <=? length bs) eqn:Ec; try exact H.
    all: cbn [bdev dcalls bbuf] in *.
    all: try (destruct (f (dcalls (bdev w))) eqn:F1; inversion H; subst; cbn [bdev dcalls] in Ha;
              rewrite <- (Ha (dcalls (bdev w))) by lia; rewrite F1; try exact H; auto; fail).
    + destruct (f (dcalls (bdev w))) eqn:F1.
      * inversion H; subst. cbn [bdev dcalls] in Ha. rewrite <- (Ha (dcalls (bdev w))) by lia. rewrite F1. reflexivity.
      * cbn [bdev dcalls bbuf] in *. destruct (f (S (dcalls (bdev w)))) eqn:F2; inversion H; subst; cbn [bdev dcalls] in Ha.
        all: rewrite <- (Ha (dcalls (bdev w))) by lia; rewrite F1; cbn [bdev dcalls bbuf];
             rewrite <- (Ha (S (dcalls (bdev w)))) by lia; rewrite F2; reflexivity.
  - unfold bw_seek, bw_flush, dev_seek, dev_write in *. destruct (bbuf w) eqn:Eb; cbn [bdev dcalls bbuf] in *.
    + destruct (f (dcalls (bdev w))) eqn:F1; inversion H; subst; cbn [bdev dcalls] in Ha;
        rewrite <- (Ha (dcalls (bdev w))) by lia; rewrite F1; reflexivity.
    + destruct (f (dcalls (bdev w))) eqn:F1.
      * inversion H; subst. cbn [bdev dcalls] in Ha. rewrite <- (Ha (dcalls (bdev w))) by lia. rewrite F1. reflexivity.
      * cbn [bdev dcalls bbuf] in *. destruct (f (S (dcalls (bdev w)))) eqn:F2; inversion H; subst; cbn [bdev dcalls] in Ha.
        all: rewrite <- (Ha (dcalls (bdev w))) by lia; rewrite F1; cbn [bdev dcalls bbuf];
             rewrite <- (Ha (S (dcalls (bdev w)))) by lia; rewrite F2; reflexivity.
Qed.

Lemma calls_mono cap f ops : forall w w' ok, bw_run f cap w ops = (w', ok) -> dcalls (bdev w) <= dcalls (bdev w').
Proof.
  induction ops as [|o ops IH]; intros w w' ok; cbn [bw_run]; [intros H; inversion H; auto|].
  destruct (match o with WWrite bs => bw_write f cap w bs | WSeek p => bw_seek f w p end) as [w0 ok0] eqn:E.
  apply calls_mono_op in E. destruct ok0; intros H; [|inversion H; subst; auto]. apply IH in H. lia.
Qed.

Lemma run_agree cap f g ops : forall w w', bw_run f cap w ops = (w', true) -> agree_below (dcalls (bdev w')) f g ->
  bw_run g cap w ops = (w', true).
Proof.
  induction ops as [|o ops IH]; intros w w'; cbn [bw_run]; auto.
  destruct (match o with WWrite bs => bw_write f cap w bs | WSeek p => bw_seek f w p end) as [w0 ok0] eqn:E.
  destruct ok0; [|discriminate]. intros H Ha.
  rewrite (@op_agree cap f g w o w0 true E).
  - now apply IH.
  - intros i Hi. apply Ha. apply calls_mono in H. lia.
Qed.

Lemma metadata_lost cap m L ops : METADATA_LEN < cap -> write_index_ops m L 0 = Ok ops ->
  exists fails d', save_through fails cap (mkDev (mkCursor [] 0) 0) ops = (d', true) /\
    load_layers (cbuf (dcur d')) = Fail Panicked.
Proof.
  intros Hcap. unfold write_index_ops. destruct (write_index_parts m L 0) as [r|] eqn:Er; [|discriminate].
  cbn [obind]. intros H; apply ok_inj in H; subst.
  set (d0 := mkDev (mkCursor [] 0) 0). destruct (bw_run_total cap (fst r) (mkBufw d0 [])) as (w & E).
  set (fails := fun i => if i =? dcalls (bdev w) then Some 0 else None : option nat).
  exists fails.
  assert (E' : bw_run fails cap (mkBufw d0 []) (fst r) = (w, true)).
  { eapply run_agree; [exact E|]. intros i Hi. unfold fails. destruct (Nat.eqb_spec i (dcalls (bdev w))); auto. lia. }
  assert (Hb1 : bbuf w = []).
  { destruct (@parts_end _ _ _ _ Er) as (ops & Eo). rewrite Eo, bw_run_app in E'.
    destruct (bw_run fails cap (mkBufw d0 []) ops) as [w0 ok0]. destruct ok0; [|discriminate].
    cbn [bw_run] in E'. destruct (bw_seek fails w0 0) as [w0' ok] eqn:Es. destruct ok; [|discriminate].
    injection E' as <-. now apply bw_seek_ok in Es. }
  pose proof (bw_run_ok _ _ _ _ E) as Hl. unfold logical in Hl. cbn [bdev bbuf] in Hl. rewrite Hb1, !cwrite_nil in Hl.
  unfold save_through. rewrite bw_run_app, E'. cbn [bw_run]. unfold bw_write. rewrite Hb1. cbn [length]. rewrite Nat.sub_0_r.
  pose proof (@parts_block_len _ _ _ _ Er) as HB. rewrite HB.
  apply Nat.ltb_lt in Hcap. rewrite Hcap. unfold bw_flush. cbn [app bbuf].
  destruct (snd r) as [|b t] eqn:Eb; [discriminate HB|].
  cbn [bdev]. unfold dev_write, fails. rewrite Nat.eqb_refl. cbn [bdev firstn]. rewrite cwrite_nil.
  eexists. split; [reflexivity|]. cbn [dcur]. rewrite Hl.
  apply low_zero_rejected. rewrite <- bops_run. unfold d0. cbn [dcur].
  pose proof (@crash_low_zero (fst r) (mkCursor [] 0)) as H.
  specialize (H ltac:(intros i _; left; unfold byte_at; cbn; now destruct i) (parts_above _ _ Er) (length (concat (map op_bops (fst r))))).
  rewrite firstn_all in H. exact H.
Qed.

Lemma crash_early_lost m L ops k : write_index_ops m L 0 = Ok ops ->
  k + 1024 <= length (concat (map op_bops ops)) ->
  load_layers (crash_image (mkCursor [] 0) ops k) = Fail Panicked.
Proof.
  unfold write_index_ops. destruct (write_index_parts m L 0) as [r|] eqn:Er; [|discriminate].
  cbn [obind]. intros H; apply ok_inj in H; subst. unfold crash_image.
  rewrite map_app, concat_app. cbn [map concat op_bops]. rewrite app_nil_r, app_length, map_length.
  pose proof (@parts_block_len _ _ _ _ Er) as HB. change METADATA_LEN with 1024 in HB.
  intros Hk. set (B := concat (map op_bops (fst r))) in *. assert (HkB : k <= length B) by lia.
  rewrite firstn_app. replace (k - length B) with 0 by lia. rewrite firstn_O, app_nil_r.
  apply low_zero_rejected. apply crash_low_zero.
  - intros i _. left. unfold byte_at. cbn. now destruct i.
  - apply (parts_above _ _ Er).
Qed.
