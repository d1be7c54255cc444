(** * Proofs: saving and loading an index *)
From Coq Require Import String.
From Verif Require Import Base BaseFacts Bytes PBytes MSliceVec SSliceVec PFixed PVar PCursor MOffsets SOffsets POffsets MSetVec PSetVec PSetVecWrite MJson PJson PJsonText MIndexIo SIndexIo.
Set Implicit Arguments.

Lemma run_ops_app c a b : run_ops c (a ++ b) = run_ops (run_ops c a) b.
Proof. apply fold_left_app. Qed.

Lemma cursor_eta c : mkCursor (cbuf c) (cpos c) = c.
Proof. now destruct c. Qed.

Lemma cursor_ext c c' : cbuf c = cbuf c' -> cpos c = cpos c' -> c = c'.
Proof. destruct c, c'; cbn; congruence. Qed.

Lemma cwrite_nil c : cwrite c [] = c.
Proof. apply cursor_ext; cbn; auto. Qed.

Lemma cwrite_app c a b : cwrite (cwrite c a) b = cwrite c (a ++ b).
Proof.
  destruct a as [|x a]; [now rewrite cwrite_nil|].
  apply cursor_ext.
  - apply (@piecewise_is_cwrite c (x :: a) ((x :: a) ++ b) (cwrite (cwrite c (x :: a)) b)).
    + cbn; lia.
    + eauto.
    + rewrite app_length. apply frame_write.
      * rewrite cwrite_length. cbn [length]. lia.
      * rewrite cwrite_pos. lia.
      * rewrite cwrite_pos. lia.
    + apply holds_app. split.
      * apply holds_frame; [apply holds_written|]. right. rewrite cwrite_pos. lia.
      * rewrite <- cwrite_pos. apply holds_written.
  - rewrite !cwrite_pos, app_length. lia.
Qed.

Lemma u8_bytes_length e : length (write_as_bytes u8r e) = length e.
Proof. rewrite (write_as_bytes_length u8r_ok). cbn. lia. Qed.

(** ** The operation list has the effect of the direct model *)
Lemma fixed_loop_ops m keep rs : forall c t o ops c' t' o',
  ofold (fun (s : cursor * nat * offsets) row =>
           let '(c, total_len, offs) := s in
           let* e := set_encode m (sort_u32 (filter keep row)) in
           let c := cwrite c (write_as_bytes u8r e) in
           let total_len := total_len + length e in
           let* offs := offs_push m offs total_len in
           Ok (c, total_len, offs)) rs (c, t, o) = Ok (c', t', o') ->
  exists new,
    ofold (fun (s : list wop * nat * offsets) row =>
           let '(ops, total_len, offs) := s in
           let* e := set_encode m (sort_u32 (filter keep row)) in
           let total_len := total_len + length e in
           let* offs := offs_push m offs total_len in
           Ok (ops ++ [WWrite (write_as_bytes u8r e)], total_len, offs)) rs (ops, t, o) = Ok (ops ++ new, t', o') /\
    run_ops c new = c' /\ cpos c' + t = cpos c + t'.
Proof.
  induction rs as [|r rs IH]; intros c t o ops c' t' o'; cbn [ofold].
  - intros H; inversion H; subst. exists []. rewrite app_nil_r. auto.
  - destruct (set_encode m (sort_u32 (filter keep r))) as [e|] eqn:Ee; cbn [obind]; [|discriminate].
    destruct (offs_push m o (t + length e)) as [o1|] eqn:Eo; cbn [obind]; [|discriminate].
    intros H. destruct (IH _ _ _ (ops ++ [WWrite (write_as_bytes u8r e)]) _ _ _ H) as (new & E & Hr & Hp).
    exists (WWrite (write_as_bytes u8r e) :: new). split; [|split].
    + rewrite <- app_assoc in E. exact E.
    + exact Hr.
    + rewrite cwrite_pos, u8_bytes_length in Hp. lia.
Qed.

Lemma fixed_ops_run m v keep c c1 n :
  msv_write_from_fixed m v keep c = Ok (c1, n) ->
  exists ops, fixed_layer_ops m v keep (cpos c) = Ok (ops, n) /\ run_ops c ops = c1.
Proof.
  unfold msv_write_from_fixed, fixed_layer_ops. cbv zeta.
  set (bfo := (1 + fw_len v / OFFSETS_PER_CHUNK) * CHUNK_SIZE).
  destruct (offs_push m offs_new 0) as [o0|]; cbn [obind]; [|discriminate].
  set (hdr := le_enc 8 (N.of_nat bfo)). assert (Hh : length hdr = 8) by apply le_enc_length.
  set (c2 := cseek (cwrite c hdr) (cpos (cwrite c hdr) + bfo)).
  assert (Hp1 : cpos (cwrite c hdr) = cpos c + 8) by (rewrite cwrite_pos; lia).
  match goal with |- context [if fw_is_empty v then Ok (c2, 0, o0) else ?e] => set (A := e) end.
  match goal with |- context [if fw_is_empty v then Ok ([], 0, o0) else ?e] => set (B := e) end.
  intros H.
  assert (HAB : exists c' t' o' new,
     (if fw_is_empty v then Ok (c2, 0, o0) else A) = Ok (c', t', o') /\
     (if fw_is_empty v then Ok ([], 0, o0) else B) = Ok (new, t', o') /\
     run_ops c2 new = c' /\ cpos c' = cpos c2 + t').
  { destruct (fw_is_empty v).
    - exists c2, 0, o0, []. rewrite Nat.add_0_r. auto.
    - unfold A, B in *. destruct (fw_iter v) as [rows|] eqn:Ei; cbn [obind] in *; [|discriminate].
      match type of H with obind ?x _ = _ => destruct x as [[[c' t'] o']|] eqn:El; [|discriminate] end.
      destruct (@fixed_loop_ops m keep rows c2 0 o0 [] _ _ _ El) as (new & E & Hr & Hp).
      exists c', t', o', new. cbn [app] in E. rewrite E. repeat split; auto. lia. }
  destruct HAB as (c' & t' & o' & new & EA & EB & Hrun & Hpos).
  rewrite EA in H. rewrite EB. cbn [obind] in *.
  destruct (oassert (write_as_bytes_count chunk_repr o' =? bfo)); cbn [obind] in *; [|discriminate].
  inversion H; subst c1 n. clear H.
  assert (Hv : cpos c' = cpos c + 8 + bfo + t') by (rewrite Hpos; unfold c2; cbn [cseek cpos]; lia).
  eexists. split; [rewrite Hv; reflexivity|].
  rewrite !run_ops_app.
  set (x := run_ops c _).
  assert (Hx : run_ops x new = c').
  { rewrite <- Hrun. f_equal. }
  rewrite Hx. unfold run_ops. cbn [fold_left run_op]. unfold cseek. cbn [cbuf]. rewrite Hv.
  reflexivity.
Qed.

(** ** Whole layers *)
Lemma filter_used_app ns k : Forall (fun x => (x < UNUSED)%N) ns -> filter is_used (ns ++ repeat UNUSED k) = ns.
Proof.
  intros H. rewrite filter_app. assert (E1 : filter is_used ns = ns).
  { induction H as [|x t Hx Ht IH]; cbn [filter]; auto. unfold is_used at 1.
    destruct (N.eqb_spec x UNUSED); [lia|]. cbn. now rewrite IH. }
  rewrite E1. replace (filter is_used (repeat UNUSED k)) with (@nil N); [apply app_nil_r|].
  induction k; cbn [repeat filter]; auto.
Qed.

Lemma take_used_app ns k : Forall (fun x => (x < UNUSED)%N) ns -> take_while is_used (ns ++ repeat UNUSED k) = ns.
Proof.
  intros H. induction H as [|x t Hx Ht IH]; cbn [app take_while].
  - destruct k; reflexivity.
  - unfold is_used at 1. destruct (N.eqb_spec x UNUSED); [lia|]. cbn. now rewrite IH.
Qed.

Lemma used_u32 ns : Forall (fun x => (x < UNUSED)%N) ns -> Forall is_u32 ns.
Proof. apply Forall_impl. unfold UNUSED, is_u32. lia. Qed.

Definition bytes_of (v : msv) : list N := fst (msv_write v).

Lemma fix_layer_save m l g : fix_layer_is l g -> layer_fits (length g) ->
  exists mv, comp_layer_is m mv g /\
    forall pos, exists ops, fixed_layer_ops m l is_used pos = Ok (ops, length (bytes_of mv)) /\
      forall c, cpos c = pos -> run_ops c ops = cwrite c (bytes_of mv).
Proof.
  intros (w & Hw & Hl & Hg) Hfit.
  set (rows := map (fun ns => ns ++ repeat UNUSED (w - length ns)) g) in *.
  assert (Hrows : map (filter is_used) rows = g).
  { unfold rows. rewrite map_map. clear -Hg. induction Hg as [|ns g (H1 & H2 & H3) Hg IH]; cbn [map]; auto.
    rewrite filter_used_app by auto. now rewrite IH. }
  assert (Hok : Forall (fun ns => Forall is_u32 ns /\ length ns <= 254) g).
  { eapply Forall_impl; [|exact Hg]. intros ns (H1 & H2 & H3). split; auto. now apply used_u32. }
  destruct (short_lists_ok m Hok) as (mv & Emv & Hmv).
  exists mv. split; [split; auto|]. intros pos.
  assert (Hpush : Forall (fun r => push_ok m (filter is_used r)) rows).
  { rewrite <- Forall_map, Hrows. eapply Forall_impl; [|exact Hok]. intros r [H1 H2]. now apply push_ok_254. }
  assert (Hfit' : layer_fits (length rows)) by (unfold rows; now rewrite map_length).
  assert (HC : forall c, cpos c = pos -> exists ops,
     fixed_layer_ops m l is_used pos = Ok (ops, length (bytes_of mv)) /\ run_ops c ops = cwrite c (bytes_of mv)).
  { intros c Hc. destruct (@conv_ok m w Hw rows l Hl is_used Hpush c Hfit') as (mv' & c1 & Eb & Ew & Hbuf & Hpos).
    rewrite Hrows, Emv in Eb. inversion Eb; subst mv'.
    destruct (fixed_ops_run _ _ _ _ Ew) as (ops & Eo & Hr). rewrite Hc in Eo. exists ops. split; auto.
    rewrite Hr. apply cursor_ext; auto. }
  destruct (HC (mkCursor [] pos) eq_refl) as (ops & Eo & _). exists ops. split; auto.
  intros c Hc. destruct (HC c Hc) as (ops' & Eo' & Hr). rewrite Eo in Eo'. injection Eo' as <-. exact Hr.
Qed.

Lemma fix_layers_save m ls G : Forall2 fix_layer_is ls G -> Forall (fun g => layer_fits (length g)) G ->
  exists mvs, Forall2 (comp_layer_is m) mvs G /\
    forall pos, exists ops, fixed_layers_ops m ls pos = Ok (ops, map (fun v => length (bytes_of v)) mvs) /\
      forall c, cpos c = pos -> run_ops c ops = cwrite c (concat (map bytes_of mvs)).
Proof.
  induction 1 as [|l g ls G Hl HF IH]; intros Hfit.
  - exists []. split; [constructor|]. intros pos. exists []. split; auto. intros c _. cbn. now rewrite cwrite_nil.
  - inversion Hfit as [|? ? Hf1 Hf2]; subst. destruct (IH Hf2) as (mvs & HM & Hops).
    destruct (@fix_layer_save m l g Hl Hf1) as (mv & Hmv & Hop). exists (mv :: mvs). split; [constructor; auto|].
    intros pos. destruct (Hop pos) as (o1 & E1 & R1). destruct (Hops (pos + length (bytes_of mv))) as (o2 & E2 & R2).
    exists (o1 ++ o2). split.
    + cbn [fixed_layers_ops]. rewrite E1. cbn [obind snd fst]. rewrite E2. reflexivity.
    + intros c Hc. rewrite run_ops_app, R1, R2 by (rewrite ?cwrite_pos; lia). rewrite cwrite_app. reflexivity.
Qed.

Lemma comp_layer_run v c : run_ops c (fst (compressed_layer_ops v)) = cwrite c (bytes_of v).
Proof.
  unfold run_ops, bytes_of, compressed_layer_ops, msv_write, cvw_write. cbn [fst fold_left run_op].
  now rewrite !cwrite_app.
Qed.

Lemma comp_layer_is_msv m v g : comp_layer_is m v g -> msv_is m (map sort_u32 g) v.
Proof.
  intros [H E]. destruct (short_lists_ok m H) as (v' & E' & Hv). rewrite E in E'. now inversion E'; subst.
Qed.

Lemma comp_layers_save m ls G : Forall2 (comp_layer_is m) ls G -> Forall (fun g => layer_fits (length g)) G ->
  snd (compressed_layers_ops ls) = map (fun v => length (bytes_of v)) ls /\
  forall c, run_ops c (fst (compressed_layers_ops ls)) = cwrite c (concat (map bytes_of ls)).
Proof.
  induction 1 as [|l g ls G Hl HF IH]; intros Hfit.
  - split; auto. intros c. cbn. now rewrite cwrite_nil.
  - inversion Hfit as [|? ? Hf1 Hf2]; subst. destruct (IH Hf2) as (E & R). split.
    + cbn [compressed_layers_ops snd map]. rewrite E. f_equal. cbn [compressed_layer_ops snd].
      apply comp_layer_is_msv in Hl. destruct (msv_round_trip Hl) as [_ E2]; [now rewrite map_length|]. exact E2.
    + intros c. cbn [compressed_layers_ops fst]. rewrite run_ops_app, comp_layer_run, R, cwrite_app. reflexivity.
Qed.

(** the layers part of a save, for both kinds of index *)
Lemma layers_save m L G : index_is m L G ->
  exists mvs, Forall2 (comp_layer_is m) mvs G /\
    forall pos, exists ops,
      match L with
      | FixWidth ls => fixed_layers_ops m ls pos
      | Compressed ls => Ok (compressed_layers_ops ls)
      end = Ok (ops, map (fun v => length (bytes_of v)) mvs) /\
      forall c, cpos c = pos -> run_ops c ops = cwrite c (concat (map bytes_of mvs)).
Proof.
  intros [Hfit HL]. destruct L as [ls|ls].
  - now apply fix_layers_save.
  - exists ls. split; auto. intros pos. destruct (comp_layers_save HL Hfit) as (E & R).
    exists (fst (compressed_layers_ops ls)). split; auto.
    rewrite <- E. now destruct (compressed_layers_ops ls).
Qed.

(** ** Metadata *)
Lemma str_ok_ascii s : forallb (fun b => (32 <=? b)%N && (b <? 128)%N && negb (b =? 34)%N && negb (b =? 92)%N) s = true -> str_ok s.
Proof.
  intros H. rewrite forallb_forall in H. apply Forall_forall. intros b Hb. specialize (H b Hb).
  rewrite !andb_true_iff, !negb_true_iff in H. destruct H as [[[H1 H0] H2] H3].
  apply N.leb_le in H1. apply N.ltb_lt in H0. apply N.eqb_neq in H2, H3. auto.
Qed.

Lemma metadata_json_ok nn cs ss : json_ok (metadata_json nn cs ss).
Proof.
  unfold metadata_json. constructor.
  repeat (apply Forall_cons; [split; [apply str_ok_ascii; reflexivity|]|]); try apply Forall_nil; cbn [snd].
  all: try constructor.
  - apply str_ok_ascii; reflexivity.
  - apply Forall_map. apply Forall_forall. intros; constructor.
  - apply Forall_map. apply Forall_forall. intros; constructor.
Qed.

Lemma metadata_nesting nn cs ss : SJson.nesting (metadata_json nn cs ss) <= 127.
Proof.
  assert (L : forall l, list_max (map SJson.nesting (map (fun n => JNum (N.of_nat n)) l)) = 0) by (induction l; cbn; auto).
  unfold metadata_json. cbn. rewrite !L. lia.
Qed.

Lemma as_usizes_ok cs : Forall (fun n => (N.of_nat n < 2 ^ 64)%N) cs ->
  as_usizes (JArr (map (fun n => JNum (N.of_nat n)) cs)) = Some cs.
Proof.
  intros H. unfold as_usizes. induction H as [|n cs Hn H IH]; auto.
  cbn [map all_some as_usize]. apply N.ltb_lt in Hn. rewrite Hn, IH. now rewrite Nat2N.id.
Qed.

Lemma resize_grow {A} (l : list A) n x : length l <= n -> resize l n x = l ++ repeat x (n - length l).
Proof. intros H. unfold resize. now rewrite firstn_all2. Qed.

Lemma metadata_block_read nn cs ss rest :
  length (metadata_text nn cs ss) <= METADATA_LEN ->
  Forall (fun n => (N.of_nat n < 2 ^ 64)%N) cs -> Forall (fun n => (N.of_nat n < 2 ^ 64)%N) ss ->
  (N.of_nat (length cs) < 2 ^ 64)%N ->
  read_layer_sizes (resize (metadata_text nn cs ss) METADATA_LEN 32%N ++ rest) = Ok ss.
Proof.
  intros Hlen Hcs Hss Hn. unfold read_layer_sizes. cbv zeta.
  assert (HL : length (resize (metadata_text nn cs ss) METADATA_LEN 32%N) = METADATA_LEN).
  { rewrite resize_grow by auto. rewrite app_length, repeat_length. lia. }
  replace (firstn METADATA_LEN (resize (metadata_text nn cs ss) METADATA_LEN 32%N ++ rest))
    with (resize (metadata_text nn cs ss) METADATA_LEN 32%N)
    by (rewrite firstn_app, HL, Nat.sub_diag, firstn_O, app_nil_r; symmetry; apply firstn_all2; lia).
  rewrite resize_grow by auto. unfold metadata_text.
  set (k := METADATA_LEN - _). rewrite <- app_assoc.
  rewrite firstn_app, Nat.sub_diag, firstn_O, app_nil_r, firstn_all.
  change (beqN LIBRARY_STR LIBRARY_STR) with true. cbn [oassert obind].
  rewrite skipn_app, skipn_all, Nat.sub_diag, skipn_O. cbn [app].
  rewrite json_round_trip by (apply metadata_json_ok || apply metadata_nesting). cbn [ounwrap obind].
  change (json_field (str "num_layers") (metadata_json nn cs ss)) with (Some (JNum (N.of_nat (length cs)))).
  change (json_field (str "layer_counts") (metadata_json nn cs ss)) with (Some (JArr (map (fun n => JNum (N.of_nat n)) cs))).
  change (json_field (str "layer_sizes") (metadata_json nn cs ss)) with (Some (JArr (map (fun n => JNum (N.of_nat n)) ss))).
  cbv iota. unfold as_usize at 1. apply N.ltb_lt in Hn. rewrite Hn. cbn [ounwrap obind].
  rewrite as_usizes_ok by auto. cbn [ounwrap obind]. rewrite Nat2N.id, Nat.eqb_refl. cbn [oassert obind].
  rewrite as_usizes_ok by auto. reflexivity.
Qed.

(** ** Loading what was saved *)
Lemma load_loop_ok m mvs G : Forall2 (comp_layer_is m) mvs G -> Forall (fun g => layer_fits (length g)) G ->
  forall pre rest start, start = length pre ->
  load_loop (pre ++ concat (map bytes_of mvs) ++ rest) start (map (fun v => length (bytes_of v)) mvs) = Ok mvs.
Proof.
  induction 1 as [|v g mvs G Hv HF IH]; intros Hfit pre rest start Hs; auto.
  inversion Hfit as [|? ? Hf1 Hf2]; subst. cbn [map concat load_loop]. rewrite <- !app_assoc.
  unfold slice. rewrite !app_length.
  replace (length pre <=? length pre + length (bytes_of v)) with true by (symmetry; apply Nat.leb_le; lia).
  replace (length pre + length (bytes_of v) <=? length pre + _) with true by (symmetry; apply Nat.leb_le; lia).
  cbn [andb obind].
  rewrite skipn_app, skipn_all, Nat.sub_diag, skipn_O. cbn [app].
  replace (length pre + length (bytes_of v) - length pre) with (length (bytes_of v)) by lia.
  rewrite firstn_app, Nat.sub_diag, firstn_O, app_nil_r, firstn_all.
  apply comp_layer_is_msv in Hv. destruct (msv_round_trip Hv) as [R _]; [now rewrite map_length|].
  unfold bytes_of at 1. rewrite R. cbn [obind].
  rewrite (app_assoc pre). rewrite IH; auto. now rewrite app_length.
Qed.

Lemma bytes_of_len m v g : comp_layer_is m v g -> layer_fits (length g) ->
  8 <= length (bytes_of v) /\ (N.of_nat (length (bytes_of v)) < 2 ^ 64)%N.
Proof.
  intros Hv Hf. apply comp_layer_is_msv in Hv. assert (Hf' : layer_fits (length (map sort_u32 g))) by now rewrite map_length.
  destruct (msv_round_trip Hv Hf') as [_ E]. fold (bytes_of v) in E.
  rewrite <- E. destruct Hv as (es & [Ho Hd] & HF). pose proof (msv_is_total _ HF) as Ht.
  unfold msv_write, cvw_write. cbn [snd]. unfold write_as_bytes_count. split; [lia|].
  pose proof (offs_is_bytes Ho) as Hb. rewrite offsets_from_length in Hb. unfold offs_num_bytes in Hb.
  cbn [rsize chunk_repr u8r uint_repr]. rewrite Hb, Hd. pose proof (Forall2_length HF) as HL. rewrite <- HL.
  unfold layer_fits in Hf'. rewrite map_length in *. change CHUNK_SIZE with 128.
  change (2 ^ 50)%N with 1125899906842624%N in Hf'. change (2 ^ 64)%N with 18446744073709551616%N.
  assert ((S (length g) - 1) / 60 <= length g) by (apply Nat.div_le_upper_bound; lia). lia.
Qed.

Definition nums_len (l : list nat) : nat := length (commas (map json_write (map (fun n => JNum (N.of_nat n)) l))).

Lemma nums_len_cons x y l : nums_len (x :: y :: l) = length (digits (N.of_nat x)) + 1 + nums_len (y :: l).
Proof. unfold nums_len. cbn [map]. rewrite commas_cons2, app_length. cbn [length json_write]. lia. Qed.
Lemma nums_len_1 x : nums_len [x] = length (digits (N.of_nat x)).
Proof. reflexivity. Qed.

Lemma digits_len_pos n : 1 <= length (digits n).
Proof. unfold digits. destruct (uint_bytes_head (to_uint_nonnil n)) as (b & t & E & _). rewrite E. cbn. lia. Qed.
Lemma nums_len_ge l : 2 * length l <= nums_len l + 1.
Proof.
  induction l as [|x [|y l] IH]; [cbn; lia| |]; pose proof (digits_len_pos (N.of_nat x)).
  - rewrite nums_len_1. cbn [length]. lia.
  - rewrite nums_len_cons. cbn [length] in *. lia.
Qed.
Lemma nums_len_le k l : 0 < k -> Forall (fun n => (N.of_nat n < 10 ^ N.of_nat k)%N) l ->
  nums_len l <= (k + 1) * length l.
Proof.
  intros Hk H. induction H as [|x l Hx H IH]; [cbn; lia|]. pose proof (digits_len Hk Hx).
  destruct l as [|y l].
  - rewrite nums_len_1. cbn [length]. lia.
  - rewrite nums_len_cons. cbn [length] in *. lia.
Qed.

Lemma metadata_len nn cs ss :
  length (metadata_text nn cs ss) =
  144 + nums_len cs + nums_len ss + length (digits (N.of_nat (last cs 0))) +
  length (digits (N.of_nat (length cs))) + length (digits (N.of_nat nn)).
Proof.
  unfold metadata_text, metadata_json. cbn [json_write].
  cbn [map]. unfold json_quote. cbn [fst snd].
  repeat (rewrite commas_cons2). cbn [commas json_write].
  unfold nums_len. set (A := commas (map json_write (map _ cs))). set (B := commas (map json_write (map _ ss))).
  set (d1 := digits (N.of_nat (last cs 0))). set (d2 := digits (N.of_nat (length cs))). set (d3 := digits (N.of_nat nn)).
  change (digits (N.of_nat 2)) with [50%N].
  unfold LIBRARY_STR. cbn [str json_write]. unfold json_quote.
  repeat first [rewrite app_length | progress cbn [length app]]. lia.
Qed.

Lemma metadata_len_ge nn cs ss : length cs <= length (metadata_text nn cs ss).
Proof. rewrite metadata_len. pose proof (nums_len_ge cs). lia. Qed.

Lemma load_saved m mvs G nn cs rest :
  Forall2 (comp_layer_is m) mvs G -> Forall (fun g => layer_fits (length g)) G ->
  cs = map (@length (list N)) G ->
  let ss := map (fun v => length (bytes_of v)) mvs in
  length (metadata_text nn cs ss) <= METADATA_LEN ->
  load_layers (resize (metadata_text nn cs ss) METADATA_LEN 32%N ++ concat (map bytes_of mvs) ++ rest)
  = Ok (Compressed mvs).
Proof.
  intros HF Hfit -> ss Hlen. unfold load_layers.
  assert (HnG : (N.of_nat (length G) < 2 ^ 64)%N).
  { pose proof (metadata_len_ge nn (map (@length (list N)) G) ss) as Hge. rewrite map_length in Hge.
    change (2 ^ 64)%N with 18446744073709551616%N. unfold METADATA_LEN in Hlen. lia. }
  rewrite metadata_block_read; auto.
  - cbn [obind]. rewrite (load_loop_ok HF Hfit); auto. rewrite resize_grow by auto. rewrite app_length, repeat_length. lia.
  - apply Forall_map. eapply Forall_impl; [|exact Hfit]. unfold layer_fits. intros g Hg.
    change (2 ^ 50)%N with 1125899906842624%N in Hg. change (2 ^ 64)%N with 18446744073709551616%N. lia.
  - unfold ss. apply Forall_map. clear -HF Hfit. induction HF; inversion Hfit; subst; constructor; auto.
    now apply (bytes_of_len H).
  - now rewrite map_length.
Qed.

(** ** What an index shows *)
Lemma nth_error_Forall2_l {A B} (R : A -> B -> Prop) la lb i b :
  Forall2 R la lb -> nth_error lb i = Some b -> exists a, nth_error la i = Some a /\ R a b.
Proof.
  intros H. revert i; induction H; intros i Hi; destruct i; cbn in *; try discriminate.
  - inversion Hi; subst; eauto.
  - eauto.
Qed.

Lemma index_is_shows m L G : index_is m L G -> index_shows m L G.
Proof.
  intros [Hfit HL]. unfold index_shows. destruct L as [ls|ls]; cbn [layers_len layer_len get_neighbors].
  - split; [now apply (Forall2_length HL)|]. intros i g Hi.
    destruct (nth_error_Forall2_l _ HL Hi) as (l & El & (w & Hw & Hl & Hg)).
    unfold index. rewrite El. cbn [ounwrap obind].
    split; [rewrite (fw_is_len Hw Hl); now rewrite map_length|].
    intros j ns Hj. unfold fw_neighbors.
    rewrite (@fw_is_get _ m w _ l j (ns ++ repeat UNUSED (w - length ns)) Hw Hl).
    + cbn [obind]. rewrite take_used_app; [eauto|]. rewrite Forall_forall in Hg. apply nth_error_In in Hj.
      now apply Hg.
    + now rewrite nth_error_map, Hj.
  - split; [now apply (Forall2_length HL)|]. intros i g Hi.
    destruct (nth_error_Forall2_l _ HL Hi) as (l & El & Hl).
    unfold index. rewrite El. cbn [ounwrap obind]. apply comp_layer_is_msv in Hl.
    apply msv_is_observes in Hl. destruct Hl as [H1 H2]. split; auto.
    intros j ns Hj. destruct (H2 j ns Hj) as (r & Er & Hp & _). unfold msv_neighbors. rewrite Er. cbn [obind].
    eexists. split; [reflexivity|]. now apply Permutation_map.
Qed.

Lemma omapM_ok {A B} (f : A -> outcome B) l bs : Forall2 (fun a b => f a = Ok b) l bs -> omapM f l = Ok bs.
Proof. induction 1 as [|a b l bs H HF IH]; auto. cbn [omapM]. rewrite H. cbn [obind]. rewrite IH. reflexivity. Qed.

Lemma layer_counts_ok m L G : index_shows m L G ->
  omapM (layer_len L) (seq 0 (layers_len L)) = Ok (map (@length (list N)) G).
Proof.
  intros [HL H]. rewrite HL. apply omapM_ok.
  assert (HG : forall pre post, pre ++ post = G ->
     Forall2 (fun a b => layer_len L a = Ok b) (seq (length pre) (length post)) (map (@length (list N)) post)).
  { intros pre post. revert pre. induction post as [|g post IH]; intros pre E; cbn [length seq map]; constructor.
    - apply H. rewrite <- E. rewrite nth_error_app2, Nat.sub_diag by lia. reflexivity.
    - specialize (IH (pre ++ [g])). rewrite app_length, Nat.add_comm in IH. apply IH. now rewrite <- app_assoc. }
  apply (HG [] G eq_refl).
Qed.

Lemma read_back c p bs : holds c p bs -> exists rest, skipn p (cbuf c) = bs ++ rest.
Proof.
  intros H. exists (skipn (length bs) (skipn p (cbuf c))). rewrite <- (holds_read H) at 1. symmetry. apply firstn_skipn.
Qed.

Lemma save_image m L G pos r : index_is m L G -> write_index_parts m L pos = Ok r ->
  exists mvs nn ops,
    let ss := map (fun v => length (bytes_of v)) mvs in
    Forall2 (comp_layer_is m) mvs G /\
    snd r = resize (metadata_text nn (map (@length (list N)) G) ss) METADATA_LEN 32%N /\
    length (metadata_text nn (map (@length (list N)) G) ss) <= METADATA_LEN /\
    fst r = [WSeek pos; WSeek (pos + METADATA_LEN)] ++ ops ++ [WSeek pos] /\
    forall c, cpos c = pos + METADATA_LEN -> run_ops c ops = cwrite c (concat (map bytes_of mvs)).
Proof.
  intros HI. pose proof (index_is_shows HI) as HS.
  unfold write_index_parts.
  match goal with |- obind ?x _ = _ -> _ => destruct x as [nn|]; [|discriminate] end. cbn [obind].
  rewrite (layer_counts_ok HS). cbn [obind].
  destruct (layers_save HI) as (mvs & HM & Hops). destruct (Hops (pos + METADATA_LEN)) as (ops & E & Hrun).
  rewrite E. cbn [obind].
  destruct (Nat.leb_spec (length (metadata_text nn (map (@length (list N)) G) (map (fun v => length (bytes_of v)) mvs))) METADATA_LEN) as [Hle|];
    cbn [oassert obind]; [|discriminate].
  intros H. injection H as <-. exists mvs, nn, ops. cbn [fst snd]. split; [auto|]. split; [auto|]. split; [auto|].
  split; auto.
Qed.

Lemma block_len nn cs ss : length (metadata_text nn cs ss) <= METADATA_LEN ->
  length (resize (metadata_text nn cs ss) METADATA_LEN 32%N) = METADATA_LEN.
Proof. intros H. rewrite resize_grow by auto. rewrite app_length, repeat_length. lia. Qed.

Lemma save_load m L G c0 c1 : index_is m L G -> write_index m L c0 = Ok c1 ->
  exists L', load_layers (skipn (cpos c0) (cbuf c1)) = Ok L' /\ index_is m L' G.
Proof.
  intros HI. unfold write_index, write_index_ops.
  destruct (write_index_parts m L (cpos c0)) as [r|] eqn:Er; [|discriminate]. cbn [obind]. intros H; inversion H; subst c1; clear H.
  destruct (save_image _ HI Er) as (mvs & nn & ops & HM & Esnd & Hlen & Efst & Hrun).
  exists (Compressed mvs). split; [|split; [apply HI|exact HM]].
  rewrite Efst, Esnd. set (block := resize _ _ _). rewrite !run_ops_app.
  rewrite Hrun by reflexivity. set (bs := concat (map bytes_of mvs)).
  set (c2 := cwrite _ bs). unfold run_ops. cbn [fold_left run_op].
  destruct (@read_back (cwrite (cseek c2 (cpos c0)) block) (cpos c0) (block ++ bs)) as (rest & E).
  - apply holds_app. split; [exact (holds_written (cseek c2 (cpos c0)) block)|].
    apply holds_frame.
    + apply holds_seek. unfold block. rewrite block_len by auto. unfold c2. apply holds_written.
    + left. cbn [cseek cpos]. lia.
  - rewrite E, <- app_assoc. unfold block, bs. eapply load_saved; [exact HM|apply HI|reflexivity|exact Hlen].
Qed.

(** ** The save succeeds *)
Lemma dec_u64 : (2 ^ 64 <= 10 ^ N.of_nat 20)%N. Proof. vm_compute. discriminate. Qed.
Lemma dec_u32 : (2 ^ 32 <= 10 ^ N.of_nat 10)%N. Proof. vm_compute. discriminate. Qed.

Lemma index_is_short m L G : index_is m L G -> Forall (Forall (fun ns => length ns <= 254)) G.
Proof.
  intros [_ H]. destruct L as [ls|ls].
  - induction H as [|l g ls G (w & _ & _ & Hg) HF IH]; constructor; auto.
    eapply Forall_impl; [|exact Hg]. cbn. tauto.
  - induction H as [|l g ls G [Hg _] HF IH]; constructor; auto.
    eapply Forall_impl; [|exact Hg]. cbn. tauto.
Qed.

Definition nn_of (m : mode) (L : layers) : outcome nat :=
  if 0 <? layers_len L then let* ns := get_neighbors m L 0 (layers_len L - 1) in Ok (length ns) else Ok 0.

Lemma nn_of_ok m L G : index_is m L G -> last G [[]] <> [] -> exists nn, nn_of m L = Ok nn /\ nn <= 254.
Proof.
  intros HI Hlast. pose proof (index_is_short HI) as Hs. pose proof (index_is_shows HI) as [HL HS].
  unfold nn_of. rewrite HL. destruct G as [|g G].
  - exists 0. split; auto. lia.
  - set (G1 := g :: G) in *. assert (Hne : G1 <> []) by (unfold G1; congruence).
    assert (Hn : nth_error G1 (length G1 - 1) = Some (last G1 [[]])).
    { clear -Hne. destruct (exists_last Hne) as (l & x & ->). rewrite last_last, nth_error_app2; rewrite app_length; cbn [length]; [|lia].
      replace (length l + 1 - 1 - length l) with 0 by lia. reflexivity. }
    destruct (HS _ _ Hn) as (_ & Hj). destruct (last G1 [[]]) as [|ns gl]; [congruence|].
    destruct (Hj 0 ns eq_refl) as (ns' & En & Hp).
    exists (length ns'). unfold G1 at 1. cbn [length Nat.ltb Nat.leb]. rewrite En. split; [reflexivity|].
    apply Permutation_length in Hp. rewrite Hp, map_length.
    rewrite Forall_forall in Hs. apply nth_error_In in Hn. specialize (Hs _ Hn). now inversion Hs.
Qed.

Lemma last_In {A} (l : list A) d : l <> [] -> In (last l d) l.
Proof.
  intros H. destruct (exists_last H) as (t & x & ->). rewrite last_last. apply in_or_app. right. left. reflexivity.
Qed.

Lemma metadata_fits m G mvs nn : Forall2 (comp_layer_is m) mvs G -> Forall (fun g => layer_fits (length g)) G ->
  length G <= 25 -> Forall (fun g => (N.of_nat (length g) < 2 ^ 32)%N) G -> nn <= 254 ->
  length (metadata_text nn (map (@length (list N)) G) (map (fun v => length (bytes_of v)) mvs)) <= METADATA_LEN.
Proof.
  intros HM Hfit Hk Hc Hnn. rewrite metadata_len.
  assert (H10 : Forall (fun n => (N.of_nat n < 10 ^ N.of_nat 10)%N) (map (@length (list N)) G)).
  { apply Forall_map. eapply Forall_impl; [|exact Hc]. cbv beta. intros a Ha. eapply N.lt_le_trans; [exact Ha|apply dec_u32]. }
  assert (H1 := nums_len_le (k := 10) ltac:(lia) H10).
  assert (H2 : nums_len (map (fun v => length (bytes_of v)) mvs) <= (20 + 1) * length (map (fun v => length (bytes_of v)) mvs)).
  { apply nums_len_le; [lia|]. apply Forall_map. clear -HM Hfit.
    induction HM; inversion Hfit; subst; constructor; auto.
    eapply N.lt_le_trans; [apply (bytes_of_len H); auto|apply dec_u64]. }
  assert (H3 : length (digits (N.of_nat (last (map (@length (list N)) G) 0))) <= 10).
  { apply digits_len; [lia|]. destruct (map (@length (list N)) G) as [|x t] eqn:E; [reflexivity|].
    rewrite Forall_forall in H10. apply H10. apply last_In. congruence. }
  assert (H4 : length (digits (N.of_nat (length (map (@length (list N)) G)))) <= 2).
  { apply digits_len; [lia|]. rewrite map_length. change (10 ^ N.of_nat 2)%N with 100%N. lia. }
  assert (H5 : length (digits (N.of_nat nn)) <= 3).
  { apply digits_len; [lia|]. change (10 ^ N.of_nat 3)%N with 1000%N. lia. }
  rewrite !map_length in *. rewrite <- (Forall2_length HM) in H1, Hk. unfold METADATA_LEN. lia.
Qed.

Lemma write_succeeds m L G c : index_is m L G -> last G [[]] <> [] ->
  length G <= 25 -> Forall (fun g => (N.of_nat (length g) < 2 ^ 32)%N) G ->
  exists c', write_index m L c = Ok c'.
Proof.
  intros HI Hlast Hk Hc. destruct (nn_of_ok HI Hlast) as (nn & Enn & Hnn).
  pose proof (index_is_shows HI) as HS.
  unfold write_index, write_index_ops, write_index_parts. fold (nn_of m L). rewrite Enn. cbn [obind].
  rewrite (layer_counts_ok HS). cbn [obind].
  destruct (layers_save HI) as (mvs & HM & Hops). destruct (Hops (cpos c + METADATA_LEN)) as (ops & E & _).
  rewrite E. cbn [obind]. pose proof (metadata_fits HM (proj1 HI) Hk Hc Hnn) as Hle.
  apply Nat.leb_le in Hle. rewrite Hle. cbn [oassert obind]. eauto.
Qed.

(** ** Too many layers never fit the metadata block *)
Lemma omapM_length {A B} (f : A -> outcome B) l bs : omapM f l = Ok bs -> length bs = length l.
Proof.
  revert bs; induction l as [|x l IH]; intros bs; cbn [omapM]; [intros H; inversion H; auto|].
  destruct (f x); [|discriminate]. cbn [obind]. destruct (omapM f l); [|discriminate]. cbn [obind].
  intros H. inversion H; subst. cbn [length]. now rewrite (IH _ eq_refl).
Qed.

Lemma layers_sizes_len m L pos ops ss :
  match L with
  | FixWidth ls => fixed_layers_ops m ls pos
  | Compressed ls => Ok (compressed_layers_ops ls)
  end = Ok (ops, ss) -> length ss = layers_len L.
Proof.
  destruct L as [ls|ls]; cbn [layers_len].
  - revert pos ops ss; induction ls as [|l ls IH]; intros pos ops ss; cbn [fixed_layers_ops]; [intros H; inversion H; auto|].
    destruct (fixed_layer_ops m l is_used pos) as [r|]; [|discriminate]. cbn [obind].
    destruct (fixed_layers_ops m ls (pos + snd r)) as [[o2 s2]|] eqn:E; [|discriminate]. cbn [obind].
    intros H; inversion H; subst. cbn [length snd]. now rewrite (IH _ _ _ E).
  - intros H. injection H as H. assert (Hs : ss = snd (compressed_layers_ops ls)) by (rewrite H; auto). subst ss. clear.
    induction ls; cbn [compressed_layers_ops snd length]; auto.
Qed.

Lemma too_many_layers m L c c' : 220 <= layers_len L -> write_index m L c <> Ok c'.
Proof.
  intros Hk. unfold write_index, write_index_ops, write_index_parts. fold (nn_of m L).
  destruct (nn_of m L) as [nn|]; [|discriminate]. cbn [obind].
  destruct (omapM (layer_len L) (seq 0 (layers_len L))) as [cs|] eqn:Ec; [|discriminate]. cbn [obind].
  destruct (match L with FixWidth ls => fixed_layers_ops m ls (cpos c + METADATA_LEN)
            | Compressed ls => Ok (compressed_layers_ops ls) end) as [[ops ss]|] eqn:E; [|discriminate]. cbn [obind].
  assert (length (metadata_text nn cs ss) <=? METADATA_LEN = false) as ->; [|discriminate].
  apply Nat.leb_gt. rewrite metadata_len. apply omapM_length in Ec. rewrite seq_length in Ec.
  pose proof (layers_sizes_len m L _ E) as Es.
  pose proof (nums_len_ge cs). pose proof (nums_len_ge ss).
  pose proof (digits_len_pos (N.of_nat (last cs 0))). pose proof (digits_len_pos (N.of_nat (length cs))).
  pose proof (digits_len_pos (N.of_nat nn)). unfold METADATA_LEN. lia.
Qed.
