(** * Property theorems: what an index file looks like and which are read (C74) *)
From Coq Require Import String.
From Verif Require Import Base BaseFacts Bytes PBytes MSliceVec SSliceVec PCursor MOffsets SOffsets MSetVec PSetVec PSetVecWrite MJson PJson SJson PJsonText MIndexIo SIndexIo PIndexIo TIndexIo.
Local Open Scope list_scope.
Local Notation length := List.length.

Lemma beqN_eq a b : beqN a b = true <-> a = b.
Proof.
  revert b; induction a as [|x a IH]; intros [|y b]; cbn; split; intros H; try discriminate; try reflexivity.
  - apply andb_true_iff in H as [H1 H2]. apply N.eqb_eq in H1. apply IH in H2. now subst.
  - assert (x = y) by congruence. assert (a = b) by congruence. subst. rewrite N.eqb_refl. cbn. now apply IH.
Qed.
Lemma field_iff kvs k v : json_field (str k) (JObj kvs) = Some v <-> field kvs k v.
Proof.
  cbn [json_field]. unfold field. generalize (str k). clear k. intros k. revert v. 
  assert (Hno : forall kvs, obj_get k kvs = None <-> ~ In k (map fst kvs)).
  { clear. induction kvs as [|[k' v] kvs IH]; cbn [obj_get map fst In]; [tauto|].
    destruct (obj_get k kvs) as [w|].
    - split; [discriminate|]. intros H. exfalso. assert (~ ~ In k (map fst kvs)) by (intros H2; apply IH in H2; discriminate). tauto.
    - destruct (beqN k k') eqn:E.
      + apply beqN_eq in E. subst. split; [discriminate|]. intros H. exfalso. tauto.
      + split; [|reflexivity]. intros _ [->|H]; [|now apply IH]. assert (beqN k k = true) by now apply beqN_eq. congruence. }
  induction kvs as [|[k' v'] kvs IH]; intros v; cbn [obj_get].
  - split; [discriminate|]. intros (b & a & E & _). destruct b; discriminate.
  - destruct (obj_get k kvs) as [w|] eqn:Ew.
    + split.
      * intros H. apply IH in H as (b & a & -> & Hn). exists ((k', v') :: b), a. auto.
      * intros (b & a & E & Hn). destruct b as [|x b]; cbn [app] in E.
        -- exfalso. assert (kvs = a) by congruence. subst a. apply Hno in Hn. congruence.
        -- apply IH. exists b, a. split; [congruence|exact Hn].
    + split.
      * destruct (beqN k k') eqn:Ek; [|discriminate]. apply beqN_eq in Ek. subst k'. intros H. exists [], kvs. cbn [app].
        split; [congruence|]. now apply Hno.
      * intros (b & a & E & Hn). destruct b as [|x b]; cbn [app] in E.
        -- assert (k' = k) by congruence. assert (v' = v) by congruence. subst. assert (Hb : beqN k k = true) by now apply beqN_eq. now rewrite Hb.
        -- exfalso. apply Hno in Ew. apply Ew. assert (Ekvs : kvs = b ++ (k, v) :: a) by congruence. rewrite Ekvs, map_app. apply in_or_app. right. left. reflexivity.
Qed.
Lemma as_usize_iff v n : as_usize v = Some n <-> v = JNum (N.of_nat n) /\ is_usize n.
Proof.
  unfold as_usize, is_usize. split.
  - destruct v as [| |k| | | |]; try discriminate. destruct (N.ltb_spec k (2 ^ 64)) as [Hk|]; [|discriminate].
    intros H. assert (E : N.to_nat k = n) by congruence. subst n. rewrite N2Nat.id. auto.
  - intros [-> H]. apply N.ltb_lt in H. rewrite H. now rewrite Nat2N.id.
Qed.
Lemma as_usizes_iff v l : as_usizes v = Some l <-> v = usizes l /\ Forall is_usize l.
Proof.
  split.
  - unfold as_usizes, usizes. destruct v as [| | | | |vs|]; try discriminate. revert l. induction vs as [|v vs IH]; intros l; cbn [map all_some].
    + intros H. assert (l = []) by congruence. subst. split; [reflexivity|constructor].
    + destruct (as_usize v) as [n|] eqn:E; [|discriminate]. destruct (all_some (map as_usize vs)) as [r|]; [|discriminate].
      intros H. assert (l = n :: r) by congruence. subst l. apply as_usize_iff in E as [-> Hn]. destruct (IH _ eq_refl) as [E2 HF].
      split; [|constructor; auto]. cbn [map]. congruence.
  - intros [-> H]. now apply as_usizes_ok.
Qed.

Lemma read_layer_sizes_iff buffer sizes : read_layer_sizes buffer = Ok sizes <->
  exists text kvs counts, firstn METADATA_LEN buffer = LIBRARY_STR ++ text /\ document (JObj kvs) text /\ metadata_says kvs counts sizes.
Proof.
  unfold read_layer_sizes. cbv zeta. set (block := firstn METADATA_LEN buffer). clearbody block. split.
  - destruct (beqN (firstn (length LIBRARY_STR) block) LIBRARY_STR) eqn:Eb; [|discriminate]. cbn [oassert obind]. apply beqN_eq in Eb.
    destruct (json_parse (skipn (length LIBRARY_STR) block)) as [v|] eqn:Ej; [|discriminate]. cbn [ounwrap obind].
    destruct (json_field (str "num_layers") v) as [v1|] eqn:E1; [|discriminate].
    destruct (as_usize v1) as [k|] eqn:A1; [|discriminate]. cbn [ounwrap obind].
    destruct (json_field (str "layer_counts") v) as [v2|] eqn:E2; [|discriminate].
    destruct (as_usizes v2) as [counts|] eqn:A2; [|discriminate]. cbn [ounwrap obind].
    destruct (Nat.eqb_spec k (length counts)) as [->|]; [|discriminate]. cbn [oassert obind].
    destruct (json_field (str "layer_sizes") v) as [v3|] eqn:E3; [|discriminate].
    destruct (as_usizes v3) as [ss|] eqn:A3; [|discriminate]. cbn [ounwrap]. intros H. assert (ss = sizes) by congruence. subst ss.
    apply as_usize_iff in A1 as [-> H1]. apply as_usizes_iff in A2 as [-> H2]. apply as_usizes_iff in A3 as [-> H3].
    destruct v as [| | | | | |kvs]; try discriminate.
    exists (skipn (length LIBRARY_STR) block), kvs, counts. split; [rewrite <- Eb at 1; symmetry; apply firstn_skipn|].
    split; [now apply json_parse_iff|]. split; [now apply field_iff|]. split; [now apply field_iff|]. split; [now apply field_iff|]. auto.
  - intros (text & kvs & counts & -> & Hd & F1 & F2 & F3 & H1 & H2 & H3).
    rewrite firstn_app, firstn_all, Nat.sub_diag, firstn_O, app_nil_r. replace (beqN LIBRARY_STR LIBRARY_STR) with true by reflexivity.
    cbn [oassert obind]. rewrite skipn_app, skipn_all, Nat.sub_diag, skipn_O. cbn [app].
    apply json_parse_iff in Hd. rewrite Hd. cbn [ounwrap obind].
    apply field_iff in F1, F2, F3. rewrite F1, F2, F3.
    rewrite (proj2 (as_usize_iff _ _) (conj eq_refl H1)). cbn [ounwrap obind].
    rewrite (proj2 (as_usizes_iff _ _) (conj eq_refl H2)). cbn [ounwrap obind]. rewrite Nat.eqb_refl. cbn [oassert obind].
    rewrite (proj2 (as_usizes_iff _ _) (conj eq_refl H3)). reflexivity.
Qed.

(** What is written: the library name, a JSON object padded with blanks to 1024
    bytes, and then the layers one after the other, with the sizes listed there. *)
Theorem C74_file_format :
  forall (m : mode) (L : layers) (G : list (list (list N))) (c0 c1 : cursor),
    index_is m L G -> write_index m L c0 = Ok c1 ->
    exists text kvs pieces rest nn,
      skipn (cpos c0) (cbuf c1) = str "granne" ++ text ++ concat pieces ++ rest /\ length (str "granne" ++ text) = 1024 /\
      document (JObj kvs) text /\
      metadata_says kvs (map (@length (list N)) G) (map (@length N) pieces) /\
      field kvs "granne_version" (JStr (str "0.5.2")) /\ field kvs "version" (JNum 2) /\ field kvs "compressed" (JBool true) /\
      field kvs "num_elements" (JNum (N.of_nat (length (last G [])))) /\ field kvs "num_neighbors" (JNum (N.of_nat nn)) /\
      (* "num_neighbors" is the number of neighbours of element 0 in the last layer *)
      (G <> [] -> exists ns, get_neighbors m L 0 (length G - 1) = Ok ns /\ nn = length ns) /\ (G = [] -> nn = 0) /\
      Forall2 (fun piece g => exists v, msv_from_bytes piece = Ok v /\ comp_layer_is m v g) pieces G.
Proof.
  intros m L G c0 c1 HI. pose proof (index_is_shows HI) as HS. unfold write_index, write_index_ops, write_index_parts.
  match goal with |- obind (obind (obind ?x _) _) _ = _ -> _ => destruct x as [nn|] eqn:Enn; [|discriminate] end. cbn [obind].
  rewrite (layer_counts_ok HS). cbn [obind].
  destruct (layers_save HI) as (mvs & HM & Hops). destruct (Hops (cpos c0 + METADATA_LEN)) as (ops & E & Hrun).
  rewrite E. cbn [obind]. set (cs := map (@length (list N)) G) in *. set (ss := map (fun v => length (bytes_of v)) mvs) in *.
  destruct (Nat.leb_spec (length (metadata_text nn cs ss)) METADATA_LEN) as [Hlen|]; cbn [oassert obind fst snd]; [|discriminate].
  intros H. assert (Ec1 : c1 = run_ops c0 (([WSeek (cpos c0); WSeek (cpos c0 + METADATA_LEN)] ++ ops ++ [WSeek (cpos c0)]) ++
     [WWrite (resize (metadata_text nn cs ss) METADATA_LEN 32%N)])) by congruence. clear H.
  assert (Eb : exists rest, skipn (cpos c0) (cbuf c1) = resize (metadata_text nn cs ss) METADATA_LEN 32%N ++ concat (map bytes_of mvs) ++ rest).
  { rewrite Ec1. clear Ec1. set (block := resize _ _ _). rewrite !run_ops_app.
    rewrite Hrun by reflexivity. set (bs := concat (map bytes_of mvs)).
    set (c2 := cwrite _ bs). unfold run_ops. cbn [fold_left run_op].
    destruct (@read_back (cwrite (cseek c2 (cpos c0)) block) (cpos c0) (block ++ bs)) as (rest & Er).
    - apply holds_app. split; [exact (holds_written (cseek c2 (cpos c0)) block)|].
      apply holds_frame.
      + apply holds_seek. unfold block. rewrite block_len by auto. unfold c2. apply holds_written.
      + left. cbn [cseek cpos]. lia.
    - exists rest. now rewrite Er, <- app_assoc. }
  destruct Eb as (rest & Eb). clear Ec1.
  assert (Hcs : is_usize (length cs) /\ Forall is_usize cs /\ Forall is_usize ss).
  { destruct HI as [Hfit _]. split; [|split].
    - pose proof (metadata_len_ge nn cs ss). unfold is_usize. change (2 ^ 64)%N with 18446744073709551616%N. unfold METADATA_LEN in Hlen. lia.
    - unfold cs. apply Forall_map. eapply Forall_impl; [|exact Hfit]. unfold layer_fits, is_usize. intros g Hg.
      change (2 ^ 50)%N with 1125899906842624%N in Hg. change (2 ^ 64)%N with 18446744073709551616%N. lia.
    - unfold ss. apply Forall_map. clear -HM Hfit. induction HM; inversion Hfit; subst; constructor; auto.
      now apply (bytes_of_len H). }
  destruct Hcs as (H1 & H2 & H3).
  exists (json_write (metadata_json nn cs ss) ++ repeat 32%N (METADATA_LEN - length (metadata_text nn cs ss))).
  remember (metadata_json nn cs ss) as J eqn:EJ.
  exists (match J with JObj kvs => kvs | _ => [] end), (map bytes_of mvs), rest, nn.
  split. { rewrite EJ, Eb, resize_grow by auto. unfold metadata_text at 1. change LIBRARY_STR with (str "granne"). now rewrite <- !app_assoc. }
  split. { rewrite EJ, app_assoc. change (str "granne" ++ json_write (metadata_json nn cs ss)) with (metadata_text nn cs ss).
           rewrite app_length, repeat_length. unfold METADATA_LEN in *. lia. }
  split. { apply json_parse_iff. rewrite EJ. rewrite json_round_trip by (apply metadata_json_ok || apply metadata_nesting). reflexivity. }
  rewrite EJ. clear EJ.
  assert (Em : map (@length N) (map bytes_of mvs) = ss) by (unfold ss; now rewrite map_map). rewrite Em.
  split. { split; [|split; [|split; [|auto]]]; apply field_iff; reflexivity. }
  split; [apply field_iff; reflexivity|]. split; [apply field_iff; reflexivity|]. split; [apply field_iff; reflexivity|].
  split. { assert (El : length (last G []) = last cs 0).
           { unfold cs. clear. induction G as [|g [|h G] IH]; try reflexivity. exact IH. }
           rewrite El. apply field_iff. reflexivity. }
  split; [apply field_iff; reflexivity|].
  split. { intros Hne. rewrite (proj1 HS) in Enn. assert (Hp : 0 <? length G = true) by (apply Nat.ltb_lt; destruct G; [congruence|cbn; lia]).
           rewrite Hp in Enn. destruct (get_neighbors m L 0 (length G - 1)) as [ns|]; [|discriminate]. exists ns. split; [reflexivity|]. cbn [obind] in Enn. congruence. }
  split. { intros ->. rewrite (proj1 HS) in Enn. cbn in Enn. congruence. }
  destruct HI as [Hfit _]. clear -HM Hfit. induction HM as [|v g mvs G Hv HM IH]; cbn [map]; [constructor|]. inversion Hfit; subst. constructor; auto.
  exists v. split; [|exact Hv]. apply comp_layer_is_msv in Hv. destruct (msv_round_trip Hv) as [R _]; [now rewrite map_length|]. exact R.
Qed.
Print Assumptions C74_file_format.

(** What is read: exactly the files that begin with the library name and a JSON
    object, 1024 bytes together, that has the fields "num_layers" and
    "layer_counts", in agreement, and "layer_sizes"; then the layers. *)
Theorem C74_which_files_load :
  forall (buffer : list N) (vs : list msv),
    load_layers buffer = Ok (Compressed vs) <->
    exists text kvs counts sizes,
      firstn 1024 buffer = str "granne" ++ text /\ document (JObj kvs) text /\ metadata_says kvs counts sizes /\
      exists pieces rest, map (@length N) pieces = sizes /\ skipn 1024 buffer = concat pieces ++ rest /\
        (pieces <> [] -> 1024 <= length buffer) /\
        Forall2 (fun piece v => msv_from_bytes piece = Ok v) pieces vs.
Proof.
  intros buffer vs. unfold load_layers.
  assert (Hloop : forall sizes start vs, load_loop buffer start sizes = Ok vs <->
    exists pieces rest, map (@length N) pieces = sizes /\ skipn start buffer = concat pieces ++ rest /\ (pieces <> [] -> start <= length buffer) /\
      Forall2 (fun piece v => msv_from_bytes piece = Ok v) pieces vs).
  { clear vs. induction sizes as [|size sizes IH]; intros start vs; cbn [load_loop].
    - split.
      + intros H. assert (vs = []) by congruence. subst. exists [], (skipn start buffer). repeat split; auto; congruence.
      + intros (pieces & rest & Em & _ & _ & HF). destruct pieces; [|discriminate]. inversion HF; subst. reflexivity.
    - unfold slice. split.
      + destruct ((start <=? start + size) && (start + size <=? length buffer)) eqn:Eb; [|discriminate]. cbn [obind].
        apply andb_true_iff in Eb as [_ Eb]. apply Nat.leb_le in Eb.
        destruct (msv_from_bytes _) as [v|] eqn:Ev; [|discriminate]. cbn [obind].
        destruct (load_loop buffer (start + size) sizes) as [ls|] eqn:El; [|discriminate]. cbn [obind]. intros H.
        assert (vs = v :: ls) by congruence. subst vs. apply IH in El as (pieces & rest & Em & Es & _ & HF).
        replace (start + size - start) with size in Ev by lia.
        exists (firstn size (skipn start buffer) :: pieces), rest. cbn [map concat]. split.
        { rewrite firstn_length, skipn_length, Em. f_equal. lia. }
        split. { rewrite <- app_assoc, <- Es. rewrite <- (firstn_skipn size (skipn start buffer)) at 1. f_equal. rewrite skipn_skipn. f_equal. lia. }
        split; [intros _; lia|]. constructor; assumption.
      + intros (pieces & rest & Em & Es & Hs & HF). destruct pieces as [|piece pieces]; [discriminate|]. cbn [map concat] in Em, Es.
        inversion HF as [|? v ? ls Hv HF']; subst vs. subst. assert (size = length piece) by congruence. assert (sizes = map (@length N) pieces) by congruence. subst size sizes.
        assert (Hl : start <= length buffer) by (apply Hs; discriminate).
        assert (HL : length (skipn start buffer) = length piece + length (concat pieces ++ rest)) by (rewrite Es, <- app_assoc, app_length; reflexivity).
        rewrite skipn_length in HL.
        replace (start <=? start + length piece) with true by (symmetry; apply Nat.leb_le; lia).
        replace (start + length piece <=? length buffer) with true by (symmetry; apply Nat.leb_le; lia). cbn [andb obind].
        replace (start + length piece - start) with (length piece) by lia.
        rewrite Es, <- app_assoc, firstn_app, firstn_all, Nat.sub_diag, firstn_O, app_nil_r, Hv. cbn [obind].
        assert (El : load_loop buffer (start + length piece) (map (@length N) pieces) = Ok ls).
        { apply IH. exists pieces, rest. split; [reflexivity|]. split; [|split; [intros _; lia|exact HF']].
          replace (start + length piece) with (length piece + start) by lia. rewrite <- skipn_skipn, Es, <- app_assoc.
          rewrite skipn_app, skipn_all, Nat.sub_diag, skipn_O. reflexivity. }
        rewrite El. reflexivity. }
  split.
  - destruct (read_layer_sizes buffer) as [sizes|] eqn:Er; [|discriminate]. cbn [obind].
    destruct (load_loop buffer METADATA_LEN sizes) as [ls|] eqn:El; [|discriminate]. cbn [obind]. intros H.
    assert (ls = vs) by congruence. subst ls. apply read_layer_sizes_iff in Er as (text & kvs & counts & H1 & H2 & H3).
    exists text, kvs, counts, sizes. split; [exact H1|]. split; [exact H2|]. split; [exact H3|]. now apply Hloop.
  - intros (text & kvs & counts & sizes & H1 & H2 & H3 & H4).
    assert (Er : read_layer_sizes buffer = Ok sizes) by (apply read_layer_sizes_iff; eauto 6). rewrite Er. cbn [obind].
    apply Hloop in H4. change 1024 with METADATA_LEN in H4. rewrite H4. reflexivity.
Qed.
Print Assumptions C74_which_files_load.

(** The other fields, their order, white space and anything else in the object
    do not matter: files that agree in the sizes and after the metadata load the
    same (also when they do not load). *)
Theorem C74_layout_irrelevant :
  forall text text' kvs kvs' counts counts' sizes rest,
    length (str "granne" ++ text) = 1024 -> document (JObj kvs) text -> metadata_says kvs counts sizes ->
    length (str "granne" ++ text') = 1024 -> document (JObj kvs') text' -> metadata_says kvs' counts' sizes ->
    load_layers (str "granne" ++ text ++ rest) = load_layers (str "granne" ++ text' ++ rest).
Proof.
  intros text text' kvs kvs' counts counts' sizes rest L1 D1 M1 L2 D2 M2.
  assert (HR : forall text kvs counts, length (str "granne" ++ text) = 1024 -> document (JObj kvs) text -> metadata_says kvs counts sizes ->
     read_layer_sizes (str "granne" ++ text ++ rest) = Ok sizes).
  { clear. intros text kvs counts HL HD HM. apply read_layer_sizes_iff. exists text, kvs, counts. split; [|auto].
    change LIBRARY_STR with (str "granne"). rewrite (app_assoc (str "granne")). set (a := str "granne" ++ text) in *. clearbody a. change METADATA_LEN with 1024.
    rewrite firstn_app, HL, Nat.sub_diag, firstn_O, app_nil_r. apply firstn_all2. lia. }
  assert (HL : forall text, length (str "granne" ++ text) = 1024 -> forall sizes start, load_loop (str "granne" ++ text ++ rest) (1024 + start) sizes = load_loop (repeat 0%N 1024 ++ rest) (1024 + start) sizes).
  { clear. intros text HL. induction sizes as [|size sizes IH]; intros start; cbn [load_loop]; [reflexivity|].
    assert (Es : slice (str "granne" ++ text ++ rest) (1024 + start) (1024 + start + size) = slice (repeat 0%N 1024 ++ rest) (1024 + start) (1024 + start + size)).
    { unfold slice. rewrite (app_assoc (str "granne")). set (a := str "granne" ++ text) in *. clearbody a. set (b := repeat 0%N 1024).
      assert (Hb : length b = 1024) by apply repeat_length. clearbody b. rewrite !app_length, !skipn_app, HL, Hb.
      rewrite (skipn_all2 a) by lia. rewrite (skipn_all2 b) by lia. reflexivity. }
    rewrite Es, <- Nat.add_assoc. rewrite (IH (start + size)). reflexivity. }
  unfold load_layers. rewrite (HR _ _ _ L1 D1 M1), (HR _ _ _ L2 D2 M2). cbn [obind].
  change METADATA_LEN with (1024 + 0). now rewrite (HL _ L1), (HL _ L2).
Qed.
Print Assumptions C74_layout_irrelevant.

(** ** Concrete files *)
(** a metadata block with the given text, filled up with blanks *)
Definition block_of (text : list N) : list N := str "granne" ++ text ++ repeat 32%N (1024 - length (str "granne" ++ text)).
(** [num_layers], [layer_counts] and [layer_sizes] in another order, on several
    lines, with escapes and among other fields *)
Definition quote_nl (s : string) : list N := map (fun b => if (b =? 39)%N then 34%N else if (b =? 124)%N then 10%N else b) (str s).
Definition ex_text : list N := quote_nl " {|'layer_sizes' : [ 142, 141 ] ,|'made by': {'n\u0061me':'somebody\n','ok':true,'x':null,'y':[-1.50E+3,0e0,-0]},|'num_layers':7,'num\u005flayers':2, 'layer_counts':[1,1]|}|".
Definition ex_piece (n : nat) (ns : list N) : list N :=
  match fixed_layer_ops Debug (mkFw ns n) is_used 0 with Ok (ops, _) => cbuf (run_ops (mkCursor [] 0) ops) | Fail _ => [] end.
Example C74_nonvacuous :
  (let* L := load_layers (block_of ex_text ++ ex_piece 2 [7;9]%N ++ ex_piece 1 [4]%N) in
   omapM (fun i => get_neighbors Debug L 0 i) (seq 0 (layers_len L))) = Ok [[7; 9]; [4]].
Proof. vm_compute. reflexivity. Qed.
Example C74_nonvacuous_document : exists kvs, document (JObj kvs) ex_text /\ metadata_says kvs [1; 1] [142; 141].
Proof.
  eexists. split. { apply json_parse_iff. vm_compute. reflexivity. }
  split; [apply field_iff; vm_compute; reflexivity|]. split; [apply field_iff; vm_compute; reflexivity|].
  split; [apply field_iff; vm_compute; reflexivity|]. unfold is_usize. repeat constructor.
Qed.
Example C74_format_nonvacuous : index_is Debug ex_index ex_graph /\ exists c, write_index Debug ex_index (mkCursor [] 0) = Ok c.
Proof. split; [apply ex_index_is|]. eexists. vm_compute. reflexivity. Qed.

(** Nesting that is too deep, and malformed UTF-8, are refused. *)
Definition ex_deep (n : nat) : list N := repeat 91%N n ++ repeat 93%N n.
Example C74_nonvacuous_deep : (exists v, document v (ex_deep 127)) /\ ~ (exists v, document v (ex_deep 128)).
Proof.
  split.
  - exists (Nat.iter 126 (fun v => JArr [v]) (JArr [])). apply json_parse_iff. vm_compute. reflexivity.
  - intros (v & H). apply json_parse_iff in H. vm_compute in H. discriminate.
Qed.
Example C74_nonvacuous_utf8 : (exists v, document v [34; 195; 169; 34]%N) /\ ~ (exists v, document v [34; 195; 34]%N).
Proof.
  split.
  - exists (JStr [195; 169]%N). apply json_parse_iff. vm_compute. reflexivity.
  - intros (v & H). apply json_parse_iff in H. vm_compute in H. discriminate.
Qed.

(** The version of the format is not looked at: a file of version 3, or of none, is read as one of version 2. *)
Definition ex_version : list N := quote_nl "{'version':3,'compressed':false,'num_layers':1,'layer_counts':[1],'layer_sizes':[142]}".
Theorem C74_version_checked_refuted :
  (exists kvs, document (JObj kvs) ex_version /\ field kvs "version" (JNum 3) /\ field kvs "compressed" (JBool false)) /\
  (let* L := load_layers (block_of ex_version ++ ex_piece 2 [7;9]%N) in get_neighbors Debug L 0 0) = Ok [7; 9].
Proof.
  split.
  - eexists. split. { apply json_parse_iff. vm_compute. reflexivity. }
    split; apply field_iff; vm_compute; reflexivity.
  - vm_compute. reflexivity.
Qed.
Print Assumptions C74_version_checked_refuted.

(** The element counts, and the number of layers, are not compared with what is
    stored: the metadata say two layers with 5 and 9 elements, and the index that is
    loaded has one layer with one element. *)
Definition ex_counts : list N := quote_nl "{'num_layers':2,'layer_counts':[5,9],'layer_sizes':[142],'num_elements':9}".
Theorem C74_counts_checked_refuted :
  (exists kvs, document (JObj kvs) ex_counts /\ metadata_says kvs [5; 9] [142] /\ field kvs "num_elements" (JNum 9)) /\
  (let* L := load_layers (block_of ex_counts ++ ex_piece 2 [7;9]%N) in let* n := index_len L in Ok (layers_len L, n)) = Ok (1, 1).
Proof.
  split.
  - eexists. split. { apply json_parse_iff. vm_compute. reflexivity. }
    split; [|apply field_iff; vm_compute; reflexivity].
    split; [apply field_iff; vm_compute; reflexivity|]. split; [apply field_iff; vm_compute; reflexivity|].
    split; [apply field_iff; vm_compute; reflexivity|]. unfold is_usize. repeat constructor.
  - vm_compute. reflexivity.
Qed.
Print Assumptions C74_counts_checked_refuted.
