(** * Theorems C78, C79 and C61 (continued): files read and written by the parsing functions *)
From Coq Require Import String Ascii.
From Verif Require Import Base BaseFacts Bytes PBytes MSliceVec SSliceVec PFixed PVar MSearch MBuild MEmbed SEmbed PEmbed PEmbed2 MJson PJson MParse SParse PParse PParse2 PParse3 TParse MFiles SFiles PFiles PFiles2.
Local Notation length := List.length.

(** ** C61: lines end with a newline, or a carriage return and a newline; the last
    one may lack it.  Every text has exactly one list of lines, and only that
    list matters. *)
Theorem C61_line_endings :
  (forall t, exists ls, reads_as t ls) /\
  (forall t a b, reads_as t a -> reads_as t b -> a = b) /\
  (forall dec texts files wt wl ids parts,
     Forall2 reads_as texts files -> reads_as wt wl ->
     (exists ws, Forall2 (fun l w => dec l = Some w) wl ws /\ forall w, last_id ws w (ids w)) ->
     Forall2 (Forall2 (line_element dec ids)) files parts -> ids_fit (concat parts) -> fits64 (length (concat parts)) ->
     exists bytes, parse_and_save dec texts wt = Ok (bytes, length (concat parts)) /\
       exists v, els_from_bytes bytes = Ok v /\ vw_observes (map (map N.of_nat) (concat parts)) v).
Proof.
  split; [exact reads_exists|]. split; [exact reads_fun|].
  intros dec texts files wt wl ids parts Hr Hw (ws & Hws & Hi) Hl Hf H64.
  assert (Hg : forall w, wmap_get (wmap_of ws) w = ids w) by (intros w; eapply last_id_fun; [apply wmap_of_last|apply Hi]).
  assert (Hl' : Forall2 (Forall2 (line_element dec (wmap_get (wmap_of ws)))) files parts).
  { clear -Hl Hg. induction Hl as [|a b l l' H _ IH]; constructor; auto. clear -H Hg.
    induction H as [|x y l l' H _ IH]; constructor; auto. eapply line_element_ext; [|exact H]. auto. }
  unfold parse_and_save, parse_words. rewrite (json_lines_reads Hw Hws). cbn [obind]. unfold parse_elements.
  assert (Hall : forall q, In q parts -> ids_fit q) by (intros q Hq; eapply ids_fit_part; eauto).
  assert (E : omapM (fun f => parse_file dec f (wmap_of ws)) texts = Ok (map (fun p => vw_of (map (map enc_id) p)) parts)).
  { clear Hf Hl H64. revert parts Hl' Hall. induction Hr as [|t f texts files Ht _ IH]; intros parts Hl Hall.
    - inversion Hl; subst. reflexivity.
    - inversion Hl as [|? e ? es Hl1 Hl2]; subst. cbn [omapM map].
      rewrite (parse_file_lines Ht Hl1) by (apply Hall; now left). cbn [obind]. rewrite (IH es); auto. intros x Hx. apply Hall. now right. }
  rewrite E. cbn [obind]. rewrite (extend_parts Hf). cbn [obind]. rewrite vw_len_of, map_length. eexists. split; [reflexivity|].
  unfold els_write. rewrite (@vw_write_of _ five_byte Hfive id_repr id_valid id_repr_ok). cbn [fst]. now apply part_loads.
Qed.
Print Assumptions C61_line_endings.

(** ** C78: which files are read and written *)
Section C78.
  Context (utf8 : list N -> option str) (gunzip : list N -> option (list N)) (dec : str -> option str).

  (** The element files are the files in the directory in byte order of their
      names (those in ".gz" unzipped), or the single file; the output file is
      replaced by the elements, and nothing else changes. *)
  Theorem C78_parse :
    forall d ep wp out ids els, disk_ok d ->
      words_at utf8 dec d wp ids -> elements_at utf8 gunzip dec d ep ids els -> ids_fit els -> fits64 (length els) ->
      creatable d out ->
      exists d' b, save_at utf8 gunzip dec d ep wp out = (d', Ok (length els)) /\
        node_at d' out = Some (File b) /\ files_hold [b] els /\ same_but [out] d d'.
  Proof.
    intros d ep wp out ids els Hd Hw He Hf H64 Hc. destruct (words_ok Hw) as (wm & Hwm & Hg).
    unfold save_at. rewrite Hwm. cbn [obind]. rewrite (elements_ok Hd He Hg Hf). rewrite (create_ok Hc). cbn [or_panic].
    rewrite vw_len_of, map_length. eexists _, _. split; [reflexivity|]. split; [apply node_put_same|]. split.
    - exists [els]. split; [cbn; apply app_nil_r|]. repeat constructor.
      unfold els_write. rewrite (@vw_write_of _ five_byte Hfive id_repr id_valid id_repr_ok). cbn [fst]. now apply part_loads.
    - intros q Hq. rewrite !node_put_other; auto; intros ->; apply Hq; now left.
  Qed.

  (** When the call fails, whatever the reason, no file has changed. *)
  Theorem C78_failure_changes_nothing :
    forall d ep wp out d' x, save_at utf8 gunzip dec d ep wp out = (d', Fail x) -> d' = d.
  Proof.
    intros d ep wp out d' x. unfold save_at. destruct (obind _ _) as [els|y]; [|congruence].
    destruct (or_panic _) as [d1|y]; congruence.
  Qed.

  Lemma op_words d p : op (parse_words_at utf8 dec d p).
  Proof.
    unfold parse_words_at, read_file. destruct (node_at d p) as [[b|]|]; cbn [or_panic obind]; try (now right).
    apply op_bind; [apply op_unwrap|]. intros t. unfold parse_words. apply op_bind; [|intros; apply op_ok].
    unfold json_lines. apply op_map. intros. apply op_unwrap.
  Qed.
  Lemma op_part d wm p : op (parse_part utf8 gunzip dec d wm p).
  Proof.
    unfold parse_part, read_file. destruct (node_at d p) as [[b|]|]; cbn [or_panic obind]; try (now right).
    apply op_bind; [apply op_assert|]. intros _. apply op_bind.
    - destruct (file_name p) as [n|]; [|apply op_ok]. destruct (ends_gz n); [apply op_unwrap|apply op_ok].
    - intros b'. apply op_bind; [apply op_unwrap|]. intros t. apply op_file.
  Qed.

  (** Anything in the directory that is no text file (a directory, a file that
      is not UTF-8, an archive that cannot be unzipped, a name that is not
      UTF-8) makes the call panic; so does a missing input. *)
  Definition unreadable (d : disk) (p : path) : Prop := forall t, ~ part_text utf8 gunzip d p t.
  Lemma part_unreadable d wm p : unreadable d p -> parse_part utf8 gunzip dec d wm p = Fail Panicked.
  Proof.
    intros H. destruct (op_part d wm p) as [[v E]|E]; [|exact E]. exfalso. revert E. unfold parse_part, read_file.
    destruct (node_at d p) as [[b|]|] eqn:En; cbn [or_panic obind]; try discriminate.
    destruct (path_valid utf8 p) eqn:Ep; cbn [oassert obind]; [|discriminate]. apply path_valid_iff in Ep.
    assert (G : forall u t, utf8 u = Some t -> (((exists q s, p = q ++ [Name (s ++ text ".gz")]) /\ gunzip b = Some u) \/
     ((forall q s, p <> q ++ [Name (s ++ text ".gz")]) /\ u = b)) -> False).
    { intros u t Hu Hz. apply (H t). exists b, u. auto. }
    assert (K : forall u, (((exists q s, p = q ++ [Name (s ++ text ".gz")]) /\ gunzip b = Some u) \/
     ((forall q s, p <> q ++ [Name (s ++ text ".gz")]) /\ u = b)) -> (let* t := ounwrap (utf8 u) in parse_file dec t wm) = Ok v -> False).
    { intros u Hz. destruct (utf8 u) as [t|] eqn:Eu; [|discriminate]. intros _. eapply G; eauto. }
    destruct (file_name p) as [n|] eqn:Efn.
    - apply file_name_some in Efn as [q ->]. destruct (ends_gz n) eqn:Eg.
      + apply ends_gz_iff in Eg as [s ->]. destruct (gunzip b) as [u|] eqn:Ez; [|discriminate]. cbn [ounwrap obind]. refine (K u _). left. split; [now exists q, s|reflexivity].
      + cbn [obind]. refine (K b _). right. split; auto. intros q' s E. apply app_inj_tail in E as [_ E]. injection E as ->.
        rewrite (proj2 (ends_gz_iff (s ++ text ".gz"))) in Eg by eauto. discriminate.
    - cbn [obind]. refine (K b _). right. split; auto. intros q' s ->. rewrite file_name_app in Efn. discriminate.
  Qed.
  Theorem C78_unreadable_panics :
    forall d ep wp out,
      (exists p, unreadable d p /\
         ((node_at d ep = Some Dir /\ exists n x, p = ep ++ [Name n] /\ node_at d p = Some x) \/ (node_at d ep <> Some Dir /\ p = ep))) \/
      (forall b, node_at d wp = Some (File b) -> utf8 b = None) ->
      save_at utf8 gunzip dec d ep wp out = (d, Fail Panicked).
  Proof.
    intros d ep wp out H. unfold save_at.
    assert (E : (let* word_ids := parse_words_at utf8 dec d wp in parse_elements_at utf8 gunzip dec d ep word_ids) = Fail Panicked); [|now rewrite E].
    destruct H as [(p & Hu & Hp)|Hw].
    - destruct (op_words d wp) as [[wm ->]| ->]; [|reflexivity]. cbn [obind]. unfold parse_elements_at.
      rewrite omapM_fail; [reflexivity| |].
      + intros q _. destruct (op_part d wm q) as [?|?]; auto.
      + exists p. split; [|now apply part_unreadable]. unfold parts. destruct Hp as [(Hd & n & x & -> & Hx)|(Hd & ->)].
        * rewrite (proj2 (is_dir_iff d ep) Hd). apply in_map_iff. exists n. split; auto. apply sort_names_in, children_in. eauto.
        * rewrite (is_dir_not Hd). now left.
    - unfold parse_words_at, read_file. destruct (node_at d wp) as [[b|]|]; cbn [or_panic obind]; try reflexivity. now rewrite (Hw b eq_refl).
  Qed.

  (** Shard files have different names, lie in one directory, and are not the
      output path; every number has one. *)
  Theorem C78_shard_names :
    forall d out, utf8_ok utf8 -> utf8_path utf8 out -> (node_at d out = Some Dir \/ exists dir n, out = dir ++ [Name n]) ->
      (forall i, exists p, shard_file d out i p /\ forall q, shard_file d out i q -> q = p) /\
      (forall i j p q, shard_file d out i p -> shard_file d out j q -> i <> j -> p <> q) /\
      (exists dir, forall i p, shard_file d out i p -> p <> out /\ exists n, p = dir ++ [Name n]).
  Proof.
    intros d out HU Hu Hn. split; [|split].
    - intros i. destruct (@shard_name_ok utf8 HU d out i Hu) as (p & _ & Hp & _).
      + destruct Hn as [Hn|(dir & n & ->)]; [now left|right]. rewrite file_name_app. discriminate.
      + exists p. split; auto. intros q Hq. eapply shard_file_fun; eauto.
    - intros i j p q Hp Hq Hij ->. apply Hij. eapply shard_file_inj; eauto.
    - exists (shard_dir d out). intros i p Hp. split; [eapply shard_file_not_out; eauto|]. eapply shard_file_dir; eauto.
  Qed.

  Lemma write_shards_length els size l : length (fst (write_shards els size l)) <= length l.
  Proof.
    induction l as [|s l IH]; [reflexivity|]. cbn [write_shards]. destruct (vw_write_range _ _ _ _ _) as [w|]; [|cbn; lia].
    destruct (write_shards els size l) as [fs r]. cbn [fst length] in *. lia.
  Qed.

  (** The shard files, in the order of their numbers, hold the elements; a shard
      number whose file is not listed has none or an empty one (the call panics
      there); nothing else changes. *)
  Theorem C78_shards :
    forall d ep wp out ids els s show, utf8_ok utf8 -> disk_ok d ->
      words_at utf8 dec d wp ids -> elements_at utf8 gunzip dec d ep ids els -> ids_fit els -> fits64 (length els) -> 0 < s ->
      utf8_path utf8 out -> (node_at d out = Some Dir \/ exists dir n, out = dir ++ [Name n]) ->
      (forall i p, i < s -> shard_file d out i p -> creatable d p) ->
      let n := length els in
      let size := (n + s - 1) / s in
      exists d' fs, files_hold fs els /\
        (((s - 1) * size <= n /\ length fs = s /\ save_shards_at utf8 gunzip dec d ep wp out s show = (d', Ok n)) \/
         (n < (s - 1) * size /\ length fs < s /\ save_shards_at utf8 gunzip dec d ep wp out s show = (d', Fail Panicked))) /\
        (forall i p f, nth_error fs i = Some f -> shard_file d out i p -> node_at d' p = Some (File f)) /\
        (forall q, (forall i, i < s -> ~ shard_file d out i q) -> node_at d' q = node_at d q).
  Proof.
    intros d ep wp out ids els s show HU Hd Hw He Hf H64 Hs Hu Hn Hc n size. destruct (words_ok Hw) as (wm & Hwm & Hg).
    destruct (@save_shards_ok els Hf H64 s Hs) as (fs & ps & H1 & H2 & H3). fold n size in H3.
    unfold save_shards_at. rewrite Hwm. cbn [obind]. rewrite (elements_ok Hd He Hg Hf). cbn [obind].
    set (v := vw_of (map (map enc_id) els)) in *. change (vw_of (map (map (fun i => N.of_nat i)) els)) with v in H3.
    unfold save_shards, shard_size in *. destruct (Nat.eqb_spec s 0); [lia|]. cbn [obind].
    assert (Hv : vw_len v = n) by (unfold v; now rewrite vw_len_of, map_length). rewrite Hv in *. fold size.
    assert (Hn' : node_at d out = Some Dir \/ file_name out <> None).
    { destruct Hn as [Hn|(dir & k & ->)]; [now left|right]. rewrite file_name_app. discriminate. }
    destruct (@shards_loop utf8 HU v out show size Hu (or_intror Logic.I) (seq 0 s) d (seq_NoDup _ _) Hn') as (d' & E & Hfs & Hsm).
    { intros i p Hi. apply in_seq in Hi. apply Hc. lia. }
    exists d', fs. split; [exists ps; split; auto|].
    pose proof (write_shards_length v size (seq 0 s)) as Hlen. rewrite seq_length in Hlen.
    assert (Hpre : exists tl, fst (write_shards v size (seq 0 s)) = fs ++ tl /\
      (((s - 1) * size <= n /\ length fs = s /\ snd (write_shards v size (seq 0 s)) = Ok n) \/
       (n < (s - 1) * size /\ length fs < s /\ snd (write_shards v size (seq 0 s)) = Fail Panicked))).
    { fold size in H3. destruct H3 as [(A & B & C)|(A & C)]; rewrite C in *; cbn [fst snd] in *.
      - exists []. rewrite app_nil_r. auto.
      - exists [[]]. rewrite app_length in Hlen. cbn [length] in Hlen. split; auto. right. split; auto. split; auto. lia. }
    destruct Hpre as (tl & Hfst & Hcase). split; [|split].
    - rewrite E. destruct Hcase as [(A & B & ->)|(A & B & ->)]; auto.
    - intros i p f Hi Hp. assert (i < length fs) by (apply nth_error_Some; congruence).
      eapply (Hfs i i p f); auto.
      + rewrite (nth_error_nth' _ 0) by (rewrite seq_length; destruct Hcase as [(_ & ? & _)|(_ & ? & _)]; lia).
        rewrite seq_nth; [reflexivity|]. destruct Hcase as [(_ & ? & _)|(_ & ? & _)]; lia.
      + rewrite Hfst. now rewrite nth_error_app1.
    - intros q Hq. apply Hsm. intros k i Hk _. apply Hq. apply nth_error_In, in_seq in Hk. lia.
  Qed.

  (** Without a file name (and no directory): a panic, and no file has changed. *)
  Theorem C78_no_file_name :
    forall d ep wp out ids els s show, disk_ok d ->
      words_at utf8 dec d wp ids -> elements_at utf8 gunzip dec d ep ids els -> ids_fit els -> 0 < s ->
      node_at d out <> Some Dir -> (forall dir n, out <> dir ++ [Name n]) ->
      save_shards_at utf8 gunzip dec d ep wp out s show = (d, Fail Panicked).
  Proof.
    intros d ep wp out ids els s show Hd Hw He Hf Hs Ho Hn. destruct (words_ok Hw) as (wm & Hwm & Hg).
    unfold save_shards_at. rewrite Hwm. cbn [obind]. rewrite (elements_ok Hd He Hg Hf). cbn [obind].
    unfold shard_size. destruct (Nat.eqb_spec s 0); [lia|]. cbn [obind]. destruct s as [|s]; [lia|]. cbn [seq shards_at].
    unfold get_shard_name. rewrite (is_dir_not Ho). destruct (file_name out) as [k|] eqn:E; [|reflexivity].
    apply file_name_some in E as [q ->]. now destruct (Hn q k).
  Qed.
End C78.
Print Assumptions C78_parse.
Print Assumptions C78_failure_changes_nothing.
Print Assumptions C78_unreadable_panics.
Print Assumptions C78_shard_names.
Print Assumptions C78_shards.
Print Assumptions C78_no_file_name.
