(** * Theorems C55, C56, C57, C61, C62: parsing, shards, export, dictionaries *)
From Verif Require Import Base BaseFacts Bytes PBytes MSliceVec SSliceVec PFixed PVar PSliceMisc MSearch MBuild MEmbed SEmbed PEmbed PEmbed2 MParse SParse PParse PParse2 PParse3.

(** ** C61: parsing *)

(** The files [files] (lists of lines) and the word file with the lines [wl]:
    [ws] are the words, and a word has the last id under which it is listed. *)
Definition word_file (dec : str -> option str) (wl : list str) (ids : str -> option nat) : Prop :=
  Forall is_line wl /\ exists ws, Forall2 (fun l w => dec l = Some w) wl ws /\ forall w, last_id ws w (ids w).

Lemma word_file_map dec wl ids : word_file dec wl ids ->
  exists wm, parse_words dec (text_file wl) = Ok wm /\ forall w, wmap_get wm w = ids w.
Proof.
  intros (Hl & ws & H & Hi). exists (wmap_of ws). split.
  - unfold parse_words. rewrite (json_lines_ok Hl H). reflexivity.
  - intros w. eapply last_id_fun; [apply wmap_of_last|apply Hi].
Qed.

(** One element per line, files in order, lines in order, holding the ids of the
    known words after the last colon; the written file loads as these elements. *)
Theorem C61_parse :
  forall dec wl ids files parts,
    word_file dec wl ids -> Forall (Forall is_line) files ->
    Forall2 (Forall2 (line_element dec ids)) files parts -> ids_fit (concat parts) -> fits64 (length (concat parts)) ->
    exists bytes, parse_and_save dec (map text_file files) (text_file wl) = Ok (bytes, length (concat parts)) /\
      exists v, els_from_bytes bytes = Ok v /\ vw_observes (map (map N.of_nat) (concat parts)) v.
Proof.
  intros dec wl ids files parts Hw Hl Hp Hf H64. destruct (word_file_map _ _ _ Hw) as (wm & Hwm & Hg).
  assert (Hp' : Forall2 (Forall2 (line_element dec (wmap_get wm))) files parts).
  { clear -Hp Hg. induction Hp as [|a b l l' H _ IH]; constructor; auto. clear -H Hg.
    induction H as [|x y l l' H _ IH]; constructor; auto. eapply line_element_ext; [|exact H]. auto. }
  unfold parse_and_save. rewrite Hwm. cbn [obind]. rewrite (parse_elements_ok Hl Hp' Hf). cbn [obind].
  rewrite vw_len_of, map_length. eexists. split; [reflexivity|].
  unfold els_write. rewrite (@vw_write_of _ five_byte Hfive id_repr id_valid id_repr_ok). cbn [fst].
  now apply part_loads.
Qed.
Print Assumptions C61_parse.

(** Every line that is a JSON string is an element (so the hypothesis of
    [C61_parse] holds as soon as all lines are). *)
Theorem C61_every_json_line_is_an_element :
  forall (dec : str -> option str) (ids : str -> option nat) l q, dec l = Some q -> exists t, line_element dec ids l t.
Proof.
  intros dec ids l q H. destruct (after_last_exists q) as [t Ht]. destruct (tokens_exists t) as [toks Hk].
  eexists. exists q, t, toks. repeat split; eauto; apply Ht.
Qed.
Print Assumptions C61_every_json_line_is_an_element.

(** ... and only one: the meaning of a line is unique. *)
Theorem C61_element_unique :
  forall (dec : str -> option str) (ids : str -> option nat) l a b, line_element dec ids l a -> line_element dec ids l b -> a = b.
Proof.
  intros dec ids l a b (q & t & toks & H1 & H2 & H3 & ->) (q' & t' & toks' & H1' & H2' & H3' & ->).
  assert (q = q') by congruence. subst q'. apply after_last_part in H2, H2'. assert (t = t') by congruence. subst t'.
  apply tokens_split in H3, H3'. assert (toks = toks') by congruence. now subst.
Qed.
Print Assumptions C61_element_unique.

(** A line that is no JSON string, in a file or in the word file, or an id of
    2^24 or more: the call panics. *)
Theorem C61_bad_input_panics :
  forall dec wl ids files,
    Forall is_line wl -> Forall (Forall is_line) files ->
    Exists (fun l => dec l = None) wl \/
    (word_file dec wl ids /\
     Exists (Exists (fun l => dec l = None \/
                              exists t, line_element dec ids l t /\ Exists (fun i => (2 ^ 24 <= N.of_nat i)%N) t)) files) ->
    parse_and_save dec (map text_file files) (text_file wl) = Fail Panicked.
Proof.
  intros dec wl ids files Hwl Hl [H|[Hw H]].
  - apply Exists_exists in H as (l & Hin & Hb). unfold parse_and_save, parse_words. now rewrite (json_lines_bad Hwl Hin Hb).
  - destruct (word_file_map _ _ _ Hw) as (wm & Hwm & Hg). unfold parse_and_save. rewrite Hwm. cbn [obind].
    apply Exists_exists in H as (ls & Hls & H). apply Exists_exists in H as (l & Hin & H).
    rewrite (@parse_elements_bad dec wm files ls l); auto. destruct H as [H|(t & Ht & He)].
    + now apply parse_line_bad.
    + eapply parse_line_big; [|exact He]. eapply line_element_ext; [|exact Ht]. intros w. now rewrite Hg.
Qed.
Print Assumptions C61_bad_input_panics.

(** ** C55: shards *)

(** With [n] elements in [s >= 1] shards of size ceil(n/s): the shard files hold
    the elements, in order; the call returns [n] if the last shard starts at or
    before the end, and panics after writing all elements otherwise. *)
Theorem C55_shards :
  forall dec wl ids files parts s,
    word_file dec wl ids -> Forall (Forall is_line) files ->
    Forall2 (Forall2 (line_element dec ids)) files parts -> ids_fit (concat parts) -> fits64 (length (concat parts)) ->
    0 < s ->
    let n := length (concat parts) in
    let size := (n + s - 1) / s in
    exists fs, files_hold fs (concat parts) /\
      (((s - 1) * size <= n /\ length fs = s /\ parse_and_save_shards dec (map text_file files) (text_file wl) s = (fs, Ok n)) \/
       (n < (s - 1) * size /\ parse_and_save_shards dec (map text_file files) (text_file wl) s = (fs ++ [[]], Fail Panicked))).
Proof.
  intros dec wl ids files parts s Hw Hl Hp Hf H64 Hs n size. destruct (word_file_map _ _ _ Hw) as (wm & Hwm & Hg).
  assert (Hp' : Forall2 (Forall2 (line_element dec (wmap_get wm))) files parts).
  { clear -Hp Hg. induction Hp as [|a b l l' H _ IH]; constructor; auto. clear -H Hg.
    induction H as [|x y l l' H _ IH]; constructor; auto. eapply line_element_ext; [|exact H]. auto. }
  unfold parse_and_save_shards. rewrite Hwm. cbn [obind]. rewrite (parse_elements_ok Hl Hp' Hf).
  destruct (save_shards_ok Hf H64 Hs) as (fs & ps & H1 & H2 & H3). exists fs. split.
  - exists ps. split; auto.
  - exact H3.
Qed.
Print Assumptions C55_shards.

(** The panic does happen: 10 elements, 7 shards. *)
Theorem C55_never_panics_refuted :
  exists (els : elements) (s : nat),
    vw_observes (map (map N.of_nat) (repeat [3] 10)) els /\ 0 < s /\ snd (save_shards els s) = Fail Panicked.
Proof.
  exists (vw_of (repeat [3%N] 10)), 7. split; [|split; [lia|vm_compute; reflexivity]].
  change (map (map N.of_nat) (repeat [3] 10)) with (repeat [3%N] 10). apply vw_of_observes.
Qed.
Print Assumptions C55_never_panics_refuted.

(** It never happens when the number of shards divides the number of elements, or
    is at most 2, or when there are at least s * (s - 2) elements. *)
Theorem C55_enough_elements :
  forall n s, 0 < s -> (n mod s = 0 \/ s <= 2 \/ s * (s - 2) <= n) -> (s - 1) * ((n + s - 1) / s) <= n.
Proof.
  intros n s Hs H. pose proof (Nat.div_mod (n + s - 1) s ltac:(lia)) as E.
  pose proof (Nat.mod_upper_bound (n + s - 1) s ltac:(lia)) as B.
  set (q := (n + s - 1) / s) in *. set (r := (n + s - 1) mod s) in *.
  destruct H as [H|[H|H]].
  - pose proof (Nat.div_mod n s ltac:(lia)) as E2. rewrite H in E2. assert (q = n / s); nia.
  - assert (s = 1 \/ s = 2) as [-> | ->] by lia; lia.
  - destruct (Nat.le_gt_cases (s - 1) q) as [Hq|Hq]; nia.
Qed.
Print Assumptions C55_enough_elements.

Theorem C55_no_shards_panics : forall els, save_shards els 0 = ([], Fail Panicked).
Proof. reflexivity. Qed.
Print Assumptions C55_no_shards_panics.

(** ** C56: export *)
Definition int8s (r : list Z) : Prop := Forall (fun z => (-128 <= z < 128)%Z) r.

Lemma is_embedding_unique {F} (fadd : F -> F -> F) fzero w embs t a b :
  is_embedding fadd fzero w embs t a -> is_embedding fadd fzero w embs t b -> a = b.
Proof.
  intros [H1 H2] [H3 H4]. apply (nth_ext _ _ fzero fzero); [congruence|]. intros k Hk. unfold comp in *.
  rewrite H2 by auto. rewrite H4 by lia. reflexivity.
Qed.

(** When every conversion succeeds ([rows]: the converted embeddings of the
    elements, in order), the chunks written one by one are the bytes of the
    collection of all of [rows], and load as it. *)
Theorem C56_export :
  forall {F} (fadd : F -> F -> F) fzero conv m ops w c rows,
    ids_fit (pushed ops) -> dims w (pushed_embeddings ops) -> se_run ops se_new = Ok c ->
    pushed_embeddings ops <> [] -> fits64 w ->
    Forall (Forall (fun i => i < length (pushed_embeddings ops))) (pushed ops) ->
    (forall v r, conv m v = Ok r -> length r = length v /\ int8s r) ->
    Forall2 (fun t r => exists e, is_embedding fadd fzero w (pushed_embeddings ops) t e /\ conv m e = Ok r) (pushed ops) rows ->
    exists bytes,
      export fadd fzero conv m c = Ok bytes /\
      bytes = le_enc 8 (N.of_nat (match rows with [] => 0 | _ => w end)) ++ concat (map (renc i8r) (concat rows)) /\
      (rows <> [] -> exists v, fw_from_bytes i8r bytes = Ok v /\ fw_observes m rows v).
Proof.
  intros F fadd fzero conv m ops w c rows He Hd Hr Hne H64 Hi Hc Hrows.
  rewrite (se_new_of w), run_ok in Hr by auto. cbn [app] in Hr.
  apply (f_equal (fun r => match r with Ok c => c | _ => se_new end)) in Hr. subst c.
  set (embs := pushed_embeddings ops) in *. set (els := pushed ops) in *. set (c := se_of w embs els).
  assert (Hlen : length els = length rows) by (clear -Hrows; induction Hrows; cbn; congruence).
  assert (Hn : se_len c = length els) by apply se_of_len.
  assert (Hg : forall i, i < length els -> (let* e := se_get_embedding fadd fzero m c i in conv m e) = Ok (nth i rows []) /\ length (nth i rows []) = w).
  { intros i Hil. destruct (nth_error els i) as [t|] eqn:Et; [|apply nth_error_None in Et; lia].
    unfold c. rewrite (@get_embedding_of F fadd fzero w embs els m i t) by auto.
    rewrite Forall_forall in Hi. destruct (@create_ok F fadd fzero w embs els m t Hd) as (r & Er & Hre).
    { apply Hi. eapply nth_error_In; eauto. }
    rewrite Er. cbn [obind].
    assert (Hx : exists e, is_embedding fadd fzero w embs t e /\ conv m e = Ok (nth i rows [])).
    { clear -Hrows Et. revert i Et. induction Hrows as [|a b l l' H _ IH]; intros [|i] Et; try discriminate; cbn [nth nth_error] in *.
      - now injection Et as <-.
      - now apply IH. }
    destruct Hx as (e & He1 & He2). rewrite (is_embedding_unique _ _ _ _ _ _ _ Hre He1). split; [exact He2|].
    apply Hc in He2 as [He2 _]. rewrite He2. destruct He1 as [He1 _]. rewrite He1. destruct embs; [congruence|reflexivity]. }
  assert (Hall : Forall (fun r => length r = w) rows).
  { apply Forall_forall. intros r Hr. apply (In_nth _ _ []) in Hr as (i & Hil & <-). apply Hg. lia. }
  assert (Hval : int8s (concat rows)).
  { unfold int8s. apply Forall_concat. clear -Hrows Hc. induction Hrows as [|a b l l' (e & _ & H) _ IH]; constructor; auto. apply Hc in H. apply H. }
  rewrite (@export_is_whole F fadd fzero conv m c w).
  2:{ intros i Hil. rewrite Hn in Hil. left. exists (nth i rows []). apply Hg, Hil. }
  unfold whole. rewrite (@export_vectors_ok F fadd fzero conv m c w (fun i => nth i rows [])).
  2:{ intros i Hil. apply Hg. now rewrite <- Hn. }
  2:{ apply Forall_forall. intros i Hil. apply in_seq in Hil. lia. }
  cbn [obind]. rewrite Hn, Hlen.
  assert (Em : map (fun i => nth i rows []) (seq 0 (length rows)) = rows).
  { clear. apply (nth_ext _ _ [] []); [now rewrite map_length, seq_length|]. intros i Hil. rewrite map_length, seq_length in Hil.
    rewrite nth_indep with (d' := (fun i => nth i rows []) 0) by (now rewrite map_length, seq_length).
    rewrite (map_nth (fun i => nth i rows [])). now rewrite seq_nth. }
  rewrite Em.
  assert (Ew : match seq 0 (length rows) with [] => 0 | _ :: _ => w end = match rows with [] => 0 | _ => w end) by (destruct rows; reflexivity).
  rewrite Ew. eexists. split; [reflexivity|]. split; [reflexivity|]. intros Hrne.
  assert (Ew2 : match rows with [] => 0 | _ => w end = w) by (destruct rows; congruence). rewrite Ew2.
  assert (Hfw : fw_is w rows (mkFw (concat rows) w)) by (repeat split; auto).
  destruct Hd as [Hw0 _].
  destruct (@fw_round_trip_rows _ i8r _ i8r_ok w rows _ Hw0 H64 Hfw Hval) as (v & Ev & Hv & _).
  exists v. split; [exact Ev|]. now apply fw_is_observes with (w := w).
Qed.
Print Assumptions C56_export.

(** When one conversion panics, so does the call. *)
Theorem C56_export_panics :
  forall {F} (fadd : F -> F -> F) fzero conv m ops w c,
    ids_fit (pushed ops) -> dims w (pushed_embeddings ops) -> se_run ops se_new = Ok c ->
    pushed_embeddings ops <> [] ->
    Forall (Forall (fun i => i < length (pushed_embeddings ops))) (pushed ops) ->
    (forall v, (exists r, conv m v = Ok r /\ length r = length v) \/ conv m v = Fail Panicked) ->
    Exists (fun t => exists e, is_embedding fadd fzero w (pushed_embeddings ops) t e /\ conv m e = Fail Panicked) (pushed ops) ->
    export fadd fzero conv m c = Fail Panicked.
Proof.
  intros F fadd fzero conv m ops w c He Hd Hr Hne Hi Hc Hex.
  rewrite (se_new_of w), run_ok in Hr by auto. cbn [app] in Hr.
  apply (f_equal (fun r => match r with Ok c => c | _ => se_new end)) in Hr. subst c.
  set (embs := pushed_embeddings ops) in *. set (els := pushed ops) in *. set (c := se_of w embs els).
  assert (Hn : se_len c = length els) by apply se_of_len.
  assert (Hg : forall i t, nth_error els i = Some t -> exists r, is_embedding fadd fzero w embs t r /\ se_get_embedding fadd fzero m c i = Ok r).
  { intros i t Et. unfold c. rewrite (@get_embedding_of F fadd fzero w embs els m i t) by auto.
    rewrite Forall_forall in Hi. destruct (@create_ok F fadd fzero w embs els m t Hd) as (r & Er & Hre).
    { apply Hi. eapply nth_error_In; eauto. }
    rewrite Er. eauto. }
  rewrite (@export_is_whole F fadd fzero conv m c w).
  2:{ intros i Hil. rewrite Hn in Hil. destruct (nth_error els i) as [t|] eqn:Et; [|apply nth_error_None in Et; lia].
      destruct (Hg i t Et) as (r & [Hr1 _] & ->). cbn [obind]. destruct (Hc r) as [(x & -> & Hx)| ->]; [left|now right].
      exists x. split; [reflexivity|]. rewrite Hx, Hr1. destruct embs; [congruence|reflexivity]. }
  unfold whole. rewrite (@export_vectors_bad F fadd fzero conv m c w); [reflexivity| | |].
  - intros i Hil. rewrite Hn in Hil. destruct (nth_error els i) as [t|] eqn:Et; [|apply nth_error_None in Et; lia].
    destruct (Hg i t Et) as (r & [Hr1 _] & ->). cbn [obind]. destruct (Hc r) as [(x & -> & Hx)| ->]; [left|now right].
    exists x. split; [reflexivity|]. rewrite Hx, Hr1. destruct embs; [congruence|reflexivity].
  - apply Forall_forall. intros i Hil. apply in_seq in Hil. lia.
  - apply Exists_exists in Hex as (t & Ht & e & He1 & He2). apply In_nth_error in Ht as (i & Ei).
    exists i. split; [apply in_seq; rewrite Hn; split; [lia|]; cbn [Nat.add]; apply nth_error_Some; congruence|].
    destruct (Hg i t Ei) as (r & Hr1 & ->). cbn [obind]. now rewrite (is_embedding_unique _ _ _ _ _ _ _ Hr1 He1).
Qed.
Print Assumptions C56_export_panics.

(** Without elements the written file holds the width 0 and cannot be loaded. *)
Theorem C56_no_elements_unreadable :
  forall {F} (fadd : F -> F -> F) fzero conv m (c : sumemb F), se_len c = 0 ->
    exists bytes, export fadd fzero conv m c = Ok bytes /\ fw_from_bytes i8r bytes = Fail Panicked.
Proof.
  intros F fadd fzero conv m c Hn.
  rewrite (@export_is_whole F fadd fzero conv m c 0); [|intros; lia].
  unfold whole. rewrite Hn. eexists. split; reflexivity.
Qed.
Print Assumptions C56_no_elements_unreadable.

(** ** C57: the word dictionary *)

(** Any history of pushes from the empty dictionary, whatever the words: the
    answers say which words were new, and the dictionary is the list of the first
    occurrences. *)
Theorem C57_pushes :
  forall ws,
    exists d bs, dict_pushes dict_default ws = (d, bs) /\ dict_behaves (first_occurrences [] ws) d /\
      length bs = length ws /\
      forall i w, nth_error ws i = Some w ->
        exists b, nth_error bs i = Some b /\ (b = true <-> ~ In w (firstn i ws)).
Proof.
  intros ws. destruct (@pushes_of ws [] (NoDup_nil _)) as (bs & E & Hl & Hb). exists (dict_of (first_occurrences [] ws)), bs.
  split; [exact E|]. split; [apply dict_of_behaves, first_occ_nodup; constructor|]. split; [exact Hl|].
  intros i w Hi. destruct (Hb i w Hi) as [H1 (b & H2)]. exists b. split; auto. split.
  - intros ->. apply H1 in H2. apply H2.
  - intros Hni. assert (nth_error bs i = Some true) by (apply H1; split; auto). congruence.
Qed.
Print Assumptions C57_pushes.

(** Ids to text and back, for words without whitespace. *)
Theorem C57_text_round_trip :
  forall words d ids, dict_behaves words d -> Forall is_word words -> Forall (fun i => i < length words) ids ->
    exists text, get_words d ids = Ok text /\ get_word_ids d text = ids.
Proof.
  intros words d ids (Hn & Hl & Hg & _ & Hk) Hw Hi. eexists. split; [apply Hg, Hi|].
  rewrite (Hk _ (map (fun i => nth i words []) ids)).
  - now apply known_ids_round.
  - apply tokens_joined. apply Forall_forall. intros w Hin. apply in_map_iff in Hin as (i & <- & Hin).
    rewrite Forall_forall in Hw, Hi. apply Hw. apply nth_In. now apply Hi.
Qed.
Print Assumptions C57_text_round_trip.

(** Writing and loading gives a dictionary that behaves the same. *)
Theorem C57_write_and_load :
  forall dec enc ws, json_ok dec enc ->
    let '(d, _) := dict_pushes dict_default ws in
    exists d', dict_new dec (dict_write enc d) = Ok d' /\ dict_behaves (first_occurrences [] ws) d'.
Proof.
  intros dec enc ws Hj. destruct (@pushes_of ws [] (NoDup_nil _)) as (bs & E & _). change dict_default with (dict_of []).
  rewrite E. eexists. split; [now apply dict_new_write|]. apply dict_of_behaves, first_occ_nodup; constructor.
Qed.
Print Assumptions C57_write_and_load.

(** A dictionary loaded from a file of distinct words is that list of words. *)
Theorem C57_load :
  forall (dec : str -> option str) wl ws, Forall is_line wl -> Forall2 (fun l w => dec l = Some w) wl ws -> NoDup ws ->
    exists d, dict_new dec (text_file wl) = Ok d /\ dict_behaves ws d.
Proof.
  intros dec wl ws Hl H Hn. exists (dict_of ws). split; [|now apply dict_of_behaves].
  unfold dict_new. now rewrite (json_lines_ok Hl H).
Qed.
Print Assumptions C57_load.

(** A file that lists a word twice is accepted, and then words and ids do not
    correspond one-to-one: the round trip of the first id gives another id. *)
Theorem C57_duplicates_in_a_file_refuted :
  forall dec enc, json_ok dec enc ->
    exists words d text, Forall is_word words /\
      dict_new dec (text_file (map enc words)) = Ok d /\
      get_words d [0] = Ok text /\ get_word_ids d text <> [0].
Proof.
  intros dec enc Hj. exists [[97]; [98]; [97]]%N. eexists. exists [97%N].
  split; [repeat constructor; discriminate|]. split; [|split].
  - unfold dict_new. rewrite (@json_lines_ok dec _ [[97]; [98]; [97]]%N); [reflexivity| |].
    + cbn [map]. repeat constructor; apply Hj.
    + cbn [map]. repeat constructor; apply Hj.
  - reflexivity.
  - vm_compute. discriminate.
Qed.
Print Assumptions C57_duplicates_in_a_file_refuted.

(** ** C62: word embeddings of the Python bindings *)

(** Any history of appends with vectors of one dimension: the answers say which
    words were new; words and vectors stay aligned, a word keeping the vector it
    was first appended with; a text has the sum of the vectors of its known
    words. *)
Theorem C62_appends :
  forall {F} (fadd : F -> F -> F) fzero m w (l : list (str * list F)),
    dims w (map snd l) ->
    exists e bs, pe_appends pe_new l = (e, bs) /\ length bs = length l /\
      (forall i u v, nth_error l i = Some (u, v) ->
         nth_error bs i = Some (Ok (negb (if in_dec (list_eq_dec N.eq_dec) u (map fst (firstn i l)) then true else false)))) /\
      let kept := first_entries [] l in
      dict_behaves (map fst kept) (pe_words e) /\
      se_num_embeddings (pe_emb e) = length kept /\
      forall text toks, tokens text toks ->
        exists r, pe_get_embedding fadd fzero m e text = Ok r /\
          is_embedding fadd fzero w (map snd kept) (known_ids (map fst kept) toks) r.
Proof.
  intros F fadd fzero m w l Hd.
  assert (Hd0 : dims w (@nil (list F))) by (destruct Hd; split; auto).
  destruct (@appends_of F w l [] (NoDup_nil _) Hd0 Hd) as (bs & E & Hl & Hn & Hd2 & Hb).
  exists (pe_of w (first_entries [] l)), bs.
  assert (Hbe : dict_behaves (map fst (first_entries [] l)) (pe_words (pe_of w (first_entries [] l)))) by (now apply dict_of_behaves).
  split; [exact E|]. split; [exact Hl|]. split; [|split; [|split]].
  - intros i u v Hi. destruct (Hb i u v Hi) as [H1 H2]. destruct (in_dec (list_eq_dec N.eq_dec) u (map fst (firstn i l))); cbn [negb]; [apply H2; auto|apply H1; auto].
  - exact Hbe.
  - cbn [pe_emb pe_of]. rewrite se_of_num by auto. apply map_length.
  - intros text toks Ht. unfold pe_get_embedding. destruct Hbe as (_ & _ & _ & _ & Hk). rewrite (Hk _ _ Ht).
    cbn [pe_emb pe_of]. apply create_ok; auto. rewrite map_length. apply Forall_forall. intros i Hi.
    unfold known_ids in Hi. apply in_flat_map in Hi as (t & _ & Hi).
    destruct (id_of (map fst (first_entries [] l)) t) as [j|] eqn:Ej; [|destruct Hi]. destruct Hi as [<-|[]].
    pose proof (position_last t Hn) as Hp. rewrite Ej in Hp. destruct Hp as [Hp _].
    rewrite <- (map_length fst). apply nth_error_Some. congruence.
Qed.
Print Assumptions C62_appends.

(** [append] records the word before it checks the vector: after an append that
    was refused because of the dimension, the word stays, and the vector of the
    next word is found under it. *)
Theorem C62_refused_append_leaves_no_trace_refuted :
  exists (l : list (str * list Z)) e bs,
    pe_appends pe_new l = (e, bs) /\
    l = [([97], [1; 2]%Z); ([98], [5]%Z); ([99], [3; 4]%Z)]%N /\ bs = [Ok true; Fail Panicked; Ok true] /\
    pe_get_embedding Z.add 0%Z Release e [98%N] = Ok [3; 4]%Z /\
    pe_get_embedding Z.add 0%Z Release e [99%N] = Fail Panicked.
Proof. exists [([97], [1; 2]%Z); ([98], [5]%Z); ([99], [3; 4]%Z)]%N. eexists _, _. split; [vm_compute; reflexivity|]. repeat split; vm_compute; reflexivity. Qed.
Print Assumptions C62_refused_append_leaves_no_trace_refuted.

(** ** Concrete cases that meet the hypotheses *)

(** JSON strings, as far as needed: quotation marks around the text, backslash
    escapes for quotation mark, backslash, newline and carriage return. *)
Definition jenc1 (c : N) : str :=
  if (c =? 34)%N then [92; 34]%N else if (c =? 92)%N then [92; 92]%N
  else if (c =? 10)%N then [92; 110]%N else if (c =? 13)%N then [92; 114]%N else [c].
Definition jenc (w : str) : str := 34%N :: flat_map jenc1 w ++ [34%N].
Fixpoint jdec1 (s : str) : option str :=
  match s with
  | [] => None
  | c :: t =>
      if (c =? 34)%N then match t with [] => Some [] | _ => None end
      else if (c =? 92)%N then
        match t with
        | [] => None
        | d :: t => let d := if (d =? 110)%N then 10%N else if (d =? 114)%N then 13%N else d in
                    match jdec1 t with Some r => Some (d :: r) | None => None end
        end
      else match jdec1 t with Some r => Some (c :: r) | None => None end
  end.
Definition jdec (s : str) : option str :=
  match s with c :: t => if (c =? 34)%N then jdec1 t else None | [] => None end.

Example C57_json_ok : json_ok jdec jenc.
Proof.
  intros w. split.
  - unfold jenc, jdec. rewrite N.eqb_refl. induction w as [|c w IH]; [reflexivity|].
    cbn [flat_map]. rewrite <- app_assoc. unfold jenc1 at 1.
    destruct (N.eqb_spec c 34) as [->|H1]; [cbn [app jdec1 N.eqb Pos.eqb]; now rewrite IH|].
    destruct (N.eqb_spec c 92) as [->|H2]; [cbn [app jdec1 N.eqb Pos.eqb]; now rewrite IH|].
    destruct (N.eqb_spec c 10) as [->|H3]; [cbn [app jdec1 N.eqb Pos.eqb]; now rewrite IH|].
    destruct (N.eqb_spec c 13) as [->|H4]; [cbn [app jdec1 N.eqb Pos.eqb]; now rewrite IH|].
    cbn [app jdec1]. rewrite (proj2 (N.eqb_neq c 34) H1), (proj2 (N.eqb_neq c 92) H2). now rewrite IH.
  - split.
    + unfold jenc. cbn [In]. rewrite in_app_iff. intros [H|[H|[H|[]]]]; try discriminate.
      apply in_flat_map in H as (c & _ & H). unfold jenc1, NEWLINE in H.
      destruct (N.eqb_spec c 34) as [_|_]; [cbn in H; intuition discriminate|].
      destruct (N.eqb_spec c 92) as [_|_]; [cbn in H; intuition discriminate|].
      destruct (N.eqb_spec c 10) as [_|Hc]; [cbn in H; intuition discriminate|].
      destruct (N.eqb_spec c 13) as [_|_]; [cbn in H; intuition discriminate|].
      destruct H as [H|[]]. auto.
    + intros s H. apply (f_equal (@rev N)) in H. unfold jenc in H. cbn [rev] in H. rewrite !rev_app_distr in H.
      cbn in H. discriminate.
Qed.

(** words "ab", "c", "d"; lines "x: c ab  zz c" and "d" and "" *)
Definition ex_words : list str := [[97; 98]; [99]; [100]]%N.
Definition ex_lines : list str := [[120; 58; 32; 99; 32; 97; 98; 32; 32; 122; 122; 9; 99]; [100]; []]%N.
Definition ex_ids (w : str) : option nat := id_of ex_words w.
Example C61_example :
  word_file jdec (map jenc ex_words) ex_ids /\
  Forall (Forall is_line) [map jenc ex_lines; []; map jenc [[99%N]]] /\
  Forall2 (Forall2 (line_element jdec ex_ids)) [map jenc ex_lines; []; map jenc [[99%N]]] [[[1; 0; 1]; [2]; []]; []; [[1]]] /\
  ids_fit (concat [[[1; 0; 1]; [2]; []]; []; [[1]]]) /\
  parse_and_save jdec (map text_file [map jenc ex_lines; []; map jenc [[99%N]]]) (text_file (map jenc ex_words)) <> Fail Panicked /\
  snd (parse_and_save_shards jdec (map text_file [map jenc ex_lines; []; map jenc [[99%N]]]) (text_file (map jenc ex_words)) 3) = Ok 4.
Proof.
  assert (L : forall l, Forall is_line (map jenc l)).
  { intros l. apply Forall_forall. intros x Hx. apply in_map_iff in Hx as (y & <- & _). apply C57_json_ok. }
  split; [split; [apply L|]|split; [apply Forall_cons; [apply L|apply Forall_cons; [constructor|apply Forall_cons; [apply L|constructor]]]|split; [|split; [split; [repeat constructor|cbn; lia]|split; vm_compute; [discriminate|reflexivity]]]]].
  - exists ex_words. split; [cbn [map ex_words]; repeat constructor|]. intros w. apply position_last.
    repeat constructor; cbn; intuition discriminate.
  - assert (E : forall q t, after_last_colon q t -> forall toks, tokens t toks -> forall a, 
      a = flat_map (fun w => match ex_ids w with Some i => [i] | None => [] end) toks -> line_element jdec ex_ids (jenc q) a).
    { intros q t H1 toks H2 a ->. exists q, t, toks. split; [apply C57_json_ok|]. auto. }
    assert (W : forall w, forallb (fun c => negb (white c)) w = true -> w <> [] -> is_word w).
    { intros w H H'. split; auto. apply Forall_forall. rewrite forallb_forall in H. intros c Hc. specialize (H c Hc). now destruct (white c). }
    repeat constructor.
    + eapply (E _ [32; 99; 32; 97; 98; 32; 32; 122; 122; 9; 99]%N).
      * split; [cbn; intuition discriminate|right]. exists [120]%N. reflexivity.
      * apply tok_ws; [reflexivity|]. apply (@tok_word [99]%N); [now apply W|right; eexists _, _; split; reflexivity|].
        apply tok_ws; [reflexivity|]. apply (@tok_word [97; 98]%N); [now apply W|right; eexists _, _; split; reflexivity|].
        apply tok_ws; [reflexivity|]. apply tok_ws; [reflexivity|].
        apply (@tok_word [122; 122]%N); [now apply W|right; eexists _, _; split; reflexivity|].
        apply tok_ws; [reflexivity|]. apply (@tok_word [99]%N []); [now apply W|now left|constructor].
      * reflexivity.
    + eapply (E _ [100]%N); [split; [cbn; intuition discriminate|now left]|apply (@tok_word [100]%N []); [now apply W|now left|constructor]|reflexivity].
    + eapply (E _ []%N); [split; [cbn; intuition discriminate|now left]|constructor|reflexivity].
    + eapply (E _ [99]%N); [split; [cbn; intuition discriminate|now left]|apply (@tok_word [99]%N []); [now apply W|now left|constructor]|reflexivity].
Qed.

Example C56_example :
  let ops := [SPushEmbedding [1; 2]%Z; SPushEmbedding [10; -20]%Z; SPush [1; 0]; SPush []; SPush [1]] in
  let conv (m : mode) (v : list Z) := Ok (map (fun z => Z.max (-127) (Z.min 127 z)) v) in
  Forall2 (fun t r => exists e, is_embedding Z.add 0%Z 2 (pushed_embeddings ops) t e /\ conv Release e = Ok r) (pushed ops)
    [[11; -18]; [0; 0]; [10; -20]]%Z /\
  (forall v r, conv Release v = Ok r -> length r = length v /\ int8s r) /\
  exists c, se_run ops se_new = Ok c /\
    export Z.add 0%Z conv Release c = Ok [2; 0; 0; 0; 0; 0; 0; 0; 11; 238; 0; 0; 10; 236]%N.
Proof.
  cbv zeta. split; [|split].
  - assert (H : forall t e r, length e = 2 -> Ok (map (fun z => Z.max (-127) (Z.min 127 z)) e) = Ok r ->
      (forall k, k < 2 -> comp 0%Z e k = left_sum Z.add 0%Z (map (fun i => comp 0%Z (nth i [[1; 2]; [10; -20]]%Z []) k) t)) ->
      exists e, is_embedding Z.add 0%Z 2 [[1; 2]; [10; -20]]%Z t e /\ Ok (map (fun z => Z.max (-127) (Z.min 127 z)) e) = Ok r).
    { intros t e r H1 H2 H3. exists e. split; [|exact H2]. split; [exact H1|]. rewrite H1. exact H3. }
    cbn [pushed pushed_embeddings flat_map app].
    apply Forall2_cons; [|apply Forall2_cons; [|apply Forall2_cons; [|constructor]]].
    + apply (H _ [11; -18]%Z); [reflexivity|reflexivity|]. intros [|[|k]] Hk; [reflexivity|reflexivity|lia].
    + apply (H _ [0; 0]%Z); [reflexivity|reflexivity|]. intros [|[|k]] Hk; [reflexivity|reflexivity|lia].
    + apply (H _ [10; -20]%Z); [reflexivity|reflexivity|]. intros [|[|k]] Hk; [reflexivity|reflexivity|lia].
  - intros v r H. injection H as <-. split; [apply map_length|]. unfold int8s. apply Forall_forall. intros z Hz.
    apply in_map_iff in Hz as (x & <- & _). lia.
  - eexists. split; vm_compute; reflexivity.
Qed.

Example C57_example :
  exists d, dict_pushes dict_default [[97]; [98; 99]; [97]; [100]]%N = (d, [true; true; false; true]) /\
    first_occurrences [] [[97]; [98; 99]; [97]; [100]]%N = [[97]; [98; 99]; [100]]%N /\
    get_words d [2; 1; 1] = Ok [100; 32; 98; 99; 32; 98; 99]%N /\
    get_word_ids d [32; 98; 99; 32; 120; 32; 97]%N = [1; 0].
Proof. eexists. repeat split; vm_compute; reflexivity. Qed.

Example C62_example :
  let l := [([97], [1; 2]%Z); ([98], [5; 6]%Z); ([97], [7; 7]%Z); ([99], [3; 4]%Z)]%N in
  dims 2 (map snd l) /\
  exists e, pe_appends pe_new l = (e, [Ok true; Ok true; Ok false; Ok true]) /\
    first_entries [] l = [([97], [1; 2]%Z); ([98], [5; 6]%Z); ([99], [3; 4]%Z)]%N /\
    pe_get_embedding Z.add 0%Z Debug e [99; 32; 120; 32; 97]%N = Ok [4; 6]%Z.
Proof.
  cbv zeta. split; [split; [lia|repeat constructor]|]. eexists. split; [vm_compute; reflexivity|]. split; vm_compute; reflexivity.
Qed.
