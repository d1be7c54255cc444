(** * Theorems C78 (examples and limits) and C79: exporting while an input is the output *)
From Coq Require Import String Ascii.
From Verif Require Import Base BaseFacts Bytes PBytes MSliceVec SSliceVec PFixed PVar MSearch MBuild MEmbed SEmbed PEmbed PEmbed2 MJson PJson MParse SParse PParse PParse2 PParse3 TParse MFiles SFiles PFiles PFiles2 TFiles.
Local Notation length := List.length.

(** ** A disk *)

(** UTF-8 of ASCII texts, archives whose first byte is dropped *)
Definition ascii (b : list N) : option str := if forallb (fun c => (c <? 128)%N) b then Some b else None.
Lemma ascii_iff b : is_utf8 ascii b <-> Forall (fun c => (c < 128)%N) b.
Proof.
  unfold is_utf8, ascii. destruct (forallb (fun c => (c <? 128)%N) b) eqn:E.
  - split; eauto. intros _. rewrite forallb_forall in E. apply Forall_forall. intros c Hc. apply N.ltb_lt. auto.
  - split; [intros [t Ht]; discriminate|]. intros H. exfalso. rewrite (proj2 (forallb_forall _ b)) in E; [discriminate|].
    intros c Hc. rewrite Forall_forall in H. apply N.ltb_lt. auto.
Qed.
Lemma ascii_ok : utf8_ok ascii.
Proof.
  split; [apply ascii_iff; constructor|]. intros a c b Hc. rewrite !ascii_iff, Forall_app. split.
  - intros [H1 H2]. inversion H2. auto.
  - intros [H1 H2]. auto.
Qed.
Definition unzip1 (b : list N) : option (list N) := match b with 7%N :: t => Some t | _ => None end.

Definition P (l : list string) : path := map (fun s => Name (text s)) l.
Definition file_of (ls : list str) : node := File (text_file (map jenc ls)).
(** "in" holds the parts 2 ("d"), 10 ("x: c ab") and "z.gz" (empty) *)
Definition ex_disk : disk :=
  [ (P ["in"%string], Dir); (P ["out"%string], Dir); (P ["words"%string], file_of ex_words);
    (P ["in"; "2"]%string, file_of [[100%N]]); (P ["in"; "10"]%string, file_of [[120; 58; 32; 99; 32; 97; 98]%N]);
    (P ["in"; "z.gz"]%string, File [7%N]); (P ["out.bin"%string], File [1%N]) ].

Lemma ex_disk_ok : disk_ok ex_disk.
Proof. unfold disk_ok. cbv. repeat constructor; cbn; intuition congruence. Qed.
Lemma jenc_reads ls : reads_as (text_file (map jenc ls)) (map jenc ls).
Proof.
  unfold text_file. induction ls as [|l ls IH]; [constructor|]. cbn [map concat]. rewrite <- app_assoc. cbn [app].
  apply line_lf; auto. apply C57_json_ok.
Qed.
Lemma ex_words_at : words_at ascii jdec ex_disk (P ["words"%string]) ex_ids.
Proof.
  exists (text_file (map jenc ex_words)), (text_file (map jenc ex_words)), (map jenc ex_words), ex_words.
  split; [reflexivity|]. split; [reflexivity|]. split; [apply jenc_reads|]. split; [cbn [map ex_words]; repeat constructor|].
  intros w. apply position_last. repeat constructor; cbn; intuition discriminate.
Qed.

Lemma ex_listing : listing ex_disk (P ["in"%string]) [text "10"; text "2"; text "z.gz"].
Proof.
  destruct (listing_exists (P ["in"%string]) ex_disk_ok) as [names H]. rewrite <- (listing_children ex_disk_ok H) in H. exact H.
Qed.
Lemma plain d p b t : node_at d p = Some (File b) -> utf8_path ascii p -> ascii b = Some t ->
  match file_name p with Some n => ends_gz n = false | None => False end -> part_text ascii unzip1 d p t.
Proof.
  intros H1 H2 H3 H4. exists b, b. split; auto. split; auto. split; auto. right. split; auto.
  intros q s ->. rewrite file_name_app in H4. rewrite (proj2 (ends_gz_iff (s ++ text ".gz"))) in H4 by eauto. discriminate.
Qed.
Lemma P_utf8 l : forallb (fun s => forallb (fun c => (c <? 128)%N) (text s)) l = true -> utf8_path ascii (P l).
Proof.
  intros H n Hn. unfold P in Hn. apply in_map_iff in Hn as (s & E & Hs). injection E as <-. rewrite forallb_forall in H.
  apply ascii_iff, Forall_forall. intros c Hc. specialize (H s Hs). rewrite forallb_forall in H. now apply N.ltb_lt, H.
Qed.

Lemma ex_elements_at : elements_at ascii unzip1 jdec ex_disk (P ["in"%string]) ex_ids [[1; 0]; [2]].
Proof.
  exists [text_file (map jenc [[120; 58; 32; 99; 32; 97; 98]%N]); text_file (map jenc [[100%N]]); []],
    [map jenc [[120; 58; 32; 99; 32; 97; 98]%N]; map jenc [[100%N]]; []], [[[1; 0]]; [[2]]; []].
  split; [|split; [|split; [|reflexivity]]].
  - left. split; [reflexivity|]. exists [text "10"; text "2"; text "z.gz"]. split; [exact ex_listing|].
    constructor; [|constructor; [|constructor; [|constructor]]].
    + eapply plain; [reflexivity| |reflexivity|reflexivity]. now apply (P_utf8 ["in"; "10"]%string).
    + eapply plain; [reflexivity| |reflexivity|reflexivity]. now apply (P_utf8 ["in"; "2"]%string).
    + exists [7%N], []. split; [reflexivity|]. split; [now apply (P_utf8 ["in"; "z.gz"]%string)|]. split; [reflexivity|]. left. split; [|reflexivity].
      exists (P ["in"%string]), (text "z"). reflexivity.
  - repeat constructor; [exact (jenc_reads [[120; 58; 32; 99; 32; 97; 98]%N])|exact (jenc_reads [[100%N]])].
  - assert (W : forall w, forallb (fun c => negb (white c)) w = true -> w <> [] -> is_word w).
    { intros w H H'. split; auto. apply Forall_forall. rewrite forallb_forall in H. intros c Hc. specialize (H c Hc). now destruct (white c). }
    repeat constructor.
    + exists [120; 58; 32; 99; 32; 97; 98]%N, [32; 99; 32; 97; 98]%N, [[99]; [97; 98]]%N. split; [reflexivity|]. split; [|split; [|reflexivity]].
      * split; [cbn; intuition discriminate|right]. exists [120]%N. reflexivity.
      * apply tok_ws; [reflexivity|]. apply (@tok_word [99]%N); [now apply W|right; eexists _, _; split; reflexivity|].
        apply tok_ws; [reflexivity|]. apply (@tok_word [97; 98]%N []); [now apply W|now left|constructor].
    + exists [100]%N, [100]%N, [[100]]%N. split; [reflexivity|]. split; [|split; [|reflexivity]].
      * split; [cbn; intuition discriminate|now left].
      * apply (@tok_word [100]%N []); [now apply W|now left|constructor].
Qed.

Lemma shards_creatable d out s : (forall i p, shard_file d out i p -> i < s -> node_at d p <> Some Dir) ->
  shard_dir d out = [] \/ node_at d (shard_dir d out) = Some Dir ->
  forall i p, i < s -> shard_file d out i p -> creatable d p.
Proof. intros H1 H2 i p Hi Hp. destruct (shard_file_dir Hp) as [n E]. exists (shard_dir d out), n. eauto. Qed.

(** The hypotheses of [C78_parse] and [C78_shards] hold here, for an output file
    and for an output directory. *)
Example C78_nonvacuous :
  utf8_ok ascii /\ disk_ok ex_disk /\ words_at ascii jdec ex_disk (P ["words"%string]) ex_ids /\
  elements_at ascii unzip1 jdec ex_disk (P ["in"%string]) ex_ids [[1; 0]; [2]] /\ ids_fit [[1; 0]; [2]] /\
  creatable ex_disk (P ["out.bin"%string]) /\
  (forall i p, i < 2 -> shard_file ex_disk (P ["out.bin"%string]) i p -> creatable ex_disk p) /\
  (forall i p, i < 2 -> shard_file ex_disk (P ["out"%string]) i p -> creatable ex_disk p) /\
  (let '(d, r) := save_shards_at ascii unzip1 jdec ex_disk (P ["in"%string]) (P ["words"%string]) (P ["out.bin"%string]) 2 true in
   r = Ok 2 /\ node_at d (P ["out-0.bin"%string]) <> None /\ node_at d (P ["out-1.bin"%string]) <> None /\ node_at d (P ["out.bin"%string]) = Some (File [1%N])) /\
  (let '(d, r) := save_shards_at ascii unzip1 jdec ex_disk (P ["in"%string]) (P ["words"%string]) (P ["out"%string]) 2 true in
   r = Ok 2 /\ node_at d (P ["out"; "elements-0.bin"]%string) <> None /\ node_at d (P ["out"; "elements-1.bin"]%string) <> None).
Proof.
  split; [exact ascii_ok|]. split; [exact ex_disk_ok|]. split; [exact ex_words_at|]. split; [exact ex_elements_at|].
  split; [split; [repeat constructor|cbn; lia]|].
  split; [exists [], (text "out.bin"); repeat split; [now left|discriminate]|].
  assert (D : forall q, node_at ex_disk q = Some Dir -> length q = 1 /\ (q = P ["in"%string] \/ q = P ["out"%string])).
  { intros q. cbn [ex_disk node_at]. repeat (destruct (path_eqb _ q) eqn:E; [apply path_eqb_eq in E; subst q|]; clear E || idtac); try discriminate; auto. }
  split; [|split; [|split]].
  - apply shards_creatable; [|now left]. intros i p Hp _ Hd. apply D in Hd as [_ Hd]. destruct Hp as [ds H _|dir stem ext ds _ E Hs He Hn|dir n ds _ E Hx Hn].
    + discriminate.
    + change (P ["out.bin"%string]) with ([] ++ [Name (text "out" ++ text "." ++ text "bin")]) in E. apply app_inj_tail in E as [<- E]. injection E as E.
      assert (stem = text "out" /\ ext = text "bin") as [-> ->].
      { assert (E1 : rsplit_dot (stem ++ 46%N :: ext) = Some (stem, ext)) by (now apply rsplit_some).
        change (text "." ++ ext) with (46%N :: ext) in E. rewrite <- E in E1. vm_compute in E1. injection E1 as <- <-. auto. }
      destruct Hd as [Hd|Hd]; vm_compute in Hd; discriminate.
    + change (P ["out.bin"%string]) with ([] ++ [Name (text "out.bin")]) in E. apply app_inj_tail in E as [<- E]. injection E as <-.
      exfalso. apply Hx. cbn. auto 10.
  - apply shards_creatable; [|now right]. intros i p Hp _ Hd. apply D in Hd as [Hd _]. destruct (shard_file_dir Hp) as [n ->]. discriminate.
  - vm_compute. repeat split; discriminate.
  - vm_compute. repeat split; discriminate.
Qed.

(** Numbered parts are not read in the order of their numbers: the elements of
    part 10 come before those of part 2. *)
Theorem C78_numeric_order_refuted :
  exists d ep wp out d' b, disk_ok d /\
    (forall n, (exists x, node_at d (ep ++ [Name n]) = Some x) <-> exists k, (k = 2 \/ k = 10) /\ numeral k n) /\
    node_at d (ep ++ [Name (text "2")]) = Some (file_of [[97; 98]]%N) /\ node_at d (ep ++ [Name (text "10")]) = Some (file_of [[99]]%N) /\
    save_at ascii unzip1 jdec d ep wp out = (d', Ok 2) /\ node_at d' out = Some (File b) /\ files_hold [b] [[1]; [0]] /\
    ex_ids [97; 98]%N = Some 0 /\ ex_ids [99]%N = Some 1.
Proof.
  exists [(P ["in"%string], Dir); (P ["words"%string], file_of ex_words); (P ["in"; "2"]%string, file_of [[97; 98]%N]); (P ["in"; "10"]%string, file_of [[99%N]])],
    (P ["in"%string]), (P ["words"%string]), (P ["o"%string]).
  set (d := _ :: _). exists (fst (save_at ascii unzip1 jdec d (P ["in"%string]) (P ["words"%string]) (P ["o"%string]))), (fst (els_write (vw_of [[1%N]; [0%N]]))). split; [unfold disk_ok; cbv; repeat constructor; cbn; intuition congruence|].
  split.
  { assert (N2 : numeral 2 (text "2")) by exact (digits_numeral 2). assert (N10 : numeral 10 (text "10")) by exact (digits_numeral 10).
    intros n. split.
    - intros H. apply children_in in H. vm_compute in H. destruct H as [<-|[<-|[]]]; [exists 2|exists 10]; auto.
    - intros (k & [->| ->] & Hn).
      + rewrite (numeral_fun Hn N2). eexists. reflexivity.
      + rewrite (numeral_fun Hn N10). eexists. reflexivity. }
  split; [reflexivity|]. split; [reflexivity|].
  split; [vm_compute; reflexivity|]. split; [vm_compute; reflexivity|]. split; [|split; reflexivity].
  exists [[[1]; [0]]]. split; [reflexivity|]. constructor; [|constructor].
  destruct (@part_loads [[1]; [0]]) as (v & H1 & H2); [split; [repeat constructor|cbn; lia]|unfold fits64; cbn; lia|].
  exists v. split; [|exact H2]. vm_compute in H1. vm_compute. exact H1.
Qed.
Print Assumptions C78_numeric_order_refuted.

(** Different output paths may give the same shard files: "x" and "x.bin". *)
Theorem C78_outputs_apart_refuted :
  exists d out out', out <> out' /\ forall i p, shard_file d out i p -> shard_file d out' i p.
Proof.
  exists [], (P ["x"%string]), (P ["x.bin"%string]). split; [discriminate|]. intros i p Hp.
  destruct Hp as [ds H _|dir stem ext ds _ E Hs He Hn|dir n ds _ E Hx Hn]; [discriminate| |].
  - change (P ["x"%string]) with ([] ++ [Name (text "x")]) in E. apply app_inj_tail in E as [<- E]. injection E as E.
    destruct stem as [|c [|c2 stem]]; [congruence| |]; cbn in E; discriminate.
  - change (P ["x"%string]) with ([] ++ [Name (text "x")]) in E. apply app_inj_tail in E as [<- E]. injection E as <-.
    apply (@with_extension [] (P ["x.bin"%string]) i [] (text "x") (text "bin") ds); auto; try discriminate. cbn. intuition discriminate.
Qed.
Print Assumptions C78_outputs_apart_refuted.

(** Writing the output into the input directory: the first call succeeds, and the
    next one reads the output as an element file and panics. *)
Theorem C78_rerun_refuted :
  exists d ep wp out d' n, disk_ok d /\ creatable d out /\
    save_at ascii unzip1 jdec d ep wp out = (d', Ok n) /\ save_at ascii unzip1 jdec d' ep wp out = (d', Fail Panicked).
Proof.
  exists ex_disk, (P ["in"%string]), (P ["words"%string]), (P ["in"; "elements.bin"]%string),
    (fst (save_at ascii unzip1 jdec ex_disk (P ["in"%string]) (P ["words"%string]) (P ["in"; "elements.bin"]%string))), 2.
  split; [exact ex_disk_ok|]. split; [exists (P ["in"%string]), (text "elements.bin"); split; [reflexivity|split; [now right|discriminate]]|].
  split; vm_compute; reflexivity.
Qed.
Print Assumptions C78_rerun_refuted.

(** ** C79: [compute_embeddings_and_save_to_disk] maps its inputs into memory *)
Section C79.
  Context {F : Type} (fr : repr F) (fadd : F -> F -> F) (fzero : F) (conv : mode -> list F -> outcome (list Z)).
  Local Notation compute := (compute_at fr fadd fzero conv).

  Lemma export_loop m d ep wp eb wb c : intact d ep eb = true -> intact d wp wb = true ->
    forall l acc, match omapM (export_chunk fadd fzero conv m c) l with
      | Ok bs => export_at fadd fzero conv m d ep wp eb wb c l acc = (acc ++ concat bs, Finished (Ok tt))
      | Fail x => exists b, export_at fadd fzero conv m d ep wp eb wb c l acc = (b, Finished (Fail x))
      end.
  Proof.
    intros He Hw. induction l as [|i l IH]; intros acc; cbn [omapM export_at].
    - cbn [concat]. now rewrite app_nil_r.
    - rewrite He, Hw, !orb_true_r. destruct (export_chunk fadd fzero conv m c i) as [b|x]; cbn [obind]; [|eauto].
      specialize (IH (acc ++ b)). destruct (omapM _ l) as [bs|x]; cbn [obind]; [|exact IH]. cbn [concat]. now rewrite app_assoc.
  Qed.

  (** When the output is another file than the inputs: it holds the exported
      vectors (see C56), or the call panics because the export does; no other file
      changes. *)
  Theorem C79_export :
    forall m d ep wp out eb wb els embs,
      node_at d ep = Some (File eb) -> node_at d wp = Some (File wb) -> eb <> [] -> wb <> [] ->
      els_from_bytes eb = Ok els -> fw_from_bytes fr wb = Ok embs ->
      creatable d out -> out <> ep -> out <> wp ->
      exists d' b, node_at d' out = Some (File b) /\ same_but [out] d d' /\
        match export fadd fzero conv m (mkSumEmb embs els) with
        | Ok bytes => compute m d ep wp out = (d', Finished (Ok tt)) /\ b = bytes
        | Fail x => compute m d ep wp out = (d', Finished (Fail x))
        end.
  Proof.
    intros m d ep wp out eb wb els embs He Hw Hen Hwn Hel Hem Hc H1 H2.
    assert (Hm : forall p b, node_at d p = Some (File b) -> b <> [] -> map_file d p = Ok b).
    { intros p b H H'. unfold map_file, read_file. rewrite H. cbn [or_panic obind]. destruct b; [congruence|reflexivity]. }
    unfold compute_at. rewrite (Hm wp wb), (Hm ep eb) by auto. cbn [obind]. rewrite Hem. cbn [obind]. rewrite Hel. cbn [obind].
    rewrite (create_ok Hc). cbn [or_panic]. set (d1 := put d out (File [])). set (c := mkSumEmb embs els).
    assert (Hi : forall p b, node_at d p = Some (File b) -> out <> p -> intact d1 p b = true).
    { intros p b H H'. unfold intact, d1. rewrite node_put_other by congruence. rewrite H. now destruct (list_eq_dec N.eq_dec b b). }
    pose proof (@export_loop m d1 ep wp eb wb c (Hi ep eb He H1) (Hi wp wb Hw H2) (seq 0 NUM_CHUNKS) []) as L.
    unfold export. destruct (omapM (export_chunk fadd fzero conv m c) (seq 0 NUM_CHUNKS)) as [bs|x]; cbn [obind].
    - rewrite L. eexists _, _. split; [apply node_put_same|]. split; [|split; reflexivity].
      intros q Hq. unfold d1. rewrite !node_put_other; auto; intros ->; apply Hq; now left.
    - destruct L as [b ->]. eexists _, _. split; [apply node_put_same|]. split; [|reflexivity].
      intros q Hq. unfold d1. rewrite !node_put_other; auto; intros ->; apply Hq; now left.
  Qed.

  (** When the output is the elements file (with at least one element), or the
      embeddings file (and the first element has words): the input is emptied
      before it has been used, and then read through the mapping.  So the input is
      lost and nothing is exported. *)
  Theorem C79_output_is_input_refuted :
    forall m d ep wp out eb wb els embs,
      node_at d ep = Some (File eb) -> node_at d wp = Some (File wb) -> eb <> [] -> wb <> [] ->
      els_from_bytes eb = Ok els -> fw_from_bytes fr wb = Ok embs -> creatable d out ->
      (out = ep /\ 0 < vw_len els) \/ (out = wp /\ exists w ws, vw_get els 0 = Ok (w :: ws)) ->
      exists d', compute m d ep wp out = (d', Damaged) /\ node_at d' out = Some (File []).
  Proof.
    intros m d ep wp out eb wb els embs He Hw Hen Hwn Hel Hem Hc Ho.
    assert (Hm : forall p b, node_at d p = Some (File b) -> b <> [] -> map_file d p = Ok b).
    { intros p b H H'. unfold map_file, read_file. rewrite H. cbn [or_panic obind]. destruct b; [congruence|reflexivity]. }
    unfold compute_at. rewrite (Hm wp wb), (Hm ep eb) by auto. cbn [obind]. rewrite Hem. cbn [obind]. rewrite Hel. cbn [obind].
    rewrite (create_ok Hc). cbn [or_panic]. set (d1 := put d out (File [])). set (c := mkSumEmb embs els).
    assert (Hi : forall b, b <> [] -> intact d1 out b = false).
    { intros b H. unfold intact, d1. rewrite node_put_same. destruct b; [congruence|reflexivity]. }
    assert (Hids : 0 < vw_len els -> exists l, chunk_ids c 0 = 0 :: l).
    { intros H. unfold chunk_ids. change (se_len c) with (vw_len els). unfold NUM_CHUNKS. set (n := vw_len els) in *. rewrite Nat.mul_0_l, Nat.add_0_l, Nat.mul_1_l, Nat.sub_0_r.
      assert (1 <= (n + 100 - 1) / 100) by (apply Nat.div_le_lower_bound; lia).
      destruct (Nat.min ((n + 100 - 1) / 100) n) as [|k] eqn:E; [lia|]. cbn [seq]. eauto. }
    assert (Hx : export_at fadd fzero conv m d1 ep wp eb wb c (seq 0 NUM_CHUNKS) [] = ([], Damaged)).
    { change (seq 0 NUM_CHUNKS) with (0 :: seq 1 99). cbn [export_at]. destruct Ho as [[-> Hn]|[-> (w & ws & Hg)]].
      - destruct (Hids Hn) as [l ->]. rewrite (Hi eb) by auto. reflexivity.
      - assert (Hn : 0 < vw_len els).
        { unfold vw_len. unfold vw_get, index in Hg. destruct (voffs els) as [|a [|b l]]; cbn in Hg; try discriminate. cbn [List.length]. lia. }
        destruct (Hids Hn) as [l ->]. assert (Hh : existsb (has_words c) (0 :: l) = true) by (cbn [existsb]; unfold has_words at 1; cbn [se_els c]; now rewrite Hg).
        rewrite Hh, (Hi wb) by auto. destruct (_ || _); reflexivity. }
    rewrite Hx. eexists. split; [reflexivity|apply node_put_same].
  Qed.
End C79.
Print Assumptions C79_export.
Print Assumptions C79_output_is_input_refuted.

(** One embedding of width 2, the elements [0] and []; exported to another file,
    and over each input. *)
Definition ex79 : disk :=
  [ (P ["words.bin"%string], File (fst (fw_write i8r (mkFw [3; -4]%Z 2))));
    (P ["els.bin"%string], File (fst (els_write (vw_of [[0%N]; []])))) ].
Example C79_nonvacuous :
  exists eb wb els embs,
    node_at ex79 (P ["els.bin"%string]) = Some (File eb) /\ node_at ex79 (P ["words.bin"%string]) = Some (File wb) /\
    els_from_bytes eb = Ok els /\ fw_from_bytes i8r wb = Ok embs /\ 0 < vw_len els /\ (exists w ws, vw_get els 0 = Ok (w :: ws)) /\
    creatable ex79 (P ["o"%string]) /\ creatable ex79 (P ["els.bin"%string]) /\
    snd (compute_at i8r Z.add 0%Z (fun _ v => Ok v) Release ex79 (P ["els.bin"%string]) (P ["words.bin"%string]) (P ["o"%string])) = Finished (Ok tt).
Proof.
  eexists _, _, _, _. split; [reflexivity|]. split; [reflexivity|]. split; [vm_compute; reflexivity|]. split; [vm_compute; reflexivity|].
  split; [vm_compute; lia|]. split; [eexists _, _; vm_compute; reflexivity|].
  split; [exists [], (text "o"); repeat split; [now left|vm_compute; discriminate]|].
  split; [exists [], (text "els.bin"); repeat split; [now left|vm_compute; discriminate]|]. vm_compute. reflexivity.
Qed.
