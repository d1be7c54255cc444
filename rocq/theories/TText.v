(** * Theorems C80: texts in files are UTF-8 and JSON strings, read exactly *)
From Coq Require Import String Zify ZifyBool ZifyN.
From Verif Require Import Base BaseFacts Bytes PBytes MSliceVec SSliceVec PFixed PVar MSearch MBuild MEmbed SEmbed PEmbed PEmbed2 MParse SParse PParse PParse2 PParse3 TParse MFiles SFiles PFiles PFiles2 TFiles MText SText PText PText2 PText3.
Local Notation length := List.length.

(** ** UTF-8: bytes are accepted exactly if they are the UTF-8 form of a text, and
    that text is the result.  Every text has exactly one form, and it is the one
    written.  *)
Theorem C80_utf8 :
  (forall b w, utf8_dec b = Some w <-> utf8_bytes w b) /\
  (forall w, is_text w -> utf8_bytes w (utf8_enc w)) /\
  (forall w a b, utf8_bytes w a -> utf8_bytes w b -> a = b).
Proof. split; [exact utf8_dec_exact|]. split; [exact utf8_enc_bytes|exact utf8_bytes_fun]. Qed.
Print Assumptions C80_utf8.

(** Decoding line by line (as [lines] does) or the whole file at once gives the
    same lines, and fails for the same files. *)
Theorem C80_lines_are_decoded_one_by_one :
  forall b ls, reads_as b ls ->
    match utf8_dec b with
    | Some t => exists ts, Forall2 (fun l x => utf8_dec l = Some x) ls ts /\ reads_as t ts
    | None => Exists (fun l => utf8_dec l = None) ls
    end.
Proof.
  intros b ls H. destruct (utf8_dec b) as [t|] eqn:E; [now apply (byte_lines_ok b)|now apply (byte_lines_bad b)].
Qed.
Print Assumptions C80_lines_are_decoded_one_by_one.

(** ** JSON: a line is accepted exactly if it is a JSON string, whose value is the
    result; the line written for a text is one of its JSON strings and has no line
    end in it. *)
Theorem C80_json :
  (forall s w, serde_dec s = Some w <-> json_string s w) /\
  (forall w, json_string (serde_enc w) w /\ is_line (serde_enc w)) /\
  (forall s v w, json_string s v -> json_string s w -> v = w).
Proof.
  split; [exact serde_dec_exact|]. split; [intros w; split; [apply serde_enc_string|apply serde_enc_line]|].
  intros s v w Hv Hw. apply serde_dec_exact in Hv, Hw. congruence.
Qed.
Print Assumptions C80_json.

(** ** What a dictionary writes, as bytes, is read back as the same words *)
Lemma text_esc c : scalar c -> is_text (json_esc c).
Proof.
  intros H. assert (L : forall n, (n < 16)%N -> (hex_digit n < 128)%N) by (intros n Hn; unfold hex_digit; destruct (n <? 10)%N eqn:?; lia).
  unfold json_esc, is_text, scalar in *. pose proof (N.mod_lt c 16 ltac:(lia)).
  repeat match goal with |- context [if ?b then _ else _] => destruct b eqn:? end; repeat apply Forall_cons; try apply Forall_nil; try lia.
  - assert (c / 16 < 16)%N by (apply N.div_lt_upper_bound; lia). pose proof (L (c / 16)%N). lia.
  - pose proof (L (c mod 16)%N). lia.
Qed.
Lemma text_app a b : is_text a -> is_text b -> is_text (a ++ b).
Proof. intros Ha Hb. apply Forall_app. auto. Qed.
Lemma text_enc w : is_text w -> is_text (serde_enc w).
Proof.
  intros H. unfold serde_enc. constructor; [left; lia|]. apply text_app; [|repeat constructor; left; lia].
  induction H as [|c w Hc _ IH]; [constructor|]. cbn [flat_map]. apply text_app; auto. now apply text_esc.
Qed.
Lemma first_occ_text ws : forall acc, Forall is_text acc -> Forall is_text ws -> Forall is_text (first_occurrences acc ws).
Proof.
  induction ws as [|w ws IH]; intros acc Ha Hw; [exact Ha|]. inversion Hw; subst. cbn [first_occurrences].
  destruct (in_dec (list_eq_dec N.eq_dec) w acc); apply IH; auto. apply Forall_app. auto.
Qed.
Theorem C80_dictionary_bytes :
  forall ws, Forall is_text ws ->
    let '(d, _) := dict_pushes dict_default ws in
    exists bytes t d', utf8_bytes (dict_write serde_enc d) bytes /\ utf8_dec bytes = Some t /\
      dict_new serde_dec t = Ok d' /\ dict_behaves (first_occurrences [] ws) d'.
Proof.
  intros ws Hws. pose proof (C57_write_and_load serde_dec serde_enc ws serde_ok) as H.
  destruct (@pushes_of ws [] (NoDup_nil _)) as (bs & E & _). change (dict_of []) with dict_default in E. rewrite E in *.
  destruct H as (d' & Hd & Hb).
  assert (Ht : is_text (dict_write serde_enc (dict_of (first_occurrences [] ws)))).
  { unfold dict_write. cbn [d_id_to_word dict_of]. pose proof (first_occ_text ws [] ltac:(constructor) Hws) as Hf. clear -Hf.
    induction Hf as [|w l Hw _ IH]; [constructor|]. cbn [map concat]. apply text_app; [|exact IH]. apply text_app; [now apply text_enc|].
    repeat constructor. }
  exists (utf8_enc (dict_write serde_enc (dict_of (first_occurrences [] ws)))), (dict_write serde_enc (dict_of (first_occurrences [] ws))), d'.
  split; [now apply utf8_enc_bytes|]. split; [now apply utf8_dec_enc|]. auto.
Qed.
Print Assumptions C80_dictionary_bytes.

(** ** Parsing files: C78 with the decoding done *)
Theorem C80_parse :
  forall gunzip d ep wp out ids els, disk_ok d ->
    json_words_at d wp ids -> json_elements_at gunzip d ep ids els -> ids_fit els -> fits64 (length els) -> creatable d out ->
    exists d' b, save_at utf8_dec gunzip serde_dec d ep wp out = (d', Ok (length els)) /\
      node_at d' out = Some (File b) /\ files_hold [b] els /\ same_but [out] d d'.
Proof.
  intros gunzip d ep wp out ids els Hd Hw He Hf H64 Hc. apply (C78_parse utf8_dec gunzip serde_dec d ep wp out ids els); auto.
  - now apply words_at_iff.
  - now apply elements_at_iff.
Qed.
Print Assumptions C80_parse.

(** A line that is no JSON string (an empty line, a word without quotation marks,
    a byte order mark in front, a lone surrogate), in the word file or in an
    element file, makes the call panic; nothing is written. *)
Theorem C80_bad_line :
  forall gunzip d ep wp out,
    (exists b t ls l, node_at d wp = Some (File b) /\ utf8_bytes t b /\ reads_as t ls /\ In l ls /\ forall w, ~ json_string l w) \/
    (exists p t ls l, utf8_part gunzip d p t /\ reads_as t ls /\ In l ls /\ (forall w, ~ json_string l w) /\
       ((node_at d ep = Some Dir /\ exists n, p = ep ++ [Name n]) \/ (node_at d ep <> Some Dir /\ p = ep))) ->
    save_at utf8_dec gunzip serde_dec d ep wp out = (d, Fail Panicked).
Proof.
  intros gunzip d ep wp out H. unfold save_at.
  assert (Hno : forall l, (forall w, ~ json_string l w) -> serde_dec l = None).
  { intros l Hl. destruct (serde_dec l) as [w|] eqn:E; [|reflexivity]. exfalso. apply (Hl w). now apply serde_dec_exact. }
  assert (E : (let* word_ids := parse_words_at utf8_dec serde_dec d wp in parse_elements_at utf8_dec gunzip serde_dec d ep word_ids) = Fail Panicked); [|now rewrite E].
  destruct H as [(b & t & ls & l & Hn & Hu & Hr & Hi & Hl)|(p & t & ls & l & Hp & Hr & Hi & Hl & Hep)].
  - rewrite (words_bad_line _ _ _ _ _ _ _ Hn (spec_dec _ _ Hu) Hr); [reflexivity|]. apply Exists_exists. exists l. auto.
  - destruct (op_words utf8_dec serde_dec d wp) as [[wm ->]| ->]; [|reflexivity]. cbn [obind]. unfold parse_elements_at.
    assert (Hx : exists x, node_at d p = Some x) by (destruct Hp as (b & _ & Hb & _); eauto).
    apply part_iff in Hp. rewrite PVar.omapM_fail; [reflexivity| |].
    + intros q _. destruct (op_part utf8_dec gunzip serde_dec d wm q) as [?|?]; auto.
    + exists p. split.
      * unfold parts. destruct Hep as [(Hd & n & ->)|(Hd & ->)].
        -- rewrite (proj2 (is_dir_iff d ep) Hd). apply in_map_iff. exists n. split; auto. now apply sort_names_in, children_in.
        -- rewrite (is_dir_not Hd). now left.
      * eapply part_bad_line; eauto. apply Exists_exists. exists l. auto.
Qed.
Print Assumptions C80_bad_line.

(** Such lines: without a quotation mark, or with a byte order mark in front. *)
Theorem C80_unquoted_lines :
  (forall l, ~ In 34%N l -> forall w, ~ json_string l w) /\ (forall l w, ~ json_string (0xFEFF%N :: l) w).
Proof.
  split.
  - intros l H w (a & r & parts & _ & _ & _ & ->). apply H. apply in_or_app. right. now left.
  - intros l w H. apply serde_dec_exact in H. discriminate.
Qed.
Print Assumptions C80_unquoted_lines.

(** ** Examples *)
(** the bytes of "naïve 𝄞" *)
Example C80_utf8_example :
  utf8_bytes [110; 97; 239; 118; 101; 32; 119070]%N [110; 97; 195; 175; 118; 101; 32; 240; 157; 132; 158]%N.
Proof. apply utf8_dec_exact. vm_compute. reflexivity. Qed.
(** overlong forms, surrogates, values above 10FFFF, and cut sequences are refused *)
Example C80_utf8_refused :
  forall b, In b [[192; 128]; [237; 160; 128]; [244; 144; 128; 128]; [226; 130]; [128]; [255]]%N -> forall w, ~ utf8_bytes w b.
Proof. intros b H w Hw. apply utf8_dec_exact in Hw. cbn [In] in H. repeat (destruct H as [<-|H]; [vm_compute in Hw; discriminate|]). destruct H. Qed.
(** json.dumps writes the clef as a surrogate pair; serde_json writes it as it is *)
Example C80_json_example :
  let escaped := text """\ud834\udd1e \u00ef\n""" in
  json_string (text "  " ++ escaped) [119070; 32; 239; 10]%N /\
  serde_enc [119070; 32; 239; 10; 1; 34]%N = [34; 119070; 32; 239]%N ++ text "\n\u0001\""""".
Proof. split; [apply serde_dec_exact|]; vm_compute; reflexivity. Qed.
(** a lone surrogate, a raw tab, an unknown escape, and text after the string are refused *)
Example C80_json_refused :
  forall s, In s [text """\ud834"""; text """\udd1e"""; [34; 9; 34]%N; text """\x41"""; text """a"" b"; text "word"; text ""; text """a"] ->
    forall w, ~ json_string s w.
Proof. intros s H w Hw. apply serde_dec_exact in Hw. cbn [In] in H. repeat (destruct H as [<-|H]; [vm_compute in Hw; discriminate|]). destruct H. Qed.
