(** * UTF-8 and JSON strings in files *)
From Coq Require Import String Zify ZifyBool ZifyN.
From Verif Require Import Base BaseFacts Bytes MSliceVec SSliceVec PFixed PVar MSearch MBuild MEmbed SEmbed PEmbed PEmbed2 MParse SParse PParse PParse2 PParse3 MFiles SFiles PFiles PFiles2 MText SText PText PText2.
Local Notation length := List.length.

Lemma spec_dec b w : utf8_bytes w b -> utf8_dec b = Some w.
Proof. apply utf8_dec_exact. Qed.

(** ** Byte lines *)
Lemma dec_enc_of b t : utf8_dec b = Some t -> b = utf8_enc t /\ is_text t.
Proof.
  intros H. apply utf8_dec_exact in H. pose proof (proj1 H) as Ht. split; [|exact Ht].
  eapply utf8_bytes_fun; [exact H|]. now apply utf8_enc_bytes.
Qed.
Lemma in_enc c t : (c < 128)%N -> In c t -> In c (utf8_enc t).
Proof.
  intros Hc H. unfold utf8_enc. apply in_flat_map. exists c. split; [exact H|]. unfold utf8_char.
  rewrite (proj2 (N.ltb_lt _ _) Hc). now left.
Qed.
Lemma dec_line b t : utf8_dec b = Some t -> is_line b -> is_line t.
Proof.
  intros H [H1 H2]. destruct (dec_enc_of _ _ H) as [E Ht]. split.
  - intros Hi. apply H1. rewrite E. now apply in_enc.
  - intros s ->. apply (H2 (utf8_enc s)). rewrite E. unfold utf8_enc. rewrite flat_map_app. reflexivity.
Qed.
Lemma dec_nil b : utf8_dec b = Some [] -> b = [].
Proof. intros H. destruct (dec_enc_of _ _ H) as [-> _]. reflexivity. Qed.
Lemma dec_no_newline b t : utf8_dec b = Some t -> ~ In 10%N b -> ~ In 10%N t.
Proof. intros H H1 Hi. apply H1. destruct (dec_enc_of _ _ H) as [-> _]. now apply in_enc. Qed.

Lemma dec_crlf l t : utf8_dec (l ++ 13%N :: 10%N :: t) =
  match utf8_dec l, utf8_dec t with Some x, Some y => Some (x ++ 13%N :: 10%N :: y) | _, _ => None end.
Proof.
  rewrite utf8_dec_app by lia. destruct (utf8_dec l); [|reflexivity].
  change (10%N :: t) with ([] ++ 10%N :: t). rewrite utf8_dec_app by lia. cbn [utf8_dec]. destruct (utf8_dec t); reflexivity.
Qed.

Lemma byte_lines_ok b ls : reads_as b ls -> forall t, utf8_dec b = Some t ->
  exists ts, Forall2 (fun l x => utf8_dec l = Some x) ls ts /\ reads_as t ts.
Proof.
  induction 1 as [|l b ls Hl _ IH|l b ls Hl _ IH|l Hn Hl]; intros t H.
  - inversion H. exists []. split; constructor.
  - rewrite utf8_dec_app in H by lia. destruct (utf8_dec l) as [x|] eqn:E; [|easy]. destruct (utf8_dec b) as [y|] eqn:Eb; [|easy].
    inversion H; subst t. destruct (IH _ eq_refl) as (ts & H1 & H2). exists (x :: ts). split; [now constructor|].
    apply line_lf; auto. eapply dec_line; eauto.
  - rewrite dec_crlf in H. destruct (utf8_dec l) as [x|] eqn:E; [|easy]. destruct (utf8_dec b) as [y|] eqn:Eb; [|easy].
    inversion H; subst t. destruct (IH _ eq_refl) as (ts & H1 & H2). exists (x :: ts). split; [now constructor|].
    apply line_crlf; auto. eapply dec_no_newline; eauto.
  - exists [t]. split; [now constructor|]. apply last_line.
    + intros ->. now apply dec_nil in H.
    + eapply dec_no_newline; eauto.
Qed.
Lemma byte_lines_bad b ls : reads_as b ls -> utf8_dec b = None -> Exists (fun l => utf8_dec l = None) ls.
Proof.
  induction 1 as [|l b ls Hl _ IH|l b ls Hl _ IH|l Hn Hl]; intros H.
  - discriminate.
  - rewrite utf8_dec_app in H by lia. destruct (utf8_dec l) as [x|] eqn:E; [|now left].
    destruct (utf8_dec b) as [y|]; [easy|]. right. auto.
  - rewrite dec_crlf in H. destruct (utf8_dec l) as [x|] eqn:E; [|now left].
    destruct (utf8_dec b) as [y|]; [easy|]. right. auto.
  - now left.
Qed.

(** ** The predicates of SFiles *)
Lemma F2_impl {A B} (P Q : A -> B -> Prop) a b : (forall x y, P x y -> Q x y) -> Forall2 P a b -> Forall2 Q a b.
Proof. intros H. induction 1; constructor; auto. Qed.
Lemma words_at_iff d p ids : words_at utf8_dec serde_dec d p ids <-> json_words_at d p ids.
Proof.
  unfold words_at, json_words_at. split; intros (b & t & wl & ws & H1 & H2 & H3 & H4 & H5); exists b, t, wl, ws;
    (split; [exact H1|]; split; [now apply utf8_dec_exact|]; split; [exact H3|]; split; [|exact H5]);
    refine (F2_impl _ _ _ _ _ H4); intros x y K; now apply serde_dec_exact.
Qed.
Lemma element_iff ids l e : line_element serde_dec ids l e <-> json_element ids l e.
Proof.
  split; intros (q & t & toks & H1 & H); exists q, t, toks; split; auto; now apply serde_dec_exact.
Qed.
Lemma part_iff gunzip d p t : part_text utf8_dec gunzip d p t <-> utf8_part gunzip d p t.
Proof.
  unfold part_text, utf8_part, utf8_path, is_utf8.
  split; intros (b & u & H1 & H2 & H3 & H4); exists b, u; (split; [exact H1|]); (split; [|split; [now apply utf8_dec_exact|exact H4]]);
    intros n Hn; destruct (H2 n Hn) as [x Hx]; exists x; now apply utf8_dec_exact.
Qed.
Lemma elements_at_iff gunzip d p ids els : elements_at utf8_dec gunzip serde_dec d p ids els <-> json_elements_at gunzip d p ids els.
Proof.
  unfold elements_at, json_elements_at, element_texts.
  split; intros (ts & files & parts & H1 & H2 & H3 & H4); exists ts, files, parts;
    (split; [|split; [exact H2|split; [|exact H4]]]).
  1, 3: destruct H1 as [(Hd & names & Hl & Hp)|(Hd & t & Hp & E)];
    [left; split; auto; exists names; split; auto; refine (F2_impl _ _ _ _ _ Hp); intros x y K; now apply part_iff
    |right; split; auto; exists t; split; auto; now apply part_iff].
  1, 2: refine (F2_impl _ _ _ _ _ H3); intros f pt Hf; refine (F2_impl _ _ _ _ _ Hf); intros x y K; now apply element_iff.
Qed.

(** ** Lines that are no JSON strings *)
Lemma words_bad_line utf8 dec d p b t ls : node_at d p = Some (File b) -> utf8 b = Some t -> reads_as t ls ->
  Exists (fun l => dec l = None) ls -> parse_words_at utf8 dec d p = Fail Panicked.
Proof.
  intros Hn Hu Hr He. unfold parse_words_at, read_file. rewrite Hn. cbn [or_panic obind]. rewrite Hu. cbn [ounwrap obind].
  unfold parse_words, json_lines. rewrite (lines_reads Hr). rewrite omapM_fail; [reflexivity| |].
  - intros x _. destruct (dec x); cbn [ounwrap]; eauto.
  - apply Exists_exists in He. destruct He as (l & Hi & Hl). exists l. split; auto. now rewrite Hl.
Qed.
Lemma part_bad_line utf8 gunzip dec d p wm t ls : part_text utf8 gunzip d p t -> reads_as t ls ->
  Exists (fun l => dec l = None) ls -> parse_part utf8 gunzip dec d wm p = Fail Panicked.
Proof.
  intros (b & u & Hb & Hp & Hu & Hz) Hr He.
  assert (E : parse_file dec t wm = Fail Panicked).
  { unfold parse_file. rewrite (lines_reads Hr). apply Exists_exists in He. destruct He as (l & Hi & Hl). apply fold_bad with (x := l); auto.
    - intros. apply op_bind; [apply op_line|]. intros. apply op_push.
    - intros s. unfold parse_line. now rewrite Hl. }
  unfold parse_part, read_file. rewrite Hb. cbn [or_panic obind].
  replace (path_valid utf8 p) with true by (symmetry; now apply path_valid_iff). cbn [oassert obind].
  destruct Hz as [[(q & s & ->) Hz]|[Hz ->]].
  - rewrite file_name_app, (proj2 (ends_gz_iff (s ++ text ".gz"))) by eauto. rewrite Hz. cbn [ounwrap obind]. rewrite Hu. exact E.
  - assert (G : (match file_name p with Some n => if ends_gz n then ounwrap (gunzip b) else Ok b | None => Ok b end) = Ok b).
    { destruct (file_name p) as [n|] eqn:En; [|reflexivity]. apply file_name_some in En. destruct En as [q ->].
      destruct (ends_gz n) eqn:Eg; [|reflexivity]. apply ends_gz_iff in Eg. destruct Eg as [s ->]. exfalso. eapply Hz. reflexivity. }
    rewrite G. cbn [obind]. rewrite Hu. exact E.
Qed.
