(** * Further proofs about parsing: word files, bad input *)
From Verif Require Import Base BaseFacts Bytes PBytes MSliceVec SSliceVec PFixed PVar MSearch MBuild MEmbed SEmbed PEmbed PEmbed2 MParse SParse PParse.
Set Implicit Arguments. Unset Strict Implicit.

(** a result, or a panic *)
Definition op {A} (o : outcome A) : Prop := (exists x, o = Ok x) \/ o = Fail Panicked.
Lemma op_ok {A} (x : A) : op (Ok x). Proof. left. eauto. Qed.
Lemma op_bind {A B} (o : outcome A) (f : A -> outcome B) : op o -> (forall x, op (f x)) -> op (obind o f).
Proof. intros [[x ->]| ->] H; cbn [obind]; [apply H|now right]. Qed.
Lemma op_map {A B} (f : A -> outcome B) l : (forall x, op (f x)) -> op (omapM f l).
Proof.
  intros H. induction l as [|x l IH]; [apply op_ok|]. cbn [omapM]. apply op_bind; auto. intros y. apply op_bind; auto. intros. apply op_ok.
Qed.
Lemma op_fold {A S} (f : S -> A -> outcome S) l : (forall s x, op (f s x)) -> forall s, op (ofold f l s).
Proof. intros H. induction l as [|x l IH]; intros s; [apply op_ok|]. cbn [ofold]. apply op_bind; auto. Qed.
Lemma op_unwrap {A} (o : option A) : op (ounwrap o).
Proof. destruct o; [apply op_ok|now right]. Qed.
Lemma op_assert b : op (oassert b).
Proof. destruct b; [apply op_ok|now right]. Qed.

Lemma op_odd n v : op (odd_from n v).
Proof. unfold odd_from. destruct (_ <? _)%N; [apply op_ok|now right]. Qed.
Lemma op_id n : op (id_from n).
Proof. unfold id_from. apply op_bind; [apply op_odd|]. intros. apply op_ok. Qed.
Lemma op_off sz n : op (off_from sz n).
Proof. unfold off_from. destruct (_ <? _)%N; [apply op_ok|now right]. Qed.
Lemma op_push v x : op (els_push v x).
Proof. unfold els_push, vw_push. apply op_bind; [apply op_off|]. intros. apply op_ok. Qed.

Lemma fold_bad {A S} (f : S -> A -> outcome S) l x : (forall s x, op (f s x)) -> In x l -> (forall s, f s x = Fail Panicked) ->
  forall s, ofold f l s = Fail Panicked.
Proof.
  intros Ho Hin Hx. induction l as [|y l IH]; [destruct Hin|]. intros s. cbn [ofold]. destruct Hin as [->|Hin].
  - now rewrite Hx.
  - destruct (Ho s y) as [[s' ->]| ->]; cbn [obind]; auto.
Qed.

Section J.
  Context (dec : str -> option str).
  Lemma op_line wm l : op (parse_line dec wm l).
  Proof. unfold parse_line. apply op_bind; [apply op_unwrap|]. intros. apply op_map. apply op_id. Qed.
  Lemma op_file f wm : op (parse_file dec f wm).
  Proof. unfold parse_file. apply op_fold. intros. apply op_bind; [apply op_line|]. intros. apply op_push. Qed.

  Lemma parse_file_bad wm ls l : Forall is_line ls -> In l ls -> parse_line dec wm l = Fail Panicked ->
    parse_file dec (text_file ls) wm = Fail Panicked.
  Proof.
    intros Hl Hin Hb. unfold parse_file. rewrite lines_file by auto. apply fold_bad with (x := l); auto.
    - intros. apply op_bind; [apply op_line|]. intros. apply op_push.
    - intros s. now rewrite Hb.
  Qed.
  Lemma parse_elements_bad wm files ls l : Forall (Forall is_line) files -> In ls files -> In l ls ->
    parse_line dec wm l = Fail Panicked -> parse_elements dec (map text_file files) wm = Fail Panicked.
  Proof.
    intros Hl Hls Hin Hb. unfold parse_elements. rewrite omapM_fail; [reflexivity| |].
    - intros f _. destruct (op_file f wm) as [?|?]; auto.
    - exists (text_file ls). split; [now apply in_map|]. eapply parse_file_bad; eauto.
      rewrite Forall_forall in Hl. now apply Hl.
  Qed.

  (** a line naming a word whose id does not fit *)
  Lemma parse_line_big wm l ids : line_element dec (wmap_get wm) l ids ->
    Exists (fun i => (2 ^ 24 <= N.of_nat i)%N) ids -> parse_line dec wm l = Fail Panicked.
  Proof.
    intros Hl He. rewrite (parse_line_of Hl). apply omapM_fail.
    - intros i _. destruct (op_id i) as [?|?]; auto.
    - apply Exists_exists in He as (i & Hi & Hb). exists i. split; auto. apply id_from_bad. unfold id_ok. lia.
  Qed.

  Lemma json_lines_ok wl ws : Forall is_line wl -> Forall2 (fun l w => dec l = Some w) wl ws -> json_lines dec (text_file wl) = Ok ws.
  Proof.
    intros Hl H. unfold json_lines. rewrite lines_file by auto. clear Hl.
    induction H as [|l w wl ws Hw _ IH]; [reflexivity|]. cbn [omapM]. rewrite Hw. cbn [ounwrap obind]. now rewrite IH.
  Qed.
  Lemma json_lines_bad wl l : Forall is_line wl -> In l wl -> dec l = None -> json_lines dec (text_file wl) = Fail Panicked.
  Proof.
    intros Hl Hin Hb. unfold json_lines. rewrite lines_file by auto. apply omapM_fail.
    - intros x _. destruct (dec x); [left; eexists; reflexivity|now right].
    - exists l. split; auto. now rewrite Hb.
  Qed.
  Lemma line_element_ext f g l ids : (forall w, f w = g w) -> line_element dec f l ids -> line_element dec g l ids.
  Proof.
    intros Hfg (q & t & toks & H1 & H2 & H3 & ->). exists q, t, toks. repeat split; auto; try apply H2.
    apply flat_map_ext. intros w. now rewrite Hfg.
  Qed.
End J.
