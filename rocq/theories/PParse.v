(** * Proofs about texts, dictionaries, parsing *)
From Verif Require Import Base BaseFacts Bytes PBytes MSliceVec SSliceVec PFixed PVar MSearch MBuild SReorder MEmbed SEmbed PEmbed PEmbed2 MParse SParse.
Set Implicit Arguments. Unset Strict Implicit.

Lemma str_eqb_eq a b : str_eqb a b = true <-> a = b.
Proof. unfold str_eqb. destruct (list_eq_dec N.eq_dec a b); split; congruence. Qed.
Lemma str_eqb_refl a : str_eqb a a = true.
Proof. now apply str_eqb_eq. Qed.
Lemma str_eqb_neq a b : a <> b -> str_eqb a b = false.
Proof. intros H. destruct (str_eqb a b) eqn:E; auto. now apply str_eqb_eq in E. Qed.

(** ** split_whitespace *)
Lemma is_ws_white c : is_ws c = white c.
Proof.
  apply Bool.eq_true_iff_eq. unfold is_ws, white, white_space. cbn [existsb].
  rewrite !Bool.orb_true_iff, !Bool.andb_true_iff, !N.leb_le, !N.eqb_eq. lia.
Qed.
Lemma split_word cur w rest : Forall (fun c => white c = false) w ->
  split_ws_from cur (w ++ rest) = split_ws_from (rev w ++ cur) rest.
Proof.
  revert cur; induction w as [|c w IH]; intros cur H; [reflexivity|].
  inversion H as [|? ? Hc Hw]; subst. cbn [app split_ws_from rev]. rewrite is_ws_white, Hc. rewrite IH by auto.
  now rewrite <- app_assoc.
Qed.

Lemma tokens_split s ws : tokens s ws -> split_whitespace s = ws.
Proof.
  induction 1 as [|c t ws Hc _ IH|w rest ws [Hw1 Hw2] Hr _ IH].
  - reflexivity.
  - unfold split_whitespace in *. cbn [split_ws_from]. now rewrite is_ws_white, Hc.
  - unfold split_whitespace in *. rewrite split_word by auto. rewrite app_nil_r.
    assert (Hrw : exists x y, rev w = x :: y).
    { destruct (rev w) as [|x y] eqn:E; [|eauto]. exfalso. apply Hw1. apply (f_equal (@rev N)) in E. now rewrite rev_involutive in E. }
    destruct Hrw as (x & y & E).
    destruct Hr as [->|(c & t & -> & Hc)].
    + rewrite E. cbn [split_ws_from] in *. rewrite <- E, rev_involutive. now rewrite <- IH.
    + cbn [split_ws_from] in *. rewrite is_ws_white, Hc in *. rewrite E. rewrite <- E, rev_involutive. now rewrite IH.
Qed.

Lemma tokens_exists s : exists ws, tokens s ws.
Proof.
  assert (H : forall n s, length s <= n -> exists ws, tokens s ws).
  { clear s. induction n as [|n IH]; intros s Hn.
    - destruct s; [|cbn in Hn; lia]. exists []. constructor.
    - destruct s as [|c s]; [exists []; constructor|]. destruct (white c) eqn:Hc.
      + destruct (IH s) as [ws Hws]; [cbn in Hn; lia|]. exists ws. now constructor.
      + assert (Hsp : exists w rest, c :: s = w ++ rest /\ is_word w /\ (rest = [] \/ exists c t, rest = c :: t /\ white c = true)).
        { clear IH Hn. revert c Hc. induction s as [|c' s IHs]; intros c Hc.
          - exists [c], []. split; [reflexivity|]. split; [split; [discriminate|repeat constructor; auto]|auto].
          - destruct (white c') eqn:Hc'.
            + exists [c], (c' :: s). split; [reflexivity|]. split; [split; [discriminate|repeat constructor; auto]|eauto].
            + destruct (IHs c' Hc') as (w & rest & E & [Hw1 Hw2] & Hr). exists (c :: w), rest.
              split; [cbn; now rewrite <- E|]. split; [split; [discriminate|now constructor]|auto]. }
        destruct Hsp as (w & rest & E & Hw & Hr).
        destruct (IH rest) as [ws Hws].
        { apply (f_equal (@length N)) in E. rewrite app_length in E. cbn in *. destruct Hw as [Hw _].
          destruct w; [congruence|cbn in *; lia]. }
        exists (w :: ws). rewrite E. now constructor. }
  eapply H. reflexivity.
Qed.

(** ** last part *)
Lemma last_part_nocolon cur s : ~ In COLON s -> last_part_from cur s = rev cur ++ s.
Proof.
  revert cur; induction s as [|c s IH]; intros cur H; cbn [last_part_from].
  - now rewrite app_nil_r.
  - destruct (N.eqb_spec c COLON); [exfalso; apply H; now left|].
    rewrite IH by (intros Hin; apply H; now right). cbn [rev]. now rewrite <- app_assoc.
Qed.
Lemma last_part_app cur p t : ~ In COLON t -> last_part_from cur (p ++ COLON :: t) = t.
Proof.
  intros Ht. revert cur; induction p as [|c p IH]; intros cur; cbn [app last_part_from].
  - rewrite N.eqb_refl. now rewrite last_part_nocolon.
  - destruct (c =? COLON)%N; apply IH.
Qed.
Lemma after_last_part q t : after_last_colon q t -> last_part q = t.
Proof.
  intros [Ht [->|(p & ->)]]; unfold last_part.
  - now rewrite last_part_nocolon.
  - now apply last_part_app.
Qed.
Lemma after_last_exists q : exists t, after_last_colon q t.
Proof.
  induction q as [|c q IH].
  - exists []. split; [easy|auto].
  - destruct IH as (t & Ht & [->|(p & ->)]).
    + destruct (N.eq_dec c COLON) as [->|Hc].
      * exists q. split; auto. right. now exists [].
      * exists (c :: q). split; [|auto]. intros [H|H]; auto.
    + exists t. split; auto. right. now exists (c :: p).
Qed.

(** ** lines *)
Lemma strip_return_id l : (forall s, l <> s ++ [RETURN]) -> strip_return l = l.
Proof.
  intros H. unfold strip_return. destruct (rev l) as [|c t] eqn:E; [reflexivity|].
  destruct (N.eqb_spec c RETURN) as [->|]; [|reflexivity].
  exfalso. apply (H (rev t)). apply (f_equal (@rev N)) in E. rewrite rev_involutive in E. now rewrite E.
Qed.
Lemma lines_line cur l rest : ~ In NEWLINE l -> lines_from cur (l ++ NEWLINE :: rest) = strip_return (rev cur ++ l) :: lines_from [] rest.
Proof.
  revert cur; induction l as [|c l IH]; intros cur H; cbn [app lines_from].
  - rewrite N.eqb_refl. now rewrite app_nil_r.
  - destruct (N.eqb_spec c NEWLINE); [exfalso; apply H; now left|].
    rewrite IH by (intros Hin; apply H; now right). cbn [rev]. now rewrite <- app_assoc.
Qed.
Lemma lines_file ls : Forall is_line ls -> lines (text_file ls) = ls.
Proof.
  unfold lines, text_file. induction 1 as [|l ls [H1 H2] _ IH]; [reflexivity|].
  cbn [map concat]. rewrite <- app_assoc. cbn [app]. rewrite lines_line by auto. cbn [rev app].
  now rewrite strip_return_id, IH.
Qed.

(** ** maps *)
Lemma wmap_of_app ws w : wmap_of (ws ++ [w]) = (w, length ws) :: wmap_of ws.
Proof.
  unfold wmap_of. rewrite app_length. cbn [length]. rewrite seq_app. cbn [seq Nat.add].
  assert (E : combine (seq 0 (length ws) ++ [length ws]) (ws ++ [w]) = combine (seq 0 (length ws)) ws ++ [(length ws, w)]).
  { generalize (seq_length (length ws) 0). generalize (seq 0 (length ws)). generalize (length ws) at 2 3. intros k.
    induction ws as [|x ws IH]; intros [|y l] Hl; cbn in *; try lia; [reflexivity|]. f_equal. apply IH. lia. }
  rewrite E, fold_left_app. reflexivity.
Qed.

Lemma wmap_of_last ws w : last_id ws w (wmap_get (wmap_of ws) w).
Proof.
  induction ws as [|x ws IH] using rev_ind.
  - cbn. auto.
  - rewrite wmap_of_app. cbn [wmap_get]. destruct (str_eqb x w) eqn:E.
    + apply str_eqb_eq in E as ->. cbn [last_id]. split.
      * rewrite nth_error_app2 by lia. now rewrite Nat.sub_diag.
      * intros j Hj Hn. assert (j < length (ws ++ [w])) by (apply nth_error_Some; congruence).
        rewrite app_length in H. cbn in H. lia.
    + assert (Hx : x <> w) by (intros ->; now rewrite str_eqb_refl in E).
      destruct (wmap_get (wmap_of ws) w) as [i|]; cbn [last_id] in *.
      * destruct IH as [H1 H2]. assert (i < length ws) by (apply nth_error_Some; congruence). split.
        -- now rewrite nth_error_app1.
        -- intros j Hj Hn. destruct (Nat.lt_ge_cases j (length ws)).
           ++ rewrite nth_error_app1 in Hn by auto. now apply (H2 j).
           ++ rewrite nth_error_app2 in Hn by auto. destruct (j - length ws) as [|k]; cbn in Hn; [congruence|now destruct k].
      * intros Hin. apply in_app_or in Hin as [Hin|[Hin|[]]]; auto.
Qed.

Lemma last_id_fun ws w r r' : last_id ws w r -> last_id ws w r' -> r = r'.
Proof.
  destruct r as [i|], r' as [j|]; cbn; auto.
  - intros [H1 H2] [H3 H4]. f_equal. destruct (Nat.lt_trichotomy i j) as [H|[H|H]]; auto; exfalso.
    + now apply (H2 j H).
    + now apply (H4 i H).
  - intros [H1 _] H. exfalso. apply H. eapply nth_error_In; eauto.
  - intros H [H1 _]. exfalso. apply H. eapply nth_error_In; eauto.
Qed.

Lemma position_last ws w : NoDup ws -> last_id ws w (id_of ws w).
Proof.
  intros Hn. unfold id_of. induction ws as [|x ws IH]; cbn [position].
  - cbn. auto.
  - inversion Hn as [|? ? Hx Hn']; subst. destruct (str_eqb x w) eqn:E.
    + apply str_eqb_eq in E as ->. cbn. split; auto. intros [|j] Hj; [lia|]. cbn. intros H. apply Hx. eapply nth_error_In; eauto.
    + assert (Hxw : x <> w) by (intros ->; now rewrite str_eqb_refl in E).
      specialize (IH Hn'). destruct (position _ ws) as [i|]; cbn [option_map last_id] in *.
      * destruct IH as [H1 H2]. split; auto. intros [|j] Hj; [lia|]. cbn. apply H2. lia.
      * intros [H|H]; auto.
Qed.

Lemma wmap_of_id ws w : NoDup ws -> wmap_get (wmap_of ws) w = id_of ws w.
Proof. intros H. eapply last_id_fun; [apply wmap_of_last|now apply position_last]. Qed.

(** ** Dictionaries *)
Definition dict_of (ws : list str) : worddict := mkDict (wmap_of ws) ws.

Lemma joined_cons w t : t <> [] -> joined (w :: t) = w ++ SPACE :: joined t.
Proof. destruct t; [congruence|reflexivity]. Qed.

Lemma get_words_fold ws ids : forall q, Forall (fun i => i < length ws) ids ->
  ofold (fun q id => let* w := index ws id in Ok (q ++ SPACE :: w)) ids q =
  Ok (match ids with [] => q | _ => q ++ SPACE :: joined (map (fun i => nth i ws []) ids) end).
Proof.
  induction ids as [|i ids IH]; intros q H; [reflexivity|].
  inversion H as [|? ? Hi Hr]; subst. cbn [ofold]. rewrite (@index_nth _ ws i [] Hi). cbn [obind].
  rewrite IH by auto. destruct ids as [|j ids]; [reflexivity|]. f_equal.
  cbn [map]. rewrite (@joined_cons (nth i ws [])) by discriminate. rewrite <- app_assoc. reflexivity.
Qed.
Lemma get_words_of ws ids : Forall (fun i => i < length ws) ids ->
  get_words (dict_of ws) ids = Ok (joined (map (fun i => nth i ws []) ids)).
Proof.
  intros H. unfold get_words. destruct ids as [|i ids]; [reflexivity|].
  inversion H as [|? ? Hi Hr]; subst. cbn [d_id_to_word dict_of]. rewrite (@index_nth _ ws i [] Hi). cbn [obind].
  rewrite get_words_fold by auto. destruct ids as [|j ids]; [reflexivity|].
  cbn [map]. rewrite (@joined_cons (nth i ws [])) by discriminate. reflexivity.
Qed.
Lemma get_words_fold_out ws ids : forall q, Exists (fun i => length ws <= i) ids ->
  ofold (fun q id => let* w := index ws id in Ok (q ++ SPACE :: w)) ids q = Fail Panicked.
Proof.
  induction ids as [|i ids IH]; intros q H; [inversion H|]. cbn [ofold].
  destruct (Nat.lt_ge_cases i (length ws)) as [Hi|Hi].
  - rewrite (@index_nth _ ws i [] Hi). cbn [obind]. apply IH. inversion H; subst; auto. lia.
  - unfold index. rewrite (proj2 (nth_error_None ws i)) by auto. reflexivity.
Qed.
Lemma get_words_out ws ids : Exists (fun i => length ws <= i) ids -> get_words (dict_of ws) ids = Fail Panicked.
Proof.
  intros H. unfold get_words. destruct ids as [|i ids]; [inversion H|]. cbn [d_id_to_word dict_of].
  destruct (Nat.lt_ge_cases i (length ws)) as [Hi|Hi].
  - rewrite (@index_nth _ ws i [] Hi). cbn [obind]. apply get_words_fold_out. inversion H; subst; auto. lia.
  - unfold index. rewrite (proj2 (nth_error_None ws i)) by auto. reflexivity.
Qed.

Lemma dict_of_behaves ws : NoDup ws -> dict_behaves ws (dict_of ws).
Proof.
  intros Hn. split; [auto|]. split; [reflexivity|]. split; [apply get_words_of|]. split; [apply get_words_out|].
  intros text toks Ht. unfold get_word_ids. rewrite (tokens_split Ht). unfold filter_map, known_ids.
  apply flat_map_ext. intros w. cbn [d_word_to_id dict_of]. now rewrite (wmap_of_id w Hn).
Qed.

Lemma push_of_dict ws w : NoDup ws ->
  dict_push (dict_of ws) w =
  if in_dec (list_eq_dec N.eq_dec) w ws then (dict_of ws, false) else (dict_of (ws ++ [w]), true).
Proof.
  intros Hn. unfold dict_push. cbn [d_word_to_id d_id_to_word dict_of].
  pose proof (wmap_of_last ws w) as H. destruct (wmap_get (wmap_of ws) w) as [i|] eqn:E; cbn [last_id] in H.
  - destruct (in_dec (list_eq_dec N.eq_dec) w ws) as [_|Hni]; [reflexivity|]. exfalso. apply Hni. destruct H. eapply nth_error_In; eauto.
  - destruct (in_dec (list_eq_dec N.eq_dec) w ws); [tauto|]. unfold dict_of. now rewrite wmap_of_app.
Qed.

Lemma NoDup_snoc {A} (l : list A) x : NoDup l -> ~ In x l -> NoDup (l ++ [x]).
Proof.
  intros Hn Hx. apply NoDup_rev in Hn. rewrite <- (rev_involutive (l ++ [x])). apply NoDup_rev. rewrite rev_app_distr. cbn.
  constructor; auto. now rewrite <- in_rev.
Qed.

Lemma first_occ_nodup ws : forall acc, NoDup acc -> NoDup (first_occurrences acc ws).
Proof.
  induction ws as [|w ws IH]; intros acc H; cbn [first_occurrences]; auto.
  destruct (in_dec (list_eq_dec N.eq_dec) w acc); apply IH; auto. now apply NoDup_snoc.
Qed.

Lemma pushes_of ws : forall acc, NoDup acc ->
  exists bs, dict_pushes (dict_of acc) ws = (dict_of (first_occurrences acc ws), bs) /\ length bs = length ws /\
    forall i w, nth_error ws i = Some w ->
      (nth_error bs i = Some true <-> ~ In w acc /\ ~ In w (firstn i ws)) /\ exists b, nth_error bs i = Some b.
Proof.
  induction ws as [|w ws IH]; intros acc Hn.
  - exists []. repeat split; auto. all: destruct i; discriminate.
  - cbn [dict_pushes first_occurrences]. rewrite push_of_dict by auto.
    destruct (in_dec (list_eq_dec N.eq_dec) w acc) as [Hin|Hni].
    + destruct (IH acc Hn) as (bs & E & Hl & Hb). rewrite E. exists (false :: bs). split; [reflexivity|]. split; [cbn; lia|].
      intros [|i] v Hv; cbn in *.
      * injection Hv as ->. split; [|eauto]. split; [discriminate|tauto].
      * destruct (Hb i v Hv) as [H1 H2]. split; auto. rewrite H1. split; [|tauto].
        intros [H3 H4]. split; auto. intros [->|H5]; auto.
    + destruct (IH (acc ++ [w]) (NoDup_snoc Hn Hni)) as (bs & E & Hl & Hb). rewrite E. exists (true :: bs).
      split; [reflexivity|]. split; [cbn; lia|].
      intros [|i] v Hv; cbn in *.
      * injection Hv as ->. split; [|eauto]. split; auto.
      * destruct (Hb i v Hv) as [H1 H2]. split; auto. rewrite H1. rewrite in_app_iff. cbn. split; intros [H3 H4].
        -- split; [tauto|]. intros [->|H5]; auto.
        -- split; tauto.
Qed.

(** text and back *)
Lemma tokens_joined ws : Forall is_word ws -> tokens (joined ws) ws.
Proof.
  induction 1 as [|w ws Hw Hws IH]; [constructor|]. destruct ws as [|v ws].
  - cbn [joined]. rewrite <- (app_nil_r w) at 1. constructor; auto.
  - rewrite joined_cons by discriminate. constructor; auto.
    + right. eexists _, _. split; reflexivity.
    + constructor; auto.
Qed.

Lemma known_ids_round ws ids : NoDup ws -> Forall (fun i => i < length ws) ids ->
  known_ids ws (map (fun i => nth i ws []) ids) = ids.
Proof.
  intros Hn H. induction H as [|i ids Hi _ IH]; [reflexivity|]. cbn [map known_ids flat_map].
  assert (E : id_of ws (nth i ws []) = Some i).
  { eapply last_id_fun; [now apply position_last|]. cbn. split; [now apply nth_error_nth'|].
    intros j Hj Hc. assert (j < length ws) by (apply nth_error_Some; congruence).
    assert (i = j); [|lia]. eapply NoDup_nth_error; eauto. rewrite Hc. now apply nth_error_nth'. }
  rewrite E. cbn [app]. f_equal. exact IH.
Qed.

Section J.
  Context (dec : str -> option str) (enc : str -> str).

  Lemma write_text d : dict_write enc d = text_file (map enc (d_id_to_word d)).
  Proof. unfold dict_write, text_file. now rewrite map_map. Qed.

  Lemma dict_new_write ws : json_ok dec enc -> dict_new dec (dict_write enc (dict_of ws)) = Ok (dict_of ws).
  Proof.
    intros Hj. unfold dict_new, json_lines. rewrite write_text, lines_file.
    - cbn [d_id_to_word dict_of]. assert (E : omapM (fun l => ounwrap (dec l)) (map enc ws) = Ok ws).
      { induction ws as [|w ws IH]; [reflexivity|]. cbn [map omapM]. destruct (Hj w) as [-> _]. cbn [ounwrap obind]. now rewrite IH. }
      rewrite E. reflexivity.
    - apply Forall_forall. intros l Hl. apply in_map_iff in Hl as (w & <- & _). apply Hj.
  Qed.

  (** ** Parsing elements *)
  Lemma parse_line_of wm l ids : line_element dec (wmap_get wm) l ids ->
    parse_line dec wm l = omapM id_from ids.
  Proof.
    intros (q & t & toks & Hd & Ht & Hk & ->). unfold parse_line. rewrite Hd. cbn [ounwrap obind].
    rewrite (after_last_part Ht), (tokens_split Hk). reflexivity.
  Qed.

  Lemma parse_fold wm ls els : forall acc,
    Forall2 (line_element dec (wmap_get wm)) ls els -> ids_fit (acc ++ els) ->
    ofold (fun e l => let* q := parse_line dec wm l in els_push e q) ls (vw_of (map (map enc_id) acc)) =
    Ok (vw_of (map (map enc_id) (acc ++ els))).
  Proof.
    intros acc H. revert acc. induction H as [|l e ls els Hl _ IH]; intros acc Hf.
    - cbn. now rewrite app_nil_r.
    - cbn [ofold]. rewrite (parse_line_of Hl).
      replace (acc ++ e :: els) with ((acc ++ [e]) ++ els) in * by (now rewrite <- app_assoc).
      pose proof (ids_fit_prefix Hf) as [Hf1 Hf2]. apply Forall_app in Hf1 as [_ Hf1]. apply Forall_inv in Hf1.
      rewrite (ids_from_ok Hf1). cbn [obind]. unfold els_push. rewrite vw_push_of.
      + cbn [obind]. replace (map (map enc_id) acc ++ [map enc_id e]) with (map (map enc_id) (acc ++ [e])) by (now rewrite map_app).
        now apply IH.
      + replace (map (map enc_id) acc ++ [map enc_id e]) with (map (map enc_id) (acc ++ [e])) by (now rewrite map_app).
        now apply total_enc.
  Qed.

  Lemma parse_file_ok wm ls els : Forall is_line ls -> Forall2 (line_element dec (wmap_get wm)) ls els -> ids_fit els ->
    parse_file dec (text_file ls) wm = Ok (vw_of (map (map enc_id) els)).
  Proof. intros Hl H Hf. unfold parse_file. rewrite lines_file by auto. now apply (@parse_fold wm ls els []). Qed.

  Lemma ids_fit_part parts p : In p parts -> ids_fit (concat parts) -> ids_fit p.
  Proof.
    intros Hp [H1 H2]. apply in_split in Hp as (a & b & ->). rewrite !concat_app in *. cbn [concat] in *.
    rewrite !Forall_app in H1. rewrite !concat_app, !app_length in H2. split; [tauto|lia].
  Qed.

  Lemma parse_elements_ok wm files parts :
    Forall (Forall is_line) files -> Forall2 (Forall2 (line_element dec (wmap_get wm))) files parts ->
    ids_fit (concat parts) ->
    parse_elements dec (map text_file files) wm = Ok (vw_of (map (map enc_id) (concat parts))).
  Proof.
    intros Hl H Hf. unfold parse_elements.
    assert (E : omapM (fun f => parse_file dec f wm) (map text_file files) = Ok (map (fun p => vw_of (map (map enc_id) p)) parts)).
    { assert (Hall : forall p, In p parts -> ids_fit p) by (intros p Hp; eapply ids_fit_part; eauto).
      clear Hf. induction H as [|f p files parts Hfp _ IH]; [reflexivity|]. inversion Hl; subst. cbn [map omapM].
      rewrite (@parse_file_ok wm f p) by (auto; apply Hall; now left). cbn [obind].
      rewrite IH; auto. intros q Hq. apply Hall. now right. }
    rewrite E. cbn [obind].
    replace (map (fun p => vw_of (map (map enc_id) p)) parts) with (map (@vw_of _) (map (map (map enc_id)) parts)) by (now rewrite map_map).
    change (@vw_new emb_id) with (vw_of (@nil (list emb_id))). rewrite extend_fold; cbn [app].
    - f_equal. f_equal. symmetry. apply concat_map.
    - rewrite <- concat_map. apply total_enc. apply Hf.
  Qed.

  (** a line that is not a JSON string *)
  Lemma parse_line_bad wm l : dec l = None -> parse_line dec wm l = Fail Panicked.
  Proof. intros H. unfold parse_line. now rewrite H. Qed.

  Lemma line_element_exists wm l q : dec l = Some q -> exists ids, line_element dec (wmap_get wm) l ids.
  Proof.
    intros H. destruct (after_last_exists q) as [t Ht]. destruct (tokens_exists t) as [toks Hk].
    eexists. exists q, t, toks. split; [exact H|]. split; [exact Ht|]. split; [exact Hk|reflexivity].
  Qed.
End J.
