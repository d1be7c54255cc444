(** * JSON strings: the decoder accepts exactly the JSON strings *)
From Verif Require Import Base MParse SParse MText SText PText.
Local Open Scope N_scope.

Lemma hex_val_exact c v : hex_val c = Some v <-> hex c v.
Proof.
  unfold hex_val. split.
  - intros H. repeat match type of H with context [if ?b then _ else _] => destruct b eqn:? end; bools; inversion H; subst v.
    + replace c with (48 + (c - 48)) at 1 by blia. apply hex_09. blia.
    + replace c with (97 + ((c - 87) - 10)) at 1 by blia. apply hex_af. blia.
    + replace c with (65 + ((c - 55) - 10)) at 1 by blia. apply hex_AF. blia.
  - intros H. destruct H as [v H|v H|v H];
      repeat match goal with |- context [if ?b then _ else _] => destruct b eqn:? end; bools; try blia; f_equal; blia.
Qed.
Lemma hex_lt c v : hex c v -> v < 16.
Proof. intros []; blia. Qed.
Lemma hex4_exact a b c d n :
  hex4 a b c d = Some n <->
  exists va vb vc vd, hex a va /\ hex b vb /\ hex c vc /\ hex d vd /\ n = (((va * 16 + vb) * 16 + vc) * 16 + vd).
Proof.
  unfold hex4. split.
  - destruct (hex_val a) as [va|] eqn:A; [|easy]. destruct (hex_val b) as [vb|] eqn:B; [|easy].
    destruct (hex_val c) as [vc|] eqn:C; [|easy]. destruct (hex_val d) as [vd|] eqn:D; [|easy].
    intros H. inversion H. exists va, vb, vc, vd. repeat split; try (now apply hex_val_exact). blia.
  - intros (va & vb & vc & vd & A & B & C & D & ->). apply hex_val_exact in A, B, C, D. rewrite A, B, C, D. f_equal. blia.
Qed.
Lemma u_escape_hex4 t n : u_escape t n <-> exists a b c d, t = [92; 117; a; b; c; d] /\ hex4 a b c d = Some n.
Proof.
  split.
  - intros (a & b & c & d & va & vb & vc & vd & -> & A & B & C & D & ->). exists a, b, c, d. split; [reflexivity|].
    apply hex4_exact. exists va, vb, vc, vd. auto.
  - intros (a & b & c & d & -> & H). apply hex4_exact in H. destruct H as (va & vb & vc & vd & A & B & C & D & ->).
    exists a, b, c, d, va, vb, vc, vd. repeat split; auto.
Qed.

Lemma body_step p c t : spells p c -> json_body (p ++ t) = j_cons c (json_body t).
Proof.
  intros H. destruct H as [c H1 H2 H3| | | | | | | | |p n Hu Hn|p u hi lo Hp Hu Hh Hl]; try reflexivity.
  - cbn [app json_body]. apply N.eqb_neq in H2, H3. rewrite H2, H3. replace (c <? 32) with false by blia. reflexivity.
  - apply u_escape_hex4 in Hu. destruct Hu as (a & b & c & d & -> & Hx). cbn [app json_body N.eqb Pos.eqb]. cbn [N.ltb N.compare Pos.compare Pos.compare_cont].
    rewrite Hx. unfold is_trail, is_lead.
    replace ((56320 <=? n) && (n <? 57344))%bool with false by blia. replace ((55296 <=? n) && (n <? 56320))%bool with false by blia. reflexivity.
  - apply u_escape_hex4 in Hp, Hu. destruct Hp as (a & b & c & d & -> & Hx). destruct Hu as (a' & b' & c' & d' & -> & Hy).
    cbn [app json_body N.eqb Pos.eqb]. cbn [N.ltb N.compare Pos.compare Pos.compare_cont].
    rewrite Hx, Hy. unfold is_trail, is_lead.
    replace ((56320 <=? 55296 + hi) && (55296 + hi <? 57344))%bool with false by blia.
    replace ((55296 <=? 55296 + hi) && (55296 + hi <? 56320))%bool with true by blia. cbn [andb].
    replace ((56320 <=? 56320 + lo) && (56320 + lo <? 57344))%bool with true by blia. f_equal. blia.
Qed.

Lemma j_cons_some c r w rest : j_cons c r = Some (w, rest) -> exists w', r = Some (w', rest) /\ w = c :: w'.
Proof. destruct r as [[x y]|]; cbn; intros H; inversion H; subst; eauto. Qed.

Lemma esc_letter_spells e x : esc_letter e = Some x -> spells [92; e] x.
Proof.
  unfold esc_letter. intros H.
  repeat match type of H with context [if ?b then _ else _] => destruct b eqn:? end; bools; inversion H; subst; constructor.
Qed.

Lemma body_inv s w rest : json_body s = Some (w, rest) ->
  (w = [] /\ s = 34 :: rest) \/
  exists c p t w', s = p ++ t /\ w = c :: w' /\ spells p c /\ json_body t = Some (w', rest) /\ (length t < length s)%nat.
Proof.
  destruct s as [|c t]; [easy|]. intros H. cbn [json_body] in H.
  destruct (c =? 34) eqn:E1; [inversion H; bools; subst; now left|]. right.
  destruct (c <? 32) eqn:E2; [easy|].
  destruct (c =? 92) eqn:E3.
  - destruct t as [|e t1]; [easy|]. bools. subst c. destruct (e =? 117) eqn:E4.
    + bools. subst e. destruct t1 as [|h1 [|h2 [|h3 [|h4 t2]]]]; try easy.
      destruct (hex4 h1 h2 h3 h4) as [n|] eqn:Hx; [|easy].
      destruct (is_trail n) eqn:T; [easy|]. destruct (is_lead n) eqn:Ld.
      * destruct t2 as [|b [|u [|g1 [|g2 [|g3 [|g4 t3]]]]]]; try easy.
        destruct ((b =? 92) && (u =? 117))%bool eqn:Eb; [|easy]. destruct (hex4 g1 g2 g3 g4) as [k|] eqn:Hy; [|easy].
        destruct (is_trail k) eqn:Tk; [|easy]. apply j_cons_some in H. destruct H as (w' & H & ->).
        unfold is_trail, is_lead in *. bools. subst b u.
        exists ((n - 55296) * 1024 + (k - 56320) + 65536), [92; 117; h1; h2; h3; h4; 92; 117; g1; g2; g3; g4], t3, w'.
        repeat split; auto; [|cbn [length]; blia].
        replace ((n - 55296) * 1024 + (k - 56320) + 65536) with (0x10000 + (n - 55296) * 0x400 + (k - 56320)) by blia.
        apply (sp_pair [92; 117; h1; h2; h3; h4] [92; 117; g1; g2; g3; g4]); try blia; apply u_escape_hex4.
        -- exists h1, h2, h3, h4. split; [reflexivity|]. rewrite Hx. f_equal. blia.
        -- exists g1, g2, g3, g4. split; [reflexivity|]. rewrite Hy. f_equal. blia.
      * apply j_cons_some in H. destruct H as (w' & H & ->). exists n, [92; 117; h1; h2; h3; h4], t2, w'.
        repeat split; auto; [|cbn [length]; blia]. apply sp_u; [apply u_escape_hex4; eauto 8|]. unfold is_trail, is_lead in *. blia.
    + destruct (esc_letter e) as [x|] eqn:Ex; [|easy]. apply j_cons_some in H. destruct H as (w' & H & ->).
      exists x, [92; e], t1, w'. repeat split; auto; [now apply esc_letter_spells|cbn [length]; blia].
  - apply j_cons_some in H. destruct H as (w' & H & ->). exists c, [c], t, w'. bools.
    repeat split; auto; now constructor.
Qed.

Lemma json_body_exact s w rest :
  json_body s = Some (w, rest) <-> exists parts, Forall2 spells parts w /\ s = concat parts ++ 34 :: rest.
Proof.
  split.
  - remember (length s) as n eqn:E. revert s w E. induction n as [n IH] using lt_wf_ind. intros s w -> H.
    destruct (body_inv _ _ _ H) as [[-> ->]|(c & p & t & w' & Es & -> & Hp & Ht & Hl)]; [exists []; split; [constructor|reflexivity]|].
    destruct (IH _ Hl t w' eq_refl Ht) as (parts & H1 & H2). exists (p :: parts). split; [now constructor|].
    cbn [concat]. rewrite Es, H2. now rewrite app_assoc.
  - intros (parts & H & ->). induction H as [|p c parts w Hp _ IH]; [reflexivity|].
    cbn [concat]. rewrite <- app_assoc, (body_step p c) by exact Hp. now rewrite IH.
Qed.

Lemma json_ws_in c : json_ws c = true <-> In c [32; 9; 10; 13].
Proof. unfold json_ws. cbn [In]. blia. Qed.
Lemma skip_blank l c t : json_blank l -> json_ws c = false -> skip_json_ws (l ++ c :: t) = c :: t.
Proof.
  intros H Hc. induction H as [|x l Hx _ IH]; cbn [app skip_json_ws]; [now rewrite Hc|].
  apply json_ws_in in Hx. now rewrite Hx.
Qed.
Lemma skip_all l : json_blank l -> skip_json_ws l = [].
Proof. intros H. induction H as [|x l Hx _ IH]; [reflexivity|]. cbn [skip_json_ws]. apply json_ws_in in Hx. now rewrite Hx. Qed.
Lemma skip_split s : exists l, json_blank l /\ s = l ++ skip_json_ws s.
Proof.
  induction s as [|c s [l [H1 H2]]]; [exists []; split; [constructor|reflexivity]|]. cbn [skip_json_ws].
  destruct (json_ws c) eqn:E; [|exists []; split; [constructor|reflexivity]].
  exists (c :: l). split; [constructor; auto; now apply json_ws_in|]. cbn [app]. now rewrite <- H2.
Qed.

Lemma serde_dec_exact s w : serde_dec s = Some w <-> json_string s w.
Proof.
  unfold serde_dec. split.
  - destruct (skip_split s) as (l & Hl & El). destruct (skip_json_ws s) as [|c t]; [easy|].
    destruct (c =? 34) eqn:E; [|easy]. destruct (json_body t) as [[w' rest]|] eqn:B; [|easy].
    destruct (skip_split rest) as (r & Hr & Er). destruct (skip_json_ws rest) as [|? ?]; [|easy].
    intros H. inversion H; subst w'. bools. subst c. apply json_body_exact in B. destruct B as (parts & H1 & H2).
    exists l, r, parts. repeat split; auto. rewrite El, H2, Er, app_nil_r. reflexivity.
  - intros (l & r & parts & Hl & Hr & Hp & ->). rewrite skip_blank by auto. rewrite N.eqb_refl.
    assert (B : json_body (concat parts ++ 34 :: r) = Some (w, r)) by (apply json_body_exact; eauto).
    now rewrite B, skip_all by exact Hr.
Qed.

Lemma hex_digit_hex n : n < 16 -> hex (hex_digit n) n.
Proof. intros H. apply hex_val_exact. unfold hex_val, hex_digit. destruct (n <? 10) eqn:E; bools; repeat (case_if; [f_equal; blia|]); blia. Qed.
Lemma json_esc_spells c : spells (json_esc c) c.
Proof.
  unfold json_esc. repeat case_if; bools; subst; try (constructor; blia).
  apply sp_u; [|blia]. exists 48, 48, (hex_digit (c / 16)), (hex_digit (c mod 16)), 0, 0, (c / 16), (c mod 16).
  assert (c / 16 < 16) by (apply N.div_lt_upper_bound; blia). pose proof (N.mod_lt c 16 ltac:(blia)). pose proof (N.div_mod c 16 ltac:(blia)).
  repeat split; try (now apply hex_digit_hex); try blia; apply (hex_09 0); blia.
Qed.
Lemma serde_enc_string w : json_string (serde_enc w) w.
Proof.
  exists [], [], (map json_esc w). repeat split; try constructor.
  - induction w; constructor; auto using json_esc_spells.
  - unfold serde_enc. now rewrite flat_map_concat_map.
Qed.
Lemma json_esc_clean c x : In x (json_esc c) -> 32 <= x.
Proof.
  unfold json_esc. intros H. assert (L : forall n, 48 <= hex_digit n) by (intros n; unfold hex_digit; case_if; blia).
  pose proof (L (c / 16)). pose proof (L (c mod 16)).
  repeat match type of H with context [if ?b then _ else _] => destruct b eqn:? end; cbn [In] in H; bools; intuition (subst; blia).
Qed.
Lemma serde_enc_line w : is_line (serde_enc w).
Proof.
  unfold serde_enc. split.
  - intros [H|H]; [discriminate|]. apply in_app_or in H. destruct H as [H|[H|[]]]; [|discriminate].
    apply in_flat_map in H. destruct H as (c & _ & H). apply json_esc_clean in H. blia.
  - intros s H. rewrite app_comm_cons in H. apply app_inj_tail in H. destruct H. discriminate.
Qed.
Lemma serde_ok : json_ok serde_dec serde_enc.
Proof. intros w. split; [apply serde_dec_exact, serde_enc_string|apply serde_enc_line]. Qed.
