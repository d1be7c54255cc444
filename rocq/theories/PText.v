(** * UTF-8 and JSON strings: the decoders are exact *)
From Verif Require Import Base MParse SParse MText SText SFiles.
Local Open Scope N_scope.

(** [lia] that also reads Boolean comparisons (without ZifyBool, which would change
    [lia] in every file that requires this one) *)
Ltac bool_props :=
  repeat match goal with H : context [@eq bool _ _] |- _ =>
    progress rewrite ?andb_true_iff, ?orb_true_iff, ?andb_false_iff, ?orb_false_iff, ?negb_true_iff, ?negb_false_iff,
      ?N.ltb_lt, ?N.leb_le, ?N.eqb_eq, ?N.ltb_ge, ?N.leb_gt, ?N.eqb_neq in H end;
  try match goal with |- true = _ => symmetry | |- false = _ => symmetry end;
  rewrite ?andb_true_iff, ?orb_true_iff, ?andb_false_iff, ?orb_false_iff, ?negb_true_iff, ?negb_false_iff,
      ?N.ltb_lt, ?N.leb_le, ?N.eqb_eq, ?N.ltb_ge, ?N.leb_gt, ?N.eqb_neq.
Ltac blia := first [lia | bool_props; lia].

Ltac bools :=
  repeat match goal with
         | H : (_ <? _) = true |- _ => apply N.ltb_lt in H
         | H : (_ <? _) = false |- _ => apply N.ltb_ge in H
         | H : (_ <=? _) = true |- _ => apply N.leb_le in H
         | H : (_ <=? _) = false |- _ => apply N.leb_gt in H
         | H : (_ =? _) = true |- _ => apply N.eqb_eq in H
         | H : (_ =? _) = false |- _ => apply N.eqb_neq in H
         | H : (_ && _)%bool = true |- _ => apply andb_true_iff in H; destruct H
         | H : (_ || _)%bool = true |- _ => apply orb_true_iff in H
         | H : negb _ = true |- _ => apply negb_true_iff in H
         end.
Ltac case_if := match goal with |- context [if ?b then _ else _] => destruct b eqn:? end.

(** ** UTF-8 *)
Lemma dec_step c f t : utf8_form c f -> scalar c -> utf8_dec (f ++ t) = u_cons c (utf8_dec t).
Proof.
  unfold scalar. intros Hf Hs. inversion Hf as [H|a b H Hb E|a b d H Hb Hd E|a b d e H Hb Hd He E]; subst f; cbn [app utf8_dec];
    unfold base64 in *; cbn [fold_left] in *; unfold cont.
  - now rewrite (proj2 (N.ltb_lt _ _) H).
  - assert (2 <= a < 32) by blia.
    rewrite (proj2 (N.ltb_ge _ _)) by blia.
    replace ((194 <=? 192 + a) && (192 + a <? 224))%bool with true by blia.
    replace ((128 <=? 128 + b) && (128 + b <? 192))%bool with true by blia.
    f_equal; blia.
  - assert (a < 16) by blia.
    rewrite (proj2 (N.ltb_ge _ _)) by blia.
    replace ((194 <=? 224 + a) && (224 + a <? 224))%bool with false by blia.
    replace ((224 <=? 224 + a) && (224 + a <? 240))%bool with true by blia.
    match goal with |- (if ?b then _ else _) = _ => replace b with true by blia end.
    f_equal; blia.
  - assert (a < 5) by blia.
    rewrite (proj2 (N.ltb_ge _ _)) by blia.
    replace ((194 <=? 240 + a) && (240 + a <? 224))%bool with false by blia.
    replace ((224 <=? 240 + a) && (240 + a <? 240))%bool with false by blia.
    replace ((240 <=? 240 + a) && (240 + a <? 245))%bool with true by blia.
    match goal with |- (if ?b then _ else _) = _ => replace b with true by blia end.
    f_equal; blia.
Qed.

Lemma u_cons_some c r w : u_cons c r = Some w -> exists w', r = Some w' /\ w = c :: w'.
Proof. destruct r; cbn; intros H; inversion H; eauto. Qed.

Lemma dec_inv b w : utf8_dec b = Some w -> b <> [] ->
  exists c f t w', b = f ++ t /\ w = c :: w' /\ utf8_form c f /\ scalar c /\ utf8_dec t = Some w' /\ f <> [].
Proof.
  destruct b as [|x t]; [easy|]. intros H _. cbn [utf8_dec] in H.
  destruct (x <? 128) eqn:E1.
  { apply u_cons_some in H. destruct H as (w' & H & ->). bools. exists x, [x], t, w'. repeat split; auto; [now constructor| |easy].
    left. blia. }
  destruct ((194 <=? x) && (x <? 224))%bool eqn:E2.
  { destruct t as [|y t]; [easy|]. destruct (cont y) eqn:C; [|easy]. apply u_cons_some in H. destruct H as (w' & H & ->).
    unfold cont in C. bools.
    exists ((x - 192) * 64 + (y - 128)), [x; y], t, w'. repeat split; auto; [| |easy].
    - replace [x; y] with [192 + (x - 192); 128 + (y - 128)] by (f_equal; [blia|f_equal; blia]).
      apply form2; unfold base64; cbn [fold_left]; blia.
    - left. blia. }
  destruct ((224 <=? x) && (x <? 240))%bool eqn:E3.
  { destruct t as [|y [|z t]]; [easy|easy|].
    match type of H with (if ?b then _ else _) = _ => destruct b eqn:C; [|easy] end.
    apply u_cons_some in H. destruct H as (w' & H & ->). unfold cont in C.
    exists ((x - 224) * 4096 + (y - 128) * 64 + (z - 128)), [x; y; z], t, w'. repeat split; auto; [| |easy].
    - replace [x; y; z] with [224 + (x - 224); 128 + (y - 128); 128 + (z - 128)] by (f_equal; [blia|f_equal; [blia|f_equal; blia]]).
      apply form3; unfold base64; cbn [fold_left]; blia.
    - unfold scalar. blia. }
  destruct ((240 <=? x) && (x <? 245))%bool eqn:E4; [|easy].
  destruct t as [|y [|z [|v t]]]; [easy|easy|easy|].
  match type of H with (if ?b then _ else _) = _ => destruct b eqn:C; [|easy] end.
  apply u_cons_some in H. destruct H as (w' & H & ->). unfold cont in C.
  exists ((x - 240) * 262144 + (y - 128) * 4096 + (z - 128) * 64 + (v - 128)), [x; y; z; v], t, w'. repeat split; auto; [| |easy].
  - replace [x; y; z; v] with [240 + (x - 240); 128 + (y - 128); 128 + (z - 128); 128 + (v - 128)]
      by (f_equal; [blia|f_equal; [blia|f_equal; [blia|f_equal; blia]]]).
    apply form4; unfold base64; cbn [fold_left]; blia.
  - unfold scalar. blia.
Qed.

Lemma utf8_dec_exact b w : utf8_dec b = Some w <-> utf8_bytes w b.
Proof.
  split.
  - remember (length b) as n eqn:E. revert b w E. induction n as [n IH] using lt_wf_ind. intros b w -> H.
    destruct b as [|x b']; [injection H as <-; split; [constructor|]; exists []; repeat constructor|].
    destruct (dec_inv _ _ H ltac:(easy)) as (c & f & t & w' & E & -> & Hf & Hs & Ht & Hn).
    rewrite E in *. destruct (IH (length t)) with (b := t) (w := w') as (Hw & fs & H1 & H2); auto.
    { rewrite app_length. destruct f; [easy|cbn [length]; blia]. }
    split; [now constructor|]. exists (f :: fs). split; [now constructor|]. cbn [concat]. now rewrite H2.
  - intros (Hw & fs & Hf & ->). revert Hw. induction Hf as [|c f w fs H _ IH]; intros Hw; [reflexivity|].
    inversion Hw as [|? ? Hc Hw']; subst. cbn [concat]. rewrite (dec_step c f) by auto. now rewrite (IH Hw').
Qed.

Lemma utf8_char_form c : c < 1114112 -> utf8_form c (utf8_char c).
Proof.
  intros H. unfold utf8_char.
  pose proof (N.div_mod c 64 ltac:(blia)) as D0. pose proof (N.mod_lt c 64 ltac:(blia)) as M0.
  pose proof (N.div_mod (c / 64) 64 ltac:(blia)) as D1. pose proof (N.mod_lt (c / 64) 64 ltac:(blia)) as M1.
  rewrite N.div_div in D1 by blia.
  pose proof (N.div_mod (c / 4096) 64 ltac:(blia)) as D2. pose proof (N.mod_lt (c / 4096) 64 ltac:(blia)) as M2.
  rewrite N.div_div in D2 by blia. change (64 * 64) with 4096 in *. change (4096 * 64) with 262144 in *.
  repeat case_if; bools; [apply form1|apply form2|apply form3|apply form4]; unfold base64; cbn [fold_left]; blia.
Qed.
Lemma utf8_enc_bytes w : is_text w -> utf8_bytes w (utf8_enc w).
Proof.
  intros H. split; [exact H|]. exists (map utf8_char w). split.
  - induction H as [|c w Hc _ IH]; constructor; auto. apply utf8_char_form. unfold scalar in Hc. blia.
  - unfold utf8_enc. now rewrite flat_map_concat_map.
Qed.
Lemma utf8_dec_enc w : is_text w -> utf8_dec (utf8_enc w) = Some w.
Proof. intros H. apply utf8_dec_exact. now apply utf8_enc_bytes. Qed.
Lemma dig a b x y : x < 64 -> y < 64 -> 64 * a + x = 64 * b + y -> a = b /\ x = y.
Proof. blia. Qed.
Lemma utf8_form_fun c f g : utf8_form c f -> utf8_form c g -> f = g.
Proof.
  unfold base64. intros Hf Hg. inversion Hf as [H|a b H Hb E|a b d H Hb Hd E|a b d e H Hb Hd He E]; subst f;
    inversion Hg as [H'|a' b' H' Hb' E'|a' b' d' H' Hb' Hd' E'|a' b' d' e' H' Hb' Hd' He' E']; subst g; unfold base64 in *; cbn [fold_left] in *; try blia.
  - reflexivity.
  - destruct (dig a a' b b') as [-> ->]; [blia..|]. reflexivity.
  - destruct (dig (64 * a + b) (64 * a' + b') d d') as [E1 ->]; [blia..|]. destruct (dig a a' b b') as [-> ->]; [blia..|]. reflexivity.
  - destruct (dig (64 * (64 * a + b) + d) (64 * (64 * a' + b') + d') e e') as [E1 ->]; [blia..|].
    destruct (dig (64 * a + b) (64 * a' + b') d d') as [E2 ->]; [blia..|]. destruct (dig a a' b b') as [-> ->]; [blia..|]. reflexivity.
Qed.
Lemma utf8_bytes_fun w a b : utf8_bytes w a -> utf8_bytes w b -> a = b.
Proof.
  intros (_ & fs & Hf & ->) (_ & gs & Hg & ->). f_equal. revert gs Hg.
  induction Hf as [|c f w fs H _ IH]; intros gs Hg; inversion Hg as [|? g ? gs' Hc Hg']; subst; [reflexivity|].
  f_equal; [eapply utf8_form_fun; eauto|auto].
Qed.

(** cut at an ASCII character *)
Lemma utf8_dec_app a c b : c < 128 ->
  utf8_dec (a ++ c :: b) = match utf8_dec a, utf8_dec b with Some x, Some y => Some (x ++ c :: y) | _, _ => None end.
Proof.
  intros Hc. remember (length a) as n eqn:E. revert a E. induction n as [n IH] using lt_wf_ind. intros a ->.
  assert (Cc : cont c = false) by (unfold cont; blia).
  assert (K : forall u t, (length t < length a)%nat -> u_cons u (utf8_dec (t ++ c :: b)) =
    match u_cons u (utf8_dec t), utf8_dec b with Some x, Some y => Some (x ++ c :: y) | _, _ => None end).
  { intros u t Ht. rewrite (IH (length t) Ht t eq_refl). destruct (utf8_dec t); cbn [u_cons]; [|reflexivity].
    destruct (utf8_dec b); reflexivity. }
  destruct a as [|x a].
  { cbn [app utf8_dec]. rewrite (proj2 (N.ltb_lt _ _) Hc). destruct (utf8_dec b); reflexivity. }
  cbn [app utf8_dec].
  destruct (x <? 128); [apply K; cbn [length]; blia|].
  destruct ((194 <=? x) && (x <? 224))%bool.
  { destruct a as [|y a]; cbn [app]; [now rewrite Cc|]. destruct (cont y); [apply K; cbn [length]; blia|reflexivity]. }
  destruct ((224 <=? x) && (x <? 240))%bool.
  { destruct a as [|y a]; cbn [app]; [rewrite Cc; destruct b; reflexivity|].
    destruct a as [|z a]; cbn [app]; [rewrite Cc, andb_false_r; reflexivity|].
    match goal with |- context [if ?b then _ else _] => destruct b end; [apply K; cbn [length]; blia|reflexivity]. }
  destruct ((240 <=? x) && (x <? 245))%bool; [|reflexivity].
  destruct a as [|y a]; cbn [app]; [rewrite Cc; destruct b as [|? [|? ?]]; reflexivity|].
  destruct a as [|z a]; cbn [app]; [rewrite Cc, andb_false_r; destruct b; reflexivity|].
  destruct a as [|v a]; cbn [app]; [rewrite Cc, andb_false_r; reflexivity|].
  match goal with |- context [if ?b then _ else _] => destruct b end; [apply K; cbn [length]; blia|reflexivity].
Qed.
Lemma utf8_dec_ok : utf8_ok utf8_dec.
Proof.
  split; [now exists []|]. intros a c b Hc. unfold is_utf8. rewrite utf8_dec_app by exact Hc.
  destruct (utf8_dec a) as [x|], (utf8_dec b) as [y|]; split; try (intros [? H]; discriminate);
    try (intros [[? H] [? H']]; discriminate).
  - intros _. eauto.
  - intros _. eauto.
Qed.
