(** * Proofs: the JSON parser accepts exactly the JSON texts *)
From Coq Require Import String Ascii Decimal DecimalFacts DecimalPos DecimalN.
From Coq Require Import List.
Import ListNotations.
From Verif Require Import Base BaseFacts Bytes PBytes MUtf8 SText PText PText2 MJson PJson SJson.
Set Implicit Arguments.
Local Open Scope list_scope.

Scheme json_text_mut := Induction for json_text Sort Prop
  with items_mut := Induction for items Sort Prop
  with members_mut := Induction for members Sort Prop.
Combined Scheme json_text_all from json_text_mut, items_mut, members_mut.

Lemma is_ws_iff b : is_ws b = true <-> In b [32; 10; 13; 9]%N.
Proof.
  unfold is_ws. rewrite !orb_true_iff, !N.eqb_eq. cbn [In]. intuition auto.
Qed.
Lemma white_iff w : white w <-> Forall (fun b => is_ws b = true) w.
Proof. unfold white. split; intros H; (eapply Forall_impl; [|exact H]); intros b; apply is_ws_iff. Qed.

Lemma skip_ws_white w l : white w -> skip_ws (w ++ l) = skip_ws l.
Proof. rewrite white_iff. induction 1 as [|b w Hb Hw IH]; [reflexivity|]. cbn [app skip_ws]. now rewrite Hb. Qed.
Lemma next_char_white w b t : white w -> is_ws b = false -> next_char (w ++ b :: t) = Some (b, t).
Proof. intros Hw Hb. unfold next_char. rewrite skip_ws_white by assumption. cbn [skip_ws]. now rewrite Hb. Qed.
Lemma skip_ws_cut l : exists w, l = w ++ skip_ws l /\ white w /\ (forall b t, skip_ws l = b :: t -> is_ws b = false).
Proof.
  induction l as [|b t (w & E & Hw & Hb)].
  - exists []. split; [reflexivity|]. split; [constructor|discriminate].
  - cbn [skip_ws]. destruct (is_ws b) eqn:Eb.
    + exists (b :: w). split; [cbn; now f_equal|]. split; [|exact Hb]. constructor; [now apply is_ws_iff|exact Hw].
    + exists []. split; [reflexivity|]. split; [constructor|]. intros b0 t0 H. congruence.
Qed.
Lemma next_char_cut l b t : next_char l = Some (b, t) -> exists w, l = w ++ b :: t /\ white w /\ is_ws b = false.
Proof.
  unfold next_char. destruct (skip_ws_cut l) as (w & E & Hw & Hb). destruct (skip_ws l) as [|b0 t0]; [discriminate|].
  intros H. assert (b0 = b) by congruence. assert (t0 = t) by congruence. subst b0 t0. exists w. split; [exact E|]. split; [exact Hw|]. eauto.
Qed.

(** ** Numbers *)
Lemma uint_bytes_digits u : Forall (fun b => (48 <= b <= 57)%N) (uint_bytes u).
Proof. induction u; cbn [uint_bytes]; constructor; auto; lia. Qed.
Fixpoint uint_of (l : list N) : uint := match l with [] => Nil | b :: t => uint_cons b (uint_of t) end.
Lemma digit_cases b : (48 <= b <= 57)%N -> In b [48; 49; 50; 51; 52; 53; 54; 55; 56; 57]%N.
Proof. cbn [In]. lia. Qed.
Lemma uint_of_bytes l : Forall (fun b => (48 <= b <= 57)%N) l -> uint_bytes (uint_of l) = l.
Proof.
  induction 1 as [|b l Hb Hl IH]; [reflexivity|]. cbn [uint_of]. apply digit_cases in Hb.
  repeat (destruct Hb as [<-|Hb]; [cbn; now rewrite IH|]). destruct Hb.
Qed.
Lemma uint_value_acc u acc : Npos (Pos.of_uint_acc u acc) = fold_left (fun a b => (a * 10 + (b - 48))%N) (uint_bytes u) (Npos acc).
Proof.
  revert acc; induction u; intros acc; cbn [uint_bytes fold_left Pos.of_uint_acc]; [reflexivity|..]; rewrite IHu; f_equal; lia.
Qed.
Lemma uint_value u : N.of_uint u = fold_left (fun a b => (a * 10 + (b - 48))%N) (uint_bytes u) 0%N.
Proof.
  induction u; cbn [uint_bytes fold_left]; [reflexivity|exact IHu|..]; cbn [N.of_uint Pos.of_uint]; apply uint_value_acc.
Qed.
Lemma leading_zero_iff u : u <> Nil -> leading_zero u = false <-> (hd 48%N (uint_bytes u) = 48%N -> List.length (uint_bytes u) = 1).
Proof.
  destruct u as [|u|u|u|u|u|u|u|u|u|u]; try congruence; intros _; cbn [leading_zero uint_bytes hd List.length].
  - destruct u; cbn [uint_bytes List.length]; split; intros H; try reflexivity; try discriminate; specialize (H eq_refl); discriminate.
  - split; intros; [discriminate|reflexivity].
  - split; intros; [discriminate|reflexivity].
  - split; intros; [discriminate|reflexivity].
  - split; intros; [discriminate|reflexivity].
  - split; intros; [discriminate|reflexivity].
  - split; intros; [discriminate|reflexivity].
  - split; intros; [discriminate|reflexivity].
  - split; intros; [discriminate|reflexivity].
  - split; intros; [discriminate|reflexivity].
Qed.
Lemma is_digit_iff b : is_digit b = true <-> (48 <= b <= 57)%N.
Proof. unfold is_digit. rewrite andb_true_iff, !N.leb_le. tauto. Qed.

Lemma span_digits_cut l u r : span_digits l = (u, r) -> l = uint_bytes u ++ r.
Proof.
  revert u r; induction l as [|b t IH]; intros u r; cbn [span_digits].
  - intros H; inversion H; subst. reflexivity.
  - destruct (is_digit b) eqn:E.
    + destruct (span_digits t) as [u' r'] eqn:Es. intros H. inversion H; subst. rewrite (IH _ _ eq_refl).
      apply is_digit_iff, digit_cases in E. repeat (destruct E as [<-|E]; [reflexivity|]). destruct E.
    + intros H; inversion H; subst. reflexivity.
Qed.

Lemma number_bytes u : u <> Nil -> leading_zero u = false -> number (N.of_uint u) (uint_bytes u).
Proof.
  intros Hu Hz. split; [|split; [|split]].
  - destruct (uint_bytes_head Hu) as (b & t & E & _). rewrite E. discriminate.
  - apply uint_bytes_digits.
  - now apply leading_zero_iff.
  - apply uint_value.
Qed.
Lemma number_uint n t : number n t -> exists u, t = uint_bytes u /\ u <> Nil /\ leading_zero u = false /\ n = N.of_uint u.
Proof.
  intros (H1 & H2 & H3 & H4). exists (uint_of t). rewrite (uint_of_bytes H2). 
  assert (Hn : uint_of t <> Nil) by (intros E; apply H1; rewrite <- (uint_of_bytes H2), E; reflexivity).
  split; [reflexivity|]. split; [exact Hn|]. split.
  - apply leading_zero_iff; [exact Hn|]. now rewrite (uint_of_bytes H2).
  - rewrite uint_value, (uint_of_bytes H2). exact H4.
Qed.

Definition nonempty {A} (t : list A) : bool := match t with [] => false | _ => true end.
Definition no_num_head (l : list N) : Prop :=
  match l with [] => True | b :: _ => is_digit b = false /\ b <> 46%N /\ b <> 69%N /\ b <> 101%N end.
Lemma no_num_digit l : no_num_head l -> no_digit_head l.
Proof. destruct l; cbn; tauto. Qed.
Lemma digits_nonnil t : some_digits t -> uint_of t <> Nil /\ uint_bytes (uint_of t) = t.
Proof.
  intros [H1 H2]. pose proof (uint_of_bytes H2) as E. split; [|exact E]. intros E2. apply H1. rewrite <- E, E2. reflexivity.
Qed.
Lemma take_digits_ok t r : some_digits t -> no_digit_head r -> take_digits (t ++ r) = Some r.
Proof.
  intros Ht Hr. destruct (digits_nonnil Ht) as [Hn E]. unfold take_digits. rewrite <- E, span_digits_bytes by assumption.
  destruct (uint_of t); congruence.
Qed.
Lemma take_digits_cut l r : take_digits l = Some r -> exists t, l = t ++ r /\ some_digits t.
Proof.
  unfold take_digits. destruct (span_digits l) as [u r'] eqn:E. apply span_digits_cut in E. intros H.
  assert (Hu : u <> Nil) by (intros ->; discriminate). assert (r' = r) by (destruct u; congruence). subst r'.
  exists (uint_bytes u). split; [exact E|]. split; [|apply uint_bytes_digits].
  destruct (uint_bytes_head Hu) as (b & t & Eb & _). rewrite Eb. discriminate.
Qed.
Lemma digits_head t : some_digits t -> exists b u, t = b :: u /\ (48 <= b <= 57)%N.
Proof. intros [H1 H2]. destruct H2 as [|b u Hb]; [congruence|]. eauto. Qed.

Lemma parse_frac_ok fr r : fr = [] \/ fraction fr -> no_digit_head r -> (fr = [] -> hd 0%N r <> 46%N) -> parse_frac (fr ++ r) = Some (nonempty fr, r).
Proof.
  intros [->|(ds & Hd & ->)] Hr H.
  - cbn [app nonempty]. destruct r as [|b t]; [reflexivity|]. cbn [parse_frac]. specialize (H eq_refl). cbn in H.
    apply N.eqb_neq in H. now rewrite H.
  - cbn [app parse_frac N.eqb Pos.eqb nonempty]. now rewrite take_digits_ok.
Qed.
Lemma parse_frac_cut l b r : parse_frac l = Some (b, r) -> exists fr, l = fr ++ r /\ b = nonempty fr /\ (fr = [] \/ fraction fr).
Proof.
  destruct l as [|c t]; cbn [parse_frac].
  - intros H. assert (b = false /\ r = []) as [-> ->] by (split; congruence). exists []. auto.
  - destruct (N.eqb_spec c 46) as [->|].
    + destruct (take_digits t) as [r'|] eqn:E; [|discriminate]. intros H. assert (b = true /\ r' = r) as [-> ->] by (split; congruence).
      apply take_digits_cut in E as (ds & -> & Hd). exists (46%N :: ds). repeat split. right. exists ds. auto.
    + intros H. assert (b = false /\ r = c :: t) as [-> ->] by (split; congruence). exists []. auto.
Qed.

Lemma parse_exp_ok ex r : ex = [] \/ exponent ex -> no_num_head r -> parse_exp (ex ++ r) = Some (nonempty ex, r).
Proof.
  intros [->|(e & sg & ds & He & Hs & Hd & ->)] Hr.
  - cbn [app nonempty]. destruct r as [|b t]; [reflexivity|]. cbn [parse_exp]. destruct Hr as (_ & _ & H1 & H2).
    apply N.eqb_neq in H1, H2. now rewrite H1, H2.
  - assert (Hh : skip_sign (sg ++ ds ++ r) = ds ++ r).
    { destruct (digits_head Hd) as (b & u & -> & Hb). cbn [In] in Hs. destruct Hs as [<-|[<-|[<-|[]]]]; try reflexivity.
      cbn [app skip_sign]. rewrite (proj2 (N.eqb_neq b 43)), (proj2 (N.eqb_neq b 45)) by lia. reflexivity. }
    cbn [app parse_exp nonempty]. rewrite <- app_assoc, Hh, take_digits_ok by (auto using no_num_digit).
    cbn [In] in He. destruct He as [<-|[<-|[]]]; reflexivity.
Qed.
Lemma parse_exp_cut l b r : parse_exp l = Some (b, r) -> exists ex, l = ex ++ r /\ b = nonempty ex /\ (ex = [] \/ exponent ex).
Proof.
  destruct l as [|c t]; cbn [parse_exp].
  - intros H. assert (b = false /\ r = []) as [-> ->] by (split; congruence). exists []. auto.
  - destruct ((c =? 69) || (c =? 101))%N eqn:Ec.
    + destruct (take_digits (skip_sign t)) as [r'|] eqn:E; [|discriminate]. intros H. assert (b = true /\ r' = r) as [-> ->] by (split; congruence).
      assert (Hc : In c [69; 101]%N) by (apply orb_true_iff in Ec; rewrite !N.eqb_eq in Ec; cbn [In]; destruct Ec; auto).
      apply take_digits_cut in E as (ds & E & Hd).
      assert (Hs : exists sg, t = sg ++ skip_sign t /\ In sg [[]; [43]; [45]]%N).
      { destruct t as [|s t]; [exists []; cbn; auto|]. cbn [skip_sign]. destruct (N.eqb_spec s 43) as [->|]; [exists [43%N]; cbn; auto|].
        destruct (N.eqb_spec s 45) as [->|]; [exists [45%N]; cbn; auto|]. exists []. cbn; auto. }
      destruct Hs as (sg & Et & Hs). exists (c :: sg ++ ds). rewrite Et, E. split; [cbn [app]; now rewrite <- app_assoc|]. split; [reflexivity|].
      right. exists c, sg, ds. auto.
    + intros H. assert (b = false /\ r = c :: t) as [-> ->] by (split; congruence). exists []. auto.
Qed.

Lemma frac_head fr ex r : (fr = [] \/ fraction fr) -> (ex = [] \/ exponent ex) -> no_num_head r -> no_digit_head (fr ++ ex ++ r) /\ no_digit_head (ex ++ r) /\ (hd 0%N (ex ++ r) <> 46%N).
Proof.
  intros Hf He Hr.
  assert (A : no_digit_head (ex ++ r) /\ hd 0%N (ex ++ r) <> 46%N).
  { destruct He as [->|(e & sg & ds & He & _ & _ & ->)].
    - cbn [app]. split; [now apply no_num_digit|]. destruct r as [|b t]; cbn; [discriminate|]. cbn in Hr. tauto.
    - cbn [In] in He. destruct He as [<-|[<-|[]]]; split; try reflexivity; discriminate. }
  destruct A as [A B]. split; [|auto]. destruct Hf as [->|(ds & _ & ->)]; [exact A|reflexivity].
Qed.

Lemma parse_num_ok sg n ip fr ex r :
  (sg = [] \/ sg = [45%N]) -> number n ip -> (fr = [] \/ fraction fr) -> (ex = [] \/ exponent ex) -> no_num_head r ->
  parse_num (sg ++ ip ++ fr ++ ex ++ r) = Some (if nonempty sg || nonempty fr || nonempty ex then JReal else JNum n, r).
Proof.
  intros Hs Hn Hf He Hr. destruct (number_uint Hn) as (u & -> & Hu & Hz & ->). destruct (@frac_head fr ex r Hf He Hr) as (F1 & F2 & F3).
  assert (E : skip_minus (sg ++ uint_bytes u ++ fr ++ ex ++ r) = (nonempty sg, uint_bytes u ++ fr ++ ex ++ r)).
  { destruct Hs as [->| ->]; [|reflexivity]. destruct (uint_bytes_head Hu) as (b & t & Eb & Hd). rewrite Eb. cbn [app skip_minus nonempty].
    apply is_digit_iff in Hd. rewrite (proj2 (N.eqb_neq b 45)) by lia. reflexivity. }
  unfold parse_num. rewrite E, span_digits_bytes by exact F1.
  assert (G : forall X Y : option (json * list N), match u with Nil => X | _ => Y end = Y) by (destruct u; congruence).
  rewrite G, Hz, parse_frac_ok by auto. now rewrite parse_exp_ok.
Qed.
Lemma parse_num_cut l v r : parse_num l = Some (v, r) -> exists t, l = t ++ r /\ json_text v t.
Proof.
  unfold parse_num. destruct (skip_minus l) as [neg l1] eqn:Em.
  assert (Hs : exists sg, l = sg ++ l1 /\ neg = nonempty sg /\ (sg = [] \/ sg = [45%N])).
  { destruct l as [|b t]; cbn [skip_minus] in Em.
    - exists []. split; [cbn; congruence|]. split; [cbn; congruence|auto].
    - destruct (N.eqb_spec b 45) as [->|]; [exists [45%N]|exists []]; (split; [cbn; congruence|]; split; [cbn; congruence|auto]). }
  destruct Hs as (sg & -> & -> & Hs). clear Em. destruct (span_digits l1) as [u r1] eqn:Es. apply span_digits_cut in Es. subst l1.
  assert (G : forall X Y : option (json * list N), u <> Nil -> match u with Nil => X | _ => Y end = Y) by (destruct u; congruence).
  intros H. assert (Hu : u <> Nil) by (intros ->; discriminate). rewrite G in H by exact Hu.
  destruct (leading_zero u) eqn:Hz; [discriminate|]. pose proof (number_bytes Hu Hz) as Hn.
  destruct (parse_frac r1) as [[b1 r2]|] eqn:Ef; [|discriminate]. apply parse_frac_cut in Ef as (fr & -> & -> & Hf).
  destruct (parse_exp r2) as [[b2 r3]|] eqn:Ee; [|discriminate]. apply parse_exp_cut in Ee as (ex & -> & -> & He).
  assert (r3 = r) by congruence. subst r3. exists (sg ++ uint_bytes u ++ fr ++ ex). split; [now rewrite <- !app_assoc|].
  destruct (nonempty sg || nonempty fr || nonempty ex) eqn:Eb.
  - assert (v = JReal) by congruence. subst v. constructor. exists sg, (N.of_uint u), (uint_bytes u), fr, ex. repeat (split; [assumption|]).
    split; [|reflexivity]. destruct sg; [|discriminate]. destruct fr; [|discriminate]. destruct ex; [cbn in Eb; congruence|discriminate].
  - assert (v = JNum (N.of_uint u)) by congruence. subst v. destruct sg; [|discriminate]. destruct fr; [|discriminate]. destruct ex; [|discriminate].
    cbn [app]. rewrite !app_nil_r. now constructor.
Qed.

(** ** Strings and literals *)
Lemma j_app_some c r s rest : j_app c r = Some (s, rest) -> exists s', r = Some (s', rest) /\ s = c ++ s'.
Proof. destruct r as [[x y]|]; cbn; intros H; [|discriminate]. exists x. split; congruence. Qed.
Lemma utf8_small c : (c < 128)%N -> utf8_char c = [c].
Proof. intros H. unfold utf8_char. apply N.ltb_lt in H. now rewrite H. Qed.
Lemma spells_small p c : spells p c -> (c < 1114112)%N \/ exists d, p = [d] /\ d = c.
Proof. destruct 1 as [c H1 H2 H3| | | | | | | | |p n Hu Hn|p u hi lo Hp Hu Hh Hl]; eauto; left; try lia.
  destruct Hu as (a & b & c & d & va & vb & vc & vd & -> & A & B & C & D & ->). apply hex_lt in A, B, C, D. lia.
Qed.

Lemma str_step p v t : piece p v -> parse_str (p ++ t) = j_app v (parse_str t).
Proof.
  intros [(b & -> & -> & H1 & H2 & H3)|(c & Hp & Hh & Hv)].
  - cbn [app parse_str]. apply N.eqb_neq in H2, H3. rewrite H2, H3. apply N.ltb_ge in H1. now rewrite H1.
  - assert (Ev : v = utf8_char c).
    { assert (Hc : (c < 1114112)%N) by (destruct Hv; lia). exact (utf8_form_fun _ _ _ Hv (utf8_char_form _ Hc)). }
    subst v. destruct Hp as [c H1 H2 H3| | | | | | | | |p n Hu Hn|p u hi lo Hp Hu Hh' Hl]; try reflexivity.
    + cbn in Hh. congruence.
    + apply u_escape_hex4 in Hu. destruct Hu as (a & b & c & d & -> & Hx). cbn [app parse_str N.eqb Pos.eqb]. cbn [N.ltb N.compare Pos.compare Pos.compare_cont].
      rewrite Hx. unfold is_trail, is_lead.
      replace ((56320 <=? n) && (n <? 57344))%N with false by (symmetry; apply andb_false_iff; rewrite N.leb_gt, N.ltb_ge; lia).
      replace ((55296 <=? n) && (n <? 56320))%N with false by (symmetry; apply andb_false_iff; rewrite N.leb_gt, N.ltb_ge; lia). reflexivity.
    + apply u_escape_hex4 in Hp, Hu. destruct Hp as (a & b & c & d & -> & Hx). destruct Hu as (a' & b' & c' & d' & -> & Hy).
      cbn [app parse_str N.eqb Pos.eqb]. cbn [N.ltb N.compare Pos.compare Pos.compare_cont].
      rewrite Hx, Hy. unfold is_trail, is_lead.
      replace ((56320 <=? 55296 + hi) && (55296 + hi <? 57344))%N with false by (symmetry; apply andb_false_iff; rewrite N.leb_gt, N.ltb_ge; lia).
      replace ((55296 <=? 55296 + hi) && (55296 + hi <? 56320))%N with true by (symmetry; apply andb_true_iff; rewrite N.leb_le, N.ltb_lt; lia). cbn [andb].
      replace ((56320 <=? 56320 + lo) && (56320 + lo <? 57344))%N with true by (symmetry; apply andb_true_iff; rewrite N.leb_le, N.ltb_lt; lia).
      f_equal. f_equal. lia.
Qed.

Lemma str_inv s w rest : parse_str s = Some (w, rest) ->
  (w = [] /\ s = 34%N :: rest) \/
  exists p v t w', s = p ++ t /\ w = v ++ w' /\ piece p v /\ parse_str t = Some (w', rest) /\ List.length t < List.length s.
Proof.
  destruct s as [|c t]; [discriminate|]. intros H. cbn [parse_str] in H.
  destruct (N.eqb_spec c 34) as [->|E1]; [left; split; congruence|]. right.
  destruct (N.ltb_spec c 32) as [|E2]; [discriminate|].
  destruct (N.eqb_spec c 92) as [->|E3].
  - destruct t as [|e t1]; [discriminate|]. destruct (N.eqb_spec e 117) as [->|E4].
    + destruct t1 as [|h1 [|h2 [|h3 [|h4 t2]]]]; try discriminate.
      destruct (hex4 h1 h2 h3 h4) as [n|] eqn:Hx; [|discriminate].
      destruct (is_trail n) eqn:T; [discriminate|]. destruct (is_lead n) eqn:Ld.
      * destruct t2 as [|b [|u [|g1 [|g2 [|g3 [|g4 t3]]]]]]; try discriminate.
        destruct ((b =? 92) && (u =? 117))%N eqn:Eb; [|discriminate]. destruct (hex4 g1 g2 g3 g4) as [k|] eqn:Hy; [|discriminate].
        destruct (is_trail k) eqn:Tk; [|discriminate]. apply j_app_some in H. destruct H as (w' & H & ->).
        unfold is_trail, is_lead in *. apply andb_true_iff in Eb, Ld, Tk. rewrite N.leb_le, N.ltb_lt in Ld, Tk. rewrite !N.eqb_eq in Eb.
        destruct Eb as [-> ->].
        exists [92; 117; h1; h2; h3; h4; 92; 117; g1; g2; g3; g4]%N. eexists _, t3, w'. split; [reflexivity|]. split; [reflexivity|].
        split; [|split; [exact H|cbn [List.length]; lia]]. right. exists ((n - 55296) * 1024 + (k - 56320) + 65536)%N.
        split; [|split; [reflexivity|apply utf8_char_form; lia]].
        replace ((n - 55296) * 1024 + (k - 56320) + 65536)%N with (0x10000 + (n - 55296) * 0x400 + (k - 56320))%N by lia.
        apply (@sp_pair [92; 117; h1; h2; h3; h4]%N [92; 117; g1; g2; g3; g4]%N); try lia; apply u_escape_hex4.
        -- exists h1, h2, h3, h4. split; [reflexivity|]. rewrite Hx. f_equal. lia.
        -- exists g1, g2, g3, g4. split; [reflexivity|]. rewrite Hy. f_equal. lia.
      * apply j_app_some in H. destruct H as (w' & H & ->). exists [92; 117; h1; h2; h3; h4]%N. eexists _, t2, w'. split; [reflexivity|]. split; [reflexivity|].
        split; [|split; [exact H|cbn [List.length]; lia]]. right. exists n.
        assert (Hu : u_escape [92; 117; h1; h2; h3; h4]%N n) by (apply u_escape_hex4; eauto 8).
        assert (Hn : (n < 65536)%N).
        { apply hex4_exact in Hx as (va & vb & vc & vd & A & B & C & D & ->). apply hex_lt in A, B, C, D. lia. }
        split; [|split; [reflexivity|apply utf8_char_form; lia]]. apply sp_u; [exact Hu|]. unfold is_trail, is_lead in *.
        apply andb_false_iff in T, Ld. rewrite N.leb_gt, N.ltb_ge in T, Ld. lia.
    + destruct (esc_letter e) as [x|] eqn:Ex; [|discriminate]. apply j_app_some in H. destruct H as (w' & H & ->).
      exists [92; e]%N. eexists _, t1, w'. split; [reflexivity|]. split; [reflexivity|]. split; [|split; [exact H|cbn [List.length]; lia]].
      right. exists x. pose proof (esc_letter_spells _ _ Ex) as Sp. split; [exact Sp|]. split; [reflexivity|]. apply utf8_char_form.
      unfold esc_letter in Ex. repeat match type of Ex with context [if ?b then _ else _] => destruct b end; inversion Ex; lia.
  - apply j_app_some in H. destruct H as (w' & H & ->). exists [c]. eexists _, t, w'. split; [reflexivity|]. split; [reflexivity|].
    split; [|split; [exact H|cbn [List.length]; lia]]. left. exists c. auto.
Qed.

Lemma parse_str_exact s w rest :
  parse_str s = Some (w, rest) <-> exists ps vs, Forall2 piece ps vs /\ s = concat ps ++ 34%N :: rest /\ w = concat vs.
Proof.
  split.
  - remember (List.length s) as n eqn:E. revert s w E. induction n as [n IH] using lt_wf_ind. intros s w -> H.
    destruct (str_inv _ H) as [[-> ->]|(p & v & t & w' & Es & -> & Hp & Ht & Hl)]; [exists [], []; repeat split; constructor|].
    destruct (IH _ Hl t w' eq_refl Ht) as (ps & vs & H1 & H2 & ->). exists (p :: ps), (v :: vs). split; [now constructor|].
    cbn [concat]. rewrite Es, H2. now rewrite app_assoc.
  - intros (ps & vs & H & -> & ->). induction H as [|p v ps vs Hp _ IH]; [reflexivity|].
    cbn [concat]. rewrite <- app_assoc, (str_step _ Hp). now rewrite IH.
Qed.
Lemma parse_string_exact l s r : parse_string l = Some (s, r) <-> exists q, quoted s q /\ 34%N :: l = q ++ r.
Proof.
  unfold parse_string. split.
  - destruct (parse_str l) as [[s' r']|] eqn:E; [|discriminate]. destruct (utf8_dec s') as [w|] eqn:U; [|discriminate].
    intros H. assert (s' = s) by congruence. assert (r' = r) by congruence. subst s' r'.
    apply parse_str_exact in E as (ps & vs & H1 & -> & ->). exists (34%N :: concat ps ++ [34%N]). split.
    + exists ps, vs, w. apply utf8_dec_exact in U. auto.
    + cbn [app]. now rewrite <- app_assoc.
  - intros (q & (ps & vs & w & H1 & -> & -> & U) & E). cbn [app] in E. rewrite <- app_assoc in E. cbn [app] in E.
    assert (l = concat ps ++ 34%N :: r) by congruence. subst l.
    assert (P : parse_str (concat ps ++ 34%N :: r) = Some (concat vs, r)) by (apply parse_str_exact; eauto).
    apply utf8_dec_exact in U. now rewrite P, U.
Qed.
Lemma quoted_head s q : quoted s q -> exists t, q = 34%N :: t.
Proof. intros (ps & vs & w & _ & -> & _). eauto. Qed.
Lemma str_ok_quoted s : str_ok s -> quoted s (json_quote s).
Proof.
  intros H. exists (map (fun b => [b]) s), (map (fun b => [b]) s), s. 
  assert (C : forall l : list N, concat (map (fun b => [b]) l) = l) by (induction l as [|x l IH]; [reflexivity|]; cbn; now rewrite IH).
  rewrite C. split; [|split; [reflexivity|split; [reflexivity|]]].
  - induction H as [|b s (H1 & H2 & H3) Hs IH]; constructor; [|exact IH]. left. exists b. repeat split; auto; lia.
  - split.
    + eapply Forall_impl; [|exact H]. intros b [Hb _]. unfold scalar. lia.
    + exists (map (fun b => [b]) s). split; [|symmetry; apply C]. induction H as [|b s (H1 & H2 & H3) Hs IH]; constructor; [|exact IH]. apply form1. lia.
Qed.
Lemma strip_prefix_cut p l r : strip_prefix p l = Some r -> l = p ++ r.
Proof.
  revert l; induction p as [|a p IH]; intros l; cbn [strip_prefix].
  - intros H; inversion H; auto.
  - destruct l as [|b t]; [discriminate|]. destruct (N.eqb_spec a b) as [->|]; [|discriminate].
    intros H. cbn. f_equal. now apply IH.
Qed.

(** ** Soundness *)
Definition nest_kvs (kvs : list (list N * json)) : nat := list_max (map (fun kv => nesting (snd kv)) kvs).
Lemma parse_sound f :
  (forall d l v r, parse_val f d l = Some (v, r) -> exists w t, l = w ++ t ++ r /\ white w /\ json_text v t /\ nesting v <= d) /\
  (forall d l vs r, parse_arr f d l = Some (vs, r) -> exists t, l = t ++ 93%N :: r /\ items vs t /\ list_max (map nesting vs) <= d) /\
  (forall d l kvs r, parse_obj f d l = Some (kvs, r) -> exists t, l = t ++ 125%N :: r /\ members kvs t /\ nest_kvs kvs <= d).
Proof.
  induction f as [|f (IHv & IHa & IHo)].
  { repeat split; intros d l v r H; discriminate. }
  split; [|split].
  - intros d l v r. cbn [parse_val].
    destruct (next_char l) as [[b t]|] eqn:E1; [|discriminate].
    destruct (next_char_cut _ E1) as (w & -> & Hw & Hb).
    destruct (N.eqb_spec b 34) as [->|N1].
    { destruct (parse_string t) as [[s r']|] eqn:Es; [|discriminate]. intros H; inversion H; subst.
      apply parse_string_exact in Es as (q & Hq & Es). exists w, q. rewrite Es. split; [reflexivity|]. split; [exact Hw|]. split; [now constructor|cbn; lia]. }
    destruct (N.eqb_spec b 91) as [->|N2].
    { destruct d as [|d]; [discriminate|]. destruct (next_char t) as [[b2 r2]|] eqn:E2; [|discriminate].
      destruct (N.eqb_spec b2 93) as [->|].
      - intros H; inversion H; subst. destruct (next_char_cut _ E2) as (w2 & -> & Hw2 & _).
        exists w, (str "[" ++ w2 ++ str "]"). split; [|split; [exact Hw|split; [now constructor|cbn; lia]]]. cbn. now rewrite <- app_assoc.
      - destruct (parse_arr f d t) as [[vs r']|] eqn:Ea; [|discriminate]. intros H; inversion H; subst.
        destruct (IHa _ _ _ _ Ea) as (t2 & -> & Ht & Hd). exists w, (str "[" ++ t2 ++ str "]"). split; [|split; [exact Hw|split; [now constructor|cbn [nesting]; unfold nest_kvs in *; lia]]].
        cbn. now rewrite <- app_assoc. }
    destruct (N.eqb_spec b 123) as [->|N3].
    { destruct d as [|d]; [discriminate|]. destruct (next_char t) as [[b2 r2]|] eqn:E2; [|discriminate].
      destruct (N.eqb_spec b2 125) as [->|].
      - intros H; inversion H; subst. destruct (next_char_cut _ E2) as (w2 & -> & Hw2 & _).
        exists w, (str "{" ++ w2 ++ str "}"). split; [|split; [exact Hw|split; [now constructor|cbn; lia]]]. cbn. now rewrite <- app_assoc.
      - destruct (parse_obj f d t) as [[vs r']|] eqn:Ea; [|discriminate]. intros H; inversion H; subst.
        destruct (IHo _ _ _ _ Ea) as (t2 & -> & Ht & Hd). exists w, (str "{" ++ t2 ++ str "}"). split; [|split; [exact Hw|split; [now constructor|cbn [nesting]; unfold nest_kvs in *; lia]]].
        cbn. now rewrite <- app_assoc. }
    destruct (is_digit b || (b =? 45)%N) eqn:Ed.
    { intros H. assert (Hn : nesting v <= d).
      { unfold parse_num in H. destruct (skip_minus (b :: t)) as [n0 l0]. destruct (span_digits l0) as [u r0].
        assert (G : forall X : option (json * list N), match u with Nil => None | _ => X end = Some (v, r) -> X = Some (v, r)) by (destruct u; congruence).
        apply G in H. destruct (leading_zero u); [discriminate|]. destruct (parse_frac r0) as [[? ?]|]; [|discriminate].
        destruct (parse_exp _) as [[? ?]|]; [|discriminate]. injection H as <- _. match goal with |- nesting (if ?b then _ else _) <= _ => destruct b end; cbn; lia. }
      apply parse_num_cut in H as (t0 & E & Ht). rewrite E. exists w, t0. auto. }
    destruct (strip_prefix (str "true") (b :: t)) as [r'|] eqn:S1.
    { intros H; inversion H; subst. apply strip_prefix_cut in S1. rewrite S1.
      exists w, (str "true"). split; [reflexivity|split; [exact Hw|split; [constructor|cbn; lia]]]. }
    destruct (strip_prefix (str "false") (b :: t)) as [r'|] eqn:S2.
    { intros H; inversion H; subst. apply strip_prefix_cut in S2. rewrite S2.
      exists w, (str "false"). split; [reflexivity|split; [exact Hw|split; [constructor|cbn; lia]]]. }
    destruct (strip_prefix (str "null") (b :: t)) as [r'|] eqn:S3; [|discriminate].
    { intros H; inversion H; subst. apply strip_prefix_cut in S3. rewrite S3.
      exists w, (str "null"). split; [reflexivity|split; [exact Hw|split; [constructor|cbn; lia]]]. }
  - intros d l v r. cbn [parse_arr].
    destruct (parse_val f d l) as [[v1 r1]|] eqn:Ev; [|discriminate].
    destruct (IHv _ _ _ _ Ev) as (w1 & t1 & -> & Hw1 & Ht1 & Hn1).
    destruct (next_char r1) as [[b t]|] eqn:E1; [|discriminate].
    destruct (next_char_cut _ E1) as (w2 & -> & Hw2 & _).
    destruct (N.eqb_spec b 93) as [->|].
    { intros H; inversion H; subst. exists (w1 ++ t1 ++ w2). split; [now rewrite <- !app_assoc|]. split; [now constructor|unfold list_max; cbn [map fold_right]; lia]. }
    destruct (N.eqb_spec b 44) as [->|]; [|discriminate].
    destruct (parse_arr f d t) as [[vs r']|] eqn:Ea; [|discriminate]. intros H; inversion H; subst.
    destruct (IHa _ _ _ _ Ea) as (t2 & -> & Ht2 & Hd). exists (w1 ++ t1 ++ w2 ++ str "," ++ t2).
    split; [|split; [now constructor|unfold list_max in *; cbn [map fold_right]; lia]]. rewrite <- !app_assoc. reflexivity.
  - intros d l v r. cbn [parse_obj].
    destruct (next_char l) as [[q t]|] eqn:E0; [|discriminate].
    destruct (next_char_cut _ E0) as (w0 & -> & Hw0 & _).
    destruct (N.eqb_spec q 34) as [->|]; [|discriminate].
    destruct (parse_string t) as [[k r0]|] eqn:Es; [|discriminate].
    apply parse_string_exact in Es as (q & Hk & Es). rewrite Es. clear Es.
    destruct (next_char r0) as [[c r1]|] eqn:E1; [|discriminate].
    destruct (next_char_cut _ E1) as (w2 & -> & Hw2 & _).
    destruct (N.eqb_spec c 58) as [->|]; [|discriminate].
    destruct (parse_val f d r1) as [[v1 r2]|] eqn:Ev; [|discriminate].
    destruct (IHv _ _ _ _ Ev) as (w3 & t3 & -> & Hw3 & Ht3 & Hn3).
    destruct (next_char r2) as [[b r3]|] eqn:E2; [|discriminate].
    destruct (next_char_cut _ E2) as (w4 & -> & Hw4 & _).
    destruct (N.eqb_spec b 125) as [->|].
    { intros H; inversion H; subst. exists (w0 ++ q ++ w2 ++ str ":" ++ w3 ++ t3 ++ w4).
      split; [|split; [now constructor|unfold nest_kvs, list_max; cbn [map fold_right snd]; lia]]. cbn [str]. repeat (rewrite <- !app_assoc; cbn [app]). reflexivity. }
    destruct (N.eqb_spec b 44) as [->|]; [|discriminate].
    destruct (parse_obj f d r3) as [[vs r']|] eqn:Ea; [|discriminate]. intros H; inversion H; subst.
    destruct (IHo _ _ _ _ Ea) as (t5 & -> & Ht5 & Hd). exists (w0 ++ q ++ w2 ++ str ":" ++ w3 ++ t3 ++ w4 ++ str "," ++ t5).
    split; [|split; [now constructor|unfold nest_kvs, list_max in *; cbn [map fold_right snd]; lia]]. cbn [str]. repeat (rewrite <- !app_assoc; cbn [app]). reflexivity.
Qed.

(** ** Completeness *)
Lemma text_head v t : json_text v t -> exists b r, t = b :: r /\ is_ws b = false /\ b <> 93%N /\ b <> 125%N.
Proof.
  destruct 1 as [| | |n t Hn|t Ht|s t Hs|w Hw|vs t Ht|w Hw|kvs t Ht]; try (do 2 eexists; repeat split; try reflexivity; discriminate).
  - destruct (number_uint Hn) as (u & -> & Hu & _). destruct (uint_bytes_head Hu) as (b & r & E & Hd). exists b, r. split; [exact E|].
    destruct (digit_props _ Hd) as (D1 & _ & _ & _ & D5 & D6 & _). split; [exact D1|]. split; apply N.eqb_neq; assumption.
  - destruct Ht as (sg & n & ip & fr & ex & [->| ->] & Hn & _ & _ & _ & ->); [|exists 45%N; eexists; repeat split; try reflexivity; discriminate].
    destruct (number_uint Hn) as (u & -> & Hu & _). destruct (uint_bytes_head Hu) as (b & r & E & Hd). rewrite E. exists b. eexists. split; [reflexivity|].
    destruct (digit_props _ Hd) as (D1 & _ & _ & _ & D5 & D6 & _). split; [exact D1|]. split; apply N.eqb_neq; assumption.
  - destruct (quoted_head Hs) as (r & ->). exists 34%N, r. repeat split; discriminate.
Qed.
Lemma white_no_digit w r : white w -> no_num_head r -> no_num_head (w ++ r).
Proof.
  intros Hw Hr. destruct Hw as [|b w Hb Hw]; [exact Hr|]. cbn. cbn [In] in Hb.
  destruct Hb as [<-|[<-|[<-|[<-|[]]]]]; repeat split; discriminate.
Qed.
Lemma items_head vs t : items vs t -> exists w b r, t = w ++ b :: r /\ white w /\ is_ws b = false /\ b <> 93%N.
Proof.
  destruct 1 as [v w1 t w2 H1 H2 H3|v vs w1 t w2 ts H1 H2 H3 _]; destruct (text_head H3) as (b & r & -> & Hb & Hn & _); exists w1, b;
    eexists; (split; [reflexivity|auto]).
Qed.
Lemma members_head kvs t : members kvs t -> exists w r, t = w ++ 34%N :: r /\ white w.
Proof.
  destruct 1 as [k q v w1 w2 w3 t w4 H1 H2 H3 H4 Hq|k q v kvs w1 w2 w3 t w4 ts H1 H2 H3 H4 Hq]; destruct (quoted_head Hq) as (q' & ->); exists w1; eexists; (split; [reflexivity|auto]).
Qed.

Lemma parse_complete :
  (forall v t, json_text v t -> forall w r f d, white w -> no_num_head r -> 2 * List.length t <= f -> nesting v <= d ->
     parse_val f d (w ++ t ++ r) = Some (v, r)) /\
  (forall vs t, items vs t -> forall r f d, 2 * List.length t + 1 <= f -> list_max (map nesting vs) <= d -> parse_arr f d (t ++ 93%N :: r) = Some (vs, r)) /\
  (forall kvs t, members kvs t -> forall r f d, 2 * List.length t + 1 <= f -> nest_kvs kvs <= d -> parse_obj f d (t ++ 125%N :: r) = Some (kvs, r)).
Proof.
  apply json_text_all.
  - intros w r [|f] d Hw Hr Hf Hn; [cbn in Hf; lia|]. cbn [parse_val]. cbn [str app]. rewrite next_char_white by auto. reflexivity.
  - intros w r [|f] d Hw Hr Hf Hn; [cbn in Hf; lia|]. cbn [parse_val]. cbn [str app]. rewrite next_char_white by auto. reflexivity.
  - intros w r [|f] d Hw Hr Hf Hn; [cbn in Hf; lia|]. cbn [parse_val]. cbn [str app]. rewrite next_char_white by auto. reflexivity.
  - intros n t Hn w r f d Hw Hr Hf _. pose proof (@parse_num_ok [] n t [] [] r (or_introl eq_refl) Hn (or_introl eq_refl) (or_introl eq_refl) Hr) as P.
    cbn [app nonempty orb] in P. destruct (number_uint Hn) as (u & E0 & Hu & _).
    destruct (uint_bytes_head Hu) as (b & t' & E & Hd). rewrite <- E0 in E. destruct f as [|f]; [rewrite E in Hf; cbn in Hf; lia|].
    destruct (digit_props _ Hd) as (D1 & D2 & D3 & D4 & _). cbn [parse_val]. rewrite E in *. cbn [app] in *.
    rewrite next_char_white by auto. rewrite D2, D3, D4, Hd. cbn [orb]. exact P.
  - intros t (sg & n & ip & fr & ex & Hs & Hn & Hfr & Hex & Hne & ->) w r f d Hw Hr Hf _.
    pose proof (@parse_num_ok sg n ip fr ex r Hs Hn Hfr Hex Hr) as P.
    assert (Ev : nonempty sg || nonempty fr || nonempty ex = true) by (destruct sg; [|reflexivity]; destruct fr; [|reflexivity]; destruct ex; [|reflexivity]; cbn in Hne; congruence).
    rewrite Ev in P. rewrite <- !app_assoc.
    assert (Hh : exists b t', sg ++ ip ++ fr ++ ex ++ r = b :: t' /\ is_ws b = false /\ (b =? 34)%N = false /\ (b =? 91)%N = false /\ (b =? 123)%N = false /\ is_digit b || (b =? 45)%N = true).
    { destruct Hs as [->| ->]; [|exists 45%N; eexists; repeat split; reflexivity].
      destruct (number_uint Hn) as (u & E0 & Hu & _). destruct (uint_bytes_head Hu) as (b & t' & E & Hd). rewrite E0, E. exists b. eexists.
      destruct (digit_props _ Hd) as (D1 & D2 & D3 & D4 & _). rewrite Hd. repeat split; assumption. }
    destruct Hh as (b & t' & E & D1 & D2 & D3 & D4 & D5). destruct f as [|f].
    { rewrite !app_length in Hf. destruct (number_uint Hn) as (u & E0 & Hu & _). destruct (uint_bytes_head Hu) as (b0 & t0 & E1 & _). rewrite E0, E1 in Hf. cbn in Hf. lia. }
    cbn [parse_val]. rewrite E in *. rewrite next_char_white by auto. rewrite D2, D3, D4, D5. exact P.
  - intros s t Hs w r [|f] d Hw Hr Hf Hn; [destruct (quoted_head Hs) as (t' & ->); cbn in Hf; lia|]. cbn [parse_val].
    destruct (quoted_head Hs) as (t' & ->). cbn [app]. rewrite next_char_white by auto.
    cbn [N.eqb Pos.eqb]. assert (P : parse_string (t' ++ r) = Some (s, r)) by (apply parse_string_exact; exists (34%N :: t'); split; [exact Hs|reflexivity]). now rewrite P.
  - intros w0 Hw0 w r [|f] d Hw Hr Hf Hn; [cbn in Hf; lia|]. cbn in Hn. destruct d as [|d]; [lia|]. cbn [parse_val]. cbn [str app].
    change (N_of_ascii "["%char) with 91%N. rewrite next_char_white by auto. cbn [N.eqb Pos.eqb]. rewrite <- app_assoc. cbn [app].
    change (N_of_ascii "]"%char) with 93%N. rewrite next_char_white by auto. reflexivity.
  - intros vs t Ht IH w r [|f] d Hw Hr Hf Hn; [cbn in Hf; lia|]. cbn [nesting] in Hn. destruct d as [|d]; [lia|]. cbn [parse_val]. cbn [str app].
    change (N_of_ascii "["%char) with 91%N. rewrite next_char_white by auto. cbn [N.eqb Pos.eqb]. rewrite <- app_assoc. cbn [app].
    change (N_of_ascii "]"%char) with 93%N.
    destruct (items_head Ht) as (w1 & b & r1 & E & Hw1 & Hb & Hne).
    assert (En : next_char (t ++ 93%N :: r) = Some (b, r1 ++ 93%N :: r)).
    { rewrite E, <- app_assoc. cbn [app]. now apply next_char_white. }
    rewrite En. rewrite (proj2 (N.eqb_neq b 93) Hne). rewrite IH; [reflexivity| |lia]. cbn [str app List.length] in Hf. rewrite app_length in Hf. cbn [List.length] in Hf. lia.
  - intros w0 Hw0 w r [|f] d Hw Hr Hf Hn; [cbn in Hf; lia|]. cbn in Hn. destruct d as [|d]; [lia|]. cbn [parse_val]. cbn [str app].
    change (N_of_ascii "{"%char) with 123%N. rewrite next_char_white by auto. cbn [N.eqb Pos.eqb]. rewrite <- app_assoc. cbn [app].
    change (N_of_ascii "}"%char) with 125%N. rewrite next_char_white by auto. reflexivity.
  - intros kvs t Ht IH w r [|f] d Hw Hr Hf Hn; [cbn in Hf; lia|]. cbn [nesting] in Hn. destruct d as [|d]; [lia|]. cbn [parse_val]. cbn [str app].
    change (N_of_ascii "{"%char) with 123%N. rewrite next_char_white by auto. cbn [N.eqb Pos.eqb]. rewrite <- app_assoc. cbn [app].
    change (N_of_ascii "}"%char) with 125%N.
    destruct (members_head Ht) as (w1 & r1 & E & Hw1).
    assert (En : next_char (t ++ 125%N :: r) = Some (34%N, r1 ++ 125%N :: r)).
    { rewrite E, <- app_assoc. cbn [app]. now apply next_char_white. }
    rewrite En. cbn [N.eqb Pos.eqb]. rewrite IH; [reflexivity| |unfold nest_kvs; lia]. cbn [str app List.length] in Hf. rewrite app_length in Hf. cbn [List.length] in Hf. lia.
  - intros v w1 t w2 Hw1 Hw2 Ht IH r [|f] d Hf Hn; [lia|]. cbn [parse_arr]. rewrite <- !app_assoc. cbn in Hn.
    rewrite !app_length in Hf. rewrite (IH w1 (w2 ++ 93%N :: r) f d Hw1); [|apply white_no_digit; auto; repeat split; discriminate|lia|lia].
    rewrite next_char_white by auto. reflexivity.
  - intros v vs w1 t w2 ts Hw1 Hw2 Ht IH Hts IHs r [|f] d Hf Hn; [lia|]. cbn [parse_arr]. rewrite <- !app_assoc. unfold list_max in *. cbn [map fold_right] in Hn.
    rewrite !app_length in Hf. cbn [str List.length] in Hf. cbn [str app]. change (N_of_ascii ","%char) with 44%N.
    rewrite (IH w1 (w2 ++ 44%N :: ts ++ 93%N :: r) f d Hw1); [|apply white_no_digit; auto; repeat split; discriminate|lia|lia].
    rewrite next_char_white by auto. cbn [N.eqb Pos.eqb]. rewrite IHs; [reflexivity|lia|lia].
  - intros k q v w1 w2 w3 t w4 Hw1 Hw2 Hw3 Hw4 Hk Ht IH r [|f] d Hf Hn; [lia|]. cbn [parse_obj]. unfold nest_kvs in Hn. cbn in Hn.
    destruct (quoted_head Hk) as (q' & Eq). assert (P : forall r, parse_string (q' ++ r) = Some (k, r)) by (intros r0; apply parse_string_exact; exists q; split; [exact Hk|now rewrite Eq]).
    rewrite Eq in *. rewrite !app_length in Hf. cbn [List.length] in Hf. cbn [str app]. change (N_of_ascii ":"%char) with 58%N.
    repeat (rewrite <- !app_assoc; cbn [app]). rewrite next_char_white by auto. cbn [N.eqb Pos.eqb].
    rewrite P. rewrite next_char_white by auto. cbn [N.eqb Pos.eqb].
    rewrite (IH w3 (w4 ++ 125%N :: r) f d Hw3); [|apply white_no_digit; auto; repeat split; discriminate|lia|lia].
    rewrite next_char_white by auto. reflexivity.
  - intros k q v kvs w1 w2 w3 t w4 ts Hw1 Hw2 Hw3 Hw4 Hk Ht IH Hts IHs r [|f] d Hf Hn; [lia|]. cbn [parse_obj]. unfold nest_kvs, list_max in *. cbn [map fold_right snd] in Hn.
    destruct (quoted_head Hk) as (q' & Eq). assert (P : forall r, parse_string (q' ++ r) = Some (k, r)) by (intros r0; apply parse_string_exact; exists q; split; [exact Hk|now rewrite Eq]).
    rewrite Eq in *. rewrite !app_length in Hf. cbn [str List.length] in Hf. cbn [str app]. change (N_of_ascii ":"%char) with 58%N. change (N_of_ascii ","%char) with 44%N.
    repeat (rewrite <- !app_assoc; cbn [app]). rewrite next_char_white by auto. cbn [N.eqb Pos.eqb].
    rewrite P. rewrite next_char_white by auto. cbn [N.eqb Pos.eqb].
    rewrite (IH w3 (w4 ++ 44%N :: ts ++ 125%N :: r) f d Hw3); [|apply white_no_digit; auto; repeat split; discriminate|lia|lia].
    rewrite next_char_white by auto. cbn [N.eqb Pos.eqb]. rewrite IHs; [reflexivity|lia|lia].
Qed.

Theorem json_parse_iff l v : json_parse l = Some v <-> document v l.
Proof.
  unfold json_parse. split.
  - destruct (parse_val _ _ l) as [[v' r]|] eqn:E; [|discriminate].
    destruct (proj1 (parse_sound _) _ _ _ _ E) as (w & t & -> & Hw & Ht & Hn).
    destruct (skip_ws_cut r) as (w2 & E2 & Hw2 & _). destruct (skip_ws r); [|discriminate].
    intros H. assert (v' = v) by congruence. subst v'. rewrite app_nil_r in E2. subst r. exists w, t, w2. auto.
  - intros (w1 & t & w2 & H1 & H2 & Ht & Hn & ->).
    rewrite (proj1 parse_complete _ _ Ht w1 w2 (2 * List.length (w1 ++ t ++ w2) + 2) 127); auto.
    + rewrite <- (app_nil_r w2), skip_ws_white by assumption. reflexivity.
    + rewrite <- (app_nil_r w2). apply white_no_digit; [assumption|exact Coq.Init.Logic.I].
    + rewrite !app_length. lia.
Qed.

(** ** What is written is a document *)
Lemma json_ok_text v : json_ok v -> json_text v (json_write v).
Proof.
  induction v as [|b|n| |s|l IH|kvs IH] using json_ind2; intros Hok.
  - constructor.
  - destruct b; constructor.
  - constructor. cbn [json_write]. unfold digits. pose proof (number_bytes (to_uint_nonnil n) (to_uint_no_zero n)) as H. now rewrite Unsigned.of_to in H.
  - inversion Hok.
  - inversion Hok; subst. constructor. now apply str_ok_quoted.
  - inversion Hok as [| | | |? Hl|]; subst. destruct l as [|v l].
    + exact (@TArr0 [] (Forall_nil _)).
    + change (json_write (JArr (v :: l))) with (str "[" ++ commas (map json_write (v :: l)) ++ str "]"). constructor. clear Hok.
      revert v IH Hl. induction l as [|w l IHl]; intros v IH Hl; inversion IH as [|? ? I1 I2]; inversion Hl as [|? ? L1 L2]; subst.
      * cbn [map commas]. pose proof (@item_last v [] (json_write v) [] (Forall_nil _) (Forall_nil _) (I1 L1)) as P. cbn [app] in P. now rewrite app_nil_r in P.
      * cbn [map]. rewrite commas_cons2.
        exact (@item_more v (w :: l) [] (json_write v) [] _ (Forall_nil _) (Forall_nil _) (I1 L1) (IHl w I2 L2)).
  - inversion Hok as [| | | | |? Hl]; subst. destruct kvs as [|v l].
    + exact (@TObj0 [] (Forall_nil _)).
    + change (json_write (JObj (v :: l))) with (str "{" ++ commas (map item_write (v :: l)) ++ str "}"). constructor. clear Hok.
      revert v IH Hl. induction l as [|w l IHl]; intros [k v] IH Hl; inversion IH as [|? ? I1 I2]; inversion Hl as [|? ? [L1 L1'] L2]; subst; cbn [fst snd] in *.
      * cbn [map commas]. unfold item_write. cbn [fst snd].
        pose proof (@member_last k (json_quote k) v [] [] [] (json_write v) [] (Forall_nil _) (Forall_nil _) (Forall_nil _) (Forall_nil _) (str_ok_quoted L1) (I1 L1')) as P.
        cbn [app] in P. now rewrite app_nil_r in P.
      * cbn [map]. rewrite commas_cons2. unfold item_write at 1. cbn [fst snd]. rewrite <- app_assoc.
        exact (@member_more k (json_quote k) v (w :: l) [] [] [] (json_write v) [] _ (Forall_nil _) (Forall_nil _) (Forall_nil _) (Forall_nil _) (str_ok_quoted L1) (I1 L1') (IHl w I2 L2)).
Qed.
Lemma json_round_trip v k : json_ok v -> nesting v <= 127 -> json_parse (json_write v ++ repeat 32%N k) = Some v.
Proof.
  intros H Hn. apply json_parse_iff. exists [], (json_write v), (repeat 32%N k). split; [constructor|]. split.
  - apply Forall_forall. intros b Hb. apply repeat_spec in Hb. subst. cbn; auto.
  - split; [now apply json_ok_text|]. split; [exact Hn|reflexivity].
Qed.

(** ** A document has no NUL byte *)
Definition nonul (l : list N) : Prop := Forall (fun b => b <> 0%N) l.
Lemma white_nonul w : white w -> nonul w.
Proof. intros H. eapply Forall_impl; [|exact H]. intros b Hb ->. cbn in Hb. intuition discriminate. Qed.
Lemma digits_nonul t : Forall (fun b => (48 <= b <= 57)%N) t -> nonul t.
Proof. intros H. eapply Forall_impl; [|exact H]. intros b Hb ->. lia. Qed.
Lemma u_nonul t n : u_escape t n -> nonul t.
Proof.
  intros (a & b & c & d & va & vb & vc & vd & -> & A & B & C & D & _).
  assert (L : forall x y, hex x y -> x <> 0%N) by (intros x y []; lia).
  apply L in A, B, C, D. repeat constructor; auto; discriminate.
Qed.
Lemma piece_nonul p v : piece p v -> nonul p.
Proof.
  intros [(b & -> & _ & H & _)|(c & Hp & Hh & _)]; [constructor; [lia|constructor]|].
  destruct Hp as [c H1 H2 H3| | | | | | | | |p n Hu Hn|p u hi lo Hp Hu Hh' Hl]; try (repeat constructor; discriminate).
  - constructor; [lia|constructor].
  - eapply u_nonul; eauto.
  - apply Forall_app. split; eapply u_nonul; eauto.
Qed.
Lemma quoted_nonul s q : quoted s q -> nonul q.
Proof.
  intros (ps & vs & w & H & -> & _). constructor; [discriminate|]. apply Forall_app. split; [|repeat constructor; discriminate].
  induction H as [|p v ps vs Hp _ IH]; [constructor|]. cbn [concat]. apply Forall_app. split; [eapply piece_nonul; eauto|exact IH].
Qed.
Lemma number_nonul n t : number n t -> nonul t.
Proof. intros (_ & H & _). now apply digits_nonul. Qed.
Lemma text_nonul :
  (forall v t, json_text v t -> nonul t) /\ (forall vs t, items vs t -> nonul t) /\ (forall kvs t, members kvs t -> nonul t).
Proof.
  assert (C : forall c, c <> 0%N -> nonul [c]) by (intros c H; constructor; [exact H|constructor]).
  apply json_text_all; intros; unfold nonul in *; cbn [str]; repeat (apply Forall_app; split); auto using white_nonul;
    try (repeat constructor; discriminate); try (eapply number_nonul; eassumption); try (eapply quoted_nonul; eassumption); try (now apply white_nonul).
  destruct r as (sg & n & ip & fr & ex & Hs & Hn & Hf & He & _ & ->).
  repeat (apply Forall_app; split).
  - destruct Hs as [->| ->]; [constructor|repeat constructor; discriminate].
  - eapply number_nonul; eauto.
  - destruct Hf as [->|(ds & [_ Hd] & ->)]; [constructor|constructor; [discriminate|now apply digits_nonul]].
  - destruct He as [->|(e & sg' & ds & He & Hs' & [_ Hd] & ->)]; [constructor|]. constructor; [cbn in He; intuition (subst; discriminate)|].
    apply Forall_app. split; [|now apply digits_nonul]. cbn in Hs'. intuition (subst; repeat constructor; discriminate).
Qed.
Lemma json_parse_nonul l v : json_parse l = Some v -> nonul l.
Proof.
  intros H. apply json_parse_iff in H as (w1 & t & w2 & H1 & H2 & Ht & _ & ->).
  apply Forall_app. split; [now apply white_nonul|]. apply Forall_app. split; [eapply (proj1 text_nonul); eauto|now apply white_nonul].
Qed.
