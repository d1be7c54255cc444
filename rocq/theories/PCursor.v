(** * Reasoning about seekable writers *)
From Verif Require Import Base BaseFacts Bytes PBytes MSliceVec SSliceVec.
Set Implicit Arguments.

Lemma byte_at_cwrite c bs i :
  byte_at (cwrite c bs) i =
  if (cpos c <=? i) && (i <? cpos c + length bs) then nth_error bs (i - cpos c)
  else if i <? length (cbuf c) then byte_at c i
  else if (i <? cpos c) && negb (length bs =? 0) then Some 0%N else None.
Proof.
  pose proof (cwrite_nth c bs i) as Hn. pose proof (cwrite_length c bs) as HL.
  unfold byte_at in *.
  set (l := cbuf (cwrite c bs)) in *.
  assert (Hs : nth_error l i = if i <? length l then Some (nth i l 0%N) else None).
  { destruct (Nat.ltb_spec i (length l)).
    - now apply nth_error_nth'.
    - now apply nth_error_None. }
  rewrite Hs, Hn.
  destruct bs as [|b bs].
  - cbn [length] in *. rewrite Nat.add_0_r, HL in *.
    assert (E : (cpos c <=? i) && (i <? cpos c) = false).
    { destruct (Nat.leb_spec (cpos c) i), (Nat.ltb_spec i (cpos c)); auto; lia. }
    rewrite E. cbn [Nat.eqb negb]. rewrite andb_false_r.
    destruct (Nat.ltb_spec i (length (cbuf c))); [|reflexivity].
    symmetry. now apply nth_error_nth'.
  - cbv beta iota in HL. rewrite HL. cbn [Nat.eqb negb length]. rewrite andb_true_r.
    set (n := S (length bs)) in *.
    destruct (Nat.leb_spec (cpos c) i); cbn [andb].
    + destruct (Nat.ltb_spec i (cpos c + n)).
      * assert (i <? Nat.max (length (cbuf c)) (cpos c + n) = true) as ->.
        { apply Nat.ltb_lt. cbn [length]. unfold n in *. lia. }
        symmetry. apply nth_error_nth'. cbn [length]. unfold n in *. lia.
      * destruct (Nat.ltb_spec i (length (cbuf c))).
        -- assert (i <? Nat.max (length (cbuf c)) (cpos c + n) = true) as ->.
           { apply Nat.ltb_lt. lia. }
           symmetry. now apply nth_error_nth'.
        -- assert (i <? Nat.max (length (cbuf c)) (cpos c + n) = false) as ->.
           { apply Nat.ltb_ge. cbn [length]. unfold n in *. lia. }
           destruct (Nat.ltb_spec i (cpos c)); [lia|reflexivity].
    + assert (i <? Nat.max (length (cbuf c)) (cpos c + n) = true) as ->.
      { apply Nat.ltb_lt. lia. }
      destruct (Nat.ltb_spec i (length (cbuf c))).
      * symmetry. now apply nth_error_nth'.
      * destruct (Nat.ltb_spec i (cpos c)); [|lia]. rewrite nth_overflow by lia. reflexivity.
Qed.

Lemma holds_nil c p : holds c p [].
Proof. intros i Hi; cbn in Hi; lia. Qed.

Lemma holds_app c p a b : holds c p (a ++ b) <-> holds c p a /\ holds c (p + length a) b.
Proof.
  unfold holds. rewrite app_length. split.
  - intros H. split; intros i Hi.
    + rewrite H by lia. now rewrite nth_error_app1.
    + rewrite <- Nat.add_assoc, H by lia. rewrite nth_error_app2 by lia. f_equal. lia.
  - intros [Ha Hb] i Hi. destruct (Nat.ltb_spec i (length a)).
    + rewrite Ha by lia. now rewrite nth_error_app1.
    + replace (p + i) with (p + length a + (i - length a)) by lia.
      rewrite Hb by lia. now rewrite nth_error_app2.
Qed.

Lemma holds_seek c p q bs : holds (cseek c q) p bs <-> holds c p bs.
Proof. reflexivity. Qed.

Lemma holds_written c bs : holds (cwrite c bs) (cpos c) bs.
Proof.
  intros i Hi. rewrite byte_at_cwrite.
  destruct (Nat.leb_spec (cpos c) (cpos c + i)); [|lia].
  destruct (Nat.ltb_spec (cpos c + i) (cpos c + length bs)); [|lia]. cbn. f_equal. lia.
Qed.

Lemma holds_frame c p bs new :
  holds c p bs -> cpos c + length new <= p \/ p + length bs <= cpos c ->
  holds (cwrite c new) p bs.
Proof.
  intros H Hd i Hi. rewrite byte_at_cwrite.
  destruct (Nat.leb_spec (cpos c) (p + i)), (Nat.ltb_spec (p + i) (cpos c + length new)); cbn [andb]; try lia.
  - specialize (H i Hi). rewrite <- H. unfold byte_at.
    destruct (Nat.ltb_spec (p + i) (length (cbuf c))); auto.
    exfalso. assert (nth_error bs i <> None) by (apply nth_error_Some; lia).
    rewrite <- H in H3. apply H3. now apply nth_error_None.
  - specialize (H i Hi). rewrite <- H. unfold byte_at.
    destruct (Nat.ltb_spec (p + i) (length (cbuf c))); auto.
    exfalso. assert (nth_error bs i <> None) by (apply nth_error_Some; lia).
    rewrite <- H in H3. apply H3. now apply nth_error_None.
Qed.

(** [frame b e c c']: no byte outside [b..e) differs between [c] and [c']. *)
Definition frame (b e : nat) (c c' : cursor) : Prop :=
  forall i, i < b \/ e <= i -> byte_at c' i = byte_at c i.

Lemma frame_refl b e c : frame b e c c.
Proof. intros i Hi; auto. Qed.
Lemma frame_trans b e c1 c2 c3 : frame b e c1 c2 -> frame b e c2 c3 -> frame b e c1 c3.
Proof. intros H1 H2 i Hi. rewrite H2, H1; auto. Qed.
Lemma frame_seek b e c c' q : frame b e c c' -> frame b e c (cseek c' q).
Proof. intros H i Hi. apply H; auto. Qed.
Lemma frame_weaken b e b' e' c c' : frame b e c c' -> b' <= b -> e <= e' -> frame b' e' c c'.
Proof. intros H Hb He i Hi. apply H. lia. Qed.

Lemma frame_write b e c new :
  b <= length (cbuf c) -> b <= cpos c -> cpos c + length new <= e -> frame b e c (cwrite c new).
Proof.
  intros Hl Hb He i Hi. rewrite byte_at_cwrite.
  destruct (Nat.leb_spec (cpos c) i), (Nat.ltb_spec i (cpos c + length new)); cbn [andb]; try lia.
  - unfold byte_at. destruct (Nat.ltb_spec i (length (cbuf c))); auto.
    destruct (Nat.ltb_spec i (cpos c)); [lia|]. cbn. symmetry. now apply nth_error_None.
  - unfold byte_at. destruct (Nat.ltb_spec i (length (cbuf c))); auto. lia.
Qed.

Lemma cwrite_mono c new : length (cbuf c) <= length (cbuf (cwrite c new)).
Proof. rewrite cwrite_length. destruct new; lia. Qed.

(** Writing [bs] piecewise (first byte first) equals writing it at once. *)
Lemma piecewise_is_cwrite c0 first bs c :
  0 < length first ->
  (exists rest, bs = first ++ rest) ->
  frame (cpos c0) (cpos c0 + length bs) (cwrite c0 first) c ->
  holds c (cpos c0) bs ->
  cbuf c = cbuf (cwrite c0 bs).
Proof.
  intros Hf [rest Hr] Hframe Hh. apply nth_error_ext. intros i.
  change (byte_at c i = byte_at (cwrite c0 bs) i).
  assert (Hbs : length first <= length bs) by (subst; rewrite app_length; lia).
  destruct (Nat.leb_spec (cpos c0) i) as [Hi|Hi].
  - destruct (Nat.ltb_spec i (cpos c0 + length bs)) as [Hi2|Hi2].
    + rewrite byte_at_cwrite. apply Nat.leb_le in Hi as Hb. apply Nat.ltb_lt in Hi2 as Hb2.
      rewrite Hb, Hb2. cbn [andb]. specialize (Hh (i - cpos c0) ltac:(lia)).
      replace (cpos c0 + (i - cpos c0)) with i in Hh by lia. exact Hh.
    + rewrite Hframe by lia. rewrite !byte_at_cwrite.
      destruct (Nat.ltb_spec i (cpos c0 + length first)); [lia|].
      destruct (Nat.ltb_spec i (cpos c0 + length bs)); [lia|].
      rewrite !andb_false_r. destruct (Nat.ltb_spec i (length (cbuf c0))); auto.
      destruct (Nat.ltb_spec i (cpos c0)); [lia|reflexivity].
  - rewrite Hframe by lia. rewrite !byte_at_cwrite.
    destruct (Nat.leb_spec (cpos c0) i); [lia|]. cbn [andb].
    destruct (Nat.ltb_spec i (length (cbuf c0))); auto.
    destruct (Nat.ltb_spec i (cpos c0)); [|lia]. cbn [andb].
    destruct (Nat.eqb_spec (length first) 0); [lia|].
    destruct (Nat.eqb_spec (length bs) 0); [lia|]. reflexivity.
Qed.

(** Reading back what a cursor holds. *)
Lemma holds_read c p bs : holds c p bs -> firstn (length bs) (skipn p (cbuf c)) = bs.
Proof.
  intros H. apply nth_error_ext. intros i.
  destruct (Nat.ltb_spec i (length bs)) as [Hi|Hi].
  - assert (E : forall (l : list N) k, i < k -> nth_error (firstn k l) i = nth_error l i).
    { intros l. clear. revert i; induction l as [|x t IH]; intros i k Hk.
      - now rewrite firstn_nil.
      - destruct k; [lia|]. destruct i; cbn; auto. apply IH. lia. }
    rewrite E by auto.
    assert (E2 : forall (l : list N) q k, nth_error (skipn q l) k = nth_error l (q + k)).
    { clear. intros l q. revert l; induction q; intros l k; cbn; auto. destruct l; cbn; auto.
      now destruct k. }
    rewrite E2. now apply H.
  - transitivity (@None N); [|symmetry; now apply nth_error_None].
    apply nth_error_None. rewrite firstn_length. lia.
Qed.
