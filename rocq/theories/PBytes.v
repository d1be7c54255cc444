(** * Lemmas about [Bytes] *)
From Verif Require Import Base BaseFacts Bytes.
Set Implicit Arguments.

Lemma le_enc_length k n : length (le_enc k n) = k.
Proof. revert n; induction k; cbn; auto. Qed.

Lemma le_enc_bytes k n : bytes_ok (le_enc k n).
Proof.
  revert n; induction k as [|k IH]; intros n; cbn; constructor.
  - unfold is_byte. apply N.mod_lt. lia.
  - apply IH.
Qed.

Lemma pow256_S k : (256 ^ N.of_nat (S k) = 256 * 256 ^ N.of_nat k)%N.
Proof. rewrite Nat2N.inj_succ, N.pow_succ_r'. reflexivity. Qed.

Lemma le_dec_enc k n : (n < 256 ^ N.of_nat k)%N -> le_dec (le_enc k n) = n.
Proof.
  revert n; induction k as [|k IH]; intros n Hn.
  - cbn in *. lia.
  - rewrite pow256_S in Hn. cbn [le_enc le_dec]. rewrite IH.
    + pose proof (N.div_mod n 256). lia.
    + apply N.div_lt_upper_bound; lia.
Qed.

Lemma le_dec_enc_mod k n : le_dec (le_enc k n) = (n mod 256 ^ N.of_nat k)%N.
Proof.
  revert n; induction k as [|k IH]; intros n.
  - cbn. now rewrite N.mod_1_r.
  - rewrite pow256_S. cbn [le_enc le_dec]. rewrite IH.
    assert (256 ^ N.of_nat k <> 0)%N by (apply N.pow_nonzero; lia).
    rewrite N.mod_mul_r by lia. reflexivity.
Qed.

Lemma le_enc_dec l : bytes_ok l -> le_enc (length l) (le_dec l) = l.
Proof.
  induction 1 as [|b t Hb Ht IH]; cbn [length le_enc le_dec]; auto.
  unfold is_byte in Hb.
  f_equal.
  - rewrite N.mul_comm, N.mod_add by lia. apply N.mod_small; auto.
  - rewrite N.mul_comm, N.div_add by lia. rewrite N.div_small by auto. exact IH.
Qed.

Lemma le_dec_bound l : bytes_ok l -> (le_dec l < 256 ^ N.of_nat (length l))%N.
Proof.
  induction 1 as [|b t Hb Ht IH].
  - cbn. lia.
  - cbn [length le_dec]. rewrite pow256_S. unfold is_byte in Hb. lia.
Qed.

Lemma le_dec_max k : le_dec (odd_max k) = (256 ^ N.of_nat k - 1)%N.
Proof.
  unfold odd_max. induction k as [|k IH].
  - reflexivity.
  - rewrite pow256_S. cbn [repeat le_dec]. rewrite IH.
    assert (256 ^ N.of_nat k <> 0)%N by (apply N.pow_nonzero; lia). lia.
Qed.

(** ** Representations *)
Record repr_ok {T} (R : repr T) (valid : T -> Prop) : Prop := {
  rok_pos : 0 < rsize R;
  rok_len : forall x, length (renc R x) = rsize R;
  rok_bytes : forall x, bytes_ok (renc R x);
  rok_dec : forall x, valid x -> rdec R (renc R x) = x;
}.

Definition uint_valid (k : nat) (n : N) : Prop := (n < 256 ^ N.of_nat k)%N.

Lemma uint_repr_ok k : 0 < k -> repr_ok (uint_repr k) (uint_valid k).
Proof.
  intros Hk. constructor; cbn; auto.
  - apply le_enc_length.
  - apply le_enc_bytes.
  - intros x Hx. now apply le_dec_enc.
Qed.

Lemma i8r_ok : repr_ok i8r (fun z => (-128 <= z < 128)%Z).
Proof.
  constructor.
  - cbn; lia.
  - reflexivity.
  - intros z. constructor; [|constructor]. unfold is_byte.
    pose proof (Z.mod_pos_bound z 256). lia.
  - intros z Hz. cbn [rdec renc i8r le_dec].
    pose proof (Z.mod_pos_bound z 256 ltac:(lia)).
    replace (Z.of_N (Z.to_N (z mod 256) + 256 * 0)) with (z mod 256)%Z by lia.
    destruct (Z.ltb_spec (z mod 256) 128).
    + destruct (Z.ltb_spec z 0).
      * assert (z mod 256 = z + 256)%Z by (symmetry; apply (Z.mod_unique z 256 (-1)); lia). lia.
      * rewrite Z.mod_small in *; lia.
    + destruct (Z.ltb_spec z 0).
      * assert (z mod 256 = z + 256)%Z by (symmetry; apply (Z.mod_unique z 256 (-1)); lia). lia.
      * rewrite Z.mod_small in *; lia.
Qed.

Section Repr.
  Context {T : Type} (R : repr T) (valid : T -> Prop) (HR : repr_ok R valid).

  Lemma write_as_bytes_length xs : length (write_as_bytes R xs) = length xs * rsize R.
  Proof.
    unfold write_as_bytes. rewrite (@concat_length_const _ (rsize R)).
    - now rewrite map_length.
    - rewrite Forall_map. apply Forall_forall. intros; apply (rok_len HR).
  Qed.

  Lemma write_as_bytes_bytes xs : bytes_ok (write_as_bytes R xs).
  Proof.
    unfold write_as_bytes, bytes_ok. induction xs as [|x xs IH]; cbn; [constructor|].
    apply Forall_app; split; auto. apply (rok_bytes HR).
  Qed.

  Lemma write_as_bytes_app xs ys :
    write_as_bytes R (xs ++ ys) = write_as_bytes R xs ++ write_as_bytes R ys.
  Proof. unfold write_as_bytes. now rewrite map_app, concat_app. Qed.

  Lemma map_dec_enc xs : Forall valid xs -> map (rdec R) (map (renc R) xs) = xs.
  Proof.
    induction 1 as [|x xs Hx Hxs IH]; cbn; auto. rewrite (rok_dec HR) by auto. now f_equal.
  Qed.

  Lemma load_write xs : Forall valid xs -> load_bytes_as R (write_as_bytes R xs) = xs.
  Proof.
    intros H. unfold load_bytes_as, write_as_bytes.
    rewrite chunks_exact_of_concat.
    - now apply map_dec_enc.
    - apply (rok_pos HR).
    - rewrite Forall_map. apply Forall_forall. intros; apply (rok_len HR).
  Qed.

  (** Trailing bytes that do not fill an item are ignored. *)
  Lemma load_write_tail xs r :
    Forall valid xs -> length r < rsize R ->
    load_bytes_as R (write_as_bytes R xs ++ r) = xs.
  Proof.
    intros H Hr. unfold load_bytes_as, chunks_exact.
    rewrite app_length, write_as_bytes_length.
    rewrite Nat.add_comm, Nat.div_add by lia. rewrite Nat.div_small by lia.
    cbn [Nat.add]. unfold write_as_bytes.
    rewrite <- (map_length (renc R) xs), chunks_exact_n_concat.
    - now apply map_dec_enc.
    - rewrite Forall_map. apply Forall_forall. intros; apply (rok_len HR).
  Qed.
End Repr.

Lemma load_bytes_as_length {T} (R : repr T) bs :
  length (load_bytes_as R bs) = length bs / rsize R.
Proof.
  unfold load_bytes_as, chunks_exact. rewrite map_length.
  apply (proj1 (chunks_exact_n_spec _ _ _)).
Qed.

(** ** Cursor *)
Lemma cwrite_pos c bs : cpos (cwrite c bs) = cpos c + length bs.
Proof. reflexivity. Qed.

Lemma cwrite_overwrite pre old post bs :
  length bs = length old ->
  cwrite (mkCursor (pre ++ old ++ post) (length pre)) bs =
  mkCursor (pre ++ bs ++ post) (length pre + length bs).
Proof.
  intros H. unfold cwrite. cbn [cbuf cpos]. f_equal.
  destruct bs as [|b bs].
  { destruct old; [reflexivity|discriminate]. }
  replace (length pre - length (pre ++ old ++ post)) with 0 by (rewrite app_length; lia).
  cbn [repeat]. rewrite app_nil_r.
  rewrite firstn_app, firstn_all, Nat.sub_diag. cbn [firstn]. rewrite app_nil_r.
  f_equal. f_equal.
  rewrite app_assoc, skipn_app, skipn_all2 by (rewrite app_length; lia).
  rewrite app_length, H. cbn [app].
  replace (length pre + length old - (length pre + length old)) with 0 by lia. reflexivity.
Qed.

Lemma cwrite_append buf bs :
  cwrite (mkCursor buf (length buf)) bs = mkCursor (buf ++ bs) (length buf + length bs).
Proof.
  pose proof (@cwrite_overwrite buf [] [] []) as H0.
  unfold cwrite. cbn [cbuf cpos]. f_equal.
  destruct bs as [|b bs]; [now rewrite app_nil_r|].
  rewrite Nat.sub_diag. cbn [repeat]. rewrite app_nil_r, firstn_all.
  rewrite skipn_all2 by lia. now rewrite app_nil_r.
Qed.

(** Writing past the end: the gap is filled with zeros. *)
Lemma cwrite_gap buf p bs :
  length buf <= p -> bs <> [] ->
  cwrite (mkCursor buf p) bs =
  mkCursor (buf ++ repeat 0%N (p - length buf) ++ bs) (p + length bs).
Proof.
  intros Hp Hbs. unfold cwrite. cbn [cbuf cpos]. f_equal.
  destruct bs as [|b bs]; [congruence|].
  assert (HL : length (buf ++ repeat 0%N (p - length buf)) = p)
    by (rewrite app_length, repeat_length; lia).
  rewrite firstn_all2 by lia. rewrite skipn_all2 by lia.
  now rewrite app_nil_r, app_assoc.
Qed.

(** A file [f] seen as the total function [byte i of f]; reading what was just
    written and what was there before. *)
Lemma cwrite_nth c bs i :
  nth i (cbuf (cwrite c bs)) 0%N =
  if (cpos c <=? i) && (i <? cpos c + length bs) then nth (i - cpos c) bs 0%N
  else nth i (cbuf c) 0%N.
Proof.
  destruct c as [buf p]. unfold cwrite. cbn [cbuf cpos].
  destruct bs as [|b bs].
  { cbn [length]. rewrite Nat.add_0_r. destruct (Nat.leb_spec p i), (Nat.ltb_spec i p); cbn; auto; lia. }
  set (bs' := b :: bs).
  set (padded := buf ++ repeat 0%N (p - length buf)).
  assert (HP : forall j, nth j padded 0%N = nth j buf 0%N).
  { intros j. unfold padded. destruct (Nat.ltb_spec j (length buf)).
    - rewrite app_nth1; auto.
    - rewrite app_nth2 by lia. rewrite (nth_overflow buf) by lia. apply nth_repeat. }
  assert (HL : p <= length padded) by (unfold padded; rewrite app_length, repeat_length; lia).
  destruct (Nat.leb_spec p i) as [Hi|Hi]; cbn [andb].
  - rewrite app_nth2; rewrite firstn_length_le by lia; [|lia].
    destruct (Nat.ltb_spec i (p + length bs')).
    + rewrite app_nth1 by lia. reflexivity.
    + rewrite app_nth2 by lia.
      rewrite <- (HP i). rewrite <- (firstn_skipn (p + length bs') padded) at 2.
      destruct (Nat.leb_spec (p + length bs') (length padded)).
      * rewrite app_nth2; rewrite firstn_length_le by lia; [|lia]. f_equal. lia.
      * rewrite (@skipn_all2 _ (p + length bs') padded) by lia. rewrite app_nil_r.
        rewrite firstn_all2 by lia. rewrite (nth_overflow padded) by lia. now destruct (i - p - length bs').
  - rewrite app_nth1 by (rewrite firstn_length_le; lia).
    rewrite <- (HP i). rewrite <- (firstn_skipn p padded) at 2.
    rewrite app_nth1 by (rewrite firstn_length_le; lia). reflexivity.
Qed.

Lemma cwrite_length c bs :
  length (cbuf (cwrite c bs)) =
  match bs with [] => length (cbuf c) | _ => Nat.max (length (cbuf c)) (cpos c + length bs) end.
Proof.
  destruct c as [buf p]. unfold cwrite. cbn [cbuf cpos]. destruct bs as [|b bs]; auto.
  rewrite !app_length, firstn_length, skipn_length, app_length, repeat_length. cbn [length]. lia.
Qed.

(** ** Odd-byte integers *)
Lemma odd_round_trip k n :
  (n < 256 ^ N.of_nat k)%N -> exists b, odd_from k n = Ok b /\ length b = k /\ odd_into b = n.
Proof.
  intros H. exists (le_enc k n). unfold odd_from. apply N.ltb_lt in H as H'. rewrite H'.
  repeat split; [apply le_enc_length|now apply le_dec_enc].
Qed.

Lemma odd_from_fail k n : (256 ^ N.of_nat k <= n)%N -> odd_from k n = Fail Panicked.
Proof. intros H. unfold odd_from. apply N.ltb_ge in H. now rewrite H. Qed.

Lemma odd_from_injective k n m b :
  odd_from k n = Ok b -> odd_from k m = Ok b -> n = m.
Proof.
  unfold odd_from. destruct (N.ltb_spec n (256 ^ N.of_nat k)), (N.ltb_spec m (256 ^ N.of_nat k));
    intros Hn Hm; try discriminate.
  inversion Hn; inversion Hm; subst.
  rewrite <- (le_dec_enc k H), <- (le_dec_enc k H0). congruence.
Qed.

(** [repr] of an odd-byte integer: the stored type is the byte array itself. *)
Lemma odd_into_bijective k b :
  length b = k -> bytes_ok b -> odd_from k (odd_into b) = Ok b.
Proof.
  intros Hk Hb. unfold odd_from, odd_into. pose proof (le_dec_bound Hb) as Hlt. rewrite Hk in Hlt.
  apply N.ltb_lt in Hlt. rewrite Hlt. rewrite <- Hk. now rewrite le_enc_dec.
Qed.
