(** * Proofs about the metadata JSON *)
From Coq Require Import String Decimal DecimalFacts DecimalPos DecimalN.
From Coq Require Import List.
Import ListNotations.
From Verif Require Import Base BaseFacts Bytes PBytes MJson.
Set Implicit Arguments.

Section JsonInd.
  Context (P : json -> Prop)
          (Hnull : P JNull) (Hbool : forall b, P (JBool b)) (Hnum : forall n, P (JNum n)) (Hreal : P JReal)
          (Hstr : forall s, P (JStr s))
          (Harr : forall l, Forall P l -> P (JArr l))
          (Hobj : forall kvs, Forall (fun kv => P (snd kv)) kvs -> P (JObj kvs)).
  Fixpoint json_ind2 (v : json) : P v :=
    match v with
    | JNull => Hnull
    | JBool b => Hbool b
    | JNum n => Hnum n
    | JReal => Hreal
    | JStr s => Hstr s
    | JArr l => Harr ((fix go l : Forall P l :=
                         match l with [] => Forall_nil _ | x :: t => Forall_cons _ (json_ind2 x) (go t) end) l)
    | JObj kvs => Hobj ((fix go l : Forall (fun kv => P (snd kv)) l :=
                         match l with [] => Forall_nil _ | x :: t => Forall_cons _ (json_ind2 (snd x)) (go t) end) kvs)
    end.
End JsonInd.

Definition str_ok (s : list N) : Prop := Forall (fun b => (32 <= b < 128)%N /\ b <> 34%N /\ b <> 92%N) s.
Inductive json_ok : json -> Prop :=
| OkNull : json_ok JNull
| OkBool b : json_ok (JBool b)
| OkNum n : json_ok (JNum n)
| OkStr s : str_ok s -> json_ok (JStr s)
| OkArr l : Forall json_ok l -> json_ok (JArr l)
| OkObj kvs : Forall (fun kv => str_ok (fst kv) /\ json_ok (snd kv)) kvs -> json_ok (JObj kvs).

Definition no_digit_head (l : list N) : Prop := match l with [] => True | b :: _ => is_digit b = false end.

Lemma to_uint_nonnil n : N.to_uint n <> Nil.
Proof. destruct n; cbn; [discriminate|]. apply Unsigned.to_uint_nonnil. Qed.

Lemma to_uint_no_zero n : leading_zero (N.to_uint n) = false.
Proof.
  assert (Hu : unorm (N.to_uint n) = N.to_uint n).
  { rewrite <- (Unsigned.of_to n) at 2. now rewrite Unsigned.to_of. }
  destruct (N.to_uint n) as [|u|u|u|u|u|u|u|u|u|u]; try reflexivity. unfold unorm in Hu. cbn [nzhead] in Hu.
  destruct (nzhead u) eqn:E; try discriminate; [inversion Hu; subst; reflexivity|].
  exfalso. apply (nzhead_nonzero u _ E).
Qed.

Lemma span_digits_bytes u rest : no_digit_head rest -> span_digits (uint_bytes u ++ rest) = (u, rest).
Proof.
  intros H. induction u; cbn [uint_bytes app span_digits].
  { destruct rest as [|b t]; [reflexivity|]. cbn in H. cbn. now rewrite H. }
  all: rewrite IHu; reflexivity.
Qed.

Lemma uint_bytes_head u : u <> Nil -> exists b t, uint_bytes u = b :: t /\ is_digit b = true.
Proof. destruct u; cbn; try congruence; intros _; do 2 eexists; split; reflexivity. Qed.

Lemma digit_props b : is_digit b = true ->
  is_ws b = false /\ (b =? 34)%N = false /\ (b =? 91)%N = false /\ (b =? 123)%N = false /\
  (b =? 93)%N = false /\ (b =? 125)%N = false /\ (b =? 44)%N = false.
Proof.
  unfold is_digit, is_ws. intros H. apply andb_true_iff in H as [H1 H2]. apply N.leb_le in H1, H2.
  repeat split; try (apply N.eqb_neq; lia).
  repeat (rewrite (proj2 (N.eqb_neq b _)) by lia). reflexivity.
Qed.

Lemma next_char_skip b t : is_ws b = false -> next_char (b :: t) = Some (b, t).
Proof. intros H. unfold next_char. cbn. now rewrite H. Qed.

Definition item_write (kv : list N * json) := json_quote (fst kv) ++ 58%N :: json_write (snd kv).

Lemma commas_cons2 x y t : commas (x :: y :: t) = x ++ 44%N :: commas (y :: t).
Proof. reflexivity. Qed.

(** ** Number of digits *)
Lemma uint_bytes_len_acc u acc :
  (Npos acc * 10 ^ N.of_nat (length (uint_bytes u)) <= Npos (Pos.of_uint_acc u acc))%N.
Proof.
  revert acc; induction u; intros acc; cbn [uint_bytes length Pos.of_uint_acc];
    try (rewrite Nat2N.inj_succ, N.pow_succ_r'; etransitivity; [|apply IHu]; rewrite N.mul_assoc;
         apply N.mul_le_mono_r; lia).
  cbn. lia.
Qed.

Lemma digits_len n k : 0 < k -> (n < 10 ^ N.of_nat k)%N -> length (digits n) <= k.
Proof.
  intros Hk Hn. unfold digits.
  assert (Hu : unorm (N.to_uint n) = N.to_uint n).
  { rewrite <- (Unsigned.of_to n) at 2. now rewrite Unsigned.to_of. }
  rewrite <- (Unsigned.of_to n) in Hn.
  set (u := N.to_uint n) in *. clearbody u.
  assert (Hfin : forall L d, (Npos d * 10 ^ N.of_nat L < 10 ^ N.of_nat k)%N -> S L <= k).
  { intros L d HL. destruct (Nat.leb_spec (S L) k); auto. exfalso.
    assert ((10 ^ N.of_nat k <= 10 ^ N.of_nat L)%N) by (apply N.pow_le_mono_r; lia). nia. }
  assert (Hgen : forall u' acc, (Npos (Pos.of_uint_acc u' acc) < 10 ^ N.of_nat k)%N ->
     S (length (uint_bytes u')) <= k).
  { intros u' acc H. apply (Hfin _ acc). eapply N.le_lt_trans; [apply uint_bytes_len_acc|exact H]. }
  destruct u as [|u|u|u|u|u|u|u|u|u|u]; cbn [uint_bytes length]; try lia;
    try (cbn [N.of_uint Pos.of_uint] in Hn; eapply Hgen; exact Hn).
  (* leading zero: only the number zero *)
  unfold unorm in Hu. cbn [nzhead] in Hu. destruct (nzhead u) eqn:E; try discriminate.
  - inversion Hu. subst. cbn. lia.
  - exfalso. apply (nzhead_nonzero u _ E).
Qed.
