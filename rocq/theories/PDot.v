(** * The dot product kernel in exact arithmetic *)
From Verif Require Import Base BaseFacts MAngular.
Set Implicit Arguments. Unset Strict Implicit.

Section Exact.
  Context {F : Type} (add mul : F -> F -> F) (zero : F).
  Hypothesis add_comm : forall a b, add a b = add b a.
  Hypothesis add_assoc : forall a b c, add a (add b c) = add (add a b) c.
  Hypothesis add_0 : forall a, add zero a = a.
  Let fma a b c := add (mul a b) c.
  Fixpoint sum (l : list F) : F := match l with [] => zero | x :: t => add x (sum t) end.
  Definition psum (x y : list F) : F := sum (map (fun p => mul (fst p) (snd p)) (combine x y)).

  Lemma add_0_r a : add a zero = a. Proof. now rewrite add_comm. Qed.
  Lemma sum_app a b : sum (a ++ b) = add (sum a) (sum b).
  Proof. induction a as [|x a IH]; cbn; [now rewrite add_0|]. now rewrite IH, add_assoc. Qed.
  Lemma fold_sum l : forall r, fold_left add l r = add (sum l) r.
  Proof. induction l as [|x l IH]; intros r; cbn; [now rewrite add_0|]. rewrite IH. rewrite (add_comm r x), add_assoc. now rewrite (add_comm (sum l) x). Qed.
  Lemma fold_fma l : forall r, fold_left (fun r ab => fma (fst ab) (snd ab) r) l r = add (sum (map (fun p => mul (fst p) (snd p)) l)) r.
  Proof.
    induction l as [|x l IH]; intros r; cbn; [now rewrite add_0|]. rewrite IH. unfold fma.
    rewrite add_assoc. f_equal. apply add_comm.
  Qed.

  Lemma lanes_sum a : forall b ch, length a = length ch -> length b = length ch ->
    sum (lanes_step fma ch (a, b)) = add (psum a b) (sum ch) /\ length (lanes_step fma ch (a, b)) = length ch.
  Proof.
    unfold lanes_step, psum. cbn [fst snd]. induction a as [|x a IH]; intros [|y b] [|c ch] Ha Hb; cbn in *; try lia.
    - now rewrite add_0.
    - destruct (IH b ch) as [E1 E2]; [lia|lia|]. split; [|lia]. rewrite E1. unfold fma.
      generalize (sum (map (fun p => mul (fst p) (snd p)) (combine a b))) (sum ch) (mul x y). intros p s q.
      rewrite !add_assoc. f_equal. rewrite <- !add_assoc. f_equal. apply add_comm.
  Qed.

  Lemma lanes_fold ps : forall ch, Forall (fun ab => length (fst ab) = length ch /\ length (snd ab) = length ch) ps ->
    sum (fold_left (lanes_step fma) ps ch) = add (sum (map (fun ab => psum (fst ab) (snd ab)) ps)) (sum ch).
  Proof.
    induction ps as [|[a b] ps IH]; intros ch H; cbn [fold_left map sum fst snd]; [now rewrite add_0|].
    inversion H as [|? ? [Ha Hb] Hps]; subst. cbn in Ha, Hb. destruct (lanes_sum Ha Hb) as [E1 E2].
    rewrite IH.
    - rewrite E1. rewrite !add_assoc. f_equal. apply add_comm.
    - eapply Forall_impl; [|exact Hps]. intros ab Hab. rewrite E2. exact Hab.
  Qed.

  Lemma combine_app_eq {A B} (a a' : list A) (b b' : list B) : length a = length b -> combine (a ++ a') (b ++ b') = combine a b ++ combine a' b'.
  Proof. revert b; induction a as [|x a IH]; intros [|y b] H; cbn in *; try lia; [reflexivity|]. f_equal. apply IH. lia. Qed.

  Lemma psum_app a a' b b' : length a = length b -> psum (a ++ a') (b ++ b') = add (psum a b) (psum a' b').
  Proof. intros H. unfold psum. now rewrite combine_app_eq, map_app, sum_app. Qed.

  Lemma sum_zeros k : sum (repeat zero k) = zero.
  Proof. induction k as [|k IH]; cbn; [reflexivity|]. now rewrite IH, add_0. Qed.

  Lemma chunks_psum n : forall x y, CHUNK_SIZE * n <= length x -> CHUNK_SIZE * n <= length y ->
    add (sum (map (fun ab => psum (fst ab) (snd ab)) (combine (chunks_exact_n n CHUNK_SIZE x) (chunks_exact_n n CHUNK_SIZE y))))
        (psum (skipn (CHUNK_SIZE * n) x) (skipn (CHUNK_SIZE * n) y)) = psum x y /\
    Forall (fun ab => length (fst ab) = CHUNK_SIZE /\ length (snd ab) = CHUNK_SIZE)
           (combine (chunks_exact_n n CHUNK_SIZE x) (chunks_exact_n n CHUNK_SIZE y)).
  Proof.
    induction n as [|n IH]; intros x y Hx Hy.
    - rewrite Nat.mul_0_r. cbn [chunks_exact_n combine map sum skipn]. rewrite add_0. split; [reflexivity|constructor].
    - cbn [chunks_exact_n combine map sum fst snd].
      assert (Ex : length (skipn CHUNK_SIZE x) = length x - CHUNK_SIZE) by apply skipn_length.
      assert (Ey : length (skipn CHUNK_SIZE y) = length y - CHUNK_SIZE) by apply skipn_length.
      destruct (IH (skipn CHUNK_SIZE x) (skipn CHUNK_SIZE y)) as [E H]; [lia|lia|]. split.
      + rewrite !skipn_skipn in E. replace (CHUNK_SIZE * n + CHUNK_SIZE) with (CHUNK_SIZE * S n) in E by lia.
        rewrite <- add_assoc. rewrite E.
        rewrite <- psum_app by (rewrite !firstn_length; lia). now rewrite !firstn_skipn.
      + constructor; auto. cbn [fst snd]. rewrite !firstn_length. lia.
  Qed.

  Lemma dot_exact x y : length x = length y -> dot_product fma add zero x y = psum x y.
  Proof.
    intros Hl. unfold dot_product. rewrite fold_fma, fold_sum, add_0_r.
    unfold chunks_exact, remainder. rewrite <- Hl. set (n := length x / CHUNK_SIZE).
    assert (Hn : CHUNK_SIZE * n <= length x) by (unfold n, CHUNK_SIZE; pose proof (Nat.div_mod (length x) 32 ltac:(lia)); lia).
    destruct (chunks_psum (x := x) (y := y) (n := n)) as [E H]; [lia|lia|].
    rewrite lanes_fold.
    - rewrite sum_zeros, add_0_r. rewrite <- E. apply add_comm.
    - rewrite repeat_length. exact H.
  Qed.
End Exact.
