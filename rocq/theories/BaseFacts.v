(** * Facts about [Base] *)
From Verif Require Import Base.

Set Implicit Arguments.

Lemma obind_ok {A B} (x : outcome A) (f : A -> outcome B) b :
  obind x f = Ok b <-> exists a, x = Ok a /\ f a = Ok b.
Proof.
  destruct x as [a|e]; cbn; split.
  - intros H; exists a; auto.
  - intros [a' [E H]]; congruence.
  - discriminate.
  - intros [a' [E H]]; discriminate.
Qed.

Lemma oassert_ok b u : oassert b = Ok u <-> b = true.
Proof. destruct b, u; cbn; split; congruence. Qed.

Lemma set_nth_length {A} (l : list A) i x : length (set_nth l i x) = length l.
Proof. revert i; induction l as [|h t IH]; intros [|i]; cbn; auto. Qed.

Lemma nth_error_set_nth {A} (l : list A) i j x :
  nth_error (set_nth l i x) j =
  if (i =? j) && (i <? length l) then Some x else nth_error l j.
Proof.
  revert i j; induction l as [|h t IH]; intros i j.
  - cbn [set_nth length]. rewrite andb_false_r. now destruct j.
  - destruct i as [|i], j as [|j]; cbn [set_nth nth_error length].
    + reflexivity.
    + reflexivity.
    + reflexivity.
    + rewrite IH. reflexivity.
Qed.

Lemma nth_error_set_nth_eq {A} (l : list A) i x :
  i < length l -> nth_error (set_nth l i x) i = Some x.
Proof.
  intros H. rewrite nth_error_set_nth, Nat.eqb_refl.
  apply Nat.ltb_lt in H. now rewrite H.
Qed.

Lemma nth_error_set_nth_neq {A} (l : list A) i j x :
  i <> j -> nth_error (set_nth l i x) j = nth_error l j.
Proof.
  intros H. rewrite nth_error_set_nth. apply Nat.eqb_neq in H. now rewrite H.
Qed.

Lemma set_nth_app {A} (l r : list A) i x :
  set_nth (l ++ r) i x =
  if i <? length l then set_nth l i x ++ r else l ++ set_nth r (i - length l) x.
Proof.
  revert i; induction l as [|h t IH]; intros i.
  - cbn. now rewrite Nat.sub_0_r.
  - destruct i as [|i]; [reflexivity|].
    cbn [app set_nth length]. rewrite IH.
    change (S i <? S (length t)) with (i <? length t).
    destruct (i <? length t); reflexivity.
Qed.

Lemma set_nth_firstn_skipn {A} (l : list A) i x :
  i < length l -> set_nth l i x = firstn i l ++ x :: skipn (S i) l.
Proof.
  revert i; induction l as [|h t IH]; intros i Hi; cbn in Hi; [lia|].
  destruct i as [|i]; cbn; [reflexivity|].
  f_equal. apply IH. lia.
Qed.

Lemma set_nth_in {A} (l : list A) i x y :
  In y (set_nth l i x) -> y = x \/ In y l.
Proof.
  revert i; induction l as [|h t IH]; intros [|i]; cbn; intuition.
  - destruct (IH _ H0); auto.
Qed.

Lemma set_nth_out {A} (l : list A) i x : length l <= i -> set_nth l i x = l.
Proof.
  revert i; induction l as [|h t IH]; intros [|i] H; cbn in *; auto; try lia.
  f_equal. apply IH. lia.
Qed.

Lemma slice_ok {A} (l : list A) b e r :
  slice l b e = Ok r <-> b <= e /\ e <= length l /\ r = firstn (e - b) (skipn b l).
Proof.
  unfold slice. destruct (Nat.leb_spec b e), (Nat.leb_spec e (length l)); cbn;
    split; intros H'; try (inversion H'; subst; auto); try (destruct H' as (?&?&?); subst; try lia; auto); try lia.
Qed.

Lemma slice_length {A} (l : list A) b e r :
  slice l b e = Ok r -> length r = e - b.
Proof.
  intros H; apply slice_ok in H as (H1&H2&->).
  rewrite firstn_length, skipn_length. lia.
Qed.

Lemma index_ok {A} (l : list A) i x : index l i = Ok x <-> nth_error l i = Some x.
Proof. unfold index, ounwrap. destruct (nth_error l i); split; congruence. Qed.

Lemma index_lt {A} (l : list A) i : i < length l -> exists x, index l i = Ok x.
Proof.
  intros H. destruct (nth_error l i) eqn:E.
  - exists a. now apply index_ok.
  - apply nth_error_None in E. lia.
Qed.

Lemma resize_length {A} (l : list A) n x : length (resize l n x) = n.
Proof.
  unfold resize. rewrite app_length, firstn_length, repeat_length. lia.
Qed.

Lemma resize_grow {A} (l : list A) n x :
  length l <= n -> resize l n x = l ++ repeat x (n - length l).
Proof. intros H. unfold resize. now rewrite firstn_all2. Qed.

Lemma resize_shrink {A} (l : list A) n x :
  n <= length l -> resize l n x = firstn n l.
Proof.
  intros H. unfold resize. replace (n - length l) with 0 by lia. cbn. apply app_nil_r.
Qed.

Lemma take_while_forall {A} (p : A -> bool) l :
  Forall (fun x => p x = true) (take_while p l).
Proof.
  induction l as [|h t IH]; cbn; auto. destruct (p h) eqn:E; auto.
Qed.

Lemma take_while_all {A} (p : A -> bool) l :
  Forall (fun x => p x = true) l -> take_while p l = l.
Proof.
  induction 1 as [|h t Hh Ht IH]; cbn; auto. rewrite Hh. now f_equal.
Qed.

Lemma take_while_app_stop {A} (p : A -> bool) l r :
  Forall (fun x => p x = true) l ->
  (match r with [] => True | x :: _ => p x = false end) ->
  take_while p (l ++ r) = l.
Proof.
  intros H Hr; induction H as [|h t Hh Ht IH]; cbn.
  - destruct r as [|x r]; cbn; auto. now rewrite Hr.
  - rewrite Hh. now f_equal.
Qed.

Lemma take_while_split {A} (p : A -> bool) l :
  exists r, l = take_while p l ++ r /\ match r with [] => True | x :: _ => p x = false end.
Proof.
  induction l as [|h t (r & E & Hr)].
  - exists []; cbn; auto.
  - cbn. destruct (p h) eqn:Eh.
    + exists r. cbn. now rewrite <- E.
    + exists (h :: t); auto.
Qed.

Lemma take_while_incl {A} (p : A -> bool) l x : In x (take_while p l) -> In x l.
Proof.
  destruct (take_while_split p l) as (r & E & _).
  intros H. rewrite E. apply in_or_app. auto.
Qed.

Lemma take_while_length_le {A} (p : A -> bool) l : length (take_while p l) <= length l.
Proof.
  destruct (take_while_split p l) as (r & E & _).
  apply (f_equal (@length A)) in E. rewrite app_length in E. lia.
Qed.

Lemma position_some {A} (p : A -> bool) l i :
  position p l = Some i ->
  exists x, nth_error l i = Some x /\ p x = true /\
            (forall j y, j < i -> nth_error l j = Some y -> p y = false).
Proof.
  revert i; induction l as [|h t IH]; cbn; intros i H; [discriminate|].
  destruct (p h) eqn:Eh.
  - inversion H; subst. exists h. repeat split; auto. intros; lia.
  - destruct (position p t) as [k|] eqn:Ep; [|discriminate].
    cbn in H. inversion H; subst. destruct (IH k eq_refl) as (x & Hx & Hp & Hlt).
    exists x. repeat split; auto.
    intros [|j] y Hj Hy; cbn in Hy.
    + congruence.
    + apply (Hlt j); auto. lia.
Qed.

Lemma position_none {A} (p : A -> bool) l :
  position p l = None -> Forall (fun x => p x = false) l.
Proof.
  induction l as [|h t IH]; cbn; auto. destruct (p h) eqn:Eh; [discriminate|].
  destruct (position p t); [discriminate|]. auto.
Qed.

(** ** Chunks *)
Lemma chunks_fuel_concat {A} fuel k (l : list A) :
  0 < k -> length l <= fuel -> concat (chunks_fuel fuel k l) = l.
Proof.
  intros Hk. revert l; induction fuel as [|f IH]; intros l Hl.
  - destruct l; cbn in *; [reflexivity|lia].
  - destruct l as [|x l]; [reflexivity|].
    cbn [chunks_fuel concat].
    rewrite IH.
    + apply firstn_skipn.
    + rewrite skipn_length. cbn [length] in *. lia.
Qed.

Lemma chunks_concat {A} k (l : list A) : 0 < k -> concat (chunks k l) = l.
Proof. intros; apply chunks_fuel_concat; auto. Qed.

Lemma chunks_fuel_app {A} fuel k (w r : list A) :
  0 < k -> length w = k -> length (w ++ r) <= S fuel ->
  chunks_fuel (S fuel) k (w ++ r) = w :: chunks_fuel fuel k r.
Proof.
  intros Hk Hw Hf. destruct w as [|x w]; [cbn in *; lia|].
  cbn [app chunks_fuel]. change (x :: w ++ r) with ((x :: w) ++ r).
  rewrite firstn_app, skipn_app, Hw, Nat.sub_diag. cbn [firstn skipn].
  rewrite app_nil_r, firstn_all2 by lia. rewrite skipn_all2 by lia. reflexivity.
Qed.

Lemma chunks_fuel_indep {A} f1 f2 k (l : list A) :
  0 < k -> length l <= f1 -> length l <= f2 -> chunks_fuel f1 k l = chunks_fuel f2 k l.
Proof.
  intros Hk. revert f2 l; induction f1 as [|f1 IH]; intros f2 l H1 H2.
  - destruct l; cbn in *; [|lia]. destruct f2; reflexivity.
  - destruct l as [|x l].
    + destruct f2; reflexivity.
    + destruct f2 as [|f2]; [cbn in H2; lia|].
      cbn [chunks_fuel]. f_equal. apply IH; rewrite skipn_length; cbn [length] in *; lia.
Qed.

Lemma chunks_cons_app {A} k (w r : list A) :
  0 < k -> length w = k -> chunks k (w ++ r) = w :: chunks k r.
Proof.
  intros Hk Hw. unfold chunks. rewrite app_length, Hw.
  destruct k as [|k]; [lia|]. cbn [Nat.add].
  rewrite chunks_fuel_app; auto; try lia.
  2: rewrite app_length, Hw; lia.
  f_equal. apply chunks_fuel_indep; lia.
Qed.

Lemma chunks_of_concat {A} k (ls : list (list A)) :
  0 < k -> Forall (fun w => length w = k) ls -> chunks k (concat ls) = ls.
Proof.
  intros Hk H; induction H as [|w ls Hw Hls IH]; cbn [concat].
  - reflexivity.
  - rewrite chunks_cons_app; auto. now f_equal.
Qed.

Lemma chunks_exact_n_concat {A} k (ls : list (list A)) r :
  Forall (fun w => length w = k) ls ->
  chunks_exact_n (length ls) k (concat ls ++ r) = ls.
Proof.
  intros H; induction H as [|w ls Hw Hls IH]; cbn [length chunks_exact_n concat].
  - reflexivity.
  - rewrite <- app_assoc. rewrite firstn_app, skipn_app, Hw, Nat.sub_diag.
    cbn [firstn skipn]. rewrite app_nil_r, firstn_all2, skipn_all2 by lia.
    cbn [app]. now rewrite IH.
Qed.

Lemma concat_length_const {A} k (ls : list (list A)) :
  Forall (fun w => length w = k) ls -> length (concat ls) = length ls * k.
Proof.
  induction 1 as [|w ls Hw Hls IH]; cbn; auto. rewrite app_length, IH, Hw. lia.
Qed.

Lemma chunks_exact_of_concat {A} k (ls : list (list A)) :
  0 < k -> Forall (fun w => length w = k) ls -> chunks_exact k (concat ls) = ls.
Proof.
  intros Hk H. unfold chunks_exact. rewrite (concat_length_const H).
  rewrite Nat.div_mul by lia.
  rewrite <- (app_nil_r (concat ls)). apply chunks_exact_n_concat; auto.
Qed.

Lemma chunks_exact_n_spec {A} n k (l : list A) :
  length (chunks_exact_n n k l) = n /\
  (n * k <= length l ->
   Forall (fun w => length w = k) (chunks_exact_n n k l) /\
   concat (chunks_exact_n n k l) = firstn (n * k) l).
Proof.
  revert l; induction n as [|n IH]; intros l; cbn [chunks_exact_n length concat].
  - split; auto. 
  - destruct (IH (skipn k l)) as [HL HF]. split; [now rewrite HL|].
    intros Hn. destruct HF as [HF HC].
    { rewrite skipn_length. cbn in Hn. lia. }
    split.
    + constructor; auto. rewrite firstn_length. cbn in Hn. lia.
    + rewrite HC. cbn [Nat.mul].
      rewrite <- (firstn_skipn k l) at 3.
      rewrite firstn_app. rewrite firstn_length.
      rewrite (firstn_all2 (n := k + n * k)) by (rewrite firstn_length; lia).
      f_equal. f_equal. cbn in Hn. lia.
Qed.

(** ** Sorting *)
Section SortBy.
  Context {A : Type} (le : A -> A -> bool).
  Hypothesis le_total : forall x y, le x y = true \/ le y x = true.
  Hypothesis le_trans : forall x y z, le x y = true -> le y z = true -> le x z = true.

  Lemma insert_by_perm x l : Permutation (insert_by le x l) (x :: l).
  Proof.
    induction l as [|y t IH]; cbn; auto. destruct (le x y); auto.
    rewrite IH. apply perm_swap.
  Qed.

  Lemma sort_by_perm l : Permutation (sort_by le l) l.
  Proof.
    induction l as [|x t IH]; cbn; auto. rewrite insert_by_perm. auto.
  Qed.

  Lemma insert_by_sorted x l :
    StronglySorted (fun a b => le a b = true) l ->
    StronglySorted (fun a b => le a b = true) (insert_by le x l).
  Proof.
    induction 1 as [|y t Ht IH Hy]; cbn.
    - constructor; constructor.
    - destruct (le x y) eqn:E.
      + constructor; [constructor; auto|]. constructor; auto.
        eapply Forall_impl; [|exact Hy]. cbn; intros; eauto.
      + constructor; auto.
        assert (Hyx : le y x = true) by (destruct (le_total x y); congruence).
        rewrite Forall_forall in *. intros z Hz.
        apply (Permutation_in _ (insert_by_perm x t)) in Hz.
        destruct Hz as [->|Hz]; auto.
  Qed.

  Lemma sort_by_sorted l : StronglySorted (fun a b => le a b = true) (sort_by le l).
  Proof. induction l; cbn; [constructor|apply insert_by_sorted; auto]. Qed.

  Hypothesis le_antisym : forall x y, le x y = true -> le y x = true -> x = y.

  Lemma sorted_perm_unique l1 l2 :
    StronglySorted (fun a b => le a b = true) l1 ->
    StronglySorted (fun a b => le a b = true) l2 ->
    Permutation l1 l2 -> l1 = l2.
  Proof.
    revert l2; induction l1 as [|x t IH]; intros l2 H1 H2 HP.
    - apply Permutation_nil in HP. now subst.
    - destruct l2 as [|y s]; [apply Permutation_sym, Permutation_nil in HP; discriminate|].
      inversion H1 as [|? ? H1a H1b]; inversion H2 as [|? ? H2a H2b]; subst.
      assert (x = y).
      { rewrite Forall_forall in *.
        assert (Hx : In x (y :: s)) by (apply (Permutation_in _ HP); left; auto).
        assert (Hy : In y (x :: t)) by (apply (Permutation_in _ (Permutation_sym HP)); left; auto).
        destruct Hx as [->|Hx]; auto. destruct Hy as [->|Hy]; auto. }
      subst. f_equal. apply IH; auto. eapply Permutation_cons_inv; eauto.
  Qed.

  Lemma sort_by_perm_eq l1 l2 : Permutation l1 l2 -> sort_by le l1 = sort_by le l2.
  Proof.
    intros H. apply sorted_perm_unique; try apply sort_by_sorted.
    rewrite !sort_by_perm. auto.
  Qed.

  Lemma sort_by_id l :
    StronglySorted (fun a b => le a b = true) l -> sort_by le l = l.
  Proof.
    intros H. apply sorted_perm_unique; auto using sort_by_sorted, sort_by_perm.
  Qed.
End SortBy.

(** ** Outcome folds *)
Lemma omapM_ok {A B} (f : A -> outcome B) l ys :
  omapM f l = Ok ys <-> Forall2 (fun x y => f x = Ok y) l ys.
Proof.
  revert ys; induction l as [|x t IH]; intros ys; cbn.
  - split; intros H.
    + inversion H; constructor.
    + inversion H; reflexivity.
  - split; intros H.
    + apply obind_ok in H as (y & Hy & H). apply obind_ok in H as (ys' & Hys & H).
      inversion H; subst. constructor; auto. now apply IH.
    + inversion H as [|? y ? ys' Hy Hys]; subst. rewrite Hy. cbn.
      apply IH in Hys. rewrite Hys. reflexivity.
Qed.

Lemma omapM_pure {A B} (f : A -> outcome B) (g : A -> B) l :
  (forall x, In x l -> f x = Ok (g x)) -> omapM f l = Ok (map g l).
Proof.
  induction l as [|x t IH]; intros H; cbn; auto.
  rewrite H by (left; auto). cbn. rewrite IH; [reflexivity|]. intros; apply H; right; auto.
Qed.

Lemma ofold_app {A S} (f : S -> A -> outcome S) l1 l2 s :
  ofold f (l1 ++ l2) s = obind (ofold f l1 s) (ofold f l2).
Proof.
  revert s; induction l1 as [|x t IH]; intros s; cbn; auto.
  destruct (f s x); cbn; auto.
Qed.

Lemma nth_error_ext {A} (l1 l2 : list A) :
  (forall i, nth_error l1 i = nth_error l2 i) -> l1 = l2.
Proof.
  revert l2; induction l1 as [|x t IH]; intros [|y s] H; auto.
  - specialize (H 0); discriminate.
  - specialize (H 0); discriminate.
  - pose proof (H 0) as H0. cbn in H0. inversion H0; subst. f_equal.
    apply IH. intros i. apply (H (S i)).
Qed.

Lemma nth_error_map_seq {A} (f : nat -> A) n i :
  i < n -> nth_error (map f (seq 0 n)) i = Some (f i).
Proof.
  intros H. rewrite nth_error_map.
  assert (E : nth_error (seq 0 n) i = Some i).
  { rewrite (nth_error_nth' _ 0); [|rewrite seq_length; auto].
    now rewrite seq_nth. }
  now rewrite E.
Qed.

Lemma skipn_skipn {A} (l : list A) a b : skipn a (skipn b l) = skipn (a + b) l.
Proof.
  revert a b; induction l as [|x t IH]; intros a b.
  - now rewrite !skipn_nil.
  - destruct b as [|b]; [now rewrite Nat.add_0_r|].
    rewrite Nat.add_succ_r. cbn [skipn]. apply IH.
Qed.

Lemma nth_set_nth {A} (l : list A) i j x d :
  i < length l -> nth j (set_nth l i x) d = if i =? j then x else nth j l d.
Proof.
  revert i j; induction l as [|h t IH]; intros [|i] [|j] H; cbn in *; auto; try lia.
  apply IH. lia.
Qed.

Lemma perm_seq_nth n p : Permutation p (seq 0 n) ->
  length p = n /\ (forall i, i < n -> nth i p 0 < n) /\
  (forall i j, i < n -> j < n -> nth i p 0 = nth j p 0 -> i = j) /\
  (forall k, k < n -> exists i, i < n /\ nth i p 0 = k).
Proof.
  intros H. assert (HL : length p = n) by (rewrite (Permutation_length H); apply seq_length).
  assert (HN : NoDup p) by (eapply Permutation_NoDup; [apply Permutation_sym; exact H|apply seq_NoDup]).
  repeat split; auto.
  - intros i Hi. assert (Hin : In (nth i p 0) p) by (apply nth_In; lia).
    apply (Permutation_in _ H) in Hin. apply in_seq in Hin. lia.
  - intros i j Hi Hj E. apply (proj1 (NoDup_nth p 0) HN); lia.
  - intros k Hk. assert (Hin : In k p).
    { apply (Permutation_in _ (Permutation_sym H)). apply in_seq. lia. }
    destruct (In_nth p k 0 Hin) as (i & Hi & E). exists i. split; [lia|auto].
Qed.

Lemma store_ok {A} (l : list A) i x r : store l i x = Ok r <-> i < length l /\ r = set_nth l i x.
Proof.
  unfold store. destruct (Nat.ltb_spec i (length l)); split; intros H'.
  - inversion H'; auto.
  - destruct H' as [_ ->]; auto.
  - discriminate.
  - lia.
Qed.

Lemma index_nth {A} (l : list A) i d : i < length l -> index l i = Ok (nth i l d).
Proof. intros H. apply index_ok. now apply nth_error_nth'. Qed.
