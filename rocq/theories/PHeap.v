(** * Proofs: bounded heap (C24) *)
From Verif Require Import Base BaseFacts MSliceVec MIndexIo MSearch SSearch.
Set Implicit Arguments.

Section H.
  Context {A : Type} (le : A -> A -> bool).
  Hypothesis le_total : forall x y, le x y = true \/ le y x = true.
  Hypothesis le_trans : forall x y z, le x y = true -> le y z = true -> le x z = true.
  Hypothesis le_antisym : forall x y, le x y = true -> le y x = true -> x = y.

  Local Notation ssorted := (StronglySorted (fun a b => le a b = true)).

  Lemma le_refl x : le x x = true.
  Proof. destruct (le_total x x); auto. Qed.

  Lemma ssorted_firstn k l : ssorted l -> ssorted (firstn k l).
  Proof.
    revert k; induction l as [|x t IH]; intros k H; [now rewrite firstn_nil|].
    destruct k; cbn [firstn]; [constructor|]. inversion H as [|? ? H1 H2]; subst. constructor; auto.
    rewrite Forall_forall in *. intros y Hy. apply H2. clear -Hy.
    revert k Hy; induction t as [|z t IH]; intros [|k] Hy; cbn in *; try tauto. destruct Hy; eauto.
  Qed.

  Lemma ssorted_last l x : ssorted l -> nth_error l (length l - 1) = Some x -> Forall (fun y => le y x = true) l.
  Proof.
    intros H Hx. destruct l as [|a l] using rev_ind; [discriminate|]. clear IHl.
    rewrite app_length in Hx. cbn [length] in Hx. rewrite nth_error_app2 in Hx by lia.
    replace (length l + 1 - 1 - length l) with 0 in Hx by lia. cbn in Hx. inversion Hx; subst.
    clear Hx. induction l as [|b l IH]; cbn [app] in *.
    - repeat constructor. apply le_refl.
    - inversion H as [|? ? H1 H2]; subst. constructor; auto. rewrite Forall_forall in H2. apply H2.
      apply in_or_app. right. left. auto.
  Qed.

  Lemma removelast_firstn_len' (l : list A) : removelast l = firstn (length l - 1) l.
  Proof. rewrite removelast_firstn_len. f_equal. lia. Qed.

  (** inserting into a sorted list and truncating *)
  Lemma insert_app_ge x l r : ssorted (l ++ r) -> Forall (fun y => le x y = true -> False) l ->
    insert_by le x (l ++ r) = l ++ insert_by le x r.
  Proof.
    induction l as [|a l IH]; cbn [app insert_by]; auto. intros H HF. inversion HF as [|? ? Ha HF']; subst.
    destruct (le x a) eqn:E; [exfalso; auto|]. f_equal. apply IH; auto. now inversion H.
  Qed.

  Lemma insert_firstn m x l : ssorted l -> firstn m (insert_by le x (firstn m l)) = firstn m (insert_by le x l).
  Proof.
    revert m; induction l as [|a l IH]; intros m H; [now rewrite firstn_nil|].
    destruct m; [reflexivity|]. cbn [firstn insert_by]. destruct (le x a) eqn:E.
    - cbn [firstn]. f_equal. destruct m; [reflexivity|]. rewrite !firstn_cons. f_equal.
      rewrite firstn_firstn. f_equal. lia.
    - cbn [firstn]. f_equal. apply IH. now inversion H.
  Qed.

  Lemma insert_last_ge m x l p : ssorted l -> length l = m -> 0 < m -> nth_error l (m - 1) = Some p -> le p x = true ->
    firstn m (insert_by le x l) = l.
  Proof.
    intros Hs Hl Hm Hp Hpx. subst m.
    assert (HF := ssorted_last Hs Hp).
    clear Hm Hp. induction l as [|a l IH]; [reflexivity|]. cbn [insert_by length].
    inversion HF as [|? ? Ha HF']; subst. inversion Hs as [|? ? Hs' Ha']; subst.
    assert (Hax : le a x = true) by eauto.
    destruct (le x a) eqn:E.
    - assert (x = a) by auto. subst x. cbn [firstn]. f_equal.
      assert (Hall : forall y, In y l -> y = a).
      { rewrite Forall_forall in *. intros y Hy. apply le_antisym; [|auto]. apply le_trans with p; auto. }
      clear -Hall. revert Hall. induction l as [|b l IH]; intros Hall; [reflexivity|].
      rewrite (Hall b) by (left; auto). cbn [length firstn]. f_equal. apply IH. intros y Hy. apply Hall. right; auto.
    - cbn [firstn]. f_equal. apply IH; auto.
  Qed.

  Lemma insert_snoc x p l : ssorted (l ++ [p]) -> le p x = false -> insert_by le x (l ++ [p]) = insert_by le x l ++ [p].
  Proof.
    intros Hs E. induction l as [|a l IH]; cbn [app insert_by].
    - assert (H : le x p = true) by (destruct (le_total x p); congruence). now rewrite H.
    - destruct (le x a) eqn:E1; [reflexivity|]. cbn [app]. f_equal. apply IH. now inversion Hs.
  Qed.

  (** [push] keeps the [m] smallest *)
  Lemma msh_push_spec h x : ssorted (hs h) -> length (hs h) <= hmax h -> 0 < hmax h ->
    exists h' b, msh_push le h x = Ok (h', b) /\ hmax h' = hmax h /\
      hs h' = firstn (hmax h) (insert_by le x (hs h)) /\
      (b = true <-> Permutation (x :: hs h) (hs h') \/
                    exists y, nth_error (hs h) (hmax h - 1) = Some y /\ x <> y /\ Permutation (x :: hs h) (y :: hs h')) /\
      (b = false -> h' = h).
  Proof.
    intros Hs Hl Hm. unfold msh_push, msh_is_full.
    destruct (Nat.leb_spec (hmax h) (length (hs h))) as [Hf|Hf]; cbn [negb].
    2:{ exists (mkMsh (insert_by le x (hs h)) (hmax h)), true. split; auto. cbn [hs hmax]. split; auto.
        assert (HL : length (insert_by le x (hs h)) = S (length (hs h)))
          by (rewrite (Permutation_length (insert_by_perm le x (hs h))); auto).
        rewrite firstn_all2 by lia. split; auto. split; [|discriminate]. split; auto. intros _.
        left. symmetry. apply insert_by_perm. }
    assert (HL : length (hs h) = hmax h) by lia.
    unfold msh_peek. destruct (nth_error (hs h) (length (hs h) - 1)) as [p|] eqn:Ep.
    2:{ apply nth_error_None in Ep. lia. }
    cbn [ounwrap obind]. unfold lt_of. destruct (le p x) eqn:E; cbn [negb].
    - exists h, false. split; auto. split; auto. rewrite HL in Ep. split.
      { symmetry. eapply insert_last_ge; eauto. }
      split; auto. split; [discriminate|]. intros [HP|(y & Hy & Hne & HP)].
      + apply Permutation_length in HP. cbn in HP. lia.
      + rewrite Ep in Hy. inversion Hy; subst. exfalso. apply Hne.
        (* x :: H ~ p :: H implies x = p *)
        change (x :: hs h) with ([x] ++ hs h) in HP. change (y :: hs h) with ([y] ++ hs h) in HP.
        apply Permutation_app_inv_r in HP. apply Permutation_length_1 in HP. auto.
    -
      exists (mkMsh (insert_by le x (removelast (hs h))) (hmax h)), true. split; auto. cbn [hs hmax]. split; auto.
      assert (Hspl : hs h = removelast (hs h) ++ [p]).
      { rewrite (@app_removelast_last _ (hs h) p) at 1 by (intros H0; rewrite H0 in Ep; discriminate).
        f_equal. f_equal. destruct (hs h) as [|a l] using rev_ind; [discriminate|].
        rewrite last_last. rewrite app_length in Ep. cbn [length] in Ep. rewrite nth_error_app2 in Ep by lia.
        replace (length l + 1 - 1 - length l) with 0 in Ep by lia. now inversion Ep. }
      assert (HR : insert_by le x (removelast (hs h)) = firstn (hmax h) (insert_by le x (hs h))).
      { rewrite Hspl at 2. assert (Hs' := Hs). rewrite Hspl in Hs'.
        assert (Hlen : length (removelast (hs h)) = hmax h - 1).
        { pose proof (f_equal (@length A) Hspl) as H0. rewrite app_length in H0. cbn in H0. lia. }
        rewrite (insert_snoc _ Hs' E). rewrite firstn_app.
        assert (HL2 : length (insert_by le x (removelast (hs h))) = hmax h)
          by (rewrite (Permutation_length (insert_by_perm le x (removelast (hs h)))); cbn [length]; lia).
        rewrite HL2, Nat.sub_diag. cbn [firstn]. rewrite app_nil_r. symmetry. apply firstn_all2. lia. }
      split; [exact HR|]. split; [|discriminate]. split; auto. intros _. right. exists p. rewrite HL in Ep. split; auto.
      split; [intros ->; rewrite le_refl in E; discriminate|].
      rewrite Hspl at 1. rewrite insert_by_perm. rewrite <- Permutation_cons_append. apply perm_swap.
  Qed.

  Lemma firstn_sort_ok m l : ssorted (firstn m (sort_by le l)) /\ length (firstn m (sort_by le l)) <= m.
  Proof. split; [apply ssorted_firstn, sort_by_sorted; auto|rewrite firstn_length; lia]. Qed.

  Lemma msh_pushes_spec m l : 0 < m ->
    exists h, pushes le (msh_new m) l = Ok h /\ msh_into_sorted_vec h = firstn m (sort_by le l).
  Proof.
    intros Hm.
    assert (HG : forall l done h, hmax h = m -> hs h = firstn m (sort_by le done) ->
       exists h', pushes le h l = Ok h' /\ msh_into_sorted_vec h' = firstn m (sort_by le (rev l ++ done))).
    { clear l. induction l as [|x l IH]; intros done h H1 H2; cbn [pushes].
      - exists h. split; auto.
      - destruct (firstn_sort_ok m done) as [Hs Hl]. rewrite <- H2 in Hs, Hl.
        destruct (@msh_push_spec h x) as (h1 & b & E & Hm1 & Hh1 & _); [auto|lia|lia|]. rewrite E. cbn [obind fst].
        destruct (IH (x :: done) h1) as (h' & E' & Hh').
        + lia.
        + rewrite Hh1, H1, H2. cbn [sort_by]. rewrite insert_firstn; auto. apply sort_by_sorted; auto.
        + exists h'. split; auto. rewrite Hh'. f_equal. cbn [rev]. rewrite <- app_assoc. reflexivity. }
    destruct (HG l [] (msh_new m)) as (h & E & Hh); [reflexivity|now rewrite firstn_nil|].
    exists h. split; auto. rewrite Hh, app_nil_r. f_equal. apply sort_by_perm_eq; auto. symmetry. apply Permutation_rev.
  Qed.
End H.
