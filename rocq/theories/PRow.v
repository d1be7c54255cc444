(** * Proofs: the operations on one row *)
From Verif Require Import Base BaseFacts MSliceVec MIndexIo MSearch PHeap PSearch MBuild SBuild PSelect.
Set Implicit Arguments.
Unset Strict Implicit.

Lemma used_of_nat x : (N.of_nat x < UNUSED)%N -> is_used (N.of_nat x) = true.
Proof. intros H. unfold is_used. apply negb_true_iff. apply N.eqb_neq. lia. Qed.

Lemma take_while_pad ns k : Forall (fun x => (N.of_nat x < UNUSED)%N) ns ->
  take_while is_used (map N.of_nat ns ++ repeat UNUSED k) = map N.of_nat ns.
Proof.
  induction 1 as [|x ns Hx HF IH]; cbn [map app take_while].
  - destruct k; reflexivity.
  - rewrite used_of_nat by auto. now rewrite IH.
Qed.

Lemma map_to_of ns : map N.to_nat (map N.of_nat ns) = ns.
Proof. rewrite map_map. rewrite map_ext with (g := fun x => x); [apply map_id|]. intros; apply Nat2N.id. Qed.

Lemma row_ids_shows w r ns : row_shows w r ns -> Forall (fun x => (N.of_nat x < UNUSED)%N) ns -> row_ids r = ns.
Proof. intros [_ ->] HF. unfold row_ids. rewrite take_while_pad by auto. apply map_to_of. Qed.

Lemma row_shows_length w r ns : row_shows w r ns -> length r = w.
Proof. intros [H ->]. rewrite app_length, map_length, repeat_length. lia. Qed.

Lemma to_id_ok x : (N.of_nat x < UNUSED)%N -> to_id x = Ok (N.of_nat x).
Proof.
  intros H. unfold to_id. destruct (N.ltb_spec (N.of_nat x) 4294967296); auto.
  unfold UNUSED in H. lia.
Qed.

Lemma to_id_map {A} (g : A -> nat) l : Forall (fun x => (N.of_nat (g x) < UNUSED)%N) l ->
  omapM (fun x => to_id (g x)) l = Ok (map N.of_nat (map g l)).
Proof.
  induction 1 as [|x l Hx HF IH]; auto. cbn [omapM]. rewrite to_id_ok by auto. cbn [obind]. rewrite IH. reflexivity.
Qed.

Lemma pad_shows w ns : length ns <= w ->
  row_shows w (firstn w (map N.of_nat ns ++ repeat UNUSED w)) ns.
Proof.
  intros H. split; auto. rewrite firstn_app, map_length.
  rewrite firstn_all2 by (rewrite map_length; lia). f_equal.
  replace w with (w - length ns + length ns) at 2 by lia.
  rewrite repeat_app, firstn_app, repeat_length, firstn_all2 by (rewrite repeat_length; lia).
  replace (w - length ns - (w - length ns)) with 0 by lia. now rewrite firstn_O, app_nil_r.
Qed.

Lemma combine_fst {A B} (l : list A) (l' : list B) : length l = length l' -> map fst (combine l l') = l.
Proof.
  revert l'. induction l as [|a l IH]; intros [|b l'] H; try discriminate; auto. cbn. f_equal. apply IH. cbn in H. lia.
Qed.

(** [U = true]: rows are known to be duplicate-free *)
Definition nb_ok (U : bool) (n i : nat) (ns : list nat) : Prop :=
  (U = true -> NoDup ns) /\ ~ In i ns /\ Forall (fun x => x < n) ns.
Definition wf_row (U : bool) (w n i : nat) (r : list N) : Prop := exists ns, row_shows w r ns /\ nb_ok U n i ns.

Lemma nb_ok_full n i ns : nb_ok true n i ns <-> nbrs_ok n i ns.
Proof. unfold nb_ok, nbrs_ok. intuition. Qed.

Section Row.
  Context {S E : Type} (V : benv S E) (s : S).
  Local Notation C := (e_ops V).
  Hypothesis Hc : cont_ok C s.
  Hypothesis Hsort : sorts_by_dist (e_sort V).
  Hypothesis Hlen : (N.of_nat (c_len C s) <= UNUSED)%N.
  Variables (U : bool) (w n : nat).
  Hypothesis Hn : n <= c_len C s.
  Hypothesis Hw : 0 < w.

  Definition Dof (m j : nat) : Z :=
    match c_get C s j with
    | Ok e => match c_dte C s m e with Ok d => d | Fail _ => 0%Z end
    | Fail _ => 0%Z
    end.
  Lemma Dof_ok : pair_dist C s Dof.
  Proof.
    intros m j Hm Hj. destruct (ck_get Hc Hj) as (e & He). exists e. split; auto.
    destruct (ck_dte Hc Hm Hj He) as (d & Hd). unfold Dof. now rewrite He, Hd.
  Qed.

  Lemma small x : x < n -> (N.of_nat x < UNUSED)%N.
  Proof. lia. Qed.
  Lemma small_all ns : Forall (fun x => x < n) ns -> Forall (fun x => (N.of_nat x < UNUSED)%N) ns.
  Proof. apply Forall_impl. intros a. apply small. Qed.

  Lemma wf_ids i r : wf_row U w n i r -> row_shows w r (row_ids r) /\ nb_ok U n i (row_ids r).
  Proof.
    intros (ns & H1 & H2). assert (E1 : row_ids r = ns) by (eapply row_ids_shows; eauto; apply small_all, H2).
    now rewrite E1.
  Qed.

  (** selecting among sorted candidates and writing them *)
  Lemma limit_gen i r extra nn : wf_row U w n i r -> i < n -> 0 < nn <= w ->
    (extra = [] \/ exists j d, extra = [(j, d)] /\ j < n /\ j <> i /\ ~ In j (row_ids r)) ->
    exists r', add_and_limit V s r i extra nn = Ok r' /\ wf_row U w n i r' /\ length (row_ids r') <= nn /\
      (forall x, In x (row_ids r') -> In x (row_ids r) \/ In x (map fst extra)) /\
      (row_ids r ++ map fst extra <> [] -> row_ids r' <> []).
  Proof.
    intros Hr Hi Hnn Hex. destruct (wf_ids Hr) as [Hsh (Hnd & Hni & Hlt)].
    unfold add_and_limit. pose proof (row_shows_length Hsh) as HL. rewrite HL.
    destruct (Nat.leb_spec nn w); [|lia]. cbn [oassert obind].
    assert (HltC : Forall (fun j => j < c_len C s) (row_ids r)) by (eapply Forall_impl; [|exact Hlt]; cbn; intros; lia).
    destruct (ck_dists Hc (i := i) (js := row_ids r)) as (ds & Eds & Lds); [lia|auto|].
    rewrite Eds. cbn [obind].
    set (base := combine (row_ids r) ds ++ extra).
    assert (Hbf : map fst base = row_ids r ++ map fst extra).
    { unfold base. rewrite map_app, combine_fst; auto. }
    destruct (Hsort base) as [HP HS].
    assert (Hbn : U = true -> NoDup (map fst base)).
    { intros HU. specialize (Hnd HU). rewrite Hbf. destruct Hex as [->|(j & d & -> & Hj1 & Hj2 & Hj3)]; cbn [map]; [now rewrite app_nil_r|].
      apply NoDup_app_intro; auto; [repeat constructor; auto|]. intros x Hx [<-|[]]. auto. }
    assert (Hblt : Forall (fun x => fst x < n /\ fst x <> i) base).
    { rewrite Forall_forall. intros x Hx. assert (Hx' : In (fst x) (map fst base)) by (now apply in_map).
      rewrite Hbf in Hx'. apply in_app_or in Hx' as [Hx'|Hx'].
      - rewrite Forall_forall in Hlt. split; auto. intros Ei. rewrite Ei in Hx'. auto.
      - destruct Hex as [->|(j & d & -> & Hj1 & Hj2 & Hj3)]; cbn in Hx'; [tauto|]. destruct Hx' as [Ej|[]]. cbv beta. rewrite <- Ej. auto. }
    assert (HsF : Forall (fun x => fst x < c_len C s) (e_sort V base)).
    { rewrite Forall_forall in *. intros x Hx. apply (Permutation_in _ HP) in Hx. apply Hblt in Hx. lia. }
    destruct (@select_ok _ _ V s _ Dof_ok nn (e_sort V base)) as (sel & Esel & Lsel & Hsub & HndS & Hfirst); auto; [lia|].
    rewrite Esel. cbn [obind].
    assert (HselF : Forall (fun x => fst x < n /\ fst x <> i) sel).
    { rewrite Forall_forall in *. intros x Hx. apply Hsub in Hx. apply (Permutation_in _ HP) in Hx. auto. }
    rewrite to_id_map.
    2:{ eapply Forall_impl; [|exact HselF]. cbn. intros a [Ha _]. now apply small. }
    cbn [obind]. eexists. split; [reflexivity|].
    assert (Hshow : row_shows w (firstn w (map N.of_nat (map fst sel) ++ repeat UNUSED w)) (map fst sel)).
    { apply pad_shows. rewrite map_length. lia. }
    assert (Hok : nb_ok U n i (map fst sel)).
    { split; [|split].
      - intros HU. apply HndS. eapply Permutation_NoDup; [apply Permutation_map; symmetry; exact HP|auto].
      - intros Hin. apply in_map_iff in Hin as (x & Ex & Hx). rewrite Forall_forall in HselF. apply HselF in Hx. tauto.
      - rewrite Forall_forall in *. intros x Hx. apply in_map_iff in Hx as (y & <- & Hy). apply HselF in Hy. tauto. }
    rewrite (row_ids_shows Hshow) by (apply small_all, Hok).
    split; [eexists; eauto|]. split; [rewrite map_length; auto|]. split.
    - intros x Hx. apply in_map_iff in Hx as (y & <- & Hy). apply Hsub in Hy. apply (Permutation_in _ HP) in Hy.
      apply (in_map fst) in Hy. rewrite Hbf in Hy. apply in_app_or in Hy. exact Hy.
    - intros Hne. destruct (e_sort V base) as [|a t] eqn:Es.
      + exfalso. apply Hne. rewrite <- Hbf. apply Permutation_nil in HP. now rewrite HP.
      + specialize (Hfirst a eq_refl). destruct sel; [discriminate|]. discriminate.
  Qed.

  Lemma limit_ok i r nn : wf_row U w n i r -> i < n -> 0 < nn <= w ->
    exists r', add_and_limit V s r i [] nn = Ok r' /\ wf_row U w n i r' /\ length (row_ids r') <= nn /\
      incl (row_ids r') (row_ids r) /\ (row_ids r <> [] -> row_ids r' <> []).
  Proof.
    intros Hr Hi Hnn. destruct (limit_gen Hr Hi Hnn (or_introl eq_refl)) as (r' & E1 & H1 & H2 & H3 & H4).
    exists r'. cbn [map] in *. rewrite app_nil_r in H4. repeat split; auto. intros x Hx. destruct (H3 x Hx) as [|[]]; auto.
  Qed.

  Lemma connect_ok i r j d : wf_row U w n i r -> i < n -> j < n ->
    exists r', connect_nodes V s r i j d = Ok r' /\ wf_row U w n i r' /\
      (i = j -> r' = r) /\
      (i <> j -> row_ids r' <> []) /\
      (forall x, In x (row_ids r') -> In x (row_ids r) \/ (i <> j /\ x = j)) /\
      (row_ids r <> [] -> row_ids r' <> []) /\
      (i <> j -> In j (row_ids r) -> r' = r) /\
      (i <> j -> ~ In j (row_ids r) -> length (row_ids r) < w -> row_ids r' = row_ids r ++ [j]).
  Proof.
    intros Hr Hi Hj. unfold connect_nodes. destruct (Nat.eqb_spec i j) as [->|Hij].
    { exists r. split; auto. split; auto. split; auto. split; [tauto|]. split; [auto|]. split; [auto|]. split; tauto. }
    rewrite to_id_ok by (now apply small). cbn [obind].
    destruct (wf_ids Hr) as [Hsh (Hnd & Hni & Hlt)]. pose proof (row_shows_length Hsh) as HL.
    pose proof (small_all Hlt) as Hsm.
    destruct (position _ r) as [p|] eqn:Ep.
    - apply position_some in Ep as (x & Hx & Hpx & Hbefore).
      assert (Hp : p < length r) by (apply nth_error_Some; congruence).
      unfold store. destruct (Nat.ltb_spec p (length r)); [|lia]. eexists. split; [reflexivity|].
      destruct Hsh as [Hlw Hre].
      destruct (in_dec Nat.eq_dec j (row_ids r)) as [Hin|Hnin].
      + (* already there *)
        assert (Hxj : x = N.of_nat j).
        { apply orb_true_iff in Hpx as [Hpx|Hpx]; apply N.eqb_eq in Hpx; auto. exfalso.
          (* j occurs before p *)
          apply In_nth_error in Hin as (q & Hq).
          assert (Hql : q < length (row_ids r)) by (apply nth_error_Some; congruence).
          assert (Hq2 : nth_error r q = Some (N.of_nat j)).
          { rewrite Hre at 1. rewrite nth_error_app1 by (rewrite map_length; auto).
            erewrite map_nth_error; eauto. }
          assert (~ p < length (row_ids r)).
          { intros Hpl. rewrite Hre in Hx at 1. rewrite nth_error_app1 in Hx by (rewrite map_length; auto).
            apply nth_error_In in Hx. apply in_map_iff in Hx as (z & Ez & Hz). rewrite Forall_forall in Hsm.
            apply Hsm in Hz. rewrite Ez, Hpx in Hz. lia. }
          specialize (Hbefore q (N.of_nat j)). cbn beta in Hbefore.
          rewrite N.eqb_refl, orb_true_r in Hbefore. assert (true = false); [|discriminate]. apply Hbefore; auto. lia. }
        assert (Er : set_nth r p (N.of_nat j) = r).
        { apply nth_error_ext. intros q. rewrite nth_error_set_nth. destruct (Nat.eqb_spec p q) as [<-|]; cbn [andb]; auto.
          rewrite Hx, Hxj. destruct (p <? length r) eqn:El; auto. }
        rewrite Er. split; auto. split; [tauto|]. split; [intros _ E0; rewrite E0 in Hin; destruct Hin|].
        split; [auto|]. split; auto. split; auto. tauto.
      + (* free slot *)
        assert (Hxu : x = UNUSED).
        { apply orb_true_iff in Hpx as [Hpx|Hpx]; apply N.eqb_eq in Hpx; auto. exfalso. subst x.
          rewrite Hre in Hx. apply nth_error_In in Hx. apply in_app_or in Hx as [Hx|Hx].
          - apply in_map_iff in Hx as (z & Ez & Hz). apply Nat2N.inj in Ez. now subst.
          - apply repeat_spec in Hx. pose proof (small Hj). lia. }
        assert (Hpl : p = length (row_ids r)).
        { destruct (Nat.lt_trichotomy p (length (row_ids r))) as [Hl|[Hl|Hl]]; auto; exfalso.
          - rewrite Hre in Hx at 1. rewrite nth_error_app1 in Hx by (rewrite map_length; auto).
            apply nth_error_In in Hx. apply in_map_iff in Hx as (z & Ez & Hz). rewrite Forall_forall in Hsm.
            apply Hsm in Hz. rewrite Ez, Hxu in Hz. lia.
          - assert (Hq : nth_error r (length (row_ids r)) = Some UNUSED).
            { rewrite Hre at 1. rewrite nth_error_app2 by (rewrite map_length; auto). rewrite map_length, Nat.sub_diag.
              destruct (w - length (row_ids r)) eqn:Ew; [lia|reflexivity]. }
            specialize (Hbefore _ _ Hl Hq). cbn in Hbefore. discriminate. }
        assert (Hshow : row_shows w (set_nth r p (N.of_nat j)) (row_ids r ++ [j])).
        { split; [rewrite app_length; cbn; lia|]. rewrite Hre at 1. rewrite set_nth_app. rewrite map_length.
          destruct (Nat.ltb_spec p (length (row_ids r))); [lia|]. rewrite map_app, <- app_assoc. f_equal.
          rewrite Hpl, Nat.sub_diag. rewrite app_length. cbn [length map app].
          replace (w - length (row_ids r)) with (Datatypes.S (w - (length (row_ids r) + 1))) by lia. reflexivity. }
        assert (Hok : nb_ok U n i (row_ids r ++ [j])).
        { split; [|split].
          - intros HU. apply NoDup_app_intro; auto; [repeat constructor; auto|]. intros y Hy [<-|[]]. auto.
          - rewrite in_app_iff. cbn. intros [H'|[H'|[]]]; auto.
          - apply Forall_app. auto. }
        assert (Eids : row_ids (set_nth r p (N.of_nat j)) = row_ids r ++ [j]).
        { apply (row_ids_shows Hshow). apply small_all, Hok. }
        split; [eexists; eauto|]. rewrite Eids. split; [tauto|].
        split; [intros _ E0; destruct (row_ids r); discriminate|].
        split; [intros y Hy; apply in_app_or in Hy as [|[<-|[]]]; auto|].
        split; [intros _ E0; destruct (row_ids r); discriminate|]. split; [tauto|auto].
    - (* full *)
      pose proof (position_none _ _ Ep) as Hall.
      assert (Hful : length (row_ids r) = w).
      { destruct Hsh as [Hlw Hre]. destruct (Nat.eq_dec (length (row_ids r)) w); auto. exfalso.
        assert (Hu : In UNUSED r).
        { rewrite Hre. apply in_or_app. right. destruct (w - length (row_ids r)) eqn:Ew; [lia|left; auto]. }
        rewrite Forall_forall in Hall. apply Hall in Hu. cbn in Hu. discriminate. }
      assert (Hnin : ~ In j (row_ids r)).
      { intros Hin. assert (Hu : In (N.of_nat j) r).
        { destruct Hsh as [Hlw Hre]. rewrite Hre. apply in_or_app. left. now apply in_map. }
        rewrite Forall_forall in Hall. apply Hall in Hu. rewrite N.eqb_refl, orb_true_r in Hu. discriminate. }
      rewrite HL.
      destruct (@limit_gen i r [(j, d)] w Hr Hi) as (r' & E1 & H1 & H2 & H3 & H4); [lia|right; exists j, d; auto|].
      exists r'. split; auto. split; auto. split; [tauto|].
      assert (Hne : row_ids r' <> []) by (apply H4; destruct (row_ids r); discriminate).
      split; auto. split; [intros x Hx; destruct (H3 x Hx) as [|[<-|[]]]; auto|]. split; auto. split; [tauto|lia].
  Qed.

  Lemma init_ok i r ns : wf_row U w n i r -> (U = true -> row_ids r = [] \/ ns = []) -> length ns <= w ->
    nbrs_ok n i (map fst ns) ->
    exists r', init_row r ns = Ok r' /\ wf_row U w n i r' /\ (ns = [] -> r' = r) /\
      row_ids r' = map fst ns ++ skipn (length ns) (row_ids r).
  Proof.
    intros Hr He Hl Hok. destruct (wf_ids Hr) as [Hsh (Hnd0 & Hni0 & Hlt0)]. pose proof (row_shows_length Hsh) as HL.
    unfold init_row. rewrite firstn_all2 by lia.
    assert (Hok' := Hok). destruct Hok' as (Hnd & Hni & Hlt).
    rewrite to_id_map.
    2:{ rewrite Forall_forall in *. intros x Hx. apply small. apply Hlt. now apply in_map. }
    cbn [obind]. eexists. split; [reflexivity|].
    set (ids' := map fst ns ++ skipn (length ns) (row_ids r)).
    assert (Hlids : length ids' <= w).
    { unfold ids'. rewrite app_length, map_length, skipn_length. destruct Hsh as [Hx _]. lia. }
    assert (Hshow : row_shows w (map N.of_nat (map fst ns) ++ skipn (length (map N.of_nat (map fst ns))) r) ids').
    { split; auto. unfold ids'. rewrite map_app, <- app_assoc. f_equal. destruct Hsh as [Hlw Hre].
      rewrite Hre at 1. rewrite !map_length, skipn_app, map_length, skipn_map. f_equal.
      rewrite app_length, map_length, skipn_length.
      rewrite <- (firstn_skipn (length ns - length (row_ids r)) (repeat UNUSED (w - length (row_ids r)))) at 1.
      assert (Hrs : forall a k, skipn a (repeat UNUSED k) = repeat UNUSED (k - a)).
      { clear. induction a as [|a IH]; intros [|k]; cbn; auto. }
      rewrite firstn_skipn, Hrs. f_equal. lia. }
    assert (Hok2 : nb_ok U n i ids').
    { unfold ids'. split; [|split].
      - intros HU. destruct (He HU) as [E0|E0].
        + rewrite E0, skipn_nil, app_nil_r. auto.
        + subst ns. cbn [map app length]. rewrite skipn_O. auto.
      - rewrite in_app_iff. intros [H|H]; auto. apply Hni0. eapply skipn_In; eauto.
      - apply Forall_app. split; auto. rewrite Forall_forall in *. intros x Hx. apply Hlt0. eapply skipn_In; eauto. }
    assert (Eids := row_ids_shows Hshow (small_all (proj2 (proj2 Hok2)))).
    split; [eexists; eauto|]. split; auto.
    intros ->. cbn [map length app]. now rewrite skipn_O.
  Qed.

  Lemma empty_row_head i r : wf_row U w n i r ->
    exists x, nth_error r 0 = Some x /\ ((x =? UNUSED)%N = true <-> row_ids r = []).
  Proof.
    intros Hr. destruct (wf_ids Hr) as [[Hlw Hre] (_ & _ & Hlt)].
    destruct (row_ids r) as [|a t] eqn:Ei.
    - cbn [map app length] in Hre. rewrite Hre. rewrite Nat.sub_0_r.
      destruct w as [|w']; [lia|]. exists UNUSED. split; auto. split; auto.
    - cbn [map app] in Hre. rewrite Hre. exists (N.of_nat a). split; auto. split; [|discriminate].
      intros Ha. apply N.eqb_eq in Ha. inversion Hlt; subst. pose proof (small H1). lia.
  Qed.
End Row.
