(** * Proofs: search over a whole index *)
From Verif Require Import Base BaseFacts Bytes MSliceVec MOffsets MSetVec MIndexIo SIndexIo MSearch SSearch PHeap PSearch.
Set Implicit Arguments. Unset Strict Implicit.

Definition nb_of (m : mode) (L : layers) (i x : nat) : list nat :=
  match get_neighbors m L x i with Ok r => r | Fail _ => [] end.

Lemma layer_bridge m L G i g : index_shows m L G -> nth_error G i = Some g -> layer_ok g ->
  (forall x, x < length g -> get_neighbors m L x i = Ok (nb_of m L i x) /\ Forall (fun y => y < length g) (nb_of m L i x)) /\
  (forall x y, x < length g -> (In y (nb_of m L i x) <-> edge g x y)).
Proof.
  intros [_ HS] Hi [_ Hok]. destruct (HS _ _ Hi) as [_ Hj]. split.
  - intros x Hx. destruct (nth_error g x) as [ns|] eqn:En; [|apply nth_error_None in En; lia].
    destruct (Hj _ _ En) as (ns' & E & HP). unfold nb_of. rewrite E. split; auto.
    rewrite Forall_forall. intros y Hy. apply (Permutation_in _ HP) in Hy. apply in_map_iff in Hy as (z & <- & Hz).
    rewrite Forall_forall in Hok. apply nth_error_In in En. specialize (Hok _ En). rewrite Forall_forall in Hok. auto.
  - intros x y Hx. destruct (nth_error g x) as [ns|] eqn:En; [|apply nth_error_None in En; lia].
    destruct (Hj _ _ En) as (ns' & E & HP). unfold nb_of. rewrite E. unfold edge. split.
    + intros Hy. apply (Permutation_in _ HP) in Hy. apply in_map_iff in Hy as (z & <- & Hz).
      exists ns. split; auto. now rewrite N2Nat.id.
    + intros (ns2 & E2 & Hy). rewrite En in E2. inversion E2; subst ns2. apply (Permutation_in _ (Permutation_sym HP)).
      apply in_map_iff. exists (N.of_nat y). split; auto. apply Nat2N.id.
Qed.

Lemma rch_reach m L G i g x y : index_shows m L G -> nth_error G i = Some g -> layer_ok g -> x < length g ->
  rch (length g) (nb_of m L i) x y <-> reach g x y.
Proof.
  intros HS Hi Hg Hx. destruct (layer_bridge HS Hi Hg) as [_ He]. split.
  - induction 1 as [|y z H1 IH Hy Hz]; [constructor|]. econstructor; [exact IH|]. now apply He.
  - induction 1 as [|y z H1 IH Hz]; [constructor|].
    assert (Hy : y < length g) by (destruct Hz as (ns & E & _); apply nth_error_Some; congruence).
    econstructor; [exact IH|auto|]. now apply He.
Qed.

Lemma graph_ok_nth G i g : graph_ok G -> nth_error G i = Some g -> layer_ok g.
Proof. intros [H _] Hi. rewrite Forall_forall in H. apply H. eapply nth_error_In; eauto. Qed.

Definition swap_key (k : key) : nat * Z := (snd k, fst k).

Lemma removelast_map_seq {A} (f : nat -> A) k : removelast (map f (seq 0 (S k))) = map f (seq 0 k).
Proof.
  rewrite seq_S, map_app. cbn [map]. apply removelast_last.
Qed.

Lemma last_nth {A} (G : list (list A)) : G <> [] -> nth_error G (length G - 1) = Some (last G []).
Proof.
  intros Hne. destruct (exists_last Hne) as (t & x & ->). rewrite last_last, app_length. cbn [length].
  rewrite nth_error_app2 by lia. replace (length t + 1 - 1 - length t) with 0 by lia. reflexivity.
Qed.

  Lemma graphs_split m L G : index_shows m L G -> G <> [] ->
    split_last (graphs_of m L) = Some ((fun j => get_neighbors m L j (length G - 1)),
                                       map (fun i j => get_neighbors m L j i) (seq 0 (length G - 1))).
  Proof.
    intros HS Hne. unfold split_last, graphs_of. rewrite (proj1 HS). destruct (length G) as [|k] eqn:EG; [destruct G; [congruence|discriminate]|].
    rewrite map_length, seq_length. replace (S k - 1) with k by lia. rewrite removelast_map_seq.
    rewrite seq_S, map_app. cbn [map Nat.add]. rewrite nth_error_app2 by (rewrite map_length, seq_length; lia).
    rewrite map_length, seq_length, Nat.sub_diag. reflexivity.
  Qed.

  Lemma final_sorted l : ksorted l -> NoDup (map snd l) -> StronglySorted closer (map swap_key l).
  Proof.
    induction 1 as [|a l Hs IH Hf]; cbn [map]; [constructor|]. intros HN. inversion HN as [|? ? Hni Hnd]; subst. constructor; auto.
    rewrite Forall_forall in *. intros b Hb. apply in_map_iff in Hb as (k & <- & Hk). unfold closer. cbn [swap_key fst snd].
    specialize (Hf _ Hk). apply key_le_iff in Hf. destruct Hf as [Hf|[Hf1 Hf2]]; auto. right. split; auto.
    assert (snd a <> snd k) by (intros E; apply Hni; rewrite E; now apply in_map). lia.
  Qed.

  Lemma ids_swap l : map fst (map swap_key l) = map snd l.
  Proof. rewrite map_map. reflexivity. Qed.

Section Ix.
  Variables (m : mode) (L : layers) (G : list (list (list N))) (dist : nat -> outcome Z) (f : nat -> Z) (fuel : nat).
  Hypothesis HS : index_shows m L G.
  Hypothesis HG : graph_ok G.
  Hypothesis Hd : dist_is dist f (length (last G [])).
  Hypothesis Hfuel : length (last G []) < fuel.

  Lemma last_longest i g : nth_error G i = Some g -> length g <= length (last G []).
  Proof using HG.
    intros Hi. assert (Hl : i < length G) by (apply nth_error_Some; congruence).
    assert (Hne : G <> []) by (intros E; rewrite E in Hl; inversion Hl).
    destruct HG as [_ Hm]. apply (Hm i (length G - 1)); auto; [apply (last_nth Hne)|]. clear -Hl. lia.
  Qed.

  Lemma layer_search i g ep ms : nth_error G i = Some g -> ep < length g -> 0 < ms ->
    exists l, search_for_neighbors fuel (fun j => get_neighbors m L j i) dist ep ms = Ok (map swap_key l) /\
              final (length g) f (nb_of m L i) ms ep l.
  Proof.
    intros Hi Hep Hms. pose proof (last_longest Hi) as Hle.
    destruct (layer_bridge HS Hi (graph_ok_nth HG Hi)) as [Hb _].
    assert (Hd' : forall i, i < length g -> dist i = Ok (f i)) by (intros; apply Hd; lia).
    apply (@sfn_ok (length g) f dist Hd' (fun j => get_neighbors m L j i) (nb_of m L i) Hb ms ep Hms Hep). lia.
  Qed.

  Lemma entry_ok k : k < length G ->
    exists ep, find_entrypoint fuel (map (fun i j => get_neighbors m L j i) (seq 0 k)) dist = Ok ep /\
      (forall g, nth_error G k = Some g -> ep < length g) /\ key_le (kof f ep) (kof f 0) = true.
  Proof.
    induction k as [|k IH]; intros Hk.
    - exists 0. split; [reflexivity|]. split; [|apply key_le_refl]. intros g Hg.
      destruct (graph_ok_nth HG Hg) as [Hne _]. destruct g; [congruence|cbn; lia].
    - destruct IH as (ep & E & Hlt & Hle); [lia|]. unfold find_entrypoint in *.
      rewrite seq_S, map_app, ofold_app, E. cbn [obind map ofold].
      destruct (nth_error G k) as [g|] eqn:Eg; [|apply nth_error_None in Eg; lia].
      destruct (@layer_search k g ep 1 Eg (Hlt _ eq_refl)) as (l & El & HF); [lia|].
      cbn [Nat.add]. rewrite El. cbn [obind].
      destruct HF as (F1 & F2 & F3 & F4 & F5 & F6 & r & F7 & F8).
      destruct l as [|a [|b t]]; [destruct F7| |cbn in F3; lia]. cbn [map index nth_error ounwrap obind fst swap_key].
      destruct F7 as [->|[]]. destruct (F4 r (or_introl eq_refl)) as (Er & Hr & _).
      exists (snd r). split; [reflexivity|]. split.
      + intros h Hh. destruct HG as [_ Hm]. assert (length g <= length h) by (apply (Hm k (S k)); auto). lia.
      + rewrite <- Er. eapply key_le_trans; eauto.
  Qed.

  Lemma search_main ms nn : G <> [] -> 0 < ms ->
    exists ep l, find_entrypoint fuel (removelast (graphs_of m L)) dist = Ok ep /\
      ep < length (last G []) /\ key_le (kof f ep) (kof f 0) = true /\
      granne_search m fuel L dist ms nn = Ok (firstn nn (map swap_key l)) /\
      final (length (last G [])) f (nb_of m L (length G - 1)) ms ep l.
  Proof.
    intros Hne Hms. destruct (@entry_ok (length G - 1)) as (ep & E & Hlt & Hle).
    { destruct G; [congruence|cbn; lia]. }
    specialize (Hlt _ (last_nth Hne)).
    destruct (layer_search (last_nth Hne) Hlt Hms) as (l & El & HF).
    exists ep, l. split; [|split; [|split; [|split]]]; auto.
    - unfold graphs_of. rewrite (proj1 HS). destruct (length G) as [|k] eqn:EG; [destruct G; [congruence|discriminate]|].
      rewrite removelast_map_seq. replace k with (S k - 1) by lia. auto.
    - unfold granne_search, search_internal. rewrite (graphs_split HS Hne), E. cbn [obind]. rewrite El. reflexivity.
  Qed.

  (** the set of reachable nodes is finite; when it fits, the result is all of it *)
  Lemma exhaustive ms ep l R : G <> [] -> ep < length (last G []) ->
    final (length (last G [])) f (nb_of m L (length G - 1)) ms ep l ->
    NoDup R -> (forall x, In x R <-> reach (last G []) ep x) -> length R <= ms ->
    Permutation (map snd l) R.
  Proof.
    intros Hne Hep (F1 & F2 & F3 & F4 & F5 & F6 & F7) HR HRin Hlen.
    pose proof (last_nth Hne) as Hln. pose proof (graph_ok_nth HG Hln) as Hgok.
    assert (Hincl : forall x, In x (map snd l) -> In x R).
    { intros x Hx. apply in_map_iff in Hx as (k & <- & Hk). destruct (F4 _ Hk) as (_ & _ & Hr).
      apply HRin. eapply rch_reach in Hr; eauto. }
    assert (Hfull : length l = ms -> forall x, In x R -> In x (map snd l)).
    { intros Hl. assert (HL : length R <= length (map snd l)) by (rewrite map_length; etransitivity; [exact Hlen|]; rewrite <- Hl; apply Nat.le_refl).
      exact (NoDup_length_incl F2 HL Hincl). }
    apply NoDup_Permutation; auto. intros x. split; auto. intros Hx.
    destruct (Nat.eq_dec (length l) ms) as [He|He]; [auto|].
    apply HRin in Hx. apply (proj2 (rch_reach x HS Hln Hgok Hep)) in Hx.
    induction Hx as [|y z Hy IH Hyn Hz].
    - destruct F6 as [H|[H _]]; [auto|congruence].
    - destruct (F5 y z IH Hz) as [H|[H _]]; [auto|congruence].
  Qed.
End Ix.

Lemma search_same m L1 L2 G dist f fuel ms nn :
  index_shows m L1 G -> index_shows m L2 G -> graph_ok G -> dist_is dist f (length (last G [])) ->
  length (last G []) < fuel ->
  granne_search m fuel L1 dist ms nn = granne_search m fuel L2 dist ms nn.
Proof.
  intros H1 H2 HG Hd Hf. destruct (list_eq_dec (list_eq_dec (list_eq_dec N.eq_dec)) G []) as [->|Hne].
  { destruct H1 as [H1 _]; destruct H2 as [H2 _]. unfold granne_search, graphs_of. rewrite H1, H2. reflexivity. }
  assert (Hlayer : forall i g ep ms, nth_error G i = Some g -> ep < length g ->
     search_for_neighbors fuel (fun j => get_neighbors m L1 j i) dist ep ms =
     search_for_neighbors fuel (fun j => get_neighbors m L2 j i) dist ep ms).
  { intros i g ep ms0 Hi Hep. pose proof (graph_ok_nth HG Hi) as Hgok.
    destruct (layer_bridge H1 Hi Hgok) as [Hb1 He1]. destruct (layer_bridge H2 Hi Hgok) as [Hb2 He2].
    pose proof (last_longest HG Hi) as Hle.
    assert (Hd' : forall i, i < length g -> dist i = Ok (f i)) by (intros; apply Hd; lia).
    apply (@sfn_same (length g) f dist Hd' (fun j => get_neighbors m L1 j i) (fun j => get_neighbors m L2 j i) _ _ Hb1 Hb2); auto.
    intros x y Hx. rewrite (He1 x y Hx), (He2 x y Hx). tauto. }
  assert (Hent : forall k, k < length G ->
     find_entrypoint fuel (map (fun i j => get_neighbors m L1 j i) (seq 0 k)) dist =
     find_entrypoint fuel (map (fun i j => get_neighbors m L2 j i) (seq 0 k)) dist).
  { induction k as [|k IH]; intros Hk; [reflexivity|].
    destruct (@entry_ok m L1 G dist f fuel H1 HG Hd Hf k) as (ep & E & Hlt & _); [lia|].
    assert (E2 := E). rewrite IH in E2 by lia. unfold find_entrypoint in *.
    rewrite !seq_S, !map_app, !ofold_app, E, E2. cbn [obind map ofold Nat.add].
    destruct (nth_error G k) as [g|] eqn:Eg; [|apply nth_error_None in Eg; lia].
    rewrite (Hlayer k g ep 1 Eg); auto. }
  unfold granne_search, search_internal. rewrite (graphs_split H1 Hne), (graphs_split H2 Hne).
  rewrite Hent by (destruct G; [congruence|cbn; lia]).
  destruct (@entry_ok m L2 G dist f fuel H2 HG Hd Hf (length G - 1)) as (ep & E & Hlt & _); [destruct G; [congruence|cbn; lia]|].
  rewrite E. cbn [obind]. rewrite (Hlayer _ _ ep ms (last_nth Hne)); auto. apply Hlt. now apply last_nth.
Qed.
