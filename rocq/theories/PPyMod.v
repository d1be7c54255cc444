(** Proofs for C75. *)
From Verif Require Import Base BaseFacts Bytes PBytes MSliceVec SSliceVec PFixed PVar PSliceMisc MSearch MBuild MEmbed SEmbed PEmbed PEmbed2 PEmbed3 MParse SParse PParse PParse2 PParse3 MFloat MFloatBits MAngular PPipelineB MPyIndex MPyMod.
From Coq Require Import Permutation.
Set Implicit Arguments.

Lemma kw_get_in {V} (k : list (str * V)) n v : NoDup (map fst k) -> In (n, v) k -> kw_get k n = Some v.
Proof.
  induction k as [|[n' v'] k IH]; intros Hn Hi; [destruct Hi|]. cbn [map fst] in Hn. inversion Hn; subst. cbn [kw_get].
  destruct Hi as [E|Hi].
  - injection E as -> ->. now rewrite str_eqb_refl.
  - rewrite str_eqb_neq; [now apply IH|]. intros ->. apply H1. now apply (in_map fst) in Hi.
Qed.
Lemma kw_get_some {V} (k : list (str * V)) n v : kw_get k n = Some v -> In (n, v) k.
Proof.
  induction k as [|[n' v'] k IH]; cbn [kw_get]; [discriminate|]. destruct (str_eqb n' n) eqn:E.
  - apply str_eqb_eq in E. intros H. injection H as <-. subst. now left.
  - intros H. right. auto.
Qed.
Lemma kw_get_perm {V} (k k' : list (str * V)) n : Permutation k k' -> NoDup (map fst k) -> kw_get k n = kw_get k' n.
Proof.
  intros Hp Hn. assert (Hn' : NoDup (map fst k')) by (eapply Permutation_NoDup; [apply Permutation_map, Hp|exact Hn]).
  destruct (kw_get k n) as [v|] eqn:E.
  - symmetry. apply kw_get_in; auto. apply kw_get_some in E. eapply Permutation_in; eauto.
  - destruct (kw_get k' n) as [v|] eqn:E'; [|reflexivity]. apply kw_get_some in E'.
    assert (Hi : In (n, v) k) by (eapply Permutation_in; [apply Permutation_sym, Hp|exact E']). pose proof (@kw_get_in _ k n v Hn Hi). congruence.
Qed.
Lemma bind_params_perm {V} ps : forall (args : list V) k k', Permutation k k' -> NoDup (map fst k) ->
  bind_params ps args k = bind_params ps args k'.
Proof.
  induction ps as [|[n o] ps IH]; intros args k k' Hp Hn; [reflexivity|]. cbn [bind_params].
  rewrite (kw_get_perm n Hp Hn), (IH _ _ _ Hp Hn). reflexivity.
Qed.
Lemma forallb_perm {A} (f : A -> bool) l l' : Permutation l l' -> forallb f l = forallb f l'.
Proof.
  induction 1 as [|x l l' H IH|x y l|l1 l2 l3 H1 IH1 H2 IH2]; cbn [forallb]; [reflexivity|now rewrite IH| |congruence].
  destruct (f x), (f y); reflexivity.
Qed.
Lemma bind_args_perm {V} ps (args : list V) k k' : Permutation k k' -> NoDup (map fst k) ->
  bind_args ps args k = bind_args ps args k'.
Proof.
  intros Hp Hn. unfold bind_args. rewrite (Permutation_length Hp), (forallb_perm _ Hp), (bind_params_perm ps args Hp Hn). reflexivity.
Qed.
Lemma call_fn_perm {R} ns (f : str -> str -> str -> outcome R) args k k' : Permutation k k' -> NoDup (map fst k) ->
  call_fn ns f args k = call_fn ns f args k'.
Proof. intros Hp Hn. unfold call_fn. destruct ns as [[a b] c]. now rewrite (bind_args_perm _ args Hp Hn). Qed.

(** ** [Embeddings] *)

(** any history of appends, refused ones too *)
Definition pe_inv (e : @pyemb f32) : Prop :=
  exists embs w ws, e = mkPyEmb (mkSumEmb (mkFw (concat embs) w) vw_new) (dict_of ws) /\ NoDup ws /\
    Forall (fun v => length v = w) embs /\ (0 < w -> embs <> []).
Lemma pe_inv_new : pe_inv pe_new.
Proof. exists [], 0, []. split; [reflexivity|]. repeat split; try constructor. lia. Qed.
Lemma pe_inv_append e v u : pe_inv e -> pe_inv (fst (pe_append e v u)).
Proof.
  intros (embs & w & ws & -> & Hn & Hf & Hw). unfold pe_append. cbn [pe_words pe_emb]. rewrite push_of_dict by auto.
  destruct (in_dec (list_eq_dec N.eq_dec) u ws) as [Hin|Hni].
  - cbn [fst]. exists embs, w, ws. auto.
  - assert (Hn' : NoDup (ws ++ [u])) by (now apply NoDup_snoc).
    unfold se_push_embedding. cbn [se_embs se_els]. unfold fw_push. cbn [fwidth fdata].
    destruct (Nat.eqb_spec w 0) as [->|Hw0].
    + rewrite Nat.eqb_refl. cbn [oassert obind fst]. exists (match v with [] => embs | _ => [v] end), (length v), (ws ++ [u]).
      assert (E : concat embs = []).
      { clear -Hf. induction Hf as [|x l Hx _ IH]; [reflexivity|]. cbn [concat]. rewrite IH. destruct x; [reflexivity|discriminate]. }
      destruct v as [|x v].
      * rewrite app_nil_r. split; [reflexivity|]. split; [exact Hn'|]. split; [exact Hf|]. cbn. lia.
      * rewrite E. cbn [concat app]. rewrite app_nil_r. split; [reflexivity|]. split; [exact Hn'|]. split; [repeat constructor|]. discriminate.
    + destruct (Nat.eqb_spec w (length v)) as [Hv|Hv]; cbn [oassert obind fst].
      * exists (embs ++ [v]), w, (ws ++ [u]). rewrite concat_app. cbn [concat]. rewrite app_nil_r. split; [reflexivity|]. split; [exact Hn'|].
        split; [apply Forall_app; split; auto|]. intros _ E. destruct embs; discriminate.
      * exists embs, w, (ws ++ [u]). auto.
Qed.
Lemma pe_inv_appends l : forall e, pe_inv e -> pe_inv (fst (pe_appends e l)).
Proof.
  induction l as [|[u v] l IH]; intros e He; [exact He|]. cbn [pe_appends].
  destruct (pe_append e v u) as [e1 b] eqn:E1. destruct (pe_appends e1 l) as [e2 bs] eqn:E2. cbn [fst].
  assert (H1 : pe_inv e1) by (pose proof (pe_inv_append v u He) as H; now rewrite E1 in H).
  specialize (IH e1 H1). now rewrite E2 in IH.
Qed.

Section Save.
  Context (dec : str -> option str) (enc : str -> str).

  Lemma pe_inv_len e : pe_inv e -> 0 < pe_len e -> exists embs w ws,
    e = mkPyEmb (mkSumEmb (mkFw (concat embs) w) vw_new) (dict_of ws) /\ 0 < w /\ Forall (fun v => length v = w) embs /\ embs <> [].
  Proof.
    intros (embs & w & ws & -> & Hn & Hf & Hw) Hl. exists embs, w, ws. split; [reflexivity|].
    unfold pe_len, se_num_embeddings, fw_len in Hl. cbn [pe_emb se_embs fdata fwidth] in Hl.
    destruct (Nat.eq_dec w 0) as [->|Hw0]; [cbn in Hl; lia|]. repeat split; auto; try (apply Hw); lia.
  Qed.

  Lemma save_open e : json_ok dec enc -> pe_inv e -> 0 < pe_len e -> fits64 (fwidth (se_embs (pe_emb e))) ->
    pe_open dec (Some (fst (pe_save enc e))) (Some (snd (pe_save enc e))) = Ok e.
  Proof.
    intros Hj He Hl H64. destruct (pe_inv_len He Hl) as (embs & w & ws & -> & Hw & Hf & Hne).
    cbn [pe_emb se_embs fwidth] in H64. unfold pe_open, pe_save. cbn [fst snd pe_emb pe_words se_embs].
    rewrite dict_new_write by auto. cbn [obind]. unfold se_from_files. cbn [obind].
    assert (Hi : fw_is w embs (mkFw (concat embs) w)) by (repeat split; auto).
    destruct (@fw_round_trip_rows _ f32r _ f32r_ok w embs _ Hw H64 Hi) as (v & -> & _ & ->).
    { apply Forall_forall. intros; exact I. }
    reflexivity.
  Qed.
End Save.
