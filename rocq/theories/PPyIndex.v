(** * Proofs: the Python classes *)
From Coq Require Import ZArith Reals Lia.
From Flocq Require Import Core IEEE754.BinarySingleNaN.
From Verif Require Import Base BaseFacts Bytes PBytes MSliceVec SSliceVec PFixed MIndexIo SIndexIo PIndexCrash MSearch SSearch MBuild SBuild MReorder MFloat MFloatBits MAngular SAngular MLayerSize.
From Verif Require Import PF32 PCode PAngInt PAng PQuant PDense PDenseHist PBuilder PHistory PHistGen SPipeline TSlice TVectors MEmbed SEmbed PEmbed PEmbed2 MParse SParse PParse MPyIndex SPyIndex.
Close Scope R_scope. Close Scope Z_scope.
Open Scope nat_scope.

(** ** Sessions as histories *)
Definition conv_call {I} (conv : pyval -> I) (c : py_call) : call I :=
  match c with
  | PcAppend x => CPush (conv x)
  | PcBuild f None s => CBuild f s
  | PcBuild f (Some n) s => CBuildPartial n f s
  end.
Lemma conv_pushed {I} (conv : pyval -> I) cs : SAngular.pushed (map (conv_call conv) cs) = map conv (appended cs).
Proof. induction cs as [|[x|f [n|] s] cs IH]; cbn; congruence. Qed.
Lemma conv_plain {I} (conv : pyval -> I) cs : Forall complete cs -> Forall plain (map (conv_call conv) cs).
Proof.
  induction 1 as [|c cs H _ IH]; cbn [map]; constructor; auto. destruct c as [x|f [n|] s]; cbn in *; auto.
Qed.

Definition floats_of (x : pyval) : list f32 := match x with PyFloats v => v | _ => [] end.
Definition quant_of (m : mode) (x : pyval) : list Z := match quantize m (floats_of x) with Ok q => q | Fail _ => [] end.
Definition ids_of (d : worddict) (x : pyval) : list nat := match x with PyText t => get_word_ids d t | _ => [] end.

Lemma session_f32 m fuel usort cs : forall b, Forall (fun x => exists v, x = PyFloats v) (appended cs) ->
  py_session m fuel usort (PbF32 b) cs =
    let* b := history (env_f32 m fuel usort) (@fw_push f32) b (map (conv_call (fun x => angular_vector (floats_of x))) cs) in Ok (PbF32 b).
Proof.
  induction cs as [|[x|f [n|] s] cs IH]; intros b H; cbn [py_session map conv_call history do_call appended pb_append pb_build build_call] in *;
    [reflexivity| | |].
  - inversion H as [|? ? (v & ->) H2]; subst. cbn [extract_floats obind floats_of].
    destruct (builder_push _ _ b _) as [b'|e]; cbn [obind]; [now apply IH|reflexivity].
  - destruct (build_partial _ _ b _ _) as [b'|e]; cbn [obind]; [now apply IH|reflexivity].
  - destruct (build _ _ b _) as [b'|e]; cbn [obind]; [now apply IH|reflexivity].
Qed.
Lemma session_i8 m fuel usort cs : forall b,
  Forall (fun x => exists v q, x = PyFloats v /\ quantize m v = Ok q) (appended cs) ->
  py_session m fuel usort (PbI8 b) cs =
    let* b := history (env_i8 m fuel usort) (@fw_push Z) b (map (conv_call (quant_of m)) cs) in Ok (PbI8 b).
Proof.
  induction cs as [|[x|f [n|] s] cs IH]; intros b H; cbn [py_session map conv_call history do_call appended pb_append pb_build build_call] in *;
    [reflexivity| | |].
  - inversion H as [|? ? (v & q & -> & Eq) H2]; subst. unfold quant_of. cbn [extract_floats obind floats_of]. rewrite Eq. cbn [obind].
    destruct (builder_push _ _ b _) as [b'|e]; cbn [obind]; [now apply IH|reflexivity].
  - destruct (build_partial _ _ b _ _) as [b'|e]; cbn [obind]; [now apply IH|reflexivity].
  - destruct (build _ _ b _) as [b'|e]; cbn [obind]; [now apply IH|reflexivity].
Qed.
Lemma session_words m fuel usort d cs : forall b, Forall (fun x => exists t, x = PyText t) (appended cs) ->
  py_session m fuel usort (PbWords (mkWordBuilder b d)) cs =
    let* b := history (env_words m fuel usort) (@se_push f32) b (map (conv_call (ids_of d)) cs) in Ok (PbWords (mkWordBuilder b d)).
Proof.
  induction cs as [|[x|f [n|] s] cs IH]; intros b H; cbn [py_session map conv_call history do_call appended pb_append pb_build build_call wb_builder wb_words] in *;
    [reflexivity| | |].
  - inversion H as [|? ? (v & ->) H2]; subst. unfold wb_push. cbn [extract_text obind ids_of wb_builder wb_words].
    destruct (builder_push _ _ b _) as [b'|e]; cbn [obind]; [now apply IH|reflexivity].
  - destruct (build_partial _ _ b _ _) as [b'|e]; cbn [obind]; [now apply IH|reflexivity].
  - destruct (build _ _ b _) as [b'|e]; cbn [obind]; [now apply IH|reflexivity].
Qed.

(** ** Vectors *)
Section Vec.
  Context {T : Type} (dist : list T -> list T -> outcome Z) (m : mode) (V : benv (fw T) (list T)).
  Hypothesis HV : e_ops V = vectors_ops m dist.
  Hypothesis Hsort : sorts_by_dist (e_sort V).
  Variables (w : nat) (good : list T -> Prop).
  Hypothesis Hw : 0 < w.
  Hypothesis Hgood : forall x y, length x = w -> length y = w -> good x -> good y -> exists d, dist x y = Ok d.

  Definition vok (rows : list (list T)) : Prop := Forall (fun x => length x = w /\ good x) rows.
  Definition vinv := ginv V (@push_vec T) (holds w) vok.

  Lemma v_law : push_law (e_ops V) (@push_vec T).
  Proof using HV. rewrite HV. apply push_vec_law. Qed.
  Lemma v_len (l : list (list T)) s : holds w l s -> c_len (e_ops V) s = length l.
  Proof using HV Hw. intros H. rewrite HV. cbn. eapply holds_len; eauto. Qed.
  Lemma v_cont l s : holds w l s -> vok l -> cont_ok (e_ops V) s.
  Proof using HV Hw Hgood.
    intros H Hk. eapply (@holds_cont T dist m V HV w good Hw Hgood); eauto.
    eapply Forall_impl; [|exact Hk]. cbn. tauto.
  Qed.
  Lemma v_push (l : list (list T)) s x : holds w l s -> vok (l ++ [x]) ->
    exists s', fw_push s x = Ok s' /\ push_vec s x = Ok s' /\ holds w (l ++ [x]) s'.
  Proof using Hw Hgood.
    intros H Hk. apply Forall_app in Hk as [_ Hk]. inversion Hk as [|? ? [Hx _] _]; subst. now apply holds_push.
  Qed.
  Lemma v_pre l l' : vok (l ++ l') -> vok l.
  Proof using. intros H. apply Forall_app in H. tauto. Qed.

  Lemma v_history cfg cs : cfg_ok cfg -> vok (SAngular.pushed cs) -> length (SAngular.pushed cs) < e_fuel V ->
    (N.of_nat (length (SAngular.pushed cs)) < 4294967295)%N ->
    builder_new V cfg fw_new = Ok (mkBuilder fw_new [] cfg) /\
    match history V (@fw_push T) (mkBuilder fw_new [] cfg) cs with
    | Ok b => vinv (SAngular.pushed cs) b /\ b_config b = cfg /\
        (forall K, SPipeline.full_at cfg K (length (SAngular.pushed cs)) -> length (b_layers b) <= K + 1) /\
        (forall cs' fuel sched, cs = cs' ++ [CBuild fuel sched] -> builder_len b = length (SAngular.pushed cs))
    | Fail e => e_mode V = Release -> Forall plain cs -> e = OutOfFuel
    end.
  Proof using HV Hsort Hw Hgood.
    intros Hcfg Hk Hf Hn.
    assert (H0 : holds w ([] : list (list T)) fw_new) by (right; auto).
    assert (E0 : builder_new V cfg fw_new = Ok (mkBuilder fw_new [] cfg)).
    { apply (@gnew_ok _ _ _ V (holds w) v_len cfg [] fw_new); [exact H0|cbn; lia]. }
    split; [exact E0|].
    assert (HI : vinv [] (mkBuilder fw_new [] cfg)).
    { eapply (@ginv_new _ _ _ V _ (holds w) vok v_len v_cont cfg [] fw_new); eauto; [constructor|cbn; lia]. }
    pose proof (@ginv_hist _ _ _ V (@fw_push T) (@push_vec T) Hsort v_law (holds w) vok v_len v_cont v_push v_pre cs [] _ HI Hk Hf Hn) as H.
    destruct (history _ _ _ cs) as [b|e] eqn:Eh; [|exact H]. destruct H as [H1 [H2 H3]]. split; [exact H1|]. split; [exact H2|].
    split; [intros K HK; apply H3; [exact HK|cbn; lia]|].
    intros cs' fu sc ->. assert (Ep : SAngular.pushed (cs' ++ [CBuild fu sc]) = SAngular.pushed cs').
    { clear. induction cs' as [|[x| |] cs' IH]; cbn; congruence. }
    rewrite Ep in *. exact (@ginv_last _ _ _ V (@fw_push T) (@push_vec T) Hsort v_law (holds w) vok v_len v_cont v_push v_pre cs' [] _ fu sc b HI Hk Hf Hn Eh).
  Qed.

  Lemma v_get (l : list (list T)) (s : fw T) i x : holds w l s -> nth_error l i = Some x -> fw_get m s i = Ok x.
  Proof using Hw. intros [H|[-> ->]] Hx; [eapply fw_is_get; eauto|destruct i; discriminate]. Qed.

  (** saved and loaded, and searched *)
  Lemma v_saved (R : repr T) valid l b : vinv l b -> l <> [] -> repr_ok R valid -> (forall x, good x -> Forall valid x) -> fits64 w ->
    k_nn (b_config b) <= 254 -> length (b_layers b) <= 25 ->
    exists c L', write_index m (FixWidth (b_layers b)) (mkCursor [] 0) = Ok c /\ load_layers (cbuf c) = Ok L' /\
      same_index m (FixWidth (b_layers b)) L' /\ index_len L' = Ok (builder_len b) /\
      fw_from_bytes R (fst (fw_write R (b_elems b))) = Ok (b_elems b) /\
      forall y fuel ms nn, length y = w -> good y -> length l < fuel -> 0 < ms ->
        exists res, granne_search m fuel L' (fun i => c_dte (vectors_ops m dist) (b_elems b) i y) ms nn = Ok res /\
          length res <= Nat.min nn ms /\ StronglySorted closer res /\ NoDup (map fst res) /\
          (forall i d, In (i, d) res -> i < builder_len b /\ exists x, nth_error l i = Some x /\ dist x y = Ok d) /\
          (0 < builder_len b -> 0 < nn -> res <> []).
  Proof using HV Hsort Hw Hgood.
    intros HI Hne HR Hval H64 Hnn H25.
    destruct (@ginv_save _ _ _ V _ Hsort v_law (holds w) vok l b m HI Hnn H25) as (c & L' & Ew & El & Hs & Hl & Hsame).
    exists c, L'. split; [exact Ew|]. split; [exact El|]. split; [exact Hs|]. split; [exact Hl|].
    pose proof HI as (_ & Hh & Hk & _).
    split.
    { destruct Hh as [Hh|[E1 _]]; [|contradiction].
      destruct (C10_vectors_round_trip T R valid HR w l (b_elems b) Hw H64 Hh) as (v' & Ev & _ & Ev2); [|subst; exact Ev].
      destruct Hh as (_ & -> & _). apply Forall_concat. eapply Forall_impl; [|exact Hk]. cbn beta. intros x [_ G]. now apply Hval. }
    intros y fuel ms nn Hy Gy Hf Hms.
    assert (Hdy : forall i x, nth_error l i = Some x ->
      (fun i => c_dte (vectors_ops m dist) (b_elems b) i y) i = dist x y /\ exists d, dist x y = Ok d).
    { intros i x Hx. split; [cbn [vectors_ops c_dte]; rewrite (v_get _ _ _ _ Hh Hx); reflexivity|].
      unfold vok in Hk. rewrite Forall_forall in Hk. destruct (Hk x) as [Lx Gx]; [eapply nth_error_In; eauto|]. now apply Hgood. }
    rewrite (Hsame _ (fun x => dist x y) fuel ms nn Hdy Hf).
    exact (@ginv_search _ _ _ V _ Hsort v_law (holds w) vok l b m _ (fun x => dist x y) fuel ms nn HI Hdy Hf Hms).
  Qed.
End Vec.

(** ** Quantisation in release builds *)
Lemma notnan_abs v : no_nan v -> exists o, max_abs v = Ok o.
Proof.
  intros H. unfold max_abs. match goal with |- exists o, obind ?e _ = _ => assert (E : exists l, e = Ok l) end.
  { induction H as [|x v Hx _ (l & IH)]; [exists []; reflexivity|]. cbn [omapM]. rewrite IH.
    destruct x; cbn in Hx; try discriminate; eexists; reflexivity. }
  destruct E as (l & ->). eexists; reflexivity.
Qed.
Lemma to_i8_range x : (-128 <= f32_to_i8 x <= 127)%Z.
Proof. destruct x as [s|s| |s mm e B]; unfold f32_to_i8; try destruct s; try lia. Qed.
Lemma quantize_total v : no_nan v -> exists q, quantize Release v = Ok q /\ length q = length v /\ i8s q.
Proof.
  intros Hv. unfold quantize. destruct (notnan_abs v Hv) as (o & ->). cbn [obind].
  set (M := match o with Some v => v | None => _ end). clearbody M. clear.
  induction v as [|x v (q & E & Hl & Hq)]; [exists []; repeat split; constructor|].
  cbn [omapM]. unfold quantize1 at 1. cbn [debug_assert obind]. rewrite E. cbn [obind]. eexists. split; [reflexivity|].
  split; [cbn; now f_equal|]. constructor; [apply to_i8_range|exact Hq].
Qed.
