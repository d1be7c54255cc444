(** * Proofs: sum embeddings as an element container *)
From Coq Require Import ZArith Reals Lia.
From Flocq Require Import Core IEEE754.BinarySingleNaN.
From Verif Require Import Base BaseFacts Bytes PBytes MSliceVec SSliceVec PFixed PVar MIndexIo SIndexIo PIndexCrash MSearch SSearch MBuild SBuild MReorder MFloat MFloatBits MAngular SAngular MLayerSize.
From Verif Require Import PF32 PCode PAngInt PAng PQuant PDense PDenseHist PBuilder PHistory PHistGen SPipeline TSlice TVectors MEmbed SEmbed PEmbed PEmbed2 MParse SParse PParse MPyIndex SPyIndex PPyIndex.
Close Scope R_scope. Close Scope Z_scope.
Open Scope nat_scope.

(** push onto a well-formed collection *)
Definition push_se {F} (s : sumemb F) (x : list nat) : outcome (sumemb F) :=
  if (0 <? length (voffs (se_els s))) && forallb (fun o => o <=? length (vdata (se_els s))) (voffs (se_els s))
  then se_push s x else Fail Panicked.

Lemma push_se_get {F} (s : sumemb F) x s' i : push_se s x = Ok s' -> i < se_len s ->
  se_embs s' = se_embs s /\ vw_get (se_els s') i = vw_get (se_els s) i.
Proof.
  unfold push_se. destruct (0 <? _); [|discriminate]. cbn [andb]. destruct (forallb _ _) eqn:Hf; [|discriminate].
  unfold se_push. destruct (omapM id_from x) as [data|]; [|discriminate]. cbn [obind]. unfold els_push, vw_push.
  destruct (off_from five_byte _) as [o|]; [|discriminate]. cbn [obind]. intros E Hi. apply ok_inj in E. subst s'. cbn [se_embs se_els].
  split; [reflexivity|]. unfold se_len, vw_len in Hi. unfold vw_get. cbn [voffs vdata]. unfold index.
  rewrite !nth_error_app1 by lia. destruct (nth_error (voffs (se_els s)) i) as [b|] eqn:Eb; [|reflexivity].
  destruct (nth_error (voffs (se_els s)) (i + 1)) as [e|] eqn:Ee; [|reflexivity]. cbn [ounwrap obind].
  rewrite forallb_forall in Hf. pose proof (Hf e (nth_error_In _ _ Ee)) as He. apply Nat.leb_le in He.
  unfold slice. rewrite app_length. destruct (Nat.leb_spec b e); cbn [andb].
  - replace (e <=? length (vdata (se_els s)) + length data) with true by (symmetry; apply Nat.leb_le; lia).
    replace (e <=? length (vdata (se_els s))) with true by (symmetry; apply Nat.leb_le; lia).
    apply (f_equal Ok). rewrite skipn_app, firstn_app.
    replace (e - b - length (skipn b (vdata (se_els s)))) with 0 by (rewrite skipn_length; lia). cbn. now rewrite app_nil_r.
  - reflexivity.
Qed.
Lemma push_se_len {F} (s : sumemb F) x s' : push_se s x = Ok s' -> se_len s' = Datatypes.S (se_len s).
Proof.
  unfold push_se. destruct (Nat.ltb_spec 0 (length (voffs (se_els s)))) as [H|]; [|discriminate]. cbn [andb]. destruct (forallb _ _); [|discriminate].
  unfold se_push. destruct (omapM id_from x) as [data|]; [|discriminate]. cbn [obind]. unfold els_push, vw_push.
  destruct (off_from five_byte _) as [o|]; [|discriminate]. cbn [obind]. intros E. apply ok_inj in E. subst s'.
  unfold se_len, vw_len. cbn [se_els voffs]. rewrite app_length. cbn [length]. lia.
Qed.

Section Law.
  Context {F : Type} (fadd : F -> F -> F) (fzero : F) (fnorm : list F -> list F) (fdist : list F -> list F -> outcome Z) (m : mode).
  Let C := se_ops fadd fzero fnorm fdist m.

  Lemma get_same (s s' : sumemb F) i : se_embs s' = se_embs s -> vw_get (se_els s') i = vw_get (se_els s) i ->
    se_get fadd fzero fnorm m s' i = se_get fadd fzero fnorm m s i.
  Proof.
    intros H1 H2. unfold se_get, se_get_embedding. rewrite H2. destruct (vw_get (se_els s) i) as [e|]; [|reflexivity]. cbn [obind].
    unfold se_embedding_of. rewrite H1. reflexivity.
  Qed.
  Lemma push_se_law : push_law C push_se.
  Proof.
    intros s x s' H. cbn [C se_ops c_len c_get c_dist]. split; [eapply push_se_len; eauto|].
    assert (G : forall i, i < se_len s -> se_get fadd fzero fnorm m s' i = se_get fadd fzero fnorm m s i).
    { intros i Hi. destruct (push_se_get s x s' i H Hi). now apply get_same. }
    split; [exact G|]. intros i j Hi Hj. unfold se_dist_to_element. rewrite (G i Hi), (G j Hj). reflexivity.
  Qed.

  Lemma push_se_of w (embs : list (list F)) els e : ids_fit (els ++ [e]) ->
    push_se (se_of w embs els) e = Ok (se_of w embs (els ++ [e])).
  Proof.
    intros H. unfold push_se. rewrite push_of by auto.
    match goal with |- (if ?c then _ else _) = _ => replace c with true; [reflexivity|] end.
    symmetry. cbn [se_els se_of]. set (rows := map (map enc_id) els). apply andb_true_intro. split.
    - apply Nat.ltb_lt. cbn [voffs vw_of]. rewrite offsets_from_length. lia.
    - apply forallb_forall. intros o Ho. cbn [voffs vdata vw_of] in *. apply offsets_from_le in Ho. apply Nat.leb_le. lia.
  Qed.
End Law.

Lemma angular_vector_length v : length (angular_vector v) = length v.
Proof. unfold angular_vector, normalize_f32. destruct (Bltb _ _); rewrite ?map_length; reflexivity. Qed.
Lemma is_embedding_unique {F} (fadd : F -> F -> F) fz w embs ids r r' :
  is_embedding fadd fz w embs ids r -> is_embedding fadd fz w embs ids r' -> r = r'.
Proof.
  intros [L1 H1] [L2 H2]. apply nth_ext with (d := fz) (d' := fz); [congruence|].
  intros k Hk. unfold comp in *. rewrite H1, H2; auto. congruence.
Qed.

(** an empty query: every distance is 1 *)
Lemma empty_dist x : angular_dist x [] = Ok f32_one.
Proof. rewrite angular_sym. destruct x; reflexivity. Qed.

Section Words.
  Context (m : mode) (V : benv (sumemb f32) (list f32)).
  Hypothesis HV : e_ops V = word_ops m.
  Hypothesis Hsort : sorts_by_dist (e_sort V).
  Variables (w : nat) (embs : list (list f32)).
  Hypothesis Hd : dims w embs.
  Hypothesis Hne : embs <> [].
  Hypothesis Hk : (Z.of_nat (rounds w) <= 10000)%Z.

  Definition wHolds (els : list (list nat)) (s : sumemb f32) : Prop := s = se_of w embs els.
  Definition wgood (ids : list nat) : Prop :=
    Forall (fun i => i < length embs) ids /\ forall r, is_embedding f32_add f32_zero w embs ids r -> tame r.
  Definition wok (els : list (list nat)) : Prop := ids_fit els /\ Forall wgood els.
  Definition winv := ginv V (@push_se f32) wHolds wok.

  Lemma w_sum els ids : wgood ids -> exists r, se_create_embedding f32_add f32_zero m (se_of w embs els) ids = Ok r /\
    is_embedding f32_add f32_zero w embs ids r /\ tame r /\ length r = w.
  Proof using Hd Hne.
    intros [H1 H2]. destruct (@create_ok f32 f32_add f32_zero w embs els m ids Hd H1) as (r & E & Hr).
    exists r. split; [exact E|]. split; [exact Hr|]. split; [auto|]. destruct Hr as [Hr _]. destruct embs; [congruence|exact Hr].
  Qed.
  Lemma tame_uz v : tame v -> unit_or_zero (angular_vector v).
  Proof using. intros [H1 H2]. exists v. auto. Qed.
  Lemma w_get els i ids : ids_fit els -> nth_error els i = Some ids -> wgood ids ->
    exists r, is_embedding f32_add f32_zero w embs ids r /\ tame r /\ length r = w /\
      c_get (word_ops m) (se_of w embs els) i = Ok (angular_vector r).
  Proof using Hd Hne.
    intros Hf Hi Hg. destruct (w_sum els ids Hg) as (r & E & Hr & Ht & Hl). exists r. split; [exact Hr|]. split; [exact Ht|]. split; [exact Hl|].
    cbn [word_ops se_ops c_get]. unfold se_get. rewrite (@get_embedding_of f32 f32_add f32_zero w embs els m i ids Hf Hi), E. reflexivity.
  Qed.
  Lemma t_dist u v : tame u -> tame v -> length u = w -> length v = w -> exists d, coded (angular_dist (angular_vector u) (angular_vector v)) = Ok d.
  Proof using Hk.
    intros Hu Hv Lu Lv. eapply uz_dist; eauto using tame_uz; rewrite angular_vector_length; auto.
  Qed.

  Lemma w_law : push_law (e_ops V) (@push_se f32).
  Proof using HV. rewrite HV. apply push_se_law. Qed.
  Lemma w_len els s : wHolds els s -> c_len (e_ops V) s = length els.
  Proof using HV. intros ->. rewrite HV. exact (@se_of_len f32 w embs els). Qed.
  Lemma w_cont els s : wHolds els s -> wok els -> cont_ok (e_ops V) s.
  Proof using HV Hd Hne Hk.
    intros -> [Hf Hg]. rewrite HV.
    assert (L : c_len (word_ops m) (se_of w embs els) = length els) by exact (@se_of_len f32 w embs els).
    assert (G : forall i, i < length els -> exists r, tame r /\ length r = w /\ c_get (word_ops m) (se_of w embs els) i = Ok (angular_vector r)).
    { intros i Hi. destruct (nth_error els i) as [ids|] eqn:E; [|apply nth_error_None in E; lia].
      rewrite Forall_forall in Hg. destruct (w_get els i ids Hf E) as (r & _ & H); [apply Hg; eapply nth_error_In; eauto|]. exists r. exact H. }
    assert (DD : forall i e r, i < length els -> tame r -> length r = w -> e = angular_vector r -> exists d, c_dte (word_ops m) (se_of w embs els) i e = Ok d).
    { intros i e r Hi Ht Hl ->. destruct (G i Hi) as (q & Tq & Lq & Eq). cbn [word_ops se_ops c_dte c_get] in *. unfold se_dist_to_element. rewrite Eq. cbn [obind].
      apply t_dist; auto. }
    constructor; rewrite L.
    - intros i Hi. destruct (G i Hi) as (r & _ & _ & E). eauto.
    - intros i j e Hi Hj E. destruct (G j Hj) as (r & T & Lr & Er). eapply DD; eauto. congruence.
    - intros i j Hi Hj. destruct (G j Hj) as (r & T & Lr & Er). destruct (DD i (angular_vector r) r Hi T Lr eq_refl) as (d & Ed).
      exists d. cbn [word_ops se_ops c_dist c_dte c_get] in *. rewrite Er. exact Ed.
    - intros i js Hi Hjs. destruct (G i Hi) as (r & T & Lr & Er).
      assert (H : exists ds, omapM (fun j => c_dte (word_ops m) (se_of w embs els) j (angular_vector r)) js = Ok ds /\ length ds = length js).
      { induction Hjs as [|j js Hj _ (ds & E & El)]; [exists []; auto|].
        destruct (DD j (angular_vector r) r Hj T Lr eq_refl) as (d & Ed). exists (d :: ds). cbn [omapM]. rewrite Ed. cbn [obind]. rewrite E. cbn. auto. }
      destruct H as (ds & E & El). exists ds. split; [|exact El]. cbn [word_ops se_ops c_dists c_dte c_get] in *. rewrite Er. exact E.
  Qed.
  Lemma w_push els s x : wHolds els s -> wok (els ++ [x]) ->
    exists s', se_push s x = Ok s' /\ push_se s x = Ok s' /\ wHolds (els ++ [x]) s'.
  Proof using.
    intros -> [Hf _]. exists (se_of w embs (els ++ [x])). split; [now apply push_of|]. split; [now apply push_se_of|]. reflexivity.
  Qed.
  Lemma w_pre l l' : wok (l ++ l') -> wok l.
  Proof using. intros [H1 H2]. apply Forall_app in H2. split; [eapply ids_fit_prefix; eauto|tauto]. Qed.

  Lemma w_history cfg cs : cfg_ok cfg -> wok (SAngular.pushed cs) -> length (SAngular.pushed cs) < e_fuel V ->
    (N.of_nat (length (SAngular.pushed cs)) < 4294967295)%N ->
    let s0 := se_of w embs [] in
    builder_new V cfg s0 = Ok (mkBuilder s0 [] cfg) /\
    match history V (@se_push f32) (mkBuilder s0 [] cfg) cs with
    | Ok b => winv (SAngular.pushed cs) b /\ b_config b = cfg /\
        (forall K, SPipeline.full_at cfg K (length (SAngular.pushed cs)) -> length (b_layers b) <= K + 1) /\
        (forall cs' fuel sched, cs = cs' ++ [CBuild fuel sched] -> builder_len b = length (SAngular.pushed cs))
    | Fail e => e_mode V = Release -> Forall plain cs -> e = OutOfFuel
    end.
  Proof using HV Hsort Hd Hne Hk.
    intros Hcfg Hok Hf Hn s0.
    assert (H0 : wHolds [] s0) by reflexivity.
    assert (E0 : builder_new V cfg s0 = Ok (mkBuilder s0 [] cfg)).
    { apply (@gnew_ok _ _ _ V wHolds w_len cfg [] s0); [exact H0|cbn; lia]. }
    split; [exact E0|].
    assert (K0 : wok []) by (apply (w_pre [] _ Hok)).
    assert (HI : winv [] (mkBuilder s0 [] cfg)).
    { eapply (@ginv_new _ _ _ V _ wHolds wok w_len w_cont cfg [] s0); eauto. cbn; lia. }
    pose proof (@ginv_hist _ _ _ V (@se_push f32) (@push_se f32) Hsort w_law wHolds wok w_len w_cont w_push w_pre cs [] _ HI Hok Hf Hn) as H.
    destruct (history _ _ _ cs) as [b|e] eqn:Eh; [|exact H]. destruct H as [H1 [H2 H3]]. split; [exact H1|]. split; [exact H2|].
    split; [intros K HK; apply H3; [exact HK|cbn; lia]|].
    intros cs' fu sc ->. assert (Ep : SAngular.pushed (cs' ++ [CBuild fu sc]) = SAngular.pushed cs').
    { clear. induction cs' as [|[x| |] cs' IH]; cbn; congruence. }
    rewrite Ep in *. exact (@ginv_last _ _ _ V (@se_push f32) (@push_se f32) Hsort w_law wHolds wok w_len w_cont w_push w_pre cs' [] _ fu sc b HI Hok Hf Hn Eh).
  Qed.

  (** the distance of element [ids] to the query vector [v] *)
  Definition wdist (v : list f32) (ids : list nat) : outcome Z :=
    let* r := se_create_embedding f32_add f32_zero m (se_of w embs []) ids in
    coded (angular_dist (angular_vector r) (angular_vector v)).

  Lemma w_saved els b : winv els b -> k_nn (b_config b) <= 254 -> length (b_layers b) <= 25 -> (N.of_nat (length els) < 4294967295)%N ->
    exists c L', write_index m (FixWidth (b_layers b)) (mkCursor [] 0) = Ok c /\ load_layers (cbuf c) = Ok L' /\
      same_index m (FixWidth (b_layers b)) L' /\ index_len L' = Ok (builder_len b) /\
      b_elems b = se_of w embs els /\
      se_from_bytes (se_embs (se_of w embs [])) (fst (se_write (b_elems b))) = Ok (b_elems b) /\
      forall v fuel ms nn, (length v = w /\ tame v) \/ v = [] -> length els < fuel -> 0 < ms ->
        exists res, granne_search m fuel L' (fun i => c_dte (word_ops m) (b_elems b) i (angular_vector v)) ms nn = Ok res /\
          length res <= Nat.min nn ms /\ StronglySorted closer res /\ NoDup (map fst res) /\
          (forall i d, In (i, d) res -> i < builder_len b /\ exists ids, nth_error els i = Some ids /\ wdist v ids = Ok d) /\
          (0 < builder_len b -> 0 < nn -> res <> []).
  Proof using HV Hsort Hd Hne Hk.
    intros HI Hnn H25 Hn.
    destruct (@ginv_save _ _ _ V _ Hsort w_law wHolds wok els b m HI Hnn H25) as (c & L' & Ew & El & Hs & Hl & Hsame).
    exists c, L'. split; [exact Ew|]. split; [exact El|]. split; [exact Hs|]. split; [exact Hl|].
    pose proof HI as (_ & Hh & [Hf Hg] & _). unfold wHolds in Hh. split; [exact Hh|]. split.
    { rewrite Hh. apply (@write_load f32 w embs els Hf). unfold fits64. lia. }
    intros v fuel ms nn Hv Hfu Hms.
    assert (Hdy : forall i x, nth_error els i = Some x ->
      (fun i => c_dte (word_ops m) (b_elems b) i (angular_vector v)) i = wdist v x /\ exists d, wdist v x = Ok d).
    { intros i x Hx. assert (Gx : wgood x) by (rewrite Forall_forall in Hg; apply Hg; eapply nth_error_In; eauto).
      destruct (w_get els i x Hf Hx Gx) as (r & Hr & Ht & Lr & Eg). destruct (w_sum [] x Gx) as (r' & Er & Hr' & _).
      assert (r' = r) by (eapply is_embedding_unique; eauto). subst r'. cbn beta. unfold wdist. rewrite Er. cbn [obind].
      cbn [word_ops se_ops c_dte c_get] in *. unfold se_dist_to_element. rewrite Hh, Eg. cbn [obind]. split; [reflexivity|].
      destruct Hv as [[Lv Tv]| ->]; [now apply t_dist|]. change (angular_vector []) with ([] : list f32). rewrite empty_dist. eexists; reflexivity. }
    rewrite (Hsame _ (wdist v) fuel ms nn Hdy Hfu).
    exact (@ginv_search _ _ _ V _ Hsort w_law wHolds wok els b m _ (wdist v) fuel ms nn HI Hdy Hfu Hms).
  Qed.
End Words.
