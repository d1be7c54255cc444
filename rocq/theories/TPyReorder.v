(** * Theorems C71: opened indexes reordered from Python *)
From Coq Require Import ZArith Reals Lra Lia.
From Flocq Require Import Core IEEE754.BinarySingleNaN.
From Verif Require Import Base BaseFacts Bytes PBytes MSliceVec SSliceVec MIndexIo SIndexIo MSearch SSearch MBuild SBuild MReorder SReorder PReorder MFloat MFloatBits MAngular SAngular MLayerSize SLayerSize MEmbed SEmbed MParse SParse MPyIndex SPyIndex PPyMain SPyMore PPyMore PIndexRe SPyReorder PPyLife PPyKinds PPyIx PPyIxW TPyMore TReorder.
Close Scope R_scope. Close Scope Z_scope.
Open Scope nat_scope.

Section Whole.
  Context (fuel : nat) (usort : list (nat * Z) -> list (nat * Z)) (json : str -> option str) (L : libm)
          (element_type : str) (embeddings : option (list N)) (words : option str).
  Variables (Inv : list pyval -> config -> nat -> nat -> py_builder -> Prop) (fits sav : list pyval -> Prop) (Ix : list pyval -> nat -> nat -> py_index -> Prop)
    (layered : nat -> Prop) (dist : pyval -> pyval -> Z -> Prop) (query : pyval -> Prop) (element internal : pyval -> pyelem -> Prop).
  Hypothesis Hses : sessions_go fuel usort Inv fits.
  Hypothesis Hopen : opening_goes fuel usort json L element_type embeddings words Inv fits sav.
  Hypothesis Hpre : forall l l', fits (l ++ l') -> fits l.
  Hypothesis Hsav : forall l l', sav l -> sav (l ++ l').
  Hypothesis Hix : forall values cfg k n p, Inv values cfg k n p -> fits values -> sav values -> length values < fuel -> (N.of_nat (length values) < 4294967295)%N ->
    k_nn cfg <= 254 -> k <= 25 -> exists index q, pb_save_index Release p = Ok index /\
      pi_open json index element_type (pb_save_elements p) embeddings words = Ok q /\ same_index Release (pb_layers p) (pi_layers q) /\ Ix values k n q.
  Hypothesis Hlay : forall values k n q, Ix values k n q -> exists G, ix Release (pi_layers q) G /\ length G = k /\ length (last G []) = n.
  Hypothesis Hsea : forall values k n q, Ix values k n q -> searches fuel dist query element internal q values n.
  Hypothesis Hre : reorders fuel Ix layered.
  Hypothesis Hrs : resaves json element_type embeddings words Ix layered.

  Lemma whole_reorder o p0 cs sts : options_ok L o -> Inv [] (config_from L (options_config o)) 0 0 p0 ->
    fits (all_appended cs sts) -> sav (appended cs) -> few_layers L o (length (all_appended cs sts)) ->
    Forall (stage_ok L (length (all_appended cs sts))) sts ->
    length (all_appended cs sts) < fuel -> (N.of_nat (length (all_appended cs sts)) < 4294967295)%N -> finished (last_session cs sts) ->
    forall p index q, (let* p := py_session Release fuel usort p0 cs in py_lives Release fuel usort json L element_type embeddings words p sts) = Ok p ->
      pb_save_index Release p = Ok index -> pi_open json index element_type (pb_save_elements p) embeddings words = Ok q ->
      (forall G, ix Release (pi_layers q) G -> length (last G []) = length (all_appended cs sts) -> layered (length G)) ->
      forall steps, reorders_well fuel json element_type embeddings words dist query element internal q (all_appended cs sts) steps.
  Proof using Hses Hopen Hpre Hsav Hix Hlay Hsea Hre Hrs.
    intros Ho HI Hfit Hs Hfew Hst Hf Hn Hfin p index q Ep Ei Eq Hly steps.
    pose proof (whole_lives fuel usort json L element_type embeddings words Inv fits sav Hses Hopen Hpre Hsav o p0 cs sts Ho HI Hfit Hs Hfew Hst Hf Hn) as H.
    rewrite Ep in H. destruct H as (cfg & k & n & HI' & Hnn & Hk & Hlast). specialize (Hlast Hfin). subst n.
    destruct (Hix _ _ _ _ _ HI' Hfit (Hsav _ _ Hs) Hf Hn Hnn Hk) as (index1 & q1 & E1 & E2 & _ & HX).
    assert (index1 = index) by congruence. subst index1. assert (q1 = q) by congruence. subst q1.
    destruct (Hlay _ _ _ _ HX) as (G & HG & Hk' & Hl). specialize (Hly G HG Hl). rewrite Hk' in Hly.
    unfold reorders_well, combined. set (values := all_appended cs sts) in *. set (n := length values) in *.
    destruct (@index_lives fuel json element_type embeddings words Ix layered Hre Hrs steps values k q (seq 0 n) (pi_layers q) Hly) as (q' & orders & EL & Hlen & HF & HP & HR & HX').
    - unfold n. rewrite re_seq. exact HX.
    - unfold is_perm. reflexivity.
    - fold n in Hl. rewrite <- Hl. apply renamed_refl; [exact (ix_shows HG)|exact (ix_graph _ _ _ HG)].
    - exists q', orders. split; [exact EL|]. split; [exact Hlen|]. cbv zeta. split; [exact HF|]. split; [exact HP|]. split; [exact HR|]. exact (Hsea _ _ _ _ HX').
  Qed.
End Whole.

(** ** C71 *)

(** An index of int8 vectors opened from the files of a builder (used, saved, opened
    again and used on as in C70, finally with [build()]) with at least two layers is
    reordered, and saved and opened again, any number of times: nothing fails; the
    returned orders are permutations; the vectors are then in the order they make
    up, the neighbours are renamed accordingly, and searches are answered as before
    ([reorders_well]).  (With a single layer [reorder] panics: C41.) *)
Theorem C71_angular_int :
  forall fuel usort json L o w cs sts,
    sorts_by_dist usort -> options_ok L o -> (0 < Z.of_nat w <= 131071)%Z -> Forall (int_value w) (all_appended cs sts) ->
    few_layers L o (length (all_appended cs sts)) -> Forall (stage_ok L (length (all_appended cs sts))) sts ->
    appended cs <> [] -> length (all_appended cs sts) < fuel -> (N.of_nat (length (all_appended cs sts)) < 4294967295)%N ->
    finished (last_session cs sts) ->
    forall p0 p index q,
      pb_new Release fuel usort json L s_angular_int None None None None o = Ok p0 ->
      (let* p := py_session Release fuel usort p0 cs in py_lives Release fuel usort json L s_angular_int None None p sts) = Ok p ->
      pb_save_index Release p = Ok index -> pi_open json index s_angular_int (pb_save_elements p) None None = Ok q ->
      2 <= pi_num_layers q -> forall steps,
      reorders_well fuel json s_angular_int None None (fun x y d => py_compute_distance Release s_angular_int x y = Ok d) (int_value w)
        (fun x e => exists v k, x = PyFloats v /\ quantize Release v = Ok k /\ e = PeInts k)
        (fun x e => exists v k, x = PyFloats v /\ quantize Release v = Ok k /\ e = PeInts k) q (all_appended cs sts) steps.
Proof.
  intros fuel usort json L o w cs sts Hs Ho Hw Hv Hfew Hst Hne Hf Hn Hfin p0 p index q E0 Ep Ei Eq H2 steps.
  destruct (@i8_new fuel usort json L Hs w Hw o Ho) as (p1 & E1 & H0).
  assert (p1 = p0) by congruence. subst p1. specialize (H0 ltac:(lia)).
  eapply (@whole_reorder fuel usort json L s_angular_int None None _ (i8_fits w) (fun l => l <> []) (i8_ix fuel w) (fun k => 2 <= k) _ _ _ _
    (@i8_sessions fuel usort Hs w Hw) (@i8_opening fuel usort json L Hs w Hw) (fun l l' H => proj1 (proj1 (@Forall_app _ _ l l') H)) (fun l l' H => app_ne l l' H)
    ltac:(intros; eapply i8_ix_open; eauto) ltac:(intros values k n q' (_ & _ & _ & Ls & s & G & -> & HI & Hk & Hl & _); exists G; auto)
    (@i8_searches fuel usort Hs w Hw) (@i8_reorders fuel usort Hs w Hw) (@i8_resaves fuel usort json Hs w Hw) o p0 cs sts); eauto.
  intros G HG _. unfold pi_num_layers in H2. rewrite (proj1 (ix_shows HG)) in H2. exact H2.
Qed.
Print Assumptions C71_angular_int.

(** The same for [f32] vectors. *)
Theorem C71_angular :
  forall fuel usort json L o w cs sts,
    sorts_by_dist usort -> options_ok L o -> 0 < w -> (Z.of_nat (rounds w) <= 10000)%Z -> Forall (float_value w) (all_appended cs sts) ->
    few_layers L o (length (all_appended cs sts)) -> Forall (stage_ok L (length (all_appended cs sts))) sts ->
    appended cs <> [] -> length (all_appended cs sts) < fuel -> (N.of_nat (length (all_appended cs sts)) < 4294967295)%N ->
    finished (last_session cs sts) ->
    forall p0 p index q,
      pb_new Release fuel usort json L s_angular None None None None o = Ok p0 ->
      (let* p := py_session Release fuel usort p0 cs in py_lives Release fuel usort json L s_angular None None p sts) = Ok p ->
      pb_save_index Release p = Ok index -> pi_open json index s_angular (pb_save_elements p) None None = Ok q ->
      2 <= pi_num_layers q -> forall steps,
      reorders_well fuel json s_angular None None (fun x y d => py_compute_distance Release s_angular x y = Ok d) (float_value w)
        (fun x e => exists v, x = PyFloats v /\ e = PeFloats (angular_vector v))
        (fun x e => exists v, x = PyFloats v /\ e = PeFloats (angular_vector v)) q (all_appended cs sts) steps.
Proof.
  intros fuel usort json L o w cs sts Hs Ho Hw0 Hw Hv Hfew Hst Hne Hf Hn Hfin p0 p index q E0 Ep Ei Eq H2 steps.
  destruct (@f32k_new fuel usort json L Hs w Hw0 Hw o Ho) as (p1 & E1 & H0).
  assert (p1 = p0) by congruence. subst p1. specialize (H0 ltac:(lia)).
  eapply (@whole_reorder fuel usort json L s_angular None None _ (f32k_fits w) (fun l => l <> []) (f32k_ix fuel w) (fun k => 2 <= k) _ _ _ _
    (@f32k_sessions fuel usort Hs w Hw0 Hw) (@f32k_opening fuel usort json L Hs w Hw0 Hw) (fun l l' H => proj1 (proj1 (@Forall_app _ _ l l') H)) (fun l l' H => app_ne l l' H)
    ltac:(intros; eapply f32k_ix_open; eauto) ltac:(intros values k n q' (_ & _ & _ & Ls & s & G & -> & HI & Hk & Hl & _); exists G; auto)
    (@f32k_searches fuel usort Hs w Hw0 Hw) (@f32k_reorders fuel usort Hs w Hw0 Hw) (@f32k_resaves fuel usort json Hs w Hw0 Hw) o p0 cs sts); eauto.
  intros G HG _. unfold pi_num_layers in H2. rewrite (proj1 (ix_shows HG)) in H2. exact H2.
Qed.
Print Assumptions C71_angular.

(** The same for texts, with any number of layers; there must be no NaN in the
    embeddings ([reorder] would panic: C41). *)
Theorem C71_embeddings :
  forall fuel usort json L o w embs ws wfile vfile cs sts,
    sorts_by_dist usort -> options_ok L o -> 0 < w -> (Z.of_nat (rounds w) <= 10000)%Z -> Forall (fun v => length v = w) embs -> embs <> [] -> vectors_file w embs vfile ->
    NoDup ws -> length ws <= length embs -> (N.of_nat (length ws) <= 2 ^ 24)%N -> words_file json ws wfile -> Forall no_nan embs ->
    Forall (text_value w embs ws) (all_appended cs sts) ->
    (forall kws, texts_words ws (all_appended cs sts) kws -> (N.of_nat (length (concat kws)) < 2 ^ 40)%N) ->
    few_layers L o (length (all_appended cs sts)) -> Forall (stage_ok L (length (all_appended cs sts))) sts ->
    appended cs <> [] -> length (all_appended cs sts) < fuel -> (N.of_nat (length (all_appended cs sts)) < 4294967295)%N ->
    finished (last_session cs sts) ->
    forall p0 p index q,
      pb_new Release fuel usort json L s_embeddings None (Some vfile) (Some wfile) None o = Ok p0 ->
      (let* p := py_session Release fuel usort p0 cs in py_lives Release fuel usort json L s_embeddings (Some vfile) (Some wfile) p sts) = Ok p ->
      pb_save_index Release p = Ok index -> pi_open json index s_embeddings (pb_save_elements p) (Some vfile) (Some wfile) = Ok q ->
      forall steps,
      reorders_well fuel json s_embeddings (Some vfile) (Some wfile) (value_distance w embs ws) (word_query w embs ws)
        (fun x e => exists v, value_vector w embs ws x v /\ e = PeFloats (angular_vector v))
        (fun x e => exists t kw, x = PyText t /\ known_words ws t kw /\ e = PeText (joined kw)) q (all_appended cs sts) steps.
Proof.
  intros fuel usort json L o w embs ws wfile vfile cs sts Hs Ho Hw0 Hw Hdim Hembs Hvf Hnd Hlen0 H24 Hwf Hnan Hv0 Htot Hfew Hst Hne Hf Hn Hfin p0 p index q E0 Ep Ei Eq steps.
  pose proof (conj Hv0 Htot : words_fits w embs ws (all_appended cs sts)) as Hv.
  destruct (@words_new fuel usort json L Hs w embs ws wfile vfile Hw0 Hw Hdim Hembs Hvf Hnd Hlen0 H24 Hwf o Ho) as (p1 & E1 & H0).
  assert (p1 = p0) by congruence. subst p1. specialize (H0 ltac:(lia)).
  eapply (@whole_reorder fuel usort json L s_embeddings (Some vfile) (Some wfile) _ (words_fits w embs ws) (fun _ => True) (words_ix fuel w embs ws) (fun k => 1 <= k) _ _ _ _
    (@words_sessions fuel usort json Hs w embs ws wfile vfile Hw0 Hw Hdim Hembs Hvf Hnd Hlen0 H24 Hwf) (@words_opening fuel usort json L Hs w embs ws wfile vfile Hw0 Hw Hdim Hembs Hvf Hnd Hlen0 H24 Hwf) (@words_pre w embs ws Hw0 Hnd Hlen0 H24) (fun _ _ H => H)
    ltac:(intros; eapply (@words_ix_open fuel usort json Hs w embs ws wfile vfile Hw0 Hw Hdim Hembs Hvf Hnd Hlen0 H24 Hwf); eauto) ltac:(intros values k n q' (_ & _ & _ & _ & Ls & G & -> & HI & Hk & Hl & _); exists G; auto)
    (@words_searches fuel usort json Hs w embs ws wfile vfile Hw0 Hw Hdim Hembs Hvf Hnd Hlen0 H24 Hwf) (@words_reorders fuel usort json Hs w embs ws wfile vfile Hw0 Hw Hdim Hembs Hvf Hnd Hlen0 H24 Hwf Hnan) (@words_resaves fuel usort json Hs w embs ws wfile vfile Hw0 Hw Hdim Hembs Hvf Hnd Hlen0 H24 Hwf) o p0 cs sts); eauto.
  intros G HG HL. destruct G as [|g G]; [|cbn [length]; lia]. cbn in HL. unfold all_appended in HL. rewrite app_length in HL. destruct (appended cs); [congruence|cbn in HL; lia].
Qed.
Print Assumptions C71_embeddings.

(** An opened index of vectors with a single layer (any builder with few elements
    saves one) cannot be reordered. *)
Theorem C71_single_layer_panics_refuted :
  forall fuel q G, (forall g d, q <> PiWords g d) -> index_shows Release (pi_layers q) G -> length G < 2 -> pi_reorder Release fuel q = Fail Panicked.
Proof.
  intros fuel q G Hq HS HG. destruct q as [[Ls s]|[Ls s]|g d]; [| |now destruct (Hq g d)]; cbn [pi_reorder].
  - rewrite (C41_single_layer_panics_refuted (angular_ops Release) (vectors_permute Release) Release fuel Ls G s HS HG). reflexivity.
  - rewrite (C41_single_layer_panics_refuted (angular_int_ops Release) (vectors_permute Release) Release fuel Ls G s HS HG). reflexivity.
Qed.
Print Assumptions C71_single_layer_panics_refuted.
