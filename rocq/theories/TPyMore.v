(** * Theorems C70: Python builders over saved files *)
From Coq Require Import ZArith Reals Lra Lia.
From Flocq Require Import Core IEEE754.BinarySingleNaN.
From Verif Require Import Base BaseFacts Bytes PBytes MSliceVec SSliceVec MIndexIo SIndexIo MSearch SSearch MBuild SBuild MFloat MFloatBits MAngular SAngular MLayerSize SLayerSize MEmbed SEmbed MParse SParse MPyIndex SPyIndex PPyMain SPyMore PPyMore PPyKinds PPyIx PPyIxW.
Close Scope R_scope. Close Scope Z_scope.
Open Scope nat_scope.

Lemma last_of (cs : list py_call) sts : sts <> [] -> last_session cs sts = last_session [] sts.
Proof.
  intros H. unfold last_session. destruct (exists_last H) as (t & x & ->). rewrite map_app. cbn [map]. now rewrite !last_last.
Qed.

Lemma app_ne {A} (l l' : list A) : l <> [] -> l ++ l' <> [].
Proof. destruct l; [congruence|discriminate]. Qed.

Section Whole.
  Context (fuel : nat) (usort : list (nat * Z) -> list (nat * Z)) (json : str -> option str) (L : libm)
          (element_type : str) (embeddings : option (list N)) (words : option str).
  Variables (Inv : list pyval -> config -> nat -> nat -> py_builder -> Prop) (fits sav : list pyval -> Prop).
  Hypothesis Hses : sessions_go fuel usort Inv fits.
  Hypothesis Hopen : opening_goes fuel usort json L element_type embeddings words Inv fits sav.
  Hypothesis Hpre : forall l l', fits (l ++ l') -> fits l.
  Hypothesis Hsav : forall l l', sav l -> sav (l ++ l').

  Lemma whole_lives o p0 cs sts : options_ok L o -> Inv [] (config_from L (options_config o)) 0 0 p0 ->
    fits (all_appended cs sts) -> sav (appended cs) -> few_layers L o (length (all_appended cs sts)) ->
    Forall (stage_ok L (length (all_appended cs sts))) sts ->
    length (all_appended cs sts) < fuel -> (N.of_nat (length (all_appended cs sts)) < 4294967295)%N ->
    match (let* p := py_session Release fuel usort p0 cs in py_lives Release fuel usort json L element_type embeddings words p sts) with
    | Fail e => all_complete cs sts -> e = OutOfFuel
    | Ok p => exists cfg k n, Inv (all_appended cs sts) cfg k n p /\ k_nn cfg <= 254 /\ k <= 25 /\
        (finished (last_session cs sts) -> n = length (all_appended cs sts))
    end.
  Proof using Hses Hopen Hpre Hsav.
    intros Ho HI Hfit Hs Hfew Hst Hf Hn. set (tot := all_appended cs sts) in *.
    assert (Hle : length (appended cs) <= length tot) by (unfold tot, all_appended; rewrite app_length; lia).
    assert (Hf1 : length (appended cs) < fuel) by lia. assert (Hn1 : (N.of_nat (length (appended cs)) < 4294967295)%N) by lia.
    pose proof (Hses [] _ 0 0 p0 cs HI (Hpre _ _ Hfit) Hf1 Hn1) as H. cbn [app] in H.
    destruct (py_session Release fuel usort p0 cs) as [p|e]; [|intros [HC _]; auto]. cbn [obind].
    destruct H as (k & n & HI' & Hk & Hlast).
    assert (Hk25 : k <= 25).
    { apply (Hk 24); [|lia]. apply options_full; [exact Ho| |exact Hn1]. eapply few_less; eauto. }
    pose proof (lives_go fuel usort json L element_type embeddings words Inv fits sav Hses Hopen Hpre Hsav sts (appended cs) _ k n p tot HI'
      (options_nn _ _ Ho) Hk25 Hs eq_refl Hfit Hf Hn Hst) as H.
    destruct (py_lives Release fuel usort json L element_type embeddings words p sts) as [p'|e]; [|intros [_ HC]; auto].
    destruct H as (cfg' & k' & n' & H1 & H2 & H3 & H4 & H5). exists cfg', k', n'. split; [exact H1|]. split; [exact H2|]. split; [exact H3|].
    intros Hfin. destruct sts as [|st sts].
    - rewrite (H4 eq_refl). rewrite (Hlast Hfin). unfold tot, all_appended. cbn. now rewrite app_nil_r.
    - apply H5; [discriminate|]. rewrite <- (last_of cs); [exact Hfin|discriminate].
  Qed.
End Whole.

(** ** C70 *)

(** A builder for int8 vectors, used, saved, opened again with other options, with
    or without its index, and used on, any number of times: its index and elements
    can be saved and opened as in C67.  If only [append(x)] and [build()] are
    called nothing fails; after a final [build()] all vectors are indexed.  (Some
    vector must be there before the first saving: C68.) *)
Theorem C70_angular_int :
  forall fuel usort json L o w cs sts,
    sorts_by_dist usort -> options_ok L o -> (0 < Z.of_nat w <= 131071)%Z ->
    Forall (int_value w) (all_appended cs sts) ->
    few_layers L o (length (all_appended cs sts)) -> Forall (stage_ok L (length (all_appended cs sts))) sts ->
    appended cs <> [] -> length (all_appended cs sts) < fuel -> (N.of_nat (length (all_appended cs sts)) < 4294967295)%N ->
    exists p0, pb_new Release fuel usort json L s_angular_int None None None None o = Ok p0 /\
    match (let* p := py_session Release fuel usort p0 cs in py_lives Release fuel usort json L s_angular_int None None p sts) with
    | Fail e => all_complete cs sts -> e = OutOfFuel
    | Ok p => exists n,
        works json fuel s_angular_int None None
          (fun x y d => py_compute_distance Release s_angular_int x y = Ok d) (int_value w)
          (fun x e => exists v k, x = PyFloats v /\ quantize Release v = Ok k /\ e = PeInts k)
          (fun x e => exists v k, x = PyFloats v /\ quantize Release v = Ok k /\ e = PeInts k) p (all_appended cs sts) n /\
        (finished (last_session cs sts) -> n = length (all_appended cs sts))
    end.
Proof.
  intros fuel usort json L o w cs sts Hs Ho Hw Hv Hfew Hst Hne Hf Hn.
  destruct (@i8_new fuel usort json L Hs w Hw o Ho) as (p0 & E0 & H0). exists p0. split; [exact E0|].
  specialize (H0 ltac:(lia)).
  pose proof (whole_lives fuel usort json L s_angular_int None None _ _ _
    (@i8_sessions fuel usort Hs w Hw) (@i8_opening fuel usort json L Hs w Hw) (fun l l' H => proj1 (proj1 (@Forall_app _ _ l l') H)) (fun l l' H => app_ne l l' H) o p0 cs sts Ho H0 Hv Hne Hfew Hst Hf Hn) as H.
  destruct (let* p := _ in _) as [p|e]; [|exact H]. destruct H as (cfg & k & n & HI & Hnn & Hk & Hlast). exists n. split; [|exact Hlast].
  eapply i8_works; eauto. unfold all_appended. destruct (appended cs); [congruence|discriminate].
Qed.
Print Assumptions C70_angular_int.

(** The same for [f32] vectors. *)
Theorem C70_angular :
  forall fuel usort json L o w cs sts,
    sorts_by_dist usort -> options_ok L o -> 0 < w -> (Z.of_nat (rounds w) <= 10000)%Z ->
    Forall (float_value w) (all_appended cs sts) ->
    few_layers L o (length (all_appended cs sts)) -> Forall (stage_ok L (length (all_appended cs sts))) sts ->
    appended cs <> [] -> length (all_appended cs sts) < fuel -> (N.of_nat (length (all_appended cs sts)) < 4294967295)%N ->
    exists p0, pb_new Release fuel usort json L s_angular None None None None o = Ok p0 /\
    match (let* p := py_session Release fuel usort p0 cs in py_lives Release fuel usort json L s_angular None None p sts) with
    | Fail e => all_complete cs sts -> e = OutOfFuel
    | Ok p => exists n,
        works json fuel s_angular None None
          (fun x y d => py_compute_distance Release s_angular x y = Ok d) (float_value w)
          (fun x e => exists v, x = PyFloats v /\ e = PeFloats (angular_vector v))
          (fun x e => exists v, x = PyFloats v /\ e = PeFloats (angular_vector v)) p (all_appended cs sts) n /\
        (finished (last_session cs sts) -> n = length (all_appended cs sts))
    end.
Proof.
  intros fuel usort json L o w cs sts Hs Ho Hw0 Hw Hv Hfew Hst Hne Hf Hn.
  destruct (@f32k_new fuel usort json L Hs w Hw0 Hw o Ho) as (p0 & E0 & H0). exists p0. split; [exact E0|].
  specialize (H0 ltac:(lia)).
  pose proof (whole_lives fuel usort json L s_angular None None _ _ _
    (@f32k_sessions fuel usort Hs w Hw0 Hw) (@f32k_opening fuel usort json L Hs w Hw0 Hw) (fun l l' H => proj1 (proj1 (@Forall_app _ _ l l') H)) (fun l l' H => app_ne l l' H) o p0 cs sts Ho H0 Hv Hne Hfew Hst Hf Hn) as H.
  destruct (let* p := _ in _) as [p|e]; [|exact H]. destruct H as (cfg & k & n & HI & Hnn & Hk & Hlast). exists n. split; [|exact Hlast].
  eapply f32k_works; eauto. unfold all_appended. destruct (appended cs); [congruence|discriminate].
Qed.
Print Assumptions C70_angular.

(** The same for texts, from any number of them. *)
Theorem C70_embeddings :
  forall fuel usort json L o w embs ws wfile vfile cs sts,
    sorts_by_dist usort -> options_ok L o -> 0 < w -> (Z.of_nat (rounds w) <= 10000)%Z -> Forall (fun v => length v = w) embs -> embs <> [] -> vectors_file w embs vfile ->
    NoDup ws -> length ws <= length embs -> (N.of_nat (length ws) <= 2 ^ 24)%N -> words_file json ws wfile ->
    Forall (text_value w embs ws) (all_appended cs sts) ->
    (forall kws, texts_words ws (all_appended cs sts) kws -> (N.of_nat (length (concat kws)) < 2 ^ 40)%N) ->
    few_layers L o (length (all_appended cs sts)) -> Forall (stage_ok L (length (all_appended cs sts))) sts ->
    length (all_appended cs sts) < fuel -> (N.of_nat (length (all_appended cs sts)) < 4294967295)%N ->
    exists p0, pb_new Release fuel usort json L s_embeddings None (Some vfile) (Some wfile) None o = Ok p0 /\
    match (let* p := py_session Release fuel usort p0 cs in py_lives Release fuel usort json L s_embeddings (Some vfile) (Some wfile) p sts) with
    | Fail e => all_complete cs sts -> e = OutOfFuel
    | Ok p => exists n,
        works json fuel s_embeddings (Some vfile) (Some wfile)
          (value_distance w embs ws) (word_query w embs ws)
          (fun x e => exists v, value_vector w embs ws x v /\ e = PeFloats (angular_vector v))
          (fun x e => exists t kw, x = PyText t /\ known_words ws t kw /\ e = PeText (joined kw)) p (all_appended cs sts) n /\
        (finished (last_session cs sts) -> n = length (all_appended cs sts))
    end.
Proof.
  intros fuel usort json L o w embs ws wfile vfile cs sts Hs Ho Hw0 Hw Hdim Hembs Hvf Hnd Hlen0 H24 Hwf Hv0 Htot Hfew Hst Hf Hn.
  pose proof (conj Hv0 Htot : words_fits w embs ws (all_appended cs sts)) as Hv. pose proof I as Hne.
  destruct (@words_new fuel usort json L Hs w embs ws wfile vfile Hw0 Hw Hdim Hembs Hvf Hnd Hlen0 H24 Hwf o Ho) as (p0 & E0 & H0). exists p0. split; [exact E0|].
  specialize (H0 ltac:(lia)).
  pose proof (whole_lives fuel usort json L s_embeddings (Some vfile) (Some wfile) _ _ _
    (@words_sessions fuel usort json Hs w embs ws wfile vfile Hw0 Hw Hdim Hembs Hvf Hnd Hlen0 H24 Hwf) (@words_opening fuel usort json L Hs w embs ws wfile vfile Hw0 Hw Hdim Hembs Hvf Hnd Hlen0 H24 Hwf) (@words_pre w embs ws Hw0 Hnd Hlen0 H24) (fun _ _ H => H) o p0 cs sts Ho H0 Hv Hne Hfew Hst Hf Hn) as H.
  destruct (let* p := _ in _) as [p|e]; [|exact H]. destruct H as (cfg & k & n & HI & Hnn & Hk & Hlast). exists n. split; [|exact Hlast].
  eapply words_works; eauto.
Qed.
Print Assumptions C70_embeddings.
