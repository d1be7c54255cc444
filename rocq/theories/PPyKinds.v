(** * Proofs: the three kinds of Python builders *)
From Coq Require Import ZArith Reals Lra Lia.
From Flocq Require Import Core IEEE754.BinarySingleNaN.
From Verif Require Import Base BaseFacts Bytes PBytes MSliceVec SSliceVec PFixed PVar MIndexIo SIndexIo PIndexCrash MSearch SSearch MBuild SBuild MReorder MFloat MFloatBits MAngular SAngular MLayerSize SLayerSize TLayerSize.
From Verif Require Import PF32 PCode PAngInt PAng PQuant PDense PDenseHist PBuilder PHistory PHistGen SPipeline TSlice TVectors MEmbed SEmbed PEmbed PEmbed2 MParse SParse PParse PParse3 MPyIndex SPyIndex PPipelineB PPyIndex PPyWords PPyMain SPyMore PPyMore.
Close Scope R_scope. Close Scope Z_scope.
Open Scope nat_scope.

Lemma finished_conv cs : finished cs -> forall {I} (conv : pyval -> I), exists cs' f s, map (conv_call conv) cs = cs' ++ [CBuild f s].
Proof. intros (cs' & f & s & ->) I conv. exists (map (conv_call conv) cs'), f, s. now rewrite map_app. Qed.
Lemma rounds_fits w : (Z.of_nat (rounds w) <= 10000)%Z -> fits64 w.
Proof.
  intros Hw. unfold fits64, rounds in *. pose proof (Nat.div_mod w 32 ltac:(lia)). pose proof (Nat.mod_upper_bound w 32 ltac:(lia)).
  set (q := w / 32) in *. set (r := w mod 32) in *. clearbody q r. lia.
Qed.


(** ** s_angular_int *)
Section i8.
  Context (fuel : nat) (usort : list (nat * Z) -> list (nat * Z)) (json : str -> option str) (L : libm).
  Hypothesis Hs : sorts_by_dist usort.
  Variable w : nat.
  Hypothesis Hw : (0 < Z.of_nat w <= 131071)%Z.
  Let Hw0 : 0 < w.
  Proof using Hw. lia. Qed.
  Let V := env_i8 Release fuel usort.
  Let dist := fun x y => coded (angular_int_dist Release x y).
  Local Notation cfg_of o := (config_from L (options_config o)).
  Let HV : e_ops V = vectors_ops Release dist := eq_refl.
  Let Hgood : forall x y, length x = w -> length y = w -> i8s x -> i8s y -> exists d, dist x y = Ok d.
  Proof using Hw.
    intros x z Hx Hz Gx Gz. destruct (@kernel_ok Release x z Gx Gz ltac:(congruence) ltac:(lia)) as (E & _).
    destruct (angular_int_ok E) as [d Ed]. exists (f32_code d). unfold dist. rewrite Ed. reflexivity.
  Qed.
  Definition i8_inv (values : list pyval) (cfg : config) (k n : nat) (p : py_builder) : Prop :=
    exists b, p = PbI8 b /\ vinv V w i8s (map (quant_of Release) values) b /\ b_config b = cfg /\ length (b_layers b) = k /\ builder_len b = n.
  Definition i8_fits (values : list pyval) : Prop := Forall (int_value w) values.
  Lemma i8_q x : int_value w x -> (length (quant_of Release x) = w /\ i8s (quant_of Release x)) /\
    exists v k, x = PyFloats v /\ quantize Release v = Ok k /\ quant_of Release x = k.
  Proof using. intros (v & -> & Lv & Nv). destruct (quantize_total v Nv) as (k & Ek & Lk & Ik). unfold quant_of. cbn [floats_of]. rewrite Ek.
    split; [split; [congruence|exact Ik]|]. exists v, k. auto. Qed.
  Lemma i8_vok values : i8_fits values -> vok w i8s (map (quant_of Release) values).
  Proof using.
    intros Hv. unfold vok. apply Forall_forall. intros k Hk. apply in_map_iff in Hk as (x & <- & Hx). unfold i8_fits in Hv. rewrite Forall_forall in Hv.
    apply i8_q. now apply Hv.
  Qed.

  Lemma i8_new o : options_ok L o ->
    exists p0, pb_new Release fuel usort json L s_angular_int None None None None o = Ok p0 /\ (0 < fuel -> i8_inv [] (cfg_of o) 0 0 p0).
  Proof using Hs Hw Hw0.
    intros Ho. pose proof (options_cfg L o Ho) as Hcfg.
    assert (H0 : holds w ([] : list (list Z)) fw_new) by (right; auto).
    assert (E0 : builder_new V (cfg_of o) fw_new = Ok (mkBuilder fw_new [] (cfg_of o))).
    { apply (@gnew_ok _ _ _ V (holds w) (v_len dist Release V HV w Hw0) (cfg_of o) [] fw_new); [exact H0|cbn; lia]. }
    exists (PbI8 (mkBuilder fw_new [] (cfg_of o))). split.
    { unfold pb_new. change (etype_of s_angular_int) with (Some AngularInt). cbn iota beta zeta. fold V. rewrite E0. reflexivity. }
    intros Hf. eexists. split; [reflexivity|]. cbn [map b_config b_layers]. split; [|auto].
    eapply (@ginv_new _ _ _ V _ (holds w) (vok w i8s) (v_len dist Release V HV w Hw0) (v_cont dist Release V HV w i8s Hw0 Hgood) (cfg_of o) [] fw_new); eauto; constructor.
  Qed.

  Lemma i8_sessions : sessions_go fuel usort i8_inv i8_fits.
  Proof using Hs Hw Hw0.
    intros values cfg k n p cs (b & -> & HI & Hc & Hk & Hn) Hfit Hf Hlt.
    rewrite session_i8.
    2: { apply Forall_app in Hfit as [_ Hfit]. eapply Forall_impl; [|exact Hfit]. intros x Hx. apply i8_q in Hx. destruct Hx as [_ (v & k1 & H1 & H2 & _)]. eauto. }
    fold V. set (cs' := map (conv_call (quant_of Release)) cs).
    assert (Ep : SAngular.pushed cs' = map (quant_of Release) (appended cs)) by apply conv_pushed.
    pose proof (@g_session _ _ _ V (@fw_push Z) (@push_vec Z) Hs (v_law dist Release V HV) (holds w) (vok w i8s) (v_len dist Release V HV w Hw0)
      (v_cont dist Release V HV w i8s Hw0 Hgood) (v_push dist w i8s Hw0 Hgood) (v_pre w i8s) (map (quant_of Release) values) b cs' HI) as H.
    rewrite Ep, <- map_app in H. rewrite !map_length, <- app_length in H. specialize (H (i8_vok _ Hfit) Hf Hlt).
    destruct (history V (@fw_push Z) b cs') as [b'|e]; cbn [obind]; [|intros HC; apply H; [reflexivity|now apply conv_plain]].
    destruct H as (HI' & [Hc' HK] & Hlast). subst cfg k n. exists (length (b_layers b')), (builder_len b'). split; [exists b'; split; [reflexivity|]; split; [exact HI'|auto]|].
    split; [exact HK|]. intros Hfin. destruct (finished_conv cs Hfin (quant_of Release)) as (c1 & f1 & s1 & E1). exact (Hlast c1 f1 s1 E1).
  Qed.

  Lemma i8_opening : opening_goes fuel usort json L s_angular_int None None i8_inv i8_fits (fun l => l <> []).
  Proof using Hs Hw Hw0.
    intros values cfg k n p o keep (b & -> & HI & Hc & Hk & Hn) Hfit Hne Hf Hlt Hnn Hk25 Ho.
    pose proof (options_cfg L o Ho) as Hcfg. rewrite <- Hc in Hnn. rewrite <- Hk in Hk25.
    destruct (@v_saved Z dist Release V HV Hs w i8s Hw0 Hgood i8r (fun z => (-128 <= z < 128)%Z) _ b HI) as (c & L' & Ew & _ & _ & _ & Eel & _); auto.
    { destruct values; [congruence|discriminate]. }
    { apply i8r_ok. }
    { intros x Gx. eapply Forall_impl; [|exact Gx]. cbn beta. intros z Hz. lia. }
    { unfold fits64. lia. }
    destruct (@g_open _ _ _ V (@push_vec Z) Hs (v_law dist Release V HV) (holds w) (vok w i8s) _ b (cfg_of o) HI Hcfg Hnn Hk25)
      as (c2 & b' & Ew2 & Eo & HI' & Hc' & Hk' & Hn').
    assert (c2 = c) by (change (e_mode V) with Release in Ew2; congruence). subst c2.
    exists (cbuf c), (PbI8 (if keep then b' else mkBuilder (b_elems b) [] (cfg_of o))).
    split; [unfold pb_save_index; change (pb_layers (PbI8 b)) with (FixWidth (b_layers b)); rewrite Ew; reflexivity|].
    pose proof HI as (_ & Hh & Hok & _).
    assert (E0 : builder_new V (cfg_of o) (b_elems b) = Ok (mkBuilder (b_elems b) [] (cfg_of o))).
    { eapply (@gnew_ok _ _ _ V (holds w) (v_len dist Release V HV w Hw0)); [exact Hh|]. rewrite map_length. exact Hlt. }
    split.
    { unfold pb_new. change (etype_of s_angular_int) with (Some AngularInt). cbn [pb_save_elements]. destruct keep; cbn iota beta zeta.
      - rewrite Eel. cbn [obind]. fold V. rewrite Eo. reflexivity.
      - rewrite Eel. cbn [obind]. fold V. rewrite E0. reflexivity. }
    eexists. split; [reflexivity|]. destruct keep; [split; [exact HI'|]; split; [exact Hc'|]; split; congruence|]. cbn [b_config b_layers]. split; [|auto].
    eapply (@ginv_new _ _ _ V _ (holds w) (vok w i8s) (v_len dist Release V HV w Hw0) (v_cont dist Release V HV w i8s Hw0 Hgood) (cfg_of o)); eauto.
    rewrite map_length. exact Hf.
  Qed.
End i8.

(** ** s_angular *)
Section f32k.
  Context (fuel : nat) (usort : list (nat * Z) -> list (nat * Z)) (json : str -> option str) (L : libm).
  Hypothesis Hs : sorts_by_dist usort.
  Variable w : nat.
  Hypothesis Hw0 : 0 < w.
  Hypothesis Hw : (Z.of_nat (rounds w) <= 10000)%Z.
  Let V := env_f32 Release fuel usort.
  Let dist := fun x y => coded (angular_dist x y).
  Local Notation cfg_of o := (config_from L (options_config o)).
  Let HV : e_ops V = vectors_ops Release dist := eq_refl.
  Let Hgood : forall x y, length x = w -> length y = w -> unit_or_zero x -> unit_or_zero y -> exists d, dist x y = Ok d.
  Proof using Hw.
    intros x z Hx Hz Gx Gz. eapply uz_dist; eauto.
  Qed.
  Definition f32k_inv (values : list pyval) (cfg : config) (k n : nat) (p : py_builder) : Prop :=
    exists b, p = PbF32 b /\ vinv V w unit_or_zero (map (fun x => angular_vector (floats_of x)) values) b /\ b_config b = cfg /\ length (b_layers b) = k /\ builder_len b = n.
  Definition f32k_fits (values : list pyval) : Prop := Forall (float_value w) values.
  Lemma f32k_q x : float_value w x -> (length (angular_vector (floats_of x)) = w /\ unit_or_zero (angular_vector (floats_of x))) /\ exists v, x = PyFloats v.
  Proof using. intros (v & -> & Lv & Nv). cbn [floats_of]. rewrite angular_vector_length. split; [split; [exact Lv|now apply tame_uz]|]. exists v. reflexivity. Qed.
  Lemma f32k_vok values : f32k_fits values -> vok w unit_or_zero (map (fun x => angular_vector (floats_of x)) values).
  Proof using.
    intros Hv. unfold vok. apply Forall_forall. intros k Hk. apply in_map_iff in Hk as (x & <- & Hx). unfold f32k_fits in Hv. rewrite Forall_forall in Hv.
    apply f32k_q. now apply Hv.
  Qed.

  Lemma f32k_new o : options_ok L o ->
    exists p0, pb_new Release fuel usort json L s_angular None None None None o = Ok p0 /\ (0 < fuel -> f32k_inv [] (cfg_of o) 0 0 p0).
  Proof using Hs Hw Hw0.
    intros Ho. pose proof (options_cfg L o Ho) as Hcfg.
    assert (H0 : holds w ([] : list (list f32)) fw_new) by (right; auto).
    assert (E0 : builder_new V (cfg_of o) fw_new = Ok (mkBuilder fw_new [] (cfg_of o))).
    { apply (@gnew_ok _ _ _ V (holds w) (v_len dist Release V HV w Hw0) (cfg_of o) [] fw_new); [exact H0|cbn; lia]. }
    exists (PbF32 (mkBuilder fw_new [] (cfg_of o))). split.
    { unfold pb_new. change (etype_of s_angular) with (Some Angular). cbn iota beta zeta. fold V. rewrite E0. reflexivity. }
    intros Hf. eexists. split; [reflexivity|]. cbn [map b_config b_layers]. split; [|auto].
    eapply (@ginv_new _ _ _ V _ (holds w) (vok w unit_or_zero) (v_len dist Release V HV w Hw0) (v_cont dist Release V HV w unit_or_zero Hw0 Hgood) (cfg_of o) [] fw_new); eauto; constructor.
  Qed.

  Lemma f32k_sessions : sessions_go fuel usort f32k_inv f32k_fits.
  Proof using Hs Hw Hw0.
    intros values cfg k n p cs (b & -> & HI & Hc & Hk & Hn) Hfit Hf Hlt.
    rewrite session_f32.
    2: { apply Forall_app in Hfit as [_ Hfit]. eapply Forall_impl; [|exact Hfit]. intros x Hx. apply f32k_q in Hx. destruct Hx as [_ (v & H1)]. eauto. }
    fold V. set (cs' := map (conv_call (fun x => angular_vector (floats_of x))) cs).
    assert (Ep : SAngular.pushed cs' = map (fun x => angular_vector (floats_of x)) (appended cs)) by apply conv_pushed.
    pose proof (@g_session _ _ _ V (@fw_push f32) (@push_vec f32) Hs (v_law dist Release V HV) (holds w) (vok w unit_or_zero) (v_len dist Release V HV w Hw0)
      (v_cont dist Release V HV w unit_or_zero Hw0 Hgood) (v_push dist w unit_or_zero Hw0 Hgood) (v_pre w unit_or_zero) (map (fun x => angular_vector (floats_of x)) values) b cs' HI) as H.
    rewrite Ep, <- map_app in H. rewrite !map_length, <- app_length in H. specialize (H (f32k_vok _ Hfit) Hf Hlt).
    destruct (history V (@fw_push f32) b cs') as [b'|e]; cbn [obind]; [|intros HC; apply H; [reflexivity|now apply conv_plain]].
    destruct H as (HI' & [Hc' HK] & Hlast). subst cfg k n. exists (length (b_layers b')), (builder_len b'). split; [exists b'; split; [reflexivity|]; split; [exact HI'|auto]|].
    split; [exact HK|]. intros Hfin. destruct (finished_conv cs Hfin (fun x => angular_vector (floats_of x))) as (c1 & f1 & s1 & E1). exact (Hlast c1 f1 s1 E1).
  Qed.

  Lemma f32k_opening : opening_goes fuel usort json L s_angular None None f32k_inv f32k_fits (fun l => l <> []).
  Proof using Hs Hw Hw0.
    intros values cfg k n p o keep (b & -> & HI & Hc & Hk & Hn) Hfit Hne Hf Hlt Hnn Hk25 Ho.
    pose proof (options_cfg L o Ho) as Hcfg. rewrite <- Hc in Hnn. rewrite <- Hk in Hk25.
    destruct (@v_saved f32 dist Release V HV Hs w unit_or_zero Hw0 Hgood f32r (fun _ => True) _ b HI) as (c & L' & Ew & _ & _ & _ & Eel & _); auto.
    { destruct values; [congruence|discriminate]. }
    { apply f32r_ok. }
    { intros x _. apply Forall_forall. auto. }
    { now apply rounds_fits. }
    destruct (@g_open _ _ _ V (@push_vec f32) Hs (v_law dist Release V HV) (holds w) (vok w unit_or_zero) _ b (cfg_of o) HI Hcfg Hnn Hk25)
      as (c2 & b' & Ew2 & Eo & HI' & Hc' & Hk' & Hn').
    assert (c2 = c) by (change (e_mode V) with Release in Ew2; congruence). subst c2.
    exists (cbuf c), (PbF32 (if keep then b' else mkBuilder (b_elems b) [] (cfg_of o))).
    split; [unfold pb_save_index; change (pb_layers (PbF32 b)) with (FixWidth (b_layers b)); rewrite Ew; reflexivity|].
    pose proof HI as (_ & Hh & Hok & _).
    assert (E0 : builder_new V (cfg_of o) (b_elems b) = Ok (mkBuilder (b_elems b) [] (cfg_of o))).
    { eapply (@gnew_ok _ _ _ V (holds w) (v_len dist Release V HV w Hw0)); [exact Hh|]. rewrite map_length. exact Hlt. }
    split.
    { unfold pb_new. change (etype_of s_angular) with (Some Angular). cbn [pb_save_elements]. destruct keep; cbn iota beta zeta.
      - rewrite Eel. cbn [obind]. fold V. rewrite Eo. reflexivity.
      - rewrite Eel. cbn [obind]. fold V. rewrite E0. reflexivity. }
    eexists. split; [reflexivity|]. destruct keep; [split; [exact HI'|]; split; [exact Hc'|]; split; congruence|]. cbn [b_config b_layers]. split; [|auto].
    eapply (@ginv_new _ _ _ V _ (holds w) (vok w unit_or_zero) (v_len dist Release V HV w Hw0) (v_cont dist Release V HV w unit_or_zero Hw0 Hgood) (cfg_of o)); eauto.
    rewrite map_length. exact Hf.
  Qed.
End f32k.

(** ** embeddings *)
Lemma embs_fw w (embs : list (list f32)) v : embs <> [] -> fw_is w embs v -> v = se_embs (se_of w embs []).
Proof.
  intros Hne (H1 & H2 & _). cbn [se_embs se_of]. destruct v as [d wd]. cbn in H1, H2. subst. destruct embs; [congruence|reflexivity].
Qed.

Section words.
  Context (fuel : nat) (usort : list (nat * Z) -> list (nat * Z)) (json : str -> option str) (L : libm).
  Hypothesis Hs : sorts_by_dist usort.
  Variables (w : nat) (embs : list (list f32)) (ws : list str) (wfile : str) (vfile : list N).
  Hypothesis Hw0 : 0 < w.
  Hypothesis Hw : (Z.of_nat (rounds w) <= 10000)%Z.
  Hypothesis Hdim : Forall (fun v => length v = w) embs.
  Hypothesis Hembs : embs <> [].
  Hypothesis Hvf : vectors_file w embs vfile.
  Hypothesis Hnd : NoDup ws.
  Hypothesis Hlen0 : length ws <= length embs.
  Hypothesis H24 : (N.of_nat (length ws) <= 2 ^ 24)%N.
  Hypothesis Hwf : words_file json ws wfile.
  Let V := env_words Release fuel usort.
  Local Notation cfg_of o := (config_from L (options_config o)).
  Let HV : e_ops V = word_ops Release := eq_refl.
  Let Hd : dims w embs.
  Proof using Hw0 Hdim. split; auto. Qed.
  Let d := dict_of ws.
  Let conv := ids_of d.
  Let s0 := se_of w embs [].
  Lemma words_dict : dict_new json wfile = Ok d.
  Proof using Hwf. destruct Hwf as (wl & Hwl & Hjs & ->). unfold dict_new. now rewrite (json_lines_ok Hwl Hjs). Qed.
  Lemma words_vfile : fw_from_bytes f32r vfile = Ok (se_embs s0).
  Proof using Hvf Hembs Hw Hw0.
    destruct Hvf as (vv & Hvv & ->).
    destruct (C10_vectors_round_trip f32 f32r (fun _ => True) f32r_ok w embs vv Hw0 (rounds_fits w Hw) Hvv) as (v' & E1 & _ & E2); [apply Forall_forall; auto|].
    subst v'. rewrite E1. f_equal. now apply embs_fw.
  Qed.

  Definition words_inv (values : list pyval) (cfg : config) (k n : nat) (p : py_builder) : Prop :=
    exists b, p = PbWords (mkWordBuilder b d) /\ winv V w embs (map conv values) b /\ b_config b = cfg /\ length (b_layers b) = k /\ builder_len b = n.
  Definition words_fits (values : list pyval) : Prop :=
    Forall (text_value w embs ws) values /\ forall kws, texts_words ws values kws -> (N.of_nat (length (concat kws)) < 2 ^ 40)%N.

  Lemma words_q x : text_value w embs ws x -> exists t toks, x = PyText t /\ tokens t toks /\ conv x = known_ids ws toks /\ wgood w embs (conv x).
  Proof using Hnd Hlen0 H24 Hw0.
    destruct (@dict_of_behaves ws Hnd) as (_ & _ & _ & _ & Hids). fold d in Hids.
    intros (t & -> & Ht). destruct (tokens_exists t) as (toks & Hk). exists t, toks. split; [reflexivity|]. split; [exact Hk|].
    assert (E : conv (PyText t) = known_ids ws toks) by (unfold conv; cbn [ids_of]; now apply Hids). split; [exact E|]. rewrite E. split.
    - eapply Forall_impl; [|apply (known_range ws toks Hnd)]. cbn beta. lia.
    - intros r Hr. apply Ht. exists toks. auto.
  Qed.
  Lemma words_kws values : Forall (text_value w embs ws) values -> texts_words ws values (map (fun x => map (fun i => nth i ws []) (conv x)) values).
  Proof using Hnd Hlen0 H24 Hw0.
    intros Hv. unfold texts_words. induction Hv as [|x l Hx _ IH]; [constructor|]. cbn [map]. constructor; [|exact IH].
    destruct (words_q x Hx) as (t & toks & -> & Ht & -> & _). exists t. split; [reflexivity|]. exists toks. split; [exact Ht|]. now apply known_back.
  Qed.
  Lemma words_wok values : words_fits values -> wok w embs (map conv values).
  Proof using Hnd Hlen0 H24 Hw0.
    intros [Hv Htot]. split; [split|].
    - apply Forall_forall. intros ids Hi. apply in_map_iff in Hi as (x & <- & Hx). rewrite Forall_forall in Hv.
      destruct (words_q x (Hv x Hx)) as (t & toks & _ & _ & -> & _). eapply Forall_impl; [|apply (known_range ws toks Hnd)]. cbn beta. lia.
    - set (kws := map (fun x => map (fun i => nth i ws []) (conv x)) values).
      assert (Ek : length (concat kws) = length (concat (map conv values))).
      { unfold kws. clear. induction values as [|x l IH]; [reflexivity|]. cbn [map concat]. rewrite !app_length, map_length. lia. }
      rewrite <- Ek. apply Htot. now apply words_kws.
    - apply Forall_forall. intros ids Hi. apply in_map_iff in Hi as (x & <- & Hx). rewrite Forall_forall in Hv.
      destruct (words_q x (Hv x Hx)) as (t & toks & _ & _ & _ & H). exact H.
  Qed.
  Lemma words_pre l l' : words_fits (l ++ l') -> words_fits l.
  Proof using Hnd Hlen0 H24 Hw0.
    intros [H1 H2]. apply Forall_app in H1 as [Ha Hb]. split; [exact Ha|]. intros kws Hk.
    pose proof (words_kws l' Hb) as Hk'. set (k2 := map _ l') in Hk'.
    assert (H : texts_words ws (l ++ l') (kws ++ k2)) by (apply Forall2_app; auto). apply H2 in H. rewrite concat_app, app_length in H. lia.
  Qed.

  Lemma words_new o : options_ok L o ->
    exists p0, pb_new Release fuel usort json L s_embeddings None (Some vfile) (Some wfile) None o = Ok p0 /\ (0 < fuel -> words_inv [] (cfg_of o) 0 0 p0).
  Proof using Hs Hw Hw0 Hdim Hembs Hvf Hwf Hnd Hlen0 H24.
    intros Ho. pose proof (options_cfg L o Ho) as Hcfg.
    assert (H0 : wHolds w embs [] s0) by reflexivity.
    assert (E0 : builder_new V (cfg_of o) s0 = Ok (mkBuilder s0 [] (cfg_of o))).
    { apply (@gnew_ok _ _ _ V (wHolds w embs) (w_len Release V HV w embs) (cfg_of o) [] s0); [exact H0|cbn; lia]. }
    exists (PbWords (mkWordBuilder (mkBuilder s0 [] (cfg_of o)) d)). split.
    { unfold pb_new. change (etype_of s_embeddings) with (Some Words). cbn iota beta zeta. cbn [ounwrap obind].
      unfold wb_new, se_from_files. rewrite words_dict. cbn [obind]. rewrite words_vfile. cbn [obind].
      change (mkSumEmb (se_embs s0) vw_new) with s0. fold V. rewrite E0. reflexivity. }
    intros Hf. eexists. split; [reflexivity|]. cbn [map b_config b_layers]. split; [|auto].
    assert (K0 : wok w embs []) by (split; [split; [constructor|cbn; lia]|constructor]).
    eapply (@ginv_new _ _ _ V _ (wHolds w embs) (wok w embs) (w_len Release V HV w embs) (w_cont Release V HV w embs Hd Hembs Hw) (cfg_of o) [] s0); eauto.
  Qed.

  Lemma words_sessions : sessions_go fuel usort words_inv words_fits.
  Proof using Hs Hw Hw0 Hdim Hembs Hvf Hwf Hnd Hlen0 H24.
    intros values cfg k n p cs (b & -> & HI & Hc & Hk & Hn) Hfit Hf Hlt.
    rewrite session_words.
    2: { destruct Hfit as [Hfit _]. apply Forall_app in Hfit as [_ Hfit]. eapply Forall_impl; [|exact Hfit]. intros x Hx. apply words_q in Hx.
         destruct Hx as (t & _ & H & _). eauto. }
    fold V conv. set (cs' := map (conv_call conv) cs).
    assert (Ep : SAngular.pushed cs' = map conv (appended cs)) by apply conv_pushed.
    pose proof (@g_session _ _ _ V (@se_push f32) (@push_se f32) Hs (w_law Release V HV) (wHolds w embs) (wok w embs) (w_len Release V HV w embs)
      (w_cont Release V HV w embs Hd Hembs Hw) (w_push w embs) (w_pre w embs) (map conv values) b cs' HI) as H.
    rewrite Ep, <- map_app in H. rewrite !map_length, <- app_length in H. specialize (H (words_wok _ Hfit) Hf Hlt).
    destruct (history V (@se_push f32) b cs') as [b'|e]; cbn [obind]; [|intros HC; apply H; [reflexivity|now apply conv_plain]].
    destruct H as (HI' & [Hc' HK] & Hlast). subst cfg k n. exists (length (b_layers b')), (builder_len b').
    split; [exists b'; split; [reflexivity|]; split; [exact HI'|auto]|].
    split; [exact HK|]. intros Hfin. destruct (finished_conv cs Hfin conv) as (c1 & f1 & s1 & E1). exact (Hlast c1 f1 s1 E1).
  Qed.

  Lemma words_opening : opening_goes fuel usort json L s_embeddings (Some vfile) (Some wfile) words_inv words_fits (fun _ => True).
  Proof using Hs Hw Hw0 Hdim Hembs Hvf Hwf Hnd Hlen0 H24.
    intros values cfg k n p o keep (b & -> & HI & Hc & Hk & Hn) Hfit _ Hf Hlt Hnn Hk25 Ho.
    pose proof (options_cfg L o Ho) as Hcfg. rewrite <- Hc in Hnn. rewrite <- Hk in Hk25.
    destruct (@w_saved Release V HV Hs w embs Hd Hembs Hw _ b HI Hnn Hk25) as (c & L' & Ew & _ & _ & _ & Eb & Eel & _).
    { rewrite map_length. exact Hlt. }
    destruct (@g_open _ _ _ V (@push_se f32) Hs (w_law Release V HV) (wHolds w embs) (wok w embs) _ b (cfg_of o) HI Hcfg Hnn Hk25)
      as (c2 & b' & Ew2 & Eo & HI' & Hc' & Hk' & Hn').
    assert (c2 = c) by (change (e_mode V) with Release in Ew2; congruence). subst c2.
    exists (cbuf c), (PbWords (mkWordBuilder (if keep then b' else mkBuilder (b_elems b) [] (cfg_of o)) d)).
    split; [unfold pb_save_index; change (pb_layers (PbWords (mkWordBuilder b d))) with (FixWidth (b_layers b)); rewrite Ew; reflexivity|].
    pose proof HI as (_ & Hh & Hok & _).
    assert (E0 : builder_new V (cfg_of o) (b_elems b) = Ok (mkBuilder (b_elems b) [] (cfg_of o))).
    { eapply (@gnew_ok _ _ _ V (wHolds w embs) (w_len Release V HV w embs)); [exact Hh|]. rewrite map_length. exact Hlt. }
    split.
    { unfold pb_new. change (etype_of s_embeddings) with (Some Words). cbn [pb_save_elements wb_builder].
      assert (Ef : se_from_files vfile (Some (fst (se_write (b_elems b)))) = Ok (b_elems b)).
      { unfold se_from_files. unfold se_from_bytes in Eel. destruct (els_from_bytes (fst (se_write (b_elems b)))) as [e|]; [|discriminate].
        cbn [obind] in Eel |- *. rewrite words_vfile. cbn [obind]. exact Eel. }
      destruct keep; cbn iota beta zeta; cbn [ounwrap obind]; unfold wb_new; rewrite words_dict; cbn [obind]; rewrite Ef; cbn [obind]; fold V.
      - rewrite Eo. reflexivity.
      - rewrite E0. reflexivity. }
    eexists. split; [reflexivity|]. destruct keep; [split; [exact HI'|]; split; [exact Hc'|]; split; congruence|]. cbn [b_config b_layers]. split; [|auto].
    eapply (@ginv_new _ _ _ V _ (wHolds w embs) (wok w embs) (w_len Release V HV w embs) (w_cont Release V HV w embs Hd Hembs Hw) (cfg_of o)); eauto.
    rewrite map_length. exact Hf.
  Qed.
End words.
