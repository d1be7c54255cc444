(** * Proofs: the Python classes, from options to searching saved files *)
From Coq Require Import ZArith Reals Lra Lia.
From Flocq Require Import Core IEEE754.BinarySingleNaN.
From Verif Require Import Base BaseFacts Bytes PBytes MSliceVec SSliceVec PFixed MIndexIo SIndexIo PIndexCrash MSearch SSearch MBuild SBuild MReorder MFloat MFloatBits MAngular SAngular MLayerSize SLayerSize TLayerSize.
From Verif Require Import PF32 PCode PAngInt PAng PQuant PDense PDenseHist PBuilder PHistory PHistGen SPipeline TSlice TVectors MEmbed SEmbed PEmbed PEmbed2 MParse SParse PParse MPyIndex SPyIndex PPyIndex PPyWords.
Close Scope R_scope. Close Scope Z_scope.
Open Scope nat_scope.

(** ** Options *)
Lemma options_values o : options_config o =
  mkBuildConfig (or_default (o_layer_multiplier o) (f32_of_Z 15)) (o_expected_num_elements o)
    (or_default (o_num_neighbors o) 30) (or_default (o_max_search o) 200) (o_reinsert_elements o).
Proof. destruct o as [[x|] [e|] [n|] [s|] r]; reflexivity. Qed.

Lemma options_cfg L o : options_ok L o -> cfg_ok (config_from L (options_config o)).
Proof.
  intros [H1 H2 H3 H4 H5]. rewrite options_values. unfold config_from, config_of. cbn [bc_num_neighbors bc_max_search bc_reinsert_elements bc_expected_num_elements bc_layer_multiplier].
  split; [|split; [|split]]; cbn [k_nn k_ms k_expected k_ideal].
  - destruct (o_num_neighbors o) as [n|]; cbn; [specialize (H1 n eq_refl)|]; lia.
  - destruct (o_max_search o) as [n|]; cbn; [specialize (H2 n eq_refl)|]; lia.
  - exact H3.
  - intros n Hn Hf. destruct (C32_sizes_with_monotonic_powf L _ n Hn Hf H4 (H5 n Hn Hf)) as [H _]. specialize (H 0). lia.
Qed.
Lemma options_nn L o : options_ok L o -> k_nn (config_from L (options_config o)) <= 254.
Proof.
  intros [H1 _ _ _ _]. rewrite options_values. cbn. destruct (o_num_neighbors o) as [n|]; cbn; [specialize (H1 n eq_refl)|]; lia.
Qed.
Lemma options_full L o N : options_ok L o -> few_layers L o N -> (N.of_nat N < 4294967295)%N ->
  SPipeline.full_at (config_from L (options_config o)) 24 N.
Proof.
  intros [H1 H2 H3 H4 H5] Hfew HN n Hn. rewrite options_values. cbn [config_from config_of k_expected k_ideal bc_expected_num_elements bc_layer_multiplier].
  destruct n as [|n]; [lia|]. set (n' := Datatypes.S n) in *. assert (Hn1 : 1 <= n') by (unfold n'; lia). clearbody n'.
  fold (or_default (o_expected_num_elements o) n'). set (t := Nat.max (or_default (o_expected_num_elements o) n') n').
  assert (Ht : 1 <= t) by (unfold t; lia).
  assert (Ht64 : fits_usize t).
  { unfold fits_usize, t. destruct (o_expected_num_elements o) as [e|]; cbn [or_default]; [specialize (H3 e eq_refl); unfold fits_usize in H3|]; lia. }
  destruct (C32_sizes_with_monotonic_powf L _ t Ht Ht64 H4 (H5 t Ht Ht64)) as (_ & _ & H). apply (H 24).
  - replace (INR 24) with 24%R by (cbn; lra). apply Hfew. lia.
  - unfold t. lia.
  - change (2 ^ 53)%Z with 9007199254740992%Z. lia.
Qed.

(** ** Known words *)
Lemma known_range ws toks : NoDup ws -> Forall (fun i => i < length ws) (known_ids ws toks).
Proof.
  intros Hn. induction toks as [|t toks IH]; cbn [known_ids flat_map]; [constructor|]. apply Forall_app. split; [|exact IH].
  pose proof (@position_last ws t Hn) as H. destruct (id_of ws t) as [i|]; [|constructor]. destruct H as [H _]. repeat constructor.
  apply nth_error_Some. congruence.
Qed.
Lemma known_back ws toks : NoDup ws -> map (fun i => nth i ws []) (known_ids ws toks) =
  filter (fun x => if in_dec (list_eq_dec N.eq_dec) x ws then true else false) toks.
Proof.
  intros Hn. induction toks as [|t toks IH]; cbn [known_ids flat_map filter map]; [reflexivity|]. rewrite map_app.
  change (flat_map _ toks) with (known_ids ws toks). rewrite IH. pose proof (@position_last ws t Hn) as H.
  destruct (in_dec (list_eq_dec N.eq_dec) t ws) as [Hin|Hout].
  - destruct (id_of ws t) as [i|]; [|contradiction]. destruct H as [H _]. cbn. rewrite (nth_error_nth _ _ _ H). reflexivity.
  - destruct (id_of ws t) as [i|]; [|reflexivity]. destruct H as [H _]. apply nth_error_In in H. contradiction.
Qed.

(** ** Zero vectors *)
Lemma zeros_finite x : fzeros x -> finite_vec x.
Proof. intros H. eapply Forall_impl; [|exact H]. intros [a|a| |a b c D] G; cbn in *; tauto. Qed.
Lemma zero_query w u z : (Z.of_nat (rounds w) <= 10000)%Z -> tame u -> length u = w -> length z = w -> fzeros z ->
  angular_dist (angular_vector u) (angular_vector z) = Ok f32_one.
Proof.
  intros Hw Hu Lu Lz Hz. rewrite (C63_zeros_kept z Hz), angular_sym. unfold angular_dist.
  assert (Fu : finite_vec (angular_vector u)).
  { destruct (uz_finite w (angular_vector u) Hw) as [H|(x & _ & _ & _ & _ & H)]; [rewrite angular_vector_length; exact Lu|now apply tame_uz|now apply zeros_finite|exact H]. }
  assert (H : fzero (dot_f32 z (angular_vector u))) by (apply zero_dot32; [rewrite angular_vector_length; congruence|exact Hz|exact Fu]).
  destruct (dot_f32 z (angular_vector u)) as [s|s| |]; cbn in H; try contradiction. destruct s; reflexivity.
Qed.
Lemma no_words_vector w embs (r : list f32) : embs <> [] -> is_embedding f32_add f32_zero w embs [] r -> fzeros r /\ length r = w.
Proof.
  intros Hne [Hl H]. split; [|destruct embs; [congruence|exact Hl]]. apply Forall_forall. intros x Hx.
  apply (In_nth _ _ f32_zero) in Hx as (k & Hk & <-). specialize (H k Hk). unfold comp in H. cbn [map left_sum] in H. rewrite H. exact I.
Qed.
