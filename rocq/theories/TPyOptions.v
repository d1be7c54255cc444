(** * Theorems C67 (options to build with) and C68: options and arguments of the
    Python classes *)
From Coq Require Import ZArith Reals Lra Lia.
From Flocq Require Import Core IEEE754.BinarySingleNaN.
From Verif Require Import Base BaseFacts Bytes MSliceVec MIndexIo SIndexIo MSearch SSearch MBuild SBuild MReorder MFloat MFloatBits MAngular SAngular MLayerSize SLayerSize PLayerF PLayerCr TLayerSize.
From Verif Require Import MEmbed SEmbed MParse SParse PParse MPyIndex SPyIndex PPyIndex PPyMain PPyLayers.
Close Scope R_scope. Close Scope Z_scope.
Open Scope nat_scope.

(** With a correctly rounded C library the options of C67 are those with a finite
    multiplier of at least 5/2, 1 to 254 neighbours, a [max_search] of at least 1
    and up to 2^32 expected elements; the default options are among them. *)
Theorem C67_options :
  forall o,
    (forall x, o_layer_multiplier o = Some x -> is_finite x = true /\ (5 / 2 <= B2R x)%R) ->
    (forall n, o_num_neighbors o = Some n -> 0 < n <= 254) ->
    (forall n, o_max_search o = Some n -> 0 < n) ->
    (forall n, o_expected_num_elements o = Some n -> (N.of_nat n <= 2 ^ 32)%N) ->
    options_ok cr_libm o /\ forall n, (N.of_nat n <= 2 ^ 32)%N -> few_layers cr_libm o n.
Proof.
  intros o Hm H1 H2 H3.
  set (x := or_default (o_layer_multiplier o) (f32_of_Z 15)).
  assert (Hx : is_finite x = true /\ (5 / 2 <= B2R x)%R).
  { unfold x. destruct (o_layer_multiplier o) as [y|]; cbn [or_default]; [apply Hm; reflexivity|]. split; [reflexivity|].
    replace (B2R (f32_of_Z 15)) with 15%R; [lra|]. unfold B2R. cbn. unfold F2R. cbn. lra. }
  destruct Hx as [Fx Bx]. split.
  - constructor; auto.
    + intros n Hn. specialize (H3 n Hn). unfold fits_usize. lia.
    + unfold multiplier. fold x. apply (C32_assumptions_met_by_correct_rounding x 1); auto; [lra|]. unfold fits_usize. reflexivity.
    + intros n Hn Hf. unfold multiplier. fold x. apply C32_assumptions_met_by_correct_rounding; auto. lra.
  - intros N HN n Hn. unfold multiplier. fold x. apply cr_few; auto; [lia|].
    destruct (o_expected_num_elements o) as [e|] eqn:Ee; cbn [or_default]; [specialize (H3 e eq_refl)|]; lia.
Qed.
Print Assumptions C67_options.

(** ** C68 *)
(** Every keyword argument is used, and nothing else changes with it. *)
Theorem C68_options_take_effect :
  forall o, let c := options_config o in
    bc_layer_multiplier c = or_default (o_layer_multiplier o) (f32_of_Z 15) /\
    bc_expected_num_elements c = o_expected_num_elements o /\
    bc_num_neighbors c = or_default (o_num_neighbors o) 30 /\
    bc_max_search c = or_default (o_max_search o) 200 /\
    bc_reinsert_elements c = o_reinsert_elements o.
Proof. intros o. rewrite options_values. cbn. auto. Qed.
Print Assumptions C68_options_take_effect.

(** The documentation of [GranneBuilder] has 20 neighbours as the default; it is 30. *)
Theorem C68_documented_num_neighbors_refuted :
  ~ forall o, o_num_neighbors o = None -> bc_num_neighbors (options_config o) = 20.
Proof.
  intros H. specialize (H (mkOptions None None None None true) eq_refl). discriminate H.
Qed.
Print Assumptions C68_documented_num_neighbors_refuted.

(** what the builder of a constructor call is configured with *)
Theorem C68_builder_configured :
  forall m fuel usort json L et elements embeddings words index o p,
    pb_new m fuel usort json L et elements embeddings words index o = Ok p ->
    let cfg := match p with PbF32 b => b_config b | PbI8 b => b_config b | PbWords w => b_config (wb_builder w) end in
    k_nn cfg = or_default (o_num_neighbors o) 30 /\ k_ms cfg = or_default (o_max_search o) 200 /\
    k_reinsert cfg = o_reinsert_elements o /\ k_expected cfg = o_expected_num_elements o /\
    k_ideal cfg = layer_size L (or_default (o_layer_multiplier o) (f32_of_Z 15)).
Proof.
  intros m fuel usort json L et elements embeddings words index o p H. cbn zeta.
  assert (HN : forall (S E : Type) (V : benv S E) cfg s b, builder_new V cfg s = Ok b -> b_config b = cfg).
  { intros S E V cfg s b. unfold builder_new. destruct (oassert _); [|discriminate]. cbn [obind]. intros E1. injection E1. now intros <-. }
  assert (HF : forall (S E : Type) (V : benv S E) cfg i s b, builder_open V cfg i s = Ok b -> b_config b = cfg).
  { intros S E V cfg i s b. unfold builder_open. destruct (builder_new V cfg s) as [b0|] eqn:E0; [|discriminate]. cbn [obind].
    destruct (builder_from_bytes _ _ i); [|discriminate]. cbn [obind]. intros E1. injection E1. intros <-. cbn [b_config]. eapply HN; eauto. }
  assert (G : match p with PbF32 b => b_config b | PbI8 b => b_config b | PbWords w => b_config (wb_builder w) end = config_from L (options_config o)).
  { unfold pb_new in H. destruct index as [i|], elements as [e|], (etype_of et) as [[]|]; try discriminate;
      repeat (match type of H with (let* _ := ?x in _) = _ => let E := fresh "E" in destruct x eqn:E; [|discriminate]; cbn [obind] in H end);
      injection H; intros <-; cbn [wb_builder]; eauto;
      match goal with E : wb_new _ _ _ _ _ _ _ _ _ = Ok _ |- _ => unfold wb_new in E;
        repeat (match type of E with (let* _ := ?x in _) = _ => let E' := fresh "E" in destruct x eqn:E'; [|discriminate]; cbn [obind] in E end);
        injection E; intros <-; cbn [wb_builder]; eauto end. }
  rewrite G, options_values. cbn. auto.
Qed.
Print Assumptions C68_builder_configured.

(** The name of an element type is taken in any capitalisation. *)
Theorem C68_element_type_names :
  forall s t, etype_of s = Some t <->
    map ascii_lower s = match t with Angular => s_angular | AngularInt => s_angular_int | Words => s_embeddings end.
Proof.
  intros s t. unfold etype_of. cbn zeta.
  destruct (str_eqb (map ascii_lower s) s_angular) eqn:E1; [apply str_eqb_eq in E1; rewrite E1; destruct t; split; intros H; try reflexivity; discriminate|].
  destruct (str_eqb (map ascii_lower s) s_angular_int) eqn:E2; [apply str_eqb_eq in E2; rewrite E2; destruct t; split; intros H; try reflexivity; discriminate|].
  destruct (str_eqb (map ascii_lower s) s_embeddings) eqn:E3; [apply str_eqb_eq in E3; rewrite E3; destruct t; split; intros H; try reflexivity; discriminate|].
  split; [discriminate|]. intros H. destruct t; rewrite H, str_eqb_refl in *; discriminate.
Qed.
Print Assumptions C68_element_type_names.

(** [compute_distance] does not: "Angular" is a type for the classes but not for
    [compute_distance]. *)
Theorem C68_compute_distance_names_refuted :
  exists s, etype_of s = Some Angular /\ forall m a b, py_compute_distance m s a b = Fail Panicked.
Proof. exists [65; 110; 103; 117; 108; 97; 114]%N. split; [reflexivity|]. intros. reflexivity. Qed.
Print Assumptions C68_compute_distance_names_refuted.

(** [compute_distance] takes two vectors of any kind of number; nothing else. *)
Theorem C68_compute_distance_arguments :
  forall m s a b d, py_compute_distance m s a b = Ok d ->
    (s = s_angular \/ s = s_angular_int) /\
    (forall x, x = a \/ x = b -> (exists v, x = PyFloats v) \/ x = PyText []).
Proof.
  intros m s a b d H. unfold py_compute_distance in H.
  destruct (str_eqb s s_angular) eqn:E1; [apply str_eqb_eq in E1|destruct (str_eqb s s_angular_int) eqn:E2; [apply str_eqb_eq in E2|discriminate]];
    (split; [auto|]); intros x Hx;
    assert (HE : exists v, extract_floats x = Ok v).
  1: { destruct (extract_floats a) as [va|] eqn:Ea; [|discriminate]. cbn [obind] in H. destruct (extract_floats b) as [vb|] eqn:Eb; [|discriminate].
       destruct Hx; subst; eauto. }
  2: { destruct (extract_floats a) as [va|] eqn:Ea; [|discriminate]. cbn [obind] in H. destruct (quantize m va); [|discriminate]. cbn [obind] in H.
       destruct (extract_floats b) as [vb|] eqn:Eb; [|discriminate]. destruct Hx; subst; eauto. }
  all: destruct HE as (v & HE); destruct x as [l|[|c t]|]; cbn in HE; try discriminate; eauto.
Qed.
Print Assumptions C68_compute_distance_arguments.

(** Missing files: an index without its elements, texts without word vectors or
    words, an unknown element type. *)
Theorem C68_missing_arguments_panic :
  forall m fuel usort json L et elements embeddings words index o,
    etype_of et = None \/
    (etype_of et <> Some Words /\ index <> None /\ elements = None) \/
    (etype_of et = Some Words /\ (embeddings = None \/ words = None)) ->
    pb_new m fuel usort json L et elements embeddings words index o = Fail Panicked.
Proof.
  intros m fuel usort json L et elements embeddings words index o H. unfold pb_new.
  destruct H as [->|[(H1 & H2 & ->)|(-> & H)]].
  - destruct index, elements; reflexivity.
  - destruct index as [i|]; [|congruence]. destruct (etype_of et) as [[]|]; try reflexivity. congruence.
  - destruct H as [-> | ->]; destruct index, elements; try destruct embeddings; reflexivity.
Qed.
Print Assumptions C68_missing_arguments_panic.

(** The same for opening a saved index. *)
Theorem C68_opening_refuses :
  forall json index et elements embeddings words,
    etype_of et = None \/ (etype_of et = Some Words /\ (embeddings = None \/ words = None)) ->
    pi_open json index et elements embeddings words = Fail Panicked.
Proof.
  intros json index et elements embeddings words [H|[H H2]]; unfold pi_open; rewrite H; [reflexivity|].
  destruct H2 as [-> | ->]; [reflexivity|]. destruct embeddings; reflexivity.
Qed.
Print Assumptions C68_opening_refuses.

(** [append] takes vectors for "angular" and "angular_int" and texts for
    "embeddings"; anything else is refused without a panic. *)
Theorem C68_append_refuses :
  forall m fuel usort p x,
    match p with
    | PbWords _ => forall t, x <> PyText t
    | _ => (forall v, x <> PyFloats v) /\ x <> PyText []
    end -> pb_append m fuel usort p x = Fail IoError.
Proof.
  intros m fuel usort [b|b|w] x H; cbn [pb_append].
  - destruct H as [H1 H2]. destruct x as [l|[|c t]|]; try congruence; try reflexivity.
  - destruct H as [H1 H2]. destruct x as [l|[|c t]|]; try congruence; try reflexivity.
  - unfold wb_push. destruct x as [l|t|]; try reflexivity. now specialize (H t).
Qed.
Print Assumptions C68_append_refuses.

(** ** A builder without elements *)
(** It has no elements and no layers; asking for the neighbours of an element in
    the last layer panics. *)
Theorem C68_new_builder_is_empty :
  forall m fuel usort json L o et p,
    etype_of et = Some Angular \/ etype_of et = Some AngularInt ->
    pb_new m fuel usort json L et None None None None o = Ok p ->
    pb_num_elements m p = 0 /\ pb_len p = Ok 0 /\ pb_num_layers p = 0 /\ forall i, pb_get_neighbors m p i None = Fail Panicked.
Proof.
  intros m fuel usort json L o et p H E. unfold pb_new in E. destruct H as [H|H]; rewrite H in E; cbn [builder_new] in E.
  - destruct (builder_new (env_f32 m fuel usort) _ fw_new) as [b|] eqn:Eb; [|discriminate]. unfold builder_new in Eb.
    destruct (oassert _); [|discriminate]. cbn [obind] in Eb, E. injection Eb. intros <-. injection E. intros <-. repeat split.
  - destruct (builder_new (env_i8 m fuel usort) _ fw_new) as [b|] eqn:Eb; [|discriminate]. unfold builder_new in Eb.
    destruct (oassert _); [|discriminate]. cbn [obind] in Eb, E. injection Eb. intros <-. injection E. intros <-. repeat split.
Qed.
Print Assumptions C68_new_builder_is_empty.

(** The files it saves cannot be opened (its elements have dimension 0), neither as an
    index nor as the elements of a new builder. *)
Theorem C68_saved_empty_builder_opens_refuted :
  forall m fuel usort json L o et p index,
    etype_of et = Some Angular \/ etype_of et = Some AngularInt ->
    pb_new m fuel usort json L et None None None None o = Ok p ->
    pi_open json index et (pb_save_elements p) None None = Fail Panicked /\
    forall i o', pb_new m fuel usort json L et (Some (pb_save_elements p)) None None i o' = Fail Panicked.
Proof.
  intros m fuel usort json L o et p index H E. unfold pb_new in E |- *. destruct H as [H|H]; rewrite H in E |- *; cbn [builder_new] in E.
  - destruct (builder_new (env_f32 m fuel usort) _ fw_new) as [b|] eqn:Eb; [|discriminate]. unfold builder_new in Eb.
    destruct (oassert _); [|discriminate]. cbn [obind] in Eb, E. injection Eb. intros <-. injection E. intros <-. cbn [pb_save_elements b_elems].
    unfold pi_open. rewrite H. replace (fw_from_bytes f32r (fst (fw_write f32r fw_new))) with (@Fail (fw f32) Panicked) by reflexivity.
    split; [reflexivity|]. intros [i|] o'; reflexivity.
  - destruct (builder_new (env_i8 m fuel usort) _ fw_new) as [b|] eqn:Eb; [|discriminate]. unfold builder_new in Eb.
    destruct (oassert _); [|discriminate]. cbn [obind] in Eb, E. injection Eb. intros <-. injection E. intros <-. cbn [pb_save_elements b_elems].
    unfold pi_open. rewrite H. replace (fw_from_bytes i8r (fst (fw_write i8r fw_new))) with (@Fail (fw Z) Panicked) by reflexivity.
    split; [reflexivity|]. intros [i|] o'; reflexivity.
Qed.
Print Assumptions C68_saved_empty_builder_opens_refuted.

(** ** Default arguments *)
Theorem C68_default_arguments :
  forall m fuel q y p i,
    (forall ms nn, pi_search m fuel q y ms nn = pi_search m fuel q y (Some (fst (search_args ms nn))) (Some (snd (search_args ms nn)))) /\
    (0 < pb_num_layers p -> pb_get_neighbors m p i None = pb_get_neighbors m p i (Some (pb_num_layers p - 1))) /\
    (0 < pi_num_layers q -> pi_get_neighbors m q i None = pi_get_neighbors m q i (Some (pi_num_layers q - 1))).
Proof.
  intros m fuel q y p i. split; [|split].
  - intros [ms|] [nn|]; reflexivity.
  - unfold pb_get_neighbors, neighbors_in, pb_num_layers. intros H. replace (0 <? layers_len (pb_layers p)) with true by (symmetry; now apply Nat.ltb_lt). reflexivity.
  - unfold pi_get_neighbors, neighbors_in, pi_num_layers. intros H. replace (0 <? layers_len (pi_layers q)) with true by (symmetry; now apply Nat.ltb_lt). reflexivity.
Qed.
Print Assumptions C68_default_arguments.
