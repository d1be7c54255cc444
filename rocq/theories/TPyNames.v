(** * C68 and C75, continued: the names of element types and parameters, spelled out *)
From Coq Require Import String Ascii.
From Verif Require Import Base MFloat MAngular MParse MPyIndex MPyMod SFiles.

(** [s] is the text [t] (in small letters) up to the case of ASCII letters *)
Definition caseless (s t : list N) : Prop :=
  Forall2 (fun c d => c = d \/ ((65 <= c <= 90)%N /\ d = (c + 32)%N)) s t.

Lemma lower_caseless s t : Forall (fun c => ~ (65 <= c <= 90)%N) t -> (map ascii_lower s = t <-> caseless s t).
Proof.
  unfold caseless. intros Ht; revert t Ht; induction s as [|c s IH]; intros t Ht.
  - split.
    + intros <-. constructor.
    + intros H. now inversion H.
  - destruct t as [|d t]; [split; [discriminate|intros H; inversion H]|]. inversion Ht as [|? ? H1 H2]; subst. cbn [map]. split.
    + intros E. injection E as E1 E2. constructor; [|now apply IH]. unfold ascii_lower in E1.
      destruct (N.leb_spec 65 c), (N.leb_spec c 90); cbn [andb] in E1; first [right; split; [lia|congruence] | left; congruence].
    + intros H. inversion H as [|? ? ? ? Hc Hs]; subst. f_equal; [|now apply IH]. unfold ascii_lower.
      destruct Hc as [->|[Hc ->]].
      * destruct (N.leb_spec 65 d), (N.leb_spec d 90); cbn [andb]; auto. lia.
      * destruct (N.leb_spec 65 c), (N.leb_spec c 90); cbn [andb]; auto; lia.
Qed.

(** An index or a builder is opened with "angular", "angular_int" or
    "embeddings", in any case of the letters, and with nothing else. *)
Theorem C68_kind_names :
  (forall s, etype_of s = Some Angular <-> caseless s (text "angular")) /\
  (forall s, etype_of s = Some AngularInt <-> caseless s (text "angular_int")) /\
  (forall s, etype_of s = Some Words <-> caseless s (text "embeddings")).
Proof.
  assert (L : forall t, forallb (fun c => (90 <? c)%N) t = true -> Forall (fun c => ~ (65 <= c <= 90)%N) t).
  { intros t H. rewrite forallb_forall in H. apply Forall_forall. intros c Hc. specialize (H c Hc). apply N.ltb_lt in H. lia. }
  assert (E : forall a b, str_eqb a b = true <-> a = b) by (intros a b; unfold str_eqb; destruct (list_eq_dec N.eq_dec a b); split; congruence).
  assert (D : s_angular <> s_angular_int /\ s_angular <> s_embeddings /\ s_angular_int <> s_embeddings) by (repeat split; discriminate).
  destruct D as (D1 & D2 & D3).
  change (text "angular") with s_angular. change (text "angular_int") with s_angular_int. change (text "embeddings") with s_embeddings.
  split; [|split]; intros s; (rewrite <- lower_caseless by (apply L; reflexivity)); unfold etype_of; rewrite <- E;
    destruct (str_eqb (map ascii_lower s) s_angular) eqn:E1;
    destruct (str_eqb (map ascii_lower s) s_angular_int) eqn:E2;
    destruct (str_eqb (map ascii_lower s) s_embeddings) eqn:E3;
    repeat match goal with H : str_eqb _ _ = true |- _ => apply E in H end; split; congruence.
Qed.
Print Assumptions C68_kind_names.

(** The distance function of the module takes "angular" and "angular_int", in
    small letters only; any other type panics, also "embeddings" and "Angular". *)
Theorem C68_distance_kinds :
  forall m s a b, s <> text "angular" -> s <> text "angular_int" -> py_compute_distance m s a b = Fail Panicked.
Proof.
  intros m s a b H1 H2. unfold py_compute_distance, str_eqb.
  destruct (list_eq_dec N.eq_dec s s_angular) as [->|_]; [now destruct H1|].
  destruct (list_eq_dec N.eq_dec s s_angular_int) as [->|_]; [now destruct H2|]. reflexivity.
Qed.
Print Assumptions C68_distance_kinds.

Theorem C75_parameter_names :
  n_elements_path = text "elements_path" /\ n_embeddings_path = text "embeddings_path" /\ n_words_path = text "words_path" /\
  n_output_path = text "output_path" /\ n_show_progress = text "show_progress".
Proof. repeat split. Qed.
Print Assumptions C75_parameter_names.

Example C68_kind_names_nonvacuous :
  etype_of (text "Angular_INT") = Some AngularInt /\ caseless (text "Angular_INT") (text "angular_int") /\
  py_compute_distance Release (text "Angular") (PyFloats []) (PyFloats []) = Fail Panicked.
Proof.
  split; [reflexivity|]. split; [|reflexivity]. cbv [text map list_ascii_of_string N_of_ascii N_of_digits].
  repeat constructor; lia.
Qed.
