(** * Theorem C75: arguments by position and by name *)
From Verif Require Import Base MParse MPyMod PParse PPyMod.
Set Implicit Arguments.

(** ** Specification: what parameter number [i], a name and whether it may be left
    out, gets from the positional arguments [args] and the keyword arguments [kw] *)
Inductive gets {V} (args : list V) (kw : list (str * V)) (i : nat) : str * bool -> option V -> Prop :=
| by_position n may v : nth_error args i = Some v -> ~ In n (map fst kw) -> gets args kw i (n, may) (Some v)
| by_name n may v : length args <= i -> In (n, v) kw -> gets args kw i (n, may) (Some v)
| left_out n : length args <= i -> ~ In n (map fst kw) -> gets args kw i (n, true) None.

(** a valid call: not too many arguments, no unknown name, and each parameter gets its value *)
Definition valid_call {V} (params : list (str * bool)) (args : list V) (kw : list (str * V)) (vals : list (option V)) : Prop :=
  length args <= length params /\ (forall n, In n (map fst kw) -> In n (map fst params)) /\
  length vals = length params /\
  forall i p v, nth_error params i = Some p -> nth_error vals i = Some v -> gets args kw i p v.

(** ** Proof *)
Lemma kw_get_none {V} (k : list (str * V)) n : kw_get k n = None <-> ~ In n (map fst k).
Proof.
  induction k as [|[a v] k IH]; cbn [kw_get map fst In]; [tauto|]. destruct (str_eqb a n) eqn:E.
  - apply str_eqb_eq in E. subst. split; [discriminate|]. intros H. exfalso. tauto.
  - rewrite IH. split; [|tauto]. intros H [->|G]; [now rewrite str_eqb_refl in E|tauto].
Qed.

Lemma bind_params_ok {V} (kw : list (str * V)) : NoDup (map fst kw) -> forall ps args vals,
  bind_params ps args kw = Ok vals <->
  length vals = length ps /\ forall i p v, nth_error ps i = Some p -> nth_error vals i = Some v -> gets args kw i p v.
Proof.
  intros Hn ps. induction ps as [|[n may] ps IH]; intros args vals; cbn [bind_params].
  { split; [intros H; injection H as <-; split; [reflexivity|intros [|i]; discriminate]|].
    intros [H _]. destruct vals; [reflexivity|discriminate]. }
  match goal with |- obind ?o _ = _ <-> _ => set (hd := o) end.
  assert (Hhd : forall x, hd = Ok x <-> gets args kw 0 (n, may) x).
  { intros x. subst hd. destruct (kw_get kw n) as [v|] eqn:E.
    - apply kw_get_some in E. assert (Hi : In n (map fst kw)) by (now apply (in_map fst) in E). destruct args as [|a args].
      + split; [intros H; injection H as <-; apply by_name; auto|]. intros H. inversion H as [? ? ? H1|? ? u H1 H2|? H1 H2]; subst; [discriminate| |tauto].
        apply (@kw_get_in V) in E, H2; auto. congruence.
      + split; [discriminate|]. intros H. inversion H; subst; [tauto|cbn [length] in *; lia|tauto].
    - apply kw_get_none in E. destruct args as [|a args].
      + destruct may.
        * split; [intros H; injection H as <-; now apply left_out|]. intros H. inversion H as [? ? ? H1|? ? u H1 H2|? H1 H2]; subst; [discriminate| |reflexivity].
          now apply (in_map fst) in H2.
        * split; [discriminate|]. intros H. inversion H as [? ? ? H1|? ? u H1 H2|]; subst; [discriminate|]. now apply (in_map fst) in H2.
      + split; [intros H; injection H as <-; now apply by_position|]. intros H. inversion H as [? ? ? H1|? ? u H1 H2|]; subst; [|cbn [length] in *; lia..].
        cbn in H1. congruence. }
  clearbody hd.
  assert (Htl : forall i p v, gets (tl args) kw i p v <-> gets args kw (S i) p v).
  { intros i p v. destruct args as [|a args]; cbn [tl].
    - split; intros H; inversion H as [? ? ? H1|? ? u H1 H2|? H1 H2]; subst; try (now destruct i); [apply by_name|apply left_out|apply by_name|apply left_out]; auto; cbn [length] in *; lia.
    - split; intros H; inversion H as [? ? ? H1|? ? u H1 H2|? H1 H2]; subst; [apply by_position|apply by_name|apply left_out|apply by_position|apply by_name|apply left_out]; auto; cbn [length] in *; lia. }
  split.
  - intros H. destruct hd as [x|]; [|discriminate]. pose proof (proj1 (Hhd x) eq_refl) as E.
    cbn [obind] in H. destruct (bind_params ps (tl args) kw) as [rest|] eqn:Er; [|discriminate]. cbn [obind] in H. injection H as <-.
    apply IH in Er. destruct Er as [El Eg]. split; [cbn [length]; lia|]. intros [|i] p v Hp Hv; cbn [nth_error] in Hp, Hv.
    + injection Hp as <-. injection Hv as <-. exact E.
    + apply Htl. eauto.
  - intros [Hl Hg]. destruct vals as [|x vals]; [discriminate|]. pose proof (Hg 0 _ _ eq_refl eq_refl) as H0. apply Hhd in H0. rewrite H0. cbn [obind].
    assert (E : bind_params ps (tl args) kw = Ok vals).
    { apply IH. split; [cbn [length] in Hl; lia|]. intros i p v Hp Hv. apply Htl. apply Hg; auto. }
    now rewrite E.
Qed.
Lemma bind_params_raises {V} (kw : list (str * V)) ps : forall args x, bind_params ps args kw = Fail x -> x = IoError.
Proof.
  induction ps as [|[n may] ps IH]; intros args x; cbn [bind_params]; [discriminate|].
  match goal with |- obind ?o _ = _ -> _ => set (hd := o) end.
  assert (Hhd : forall y, hd = Fail y -> y = IoError) by (intros y; subst hd; destruct (kw_get kw n), args, may; congruence).
  clearbody hd. destruct hd as [v|y]; cbn [obind].
  - specialize (IH (tl args) x). destruct (bind_params ps (tl args) kw) as [r|y]; cbn [obind]; [discriminate|exact IH].
  - intros H. apply Hhd. congruence.
Qed.

(** ** C75: a call binds the parameters as specified, and any other call raises an
    exception.  (Names of parameters and keys of the keyword dictionary are distinct.) *)
Theorem C75_argument_binding :
  forall (V : Type) params (args : list V) kw, NoDup (map fst params) -> NoDup (map fst kw) ->
    (forall vals, bind_args params args kw = Ok vals <-> valid_call params args kw vals) /\
    ((forall vals, ~ valid_call params args kw vals) -> bind_args params args kw = Fail IoError).
Proof.
  intros V params args kw Hp Hn.
  assert (K : forall vals, bind_args params args kw = Ok vals <-> valid_call params args kw vals).
  { intros vals. unfold bind_args, valid_call.
    assert (Hk : forallb (fun kv => existsb (fun p => str_eqb (fst p) (fst kv)) params) kw = true <-> (forall n, In n (map fst kw) -> In n (map fst params))).
    { rewrite forallb_forall. split.
      - intros H n Hi. apply in_map_iff in Hi as (kv & <- & Hi). apply H, existsb_exists in Hi as (p & Hi & E). apply str_eqb_eq in E. rewrite <- E. now apply in_map.
      - intros H kv Hi. apply existsb_exists. apply (in_map fst), H, in_map_iff in Hi as (p & E & Hi). exists p. split; auto. rewrite E. apply str_eqb_refl. }
    split.
    - match goal with |- (if ?b then _ else _) = _ -> _ => destruct b eqn:E end; [discriminate|]. apply Nat.ltb_ge in E.
      change (@length param params) with (length params) in E.
      destruct (forallb _ kw); [|discriminate]. intros H. apply (@bind_params_ok V kw Hn) in H. destruct H as [H1 H2].
      repeat split; [lia|now apply Hk|exact H1|exact H2].
    - intros (H1 & H2 & H3 & H4). rewrite (proj2 Hk H2).
      assert (Hc : incl (map fst kw) (map fst (skipn (length args) params))).
      { intros n Hi. pose proof (H2 n Hi) as Hq. apply in_map_iff in Hq as ([n' may] & E & Hq). cbn in E. subst n'.
        apply In_nth_error in Hq as [i Hi']. assert (Hv : exists v, nth_error vals i = Some v).
        { destruct (nth_error vals i) eqn:Ev; [eauto|]. apply nth_error_None in Ev. assert (i < length params) by (apply nth_error_Some; congruence). lia. }
        destruct Hv as [v Hv]. specialize (H4 i _ v Hi' Hv). apply in_map_iff. exists (n, may). split; auto.
        assert (Hge : length args <= i) by (inversion H4; subst; auto; tauto).
        apply (nth_error_In _ (i - length args)). rewrite <- Hi'. clear -Hge. revert params i Hge. induction (length args) as [|k IH]; intros params i H; [cbn [skipn]; f_equal; lia|].
        destruct params as [|q params]; [cbn [skipn]; destruct (i - S k), i; reflexivity|]. destruct i as [|i]; [lia|]. cbn [skipn nth_error Nat.sub]. apply IH. lia. }
      pose proof (NoDup_incl_length Hn Hc) as Hlen. rewrite !map_length, skipn_length in Hlen.
      match goal with |- (if ?b then _ else _) = _ => replace b with false end;
        [|symmetry; apply Nat.ltb_ge; change (@length param params) with (length params); lia]. apply (@bind_params_ok V kw Hn). auto. }
  split; [exact K|]. intros H. destruct (bind_args params args kw) as [vals|x] eqn:E.
  - exfalso. apply (H vals). now apply K.
  - f_equal. revert E. unfold bind_args. match goal with |- (if ?b then _ else _) = _ -> _ => destruct b end; [congruence|]. destruct (forallb _ _); [|congruence]. apply bind_params_raises.
Qed.
Print Assumptions C75_argument_binding.

(** the call [f(2, c = 3)] of a function [f(a, b = .., c)] *)
Example C75_binding_example :
  let params := [([97%N], false); ([98%N], true); ([99%N], false)] in
  valid_call params [2] [([99%N], 3)] [Some 2; None; Some 3] /\
  (forall vals, ~ valid_call params [2] [([97%N], 5); ([99%N], 3)] vals).
Proof.
  split.
  - split; [cbn; lia|]. split; [intros n [<-|[]]; cbn; tauto|]. split; [reflexivity|].
    intros [|[|[|i]]] p v; cbn; intros Hp Hv; [injection Hp as <-; injection Hv as <-..|destruct i; discriminate].
    + apply by_position; [reflexivity|]. cbn. intuition discriminate.
    + apply left_out; cbn; [lia|]. intuition discriminate.
    + apply by_name; cbn; [lia|]. now left.
  - intros vals (_ & _ & Hl & H). destruct vals as [|v vals]; [discriminate|]. specialize (H 0 _ v eq_refl eq_refl).
    inversion H as [? ? ? H1 H2|? ? u H1 H2|]; subst; [|cbn in *; lia]. apply H2. now left.
Qed.
