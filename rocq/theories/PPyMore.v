(** * Proofs: lives of a Python builder *)
From Coq Require Import ZArith Lia.
From Verif Require Import Base BaseFacts Bytes PBytes MSliceVec SSliceVec MIndexIo SIndexIo PIndexCrash MSearch SSearch MBuild SBuild SAngular MLayerSize MParse MPyIndex SPyIndex SPyMore.
From Verif Require Import PBuilder PHistory POpen PHistGen SPipeline TReopen PPyIndex PPyMain.
Close Scope R_scope. Close Scope Z_scope.
Open Scope nat_scope.

(** ** Containers in general *)
Section Gen.
  Context {S E I : Type} (V : benv S E) (cpush gpush : S -> I -> outcome S).
  Hypothesis Hsort : sorts_by_dist (e_sort V).
  Hypothesis Hlaw : push_law (e_ops V) gpush.
  Variables (Holds : list I -> S -> Prop) (ok : list I -> Prop).
  Hypothesis Hlen : forall l s, Holds l s -> c_len (e_ops V) s = length l.
  Hypothesis Hcont : forall l s, Holds l s -> ok l -> cont_ok (e_ops V) s.
  Hypothesis Hpush : forall l s x, Holds l s -> ok (l ++ [x]) ->
    exists s', cpush s x = Ok s' /\ gpush s x = Ok s' /\ Holds (l ++ [x]) s'.
  Hypothesis Hpre : forall l l', ok (l ++ l') -> ok l.
  Let inv := ginv V gpush Holds ok.

  Lemma g_session l b cs : inv l b -> ok (l ++ pushed cs) -> length l + length (pushed cs) < e_fuel V ->
    (N.of_nat (length l + length (pushed cs)) < 4294967295)%N ->
    match history V cpush b cs with
    | Ok b' => inv (l ++ pushed cs) b' /\ gsame (length l + length (pushed cs)) b b' /\
        forall cs' fuel sched, cs = cs' ++ [CBuild fuel sched] -> builder_len b' = length l + length (pushed cs)
    | Fail e => e_mode V = Release -> Forall plain cs -> e = OutOfFuel
    end.
  Proof using Hlen Hcont Hpush Hpre Hsort Hlaw.
    intros HI Hok Hf Hn.
    pose proof (@ginv_hist _ _ _ V cpush gpush Hsort Hlaw Holds ok Hlen Hcont Hpush Hpre cs l b HI Hok Hf Hn) as H.
    destruct (history V cpush b cs) as [b'|e] eqn:Eh; [|exact H]. destruct H as [H1 H2]. split; [exact H1|]. split; [exact H2|].
    intros cs' fu sc ->. assert (Ep : pushed (cs' ++ [CBuild fu sc]) = pushed cs').
    { clear. induction cs' as [|[x| |] cs' IH]; cbn; congruence. }
    rewrite Ep in *. exact (@ginv_last _ _ _ V cpush gpush Hsort Hlaw Holds ok Hlen Hcont Hpush Hpre cs' l b fu sc b' HI Hok Hf Hn Eh).
  Qed.

  Lemma g_open l b cfg : inv l b -> cfg_ok cfg -> k_nn (b_config b) <= 254 -> length (b_layers b) <= 25 ->
    exists c b', write_index (e_mode V) (FixWidth (b_layers b)) (mkCursor [] 0) = Ok c /\
      builder_open V cfg (cbuf c) (b_elems b) = Ok b' /\ inv l b' /\ b_config b' = cfg /\
      length (b_layers b') = length (b_layers b) /\ builder_len b' = builder_len b.
  Proof using Hsort Hlaw.
    intros (Hr & Hh & Hk & Hl) Hcfg H254 H25.
    destruct (reached_can_reopen V gpush b cfg (mkCursor [] 0) Hsort Hlaw Hr Hcfg H254 H25) as (c & b' & Ew & Eo).
    assert (Ho : reopened V b cfg b') by (exists (mkCursor [] 0), c; auto).
    destruct (reached_reopens V gpush b cfg b' Hsort Hlaw Hr Hcfg Ho) as [Hr' (H1 & H2 & H3 & H4 & _)].
    exists c, b'. split; [exact Ew|]. split; [exact Eo|]. split; [|auto].
    split; [exact Hr'|]. split; [now rewrite H1|]. split; [exact Hk|]. now rewrite H4.
  Qed.
End Gen.

(** ** Lives *)
Section Lives.
  Context (fuel : nat) (usort : list (nat * Z) -> list (nat * Z)) (json : str -> option str) (L : libm)
          (element_type : str) (embeddings : option (list N)) (words : option str).
  (** [Inv values cfg k n p]: [p] holds [values], has configuration [cfg], [k]
      layers and [n] indexed elements *)
  Variables (Inv : list pyval -> config -> nat -> nat -> py_builder -> Prop) (fits sav : list pyval -> Prop).
  Local Notation cfg_of o := (config_from L (options_config o)).
  Definition sessions_go : Prop := forall values cfg k n p cs,
    Inv values cfg k n p -> fits (values ++ appended cs) -> length (values ++ appended cs) < fuel ->
    (N.of_nat (length (values ++ appended cs)) < 4294967295)%N ->
    match py_session Release fuel usort p cs with
    | Ok p' => exists k' n', Inv (values ++ appended cs) cfg k' n' p' /\
        (forall K, SPipeline.full_at cfg K (length (values ++ appended cs)) -> k <= K + 1 -> k' <= K + 1) /\
        (finished cs -> n' = length (values ++ appended cs))
    | Fail e => Forall complete cs -> e = OutOfFuel
    end.
  Definition opening_goes : Prop := forall values cfg k n p o (keep : bool),
    Inv values cfg k n p -> fits values -> sav values -> length values < fuel -> (N.of_nat (length values) < 4294967295)%N ->
    k_nn cfg <= 254 -> k <= 25 -> options_ok L o ->
    exists index p', pb_save_index Release p = Ok index /\
      pb_new Release fuel usort json L element_type (Some (pb_save_elements p)) embeddings words
        (if keep then Some index else None) o = Ok p' /\
      Inv values (cfg_of o) (if keep then k else 0) (if keep then n else 0) p'.
  Hypothesis Hses : sessions_go.
  Hypothesis Hopen : opening_goes.
  Hypothesis Hpre : forall l l', fits (l ++ l') -> fits l.
  Hypothesis Hsav : forall l l', sav l -> sav (l ++ l').

  Lemma few_less o N N' : few_layers L o N -> N' <= N -> few_layers L o N'.
  Proof using. intros H Hl n Hn. apply H. lia. Qed.

  Lemma lives_go sts : forall values cfg k n p tot, Inv values cfg k n p -> k_nn cfg <= 254 -> k <= 25 -> sav values ->
    tot = values ++ concat (map (fun st => appended (st_calls st)) sts) ->
    fits tot -> length tot < fuel -> (N.of_nat (length tot) < 4294967295)%N -> Forall (stage_ok L (length tot)) sts ->
    match py_lives Release fuel usort json L element_type embeddings words p sts with
    | Ok p' => exists cfg' k' n', Inv tot cfg' k' n' p' /\ k_nn cfg' <= 254 /\ k' <= 25 /\
        (sts = [] -> n' = n) /\ (sts <> [] -> finished (last_session [] sts) -> n' = length tot)
    | Fail e => Forall (fun st => Forall complete (st_calls st)) sts -> e = OutOfFuel
    end.
  Proof using Hses Hopen Hpre Hsav.
    induction sts as [|st sts IH]; intros values cfg k n p tot HI Hnn Hk Hs Et Hfit Hfu Hn Hst.
    - cbn [map concat] in Et. rewrite app_nil_r in Et. subst tot. cbn [py_lives]. exists cfg, k, n. repeat split; auto. congruence.
    - cbn [map concat py_lives] in *. rewrite app_assoc in Et. inversion Hst as [|? ? [Ho Hfew] Hst']; subst.
      set (v1 := values ++ appended (st_calls st)) in *. set (rest := concat _) in *.
      assert (Hf1 : fits v1) by (eapply Hpre; exact Hfit). assert (Hf0 : fits values) by (eapply Hpre; exact Hf1).
      assert (Hle : length v1 <= length (v1 ++ rest)) by (rewrite app_length; lia).
      assert (Hle0 : length values <= length v1) by (unfold v1; rewrite app_length; lia).
      destruct (Hopen values cfg k n p (st_options st) (st_keep_index st) HI Hf0 Hs ltac:(lia) ltac:(lia) Hnn Hk Ho) as (index & p1 & Ei & En & HI1).
      unfold py_next. rewrite Ei. cbn [obind]. rewrite En. cbn [obind].
      assert (Hv1 : length v1 < fuel) by lia. assert (Hv2 : (N.of_nat (length v1) < 4294967295)%N) by lia.
      pose proof (Hses _ _ _ _ p1 (st_calls st) HI1 Hf1 Hv1 Hv2) as H1.
      destruct (py_session Release fuel usort p1 (st_calls st)) as [p2|e]; [|intros HC; inversion HC; subst; auto]. cbn [obind].
      destruct H1 as (k2 & n2 & HI2 & Hk2 & Hn2).
      assert (Hfull : SPipeline.full_at (cfg_of (st_options st)) 24 (length v1)).
      { apply options_full; [exact Ho|eapply few_less; eauto|fold v1; lia]. }
      assert (Hk3 : k2 <= 25) by (apply (Hk2 24 Hfull); destruct (st_keep_index st); lia).
      specialize (IH v1 _ k2 n2 p2 (v1 ++ rest) HI2 ltac:(now apply options_nn) Hk3 ltac:(now apply Hsav) eq_refl Hfit Hfu Hn Hst').
      destruct (py_lives Release fuel usort json L element_type embeddings words p2 sts) as [p'|e]; [|intros HC; inversion HC; auto].
      destruct IH as (cfg' & k' & n' & HI' & H1 & H2 & H3 & H4). exists cfg', k', n'. split; [exact HI'|]. split; [exact H1|]. split; [exact H2|].
      split; [discriminate|]. intros _ Hfin. destruct sts as [|st2 sts].
      + rewrite (H3 eq_refl). change (finished (st_calls st)) in Hfin. rewrite (Hn2 Hfin). unfold rest. cbn. now rewrite app_nil_r.
      + apply H4; [discriminate|exact Hfin].
  Qed.
End Lives.
