(** * Proofs: how many layers a concurrent builder can get, and how wide they are *)
From Verif Require Import Base BaseFacts MSliceVec SSliceVec PFixed MIndexIo MSearch PHeap PSearch MBuild SBuild PSelect PRow PSLite PBuildInv PBuildRun PBuildLayer PBuildFair PBuilder PHistory PBuildAny MLocks MRw SRw PRwSeq PRwLock PRwIds PRwConc PRwTop PRwSingle PRwLive.
Set Implicit Arguments.
Unset Strict Implicit.

Section Count.
  Context {S E I : Type} (V : benv S E) (cpush : S -> I -> outcome S) (cfg : config) (max : nat).
  Context (W0 : rw S) (P : rpolicy S E I) (progs : list (list (rcall E I))).
  Local Notation C := (e_ops V).
  Local Notation n_of W := (c_len C (w_elems W)).
  Local Notation rstep := (rsys_step V cpush cfg max P).
  Local Notation rr := (rrun V cpush cfg max P).
  Local Notation start := (rstart W0 progs).
  Hypothesis Hse : session V cpush cfg max W0 P progs.
  Context (L : nat).
  Hypothesis HL : k_ideal cfg max L = max.
  Hypothesis H0 : k_ideal cfg max (length (w_prev W0)) <= length (w_cur W0).

  (** threads between the test for [max_elements] and the new layer *)
  Definition armed (t : thread S E I) : nat :=
    match t_pc t with
    | IGuard _ _ _ | IElems _ _ _ | ILayers _ _ _ | IRoom _ _ _ | INew _ _ _ => 1
    | _ => 0
    end.
  Definition most : nat := Nat.max L (length (w_prev W0)).
  Definition counted (y : rsys S E I) : Prop :=
    (n_of (fst y) < max /\ length (w_prev (fst y)) <= most) \/
    (max <= n_of (fst y) /\ length (w_prev (fst y)) + sum_nat (map armed (snd y)) <= most + (length progs - 1)).

  Lemma armed_le ts : sum_nat (map armed ts) <= length ts.
  Proof. induction ts as [|t ts IH]; cbn; auto. unfold sum_nat in IH. unfold armed at 1. destruct (t_pc t); lia. Qed.

  Lemma armed_lt ts n i t : nth_error ts i = Some t -> armed t = 0 -> length ts = n -> Datatypes.S (sum_nat (map armed ts)) <= n.
  Proof.
    intros Hi Ht <-. revert i Hi. induction ts as [|u ts IH]; intros [|i] Hi; try discriminate.
    - injection Hi as ->. pose proof (armed_le ts) as Hle. cbn [map sum_nat fold_right length]. unfold sum_nat in Hle. lia.
    - cbn [nth_error] in Hi. specialize (IH _ Hi). cbn [map sum_nat fold_right length]. unfold sum_nat in IH.
      assert (armed u <= 1) by (unfold armed; destruct (t_pc u); lia). lia.
  Qed.

  Lemma run_threads h y : rr [] h start = Ok y -> length (snd y) = length progs.
  Proof.
    revert y. induction h as [|m h IH] using rev_ind; intros y Hr.
    - cbn in Hr. injection Hr as <-. unfold rstart. cbn [snd]. apply map_length.
    - rewrite rrun_app in Hr. destruct (rr [] h start) as [y1|] eqn:E1; [|discriminate]. cbn [obind rrun app] in Hr.
      destruct (rstep h y1 m) as [y2|] eqn:E2; [|discriminate]. cbn [obind] in Hr. injection Hr as <-.
      unfold rsys_step in E2. destruct (nth_error (snd y1) (fst m)); [|injection E2 as <-; auto].
      destruct (thread_step _ _ _ _ _ _ _ _) as [[W' t']|]; [|discriminate]. cbn [obind fst snd] in E2. injection E2 as <-. cbn [snd].
      rewrite set_nth_length. auto.
  Qed.

  Lemma count_step h y m y' : rr [] h start = Ok y -> counted y -> rstep h y m = Ok y' -> counted y'.
  Proof.
    intros Hr Hb E2. pose proof (run_threads Hr) as Hlen. assert (Hbig : big cfg max (fst y)) by (eapply big_run; eauto).
    destruct Hse as [S1 S2 S3 S4 S5 S6 S7]. pose proof (ww_width S4) as [Hnn Hw]. pose proof (ww_ms S4) as Hms.
    pose proof (run_conc S1 S2 S3 S5 Hnn Hms S6 S7 (wf_start cpush S4 S5) Hr) as HC.
    destruct (ci_shared HC) as (hist & R & rows & k & Hsh & Hth). destruct y as [W ts]. unfold rsys_step in E2. cbn [fst snd] in *.
    destruct (nth_error ts (fst m)) as [t|] eqn:Et; [|injection E2 as <-; auto].
    pose proof (to_pc (Hth _ _ Et)) as Hl. revert E2 Hl. generalize (P h (W, ts) (fst m)) as ok. intros ok E2 Hl.
    destruct (thread_step V cpush cfg max W t ok (snd m)) as [[W' t']|] eqn:E3; [|discriminate]. cbn [obind fst snd] in E2. injection E2 as <-.
    assert (Hs : sum_nat (map armed (set_nth ts (fst m) t')) + armed t = sum_nat (map armed ts) + armed t').
    { rewrite map_set_nth. apply sum_set_nth. erewrite map_nth_error; eauto. }
    pose proof (armed_le (set_nth ts (fst m) t')) as Hal. rewrite set_nth_length in Hal.
    (* the data is the same and the thread is not newly past the test, or all is full *)
    assert (Hsame : W' = W -> (armed t' <= armed t \/ n_of W < max) -> counted (W', set_nth ts (fst m) t')).
    { intros -> Ha. unfold counted in *. cbn [fst snd] in *. destruct Hb as [[Hb1 Hb2]|[Hb1 Hb2]]; [left; auto|]. destruct Ha as [Ha|Ha]; [right; split; lia|lia]. }
    destruct t as [p ba td lg]. unfold thread_step in E3. cbn [t_pc t_batch t_todo t_log] in *.
    destruct p; cbn [local] in Hl; inv_step E3; try (injection E3 as <- <-); try (apply Hsame; [reflexivity|]; unfold armed; cbn [t_pc]; try (left; lia)).
    all: try (destruct ok; injection E3 as <- <-; apply Hsame; [reflexivity|]; left; unfold armed; cbn [t_pc]; lia).
    - (* a call begins *)
      left. match goal with r : rcall E I |- _ => destruct r end; cbn [begin_call]; lia.
    - (* the test *)
      destruct (Nat.leb_spec max (n_of W)); [left; lia|right; lia].
    - left. destruct (layer_full V W); lia.
    - (* a new layer *)
      destruct Hl as (_ & _ & Hf). destruct (new_layer_ok (V := V) S5 Hnn Hms Hsh Hf) as (W2 & k2 & E4 & H2 & He & Hlp & Hc). rewrite Ex in E4. injection E4 as <-.
      unfold armed in Hs at 2 4. cbn [t_pc] in Hs.
      assert (Hlt : fst m < length ts) by (apply nth_error_Some; congruence).
      assert (Hal' : sum_nat (map armed ts) <= length ts) by apply armed_le.
      unfold counted in *. cbn [fst snd] in *. rewrite He, Hlp. destruct Hb as [[Hb1 Hb2]|[Hb1 Hb2]]; [|right; lia].
      left. split; [exact Hb1|].
      destruct (Nat.lt_ge_cases (length (w_prev W)) most) as [Hm|Hm]; [lia|exfalso].
      unfold layer_full in Hf. apply Nat.leb_le in Hf.
      assert (HLe : L <= length (w_prev W)) by (unfold most in Hm; lia).
      pose proof (so_mono S5 _ _ HLe) as Hmono. unfold big in Hbig. cbn [fst] in Hbig. lia.
    - (* a push *)
      match goal with Ex1 : cpush _ _ = Ok _ |- _ => destruct (S2 _ _ _ Ex1) as [Hp _] end. assert (Hz : armed (mkThread (IPush l ids rest acc d) ba td lg) = 0) by reflexivity.
      assert (Hun : Datatypes.S (sum_nat (map armed (set_nth ts (fst m) (mkThread (IPush l ids rest acc d) ba td lg)))) <= length ts).
      { apply armed_lt with (i := fst m) (t := mkThread (IPush l ids rest acc d) ba td lg); [|exact Hz|apply set_nth_length].
        apply nth_error_set_nth_eq. apply nth_error_Some. congruence. }
      unfold armed in Hs at 2 4. cbn [t_pc] in Hs. unfold counted in *. cbn [fst snd w_prev w_elems] in *. rewrite Hp.
      destruct Hb as [[Hb1 Hb2]|[Hb1 Hb2]]; [|right; lia].
      destruct (Nat.lt_ge_cases (n_of W + 1) max) as [Hm|Hm]; [left; lia|right; lia].
    - left. destruct rest; lia.
    - (* a step of a task *)
      unfold armed in Hs at 2 4. cbn [t_pc] in Hs. unfold counted in *. cbn [fst snd w_prev w_elems] in *.
      destruct Hb as [[Hb1 Hb2]|[Hb1 Hb2]]; [left; auto|right; lia].
  Qed.

  Lemma counted_run h y : rr [] h start = Ok y -> counted y.
  Proof.
    revert y. induction h as [|m h IH] using rev_ind; intros y Hr.
    - cbn in Hr. injection Hr as <-. unfold counted. cbn [rstart fst snd]. rewrite map_map. unfold armed. cbn [t_pc].
      assert (Hz : sum_nat (map (fun _ : list (rcall E I) => 0) progs) = 0) by (clear; induction progs; cbn; auto).
      rewrite Hz. unfold most. destruct (Nat.lt_ge_cases (n_of W0) max); [left|right]; lia.
    - pose proof Hr as Hr'. rewrite rrun_app in Hr. destruct (rr [] h start) as [y1|] eqn:E1; [|discriminate]. cbn [obind rrun app] in Hr.
      destruct (rstep h y1 m) as [y2|] eqn:E2; [|discriminate]. cbn [obind] in Hr. injection Hr as <-. exact (count_step E1 (IH _ eq_refl) E2).
  Qed.

  Lemma layers_bound h y : rr [] h start = Ok y -> length (w_prev (fst y)) <= Nat.max L (length (w_prev W0)) + (length progs - 1).
  Proof. intros Hr. change (Nat.max L (length (w_prev W0))) with most. destruct (counted_run Hr) as [[_ H]|[_ H]]; lia. Qed.

  (** ** Widths *)
  Lemma widths_run h y : rr [] h start = Ok y ->
    forall l, In l (w_prev (fst y)) -> In l (w_prev W0) \/ fwidth l = k_nn cfg.
  Proof.
    revert y. induction h as [|m h IH] using rev_ind; intros y Hr.
    - cbn in Hr. injection Hr as <-. auto.
    - rewrite rrun_app in Hr. destruct (rr [] h start) as [y1|] eqn:E1; [|discriminate]. cbn [obind rrun app] in Hr.
      destruct (rstep h y1 m) as [y2|] eqn:E2; [|discriminate]. cbn [obind] in Hr. injection Hr as <-. specialize (IH _ eq_refl).
      destruct Hse as [S1 S2 S3 S4 S5 S6 S7]. pose proof (ww_width S4) as [Hnn Hw]. pose proof (ww_ms S4) as Hms.
      pose proof (run_conc S1 S2 S3 S5 Hnn Hms S6 S7 (wf_start cpush S4 S5) E1) as HC.
      destruct (ci_shared HC) as (hist & R & rows & k & Hsh & Hth). destruct y1 as [W ts]. unfold rsys_step in E2. cbn [fst snd] in *.
      destruct (nth_error ts (fst m)) as [t|] eqn:Et; [|injection E2 as <-; auto].
      destruct (thread_step V cpush cfg max W t (P h (W, ts) (fst m)) (snd m)) as [[W' t']|] eqn:E3; [|discriminate]. cbn [obind fst snd] in E2. injection E2 as <-. cbn [fst].
      destruct t as [p ba td lg]. unfold thread_step in E3. cbn [t_pc t_batch t_todo t_log] in *.
      destruct p; inv_step E3; try (injection E3 as <- <-); auto.
      all: try (destruct (P h (W, ts) (fst m)); injection E3 as <- <-; auto).
      unfold new_layer in Ex. erewrite layer_ok_ in Ex by eauto. cbn [obind] in Ex.
      destruct (rows_of_layer _) as [rs|] in Ex; [|discriminate]. cbn [obind] in Ex. injection Ex as <-. cbn [w_prev].
      intros l Hl. apply in_app_or in Hl as [Hl|[<-|[]]]; auto.
  Qed.
End Count.
