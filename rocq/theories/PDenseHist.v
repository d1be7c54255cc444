(** * Histories of builders over vector collections *)
From Coq Require Import ZArith Reals Lia.
From Flocq Require Import Core IEEE754.BinarySingleNaN.
From Verif Require Import Base BaseFacts MSliceVec SSliceVec PFixed MIndexIo MSearch MBuild SBuild MReorder MFloat MAngular SAngular.
From Verif Require Import PDense PBuilder PHistory.
Close Scope R_scope. Close Scope Z_scope.
Open Scope nat_scope.
Set Implicit Arguments.

Section Hist.
  Context {T : Type} (dist : list T -> list T -> outcome Z) (m : mode) (V : benv (fw T) (list T)).
  Hypothesis HV : e_ops V = vectors_ops m dist.
  Hypothesis Hrel : e_mode V = Release.
  Hypothesis Hsort : sorts_by_dist (e_sort V).
  Variables (w : nat) (good : list T -> Prop).
  Hypothesis Hw : 0 < w.
  Hypothesis Hgood : forall x y, length x = w -> length y = w -> good x -> good y -> exists d, dist x y = Ok d.

  Lemma holds_len (rows : list (list T)) (v : fw T) : holds w rows v -> fw_len v = length rows.
  Proof using Hw. intros [H|[-> ->]]; [now apply (fw_is_len (w := w))|reflexivity]. Qed.

  Lemma holds_cont (rows : list (list T)) (v : fw T) : holds w rows v -> Forall good rows -> cont_ok (e_ops V) v.
  Proof using HV Hw Hgood.
    intros H Hg. rewrite HV. destruct H as [H|[-> ->]].
    - eapply dense_cont; eauto. intros x y Hx Hy. destruct H as (_ & _ & F). rewrite Forall_forall in F, Hg. apply Hgood; auto.
    - constructor; cbn; intros; lia.
  Qed.
  Lemma holds_usable (rows : list (list T)) (v : fw T) : holds w rows v -> Forall good rows -> length rows < e_fuel V -> usable V v.
  Proof using HV Hw Hgood.
    intros H Hg Hf. constructor; [eapply holds_cont; eauto|]. rewrite HV. cbn. now rewrite (holds_len H).
  Qed.
  Lemma holds_push (rows : list (list T)) (v : fw T) x : holds w rows v -> length x = w ->
    exists v', fw_push v x = Ok v' /\ push_vec v x = Ok v' /\ holds w (rows ++ [x]) v'.
  Proof using Hw.
    intros H Hx. destruct H as [H|[-> ->]].
    - exists (mkFw (concat (rows ++ [x])) w). assert (E : fw_push v x = Ok (mkFw (concat (rows ++ [x])) w)).
      { rewrite (fw_is_push x Hw H), Hx, Nat.eqb_refl. reflexivity. }
      split; [exact E|]. destruct H as (E1 & E2 & F). split.
      + unfold push_vec. rewrite E1. replace (0 <? length x) with true by (symmetry; apply Nat.ltb_lt; lia).
        replace (0 <? w) with true by (symmetry; apply Nat.ltb_lt; lia). exact E.
      + left. split; [reflexivity|]. split; [reflexivity|]. apply Forall_app. auto.
    - exists (mkFw x w). assert (E : fw_push fw_new x = Ok (mkFw x w)).
      { unfold fw_push, fw_new, fw_with_width. cbn [fwidth fdata Nat.eqb app]. rewrite Nat.eqb_refl, Hx. reflexivity. }
      split; [|split].
      + exact E.
      + unfold push_vec. replace (0 <? length x) with true by (symmetry; apply Nat.ltb_lt; lia). exact E.
      + left. split; [reflexivity|]. split; [cbn; now rewrite app_nil_r|]. repeat constructor; auto.
  Qed.

  Definition inv (rows : list (list T)) (b : builder (fw T)) : Prop :=
    reached V (@push_vec T) b /\ holds w rows (b_elems b) /\ Forall good rows /\ builder_len b <= length rows.

  Lemma plaw : push_law (e_ops V) (@push_vec T).
  Proof using HV. rewrite HV. apply push_vec_law. Qed.

  Lemma inv_hist cs : forall rows b, inv rows b -> Forall (good_call w good) cs ->
    length rows + length (pushed cs) < e_fuel V -> (N.of_nat (length rows + length (pushed cs)) < 4294967295)%N ->
    match history V (@fw_push T) b cs with
    | Ok b' => inv (rows ++ pushed cs) b'
    | Fail e => e = OutOfFuel
    end.
  Proof using HV Hw Hgood Hsort Hrel.
    induction cs as [|c cs IH]; intros rows b HI Hc Hf Hn.
    - cbn. now rewrite app_nil_r.
    - inversion Hc as [|? ? Hc1 Hc2]; subst. destruct HI as (Hr & Hh & Hg & Hl). pose proof (holds_len Hh) as HL.
      destruct c as [x| |fuel sched]; cbn [good_call] in Hc1; [|contradiction|]; cbn [history do_call].
      + destruct Hc1 as [Hx Gx]. cbn [pushed length] in *. destruct (holds_push x Hh Hx) as (v' & E1 & E2 & Hh').
        assert (Ep : builder_push V (@push_vec T) b x = Ok (mkBuilder v' (b_layers b) (b_config b))).
        { unfold builder_push. rewrite HV. cbn [vectors_ops c_len]. rewrite HL.
          assert (H : (N.of_nat (length rows) <? UNUSED - 1)%N = true) by (apply N.ltb_lt; unfold UNUSED; lia).
          rewrite H. cbn [oassert obind]. rewrite E2. reflexivity. }
        replace (builder_push V (@fw_push T) b x) with (builder_push V (@push_vec T) b x) by (unfold builder_push; now rewrite E1, E2).
        rewrite Ep. cbn [obind]. replace (rows ++ x :: pushed cs) with ((rows ++ [x]) ++ pushed cs) by (rewrite <- app_assoc; reflexivity).
        assert (Hg' : Forall good (rows ++ [x])) by (apply Forall_app; auto).
        assert (Hl' : length (rows ++ [x]) = Datatypes.S (length rows)) by (rewrite app_length; cbn; lia).
        apply IH; auto; rewrite ?Hl'; try lia.
        split; [|split; [exact Hh'|split; [exact Hg'|]]].
        * eapply r_push; [exact Hr|exact Ep|]. cbn [b_elems]. eapply holds_usable; eauto. lia.
        * unfold builder_len in *. cbn [b_layers]. lia.
      + cbn [pushed] in *. unfold build. set (num := builder_num_elements V b).
        assert (En : num = length rows) by (unfold num, builder_num_elements; rewrite HV; exact HL).
        destruct (Nat.eq_dec num 0) as [E0|E0].
        { rewrite E0. cbn [build_partial Nat.eqb obind]. apply IH; auto. split; auto. }
        destruct (reached_fine Hsort plaw Hr) as [HB _].
        assert (Hle : builder_len b <= num <= c_len (e_ops V) (b_elems b)) by (rewrite HV; cbn; lia).
        destruct (@build_partial_ok _ _ V Hsort true fuel b num sched HB Hle ltac:(lia)) as (P1 & P2 & _).
        destruct (build_partial V fuel b num sched) as [b'|e] eqn:Eb; cbn [obind].
        * destruct (P1 b' eq_refl) as (_ & He & _ & Hnum & _).
          apply IH; auto. split; [|rewrite He; split; [auto|split; [auto|lia]]].
          destruct (@build_reached _ _ _ V _ Hsort plaw _ fuel b num sched b' Hr Eb) as [H _]; auto.
        * apply P2; auto. intros i p. now left.
  Qed.

  Lemma hist_new cfg rows v cs : cfg_ok cfg -> holds w rows v -> Forall good rows -> Forall (good_call w good) cs ->
    length rows + length (pushed cs) < e_fuel V -> (N.of_nat (length rows + length (pushed cs)) < 4294967295)%N ->
    exists b0, builder_new V cfg v = Ok b0 /\
      match history V (@fw_push T) b0 cs with
      | Ok b => holds w (rows ++ pushed cs) (b_elems b)
      | Fail e => e = OutOfFuel
      end.
  Proof using HV Hw Hgood Hsort Hrel.
    intros Hcfg Hh Hg Hc Hf Hn. exists (mkBuilder v [] cfg).
    assert (E0 : builder_new V cfg v = Ok (mkBuilder v [] cfg)).
    { unfold builder_new. rewrite HV. cbn [vectors_ops c_len]. rewrite (holds_len Hh).
      replace (N.of_nat (length rows) <? UNUSED)%N with true; [reflexivity|]. symmetry. apply N.ltb_lt. unfold UNUSED. lia. }
    split; [exact E0|]. pose proof (@inv_hist cs rows (mkBuilder v [] cfg)) as H.
    destruct (history V (@fw_push T) (mkBuilder v [] cfg) cs) as [b|e]; apply H; auto;
      (split; [eapply r_new; [exact Hcfg| |exact E0]; eapply holds_usable; eauto; lia|split; [exact Hh|split; [exact Hg|cbn; lia]]]).
  Qed.
End Hist.
