(** * Proofs: saving a concurrent builder to files neither panics nor goes on for ever *)
From Verif Require Import Base BaseFacts Bytes PBytes MSliceVec SSliceVec PFixed MSetVec MIndexIo SIndexIo PIndexIo MSearch MBuild SBuild PBuildRun MLocks MRw SRw PRwLock PRwConc PRwTop PRwLive PRwCount MRwFiles SRwFiles PRwFiles PRwFiles2 TMeta TRw.
Set Implicit Arguments.
Unset Strict Implicit.

Lemma saved_widths {S E} (V : benv S E) cfg s rows prev ls w : saved_layers V cfg s rows prev = Ok ls ->
  k_nn cfg <= w -> Forall (fun l => fwidth l <= w) prev -> length ls <= Datatypes.S (length prev) /\ Forall (fun l => fwidth l <= w) ls.
Proof.
  intros H Hn Hp. unfold saved_layers in H. destruct (fw_with_data (concat rows) (k_nn cfg)) as [last|] eqn:E1; [|discriminate]. cbn [obind] in H.
  assert (W1 : forall A (d : list A) k v, fw_with_data d k = Ok v -> fwidth v = k).
  { intros A d k v H1. unfold fw_with_data, oassert in H1. destruct (0 <? k); [|discriminate]. cbn [obind] in H1. destruct (length d mod k =? 0); [|discriminate].
    cbn [obind] in H1. injection H1 as <-. reflexivity. }
  destruct (0 <? c_len (e_ops V) s).
  2:{ injection H as <-. cbn. split; [lia|constructor]. }
  destruct (fw_subslice last 0 (c_len (e_ops V) s)) as [l|] eqn:El; [|discriminate]. cbn [obind] in H. injection H as <-.
  rewrite app_length. cbn [length]. split; [lia|]. apply Forall_app. split; [auto|]. constructor; [|constructor].
  unfold fw_subslice in El. destruct (slice _ _ _); [|discriminate]. cbn [obind] in El. rewrite (W1 _ _ _ _ El), (W1 _ _ _ _ E1). exact Hn.
Qed.

(** a well-formed index of at most 34 layers can be saved *)
Lemma write_ops_ok m nn n ls p : layers_wf nn n ls -> (N.of_nat n <= UNUSED)%N -> Forall (fun l => fwidth l <= 254) ls -> length ls <= 34 ->
  exists ops, write_index_ops m (FixWidth ls) p = Ok ops.
Proof.
  intros Hwf Hn Hw Hl. destruct (@layers_wf_index m _ _ _ Hwf Hn Hw) as (G & HG).
  assert (HF : Forall (fun g => 0 < length g <= n) G).
  { destruct HG as [_ HG]. destruct Hwf as [Hwf _]. clear -HG Hwf. induction HG as [|l g ls G (w & Hw0 & His & _) _ IH]; constructor.
    - inversion Hwf as [|? ? (_ & _ & Hlen & _)]; subst. rewrite (fw_is_len Hw0 His), map_length in Hlen. exact Hlen.
    - apply IH. inversion Hwf; auto. }
  assert (HLG : length G = length ls) by (destruct HG as [_ HG]; clear -HG; induction HG; cbn; congruence).
  destruct (C07_fits_up_to_34_layers_partial m (FixWidth ls) G (mkCursor [] p) HG) as (c' & Hc).
  - destruct G as [|g G]; [discriminate|]. intros Hx.
    assert (Hin : In (last (g :: G) [[]]) (g :: G)) by (rewrite (app_removelast_last [[]] (l := g :: G)) at 2 by discriminate; apply in_or_app; right; left; reflexivity).
    rewrite Hx in Hin. rewrite Forall_forall in HF. specialize (HF _ Hin). cbn in HF. lia.
  - lia.
  - eapply Forall_impl; [|exact HF]. intros g Hg. cbn beta in Hg. assert (UNUSED = 4294967295%N) by reflexivity. lia.
  - unfold write_index in Hc. cbn [cpos] in Hc. destruct (write_index_ops m (FixWidth ls) p) as [ops|]; [eauto|discriminate].
Qed.

Section Ends.
  Context {S E I : Type} (V : benv S E) (cpush : S -> I -> outcome S) (cfg : config) (max : nat).
  Context (ewrite : S -> list N) (B : buffering).
  Context (W0 : rw S) (P : rpolicy S E I) (progs : list (list (rcall E I) * list (option target))) (d0 : fdisk).
  Local Notation C := (e_ops V).
  Local Notation fs := (fstep V cpush cfg max ewrite B).
  Local Notation fr := (frun V cpush cfg max ewrite B).
  Local Notation bstep := (rsys_step V cpush cfg max).
  Local Notation rr := (rrun V cpush cfg max).
  Local Notation start := (rstart W0 (map fst progs)).
  Local Notation fstart0 := (fstart d0 W0 progs : fsys S E I).
  Context (L : nat).
  Hypothesis Hse : session V cpush cfg max W0 P (map fst progs).
  Hypothesis HL : k_ideal cfg max L = max.
  Hypothesis H0 : k_ideal cfg max (length (w_prev W0)) <= length (w_cur W0).
  Hypothesis Hmode : e_mode V = Release.
  Hypothesis Hcount : Nat.max L (length (w_prev W0)) + (length progs - 1) < 34.
  Hypothesis Hnn : k_nn cfg <= 254.
  Hypothesis Hw0 : Forall (fun l => fwidth l <= 254) (w_prev W0).

  Lemma replay_session D : session V cpush cfg max W0 (replay D) (map fst progs).
  Proof. destruct Hse. constructor; auto. apply replay_safe. Qed.

  Lemma Hlocks : safe_locks P.
  Proof. destruct Hse; auto. Qed.
  Lemma Helems : elems_work V cpush max (w_elems W0).
  Proof. destruct Hse; auto. Qed.

  (** ** Which threads are in a save *)
  Record sinv (X : fsys S E I) : Prop := mkSinv {
    si_len : length (fs_ctl X) = length (snd (fs_base X));
    si_none : forall i c, nth_error (fs_ctl X) i = Some c -> f_tgt c = None -> f_pending c = [] /\ f_layers c = None;
    si_in : forall i t c g, nth_error (snd (fs_base X)) i = Some t -> nth_error (fs_ctl X) i = Some c -> f_tgt c = Some g -> in_write (t_pc t) = true
  }.

  Lemma sinv_start : sinv fstart0.
  Proof.
    constructor; unfold fstart, fs_ctl, fs_base, rstart; cbn [fst snd].
    - now rewrite !map_length.
    - intros i c Hc Hg. apply nth_error_In, in_map_iff in Hc as (p & <- & _). cbn. auto.
    - intros i t c g _ Hc Hg. apply nth_error_In, in_map_iff in Hc as (p & <- & _). discriminate.
  Qed.

  Lemma sinv_step Q h X m X' : sinv X -> fs Q h X m = Ok X' -> sinv X'.
  Proof.
    intros [I1 I2 I3] Hs. destruct X as [[d y] cs]. unfold fs_base, fs_ctl in *. cbn [fst snd] in *.
    apply fstep_cases in Hs as [->|(c & t & Hc & Ht & Hs)]; [constructor; auto|].
    assert (Hlt : fst m < length cs) by (apply nth_error_Some; congruence).
    assert (Hsame : forall d' c' g, f_tgt c = Some g -> f_tgt c' = f_tgt c -> sinv (d', y, set_nth cs (fst m) c')).
    { intros d' c' g Hg Hg'. constructor; unfold fs_base, fs_ctl; cbn [fst snd].
      - now rewrite set_nth_length.
      - intros i ci Hi. destruct (Nat.eq_dec (fst m) i) as [<-|Hne].
        + rewrite nth_error_set_nth_eq in Hi by auto. injection Hi as <-. congruence.
        + rewrite nth_error_set_nth_neq in Hi by auto. eauto.
      - intros i ti ci gi Hti Hi Hgi. destruct (Nat.eq_dec (fst m) i) as [<-|Hne].
        + rewrite nth_error_set_nth_eq in Hi by auto. injection Hi as <-. eapply I3; eauto.
        + rewrite nth_error_set_nth_neq in Hi by auto. eauto. }
    destruct Hs as [(o & rest & tg & d' & c' & Hp & Hg & Ho & ->)|(Hp & [(s0 & rows & c' & Hdue & Hb & ->)|(y' & Hdue & Hb & ->)])].
    - apply fop_tgt in Ho as (Hg' & _). eapply Hsame; eauto.
    - destruct (index_due_inv Hdue) as (k & _ & (g & Hg) & _ & _). unfold begin_index in Hb.
      destruct (saved_layers _ _ _ _ _); [|discriminate]. cbn [obind] in Hb. destruct (write_index_ops _ _ _); [|discriminate]. cbn [obind] in Hb. injection Hb as <-.
      eapply Hsame; eauto.
    - destruct (bstep_cases Hb Ht) as (t' & Est & Ets & Et'). rewrite Et'. pose proof (step_write Est) as Hsw. constructor; unfold fs_base, fs_ctl; cbn [fst snd].
      + rewrite Ets, !set_nth_length. exact I1.
      + intros i ci Hi. destruct (Nat.eq_dec (fst m) i) as [<-|Hne].
        * rewrite nth_error_set_nth_eq in Hi by auto. injection Hi as <-. apply ctl_none. intros Hn. eapply I2; eauto.
        * rewrite nth_error_set_nth_neq in Hi by auto. eauto.
      + intros i ti ci gi Hti Hi Hgi. rewrite Ets in Hti. destruct (Nat.eq_dec (fst m) i) as [<-|Hne].
        2:{ rewrite nth_error_set_nth_neq in Hi by auto. rewrite nth_error_set_nth_neq in Hti by auto. eauto. }
        rewrite nth_error_set_nth_eq in Hi by auto. injection Hi as <-. rewrite nth_error_set_nth_eq in Hti by (apply nth_error_Some; congruence). injection Hti as <-.
        assert (Hin : forall g, f_tgt c = Some g -> in_write (t_pc t) = true) by (intros g Hg; eapply I3; eauto).
        destruct (t_pc t); cbn [ctl_step] in Hgi;
          try (specialize (Hin _ Hgi); discriminate Hin).
        * destruct (t_pc t'); cbn [f_tgt] in Hgi; try (specialize (Hin _ Hgi); discriminate Hin); reflexivity.
        * destruct Hsw as [-> | ->]; reflexivity.
        * destruct Hsw as [-> | ->]; reflexivity.
        * destruct Hsw as [-> | ->]; reflexivity.
        * rewrite Hsw. reflexivity.
        * destruct Hsw as [(_ & row & ->)|(_ & Hsw & _)]; [reflexivity|]. rewrite Hsw in Hgi. discriminate Hgi.
  Qed.

  Lemma sinv_run sched : forall h X X', sinv X -> fr P h sched X = Ok X' -> sinv X'.
  Proof.
    induction sched as [|m sched IH]; intros h X X' HI; cbn [frun].
    - intros H. injection H as <-. exact HI.
    - destruct (fs P h X m) as [X1|] eqn:E1; [|discriminate]. cbn [obind]. intros H. eapply IH; [eapply sinv_step; eauto|exact H].
  Qed.

  (** ** No panic *)
  Lemma fstep_ok sched X m : fr P [] sched fstart0 = Ok X -> exists X', fs P sched X m = Ok X'.
  Proof.
    intros HX. destruct (base_run Hlocks HX) as (D & sched' & HD & Hr).
    change (fs_base fstart0) with start in Hr. destruct X as [[d y] cs]. unfold fs_base in Hr. cbn [fst snd] in Hr.
    unfold fstep. destruct (nth_error cs (fst m)) as [c|] eqn:Ec; [|eauto]. destruct (nth_error (snd y) (fst m)) as [t|] eqn:Et; [|eauto].
    assert (Hbase : forall k, exists y', bstep P sched y (fst m, k) = Ok y').
    { intros k. destruct (C43_no_panic _ _ _ V cpush cfg max W0 (replay (D ++ [P sched y (fst m)])) (map fst progs) (sched' ++ [(fst m, k)]) (replay_session _) Hmode) as (y' & Hy').
      rewrite (rrun_snoc V cpush cfg max) in Hy'. rewrite rrun_replay in Hy' by (cbn [length]; lia). rewrite Hr in Hy'. cbn [obind app] in Hy'.
      exists y'. rewrite <- Hy'. apply bstep_same. cbn [fst]. intros t0 Ht0 Hwt. unfold replay. rewrite app_nth2 by lia. rewrite HD, Nat.sub_diag. cbn [nth].
      destruct (wants (t_pc t0)) as [[l a]|] eqn:Ew; [|congruence]. destruct (P sched y (fst m)) eqn:EP; [|reflexivity]. cbn [andb]. symmetry. apply (free_now_iff Ht0 Ew).
      intros j b Hb'. eapply Hlocks; eauto. exists t0. auto. }
    assert (Hrest : exists X', match index_due y t c with
            | Some (s, rows) => let* c' := begin_index V cfg ewrite B y c s rows in Ok (d, y, set_nth cs (fst m) c')
            | None => let* y' := bstep P sched y m in
                let p' := match nth_error (snd y') (fst m) with Some t' => t_pc t' | None => Idle end in
                Ok (d, y', set_nth cs (fst m) (ctl_step ewrite B (t_pc t) p' c))
            end = Ok X').
    { destruct (index_due y t c) as [[s rows]|] eqn:Hdue.
      2:{ destruct (Hbase (snd m)) as (y' & Hy'). rewrite <- surjective_pairing in Hy'. rewrite Hy'. cbn [obind]. eauto. }
      destruct (index_due_inv Hdue) as (k & Epc & _ & _ & Hk).
      (* the save that is about to be written *)
      destruct (C43_no_panic _ _ _ V cpush cfg max W0 (replay (D ++ [true])) (map fst progs) (sched' ++ [(fst m, 0)]) (replay_session _) Hmode) as (y' & Hy').
      pose proof Hy' as Hrun. rewrite (rrun_snoc V cpush cfg max) in Hy'. rewrite rrun_replay in Hy' by (cbn [length]; lia). rewrite Hr in Hy'. cbn [obind app] in Hy'.
      destruct (bstep_cases Hy' Et) as (t' & Est & Ets & Et'). pose proof (step_write Est) as Hsw. rewrite Epc in Hsw.
      destruct Hsw as [(Hlt & _)|(_ & _ & ls & Els & Elog)]; [lia|].
      unfold begin_index. rewrite Els. cbn [obind].
      destruct (C45_saved_snapshot _ _ _ V cpush cfg max W0 (replay (D ++ [true])) (map fst progs) _ y' t' s ls (replay_session _) Hrun) as ((h1 & h2 & y1 & _ & Hr1 & Es & _) & _ & _ & Hwf).
      { eapply nth_error_In; eauto. }
      { rewrite Elog. apply in_or_app. right. left. reflexivity. }
      pose proof (C42_at_most_max S E I V cpush cfg max W0 (replay (D ++ [true])) (map fst progs) h1 y1 (replay_session _) Hr1) as Hmax. rewrite <- Es in Hmax.
      pose proof (ew_ids Helems) as Hids.
      pose proof (layers_bound (replay_session D) HL H0 Hr) as Hnl. rewrite map_length in Hnl.
      pose proof (widths_run (replay_session D) Hr) as Hwr.
      assert (Hwp : Forall (fun l => fwidth l <= 254) (w_prev (fst y))).
      { apply Forall_forall. intros l Hl. destruct (Hwr l Hl) as [Hl'| ->]; [|exact Hnn]. rewrite Forall_forall in Hw0. auto. }
      destruct (saved_widths Els Hnn Hwp) as [Hlen Hws].
      destruct (@write_ops_ok (e_mode V) _ _ _ (f_ipos c) Hwf ltac:(lia) Hws ltac:(lia)) as (ops & Hops). rewrite Hops. cbn [obind]. eauto. }
    destruct (f_pending c) as [|o rest]; [exact Hrest|]. destruct (f_tgt c) as [tg|]; [|exact Hrest].
    destruct (do_fop d tg c o rest). eauto.
  Qed.

  Lemma frun_ok sched : exists X, fr P [] sched fstart0 = Ok X.
  Proof.
    induction sched as [|m sched (X & IH)] using rev_ind; [cbn; eauto|].
    rewrite frun_snoc, IH. cbn [obind app]. apply fstep_ok. exact IH.
  Qed.

  (** ** An end *)
  Local Notation weight := (weight V max).
  Local Notation left := (left V max L).

  (** saves whose index is not begun yet, operations that are due *)
  Definition unbegun (c : fctl) : nat := match f_tgt c, f_layers c with Some _, None => 1 | _, _ => 0 end.
  Definition due (c : fctl) : nat := length (f_pending c).
  (** a move of the files' side is due *)
  Definition file_due (y : rsys S E I) (i : nat) (cs : list fctl) : bool :=
    match nth_error cs i, nth_error (snd y) i with
    | Some c, Some t =>
        match f_pending c, f_tgt c with
        | _ :: _, Some _ => true
        | _, _ => match index_due y t c with Some _ => true | None => false end
        end
    | _, _ => false
    end.

  Lemma file_move d y cs h i X' : file_due y i cs = true -> fs P h (d, y, cs) (i, 0) = Ok X' ->
    fs_base X' = y /\
    (sum_nat (map unbegun (fs_ctl X')) < sum_nat (map unbegun cs) \/
     (sum_nat (map unbegun (fs_ctl X')) <= sum_nat (map unbegun cs) /\ sum_nat (map due (fs_ctl X')) < sum_nat (map due cs))).
  Proof.
    unfold file_due, fstep. cbn [fst snd]. destruct (nth_error cs i) as [c|] eqn:Ec; [|discriminate]. destruct (nth_error (snd y) i) as [t|] eqn:Et; [|discriminate].
    assert (Hun : forall c', sum_nat (map unbegun (set_nth cs i c')) + unbegun c = sum_nat (map unbegun cs) + unbegun c').
    { intros c'. rewrite map_set_nth. apply sum_set_nth. erewrite map_nth_error; eauto. }
    assert (Hdu : forall c', sum_nat (map due (set_nth cs i c')) + due c = sum_nat (map due cs) + due c').
    { intros c'. rewrite map_set_nth. apply sum_set_nth. erewrite map_nth_error; eauto. }
    assert (Hrest : match index_due y t c with Some _ => true | None => false end = true ->
      match index_due y t c with
            | Some (s, rows) => let* c' := begin_index V cfg ewrite B y c s rows in Ok (d, y, set_nth cs i c')
            | None => let* y' := bstep P h y (i, 0) in
                let p' := match nth_error (snd y') i with Some t' => t_pc t' | None => Idle end in
                Ok (d, y', set_nth cs i (ctl_step ewrite B (t_pc t) p' c))
            end = Ok X' ->
      fs_base X' = y /\ sum_nat (map unbegun (fs_ctl X')) < sum_nat (map unbegun cs)).
    { destruct (index_due y t c) as [[s rows]|] eqn:Hdue; [|discriminate]. intros _ Hb.
      destruct (index_due_inv Hdue) as (k & _ & (g & Hg) & Hla & _).
      destruct (begin_index V cfg ewrite B y c s rows) as [c'|] eqn:Eb; [|discriminate]. cbn [obind] in Hb. injection Hb as <-.
      unfold begin_index in Eb. destruct (saved_layers _ _ _ _ _); [|discriminate]. cbn [obind] in Eb. destruct (write_index_ops _ _ _); [|discriminate]. cbn [obind] in Eb. injection Eb as <-.
      split; [reflexivity|]. unfold fs_ctl. cbn [snd]. match goal with |- context [set_nth cs i ?c'] => specialize (Hun c'); assert (Hz : unbegun c' = 0) by (unfold unbegun; cbn [f_tgt f_layers]; rewrite Hg; reflexivity) end.
      assert (Hone : unbegun c = 1) by (unfold unbegun; rewrite Hg, Hla; reflexivity). rewrite Hz, Hone in Hun. lia. }
    destruct (f_pending c) as [|o rest] eqn:Ep; [intros H1 H2; destruct (Hrest H1 H2); auto|].
    destruct (f_tgt c) as [tg|] eqn:Eg; [|intros H1 H2; destruct (Hrest H1 H2); auto].
    intros _ H2. destruct (do_fop d tg c o rest) as [d' c'] eqn:Eo. injection H2 as <-. split; [reflexivity|]. right. unfold fs_ctl. cbn [snd].
    apply fop_tgt in Eo as (A1 & _ & A2 & A3 & _). specialize (Hun c'). specialize (Hdu c'). assert (Hu : unbegun c' = unbegun c) by (unfold unbegun; rewrite A1, A2; reflexivity).
    assert (Hd1 : due c' = length rest) by (unfold due; rewrite A3; reflexivity). assert (Hd2 : due c = Datatypes.S (length rest)) by (unfold due; rewrite Ep; reflexivity).
    split; lia.
  Qed.

  Lemma base_move d y cs h m X' : file_due y (fst m) cs = false -> length cs = length (snd y) -> fs P h (d, y, cs) m = Ok X' ->
    bstep P h y m = Ok (fs_base X').
  Proof.
    unfold file_due, fstep. intros Hf Hlen. destruct (nth_error cs (fst m)) as [c|] eqn:Ec.
    2:{ intros H. injection H as <-. unfold rsys_step. apply nth_error_None in Ec. rewrite Hlen in Ec. apply nth_error_None in Ec. rewrite Ec. reflexivity. }
    destruct (nth_error (snd y) (fst m)) as [t|] eqn:Et.
    2:{ intros H. injection H as <-. unfold rsys_step. rewrite Et. reflexivity. }
    assert (Hrest : match index_due y t c with Some _ => true | None => false end = false ->
      match index_due y t c with
            | Some (s, rows) => let* c' := begin_index V cfg ewrite B y c s rows in Ok (d, y, set_nth cs (fst m) c')
            | None => let* y' := bstep P h y m in
                let p' := match nth_error (snd y') (fst m) with Some t' => t_pc t' | None => Idle end in
                Ok (d, y', set_nth cs (fst m) (ctl_step ewrite B (t_pc t) p' c))
            end = Ok X' -> bstep P h y m = Ok (fs_base X')).
    { destruct (index_due y t c) as [[s rows]|]; [discriminate|]. intros _ Hb. destruct (bstep P h y m) as [y'|]; [|discriminate]. cbn [obind] in Hb. injection Hb as <-. reflexivity. }
    destruct (f_pending c); [exact (Hrest Hf)|]. destruct (f_tgt c); [discriminate|exact (Hrest Hf)].
  Qed.

  Lemma file_due_search y cs : (exists i, file_due y i cs = true) \/ forall i, file_due y i cs = false.
  Proof.
    destruct (existsb (fun i => file_due y i cs) (seq 0 (length cs))) eqn:Ee.
    - apply existsb_exists in Ee as (i & _ & Hi). eauto.
    - right. intros i. destruct (file_due y i cs) eqn:Hi; [|reflexivity]. rewrite <- Ee. symmetry. apply existsb_exists. exists i. split; [|exact Hi].
      apply in_seq. unfold file_due in Hi. destruct (nth_error cs i) eqn:Ei; [|discriminate].
      assert (i < length cs) by (apply nth_error_Some; congruence). lia.
  Qed.

  Lemma all_end sched X : live_locks P -> reader_preferring P -> fr P [] sched fstart0 = Ok X ->
    exists more X', fr P [] (sched ++ more) fstart0 = Ok X' /\ Forall finished (snd (fs_base X')) /\ forall i ip ep, ~ saving X' i ip ep.
  Proof.
    intros Hlv HR.
    assert (Hgo : forall a b c e sched X, fr P [] sched fstart0 = Ok X -> left (fst (fs_base X)) <= a -> weight (fs_base X) <= b ->
      sum_nat (map unbegun (fs_ctl X)) <= c -> sum_nat (map due (fs_ctl X)) <= e ->
      exists more X', fr P [] (sched ++ more) fstart0 = Ok X' /\ Forall finished (snd (fs_base X')) /\ forall i ip ep, ~ saving X' i ip ep); [|intros Hr; eapply Hgo; eauto].
    clear sched X. induction a as [a IHa] using lt_wf_ind. induction b as [b IHb] using lt_wf_ind. induction c as [c IHc] using lt_wf_ind. induction e as [e IHe] using lt_wf_ind.
    intros sched X HX Ha Hb Hc He.
    assert (Hmore : forall m X1, fs P sched X m = Ok X1 -> fr P [] (sched ++ [m]) fstart0 = Ok X1).
    { intros m X1 H1. rewrite frun_snoc, HX. exact H1. }
    assert (Hback : forall m, (exists more X', fr P [] ((sched ++ [m]) ++ more) fstart0 = Ok X' /\ Forall finished (snd (fs_base X')) /\ forall i ip ep, ~ saving X' i ip ep) ->
      exists more X', fr P [] (sched ++ more) fstart0 = Ok X' /\ Forall finished (snd (fs_base X')) /\ forall i ip ep, ~ saving X' i ip ep).
    { intros m (more & X' & H1 & H2). exists (m :: more), X'. rewrite <- app_assoc in H1. auto. }
    pose proof (sinv_run sinv_start HX) as [I1 I2 I3]. destruct X as [[d y] cs]. unfold fs_base, fs_ctl in *. cbn [fst snd] in *.
    destruct (file_due_search y cs) as [(i & Hi)|Hno].
    { destruct (fstep_ok (i, 0) HX) as (X1 & E1). destruct (file_move Hi E1) as [Eb Hdec]. unfold fs_ctl in Hdec. apply (Hback (i, 0)).
      assert (Eb' : snd (fst X1) = y) by exact Eb.
      destruct Hdec as [Hdec|[Hd1 Hd2]].
      - eapply (IHc (sum_nat (map unbegun (snd X1)))); [lia|apply Hmore; exact E1|unfold fs_base; rewrite Eb'; exact Ha|unfold fs_base; rewrite Eb'; exact Hb|apply le_n|apply le_n].
      - eapply (IHe (sum_nat (map due (snd X1)))); [lia|apply Hmore; exact E1|unfold fs_base; rewrite Eb'; exact Ha|unfold fs_base; rewrite Eb'; exact Hb|unfold fs_ctl; lia|apply le_n]. }
    destruct (can_go_search P HL H0 sched y) as [(i & Hi)|Hst].
    - destruct (effective_of Hi) as (k & Hk). destruct (fstep_ok (i, k) HX) as (X1 & E1). apply (Hback (i, k)).
      pose proof (@base_move d y cs sched (i, k) X1 (Hno i) I1 E1) as Eb.
      destruct (base_run Hlocks HX) as (D & sched' & HD & Hr). change (fs_base fstart0) with start in Hr. unfold fs_base in Hr. cbn [fst snd] in Hr.
      assert (Hr' : rr (replay (D ++ [true])) [] sched' start = Ok y) by (rewrite rrun_replay by (cbn [length]; lia); exact Hr).
      assert (Hfree : forall t, nth_error (snd y) i = Some t -> wants (t_pc t) <> None -> P sched y i = true /\ replay (D ++ [true]) sched' y i = true).
      { intros t Ht Hwt. destruct (wants (t_pc t)) as [[l ac]|] eqn:Ew; [|congruence]. destruct Hi as (t0 & Ht0 & _ & Hg).
        assert (HPi : P sched y i = true) by (apply (Hg l ac); exists t; auto). split; [exact HPi|]. unfold replay.
        rewrite app_nth2 by lia. rewrite HD, Nat.sub_diag. cbn [nth andb]. apply (free_now_iff Ht Ew). intros j b0 Hb0. eapply Hlocks; eauto. exists t. auto. }
      assert (Eb' : bstep (replay (D ++ [true])) sched' y (i, k) = Ok (fs_base X1)).
      { rewrite <- Eb. apply bstep_same. cbn [fst]. intros t Ht Hwt. destruct (Hfree t Ht Hwt) as [-> ->]. reflexivity. }
      assert (Hk' : effective (replay (D ++ [true])) sched' y (i, k)).
      { destruct Hk as [(t & Ht & Hnf & Hg) Hk2]. split; [|exact Hk2]. exists t. split; [exact Ht|]. split; [exact Hnf|]. cbn [fst] in *.
        intros l ac (t1 & Ht1 & Hw1). destruct (Hfree t1 Ht1); [congruence|assumption]. }
      pose proof (@effective_less _ _ _ V cpush cfg max W0 (replay (D ++ [true])) (map fst progs) (replay_session _) L HL H0 sched' y (i, k) (fs_base X1) Hr' Hk' Eb') as Hdec.
      unfold fs_base in Hdec. destruct Hdec as [Hdec|[Hd1 Hd2]].
      + eapply (IHa (left (fst (snd (fst X1))))); [lia|apply Hmore; exact E1|apply le_n|apply le_n|apply le_n|apply le_n].
      + eapply (IHb (weight (snd (fst X1)))); [lia|apply Hmore; exact E1|lia|apply le_n|apply le_n|apply le_n].
    - destruct (nobody_goes Hlv Hst) as [Hf|Hf]; [|elim (reader_pref_goes Hlv HR Hf Hst)].
      exists [], (d, y, cs). rewrite app_nil_r. split; [exact HX|]. split; [exact Hf|].
      intros i ip ep (c0 & Hc0 & Hg). unfold fs_ctl in Hc0. cbn [snd] in Hc0.
      destruct (nth_error (snd y) i) as [t|] eqn:Et.
      + specialize (I3 _ _ _ _ Et Hc0 Hg). rewrite Forall_forall in Hf. destruct (Hf t (nth_error_In _ _ Et)) as [Hid _]. rewrite Hid in I3. discriminate.
      + apply nth_error_None in Et. assert (i < length cs) by (apply nth_error_Some; congruence). lia.
  Qed.
End Ends.
