(** * Proofs: what a save to files leaves behind, and which runs it makes *)
From Verif Require Import Base BaseFacts Bytes PBytes MSliceVec SSliceVec PFixed MSetVec SOffsets MIndexIo SIndexIo MSearch MBuild SBuild PBuildRun MLocks MRw SRw PRwLock PRwConc MRwFiles SRwFiles PRwFiles.
Set Implicit Arguments.
Unset Strict Implicit.

Section Done.
  Context {S E I : Type} (V : benv S E) (cpush : S -> I -> outcome S) (cfg : config) (max : nat).
  Context (ewrite : S -> list N) (B : buffering) (T : list (option target)).
  Context (HB : keeps_bytes B) (HG : grows cpush ewrite) (HT : names_apart T).
  Local Notation fs := (fstep V cpush cfg max ewrite B).
  Local Notation fr := (frun V cpush cfg max ewrite B).
  Local Notation bstep := (rsys_step V cpush cfg max).
  Local Notation rr := (rrun V cpush cfg max).

  (** the return of a save with nobody else in a save to these files *)
  Lemma save_done P h X m X' i ip ep s ls :
    finv V cfg ewrite B T X -> fs P h X m = Ok X' -> save_returns X X' i ip ep s ls ->
    (forall j, j <> i -> ~ saving_to X j ip /\ ~ saving_to X j ep) ->
    fs_disk X' ep = Some (ewrite s) /\
    exists c0 c1, cpos c0 = 0 /\ write_index (e_mode V) (FixWidth ls) c0 = Ok c1 /\ fs_disk X' ip = Some (cbuf c1).
  Proof.
    intros HI Hs ((c & Hc & Hg) & t & t' & Ht & Ht' & Hlog) Halone. destruct X as [[d [W ts]] cs].
    destruct HI as [HL Hlen Hn Hnone Hctl]. unfold fs_base, fs_ctl, fs_disk in *. cbn [fst snd] in *.
    assert (Hno : forall l (x : result S E I), l ++ [x] = l -> False).
    { intros l x H. apply (f_equal (@length _)) in H. rewrite app_length in H. cbn in H. lia. }
    apply fstep_cases in Hs as [->|(c0 & t0 & Hc0 & Ht0 & Hs)].
    { exfalso. cbn [fst snd] in Ht'. rewrite Ht in Ht'. injection Ht' as <-. eapply Hno; eauto. }
    cbn [snd] in Ht0.
    destruct Hs as [(o & rest & tg & d' & c' & Hp & _ & _ & ->)|(Hp & [(s0 & rows & c' & Hdue & Hb & ->)|(y' & Hdue & Hb & ->)])].
    { exfalso. cbn [fst snd] in Ht'. rewrite Ht in Ht'. injection Ht' as <-. eapply Hno; eauto. }
    { exfalso. cbn [fst snd] in Ht'. rewrite Ht in Ht'. injection Ht' as <-. eapply Hno; eauto. }
    destruct (bstep_cases (y := (W, ts)) Hb Ht0) as (t1 & Est & Ets & _). cbn [fst snd] in Est, Ets, Ht'. rewrite Ets in Ht'.
    destruct (Nat.eq_dec (fst m) i) as [Ei|Ei].
    2:{ rewrite nth_error_set_nth_neq in Ht' by auto. rewrite Ht in Ht'. injection Ht' as <-. exfalso. eapply Hno; eauto. }
    rewrite Ei in *. rewrite Ht in Ht0. injection Ht0 as <-. rewrite Hc in Hc0. injection Hc0 as <-.
    rewrite nth_error_set_nth_eq in Ht' by (apply nth_error_Some; congruence). injection Ht' as <-.
    destruct (step_logs Est Hlog) as (j & rows & Epc & Hj & Els).
    destruct (Hctl _ _ _ _ _ Ht Hc Hg) as [[K1 K2] K3]. rewrite Epc in K3. cbn [place_ok] in K3.
    destruct K3 as (Es & done & idone & [Hpos Hph] & HfE & HfI).
    assert (Hp0 : f_pending c = []) by (destruct Hp; congruence). rewrite Hp0 in K1, K2.
    assert (Halone' : forall f, f = ip \/ f = ep -> ~ others_on cs i f).
    { intros f Hf (k & ck & ip' & ep' & Hk & Hck & Hgk & Hfk). destruct (Halone k Hk) as [A1 A2].
      assert (Hsv : saving_to (d, (W, ts), cs) k f) by (exists ip', ep'; split; [exists ck; auto|auto]). destruct Hf as [->| ->]; auto. }
    destruct Hph as [(Hla & _)|(ls' & ops & irest & ch & Hla & Els' & _ & Eops & Hops & Hch & Hall)].
    { exfalso. unfold index_due in Hdue. rewrite Epc, Hg, Hla in Hdue. cbn [fst] in Hdue.
      destruct (Nat.leb_spec (length (w_cur W)) j); [discriminate|lia]. }
    rewrite Hp0 in Hch. destruct irest; [|discriminate]. destruct ch; [|discriminate]. cbn [concat] in Hall. rewrite app_nil_r in Hall, Hops.
    assert (Ell : ls' = ls) by congruence. subst ls'.
    destruct HfE as [H|HfE]; [exfalso; eapply (Halone' ep); eauto|].
    destruct HfI as [H|(k0 & Hk0 & HfI)]; [exfalso; eapply (Halone' ip); eauto|].
    split.
    - destruct K1 as [Ke Kl]; [intros []|]. destruct (d ep) as [b|] eqn:Ed; [|congruence].
      unfold content in HfE, Kl. rewrite Ed in HfE, Kl. rewrite Es in Kl.
      assert (Kl' : length b <= length done) by (rewrite Hall; exact Kl).
      assert (Eb : b = done) by (transitivity (firstn (length done) b); [symmetry; apply firstn_all2; exact Kl'|exact HfE]).
      unfold fs_disk. cbn [fst]. rewrite Ed. f_equal. congruence.
    - exists k0, (run_ops k0 ops). split; [auto|]. split.
      + unfold write_index. rewrite Hk0, Eops. reflexivity.
      + destruct (d ip) as [b|] eqn:Ed; [|exfalso; apply K2; auto]. unfold fs_disk. cbn [fst]. rewrite Ed. f_equal. rewrite <- (kb_index B HB), <- Hops, HfI.
        unfold content. rewrite Ed. reflexivity.
  Qed.

  (** files nobody is in a save to stay as they are *)
  Lemma fstep_frame P h X m X' f : fs P h X m = Ok X' -> (forall j, ~ saving_to X j f) -> fs_disk X' f = fs_disk X f.
  Proof.
    intros Hs Hno. destruct X as [[d y] cs]. apply fstep_cases in Hs as [->|(c & t & Hc & Ht & Hs)]; auto.
    destruct Hs as [(o & rest & [ip ep] & d' & c' & Hp & Hg & Ho & ->)|(Hp & [(s0 & rows & c' & Hdue & Hb & ->)|(y' & Hdue & Hb & ->)])]; auto.
    destruct (fop_tgt Ho) as (_ & _ & _ & _ & g & b & -> & Hop). unfold fs_disk. cbn [fst snd] in *.
    apply fput_other. intros ->. apply (Hno (fst m)). exists ip, ep. split; [exists c; auto|]. destruct o; intuition.
  Qed.

  Lemma frun_app P sched1 : forall sched2 h X, fr P h (sched1 ++ sched2) X = let* X1 := fr P h sched1 X in fr P (h ++ sched1) sched2 X1.
  Proof.
    induction sched1 as [|m sched1 IH]; intros sched2 h X; cbn [app frun].
    - rewrite app_nil_r. reflexivity.
    - destruct (fs P h X m) as [X1|]; cbn [obind]; auto. rewrite IH, <- app_assoc. reflexivity.
  Qed.

  Lemma frun_frame P sched : forall h X X' f, fr P h sched X = Ok X' ->
    (forall s1 s2 X1 j, sched = s1 ++ s2 -> fr P h s1 X = Ok X1 -> ~ saving_to X1 j f) -> fs_disk X' f = fs_disk X f.
  Proof.
    induction sched as [|m sched IH]; intros h X X' f; cbn [frun].
    - intros H. injection H as <-. auto.
    - destruct (fs P h X m) as [X1|] eqn:E1; [|discriminate]. cbn [obind]. intros H Hno.
      rewrite (IH (h ++ [m]) X1 X' f H).
      + eapply fstep_frame; eauto. intros j. apply (Hno [] (m :: sched) X j); reflexivity.
      + intros s1 s2 X2 j -> H2. apply (Hno (m :: s1) s2 X2 j); [reflexivity|]. cbn [frun]. rewrite E1. exact H2.
  Qed.

  (** ** The runs of the builder *)
  Definition access_eqb (a b : access) : bool := match a, b with ARead, ARead | AWrite, AWrite => true | _, _ => false end.
  Definition lk_eqb (a b : lk) : bool := match a, b with LElems, LElems | LLayers, LLayers | LWrite, LWrite => true | _, _ => false end.
  Definition no_clash (l : lk) (a : access) (g : lk * access) : bool :=
    negb (lk_eqb (fst g) l) || (access_eqb a ARead && access_eqb (snd g) ARead).
  Definition free_now (y : rsys S E I) (i : nat) : bool :=
    match nth_error (snd y) i with
    | Some t => match wants (t_pc t) with
                | Some (l, a) => forallb (fun u => forallb (no_clash l a) (guards (t_pc u))) (snd y)
                | None => true
                end
    | None => true
    end.
  (** the policy that decides as listed, unless that would break a lock *)
  Definition replay (D : list bool) : rpolicy S E I := fun h y i => nth (length h) D false && free_now y i.

  Lemma free_now_iff y i t l a : nth_error (snd y) i = Some t -> wants (t_pc t) = Some (l, a) ->
    (free_now y i = true <-> forall j b, has_lock y j l b -> a = ARead /\ b = ARead).
  Proof.
    intros Ht Hw. unfold free_now. rewrite Ht, Hw, forallb_forall. split.
    - intros H j b (u & Hu & Hin). apply nth_error_In in Hu. specialize (H _ Hu). rewrite forallb_forall in H. specialize (H _ Hin).
      unfold no_clash in H. cbn [fst snd] in H. destruct l, a, b; cbn in H; try discriminate; auto.
    - intros H u Hu. rewrite forallb_forall. intros [l' b] Hin. unfold no_clash. cbn [fst snd]. apply In_nth_error in Hu as (j & Hj).
      destruct (lk_eqb l' l) eqn:El; [|reflexivity]. assert (l' = l) by (destruct l', l; cbn in El; congruence). subst l'.
      destruct (H j b) as [-> ->]; [exists u; auto|]. reflexivity.
  Qed.

  Lemma replay_safe D : safe_locks (replay D).
  Proof.
    intros h y i l a (t & Ht & Hw) HP j b Hb. apply andb_true_iff in HP as [_ HP].
    exact (proj1 (free_now_iff Ht Hw) HP j b Hb).
  Qed.

  Lemma step_ok_irrel W (t : thread S E I) ok ok' k : wants (t_pc t) = None ->
    thread_step V cpush cfg max W t ok k = thread_step V cpush cfg max W t ok' k.
  Proof. destruct t as [p ba td lg]. unfold thread_step. cbn [t_pc]. destruct p; cbn [wants]; intros H; try discriminate; reflexivity. Qed.

  Lemma bstep_same P P' h h' y m : (forall t, nth_error (snd y) (fst m) = Some t -> wants (t_pc t) <> None -> P h y (fst m) = P' h' y (fst m)) ->
    bstep P h y m = bstep P' h' y m.
  Proof.
    intros H. unfold rsys_step. destruct (nth_error (snd y) (fst m)) as [t|] eqn:Et; auto.
    destruct (wants (t_pc t)) eqn:Ew.
    - rewrite (H t); [reflexivity|auto|congruence].
    - rewrite (@step_ok_irrel (fst y) t (P h y (fst m)) (P' h' y (fst m)) (snd m) Ew). reflexivity.
  Qed.

  Lemma rrun_replay sched : forall D D' h y, length h + length sched <= length D -> rr (replay (D ++ D')) h sched y = rr (replay D) h sched y.
  Proof.
    induction sched as [|m sched IH]; intros D D' h y HL; cbn [rrun]; auto. cbn [length] in HL.
    rewrite (bstep_same (P' := replay D) (h' := h)).
    - destruct (bstep (replay D) h y m); cbn [obind]; auto. apply IH. rewrite app_length. cbn [length]. lia.
    - intros t _ _. unfold replay. rewrite app_nth1 by lia. reflexivity.
  Qed.

  Lemma frun_snoc P sched m h X : fr P h (sched ++ [m]) X = let* X1 := fr P h sched X in fs P (h ++ sched) X1 m.
  Proof. rewrite frun_app. destruct (fr P h sched X) as [X1|]; auto. cbn [obind frun]. destruct (fs P (h ++ sched) X1 m); auto. Qed.

  Lemma base_run P sched X0 : safe_locks P -> forall X, fr P [] sched X0 = Ok X ->
    exists D sched', length D = length sched' /\ rr (replay D) [] sched' (fs_base X0) = Ok (fs_base X).
  Proof.
    intros HP. induction sched as [|m sched IH] using rev_ind; intros X HX.
    - cbn in HX. injection HX as <-. exists [], []. split; reflexivity.
    - rewrite frun_snoc in HX. destruct (fr P [] sched X0) as [X1|] eqn:E1; [|discriminate]. cbn [obind app] in HX.
      destruct (IH _ eq_refl) as (D & sched' & HD & Hr). destruct X1 as [[d y] cs]. unfold fs_base in Hr at 2. cbn [fst snd] in Hr.
      apply fstep_cases in HX as [->|(c & t & Hc & Ht & Hs)]; [exists D, sched'; auto|].
      destruct Hs as [(o & rest & tg & d' & c' & Hp & Hg & Ho & ->)|(Hp & [(s0 & rows & c' & Hdue & Hb & ->)|(y' & Hdue & Hb & ->)])];
        [exists D, sched'; auto|exists D, sched'; auto|].
      exists (D ++ [P sched y (fst m)]), (sched' ++ [m]). split; [rewrite !app_length; cbn; lia|].
      rewrite (rrun_snoc V cpush cfg max). rewrite rrun_replay by (cbn [length]; lia). rewrite Hr. cbn [obind app]. unfold fs_base. cbn [fst snd].
      rewrite <- Hb. apply bstep_same. intros t0 Ht0 Hw. unfold replay.
      rewrite app_nth2 by lia. rewrite HD, Nat.sub_diag. cbn [nth].
      destruct (wants (t_pc t0)) as [[l a]|] eqn:Ew; [|congruence].
      destruct (P sched y (fst m)) eqn:EP; [|reflexivity]. cbn [andb]. apply (free_now_iff Ht0 Ew).
      intros j b Hb'. eapply HP; eauto. exists t0. auto.
  Qed.
End Done.

(** ** Well-formed layers are the layers of a graph *)
Lemma layers_wf_index m nn n ls : layers_wf nn n ls -> (N.of_nat n <= UNUSED)%N -> Forall (fun l => fwidth l <= 254) ls ->
  exists G, index_is m (FixWidth ls) G.
Proof.
  intros [HF _] Hn HW.
  assert (H : exists G, Forall2 fix_layer_is ls G /\ Forall (fun g => layer_fits (length g)) G).
  { induction HF as [|l ls Hl HF IH]; [exists []; auto|]. inversion HW as [|? ? Hw HW']; subst.
    destruct (IH HW') as (G & H1 & H2). destruct Hl as (Hw0 & _ & Hlen & rows & Hd & Hrl & Hrows).
    assert (Hex : exists g, Forall2 (fun r ns => row_shows (fwidth l) r ns /\ Forall (fun x => x < length rows) ns) rows g).
    { clear Hd Hlen. assert (Hrows' : forall i r, nth_error rows i = Some r -> exists ns, row_shows (fwidth l) r ns /\ Forall (fun x => x < length rows) ns).
      { intros i r Hi. destruct (Hrows i r Hi) as (ns & A & _ & C). eauto. }
      clear Hrows Hrl. revert Hrows'. generalize (length rows) as N0. intros N0. induction rows as [|r rows IHr]; intros Hrows; [exists []; constructor|].
      destruct (Hrows 0 r eq_refl) as (ns & Hns). destruct IHr as (g & Hg); [intros i r' Hi; apply (Hrows (Datatypes.S i)); auto|]. exists (ns :: g). constructor; auto. }
    destruct Hex as (g & Hg). exists (map (map N.of_nat) g :: G).
    assert (Hlens : Forall (fun r => length r = fwidth l) rows).
    { clear -Hg. revert Hg. generalize (length rows) as N0. intros N0 Hg. induction Hg as [|r ns rws gg [[A ->] _] _ IH]; constructor; auto. rewrite app_length, map_length, repeat_length. lia. }
    assert (His : fw_is (fwidth l) rows l) by (split; [|split]; auto).
    assert (Hn2 : length rows <= n) by (rewrite (fw_is_len Hw0 His) in Hlen; lia).
    assert (HU : UNUSED = 4294967295%N) by reflexivity.
    assert (Hlg : length g = length rows) by (clear -Hg; revert Hg; generalize (length rows) at 1; intros N0 Hg; induction Hg; cbn; auto).
    split.
    - constructor; auto. exists (fwidth l). split; [auto|]. split.
      + assert (E0 : map (fun ns => ns ++ repeat UNUSED (fwidth l - length ns)) (map (map N.of_nat) g) = rows).
        { clear -Hg. revert Hg. generalize (length rows) as N0. intros N0 Hg. induction Hg as [|r ns rws gg [[A ->] _] _ IH]; cbn [map]; [auto|]. rewrite IH, map_length. reflexivity. }
        rewrite E0. exact His.
      + rewrite Forall_map. rewrite Forall_forall. intros ns Hns.
        assert (Hx : length ns <= fwidth l /\ Forall (fun x => x < length rows) ns).
        { clear -Hg Hns. revert Hg. generalize (length rows) as N0. intros N0 Hg. induction Hg as [|r ns0 rws gg [[A _] C] _ IH]; [destruct Hns|].
          destruct Hns as [->|Hns]; auto. }
        destruct Hx as [Hx1 Hx2]. rewrite map_length. split; [auto|]. split; [lia|].
        rewrite Forall_map. eapply Forall_impl; [|exact Hx2]. intros x Hx. cbn beta in Hx. lia.
    - constructor; auto. rewrite map_length, Hlg. unfold layer_fits. lia. }
  destruct H as (G & H1 & H2). exists G. split; auto.
Qed.

(** ** Threads that do not save *)
Section NoSave.
  Context {S E I : Type} (V : benv S E) (cpush : S -> I -> outcome S) (cfg : config) (max : nat).
  Context (ewrite : S -> list N) (B : buffering).

  Lemma step_no_save W t ok k W' t' : thread_step V cpush cfg max W t ok k = Ok (W', t') ->
    in_write (t_pc t) = false -> ~ In RSave (t_todo t) -> in_write (t_pc t') = false /\ ~ In RSave (t_todo t').
  Proof.
    destruct t as [p ba td lg]. unfold thread_step. cbn [t_pc t_batch t_todo t_log].
    destruct p; cbn [in_write]; try discriminate; intros Es _ Hno; inv_step Es; apply pair_equal_spec in Es || (injection Es as <- <-);
      cbn [t_pc t_todo in_write]; auto.
    - split; [|intros H; apply Hno; right; auto]. destruct r; cbn [begin_call in_write]; auto. exfalso. apply Hno. left. reflexivity.
    - destruct (max <=? c_len (e_ops V) (w_elems W)); auto.
    - destruct (layer_full V W); auto.
    - destruct rest; auto.
  Qed.

  Lemma no_save_run P i d cs c ks : nth_error cs i = Some c -> f_pending c = [] -> f_tgt c = None ->
    forall h y t, nth_error (snd y) i = Some t -> in_write (t_pc t) = false -> ~ In RSave (t_todo t) ->
    frun V cpush cfg max ewrite B P h (map (pair i) ks) (d, y, cs) =
    let* y' := rrun V cpush cfg max P h (map (pair i) ks) y in Ok (d, y', cs).
  Proof.
    intros Hc Hp Hg. induction ks as [|k ks IH]; intros h y t Ht Hw Hno; [reflexivity|]. cbn [map frun rrun].
    unfold fstep at 1. cbn [fst snd]. rewrite Hc, Ht, Hp.
    assert (Hdue : index_due y t c = None) by (unfold index_due; rewrite Hg; destruct (t_pc t); reflexivity). rewrite Hdue.
    destruct (rsys_step V cpush cfg max P h y (i, k)) as [y1|] eqn:Eb; [|reflexivity]. cbn [obind].
    destruct (bstep_cases (t := t) Eb Ht) as (t' & Est & Ets & Ht'). cbn [fst snd] in *. rewrite Ht'.
    destruct (step_no_save Est Hw Hno) as [Hw' Hno'].
    assert (Ec : ctl_step ewrite B (t_pc t) (t_pc t') c = c).
    { destruct (t_pc t); cbn [in_write ctl_step] in *; auto; try discriminate. destruct (t_pc t'); cbn [in_write] in *; auto; discriminate. }
    rewrite Ec, set_nth_same by auto. eapply IH; eauto.
  Qed.
End NoSave.

(** ** Every thread saves to its own targets *)
Section Own.
  Context {S E I : Type} (V : benv S E) (cpush : S -> I -> outcome S) (cfg : config) (max : nat).
  Context (ewrite : S -> list N) (B : buffering) (progs : list (list (rcall E I) * list (option target))).

  Definition own_names (X : fsys S E I) : Prop :=
    forall i c, nth_error (fs_ctl X) i = Some c -> exists p, nth_error progs i = Some p /\
      incl (f_tgts c) (snd p) /\ (forall g, f_tgt c = Some g -> In (Some g) (snd p)).

  Lemma own_start d W : own_names (fstart d W progs).
  Proof.
    intros i c H. unfold fs_ctl, fstart in H. cbn [snd] in H. rewrite nth_error_map in H. destruct (nth_error progs i) as [p|]; [|discriminate].
    cbn in H. injection H as <-. exists p. split; [auto|]. cbn [f_tgts f_tgt]. split; [apply incl_refl|discriminate].
  Qed.

  Lemma own_step P h X m X' : own_names X -> fstep V cpush cfg max ewrite B P h X m = Ok X' -> own_names X'.
  Proof.
    intros HI Hs. destruct X as [[d y] cs]. unfold own_names, fs_ctl in *. cbn [snd] in *.
    assert (Hset : forall c c', nth_error cs (fst m) = Some c ->
      (forall T, incl (f_tgts c) T /\ (forall g, f_tgt c = Some g -> In (Some g) T) -> incl (f_tgts c') T /\ (forall g, f_tgt c' = Some g -> In (Some g) T)) ->
      forall i ci, nth_error (set_nth cs (fst m) c') i = Some ci -> exists p, nth_error progs i = Some p /\
        incl (f_tgts ci) (snd p) /\ (forall g, f_tgt ci = Some g -> In (Some g) (snd p))).
    { intros c c' Hc Hcc i ci Hi. rewrite nth_error_set_nth in Hi. destruct (Nat.eqb_spec (fst m) i) as [Ei|]; cbn [andb] in Hi; [|eauto].
      destruct (fst m <? length cs); [|eauto]. injection Hi as <-. subst i. destruct (HI _ _ Hc) as (p & Hp & Hpp). exists p. split; [auto|]. apply Hcc. exact Hpp. }
    apply fstep_cases in Hs as [->|(c & t & Hc & Ht & Hs)]; [exact HI|].
    destruct Hs as [(o & rest & tg & d' & c' & Hp & Hg & Ho & ->)|(Hp & [(s0 & rows & c' & Hdue & Hb & ->)|(y' & Hdue & Hb & ->)])]; cbn [snd].
    - apply (Hset c c' Hc). intros T HT. destruct (fop_tgt Ho) as (-> & -> & _). exact HT.
    - apply (Hset c c' Hc). intros T HT. unfold begin_index in Hb.
      destruct (saved_layers V cfg s0 rows (w_prev (fst y))); [|discriminate]. cbn [obind] in Hb.
      destruct (write_index_ops _ _ _); [|discriminate]. cbn [obind] in Hb. injection Hb as <-. exact HT.
    - apply (Hset c _ Hc). intros T HT. apply ctl_names. exact HT.
  Qed.

  Lemma own_run P sched : forall h X X', own_names X -> frun V cpush cfg max ewrite B P h sched X = Ok X' -> own_names X'.
  Proof.
    induction sched as [|m sched IH]; intros h X X' HI; cbn [frun].
    - intros H. injection H as <-. auto.
    - destruct (fstep V cpush cfg max ewrite B P h X m) as [X1|] eqn:E1; [|discriminate]. cbn [obind]. apply IH. eapply own_step; eauto.
  Qed.
End Own.
