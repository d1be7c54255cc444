(** * Proofs: saving a concurrent builder to files *)
From Verif Require Import Base BaseFacts Bytes PBytes MSliceVec MSetVec MIndexIo MSearch MBuild SBuild PBuildRun MLocks MRw SRw PRwLock PRwSingle MRwFiles SRwFiles.
Set Implicit Arguments.
Unset Strict Implicit.

Section Steps.
  Context {S E I : Type} (V : benv S E) (cpush : S -> I -> outcome S) (cfg : config) (max : nat).
  Local Notation tstep := (thread_step V cpush cfg max).

  (** the program counters of [write] *)
  Definition in_write (p : pc S E I) : bool :=
    match p with WGuard | WElems | WLayers | WData | WRow _ _ _ => true | _ => false end.

  Lemma step_shared W t ok k W' t' : tstep W t ok k = Ok (W', t') ->
    (w_elems W' = w_elems W \/ (In (LElems, AWrite) (guards (t_pc t)) /\ exists x, cpush (w_elems W) x = Ok (w_elems W'))) /\
    (w_prev W' = w_prev W \/ In (LLayers, AWrite) (guards (t_pc t))) /\
    (length (w_cur W') = length (w_cur W) \/ In (LLayers, AWrite) (guards (t_pc t))).
  Proof.
    destruct t as [p ba td lg]. unfold thread_step. cbn [t_pc t_batch t_todo t_log].
    destruct p; cbn [guards]; intros Es; inv_step Es; apply pair_equal_spec in Es || (injection Es as <- <-);
      cbn [w_elems w_cur w_prev]; auto; try (split; [|split]; auto; fail).
    - (* INew *) split; [|split; right; cbn; auto].
      left. unfold new_layer in Ex. destruct (layer_of_rows (w_cur W) (w_width W)); [|discriminate]. cbn [obind] in Ex.
      destruct (rows_of_layer _) in Ex; [|discriminate]. cbn [obind] in Ex. injection Ex as <-. reflexivity.
    - (* IPush *) split; [|auto]. right. split; [cbn; auto|]. eauto.
    - (* IIndex *) split; [auto|]. split; [auto|]. left. apply (run_cur Ex).
  Qed.

  Lemma step_write W t ok k W' t' : tstep W t ok k = Ok (W', t') ->
    match t_pc t with
    | Idle => in_write (t_pc t') = true -> t_pc t' = WGuard
    | WGuard => t_pc t' = WGuard \/ t_pc t' = WElems
    | WElems => t_pc t' = WElems \/ t_pc t' = WLayers
    | WLayers => t_pc t' = WLayers \/ t_pc t' = WData
    | WData => t_pc t' = WRow (w_elems W) 0 []
    | WRow s j rows =>
        (j < length (w_cur W) /\ exists row, t_pc t' = WRow s (Datatypes.S j) (rows ++ [row])) \/
        (length (w_cur W) <= j /\ t_pc t' = Idle /\
         exists ls, saved_layers V cfg s rows (w_prev W) = Ok ls /\ t_log t' = t_log t ++ [Saved s ls])
    | _ => in_write (t_pc t') = false
    end.
  Proof.
    destruct t as [p ba td lg]. unfold thread_step. cbn [t_pc t_batch t_todo t_log].
    destruct p; intros Es; inv_step Es; apply pair_equal_spec in Es || (injection Es as <- <-);
      cbn [t_pc t_log in_write]; auto; try discriminate.
    - destruct r; cbn [begin_call in_write]; auto; discriminate.
    - destruct (max <=? c_len (e_ops V) (w_elems W)); reflexivity.
    - destruct (layer_full V W); reflexivity.
    - destruct rest; reflexivity.
    - left. apply Nat.ltb_lt in Eb. eauto.
    - right. apply Nat.ltb_ge in Eb. split; [auto|]. split; [reflexivity|]. eauto.
  Qed.

  Lemma step_logs W t ok k W' t' s ls : tstep W t ok k = Ok (W', t') -> t_log t' = t_log t ++ [Saved s ls] ->
    exists j rows, t_pc t = WRow s j rows /\ length (w_cur W) <= j /\ saved_layers V cfg s rows (w_prev W) = Ok ls.
  Proof.
    destruct t as [p ba td lg]. unfold thread_step. cbn [t_pc t_batch t_todo t_log].
    assert (Hno : forall (l : list (result S E I)) x, l = l ++ [x] -> False).
    { intros l x H. apply (f_equal (@length _)) in H. rewrite app_length in H. cbn in H. lia. }
    destruct p; intros Es; inv_step Es; apply pair_equal_spec in Es || (injection Es as <- <-);
      cbn [t_log]; intros H; try (exfalso; eapply Hno; eassumption); apply app_inv_head in H; try discriminate.
    injection H as -> ->. apply Nat.ltb_ge in Eb. eauto.
  Qed.
End Steps.

(** ** Files *)
Lemma fput_same d f b : fput d f b f = Some b.
Proof. unfold fput. destruct (fname_dec f f); congruence. Qed.
Lemma fput_other d f g b : g <> f -> fput d f b g = d g.
Proof. unfold fput. destruct (fname_dec g f); congruence. Qed.

Lemma cwrite_prefix buf done bs : firstn (length done) buf = done ->
  firstn (length done + length bs) (cbuf (cwrite (mkCursor buf (length done)) bs)) = done ++ bs.
Proof.
  intros Hf. assert (Hl : length done <= length buf).
  { apply (f_equal (@length N)) in Hf. rewrite firstn_length in Hf. lia. }
  unfold cwrite. cbn [cbuf cpos]. replace (length done - length buf) with 0 by lia. cbn [repeat]. rewrite app_nil_r.
  destruct bs as [|b bs]; [cbn [length]; rewrite Nat.add_0_r, app_nil_r; auto|].
  rewrite Hf, app_assoc, firstn_app, app_length.
  rewrite (firstn_all2 (n := length done + length (b :: bs))) by (rewrite app_length; lia).
  rewrite Nat.sub_diag. cbn [firstn]. apply app_nil_r.
Qed.

Lemma run_ops_snoc c ops o : run_ops c (ops ++ [o]) = run_op (run_ops c ops) o.
Proof. unfold run_ops. rewrite fold_left_app. reflexivity. Qed.

Section Files.
  Context {S E I : Type} (V : benv S E) (cpush : S -> I -> outcome S) (cfg : config) (max : nat).
  Context (ewrite : S -> list N) (B : buffering) (T : list (option target)).
  Context (HB : keeps_bytes B) (HG : grows cpush ewrite) (HT : names_apart T).
  Local Notation fs := (fstep V cpush cfg max ewrite B).
  Local Notation bstep := (rsys_step V cpush cfg max).

  (** ** The kinds of moves *)
  Lemma fstep_cases P h d y cs m X' : fs P h (d, y, cs) m = Ok X' ->
    X' = (d, y, cs) \/
    exists c t, nth_error cs (fst m) = Some c /\ nth_error (snd y) (fst m) = Some t /\
      ((exists o rest tg d' c', f_pending c = o :: rest /\ f_tgt c = Some tg /\ do_fop d tg c o rest = (d', c') /\
         X' = (d', y, set_nth cs (fst m) c')) \/
       ((f_pending c = [] \/ f_tgt c = None) /\
        ((exists s rows c', index_due y t c = Some (s, rows) /\ begin_index V cfg ewrite B y c s rows = Ok c' /\
            X' = (d, y, set_nth cs (fst m) c')) \/
         (exists y', index_due y t c = None /\ bstep P h y m = Ok y' /\
            X' = (d, y', set_nth cs (fst m) (ctl_step ewrite B (t_pc t) (match nth_error (snd y') (fst m) with Some t' => t_pc t' | None => Idle end) c)))))).
  Proof.
    unfold fstep. destruct (nth_error cs (fst m)) as [c|] eqn:Ec; [|intros H; left; congruence].
    destruct (nth_error (snd y) (fst m)) as [t|] eqn:Et; [|intros H; left; congruence].
    intros H. right. exists c, t. split; [auto|]. split; [auto|].
    assert (Hrest : (f_pending c = [] \/ f_tgt c = None) ->
      match index_due y t c with
      | Some (s, rows) => let* c' := begin_index V cfg ewrite B y c s rows in Ok (d, y, set_nth cs (fst m) c')
      | None => let* y' := bstep P h y m in
                let p' := match nth_error (snd y') (fst m) with Some t' => t_pc t' | None => Idle end in
                Ok (d, y', set_nth cs (fst m) (ctl_step ewrite B (t_pc t) p' c))
      end = Ok X' ->
      ((exists s rows c', index_due y t c = Some (s, rows) /\ begin_index V cfg ewrite B y c s rows = Ok c' /\
            X' = (d, y, set_nth cs (fst m) c')) \/
         (exists y', index_due y t c = None /\ bstep P h y m = Ok y' /\
            X' = (d, y', set_nth cs (fst m) (ctl_step ewrite B (t_pc t) (match nth_error (snd y') (fst m) with Some t' => t_pc t' | None => Idle end) c))))).
    { intros _ H1. destruct (index_due y t c) as [[s rows]|].
      - left. destruct (begin_index V cfg ewrite B y c s rows) as [c'|] eqn:Eb; [|discriminate]. cbn [obind] in H1.
        exists s, rows, c'. split; [auto|]. split; [auto|]. congruence.
      - right. destruct (bstep P h y m) as [y'|] eqn:Eb; [|discriminate]. cbn [obind] in H1. exists y'. split; [auto|]. split; [auto|]. congruence. }
    destruct (f_pending c) as [|o rest] eqn:Ep.
    - right. split; [auto|]. apply Hrest; auto.
    - destruct (f_tgt c) as [tg|] eqn:Eg.
      + left. destruct (do_fop d tg c o rest) as [d' c'] eqn:Eo. exists o, rest, tg, d', c'. repeat (split; [auto; fail|]). congruence.
      + right. split; [auto|]. apply Hrest; auto.
  Qed.

  Lemma bstep_cases P h (y : rsys S E I) m y' t : bstep P h y m = Ok y' -> nth_error (snd y) (fst m) = Some t ->
    exists t', thread_step V cpush cfg max (fst y) t (P h y (fst m)) (snd m) = Ok (fst y', t') /\
      snd y' = set_nth (snd y) (fst m) t' /\ nth_error (snd y') (fst m) = Some t'.
  Proof.
    unfold rsys_step. intros H Ht. rewrite Ht in H. destruct (thread_step V cpush cfg max (fst y) t _ _) as [[W' t']|] eqn:Es; [|discriminate].
    cbn [obind fst snd] in H. injection H as <-. exists t'. cbn [fst snd]. split; [auto|]. split; [auto|].
    apply nth_error_set_nth_eq. apply nth_error_Some. congruence.
  Qed.

  (** ** The invariant *)
  (** what thread [i] has written of its elements and of its index *)
  Definition phase (W : rw S) (s : S) (k : nat) (rows : list (list N)) (c : fctl) (done : list N) (idone : list wop) : Prop :=
    f_epos c = length done /\
    ((f_layers c = None /\ f_ipos c = 0 /\ idone = [] /\
      exists chunks, f_pending c = map FElems chunks /\
        done ++ concat chunks ++ concat (snd (bf_elems B (ewrite s))) = ewrite s) \/
     (exists ls ops irest chunks, f_layers c = Some ls /\ saved_layers V cfg s rows (w_prev W) = Ok ls /\
        length (w_cur W) <= k /\ write_index_ops (e_mode V) (FixWidth ls) 0 = Ok ops /\
        idone ++ irest = bf_index B ops /\ f_pending c = map FIndex irest ++ map FElems chunks /\
        done ++ concat chunks = ewrite s)).

  Definition others_on (cs : list fctl) (i : nat) (f : fname) : Prop :=
    exists j c ip ep, j <> i /\ nth_error cs j = Some c /\ f_tgt c = Some (ip, ep) /\ (f = ip \/ f = ep).

  (** the files hold what was written, or somebody else is in a save to them *)
  Definition files_ok (d : fdisk) (cs : list fctl) (i : nat) (ip ep : fname) (c : fctl) (done : list N) (idone : list wop) : Prop :=
    (others_on cs i ep \/ firstn (length done) (content d ep) = done) /\
    (others_on cs i ip \/ exists c0, cpos c0 = 0 /\ run_ops c0 idone = mkCursor (content d ip) (f_ipos c)).

  Definition opened_ok (d : fdisk) (W : rw S) (c : fctl) (ip ep : fname) : Prop :=
    (~ In FOpenE (f_pending c) -> d ep <> None /\ length (content d ep) <= length (ewrite (w_elems W))) /\
    (~ In FOpenI (f_pending c) -> d ip <> None).

  Definition place_ok (d : fdisk) (W : rw S) (cs : list fctl) (i : nat) (ip ep : fname) (c : fctl) (p : pc S E I) : Prop :=
    match p with
    | WGuard => f_layers c = None /\ f_epos c = 0 /\ f_ipos c = 0 /\
                (f_pending c = [FOpenE; FOpenI] \/ f_pending c = [FOpenI] \/ f_pending c = [])
    | WElems | WLayers | WData => f_layers c = None /\ f_epos c = 0 /\ f_ipos c = 0 /\ f_pending c = []
    | WRow s k rows => w_elems W = s /\ exists done idone, phase W s k rows c done idone /\ files_ok d cs i ip ep c done idone
    | _ => False
    end.

  Record finv (X : fsys S E I) : Prop := mkFinv {
    fi_lock : lock_inv (fs_base X);
    fi_len : length (fs_ctl X) = length (snd (fs_base X));
    fi_names : forall i c, nth_error (fs_ctl X) i = Some c -> incl (f_tgts c) T /\ (forall g, f_tgt c = Some g -> In (Some g) T);
    fi_none : forall i c, nth_error (fs_ctl X) i = Some c -> f_tgt c = None -> f_pending c = [] /\ f_layers c = None;
    fi_ctl : forall i t c ip ep, nth_error (snd (fs_base X)) i = Some t -> nth_error (fs_ctl X) i = Some c -> f_tgt c = Some (ip, ep) ->
      opened_ok (fs_disk X) (fst (fs_base X)) c ip ep /\
      place_ok (fs_disk X) (fst (fs_base X)) (fs_ctl X) i ip ep c (t_pc t)
  }.

  Lemma others_set cs i f j c c' : nth_error cs j = Some c -> (f_tgt c = None \/ f_tgt c' = f_tgt c) ->
    others_on cs i f -> others_on (set_nth cs j c') i f.
  Proof.
    intros Hj Hc (k & ck & ip & ep & Hk & Hn & Ht & Hf). exists k. destruct (Nat.eq_dec j k) as [<-|Hjk].
    - exists c', ip, ep. split; [auto|]. split; [apply nth_error_set_nth_eq, nth_error_Some; congruence|]. split; [|auto].
      assert (ck = c) by congruence. subst ck. destruct Hc; congruence.
    - exists ck, ip, ep. rewrite nth_error_set_nth_neq by auto. auto.
  Qed.

  Lemma apart ip ep ip' ep' : In (Some (ip, ep)) T -> In (Some (ip', ep')) T -> ip <> ep'.
  Proof. apply HT. Qed.

  (** ** A file operation *)
  Lemma fop_tgt d tg c o rest d' c' : do_fop d tg c o rest = (d', c') ->
    f_tgt c' = f_tgt c /\ f_tgts c' = f_tgts c /\ f_layers c' = f_layers c /\ f_pending c' = rest /\
    exists f b, d' = fput d f b /\
      match o with
      | FOpenE => f = snd tg /\ b = [] /\ f_epos c' = 0 /\ f_ipos c' = f_ipos c
      | FOpenI => f = fst tg /\ b = [] /\ f_epos c' = f_epos c /\ f_ipos c' = 0
      | FElems bs => f = snd tg /\ b = cbuf (cwrite (mkCursor (content d (snd tg)) (f_epos c)) bs) /\
                     f_epos c' = f_epos c + length bs /\ f_ipos c' = f_ipos c
      | FIndex o => f = fst tg /\ b = cbuf (run_op (mkCursor (content d (fst tg)) (f_ipos c)) o) /\
                    f_epos c' = f_epos c /\ f_ipos c' = cpos (run_op (mkCursor (content d (fst tg)) (f_ipos c)) o)
      end.
  Proof.
    unfold do_fop. destruct o; cbn beta zeta; intros H; apply pair_equal_spec in H as [<- <-]; cbn [f_tgt f_tgts f_layers f_pending f_epos f_ipos];
      (repeat (split; [reflexivity|])); eexists _, _; (split; [reflexivity|]); auto.
  Qed.

  Lemma content_put d f b g : content (fput d f b) g = if fname_dec g f then b else content d g.
  Proof. unfold content, fput. destruct (fname_dec g f); reflexivity. Qed.

  Lemma finv_fop d W ts cs i0 c t ip ep o rest d' c' :
    finv (d, (W, ts), cs) -> nth_error cs i0 = Some c -> nth_error ts i0 = Some t ->
    f_pending c = o :: rest -> f_tgt c = Some (ip, ep) -> do_fop d (ip, ep) c o rest = (d', c') ->
    finv (d', (W, ts), set_nth cs i0 c').
  Proof.
    intros HI Hc Ht Hp Hg Ho. destruct HI as [HL Hlen Hn Hnone Hctl]. unfold fs_base, fs_ctl, fs_disk in *. cbn [fst snd] in *.
    destruct (fop_tgt Ho) as (Eg & Egs & El & Ep' & f & b & Ed & Hop). cbn [fst snd] in Hop.
    destruct (Hctl _ _ _ _ _ Ht Hc Hg) as [[HoE HoI] Hpl].
    assert (HinT : In (Some (ip, ep)) T) by (apply (proj2 (Hn _ _ Hc)); auto).
    assert (Hi0 : i0 < length cs) by (apply nth_error_Some; congruence).
    assert (Hie : ip <> ep) by (eapply apart; eauto).
    assert (Hf : f = ip \/ f = ep) by (destruct o; intuition).
    (* the writer itself *)
    assert (Hown : opened_ok d' W c' ip ep /\ place_ok d' W (set_nth cs i0 c') i0 ip ep c' (t_pc t) /\
                   (f = ep -> length b <= length (ewrite (w_elems W)))).
    { destruct (t_pc t) as [ | | | | | | | | | | | | | | | | | | | | | |s k rows] eqn:Epc; cbn [place_ok] in Hpl; try contradiction.
      - (* WGuard *) destruct Hpl as (H1 & H2 & H3 & H4). rewrite Hp in H4.
        destruct H4 as [H4|[H4|H4]]; [| |discriminate]; injection H4 as -> ->.
        + destruct Hop as (-> & -> & He & Hi). split; [|split; [|cbn; lia]].
          * split; rewrite Ep'.
            -- intros _. rewrite Ed, fput_same, content_put. destruct (fname_dec ep ep); [|congruence]. cbn [length]. split; [discriminate|lia].
            -- intros Hno. exfalso. apply Hno. left. reflexivity.
          * cbn [place_ok]. rewrite El, He, Hi, Ep'. auto 6.
        + destruct Hop as (-> & -> & He & Hi). split; [|split; [|congruence]].
          * split; rewrite Ep'; intros _.
            -- rewrite Ed, fput_other, content_put by auto. destruct (fname_dec ep ip); [congruence|]. apply HoE. rewrite Hp. intros [H|[]]. discriminate.
            -- rewrite Ed, fput_same. discriminate.
          * cbn [place_ok]. rewrite El, He, Hi, Ep'. auto 6.
      - destruct Hpl as (_ & _ & _ & H). congruence.
      - destruct Hpl as (_ & _ & _ & H). congruence.
      - destruct Hpl as (_ & _ & _ & H). congruence.
      - (* WRow *) destruct Hpl as (Es & done & idone & Hph & HfE & HfI).
        assert (Hoe : forall g, others_on cs i0 g -> others_on (set_nth cs i0 c') i0 g) by (intros g; eapply others_set; eauto).
        assert (Helem : forall bs chunks, o = FElems bs -> f_epos c = length done -> done ++ concat (bs :: chunks) = ewrite s ->
                  length b <= length (ewrite (w_elems W)) /\
                  (others_on (set_nth cs i0 c') i0 ep \/ firstn (length (done ++ bs)) (content d' ep) = done ++ bs) /\
                  f_epos c' = length (done ++ bs) /\ f_ipos c' = f_ipos c /\ content d' ip = content d ip /\ d' ep <> None /\
                  length (content d' ep) <= length (ewrite (w_elems W)) /\ d' ip = d ip).
        { intros bs chunks -> Hpos Hall. destruct Hop as (-> & Eb & He & Hi).
          assert (Hlb : length b <= length (ewrite (w_elems W))).
          { rewrite Eb, cwrite_length. cbn [cbuf cpos]. rewrite Es, <- Hall, Hpos.
            assert (Hl0 : length (content d ep) <= length (ewrite (w_elems W))).
            { apply HoE. rewrite Hp. intros Hin. destruct Hph as [_ Hph]. rewrite Hp in Hph.
              destruct Hph as [(_ & _ & _ & ch & Hch & _)|(ls & ops & irest & ch & _ & _ & _ & _ & _ & Hch & _)]; rewrite Hch in Hin.
              - apply in_map_iff in Hin as (? & ? & _). discriminate.
              - apply in_app_iff in Hin as [Hin|Hin]; apply in_map_iff in Hin as (? & ? & _); discriminate. }
            rewrite Es, <- Hall in Hl0. rewrite !app_length in *. cbn [concat] in *. rewrite !app_length in *. destruct bs; lia. }
          split; [exact Hlb|]. split; [|split; [|split; [|split; [|split; [|split]]]]].
          - destruct HfE as [H|H]; [left; auto|right]. rewrite Ed, content_put. destruct (fname_dec ep ep); [|congruence].
            rewrite Eb, Hpos, app_length. apply cwrite_prefix. exact H.
          - rewrite He, Hpos, app_length. reflexivity.
          - exact Hi.
          - rewrite Ed, content_put. destruct (fname_dec ip ep); [congruence|reflexivity].
          - rewrite Ed, fput_same. discriminate.
          - rewrite Ed, content_put. destruct (fname_dec ep ep); [|congruence]. exact Hlb.
          - rewrite Ed, fput_other by auto. reflexivity. }
        assert (HnoI : ~ In FOpenI (f_pending c) /\ ~ In FOpenE (f_pending c)).
        { destruct Hph as [_ Hph].
          destruct Hph as [(_ & _ & _ & ch & Hch & _)|(ls & ops & irest & ch & _ & _ & _ & _ & _ & Hch & _)]; rewrite Hch;
            (split; intros Hin; [|]); repeat apply in_app_iff in Hin as [Hin|Hin]; apply in_map_iff in Hin as (? & ? & _); discriminate. }
        destruct HnoI as [HnI HnE].
        destruct Hph as [Hpos [(H1 & H2 & H3 & ch & Hch & Hall)|(ls & ops & irest & ch & H1 & H2 & H3 & H4 & H5 & Hch & Hall)]].
        + (* elements *) rewrite Hp in Hch. destruct ch as [|bs ch]; [discriminate|]. cbn [map] in Hch. injection Hch as -> ->.
          destruct (Helem bs (ch ++ snd (bf_elems B (ewrite s))) eq_refl Hpos) as (K1 & K2 & K3 & K4 & K5 & K6 & K7 & K8).
          { cbn [concat]. rewrite concat_app. cbn [concat] in Hall. rewrite <- app_assoc in Hall. exact Hall. }
          split; [|split; [|auto]].
          * split; intros _; [auto|rewrite K8; auto].
          * cbn [place_ok]. split; [auto|]. exists (done ++ bs), idone. split; [split; [exact K3|left]|split; [exact K2|]].
            -- rewrite El, K4, Ep'. split; [auto|]. split; [auto|]. split; [auto|]. exists ch. split; [auto|]. cbn [concat] in Hall. rewrite <- !app_assoc in *. exact Hall.
            -- destruct HfI as [H|(c0 & Hc0 & H)]; [left; auto|right]. exists c0. rewrite K4, K5. auto.
        + destruct irest as [|w irest].
          * (* the last elements *) cbn [map app] in Hch. rewrite Hp in Hch. destruct ch as [|bs ch]; [discriminate|]. cbn [map] in Hch. injection Hch as -> ->.
            destruct (Helem bs ch eq_refl Hpos Hall) as (K1 & K2 & K3 & K4 & K5 & K6 & K7 & K8).
            split; [|split; [|auto]].
            -- split; intros _; [auto|rewrite K8; auto].
            -- cbn [place_ok]. split; [auto|]. exists (done ++ bs), idone. split; [split; [exact K3|right]|split; [exact K2|]].
               ++ exists ls, ops, [], ch. rewrite El, Ep'. repeat (split; [auto; fail|]). rewrite <- app_assoc. exact Hall.
               ++ destruct HfI as [H|(c0 & Hc0 & H)]; [left; auto|right]. exists c0. rewrite K4, K5. auto.
          * (* the index *) cbn [map app] in Hch. rewrite Hp in Hch. injection Hch as -> ->. destruct Hop as (-> & Eb & He & Hi).
            split; [|split; [|congruence]].
            -- split; intros _; rewrite Ed.
               ++ rewrite fput_other, content_put by auto. destruct (fname_dec ep ip); [congruence|auto].
               ++ rewrite fput_same. discriminate.
            -- cbn [place_ok]. split; [auto|]. exists done, (idone ++ [w]). split; [split; [congruence|right]|split].
               ++ exists ls, ops, irest, ch. rewrite El, Ep', <- app_assoc. auto 10.
               ++ rewrite Ed, content_put. destruct (fname_dec ep ip); [congruence|]. destruct HfE; auto.
               ++ destruct HfI as [H|(c0 & Hc0 & H)]; [left; auto|right]. exists c0. split; [auto|]. rewrite run_ops_snoc, H, Ed, content_put.
                  destruct (fname_dec ip ip); [|congruence]. rewrite Eb, Hi. destruct (run_op _ w); reflexivity. }
    destruct Hown as (Hown1 & Hown2 & Hlb).
    constructor; unfold fs_base, fs_ctl, fs_disk; cbn [fst snd].
    - exact HL.
    - rewrite set_nth_length. exact Hlen.
    - intros i c1 H1. rewrite nth_error_set_nth in H1. destruct ((i0 =? i) && (i0 <? length cs)); [|eauto].
      injection H1 as <-. rewrite Egs, Eg. eauto.
    - intros i c1 H1 H2. rewrite nth_error_set_nth in H1. destruct ((i0 =? i) && (i0 <? length cs)); [|eauto]. injection H1 as <-. congruence.
    - intros i t1 c1 ip1 ep1 H1 H2 H3. destruct (Nat.eq_dec i0 i) as [<-|Hne].
      + rewrite nth_error_set_nth_eq in H2 by auto. injection H2 as <-. rewrite Eg, Hg in H3. injection H3 as <- <-.
        rewrite Ht in H1. injection H1 as <-. auto.
      + rewrite nth_error_set_nth_neq in H2 by auto. destruct (Hctl _ _ _ _ _ H1 H2 H3) as [[K1 K2] K3].
        assert (HinT1 : In (Some (ip1, ep1)) T) by (apply (proj2 (Hn _ _ H2)); auto).
        assert (HonF : forall g, g = f -> others_on (set_nth cs i0 c') i g).
        { intros g ->. exists i0, c', ip, ep. split; [auto|]. split; [apply nth_error_set_nth_eq; auto|]. split; [congruence|auto]. }
        assert (Hoo : forall g, others_on cs i g -> others_on (set_nth cs i0 c') i g) by (intros g; eapply others_set; eauto).
        split.
        * split; intros Hno; rewrite Ed.
          -- destruct (fname_dec ep1 f) as [Ef|Ef].
             ++ rewrite content_put, Ef, fput_same. destruct (fname_dec f f); [|congruence]. split; [discriminate|]. apply Hlb.
                destruct Hf as [Hf|Hf]; [|auto]. exfalso. eapply (apart HinT HinT1). congruence.
             ++ rewrite fput_other, content_put by auto. destruct (fname_dec ep1 f); [congruence|auto].
          -- unfold fput. destruct (fname_dec ip1 f); [discriminate|auto].
        * destruct (t_pc t1) as [ | | | | | | | | | | | | | | | | | | | | | |s k rows]; cbn [place_ok] in *; auto.
          destruct K3 as (Es & done & idone & Hph & HfE & HfI). split; [auto|]. exists done, idone. split; [auto|]. split.
          -- destruct (fname_dec ep1 f); [left; auto|]. rewrite Ed, content_put. destruct (fname_dec ep1 f); [congruence|]. destruct HfE; auto.
          -- destruct (fname_dec ip1 f); [left; auto|]. rewrite Ed, content_put. destruct (fname_dec ip1 f); [congruence|]. destruct HfI; auto.
  Qed.

  (** ** The start of [write_index] *)
  Lemma index_due_inv y t c s rows : index_due (S := S) (E := E) (I := I) y t c = Some (s, rows) ->
    exists k, t_pc t = WRow s k rows /\ (exists g, f_tgt c = Some g) /\ f_layers c = None /\ length (w_cur (fst y)) <= k.
  Proof.
    unfold index_due. destruct (t_pc t); try discriminate. destruct (f_tgt c) as [g|]; [|discriminate].
    destruct (f_layers c); [discriminate|]. destruct (Nat.leb_spec (length (w_cur (fst y))) k); [|discriminate].
    intros H1. injection H1 as -> ->. eauto 6.
  Qed.

  Lemma finv_begin d W ts cs i0 c t s rows c' :
    finv (d, (W, ts), cs) -> nth_error cs i0 = Some c -> nth_error ts i0 = Some t ->
    (f_pending c = [] \/ f_tgt c = None) -> index_due (W, ts) t c = Some (s, rows) ->
    begin_index V cfg ewrite B (W, ts) c s rows = Ok c' -> finv (d, (W, ts), set_nth cs i0 c').
  Proof.
    intros HI Hc Ht Hp Hdue Hb. destruct HI as [HL Hlen Hn Hnone Hctl]. unfold fs_base, fs_ctl, fs_disk in *. cbn [fst snd] in *.
    destruct (index_due_inv Hdue) as (k & Epc & ([ip ep] & Hg) & Hla & Hk). cbn [fst] in Hk.
    assert (Hp0 : f_pending c = []) by (destruct Hp; congruence).
    unfold begin_index in Hb. cbn [fst] in Hb.
    destruct (saved_layers V cfg s rows (w_prev W)) as [ls|] eqn:Els; [|discriminate]. cbn [obind] in Hb.
    destruct (write_index_ops (e_mode V) (FixWidth ls) (f_ipos c)) as [ops|] eqn:Eops; [|discriminate]. cbn [obind] in Hb. injection Hb as <-.
    set (c' := mkFctl _ _ _ _ _ _).
    assert (Hi0 : i0 < length cs) by (apply nth_error_Some; congruence).
    assert (Hoo : forall i g, others_on cs i g -> others_on (set_nth cs i0 c') i g).
    { intros i g. apply (others_set (c := c)); auto. }
    constructor; unfold fs_base, fs_ctl, fs_disk; cbn [fst snd].
    - exact HL.
    - rewrite set_nth_length. exact Hlen.
    - intros i c1 H1. rewrite nth_error_set_nth in H1. destruct ((i0 =? i) && (i0 <? length cs)); [|eauto].
      injection H1 as <-. cbn [f_tgts f_tgt c']. eauto.
    - intros i c1 H1 H2. rewrite nth_error_set_nth in H1. destruct ((i0 =? i) && (i0 <? length cs)); [|eauto]. injection H1 as <-. cbn in H2. congruence.
    - intros i t1 c1 ip1 ep1 H1 H2 H3. destruct (Nat.eq_dec i0 i) as [<-|Hne].
      + rewrite nth_error_set_nth_eq in H2 by auto. injection H2 as <-. cbn [f_tgt c'] in H3. rewrite Hg in H3. injection H3 as <- <-.
        rewrite Ht in H1. injection H1 as <-. destruct (Hctl _ _ _ _ _ Ht Hc Hg) as [[K1 K2] K3]. rewrite Hp0 in K1, K2.
        split; [split; intros _; auto|]. rewrite Epc in *. cbn [place_ok] in *.
        destruct K3 as (Es & done & idone & [Hpos Hph] & HfE & HfI). split; [auto|]. exists done, idone.
        destruct Hph as [(_ & Hip & -> & ch & Hch & Hall)|(ls' & ops' & irest & ch & H1 & _)]; [|congruence].
        rewrite Hp0 in Hch. destruct ch; [|discriminate]. cbn [concat app] in Hall. rewrite Hip in Eops.
        split; [split; [exact Hpos|right]|split].
        * exists ls, ops, (bf_index B ops), (snd (bf_elems B (ewrite s))). repeat (split; [auto; fail|]). auto.
        * destruct HfE; auto.
        * destruct HfI as [H|H]; [left; auto|right]. cbn [f_ipos c']. exact H.
      + rewrite nth_error_set_nth_neq in H2 by auto. destruct (Hctl _ _ _ _ _ H1 H2 H3) as [K1 K3]. split; [exact K1|].
        destruct (t_pc t1); cbn [place_ok] in *; auto.
        destruct K3 as (Es & done & idone & Hph & HfE & HfI). split; [auto|]. exists done, idone. split; [auto|].
        split; [destruct HfE; auto|destruct HfI; auto].
  Qed.

  (** ** A step of the builder *)
  Lemma ctl_names p p' c : (incl (f_tgts c) T /\ (forall g, f_tgt c = Some g -> In (Some g) T)) ->
    incl (f_tgts (ctl_step (S := S) (E := E) (I := I) ewrite B p p' c)) T /\
    (forall g, f_tgt (ctl_step (S := S) (E := E) (I := I) ewrite B p p' c) = Some g -> In (Some g) T).
  Proof.
    intros [H1 H2]. destruct p; cbn [ctl_step]; auto; destruct p'; auto.
    - cbn [f_tgts f_tgt]. split.
      + intros x Hx. apply H1. destruct (f_tgts c); [destruct Hx|right; auto].
      + intros g Hg. destruct (f_tgts c) as [|t0 l]; [discriminate|]. subst t0. apply H1. left. reflexivity.
    - destruct (f_tgt c) as [g|] eqn:Eg; cbn [f_tgts f_tgt]; split; auto; intros; apply H2; congruence.
    - cbn [f_tgts f_tgt]. split; auto. discriminate.
  Qed.

  Lemma ctl_none p p' c : (f_tgt c = None -> f_pending c = [] /\ f_layers c = None) ->
    let c' := ctl_step (S := S) (E := E) (I := I) ewrite B p p' c in f_tgt c' = None -> f_pending c' = [] /\ f_layers c' = None.
  Proof.
    intros H c'. unfold c'. destruct p; cbn [ctl_step]; auto; destruct p'; auto.
    - cbn [f_tgts f_tgt f_pending f_layers]. intros ->. auto.
    - destruct (f_tgt c) as [g|] eqn:Eg; cbn [f_tgts f_tgt f_pending f_layers]; auto. discriminate.
  Qed.

  (** the targets of a thread change only when it is called and when it returns *)
  Lemma ctl_keeps p p' c g : f_tgt c = Some g -> p <> Idle -> (forall s k rows, p = WRow s k rows -> p' <> Idle) ->
    f_tgt (ctl_step (S := S) (E := E) (I := I) ewrite B p p' c) = Some g.
  Proof.
    intros H Hp Hw. destruct p; cbn [ctl_step]; auto; try congruence; destruct p'; auto.
    - rewrite H. reflexivity.
    - exfalso. eapply Hw; reflexivity.
  Qed.

  Lemma finv_base P h d W ts cs m c t y' : safe_locks P ->
    finv (d, (W, ts), cs) -> nth_error cs (fst m) = Some c -> nth_error ts (fst m) = Some t ->
    (f_pending c = [] \/ f_tgt c = None) -> index_due (W, ts) t c = None -> bstep P h (W, ts) m = Ok y' ->
    finv (d, y', set_nth cs (fst m) (ctl_step ewrite B (t_pc t) (match nth_error (snd y') (fst m) with Some t' => t_pc t' | None => Idle end) c)).
  Proof.
    intros HP HI Hc Ht Hp Hdue Hs. destruct HI as [HL Hlen Hn Hnone Hctl]. unfold fs_base, fs_ctl, fs_disk in *. cbn [fst snd] in *.
    pose proof (step_lock HP HL Hs) as HL'.
    destruct (bstep_cases (y := (W, ts)) (t := t) Hs Ht) as (t' & Est & Ets & Ht'). cbn [fst snd] in Est, Ets. rewrite Ht'.
    destruct y' as [W' ts']. cbn [fst snd] in *. subst ts'.
    destruct (step_shared Est) as (Hse & Hsp & Hsc). pose proof (step_write Est) as Hsw.
    set (c' := ctl_step ewrite B (t_pc t) (t_pc t') c) in *.
    assert (Hi0 : fst m < length cs) by (apply nth_error_Some; congruence).
    assert (Hi1 : fst m < length ts) by (apply nth_error_Some; congruence).
    assert (Hgrow : length (ewrite (w_elems W)) <= length (ewrite (w_elems W'))).
    { destruct Hse as [->|[_ (x & Hx)]]; [lia|]. eapply HG; eauto. }
    constructor; unfold fs_base, fs_ctl, fs_disk; cbn [fst snd].
    - exact HL'.
    - rewrite !set_nth_length. exact Hlen.
    - intros i c1 H1. rewrite nth_error_set_nth in H1. destruct ((fst m =? i) && (fst m <? length cs)); [|eauto].
      injection H1 as <-. apply ctl_names. eauto.
    - intros i c1 H1. rewrite nth_error_set_nth in H1. destruct ((fst m =? i) && (fst m <? length cs)); [|eauto]. injection H1 as <-.
      apply ctl_none. eauto.
    - intros i t1 c1 ip ep H1 H2 H3. destruct (Nat.eq_dec (fst m) i) as [<-|Hne].
      + (* the thread that moved *)
        rewrite nth_error_set_nth_eq in H2 by auto. rewrite nth_error_set_nth_eq in H1 by auto. injection H1 as <-. injection H2 as <-.
        assert (Hst : forall g, f_tgt c = Some g -> f_pending c = []) by (intros g Hg; destruct Hp; congruence).
        destruct (t_pc t) as [ | | | | | | | | | | | | | | | | | | | | | |s k rows] eqn:Epc;
          try (exfalso; unfold c' in H3; cbn [ctl_step] in H3; destruct (Hctl _ _ _ _ _ Ht Hc H3) as [_ Hpl]; rewrite Epc in Hpl; exact Hpl).
        * (* Idle *)
          destruct (t_pc t') as [ | | | | | | | | | | | | | | | | | | | | | |s k rows] eqn:Epc';
            try (exfalso; unfold c' in H3; cbn [ctl_step] in H3; destruct (Hctl _ _ _ _ _ Ht Hc H3) as [_ Hpl]; rewrite Epc in Hpl; exact Hpl).
          unfold c' in *. cbn [ctl_step f_tgt] in H3 |- *.
          split.
          -- split; cbn [f_pending]; rewrite H3; intros Hno; exfalso; apply Hno; cbn; auto.
          -- cbn [place_ok f_layers f_epos f_ipos f_pending]. rewrite H3. auto 6.
        * (* WGuard *)
          assert (Ec' : c' = c) by (unfold c'; destruct Hsw as [-> | ->]; reflexivity). rewrite Ec' in *.
          destruct (Hctl _ _ _ _ _ Ht Hc H3) as [[K1 K2] K3]. rewrite Epc in K3. cbn [place_ok] in K3. pose proof (Hst _ H3) as Hp0.
          split; [split; auto; intros Hno; destruct (K1 Hno); split; auto; lia|].
          destruct K3 as (K3 & K4 & K5 & K6). destruct Hsw as [-> | ->]; cbn [place_ok]; auto.
        * assert (Ec' : c' = c) by (unfold c'; destruct Hsw as [-> | ->]; reflexivity). rewrite Ec' in *.
          destruct (Hctl _ _ _ _ _ Ht Hc H3) as [[K1 K2] K3]. rewrite Epc in K3. cbn [place_ok] in K3.
          split; [split; auto; intros Hno; destruct (K1 Hno); split; auto; lia|].
          destruct Hsw as [-> | ->]; cbn [place_ok]; auto.
        * assert (Ec' : c' = c) by (unfold c'; destruct Hsw as [-> | ->]; reflexivity). rewrite Ec' in *.
          destruct (Hctl _ _ _ _ _ Ht Hc H3) as [[K1 K2] K3]. rewrite Epc in K3. cbn [place_ok] in K3.
          split; [split; auto; intros Hno; destruct (K1 Hno); split; auto; lia|].
          destruct Hsw as [-> | ->]; cbn [place_ok]; auto.
        * (* WData *)
          assert (HWW : w_elems W' = w_elems W).
          { destruct Hse as [H|[H _]]; auto. rewrite ?Epc in H; cbn in H; intuition discriminate. }
          unfold c' in *. rewrite Hsw in *. cbn [ctl_step] in *.
          destruct (f_tgt c) as [g|] eqn:Eg; [|congruence]. cbn [f_tgt] in H3. injection H3 as ->.
          destruct (Hctl _ _ _ _ _ Ht Hc Eg) as [[K1 K2] K3]. rewrite Epc in K3. cbn [place_ok] in K3. destruct K3 as (K3 & K4 & K5 & K6).
          rewrite K6 in K1, K2. split.
          -- split; cbn [f_pending]; intros _; [destruct (K1 (fun H => H)); split; auto; lia|auto].
          -- cbn [place_ok]. split; [auto|]. exists [], []. split; [split; [auto|left]|split].
             ++ cbn [f_layers f_ipos f_pending]. repeat (split; [auto; fail|]). exists (fst (bf_elems B (ewrite (w_elems W)))). split; [auto|].
                cbn [app]. rewrite <- concat_app. apply (kb_elems B HB).
             ++ right. reflexivity.
             ++ right. exists (mkCursor (content d ip) 0). cbn [cpos f_ipos]. rewrite K5. split; reflexivity.
        * (* WRow *)
          assert (HWW : w_elems W' = w_elems W /\ w_prev W' = w_prev W /\ length (w_cur W') = length (w_cur W)).
          { rewrite ?Epc in Hse, Hsp, Hsc; cbn [guards In] in Hse, Hsp, Hsc.
            repeat split; [destruct Hse as [H|[H _]]|destruct Hsp as [H|H]|destruct Hsc as [H|H]]; auto; intuition discriminate. }
          destruct HWW as (He & Hpv & Hcu).
          destruct Hsw as [(Hk & row & Hpc')|(Hk & Hpc' & _)].
          2:{ exfalso. unfold c' in H3. rewrite Hpc' in H3. cbn [ctl_step f_tgt] in H3. discriminate. }
          assert (Ec' : c' = c) by (unfold c'; rewrite Hpc'; reflexivity). rewrite Ec' in *.
          destruct (Hctl _ _ _ _ _ Ht Hc H3) as [[K1 K2] K3]. rewrite Epc in K3. cbn [place_ok] in K3.
          split; [split; auto; intros Hno; destruct (K1 Hno); split; auto; lia|].
          rewrite Hpc'. cbn [place_ok]. destruct K3 as (Es & done & idone & [Hpos Hph] & HfE & HfI). split; [congruence|].
          exists done, idone.
          assert (Hoo : forall g, others_on cs (fst m) g -> others_on (set_nth cs (fst m) c) (fst m) g).
          { intros g. apply (others_set (c := c)); auto. }
          destruct Hph as [Hph|(ls & ops & irest & ch & _ & _ & Hk' & _)]; [|lia].
          split; [split; [auto|left; auto]|]. split; [destruct HfE; auto|destruct HfI; auto].
      + (* another thread *)
        rewrite nth_error_set_nth_neq in H1 by auto. rewrite nth_error_set_nth_neq in H2 by auto.
        destruct (Hctl _ _ _ _ _ H1 H2 H3) as [[K1 K2] K3].
        split; [split; auto; intros Hno; destruct (K1 Hno); split; auto; lia|].
        assert (Hconf : forall l a, In (l, AWrite) (guards (t_pc t)) -> In (l, a) (guards (t_pc t1)) -> False).
        { intros l a Ha Hb. destruct (li_compat HL Hne Ht H1 Ha Hb). discriminate. }
        destruct (t_pc t1) as [ | | | | | | | | | | | | | | | | | | | | | |s k rows] eqn:Ep1; cbn [place_ok] in *; auto.
        assert (He : w_elems W' = w_elems W).
        { destruct Hse as [H|[H _]]; auto. exfalso. eapply Hconf; [exact H|]. cbn. auto. }
        assert (Hpv : w_prev W' = w_prev W).
        { destruct Hsp as [H|H]; auto. exfalso. eapply Hconf; [exact H|]. cbn. auto. }
        assert (Hcu : length (w_cur W') = length (w_cur W)).
        { destruct Hsc as [H|H]; auto. exfalso. eapply Hconf; [exact H|]. cbn. auto. }
        destruct K3 as (Es & done & idone & Hph & HfE & HfI). split; [congruence|]. exists done, idone.
        split; [unfold phase in *; rewrite Hpv, Hcu; exact Hph|].
        assert (Hoo : forall g, others_on cs i g -> others_on (set_nth cs (fst m) c') i g).
        { intros g. apply (others_set (c := c)); auto.
          destruct (f_tgt c) as [g0|] eqn:Eg; [right|auto]. apply ctl_keeps; auto.
          - intros Ei. destruct g0 as [ip0 ep0]. destruct (Hctl _ _ _ _ _ Ht Hc Eg) as [_ Hpl]. rewrite Ei in Hpl. exact Hpl.
          - intros s0 k0 r0 Ew _. eapply (Hconf LWrite AWrite); [rewrite Ew; cbn; auto|cbn; auto]. }
        split; [destruct HfE; auto|destruct HfI; auto].
  Qed.

  (** ** Runs *)
  Lemma finv_step P h X m X' : safe_locks P -> finv X -> fs P h X m = Ok X' -> finv X'.
  Proof.
    intros HP HI Hs. destruct X as [[d [W ts]] cs]. apply fstep_cases in Hs as [->|(c & t & Hc & Ht & Hs)]; auto.
    destruct Hs as [(o & rest & [ip ep] & d' & c' & Hp & Hg & Ho & ->)|(Hp & [(s & rows & c' & Hdue & Hb & ->)|(y' & Hdue & Hb & ->)])].
    - eapply finv_fop; eauto.
    - eapply finv_begin; eauto.
    - eapply finv_base; eauto.
  Qed.

  Lemma finv_run P sched : safe_locks P -> forall h X X', finv X -> frun V cpush cfg max ewrite B P h sched X = Ok X' -> finv X'.
  Proof.
    intros HP. induction sched as [|m sched IH]; intros h X X' HI; cbn [frun].
    - intros H. injection H as <-. auto.
    - destruct (fs P h X m) as [X1|] eqn:E1; [|discriminate]. cbn [obind]. apply IH. eapply finv_step; eauto.
  Qed.

  Lemma finv_start d W (progs : list (list (rcall E I) * list (option target))) :
    T = concat (map snd progs) -> finv (fstart d W progs).
  Proof.
    intros ET. unfold fstart. constructor; unfold fs_base, fs_ctl, fs_disk; cbn [fst snd].
    - apply start_lock.
    - unfold rstart. cbn [snd]. rewrite !map_length. reflexivity.
    - intros i c H. rewrite nth_error_map in H. destruct (nth_error progs i) as [p|] eqn:Ep; [|discriminate]. cbn in H. injection H as <-. cbn [f_tgts f_tgt].
      split; [|discriminate]. intros x Hx. rewrite ET. apply in_concat. exists (snd p). split; [|auto]. apply in_map. eapply nth_error_In; eauto.
    - intros i c H _. rewrite nth_error_map in H. destruct (nth_error progs i) as [p|]; [|discriminate]. cbn in H. injection H as <-. auto.
    - intros i t c ip ep _ H Hg. rewrite nth_error_map in H. destruct (nth_error progs i) as [p|]; [|discriminate]. cbn in H. injection H as <-. discriminate.
  Qed.
End Files.
