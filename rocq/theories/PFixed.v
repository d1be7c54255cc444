(** * Proofs about fixed-width slice vectors *)
From Verif Require Import Base BaseFacts Bytes PBytes MSliceVec SSliceVec.
Set Implicit Arguments.

Section S.
  Context {T : Type}.
  Implicit Types (rows : list (list T)) (v : fw T) (w i : nat).

  Lemma skipn_concat rows w i :
    Forall (fun r => length r = w) rows -> i <= length rows ->
    skipn (i * w) (concat rows) = concat (skipn i rows).
  Proof.
    intros H; revert i; induction H as [|r rows Hr Hrows IH]; intros i Hi.
    - cbn in Hi. assert (i = 0) by lia. subst. reflexivity.
    - destruct i as [|i]; [reflexivity|]. cbn [skipn concat Nat.mul].
      rewrite skipn_app, Hr. rewrite skipn_all2 by lia. cbn [app].
      replace (w + i * w - w) with (i * w) by lia. apply IH. cbn in Hi. lia.
  Qed.

  Lemma firstn_concat rows w i :
    Forall (fun r => length r = w) rows -> i <= length rows ->
    firstn (i * w) (concat rows) = concat (firstn i rows).
  Proof.
    intros H; revert i; induction H as [|r rows Hr Hrows IH]; intros i Hi.
    - cbn in Hi. assert (i = 0) by lia. subst. reflexivity.
    - destruct i as [|i]; [reflexivity|]. cbn [firstn concat Nat.mul].
      rewrite firstn_app, Hr. rewrite firstn_all2 by lia.
      replace (w + i * w - w) with (i * w) by lia. f_equal. apply IH. cbn in Hi. lia.
  Qed.

  Lemma skipn_nth_error {A} (l : list A) i x :
    nth_error l i = Some x -> skipn i l = x :: skipn (S i) l.
  Proof.
    revert i; induction l as [|h t IH]; intros [|i] H; cbn in *; try discriminate.
    - now inversion H.
    - now apply IH.
  Qed.

  Lemma slice_concat rows w i r :
    Forall (fun r => length r = w) rows -> nth_error rows i = Some r ->
    slice (concat rows) (i * w) (i * w + w) = Ok r.
  Proof.
    intros H Hi. assert (Hlt : i < length rows) by (apply nth_error_Some; congruence).
    apply slice_ok. rewrite (concat_length_const H). repeat split.
    - lia.
    - enough (i * w + w = (S i) * w) by nia. lia.
    - rewrite skipn_concat by (auto; lia). replace (i * w + w - i * w) with w by lia.
      rewrite (skipn_nth_error _ _ Hi). cbn [concat].
      rewrite firstn_app.
      assert (Hr : length r = w).
      { rewrite Forall_forall in H. apply H. eapply nth_error_In; eauto. }
      rewrite firstn_all2 by lia. rewrite Hr, Nat.sub_diag. cbn. now rewrite app_nil_r.
  Qed.

  Lemma fw_is_len w rows v : 0 < w -> fw_is w rows v -> fw_len v = length rows.
  Proof.
    intros Hw (E & D & F). unfold fw_len. rewrite E, D, (concat_length_const F).
    destruct (Nat.ltb_spec 0 w); [|lia]. apply Nat.div_mul. lia.
  Qed.

  Lemma fw_is_get m w rows v i r :
    0 < w -> fw_is w rows v -> nth_error rows i = Some r -> fw_get m v i = Ok r.
  Proof.
    intros Hw H Hi. assert (Hlt : i < length rows) by (apply nth_error_Some; congruence).
    unfold fw_get. rewrite (fw_is_len Hw H). destruct H as (E & D & F).
    apply Nat.ltb_lt in Hlt as Hb. rewrite Hb.
    replace (debug_assert m true) with (@Ok unit tt) by (destruct m; reflexivity).
    cbn [obind]. rewrite E, D. replace ((i + 1) * w) with (i * w + w) by lia.
    now apply slice_concat.
  Qed.

  Lemma fw_is_get_out m w rows v i :
    0 < w -> fw_is w rows v -> length rows <= i -> fw_get m v i = Fail Panicked.
  Proof.
    intros Hw H Hi. unfold fw_get. rewrite (fw_is_len Hw H). destruct H as (E & D & F).
    apply Nat.ltb_ge in Hi as Hb. rewrite Hb. destruct m; [reflexivity|]. cbn.
    unfold slice. rewrite E, D, (concat_length_const F).
    replace ((i + 1) * w <=? length rows * w) with false.
    - now rewrite andb_false_r.
    - symmetry. apply Nat.leb_gt. nia.
  Qed.

  Lemma fw_is_iter w rows v : 0 < w -> fw_is w rows v -> fw_iter v = Ok rows.
  Proof.
    intros Hw (E & D & F). unfold fw_iter. rewrite E, D.
    apply Nat.ltb_lt in Hw as Hb. rewrite Hb. cbn. now rewrite chunks_of_concat.
  Qed.

  (** every vector with a data length divisible by a positive width is a list of rows *)
  Lemma fw_is_exists v :
    0 < fwidth v -> length (fdata v) mod fwidth v = 0 ->
    exists rows, fw_is (fwidth v) rows v.
  Proof.
    intros Hw Hm. exists (chunks_exact (fwidth v) (fdata v)).
    destruct (chunks_exact_n_spec (length (fdata v) / fwidth v) (fwidth v) (fdata v)) as [HL HF].
    assert (HE : length (fdata v) = length (fdata v) / fwidth v * fwidth v).
    { rewrite (Nat.div_mod (length (fdata v)) (fwidth v)) at 1 by lia. lia. }
    destruct HF as [HF HC]; [lia|].
    split; [reflexivity|]. split; auto.
    unfold chunks_exact. rewrite HC. symmetry. apply firstn_all2. lia.
  Qed.

  Lemma fw_is_unique w rows rows' v : 0 < w -> fw_is w rows v -> fw_is w rows' v -> rows = rows'.
  Proof.
    intros Hw (E & D & F) (E' & D' & F').
    rewrite <- (chunks_of_concat Hw F), <- (chunks_of_concat Hw F'). congruence.
  Qed.

  Lemma fw_is_push w rows v x :
    0 < w -> fw_is w rows v ->
    fw_push v x = if length x =? w then Ok (mkFw (concat (rows ++ [x])) w) else Fail Panicked.
  Proof.
    intros Hw (E & D & F). unfold fw_push. rewrite E, D.
    destruct (Nat.eqb_spec w 0); [lia|]. rewrite Nat.eqb_sym.
    destruct (Nat.eqb_spec (length x) w); cbn; auto.
    now rewrite concat_app; cbn; rewrite app_nil_r.
  Qed.

  Lemma repeat_concat_const (x : T) n w : concat (repeat (repeat x w) n) = repeat x (n * w).
  Proof.
    induction n as [|n IH]; cbn; auto. rewrite IH. now rewrite <- repeat_app.
  Qed.

  Lemma Forall_set_nth {A} (P : A -> Prop) l i x : Forall P l -> P x -> Forall P (set_nth l i x).
  Proof.
    intros H Hx. apply Forall_forall. intros y Hy. apply set_nth_in in Hy as [->|Hy]; auto.
    rewrite Forall_forall in H. auto.
  Qed.

  Lemma concat_set_nth rows w i x :
    Forall (fun r => length r = w) rows -> i < length rows ->
    concat (set_nth rows i x) =
    firstn (i * w) (concat rows) ++ x ++ skipn (i * w + w) (concat rows).
  Proof.
    intros F Hi. rewrite set_nth_firstn_skipn by auto. rewrite concat_app. cbn [concat].
    rewrite firstn_concat by (auto; lia). replace (i * w + w) with (S i * w) by lia.
    rewrite skipn_concat by (auto; lia). reflexivity.
  Qed.

  Lemma fw_is_set m w rows v i x :
    0 < w -> fw_is w rows v ->
    fw_set m v i x =
    if (i <? length rows) && (length x =? w) then Ok (mkFw (concat (set_nth rows i x)) w)
    else Fail Panicked.
  Proof.
    intros Hw H. unfold fw_set. rewrite (fw_is_len Hw H). destruct H as (E & D & F).
    destruct (Nat.ltb_spec i (length rows)) as [Hi|Hi]; cbn [andb].
    - replace (debug_assert m true) with (@Ok unit tt) by (destruct m; reflexivity). cbn [obind].
      rewrite E, D. destruct (nth_error rows i) as [r|] eqn:Er; [|apply nth_error_None in Er; lia].
      rewrite (slice_concat _ F Er). cbn [obind].
      assert (Hr : length r = w).
      { rewrite Forall_forall in F. apply F. eapply nth_error_In; eauto. }
      rewrite Hr, Nat.eqb_sym. destruct (Nat.eqb_spec (length x) w); cbn; auto.
      now rewrite (concat_set_nth _ F).
    - destruct m; [reflexivity|]. cbn [debug_assert obind].
      rewrite E, D. unfold slice. rewrite (concat_length_const F).
      replace (i * w + w <=? length rows * w) with false.
      + now rewrite andb_false_r.
      + symmetry. apply Nat.leb_gt. nia.
  Qed.

  Lemma fw_is_resize w rows v n x :
    0 < w -> fw_is w rows v ->
    fw_is w (firstn n rows ++ repeat (repeat x w) (n - length rows)) (fw_resize v n x).
  Proof.
    intros Hw (E & D & F). unfold fw_resize. rewrite E, D. repeat split.
    - cbn [fdata]. rewrite concat_app, repeat_concat_const. unfold resize.
      rewrite (concat_length_const F). rewrite Nat.mul_sub_distr_r. f_equal.
      destruct (Nat.leb_spec n (length rows)).
      + now apply firstn_concat.
      + rewrite !firstn_all2; auto; try lia. rewrite (concat_length_const F). nia.
    - apply Forall_app; split.
      + rewrite Forall_forall in *. intros r Hr. apply F.
        rewrite <- (firstn_skipn n rows). apply in_or_app; auto.
      + apply Forall_forall. intros r Hr. apply repeat_spec in Hr. subst. apply repeat_length.
  Qed.

  Lemma fw_is_extend w rows v other orows :
    0 < w -> fw_is w rows v -> fw_is w orows other ->
    fw_extend v other = Ok (mkFw (concat (rows ++ orows)) w).
  Proof.
    intros Hw (E & D & F) (E' & D' & F'). unfold fw_extend. rewrite E, D, E', D'.
    destruct (Nat.eqb_spec w 0); [lia|]. rewrite Nat.eqb_refl. cbn. now rewrite concat_app.
  Qed.

  Lemma fw_extend_other_width v other :
    fwidth v <> 0 -> fwidth other <> fwidth v -> fw_extend v other = Fail Panicked.
  Proof.
    intros H1 H2. unfold fw_extend. destruct (Nat.eqb_spec (fwidth v) 0); [lia|].
    destruct (Nat.eqb_spec (fwidth v) (fwidth other)); [lia|]. reflexivity.
  Qed.

  (** one operation refines the specification *)
  Lemma fw_op_refines m w rows v o :
    0 < w -> fw_is w rows v ->
    (forall other, o = FExtend other -> length (fdata other) mod fwidth other = 0) ->
    exists res, fw_op_spec w rows o res /\
      match res with
      | Some r => exists v', fw_op_run m v o = Ok v' /\ fw_is w r v'
      | None => fw_op_run m v o = Fail Panicked
      end.
  Proof.
    intros Hw H Hother. pose proof H as (E & D & F). destruct o as [x|other|n x|i x].
    - eexists. split; [reflexivity|]. cbn [fw_op_run]. rewrite (fw_is_push x Hw H).
      destruct (Nat.eqb_spec (length x) w); [|reflexivity].
      eexists; split; [reflexivity|]. repeat split. apply Forall_app; auto.
    - cbn [fw_op_run fw_op_spec].
      destruct (Nat.eqb_spec (fwidth other) w) as [Ew|Ew].
      + destruct (@fw_is_exists other) as [orows Ho]; [lia|auto|]. rewrite Ew in Ho.
        exists (Some (rows ++ orows)). split.
        * intros or' Hor'. now rewrite (fw_is_unique Hw Ho Hor').
        * rewrite (fw_is_extend Hw H Ho). eexists; split; [reflexivity|]. repeat split.
          apply Forall_app; split; auto. apply Ho.
      + exists None. split; [reflexivity|]. apply fw_extend_other_width; lia.
    - eexists. split; [reflexivity|]. cbn. eexists; split; [reflexivity|]. now apply fw_is_resize.
    - eexists. split; [reflexivity|]. cbn [fw_op_run]. rewrite (fw_is_set m i x Hw H).
      destruct (Nat.ltb_spec i (length rows)); cbn [andb]; [|reflexivity].
      destruct (Nat.eqb_spec (length x) w); [|reflexivity].
      eexists; split; [reflexivity|]. repeat split. apply Forall_set_nth; auto.
  Qed.

  (** ** subslice *)
  Lemma fw_is_subslice w rows v b e :
    0 < w -> fw_is w rows v -> b <= e -> e <= length rows ->
    exists v', fw_subslice v b e = Ok v' /\ fw_is w (firstn (e - b) (skipn b rows)) v'.
  Proof.
    intros Hw (E & D & F) Hbe He. unfold fw_subslice. rewrite E, D.
    assert (HF' : Forall (fun r => length r = w) (firstn (e - b) (skipn b rows))).
    { rewrite Forall_forall in *. intros r Hr. apply F.
      rewrite <- (firstn_skipn b rows). apply in_or_app; right.
      rewrite <- (firstn_skipn (e - b) (skipn b rows)). apply in_or_app; auto. }
    assert (Hs : slice (concat rows) (b * w) (e * w) = Ok (concat (firstn (e - b) (skipn b rows)))).
    { apply slice_ok. rewrite (concat_length_const F). repeat split; [nia|nia|].
      rewrite skipn_concat by (auto; lia). rewrite <- Nat.mul_sub_distr_r.
      rewrite firstn_concat; auto.
      - rewrite Forall_forall in *. intros r Hr. apply F.
        rewrite <- (firstn_skipn b rows). apply in_or_app; auto.
      - rewrite skipn_length. lia. }
    rewrite Hs. cbn [obind]. unfold fw_with_data.
    apply Nat.ltb_lt in Hw as Hb. rewrite Hb. cbn [oassert obind].
    rewrite (concat_length_const HF'), Nat.mod_mul by lia. cbn.
    eexists; split; [reflexivity|]. repeat split; auto.
  Qed.

  (** ** permute *)
  Lemma fw_copy_rows w rows v to from src :
    0 < w -> fw_is w rows v -> to <> from -> to < length rows ->
    nth_error rows from = Some src ->
    exists v', fw_copy v to from = Ok v' /\ fw_is w (set_nth rows to src) v'.
  Proof.
    intros Hw (E & D & F) Hne Hto Hsrc.
    assert (Hfrom : from < length rows) by (apply nth_error_Some; congruence).
    assert (Hlen : length src = w).
    { rewrite Forall_forall in F. apply F. eapply nth_error_In; eauto. }
    assert (HL := concat_length_const F).
    unfold fw_copy. rewrite E, D.
    destruct (Nat.eqb_spec to from); [congruence|]. cbn [negb oassert obind].
    assert (Hset := @concat_set_nth rows w to src F Hto).
    destruct (Nat.ltb_spec to from) as [Hlt|Hge].
    - assert (H1 : slice (concat rows) 0 (from * w) = Ok (firstn (from * w) (concat rows))).
      { apply slice_ok. rewrite HL. repeat split; [lia|nia|]. now rewrite Nat.sub_0_r. }
      assert (H2 : slice (concat rows) (from * w) (length (concat rows)) = Ok (skipn (from * w) (concat rows))).
      { apply slice_ok. split; [rewrite HL; nia|split; [lia|]]. symmetry. apply firstn_all2.
        rewrite skipn_length. lia. }
      rewrite H1, H2. cbn [obind].
      assert (H3 : exists z, slice (firstn (from * w) (concat rows)) (to * w) (to * w + w) = Ok z).
      { eexists. apply slice_ok. rewrite firstn_length, HL. repeat split; [lia|nia]. }
      destruct H3 as [z H3]. rewrite H3. cbn [obind].
      assert (H4 : slice (skipn (from * w) (concat rows)) 0 w = Ok src).
      { rewrite skipn_concat by (auto; lia). rewrite (skipn_nth_error _ _ Hsrc). cbn [concat].
        apply slice_ok. rewrite app_length, Hlen. repeat split; [lia|lia|].
        rewrite Nat.sub_0_r. cbn [skipn]. rewrite firstn_app, firstn_all2, Hlen, Nat.sub_diag by lia.
        cbn. now rewrite app_nil_r. }
      rewrite H4. cbn [obind]. eexists; split; [reflexivity|].
      repeat split; [|apply Forall_set_nth; auto].
      cbn [fdata]. rewrite Hset. rewrite firstn_firstn.
      replace (Nat.min (to * w) (from * w)) with (to * w) by nia. f_equal. f_equal.
      rewrite <- (firstn_skipn (from * w) (concat rows)) at 3.
      rewrite skipn_app. rewrite firstn_length, HL.
      replace (to * w + w - Nat.min (from * w) (length rows * w)) with 0 by nia. reflexivity.
    - assert (H1 : slice (concat rows) 0 (to * w) = Ok (firstn (to * w) (concat rows))).
      { apply slice_ok. rewrite HL. repeat split; [lia|nia|]. now rewrite Nat.sub_0_r. }
      assert (H2 : slice (concat rows) (to * w) (length (concat rows)) = Ok (skipn (to * w) (concat rows))).
      { apply slice_ok. split; [rewrite HL; nia|split; [lia|]]. symmetry. apply firstn_all2.
        rewrite skipn_length. lia. }
      rewrite H1, H2. cbn [obind].
      assert (H3 : slice (firstn (to * w) (concat rows)) (from * w) (from * w + w) = Ok src).
      { rewrite firstn_concat by (auto; lia). apply slice_concat.
        - rewrite Forall_forall in *. intros r Hr. apply F.
          rewrite <- (firstn_skipn to rows). apply in_or_app; auto.
        - rewrite <- Hsrc. rewrite <- (firstn_skipn to rows) at 2.
          rewrite nth_error_app1; auto. rewrite firstn_length. lia. }
      rewrite H3. cbn [obind].
      assert (H4 : exists z, slice (skipn (to * w) (concat rows)) 0 w = Ok z).
      { eexists. apply slice_ok. rewrite skipn_length, HL. repeat split; [lia|nia]. }
      destruct H4 as [z H4]. rewrite H4. cbn [obind]. eexists; split; [reflexivity|].
      repeat split; [|apply Forall_set_nth; auto].
      cbn [fdata]. rewrite Hset. f_equal. f_equal.
      rewrite skipn_skipn. f_equal. lia.
  Qed.
End S.

Section Permute.
  Context {T : Type} (w n : nat) (Hw : 0 < w) (perm : list nat) (HP : is_perm n perm)
          (orig : list (list T)) (Horig : length orig = n).

  Let p k := nth k perm 0.

  Lemma p_lt k : k < n -> p k < n.
  Proof. intros; unfold p. now apply (proj1 (proj2 (perm_seq_nth n HP))). Qed.
  Lemma p_inj i j : i < n -> j < n -> p i = p j -> i = j.
  Proof. intros. now apply (proj1 (proj2 (proj2 (perm_seq_nth n HP)))). Qed.
  Lemma perm_len : length perm = n.
  Proof. apply (proj1 (perm_seq_nth n HP)). Qed.

  Definition prow (rows : list (list T)) k := nth k rows [].
  Definition vis_ (vis : list bool) k := nth k vis false = true.

  Record outer_inv (rows : list (list T)) (vis : list bool) : Prop := {
    oi_len : length rows = n;
    oi_vlen : length vis = n;
    oi_row : forall k, k < n ->
      (vis_ vis k -> prow rows k = prow orig (p k)) /\
      (~ vis_ vis k -> prow rows k = prow orig k);
    oi_closed : forall k, k < n -> (vis_ vis k <-> vis_ vis (p k));
  }.

  Record cyc_inv (i : nat) (vis0 : list bool) (C : list nat) (j : nat)
         (rows : list (list T)) (vis : list bool) : Prop := {
    ci_len : length rows = n;
    ci_vlen : length vis = n;
    ci_nodup : NoDup (j :: C);
    ci_bound : forall c, In c (j :: C) -> c < n;
    ci_i : In i (j :: C);
    ci_next : forall c, In c C -> In (p c) (j :: C);
    ci_prev : forall c, In c (j :: C) -> c <> i -> exists c', In c' C /\ p c' = c;
    ci_unv : forall c, In c (j :: C) -> ~ vis_ vis0 c;
    ci_vis : forall k, k < n -> (vis_ vis k <-> vis_ vis0 k \/ In k C);
    ci_row : forall k, k < n ->
       (vis_ vis k -> prow rows k = prow orig (p k)) /\
       (~ vis_ vis k -> prow rows k = prow orig k);
  }.

  Lemma bool_not_true b : b <> true -> b = false.
  Proof. destruct b; congruence. Qed.

  Lemma vis_dec vis k : vis_ vis k \/ ~ vis_ vis k.
  Proof. unfold vis_. destruct (nth k vis false); [left|right]; congruence. Qed.

  Lemma cycle_ok i vis0 :
    (forall k, k < n -> (vis_ vis0 k <-> vis_ vis0 (p k))) ->
    forall fuel C j v rows vis,
    n <= fuel + length C ->
    fw_is w rows v -> cyc_inv i vis0 C j rows vis ->
    exists C' j' v' rows' vis',
      fw_permute_cycle fuel perm i j v vis = Ok (v', vis', j') /\
      fw_is w rows' v' /\ cyc_inv i vis0 C' j' rows' vis' /\ p j' = i.
  Proof.
    intros Hcl. induction fuel as [|f IH]; intros C j v rows vis Hf Hv HC.
    - exfalso. assert (Hl : length (j :: C) <= length (seq 0 n)).
      { apply NoDup_incl_length; [apply (ci_nodup HC)|].
        intros c Hc. apply in_seq. pose proof (ci_bound HC Hc). lia. }
      rewrite seq_length in Hl. cbn in Hl, Hf. lia.
    - cbn [fw_permute_cycle].
      assert (Hj : j < n) by (apply (ci_bound HC); left; auto).
      rewrite (index_nth perm 0) by (rewrite perm_len; auto). cbn [obind].
      fold (p j). destruct (Nat.eqb_spec (p j) i) as [Ei|Ei].
      { exists C, j, v, rows, vis. auto. }
      assert (Hpj : p j < n) by (apply p_lt; auto).
      assert (HjC : ~ In j C) by (pose proof (ci_nodup HC) as HN; now inversion HN).
      assert (HiC : ~ (exists c', In c' C /\ p c' = p j)).
      { intros (c' & Hc' & E). apply p_inj in E; auto; [subst; auto|].
        apply (ci_bound HC). right; auto. }
      assert (Hnew : ~ In (p j) (j :: C)).
      { intros Hin. apply HiC. apply (ci_prev HC); auto. }
      assert (Hpjj : j <> p j) by (intros E; apply Hnew; left; auto).
      assert (Hrow : nth_error rows (p j) = Some (prow rows (p j))).
      { apply nth_error_nth'. rewrite (ci_len HC). auto. }
      destruct (fw_copy_rows Hw Hv Hpjj ltac:(rewrite (ci_len HC); auto) Hrow) as (v' & Ev & Hv').
      rewrite Ev. cbn [obind].
      replace (store vis j true) with (Ok (set_nth vis j true))
        by (symmetry; apply store_ok; rewrite (ci_vlen HC); auto).
      cbn [obind].
      assert (Hv0 : ~ vis_ vis0 (p j)).
      { intros Hx. apply Hcl in Hx; auto. apply (ci_unv HC) in Hx; auto. left; auto. }
      assert (Hvis' : forall k, k < n -> (vis_ (set_nth vis j true) k <-> k = j \/ vis_ vis k)).
      { intros k Hk. unfold vis_. rewrite nth_set_nth by (rewrite (ci_vlen HC); auto).
        destruct (Nat.eqb_spec j k); intuition congruence. }
      apply (IH (j :: C) (p j) v' _ _ ltac:(cbn [length]; lia) Hv').
      constructor.
      + rewrite set_nth_length. apply (ci_len HC).
      + rewrite set_nth_length. apply (ci_vlen HC).
      + constructor; auto. apply (ci_nodup HC).
      + intros c [<-|Hc]; auto. now apply (ci_bound HC).
      + right. apply (ci_i HC).
      + intros c [<-|Hc]; [left; auto|]. right. now apply (ci_next HC).
      + intros c [<-|Hc] Hci.
        * exists j. split; [left; auto|auto].
        * destruct (ci_prev HC Hc Hci) as (c' & Hc' & E). exists c'. split; [right; auto|auto].
      + intros c [<-|Hc]; auto. now apply (ci_unv HC).
      + intros k Hk. rewrite Hvis', (ci_vis HC) by auto. cbn [In]. intuition.
      + intros k Hk. rewrite Hvis' by auto. unfold prow.
        rewrite nth_set_nth by (rewrite (ci_len HC); auto).
        destruct (Nat.eqb_spec j k) as [->|Hjk].
        * split; [|intuition]. intros _.
          apply (proj2 (ci_row HC Hpj)).
          rewrite (ci_vis HC) by auto. intros [?|?]; [auto|]. apply Hnew. right; auto.
        * destruct (ci_row HC Hk) as [R1 R2]. split; intros Hx.
          -- apply R1. destruct Hx; [congruence|auto].
          -- apply R2. intuition.
  Qed.

  Lemma permute_step_ok m v rows vis i :
    i < n -> fw_is w rows v -> outer_inv rows vis ->
    exists v' rows' vis',
      fw_permute_step m n perm (v, vis) i = Ok (v', vis') /\
      fw_is w rows' v' /\ outer_inv rows' vis' /\
      vis_ vis' i /\ (forall k, vis_ vis k -> vis_ vis' k).
  Proof.
    intros Hi Hv HO. unfold fw_permute_step.
    rewrite (index_nth vis false) by (rewrite (oi_vlen HO); auto). cbn [obind].
    destruct (nth i vis false) eqn:Ev.
    { exists v, rows, vis. split; [reflexivity|]. auto. }
    assert (Hui : ~ vis_ vis i) by (unfold vis_; congruence).
    assert (Hrow : nth_error rows i = Some (prow rows i)).
    { apply nth_error_nth'. rewrite (oi_len HO). auto. }
    rewrite (fw_is_get m i Hw Hv Hrow). cbn [obind].
    assert (HC0 : cyc_inv i vis [] i rows vis).
    { constructor; try apply HO; auto.
      - constructor; [cbn; tauto|constructor].
      - cbn. intros c [<-|[]]; auto.
      - left; auto.
      - cbn; tauto.
      - cbn. intros c [<-|[]]; congruence.
      - cbn. intros c [<-|[]]; auto.
      - cbn. intuition. }
    destruct (@cycle_ok i vis (oi_closed HO) n [] i v rows vis ltac:(cbn; lia) Hv HC0)
      as (C & j & v' & rows' & vis' & E & Hv' & HC & Ej).
    rewrite E. cbn [obind].
    assert (Hj : j < n) by (apply (ci_bound HC); left; auto).
    assert (Hlb : length (prow rows i) = w).
    { destruct Hv as (_ & _ & F). rewrite Forall_forall in F. apply F. eapply nth_error_In; eauto. }
    rewrite (fw_is_set m j (prow rows i) Hw Hv'). rewrite (ci_len HC).
    apply Nat.ltb_lt in Hj as Hjb. rewrite Hjb, Hlb, Nat.eqb_refl. cbn [andb obind].
    replace (store vis' j true) with (Ok (set_nth vis' j true))
      by (symmetry; apply store_ok; rewrite (ci_vlen HC); auto).
    cbn [obind].
    assert (Hvis' : forall k, k < n -> (vis_ (set_nth vis' j true) k <-> vis_ vis k \/ In k (j :: C))).
    { intros k Hk. cbn [In]. rewrite <- or_assoc, (or_comm (vis_ vis k)), or_assoc, <- (ci_vis HC Hk).
      unfold vis_. rewrite nth_set_nth by (rewrite (ci_vlen HC); auto).
      destruct (Nat.eqb_spec j k); intuition congruence. }
    exists (mkFw (concat (set_nth rows' j (prow rows i))) w), (set_nth rows' j (prow rows i)), (set_nth vis' j true).
    split; [reflexivity|]. split; [|split; [|split]].
    - repeat split. apply Forall_set_nth; auto. apply Hv'.
    - constructor.
      + rewrite set_nth_length. apply (ci_len HC).
      + rewrite set_nth_length. apply (ci_vlen HC).
      + intros k Hk. rewrite Hvis' by auto. unfold prow.
        rewrite nth_set_nth by (rewrite (ci_len HC); auto).
        destruct (Nat.eqb_spec j k) as [<-|Hjk].
        * split; [|cbn; intuition]. intros _. rewrite Ej.
          apply (proj2 (oi_row HO Hi)). auto.
        * destruct (ci_row HC Hk) as [R1 R2]. split; intros Hx.
          -- apply R1. apply (ci_vis HC Hk). cbn in Hx. intuition.
          -- apply R2. rewrite (ci_vis HC Hk). cbn in Hx. intuition.
      + intros k Hk. rewrite !Hvis' by (auto; apply p_lt; auto).
        split; intros [Hx|Hx].
        * left. exact (proj1 (oi_closed HO Hk) Hx).
        * right. destruct Hx as [<-|Hx].
          -- rewrite Ej. apply (ci_i HC).
          -- now apply (ci_next HC).
        * left. exact (proj2 (oi_closed HO Hk) Hx).
        * right. destruct (Nat.eq_dec (p k) i) as [Epi|Epi].
          -- left. apply p_inj; auto; congruence.
          -- destruct (ci_prev HC Hx Epi) as (c' & Hc' & Ec').
             apply p_inj in Ec'; auto; [|apply (ci_bound HC); right; auto].
             subst. right; auto.
    - apply Hvis'; auto. right. apply (ci_i HC).
    - intros k Hk. destruct (Nat.ltb_spec k n).
      + apply Hvis'; auto.
      + unfold vis_ in Hk. rewrite nth_overflow in Hk; [discriminate|]. rewrite (oi_vlen HO). auto.
  Qed.

  Lemma permute_fold_ok m l v rows vis :
    (forall i, In i l -> i < n) -> fw_is w rows v -> outer_inv rows vis ->
    exists v' rows' vis',
      ofold (fw_permute_step m n perm) l (v, vis) = Ok (v', vis') /\
      fw_is w rows' v' /\ outer_inv rows' vis' /\
      (forall i, In i l -> vis_ vis' i) /\ (forall k, vis_ vis k -> vis_ vis' k).
  Proof.
    revert v rows vis; induction l as [|i l IH]; intros v rows vis Hl Hv HO.
    - exists v, rows, vis. split; [reflexivity|]. split; auto. split; auto. split; auto. cbn; tauto.
    - destruct (@permute_step_ok m v rows vis i) as (v1 & rows1 & vis1 & E & Hv1 & HO1 & Hi1 & Hm1);
        [apply Hl; left; auto|auto|auto|].
      destruct (IH v1 rows1 vis1) as (v2 & rows2 & vis2 & E2 & Hv2 & HO2 & Hi2 & Hm2);
        [intros; apply Hl; right; auto|auto|auto|].
      exists v2, rows2, vis2. cbn [ofold]. rewrite E. cbn [obind]. rewrite E2.
      split; [reflexivity|]. split; auto. split; auto. split; auto.
      intros k [<-|Hk]; auto.
  Qed.

  Lemma fw_permute_ok m v :
    fw_is w orig v ->
    exists v', fw_permute m n v perm = Ok v' /\
               fw_is w (map (fun k => nth k orig []) perm) v'.
  Proof.
    intros Hv. unfold fw_permute. rewrite (fw_is_len Hw Hv), Horig, perm_len, Nat.eqb_refl.
    cbn [oassert obind].
    assert (HO : outer_inv orig (repeat false n)).
    { assert (Hf : forall k, ~ vis_ (repeat false n) k).
      { intros k. unfold vis_. rewrite nth_repeat. discriminate. }
      constructor; auto.
      - apply repeat_length.
      - intros k Hk. split; intros Hx; [now apply Hf in Hx|auto].
      - intros k Hk. split; intros Hx; now apply Hf in Hx. }
    destruct (@permute_fold_ok m (seq 0 n) v orig (repeat false n)) as (v' & rows' & vis' & E & Hv' & HO' & Hall & _).
    - intros i Hi. apply in_seq in Hi. lia.
    - auto.
    - auto.
    - rewrite E. cbn. exists v'. split; auto.
      replace (map (fun k => nth k orig []) perm) with rows'; auto.
      apply (nth_ext _ _ [] []).
      + rewrite map_length, perm_len. apply (oi_len HO').
      + intros k Hk. rewrite (oi_len HO') in Hk.
        replace (nth k (map (fun k => nth k orig []) perm) []) with (prow orig (p k)).
        2:{ unfold prow, p. symmetry.
            rewrite <- (map_nth (fun k => nth k orig []) perm 0 k).
            apply nth_indep. rewrite map_length, perm_len. auto. }
        apply (proj1 (oi_row HO' Hk)). apply Hall. apply in_seq. lia.
  Qed.
End Permute.

(** ** Bytes *)
Section FBytes.
  Context {T : Type} (R : repr T) (valid : T -> Prop) (HR : repr_ok R valid).

  Definition fits64 (n : nat) : Prop := (N.of_nat n < 2 ^ 64)%N.

  Lemma load_header_enc n rest :
    fits64 n -> load_header (le_enc 8 (N.of_nat n) ++ rest) = Ok n.
  Proof.
    intros Hn. unfold load_header, U64_LEN.
    replace (slice (le_enc 8 (N.of_nat n) ++ rest) 0 8) with (Ok (le_enc 8 (N.of_nat n))).
    - cbn [obind]. rewrite le_dec_enc; [now rewrite Nat2N.id|exact Hn].
    - symmetry. apply slice_ok. rewrite app_length, le_enc_length. repeat split; try lia.
  Qed.

  Lemma slice_after_header n rest :
    slice (le_enc 8 n ++ rest) U64_LEN (length (le_enc 8 n ++ rest)) = Ok rest.
  Proof.
    apply slice_ok. rewrite app_length, le_enc_length. unfold U64_LEN. repeat split; try lia.
    rewrite skipn_app, skipn_all2 by (rewrite le_enc_length; lia).
    rewrite le_enc_length, Nat.sub_diag. cbn [app skipn]. symmetry. apply firstn_all2. lia.
  Qed.

  Lemma fw_round_trip v :
    0 < fwidth v -> fits64 (fwidth v) -> length (fdata v) mod fwidth v = 0 ->
    Forall valid (fdata v) ->
    fw_from_bytes R (fst (fw_write R v)) = Ok v.
  Proof.
    intros Hw H64 Hmod Hval. unfold fw_from_bytes, fw_load, fw_write. cbn [fst].
    rewrite load_header_enc by auto. cbn [obind]. rewrite slice_after_header. cbn [obind].
    rewrite (load_write HR) by auto. cbn [fwidth fdata].
    apply Nat.ltb_lt in Hw as Hb. rewrite Hb, Hmod. cbn. now destruct v.
  Qed.

  Lemma fw_write_length v :
    length (fst (fw_write R v)) = 8 + snd (fw_write R v).
  Proof.
    unfold fw_write, write_as_bytes_count. cbn [fst snd].
    rewrite app_length, le_enc_length, (write_as_bytes_length HR). reflexivity.
  Qed.

  (** reading incrementally gives the same vector for positive widths *)
  Lemma fw_read_loop_ok w v rows rrows fuel :
    0 < w -> fwidth v = w \/ (fwidth v = 0 /\ fdata v = []) ->
    fdata v = concat rrows -> Forall (fun r => length r = w) rows -> Forall (Forall valid) rows ->
    length rows < fuel ->
    fw_read_loop R fuel (w * rsize R) (write_as_bytes R (concat rows)) v =
    Ok (mkFw (fdata v ++ concat rows) (match rows with [] => fwidth v | _ => w end)).
  Proof.
    intros Hw. revert v rows rrows; induction fuel as [|f IH]; intros v rows rrows Hv Hd HF HV Hf; [lia|].
    pose proof (rok_pos HR) as Hpos.
    cbn [fw_read_loop]. rewrite (write_as_bytes_length HR), (concat_length_const HF).
    destruct rows as [|r rows].
    - cbn [length Nat.mul concat]. destruct (Nat.ltb_spec 0 (w * rsize R)); [|nia].
      rewrite app_nil_r. now destruct v.
    - inversion HF as [|? ? Hr HF']; subst. inversion HV as [|? ? HVr HV']; subst.
      destruct (Nat.ltb_spec (length (r :: rows) * length r * rsize R) (length r * rsize R)).
      { cbn [length] in *. nia. }
      cbn [concat]. rewrite (write_as_bytes_app R).
      assert (HLr := write_as_bytes_length HR r).
      rewrite <- HLr.
      rewrite firstn_app, firstn_all, Nat.sub_diag. cbn [firstn]. rewrite app_nil_r.
      rewrite (load_write HR) by auto.
      rewrite skipn_app, skipn_all, Nat.sub_diag. cbn [skipn app].
      assert (Hp : fw_push v r = Ok (mkFw (fdata v ++ r) (length r))).
      { unfold fw_push. destruct Hv as [Ev|[Ev Ed]]; rewrite Ev.
        - destruct (Nat.eqb_spec (length r) 0); [lia|]. now rewrite Nat.eqb_refl.
        - now rewrite Nat.eqb_refl. }
      rewrite Hp. cbn [obind]. rewrite HLr.
      rewrite (IH (mkFw (fdata v ++ r) (length r)) rows (rrows ++ [r])); auto.
      + cbn [fdata]. rewrite <- app_assoc. f_equal. f_equal. cbn [fwidth]. now destruct rows.
      + cbn [fdata]. rewrite Hd, concat_app. cbn. now rewrite app_nil_r.
      + cbn [length] in Hf. lia.
  Qed.

  Lemma fw_read_round_trip w rows v fuel :
    0 < w -> fits64 w -> fw_is w rows v -> Forall valid (fdata v) -> rows <> [] ->
    length rows < fuel ->
    fw_read R fuel (fst (fw_write R v)) = Ok v.
  Proof.
    intros Hw H64 (E & D & F) HV Hne Hf. unfold fw_read, fw_write. cbn [fst].
    rewrite app_length, le_enc_length.
    destruct (Nat.ltb_spec (8 + length (write_as_bytes R (fdata v))) 8); [lia|].
    rewrite firstn_app, firstn_all2 by (rewrite le_enc_length; auto).
    rewrite le_enc_length, Nat.sub_diag. cbn [firstn]. rewrite app_nil_r.
    rewrite le_dec_enc by (rewrite E; exact H64). rewrite Nat2N.id.
    rewrite skipn_app, skipn_all2 by (rewrite le_enc_length; auto).
    rewrite le_enc_length, Nat.sub_diag. cbn [skipn app].
    rewrite E, D.
    rewrite (@fw_read_loop_ok w fw_new rows [] fuel); auto.
    - cbn. destruct rows; [congruence|]. f_equal. destruct v; cbn in *; congruence.
    - rewrite D in HV. clear -HV. induction rows as [|r rows IH]; constructor.
      + cbn in HV. apply Forall_app in HV. tauto.
      + apply IH. cbn in HV. apply Forall_app in HV. tauto.
  Qed.
End FBytes.

Section Hist.
  Context {T : Type}.

  Lemma fw_is_observes m w (rows : list (list T)) v : 0 < w -> fw_is w rows v -> fw_observes m rows v.
  Proof.
    intros Hw H. repeat split.
    - now apply fw_is_len with (w := w).
    - intros i r Hi. now apply fw_is_get with (w := w) (rows := rows).
    - intros i Hi. now apply fw_is_get_out with (w := w) (rows := rows).
    - now apply fw_is_iter with (w := w).
  Qed.

  Lemma fw_history_ok m w ops : forall (rows : list (list T)) v,
    0 < w -> fw_is w rows v -> Forall fw_op_wf ops ->
    exists res, fw_history w rows ops res /\
      match res with
      | Some rows' => exists v', ofold (fw_op_run m) ops v = Ok v' /\ fw_is w rows' v' /\ fw_observes m rows' v'
      | None => ofold (fw_op_run m) ops v = Fail Panicked
      end.
  Proof.
    induction ops as [|o ops IH]; intros rows v Hw Hv Hops.
    - exists (Some rows). split; [constructor|]. exists v. split; [reflexivity|]. split; auto.
      now apply fw_is_observes with (w := w).
    - inversion Hops as [|? ? Ho Hops']; subst.
      destruct (@fw_op_refines T m w rows v o Hw Hv Ho) as ([r|] & Hs & Hr).
      + destruct Hr as (v' & E & Hv'). destruct (IH r v' Hw Hv' Hops') as (res & Hh & Hres).
        exists res. split; [econstructor; eauto|]. cbn [ofold]. rewrite E. cbn [obind]. exact Hres.
      + exists None. split; [now constructor|]. cbn [ofold]. now rewrite Hr.
  Qed.

  Lemma fw_history_det w rows ops (r1 r2 : option (list (list T))) :
    0 < w -> Forall fw_op_wf ops ->
    fw_history w rows ops r1 -> fw_history w rows ops r2 -> r1 = r2.
  Proof.
    intros Hw.
    assert (Hdet : forall (rows : list (list T)) o x y, fw_op_wf o -> fw_op_spec w rows o x -> fw_op_spec w rows o y -> x = y).
    { intros rows' o x y Ho Hx Hy. destruct o as [a|other|n a|i a]; cbn in *; try congruence.
      destruct (Nat.eqb_spec (fwidth other) w) as [E|E]; [|congruence].
      destruct (@fw_is_exists T other) as [orows Hor]; [lia|now apply Ho|]. rewrite E in Hor.
      rewrite (Hx _ Hor), (Hy _ Hor). reflexivity. }
    intros Hops H; revert r2; induction H as [rows|rows o rows' ops res Hs Hh IH|rows o ops Hs]; intros r2 H2.
    - now inversion H2.
    - inversion Hops as [|? ? Ho Hops']; subst. inversion H2; subst.
      + assert (Some rows' = Some rows'0) by eauto. assert (rows' = rows'0) by congruence. subst. auto.
      + assert (Some rows' = None) by eauto. congruence.
    - inversion Hops as [|? ? Ho Hops']; subst. inversion H2; subst; auto.
      assert (None = Some rows') by eauto. congruence.
  Qed.
End Hist.
