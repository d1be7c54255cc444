(** * Proofs about variable-width slice vectors *)
From Verif Require Import Base BaseFacts Bytes PBytes MSliceVec SSliceVec PFixed.
Set Implicit Arguments.

Section V.
  Context {T : Type}.
  Implicit Types (rows : list (list T)) (v : vw T).

  Lemma offsets_from_length s rows : length (offsets_from s rows) = S (length rows).
  Proof. revert s; induction rows as [|r t IH]; intros s; cbn; auto. Qed.

  Lemma offsets_from_nth s rows i :
    i <= length rows ->
    nth_error (offsets_from s rows) i = Some (s + length (concat (firstn i rows))).
  Proof.
    revert s i; induction rows as [|r t IH]; intros s i Hi; cbn in Hi.
    - assert (i = 0) by lia; subst. cbn. f_equal. lia.
    - destruct i as [|i]; cbn [offsets_from nth_error firstn concat].
      + cbn. f_equal; lia.
      + rewrite IH by lia. rewrite app_length. f_equal. lia.
  Qed.

  Lemma offsets_from_app s rows rows' :
    offsets_from s (rows ++ rows') =
    firstn (length rows) (offsets_from s rows) ++ offsets_from (s + length (concat rows)) rows'.
  Proof.
    revert s; induction rows as [|r t IH]; intros s; cbn [app offsets_from length firstn concat].
    - now rewrite Nat.add_0_r.
    - cbn [app]. rewrite IH, app_length. f_equal. f_equal. f_equal. lia.
  Qed.

  Lemma offsets_from_last s rows :
    offsets_from s rows = firstn (length rows) (offsets_from s rows) ++ [s + length (concat rows)].
  Proof.
    rewrite <- (app_nil_r rows) at 1. rewrite offsets_from_app. reflexivity.
  Qed.

  Lemma offsets_from_hd s rows : exists t, offsets_from s rows = s :: t.
  Proof. destruct rows; cbn; eauto. Qed.

  Lemma offsets_from_snoc s rows x :
    offsets_from s (rows ++ [x]) = offsets_from s rows ++ [s + length (concat rows) + length x].
  Proof.
    rewrite offsets_from_app. cbn [offsets_from]. rewrite (offsets_from_last s rows) at 2.
    now rewrite <- app_assoc.
  Qed.

  Lemma offsets_from_extend s rows rows' :
    offsets_from s (rows ++ rows') =
    offsets_from s rows ++ skipn 1 (offsets_from (s + length (concat rows)) rows').
  Proof.
    rewrite offsets_from_app. rewrite (offsets_from_last s rows) at 2.
    destruct (offsets_from_hd (s + length (concat rows)) rows') as [t E]. rewrite E. cbn [skipn].
    now rewrite <- app_assoc.
  Qed.

  Lemma offsets_from_shift s a rows :
    offsets_from (s + a) rows = map (fun x => s + x) (offsets_from a rows).
  Proof.
    revert a; induction rows as [|r t IH]; intros a; cbn; auto. f_equal.
    rewrite <- Nat.add_assoc. apply IH.
  Qed.

  Lemma vw_of_is rows : vw_is rows (vw_of rows).
  Proof. split; reflexivity. Qed.
  Lemma vw_is_eq rows v : vw_is rows v -> v = vw_of rows.
  Proof. intros [A B]. destruct v; cbn in *; subst; reflexivity. Qed.

  Lemma vw_len_of rows : vw_len (vw_of rows) = length rows.
  Proof. unfold vw_len. cbn. rewrite offsets_from_length. lia. Qed.

  Lemma concat_firstn_S rows i r :
    nth_error rows i = Some r -> concat (firstn (i + 1) rows) = concat (firstn i rows) ++ r.
  Proof.
    revert i; induction rows as [|h t IH]; intros [|i] H; cbn in H; try discriminate.
    - inversion H; subst. cbn. now rewrite app_nil_r.
    - cbn [Nat.add firstn concat]. rewrite (IH _ H). now rewrite app_assoc.
  Qed.

  Lemma slice_concat_range rows b e :
    b <= e -> e <= length rows ->
    slice (concat rows) (length (concat (firstn b rows))) (length (concat (firstn e rows))) =
    Ok (concat (firstn (e - b) (skipn b rows))).
  Proof.
    intros Hbe He.
    assert (E1 : concat rows = concat (firstn b rows) ++ concat (skipn b rows))
      by (rewrite <- concat_app, firstn_skipn; auto).
    assert (E2 : firstn e rows = firstn b rows ++ firstn (e - b) (skipn b rows)).
    { replace e with (b + (e - b)) at 1 by lia. rewrite <- (firstn_skipn b rows) at 1.
      rewrite firstn_app. rewrite firstn_length. replace (Nat.min b (length rows)) with b by lia.
      rewrite firstn_firstn. replace (Nat.min (b + (e - b)) b) with b by lia.
      f_equal. f_equal. lia. }
    assert (E3 : concat (skipn b rows) = concat (firstn (e - b) (skipn b rows)) ++ concat (skipn (e - b) (skipn b rows)))
      by (rewrite <- concat_app, firstn_skipn; auto).
    apply slice_ok. rewrite E2, concat_app, app_length. split; [lia|]. split.
    - rewrite E1, E3, !app_length. lia.
    - rewrite E1 at 1. rewrite skipn_app, skipn_all, Nat.sub_diag. cbn [skipn app].
      rewrite E3 at 1. rewrite firstn_app.
      replace (length (concat (firstn b rows)) + length (concat (firstn (e - b) (skipn b rows))) - length (concat (firstn b rows)))
        with (length (concat (firstn (e - b) (skipn b rows)))) by lia.
      rewrite firstn_all, Nat.sub_diag. cbn. now rewrite app_nil_r.
  Qed.

  Lemma vw_get_of rows i r : nth_error rows i = Some r -> vw_get (vw_of rows) i = Ok r.
  Proof.
    intros H. assert (Hi : i < length rows) by (apply nth_error_Some; congruence).
    unfold vw_get. cbn [voffs vdata vw_of].
    unfold index. rewrite !offsets_from_nth by lia. cbn [ounwrap obind Nat.add].
    rewrite slice_concat_range by lia. replace (i + 1 - i) with 1 by lia.
    rewrite (skipn_nth_error _ _ H). cbn. now rewrite app_nil_r.
  Qed.

  Lemma vw_get_out rows i : length rows <= i -> vw_get (vw_of rows) i = Fail Panicked.
  Proof.
    intros H. unfold vw_get. cbn [voffs vdata vw_of].
    assert (E : index (offsets_from 0 rows) (i + 1) = Fail Panicked).
    { unfold index. replace (nth_error _ _) with (@None nat); auto.
      symmetry. apply nth_error_None. rewrite offsets_from_length. lia. }
    destruct (index (offsets_from 0 rows) i) as [b|e0] eqn:E0; cbn [obind].
    - now rewrite E.
    - unfold index, ounwrap in E0. destruct (nth_error _ i); congruence.
  Qed.

  Lemma vw_iter_gen rows s pre d :
    d = pre ++ concat rows -> s = length pre ->
    omapM (fun be : nat * nat => slice d (fst be) (snd be))
          (combine (offsets_from s rows) (skipn 1 (offsets_from s rows))) = Ok rows.
  Proof.
    revert s pre; induction rows as [|r t IH]; intros s pre Hd Hs.
    - reflexivity.
    - cbn [offsets_from skipn].
      destruct (offsets_from_hd (s + length r) t) as [t' E]. rewrite E.
      change (combine (s :: s + length r :: t') (s + length r :: t'))
        with ((s, s + length r) :: combine (s + length r :: t') t').
      cbn [omapM fst snd].
      assert (Es : slice d s (s + length r) = Ok r).
      { apply slice_ok. subst. cbn [concat]. rewrite !app_length. repeat split; try lia.
        rewrite skipn_app, skipn_all, Nat.sub_diag. cbn [skipn app].
        rewrite firstn_app. replace (length pre + length r - length pre) with (length r) by lia.
        rewrite firstn_all, Nat.sub_diag. cbn. now rewrite app_nil_r. }
      rewrite Es. cbn [obind].
      specialize (IH (s + length r) (pre ++ r)).
      rewrite E in IH. cbn [skipn] in IH. rewrite IH; auto.
      + subst d. cbn. now rewrite app_assoc.
      + rewrite app_length. lia.
  Qed.

  Lemma vw_iter_of rows : vw_iter (vw_of rows) = Ok rows.
  Proof. unfold vw_iter. cbn [voffs vdata vw_of]. apply (@vw_iter_gen rows 0 []); auto. Qed.

  Context (osz : nat).

  Lemma off_from_ok n : (N.of_nat n < 256 ^ N.of_nat osz)%N -> off_from osz n = Ok n.
  Proof. intros H. unfold off_from. apply N.ltb_lt in H. now rewrite H. Qed.

  Lemma off_from_bad n : (256 ^ N.of_nat osz <= N.of_nat n)%N -> off_from osz n = Fail Panicked.
  Proof. intros H. unfold off_from. apply N.ltb_ge in H. now rewrite H. Qed.

  Lemma vw_push_of rows x :
    total_fits osz (rows ++ [x]) -> vw_push osz (vw_of rows) x = Ok (vw_of (rows ++ [x])).
  Proof.
    unfold total_fits, vw_push. rewrite concat_app. cbn [concat]. rewrite app_nil_r. intros H.
    cbn [vdata voffs vw_of]. rewrite off_from_ok by auto. cbn [obind]. f_equal. unfold vw_of.
    f_equal.
    - rewrite offsets_from_snoc, app_length. reflexivity.
    - rewrite concat_app. cbn. now rewrite app_nil_r.
  Qed.

  Lemma vw_push_refused rows x :
    ~ total_fits osz (rows ++ [x]) -> vw_push osz (vw_of rows) x = Fail Panicked.
  Proof.
    unfold total_fits, vw_push. rewrite concat_app. cbn [concat]. rewrite app_nil_r. intros H.
    cbn [vdata voffs vw_of]. rewrite off_from_bad by lia. reflexivity.
  Qed.

  Lemma offsets_from_le s rows x : In x (offsets_from s rows) -> s <= x <= s + length (concat rows).
  Proof.
    revert s; induction rows as [|r t IH]; intros s H; cbn [offsets_from concat] in *.
    - destruct H as [<-|[]]; cbn; lia.
    - rewrite app_length. destruct H as [<-|H]; [lia|]. apply IH in H. lia.
  Qed.

  Lemma vw_extend_of rows rows' :
    total_fits osz (rows ++ rows') ->
    vw_extend osz (vw_of rows) (vw_of rows') = Ok (vw_of (rows ++ rows')).
  Proof.
    unfold total_fits, vw_extend. intros H. cbn [voffs vdata vw_of].
    unfold olast, index. rewrite offsets_from_length.
    replace (S (length rows) - 1) with (length rows) by lia.
    rewrite offsets_from_nth by lia. cbn [ounwrap obind]. rewrite firstn_all.
    rewrite (@omapM_pure _ _ _ (fun x => length (concat rows) + x)).
    - cbn [obind]. f_equal. unfold vw_of. f_equal.
      + rewrite offsets_from_extend. cbn [Nat.add]. f_equal.
        pose proof (offsets_from_shift (length (concat rows)) 0 rows') as E.
        rewrite Nat.add_0_r in E. rewrite E.
        destruct (offsets_from_hd 0 rows') as [t Et]. rewrite Et. reflexivity.
      + now rewrite concat_app.
    - intros x Hx. cbn [Nat.add].
      assert (Hin : In x (offsets_from 0 rows')).
      { destruct (offsets_from_hd 0 rows') as [t Et]. rewrite Et in *. right. exact Hx. }
      apply offsets_from_le in Hin. apply off_from_ok.
      rewrite concat_app, app_length in H. lia.
  Qed.

  Lemma omapM_fail {A B} (f : A -> outcome B) l :
    (forall a, In a l -> (exists b, f a = Ok b) \/ f a = Fail Panicked) ->
    (exists a, In a l /\ f a = Fail Panicked) -> omapM f l = Fail Panicked.
  Proof.
    induction l as [|x t IH]; intros Hall [a [Ha Hf]]; [destruct Ha|].
    cbn. destruct (Hall x (or_introl eq_refl)) as [[b Hb]|Hb]; rewrite Hb; cbn; auto.
    destruct Ha as [<-|Ha]; [congruence|].
    rewrite IH; auto.
    - intros; apply Hall; right; auto.
    - exists a; auto.
  Qed.

  Lemma vw_extend_refused rows rows' :
    ~ total_fits osz (rows ++ rows') -> total_fits osz rows ->
    vw_extend osz (vw_of rows) (vw_of rows') = Fail Panicked.
  Proof.
    unfold total_fits, vw_extend. intros H H0. cbn [voffs vdata vw_of].
    unfold olast, index. rewrite offsets_from_length.
    replace (S (length rows) - 1) with (length rows) by lia.
    rewrite offsets_from_nth by lia. cbn [ounwrap obind Nat.add]. rewrite firstn_all.
    rewrite concat_app, app_length in H.
    rewrite omapM_fail; auto.
    - intros a _. unfold off_from. destruct (_ <? _)%N; eauto.
    - exists (length (concat rows')). split.
      + destruct rows' as [|r t]; [cbn in H; lia|].
        cbn [offsets_from skipn]. rewrite (offsets_from_last (0 + length r) t).
        apply in_or_app. right. left. cbn [concat Nat.add]. now rewrite app_length.
      + apply off_from_bad. lia.
  Qed.

  Lemma vw_op_refines rows o :
    total_fits osz rows ->
    (total_fits osz (vw_op_rows rows o) -> vw_op_run osz (vw_of rows) o = Ok (vw_of (vw_op_rows rows o))) /\
    (~ total_fits osz (vw_op_rows rows o) -> vw_op_run osz (vw_of rows) o = Fail Panicked).
  Proof.
    intros H. destruct o; cbn; split; intros.
    - now apply vw_push_of.
    - now apply vw_push_refused.
    - now apply vw_extend_of.
    - now apply vw_extend_refused.
  Qed.

  (** ** Bytes *)
  Context (Hosz : 0 < osz) (R : repr T) (valid : T -> Prop) (HR : repr_ok R valid).

  Definition off_valid (n : nat) : Prop := (N.of_nat n < 256 ^ N.of_nat osz)%N.

  Lemma off_repr_ok : repr_ok (off_repr osz) off_valid.
  Proof.
    constructor; cbn; auto.
    - intros; apply le_enc_length.
    - intros; apply le_enc_bytes.
    - intros x Hx. rewrite le_dec_enc by exact Hx. apply Nat2N.id.
  Qed.

  Lemma offsets_valid rows : total_fits osz rows -> Forall off_valid (offsets_from 0 rows).
  Proof.
    intros H. apply Forall_forall. intros x Hx. apply offsets_from_le in Hx.
    unfold off_valid, total_fits in *. lia.
  Qed.

  Lemma skipn_app_len {A} (a b : list A) n : length a = n -> skipn n (a ++ b) = b.
  Proof. intros <-. now rewrite skipn_app, skipn_all, Nat.sub_diag. Qed.
  Lemma firstn_app_len {A} (a b : list A) n : length a = n -> firstn n (a ++ b) = a.
  Proof. intros <-. rewrite firstn_app, firstn_all, Nat.sub_diag. cbn. apply app_nil_r. Qed.

  (** bytes of the list [rows] *)
  Definition vw_bytes rows : list N :=
    le_enc 8 (N.of_nat (length rows)) ++ write_as_bytes (off_repr osz) (offsets_from 0 rows)
      ++ write_as_bytes R (concat rows).

  Lemma vw_write_of rows : vw_write osz R (vw_of rows) = (vw_bytes rows, length (vw_bytes rows)).
  Proof.
    unfold vw_write, vw_bytes, write_as_bytes_count. rewrite vw_len_of. f_equal.
    rewrite !app_length, le_enc_length, (write_as_bytes_length off_repr_ok), (write_as_bytes_length HR).
    cbn [voffs vdata vw_of]. lia.
  Qed.

  Lemma vw_from_bytes_of rows tail :
    total_fits osz rows -> fits64 (length rows) -> Forall valid (concat rows) ->
    length tail < rsize R ->
    vw_from_bytes osz R (vw_bytes rows ++ tail) = Ok (vw_of rows).
  Proof.
    intros Hfit H64 Hval Htail. unfold vw_from_bytes, vw_bytes. rewrite <- !app_assoc.
    rewrite load_header_enc by auto. cbn [obind]. rewrite slice_after_header. cbn [obind].
    pose proof (write_as_bytes_length off_repr_ok (offsets_from 0 rows)) as HL.
    rewrite offsets_from_length in HL. cbn [rsize off_repr] in HL.
    set (ob := write_as_bytes (off_repr osz) (offsets_from 0 rows)) in *.
    set (db := write_as_bytes R (concat rows)) in *.
    assert (E1 : slice (ob ++ db ++ tail) 0 ((1 + length rows) * osz) = Ok ob).
    { apply slice_ok. rewrite app_length. split; [lia|]. split; [cbn [Nat.add]; lia|].
      cbn [skipn]. rewrite Nat.sub_0_r. symmetry. apply firstn_app_len. exact HL. }
    assert (E2 : slice (ob ++ db ++ tail) ((1 + length rows) * osz) (length (ob ++ db ++ tail)) = Ok (db ++ tail)).
    { apply slice_ok. rewrite app_length. split; [cbn [Nat.add]; lia|]. split; [lia|].
      rewrite skipn_app_len by exact HL. symmetry. apply firstn_all2. cbn [Nat.add]. lia. }
    rewrite E1, E2. cbn [obind]. unfold ob, db.
    rewrite (load_write off_repr_ok) by (apply offsets_valid; auto).
    rewrite (load_write_tail HR) by auto. reflexivity.
  Qed.

  Lemma vw_write_range_of rows b e :
    total_fits osz rows -> b <= e -> e <= length rows ->
    vw_write_range osz R (vw_of rows) b e =
    Ok (vw_bytes (firstn (e - b) (skipn b rows)),
        length (concat (firstn (e - b) (skipn b rows))) * rsize R).
  Proof.
    intros Hfit Hbe He. unfold vw_write_range. rewrite vw_len_of.
    rewrite (proj2 (Nat.leb_le b e)), (proj2 (Nat.leb_le b (length rows))), (proj2 (Nat.leb_le e (length rows))) by lia.
    cbn [oassert obind voffs vdata vw_of]. unfold index at 1.
    rewrite offsets_from_nth by lia. cbn [ounwrap obind Nat.add].
    set (ob := length (concat (firstn b rows))).
    set (sub := firstn (e - b) (skipn b rows)).
    assert (Esub : rows = firstn b rows ++ sub ++ skipn e rows).
    { unfold sub. rewrite <- (firstn_skipn b rows) at 1. f_equal.
      rewrite <- (firstn_skipn (e - b) (skipn b rows)) at 1. f_equal.
      rewrite skipn_skipn. f_equal. lia. }
    assert (Hsl : length sub = e - b) by (unfold sub; rewrite firstn_length, skipn_length; lia).
    assert (Hs : slice (offsets_from 0 rows) b (e + 1) = Ok (offsets_from ob sub)).
    { apply slice_ok. rewrite offsets_from_length. split; [lia|]. split; [lia|].
      rewrite Esub. rewrite offsets_from_app.
      assert (Hfb : length (firstn b rows) = b) by (rewrite firstn_length; lia).
      rewrite skipn_app_len.
      2:{ rewrite firstn_length, offsets_from_length, Hfb. lia. }
      cbn [Nat.add]. fold ob. rewrite offsets_from_extend.
      symmetry. apply firstn_app_len. rewrite offsets_from_length, Hsl. lia. }
    rewrite Hs. cbn [obind].
    assert (Htot : length (concat rows) = ob + length (concat sub) + length (concat (skipn e rows))).
    { rewrite Esub at 1. rewrite !concat_app, !app_length. unfold ob. lia. }
    rewrite (@omapM_pure _ _ _ (fun o => o - ob)).
    2:{ intros x Hx. apply offsets_from_le in Hx.
        rewrite (proj2 (Nat.leb_le ob x)) by lia. cbn [oassert obind]. apply off_from_ok.
        unfold total_fits in Hfit. lia. }
    cbn [obind]. unfold index. rewrite offsets_from_nth by lia. cbn [ounwrap obind Nat.add].
    assert (Hd : slice (concat rows) ob (length (concat (firstn e rows))) = Ok (concat sub))
      by (apply slice_concat_range; lia).
    rewrite Hd. cbn [obind].
    f_equal. f_equal. unfold vw_bytes. rewrite Hsl. f_equal. f_equal. f_equal.
    replace (offsets_from ob sub) with (map (fun x => ob + x) (offsets_from 0 sub))
      by (rewrite <- offsets_from_shift; f_equal; lia).
    rewrite map_map.
    rewrite (map_ext _ (fun x => x)) by (intros; lia). apply map_id.
  Qed.

  Lemma vw_write_range_refused rows b e :
    ~ (b <= e /\ e <= length rows) -> vw_write_range osz R (vw_of rows) b e = Fail Panicked.
  Proof.
    intros H. unfold vw_write_range. rewrite vw_len_of.
    destruct (Nat.leb_spec b e); cbn [oassert obind]; [|reflexivity].
    destruct (Nat.leb_spec b (length rows)); cbn [oassert obind]; [|reflexivity].
    destruct (Nat.leb_spec e (length rows)); cbn [oassert obind]; [|reflexivity]. lia.
  Qed.
End V.

Section VHist.
  Context {T : Type} (osz : nat).

  Lemma vw_of_observes (rows : list (list T)) : vw_observes rows (vw_of rows).
  Proof.
    repeat split.
    - apply vw_len_of.
    - apply vw_get_of.
    - apply vw_get_out.
    - apply vw_iter_of.
  Qed.

  Lemma total_fits_prefix (a b : list (list T)) : total_fits osz (a ++ b) -> total_fits osz a.
  Proof. unfold total_fits. rewrite concat_app, app_length. lia. Qed.

  Lemma vw_op_rows_prefix (rows : list (list T)) o : exists t, vw_op_rows rows o = rows ++ t.
  Proof. destruct o; cbn; eauto. Qed.

  Lemma fold_rows_prefix ops : forall (rows : list (list T)), exists t, fold_left vw_op_rows ops rows = rows ++ t.
  Proof.
    induction ops as [|o ops IH]; intros rows; cbn.
    - exists []. now rewrite app_nil_r.
    - destruct (IH (vw_op_rows rows o)) as [t E]. destruct (vw_op_rows_prefix rows o) as [t' E'].
      exists (t' ++ t). rewrite E, E'. now rewrite app_assoc.
  Qed.

  Lemma vw_history_ok ops : forall (rows : list (list T)),
    total_fits osz rows ->
    let rows' := fold_left vw_op_rows ops rows in
    (total_fits osz rows' -> ofold (vw_op_run osz) ops (vw_of rows) = Ok (vw_of rows')) /\
    (~ total_fits osz rows' -> ofold (vw_op_run osz) ops (vw_of rows) = Fail Panicked).
  Proof.
    induction ops as [|o ops IH]; intros rows Hfit; cbn [fold_left ofold].
    - cbn zeta. split; [reflexivity|contradiction].
    - destruct (vw_op_refines o Hfit) as [Hok Hbad].
      destruct (N.ltb_spec (N.of_nat (length (concat (vw_op_rows rows o)))) (256 ^ N.of_nat osz)) as [Hlt|Hge].
      + rewrite Hok by exact Hlt. cbn [obind]. apply IH. exact Hlt.
      + assert (~ total_fits osz (vw_op_rows rows o)) by (unfold total_fits; lia).
        rewrite Hbad by auto. cbn [obind]. split; auto. intros Hf.
        destruct (fold_rows_prefix ops (vw_op_rows rows o)) as [t E]. rewrite E in Hf.
        apply total_fits_prefix in Hf. contradiction.
  Qed.
End VHist.
