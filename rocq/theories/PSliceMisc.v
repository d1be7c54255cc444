(** * Corollaries used by the slice-vector property file *)
From Verif Require Import Base BaseFacts Bytes PBytes MSliceVec SSliceVec PFixed PVar PCursor PWriteVar.

Lemma fw_round_trip_rows :
  forall (T : Type) (R : repr T) (valid : T -> Prop), repr_ok R valid ->
  forall (w : nat) (rows : list (list T)) (v : fw T),
    0 < w -> fits64 w -> fw_is w rows v -> Forall valid (fdata v) ->
    exists v', fw_from_bytes R (fst (fw_write R v)) = Ok v' /\ fw_is w rows v' /\ v' = v.
Proof.
  intros T R valid HR w rows v Hw H64 Hv Hval. exists v. split; auto.
  destruct Hv as (E & D & F). apply (fw_round_trip HR); rewrite ?E; auto.
  rewrite D, (concat_length_const F). now apply Nat.mod_mul; lia.
Qed.

Lemma fw_new_round_trip_panics (T : Type) (R : repr T) :
  fw_from_bytes R (fst (fw_write R (@fw_new T))) = Fail Panicked.
Proof. reflexivity. Qed.

Lemma fw_new_read_diverges (T : Type) (R : repr T) (fuel : nat) :
  0 < rsize R ->
  fw_read R fuel (fst (fw_write R (@fw_new T))) = Fail OutOfFuel.
Proof.
  intros HR. unfold fw_read. cbn [fw_write fst fw_new fw_with_width fdata fwidth].
  change (length (le_enc 8 (N.of_nat 0) ++ write_as_bytes R [])) with 8.
  change (8 <? 8) with false. cbv iota.
  change (N.to_nat (le_dec (firstn 8 (le_enc 8 (N.of_nat 0) ++ write_as_bytes R [])))) with 0.
  change (skipn 8 (le_enc 8 (N.of_nat 0) ++ write_as_bytes R [])) with (@nil N).
  cbn [Nat.mul].
  assert (HL : load_bytes_as R [] = []).
  { unfold load_bytes_as, chunks_exact. cbn [length]. now rewrite Nat.div_0_l by lia. }
  induction fuel as [|f IH]; [reflexivity|].
  cbn [fw_read_loop length firstn skipn]. change (0 <? 0) with false. cbv iota.
  rewrite HL. exact IH.
Qed.

Lemma vw_write_count :
  forall (T : Type) (osz : nat), 0 < osz ->
  forall (R : repr T) (valid : T -> Prop), repr_ok R valid ->
  forall rows, snd (vw_write osz R (vw_of rows)) = length (fst (vw_write osz R (vw_of rows))).
Proof. intros. now rewrite (vw_write_of H H0). Qed.

Lemma vw_bytes_length (T : Type) (osz : nat) (Ho : 0 < osz) (R : repr T) valid (HR : repr_ok R valid) rows :
  length (vw_bytes osz R rows) = 8 + (length rows + 1) * osz + length (concat rows) * rsize R.
Proof.
  unfold vw_bytes. rewrite !app_length, le_enc_length.
  rewrite (write_as_bytes_length (off_repr_ok Ho)), (write_as_bytes_length HR), offsets_from_length.
  cbn [rsize off_repr]. lia.
Qed.

Lemma vw_write_range_count :
  forall (T : Type) (osz : nat), 0 < osz ->
  forall (R : repr T) (valid : T -> Prop), repr_ok R valid ->
  forall rows b e bs n, total_fits osz rows ->
    vw_write_range osz R (vw_of rows) b e = Ok (bs, n) ->
    length bs = 8 + (e - b + 1) * osz + n.
Proof.
  intros T osz Ho R valid HR rows b e bs n Hfit H.
  destruct (Nat.leb_spec b e) as [Hbe|Hbe].
  - destruct (Nat.leb_spec e (length rows)) as [Hel|Hel].
    + rewrite (vw_write_range_of Ho R Hfit Hbe Hel) in H. inversion H; subst; clear H.
      rewrite (vw_bytes_length _ _ Ho _ _ HR). rewrite firstn_length, skipn_length. 
      replace (Nat.min (e - b) (length rows - b)) with (e - b) by lia. reflexivity.
    + rewrite vw_write_range_refused in H by lia. discriminate.
  - rewrite vw_write_range_refused in H by lia. discriminate.
Qed.

Lemma vw_history_from_new :
  forall (T : Type) (osz : nat) (ops : list (vw_op T)),
    let rows := fold_left vw_op_rows ops [] in
    (total_fits osz rows ->
       exists v, ofold (vw_op_run osz) ops vw_new = Ok v /\ vw_observes rows v) /\
    (~ total_fits osz rows -> ofold (vw_op_run osz) ops vw_new = Fail Panicked).
Proof.
  intros T osz ops rows.
  assert (H0 : total_fits osz (@nil (list T))).
  { unfold total_fits. cbn. apply N.neq_0_lt_0, N.pow_nonzero. lia. }
  destruct (vw_history_ok ops H0) as [A B]. split.
  - intros H. exists (vw_of rows). split; [now apply A|apply vw_of_observes].
  - exact B.
Qed.

Lemma vw_write_round_trip :
  forall (T : Type) (osz : nat), 0 < osz ->
  forall (R : repr T) (valid : T -> Prop), repr_ok R valid ->
  forall rows, total_fits osz rows -> fits64 (length rows) -> Forall valid (concat rows) ->
    vw_from_bytes osz R (fst (vw_write osz R (vw_of rows))) = Ok (vw_of rows).
Proof.
  intros T osz Ho R valid HR rows Hf H64 Hv. rewrite (vw_write_of Ho HR). cbn [fst].
  rewrite <- (app_nil_r (vw_bytes osz R rows)).
  apply (vw_from_bytes_of Ho HR); auto. apply (rok_pos HR).
Qed.

Lemma Forall_concat_sub {T} (P : T -> Prop) (rows : list (list T)) b k :
  Forall P (concat rows) -> Forall P (concat (firstn k (skipn b rows))).
Proof.
  intros H. rewrite <- (firstn_skipn b rows), concat_app in H. apply Forall_app in H as [_ H].
  rewrite <- (firstn_skipn k (skipn b rows)), concat_app in H. now apply Forall_app in H as [H _].
Qed.

Lemma total_fits_sub {T} osz (rows : list (list T)) b k :
  total_fits osz rows -> total_fits osz (firstn k (skipn b rows)).
Proof.
  unfold total_fits. rewrite <- (firstn_skipn b rows) at 1. rewrite concat_app, app_length.
  rewrite <- (firstn_skipn k (skipn b rows)) at 1. rewrite concat_app, app_length. lia.
Qed.

Lemma vw_write_range_round_trip :
  forall (T : Type) (osz : nat), 0 < osz ->
  forall (R : repr T) (valid : T -> Prop), repr_ok R valid ->
  forall rows b e, total_fits osz rows -> fits64 (length rows) -> Forall valid (concat rows) ->
    b <= e -> e <= length rows ->
    exists bs n v, vw_write_range osz R (vw_of rows) b e = Ok (bs, n) /\
      vw_from_bytes osz R bs = Ok v /\ vw_observes (firstn (e - b) (skipn b rows)) v.
Proof.
  intros T osz Ho R valid HR rows b e Hf H64 Hv Hbe He.
  rewrite (vw_write_range_of Ho R Hf Hbe He).
  eexists; eexists; eexists. split; [reflexivity|]. split.
  - rewrite <- (app_nil_r (vw_bytes osz R (firstn (e - b) (skipn b rows)))).
    apply (vw_from_bytes_of Ho HR).
    + now apply total_fits_sub.
    + unfold fits64 in *. rewrite firstn_length, skipn_length. lia.
    + now apply Forall_concat_sub.
    + apply (rok_pos HR).
  - apply vw_of_observes.
Qed.

Lemma write_from_fixed_spec :
  forall (T : Type) (osz : nat), 0 < osz ->
  forall (R : repr T) (valid : T -> Prop), repr_ok R valid ->
  forall (m : mode) (w : nat), 0 < w ->
  forall (rows : list (list T)) (v : fw T), fw_is w rows v ->
  forall (keep : T -> bool) (c : cursor),
    let kept := map (filter keep) rows in
    total_fits osz kept ->
    exists bs,
      vw_write_from_fixed osz R m v keep c = Ok (cwrite c bs, length bs) /\
      (fits64 (length rows) -> Forall valid (fdata v) ->
         exists v', vw_from_bytes osz R bs = Ok v' /\ vw_observes kept v').
Proof.
  intros T osz Ho R valid HR m w Hw rows v Hv keep c kept Hfit.
  exists (vw_bytes osz R kept). split.
  - apply (write_from_fixed_ok Ho HR m Hw Hv keep Hfit).
  - intros H64 Hval. exists (vw_of kept). split; [|apply vw_of_observes].
    rewrite <- (app_nil_r (vw_bytes osz R kept)). apply (vw_from_bytes_of Ho HR); auto.
    + unfold kept. now rewrite map_length.
    + destruct Hv as (_ & D & _). rewrite D in Hval. clear -Hval.
      unfold kept. induction rows as [|r rows IH]; cbn in *; [constructor|].
      apply Forall_app in Hval as [H1 H2]. apply Forall_app. split; auto.
      rewrite Forall_forall in *. intros x Hx. apply filter_In in Hx as [Hx _]. auto.
    + apply (rok_pos HR).
Qed.

Lemma fw_history_from_width :
  forall (T : Type) (m : mode) (w : nat) (ops : list (fw_op T)),
    0 < w -> Forall fw_op_wf ops ->
    exists res, fw_history w [] ops res /\
      (forall res', fw_history w [] ops res' -> res' = res) /\
      match res with
      | Some rows => exists v, ofold (fw_op_run m) ops (fw_with_width w) = Ok v /\
                               fwidth v = w /\ fw_observes m rows v
      | None => ofold (fw_op_run m) ops (fw_with_width w) = Fail Panicked
      end.
Proof.
  intros T m w ops Hw Hops.
  destruct (@fw_history_ok T m w ops [] (fw_with_width w) Hw) as (res & Hh & Hres); auto.
  { repeat constructor. }
  exists res. split; auto. split.
  - intros res' H'. eapply fw_history_det; eauto.
  - destruct res as [rows|]; auto. destruct Hres as (v & E & Hv & Ho). exists v. split; auto.
    split; auto. apply Hv.
Qed.

Lemma fw_new_push (T : Type) (x : list T) :
  x <> [] -> fw_push fw_new x = fw_push (fw_with_width (length x)) x.
Proof. destruct x; [congruence|]. reflexivity. Qed.

Lemma fw_permute_wrong_length (T : Type) (m : mode) (fuel : nat) (v : fw T) (perm : list nat) :
  length perm <> fw_len v -> fw_permute m fuel v perm = Fail Panicked.
Proof.
  intros H. unfold fw_permute. destruct (Nat.eqb_spec (fw_len v) (length perm)); [congruence|reflexivity].
Qed.

Lemma odd_spec :
  forall (k : nat) (n : N),
    ((n < 256 ^ N.of_nat k)%N ->
       exists b, odd_from k n = Ok b /\ length b = k /\ odd_into b = n) /\
    ((256 ^ N.of_nat k <= n)%N -> odd_from k n = Fail Panicked).
Proof. intros; split; [apply odd_round_trip|apply odd_from_fail]. Qed.

Lemma three_five_bounds :
  (256 ^ N.of_nat three_byte = 2 ^ 24 /\ 256 ^ N.of_nat five_byte = 2 ^ 40)%N.
Proof. split; reflexivity. Qed.

Lemma fw_extend_by_empty_same_width (T : Type) (w : nat) (rows : list (list T)) (v : fw T) :
  0 < w -> fw_is w rows v -> fw_extend v (fw_with_width w) = Ok v.
Proof.
  intros Hw (E & D & F). unfold fw_extend. cbn [fwidth fdata fw_with_width].
  rewrite E. destruct (Nat.eqb_spec w 0); [lia|]. rewrite Nat.eqb_refl. cbn.
  rewrite app_nil_r. destruct v; cbn in *; congruence.
Qed.

Lemma fw_extend_by_new_panics (T : Type) (v : fw T) :
  0 < fwidth v -> fw_extend v fw_new = Fail Panicked.
Proof.
  intros H. unfold fw_extend. destruct (Nat.eqb_spec (fwidth v) 0); [lia|]. cbn.
  destruct (Nat.eqb_spec (fwidth v) 0); [lia|reflexivity].
Qed.
