(** * Property theorems: [read_with_capacity] (C10) *)
From Verif Require Import Base BaseFacts Bytes PBytes MSliceVec SSliceVec PFixed PVar PCursor PWriteVar PSliceMisc.

(** [read_with_capacity] gives the collection back whatever capacity is asked
    for, the empty collection of a positive width included. *)
Theorem C10_read_with_capacity_round_trip :
  forall (T : Type) (R : repr T) (valid : T -> Prop), repr_ok R valid ->
  forall (w : nat) (rows : list (list T)) (v : fw T) (fuel : nat),
    0 < w -> fits64 w -> fw_is w rows v -> Forall valid (fdata v) -> length rows < fuel ->
    fw_read_with_capacity R fuel (fst (fw_write R v)) = Ok v.
Proof.
  intros T R valid HR w rows v fuel Hw H64 (E & D & F) HV Hf. unfold fw_read_with_capacity, fw_write. cbn [fst].
  rewrite app_length, le_enc_length.
  destruct (Nat.ltb_spec (8 + length (write_as_bytes R (fdata v))) 8); [lia|].
  rewrite firstn_app, firstn_all2 by (rewrite le_enc_length; auto).
  rewrite le_enc_length, Nat.sub_diag. cbn [firstn]. rewrite app_nil_r.
  rewrite le_dec_enc by (rewrite E; exact H64). rewrite Nat2N.id.
  rewrite skipn_app, skipn_all2 by (rewrite le_enc_length; auto).
  rewrite le_enc_length, Nat.sub_diag. cbn [skipn app].
  rewrite E, D. unfold fw_with_capacity. destruct (Nat.ltb_spec 0 w); [|lia]. cbn [oassert obind].
  rewrite (@fw_read_loop_ok T R valid HR w (mkFw [] w) rows [] fuel); auto.
  - cbn [fdata fwidth app]. f_equal. destruct v; cbn in *; subst. destruct rows; reflexivity.
  - rewrite D in HV. clear -HV. induction rows as [|r rows IH]; constructor.
    + cbn in HV. apply Forall_app in HV. tauto.
    + apply IH. cbn in HV. apply Forall_app in HV. tauto.
Qed.
Print Assumptions C10_read_with_capacity_round_trip.

(** ... but what [Vectors::new()] writes is refused here, too. *)
Theorem C10_read_with_capacity_empty_refuted :
  forall (T : Type) (R : repr T) (fuel : nat),
    fw_read_with_capacity R fuel (fst (fw_write R (@fw_new T))) = Fail Panicked.
Proof. intros. reflexivity. Qed.
Print Assumptions C10_read_with_capacity_empty_refuted.

Example C10_read_with_capacity_nonvacuous :
  fw_is 2 [] (mkFw (@nil N) 2) /\ fw_is 2 [[7;8];[9;1]]%N (mkFw [7;8;9;1]%N 2) /\
  fw_read_with_capacity u32r 3 (fst (fw_write u32r (mkFw (@nil N) 2))) = Ok (mkFw (@nil N) 2) /\
  fw_read_with_capacity u32r 3 (fst (fw_write u32r (mkFw [7;8;9;1]%N 2))) = Ok (mkFw [7;8;9;1]%N 2).
Proof. split; [repeat constructor|split; [repeat constructor|split; reflexivity]]. Qed.
