(** * C74 continued: [Granne::from_file] *)
From Verif Require Import Base BaseFacts MSliceVec MOffsets MSetVec MIndexIo PIndexCrash MBuild MParse MReorder MPyIndex.

(** the table of offsets of a stored layer has at least one entry *)
Definition has_an_offset (v : msv) : Prop :=
  exists cs c d ds, coffs v = cs ++ [c] /\ (cs <> [] \/ (cdeltas c = d :: ds /\ d <> 65535%N)).

Lemma msv_len_ok v : (exists n, msv_len v = Ok n) <-> has_an_offset v.
Proof.
  unfold msv_len, cvw_len, offs_len, has_an_offset. unfold olast. change OFFSETS_PER_CHUNK with 60. split.
  - intros (n & H). destruct (coffs v) as [|c0 cs0] eqn:Eo using rev_ind; [cbn in H; discriminate|]. clear IHcs0.
    exists cs0, c0, (nth 0 (cdeltas c0) 65535%N), (tl (cdeltas c0)). split; [reflexivity|].
    destruct cs0 as [|x cs0]; [right|left; discriminate].
    cbn in H. unfold chunk_len in H. destruct (cdeltas c0) as [|d ds]; cbn in H; [discriminate|].
    destruct (N.eqb_spec d DUNUSED) as [->|Hd]; cbn in H; [discriminate|]. split; [reflexivity|]. exact Hd.
  - intros (cs & c & d & ds & E & H). rewrite E.
    assert (El : index (cs ++ [c]) (length (cs ++ [c]) - 1) = Ok c).
    { apply index_ok. rewrite app_length. cbn [length]. rewrite nth_error_app2 by lia. replace (length cs + 1 - 1 - length cs) with 0 by lia. reflexivity. }
    rewrite El. cbn [obind]. rewrite app_length. cbn [length].
    assert (Hp : 0 < 60 * (length cs + 1 - 1) + chunk_len c).
    { destruct H as [H|[Ec Hd]]; [destruct cs; [congruence|cbn [length]; lia]|].
      unfold chunk_len. rewrite Ec. cbn [take_while]. destruct (N.eqb_spec d DUNUSED); [subst; now elim Hd|]. cbn. lia. }
    destruct (Nat.ltb_spec 0 (60 * (length cs + 1 - 1) + chunk_len c)); [|lia]. cbn [oassert obind]. eauto.
Qed.

(** Which index files open: those that [from_bytes] reads (C74_which_files_load),
    unless the last layer has not even the offset 0. *)
Theorem C74_which_files_open :
  forall S (buffer : list N) (elements : S) g,
    granne_from_file buffer elements = Ok g <->
    exists vs, load_layers buffer = Ok (Compressed vs) /\ g = mkGranne (Compressed vs) elements /\
      forall v, nth_error vs (length vs - 1) = Some v -> has_an_offset v.
Proof.
  intros S buffer elements g. unfold granne_from_file.
  assert (Hc : forall Ls, load_layers buffer = Ok Ls -> exists vs, Ls = Compressed vs).
  { intros Ls E. unfold load_layers in E. repeat match type of E with
      | context [obind ?x _] => destruct x; cbn [obind] in E; [|discriminate] end.
    apply ok_inj in E. eauto. }
  assert (Hl : forall vs, (exists n, index_len (Compressed vs) = Ok n) <-> forall v, nth_error vs (length vs - 1) = Some v -> has_an_offset v).
  { intros vs. unfold index_len. cbn [layers_len]. destruct (Nat.ltb_spec 0 (length vs)) as [Hlt|Hge].
    - cbn [layer_len]. unfold index. destruct (nth_error vs (length vs - 1)) as [v|] eqn:Ev.
      + cbn [ounwrap obind]. rewrite msv_len_ok. split; [intros H v' E; now replace v' with v by congruence|auto].
      + apply nth_error_None in Ev. lia.
    - destruct vs; [|cbn in Hge; lia]. split; [intros _ v; cbn; discriminate|eauto]. }
  split.
  - destruct (load_layers buffer) as [Ls|] eqn:E; [|discriminate]. cbn [obind]. destruct (Hc _ eq_refl) as (vs & ->).
    destruct (index_len (Compressed vs)) as [n|] eqn:En; [|discriminate]. cbn [obind]. intros H. apply ok_inj in H.
    exists vs. split; [reflexivity|]. split; [congruence|]. apply Hl. eauto.
  - intros (vs & E & -> & H). rewrite E. cbn [obind]. apply Hl in H as (n & En). rewrite En. reflexivity.
Qed.
Print Assumptions C74_which_files_open.

(** A file with one layer of eight zero bytes is read by [from_bytes] and refused
    by [from_file]; one that [write_index] wrote opens. *)
From Coq Require Import String.
From Verif Require Import Bytes MJson TIndexIo TJsonText.
Definition ex_no_offset : list N := quote_nl "{'num_layers':1,'layer_counts':[0],'layer_sizes':[8]}".
Example C74_open_nonvacuous :
  load_layers (block_of ex_no_offset ++ repeat 0%N 8) = Ok (Compressed [mkCvw [] []]) /\
  granne_from_file (block_of ex_no_offset ++ repeat 0%N 8) tt = Fail Panicked /\
  (let* c := write_index Debug ex_index (mkCursor [] 0) in
   let* g := granne_from_file (cbuf c) tt in index_len (gr_layers g)) = index_len ex_index.
Proof. vm_compute. repeat split. Qed.
