(** * Proofs: from the builder to search, saving and reordering (2) *)
From Coq Require Import ZArith.
From Flocq Require Import IEEE754.Binary IEEE754.Bits IEEE754.BinarySingleNaN.
From Verif Require Import Base BaseFacts Bytes PBytes MSliceVec SSliceVec PFixed MOffsets SOffsets POffsets MSetVec MIndexIo SIndexIo PIndexIo PIndexCrash MSearch SSearch PHeap PSearch PSearchIx MBuild SBuild PSelect PRow PSLite PBuildInv PBuildRun PBuildLayer PBuildFair PBuilder PHistory SReorder PPipeline PReachB MFloat MFloatBits.
Open Scope nat_scope.
Set Implicit Arguments.
Unset Strict Implicit.

Lemma f32r_ok : repr_ok f32r (fun _ => True).
Proof.
  constructor.
  - cbn; lia.
  - intros x. apply le_enc_length.
  - intros x. apply le_enc_bytes.
  - intros x _. cbn [rdec renc f32r]. unfold f32_of_bits.
    assert (Hb : (0 <= bits_of_b32 (BSN2B 24 128 default_nan_pl32 x) < 2 ^ 32)%Z)
      by (apply (bits_of_binary_float_range 23 8 eq_refl eq_refl)).
    rewrite le_dec_enc.
    2: { unfold f32_bits. apply N2Z.inj_lt. rewrite Z2N.id by lia. exact (proj2 Hb). }
    unfold f32_bits. rewrite Z2N.id by lia. unfold b32_of_bits, bits_of_b32.
    rewrite binary_float_of_bits_of_binary_float. apply B2BSN_BSN2B.
Qed.

Section PipeB.
  Context {S E : Type} (V : benv S E).
  Local Notation C := (e_ops V).

  Lemma fine_graph b m : bfine V true b -> widths b -> exists G,
    index_shows m (FixWidth (b_layers b)) G /\ graph_ok G /\ length G = length (b_layers b) /\
    length (last G []) = builder_len b /\ builder_len b <= c_len C (b_elems b) /\
    (k_nn (b_config b) <= 254 -> index_is m (FixWidth (b_layers b)) G /\ storable G).
  Proof.
    intros (Hcf & [Hc Hlen Hfu] & R & Hch) HW. exists (map lists_of R).
    split; [eapply chain_shows; eauto|]. split; [eapply chain_graph_ok; eauto|].
    split; [rewrite map_length; symmetry; apply (Forall2_length (proj1 Hch))|].
    assert (Hll : length (last (map lists_of R) []) = builder_len b /\ builder_len b <= c_len C (b_elems b)).
    { destruct (@nil_or_snoc _ (b_layers b)) as [Els|(p & l & Els)].
      - rewrite Els in Hch. destruct Hch as [HF _]. inversion HF; subst. rewrite (builder_len_none Els). split; [reflexivity|lia].
      - rewrite Els in Hch. destruct (chain_split Hch) as (R0 & rows & -> & _ & Hl & _). rewrite map_app. cbn [map].
        rewrite last_last. rewrite (builder_len_app Els Hl). unfold lists_of. rewrite map_length. split; [reflexivity|apply (f_max Hl)]. }
    destruct Hll as [Hll Hle]. split; [exact Hll|]. split; [exact Hle|].
    intros Hk. split.
    - eapply chain_is; eauto. unfold widths in HW. eapply Forall_impl; [|exact HW]. cbn beta. intros l ->. exact Hk.
    - split; [|rewrite Hll; eapply N.le_trans; [apply N2Z.inj_le; apply inj_le in Hle; rewrite <- nat_N_Z in Hle; rewrite <- nat_N_Z in Hle; exact Hle|]].
      + unfold widths in HW. apply Forall_map. destruct Hch as [HF _]. clear -HF HW Hk Hlen. revert HW. induction HF as [|l rows ls R Hl HF IH]; intros HW; constructor; inversion HW as [|? ? H1 H2]; subst; auto.
        unfold lists_of. apply Forall_map. apply Forall_forall. intros r Hr. rewrite map_length. apply In_nth_error in Hr as (i & Hi).
        destruct (@wf_ids _ _ V (b_elems b) Hlen true (fwidth l) (length rows) (f_max Hl) (f_w0 Hl) i r (y_row (f_inv Hl) Hi)) as [[H3 _] _]. lia.
      + unfold UNUSED in Hlen. lia.
  Qed.
End PipeB.
