(** * Theorems C66, layer sizes: how many layers there can be *)
From Coq Require Import ZArith Reals Lra Lia.
From Flocq Require Import Core.
From Verif Require Import Base Bytes MSliceVec MIndexIo SIndexIo MSearch SSearch MBuild SBuild SPipeline MLayerSize PLayerR PBuilder TPipeline.
Open Scope R_scope.

(** With unrounded layer sizes, fewer than [m ^ (K + 1)] elements fit in layers
    [0] to [K]. *)
Theorem C66_layers_with_exact_sizes :
  forall (nn ms : nat) (reinsert : bool) (m : R) (K N : nat), 1 < m -> INR N < m ^ (K + 1) ->
    full_at (config_R nn ms reinsert None m) K N.
Proof.
  intros nn ms re m K N Hm HN n Hn. cbn [config_R k_expected k_ideal]. rewrite Nat.max_id.
  destruct n as [|n0]; [lia|]. set (n := S n0) in *. assert (Hn1 : (1 <= n)%nat) by (unfold n; lia).
  rewrite (@size_top m n Hm Hn1 K); [lia|].
  enough (H : (layer_exponent_R m n < Z.of_nat (K + 1))%Z) by lia.
  apply lt_IZR. eapply Rle_lt_trans; [apply Zfloor_lb|]. rewrite <- INR_IZR_INZ.
  destruct (Rlt_le_dec (ln (INR n) / ln m) (INR (K + 1))) as [H|H]; [exact H|]. exfalso.
  apply (pw_le m Hm) in H. rewrite (log_pw m n Hm Hn1) in H. rewrite Rpower_pow in H by lra.
  apply le_INR in Hn. lra.
Qed.
Print Assumptions C66_layers_with_exact_sizes.

(** So with a multiplier of at least 2.5 every collection makes at most 25 layers
    (with the default multiplier, 15, at most 9), and what is built can be saved. *)
Theorem C66_always_saved_with_exact_sizes :
  forall {S E I} (V : benv S E) (cpush : S -> I -> outcome S) b md c nn ms reinsert (m : R),
    sorts_by_dist (e_sort V) -> push_law (e_ops V) cpush -> built_once V cpush b ->
    b_config b = config_R nn ms reinsert None m -> (nn <= 254)%nat -> 5/2 <= m ->
    INR (builder_num_elements V b) < 2 ^ 32 ->
    exists c' L', write_index md (FixWidth (b_layers b)) c = Ok c' /\
      load_layers (skipn (cpos c) (cbuf c')) = Ok L' /\ same_index md (FixWidth (b_layers b)) L'.
Proof.
  intros S E I V cpush b md c nn ms re m Hs Hp Hb Hc Hnn Hm HN.
  destruct (C66_built_index_survives_saving V cpush b md c Hs Hp (bt_once _ _ _ _ Hb)) as (c' & L' & H1 & H2 & H3 & _).
  - rewrite Hc. exact Hnn.
  - apply (C66_number_of_layers V cpush b 24 Hs Hp Hb). rewrite Hc.
    apply C66_layers_with_exact_sizes; [lra|]. eapply Rlt_le_trans; [exact HN|].
    apply Rle_trans with ((5/2) ^ (24 + 1)); [cbn [Nat.add]; lra|]. apply pow_incr. lra.
  - exists c', L'. auto.
Qed.
Print Assumptions C66_always_saved_with_exact_sizes.

Theorem C66_default_layers_with_exact_sizes :
  forall {S E I} (V : benv S E) (cpush : S -> I -> outcome S) b nn ms reinsert,
    sorts_by_dist (e_sort V) -> push_law (e_ops V) cpush -> built_once V cpush b ->
    b_config b = config_R nn ms reinsert None 15 ->
    INR (builder_num_elements V b) < 2 ^ 32 -> (length (b_layers b) <= 9)%nat.
Proof.
  intros S E I V cpush b nn ms re Hs Hp Hb Hc HN.
  apply (C66_number_of_layers V cpush b 8 Hs Hp Hb). rewrite Hc.
  apply C66_layers_with_exact_sizes; [lra|]. eapply Rlt_le_trans; [exact HN|]. cbn [Nat.add]. lra.
Qed.
Print Assumptions C66_default_layers_with_exact_sizes.
