(** * Theorem C65, layer sizes: room for one element more than [num_neighbors] *)
From Coq Require Import ZArith Reals Lra Lia.
From Flocq Require Import Core.
From Verif Require Import Base MBuild MLayerSize SReach PLayerR.
Open Scope R_scope.

(** With unrounded layer sizes and a multiplier of at least 2, every collection of
    up to [1 + num_neighbors] elements has room (31 with the defaults). *)
Theorem C65_room_with_exact_layer_sizes :
  forall (nn ms : nat) (reinsert : bool) (m : R) (N : nat), 2 <= m -> (N <= 1 + nn)%nat ->
    roomy (config_R nn ms reinsert None m) N.
Proof.
  intros nn ms re m N Hm HN n l Hn. cbv zeta. cbn [config_R k_expected k_ideal k_nn]. rewrite Nat.max_id.
  destruct (Nat.ltb_spec (Z.to_nat (layer_size_R m n l)) n) as [Hlt|Hge]; [|lia].
  assert (Hn1 : (1 <= n)%nat) by lia.
  enough (H : (layer_size_R m n l <= (Z.of_nat n + 1) / 2)%Z).
  { assert ((Z.of_nat n + 1) / 2 <= 1 + Z.of_nat (nn / 2))%Z; [|lia].
    rewrite Nat2Z.inj_div by lia. change (Z.of_nat 2) with 2%Z.
    replace (1 + Z.of_nat nn / 2)%Z with ((Z.of_nat nn + 1 * 2) / 2)%Z by (rewrite Z.div_add; lia). apply Z.div_le_mono; lia. }
  destruct (Z.le_gt_cases (layer_exponent_R m n) (Z.of_nat l)) as [HK|HK].
  { exfalso. rewrite (@size_top m n ltac:(lra) Hn1 l HK) in Hlt. lia. }
  unfold layer_size_R. eapply Z.le_trans; [apply Z.le_min_l|]. apply Zceil_glb.
  assert (Hp : 2 <= Rpower m (IZR (layer_exponent_R m n) - INR l)).
  { apply Rle_trans with (Rpower m 1); [rewrite Rpower_1; lra|]. apply Rle_Rpower; [lra|].
    rewrite INR_IZR_INZ, <- minus_IZR. apply IZR_le. lia. }
  apply Rle_trans with (INR n / 2).
  - unfold Rdiv. apply Rmult_le_compat_l; [apply pos_INR|]. apply Rinv_le; lra.
  - rewrite INR_IZR_INZ. assert (H : (Z.of_nat n <= 2 * ((Z.of_nat n + 1) / 2))%Z).
    { pose proof (Z.div_mod (Z.of_nat n + 1) 2 ltac:(lia)). pose proof (Z.mod_pos_bound (Z.of_nat n + 1) 2 ltac:(lia)). lia. }
    apply IZR_le in H. rewrite mult_IZR in H. lra.
Qed.
Print Assumptions C65_room_with_exact_layer_sizes.
