(** * Theorems C85, continued: part of a batch remains; int8 and f32 builders *)
From Coq Require Import Permutation Sorted ZArith.
From Flocq Require Import Core IEEE754.BinarySingleNaN.
From Verif Require Import MFloat MReorder MAngular SAngular MPyIndex PDense PDenseHist PAngInt PAng TVectors PBuilder.
From Verif Require Import Base BaseFacts MSliceVec MIndexIo MSearch MBuild SBuild MLocks MRw SRw PBuildRun PRwSeq PRwLock PRwIds PIndexCrash PSearch PRwConc PRwTop PRwLive SSliceVec PFixed TBuild TRw MRwPanic SRwPanic PRwPanic PRwPanic2 TRwPanic.
Close Scope R_scope. Close Scope Z_scope. Open Scope nat_scope.

(** A container that refuses negative numbers. *)
Definition ex_push_pos (s : list Z) (x : Z) : outcome (list Z) := if (x <? 0)%Z then Fail Panicked else Ok (s ++ [x]).
Definition ex_panic_progs : list (list (rcall Z Z)) :=
  [[RInsert [5]; RInsert [9; 7; 2; -1; 3]; RInsert [6]; RSearch 2 8 8]; [RInsert [12]; RSearch 6 0 2; RSearch 7 8 8]; [RSave]]%Z.
Definition ex_panic_order : list (nat * nat) := concat (repeat [(0, 0); (0, 1); (1, 0); (1, 1)] 80) ++ repeat (2, 0) 60.

Lemma ex_psession b W progs : ex_rw = Ok W -> psession (ex_env Release) ex_push_pos ex_cfg 8 W (rw_locks b) progs.
Proof.
  intros EW. assert (Hp : push_law (e_ops (ex_env Release)) ex_push_pos).
  { intros s x s' H. unfold ex_push_pos in H. destruct (x <? 0)%Z; [discriminate|]. exact (proj1 (C35_vec_push ex_d) s x s' H). }
  vm_compute in EW. injection EW as <-. constructor; auto.
  - apply isort_ok.
  - intros s x e H. unfold ex_push_pos in H. destruct (x <? 0)%Z; congruence.
  - constructor; [cbn; discriminate|]. intros h s _ Hl. apply ex_usable. cbn in Hl. lia.
  - constructor; cbn; try lia.
    + exists [], 2. split; [reflexivity|]. split; [reflexivity|]. intros [|i] r Hr; discriminate.
    + split; constructor.
  - constructor; cbn [w_cur length w_prev ex_cfg k_ideal]; try lia.
    + intros [|[|i]] [|[|j]] Hij; lia.
  - apply rw_locks_safe.
  - apply Forall_forall. intros cs Hcs. apply Forall_forall. intros c Hc. destruct c as [xs|q ms nn|]; cbn [query_ok]; auto.
    intros h s i _ _ Hi. cbn [ex_env e_ops vec_ops c_dte c_len] in *. unfold index. destruct (nth_error s i) eqn:En; [cbn; eauto|]. apply nth_error_None in En. lia.
Qed.

(** Nothing of a batch whose insertion panicked is left: false.  The elements before
    the refused one stay, are saved with the others, and their ids are never
    returned; those of an earlier piece of the batch are found by searches, those
    of the same piece have no neighbour and are not.  Here 9, 7, 2 and then -1 is
    refused; meanwhile another thread goes on, and itself searches while
    looking at no node, which panics too. *)
Theorem C85_nothing_of_a_panicked_batch_remains_refuted :
  exists W y, ex_rw = Ok W /\ psession (ex_env Release) ex_push_pos ex_cfg 8 W (rw_locks false) ex_panic_progs /\
    prun (ex_env Release) ex_push_pos ex_cfg 8 (rw_locks false) [] ex_panic_order (rstart W ex_panic_progs) = Ok y /\
    Forall finished (snd y) /\ w_elems (fst y) = [5; 12; 9; 7; 2; 6]%Z /\
    inserts y = [([5]%Z, [0]); ([6]%Z, [5]); ([12]%Z, [1])] /\
    flat_map (fun t => flat_map (fun r => match r with Found q _ _ out => [(q, out)] | _ => [] end) (t_log t)) (snd y) =
      [(2%Z, [(0, 30%Z); (5, 40%Z); (3, 50%Z); (2, 70%Z); (1, 100%Z)]); (7%Z, [(0, 20%Z); (1, 50%Z)])] /\
    flat_map (fun t => flat_map (fun r => match r with Saved s ls => [(s, map fw_len ls)] | _ => [] end) (t_log t)) (snd y) =
      [([5; 12; 9; 7; 2; 6]%Z, [2; 4; 6])].
Proof.
  destruct ex_rw as [W|] eqn:EW; [|vm_compute in EW; discriminate].
  destruct (prun (ex_env Release) ex_push_pos ex_cfg 8 (rw_locks false) [] ex_panic_order (rstart W ex_panic_progs)) as [y|] eqn:Ey.
  2:{ vm_compute in EW. injection EW as <-. vm_compute in Ey. discriminate. }
  exists W, y. split; auto. split; [apply ex_psession; auto|]. split; auto.
  vm_compute in EW. injection EW as <-. vm_compute in Ey. injection Ey as <-.
  split; [repeat (constructor; [split; reflexivity|]); constructor|]. repeat split.
Qed.
Print Assumptions C85_nothing_of_a_panicked_batch_remains_refuted.



(** The call of [C85_only_bad_calls_panic] that panics: 7 is stored, -1 is refused. *)
Example C85_blame_example :
  exists W y t, ex_rw = Ok W /\
    psession (ex_env Release) ex_push_pos ex_cfg 8 W (rw_locks false) [[RInsert [7; -1]]; [RSave]]%Z /\
    prun (ex_env Release) ex_push_pos ex_cfg 8 (rw_locks false) [] (repeat (0, 0) 9) (rstart W [[RInsert [7; -1]]; [RSave]]%Z) = Ok y /\
    rsys_step (ex_env Release) ex_push_pos ex_cfg 8 (rw_locks false) (repeat (0, 0) 9) y (0, 0) = Fail Panicked /\
    nth_error (snd y) 0 = Some t /\ to_blame ex_push_pos (fst y) t /\ guards (t_pc t) <> [] /\ w_elems (fst y) = [7]%Z.
Proof.
  destruct ex_rw as [W|] eqn:EW; [|vm_compute in EW; discriminate].
  pose proof (ex_psession false W [[RInsert [7; -1]]; [RSave]]%Z EW) as Hp. vm_compute in EW. injection EW as <-.
  eexists _, _, _. split; [reflexivity|]. split; [exact Hp|]. split; [vm_compute; reflexivity|]. split; [vm_compute; reflexivity|].
  split; [reflexivity|]. split; [left; exists (-1)%Z; split; [cbn; auto|reflexivity]|]. split; [discriminate|reflexivity].
Qed.

(** ** The containers of the crate *)
Set Implicit Arguments.
Section dense.
  Context {T : Type} (dist : list T -> list T -> outcome Z) (V : benv (fw T) (list T)).
  Hypothesis HV : e_ops V = vectors_ops Release dist.
  Hypothesis Hrel : e_mode V = Release.
  Hypothesis Hsort : sorts_by_dist (e_sort V).
  Variables (w : nat) (good : list T -> Prop).
  Hypothesis Hw : 0 < w.
  Hypothesis Hgood : forall x y, length x = w -> length y = w -> good x -> good y -> exists d, dist x y = Ok d.
  Let push (s : fw T) (x : sig good) : outcome (fw T) := push_vec s (proj1_sig x).

  Lemma pushes_good h : forall rows v s, fw_is w rows v -> Forall good rows -> ofold push h v = Ok s ->
    exists rows', fw_is w rows' s /\ Forall good rows'.
  Proof using Hw.
    induction h as [|[x Gx] h IH]; cbn [ofold]; intros rows v s Hr Hg H.
    - apply ok_inj in H. subst. eauto.
    - unfold push at 1 in H. cbn [proj1_sig] in H. destruct (push_vec v x) as [v1|] eqn:E1; [|discriminate]. cbn [obind] in H.
      unfold push_vec in E1. destruct (_ && _); [|discriminate]. rewrite (fw_is_push x Hw Hr) in E1.
      destruct (Nat.eqb_spec (length x) w) as [Ex|_]; [|discriminate]. apply ok_inj in E1. subst v1.
      destruct Hr as (E1 & E2 & F). eapply IH; [| |exact H].
      + split; [reflexivity|]. split; [reflexivity|]. apply Forall_app. split; eauto.
      + apply Forall_app. auto.
  Qed.
  Lemma dense_psession cfg max W (P : rpolicy (fw T) (list T) (sig good)) progs rows :
    fw_is w rows (w_elems W) -> Forall good rows -> max < e_fuel V -> (N.of_nat max <= UNUSED)%N ->
    rw_wf V cfg W -> sizes_ok cfg max W -> safe_locks P ->
    (forall cs q ms nn, In cs progs -> In (RSearch q ms nn) cs -> length q = w /\ good q) ->
    psession V push cfg max W P progs.
  Proof using HV Hrel Hsort Hw Hgood.
    intros Hr Hg Hf Hm Hwf Hsz HP Hq. constructor; auto.
    - rewrite HV. intros s x s' H. exact (push_vec_law Release dist H).
    - intros s x e H. unfold push, push_vec in H. destruct (_ && _); [|congruence]. unfold fw_push in H.
      destruct (Nat.eqb _ _); cbn in H; congruence.
    - constructor; auto. intros h s Hs Hl. destruct (pushes_good _ Hr Hg Hs) as (rows' & Hr' & Hg').
      eapply holds_usable; eauto; [left; exact Hr'|]. rewrite HV in Hl. cbn in Hl. rewrite (fw_is_len Hw Hr') in Hl. lia.
    - apply Forall_forall. intros cs Hcs. apply Forall_forall. intros c Hc. destruct c as [xs|q ms nn|]; cbn [query_ok]; auto.
      destruct (Hq _ _ _ _ Hcs Hc) as [Lq Gq]. intros h s i Hs _ Hi. destruct (pushes_good _ Hr Hg Hs) as (rows' & Hr' & Hg').
      rewrite HV in *. cbn [vectors_ops c_len c_dte] in *. rewrite (fw_is_len Hw Hr') in Hi.
      destruct (nth_error rows' i) as [r|] eqn:Er; [|apply nth_error_None in Er; lia].
      erewrite fw_is_get by eauto. cbn [obind]. apply Hgood; auto.
      + destruct Hr' as (_ & _ & F). rewrite Forall_forall in F. apply F. eapply nth_error_In; eauto.
      + rewrite Forall_forall in Hg'. apply Hg'. eapply nth_error_In; eauto.
  Qed.
  Lemma dense_refuses x s rows : fw_is w rows s -> (push s x = Fail Panicked <-> length (proj1_sig x) <> w).
  Proof using Hw.
    intros Hr. unfold push, push_vec. destruct x as [x Gx]. cbn [proj1_sig]. pose proof Hr as (E & _).
    rewrite E. destruct (Nat.ltb_spec 0 (length x)), (Nat.ltb_spec 0 w); cbn [andb orb]; try lia.
    - rewrite (fw_is_push x Hw Hr). destruct (Nat.eqb_spec (length x) w); cbn; split; intros; try congruence; lia.
    - split; auto. intros _ ?. lia.
  Qed.
End dense.
Unset Implicit Arguments.

(** int8 vectors of dimension [w]: the threads insert vectors of any dimension; the
    only calls that panic insert one of another dimension or search while
    looking at no node; and [psession] holds, so that C85 applies. *)
Theorem C85_int8 :
  forall fuel usort w cfg max W (P : rpolicy (fw Z) (list Z) (sig i8s)) progs rows,
    sorts_by_dist usort -> (0 < Z.of_nat w <= 131071)%Z ->
    fw_is w rows (w_elems W) -> Forall i8s rows -> max < fuel -> (N.of_nat max <= UNUSED)%N ->
    rw_wf (env_i8 Release fuel usort) cfg W -> sizes_ok cfg max W -> safe_locks P ->
    (forall cs q ms nn, In cs progs -> In (RSearch q ms nn) cs -> length q = w /\ i8s q) ->
    let push := fun s x => push_vec s (proj1_sig x) in
    psession (env_i8 Release fuel usort) push cfg max W P progs /\
    forall sched, exists y, prun (env_i8 Release fuel usort) push cfg max P [] sched (rstart W progs) = Ok y /\
      forall m e, rsys_step (env_i8 Release fuel usort) push cfg max P sched y m = Fail e ->
        e = Panicked /\ exists t, nth_error (snd y) (fst m) = Some t /\
        ((exists x, In x (t_batch t) /\ length (proj1_sig x) <> w) \/ exists q nn st, t_pc t = SLoop q 0 nn st).
Proof.
  intros fuel usort w cfg max W P progs rows Hs Hw Hr Hg Hf Hm Hwf Hsz HP Hq push.
  assert (Hw0 : 0 < w) by lia.
  assert (Hgood : forall x y, length x = w -> length y = w -> i8s x -> i8s y -> exists d, coded (angular_int_dist Release x y) = Ok d).
  { intros x z Hx Hz Gx Gz. destruct (@kernel_ok Release x z Gx Gz ltac:(congruence) ltac:(lia)) as (E & _).
    destruct (angular_int_ok E) as [d Ed]. exists (f32_code d). rewrite Ed. reflexivity. }
  assert (Hp : psession (env_i8 Release fuel usort) push cfg max W P progs) by (eapply (@dense_psession _ (fun x y => coded (angular_int_dist Release x y)) (env_i8 Release fuel usort) eq_refl eq_refl Hs w i8s Hw0 Hgood); eassumption).
  split; auto. intros sched. destruct (C85_only_bad_calls_panic _ _ _ _ _ _ _ _ _ _ sched Hp) as (y & Ey & H). exists y. split; auto.
  intros m e He. destruct (H m e He) as (He' & t & Ht & Hb). split; [exact He'|]. exists t. split; auto.
  destruct Hb as [(x & Hx & Ex)|Hb]; auto. left. exists x. split; auto.
  destruct (prun_left Hp Ey) as (_ & _ & _ & hist & Hh & _).
  destruct (pushes_good Hw0 _ Hr Hg Hh) as (rows' & Hr' & _). exact (proj1 (dense_refuses Hw0 x Hr') Ex).
Qed.
Print Assumptions C85_int8.

(** The same for f32 vectors, scaled or zero, of a dimension for which the rounding
    errors are bounded (C63). *)
Theorem C85_f32 :
  forall fuel usort w cfg max W (P : rpolicy (fw f32) (list f32) (sig unit_or_zero)) progs rows,
    sorts_by_dist usort -> 0 < w -> (Z.of_nat (rounds w) <= 10000)%Z ->
    fw_is w rows (w_elems W) -> Forall unit_or_zero rows -> max < fuel -> (N.of_nat max <= UNUSED)%N ->
    rw_wf (env_f32 Release fuel usort) cfg W -> sizes_ok cfg max W -> safe_locks P ->
    (forall cs q ms nn, In cs progs -> In (RSearch q ms nn) cs -> length q = w /\ unit_or_zero q) ->
    let push := fun s x => push_vec s (proj1_sig x) in
    psession (env_f32 Release fuel usort) push cfg max W P progs /\
    forall sched, exists y, prun (env_f32 Release fuel usort) push cfg max P [] sched (rstart W progs) = Ok y /\
      forall m e, rsys_step (env_f32 Release fuel usort) push cfg max P sched y m = Fail e ->
        e = Panicked /\ exists t, nth_error (snd y) (fst m) = Some t /\
        ((exists x, In x (t_batch t) /\ length (proj1_sig x) <> w) \/ exists q nn st, t_pc t = SLoop q 0 nn st).
Proof.
  intros fuel usort w cfg max W P progs rows Hs Hw0 Hw Hr Hg Hf Hm Hwf Hsz HP Hq push.
  assert (Hgood : forall x y, length x = w -> length y = w -> unit_or_zero x -> unit_or_zero y -> exists d, coded (angular_dist x y) = Ok d).
  { intros x z Hx Hz Gx Gz. eapply uz_dist; eauto. }
  assert (Hp : psession (env_f32 Release fuel usort) push cfg max W P progs) by (eapply (@dense_psession _ (fun x y => coded (angular_dist x y)) (env_f32 Release fuel usort) eq_refl eq_refl Hs w unit_or_zero Hw0 Hgood); eassumption).
  split; auto. intros sched. destruct (C85_only_bad_calls_panic _ _ _ _ _ _ _ _ _ _ sched Hp) as (y & Ey & H). exists y. split; auto.
  intros m e He. destruct (H m e He) as (He' & t & Ht & Hb). split; [exact He'|]. exists t. split; auto.
  destruct Hb as [(x & Hx & Ex)|Hb]; auto. left. exists x. split; auto.
  destruct (prun_left Hp Ey) as (_ & _ & _ & hist & Hh & _).
  destruct (pushes_good Hw0 _ Hr Hg Hh) as (rows' & Hr' & _). exact (proj1 (dense_refuses Hw0 x Hr') Ex).
Qed.
Print Assumptions C85_f32.

(** A builder over one int8 vector of dimension 2, with room for one more in its
    first layer; one thread's batch has a vector of dimension 3. *)
Definition ex_i8_rw : rw (fw Z) := mkRw (mkFw [3; 4]%Z 2) [[UNUSED; UNUSED]; [UNUSED; UNUSED]] 2 [].
Lemma i8_12 : i8s [1; 2]%Z. Proof. repeat constructor; lia. Qed.
Lemma i8_123 : i8s [1; 2; 3]%Z. Proof. repeat constructor; lia. Qed.
Definition ex_i8_progs : list (list (rcall (list Z) (sig i8s))) :=
  [[RInsert [exist _ _ i8_12; exist _ _ i8_123]; RSearch [3; 4]%Z 4 4]; [RInsert [exist _ _ i8_12]; RSave]].
Example C85_int8_example :
  psession (env_i8 Release 20 isort) (fun s x => push_vec s (proj1_sig x)) ex_cfg 8 ex_i8_rw (rw_locks false) ex_i8_progs /\
  exists y, prun (env_i8 Release 20 isort) (fun s x => push_vec s (proj1_sig x)) ex_cfg 8 (rw_locks false) []
      (concat (repeat [(0, 0); (0, 1); (1, 0); (1, 1)] 40)) (rstart ex_i8_rw ex_i8_progs) = Ok y /\
    fdata (w_elems (fst y)) = [3; 4; 1; 2; 1; 2]%Z /\ map snd (inserts y) = [[2]] /\ forallb (fun t => match t_pc t, t_todo t with Idle, [] => true | _, _ => false end) (snd y) = true.
Proof.
  split.
  - refine (proj1 (C85_int8 20 isort 2 ex_cfg 8 ex_i8_rw (rw_locks false) ex_i8_progs [[3; 4]%Z] _ _ _ _ _ _ _ _ _ _)); try (cbn; lia).
    + apply isort_ok.
    + repeat split. repeat constructor.
    + repeat constructor; lia.
    + cbn. discriminate.
    + constructor; cbn; try lia.
      * exists [[UNUSED; UNUSED]], 1. split; [reflexivity|]. split; [reflexivity|]. intros [|[|i]] r Hr; try discriminate.
        injection Hr as <-. exists []. split; [repeat split; auto; cbn; lia|repeat constructor; cbn; tauto].
      * split; constructor.
    + constructor; cbn [ex_i8_rw w_cur length w_prev ex_cfg k_ideal]; try lia.
      try (intros [|[|i]] [|[|j]] Hij; lia).
    + apply rw_locks_safe.
    + intros cs q ms nn Hcs Hc. destruct Hcs as [<-|[<-|[]]].
      * destruct Hc as [Hc|[Hc|[]]]; [discriminate|]. injection Hc as <- _ _. split; [reflexivity|]. repeat constructor; lia.
      * destruct Hc as [Hc|[Hc|[]]]; discriminate.
  - set (o := prun _ _ _ _ _ _ _ _).
    assert (H : match o with
                | Ok y => (fdata (w_elems (fst y)), map snd (inserts y), forallb (fun t => match t_pc t, t_todo t with Idle, [] => true | _, _ => false end) (snd y))
                | Fail _ => ([], [], false)
                end = ([3; 4; 1; 2; 1; 2]%Z, [[2]], true)) by (vm_compute; reflexivity).
    clearbody o. destruct o as [y|]; [|discriminate]. exists y. split; auto. apply pair_equal_spec in H as [H1 H3]. apply pair_equal_spec in H1 as [H1 H2]. auto.
Qed.
