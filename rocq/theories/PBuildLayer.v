(** * Proofs: building one layer *)
From Verif Require Import Base BaseFacts MSliceVec SSliceVec PFixed MIndexIo MSearch PHeap PSearch MBuild SBuild PSelect PRow PSLite PBuildInv PBuildRun.
Set Implicit Arguments.
Unset Strict Implicit.

Lemma omapM_pointwise {A B} (f : A -> outcome B) (Q : nat -> B -> Prop) l :
  (forall i x, nth_error l i = Some x -> exists y, f x = Ok y /\ Q i y) ->
  exists ys, omapM f l = Ok ys /\ length ys = length l /\ (forall i y, nth_error ys i = Some y -> Q i y).
Proof.
  revert Q. induction l as [|x l IH]; intros Q H.
  - exists []. repeat split; auto. intros [|i] y Hy; discriminate.
  - destruct (H 0 x eq_refl) as (y & Ey & Qy).
    destruct (IH (fun i => Q (S i))) as (ys & Eys & Ly & Qys).
    { intros i z Hz. apply (H (S i)). auto. }
    exists (y :: ys). cbn [omapM]. rewrite Ey. cbn [obind]. rewrite Eys. cbn. split; auto. split; [auto|].
    intros [|i] z Hz; cbn in Hz; [injection Hz as <-; auto|auto].
Qed.

Lemma nth_error_enum {A} (l : list A) i x : nth_error (combine (seq 0 (length l)) l) i = Some x ->
  exists r, x = (i, r) /\ nth_error l i = Some r.
Proof.
  assert (H : forall a, nth_error (combine (seq a (length l)) l) i = Some x ->
            exists r, x = (a + i, r) /\ nth_error l i = Some r).
  { revert i. induction l as [|y l IH]; intros [|i] a; cbn; try discriminate.
    - intros E. injection E as <-. rewrite Nat.add_0_r. eauto.
    - intros E. apply IH in E as (r & -> & Hr). exists r. split; auto. f_equal. lia. }
  intros E. apply H in E. exact E.
Qed.

Lemma split_last_app {A} (l : list A) x : split_last (l ++ [x]) = Some (x, l).
Proof.
  unfold split_last. rewrite app_length. cbn [length]. rewrite nth_error_app2 by lia.
  replace (length l + 1 - 1 - length l) with 0 by lia. cbn [nth_error]. now rewrite removelast_last.
Qed.
Lemma split_last_nil {A} (l : list A) : split_last l = None -> l = [].
Proof.
  destruct l as [|y l]; auto. unfold split_last. destruct (nth_error (y :: l) _) eqn:E; [discriminate|].
  apply nth_error_None in E. cbn in E. lia.
Qed.
Lemma split_last_some {A} (l : list A) x p : split_last l = Some (x, p) -> l = p ++ [x].
Proof.
  intros H. destruct l as [|y l]; [discriminate|]. destruct (exists_last (l := y :: l)) as (p' & x' & E); [discriminate|].
  rewrite E in *. rewrite split_last_app in H. congruence.
Qed.

Lemma last_indep {A} (d d' : A) l : l <> [] -> last l d = last l d'.
Proof. induction l as [|x [|y l] IH]; intros H; [congruence|reflexivity|]. cbn [last] in *. apply IH. discriminate. Qed.

Section Layer.
  Context {S E : Type} (V : benv S E) (s : S).
  Local Notation C := (e_ops V).
  Hypothesis Hc : cont_ok C s.
  Hypothesis Hsort : sorts_by_dist (e_sort V).
  Hypothesis Hlen : (N.of_nat (c_len C s) <= UNUSED)%N.
  Variable U : bool.

  Definition none : nat -> Prop := fun _ => False.

  (** a finished layer with rows [rows], at least [nn0] wide *)
  Record lfine (nn0 : nat) (l : fw N) (rows : list (list N)) : Prop := mkLfine {
    f_is : fw_is (fwidth l) rows l;
    f_w : nn0 <= fwidth l;
    f_w0 : 0 < fwidth l;
    f_pos : 0 < length rows;
    f_max : length rows <= c_len C s;
    f_inv : lay_inv V s U (fwidth l) (length rows) none rows
  }.

  Definition grows (r1 r2 : list (list N)) : Prop :=
    length r1 <= length r2 /\ (U = true -> forall x, live r1 x -> live r2 x).

  Definition chain (nn0 : nat) (ls : list (fw N)) (R : list (list (list N))) : Prop :=
    Forall2 (lfine nn0) ls R /\ StronglySorted grows R.

  (** ** The final pass *)
  Lemma limit_rows_ok w n nn B rows : n <= c_len C s -> 0 < nn <= w -> lay_inv V s U w n B rows ->
    exists rows', limit_rows V s nn rows = Ok rows' /\ lay_inv V s U w n B rows' /\
      (forall x, live rows x -> live rows' x) /\ (forall x, live rows' x -> live rows x) /\
      (forall i r, nth_error rows' i = Some r -> length (row_ids r) <= nn).
  Proof.
    intros Hn Hnn HI. unfold limit_rows.
    set (Q := fun i r' => exists r, nth_error rows i = Some r /\ wf_row U w n i r' /\ length (row_ids r') <= nn /\
                 incl (row_ids r') (row_ids r) /\ (row_ids r <> [] -> row_ids r' <> [])).
    destruct (@omapM_pointwise _ _ (fun x => add_and_limit V s (snd x) (fst x) [] nn) Q (combine (seq 0 (length rows)) rows))
      as (rows' & -> & HL & HQ).
    { intros i x Hx. apply nth_error_enum in Hx as (r & -> & Hr). cbn [fst snd].
      assert (Hi : i < n) by (rewrite <- (y_len HI); apply nth_error_Some; congruence).
      destruct (@limit_ok _ _ V s Hc Hsort Hlen U w n Hn ltac:(lia) i r nn (y_row HI Hr) Hi Hnn) as (r' & E1 & H1 & H2 & H3 & H4).
      exists r'. split; auto. exists r. auto 10. }
    rewrite combine_length, seq_length, Nat.min_id in HL.
    exists rows'. split; auto.
    assert (Hex : forall i r, nth_error rows i = Some r -> exists r', nth_error rows' i = Some r').
    { intros i r Hr. destruct (nth_error rows' i) eqn:Er; eauto. apply nth_error_None in Er.
      assert (i < length rows) by (apply nth_error_Some; congruence). lia. }
    assert (Hm : forall x, live rows x -> live rows' x).
    { intros x (r & Hr & Hne). destruct (Hex _ _ Hr) as (r' & Hr'). exists r'. split; auto.
      destruct (HQ _ _ Hr') as (r0 & Hr0 & _ & _ & _ & H). apply H. congruence. }
    assert (Hm2 : forall x, live rows' x -> live rows x).
    { intros x (r' & Hr' & Hne). destruct (HQ _ _ Hr') as (r & Hr & _ & _ & Hi & _). exists r. split; auto.
      intros E0. rewrite E0 in Hi. apply Hne. now apply incl_l_nil in Hi. }
    split; [|split; [auto|split; [auto|]]].
    - constructor.
      + rewrite HL. apply (y_len HI).
      + intros i r Hr. now destruct (HQ _ _ Hr) as (r0 & _ & H & _).
      + intros i r y Hr Hy HU Hy0. destruct (HQ _ _ Hr) as (r0 & Hr0 & _ & _ & Hi & _).
        destruct (y_link HI Hr0 (Hi _ Hy) HU Hy0). auto.
      + intros HU z Hz Hz0 Hl. apply (y_zero HI HU Hz Hz0). auto.
      + intros x Hx. apply Hm. now apply (y_base HI).
    - intros i r Hr. now destruct (HQ _ _ Hr) as (r0 & _ & _ & H & _).
  Qed.

  (** ** Searching the finished layers for an entry point *)
  Lemma read_layer nn0 l rows m x r : lfine nn0 l rows -> nth_error rows x = Some r ->
    fw_neighbors m l x = Ok (row_ids r).
  Proof. intros Hf Hr. unfold fw_neighbors. rewrite (fw_is_get m x (f_w0 Hf) (f_is Hf) Hr). reflexivity. Qed.

  (** the distances to [e] can be computed *)
  Definition dte_ok (e : E) : Prop := forall i, i < c_len C s -> exists d, c_dte C s i e = Ok d.
  Lemma dte_elem idx e : idx < c_len C s -> c_get C s idx = Ok e -> dte_ok e.
  Proof. intros Hi He i Hin. apply (ck_dte Hc Hin Hi He). Qed.

  Lemma layer_search nn0 l rows e fuel ms ep g : lfine nn0 l rows -> dte_ok e ->
    length rows < fuel -> 0 < ms -> ep < length rows -> lnk U rows ep ->
    (forall x, x < length rows -> g x = fw_neighbors (e_mode V) l x) ->
    exists res, search_for_neighbors fuel g (fun i => c_dte C s i e) ep ms = Ok res /\
      res <> [] /\ forall x, In x res -> fst x < length rows /\ lnk U rows (fst x).
  Proof.
    intros Hf Hq Hfu Hms Hep Hlk Hg.
    set (nb := fun x => match nth_error rows x with Some r => row_ids r | None => [] end).
    assert (Hn : length rows <= c_len C s) by apply (f_max Hf).
    assert (Hd : forall i, i < length rows -> c_dte C s i e = Ok (fE V s e i)).
    { intros i Hin. destruct (Hq i) as (d & Hd); [lia|]. unfold fE. now rewrite Hd. }
    assert (Hnb : forall x, x < length rows -> g x = Ok (nb x) /\ Forall (fun y => y < length rows) (nb x)).
    { intros x Hx. unfold nb. destruct (nth_error rows x) as [r|] eqn:Er; [|apply nth_error_None in Er; lia].
      rewrite Hg by auto. split; [apply (read_layer (e_mode V) Hf Er)|].
      pose proof (f_w0 Hf) as Hw0.
      destruct (@wf_ids _ _ V s Hlen U (fwidth l) (length rows) Hn Hw0 x r) as [_ (_ & _ & H)]; auto.
      apply (y_row (f_inv Hf) Er). }
    destruct (@sfn_ok (length rows) (fE V s e) _ Hd g nb Hnb ms ep Hms Hep fuel Hfu) as (l0 & E0 & HF).
    rewrite E0. eexists. split; [reflexivity|]. destruct HF as (_ & _ & _ & Hk & _ & _ & (r & Hr & _)).
    split; [destruct l0; [destruct Hr|discriminate]|].
    intros x Hx. apply in_map_iff in Hx as (k & <- & Hkk). cbn [fst]. destruct (Hk k Hkk) as (_ & Hlt & Hrch). split; auto.
    clear Hkk Hlt. induction Hrch as [|y z Hy IH Hyn Hz]; auto.
    unfold nb in Hz. destruct (nth_error rows y) as [ry|] eqn:Ery; [|destruct Hz].
    eapply (y_link (f_inv Hf)); eauto.
  Qed.

  Lemma find_ok nn0 e fuel : dte_ok e -> c_len C s < fuel ->
    forall (ls : list (fw N)) R gs, Forall2 (lfine nn0) ls R -> StronglySorted grows R ->
    Forall2 (fun g l => forall x, g x = fw_neighbors (e_mode V) l x) gs ls ->
    forall ep r0, (R <> [] -> grows r0 (hd [] R)) -> ep < length r0 -> lnk U r0 ep ->
    exists ep', ofold (fun entrypoint layer =>
           let* res := search_for_neighbors fuel layer (fun i => c_dte C s i e) entrypoint 1 in
           let* r := index res 0 in Ok (fst r)) gs ep = Ok ep' /\
      ep' < length (last R r0) /\ lnk U (last R r0) ep'.
  Proof.
    intros Hq Hfu. induction ls as [|l ls IH]; intros R gs HF HS HG ep r0 H0 Hep Hlk.
    - inversion HF; subst. inversion HG; subst. exists ep. cbn. auto.
    - inversion HF as [|? rows ? R' Hl HF']; subst. inversion HG as [|g ? gs' ? Hg HG']; subst.
      inversion HS as [|? ? HS' HA]; subst. cbn [ofold].
      destruct H0 as [Hle Hlv]; [discriminate|]. cbn [hd] in Hle, Hlv.
      destruct (@layer_search nn0 l rows e fuel 1 ep g) as (res & -> & Hne & Hres); auto.
      { pose proof (f_max Hl). lia. } { lia. }
      { intros HU Hy0. destruct (Hlk HU Hy0). auto. }
      cbn [obind]. destruct res as [|x res]; [congruence|]. cbn [index nth_error ounwrap obind].
      destruct (Hres x (or_introl eq_refl)) as [Hx1 Hx2].
      destruct (IH R' gs' HF' HS' HG' (fst x) rows) as (ep' & E1 & H1 & H2); auto.
      { intros HR. destruct R' as [|r1 R']; [congruence|]. inversion HA; subst. auto. }
      exists ep'. split; auto. destruct R' as [|r1 R']; [cbn [last] in *; auto|].
      rewrite (last_indep rows r0) in H1, H2 by discriminate. auto.
  Qed.

  Lemma graphs_of_fix m (ls : list (fw N)) :
    Forall2 (fun g l => forall x, g x = fw_neighbors m l x) (graphs_of m (FixWidth ls)) ls.
  Proof.
    unfold graphs_of. cbn [layers_len].
    assert (H : forall pre ls0, ls = pre ++ ls0 ->
       Forall2 (fun g l => forall x, g x = fw_neighbors m l x)
               (map (fun i j => get_neighbors m (FixWidth ls) j i) (seq (length pre) (length ls0))) ls0).
    { intros pre ls0. revert pre. induction ls0 as [|l ls0 IH]; intros pre Hls; cbn [length seq map]; constructor.
      - intros x. cbn [get_neighbors]. unfold index. rewrite Hls, nth_error_app2, Nat.sub_diag by lia. reflexivity.
      - replace (Datatypes.S (length pre)) with (length (pre ++ [l])) by (rewrite app_length; cbn; lia).
        apply IH. now rewrite <- app_assoc. }
    apply (H [] ls). reflexivity.
  Qed.

  Definition base_of (R : list (list (list N))) (x : nat) : Prop := U = true /\ live (last R []) x.

  Lemma prev_ok nn0 ls R e : chain nn0 ls R -> dte_ok e ->
    c_len C s < e_fuel V ->
    exists r, granne_search (e_mode V) (e_fuel V) (FixWidth ls) (fun i => c_dte C s i e) 1 1 = Ok r /\
      (ls <> [] -> r <> []) /\
      forall x, In x r -> fst x < length (last R []) /\ (U = true -> fst x <> 0 -> base_of R (fst x) /\ base_of R 0).
  Proof.
    intros [HF HS] Hq Hfu. unfold granne_search, search_internal.
    pose proof (graphs_of_fix (e_mode V) ls) as HG. set (gs := graphs_of (e_mode V) (FixWidth ls)) in *. clearbody gs.
    destruct (split_last gs) as [[g top]|] eqn:Esp.
    2:{ exists []. split; auto. split; [|intros x []]. apply split_last_nil in Esp. subst gs. inversion HG. congruence. }
    apply split_last_some in Esp. subst gs.
    apply Forall2_app_inv_l in HG as (lt & lb & HGt & HGb & ->). inversion HGb as [|? l ? ? Hg HGn]; subst. inversion HGn; subst.
    apply Forall2_app_inv_l in HF as (Rt & Rb & HFt & HFb & ->). inversion HFb as [|? rows ? ? Hl HFn]; subst. inversion HFn; subst.
    assert (HSt : StronglySorted grows Rt /\ Forall (fun r => grows r rows) Rt).
    { clear -HS. induction Rt as [|a Rt IH]; [split; constructor|]. cbn [app] in HS. inversion HS as [|? ? H1 H2]; subst.
      destruct (IH H1). apply Forall_app in H2 as [H2 H3]. inversion H3; subst. split; constructor; auto. }
    destruct HSt as [HSt HAt]. unfold find_entrypoint.
    assert (Hep : exists ep, ofold (fun entrypoint layer =>
           let* res := search_for_neighbors (e_fuel V) layer (fun i => c_dte C s i e) entrypoint 1 in
           let* r := index res 0 in Ok (fst r)) top 0 = Ok ep /\ ep < length rows /\ lnk U rows ep).
    { destruct Rt as [|r1 Rt].
      - inversion HFt; subst. inversion HGt; subst. exists 0. cbn. split; auto. split; [apply (f_pos Hl)|].
        intros _ H. now elim H.
      - destruct (@find_ok nn0 e (e_fuel V) Hq Hfu lt (r1 :: Rt) top HFt HSt HGt 0 r1) as (ep & E1 & H1 & H2).
        + intros _. cbn [hd]. split; auto.
        + inversion HFt; subst. eapply f_pos; eauto.
        + intros _ H. now elim H.
        + exists ep. split; auto. rewrite Forall_forall in HAt.
          assert (Hin : In (last (r1 :: Rt) r1) (r1 :: Rt)).
          { destruct (@exists_last _ (r1 :: Rt)) as (q & z & Eq); [discriminate|]. rewrite Eq, last_last. apply in_or_app. right; left; auto. }
          destruct (HAt _ Hin) as [Hle Hlv]. split; [lia|]. intros HU H0. destruct (H2 HU H0). auto. }
    destruct Hep as (ep & -> & Hep & Hlk). cbn [obind].
    destruct (@layer_search nn0 l rows e (e_fuel V) 1 ep g) as (res & -> & Hne & Hres); auto.
    { pose proof (f_max Hl). lia. }
    cbn [obind]. eexists. split; [reflexivity|]. rewrite last_last. unfold base_of. rewrite last_last.
    split; [intros _; destruct res; [congruence|discriminate]|].
    intros x Hx. apply firstn_In in Hx. destruct (Hres x Hx) as [H1 H2]. split; auto.
    intros HU H0. destruct (H2 HU H0). auto.
  Qed.

  (** ** [index_elements] *)
  Definition schedule_ok (sched : list nat) : Prop := e_mode V = Release \/ StronglySorted le sched.

  Lemma wf_row_grow w n n' i r : n <= n' -> wf_row U w n i r -> wf_row U w n' i r.
  Proof.
    intros Hle (ns & H1 & H2 & H3 & H4). exists ns. split; auto. split; auto. split; auto.
    eapply Forall_impl; [|exact H4]. cbn. intros; lia.
  Qed.

  Lemma resized_inv w n num rows : 0 < w -> lay_inv V s U w n none rows -> n <= num -> num <= c_len C s ->
    lay_inv V s U w num none (rows ++ repeat (repeat UNUSED w) (num - n)) /\
    (forall x, live (rows ++ repeat (repeat UNUSED w) (num - n)) x <-> live rows x).
  Proof.
    intros Hw HI Hle Hmax. pose proof (y_len HI) as HL.
    assert (Hemp : row_ids (repeat UNUSED w) = []) by (destruct w; reflexivity).
    assert (Hlv : forall x, live (rows ++ repeat (repeat UNUSED w) (num - n)) x <-> live rows x).
    { intros x. unfold live. split; intros (r & Hr & Hne).
      - destruct (Nat.lt_ge_cases x (length rows)) as [Hx|Hx].
        + rewrite nth_error_app1 in Hr by auto. eauto.
        + rewrite nth_error_app2 in Hr by auto. apply nth_error_In, repeat_spec in Hr. subst r. congruence.
      - exists r. split; auto. rewrite nth_error_app1; auto. apply nth_error_Some. congruence. }
    split; auto. constructor.
    - rewrite app_length, repeat_length. lia.
    - intros i r Hr. destruct (Nat.lt_ge_cases i (length rows)) as [Hx|Hx].
      + rewrite nth_error_app1 in Hr by auto. eapply wf_row_grow; [|eapply (y_row HI); eauto]. lia.
      + rewrite nth_error_app2 in Hr by auto. apply nth_error_In, repeat_spec in Hr. subst r. exists [].
        split; [split; [cbn; lia|cbn; now rewrite Nat.sub_0_r]|]. split; [constructor|]. split; auto.
    - intros i r y Hr Hy HU Hy0. destruct (Nat.lt_ge_cases i (length rows)) as [Hx|Hx].
      + rewrite nth_error_app1 in Hr by auto. destruct (y_link HI Hr Hy HU Hy0). rewrite !Hlv. auto.
      + rewrite nth_error_app2 in Hr by auto. apply nth_error_In, repeat_spec in Hr. subst r. rewrite Hemp in Hy. destruct Hy.
    - intros HU z Hz Hz0 Hl. apply Hlv in Hl. now apply (y_zero HI HU) in Hl.
    - intros x [].
  Qed.

  Lemma change_base w n (B B' : nat -> Prop) rows : lay_inv V s U w n B rows -> (forall x, B' x -> live rows x) ->
    lay_inv V s U w n B' rows.
  Proof. intros [H1 H2 H3 H4 H5] H. constructor; auto. Qed.

  (** the state in which the tasks of a pass start *)
  Definition start_state (num : nat) (rows : list (list N)) (reinsert : bool) (w : nat) : sys (E := E) :=
    let rows' := if reinsert then rows else rows ++ repeat (repeat UNUSED w) (num - length rows) in
    (rows', map (fun i => (i, TStart)) (if reinsert then rev (seq 0 (length rows'))
                                        else seq (length rows) (length rows' - length rows))).

  Lemma start_pass_unfold num l rows reinsert :
    fw_is (fwidth l) rows l -> 0 < fwidth l -> length rows <= num ->
    start_pass num l reinsert = Ok (start_state num rows reinsert (fwidth l)).
  Proof.
    intros His Hw Hle. unfold start_pass. rewrite (fw_is_len Hw His).
    destruct (Nat.leb_spec (length rows) num); [|lia]. cbn [oassert obind].
    pose proof (fw_is_resize num UNUSED Hw His) as Hrs. rewrite firstn_all2 in Hrs by lia.
    unfold start_state. destruct reinsert.
    - rewrite (fw_is_iter Hw His). cbn [obind]. reflexivity.
    - rewrite (fw_is_iter Hw Hrs). cbn [obind fwidth fw_resize]. reflexivity.
  Qed.

  Lemma index_elements_unfold nn ms prev num l rows reinsert sched :
    fw_is (fwidth l) rows l -> 0 < fwidth l -> length rows <= num ->
    index_elements V s nn ms prev num l reinsert sched =
      let* x := run V s nn ms prev sched (start_state num rows reinsert (fwidth l)) in
      if all_done (snd x) then
        let* rows' := limit_rows V s nn (fst x) in Ok (mkFw (concat rows') (fwidth l))
      else Fail OutOfFuel.
  Proof.
    intros His Hw Hle. unfold index_elements. rewrite (start_pass_unfold reinsert His Hw Hle). reflexivity.
  Qed.
  Lemma start_inv nn0 nn ms prev R num l rows reinsert :
    chain nn0 prev R -> (rows = [] \/ lfine nn0 l rows) -> fw_is (fwidth l) rows l -> 0 < fwidth l ->
    grows (last R []) rows ->
    length rows <= num -> num <= c_len C s -> (reinsert = true -> num = length rows) -> 0 < nn <= fwidth l -> 0 < ms ->
    sys_inv V s U (fwidth l) num nn ms (base_of R) (start_state num rows reinsert (fwidth l)) /\
    length (fst (start_state num rows reinsert (fwidth l))) = num /\
    (forall x, live rows x -> live (fst (start_state num rows reinsert (fwidth l))) x).
  Proof.
    intros Hch Hrows His Hw [Hg1 Hg2] Hle Hmax Hre Hnn Hms.
    assert (HI : lay_inv V s U (fwidth l) (length rows) none rows).
    { destruct Hrows as [->|Hf]; [|apply (f_inv Hf)]. constructor; auto.
      - intros [|i] r Hr; discriminate.
      - intros [|i] r y Hr; discriminate.
      - intros _ z _ _ (r & Hr & _). destruct z; discriminate.
      - intros x []. }
    set (rows' := if reinsert then rows else rows ++ repeat (repeat UNUSED (fwidth l)) (num - length rows)).
    assert (HI' : lay_inv V s U (fwidth l) num none rows' /\ (forall x, live rows x -> live rows' x)).
    { unfold rows'. destruct reinsert.
      - rewrite (Hre eq_refl). auto.
      - destruct (resized_inv Hw HI Hle Hmax) as [H1 H2]. split; auto. intros x. apply H2. }
    destruct HI' as [HI' Hlv].
    unfold start_state. fold rows'. cbn [fst]. split; [|split; [apply (y_len HI')|auto]].
    apply init_inv.
    - eapply change_base; [exact HI'|]. intros x [HU Hx]. auto.
    - destruct reinsert; [apply NoDup_rev, seq_NoDup|apply seq_NoDup].
    - rewrite (y_len HI'). destruct reinsert; rewrite Forall_forall; intros i Hi.
      + apply in_rev in Hi. apply in_seq in Hi. lia.
      + apply in_seq in Hi. lia.
  Qed.

  Lemma hprev_of nn0 prev R num : chain nn0 prev R -> length (last R []) <= num -> num <= c_len C s ->
    c_len C s < e_fuel V ->
    forall idx e, idx < num -> c_get C s idx = Ok e ->
    exists r, granne_search (e_mode V) (e_fuel V) (FixWidth prev) (fun i => c_dte C s i e) 1 1 = Ok r /\
      forall x, In x r -> fst x < num /\ (U = true -> fst x <> 0 -> base_of R (fst x) /\ base_of R 0).
  Proof.
    intros Hch Hle Hmax Hfu idx e Hi He. destruct (@prev_ok nn0 prev R e Hch) as (r & E1 & _ & H1); auto; [eapply dte_elem; eauto; lia|].
    exists r. split; auto. intros x Hx. destruct (H1 x Hx) as [Hx1 Hx2]. split; auto. lia.
  Qed.

  Theorem index_elements_ok nn0 nn ms prev R num l rows reinsert sched :
    chain nn0 prev R -> (rows = [] \/ lfine nn0 l rows) -> fw_is (fwidth l) rows l -> 0 < fwidth l -> nn0 <= fwidth l ->
    grows (last R []) rows ->
    length rows <= num -> 0 < num <= c_len C s -> (reinsert = true -> num = length rows) -> 0 < nn <= fwidth l -> 0 < ms ->
    c_len C s < e_fuel V -> schedule_ok sched ->
    match index_elements V s nn ms prev num l reinsert sched with
    | Ok l' => exists rows', lfine nn0 l' rows' /\ fwidth l' = fwidth l /\ length rows' = num /\
                 (forall x, live rows x -> live rows' x) /\
                 (forall i r, nth_error rows' i = Some r -> length (row_ids r) <= nn)
    | Fail e => e = OutOfFuel
    end.
  Proof.
    intros Hch Hrows His Hw Hw0 Hg Hle Hmax Hre Hnn Hms Hfu Hsch.
    rewrite (index_elements_unfold nn ms prev reinsert sched His Hw Hle).
    destruct (@start_inv nn0 nn ms prev R num l rows reinsert Hch Hrows His Hw Hg Hle ltac:(lia) Hre Hnn Hms) as (HI & HL & Hlv).
    assert (Hle2 : length (last R []) <= num) by (destruct Hg; lia).
    pose proof (@hprev_of nn0 prev R num Hch Hle2 ltac:(lia) Hfu) as Hprev.
    assert (Hrun : exists x', run V s nn ms prev sched (start_state num rows reinsert (fwidth l)) = Ok x' /\
              sys_inv V s U (fwidth l) num nn ms (base_of R) x' /\
              (forall y, live (fst (start_state num rows reinsert (fwidth l))) y -> live (fst x') y)).
    { destruct Hsch as [Hrel|Hord].
      - destruct (@run_release _ _ V s Hc Hsort Hlen U (fwidth l) num ltac:(lia) nn ms prev Hnn Hms (base_of R) Hprev sched _ Hrel HI)
          as (x' & E1 & HI' & _ & Hm & _). eauto.
      - destruct (@run_in_order _ _ V s Hc Hsort Hlen U (fwidth l) num ltac:(lia) nn ms prev Hnn Hms (base_of R) Hprev sched Hord _ 0 HI)
          as (x' & E1 & HI' & _ & Hm & _); eauto.
        + apply init_upto.
        + rewrite Forall_forall. intros; lia. }
    destruct Hrun as (x' & -> & HI' & Hm). cbn [obind].
    destruct (all_done (snd x')); [|reflexivity].
    destruct (@limit_rows_ok (fwidth l) num nn (base_of R) (fst x') ltac:(lia) Hnn (z_lay HI')) as (rows' & -> & HI2 & Hm2 & _ & Hb).
    cbn [obind]. exists rows'.
    assert (HL' : length rows' = num) by apply (y_len HI2).
    assert (Hw' : Forall (fun r => length r = fwidth l) rows').
    { rewrite Forall_forall. intros r Hr. apply In_nth_error in Hr as (i & Hi). destruct (y_row HI2 Hi) as (ns & Hsh & _).
      eapply row_shows_length; eauto. }
    split; [|split; [reflexivity|split; [auto|split; auto]]].
    constructor; cbn [fwidth]; auto.
    - split; [reflexivity|]. split; auto.
    - lia.
    - lia.
    - rewrite HL'. eapply change_base; [exact HI2|]. intros x [].
  Qed.
End Layer.
