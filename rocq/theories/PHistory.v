(** * Proofs: histories of a builder *)
From Verif Require Import Base BaseFacts MSliceVec SSliceVec PFixed MIndexIo MSearch PHeap PSearch MBuild SBuild PSelect PRow PSLite PBuildInv PBuildRun PBuildLayer PBuildFair PBuilder.
From Verif Require Export POpen.
Set Implicit Arguments.
Unset Strict Implicit.

Lemma Forall2_imp {A B} (P Q : A -> B -> Prop) l1 l2 : (forall a b, P a b -> Q a b) -> Forall2 P l1 l2 -> Forall2 Q l1 l2.
Proof. intros H. induction 1; constructor; auto. Qed.

Section Hist.
  Context {S E I : Type} (V : benv S E) (cpush : S -> I -> outcome S).
  Local Notation C := (e_ops V).
  Hypothesis Hsort : sorts_by_dist (e_sort V).
  Hypothesis Hpush : push_law C cpush.

  Local Notation idsafe := (idsafe V).
  Lemma lfine_push s s' U nn0 l rows :
    c_len C s <= c_len C s' -> (forall i j, i < c_len C s -> j < c_len C s -> c_dist C s' i j = c_dist C s i j) ->
    lfine V s U nn0 l rows -> lfine V s' U nn0 l rows.
  Proof.
    intros Hle Hd [H1 H2 H3 H4 H5 [I1 I2 I3 I4 I5]]. constructor; auto; [lia|]. constructor; auto.
    intros HU z (d & Ed & Hz) Hz0 Hl. apply (I4 HU z); auto.
    destruct Hl as (r & Hr & _). assert (z < length rows) by (apply nth_error_Some; congruence).
    exists d. rewrite <- Hd by lia. auto.
  Qed.

  Lemma push_fine U b x b' : bfine V U b -> builder_push V cpush b x = Ok b' -> usable V (b_elems b') ->
    bfine V U b' /\ idsafe b' /\ b_layers b' = b_layers b /\ b_config b' = b_config b /\
    cpush (b_elems b) x = Ok (b_elems b').
  Proof.
    intros (Hcf & Hel & R & HF & HS) Ep [Hus Hfu]. unfold builder_push in Ep.
    destruct (N.ltb_spec (N.of_nat (c_len C (b_elems b))) (UNUSED - 1)) as [Hlt|]; [|discriminate]. cbn [oassert obind] in Ep.
    destruct (cpush (b_elems b) x) as [s'|] eqn:Es; [|discriminate]. cbn [obind] in Ep. injection Ep as <-.
    cbn [b_elems b_layers b_config] in *. destruct (Hpush Es) as (HL & Hg & Hd).
    assert (Hid : (N.of_nat (c_len C s') < UNUSED)%N) by (rewrite HL; lia).
    split; [|auto]. split; auto. split; [constructor; auto; cbn [b_elems]; lia|]. cbn [b_elems b_layers b_config].
    exists R. split; auto. eapply Forall2_imp; [|exact HF]. intros l rows Hl. eapply lfine_push; [| |exact Hl]; auto. lia.
  Qed.

  Lemma reached_all {ok} b : reached_via V cpush ok b -> (bfine V true b /\ idsafe b) /\ widths b.
  Proof.
    induction 1 as [cfg s b Hcf [Hus Hfu] En | b x b' Hr IH Ep Hus | b num sched b' Hr IH Hne Hpos Hle Ei | b num sched b' Hr IH Hle Ei | b cfg b' Hr IH Hcf Eo Hok].
    - unfold builder_new in En. destruct (N.ltb_spec (N.of_nat (c_len C s)) UNUSED) as [Hlt|]; [|discriminate].
      cbn [oassert obind] in En. injection En as <-. split; [|constructor]. split; auto. split; auto. split; [constructor; auto; cbn [b_elems]; lia|].
      exists []. split; constructor.
    - destruct IH as [[HB _] HW]. destruct (push_fine HB Ep Hus) as (H1 & H2 & HL & HC & _). split; auto. unfold widths. now rewrite HL, HC.
    - destruct IH as [[HB Hid] HW].
      destruct (index_existing_ok Hsort (b := b) (max_num := num) sched HB) as (P1 & _); auto.
      destruct (P1 _ Ei) as ([HB1 He1 _ _ _] & _). split; [|eapply index_last_width; eauto]. split; auto. unfold POpen.idsafe. now rewrite He1.
    - destruct IH as [[HB Hid] HW].
      destruct (add_layer_ok Hsort (b := b) (max_num := num) sched HB) as (P1 & _); auto.
      destruct (P1 _ Ei) as ([HB1 He1 _ _ _] & _). split; [|eapply index_last_width; [|eauto]; now apply add_layer_width].
      split; auto. unfold POpen.idsafe. now rewrite He1.
    - destruct IH as [[HB Hid] HW]. destruct (open_fine HB Hid HW Hcf Eo) as (H1 & H2 & H3 & _). auto.
  Qed.
  Theorem reached_fine {ok} b : reached_via V cpush ok b -> bfine V true b /\ idsafe b.
  Proof. intros H. apply (reached_all H). Qed.
  Lemma reached_width {ok} b : reached_via V cpush ok b -> widths b.
  Proof. intros H. apply (reached_all H). Qed.

  Lemma loop_reached {ok} num sched : forall fuel b b', reached_via V cpush ok b -> num <= builder_num_elements V b ->
    build_loop V fuel b num sched = Ok b' -> reached_via V cpush ok b' /\ b_elems b' = b_elems b.
  Proof.
    induction fuel as [|fuel IH]; intros b b' Hr Hle; cbn [build_loop];
      destruct (Nat.leb_spec num (builder_len b)); intros E1; try (injection E1 as <-; auto); try discriminate.
    destruct (index_last V (add_layer b) num sched) as [b1|] eqn:E2; [|discriminate]. cbn [obind] in E1.
    assert (Hr1 : reached_via V cpush ok b1) by (eapply r_next; eauto).
    destruct (reached_fine Hr) as [HB _].
    destruct (add_layer_ok Hsort (b := b) (max_num := num) sched HB) as (P1 & _); auto.
    destruct (P1 _ E2) as ([_ He1 _ _ _] & _).
    destruct (IH b1 b' Hr1) as [H1 H2]; auto.
    - unfold builder_num_elements in *. rewrite He1. auto.
    - split; auto. congruence.
  Qed.

  Lemma build_reached {ok} fuel b num sched b' : reached_via V cpush ok b -> build_partial V fuel b num sched = Ok b' ->
    reached_via V cpush ok b' /\ b_elems b' = b_elems b.
  Proof.
    intros Hr. unfold build_partial. destruct (Nat.eqb_spec num 0); [intros E1; injection E1 as <-; auto|].
    destruct (Nat.leb_spec (builder_len b) num); [|discriminate]. cbn [oassert obind].
    destruct (Nat.leb_spec num (builder_num_elements V b)); [|discriminate]. cbn [oassert obind].
    destruct (Nat.ltb_spec 0 (length (b_layers b))) as [Hls|Hls]; cbn [obind].
    - assert (Hne : b_layers b <> []) by (intros E0; rewrite E0 in Hls; cbn in Hls; lia).
      destruct (index_last V b num sched) as [b1|] eqn:E2; [|discriminate]. cbn [obind]. intros E1.
      assert (Hr1 : reached_via V cpush ok b1) by (apply (@r_last _ _ _ V cpush ok b num sched b1); auto; lia).
      destruct (reached_fine Hr) as [HB _].
      destruct (index_existing_ok Hsort (b := b) (max_num := num) sched HB) as (P1 & _); auto; [lia|].
      destruct (P1 _ E2) as ([_ He1 _ _ _] & _).
      destruct (@loop_reached ok num sched fuel b1 b' Hr1) as [H1 H2]; [|exact E1|].
      + unfold builder_num_elements in *. rewrite He1. auto.
      + split; auto. congruence.
    - intros E1. eapply loop_reached; eauto.
  Qed.

  Lemma calls_reached {ok} b cs b' : calls V cpush b cs b' -> reached_via V cpush ok b -> reached_via V cpush ok b'.
  Proof.
    induction 1 as [b|b c b1 cs b' Ec Hus Hcs IH]; auto. intros Hr. apply IH. destruct c as [x|num fuel sched|fuel sched]; cbn [do_call] in Ec.
    - eapply r_push; eauto.
    - eapply build_reached; eauto.
    - unfold build in Ec. eapply build_reached; eauto.
  Qed.

  Lemma once_reached {ok} b : built_once V cpush b -> reached_via V cpush ok b.
  Proof. intros (cfg & s & b0 & cs & H1 & H2 & H3 & H4). eapply calls_reached; eauto. eapply r_new; eauto. Qed.
  Theorem built_reached {ok} b : built_via V cpush ok b -> reached_via V cpush ok b.
  Proof.
    induction 1 as [b H|b cs b' _ IH Hc|b cfg b' _ IH Hcf Ho Hok]; [now apply once_reached|eapply calls_reached; eauto|eapply r_open; eauto].
  Qed.

  Lemma via_mono (ok ok' : builder S -> config -> Prop) b : (forall b cfg, ok b cfg -> ok' b cfg) ->
    built_via V cpush ok b -> built_via V cpush ok' b.
  Proof.
    intros Hok. induction 1 as [b H|b cs b' _ IH Hc|b cfg b' _ IH Hcf Ho H]; [now apply bt_once|eapply bt_calls; eauto|eapply bt_open; eauto].
  Qed.

  (** ** What a fine builder looks like from outside *)
  Lemma lay_inv_rows s w n B rows : lay_inv V s true w n B rows -> rows_ok w n rows.
  Proof.
    intros HI. split; [apply (y_len HI)|]. intros i r Hr. destruct (y_row HI Hr) as (ns & H1 & H2).
    exists ns. split; auto. destruct H2 as (H3 & H4 & H5). split; auto.
  Qed.

  Lemma lfine_layer s nn0 l rows : lfine V s true nn0 l rows -> layer_fine (fwidth l) l.
  Proof.
    intros Hl. split; auto. exists rows. split; [apply (f_is Hl)|]. eapply lay_inv_rows, f_inv, Hl.
  Qed.

  Lemma Forall2_nth {A B} (P : A -> B -> Prop) l1 l2 i a : Forall2 P l1 l2 -> nth_error l1 i = Some a ->
    exists b, nth_error l2 i = Some b /\ P a b.
  Proof using Type.
    intros H. revert i. induction H as [|x y l1 l2 Hxy H IH]; intros [|i] Hi; try discriminate.
    - cbn in Hi. injection Hi as <-. exists y. auto.
    - apply IH. exact Hi.
  Qed.

  Lemma sorted_nth {A} (P : A -> A -> Prop) l i j a b : StronglySorted P l -> i < j -> nth_error l i = Some a ->
    nth_error l j = Some b -> P a b.
  Proof using Type.
    intros H. revert i j. induction H as [|x l Hs IH HF]; intros [|i] [|j] Hij Hi Hj; try lia; try discriminate.
    - cbn in Hi, Hj. injection Hi as <-. rewrite Forall_forall in HF. apply HF. eapply nth_error_In; eauto.
    - cbn in Hi, Hj. eapply (IH i j); eauto. lia.
  Qed.

  Theorem fine_layers b : bfine V true b ->
    (forall L l, nth_error (b_layers b) L = Some l -> layer_fine (fwidth l) l /\ k_nn (b_config b) <= fwidth l /\
       0 < fw_len l <= c_len C (b_elems b)) /\
    (forall L1 L2 l1 l2, L1 <= L2 -> nth_error (b_layers b) L1 = Some l1 -> nth_error (b_layers b) L2 = Some l2 ->
       fw_len l1 <= fw_len l2).
  Proof.
    intros (_ & _ & R & HF & HS). split.
    - intros L l HL. destruct (Forall2_nth HF HL) as (rows & _ & Hl). split; [eapply lfine_layer; eauto|].
      split; [apply (f_w Hl)|]. rewrite (fw_is_len (f_w0 Hl) (f_is Hl)). split; [apply (f_pos Hl)|apply (f_max Hl)].
    - intros L1 L2 l1 l2 HL H1 H2. destruct (Forall2_nth HF H1) as (r1 & Hr1 & Hl1). destruct (Forall2_nth HF H2) as (r2 & Hr2 & Hl2).
      rewrite (fw_is_len (f_w0 Hl1) (f_is Hl1)), (fw_is_len (f_w0 Hl2) (f_is Hl2)).
      destruct (Nat.eq_dec L1 L2) as [->|]; [rewrite Hr1 in Hr2; injection Hr2 as ->; auto|].
      refine (proj1 (sorted_nth (i := L1) (j := L2) HS _ Hr1 Hr2)). lia.
  Qed.

  (** the lists seen through the interface *)
  Theorem fine_neighbors m b L l x : bfine V true b -> nth_error (b_layers b) L = Some l -> x < fw_len l ->
    exists ns, get_neighbors m (FixWidth (b_layers b)) x L = Ok ns /\ nbrs_ok (fw_len l) x ns /\ length ns <= fwidth l /\
      (forall z, is_zero V (b_elems b) z -> z <> 0 -> ~ In z ns /\ (x = z -> ns = [])).
  Proof.
    intros (_ & Hel & R & HF & HS) HL Hx. destruct (Forall2_nth HF HL) as (rows & _ & Hl).
    rewrite (fw_is_len (f_w0 Hl) (f_is Hl)) in *.
    destruct (nth_error rows x) as [r|] eqn:Er; [|apply nth_error_None in Er; lia].
    cbn [get_neighbors]. unfold index. rewrite HL. cbn [ounwrap obind].
    exists (row_ids r). split.
    { unfold fw_neighbors. rewrite (fw_is_get m x (f_w0 Hl) (f_is Hl) Er). reflexivity. }
    destruct (@wf_ids _ _ V (b_elems b) (eo_len Hel) true (fwidth l) (length rows) (f_max Hl) (f_w0 Hl) x r (y_row (f_inv Hl) Er)) as [[H1 _] H2].
    split; [destruct H2 as (H3 & H4 & H5); split; auto|]. split; [exact H1|]. intros z Hz Hz0. split.
    - intros Hin. destruct (y_link (f_inv Hl) Er Hin eq_refl Hz0) as [Hlv _]. now apply (y_zero (f_inv Hl) eq_refl Hz Hz0).
    - intros <-. destruct (row_ids r) eqn:Ern; auto. exfalso. apply (y_zero (f_inv Hl) eq_refl Hz Hz0). exists r. split; auto. congruence.
  Qed.

  (** ** States inside a pass *)
  Lemma mid_pass_inv b rows : bfine V true b -> mid_pass V b rows ->
    exists w n, lay_inv V (b_elems b) true w n none rows.
  Proof.
    intros HB Hm.
    assert (Hex : forall b0 last prev, b0 = b \/ b0 = add_layer b -> split_last (b_layers b0) = Some (last, prev) ->
       exists R rows, chain V (b_elems b) true (k_nn (b_config b)) prev R /\
       (rows = [] \/ lfine V (b_elems b) true (k_nn (b_config b)) last rows) /\ fw_is (fwidth last) rows last /\
       k_nn (b_config b) <= fwidth last /\ grows true (List.last R []) rows /\ fw_len last = length rows).
    { intros b0 last prev Hb0 Esp. apply split_last_some in Esp.
      destruct (bfine_split HB) as [Els|(p & l & R & rows0 & Els & Hch & Hl & Hg & Hlen & HL)].
      - destruct Hb0 as [-> | ->]; [rewrite Els in Esp; destruct prev; discriminate|].
        unfold add_layer in Esp. rewrite Els in Esp. cbn [split_last nth_error length Nat.sub b_layers app] in Esp.
        destruct prev as [|? prev]; [|destruct prev; discriminate]. injection Esp as <-.
        exists [], []. split; [split; constructor|]. split; auto. split; [apply fw_is_with_width|]. split; [cbn; lia|].
        split; [apply grows_refl|]. apply (@fw_is_len _ (k_nn (b_config b))); [apply HB|apply fw_is_with_width].
      - destruct Hb0 as [-> | ->].
        + rewrite Els in Esp. apply app_inj_tail in Esp as [-> ->]. exists R, rows0.
          split; auto. split; auto. split; [apply Hl|]. split; [apply Hl|]. split; auto. apply (fw_is_len (f_w0 Hl) (f_is Hl)).
        + unfold add_layer in Esp. rewrite Els, split_last_app in Esp. cbn [b_layers] in Esp. apply app_inj_tail in Esp as [<- <-].
          exists (R ++ [rows0]), rows0. split; [apply chain_app; auto|]. split; auto. split; [apply Hl|]. split; [apply Hl|].
          split; [rewrite HL; apply grows_refl|]. apply (fw_is_len (f_w0 Hl) (f_is Hl)). }
    destruct HB as ((Hnn0 & Hms0 & Hid0) & [Hc Hlen Hfu] & _). unfold builder_num_elements in *.
    destruct Hm as [b0 last prev num nn ms sched x rows ts Hb0 Esp Hle Hnum Hnn Hms Es Er
                   |b0 last prev num nn ms sched l1 ms' sched' x rows ts Hb0 Esp Hle Hnum Hnn Hms Hms' Ei Es Er];
      destruct (Hex b0 last prev Hb0 Esp) as (R & rows0 & Hch & Hrows & His & Hw & Hg & Hlr); rewrite Hlr in Hle.
    - destruct (@pass_state _ _ V (b_elems b) Hc Hsort Hlen Hfu true (k_nn (b_config b)) nn ms prev R num last rows0 false sched x (rows, ts)
        Hch Hrows His ltac:(lia) Hg Hle Hnum ltac:(discriminate) ltac:(lia) Hms Es Er) as [HI _].
      exists (fwidth last), num. eapply change_base; [exact (z_lay HI)|]. intros ? [].
    - destruct (@pass_ok _ _ V (b_elems b) Hc Hsort Hlen Hfu true (k_nn (b_config b)) nn ms prev R num last rows0 false sched
        Hch Hrows His ltac:(lia) Hw Hg Hle Hnum ltac:(discriminate) ltac:(lia) Hms) as (P1 & _).
      destruct (P1 _ Ei) as (rows1 & Hl1 & Hw1 & HL1 & Hm1 & _).
      destruct (@pass_state _ _ V (b_elems b) Hc Hsort Hlen Hfu true (k_nn (b_config b)) nn ms' prev R num l1 rows1 true sched' x (rows, ts)
        Hch (or_intror Hl1) (f_is Hl1) (f_w0 Hl1)) as [HI _]; auto.
      + destruct Hg as [Hg1 Hg2]. split; [lia|]. auto.
      + lia.
      + rewrite Hw1. lia.
      + exists (fwidth l1), num. eapply change_base; [exact (z_lay HI)|]. intros ? [].
  Qed.

  (** ** Elements and their ids *)
  Lemma calls_elems b cs b' : calls V cpush b cs b' -> reached V cpush b ->
    c_len C (b_elems b) <= c_len C (b_elems b') /\
    forall i, i < c_len C (b_elems b) -> c_get C (b_elems b') i = c_get C (b_elems b) i.
  Proof.
    induction 1 as [b|b c b1 cs b' Ec Hus Hcs IH]; intros Hr; auto.
    assert (Hr1 : reached V cpush b1) by (eapply calls_reached; [eapply calls_cons; [exact Ec|exact Hus|apply calls_nil]|exact Hr]).
    destruct (IH Hr1) as [H1 H2].
    assert (Hs : c_len C (b_elems b) <= c_len C (b_elems b1) /\
                 forall i, i < c_len C (b_elems b) -> c_get C (b_elems b1) i = c_get C (b_elems b) i).
    { destruct c as [x|num fuel sched|fuel sched]; cbn [do_call] in Ec.
      - destruct (reached_fine Hr) as [HB _]. destruct (push_fine HB Ec Hus) as (_ & _ & _ & _ & Ep).
        destruct (Hpush Ep) as (HL & Hg & _). split; [lia|auto].
      - destruct (build_reached Hr Ec) as [_ ->]. auto.
      - destruct (build_reached Hr Ec) as [_ ->]. auto. }
    destruct Hs as [H3 H4]. split; [lia|]. intros i Hi. rewrite H2 by lia. auto.
  Qed.
End Hist.
