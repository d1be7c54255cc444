(** * Proofs: the row locks *)
From Verif Require Import Base BaseFacts MSliceVec MIndexIo MSearch MBuild SBuild PSelect PRow PSLite PBuildInv PBuildRun PBuildLayer PBuildFair MLocks SLocks.
Set Implicit Arguments.
Unset Strict Implicit.

Section Locks.
  Context {S E : Type} (V : benv S E) (s : S) (nn ms : nat) (prev : list (fw N)).
  Local Notation tstep := (task_step V s nn ms prev).
  Local Notation mstep := (msys_step V s nn ms prev).
  Local Notation mruns := (mrun V s nn ms prev).

  Lemma update_row_one rows i f rows' : update_row rows i f = Ok rows' ->
    exists row', nth_error rows' i = Some row' /\ rows' = set_nth rows i row'.
  Proof.
    unfold update_row. intros H. apply obind_ok in H as (row & Hr & H). apply obind_ok in H as (row' & _ & H).
    injection H as <-. apply index_ok in Hr. exists row'. split; auto.
    apply nth_error_set_nth_eq. apply nth_error_Some. congruence.
  Qed.

  Lemma connect_self rows i d rows' : update_row rows i (fun row => connect_nodes V s row i i d) = Ok rows' -> rows' = rows.
  Proof.
    unfold update_row, connect_nodes. intros H. apply obind_ok in H as (row & Hr & H). rewrite Nat.eqb_refl in H.
    cbn [obind] in H. injection H as <-. apply set_nth_same. now apply index_ok.
  Qed.

  (** a task changes nothing but the row it has locked *)
  Lemma tstep_local rows idx t rows' t' : lock_of idx t = None -> tstep rows idx t = Ok (rows', t') -> rows' = rows.
  Proof.
    destruct t as [|e st|ns|ns|ns|[|[m d] todo] ns|[|[m d] todo]|]; cbn [lock_of task_step]; intros Hl H; try discriminate Hl.
    - apply obind_ok in H as (x & _ & H). injection H; auto.
    - apply obind_ok in H as (x & Hx & H). rewrite Hx in Hl. destruct x as [[k st']|]; [discriminate|].
      apply obind_ok in H as (x & _ & H). injection H; auto.
    - injection H; auto.
    - destruct (Nat.eqb_spec idx m) as [<-|]; [|discriminate]. apply obind_ok in H as (x & Hx & H). injection H as <- <-.
      eapply connect_self; eauto.
    - injection H; auto.
    - destruct (Nat.eqb_spec m idx) as [->|]; [|discriminate]. apply obind_ok in H as (x & Hx & H). injection H as <- <-.
      eapply connect_self; eauto.
    - injection H; auto.
  Qed.

  Lemma tstep_read rows idx t i rows' t' : lock_of idx t = Some (i, ARead) -> tstep rows idx t = Ok (rows', t') -> rows' = rows.
  Proof.
    destruct t as [|e st|ns|ns|ns|[|[m d] todo] ns|[|[m d] todo]|]; cbn [lock_of task_step]; intros Hl H; try discriminate Hl.
    - apply obind_ok in H as (x & Hx & H). rewrite Hx in Hl. destruct x as [[k st']|]; [|discriminate].
      apply obind_ok in H as (x & _ & H). apply obind_ok in H as (x' & _ & H). injection H; auto.
    - apply obind_ok in H as (x & _ & H). apply obind_ok in H as (x' & _ & H). injection H; auto.
    - apply obind_ok in H as (x & _ & H). apply obind_ok in H as (x' & _ & H). apply obind_ok in H as (x2 & _ & H). injection H; auto.
    - destruct (idx =? m); discriminate.
    - destruct (m =? idx); discriminate.
  Qed.

  Lemma tstep_write rows idx t i rows' t' : lock_of idx t = Some (i, AWrite) -> tstep rows idx t = Ok (rows', t') ->
    exists row', nth_error rows' i = Some row' /\ rows' = set_nth rows i row'.
  Proof.
    destruct t as [|e st|ns|ns|ns|[|[m d] todo] ns|[|[m d] todo]|]; cbn [lock_of task_step]; intros Hl H; try discriminate Hl.
    - destruct (s_pop st) as [[[k st']|]|]; discriminate.
    - injection Hl as <-. apply obind_ok in H as (x & Hx & H). injection H as <- <-. eapply update_row_one; eauto.
    - destruct (idx =? m); [discriminate|]. injection Hl as <-. apply obind_ok in H as (x & Hx & H). injection H as <- <-. eapply update_row_one; eauto.
    - destruct (m =? idx); [discriminate|]. injection Hl as <-. apply obind_ok in H as (x & Hx & H). injection H as <- <-. eapply update_row_one; eauto.
  Qed.

  (** ** The invariant *)
  Inductive shape (rows : list (list N)) (m : mtask E) : Prop :=
  | sh_idle : m_code m = [] -> m_held m = [] -> shape rows m
  | sh_local : m_t m <> TDone -> lock_of (m_idx m) (m_t m) = None -> m_code m = [IExec None] -> m_held m = [] -> shape rows m
  | sh_ask i a : m_t m <> TDone -> lock_of (m_idx m) (m_t m) = Some (i, a) ->
      m_code m = [IAcq i a; ILoad i; IExec (Some (i, a)); IRel i a] -> m_held m = [] -> shape rows m
  | sh_load i a : m_t m <> TDone -> lock_of (m_idx m) (m_t m) = Some (i, a) ->
      m_code m = [ILoad i; IExec (Some (i, a)); IRel i a] -> m_held m = [(i, a)] -> shape rows m
  | sh_exec i a : m_t m <> TDone -> lock_of (m_idx m) (m_t m) = Some (i, a) ->
      m_code m = [IExec (Some (i, a)); IRel i a] -> m_held m = [(i, a)] -> nth_error rows i = Some (m_row m) -> shape rows m
  | sh_rel i a : m_code m = [IRel i a] -> m_held m = [(i, a)] -> shape rows m.

  Definition exclusive (y : msys E) : Prop :=
    forall j k i b, holds y j i AWrite -> holds y k i b -> j = k.

  Record minv (y : msys E) : Prop := mkMinv {
    v_shape : forall k m, nth_error (snd y) k = Some m -> shape (fst y) m;
    v_excl : exclusive y
  }.

  Definition abs (y : msys E) : sys (E := E) := (fst y, map (fun m => (m_idx m, m_t m)) (snd y)).

  (** replacing task [k] by one that holds no more keeps exclusion *)
  Lemma excl_set rows rows' ms0 k m m' : exclusive (rows, ms0) -> nth_error ms0 k = Some m ->
    (forall x, In x (m_held m') -> In x (m_held m)) -> exclusive (rows', set_nth ms0 k m').
  Proof.
    intros He Hk Hi j k' i b (m1 & H1 & I1) (m2 & H2 & I2). cbn [snd] in *.
    apply (He j k' i b); unfold holds; cbn [snd].
    - destruct (Nat.eq_dec j k) as [->|Hne].
      + rewrite nth_error_set_nth_eq in H1 by (apply nth_error_Some; congruence). injection H1 as <-. eauto.
      + rewrite nth_error_set_nth_neq in H1 by auto. eauto.
    - destruct (Nat.eq_dec k' k) as [->|Hne].
      + rewrite nth_error_set_nth_eq in H2 by (apply nth_error_Some; congruence). injection H2 as <-. eauto.
      + rewrite nth_error_set_nth_neq in H2 by auto. eauto.
  Qed.

  (** the others keep their shape when the only row that changes is write-locked
      by task [k] *)
  Lemma shape_set rows rows' ms0 k m' : (forall j m, nth_error ms0 j = Some m -> shape rows m) ->
    (forall j m, j <> k -> nth_error ms0 j = Some m -> shape rows' m) -> shape rows' m' ->
    forall j m, nth_error (set_nth ms0 k m') j = Some m -> shape rows' m.
  Proof.
    intros H1 H2 H3 j m Hj. destruct (Nat.eq_dec j k) as [->|Hne].
    - destruct (Nat.ltb_spec k (length ms0)).
      + rewrite nth_error_set_nth_eq in Hj by auto. injection Hj as <-. auto.
      + rewrite set_nth_out in Hj by auto. assert (k < length ms0) by (apply nth_error_Some; congruence); lia.
    - rewrite nth_error_set_nth_neq in Hj by auto. eauto.
  Qed.

  Lemma abs_set rows ms0 k m m' : nth_error ms0 k = Some m -> m_idx m' = m_idx m -> m_t m' = m_t m ->
    abs (rows, set_nth ms0 k m') = abs (rows, ms0).
  Proof.
    intros Hk H1 H2. unfold abs. cbn [fst snd]. f_equal. rewrite map_set_nth. apply set_nth_same.
    erewrite map_nth_error by eauto. now rewrite H1, H2.
  Qed.

  (** a move at the level of locks is at most one move of MBuild.v *)
  Lemma mstep_refines P h y k : fair_locks P -> minv y ->
    (forall y', mstep P h y k = Ok y' -> minv y' /\
       (abs y' = abs y \/ sys_step V s nn ms prev (abs y) k = Ok (abs y'))) /\
    (forall e, mstep P h y k = Fail e -> sys_step V s nn ms prev (abs y) k = Fail e).
  Proof.
    intros HP [Hsh Hex]. unfold msys_step.
    destruct (nth_error (snd y) k) as [m|] eqn:Hk.
    2:{ split; [|discriminate]. intros y' H. injection H as <-. split; [now split|auto]. }
    destruct y as [rows ms0]. cbn [fst snd] in *. pose proof (Hsh k m Hk) as Hm.
    assert (Hsys : forall r, tstep rows (m_idx m) (m_t m) = r ->
      sys_step V s nn ms prev (abs (rows, ms0)) k = (let* r := r in Ok (fst r, set_nth (snd (abs (rows, ms0))) k (m_idx m, snd r)))).
    { intros r <-. unfold sys_step, abs. cbn [fst snd]. erewrite map_nth_error by eauto. reflexivity. }
    (* steps that only change bookkeeping *)
    assert (Hquiet : forall m', mtask_step V s nn ms prev rows m (P h (rows, ms0) k) = Ok (rows, m') ->
       m_idx m' = m_idx m -> m_t m' = m_t m -> shape rows m' -> exclusive (rows, set_nth ms0 k m') ->
       forall y', Ok (rows, set_nth ms0 k m') = Ok y' -> minv y' /\
       (abs y' = abs (rows, ms0) \/ sys_step V s nn ms prev (abs (rows, ms0)) k = Ok (abs y'))).
    { intros m' _ H1 H2 H3 H4 y' H. injection H as <-. split.
      - split; auto. cbn [fst snd]. eapply shape_set; eauto.
      - left. eapply abs_set; eauto. }
    unfold mtask_step in *.
    destruct Hm as [Hc Hh|Ht Hl Hc Hh|i a Ht Hl Hc Hh|i a Ht Hl Hc Hh|i a Ht Hl Hc Hh Hr|i a Hc Hh]; rewrite Hc in *.
    - destruct (is_done (m_t m)) eqn:Ed; cbn [obind fst snd] in *; (split; [|discriminate]); apply Hquiet; auto.
      + now constructor 1.
      + eapply excl_set; eauto.
      + unfold plan. destruct (lock_of (m_idx m) (m_t m)) as [[i a]|] eqn:El.
        * apply (@sh_ask _ _ i a); cbn [m_idx m_t m_code m_held]; auto. intros Eq. rewrite Eq in Ed. discriminate.
        * apply sh_local; cbn [m_idx m_t m_code m_held]; auto. intros Eq. rewrite Eq in Ed. discriminate.
      + eapply excl_set; eauto.
    - destruct (tstep rows (m_idx m) (m_t m)) as [[rows' t']|e] eqn:Et; cbn [obind fst snd] in *.
      + split; [|discriminate]. intros y' H. injection H as <-. pose proof (tstep_local Hl Et) as ->. split.
        * split; cbn [fst snd]. { eapply shape_set; eauto. now apply sh_idle. } eapply excl_set; eauto.
        * right. rewrite (Hsys _ eq_refl). cbn [obind fst snd]. unfold abs. cbn [fst snd]. now rewrite map_set_nth.
      + split; [discriminate|]. intros e' H. injection H as <-. rewrite (Hsys _ eq_refl). reflexivity.
    - destruct (P h (rows, ms0) k) eqn:EP; cbn [obind fst snd] in *; (split; [|discriminate]); apply Hquiet; auto.
      + eapply sh_load; eauto; cbn. now rewrite Hh.
      + (* a newly granted lock *)
        assert (Ha : asks (rows, ms0) k i a) by (exists m; eexists; eauto).
        pose proof (@fl_safe _ _ HP h _ k i a Ha EP) as Hsafe. cbn [m_held].
        intros j k' i' b (m1 & H1 & I1) (m2 & H2 & I2). cbn [snd] in *.
        destruct (Nat.eq_dec j k) as [->|Hj]; destruct (Nat.eq_dec k' k) as [->|Hk']; auto.
        * rewrite nth_error_set_nth_eq in H1 by (apply nth_error_Some; congruence). injection H1 as <-. cbn [m_held] in I1.
          rewrite Hh in I1. destruct I1 as [I1|[]]. injection I1 as -> ->.
          rewrite nth_error_set_nth_neq in H2 by auto.
          destruct (Hsafe k' b) as [? _]; [now exists m2|discriminate].
        * rewrite nth_error_set_nth_eq in H2 by (apply nth_error_Some; congruence). injection H2 as <-. cbn [m_held] in I2.
          rewrite Hh in I2. destruct I2 as [I2|[]]. injection I2 as -> ->.
          rewrite nth_error_set_nth_neq in H1 by auto.
          destruct (Hsafe j AWrite) as [_ ?]; [now exists m1|discriminate].
        * rewrite nth_error_set_nth_neq in H1 by auto. rewrite nth_error_set_nth_neq in H2 by auto.
          apply (Hex j k' i' b); [now exists m1|now exists m2].
      + eapply sh_ask; eauto.
      + eapply excl_set; eauto.
    - unfold index in *. destruct (nth_error rows i) as [row|] eqn:Er; cbn [ounwrap obind fst snd] in *.
      + split; [|discriminate]. apply Hquiet; auto.
        * eapply sh_exec; eauto.
        * eapply excl_set; eauto.
      + split; [discriminate|]. intros e' H. injection H as <-.
        rewrite (Hsys _ eq_refl).
        (* the row does not exist: the code panics *)
        assert (Ef : tstep rows (m_idx m) (m_t m) = Fail Panicked).
        { clear - Hl Er. revert Hl. generalize (m_idx m) as idx, (m_t m) as t. intros idx t.
          assert (Hix : index rows i = Fail Panicked) by (unfold index; now rewrite Er).
          destruct t as [|e st|ns|ns|ns|[|[n d] todo] ns|[|[n d] todo]|]; cbn [lock_of task_step]; intros Hl; try discriminate Hl.
          - destruct (s_pop st) as [[[k st']|]|]; try discriminate. injection Hl as <- <-. unfold read_ids. cbn [obind]. now rewrite Hix.
          - injection Hl as <- <-. now rewrite Hix.
          - injection Hl as <- <-. now rewrite Hix.
          - injection Hl as <- <-. unfold update_row. now rewrite Hix.
          - destruct (idx =? n); [discriminate|]. injection Hl as <- <-. unfold update_row. now rewrite Hix.
          - destruct (n =? idx); [discriminate|]. injection Hl as <- <-. unfold update_row. now rewrite Hix. }
        now rewrite Ef.
    - rewrite (set_nth_same Hr) in *. destruct (tstep rows (m_idx m) (m_t m)) as [[rows' t']|e] eqn:Et; cbn [obind fst snd] in *.
      2:{ split. { destruct a; discriminate. } intros e' H. injection H as <-. rewrite (Hsys _ eq_refl). reflexivity. }
      destruct a.
      + cbn [obind fst snd]. split; [|discriminate]. intros y' H. injection H as <-. pose proof (tstep_read Hl Et) as ->. split.
        * split; cbn [fst snd].
          { eapply shape_set; [eauto|eauto|]. eapply sh_rel; cbn [m_code m_held]; [reflexivity|exact Hh]. }
          eapply excl_set; eauto.
        * right. rewrite (Hsys _ eq_refl). cbn [obind fst snd]. unfold abs. cbn [fst snd]. now rewrite map_set_nth.
      + destruct (tstep_write Hl Et) as (row' & Hrow' & Hrows'). unfold index. rewrite Hrow'. cbn [ounwrap obind fst snd].
        split; [|discriminate]. intros y' H. injection H as <-. rewrite <- Hrows'. split.
        * split; cbn [fst snd].
          { eapply shape_set; [eauto| |].
            - intros j mj Hj Hmj. pose proof (Hsh j mj Hmj) as Hsj.
              destruct Hsj as [?|?|? ?|? ?|i' a' Ht' Hl' Hc' Hh' Hr'|? ?]; eauto using shape.
              eapply sh_exec; eauto. rewrite Hrows'. rewrite nth_error_set_nth_neq; auto. intros ->.
              assert (k = j); [|congruence]. apply (Hex k j i' a').
              + exists m. split; auto. rewrite Hh. now left.
              + exists mj. split; auto. rewrite Hh'. now left.
            - eapply sh_rel; cbn [m_code m_held]; [reflexivity|exact Hh]. }
          eapply excl_set; eauto.
        * right. rewrite (Hsys _ eq_refl). cbn [obind fst snd]. unfold abs. cbn [fst snd]. now rewrite map_set_nth.
    - cbn [obind fst snd]. split; [|discriminate]. apply Hquiet; auto.
      + apply sh_idle; cbn; auto. rewrite Hh. cbn. now rewrite Nat.eqb_refl; destruct a.
      + eapply excl_set; eauto. cbn [m_held]. rewrite Hh. cbn. rewrite Nat.eqb_refl. destruct a; cbn; tauto.
  Qed.

  Lemma mrun_refines P : fair_locks P -> forall sched h y, minv y ->
    (forall y', mruns P h sched y = Ok y' -> minv y' /\ exists sched', length sched' <= length sched /\ run V s nn ms prev sched' (abs y) = Ok (abs y')) /\
    (forall e, mruns P h sched y = Fail e -> exists sched', run V s nn ms prev sched' (abs y) = Fail e).
  Proof.
    intros HP. induction sched as [|k sched IH]; intros h y Hy; cbn [mrun].
    - split; [|discriminate]. intros y' H. injection H as <-. split; auto. exists []. auto.
    - destruct (mstep_refines h k HP Hy) as [H1 H2].
      destruct (mstep P h y k) as [y1|e1] eqn:E1; cbn [obind].
      + destruct (H1 _ eq_refl) as [Hy1 Hab]. destruct (IH (h ++ [k]) y1 Hy1) as [G1 G2]. split.
        * intros y' H. destruct (G1 _ H) as (Hy' & sch & Hl & Hsch). split; auto. destruct Hab as [Hab|Hab].
          -- exists sch. rewrite Hab in Hsch. cbn. split; auto.
          -- exists (k :: sch). unfold run in *. cbn [ofold length]. rewrite Hab. cbn. split; auto. lia.
        * intros e H. destruct (G2 _ H) as (sch & Hsch). destruct Hab as [Hab|Hab].
          -- exists sch. now rewrite Hab in Hsch.
          -- exists (k :: sch). unfold run in *. cbn [ofold]. rewrite Hab. auto.
      + split; [discriminate|]. intros e H. injection H as <-. exists [k]. unfold run. cbn [ofold]. rewrite (H2 _ eq_refl). reflexivity.
  Qed.

  Lemma minv_start x : minv (m_start x).
  Proof.
    split.
    - intros k m H. cbn [m_start snd] in H. rewrite nth_error_map in H. destruct (nth_error (snd x) k); [|discriminate].
      injection H as <-. now apply sh_idle.
    - intros j k i b (m & H & I) _. cbn [m_start snd] in H. rewrite nth_error_map in H. destruct (nth_error (snd x) j); [|discriminate].
      injection H as <-. destruct I.
  Qed.

  Lemma abs_start x : abs (m_start x) = x.
  Proof. destruct x as [rows ts]. unfold abs, m_start. cbn [fst snd]. f_equal. rewrite map_map. cbn. rewrite <- (map_id ts) at 2. apply map_ext. now intros []. Qed.

  (** waiting tasks hold nothing; every task holds at most one lock *)
  Lemma minv_waits y k i a : minv y -> asks y k i a -> forall j b, ~ holds y k j b.
  Proof.
    intros [Hsh _] (m & c & Hk & Hc) j b (m' & Hk' & Hi). rewrite Hk in Hk'. injection Hk' as <-.
    destruct (Hsh _ _ Hk) as [Hc' Hh|? ? Hc' Hh|i' a' ? ? Hc' Hh|i' a' ? ? Hc' Hh|i' a' ? ? Hc' Hh ?|i' a' Hc' Hh]; rewrite Hc' in Hc; try discriminate.
    rewrite Hh in Hi. destruct Hi.
  Qed.

  Lemma minv_one y k m : minv y -> nth_error (snd y) k = Some m -> length (m_held m) <= 1.
  Proof.
    intros [Hsh _] Hk. destruct (Hsh _ _ Hk) as [? ->|? ? ? ->|? ? ? ? ? ->|? ? ? ? ? ->|? ? ? ? ? -> ?|? ? ? ->]; cbn; lia.
  Qed.

  (** no deadlock *)
  Lemma minv_progress P h y : fair_locks P -> minv y -> (exists k m, nth_error (snd y) k = Some m /\ m_finished m = false) ->
    exists k, can_move P h y k.
  Proof.
    intros HP HI (k & m & Hk & Hf).
    assert (Hdec : forall ms0 : list (mtask E), (exists k m i a c, nth_error ms0 k = Some m /\ m_code m = IAcq i a :: c) \/
       (forall k m i a c, nth_error ms0 k = Some m -> m_code m <> IAcq i a :: c)).
    { induction ms0 as [|m0 ms0 IH].
      - right. intros [|?]; cbn; discriminate.
      - destruct (m_code m0) as [|[i a|i|o|i a] c] eqn:Ec.
        2:{ left. exists 0, m0, i, a, c. auto. }
        all: destruct IH as [(k1 & m1 & i1 & a1 & c1 & H1 & H2)|IH];
          [left; exists (Datatypes.S k1), m1, i1, a1, c1; auto|right; intros [|k1] m1 i1 a1 c1; cbn; [|apply IH]];
          intros H; injection H as <-; congruence. }
    destruct (m_code m) as [|[i a|i|o|i a] c] eqn:Ec.
    2:{ (* m waits for lock i *)
      (* does somebody who holds a lock exist? *)
      assert (Hh : (exists j b, holds y j i b) \/ (forall j b, ~ holds y j i b)).
      { clear - HI. destruct HI as [Hsh _]. destruct y as [rows ms0]. cbn [fst snd] in *. clear Hsh. unfold holds. cbn [snd].
        induction ms0 as [|m0 ms0 IH].
        - right. intros [|j] b (m & H & _); cbn in H; discriminate.
        - assert (Hm0 : (exists b, In (i, b) (m_held m0)) \/ (forall b, ~ In (i, b) (m_held m0))).
          { induction (m_held m0) as [|[i1 b1] l IHl]; [right; cbn; tauto|].
            destruct (Nat.eq_dec i1 i) as [->|Hne]; [left; exists b1; now left|].
            destruct IHl as [[b Hb]|Hb]; [left; exists b; now right|right; intros b [H|H]; [congruence|eapply Hb; eauto]]. }
          destruct Hm0 as [[b Hb]|Hm0]; [left; exists 0, b, m0; auto|].
          destruct IH as [(j & b & m1 & H1 & H2)|IH]; [left; exists (Datatypes.S j), b, m1; auto|].
          right. intros [|j] b (m1 & H1 & H2); cbn in H1; [injection H1 as <-; eapply Hm0; eauto|eapply IH; eauto]. }
      destruct Hh as [(j & b & mj & Hj & Hb)|Hfree].
      - (* the holder can move *)
        exists j, mj. split; auto. destruct (v_shape HI Hj) as [? Hh|? ? ? Hh|? ? ? ? ? Hh|? ? ? ? Hcj Hh|? ? ? ? Hcj Hh ?|? ? Hcj Hh]; try (rewrite Hh in Hb; now destruct Hb).
        all: split; [unfold m_finished; rewrite Hcj; now rewrite andb_false_r|].
        all: intros i2 a2 (m2 & c2 & H2 & H3); rewrite Hj in H2; injection H2 as <-; rewrite Hcj in H3; discriminate.
      - destruct (@fl_live _ _ HP h y k i a ltac:(exists m, c; auto) Hfree) as (k' & a' & (m' & c' & Hk' & Hc') & HP').
        exists k', m'. split; auto. split; [unfold m_finished; rewrite Hc'; now rewrite andb_false_r|]. auto. }
    all: exists k, m; split; auto; split; auto; intros i2 a2 (m2 & c2 & H2 & H3); rewrite Hk in H2; injection H2 as <-; rewrite Ec in H3; discriminate.
  Qed.
End Locks.

(** ** Every sequence of effective moves is bounded *)
Section Bound.
  Context {S E : Type} (V : benv S E) (s : S).
  Local Notation C := (e_ops V).
  Hypothesis Hc : cont_ok C s.
  Hypothesis Hsort : sorts_by_dist (e_sort V).
  Hypothesis Hlen : (N.of_nat (c_len C s) <= UNUSED)%N.
  Variables (U : bool) (w n : nat).
  Hypothesis Hn : n <= c_len C s.
  Variables (nn ms : nat) (prev : list (fw N)).
  Hypothesis Hnn : 0 < nn <= w.
  Hypothesis Hms : 0 < ms.
  Variable B : nat -> Prop.
  Hypothesis Hprev : forall idx e, idx < n -> c_get C s idx = Ok e ->
    exists r, granne_search (e_mode V) (e_fuel V) (FixWidth prev) (fun i => c_dte C s i e) 1 1 = Ok r /\
      forall x, In x r -> fst x < n /\ (U = true -> fst x <> 0 -> B (fst x) /\ B 0).
  Local Notation mstep := (msys_step V s nn ms prev).
  Local Notation mruns := (mrun V s nn ms prev).
  Local Notation sinv := (sys_inv V s U w n nn ms B).

  Definition weight (m : mtask E) : nat :=
    match m_code m with
    | [] => 5 * tmeas n (m_t m)
    | IAcq _ _ :: _ | IExec None :: _ => 5 * tmeas n (m_t m) - 1
    | ILoad _ :: _ => 5 * tmeas n (m_t m) - 2
    | IExec (Some _) :: _ => 5 * tmeas n (m_t m) - 3
    | IRel _ _ :: _ => 5 * tmeas n (m_t m) + 1
    end.
  Definition mtotal (y : msys E) : nat := sum_nat (map weight (snd y)).

  Lemma move_weight P h y k y' : fair_locks P -> minv y -> sinv (abs y) -> can_move P h y k -> mstep P h y k = Ok y' ->
    minv y' /\ sinv (abs y') /\ mtotal y' < mtotal y.
  Proof.
    intros HP HI HS (m & Hk & Hf & Hg) Es.
    destruct (@mstep_refines _ _ V s nn ms prev P h y k HP HI) as [Hr _]. destruct (Hr _ Es) as [HI' Hab].
    assert (HS' : sinv (abs y')).
    { destruct Hab as [->|Hab]; auto. eapply step_meas; eauto. }
    split; auto. split; auto.
    unfold msys_step in Es. rewrite Hk in Es. apply obind_ok in Es as (r & Et & Es). injection Es as <-.
    unfold mtotal. cbn [snd]. rewrite map_set_nth.
    pose proof (@sum_set_nth (map weight (snd y)) k (weight m) (weight (snd r)) ltac:(erewrite map_nth_error; eauto)) as Hsum.
    cut (weight (snd r) < weight m); [lia|]. clear Hsum.
    assert (Hpos : m_t m <> TDone -> 0 < tmeas n (m_t m)) by (destruct (m_t m); cbn; intros; try lia; congruence).
    (* what a step of the task does to its measure *)
    assert (Hexec : forall o c rows', m_code m = IExec o :: c -> m_t m <> TDone ->
       task_step V s nn ms prev (fst y) (m_idx m) (m_t m) = Ok (rows', m_t (snd r)) -> tmeas n (m_t (snd r)) < tmeas n (m_t m)).
    { intros o c rows' Hco Htd Ets.
      assert (Ess : sys_step V s nn ms prev (abs y) k = Ok (rows', set_nth (snd (abs y)) k (m_idx m, m_t (snd r)))).
      { unfold sys_step, abs. cbn [fst snd]. erewrite map_nth_error by eauto. cbn beta iota. rewrite Ets. reflexivity. }
      destruct (@step_meas _ _ V s Hc Hsort Hlen U w n Hn nn ms prev Hnn Hms B Hprev (abs y) k _ HS Ess) as (_ & _ & _ & Hmk & _).
      unfold mk, abs in Hmk. cbn [fst snd] in Hmk.
      rewrite nth_error_set_nth_eq in Hmk by (rewrite map_length; apply nth_error_Some; congruence).
      rewrite (map_nth_error _ _ _ Hk) in Hmk. specialize (Hpos Htd). cbn beta iota in Hmk. lia. }
    unfold mtask_step in Et. unfold weight.
    destruct (v_shape HI Hk) as [Hco Hh|Ht Hl Hco Hh|i a Ht Hl Hco Hh|i a Ht Hl Hco Hh|i a Ht Hl Hco Hh Hr'|i a Hco Hh]; rewrite Hco in *.
    - unfold m_finished in Hf. rewrite Hco, andb_true_r in Hf. rewrite Hf in Et. injection Et as <-. cbn [snd m_code m_t].
      specialize (Hpos ltac:(intros Eq; rewrite Eq in Hf; discriminate)).
      unfold plan. destruct (lock_of (m_idx m) (m_t m)) as [[i a]|]; lia.
    - specialize (Hpos Ht). apply obind_ok in Et as ([rows' t'] & Ets & Et). injection Et as <-. cbn [snd m_code m_t] in *.
      specialize (Hexec _ _ _ eq_refl Ht Ets). lia.
    - specialize (Hpos Ht). rewrite (Hg i a) in Et by (exists m; eexists; eauto). injection Et as <-. cbn [snd m_code m_t]. lia.
    - specialize (Hpos Ht). apply obind_ok in Et as (row & _ & Et). injection Et as <-. cbn [snd m_code m_t]. lia.
    - specialize (Hpos Ht). apply obind_ok in Et as ([rows' t'] & Ets & Et). rewrite (set_nth_same Hr') in Ets. cbn [fst snd] in Et.
      assert (Hr2 : exists rows2, r = (rows2, mkMtask (m_idx m) t' [IRel i a] (m_held m) (m_row m))).
      { destruct a; [injection Et as <-; eauto|]. apply obind_ok in Et as (row & _ & Et). injection Et as <-. eauto. }
      destruct Hr2 as [rows2 ->]. cbn [snd m_code m_t] in *. specialize (Hexec _ _ _ eq_refl Ht Ets). lia.
    - injection Et as <-. cbn [snd m_code m_t]. lia.
  Qed.

  Lemma moves_bounded P : fair_locks P -> forall sched h y, minv y -> sinv (abs y) ->
    (forall s1 k s2 y', sched = s1 ++ k :: s2 -> mruns P h s1 y = Ok y' -> can_move P (h ++ s1) y' k) ->
    (exists y', mruns P h sched y = Ok y') -> length sched <= mtotal y.
  Proof.
    intros HP. induction sched as [|k sched IH]; intros h y HI HS Hmv [y' Er]; cbn [length]; [lia|].
    cbn [mrun] in Er. apply obind_ok in Er as (y1 & E1 & Er).
    pose proof (Hmv [] k sched y eq_refl eq_refl) as Hc0. rewrite app_nil_r in Hc0.
    destruct (@move_weight P h y k y1 HP HI HS Hc0 E1) as (HI1 & HS1 & Hlt).
    assert (length sched <= mtotal y1); [|lia].
    apply (IH (h ++ [k]) y1); eauto. intros s1 k1 s2 y2 -> Hr. rewrite <- app_assoc. cbn [app].
    apply (Hmv (k :: s1) k1 s2 y2 eq_refl). cbn [mrun]. rewrite E1. exact Hr.
  Qed.

  Lemma mtotal_start x : mtotal (m_start x) = 5 * total n (snd x).
  Proof using Type.
    unfold mtotal, m_start, total. cbn [snd]. rewrite map_map.
    induction (snd x) as [|p l IH]; [reflexivity|]. cbn [map]. unfold sum_nat in *. cbn [fold_right]. rewrite IH.
    unfold weight at 1. cbn [m_code m_t]. rewrite Nat.mul_add_distr_l. reflexivity.
  Qed.
End Bound.
