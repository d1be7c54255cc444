(** * Proofs: reordering of layers *)
From Verif Require Import Base BaseFacts Bytes MSliceVec SSliceVec MOffsets MSetVec SOffsets PSetVec PSetVecWrite MIndexIo SIndexIo PIndexIo MSearch SSearch PHeap PSearch PSearchIx MBuild MReorder SReorder.
Set Implicit Arguments. Unset Strict Implicit.

(** ** the reverse mapping *)
Lemma store_pairs (ps : list (nat * nat)) : forall rev,
  NoDup (map snd ps) -> Forall (fun q => snd q < length rev) ps ->
  exists rev', ofold (fun rev (q : nat * nat) => store rev (snd q) (fst q)) ps rev = Ok rev' /\ length rev' = length rev /\
    (forall i j, In (i, j) ps -> nth j rev' 0 = i) /\ (forall j, ~ In j (map snd ps) -> nth j rev' 0 = nth j rev 0).
Proof.
  induction ps as [|[i j] ps IH]; intros rev HN HF; cbn [ofold].
  - exists rev. split; auto. split; auto. split; auto. intros ? ? [].
  - inversion HN as [|? ? Hni HN']; subst. inversion HF as [|? ? Hj HF']; subst. cbn [snd fst] in *.
    rewrite (proj2 (store_ok rev j i (set_nth rev j i))) by auto. cbn [obind].
    destruct (IH (set_nth rev j i)) as (rev' & E & HL & H1 & H2); auto; [now rewrite set_nth_length|].
    exists rev'. split; auto. rewrite set_nth_length in HL. split; auto. split.
    + intros i' j' [H|H]; [|auto]. injection H as <- <-. rewrite H2 by auto. rewrite nth_set_nth by auto. now rewrite Nat.eqb_refl.
    + cbn [map snd In]. intros j' Hj'. rewrite H2 by tauto. rewrite nth_set_nth by auto.
      destruct (Nat.eqb_spec j j'); [tauto|auto].
Qed.

Lemma combine_seq_In (p : list nat) k i j : In (i, j) (combine (seq k (length p)) p) <-> k <= i /\ nth_error p (i - k) = Some j.
Proof.
  revert k; induction p as [|x p IH]; intros k; cbn [length seq combine In].
  - split; [tauto|]. intros [_ H]. destruct (i - k); discriminate.
  - rewrite IH. split.
    + intros [H|[H1 H2]]; [injection H as <- <-; rewrite Nat.sub_diag; auto|].
      split; [lia|]. replace (i - k) with (S (i - S k)) by lia. exact H2.
    + intros [H1 H2]. destruct (Nat.eq_dec i k) as [->|Hne]; [left; rewrite Nat.sub_diag in H2; cbn in H2; congruence|].
      right. split; [lia|]. replace (i - k) with (S (i - S k)) in H2 by lia. exact H2.
Qed.

Lemma map_snd_combine {A B} (l : list A) (r : list B) : length l = length r -> map snd (combine l r) = r.
Proof. revert r; induction l as [|x l IH]; intros [|y r] H; cbn in *; try lia; auto. f_equal. apply IH. lia. Qed.

Definition inverse (n : nat) (p r : list nat) : Prop :=
  length r = n /\ (forall i, i < n -> nth (nth i p 0) r 0 = i) /\ (forall y, y < n -> nth y r 0 < n /\ nth (nth y r 0) p 0 = y).

Lemma reverse_ok n p : is_perm n p -> exists r, get_reverse_mapping p = Ok r /\ inverse n p r.
Proof.
  intros HP. destruct (@perm_seq_nth n p HP) as (HL & Hlt & Hinj & Hsur).
  assert (HN : NoDup p) by (eapply Permutation_NoDup; [symmetry; exact HP|apply seq_NoDup]).
  unfold get_reverse_mapping. destruct (@store_pairs (combine (seq 0 (length p)) p) (repeat 0 (length p))) as (r & E & Hr & H1 & _).
  - rewrite map_snd_combine by (now rewrite seq_length). auto.
  - rewrite Forall_forall. intros [i j] Hin. apply combine_seq_In in Hin as [_ Hj]. cbn. rewrite repeat_length, HL.
    apply nth_error_In in Hj. apply (Permutation_in _ HP) in Hj. apply in_seq in Hj. lia.
  - exists r. split; auto. rewrite repeat_length in Hr.
    assert (H2 : forall i, i < n -> nth (nth i p 0) r 0 = i).
    { intros i Hi. apply H1. apply combine_seq_In. split; [lia|]. rewrite Nat.sub_0_r. apply nth_error_nth'. lia. }
    split; [lia|]. split; auto.
    intros y Hy. destruct (Hsur y Hy) as (i & Hi & <-). rewrite H2 by auto. auto.
Qed.

(** ** one layer *)
Section Layer.
  Variables (m : mode) (n len : nat) (nbrs : nat -> outcome (list nat)) (nb : nat -> list nat) (r : list nat).
  Hypothesis Hnb : forall x, x < len -> nbrs x = Ok (nb x) /\ Forall (fun y => y < n) (nb x).
  Hypothesis Hr : length r = n.
  Hypothesis Hrn : forall y, y < n -> nth y r 0 < n.
  Hypothesis Hn : (N.of_nat n <= 4294967296)%N.

  Definition new_row (x : nat) : list N := map (fun y => N.of_nat (nth y r 0)) (nb x).

  Lemma row_ok x : x < len ->
    (let* ns := nbrs x in omapM (fun n => let* k := index r n in to_id k) ns) = Ok (new_row x).
  Proof.
    intros Hx. destruct (Hnb Hx) as [-> HF]. cbn [obind]. unfold new_row. apply omapM_pure.
    intros y Hy. rewrite Forall_forall in HF. specialize (HF _ Hy). rewrite (index_nth r (i:=y) 0) by lia. cbn [obind].
    unfold to_id. destruct (N.ltb_spec (N.of_nat (nth y r 0)) 4294967296) as [_|Hc]; auto.
    specialize (Hrn HF). lia.
  Qed.

  Fixpoint sums (a : nat) (rows : list (list N)) : list nat :=
    match rows with [] => [] | x :: t => (a + length x) :: sums (a + length x) t end.
  Lemma sums_length a rows : length (sums a rows) = length rows.
  Proof. revert a; induction rows as [|x t IH]; intros a; cbn [sums length]; auto. Qed.

  Lemma chunk_ok c : Forall (fun x => x < len) c ->
    reorder_chunk nbrs r c = Ok (0 :: sums 0 (map new_row c), concat (map new_row c)).
  Proof.
    intros HF. unfold reorder_chunk.
    assert (HG : forall offs data,
      ofold (fun (s : list nat * list N) id =>
           let '(offset_chunk, layer_chunk) := s in
           let* ns := nbrs id in
           let* ns' := omapM (fun n => let* r := index r n in to_id r) ns in
           let layer_chunk := layer_chunk ++ ns' in
           Ok (offset_chunk ++ [length layer_chunk], layer_chunk)) c (offs, data) =
      Ok (offs ++ sums (length data) (map new_row c), data ++ concat (map new_row c))).
    { induction c as [|x c IH]; intros offs data; cbn [ofold map concat sums]; [now rewrite !app_nil_r|].
      pose proof (Forall_inv HF) as Hx. pose proof (Forall_inv_tail HF) as HF'. pose proof (row_ok Hx) as Hrow. destruct (Hnb Hx) as [E _]. rewrite E in Hrow |- *.
      cbn [obind] in Hrow |- *. rewrite Hrow. cbn [obind]. rewrite IH by auto.
      rewrite app_length, <- !app_assoc. reflexivity. }
    rewrite HG. reflexivity.
  Qed.

  (** reading the rows of a chunk back *)
  Definition push_rows (offset : list nat) (chunk : list N) (is : list nat) (v : msv) : outcome msv :=
    ofold (fun v i => let* b := index offset (i - 1) in
                      let* e := index offset i in
                      let* row := slice chunk b e in msv_push m v row) is v.

  Lemma push_rows_ok rows : forall pre a offset chunk v,
    offset = pre ++ a :: sums a rows -> (exists d, length d = a /\ chunk = d ++ concat rows) ->
    push_rows offset chunk (seq (S (length pre)) (length rows)) v = ofold (msv_push m) rows v.
  Proof.
    induction rows as [|x rows IH]; intros pre a offset chunk v Ho (d & Hd & Hc); cbn [length seq ofold]; auto.
    unfold push_rows. cbn [ofold].
    assert (E1 : index offset (S (length pre) - 1) = Ok a).
    { apply index_ok. rewrite Ho, nth_error_app2 by lia. replace (S (length pre) - 1 - length pre) with 0 by lia. reflexivity. }
    assert (E2 : index offset (S (length pre)) = Ok (a + length x)).
    { apply index_ok. rewrite Ho, nth_error_app2 by lia. replace (S (length pre) - length pre) with 1 by lia. reflexivity. }
    rewrite E1, E2. cbn [obind].
    assert (E3 : slice chunk a (a + length x) = Ok x).
    { unfold slice. rewrite Hc. cbn [concat]. rewrite !app_length.
      replace ((a <=? a + length x) && (a + length x <=? length d + (length x + length (concat rows)))) with true
        by (symmetry; apply andb_true_intro; split; apply Nat.leb_le; lia).
      f_equal. rewrite <- Hd. rewrite skipn_app, Nat.sub_diag, skipn_all. cbn [skipn app].
      replace (length d + length x - length d) with (length x) by lia.
      rewrite firstn_app, Nat.sub_diag, firstn_all. cbn [firstn]. now rewrite app_nil_r. }
    rewrite E3. cbn [obind]. destruct (msv_push m v x) as [v'|e]; cbn [obind]; auto.
    specialize (IH (pre ++ [a]) (a + length x) offset chunk v').
    rewrite app_length in IH. cbn [length] in IH. replace (length pre + 1) with (S (length pre)) in IH by lia. apply IH.
    - rewrite Ho. cbn [sums]. now rewrite <- app_assoc.
    - exists (d ++ x). split; [rewrite app_length; lia|]. rewrite Hc. cbn [concat]. now rewrite app_assoc.
  Qed.

  Lemma push_chunks cs : forall v,
    ofold (fun new_layer (c : list nat * list N) =>
           let '(offset, chunk) := c in
           ofold (fun new_layer i =>
                    let* b := index offset (i - 1) in
                    let* e := index offset i in
                    let* row := slice chunk b e in
                    msv_push m new_layer row)
                 (seq 1 (length offset - 1)) new_layer)
        (map (fun rows => (0 :: sums 0 rows, concat rows)) cs) v = ofold (msv_push m) (concat cs) v.
  Proof.
    induction cs as [|rows cs IH]; intros v; cbn [map ofold concat]; auto.
    rewrite ofold_app. pose proof (@push_rows_ok rows [] 0 (0 :: sums 0 rows) (concat rows) v eq_refl) as H.
    unfold push_rows in H. cbn [length] in *. rewrite sums_length. replace (S (length rows) - 1) with (length rows) by lia.
    rewrite H by (exists []; auto). destruct (ofold (msv_push m) rows v) as [v'|e]; cbn [obind]; auto.
  Qed.

  Lemma layer_ok_build mapping : len <= length mapping -> Forall (fun x => x < len) (firstn len mapping) ->
    reorder_layer m len nbrs mapping r = msv_build m (map new_row (firstn len mapping)).
  Proof.
    intros Hl HF. unfold reorder_layer, msv_build. destruct (msv_new m) as [v|e]; cbn [obind]; auto.
    match goal with |- context [chunks ?e _] => set (cz := e) end.
    assert (Hcz : 0 < cz) by (unfold cz; eapply Nat.lt_le_trans; [|apply Nat.le_max_l]; apply Nat.ltb_lt; vm_compute; reflexivity). clearbody cz.
    unfold slice at 1. replace ((0 <=? len) && (len <=? length mapping)) with true
        by (symmetry; apply andb_true_intro; split; apply Nat.leb_le; lia).
    cbn [skipn obind]. rewrite Nat.sub_0_r. set (ids := firstn len mapping) in *.
    assert (Hin : forall c, In c (chunks cz ids) -> Forall (fun x => x < len) c).
    { intros c Hc. rewrite Forall_forall in *. intros x Hx. apply HF. rewrite <- (@chunks_concat _ cz ids Hcz). apply in_concat. eauto. }
    rewrite (@omapM_pure _ _ _ (fun c => (0 :: sums 0 (map new_row c), concat (map new_row c)))).
    2:{ intros c Hc. apply chunk_ok. auto. }
    cbn [obind].
    replace (map (fun c => (0 :: sums 0 (map new_row c), concat (map new_row c))) (chunks cz ids))
      with (map (fun rows => (0 :: sums 0 rows, concat rows)) (map (map new_row) (chunks cz ids))) by (now rewrite map_map).
    rewrite push_chunks. f_equal. rewrite <- (@chunks_concat _ cz ids Hcz) at 2. now rewrite concat_map.
  Qed.
End Layer.

Lemma Forall2_length_ {A B} (R : A -> B -> Prop) la lb : Forall2 R la lb -> length la = length lb.
Proof. induction 1; cbn; auto. Qed.

(** ** all layers *)
Definition rename_row (r : list nat) (ns : list N) : list N := map (fun y => N.of_nat (nth (N.to_nat y) r 0)) ns.
Definition rename_graph (p r : list nat) (G : list (list (list N))) : list (list (list N)) :=
  map (fun g => map (fun x => rename_row r (nth x g [])) (firstn (length g) p)) G.

Lemma layers_len_pos G : graph_ok G -> forall i g, nth_error G i = Some g -> length g <= length (last G []).
Proof.
  intros HG i g Hi. assert (Hne : G <> []) by (intros ->; destruct i; discriminate).
  destruct HG as [_ HG]. eapply HG; [exact Hi|exact (last_nth Hne)|]. 
  assert (i < length G) by (apply nth_error_Some; congruence). lia.
Qed.

Lemma last_len_pos G : graph_ok G -> G <> [] -> 0 < length (last G []).
Proof.
  intros HG Hne. destruct (graph_ok_nth HG (last_nth Hne)) as [H _]. destruct (last G []); [congruence|cbn; lia].
Qed.

Lemma nth_firstn_lt {A} (l : list A) k i d : i < k -> nth i (firstn k l) d = nth i l d.
Proof. intros H. rewrite <- (firstn_skipn k l) at 2. destruct (Nat.lt_ge_cases i (length (firstn k l))) as [Hl|Hl].
  - now rewrite app_nth1.
  - rewrite firstn_length in Hl. rewrite !nth_overflow; auto; [|rewrite firstn_length; lia].
    rewrite firstn_skipn. lia.
Qed.

Lemma inverse_le n len p r : is_perm n p -> inverse n p r -> len <= n -> is_perm len (firstn len p) ->
  forall y, y < len -> nth y r 0 < len.
Proof.
  intros HP (Hr & H1 & H2) Hle HP' y Hy. destruct (@perm_seq_nth len _ HP') as (HL & _ & _ & Hsur).
  destruct (Hsur y Hy) as (i & Hi & E). rewrite nth_firstn_lt in E by auto. rewrite <- E, H1 by lia. auto.
Qed.

Lemma keeps_layers_nth G p i g : keeps_layers G p -> nth_error G i = Some g -> is_perm (length g) (firstn (length g) p).
Proof. intros [_ H] Hi. rewrite Forall_forall in H. apply H. eapply nth_error_In; eauto. Qed.

Lemma nth_error_firstn_perm n p len x : is_perm n p -> len <= n -> x < len -> nth_error (firstn len p) x = Some (nth x p 0).
Proof.
  intros HP Hle Hx. destruct (@perm_seq_nth n p HP) as (HL & _).
  rewrite nth_error_firstn_lt by auto. apply nth_error_nth'. lia.
Qed.

Lemma reorder_layers_ok m L G p :
  index_shows m L G -> graph_ok G -> storable G -> keeps_layers G p -> G <> [] ->
  exists L' r, reorder_layers m L p = Ok L' /\ inverse (length (last G [])) p r /\ index_shows m L' (rename_graph p r G).
Proof.
  intros HS HG [Hst Hn] HK Hne. set (n := length (last G [])) in *. pose proof (proj1 HK) as HP. fold n in HP.
  destruct (reverse_ok HP) as (r & Er & Hr). unfold reorder_layers. rewrite Er. cbn [obind].
  assert (HB : exists ls, omapM (fun i => let* len := layer_len L i in
                             reorder_layer m len (fun x => get_neighbors m L x i) p r)
                   (seq 0 (layers_len L)) = Ok ls /\ 
       Forall2 (fun i v => exists g rows, nth_error G i = Some g /\ msv_observes m rows v /\
            rows = map (fun x => map (fun y => N.of_nat (nth y r 0)) (nb_of m L i x)) (firstn (length g) p)) (seq 0 (layers_len L)) ls).
  { assert (HA : forall i, In i (seq 0 (layers_len L)) -> exists v g rows, (let* len := layer_len L i in
                             reorder_layer m len (fun x => get_neighbors m L x i) p r) = Ok v /\ nth_error G i = Some g /\ msv_observes m rows v /\
            rows = map (fun x => map (fun y => N.of_nat (nth y r 0)) (nb_of m L i x)) (firstn (length g) p)).
    { intros i Hi. apply in_seq in Hi. rewrite (proj1 HS) in Hi. destruct (nth_error G i) as [g|] eqn:Eg; [|apply nth_error_None in Eg; lia].
      destruct (layer_bridge HS Eg (graph_ok_nth HG Eg)) as [Hb _].
      pose proof (layers_len_pos HG Eg) as Hle. fold n in Hle.
      pose proof (keeps_layers_nth HK Eg) as HP'.
      destruct (proj2 HS _ _ Eg) as [El Hj]. rewrite El. cbn [obind].
      rewrite (@layer_ok_build m n (length g) (fun x => get_neighbors m L x i) (nb_of m L i) r).
      - assert (HF : Forall (fun x => x < length g) (firstn (length g) p)).
        { rewrite Forall_forall. intros x Hx. apply (Permutation_in _ HP') in Hx. apply in_seq in Hx. lia. }
        destruct (@lists_round_trip m (map (new_row (nb_of m L i) r) (firstn (length g) p))) as (v & Ev & Hv).
        + rewrite Forall_map. eapply Forall_impl; [|exact HF]. intros x Hx. cbn in Hx. unfold new_row. split.
          * rewrite Forall_map. rewrite Forall_forall. intros y Hy. destruct (Hb _ Hx) as [_ Hbx]. rewrite Forall_forall in Hbx.
            specialize (Hbx _ Hy). unfold is_u32. destruct Hr as (_ & _ & H2). destruct (H2 y) as [H2' _]; [lia|].
            apply N.lt_le_trans with (N.of_nat n); [lia|exact Hn].
          * rewrite map_length. destruct (nth_error g x) as [ns|] eqn:En; [|apply nth_error_None in En; lia].
            destruct (Hj _ _ En) as (ns' & E' & HP2). unfold nb_of. rewrite E', (Permutation_length HP2), map_length.
            rewrite Forall_forall in Hst. specialize (Hst _ (nth_error_In _ _ Eg)). rewrite Forall_forall in Hst.
            apply Hst. eapply nth_error_In; eauto.
        + exists v, g, (map (new_row (nb_of m L i) r) (firstn (length g) p)). auto.
      - intros x Hx. destruct (Hb _ Hx) as [H1 H2]. split; auto. eapply Forall_impl; [|exact H2]. cbn. lia.
      - apply Hr.
      - intros y Hy. now apply (proj2 (proj2 Hr)).
      - exact Hn.
      - rewrite (proj1 (@perm_seq_nth n p HP)). auto.
      - rewrite Forall_forall. intros x Hx. apply (Permutation_in _ HP') in Hx. apply in_seq in Hx. lia. }
    revert HA. generalize (seq 0 (layers_len L)). induction l as [|i l IH]; intros HA; cbn [omapM].
    - exists []. split; auto.
    - destruct (HA i (or_introl eq_refl)) as (v & g & rows & Ev & H1 & H2 & H3). rewrite Ev. cbn [obind].
      destruct IH as (ls & Els & HF); [intros; apply HA; now right|]. rewrite Els. cbn [obind].
      exists (v :: ls). split; auto. constructor; auto. exists g, rows. auto. }
  destruct HB as (ls & Els & HF). rewrite Els. cbn [obind]. exists (Compressed ls), r. split; auto. split; auto.
  assert (HL := Forall2_length_ HF). rewrite seq_length, (proj1 HS) in HL.
  split; [cbn [layers_len]; unfold rename_graph; rewrite map_length; lia|].
  intros i g' Hi. unfold rename_graph in Hi. rewrite nth_error_map in Hi. destruct (nth_error G i) as [g|] eqn:Eg; [|discriminate].
  cbn [option_map] in Hi. injection Hi as <-. rewrite map_length.
  pose proof (layers_len_pos HG Eg) as Hle. fold n in Hle.
  assert (Hlp : length p = n) by apply (proj1 (@perm_seq_nth n p HP)).
  destruct (nth_error ls i) as [v|] eqn:Ev; [|apply nth_error_None in Ev; assert (i < length G) by (apply nth_error_Some; congruence); lia].
  destruct (@nth_error_Forall2_l _ _ _ _ _ i v HF Ev) as (i' & Ei & g2 & rows & Eg2 & [Hlen Hget] & Hrows).
  assert (i' = i).
  { assert (Hil : i < length G) by (apply nth_error_Some; congruence). rewrite (proj1 HS) in Ei.
    apply nth_error_nth with (d := 0) in Ei. rewrite seq_nth in Ei by auto. lia. }
  subst i'. rewrite Eg in Eg2. injection Eg2 as <-.
  cbn [layer_len get_neighbors]. unfold msv_neighbors. rewrite (proj2 (index_ok ls i v)) by auto. cbn [obind].
  rewrite Hlen, Hrows, map_length. split; auto.
  intros x ns Hx. rewrite nth_error_map in Hx.
  destruct (nth_error (firstn (length g) p) x) as [y|] eqn:Ey; [|discriminate]. cbn [option_map] in Hx. injection Hx as <-.
  destruct (Hget x (map (fun z => N.of_nat (nth z r 0)) (nb_of m L i y))) as (s & Es & Hs); [rewrite Hrows, nth_error_map, Ey; reflexivity|].
  rewrite Es. cbn [obind]. eexists. split; [reflexivity|].
  apply Permutation_map. etransitivity; [exact (proj1 Hs)|].
  assert (Hy : y < length g).
  { apply nth_error_In in Ey. apply (Permutation_in _ (keeps_layers_nth HK Eg)) in Ey. apply in_seq in Ey. lia. }
  destruct (nth_error g y) as [ns|] eqn:En; [|apply nth_error_None in En; lia].
  destruct (proj2 (proj2 HS _ _ Eg) _ _ En) as (ns' & E' & HP2). unfold nb_of. rewrite E'.
  rewrite (nth_error_nth _ _ [] En). unfold rename_row.
  etransitivity; [apply Permutation_map, HP2|]. rewrite map_map. reflexivity.
Qed.
