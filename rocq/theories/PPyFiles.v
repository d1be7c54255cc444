(** * Proofs: opened indexes and builders over files *)
From Verif Require Import Base BaseFacts Bytes MSliceVec MIndexIo MSearch MBuild MReorder MLayerSize MEmbed MParse MPyIndex MFiles SFiles PFiles MPyFiles SPyReorder SPyFiles.
Open Scope nat_scope.

Lemma ob_ok {A B} (x : outcome A) (f : A -> outcome B) r : obind x f = Ok r -> exists a, x = Ok a /\ f a = Ok r.
Proof. destruct x; cbn; [eauto|discriminate]. Qed.
Lemma or_panic_ok {A} (x : outcome A) a : or_panic x = Ok a <-> x = Ok a.
Proof. destruct x as [|[]]; cbn; split; congruence. Qed.

(** ** Disks *)
Lemma readable_true d p b : node_at d p = Some (File b) -> readable d (Some (p, b)) = true.
Proof. intros H. cbn. unfold intact. rewrite H. destruct (list_eq_dec N.eq_dec b b); congruence. Qed.
Lemma readable_iff d p b : readable d (Some (p, b)) = true <-> node_at d p = Some (File b).
Proof.
  split; [|apply readable_true]. cbn. unfold intact. destruct (node_at d p) as [[x|]|]; try discriminate.
  destruct (list_eq_dec N.eq_dec x b); congruence.
Qed.
Lemma sound_readable d xs x : sound d xs -> In x xs -> readable d x = true.
Proof. intros H Hi. destruct x as [[p b]|]; [|reflexivity]. apply readable_true. now apply H. Qed.
Lemma mapped_in xs p : In p (mapped xs) <-> exists b, In (Some (p, b)) xs.
Proof.
  unfold mapped. rewrite in_flat_map. split.
  - intros ([[q b]|] & Hi & H); cbn in H; [|tauto]. destruct H as [->|[]]. eauto.
  - intros [b H]. exists (Some (p, b)). cbn. auto.
Qed.
Lemma sound_other d d' xs : sound d xs -> (forall p, In p (mapped xs) -> node_at d' p = node_at d p) -> sound d' xs.
Proof. intros H He p b Hi. rewrite He; [now apply H|]. apply mapped_in. eauto. Qed.
Lemma put_put_at d p x y q : node_at (put (put d p x) p y) q = if path_eqb p q then Some y else node_at d q.
Proof.
  destruct (path_eqb p q) eqn:E.
  - apply path_eqb_eq in E. subst q. apply node_put_same.
  - apply path_eqb_neq in E. rewrite !node_put_other by congruence. reflexivity.
Qed.

Lemma last_app fs gs p : last_written (fs ++ gs) p = match last_written gs p with Some b => Some b | None => last_written fs p end.
Proof.
  induction fs as [|[q b] fs IH]; cbn [app last_written]; [now destruct (last_written gs p)|].
  rewrite IH. destruct (last_written gs p); [reflexivity|]. reflexivity.
Qed.
Lemma disk_with_nil d : disk_with d d []. Proof. intros p. reflexivity. Qed.
Lemma disk_with_app d d1 d2 fs gs : disk_with d d1 fs -> disk_with d1 d2 gs -> disk_with d d2 (fs ++ gs).
Proof. intros H1 H2 p. rewrite H2, H1, last_app. destruct (last_written gs p); reflexivity. Qed.
Lemma last_in fs p b : last_written fs p = Some b -> In p (map fst fs).
Proof.
  induction fs as [|[q c] fs IH]; cbn; [discriminate|]. destruct (last_written fs p); [auto|].
  destruct (path_eqb q p) eqn:E; [apply path_eqb_eq in E; auto|discriminate].
Qed.
Lemma disk_with_same d d' fs p : disk_with d d' fs -> ~ In p (map fst fs) -> node_at d' p = node_at d p.
Proof. intros H Hn. rewrite H. destruct (last_written fs p) eqn:E; [|reflexivity]. now apply last_in in E. Qed.
Lemma disk_with_dir d d' fs p : disk_with d d' fs -> Forall (fun q => node_at d q <> Some Dir) (map fst fs) -> node_at d p = Some Dir <-> node_at d' p = Some Dir.
Proof.
  intros H HF. rewrite H. destruct (last_written fs p) eqn:E; [|tauto]. apply last_in in E. rewrite Forall_forall in HF. specialize (HF p E). split; congruence.
Qed.
Lemma creatable_not_dir d p : creatable d p -> node_at d p <> Some Dir.
Proof. intros (dir & n & -> & _ & H). exact H. Qed.
Lemma creatable_with d d' fs p : disk_with d d' fs -> Forall (creatable d) (map fst fs) -> creatable d p -> creatable d' p.
Proof.
  intros H HF (dir & n & -> & Hd & Hn). assert (HF' : Forall (fun q => node_at d q <> Some Dir) (map fst fs)).
  { eapply Forall_impl; [|exact HF]. intros q. apply creatable_not_dir. }
  exists dir, n. split; [reflexivity|]. split.
  - destruct Hd as [->|Hd]; [now left|]. right. now apply (disk_with_dir _ _ _ _ H HF').
  - intros E. apply Hn. now apply (disk_with_dir _ _ _ _ H HF').
Qed.

(** ** Saving a file *)
Lemma save_ok {A} d xs x bytes p (done : A) : In x xs -> sound d xs -> creatable d p -> ~ In p (mapped xs) ->
  exists d', save_file d x bytes p done = (d', Reply (let* _ := or_panic bytes in Ok done)) /\ disk_with d d' [(p, contents bytes)].
Proof.
  intros Hx HS Hc Hp. unfold save_file. rewrite (create_ok Hc). cbn [or_panic].
  assert (Hr : readable (put d p (File [])) x = true).
  { apply (sound_readable _ xs); [|exact Hx]. eapply sound_other; [exact HS|]. intros q Hq. apply node_put_other. congruence. }
  rewrite Hr. destruct bytes as [b|e]; cbn [contents].
  - cbn [or_panic obind]. eexists. split; [reflexivity|]. intros q. rewrite put_put_at. cbn [last_written]. now destruct (path_eqb p q).
  - destruct e; cbn [or_panic obind]; eexists; (split; [reflexivity|]); intros q; cbn [last_written]; destruct (path_eqb p q) eqn:E;
      first [apply path_eqb_eq in E; subst q; apply node_put_same | apply path_eqb_neq in E; apply node_put_other; congruence].
Qed.
Lemma save_none {A} d bytes p (done : A) : creatable d p ->
  exists d', save_file d None bytes p done = (d', Reply (let* _ := or_panic bytes in Ok done)) /\ disk_with d d' [(p, contents bytes)].
Proof. intros Hc. apply (save_ok d [None]); [now left| |exact Hc|cbn; tauto]. intros q b [H|[]]. discriminate. Qed.
(** saving over the file that is mapped *)
Lemma save_own {A} d p b bytes (done : A) : creatable d p -> b <> [] -> 
  save_file d (Some (p, b)) bytes p done = (put d p (File []), Crashed).
Proof.
  intros Hc Hb. unfold save_file. rewrite (create_ok Hc). cbn [or_panic].
  destruct (readable (put d p (File [])) (Some (p, b))) eqn:E; [|reflexivity].
  apply readable_iff in E. rewrite node_put_same in E. congruence.
Qed.

(** ** Opening *)
Lemma map_file_ok d p b : map_file d p = Ok b <-> node_at d p = Some (File b) /\ b <> [].
Proof.
  unfold map_file, read_file. destruct (node_at d p) as [[x|]|] eqn:E; cbn [or_panic obind oassert]; [|split; [discriminate|intros [H _]; congruence]..].
  destruct x as [|c x]; cbn; split; intros H; try congruence; try (destruct H; congruence). split; congruence.
Qed.

Section PyFiles.
  Context (m : mode) (fuel : nat) (usort : list (nat * Z) -> list (nat * Z)) (utf8 : list N -> option str)
          (json : str -> option str) (L : libm).

  Definition maps_of (o : open_index) : list (option mapping) := [oi_layers o; oi_elems o; oi_embs o].
  Lemma open_spec d et ip ep embp wp o : open_at utf8 json d et ip ep embp wp = Ok o ->
    exists index elements, oi_layers o = Some (ip, index) /\ oi_elems o = Some (ep, elements) /\ index <> [] /\ elements <> [] /\ sound d (maps_of o) /\
      match oi_embs o with Some (p, b) => embp = Some p /\ etype_of et = Some Words | None => etype_of et <> Some Words \/ embp = None end.
  Proof.
    unfold open_at. intros H. apply ob_ok in H as (index & E1 & H). apply ob_ok in H as (elements & E2 & H). apply ob_ok in H as (embs & E3 & H).
    apply ob_ok in H as (words & E4 & H). apply ob_ok in H as (q & E5 & H). injection H as <-.
    apply map_file_ok in E1 as [E1 N1]. apply map_file_ok in E2 as [E2 N2].
    exists index, elements. cbn [oi_layers oi_elems oi_embs]. split; [reflexivity|]. split; [reflexivity|]. split; [exact N1|]. split; [exact N2|].
    destruct embp as [p|], embs as [b|]; cbn [opt_map] in E3.
    - assert (Ew : etype_of et = Some Words) by (destruct (etype_of et) as [[]|]; cbn in E3; try discriminate; reflexivity).
      rewrite Ew in E3. cbn iota in E3. apply ob_ok in E3 as (b' & E3 & E). injection E as ->. apply map_file_ok in E3 as [E3 _].
      split; [|auto]. intros r c Hi. cbn in Hi. destruct Hi as [Hi|[Hi|[Hi|[]]]]; injection Hi as <- <-; assumption.
    - split; [intros r c Hi; cbn in Hi; destruct Hi as [Hi|[Hi|[Hi|[]]]]; try discriminate; injection Hi as <- <-; assumption|].
      left. intros Ew. rewrite Ew in E3. cbn iota in E3. apply ob_ok in E3 as (b' & _ & E). discriminate.
    - split; [intros r c Hi; cbn in Hi; destruct Hi as [Hi|[Hi|[Hi|[]]]]; try discriminate; injection Hi as <- <-; assumption|]. now right.
    - split; [intros r c Hi; cbn in Hi; destruct Hi as [Hi|[Hi|[Hi|[]]]]; try discriminate; injection Hi as <- <-; assumption|]. now right.
  Qed.

  (** ** Calls of an opened index *)
  Lemma can_read_sound d o c : sound d (maps_of o) -> can_read d o c = true.
  Proof.
    intros H. unfold can_read. rewrite (sound_readable d (maps_of o) (oi_layers o)), (sound_readable d (maps_of o) (oi_elems o)), (sound_readable d (maps_of o) (oi_embs o)) by (auto; cbn; auto).
    destruct (reads c) as [[[] []] []]; reflexivity.
  Qed.
  (** what is mapped after a call *)
  Lemma call_step d o c : sound d (maps_of o) -> Forall (fun p => creatable d p /\ ~ In p (index_files o)) (save_paths [c]) ->
    exists d' o', call_at m fuel d o c = (d', o', Reply (index_reply m fuel (oi_index o) c)) /\ oi_index o' = index_next m fuel (oi_index o) c /\
      disk_with d d' (index_writes m (oi_index o) c) /\ sound d' (maps_of o') /\ incl (index_files o') (index_files o).
  Proof.
    intros HS HF. pose proof (can_read_sound d o c HS) as Hr.
    destruct c; cbn [call_at index_reply index_next index_writes]; try rewrite Hr;
      try (exists d, o; split; [reflexivity|]; split; [reflexivity|]; split; [apply disk_with_nil|]; split; [exact HS|apply incl_refl]).
    - destruct (pi_reorder m fuel (oi_index o)) as [[q order]|e]; cbn [obind fst snd].
      + eexists d, _. split; [reflexivity|]. split; [reflexivity|]. split; [apply disk_with_nil|]. split.
        * intros p b Hi. apply HS. unfold maps_of in *. cbn [oi_layers oi_elems oi_embs] in Hi. cbn [In] in *. destruct (elems_copied q order); intuition congruence.
        * unfold index_files. intros p Hi. apply mapped_in in Hi as [b Hi]. apply mapped_in. exists b. cbn [oi_layers oi_elems oi_embs In] in *. destruct (elems_copied q order); intuition congruence.
      + exists d, o. split; [reflexivity|]. split; [reflexivity|]. split; [apply disk_with_nil|]. split; [exact HS|apply incl_refl].
    - cbn in HF. apply Forall_inv in HF as [Hc Hp].
      destruct (save_ok d (maps_of o) (oi_layers o) (pi_save_index m (oi_index o)) p AnNone ltac:(cbn; auto) HS Hc Hp) as (d' & E & Hd).
      rewrite E. exists d', o. split; [reflexivity|]. split; [reflexivity|]. split; [exact Hd|]. split; [|apply incl_refl].
      eapply sound_other; [exact HS|]. intros q Hq. apply (disk_with_same _ _ _ _ Hd). cbn. intros [->|[]]. auto.
    - cbn in HF. apply Forall_inv in HF as [Hc Hp].
      destruct (save_ok d (maps_of o) (oi_elems o) (Ok (pi_save_elements (oi_index o))) p AnNone ltac:(cbn; auto) HS Hc Hp) as (d' & E & Hd).
      rewrite E. exists d', o. split; [reflexivity|]. split; [reflexivity|]. split; [exact Hd|]. split; [|apply incl_refl].
      eapply sound_other; [exact HS|]. intros q Hq. apply (disk_with_same _ _ _ _ Hd). cbn. intros [->|[]]. auto.
  Qed.
  Lemma writes_paths q c : map fst (index_writes m q c) = save_paths [c].
  Proof using. now destruct c. Qed.
  Lemma save_paths_cons c cs : save_paths (c :: cs) = save_paths [c] ++ save_paths cs.
  Proof using. unfold save_paths. cbn [flat_map]. now rewrite app_nil_r. Qed.
  Lemma calls_step : forall cs d o, sound d (maps_of o) -> Forall (fun p => creatable d p /\ ~ In p (index_files o)) (save_paths cs) ->
    exists d' o', calls_at m fuel d o cs = (d', o', map Reply (index_replies m fuel (oi_index o) cs)) /\ oi_index o' = index_after m fuel (oi_index o) cs /\
      disk_with d d' (index_files_written m fuel (oi_index o) cs) /\ sound d' (maps_of o') /\ incl (index_files o') (index_files o).
  Proof.
    induction cs as [|c cs IH]; intros d o HS HF.
    - exists d, o. split; [reflexivity|]. split; [reflexivity|]. split; [apply disk_with_nil|]. split; [exact HS|apply incl_refl].
    - rewrite save_paths_cons in HF. apply Forall_app in HF as [HF1 HF2].
      destruct (call_step d o c HS HF1) as (d1 & o1 & E1 & Eq & Hd & HS1 & Hi).
      destruct (IH d1 o1 HS1) as (d2 & o2 & E2 & Eq2 & Hd2 & HS2 & Hi2).
      { eapply Forall_impl; [|exact HF2]. intros p [Hc Hp]. split; [|intros H; apply Hp; now apply Hi].
        eapply creatable_with; [exact Hd| |exact Hc]. rewrite writes_paths. eapply Forall_impl; [|exact HF1]. intros r Hr; exact (proj1 Hr). }
      cbn [calls_at index_replies index_files_written map]. rewrite E1, E2. exists d2, o2. rewrite Eq. split; [reflexivity|].
      split; [rewrite Eq2, Eq; reflexivity|]. split; [rewrite <- Eq; eapply disk_with_app; eauto|]. split; [exact HS2|]. eapply incl_tran; eauto.
  Qed.

  (** ** Builders *)
  Definition b_maps_of (o : open_builder) : list (option mapping) := [ob_elems o; ob_embs o].
  Lemma builder_open_spec d et ep embp wp ip opts o : builder_at m fuel usort utf8 json L d et ep embp wp ip opts = Ok o ->
    sound d (b_maps_of o) /\
    match ep with Some p => exists b, ob_elems o = Some (p, b) /\ b <> [] | None => ob_elems o = None end /\
    incl (builder_files o) (match ep with Some p => [p] | None => [] end ++ match embp with Some p => [p] | None => [] end).
  Proof.
    unfold builder_at. intros H. apply ob_ok in H as (index & E1 & H). apply ob_ok in H as (elements & E2 & H). apply ob_ok in H as (embs & E3 & H).
    apply ob_ok in H as (words & E4 & H). apply ob_ok in H as (q & E5 & H). injection H as <-.
    assert (H2 : match ep, elements with Some p, Some b => node_at d p = Some (File b) /\ b <> [] | None, None => True | _, _ => False end).
    { destruct ep as [p|]; cbn [opt_map] in E2.
      - apply ob_ok in E2 as (b & E2 & E). injection E as <-. now apply map_file_ok in E2.
      - injection E2 as <-. exact I. }
    assert (H3 : match embp, embs with Some p, Some b => node_at d p = Some (File b) | None, Some _ => False | _, _ => True end).
    { destruct embp as [p|]; cbn [opt_map] in E3; destruct (etype_of et) as [[]|]; cbn iota in E3; try (injection E3 as <-; exact I).
      apply ob_ok in E3 as (b & E3 & E). injection E as <-. now apply map_file_ok in E3. }
    unfold b_maps_of, builder_files, mapped. cbn [ob_elems ob_embs].
    destruct ep as [p|], elements as [b|]; try tauto; destruct embp as [p'|], embs as [b'|]; try tauto; cbn [flat_map app];
      (split; [intros r c Hi; cbn in Hi; intuition (try discriminate; try congruence)|]); (split; [first [exists b; tauto|reflexivity]|]); intros r Hr; cbn in *; tauto.
  Qed.
  Lemma b_can_read_sound d o c : sound d (b_maps_of o) -> b_can_read d o c = true.
  Proof.
    intros H. unfold b_can_read. rewrite (sound_readable d (b_maps_of o) (ob_elems o)), (sound_readable d (b_maps_of o) (ob_embs o)) by (auto; cbn; auto).
    destruct (b_reads c) as [[] []]; reflexivity.
  Qed.
  Lemma b_call_step d o c : sound d (b_maps_of o) -> Forall (fun p => creatable d p /\ ~ In p (builder_files o)) (b_save_paths [c]) ->
    exists d' o', b_call_at m fuel usort d o c = (d', o', Reply (builder_reply m fuel usort (ob_builder o) c)) /\ ob_builder o' = builder_next m fuel usort (ob_builder o) c /\
      disk_with d d' (builder_writes m (ob_builder o) c) /\ sound d' (b_maps_of o') /\ incl (builder_files o') (builder_files o).
  Proof.
    intros HS HF. pose proof (b_can_read_sound d o c HS) as Hr.
    destruct c; cbn [b_call_at builder_reply builder_next builder_writes]; try rewrite Hr;
      try (exists d, o; split; [reflexivity|]; split; [reflexivity|]; split; [apply disk_with_nil|]; split; [exact HS|apply incl_refl]).
    - destruct (pb_append m fuel usort (ob_builder o) element) as [b|e]; cbn [obind].
      + eexists d, _. split; [reflexivity|]. split; [reflexivity|]. split; [apply disk_with_nil|]. split.
        * intros p x Hi. apply HS. cbn in *. intuition congruence.
        * intros p Hi. apply mapped_in in Hi as [x Hi]. apply mapped_in. exists x. cbn in *. intuition congruence.
      + exists d, o. split; [reflexivity|]. split; [reflexivity|]. split; [apply disk_with_nil|]. split; [exact HS|apply incl_refl].
    - destruct (pb_build m fuel usort steps (ob_builder o) num_elements sched) as [b|e]; cbn [obind].
      + eexists d, _. split; [reflexivity|]. split; [reflexivity|]. split; [apply disk_with_nil|]. split; [exact HS|apply incl_refl].
      + exists d, o. split; [reflexivity|]. split; [reflexivity|]. split; [apply disk_with_nil|]. split; [exact HS|apply incl_refl].
    - cbn in HF. apply Forall_inv in HF as [Hc Hp].
      destruct (save_none d (pb_save_index m (ob_builder o)) p AnNone Hc) as (d' & E & Hd).
      rewrite E. exists d', o. split; [reflexivity|]. split; [reflexivity|]. split; [exact Hd|]. split; [|apply incl_refl].
      eapply sound_other; [exact HS|]. intros q Hq. apply (disk_with_same _ _ _ _ Hd). cbn. intros [->|[]]. auto.
    - cbn in HF. apply Forall_inv in HF as [Hc Hp].
      destruct (save_ok d (b_maps_of o) (ob_elems o) (Ok (pb_save_elements (ob_builder o))) p AnNone ltac:(cbn; auto) HS Hc Hp) as (d' & E & Hd).
      rewrite E. exists d', o. split; [reflexivity|]. split; [reflexivity|]. split; [exact Hd|]. split; [|apply incl_refl].
      eapply sound_other; [exact HS|]. intros q Hq. apply (disk_with_same _ _ _ _ Hd). cbn. intros [->|[]]. auto.
  Qed.
  Lemma b_writes_paths b c : map fst (builder_writes m b c) = b_save_paths [c].
  Proof using. now destruct c. Qed.
  Lemma b_save_paths_cons c cs : b_save_paths (c :: cs) = b_save_paths [c] ++ b_save_paths cs.
  Proof using. unfold b_save_paths. cbn [flat_map]. now rewrite app_nil_r. Qed.
  Lemma b_calls_step : forall cs d o, sound d (b_maps_of o) -> Forall (fun p => creatable d p /\ ~ In p (builder_files o)) (b_save_paths cs) ->
    exists d' o', b_calls_at m fuel usort d o cs = (d', o', map Reply (builder_replies m fuel usort (ob_builder o) cs)) /\
      ob_builder o' = builder_after m fuel usort (ob_builder o) cs /\
      disk_with d d' (builder_files_written m fuel usort (ob_builder o) cs) /\ sound d' (b_maps_of o') /\ incl (builder_files o') (builder_files o).
  Proof.
    induction cs as [|c cs IH]; intros d o HS HF.
    - exists d, o. split; [reflexivity|]. split; [reflexivity|]. split; [apply disk_with_nil|]. split; [exact HS|apply incl_refl].
    - rewrite b_save_paths_cons in HF. apply Forall_app in HF as [HF1 HF2].
      destruct (b_call_step d o c HS HF1) as (d1 & o1 & E1 & Eq & Hd & HS1 & Hi).
      destruct (IH d1 o1 HS1) as (d2 & o2 & E2 & Eq2 & Hd2 & HS2 & Hi2).
      { eapply Forall_impl; [|exact HF2]. intros p [Hc Hp]. split; [|intros H; apply Hp; now apply Hi].
        eapply creatable_with; [exact Hd| |exact Hc]. rewrite b_writes_paths. eapply Forall_impl; [|exact HF1]. intros r Hr; exact (proj1 Hr). }
      cbn [b_calls_at builder_replies builder_files_written map]. rewrite E1, E2. exists d2, o2. rewrite Eq. split; [reflexivity|].
      split; [rewrite Eq2, Eq; reflexivity|]. split; [rewrite <- Eq; eapply disk_with_app; eauto|]. split; [exact HS2|]. eapply incl_tran; eauto.
  Qed.
End PyFiles.
