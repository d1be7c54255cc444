(** * Proofs about disks, continued: lines, directories, parsing, the loop over shards *)
From Coq Require Import String Ascii.
From Verif Require Import Base BaseFacts Bytes PBytes MSliceVec SSliceVec PFixed PVar MSearch MBuild MEmbed SEmbed PEmbed PEmbed2 MJson PJson MParse SParse PParse PParse2 PParse3 MFiles SFiles PFiles.
Set Implicit Arguments. Unset Strict Implicit.
Local Notation length := List.length.

(** ** Lines *)
Lemma strip_return_crlf l : strip_return (l ++ [RETURN]) = l.
Proof. unfold strip_return. rewrite rev_app_distr. cbn [rev app]. rewrite N.eqb_refl. now rewrite rev_involutive. Qed.
Lemma lines_last cur l : ~ In NEWLINE l -> rev cur ++ l <> [] -> lines_from cur l = [rev cur ++ l].
Proof.
  revert cur; induction l as [|c l IH]; intros cur Hn Hne; cbn [lines_from].
  - rewrite app_nil_r in *. destruct cur; [now destruct Hne|reflexivity].
  - destruct (N.eqb_spec c NEWLINE) as [->|_]; [exfalso; apply Hn; now left|].
    assert (E : rev (c :: cur) ++ l = rev cur ++ c :: l) by (cbn [rev]; now rewrite <- app_assoc).
    rewrite IH; rewrite ?E; auto. intros H. apply Hn. now right.
Qed.
Lemma lines_reads t ls : reads_as t ls -> lines t = ls.
Proof.
  unfold lines. induction 1 as [|l t ls [H1 H2] _ IH|l t ls H1 _ IH|l H1 H2].
  - reflexivity.
  - change (l ++ 10%N :: t) with (l ++ NEWLINE :: t). rewrite lines_line by auto. cbn [rev app]. now rewrite strip_return_id, IH.
  - change (13%N :: 10%N :: t) with (RETURN :: NEWLINE :: t). replace (l ++ RETURN :: NEWLINE :: t) with ((l ++ [RETURN]) ++ NEWLINE :: t) by (now rewrite <- app_assoc).
    rewrite lines_line. 2: { intros H. apply in_app_or in H as [H|[H|[]]]; [auto|discriminate]. }
    cbn [rev app]. now rewrite strip_return_crlf, IH.
  - apply lines_last; auto.
Qed.
(** every text has lines *)
Lemma reads_exists t : exists ls, reads_as t ls.
Proof.
  assert (G : forall n t, length t <= n -> exists ls, reads_as t ls).
  { clear. induction n as [|n IH]; intros t Hl.
    - destruct t; [|cbn in Hl; lia]. exists []. constructor.
    - destruct (in_dec N.eq_dec 10%N t) as [Hin|Hno].
      + assert (S1 : exists l r, t = l ++ 10%N :: r /\ ~ In 10%N l).
        { clear -Hin. induction t as [|c t IH]; [destruct Hin|]. destruct (N.eq_dec c 10) as [->|Hc].
          - exists [], t. split; auto.
          - destruct Hin as [H|H]; [congruence|]. destruct (IH H) as (l & r & -> & Hr). exists (c :: l), r. split; auto. intros [H1|H1]; auto. }
        destruct S1 as (l & r & -> & Hl0). rewrite app_length in Hl. cbn [length] in Hl. destruct (IH r ltac:(lia)) as [ls Hls].
        destruct (rev l) as [|c rl] eqn:El.
        * apply (f_equal (@rev N)) in El. rewrite rev_involutive in El. cbn in El. subst l. exists ([] :: ls). apply line_lf; auto.
          split; auto. intros s. destruct s; discriminate.
        * apply (f_equal (@rev N)) in El. rewrite rev_involutive in El. cbn [rev] in El. destruct (N.eq_dec c 13) as [->|Hc].
          -- subst l. exists (rev rl :: ls). rewrite <- app_assoc. cbn [app]. apply line_crlf; auto.
             intros H. apply Hl0. apply in_or_app. now left.
          -- exists (l :: ls). apply line_lf; auto. split; auto. intros s Hs. subst l. apply app_inj_tail in Hs. destruct Hs. auto.
      + destruct t as [|c t]; [exists []; constructor|]. exists [c :: t]. apply last_line; auto. discriminate. }
  apply (G (length t)). auto.
Qed.
Lemma reads_fun t a b : reads_as t a -> reads_as t b -> a = b.
Proof. intros H1 H2. apply lines_reads in H1, H2. congruence. Qed.

Section J.
  Context (dec : str -> option str).
  Lemma parse_file_lines wm f ls els : reads_as f ls -> Forall2 (line_element dec (wmap_get wm)) ls els -> ids_fit els ->
    parse_file dec f wm = Ok (vw_of (map (map enc_id) els)).
  Proof. intros Hl H Hf. unfold parse_file. rewrite (lines_reads Hl). now apply (@parse_fold dec wm ls els []). Qed.

  Lemma extend_parts (parts : list (list (list nat))) : ids_fit (concat parts) ->
    ofold (fun els q => els_extend els q) (map (fun p => vw_of (map (map enc_id) p)) parts) vw_new = Ok (vw_of (map (map enc_id) (concat parts))).
  Proof.
    intros Hf.
    replace (map (fun p => vw_of (map (map enc_id) p)) parts) with (map (@vw_of _) (map (map (map enc_id)) parts)) by (now rewrite map_map).
    change (@vw_new emb_id) with (vw_of (@nil (list emb_id))). rewrite extend_fold; cbn [app].
    - f_equal. f_equal. symmetry. apply concat_map.
    - rewrite <- concat_map. apply total_enc. apply Hf.
  Qed.
  Lemma json_lines_reads t wl ws : reads_as t wl -> Forall2 (fun l w => dec l = Some w) wl ws -> json_lines dec t = Ok ws.
  Proof.
    intros Hl H. unfold json_lines. rewrite (lines_reads Hl). clear Hl.
    induction H as [|l w wl ws Hw _ IH]; [reflexivity|]. cbn [omapM]. rewrite Hw. cbn [ounwrap obind]. now rewrite IH.
  Qed.
End J.

(** ** Directories *)
Lemma name_leb_lt a b : name_leb a b = false -> name_lt b a.
Proof.
  revert b; induction a as [|x a IH]; intros [|y b]; cbn [name_leb]; try discriminate.
  - intros _. constructor.
  - destruct (N.ltb_spec x y); [discriminate|]. destruct (N.eqb_spec x y) as [->|].
    + intros H1. apply lt_next. now apply IH.
    + intros _. apply lt_byte. lia.
Qed.
Lemma name_leb_le a b : name_leb a b = true -> a <> b -> name_lt a b.
Proof.
  revert b; induction a as [|x a IH]; intros [|y b]; cbn [name_leb]; try discriminate; try congruence.
  - constructor.
  - destruct (N.ltb_spec x y); [now constructor|]. destruct (N.eqb_spec x y) as [->|]; [|discriminate].
    intros H1 H2. apply lt_next. apply IH; auto. congruence.
Qed.
Lemma name_lt_irrefl a : ~ name_lt a a.
Proof. induction a as [|x a IH]; intros H; inversion H; subst; auto. lia. Qed.
Lemma name_lt_trans a b c : name_lt a b -> name_lt b c -> name_lt a c.
Proof.
  intros H; revert c; induction H as [y b|x y a b Hxy|x a b _ IH]; intros c Hc; inversion Hc; subst; try (now constructor).
  - constructor. lia.
  - apply lt_next. now apply IH.
Qed.

Lemma insert_name_in n l x : In x (insert_name n l) <-> x = n \/ In x l.
Proof.
  induction l as [|m t IH]; cbn [insert_name]; [cbn; intuition congruence|].
  destruct (name_leb n m); cbn [In]; [intuition congruence|]. rewrite IH. intuition congruence.
Qed.
Lemma sort_names_in l x : In x (sort_names l) <-> In x l.
Proof. unfold sort_names. induction l as [|n l IH]; [reflexivity|]. cbn [fold_right]. rewrite insert_name_in, IH. cbn [In]. intuition congruence. Qed.
Lemma insert_sorted n l : ~ In n l -> StronglySorted name_lt l -> StronglySorted name_lt (insert_name n l).
Proof.
  intros Hn H. induction H as [|m t Hs IH Hm]; cbn [insert_name]; [repeat constructor|].
  destruct (name_leb n m) eqn:E.
  - assert (name_lt n m) by (apply name_leb_le; auto; intros ->; apply Hn; now left).
    constructor; [now constructor|]. constructor; auto. eapply Forall_impl; [|exact Hm]. intros a Ha. eapply name_lt_trans; eauto.
  - apply name_leb_lt in E. constructor; [apply IH; intros Hi; apply Hn; now right|].
    apply Forall_forall. intros x Hx. apply insert_name_in in Hx as [->|Hx]; [exact E|]. rewrite Forall_forall in Hm. auto.
Qed.
Lemma sort_sorted l : NoDup l -> StronglySorted name_lt (sort_names l).
Proof.
  unfold sort_names. induction 1 as [|n l Hn _ IH]; [constructor|]. cbn [fold_right]. apply insert_sorted; auto.
  intros H. apply Hn. now apply sort_names_in.
Qed.
Lemma sorted_unique a b : StronglySorted name_lt a -> StronglySorted name_lt b -> (forall x, In x a <-> In x b) -> a = b.
Proof.
  intros Ha; revert b; induction Ha as [|x a Ha IH Hx]; intros b Hb H.
  - destruct b as [|y b]; auto. destruct (proj2 (H y)). now left.
  - destruct Hb as [|y b Hb Hy]; [destruct (proj1 (H x)); now left|].
    rewrite Forall_forall in Hx, Hy.
    assert (x = y).
    { destruct (proj1 (H x) (or_introl eq_refl)) as [E|E]; auto. destruct (proj2 (H y) (or_introl eq_refl)) as [E2|E2]; auto.
      exfalso. apply (@name_lt_irrefl x). eapply name_lt_trans; [apply Hx; exact E2|apply Hy; exact E]. }
    subst y. f_equal. apply IH; auto. intros z. specialize (H z). cbn [In] in H. split; intros Hz.
    + destruct (proj1 H (or_intror Hz)) as [<-|]; auto. exfalso. apply (@name_lt_irrefl x). auto.
    + destruct (proj2 H (or_intror Hz)) as [<-|]; auto. exfalso. apply (@name_lt_irrefl x). auto.
Qed.

Lemma node_at_in d p x : node_at d p = Some x -> In (p, x) d.
Proof.
  induction d as [|[q n] d IH]; [discriminate|]. cbn [node_at]. destruct (path_eqb q p) eqn:E.
  - apply path_eqb_eq in E. intros H. left. congruence.
  - right. auto.
Qed.
Lemma in_node_at d p : In p (map fst d) -> exists x, node_at d p = Some x.
Proof.
  induction d as [|[q n] d IH]; [intros []|]. cbn [node_at map fst]. intros [->|H].
  - rewrite path_eqb_refl. eauto.
  - destruct (path_eqb q p); eauto.
Qed.
Lemma child_of_in dir p n : In n (child_of dir p) <-> p = dir ++ [Name n].
Proof.
  unfold child_of. destruct (file_name p) as [k|] eqn:E.
  - apply file_name_some in E as [q ->]. rewrite removelast_last. destruct (path_eqb q dir) eqn:E2.
    + apply path_eqb_eq in E2. subst q. cbn [In]. split; [intros [->|[]]; auto|]. intros H. apply app_inj_tail in H as [_ H]. left. congruence.
    + apply path_eqb_neq in E2. split; [intros []|]. intros H. apply app_inj_tail in H as [H _]. congruence.
  - split; [intros []|]. intros ->. now rewrite file_name_app in E.
Qed.
Lemma children_in d dir n : In n (children d dir) <-> exists x, node_at d (dir ++ [Name n]) = Some x.
Proof.
  unfold children. rewrite in_flat_map. split.
  - intros ([p x] & Hin & Hc). cbn [fst] in Hc. apply child_of_in in Hc. subst p. apply in_node_at. apply in_map_iff. now exists (dir ++ [Name n], x).
  - intros (x & H). apply node_at_in in H. exists (dir ++ [Name n], x). split; auto. now apply child_of_in.
Qed.
Lemma children_nodup d dir : disk_ok d -> NoDup (children d dir).
Proof.
  unfold disk_ok, children. induction d as [|[p x] d IH]; intros H; [constructor|]. cbn [map fst flat_map] in *. inversion H as [|? ? H1 H2]; subst.
  unfold child_of at 1. cbn [fst]. destruct (file_name p) as [n|] eqn:E; [|now apply IH].
  destruct (path_eqb (removelast p) dir) eqn:E2; [|now apply IH]. cbn [app]. constructor; [|now apply IH].
  apply path_eqb_eq in E2. apply file_name_some in E as [q ->]. rewrite removelast_last in E2. subst q.
  intros Hin. apply H1. apply in_flat_map in Hin as ([p y] & Hp & Hc). apply child_of_in in Hc. cbn [fst] in Hc. subst p.
  apply in_map_iff. eexists. split; [|exact Hp]. reflexivity.
Qed.
Lemma listing_children d dir names : disk_ok d -> listing d dir names -> sort_names (children d dir) = names.
Proof.
  intros Hd [Hs Hn]. apply sorted_unique; auto.
  - apply sort_sorted. now apply children_nodup.
  - intros n. rewrite sort_names_in, children_in. now rewrite Hn.
Qed.
Lemma listing_exists d dir : disk_ok d -> exists names, listing d dir names.
Proof.
  intros Hd. exists (sort_names (children d dir)). split; [apply sort_sorted; now apply children_nodup|].
  intros n. now rewrite sort_names_in, children_in.
Qed.

  Lemma ends_gz_iff n : ends_gz n = true <-> exists s, n = s ++ text ".gz".
  Proof.
    unfold ends_gz. split.
    - destruct (rev n) as [|a [|b [|c r]]] eqn:E; try discriminate.
      intros H. rewrite !andb_true_iff, !N.eqb_eq in H. assert (E2 : a = 122%N /\ b = 103%N /\ c = 46%N) by tauto.
      destruct E2 as (-> & -> & ->). exists (rev r). apply (f_equal (@rev N)) in E. rewrite rev_involutive in E. rewrite E. cbn [rev].
        rewrite <- !app_assoc. reflexivity.
    - intros [s ->]. rewrite rev_app_distr. reflexivity.
  Qed.

Section U.
  Context (utf8 : list N -> option str) (gunzip : list N -> option (list N)) (dec : str -> option str).

  Lemma part_ok d p t wm ls els : part_text utf8 gunzip d p t -> reads_as t ls ->
    Forall2 (line_element dec (wmap_get wm)) ls els -> ids_fit els ->
    parse_part utf8 gunzip dec d wm p = Ok (vw_of (map (map enc_id) els)).
  Proof.
    intros (b & u & Hb & Hp & Hu & Hz) Hr Hl Hf. unfold parse_part, read_file. rewrite Hb. cbn [or_panic obind].
    rewrite (proj2 (path_valid_iff utf8 p) Hp). cbn [oassert obind].
    assert (E : match file_name p with Some n => if ends_gz n then ounwrap (gunzip b) else Ok b | None => Ok b end = Ok u).
    { destruct Hz as [[(q & s & ->) Hg]|[Hno ->]].
      - rewrite file_name_app. rewrite (proj2 (ends_gz_iff (s ++ text ".gz"))) by eauto. now rewrite Hg.
      - destruct (file_name p) as [n|] eqn:En; auto. destruct (ends_gz n) eqn:Eg; auto. exfalso.
        apply file_name_some in En as [q ->]. apply ends_gz_iff in Eg as [s ->]. now apply (Hno q s). }
    rewrite E. cbn [obind]. rewrite Hu. cbn [ounwrap obind]. now apply (parse_file_lines Hr).
  Qed.

  Lemma elements_ok d p wm ids els : disk_ok d -> elements_at utf8 gunzip dec d p ids els -> (forall w, wmap_get wm w = ids w) -> ids_fit els ->
    parse_elements_at utf8 gunzip dec d p wm = Ok (vw_of (map (map enc_id) els)).
  Proof.
    intros Hd (ts & files & prts & Ht & Hr & Hl & ->) Hg Hf. unfold parse_elements_at.
    assert (Hl' : Forall2 (Forall2 (line_element dec (wmap_get wm))) files prts).
    { clear -Hl Hg. induction Hl as [|a b l l' H _ IH]; constructor; auto. clear -H Hg.
      induction H as [|x y l l' H _ IH]; constructor; auto. eapply line_element_ext; [|exact H]. auto. }
    assert (Hps : Forall2 (fun q t => part_text utf8 gunzip d q t) (parts d p) ts).
    { unfold parts. destruct Ht as [(H1 & names & H2 & H3)|(H1 & t & H2 & ->)].
      - rewrite (proj2 (is_dir_iff d p) H1), (listing_children Hd H2). clear -H3. induction H3; constructor; auto.
      - rewrite (is_dir_not H1). repeat constructor. exact H2. }
    assert (Hall : forall q, In q prts -> ids_fit q) by (intros q Hq; eapply ids_fit_part; eauto).
    assert (E : omapM (parse_part utf8 gunzip dec d wm) (parts d p) = Ok (map (fun p => vw_of (map (map enc_id) p)) prts)).
    { clear Hf Ht Hl. revert files prts Hr Hl' Hall. induction Hps as [|q t qs ts Hq _ IH]; intros files prts Hr Hl Hall.
      - inversion Hr; subst. inversion Hl; subst. reflexivity.
      - inversion Hr as [|? ls ? files' Hr1 Hr2]; subst. inversion Hl as [|? e ? es Hl1 Hl2]; subst. cbn [omapM map].
        rewrite (part_ok Hq Hr1 Hl1) by (apply Hall; now left). cbn [obind]. rewrite (IH files' es); auto. intros x Hx. apply Hall. now right. }
    rewrite E. cbn [obind]. now apply extend_parts.
  Qed.
  Lemma words_ok d p ids : words_at utf8 dec d p ids -> exists wm, parse_words_at utf8 dec d p = Ok wm /\ forall w, wmap_get wm w = ids w.
  Proof.
    intros (b & t & wl & ws & H1 & H2 & H3 & H4 & H5). exists (wmap_of ws). split.
    - unfold parse_words_at, read_file. rewrite H1. cbn [or_panic obind]. rewrite H2. cbn [ounwrap obind]. unfold parse_words. now rewrite (json_lines_reads H3 H4).
    - intros w. eapply last_id_fun; [apply wmap_of_last|apply H5].
  Qed.

  (** ** The loop over the shards *)
  Context (HU : utf8_ok utf8).
  Lemma shards_loop els out show size : utf8_path utf8 out -> file_name out <> None \/ True ->
    forall shards d, NoDup shards -> (node_at d out = Some Dir \/ file_name out <> None) ->
      (forall i p, In i shards -> shard_file d out i p -> creatable d p) ->
      exists d', shards_at utf8 d els out show size shards = (d', snd (write_shards els size shards)) /\
        (forall k i p f, nth_error shards k = Some i -> nth_error (fst (write_shards els size shards)) k = Some f -> shard_file d out i p -> node_at d' p = Some (File f)) /\
        (forall q, (forall k i, nth_error shards k = Some i -> k < length (fst (write_shards els size shards)) -> ~ shard_file d out i q) -> node_at d' q = node_at d q).
  Proof.
    intros Hu _. induction shards as [|s rest IH]; intros d Hnd Hn Hc.
    - exists d. split; [reflexivity|]. split; [intros [|k]; discriminate|auto].
    - cbn [shards_at write_shards]. destruct (@shard_name_ok utf8 HU d out s Hu Hn) as (p & -> & Hp & Hpu).
      rewrite (proj2 (path_valid_iff utf8 p) Hpu). cbn [negb]. rewrite andb_false_r.
      rewrite (create_ok (Hc s p (or_introl eq_refl) Hp)).
      assert (Hpo : p <> out) by (eapply shard_file_not_out; eauto).
      inversion Hnd as [|? ? Hs Hnd']; subst.
      destruct (vw_write_range five_byte id_repr els (s * size) (Nat.min ((s + 1) * size) (vw_len els))) as [w|x].
      2: { exists (put d p (File [])). split; [reflexivity|]. split.
           - intros [|k] i q f H1 H2 H3; cbn [fst nth_error] in *; [|destruct k; discriminate].
             injection H1 as <-. injection H2 as <-. rewrite (shard_file_fun H3 Hp). apply node_put_same.
           - intros q Hq. apply node_put_other. intros ->. apply (Hq 0 s); [reflexivity|cbn; lia|exact Hp]. }
      set (d2 := put (put d p (File [])) p (File (fst w))).
      assert (N2 : forall q, q <> p -> node_at d2 q = node_at d q) by (intros q Hq; unfold d2; now rewrite !node_put_other).
      assert (Hout : node_at d2 out = node_at d out) by (apply N2; congruence).
      assert (Hiff : node_at d out = Some Dir <-> node_at d2 out = Some Dir) by (rewrite Hout; tauto).
      destruct (IH d2 Hnd') as (d' & E & Hf & Hs2).
      + rewrite Hout. exact Hn.
      + intros i q Hi Hq. apply (@shard_file_same d2 d) in Hq; [|tauto].
        destruct (Hc i q (or_intror Hi) Hq) as (dir & n & -> & Hdir & Hnd2).
        destruct (shard_file_dir Hq) as [n1 E1]. destruct (shard_file_dir Hp) as [n2 E2]. apply app_inj_tail in E1 as [-> E1].
        exists (shard_dir d out), n. split; auto. split.
        * destruct Hdir as [Hdir|Hdir]; [now left|right]. rewrite N2; auto. rewrite E2. intros H. symmetry in H. now apply app_one_ne in H.
        * destruct (list_eq_dec comp_dec (shard_dir d out ++ [Name n]) p) as [->|Hne]; [|now rewrite N2].
          unfold d2. rewrite node_put_same. discriminate.
      + destruct (write_shards els size rest) as [fs r] eqn:Ew. cbn [fst snd] in *. exists d'. split; [exact E|]. split.
        * intros [|k] i q f H1 H2 H3; cbn [nth_error] in *.
          -- injection H1 as <-. injection H2 as <-. rewrite (shard_file_fun H3 Hp). rewrite Hs2.
             ++ unfold d2. apply node_put_same.
             ++ intros k i Hk _ Hq. apply (@shard_file_same d2 d) in Hq; [|tauto]. assert (i = s) by (eapply shard_file_inj; eauto). subst i.
                apply Hs. eapply nth_error_In; eauto.
          -- eapply Hf; eauto. eapply shard_file_same; [|exact H3]. exact Hiff.
        * intros q Hq. rewrite Hs2.
          -- apply N2. intros ->. apply (Hq 0 s); [reflexivity|cbn; lia|exact Hp].
          -- intros k i Hk Hlt Hsf. apply (Hq (Datatypes.S k) i); [exact Hk|cbn; lia|]. eapply shard_file_same; [|exact Hsf]. tauto.
  Qed.
End U.
