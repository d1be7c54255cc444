(** * Proofs: lives of an index on disk *)
From Verif Require Import Base BaseFacts Bytes MSliceVec MIndexIo MSearch MBuild MReorder MLayerSize MEmbed MParse MFloat MFloatBits MAngular MPyIndex MFiles SFiles PFiles MPyFiles SPyReorder SPyFiles PPyFiles.
Open Scope nat_scope.

Lemma pi_open_nonempty json index et elements embs words q : pi_open json index et elements embs words = Ok q ->
  index <> [] /\ elements <> [] /\ (etype_of et = Some Words -> embs <> Some []).
Proof.
  intros H.
  assert (Hg : forall S (s : S) g, granne_from_file [] s = Ok g -> False).
  { intros S s g Hx. assert (E : exists e, load_layers [] = Fail e) by (eexists; vm_compute; reflexivity). destruct E as [e E].
    unfold granne_from_file in Hx. rewrite E in Hx. discriminate. }
  assert (Hf : exists e, fw_from_bytes f32r [] = Fail e) by (eexists; vm_compute; reflexivity).
  assert (Hi : exists e, fw_from_bytes i8r [] = Fail e) by (eexists; vm_compute; reflexivity).
  assert (He : exists e, els_from_bytes [] = Fail e) by (eexists; vm_compute; reflexivity).
  destruct Hf as [e1 Hf], Hi as [e2 Hi], He as [e3 He].
  unfold pi_open in H. destruct (etype_of et) as [[]|]; [| | |discriminate].
  - apply ob_ok in H as (v & E1 & H). apply ob_ok in H as (g & E2 & H). split; [intros ->; now apply (Hg _ v g)|]. split; [intros ->; congruence|discriminate].
  - apply ob_ok in H as (v & E1 & H). apply ob_ok in H as (g & E2 & H). split; [intros ->; now apply (Hg _ v g)|]. split; [intros ->; congruence|discriminate].
  - apply ob_ok in H as (b & E1 & H). apply ob_ok in H as (w & E2 & H). apply ob_ok in H as (v & E3 & H). apply ob_ok in H as (s & E4 & H). apply ob_ok in H as (g & E5 & H).
    split; [intros ->; now apply (Hg _ s g)|]. unfold se_from_files in E4. apply ob_ok in E4 as (a & E6 & E4). apply ob_ok in E4 as (c & E7 & E4).
    split; [intros ->; congruence|]. intros _ ->. cbn in E1. injection E1 as <-. congruence.
Qed.

Section Lives.
  Context (m : mode) (fuel : nat) (utf8 : list N -> option str) (json : str -> option str) (et : str) (embp wp : option path)
          (embs : option (list N)) (wtext : option str).

  Lemma open_at_eq d p q index elements x : bytes_given d embp embs -> text_given utf8 d wp wtext ->
    node_at d p = Some (File index) -> node_at d q = Some (File elements) -> pi_open json index et elements embs wtext = Ok x ->
    exists o, open_at utf8 json d et p q embp wp = Ok o /\ oi_index o = x /\ mapped [oi_layers o; oi_elems o] = [p; q] /\ incl (mapped [oi_embs o]) (given embp).
  Proof.
    intros Hb Ht Hp Hq Ex. destruct (pi_open_nonempty _ _ _ _ _ _ _ Ex) as (N1 & N2 & N3).
    unfold open_at. rewrite (proj2 (map_file_ok d p index)) by auto. cbn [obind]. rewrite (proj2 (map_file_ok d q elements)) by auto. cbn [obind].
    destruct (etype_of et) as [[]|] eqn:Ee; cbn iota.
    - cbn [obind]. assert (Ey : pi_open json index et elements None None = Ok x) by (rewrite <- Ex; unfold pi_open; now rewrite Ee).
      rewrite Ey. cbn [or_panic obind]. eexists. split; [reflexivity|]. cbn [oi_index oi_layers oi_elems oi_embs].
      split; [reflexivity|]. split; [reflexivity|]. destruct embp; intros r Hr; cbn in Hr; tauto.
    - cbn [obind]. assert (Ey : pi_open json index et elements None None = Ok x) by (rewrite <- Ex; unfold pi_open; now rewrite Ee).
      rewrite Ey. cbn [or_panic obind]. eexists. split; [reflexivity|]. cbn [oi_index oi_layers oi_elems oi_embs].
      split; [reflexivity|]. split; [reflexivity|]. destruct embp; intros r Hr; cbn in Hr; tauto.
    - assert (E1 : opt_map embp (map_file d) = Ok embs).
      { unfold bytes_given in Hb. destruct embp as [r|], embs as [b|]; try tauto. cbn [opt_map].
        assert (Hm : map_file d r = Ok b) by (apply map_file_ok; split; [exact Hb|]; intros ->; now apply N3).
        rewrite Hm. reflexivity. }
      assert (E2 : opt_map wp (words_text utf8 d) = Ok wtext).
      { unfold text_given in Ht. destruct wp as [r|], wtext as [t|]; try tauto. destruct Ht as (b & Hn & Hu). cbn [opt_map].
        unfold words_text, read_file. rewrite Hn. cbn [or_panic obind]. rewrite Hu. reflexivity. }
      rewrite E1. cbn [obind]. rewrite E2. cbn [obind]. rewrite Ex. cbn [or_panic obind]. eexists. split; [reflexivity|]. cbn [oi_index oi_layers oi_elems oi_embs].
      split; [reflexivity|]. split; [reflexivity|]. destruct embp as [r|], embs as [b|]; intros r' Hr; cbn in *; auto.
    - exfalso. unfold pi_open in Ex. rewrite Ee in Ex. discriminate.
  Qed.

  Lemma life_step : forall steps d0 d o files q' orders,
    index_life m fuel json et embs wtext (oi_index o) (map step_of steps) = Ok (q', orders) ->
    sound d (maps_of o) -> bytes_given d embp embs -> text_given utf8 d wp wtext ->
    incl (mapped [oi_layers o; oi_elems o]) files -> incl (mapped [oi_embs o]) (given embp) ->
    (forall p, creatable d0 p -> creatable d p) -> Forall (fun x => x <> []) orders ->
    steps_apart d0 files (given embp ++ given wp) steps ->
    exists d' o', disk_life m fuel utf8 json et embp wp d o steps = Some (Ok (d', o', orders)) /\ oi_index o' = q'.
  Proof.
    induction steps as [|[|p q] steps IH]; intros d0 d o files q' orders HL HS Hb Ht Hf He Hc HO HA; cbn [map step_of index_life] in HL.
    - injection HL as <- <-. exists d, o. split; reflexivity.
    - apply ob_ok in HL as ([q1 order] & E1 & HL). apply ob_ok in HL as ([q2 orders1] & E2 & HL). cbn [fst snd] in *. injection HL as <- <-.
      pose proof (Forall_inv HO) as Ho. apply Forall_inv_tail in HO.
      assert (Hco : elems_copied q1 order = true) by (unfold elems_copied; destruct order; [congruence|destruct q1; reflexivity]).
      cbn [disk_life call_at]. rewrite can_read_sound by exact HS. rewrite E1, Hco.
      destruct (IH d0 d (mkOpen q1 None None (oi_embs o)) [] q2 orders1 E2) as (d' & o' & E & Eq); auto.
      + intros r b Hi. apply HS. cbn in *. intuition congruence.
      + intros r Hr. cbn in Hr. tauto.
      + exists d', o'. rewrite E. split; [reflexivity|exact Eq].
    - apply ob_ok in HL as (index & E1 & HL). apply ob_ok in HL as (q1 & E2 & HL).
      cbn [steps_apart] in HA. destruct HA as (Hcp & Hcq & Hne & Hp & Hq & HA).
      assert (HF : Forall (fun p => creatable d p /\ ~ In p (index_files o)) (save_paths [CSaveIndex p; CSaveElements q])).
      { assert (Hin : forall r, In r (index_files o) -> In r (files ++ given embp ++ given wp)).
        { intros r Hr. unfold index_files in Hr. apply mapped_in in Hr as [b Hr]. cbn in Hr. apply in_or_app.
          destruct Hr as [Hr|[Hr|[Hr|[]]]]; [left; apply Hf; apply mapped_in; exists b; cbn; auto..|].
          right. apply in_or_app. left. apply He. apply mapped_in. exists b. cbn. auto. }
        constructor; [|constructor; [|constructor]]; (split; [auto|]); intros H; apply Hin in H; now auto. }
      destruct (calls_step m fuel utf8 json [CSaveIndex p; CSaveElements q] d o HS HF) as (d1 & o1 & E & Eq & Hd & HS1 & _).
      cbn [disk_life]. rewrite E. cbn [index_replies index_reply index_next map obind]. rewrite E1. cbn [or_panic obind query].
      cbn [index_files_written index_writes app index_next] in Hd. rewrite E1 in Hd. cbn [contents] in Hd.
      assert (Hother : forall r, In r (given embp ++ given wp) -> node_at d1 r = node_at d r).
      { intros r Hr. apply (disk_with_same _ _ _ _ Hd). cbn. intros [->|[->|[]]]; [apply Hp|apply Hq]; apply in_or_app; now right. }
      destruct (open_at_eq d1 p q index (pi_save_elements (oi_index o)) q1) as (o2 & Eo & Eq2 & Hf2 & He2); auto.
      + unfold bytes_given in *. destruct embp as [r|]; [|exact Hb]. rewrite Hother by (cbn; auto). exact Hb.
      + unfold text_given in *. destruct wp as [r|]; [|exact Ht]. rewrite Hother by (apply in_or_app; right; cbn; auto). exact Ht.
      + rewrite Hd. cbn [last_written]. rewrite (proj2 (path_eqb_neq q p)) by congruence. rewrite path_eqb_refl. reflexivity.
      + rewrite Hd. cbn [last_written]. rewrite path_eqb_refl. reflexivity.
      + rewrite Eo. apply (IH d0 d1 o2 [p; q] q' orders); auto.
        * rewrite Eq2. exact HL.
        * destruct (open_spec _ _ _ _ _ _ _ _ _ Eo) as (i & e & _ & _ & _ & _ & HSo & _). exact HSo.
        * unfold bytes_given in *. destruct embp as [r|]; [|exact Hb]. rewrite Hother by (cbn; auto). exact Hb.
        * unfold text_given in *. destruct wp as [r|]; [|exact Ht]. rewrite Hother by (apply in_or_app; right; cbn; auto). exact Ht.
        * rewrite Hf2. apply incl_refl.
        * intros r Hr. apply (creatable_with _ _ _ _ Hd); [|now apply Hc]. constructor; [now apply Hc|]. constructor; [now apply Hc|constructor].
  Qed.
End Lives.
