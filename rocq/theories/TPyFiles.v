(** * Theorems C84: saving from Python to files that are in use *)
From Coq Require Import ZArith.
From Verif Require Import Base BaseFacts Bytes MSliceVec SSliceVec MIndexIo MSearch SSearch MBuild MReorder MLayerSize MEmbed MParse MPyIndex MFiles SFiles PFiles MPyFiles SReorder SPyIndex SPyReorder SPyFiles PPyFiles PPyFiles2 PPyLife.
Open Scope nat_scope.

Section Index.
  Context (m : mode) (fuel : nat) (utf8 : list N -> option str) (json : str -> option str) (et : str) (d : disk)
          (ip ep : path) (embp wp : option path) (o : open_index).
  Hypothesis Hopen : open_at utf8 json d et ip ep embp wp = Ok o.

  Lemma opened_files : index_files o = ip :: ep :: mapped [oi_embs o] /\ incl (mapped [oi_embs o]) (given embp).
  Proof using Hopen.
    destruct (open_spec _ _ _ _ _ _ _ _ _ Hopen) as (i & e & E1 & E2 & _ & _ & _ & H).
    split; [unfold index_files, mapped; cbn [flat_map]; now rewrite E1, E2|].
    destruct (oi_embs o) as [[p b]|]; cbn; [|intros r []]. destruct H as [-> _]. intros r Hr. exact Hr.
  Qed.

  (** An index opened from files, and any calls: as long as no save goes to one of
      the files it was opened from, each call is answered as by an index in memory
      (MPyIndex.v), each file saved holds what was saved to it last, and no
      other file changes. *)
  Theorem C84_saves_elsewhere : forall cs,
    Forall (fun p => creatable d p /\ ~ In p (ip :: ep :: given embp)) (save_paths cs) ->
    exists d' o', calls_at m fuel d o cs = (d', o', map Reply (index_replies m fuel (oi_index o) cs)) /\
      oi_index o' = index_after m fuel (oi_index o) cs /\ disk_with d d' (index_files_written m fuel (oi_index o) cs).
  Proof using Hopen.
    intros cs HF. destruct (open_spec _ _ _ _ _ _ _ _ _ Hopen) as (i & e & _ & _ & _ & _ & HS & _). destruct opened_files as [Hf He].
    destruct (calls_step m fuel utf8 json cs d o HS) as (d' & o' & E & Eq & Hd & _).
    - eapply Forall_impl; [|exact HF]. intros p [Hc Hp]. split; [exact Hc|]. rewrite Hf. intros [H|[H|H]]; apply Hp; cbn; auto.
    - exists d', o'. auto.
  Qed.

  (** After [reorder] the index no longer needs the index file and the elements
      file: both can be saved over. *)
  Theorem C84_after_reorder : forall order d1 o1 cs,
    call_at m fuel d o CReorder = (d1, o1, Reply (Ok (AnIds order))) -> order <> [] ->
    Forall (fun p => creatable d p /\ ~ In p (given embp)) (save_paths cs) ->
    d1 = d /\ exists d' o', calls_at m fuel d o1 cs = (d', o', map Reply (index_replies m fuel (oi_index o1) cs)) /\
      oi_index o' = index_after m fuel (oi_index o1) cs /\ disk_with d d' (index_files_written m fuel (oi_index o1) cs).
  Proof using Hopen.
    intros order d1 o1 cs E Hne HF. destruct (open_spec _ _ _ _ _ _ _ _ _ Hopen) as (i & e & _ & _ & _ & _ & HS & _). destruct opened_files as [_ He].
    cbn [call_at] in E. rewrite can_read_sound in E by exact HS. destruct (pi_reorder m fuel (oi_index o)) as [[q order']|x]; [|discriminate].
    assert (order' = order) by congruence. subst order'.
    assert (Hco : elems_copied q order = true) by (unfold elems_copied; destruct order; [congruence|destruct q; reflexivity]). rewrite Hco in E.
    assert (E2 : o1 = mkOpen q None None (oi_embs o)) by congruence. split; [congruence|]. subst o1.
    destruct (calls_step m fuel utf8 json cs d (mkOpen q None None (oi_embs o))) as (d' & o' & E3 & Eq & Hd & _).
    - intros r b Hi. apply HS. cbn in *. intuition congruence.
    - eapply Forall_impl; [|exact HF]. intros p [Hc Hp]. split; [exact Hc|]. intros H. apply Hp. now apply He.
    - exists d', o'. auto.
  Qed.

  (** Saving an index over the file it was opened from kills the process and leaves
      an empty file; nothing can be opened from it. *)
  Theorem C84_own_index_refuted : creatable d ip ->
    exists d', call_at m fuel d o (CSaveIndex ip) = (d', o, Crashed) /\ node_at d' ip = Some (File []) /\
      (forall p, p <> ip -> node_at d' p = node_at d p) /\
      forall et ep embp wp, open_at utf8 json d' et ip ep embp wp = Fail Panicked.
  Proof using Hopen.
    intros Hc. destruct (open_spec _ _ _ _ _ _ _ _ _ Hopen) as (i & e & E1 & _ & Hi & _).
    exists (put d ip (File [])). cbn [call_at]. rewrite E1, (save_own _ _ _ _ _ Hc Hi). split; [reflexivity|].
    split; [apply node_put_same|]. split; [intros p Hp; now apply node_put_other|].
    intros. unfold open_at, map_file, read_file. rewrite node_put_same. reflexivity.
  Qed.
  Theorem C84_own_elements_refuted : creatable d ep ->
    exists d', call_at m fuel d o (CSaveElements ep) = (d', o, Crashed) /\ node_at d' ep = Some (File []) /\
      (forall p, p <> ep -> node_at d' p = node_at d p) /\
      forall et ip embp wp o', open_at utf8 json d' et ip ep embp wp <> Ok o'.
  Proof using Hopen.
    intros Hc. destruct (open_spec _ _ _ _ _ _ _ _ _ Hopen) as (i & e & _ & E2 & _ & Hi & _).
    exists (put d ep (File [])). cbn [call_at]. rewrite E2, (save_own _ _ _ _ _ Hc Hi). split; [reflexivity|].
    split; [apply node_put_same|]. split; [intros p Hp; now apply node_put_other|].
    intros et' ip' embp' wp' o' H. destruct (open_spec _ _ _ _ _ _ _ _ _ H) as (i' & e' & _ & E' & _ & N & HS & _).
    specialize (HS ep e' ltac:(cbn; rewrite E'; auto)). rewrite node_put_same in HS. congruence.
  Qed.
  (** Saving the index over the elements file, or over the embeddings file, is
      reported as a success; the next access to an element kills the process. *)
  Theorem C84_over_elements_refuted : forall p b idx,
    In p (mapped [oi_elems o; oi_embs o]) -> p <> ip -> creatable d p -> pi_save_index m (oi_index o) = Ok b -> node_at d p <> Some (File b) ->
    exists d', calls_at m fuel d o [CSaveIndex p; CGetElement idx] = (d', o, [Reply (Ok AnNone); Crashed]).
  Proof using Hopen.
    intros p b idx Hp Hne Hc Hb Hd. destruct (open_spec _ _ _ _ _ _ _ _ _ Hopen) as (i & e & E1 & E2 & _ & _ & HS & _).
    destruct (save_ok d [oi_layers o] (oi_layers o) (pi_save_index m (oi_index o)) p AnNone) as (d' & E & Hw).
    - now left.
    - intros r x [H|[]]. apply HS. cbn. auto.
    - exact Hc.
    - rewrite E1. cbn. intros [H|[]]; congruence.
    - exists d'. cbn [calls_at call_at]. rewrite E, Hb. cbn [or_panic obind].
      assert (Hx : exists x, In (Some (p, x)) [oi_elems o; oi_embs o]) by (now apply mapped_in in Hp).
      destruct Hx as [x Hx]. assert (Hn : readable d' (Some (p, x)) = false).
      { destruct (readable d' (Some (p, x))) eqn:Er; [|reflexivity]. apply readable_iff in Er. rewrite Hw in Er. cbn [last_written] in Er.
        rewrite path_eqb_refl, Hb in Er. cbn [contents] in Er. assert (x = b) by congruence. subst x.
        exfalso. apply Hd. apply HS. cbn in *. tauto. }
      unfold can_read. cbn [reads negb orb andb]. cbn [In] in Hx. destruct Hx as [Hx|[Hx|[]]]; rewrite Hx, Hn; cbn; rewrite ?andb_false_r; reflexivity.
  Qed.

  (** Reordered, or saved to two files and opened from them, any number of times, no
      save going to a file that is in use (after [reorder]: only embeddings and
      words are): what happens is what happens in memory. *)
  Theorem C84_lives : forall embs words steps q orders,
    bytes_given d embp embs -> text_given utf8 d wp words ->
    steps_apart d [ip; ep] (given embp ++ given wp) steps ->
    index_life m fuel json et embs words (oi_index o) (map step_of steps) = Ok (q, orders) -> Forall (fun x => x <> []) orders ->
    exists d' o', disk_life m fuel utf8 json et embp wp d o steps = Some (Ok (d', o', orders)) /\ oi_index o' = q.
  Proof using Hopen.
    intros embs words steps q orders Hb Ht HA HL HO. destruct (open_spec _ _ _ _ _ _ _ _ _ Hopen) as (i & e & E1 & E2 & _ & _ & HS & _).
    destruct opened_files as [_ He].
    eapply (life_step m fuel utf8 json et embp wp embs words steps d d o [ip; ep]); eauto.
    unfold mapped. cbn [flat_map]. rewrite E1, E2. apply incl_refl.
  Qed.
End Index.
Print Assumptions C84_saves_elsewhere.
Print Assumptions C84_after_reorder.
Print Assumptions C84_own_index_refuted.
Print Assumptions C84_own_elements_refuted.
Print Assumptions C84_over_elements_refuted.
Print Assumptions C84_lives.

(** With C71, which says what to expect of the index in memory
    ([reorders_well]): an index of [values] opened from files, in a release build,
    reordered and saved (also over its own files, when it has been reordered) any
    number of times, holds the values in the order that the returned orders make
    up, and answers searches as before. *)
Theorem C84_reordered_in_place :
  forall fuel utf8 json et d ip ep embp wp o embs words dist query element internal values steps,
    open_at utf8 json d et ip ep embp wp = Ok o -> bytes_given d embp embs -> text_given utf8 d wp words ->
    steps_apart d [ip; ep] (given embp ++ given wp) steps -> values <> [] ->
    reorders_well fuel json et embs words dist query element internal (oi_index o) values (map step_of steps) ->
    exists d' o' orders, disk_life Release fuel utf8 json et embp wp d o steps = Some (Ok (d', o', orders)) /\
      let order := combined (length values) orders in
      is_perm (length values) order /\ renamed Release (pi_layers (oi_index o)) (pi_layers (oi_index o')) order /\
      searches fuel dist query element internal (oi_index o') (rearranged PyOther values order) (length values).
Proof.
  intros fuel utf8 json et d ip ep embp wp o embs words dist query element internal values steps Ho Hb Ht HA Hv (q' & orders & EL & _ & HF & HR).
  destruct (C84_lives Release fuel utf8 json et d ip ep embp wp o Ho embs words steps q' orders Hb Ht HA EL) as (d' & o' & E & Eq).
  - eapply Forall_impl; [|exact HF]. intros p Hp ->. apply perm_len in Hp. destruct values; [congruence|discriminate].
  - exists d', o', orders. rewrite Eq. split; [exact E|]. exact HR.
Qed.
Print Assumptions C84_reordered_in_place.

Section Builder.
  Context (m : mode) (fuel : nat) (usort : list (nat * Z) -> list (nat * Z)) (utf8 : list N -> option str) (json : str -> option str) (L : libm)
          (et : str) (d : disk) (ep embp wp ip : option path) (opts : options) (o : open_builder).
  Hypothesis Hopen : builder_at m fuel usort utf8 json L d et ep embp wp ip opts = Ok o.

  (** A builder opened over saved files: its index can be saved over the file it was
      read from; only the elements file and the embeddings file are in use. *)
  Theorem C84_builder_saves : forall cs,
    Forall (fun p => creatable d p /\ ~ In p (given ep ++ given embp)) (b_save_paths cs) ->
    exists d' o', b_calls_at m fuel usort d o cs = (d', o', map Reply (builder_replies m fuel usort (ob_builder o) cs)) /\
      ob_builder o' = builder_after m fuel usort (ob_builder o) cs /\ disk_with d d' (builder_files_written m fuel usort (ob_builder o) cs).
  Proof using Hopen.
    intros cs HF. destruct (builder_open_spec _ _ _ _ _ _ _ _ _ _ _ _ _ _ Hopen) as (HS & _ & Hi).
    destruct (b_calls_step m fuel usort utf8 json cs d o HS) as (d' & o' & E & Eq & Hd & _).
    - eapply Forall_impl; [|exact HF]. intros p [Hc Hp]. split; [exact Hc|]. intros H. apply Hp. exact (Hi p H).
    - exists d', o'. auto.
  Qed.
  (** Once an element has been appended, not even the elements file. *)
  Theorem C84_builder_after_append : forall x d1 o1 cs,
    b_call_at m fuel usort d o (BAppend x) = (d1, o1, Reply (Ok AnNone)) ->
    Forall (fun p => creatable d p /\ ~ In p (given embp)) (b_save_paths cs) ->
    d1 = d /\ exists d' o', b_calls_at m fuel usort d o1 cs = (d', o', map Reply (builder_replies m fuel usort (ob_builder o1) cs)) /\
      ob_builder o' = builder_after m fuel usort (ob_builder o1) cs /\ disk_with d d' (builder_files_written m fuel usort (ob_builder o1) cs).
  Proof using Hopen.
    intros x d1 o1 cs E HF. destruct (builder_open_spec _ _ _ _ _ _ _ _ _ _ _ _ _ _ Hopen) as (HS & Hep & Hi).
    cbn [b_call_at] in E. rewrite b_can_read_sound in E by exact HS. destruct (pb_append m fuel usort (ob_builder o) x) as [b|e]; [|discriminate].
    assert (E2 : o1 = mkOpenB b None (ob_embs o)) by congruence. split; [congruence|]. subst o1.
    destruct (b_calls_step m fuel usort utf8 json cs d (mkOpenB b None (ob_embs o))) as (d' & o' & E3 & Eq & Hd & _).
    - intros r y H. apply HS. cbn in *. intuition congruence.
    - eapply Forall_impl; [|exact HF]. intros p [Hc Hp]. split; [exact Hc|]. intros H. apply Hp.
      unfold builder_at in Hopen. apply ob_ok in Hopen as (v1 & _ & H1). apply ob_ok in H1 as (v2 & _ & H1). apply ob_ok in H1 as (v3 & _ & H1).
      apply ob_ok in H1 as (v4 & _ & H1). apply ob_ok in H1 as (v5 & _ & H1). injection H1 as <-. cbn [ob_embs] in H.
      unfold builder_files, mapped in H. cbn in H. destruct embp as [r|]; [|tauto]. destruct v3; cbn in H; [|tauto]. exact H.
    - exists d', o'. auto.
  Qed.
  (** Before that, saving the elements over the file they are in loses them. *)
  Theorem C84_builder_own_elements_refuted : forall p, ep = Some p -> creatable d p ->
    exists d', b_call_at m fuel usort d o (BSaveElements p) = (d', o, Crashed) /\ node_at d' p = Some (File []).
  Proof using Hopen.
    intros p Hp Hc. destruct (builder_open_spec _ _ _ _ _ _ _ _ _ _ _ _ _ _ Hopen) as (HS & Hep & Hi). rewrite Hp in Hep. destruct Hep as (b & Eb & Hb).
    exists (put d p (File [])). cbn [b_call_at]. rewrite Eb, (save_own _ _ _ _ _ Hc Hb). split; [reflexivity|apply node_put_same].
  Qed.
End Builder.
Print Assumptions C84_builder_saves.
Print Assumptions C84_builder_after_append.
Print Assumptions C84_builder_own_elements_refuted.
