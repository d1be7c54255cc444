(** * Proofs about shards, export, and the Python embeddings *)
From Verif Require Import Base BaseFacts Bytes PBytes MSliceVec SSliceVec PFixed PVar PSliceMisc MSearch MBuild SReorder MEmbed SEmbed PEmbed PEmbed2 MParse SParse PParse.
Set Implicit Arguments. Unset Strict Implicit.

(** ** Shards *)
  Definition loads (f : list N) (part : list (list nat)) : Prop :=
    exists v, els_from_bytes f = Ok v /\ vw_observes (map (map N.of_nat) part) v.

  Lemma Hfive : 0 < five_byte. Proof. unfold five_byte. lia. Qed.

  Lemma part_loads part : ids_fit part -> fits64 (length part) ->
    loads (vw_bytes five_byte id_repr (map (map enc_id) part)) part.
  Proof.
    intros Hf Hl. exists (vw_of (map (map enc_id) part)). split; [|apply vw_of_observes].
    unfold els_from_bytes. rewrite <- (app_nil_r (vw_bytes _ _ _)).
    rewrite (@vw_from_bytes_of _ five_byte Hfive id_repr id_valid id_repr_ok); auto.
    - apply total_enc. apply Hf.
    - now rewrite map_length.
    - rewrite <- concat_map. apply Forall_forall. intros x Hx. apply in_map_iff in Hx as (y & <- & Hy).
      apply in_concat in Hy as (e & He & Hy). destruct Hf as [H1 _]. rewrite Forall_forall in H1. specialize (H1 e He).
      rewrite Forall_forall in H1. exact (H1 y Hy).
    - cbn. unfold three_byte. lia.
  Qed.

Section Shards.
  Variable rows : list (list nat).
  Hypothesis Hf : ids_fit rows.
  Hypothesis H64 : fits64 (length rows).
  Let els : elements := vw_of (map (map enc_id) rows).
  Let n := length rows.

  Lemma els_len : vw_len els = n.
  Proof. unfold els, n. rewrite vw_len_of. apply map_length. Qed.

  Lemma ids_fit_sub b k : ids_fit (firstn k (skipn b rows)).
  Proof.
    destruct Hf as [H1 H2].
    assert (E : rows = firstn b rows ++ firstn k (skipn b rows) ++ skipn k (skipn b rows)) by (now rewrite !firstn_skipn).
    rewrite E in H1, H2. rewrite !Forall_app in H1. rewrite !concat_app, !app_length in H2. split; [tauto|lia].
  Qed.

  Lemma write_shards_ok size j : forall k, n <= (k + j) * size ->
    exists fs parts, Forall2 loads fs parts /\ concat parts = skipn (k * size) rows /\
      (((forall i, k <= i < k + j -> i * size <= n) /\ length fs = j /\ write_shards els size (seq k j) = (fs, Ok n)) \/
       ((exists i, k <= i < k + j /\ n < i * size) /\ write_shards els size (seq k j) = (fs ++ [[]], Fail Panicked))).
  Proof.
    induction j as [|j IH]; intros k Hk.
    - exists [], []. split; [constructor|]. split; [symmetry; apply skipn_all2; fold n; lia|].
      left. split; [intros; lia|]. split; [reflexivity|]. cbn [seq write_shards]. now rewrite els_len.
    - cbn [seq write_shards]. rewrite els_len.
      set (b := k * size). set (e := Nat.min ((k + 1) * size) n).
      destruct (Nat.le_gt_cases b n) as [Hb|Hb].
      + destruct (IH (Datatypes.S k)) as (fs & parts & Hfs & Hc & Hcase); [lia|].
        set (part := firstn (e - b) (skipn b rows)).
        assert (He : b <= e) by (unfold e, b in *; lia).
        unfold els. rewrite (@vw_write_range_of _ five_byte Hfive id_repr).
        2:{ apply total_enc. apply Hf. }
        2:{ exact He. }
        2:{ rewrite map_length. unfold e. fold n. lia. }
        rewrite skipn_map, firstn_map. fold part. cbn [fst].
        exists (vw_bytes five_byte id_repr (map (map enc_id) part) :: fs), (part :: parts).
        split.
        { constructor; auto. apply part_loads; [apply ids_fit_sub|].
          unfold fits64 in *. unfold part. rewrite firstn_length, skipn_length. lia. }
        split.
        { cbn [concat]. rewrite Hc. unfold part.
          assert (Esk : skipn (S k * size) rows = skipn (e - b) (skipn b rows)).
          { rewrite skipn_skipn. unfold e. destruct (Nat.le_gt_cases ((k + 1) * size) n).
            - rewrite Nat.min_l by auto. f_equal. unfold b. lia.
            - rewrite Nat.min_r by lia. replace (n - b + b) with n by lia.
              rewrite !skipn_all2; auto; fold n; lia. }
          rewrite Esk. apply firstn_skipn. }
        fold els. destruct Hcase as [(Ha & Hl & Ew)|((i & Hi & Hn) & Ew)]; rewrite Ew.
        * left. split; [|split; [cbn; lia|reflexivity]]. intros i Hi. destruct (Nat.eq_dec i k) as [->|]; [exact Hb|]. apply Ha. lia.
        * right. split; [exists i; split; [lia|auto]|reflexivity].
      + exists [], []. split; [constructor|]. split; [symmetry; apply skipn_all2; fold n; lia|].
        right. split; [exists k; split; [lia|auto]|].
        unfold els. rewrite vw_write_range_refused with (1 := Hfive); [reflexivity|]. unfold e. lia.
  Qed.

  Lemma ceil_ge s : 0 < s -> n <= s * ((n + s - 1) / s).
  Proof.
    intros Hs. pose proof (Nat.div_mod (n + s - 1) s ltac:(lia)). pose proof (Nat.mod_upper_bound (n + s - 1) s ltac:(lia)). lia.
  Qed.

  Lemma save_shards_ok s : 0 < s ->
    let size := (n + s - 1) / s in
    exists fs parts, Forall2 loads fs parts /\ concat parts = rows /\
      (((s - 1) * size <= n /\ length fs = s /\ save_shards els s = (fs, Ok n)) \/
       (n < (s - 1) * size /\ save_shards els s = (fs ++ [[]], Fail Panicked))).
  Proof.
    intros Hs size. unfold save_shards, shard_size. rewrite els_len.
    destruct (Nat.eqb_spec s 0); [lia|]. fold size.
    destruct (@write_shards_ok size s 0) as (fs & parts & H1 & H2 & H3).
    { cbn [Nat.add]. now apply ceil_ge. }
    cbn [Nat.mul skipn] in H2. exists fs, parts. split; auto. split; auto.
    destruct H3 as [(Ha & Hl & Ew)|((i & Hi & Hn) & Ew)].
    - left. split; [apply Ha; lia|auto].
    - right. split; [|auto]. assert (i <= s - 1) by lia. nia.
  Qed.

  Lemma save_shards_zero : save_shards els 0 = ([], Fail Panicked).
  Proof. reflexivity. Qed.
End Shards.

(** ** Export *)
Section ExportP.
  Context {F : Type} (fadd : F -> F -> F) (fzero : F) (conv : mode -> list F -> outcome (list Z)) (m : mode) (c : sumemb F).
  Variable W : nat.
  Let n := se_len c.
  Let get (i : nat) : outcome (list Z) := let* e := se_get_embedding fadd fzero m c i in conv m e.
  Hypothesis Hget : forall i, i < n -> (exists v, get i = Ok v /\ length v = W) \/ get i = Fail Panicked.

  Lemma push_all vs : forall (d : list Z) w0, Forall (fun v => length v = W) vs -> w0 = 0 \/ w0 = W ->
    ofold (fun v x => fw_push v x) vs (mkFw d w0) = Ok (mkFw (d ++ concat vs) (match vs with [] => w0 | _ => W end)).
  Proof.
    clear. induction vs as [|v vs IH]; intros d w0 Hv Hw.
    - cbn. now rewrite app_nil_r.
    - inversion Hv as [|? ? Hv1 Hv2]; subst. cbn [ofold]. unfold fw_push at 1. cbn [fwidth fdata].
      replace ((if w0 =? 0 then length v else w0) =? length v) with true.
      2:{ symmetry. apply Nat.eqb_eq. destruct (Nat.eqb_spec w0 0); lia. }
      cbn [oassert obind].
      replace (if w0 =? 0 then length v else w0) with (length v) by (destruct (Nat.eqb_spec w0 0); lia).
      rewrite IH; auto. cbn [concat]. rewrite <- app_assoc. destruct vs; reflexivity.
  Qed.

  (** either all conversions succeed, or one panics *)
  Lemma get_dec : (exists g, forall i, i < n -> get i = Ok (g i) /\ length (g i) = W) \/ (exists i, i < n /\ get i = Fail Panicked).
  Proof.
    assert (H : forall k, k <= n -> (exists g, forall i, i < k -> get i = Ok (g i) /\ length (g i) = W) \/ (exists i, i < k /\ get i = Fail Panicked)).
    { induction k as [|k IH]; intros Hk.
      - left. exists (fun _ => []). intros; lia.
      - destruct IH as [(g & Hg)|(i & Hi & He)]; [lia| |right; exists i; split; [lia|auto]].
        destruct (Hget (i := k)) as [(v & Hv & Hl)|Hf]; [lia| |right; exists k; split; [lia|auto]].
        left. exists (fun i => if i =? k then v else g i). intros i Hi.
        destruct (Nat.eqb_spec i k) as [->|]; [auto|]. apply Hg. lia. }
    apply H. lia.
  Qed.

  Definition whole : outcome (list N) :=
    let* vectors := export_vectors fadd fzero conv m c (seq 0 n) in Ok (fst (fw_write i8r vectors)).

  Lemma export_vectors_ok g ids : (forall i, i < n -> get i = Ok (g i) /\ length (g i) = W) -> Forall (fun i => i < n) ids ->
    export_vectors fadd fzero conv m c ids = Ok (mkFw (concat (map g ids)) (match ids with [] => 0 | _ => W end)).
  Proof.
    clear Hget. intros Hg Hi. unfold export_vectors. rewrite Forall_forall in Hi.
    change (fun i => let* e := se_get_embedding fadd fzero m c i in conv m e) with get.
    rewrite (@omapM_pure _ _ get g).
    - cbn [obind]. unfold fw_new, fw_with_width. rewrite push_all; auto.
      + cbn [app]. destruct ids; reflexivity.
      + apply Forall_forall. intros v Hv. apply in_map_iff in Hv as (i & <- & Hin). apply Hg. auto.
    - intros i Hin. apply Hg. auto.
  Qed.

  Lemma export_vectors_bad ids : Forall (fun i => i < n) ids -> (exists i, In i ids /\ get i = Fail Panicked) ->
    export_vectors fadd fzero conv m c ids = Fail Panicked.
  Proof.
    intros Hi Hb. unfold export_vectors.
    change (fun i => let* e := se_get_embedding fadd fzero m c i in conv m e) with get.
    rewrite omapM_fail; [reflexivity| |exact Hb].
    intros i Hin. rewrite Forall_forall in Hi. destruct (Hget (Hi i Hin)) as [(v & Hv & _)|Hf]; eauto.
  Qed.

  Lemma export_vectors_cases ids : Forall (fun i => i < n) ids ->
    (exists v, export_vectors fadd fzero conv m c ids = Ok v) \/ export_vectors fadd fzero conv m c ids = Fail Panicked.
  Proof.
    intros Hi. unfold export_vectors.
    change (fun i => let* e := se_get_embedding fadd fzero m c i in conv m e) with get.
    assert (H : (exists vs, omapM get ids = Ok vs /\ Forall (fun v => length v = W) vs) \/ omapM get ids = Fail Panicked).
    { induction Hi as [|i ids Hi _ IH]; [left; eexists; split; [reflexivity|constructor]|]. cbn [omapM].
      destruct (Hget Hi) as [(v & -> & Hl)| ->]; cbn [obind]; [|auto].
      destruct IH as [(vs & -> & Hvs)| ->]; cbn [obind]; [|auto]. left. eexists. split; [reflexivity|]. now constructor. }
    destruct H as [(vs & -> & Hvs)| ->]; cbn [obind]; [|auto].
    left. unfold fw_new, fw_with_width. rewrite push_all; eauto.
  Qed.

  Let cs := (n + NUM_CHUNKS - 1) / NUM_CHUNKS.
  Definition chunk_ids (i : nat) : list nat := seq (i * cs) (Nat.min ((i + 1) * cs) n - i * cs).

  Lemma chunk_ids_lt i : Forall (fun j => j < n) (chunk_ids i).
  Proof. apply Forall_forall. intros j Hj. unfold chunk_ids in Hj. apply in_seq in Hj. lia. Qed.

  Lemma chunk_ids_concat k : concat (map chunk_ids (seq 0 k)) = seq 0 (Nat.min (k * cs) n).
  Proof.
    clear Hget. induction k as [|k IH]; [reflexivity|]. rewrite seq_S, map_app, concat_app, IH. cbn [map concat Nat.add]. rewrite app_nil_r.
    unfold chunk_ids. replace ((k + 1) * cs) with (S k * cs) by lia.
    destruct (Nat.le_gt_cases (k * cs) n) as [H|H].
    - rewrite Nat.min_l by auto. rewrite <- seq_app. f_equal. lia.
    - replace (Nat.min (S k * cs) n - k * cs) with 0 by lia. cbn [seq]. rewrite app_nil_r. f_equal. lia.
  Qed.

  Lemma chunk_ids_all : concat (map chunk_ids (seq 0 NUM_CHUNKS)) = seq 0 n.
  Proof.
    clear Hget. rewrite chunk_ids_concat. f_equal. apply Nat.min_r. unfold cs, NUM_CHUNKS.
    pose proof (Nat.div_mod (n + 100 - 1) 100 ltac:(lia)). pose proof (Nat.mod_upper_bound (n + 100 - 1) 100 ltac:(lia)). lia.
  Qed.

  Lemma first_chunk : chunk_ids 0 = [] -> n = 0.
  Proof.
    clear Hget. unfold chunk_ids. intros H. apply (f_equal (@length nat)) in H. rewrite seq_length in H. cbn [length] in H.
    unfold cs, NUM_CHUNKS in H. pose proof (Nat.div_mod (n + 100 - 1) 100 ltac:(lia)). pose proof (Nat.mod_upper_bound (n + 100 - 1) 100 ltac:(lia)). lia.
  Qed.

  Lemma export_is_whole : export fadd fzero conv m c = whole.
  Proof.
    unfold export, whole. destruct get_dec as [(g & Hg)|(i & Hi & Hb)].
    - rewrite (export_vectors_ok Hg) by (apply Forall_forall; intros j Hj; apply in_seq in Hj; lia).
      cbn [obind fst fw_write fwidth fdata].
      set (h := match seq 0 n with [] => 0 | _ => W end).
      rewrite (@omapM_pure _ _ _ (fun i => (if i =? 0 then le_enc 8 (N.of_nat h) else []) ++ write_as_bytes i8r (concat (map g (chunk_ids i))))).
      + cbn [obind]. f_equal. unfold NUM_CHUNKS. change (seq 0 100) with (0 :: seq 1 99). cbn [map concat Nat.eqb].
        rewrite <- app_assoc. f_equal.
        rewrite (map_ext_in _ (fun i => write_as_bytes i8r (concat (map g (chunk_ids i))))).
        2:{ intros i Hi. apply in_seq in Hi. destruct (Nat.eqb_spec i 0); [lia|reflexivity]. }
        rewrite <- chunk_ids_all. unfold NUM_CHUNKS. change (seq 0 100) with (0 :: seq 1 99). generalize (seq 1 99). intros l.
        cbn [map concat]. rewrite map_app, concat_app. unfold write_as_bytes at 3. rewrite map_app, concat_app. f_equal.
        induction l as [|i l IH]; [reflexivity|]. cbn [map concat]. rewrite map_app, concat_app, map_app, concat_app. f_equal. exact IH.
      + intros i Hi. unfold export_chunk. fold n. fold cs. fold (chunk_ids i).
        rewrite (export_vectors_ok Hg) by apply chunk_ids_lt. cbn [obind fw_write fst fdata fwidth].
        destruct (Nat.eqb_spec i 0) as [->|]; [|reflexivity]. f_equal. f_equal. f_equal. f_equal. unfold h.
        destruct (chunk_ids 0) as [|x l] eqn:E.
        * pose proof (first_chunk E) as E0. rewrite E0. reflexivity.
        * assert (Hx : In x (chunk_ids 0)) by (rewrite E; now left). pose proof (chunk_ids_lt 0) as Hlt. rewrite Forall_forall in Hlt.
          specialize (Hlt x Hx). destruct (seq 0 n) as [|y l2] eqn:Es; [|reflexivity]. apply (f_equal (@length nat)) in Es. rewrite seq_length in Es. cbn [length] in Es. lia.
    - rewrite (@export_vectors_bad (seq 0 n)).
      2:{ apply Forall_forall; intros j Hj; apply in_seq in Hj; lia. }
      2:{ exists i. split; auto. apply in_seq. lia. }
      cbn [obind]. rewrite omapM_fail; [reflexivity| |].
      + intros k Hk. unfold export_chunk. fold n. fold cs. fold (chunk_ids k).
        destruct (export_vectors_cases (chunk_ids_lt k)) as [(v & ->)| ->]; cbn [obind]; eauto.
      + assert (Hin : In i (concat (map chunk_ids (seq 0 NUM_CHUNKS)))) by (rewrite chunk_ids_all; apply in_seq; lia).
        apply in_concat in Hin as (l & Hl & Hil). apply in_map_iff in Hl as (k & <- & Hk). exists k. split; auto.
        unfold export_chunk. fold n. fold cs. fold (chunk_ids k). rewrite export_vectors_bad; auto using chunk_ids_lt. eauto.
  Qed.
End ExportP.

(** ** Python embeddings *)
Section PyEmb.
  Context {F : Type} (w : nat).
  Definition pe_of (es : list (str * list F)) : pyemb := mkPyEmb (se_of w (map snd es) []) (dict_of (map fst es)).

  Lemma dims_app (a b : list (list F)) : dims w (a ++ b) <-> dims w a /\ dims w b.
  Proof. unfold dims. rewrite Forall_app. tauto. Qed.

  Lemma appends_of l : forall acc, NoDup (map fst acc) -> dims w (map snd acc) -> dims w (map snd l) ->
    exists bs, pe_appends (pe_of acc) l = (pe_of (first_entries acc l), bs) /\ length bs = length l /\
      NoDup (map fst (first_entries acc l)) /\ dims w (map snd (first_entries acc l)) /\
      forall i u v, nth_error l i = Some (u, v) ->
        (~ In u (map fst acc) /\ ~ In u (map fst (firstn i l)) -> nth_error bs i = Some (Ok true)) /\
        (In u (map fst acc) \/ In u (map fst (firstn i l)) -> nth_error bs i = Some (Ok false)).
  Proof.
    induction l as [|[u v] l IH]; intros acc Hn Ha Hl.
    - exists []. split; [reflexivity|]. split; [reflexivity|]. split; [exact Hn|]. split; [exact Ha|]. intros [|i] ? ? H; discriminate.
    - assert (Hv : length v = w /\ dims w (map snd l)).
      { destruct Hl as [H0 H1]. cbn [map snd] in H1. inversion H1; subst. split; auto. split; auto. }
      destruct Hv as [Hv Hl'].
      cbn [pe_appends first_entries]. unfold pe_append. cbn [pe_words pe_emb pe_of]. rewrite push_of_dict by auto.
      destruct (in_dec (list_eq_dec N.eq_dec) u (map fst acc)) as [Hin|Hni].
      + destruct (IH acc Hn Ha Hl') as (bs & E & Hlen & Hn2 & Hd2 & Hb).
        change (mkPyEmb (se_of w (map snd acc) []) (dict_of (map fst acc))) with (pe_of acc). rewrite E.
        exists (Ok false :: bs). split; [reflexivity|]. split; [cbn; lia|]. split; [exact Hn2|]. split; [exact Hd2|].
        intros [|i] u' v' Hi; cbn [nth_error firstn map fst] in *.
        * injection Hi as <- <-. split; [tauto|auto].
        * destruct (Hb i u' v' Hi) as [B1 B2]. split.
          -- intros [H1 H2]. apply B1. split; auto. intros H3. apply H2. now right.
          -- intros [H|[<-|H]]; apply B2; auto.
      + rewrite push_emb_of by auto.
        assert (E0 : mkPyEmb (se_of w (map snd acc ++ [v]) []) (dict_of (map fst acc ++ [u])) = pe_of (acc ++ [(u, v)])).
        { unfold pe_of. now rewrite !map_app. }
        rewrite E0. destruct (IH (acc ++ [(u, v)])) as (bs & E & Hlen & Hn2 & Hd2 & Hb).
        { rewrite map_app. now apply NoDup_snoc. }
        { rewrite map_app. apply dims_app. split; auto. destruct Ha as [H0 _]. split; [exact H0|]. constructor; [exact Hv|constructor]. }
        { exact Hl'. }
        rewrite E. exists (Ok true :: bs). split; [reflexivity|]. split; [cbn; lia|]. split; [exact Hn2|]. split; [exact Hd2|].
        intros [|i] u' v' Hi; cbn [nth_error firstn map fst] in *.
        * injection Hi as <- <-. split; [reflexivity|]. intros [H|[]]; contradiction.
        * destruct (Hb i u' v' Hi) as [B1 B2]. rewrite map_app in B1, B2. cbn [map fst] in B1, B2. split.
          -- intros [H1 H2]. apply B1. split; [|intros H3; apply H2; now right].
             rewrite in_app_iff. cbn. intros [H3|[H3|[]]]; [auto|]. apply H2. now left.
          -- intros H. apply B2. rewrite in_app_iff. destruct H as [H|[H|H]]; [auto| |auto]. left. right. now left.
  Qed.
End PyEmb.
