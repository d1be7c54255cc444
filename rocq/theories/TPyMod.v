(** * Theorems C75: the functions of the Python module and the class [Embeddings] *)
From Verif Require Import PPyIndex.
From Verif Require Import Base BaseFacts Bytes PBytes MSliceVec SSliceVec PFixed PVar PSliceMisc MSearch MBuild MEmbed SEmbed PEmbed PEmbed2 PEmbed3 MParse SParse PParse PParse2 PParse3 MFloat MFloatBits MAngular PPipelineB MPyIndex MPyMod PPyMod TParse.
From Coq Require Import Permutation.

(** ** Arguments by position and by name *)

(** [compute_embeddings_and_save_to_disk]: by position the arguments are what the
    documentation says, the elements first. *)
Theorem C75_export_by_position :
  forall m fs elements embeddings output b,
    let call := py_compute_embeddings m fs in
    let paths := [ArgText elements; ArgText embeddings; ArgText output] in
    call paths [] = compute_embeddings m fs elements embeddings output /\
    call (paths ++ [ArgBool b]) [] = compute_embeddings m fs elements embeddings output /\
    call paths [(n_show_progress, ArgBool b)] = compute_embeddings m fs elements embeddings output.
Proof. intros. repeat split. Qed.
Print Assumptions C75_export_by_position.

(** By name, in whatever order, the two input files change places: the file given
    as [embeddings_path] is read as the elements, the one given as
    [elements_path] as the embeddings. *)
Theorem C75_export_by_name_refuted :
  (forall m fs elements embeddings output kwargs,
     Permutation kwargs [(n_elements_path, ArgText elements); (n_embeddings_path, ArgText embeddings); (n_output_path, ArgText output)] ->
     py_compute_embeddings m fs [] kwargs = compute_embeddings m fs embeddings elements output) /\
  exists fs elements embeddings output,
    compute_embeddings Debug fs elements embeddings output = Ok (output, [1; 0; 0; 0; 0; 0; 0; 0; 127]%N) /\
    forall kwargs,
      Permutation kwargs [(n_elements_path, ArgText elements); (n_embeddings_path, ArgText embeddings); (n_output_path, ArgText output)] ->
      py_compute_embeddings Debug fs [] kwargs = Fail Panicked.
Proof.
  assert (H : forall m fs elements embeddings output kwargs,
     Permutation kwargs [(n_elements_path, ArgText elements); (n_embeddings_path, ArgText embeddings); (n_output_path, ArgText output)] ->
     py_compute_embeddings m fs [] kwargs = compute_embeddings m fs embeddings elements output).
  { intros m fs l e o k Hp. unfold py_compute_embeddings. rewrite <- (@call_fn_perm _ _ _ _ _ _ (Permutation_sym Hp)).
    - reflexivity.
    - cbn [map fst]. repeat constructor; cbn; intuition discriminate. }
  split; [exact H|].
  set (emb := [1; 0; 0; 0; 0; 0; 0; 0; 0; 0; 128; 63]%N).
  set (els := [1; 0; 0; 0; 0; 0; 0; 0; 0; 0; 0; 0; 0; 1; 0; 0; 0; 0; 0; 0; 0]%N).
  exists (mkFsys (fun p => if str_eqb p [1%N] then Some els else if str_eqb p [2%N] then Some emb else None) (fun _ => None) (fun _ => None)).
  exists [1%N], [2%N], [3%N]. split; [vm_compute; reflexivity|]. intros k Hp. rewrite (H _ _ _ _ _ _ Hp). vm_compute. reflexivity.
Qed.
Print Assumptions C75_export_by_name_refuted.

(** What the call by position does: for files with elements and embeddings as the
    library writes them, the output file holds the converted embedding of every
    element, in order. *)
Theorem C75_export_writes_the_vectors :
  forall m fs ops w c elements embeddings output rows,
    ids_fit (pushed ops) -> dims w (pushed_embeddings ops) -> se_run ops se_new = Ok c ->
    pushed_embeddings ops <> [] -> fits64 w -> fits64 (length (pushed ops)) ->
    fs_bytes fs elements = Some (fst (se_write c)) ->
    fs_bytes fs embeddings = Some (fst (fw_write f32r (se_embs c))) ->
    Forall (Forall (fun i => i < length (pushed_embeddings ops))) (pushed ops) ->
    Forall2 (fun t r => exists e, is_embedding f32_add f32_zero w (pushed_embeddings ops) t e /\ quantize m e = Ok r) (pushed ops) rows ->
    exists bytes,
      py_compute_embeddings m fs [ArgText elements; ArgText embeddings; ArgText output] [] = Ok (output, bytes) /\
      (rows <> [] -> exists v, fw_from_bytes i8r bytes = Ok v /\ fw_observes m rows v).
Proof.
  intros m fs ops w c l e o rows He Hd Hr Hne H64 H64l Hl Hem Hi Hrows.
  assert (Hq : forall v r, quantize m v = Ok r -> length r = length v /\ int8s r).
  { intros v r Hv. unfold quantize in Hv. destruct (max_abs v) as [mx|]; [|discriminate]. cbn [obind] in Hv.
    set (M := match mx with Some v => v | None => MAX_QVALUE end) in Hv. clearbody M. revert r Hv.
    induction v as [|x v IH]; intros r Hv.
    - injection Hv as <-. split; [reflexivity|constructor].
    - cbn [omapM] in Hv. destruct (quantize1 m M x) as [z|] eqn:Ez; [|discriminate]. cbn [obind] in Hv.
      destruct (omapM (quantize1 m M) v) as [t|]; [|discriminate]. injection Hv as <-. destruct (IH t eq_refl) as [I1 I2].
      split; [cbn; lia|]. constructor; [|exact I2]. unfold quantize1 in Ez.
      destruct (debug_assert m _); [|discriminate]. injection Ez as <-. pose proof (to_i8_range (f32_div (f32_mul x MAX_QVALUE) M)). lia. }
  destruct (C56_export f32_add f32_zero quantize m ops w c rows He Hd Hr Hne H64 Hi Hq Hrows) as (bytes & Ex & _ & Hv).
  exists bytes. split; [|exact Hv]. destruct (C75_export_by_position m fs l e o true) as (-> & _).
  rewrite (se_new_of w), run_ok in Hr by auto. cbn [app] in Hr.
  apply (f_equal (fun r => match r with Ok c => c | _ => se_new end)) in Hr.
  set (embs := pushed_embeddings ops) in *. set (els := pushed ops) in *. clearbody embs els.
  unfold compute_embeddings. rewrite Hl, Hem. cbn [ounwrap obind]. subst c.
  assert (Hfw : fw_is w embs (se_embs (se_of w embs els))).
  { destruct Hd as [_ Hd]. cbn [se_embs se_of]. destruct embs; [congruence|]. repeat split; auto. }
  destruct Hd as [Hw _].
  destruct (@fw_round_trip_rows _ f32r _ f32r_ok w embs _ Hw H64 Hfw) as (v & Ev & _ & ->).
  { apply Forall_forall. intros; exact I. }
  rewrite Ev. cbn [obind].
  pose proof (@write_load f32 w embs els He H64l) as Hwl. unfold se_from_bytes in Hwl.
  destruct (els_from_bytes (fst (se_write (se_of w embs els)))) as [x|]; [|discriminate]. cbn [obind] in Hwl |- *.
  injection Hwl as ->. change (mkSumEmb (se_embs (se_of w embs els)) (vw_of (map (map enc_id) els))) with (se_of w embs els).
  rewrite Ex. reflexivity.
Qed.
Print Assumptions C75_export_writes_the_vectors.

(** [parse_elements_and_save_to_disk]: by position and by name alike. *)
Theorem C75_parse_by_position_and_name :
  forall dec fs elements words output kwargs,
    Permutation kwargs [(n_elements_path, ArgText elements); (n_words_path, ArgText words); (n_output_path, ArgText output)] ->
    py_parse_elements dec fs [ArgText elements; ArgText words; ArgText output] [] = parse_and_save_files dec fs elements words output /\
    py_parse_elements dec fs [] kwargs = parse_and_save_files dec fs elements words output.
Proof.
  intros dec fs l w o k Hp. split; [reflexivity|]. unfold py_parse_elements. rewrite <- (@call_fn_perm _ _ _ _ _ _ (Permutation_sym Hp)).
  - reflexivity.
  - cbn [map fst]. repeat constructor; cbn; intuition discriminate.
Qed.
Print Assumptions C75_parse_by_position_and_name.

(** A missing, unknown or doubly given argument, or a path that is no text, is an
    exception and nothing is written. *)
Theorem C75_bad_arguments :
  forall m fs a b c d x name,
    let call := py_compute_embeddings m fs in
    call [] [] = Fail IoError /\ call [a] [] = Fail IoError /\ call [a; b] [] = Fail IoError /\
    call [a; b; c; d; x] [] = Fail IoError /\
    call [a; b] [(n_embeddings_path, c)] = Fail IoError /\
    (~ In name [n_elements_path; n_embeddings_path; n_output_path; n_show_progress] -> call [a; b; c] [(name, x)] = Fail IoError) /\
    ((forall s, a <> ArgText s) -> call [a; b; c] [] = Fail IoError).
Proof.
  intros m fs a b c d x name. cbv zeta. repeat split.
  - intros H. unfold py_compute_embeddings, call_fn, bind_args. cbn [length Nat.add Nat.ltb Nat.leb forallb existsb fst].
    rewrite !str_eqb_neq; [reflexivity| | | |]; intros E; apply H; rewrite <- E; cbn [In]; tauto.
  - intros H. destruct a as [s| |]; [now destruct (H s)| |]; reflexivity.
Qed.
Print Assumptions C75_bad_arguments.

(** ** The class [Embeddings] *)

(** After any appends of vectors of one dimension ([kept]: the entries of new
    words), the embedding of an id is the vector appended under it, that of a
    list of ids or a text the sum; ids that do not exist panic; anything else
    raises an exception. *)
Theorem C75_get_embedding :
  forall m w (l : list (str * list f32)),
    dims w (map snd l) -> l <> [] ->
    let e := fst (pe_appends pe_new l) in
    let kept := first_entries [] l in
    pe_len e = length kept /\
    (forall i u v, nth_error kept i = Some (u, v) -> pe_get m e (InId i) = Ok v) /\
    (forall i, length kept <= i -> pe_get m e (InId i) = Fail Panicked) /\
    (forall ids, Forall (fun i => i < length kept) ids ->
       exists r, pe_get m e (InIds ids) = Ok r /\ is_embedding f32_add f32_zero w (map snd kept) ids r) /\
    (forall ids, Exists (fun i => length kept <= i) ids -> pe_get m e (InIds ids) = Fail Panicked) /\
    (forall text toks, tokens text toks ->
       exists r, pe_get m e (InText text) = Ok r /\
         is_embedding f32_add f32_zero w (map snd kept) (known_ids (map fst kept) toks) r) /\
    pe_get m e InOther = Fail IoError.
Proof.
  intros m w l Hd Hne e kept.
  assert (Hd0 : dims w (@nil (list f32))) by (destruct Hd; split; auto).
  destruct (@appends_of f32 w l [] (NoDup_nil _) Hd0 Hd) as (bs & E & _ & Hn & Hd2 & _).
  change (pe_of w []) with (@pe_new f32) in E. unfold e. rewrite E. cbn [fst]. clear e.
  fold kept in Hn, Hd2 |- *. set (e := pe_of w kept).
  assert (Hk : kept <> []).
  { unfold kept. destruct l as [|[u v] l]; [congruence|]. cbn [first_entries map]. destruct (in_dec (list_eq_dec N.eq_dec) u []) as [[]|_]. cbn [app].
    intros Hk. assert (Hx : forall acc, acc <> [] -> first_entries acc l <> []).
    { clear. induction l as [|[u v] l IH]; intros acc H; cbn [first_entries]; [exact H|]. destruct (in_dec (list_eq_dec N.eq_dec) u (map fst acc)); apply IH; [exact H|]. destruct acc; discriminate. }
    revert Hk. now apply Hx. }
  assert (Hs : map snd kept <> []) by (destruct kept; [congruence|discriminate]).
  assert (Hids : forall ids, pe_get m e (InIds ids) = se_create_embedding f32_add f32_zero m (pe_emb e) ids) by reflexivity.
  split; [|split; [|split; [|split; [|split; [|split]]]]].
  - unfold pe_len, e. cbn [pe_emb pe_of]. rewrite se_of_num by auto. apply map_length.
  - intros i u v Hi. assert (Hi2 : nth_error (map snd kept) i = Some v) by (rewrite nth_error_map, Hi; reflexivity).
    change (pe_get m e (InId i)) with (se_create_embedding f32_add f32_zero m (pe_emb e) [i]). unfold e. cbn [pe_emb pe_of].
    rewrite create_single; auto.
    + f_equal. now apply nth_error_nth.
    + apply nth_error_Some. congruence.
  - intros i Hi. change (pe_get m e (InId i)) with (se_create_embedding f32_add f32_zero m (pe_emb e) [i]). unfold e. cbn [pe_emb pe_of].
    apply create_out; auto. constructor. now rewrite map_length.
  - intros ids Hi. rewrite Hids. unfold e. cbn [pe_emb pe_of]. apply create_ok; auto. now rewrite map_length.
  - intros ids Hi. rewrite Hids. unfold e. cbn [pe_emb pe_of]. apply create_out; auto. now rewrite map_length.
  - intros text toks Ht. destruct (C62_appends f32_add f32_zero m w l Hd) as (e' & bs' & E' & _ & _ & _ & _ & Hg).
    rewrite E in E'. apply pair_equal_spec in E' as [<- _]. destruct (Hg text toks Ht) as (r & Hr & Hr2). exists r. split; [|exact Hr2].
    rewrite <- Hr. unfold pe_get_embedding. destruct text as [|c t]; reflexivity.
  - reflexivity.
Qed.
Print Assumptions C75_get_embedding.

(** [dist] is the distance of the two embeddings, as [compute_distance] gives it;
    [dists] is [dist] for each. *)
Theorem C75_dist :
  forall m e a b va vb, pe_get m e a = Ok va -> pe_get m e b = Ok vb ->
    coded (pe_dist m e a b) = py_compute_distance m s_angular (PyFloats va) (PyFloats vb).
Proof. intros m e a b va vb Ha Hb. unfold pe_dist. rewrite Ha, Hb. reflexivity. Qed.
Print Assumptions C75_dist.

Theorem C75_dists :
  forall m e a bs ds, pe_dists m e a bs = Ok ds <->
    (exists va, pe_get m e a = Ok va) /\ Forall2 (fun b d => pe_dist m e a b = Ok d) bs ds.
Proof.
  intros m e a bs ds. unfold pe_dists, pe_dist.
  destruct (pe_get m e a) as [va|x] eqn:Ea.
  2:{ split; [|intros [(va & H) _]; discriminate]. destruct x; discriminate. }
  cbn [unwrap_result obind]. split.
  - intros H. split; [eauto|].
    destruct (omapM (fun i => let* r := unwrap_result (pe_get m e i) in Ok (angular_vector r)) bs) as [rs|] eqn:Er; [|discriminate].
    cbn [obind] in H. revert rs Er ds H. induction bs as [|b bs IH]; intros rs Er ds H.
    + injection Er as <-. injection H as <-. constructor.
    + cbn [omapM] in Er. destruct (unwrap_result (pe_get m e b)) as [vb|] eqn:Eb; [|discriminate]. cbn [obind] in Er.
      destruct (omapM _ bs) as [rs'|] eqn:Er'; [|discriminate]. injection Er as <-. cbn [omapM] in H.
      destruct (angular_dist (angular_vector va) (angular_vector vb)) as [d|] eqn:Edd; [|discriminate]. cbn [obind] in H.
      destruct (omapM (fun r => angular_dist (angular_vector va) r) rs') as [ds'|] eqn:Eds; [|discriminate]. injection H as <-.
      constructor; [rewrite Eb; cbn [obind]; exact Edd|]. now apply (IH rs').
  - intros [_ H]. enough (He : exists rs, omapM (fun i => let* r := unwrap_result (pe_get m e i) in Ok (angular_vector r)) bs = Ok rs /\
      omapM (fun r => angular_dist (angular_vector va) r) rs = Ok ds).
    { destruct He as (rs & -> & Hd). exact Hd. }
    induction H as [|b d bs ds Hb _ IH]; [exists []; split; reflexivity|]. destruct IH as (rs & E1 & E2).
    destruct (unwrap_result (pe_get m e b)) as [vb|] eqn:Eb; [|discriminate]. cbn [obind] in Hb.
    exists (angular_vector vb :: rs). cbn [omapM]. rewrite Eb. cbn [obind]. rewrite E1. split; [reflexivity|]. rewrite Hb. cbn [obind]. now rewrite E2.
Qed.
Print Assumptions C75_dists.

(** An argument that [get_embedding] refuses with an exception makes [dist] panic. *)
Theorem C75_dist_raises_refuted :
  forall m e b, pe_get m e InOther = Fail IoError /\ pe_dist m e InOther b = Fail Panicked.
Proof. intros. split; reflexivity. Qed.
Print Assumptions C75_dist_raises_refuted.

(** After any history of appends - refused ones too - that left at least one
    embedding: saving and opening gives the same object back. *)
Theorem C75_save_and_open :
  forall dec enc (l : list (str * list f32)),
    json_ok dec enc ->
    let e := fst (pe_appends pe_new l) in
    0 < pe_len e -> fits64 (fwidth (se_embs (pe_emb e))) ->
    let '(embeddings, words) := pe_save enc e in
    pe_open dec (Some embeddings) (Some words) = Ok e.
Proof.
  intros dec enc l Hj e Hl H64. rewrite (surjective_pairing (pe_save enc e)). apply save_open; auto.
  apply pe_inv_appends, pe_inv_new.
Qed.
Print Assumptions C75_save_and_open.

(** Without embeddings it cannot be opened again. *)
Theorem C75_save_and_open_empty_refuted :
  forall dec enc, json_ok dec enc ->
    let '(embeddings, words) := pe_save enc pe_new in
    pe_open dec (Some embeddings) (Some words) = Fail Panicked.
Proof. intros dec enc Hj. reflexivity. Qed.
Print Assumptions C75_save_and_open_empty_refuted.

(** one file without the other is refused *)
Theorem C75_open_needs_both :
  forall dec b s, pe_open dec (Some b) None = Fail Panicked /\ pe_open dec None (Some s) = Fail Panicked /\ pe_open dec None None = Ok pe_new.
Proof. intros. repeat split. Qed.
Print Assumptions C75_open_needs_both.

(** A concrete history with a word given twice and a vector of another dimension. *)
Definition ex75 : list (str * list f32) :=
  [([97], [f32_of_Z 1; f32_of_Z 2]); ([98], [f32_of_Z 3]); ([97], [f32_of_Z 5; f32_of_Z 5]); ([99], [f32_of_Z 7; f32_of_Z (-7)])]%N.
Example C75_save_and_open_nonvacuous :
  json_ok jdec jenc /\ 0 < pe_len (fst (pe_appends pe_new ex75)) /\ fits64 (fwidth (se_embs (pe_emb (fst (pe_appends pe_new ex75))))).
Proof. split; [exact C57_json_ok|]. split; [vm_compute; lia|]. vm_compute. reflexivity. Qed.
Example C75_get_embedding_nonvacuous :
  dims 2 (map snd (firstn 1 ex75 ++ skipn 2 ex75)) /\ length (first_entries [] (firstn 1 ex75 ++ skipn 2 ex75)) = 2.
Proof. split; [split; [lia|repeat constructor]|]. vm_compute. reflexivity. Qed.
