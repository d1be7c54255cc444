(** * Non-vacuity of C67, C68 *)
From Coq Require Import ZArith Reals Lra Lia.
From Flocq Require Import Core IEEE754.BinarySingleNaN.
From Verif Require Import Base BaseFacts Bytes PBytes MSliceVec SSliceVec PFixed PVar MIndexIo SIndexIo PIndexCrash MSearch SSearch MBuild SBuild MReorder MFloat MFloatBits MAngular SAngular MLayerSize SLayerSize TLayerSize.
From Verif Require Import PF32 PCode PAngInt PAng PQuant PDense PDenseHist PBuilder PHistory PHistGen SPipeline TSlice TVectors MEmbed SEmbed PEmbed PEmbed2 MParse SParse PParse TBuild PParse3 TParse MPyIndex SPyIndex PPipelineB PPyIndex PPyWords PPyMain TPyIndex TPyWords.
Close Scope R_scope. Close Scope Z_scope.
Open Scope nat_scope.

(** ** Non-vacuity *)
(** a C library under which everything is in one layer *)
Definition flat_libm : libm := mkLibm (fun _ => Bone) (fun _ _ => Bone).
Definition ex_opts : options := mkOptions None None (Some 3) (Some 5) true.
Definition fl (z : Z) : f32 := f32_of_Z z.
Definition vec2 (x y : Z) : pyval := PyFloats [fl x; fl y].
Definition one_thread : schedules := fun _ _ => concat (map (fun i => repeat i 60) (seq 0 8)).
Definition ex_session : list py_call :=
  [PcAppend (vec2 1 0); PcAppend (vec2 0 1); PcAppend (vec2 (-1) 2); PcBuild 3 (Some 2) one_thread; PcAppend (vec2 3 4); PcBuild 3 None one_thread].

Lemma flat_ok : options_ok flat_libm ex_opts.
Proof.
  constructor; cbn [o_num_neighbors o_max_search o_expected_num_elements ex_opts].
  - intros n E. injection E. lia.
  - intros n E. injection E. lia.
  - discriminate.
  - constructor; cbn [powf64 flat_libm]; auto; reflexivity.
  - intros n _ _. constructor; reflexivity.
Qed.
Lemma flat_few n : few_layers flat_libm ex_opts n.
Proof.
  intros k _. set (e := layer_exponent flat_libm _ _).
  assert (E : B2SF e = SpecFloat.S754_finite false 4503599627370496 (-52)) by (vm_compute; reflexivity).
  rewrite <- SF2R_B2SF, E. unfold SF2R, F2R. cbn. lra.
Qed.
Lemma ex_int : Forall (int_value 2) (appended ex_session).
Proof. repeat constructor; (eexists; split; [reflexivity|]; split; [reflexivity|]; repeat constructor). Qed.

(** a session of appends and builds that succeeds; the hypotheses of
    [C67_angular_int] hold of it *)
Example C67_angular_int_nonvacuous :
  options_ok flat_libm ex_opts /\ few_layers flat_libm ex_opts 4 /\ Forall (int_value 2) (appended ex_session) /\
  (let* p0 := pb_new Release 20 isort (fun _ => None) flat_libm s_angular_int None None None None ex_opts in
   let* p := py_session Release 20 isort p0 ex_session in
   let* ix := pb_save_index Release p in
   let* q := pi_open (fun _ => None) ix s_angular_int (pb_save_elements p) None None in
   let* n := pi_len q in
   let* e := pi_get_element Release q 2 in
   let* r := pi_search Release 20 q (vec2 2 3) None (Some 2) in
   Ok (n, e, map fst r)) = Ok (4, PeInts [-63; 127]%Z, [3; 1]).
Proof. split; [exact flat_ok|]. split; [apply flat_few|]. split; [exact ex_int|]. vm_compute. reflexivity. Qed.

(** a check for [tame] *)
Definition tame_check (v : list f32) : bool :=
  forallb (fun x => is_finite x && Bleb (Babs x) (f32_of_Z 1024)) v && existsb (fun x => Bleb f32_one (Babs x)) v.
Lemma tame_checked v : tame_check v = true -> tame v.
Proof.
  unfold tame_check. intros H. apply andb_prop in H as [H1 H2].
  assert (HF : Forall (fun x => is_finite x = true /\ (Rabs (B2R x) <= 1024)%R) v).
  { apply Forall_forall. intros x Hx. rewrite forallb_forall in H1. specialize (H1 x Hx). apply andb_prop in H1 as [F B]. split; [exact F|].
    rewrite (Bleb_correct 24 128 (Babs x) (f32_of_Z 1024)) in B by (rewrite ?is_finite_Babs; auto). rewrite B2R_Babs in B.
    replace (B2R (f32_of_Z 1024)) with 1024%R in B; [|unfold B2R; cbn; unfold F2R; cbn; lra].
    destruct (Rle_bool_spec (Rabs (B2R x)) 1024); [assumption|discriminate]. }
  assert (HE : Exists (fun x => (1 <= Rabs (B2R x))%R) v).
  { apply existsb_exists in H2 as (x & Hx & B). apply Exists_exists. exists x. split; [exact Hx|].
    rewrite Forall_forall in HF. destruct (HF x Hx) as [F _].
    rewrite (Bleb_correct 24 128 f32_one (Babs x)) in B by (rewrite ?is_finite_Babs; auto). rewrite B2R_Babs in B.
    replace (B2R f32_one) with 1%R in B; [|unfold B2R; cbn; unfold F2R; cbn; lra].
    destruct (Rle_bool_spec 1 (Rabs (B2R x))); [assumption|discriminate]. }
  split; [eapply Forall_impl; [|exact HF]; cbn; tauto|]. left. unfold scaled.
  assert (B : (bpow radix2 (-50) <= 1 /\ 1024 <= bpow radix2 50)%R).
  { split; [change 1%R with (bpow radix2 0)|change 1024%R with (bpow radix2 10)]; apply bpow_le; lia. }
  cut (1 <= max_mag v <= 1024)%R; [lra|]. clear -HF HE. split.
  - apply Exists_exists in HE as (x & Hx & H). eapply Rle_trans; [exact H|]. now apply max_mag_in.
  - clear HE. induction HF as [|x v [_ H] _ IH]; cbn [max_mag]; [lra|]. apply Rmax_lub; auto.
Qed.

Lemma ex_float : Forall (float_value 2) (appended ex_session).
Proof. repeat constructor; (eexists; split; [reflexivity|]; split; [reflexivity|]; apply tame_checked; vm_compute; reflexivity). Qed.
Example C67_angular_nonvacuous :
  Forall (float_value 2) (appended ex_session) /\ rounds 2 = 34 /\
  (let* p0 := pb_new Release 20 isort (fun _ => None) flat_libm s_angular None None None None ex_opts in
   let* p := py_session Release 20 isort p0 ex_session in
   let* ix := pb_save_index Release p in
   let* q := pi_open (fun _ => None) ix s_angular (pb_save_elements p) None None in
   let* n := pi_len q in
   let* r := pi_search Release 20 q (vec2 2 3) None (Some 2) in
   Ok (n, map fst r)) = Ok (4, [3; 1]).
Proof. split; [exact ex_float|]. split; [reflexivity|]. vm_compute. reflexivity. Qed.

(** words "ab", "c", "d" with three vectors; the texts "c ab", "d", "zz" and "d d" *)
Definition ex_embs : list (list f32) := [[fl 1; fl 0]; [fl 0; fl 1]; [fl (-1); fl 2]].
Definition ex_texts : list (str * list str) :=
  [([99; 32; 97; 98], [[99]; [97; 98]]); ([100], [[100]]); ([122; 122], [[122; 122]]); ([100; 32; 100], [[100]; [100]])]%N.
Definition ex_wsession : list py_call :=
  map (fun x => PcAppend (PyText (fst x))) ex_texts ++ [PcBuild 3 (Some 3) one_thread; PcBuild 3 None one_thread].
Definition ex_vfile : list N := fst (fw_write f32r (mkFw (concat ex_embs) 2)).
Definition ex_wfile : str := text_file (map jenc ex_words).

Lemma ex_tokens : Forall (fun x => tokens (fst x) (snd x)) ex_texts.
Proof.
  apply Forall_forall. intros x Hx. destruct (tokens_exists (fst x)) as (ws & H). pose proof (tokens_split H) as E.
  assert (E2 : split_whitespace (fst x) = snd x) by (cbn [ex_texts In] in Hx; repeat destruct Hx as [<-|Hx]; try contradiction; vm_compute; reflexivity).
  rewrite <- E2, E. exact H.
Qed.
Definition is_zero32 (x : f32) : bool := match x with B754_zero _ => true | _ => false end.
Lemma ex_vectors : Forall (text_value 2 ex_embs ex_words) (appended ex_wsession).
Proof.
  assert (T : forall t v, In t (map fst ex_texts) -> text_vector 2 ex_embs ex_words t v -> tame v).
  { intros t v Ht (toks & Hk & Hv). apply in_map_iff in Ht as (x & <- & Hx). pose proof (tokens_split Hk) as E. subst toks.
    destruct (@create_ok f32 f32_add f32_zero 2 ex_embs [] Release (known_ids ex_words (split_whitespace (fst x)))) as (r & Er & Hr).
    { split; [lia|]. repeat constructor. }
    { eapply Forall_impl; [|apply known_range]; [cbn; lia|]. repeat constructor; cbn; intuition discriminate. }
    assert (v = r) by (eapply is_embedding_unique; eauto). subst r. clear Hr Hv.
    assert (HT : Forall (fun x => match se_create_embedding f32_add f32_zero Release (se_of 2 ex_embs []) (known_ids ex_words (split_whitespace (fst x))) with
        Ok r => tame_check r || forallb is_zero32 r | Fail _ => false end = true) ex_texts) by (repeat constructor).
    rewrite Forall_forall in HT. specialize (HT x Hx). rewrite Er in HT. apply orb_prop in HT as [HT|HT]; [now apply tame_checked|].
    rewrite forallb_forall in HT. assert (Z0 : fzeros v) by (apply Forall_forall; intros y Hy; specialize (HT y Hy); destruct y; cbn in *; auto; discriminate).
    split; [now apply zeros_finite|now right]. }
  cbn [ex_wsession ex_texts map appended app fst]. repeat constructor; (eexists; split; [reflexivity|]; intros v Hv; eapply T; [|exact Hv]; cbn; auto).
Qed.

Example C67_embeddings_nonvacuous :
  vectors_file 2 ex_embs ex_vfile /\ words_file jdec ex_words ex_wfile /\ NoDup ex_words /\
  Forall (text_value 2 ex_embs ex_words) (appended ex_wsession) /\
  (let* p0 := pb_new Release 20 isort jdec flat_libm s_embeddings None (Some ex_vfile) (Some ex_wfile) None ex_opts in
   let* p := py_session Release 20 isort p0 ex_wsession in
   let* ix := pb_save_index Release p in
   let* q := pi_open jdec ix s_embeddings (pb_save_elements p) (Some ex_vfile) (Some ex_wfile) in
   let* n := pi_len q in
   let* e := pi_get_internal_element Release q 0 in
   let* r := pi_search Release 20 q (PyText [99; 100]%N) None None in
   let* s := pi_search Release 20 q (PyText [99; 32; 100]%N) None (Some 3) in
   Ok (n, e, length r, map fst s)) = Ok (4, PeText [99; 32; 97; 98]%N, 3, [1; 3; 0]).
Proof.
  split; [exists (mkFw (concat ex_embs) 2); split; [split; [reflexivity|]; split; [reflexivity|repeat constructor]|reflexivity]|].
  split; [exists (map jenc ex_words); split; [apply Forall_forall; intros x Hx; apply in_map_iff in Hx as (y & <- & _); apply C57_json_ok|]; split; [cbn [map ex_words]; repeat constructor|reflexivity]|].
  split; [repeat constructor; cbn; intuition discriminate|]. split; [exact ex_vectors|].
  vm_compute. reflexivity.
Qed.
