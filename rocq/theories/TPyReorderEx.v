(** * Non-vacuity of C71 *)
From Coq Require Import ZArith Reals Lra Lia.
From Flocq Require Import Core IEEE754.BinarySingleNaN.
From Verif Require Import Base Bytes MIndexIo MSearch SBuild MBuild MFloat MAngular SAngular MLayerSize SLayerSize TBuild MParse SParse MPyIndex SPyIndex SPyMore SPyReorder TParse TPyEx TPyMoreEx.
Close Scope R_scope. Close Scope Z_scope.
Open Scope nat_scope.

(** a C library under which there are three layers *)
Definition f64z (z : Z) : f64 := f64_of_f32 (f32_of_Z z).
Definition three_libm : libm := mkLibm (fun x => if Beqb x (f64z 15) then Bone else f64z 2) (fun _ y =>
  match y with B754_finite false _ _ _ => if Bleb (f64z 2) y then f64z 4 else f64z 2 | B754_infinity false => f64z 4 | _ => Bone end).
Lemma three_exponent n : layer_exponent three_libm n (f64z 15) = f64z 2 \/ layer_exponent three_libm n (f64z 15) = Bone.
Proof.
  unfold layer_exponent, log64. cbn [ln64 three_libm]. assert (E : Beqb (f64z 15) (f64z 15) = true) by reflexivity. rewrite E.
  destruct (Beqb (f64_of_usize n) (f64z 15)); [right|left]; apply B2SF_inj; vm_compute; reflexivity.
Qed.
Lemma three_ok o : o_layer_multiplier o = None -> o_expected_num_elements o = None -> (forall n, o_num_neighbors o = Some n -> 0 < n <= 254) ->
  (forall n, o_max_search o = Some n -> 0 < n) -> options_ok three_libm o.
Proof.
  intros Em Ee Hn Hm. assert (EM : multiplier o = f64z 15) by (unfold multiplier; rewrite Em; reflexivity). constructor; auto.
  - rewrite Ee. discriminate.
  - constructor; cbn [powf64 three_libm].
    + intros [[]|[]| |[] mm e B] H; try discriminate; try (split; reflexivity). destruct (Bleb _ _); split; reflexivity.
    + intros x y H. destruct x as [[]|[]| |[] mm e B], y as [[]|[]| |[] m2 e2 B2]; try discriminate; try reflexivity;
      try (destruct (Bleb (f64z 2) _); reflexivity).
      assert (Htr : forall x y : f64, is_finite x = true -> is_finite y = true -> Bleb x y = true -> Bleb (f64z 2) x = true -> Bleb (f64z 2) y = true).
      { intros x y Fx Fy H1 H2. rewrite Bleb_correct in * by auto.
        destruct (Rle_bool_spec (B2R x) (B2R y)); [|discriminate]. destruct (Rle_bool_spec (B2R (f64z 2)) (B2R x)); [|discriminate]. apply Rle_bool_true. lra. }
      specialize (Htr (B754_finite false mm e B) (B754_finite false m2 e2 B2) eq_refl eq_refl H). destruct (Bleb (f64z 2) (B754_finite false mm e B)); [rewrite (Htr eq_refl); reflexivity|].
      destruct (Bleb (f64z 2) _); reflexivity.
    + reflexivity.
  - intros n _ _. rewrite EM. constructor; cbn [powf64 three_libm]; destruct (three_exponent n) as [-> | ->]; reflexivity.
Qed.
Lemma three_few o n : o_layer_multiplier o = None -> few_layers three_libm o n.
Proof.
  intros Em k _. assert (EM : multiplier o = f64z 15) by (unfold multiplier; rewrite Em; reflexivity). rewrite EM.
  destruct (three_exponent (Nat.max (or_default (o_expected_num_elements o) k) k)) as [-> | ->]; rewrite <- SF2R_B2SF; unfold SF2R, F2R; cbn; lra.
Qed.
Lemma ex_opts_three : options_ok three_libm ex_opts.
Proof. apply three_ok; try reflexivity; cbn; intros n E; injection E; lia. Qed.
(** eight vectors; the last four are close to the first four, in reverse *)
Definition re_session : list py_call :=
  [PcAppend (vec2 1 0); PcAppend (vec2 0 1); PcAppend (vec2 (-1) 0); PcAppend (vec2 1 (-9)); PcAppend (vec2 1 (-8)); PcBuild 3 None one_thread].
Definition re_stages : list py_stage := [mkStage false ex_opts [PcAppend (vec2 (-3) 1); PcAppend (vec2 1 5); PcAppend (vec2 7 1); PcBuild 3 None one_thread]].
Lemma re_stages_three n : Forall (stage_ok three_libm n) re_stages.
Proof. unfold re_stages. constructor; [|constructor]; split; auto using ex_opts_three, three_few. Qed.
Lemma re_int : Forall (int_value 2) (all_appended re_session re_stages).
Proof. repeat constructor; (eexists; split; [reflexivity|]; split; [reflexivity|]; repeat constructor). Qed.
Lemma re_float : Forall (float_value 2) (all_appended re_session re_stages).
Proof. repeat constructor; (eexists; split; [reflexivity|]; split; [reflexivity|]; apply tame_checked; vm_compute; reflexivity). Qed.
Definition ex_steps : list index_step := [Reorder; SaveOpen; Reorder].
Definition ex_index (ety : str) : outcome py_index :=
  let* p0 := pb_new Release 20 isort (fun _ => None) three_libm ety None None None None ex_opts in
  let* p := py_session Release 20 isort p0 re_session in
  let* p := py_lives Release 20 isort (fun _ => None) three_libm ety None None p re_stages in
  let* ix := pb_save_index Release p in
  pi_open (fun _ => None) ix ety (pb_save_elements p) None None.
Example C71_angular_int_nonvacuous :
  options_ok three_libm ex_opts /\ few_layers three_libm ex_opts 8 /\ Forall (stage_ok three_libm 8) re_stages /\
  Forall (int_value 2) (all_appended re_session re_stages) /\ finished (last_session re_session re_stages) /\
  (let* q := ex_index s_angular_int in
   let* r := index_life Release 20 (fun _ => None) s_angular_int None None q ex_steps in
   let* s := pi_search Release 20 q (vec2 2 3) None (Some 2) in
   let* s' := pi_search Release 20 (fst r) (vec2 2 3) None (Some 2) in
   Ok (pi_num_layers q, snd r, combined 8 (snd r), map fst s, map fst s')) = 
  Ok (3, [[0; 1; 2; 3; 6; 7; 4; 5]; [0; 1; 2; 3; 4; 5; 6; 7]], [0; 1; 2; 3; 6; 7; 4; 5], [6; 1], [4; 1]).
Proof.
  split; [exact ex_opts_three|]. split; [now apply three_few|]. split; [apply re_stages_three|]. split; [exact re_int|].
  split; [exists [PcAppend (vec2 (-3) 1); PcAppend (vec2 1 5); PcAppend (vec2 7 1)], 3, one_thread; reflexivity|]. vm_compute. reflexivity.
Qed.

Example C71_angular_nonvacuous :
  Forall (float_value 2) (all_appended re_session re_stages) /\
  (let* q := ex_index s_angular in
   let* r := index_life Release 20 (fun _ => None) s_angular None None q ex_steps in
   let* s := pi_search Release 20 q (vec2 2 3) None (Some 2) in
   let* s' := pi_search Release 20 (fst r) (vec2 2 3) None (Some 2) in
   Ok (pi_num_layers q, combined 8 (snd r), map fst s, map fst s')) = Ok (3, [0; 1; 2; 3; 6; 7; 4; 5], [6; 1], [4; 1]).
Proof. split; [exact re_float|]. vm_compute. reflexivity. Qed.

(** the texts of C70's example, in one layer *)
Definition ex_windex : outcome py_index :=
  let* p0 := pb_new Release 20 isort jdec flat_libm s_embeddings None (Some ex_vfile) (Some ex_wfile) None ex_opts in
  let* p := py_session Release 20 isort p0 ex_wsession in
  let* p := py_lives Release 20 isort jdec flat_libm s_embeddings (Some ex_vfile) (Some ex_wfile) p ex_wstages in
  let* ix := pb_save_index Release p in
  pi_open jdec ix s_embeddings (pb_save_elements p) (Some ex_vfile) (Some ex_wfile).
Lemma nan_checked (l : list (list f32)) : forallb (forallb (fun x => negb (is_nan x))) l = true -> Forall no_nan l.
Proof.
  intros H. apply Forall_forall. intros v Hv. rewrite forallb_forall in H. specialize (H v Hv). apply Forall_forall. intros x Hx.
  rewrite forallb_forall in H. specialize (H x Hx). now destruct (is_nan x).
Qed.
Example C71_embeddings_nonvacuous :
  Forall no_nan ex_embs /\
  (let* q := ex_windex in
   let* r := index_life Release 20 jdec s_embeddings (Some ex_vfile) (Some ex_wfile) q ex_steps in
   let* es := omapM (pi_get_internal_element Release q) (seq 0 5) in
   let* es' := omapM (pi_get_internal_element Release (fst r)) (seq 0 5) in
   let* s := pi_search Release 20 (fst r) (PyText [99; 32; 100]%N) None (Some 4) in
   Ok (snd r, es, es', length s)) =
  Ok ([[2; 0; 1; 4; 3]; [0; 1; 2; 3; 4]],
      [PeText [99; 32; 97; 98]%N; PeText [100]%N; PeText []; PeText [100; 32; 100]%N; PeText [100]%N],
      [PeText []; PeText [99; 32; 97; 98]%N; PeText [100]%N; PeText [100]%N; PeText [100; 32; 100]%N], 1).
Proof. split; [apply nan_checked; vm_compute; reflexivity|]. vm_compute. reflexivity. Qed.

(** The index of vectors of C70's example has a single layer. *)
Example C71_single_layer_nonvacuous :
  (let* p0 := pb_new Release 20 isort (fun _ => None) flat_libm s_angular_int None None None None ex_opts in
   let* p := py_session Release 20 isort p0 ex_session in
   let* ix := pb_save_index Release p in
   let* q := pi_open (fun _ => None) ix s_angular_int (pb_save_elements p) None None in
   Ok (pi_num_layers q, pi_reorder Release 20 q)) = Ok (1, Fail Panicked).
Proof. vm_compute. reflexivity. Qed.
