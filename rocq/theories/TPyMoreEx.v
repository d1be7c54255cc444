(** * Non-vacuity of C70 *)
From Coq Require Import ZArith Reals Lra Lia.
From Flocq Require Import Core IEEE754.BinarySingleNaN.
From Verif Require Import Base Bytes MIndexIo MSearch SBuild MBuild MFloat MAngular SAngular MLayerSize SLayerSize TBuild MParse SParse MPyIndex SPyIndex SPyMore TParse TPyEx.
Close Scope R_scope. Close Scope Z_scope.
Open Scope nat_scope.

(** options with fewer neighbours *)
Definition ex_opts2 : options := mkOptions None None (Some 2) (Some 4) true.
Lemma flat_ok2 : options_ok flat_libm ex_opts2.
Proof.
  constructor; cbn [o_num_neighbors o_max_search o_expected_num_elements ex_opts2].
  - intros n E. injection E. lia.
  - intros n E. injection E. lia.
  - discriminate.
  - constructor; cbn [powf64 flat_libm]; auto; reflexivity.
  - intros n _ _. constructor; reflexivity.
Qed.
Lemma flat_few2 n : few_layers flat_libm ex_opts2 n.
Proof.
  intros k _. set (e := layer_exponent flat_libm _ _).
  assert (E : B2SF e = SpecFloat.S754_finite false 4503599627370496 (-52)) by (vm_compute; reflexivity).
  rewrite <- SF2R_B2SF, E. unfold SF2R, F2R. cbn. lra.
Qed.

(** after [ex_session]: reopened without the index and with fewer neighbours, then
    with the index and the first options *)
Definition ex_stages : list py_stage :=
  [mkStage false ex_opts2 [PcBuild 3 (Some 2) one_thread; PcAppend (vec2 5 1)];
   mkStage true ex_opts [PcAppend (vec2 2 (-7)); PcBuild 3 None one_thread]].
Lemma ex_stages_ok n : Forall (stage_ok flat_libm n) ex_stages.
Proof. unfold ex_stages. constructor; [|constructor; [|constructor]]; split; auto using flat_ok, flat_ok2, flat_few, flat_few2. Qed.
Lemma ex_more_int : Forall (int_value 2) (all_appended ex_session ex_stages).
Proof. repeat constructor; (eexists; split; [reflexivity|]; split; [reflexivity|]; repeat constructor). Qed.
Lemma ex_more_float : Forall (float_value 2) (all_appended ex_session ex_stages).
Proof. repeat constructor; (eexists; split; [reflexivity|]; split; [reflexivity|]; apply tame_checked; vm_compute; reflexivity). Qed.

Example C70_angular_int_nonvacuous :
  options_ok flat_libm ex_opts /\ few_layers flat_libm ex_opts 6 /\ Forall (stage_ok flat_libm 6) ex_stages /\
  Forall (int_value 2) (all_appended ex_session ex_stages) /\ finished (last_session ex_session ex_stages) /\
  (let* p0 := pb_new Release 20 isort (fun _ => None) flat_libm s_angular_int None None None None ex_opts in
   let* p := py_session Release 20 isort p0 ex_session in
   let* p := py_lives Release 20 isort (fun _ => None) flat_libm s_angular_int None None p ex_stages in
   let* ix := pb_save_index Release p in
   let* q := pi_open (fun _ => None) ix s_angular_int (pb_save_elements p) None None in
   let* n := pi_len q in
   let* e := pi_get_element Release q 5 in
   let* r := pi_search Release 20 q (vec2 2 3) None (Some 2) in
   Ok (n, e, map fst r)) = Ok (6, PeInts [36; -127]%Z, [3; 1]).
Proof.
  split; [exact flat_ok|]. split; [apply flat_few|]. split; [apply ex_stages_ok|]. split; [exact ex_more_int|].
  split; [exists [PcAppend (vec2 2 (-7))], 3, one_thread; reflexivity|]. vm_compute. reflexivity.
Qed.

Example C70_angular_nonvacuous :
  Forall (float_value 2) (all_appended ex_session ex_stages) /\
  (let* p0 := pb_new Release 20 isort (fun _ => None) flat_libm s_angular None None None None ex_opts in
   let* p := py_session Release 20 isort p0 ex_session in
   let* p := py_lives Release 20 isort (fun _ => None) flat_libm s_angular None None p ex_stages in
   let* ix := pb_save_index Release p in
   let* q := pi_open (fun _ => None) ix s_angular (pb_save_elements p) None None in
   let* n := pi_len q in
   let* r := pi_search Release 20 q (vec2 2 3) None (Some 2) in
   Ok (n, map fst r)) = Ok (6, [3; 1]).
Proof. split; [exact ex_more_float|]. vm_compute. reflexivity. Qed.

(** the texts of C67's example, reopened *)
Definition ex_wstages : list py_stage :=
  [mkStage true ex_opts2 [PcAppend (PyText [100]%N)]; mkStage true ex_opts [PcBuild 3 None one_thread]].
Example C70_embeddings_nonvacuous :
  all_appended ex_wsession ex_wstages = appended ex_wsession ++ [PyText (fst (nth 1 ex_texts ([], [])))] /\
  (let* p0 := pb_new Release 20 isort jdec flat_libm s_embeddings None (Some ex_vfile) (Some ex_wfile) None ex_opts in
   let* p := py_session Release 20 isort p0 ex_wsession in
   let* p := py_lives Release 20 isort jdec flat_libm s_embeddings (Some ex_vfile) (Some ex_wfile) p ex_wstages in
   let* ix := pb_save_index Release p in
   let* q := pi_open jdec ix s_embeddings (pb_save_elements p) (Some ex_vfile) (Some ex_wfile) in
   let* n := pi_len q in
   let* e := pi_get_internal_element Release q 0 in
   let* s := pi_search Release 20 q (PyText [99; 32; 100]%N) None (Some 4) in
   Ok (n, e, length s)) = Ok (5, PeText [99; 32; 97; 98]%N, 3).
Proof. split; [reflexivity|]. vm_compute. reflexivity. Qed.
