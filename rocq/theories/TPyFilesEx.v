(** * Non-vacuity of C84 *)
From Coq Require Import ZArith.
From Verif Require Import Base Bytes MIndexIo MSearch MBuild MParse MPyIndex SPyIndex SPyMore SPyReorder MFiles SFiles MPyFiles SPyFiles PPyFiles TBuild TPyEx TPyMoreEx TPyReorderEx.
Open Scope nat_scope.

Definition f_index : path := [Name [105]%N].
Definition f_elems : path := [Name [101]%N].
Definition f_other : path := [Name [120]%N].
Definition f_other2 : path := [Name [121]%N].
Definition ex_utf8 (b : list N) : option str := Some b.
Definition ex_json (_ : str) : option str := None.
(** the files of the example of C71: an index of eight vectors in three layers *)
Definition ex_saved : outcome (disk * list N * list N) :=
  let* q := ex_index s_angular_int in
  let* ix := pi_save_index Release q in
  Ok ([(f_index, File ix); (f_elems, File (pi_save_elements q))], ix, pi_save_elements q).
Definition open_ex (d : disk) (ip ep : path) : outcome open_index := open_at ex_utf8 ex_json d s_angular_int ip ep None None.
(** 0: an answer, 1: an error, 2: killed *)
Definition kind {A} (r : reply A) : nat := match r with Reply (Ok _) => 0 | Reply (Fail _) => 1 | Crashed => 2 end.
Definition holds (d : disk) (p : path) (b : list N) : bool := intact d p b.

Example C84_saves_elsewhere_nonvacuous :
  (let* x := ex_saved in let '(d, ix, el) := x in
   let* o := open_ex d f_index f_elems in
   let '(d', _, rs) := calls_at Release 20 d o [CLen; CSaveIndex f_other; CSearch (vec2 2 3) None (Some 2); CSaveElements f_other2; CReorder; CSaveElements f_other; CLen] in
   let* q := ex_index s_angular_int in
   Ok (map kind rs, holds d' f_index ix, holds d' f_elems el, holds d' f_other2 el, holds d' f_other el, length ix <? 2000)) =
  Ok ([0; 0; 0; 0; 0; 0; 0], true, true, true, false, true).
Proof. vm_compute. reflexivity. Qed.

Example C84_own_files_refuted_nonvacuous :
  (let* x := ex_saved in let '(d, ix, el) := x in
   let* o := open_ex d f_index f_elems in
   let '(d1, _, r1) := calls_at Release 20 d o [CLen; CSaveIndex f_index; CLen] in
   let '(d2, _, r2) := calls_at Release 20 d o [CLen; CSaveElements f_elems; CLen] in
   let '(d3, _, r3) := calls_at Release 20 d o [CSaveIndex f_elems; CLen; CGetElement 0; CLen] in
   Ok (map kind r1, holds d1 f_index [], map kind r2, holds d2 f_elems [], map kind r3)) =
  Ok ([0; 2], true, [0; 2], true, [0; 0; 2]).
Proof. vm_compute. reflexivity. Qed.

(** reordered and saved over its own files, opened again, saved to other files, and once more *)
Definition ex_disk_steps : list disk_step := [DReorder; DSaveOpen f_index f_elems; DSaveOpen f_other f_other2; DReorder; DSaveOpen f_other f_elems].
Lemma creatable_ex d n : node_at d [Name n] <> Some Dir -> creatable d [Name n].
Proof. intros H. exists [], n. split; [reflexivity|]. split; [now left|exact H]. Qed.
Lemma ex_apart d : node_at d f_index <> Some Dir -> node_at d f_elems <> Some Dir -> node_at d f_other <> Some Dir -> node_at d f_other2 <> Some Dir ->
  steps_apart d [f_index; f_elems] [] ex_disk_steps.
Proof.
  intros H1 H2 H3 H4. unfold ex_disk_steps. cbn [steps_apart app].
  repeat split; try (apply creatable_ex; assumption); try discriminate; cbn; intuition discriminate.
Qed.
Example C84_lives_nonvacuous :
  (forall ix el, steps_apart [(f_index, File ix); (f_elems, File el)] [f_index; f_elems] [] ex_disk_steps) /\
  (let* x := ex_saved in let '(d, ix, el) := x in
   let* o := open_ex d f_index f_elems in
   let* r := (match disk_life Release 20 ex_utf8 ex_json s_angular_int None None d o ex_disk_steps with Some r => r | None => Fail OutOfFuel end) in
   let '(d', o', orders) := r in
   let* q := ex_index s_angular_int in
   let* m := index_life Release 20 ex_json s_angular_int None None q (map step_of ex_disk_steps) in
   Ok (orders, holds d' f_index ix, holds d' f_other2 el, snd m)) =
  Ok ([[0; 1; 2; 3; 6; 7; 4; 5]; [0; 1; 2; 3; 4; 5; 6; 7]], false, false, [[0; 1; 2; 3; 6; 7; 4; 5]; [0; 1; 2; 3; 4; 5; 6; 7]]).
Proof.
  split; [intros ix el; apply ex_apart; cbn; discriminate|]. vm_compute. reflexivity.
Qed.

(** a builder over the same files *)
Definition open_ex_builder (d : disk) : outcome open_builder :=
  builder_at Release 20 isort ex_utf8 ex_json three_libm d s_angular_int (Some f_elems) None None (Some f_index) ex_opts.
Example C84_builder_nonvacuous :
  (let* x := ex_saved in let '(d, ix, el) := x in
   let* o := open_ex_builder d in
   let '(d1, _, r1) := b_calls_at Release 20 isort d o [BLen; BSaveIndex f_index; BSaveElements f_other; BLen; BBuild None 3 one_thread; BSaveIndex f_index] in
   let '(d2, _, r2) := b_calls_at Release 20 isort d o [BLen; BSaveElements f_elems] in
   let '(d3, _, r3) := b_calls_at Release 20 isort d o [BAppend (vec2 1 2); BSaveElements f_elems; BSaveIndex f_index; BNumElements] in
   Ok (map kind r1, holds d1 f_index ix, holds d1 f_other el, map kind r2, holds d2 f_elems [], map kind r3, holds d3 f_elems el)) =
  Ok ([0; 0; 0; 0; 0; 0], true, true, [0; 2], true, [0; 0; 0; 0], false).
Proof. vm_compute. reflexivity. Qed.
