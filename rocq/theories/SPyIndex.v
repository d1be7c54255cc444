(** * Specification vocabulary for the Python classes *)
From Coq Require Import ZArith Reals.
From Flocq Require Import Core IEEE754.BinarySingleNaN.
From Verif Require Import Base Bytes MSliceVec SSliceVec MIndexIo SIndexIo MSearch SSearch MBuild SBuild MFloat MFloatBits MAngular SAngular MLayerSize SLayerSize MEmbed SEmbed MParse SParse MPyIndex.
Close Scope R_scope. Close Scope Z_scope.
Open Scope nat_scope.

(** A session with a [GranneBuilder]: [append(x)] and [build(num_elements)]; a
    build comes with its parallel schedules. *)
Inductive py_call :=
| PcAppend (x : pyval)
| PcBuild (f : nat) (num_elements : option nat) (sched : schedules).
Fixpoint py_session (m : mode) (fuel : nat) (usort : list (nat * Z) -> list (nat * Z)) (p : py_builder) (cs : list py_call)
  : outcome py_builder :=
  match cs with
  | [] => Ok p
  | PcAppend x :: cs => let* p := pb_append m fuel usort p x in py_session m fuel usort p cs
  | PcBuild f n sched :: cs => let* p := pb_build m fuel usort f p n sched in py_session m fuel usort p cs
  end.

(** the values appended, in order *)
Fixpoint appended (cs : list py_call) : list pyval :=
  match cs with
  | [] => []
  | PcAppend x :: cs => x :: appended cs
  | _ :: cs => appended cs
  end.

(** calls of [append(x)] and [build()] *)
Definition complete (c : py_call) : Prop := match c with PcBuild _ (Some _) _ => False | _ => True end.

(** [res] answers [query] by the first [n] of the [values]: at most
    [num_elements] and at most [max_search] results, closest first, no index
    twice, each with the distance of the value with that index to the query;
    there is a result if there are values. *)
Definition py_answers (dist : pyval -> pyval -> Z -> Prop) (values : list pyval) (n : nat) (query : pyval)
  (max_search num_elements : nat) (res : list (nat * Z)) : Prop :=
  length res <= Nat.min num_elements max_search /\ StronglySorted closer res /\ NoDup (map fst res) /\
  (forall i d, In (i, d) res -> i < n /\ exists x, nth_error values i = Some x /\ dist x query d) /\
  (0 < n -> 0 < num_elements -> res <> []).

(** the arguments of [search], or their documented defaults *)
Definition search_args (max_search num_elements : option nat) : nat * nat :=
  (match max_search with Some n => n | None => 200 end, match num_elements with Some n => n | None => 10 end).

(** vectors for angular_int: of dimension [w], no NaN *)
Definition no_nan (v : list f32) : Prop := Forall (fun x => is_nan x = false) v.
Definition int_value (w : nat) (x : pyval) : Prop := exists v, x = PyFloats v /\ length v = w /\ no_nan v.
(** vectors for angular: of dimension [w], finite, all zero or neither tiny nor huge *)
Definition tame (v : list f32) : Prop := finite_vec v /\ (scaled v \/ fzeros v).
Definition float_value (w : nat) (x : pyval) : Prop := exists v, x = PyFloats v /\ length v = w /\ tame v.

(** ** Texts, for the words [ws] with vectors [embs] of dimension [w] *)
(** the text [t] has the words [toks], [v] is the sum of the vectors of the known ones *)
Definition text_vector (w : nat) (embs : list (list f32)) (ws : list str) (t : str) (v : list f32) : Prop :=
  exists toks, tokens t toks /\ is_embedding f32_add f32_zero w embs (known_ids ws toks) v.
(** the known words of a text *)
Definition known_words (ws : list str) (t : str) (kw : list str) : Prop :=
  exists toks, tokens t toks /\ kw = filter (fun x => if in_dec (list_eq_dec N.eq_dec) x ws then true else false) toks.
(** a text, or a vector, and its vector *)
Inductive value_vector (w : nat) (embs : list (list f32)) (ws : list str) : pyval -> list f32 -> Prop :=
| vv_text t v : text_vector w embs ws t v -> value_vector w embs ws (PyText t) v
| vv_floats v : length v = w -> value_vector w embs ws (PyFloats v) v.
(** the distance of two values: that of their vectors *)
Definition value_distance (w : nat) (embs : list (list f32)) (ws : list str) (x y : pyval) (d : Z) : Prop :=
  exists u v, value_vector w embs ws x u /\ value_vector w embs ws y v /\
    py_compute_distance Release s_angular (PyFloats u) (PyFloats v) = Ok d.
(** a text whose vector is tame *)
Definition text_value (w : nat) (embs : list (list f32)) (ws : list str) (x : pyval) : Prop :=
  exists t, x = PyText t /\ forall v, text_vector w embs ws t v -> tame v.

(** the known words of some texts *)
Definition texts_words (ws : list str) (xs : list pyval) (kws : list (list str)) : Prop :=
  Forall2 (fun x kw => exists t, x = PyText t /\ known_words ws t kw) xs kws.
(** a query: a text or a vector *)
Definition word_query (w : nat) (embs : list (list f32)) (ws : list str) (y : pyval) : Prop :=
  text_value w embs ws y \/ float_value w y.
(** the file [file] lists the words [ws], in order, for the JSON decoder [json] *)
Definition words_file (json : str -> option str) (ws : list str) (file : str) : Prop :=
  exists wl, Forall is_line wl /\ Forall2 (fun l w => json l = Some w) wl ws /\ file = text_file wl.
(** the file [file] holds the vectors [embs] of dimension [w] *)
Definition vectors_file (w : nat) (embs : list (list f32)) (file : list N) : Prop :=
  exists v, fw_is w embs v /\ file = fst (fw_write f32r v).

(** ** Options *)
Definition or_default {A} (x : option A) (d : A) : A := match x with Some a => a | None => d end.
Definition multiplier (o : options) : f64 := f64_of_f32 (or_default (o_layer_multiplier o) (f32_of_Z 15)).
(** options to build with, for the C library [L]: at least one neighbour and at
    most 254, [max_search] at least 1, a multiplier the library handles *)
Record options_ok (L : libm) (o : options) : Prop := mkOptionsOk {
  oo_nn : forall n, o_num_neighbors o = Some n -> 0 < n <= 254;
  oo_ms : forall n, o_max_search o = Some n -> 0 < n;
  oo_ex : forall n, o_expected_num_elements o = Some n -> fits_usize n;
  oo_pow : pow_up L (multiplier o);
  oo_log : forall n, 1 <= n -> fits_usize n -> log_ok L (multiplier o) n
}.
(** up to [N] elements need at most 25 layers *)
Definition few_layers (L : libm) (o : options) (N : nat) : Prop :=
  forall n, 1 <= n <= N -> (B2R (layer_exponent L (Nat.max (or_default (o_expected_num_elements o) n) n) (multiplier o)) <= 24)%R.

(** ** What to expect of a builder, [p], to which [values] were appended, and of
    the index opened from the files it saves *)
Definition works (json : str -> option str) (fuel : nat) (element_type : str) (embeddings : option (list N)) (words : option str)
  (dist : pyval -> pyval -> Z -> Prop) (query : pyval -> Prop) (element internal : pyval -> pyelem -> Prop)
  (p : py_builder) (values : list pyval) (n : nat) : Prop :=
  pb_num_elements Release p = length values /\ pb_len p = Ok n /\ n <= length values /\
  exists index q,
    pb_save_index Release p = Ok index /\
    pi_open json index element_type (pb_save_elements p) embeddings words = Ok q /\
    pi_len q = Ok n /\ same_index Release (pb_layers p) (pi_layers q) /\
    (forall i x, nth_error values i = Some x -> exists e, pi_get_element Release q i = Ok e /\ element x e) /\
    (forall i x, nth_error values i = Some x -> exists e, pi_get_internal_element Release q i = Ok e /\ internal x e) /\
    (forall y ms nn, query y -> ms <> Some 0 -> exists res, pi_search Release fuel q y ms nn = Ok res /\
       py_answers dist values n y (fst (search_args ms nn)) (snd (search_args ms nn)) res).
