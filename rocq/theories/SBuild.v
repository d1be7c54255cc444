(** * Specification vocabulary for building *)
From Verif Require Import Base Bytes MSliceVec MOffsets MSetVec MIndexIo SIndexIo MSearch SSearch MBuild.

(** A container whose operations work on all its elements (no panic, no NaN). *)
Record cont_ok {S E} (C : cops S E) (s : S) : Prop := mkContOk {
  ck_get : forall i, i < c_len C s -> exists e, c_get C s i = Ok e;
  ck_dte : forall i j e, i < c_len C s -> j < c_len C s -> c_get C s j = Ok e ->
           exists d, c_dte C s i e = Ok d;
  ck_dist : forall i j, i < c_len C s -> j < c_len C s -> exists d, c_dist C s i j = Ok d;
  ck_dists : forall i js, i < c_len C s -> Forall (fun j => j < c_len C s) js ->
           exists ds, c_dists C s i js = Ok ds /\ length ds = length js
}.

Arguments ck_get {S E C s} _ {i} _.
Arguments ck_dte {S E C s} _ {i j e} _ _ _.
Arguments ck_dist {S E C s} _ {i j} _ _.
Arguments ck_dists {S E C s} _ {i js} _ _.

(** [D n j]: the distance between element [n] and element [j]. *)
Definition pair_dist {S E} (C : cops S E) (s : S) (D : nat -> nat -> Z) : Prop :=
  forall n j, n < c_len C s -> j < c_len C s ->
  exists e, c_get C s j = Ok e /\ c_dte C s n e = Ok (D n j).

(** [sort_unstable_by_key] by distance: some ascending arrangement. *)
Definition sorts_by_dist (srt : list (nat * Z) -> list (nat * Z)) : Prop :=
  forall l, Permutation (srt l) l /\ StronglySorted (fun a b => (snd a <= snd b)%Z) (srt l).

(** the entries of [l] marked [true] *)
Fixpoint pick {A} (keep : list bool) (l : list A) : list A :=
  match keep, l with
  | true :: k, x :: t => x :: pick k t
  | false :: k, _ :: t => pick k t
  | _, _ => []
  end.

(** Row [r] of width [w] holds the neighbour list [ns]: the ids, then only
    unused slots. *)
Definition row_shows (w : nat) (r : list N) (ns : list nat) : Prop :=
  length ns <= w /\ r = map N.of_nat ns ++ repeat UNUSED (w - length ns).

(** [ns] is an admissible neighbour list for node [i] of a layer with [n] nodes. *)
Definition nbrs_ok (n i : nat) (ns : list nat) : Prop :=
  NoDup ns /\ ~ In i ns /\ Forall (fun x => x < n) ns.

(** A layer under construction: [n] rows of width [w], each showing an
    admissible neighbour list. *)
Definition rows_ok (w n : nat) (rows : list (list N)) : Prop :=
  length rows = n /\
  forall i r, nth_error rows i = Some r -> exists ns, row_shows w r ns /\ nbrs_ok n i ns.

(** A finished layer, as stored by the builder. *)
Definition layer_fine (w : nat) (l : fw N) : Prop :=
  fwidth l = w /\ exists rows, fdata l = concat rows /\ rows_ok w (length rows) rows.

(** ** Histories of a builder *)

(** A container on which every operation works; [e_fuel] large enough for it. *)
Record usable {S E} (V : benv S E) (s : S) : Prop := mkUsable {
  us_ok : cont_ok (e_ops V) s;
  us_fuel : c_len (e_ops V) s < e_fuel V
}.

(** [n] is a value of type [usize] (64 bits). *)
Definition fits_usize (n : nat) : Prop := (N.of_nat n < 18446744073709551616)%N.

(** Configurations: at least one neighbour, [max_search] at least 1, and a first
    layer of positive size (C32 proves this of the sizes computed for a
    multiplier greater than 1). *)
Definition cfg_ok (cfg : config) : Prop :=
  0 < k_nn cfg /\ 0 < k_ms cfg /\ (forall x, k_expected cfg = Some x -> fits_usize x) /\
  forall n, 0 < n -> fits_usize n -> 0 < k_ideal cfg n 0.

(** [push] of a container: appends, and changes nothing about the others. *)
Definition push_law {S E I} (C : cops S E) (cpush : S -> I -> outcome S) : Prop :=
  forall s x s', cpush s x = Ok s' ->
    c_len C s' = Datatypes.S (c_len C s) /\
    (forall i, i < c_len C s -> c_get C s' i = c_get C s i) /\
    (forall i j, i < c_len C s -> j < c_len C s -> c_dist C s' i j = c_dist C s i j).

(** Calls of the builder, and their effect in sequence. *)
Inductive call (I : Type) :=
| CPush (x : I)
| CBuildPartial (num fuel : nat) (sched : schedules)
| CBuild (fuel : nat) (sched : schedules).
Arguments CPush {I}. Arguments CBuildPartial {I}. Arguments CBuild {I}.

Definition do_call {S E I} (V : benv S E) (cpush : S -> I -> outcome S) (b : builder S) (c : call I)
  : outcome (builder S) :=
  match c with
  | CPush x => builder_push V cpush b x
  | CBuildPartial num fuel sched => build_partial V fuel b num sched
  | CBuild fuel sched => build V fuel b sched
  end.

(** [calls V cpush b cs b']: the calls [cs] lead from [b] to [b'] without a
    panic, through usable containers only. *)
Inductive calls {S E I} (V : benv S E) (cpush : S -> I -> outcome S)
  : builder S -> list (call I) -> builder S -> Prop :=
| calls_nil b : calls V cpush b [] b
| calls_cons b c b1 cs b' : do_call V cpush b c = Ok b1 -> usable V (b_elems b1) ->
    calls V cpush b1 cs b' -> calls V cpush b (c :: cs) b'.

(** A builder obtained by [new] followed by calls. *)
Definition built_once {S E I} (V : benv S E) (cpush : S -> I -> outcome S) (b : builder S) : Prop :=
  exists cfg s b0 cs, cfg_ok cfg /\ usable V s /\ builder_new V cfg s = Ok b0 /\ calls V cpush b0 cs b.

(** The index of [b], which has lists of at most 254 neighbours, was written to a
    file, and [b'] opened with the same elements from there, configured by [cfg]. *)
Definition reopened {S E} (V : benv S E) (b : builder S) (cfg : config) (b' : builder S) : Prop :=
  exists c c', k_nn (b_config b) <= 254 /\ write_index (e_mode V) (FixWidth (b_layers b)) c = Ok c' /\
    builder_open V cfg (skipn (cpos c) (cbuf c')) (b_elems b) = Ok b'.

(** A builder obtained by [new] followed by calls, interrupted any number of
    times by saving the index and opening it with another configuration, subject
    to [ok]. *)
Inductive built_via {S E I} (V : benv S E) (cpush : S -> I -> outcome S) (ok : builder S -> config -> Prop) : builder S -> Prop :=
| bt_once b : built_once V cpush b -> built_via V cpush ok b
| bt_calls b cs b' : built_via V cpush ok b -> calls V cpush b cs b' -> built_via V cpush ok b'
| bt_open b cfg b' : built_via V cpush ok b -> cfg_ok cfg -> reopened V b cfg b' -> ok b cfg -> built_via V cpush ok b'.
Definition built {S E I} (V : benv S E) (cpush : S -> I -> outcome S) (b : builder S) : Prop :=
  built_via V cpush (fun _ _ => True) b.

(** The builder states between two layers of a build: [built], or one more
    layer indexed. *)
Inductive reached_via {S E I} (V : benv S E) (cpush : S -> I -> outcome S) (ok : builder S -> config -> Prop) : builder S -> Prop :=
| r_new cfg s b : cfg_ok cfg -> usable V s -> builder_new V cfg s = Ok b -> reached_via V cpush ok b
| r_push b x b' : reached_via V cpush ok b -> builder_push V cpush b x = Ok b' -> usable V (b_elems b') ->
    reached_via V cpush ok b'
| r_last b num sched b' : reached_via V cpush ok b -> b_layers b <> [] -> 0 < num ->
    builder_len b <= num <= builder_num_elements V b ->
    index_last V b num sched = Ok b' -> reached_via V cpush ok b'
| r_next b num sched b' : reached_via V cpush ok b -> builder_len b < num <= builder_num_elements V b ->
    index_last V (add_layer b) num sched = Ok b' -> reached_via V cpush ok b'
| r_open b cfg b' : reached_via V cpush ok b -> cfg_ok cfg -> reopened V b cfg b' -> ok b cfg -> reached_via V cpush ok b'.
Definition reached {S E I} (V : benv S E) (cpush : S -> I -> outcome S) (b : builder S) : Prop :=
  reached_via V cpush (fun _ _ => True) b.

(** The rows of a layer being indexed, at any moment of an insertion pass (the
    first one, or the reinsertion) over the last or a new layer of [b]. *)
Inductive mid_pass {S E} (V : benv S E) (b : builder S) : list (list N) -> Prop :=
| mp_first b0 last prev num nn ms sched x rows ts :
    b0 = b \/ b0 = add_layer b -> split_last (b_layers b0) = Some (last, prev) ->
    fw_len last <= num -> 0 < num <= builder_num_elements V b -> 0 < nn <= k_nn (b_config b) -> 0 < ms ->
    start_pass num last false = Ok x ->
    run V (b_elems b) nn ms prev sched x = Ok (rows, ts) -> mid_pass V b rows
| mp_second b0 last prev num nn ms sched l1 ms' sched' x rows ts :
    b0 = b \/ b0 = add_layer b -> split_last (b_layers b0) = Some (last, prev) ->
    fw_len last <= num -> 0 < num <= builder_num_elements V b -> 0 < nn <= k_nn (b_config b) -> 0 < ms -> 0 < ms' ->
    index_elements V (b_elems b) nn ms prev num last false sched = Ok l1 ->
    start_pass num l1 true = Ok x ->
    run V (b_elems b) nn ms' prev sched' x = Ok (rows, ts) -> mid_pass V b rows.

(** An element at a distance greater than the threshold from itself. *)
Definition is_zero {S E} (V : benv S E) (s : S) (z : nat) : Prop :=
  exists d, c_dist (e_ops V) s z z = Ok d /\ (e_eps V < d)%Z.

(** Schedules that never return to an earlier task: one thread. *)
Definition single_threaded (sched : schedules) : Prop := forall i p, StronglySorted le (sched i p).
(** Schedules in which each of [n] tasks gets at least [m] steps. *)
Definition fair_schedule (n m : nat) (sched : list nat) : Prop :=
  forall k, k < n -> m <= count_occ Nat.eq_dec sched k.

(** ** Layers of any origin *)
(** Like [nbrs_ok], [rows_ok], without excluding duplicates. *)
Definition nbrs_wf (n i : nat) (ns : list nat) : Prop := ~ In i ns /\ Forall (fun x => x < n) ns.
Definition rows_wf (w n : nat) (rows : list (list N)) : Prop :=
  length rows = n /\
  forall i r, nth_error rows i = Some r -> exists ns, row_shows w r ns /\ nbrs_wf n i ns.
(** layer [l] is well-formed, at least [nn] wide, with 1..[max] nodes *)
Definition layer_wf (nn max : nat) (l : fw N) : Prop :=
  0 < fwidth l /\ nn <= fwidth l /\ 0 < fw_len l <= max /\
  exists rows, fdata l = concat rows /\ rows_wf (fwidth l) (length rows) rows.
(** layers [ls], in order, with non-decreasing lengths up to [max] *)
Definition layers_wf (nn max : nat) (ls : list (fw N)) : Prop :=
  Forall (layer_wf nn max) ls /\ StronglySorted (fun a b => fw_len a <= fw_len b) ls.
