(** * Specification vocabulary for the concurrent builder *)
From Verif Require Import Base MSliceVec MIndexIo MSearch MBuild MLocks MRw SBuild.

(** ** Locks *)
(** thread [i] of [y] waits for, resp. holds, lock [l] *)
Definition waits {S E I} (y : rsys S E I) (i : nat) (l : lk) (a : access) : Prop :=
  exists t, nth_error (snd y) i = Some t /\ wants (t_pc t) = Some (l, a).
Definition has_lock {S E I} (y : rsys S E I) (i : nat) (l : lk) (a : access) : Prop :=
  exists t, nth_error (snd y) i = Some t /\ In (l, a) (guards (t_pc t)).

(** What a lock guarantees: a guard is granted only if it is compatible with all
    guards in existence. *)
Definition safe_locks {S E I} (P : rpolicy S E I) : Prop :=
  forall h y i l a, waits y i l a -> P h y i = true ->
  forall j b, has_lock y j l b -> a = ARead /\ b = ARead.

(** And what it does not deny: a lock that nobody holds is granted to someone
    who waits for it, and a shared lock is granted if nobody holds or waits for
    it exclusively.  (Readers may have to wait behind a waiting writer, as they
    do with [parking_lot].) *)
Record live_locks {S E I} (P : rpolicy S E I) : Prop := mkLiveLocks {
  ll_free : forall h y i l a, waits y i l a -> (forall j b, ~ has_lock y j l b) ->
            exists j b, waits y j l b /\ P h y j = true;
  ll_share : forall h y i l, waits y i l ARead -> (forall j, ~ has_lock y j l AWrite) ->
             (forall j, ~ waits y j l AWrite) -> P h y i = true
}.

(** A lock that never lets a reader wait for a writer that is waiting itself. *)
Definition reader_preferring {S E I} (P : rpolicy S E I) : Prop :=
  forall h y i l, waits y i l ARead -> (forall j, ~ has_lock y j l AWrite) -> P h y i = true.

(** A lock that makes readers wait behind a waiting writer. *)
Definition writer_preferring {S E I} (P : rpolicy S E I) : Prop :=
  forall h y i j l, waits y i l ARead -> waits y j l AWrite -> P h y i = false.

(** thread [i] of [y] has made all its calls *)
Definition finished {S E I} (t : thread S E I) : Prop := t_pc t = Idle /\ t_todo t = [].
(** thread [i] is not finished and, if it waits for a lock, is granted it *)
Definition can_go {S E I} (P : rpolicy S E I) (h : list (nat * nat)) (y : rsys S E I) (i : nat) : Prop :=
  exists t, nth_error (snd y) i = Some t /\ ~ finished t /\ forall l a, waits y i l a -> P h y i = true.
(** someone is not finished, and nobody can go on, whatever happened before *)
Definition deadlock {S E I} (P : rpolicy S E I) (y : rsys S E I) : Prop :=
  (exists t, In t (snd y) /\ ~ finished t) /\ forall h i, ~ can_go P h y i.

(** a move that gets something done: the thread can go on, and if it is in the
    insertion loop and has not finished it, the task named by the move has
    something left to do *)
Definition effective {S E I} (P : rpolicy S E I) (h : list (nat * nat)) (y : rsys S E I) (m : nat * nat) : Prop :=
  can_go P h y (fst m) /\
  forall t ts ids rest acc d, nth_error (snd y) (fst m) = Some t -> t_pc t = IIndex ts ids rest acc d ->
  all_done ts = false -> exists idx st, nth_error ts (snd m) = Some (idx, st) /\ st <> TDone.

(** ** Calls and their results *)
(** the calls of [insert]/[insert_batch] that have returned: batch and ids *)
Definition inserted_in {S E I} (r : result S E I) : list (list I * list nat) :=
  match r with Inserted xs ids => [(xs, ids)] | _ => [] end.
Definition inserts {S E I} (y : rsys S E I) : list (list I * list nat) :=
  flat_map (fun t => flat_map inserted_in (t_log t)) (snd y).

(** What [ExtendableElementContainer::push] means: it appends [elem x]. *)
Definition appends {S E I} (C : cops S E) (cpush : S -> I -> outcome S) (elem : I -> E) : Prop :=
  push_law C cpush /\ forall s x s', cpush s x = Ok s' -> c_get C s' (c_len C s) = Ok (elem x).

(** ** Insertion with nobody else around *)
(** [piece W xs W' ids rest]: the first elements of [xs], as many as fit in the
    current layer (after adding a layer if it is full), are appended, get
    [ids], and are indexed, each to the end; [rest] is left. *)
Inductive piece {S E I} (V : benv S E) (cpush : S -> I -> outcome S) (cfg : config) (max : nat)
  : rw S -> list I -> rw S -> list nat -> list I -> Prop :=
| piece_intro W W1 xs todo ids rest s sched cur ts :
    (if layer_full V W then new_layer cfg max W = Ok W1 else W1 = W) ->
    split_batch V W1 xs = Ok (todo, ids, rest) ->
    ofold cpush todo (w_elems W1) = Ok s ->
    run V s (k_nn cfg) (k_ms cfg) (w_prev W1) sched (w_cur W1, map (fun i => (i, TStart)) ids) = Ok (cur, ts) ->
    all_done ts = true ->
    piece V cpush cfg max W xs (mkRw s cur (w_width W1) (w_prev W1)) ids rest.

(** The data reached by inserting pieces one after the other. *)
Inductive pieces {S E I} (V : benv S E) (cpush : S -> I -> outcome S) (cfg : config) (max : nat) (W0 : rw S)
  : rw S -> Prop :=
| pcs_start : pieces V cpush cfg max W0 W0
| pcs_next W xs W' ids rest : pieces V cpush cfg max W0 W -> piece V cpush cfg max W xs W' ids rest ->
    pieces V cpush cfg max W0 W'.

(** ** Starting states *)
(** the rows of a layer in which room is left for [k] more nodes *)
Definition with_room (w : nat) (rows : list (list N)) (k : nat) : list (list N) :=
  rows ++ repeat (repeat UNUSED w) k.

(** A concurrent builder as [new] leaves it: every element is in the current
    layer, rows and finished layers are well-formed. *)
Record rw_wf {S E} (V : benv S E) (cfg : config) (W : rw S) : Prop := mkRwWf {
  ww_width : 0 < k_nn cfg /\ w_width W = k_nn cfg;
  ww_ms : 0 < k_ms cfg;
  ww_rows : exists rows k, w_cur W = with_room (k_nn cfg) rows k /\
            rows_wf (k_nn cfg) (c_len (e_ops V) (w_elems W)) rows;
  ww_prev : layers_wf (k_nn cfg) (c_len (e_ops V) (w_elems W)) (w_prev W);
}.

(** The current layer has nodes; the sizes of the layers to come are
    non-decreasing, at most [max], at least the size of the current layer. *)
Record sizes_ok {S} (cfg : config) (max : nat) (W : rw S) : Prop := mkSizesOk {
  so_pos : 0 < length (w_cur W);
  so_mono : forall i j, i <= j -> k_ideal cfg max i <= k_ideal cfg max j;
  so_max : forall i, k_ideal cfg max i <= max;
  so_cur : length (w_cur W) <= k_ideal cfg max (Datatypes.S (length (w_prev W)))
}.

(** The sizes of the layers to come reach [max], and the current layer is not
    smaller than it should be. *)
Definition sizes_reach {S} (cfg : config) (max : nat) (W : rw S) : Prop :=
  (exists L, k_ideal cfg max L = max) /\ k_ideal cfg max (length (w_prev W)) <= length (w_cur W).

(** Every container reached by pushing elements, up to [max] of them, works;
    [max] is at most the id that marks unused slots. *)
Record elems_use {S E I} (V : benv S E) (cpush : S -> I -> outcome S) (max : nat) (s0 : S) : Prop := mkElemsUse {
  ew_ids : (N.of_nat max <= UNUSED)%N;
  ew_use : forall h s, ofold cpush h s0 = Ok s -> c_len (e_ops V) s <= max -> usable V s
}.
(** ... and takes any further element. *)
Record elems_work {S E I} (V : benv S E) (cpush : S -> I -> outcome S) (max : nat) (s0 : S) : Prop := mkElemsWork {
  ew_base :> elems_use V cpush max s0;
  ew_push : forall h s x, ofold cpush h s0 = Ok s -> c_len (e_ops V) s < max -> exists s', cpush s x = Ok s'
}.

(** Calls that make sense: a search looks at one node at least, and the distance
    of its query to any element can be computed, now and after further pushes. *)
Definition call_ok {S E I} (V : benv S E) (cpush : S -> I -> outcome S) (max : nat) (s0 : S) (c : rcall E I) : Prop :=
  match c with
  | RSearch q ms nn => 0 < ms /\
      forall h s i, ofold cpush h s0 = Ok s -> c_len (e_ops V) s <= max -> i < c_len (e_ops V) s ->
      exists d, c_dte (e_ops V) s i q = Ok d
  | _ => True
  end.
Definition calls_ok {S E I} (V : benv S E) (cpush : S -> I -> outcome S) (max : nat) (s0 : S)
  (progs : list (list (rcall E I))) : Prop := Forall (Forall (call_ok V cpush max s0)) progs.

Arguments so_pos {S cfg max W}. Arguments so_mono {S cfg max W}. Arguments so_max {S cfg max W}. Arguments so_cur {S cfg max W}.
Arguments ew_ids {S E I V cpush max s0}. Arguments ew_use {S E I V cpush max s0} _ {h s} _ _. Arguments ew_push {S E I V cpush max s0} _ {h s} x _ _.
Arguments ww_width {S E V cfg W}. Arguments ww_ms {S E V cfg W}. Arguments ww_rows {S E V cfg W}. Arguments ww_prev {S E V cfg W}.
Arguments ll_free {S E I P} _ h {y i l a} _ _. Arguments ll_share {S E I P} _ h {y i l} _ _ _.

(** ** Sessions *)
(** A concurrent builder in order, whose containers work, whose locks are safe,
    used by threads making the calls [progs]. *)
Record session {S E I} (V : benv S E) (cpush : S -> I -> outcome S) (cfg : config) (max : nat) (W0 : rw S)
  (P : rpolicy S E I) (progs : list (list (rcall E I))) : Prop := mkSession {
  se_sort : sorts_by_dist (e_sort V);
  se_push : push_law (e_ops V) cpush;
  se_work : elems_work V cpush max (w_elems W0);
  se_wf : rw_wf V cfg W0;
  se_sizes : sizes_ok cfg max W0;
  se_locks : safe_locks P;
  se_calls : calls_ok V cpush max (w_elems W0) progs
}.

(** A search result read as "correct for the data [W]": nodes of [W], without
    repetition, nearest first, at their distances. *)
Definition correct_for {S E} (V : benv S E) (W : rw S) (q : E) (ms nn : nat) (out : list (nat * Z)) : Prop :=
  length out <= nn /\ length out <= ms /\
  (forall x d, In (x, d) out -> x < c_len (e_ops V) (w_elems W) /\ c_dte (e_ops V) (w_elems W) x q = Ok d) /\
  NoDup (map fst out) /\ StronglySorted (fun a b => (snd a <= snd b)%Z) out.
