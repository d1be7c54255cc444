(** * Specification vocabulary: panicking calls on a shared builder *)
From Verif Require Import Base MSliceVec MIndexIo MSearch MBuild MLocks MRw SBuild SRw.

(** The distance of a query to any element can be computed, now and after further
    pushes.  (Nothing is asked of the number of nodes to look at.) *)
Definition query_ok {S E I} (V : benv S E) (cpush : S -> I -> outcome S) (max : nat) (s0 : S) (c : rcall E I) : Prop :=
  match c with
  | RSearch q _ _ => forall h s i, ofold cpush h s0 = Ok s -> c_len (e_ops V) s <= max -> i < c_len (e_ops V) s ->
      exists d, c_dte (e_ops V) s i q = Ok d
  | _ => True
  end.

(** A concurrent builder in order, whose locks are safe, used by threads making the
    calls [progs].  Unlike in a [session], the container may refuse an element
    (it panics: an element of another dimension), and a search may ask for no
    node at all. *)
Record psession {S E I} (V : benv S E) (cpush : S -> I -> outcome S) (cfg : config) (max : nat) (W0 : rw S)
  (P : rpolicy S E I) (progs : list (list (rcall E I))) : Prop := mkPSession {
  ps_mode : e_mode V = Release;
  ps_sort : sorts_by_dist (e_sort V);
  ps_push : push_law (e_ops V) cpush;
  ps_refuse : forall s x e, cpush s x = Fail e -> e = Panicked;
  ps_use : elems_use V cpush max (w_elems W0);
  ps_wf : rw_wf V cfg W0;
  ps_sizes : sizes_ok cfg max W0;
  ps_locks : safe_locks P;
  ps_calls : Forall (Forall (query_ok V cpush max (w_elems W0))) progs
}.

(** What a call may be blamed for: inserting an element that the container refuses,
    or searching while looking at no node. *)
Definition to_blame {S E I} (cpush : S -> I -> outcome S) (W : rw S) (t : thread S E I) : Prop :=
  (exists x, In x (t_batch t) /\ cpush (w_elems W) x = Fail Panicked) \/
  (exists q nn st, t_pc t = SLoop q 0 nn st).

(** The results of the calls that have returned. *)
Definition returned {S E I} (y : rsys S E I) (r : result S E I) : Prop :=
  exists t, In t (snd y) /\ In r (t_log t).
