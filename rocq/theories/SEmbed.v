(** * Specification vocabulary for sum embeddings.

    A collection of sum embeddings {e is} a list of vectors (the embeddings) and
    a list of elements, an element being a list of embedding ids. *)
From Verif Require Import Base Bytes MSliceVec SSliceVec MEmbed.

Section S.
  Context {F : Type} (fadd : F -> F -> F) (fzero : F).

  (** A caller's history: new elements and new embeddings. *)
  Inductive se_op := SPush (element : list nat) | SPushEmbedding (v : list F).

  Definition se_run1 (c : sumemb F) (o : se_op) : outcome (sumemb F) :=
    match o with SPush e => se_push c e | SPushEmbedding v => se_push_embedding c v end.
  Definition se_run (ops : list se_op) (c : sumemb F) : outcome (sumemb F) := ofold se_run1 ops c.

  (** the elements and the embeddings passed in, in order *)
  Definition pushed (ops : list se_op) : list (list nat) :=
    flat_map (fun o => match o with SPush e => [e] | _ => [] end) ops.
  Definition pushed_embeddings (ops : list se_op) : list (list F) :=
    flat_map (fun o => match o with SPushEmbedding v => [v] | _ => [] end) ops.

  (** What a history may contain: ids below 2^24, fewer than 2^40 ids in total,
      embeddings of one common non-zero dimension [w]. *)
  Definition ids_fit (els : list (list nat)) : Prop :=
    Forall (Forall (fun i => (N.of_nat i < 2 ^ 24)%N)) els /\ (N.of_nat (length (concat els)) < 2 ^ 40)%N.
  Definition dims (w : nat) (embs : list (list F)) : Prop :=
    0 < w /\ Forall (fun v => length v = w) embs.

  (** component [k] of vector [v] *)
  Definition comp (v : list F) (k : nat) : F := nth k v fzero.

  (** [r] is the componentwise sum of the vectors with the ids [ids], added from
      left to right; the empty sum is zero (of dimension 0 as long as there are
      no embeddings at all). *)
  Definition left_sum (l : list F) : F :=
    match l with [] => fzero | x :: t => fold_left fadd t x end.
  Definition is_embedding (w : nat) (embs : list (list F)) (ids : list nat) (r : list F) : Prop :=
    length r = (match embs with [] => 0 | _ => w end) /\
    forall k, k < length r -> comp r k = left_sum (map (fun i => comp (nth i embs []) k) ids).

  (** [c] behaves as the collection with embeddings [embs] and elements [els]. *)
  Definition behaves (m : mode) (w : nat) (embs : list (list F)) (els : list (list nat)) (c : sumemb F) : Prop :=
    se_len c = length els /\
    se_num_embeddings c = length embs /\
    (forall i t, nth_error els i = Some t -> se_get_terms c i = Ok t) /\
    (forall i, length els <= i -> se_get_terms c i = Fail Panicked) /\
    (forall ids, Forall (fun i => i < length embs) ids ->
       exists r, se_create_embedding fadd fzero m c ids = Ok r /\ is_embedding w embs ids r) /\
    (forall ids, Exists (fun i => length embs <= i) ids -> embs <> [] \/ m = Debug ->
       se_create_embedding fadd fzero m c ids = Fail Panicked) /\
    (forall i t, nth_error els i = Some t ->
       se_get_embedding fadd fzero m c i = se_create_embedding fadd fzero m c t) /\
    (forall i, length els <= i -> se_get_embedding fadd fzero m c i = Fail Panicked).

  (** the collection itself, as its two lists *)
  Definition enc_id (i : nat) : emb_id := N.of_nat i.
  Definition se_of (w : nat) (embs : list (list F)) (els : list (list nat)) : sumemb F :=
    mkSumEmb (mkFw (concat embs) (match embs with [] => 0 | _ => w end)) (vw_of (map (map enc_id) els)).
End S.
Arguments se_op : clear implicits.

(** ** Reordering keys *)

(** [key] holds the terms of largest norm of [terms]: its first entries, together
    with the terms left out, are all the terms; they come by non-increasing
    norm, of equal norms the later term first; no term left out has a larger
    norm than a term in the key; the rest of the key is 0. *)
Definition is_key (norm : nat -> Z) (terms key : list nat) : Prop :=
  length key = 8 /\
  exists left_out,
    let k := Nat.min 8 (length terms) in
    let ranked := firstn k key ++ left_out in
    Permutation ranked terms /\
    (forall i j, i < j -> j < length ranked ->
       (norm (nth j ranked 0%nat) <= norm (nth i ranked 0%nat))%Z) /\
    (forall z, filter (fun t => (norm t =? z)%Z) ranked = rev (filter (fun t => (norm t =? z)%Z) terms)) /\
    length left_out = length terms - k /\
    skipn k key = repeat 0 (8 - k).
