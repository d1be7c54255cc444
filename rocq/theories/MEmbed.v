(** * Model of src/elements/embeddings/mod.rs, embeddings/reorder.rs and
    src/math.rs [sum_into_f32].

    The scalar type [F] stands for [f32]; [fadd] is its [+], [fzero] is [0.0].
    [fnorm] is [angular::Vector::from] (src/elements/angular.rs:54-60), [fdist]
    is [Dist for angular::Vector] (:62-73) coded as in [MSearch]; they are
    defined for binary32 in [MAngular].  [crate::io], [File] and [mmap] variants
    as in [MSliceVec]. *)
From Verif Require Import Base Bytes MSliceVec MSearch MBuild.

(** [EmbeddingId = ThreeByteInt], [ElementOffset = FiveByteInt], mod.rs:20-21; a
    [ThreeByteInt] is the number its three bytes denote; its memory
    representation ([repr(C, packed)], src/odd_byte_int.rs:7-9) is these bytes *)
Definition emb_id : Type := N.
Definition id_from (n : nat) : outcome emb_id :=
  let* bytes := odd_from three_byte (N.of_nat n) in Ok (odd_into bytes).
Definition id_into (i : emb_id) : nat := N.to_nat i.
Definition id_repr : repr emb_id := uint_repr three_byte.

(** [Elements = VariableWidthSliceVector<EmbeddingId, ElementOffset>], mod.rs:23 *)
Definition elements : Type := vw emb_id.
Definition els_push (v : elements) (x : list emb_id) : outcome elements := vw_push five_byte v x.
Definition els_extend (v other : elements) : outcome elements := vw_extend five_byte v other.
Definition els_write (v : elements) : wres := vw_write five_byte id_repr v.
Definition els_from_bytes (b : list N) : outcome elements := vw_from_bytes five_byte id_repr b.

Section Embed.
  Context {F : Type} (fadd : F -> F -> F) (fzero : F).

  (** [math::sum_into_f32], src/math.rs:92-116 (without [blas]; the [avx2]
      variant is the same function compiled for another target) *)
  Definition sum_into (x y : list F) : outcome (list F) :=
    let* _ := oassert (length x =? length y) in
    Ok (map (fun p => fadd (fst p) (snd p)) (combine x y)).

  (** [SumEmbeddings], mod.rs:41-44 *)
  Record sumemb := mkSumEmb { se_embs : fw F; se_els : elements }.

  (** [new], :48-53; [from_bytes] and [from_parts], :56-69 *)
  Definition se_new : sumemb := mkSumEmb fw_new vw_new.
  Definition se_from_bytes (embs : fw F) (b : list N) : outcome sumemb :=
    let* e := els_from_bytes b in Ok (mkSumEmb embs e).

  (** [push], :97-100 *)
  Definition se_push (c : sumemb) (element : list nat) : outcome sumemb :=
    let* data := omapM id_from element in
    let* e := els_push (se_els c) data in
    Ok (mkSumEmb (se_embs c) e).

  (** [push_embedding], :103-105 *)
  Definition se_push_embedding (c : sumemb) (embedding : list F) : outcome sumemb :=
    let* v := fw_push (se_embs c) embedding in
    Ok (mkSumEmb v (se_els c)).

  (** [get_terms], :108-110 *)
  Definition se_get_terms (c : sumemb) (idx : nat) : outcome (list nat) :=
    let* e := vw_get (se_els c) idx in Ok (map id_into e).

  (** [get_embedding_internal], :124-143; the ids are converted to [usize] *)
  Definition se_embedding_of (m : mode) (c : sumemb) (ids : list nat) : outcome (list F) :=
    match ids with
    | [] => if 0 <? fw_len (se_embs c) then Ok (repeat fzero (fwidth (se_embs c))) else Ok []
    | w :: rest =>
        let* data := fw_get m (se_embs c) w in
        ofold (fun data w => let* embedding := fw_get m (se_embs c) w in sum_into data embedding) rest data
    end.

  (** [get_embedding], :113-115 *)
  Definition se_get_embedding (m : mode) (c : sumemb) (idx : nat) : outcome (list F) :=
    let* e := vw_get (se_els c) idx in se_embedding_of m c (map id_into e).
  (** [create_embedding], :118-120 *)
  Definition se_create_embedding (m : mode) (c : sumemb) (ids : list nat) : outcome (list F) :=
    se_embedding_of m c ids.

  (** [len], [num_embeddings], :146-153 *)
  Definition se_len (c : sumemb) : nat := vw_len (se_els c).
  Definition se_num_embeddings (c : sumemb) : nat := fw_len (se_embs c).

  (** [Writeable::write], :185-189 *)
  Definition se_write (c : sumemb) : wres := els_write (se_els c).

  (** [Permutable::permute], :191-216.  [par_chunks(..).map(..).collect()]
      returns the results in order; the closures only read [self]. *)
  Definition se_permute_chunk (c : sumemb) (ids : list nat) : outcome elements :=
    ofold (fun els id => let* e := vw_get (se_els c) id in els_push els e) ids vw_new.
  Definition se_permute (c : sumemb) (permutation : list nat) : outcome sumemb :=
    let* _ := oassert (se_len c =? length permutation) in
    let chunk_size := Nat.max 10000 (se_len c / 400) in
    let* chs := omapM (se_permute_chunk c) (chunks chunk_size permutation) in
    let* e := ofold (fun els ch => els_extend els ch) chs vw_new in
    Ok (mkSumEmb (se_embs c) e).

  (** [ElementContainer for SumEmbeddings], :161-175, with the default [dist] and
      [dists] of src/elements/mod.rs:31-39 *)
  Context (fnorm : list F -> list F) (fdist : list F -> list F -> outcome Z).
  Definition se_get (m : mode) (c : sumemb) (idx : nat) : outcome (list F) :=
    let* v := se_get_embedding m c idx in Ok (fnorm v).
  Definition se_dist_to_element (m : mode) (c : sumemb) (idx : nat) (e : list F) : outcome Z :=
    let* x := se_get m c idx in fdist x e.
  Definition se_ops (m : mode) : cops sumemb (list F) :=
    mkCops se_len
           (se_get m)
           (se_dist_to_element m)
           (fun c i j => let* e := se_get m c j in se_dist_to_element m c i e)
           (fun c i others => let* e := se_get m c i in
              omapM (fun j => se_dist_to_element m c j e) others).

  (** ** embeddings/reorder.rs *)
  Definition NUM_WORDS := 8. (* reorder.rs:40 *)

  (** [fnrm v] is [norm(v).into()], reorder.rs:34, 37: the norm coded as in
      [MSearch]; converting a NaN into [NotNan] panics *)
  Context (fnrm : list F -> outcome Z).

  (** [w_norms], :35-38 *)
  Definition word_norms (m : mode) (c : sumemb) : outcome (list Z) :=
    omapM (fun i => let* v := se_create_embedding m c [i] in fnrm v) (seq 0 (fw_len (se_embs c))).

  (** [sort_by_key(|w| w_norms[w])] (stable); a slice of fewer than two items is
      left alone without calling the closure, otherwise the closure is called
      on every item *)
  Definition sort_by_norm (norms : list Z) (ids : list nat) : outcome (list nat) :=
    if length ids <? 2 then Ok ids
    else
      let* ks := omapM (fun w => let* n := index norms w in Ok (n, w)) ids in
      Ok (map snd (sort_by (fun a b => (fst a <=? fst b)%Z) ks)).

  (** [get_key], :43-53 *)
  Definition reorder_key (norms : list Z) (c : sumemb) (q : nat) : outcome (list nat) :=
    let* ids := se_get_terms c q in
    let* ids := sort_by_norm norms ids in
    let ids := rev ids in
    let len := Nat.min (length ids) NUM_WORDS in
    let* h := slice ids 0 len in
    Ok (h ++ repeat 0 (NUM_WORDS - len)).

  (** [compute_keys_for_reordering], :32-56 *)
  Definition compute_keys (m : mode) (c : sumemb) : outcome (list (list nat)) :=
    let* norms := word_norms m c in
    omapM (reorder_key norms c) (seq 0 (se_len c)).
End Embed.
Arguments sumemb : clear implicits.
