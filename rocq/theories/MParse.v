(** * Model of src/elements/embeddings/parsing.rs and of the word dictionary of the
    Python bindings, py/src/variants/mod.rs, py/src/embeddings.rs.

    Text is a list of Unicode scalar values (decoding UTF-8 and gunzipping files
    ending in ".gz" are not modelled).  [serde_json::from_str::<String>] and
    [serde_json::to_string] are the parameters [json_dec] and [json_enc].  Progress
    output is not modelled.  A [HashMap] is a list of pairs of which the first
    match counts (insertion puts a pair in front). *)
From Verif Require Import Base Bytes MSliceVec MSearch MBuild MEmbed.

Definition str : Type := list N.
Definition str_eqb (a b : str) : bool := if list_eq_dec N.eq_dec a b then true else false.

Definition NEWLINE : N := 10.
Definition RETURN : N := 13.
Definition SPACE : N := 32.
Definition COLON : N := 58.

(** [char::is_whitespace] (Unicode property White_Space) *)
Definition is_ws (c : N) : bool :=
  ((9 <=? c) && (c <=? 13) || (c =? 32) || (c =? 133) || (c =? 160) || (c =? 5760)
   || (8192 <=? c) && (c <=? 8202) || (c =? 8232) || (c =? 8233) || (c =? 8239) || (c =? 8287) || (c =? 12288))%N.

(** [str::split_whitespace]; [cur] is the word being read, reversed *)
Fixpoint split_ws_from (cur : str) (s : str) : list str :=
  match s with
  | [] => match cur with [] => [] | _ => [rev cur] end
  | c :: t =>
      if is_ws c then match cur with [] => split_ws_from [] t | _ => rev cur :: split_ws_from [] t end
      else split_ws_from (c :: cur) t
  end.
Definition split_whitespace (s : str) : list str := split_ws_from [] s.

(** [s.split(':').last().unwrap()] *)
Fixpoint last_part_from (cur : str) (s : str) : str :=
  match s with
  | [] => rev cur
  | c :: t => if (c =? COLON)%N then last_part_from [] t else last_part_from (c :: cur) t
  end.
Definition last_part (s : str) : str := last_part_from [] s.

(** [BufRead::lines]: the pieces between newlines without the newline and one
    carriage return before it; no empty piece after a final newline *)
Definition strip_return (l : str) : str :=
  match rev l with c :: t => if (c =? RETURN)%N then rev t else l | [] => l end.
Fixpoint lines_from (cur : str) (s : str) : list str :=
  match s with
  | [] => match cur with [] => [] | _ => [rev cur] end
  | c :: t => if (c =? NEWLINE)%N then strip_return (rev cur) :: lines_from [] t else lines_from (c :: cur) t
  end.
Definition lines (s : str) : list str := lines_from [] s.

(** [HashMap<String, usize>] *)
Definition wmap : Type := list (str * nat).
Fixpoint wmap_get (m : wmap) (w : str) : option nat :=
  match m with
  | [] => None
  | (w', i) :: t => if str_eqb w' w then Some i else wmap_get t w
  end.
(** [.enumerate().map(|(i, w)| (w, i)).collect()] *)
Definition wmap_of (words : list str) : wmap :=
  fold_left (fun m (p : nat * str) => (snd p, fst p) :: m) (combine (seq 0 (length words)) words) [].

Definition filter_map {A B} (f : A -> option B) (l : list A) : list B :=
  flat_map (fun x => match f x with Some y => [y] | None => [] end) l.

Section Json.
  Context (json_dec : str -> option str) (json_enc : str -> str).

  (** the lines of a file, each a JSON string ([unwrap]), parsing.rs:23-29,
      variants/mod.rs:18-24 *)
  Definition json_lines (file : str) : outcome (list str) :=
    omapM (fun l => ounwrap (json_dec l)) (lines file).

  (** [parse_words], parsing.rs:19-31 *)
  Definition parse_words (file : str) : outcome wmap :=
    let* ws := json_lines file in Ok (wmap_of ws).

  (** [parse_file], parsing.rs:219-240: lines are decoded one by one *)
  Definition parse_line (word_ids : wmap) (l : str) : outcome (list emb_id) :=
    let* qs := ounwrap (json_dec l) in
    omapM id_from (filter_map (wmap_get word_ids) (split_whitespace (last_part qs))).
  Definition parse_file (file : str) (word_ids : wmap) : outcome elements :=
    ofold (fun els l => let* q := parse_line word_ids l in els_push els q) (lines file) vw_new.

  (** [parse_elements_in_directory_or_file], parsing.rs:154-217, of the contents
      of the files in sorted order of their paths *)
  Definition parse_elements (files : list str) (word_ids : wmap) : outcome elements :=
    let* parts := omapM (fun f => parse_file f word_ids) files in
    ofold (fun els p => els_extend els p) parts vw_new.

  (** [parse_elements_and_save_to_disk], parsing.rs:33-48: bytes of the output
      file and the returned count *)
  Definition parse_and_save (files : list str) (words : str) : outcome (list N * nat) :=
    let* word_ids := parse_words words in
    let* els := parse_elements files word_ids in
    Ok (fst (els_write els), vw_len els).

  (** ** [WordDict], variants/mod.rs:8-78 *)
  Record worddict := mkDict { d_word_to_id : wmap; d_id_to_word : list str }.
  Definition dict_default : worddict := mkDict [] [].
  (** [new], :15-32 *)
  Definition dict_new (file : str) : outcome worddict :=
    let* ws := json_lines file in Ok (mkDict (wmap_of ws) ws).
  (** [len], :34-36 *)
  Definition dict_len (d : worddict) : nat := length (d_id_to_word d).
  (** [get_words], :38-51 *)
  Definition get_words (d : worddict) (ids : list nat) : outcome str :=
    match ids with
    | [] => Ok []
    | i :: rest =>
        let* w := index (d_id_to_word d) i in
        ofold (fun q id => let* w := index (d_id_to_word d) id in Ok (q ++ SPACE :: w)) rest w
    end.
  (** [get_word_ids], :53-58 *)
  Definition get_word_ids (d : worddict) (query : str) : list nat :=
    filter_map (wmap_get (d_word_to_id d)) (split_whitespace query).
  (** [push], :60-69 *)
  Definition dict_push (d : worddict) (w : str) : worddict * bool :=
    match wmap_get (d_word_to_id d) w with
    | Some _ => (d, false)
    | None => (mkDict ((w, length (d_id_to_word d)) :: d_word_to_id d) (d_id_to_word d ++ [w]), true)
    end.
  (** [write], :71-77 *)
  Definition dict_write (d : worddict) : str :=
    concat (map (fun w => json_enc w ++ [NEWLINE]) (d_id_to_word d)).

  (** ** [Embeddings] of the Python bindings, py/src/embeddings.rs *)
  Context {F : Type}.
  Record pyemb := mkPyEmb { pe_emb : sumemb F; pe_words : worddict }.
  Definition pe_new : pyemb := mkPyEmb se_new dict_default. (* :47-52 *)
  (** [append], :108-115: the word is pushed first; when [push_embedding] panics
      the word stays.  The result is the state and what the caller sees. *)
  Definition pe_append (e : pyemb) (v : list F) (w : str) : pyemb * outcome bool :=
    let '(d, inserted) := dict_push (pe_words e) w in
    if inserted then
      match se_push_embedding (pe_emb e) v with
      | Ok s => (mkPyEmb s d, Ok true)
      | Fail x => (mkPyEmb (pe_emb e) d, Fail x)
      end
    else (mkPyEmb (pe_emb e) d, Ok false).
  (** [get_embedding] of a text, :63-75 *)
  Definition pe_get_embedding (fadd : F -> F -> F) (fzero : F) (m : mode) (e : pyemb) (text : str) : outcome (list F) :=
    se_create_embedding fadd fzero m (pe_emb e) (get_word_ids (pe_words e) text).
End Json.

(** ** Shards: [parse_elements_and_save_shards_to_disk], parsing.rs:63-100, from
    the parsed elements on.  The result is the list of files created (a file is
    created before [write_range] is called) and what the caller sees. *)
Definition shard_size (n num_shards : nat) : outcome nat :=
  if num_shards =? 0 then Fail Panicked else Ok ((n + num_shards - 1) / num_shards).
Fixpoint write_shards (els : elements) (size : nat) (shards : list nat) : list (list N) * outcome nat :=
  match shards with
  | [] => ([], Ok (vw_len els))
  | s :: rest =>
      let begin := s * size in
      let end_ := Nat.min ((s + 1) * size) (vw_len els) in
      match vw_write_range five_byte id_repr els begin end_ with
      | Ok w => let '(fs, r) := write_shards els size rest in (fst w :: fs, r)
      | Fail x => ([[]], Fail x)
      end
  end.
Definition save_shards (els : elements) (num_shards : nat) : list (list N) * outcome nat :=
  match shard_size (vw_len els) num_shards with
  | Ok size => write_shards els size (seq 0 num_shards)
  | Fail x => ([], Fail x)
  end.

(** [parse_elements_and_save_shards_to_disk] as a whole, parsing.rs:63-100 *)
Definition parse_and_save_shards (json_dec : str -> option str) (files : list str) (words : str) (num_shards : nat)
  : list (list N) * outcome nat :=
  match (let* word_ids := parse_words json_dec words in parse_elements json_dec files word_ids) with
  | Ok els => save_shards els num_shards
  | Fail x => ([], Fail x)
  end.

(** ** [compute_embeddings_and_save_to_disk], parsing.rs:103-152, from the loaded
    collection on.  [conv] is [angular_int::Vector::from]. *)
Section Export.
  Context {F : Type} (fadd : F -> F -> F) (fzero : F) (conv : mode -> list F -> outcome (list Z)).

  Definition NUM_CHUNKS := 100. (* :129 *)

  (** the vectors of the elements [ids], pushed into a new collection, :132-140 *)
  Definition export_vectors (m : mode) (c : sumemb F) (ids : list nat) : outcome (fw Z) :=
    let* vs := omapM (fun i => let* e := se_get_embedding fadd fzero m c i in conv m e) ids in
    ofold (fun v x => fw_push v x) vs fw_new.

  (** one round of the loop, :131-147: the bytes it writes *)
  Definition export_chunk (m : mode) (c : sumemb F) (i : nat) : outcome (list N) :=
    let chunk_size := (se_len c + NUM_CHUNKS - 1) / NUM_CHUNKS in
    let b := i * chunk_size in
    let e := Nat.min ((i + 1) * chunk_size) (se_len c) in
    let* vectors := export_vectors m c (seq b (e - b)) in
    Ok (if i =? 0 then fst (fw_write i8r vectors) else write_as_bytes i8r (fdata vectors)).

  Definition export (m : mode) (c : sumemb F) : outcome (list N) :=
    let* cs := omapM (export_chunk m c) (seq 0 NUM_CHUNKS) in Ok (concat cs).
End Export.
