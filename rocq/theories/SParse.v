(** * Specification vocabulary for texts, word dictionaries and parsed elements *)
From Verif Require Import Base Bytes MSliceVec SSliceVec MSearch MBuild MEmbed SEmbed MParse.

(** ** Texts *)

(** the characters with the Unicode property White_Space *)
Definition white_space : list N :=
  [0x9; 0xA; 0xB; 0xC; 0xD; 0x20; 0x85; 0xA0; 0x1680; 0x2000; 0x2001; 0x2002; 0x2003; 0x2004; 0x2005; 0x2006;
   0x2007; 0x2008; 0x2009; 0x200A; 0x2028; 0x2029; 0x202F; 0x205F; 0x3000]%N.
Definition white (c : N) : bool := existsb (N.eqb c) white_space.

(** a word: not empty, without whitespace *)
Definition is_word (w : str) : Prop := w <> [] /\ Forall (fun c => white c = false) w.

(** [text] consists of the words [ws], separated (and possibly surrounded) by whitespace *)
Inductive tokens : str -> list str -> Prop :=
| tok_end : tokens [] []
| tok_ws c t ws : white c = true -> tokens t ws -> tokens (c :: t) ws
| tok_word w rest ws :
    is_word w -> (rest = [] \/ exists c t, rest = c :: t /\ white c = true) ->
    tokens rest ws -> tokens (w ++ rest) (w :: ws).

(** [t] is what follows the last colon of [q] (all of [q] if it has none) *)
Definition after_last_colon (q t : str) : Prop :=
  ~ In 58%N (* : *) t /\ (t = q \/ exists p, q = p ++ 58%N (* : *) :: t).

(** ids of the known words among [toks], in order, for the words [words] *)
Definition id_of (words : list str) (w : str) : option nat := position (fun v => str_eqb v w) words.
Definition known_ids (words : list str) (toks : list str) : list nat :=
  flat_map (fun w => match id_of words w with Some i => [i] | None => [] end) toks.

(** the words with ids [ids], joined by single blanks *)
Fixpoint joined (ws : list str) : str :=
  match ws with
  | [] => []
  | [w] => w
  | w :: t => w ++ 32%N (* blank *) :: joined t
  end.

(** ** Dictionaries: a dictionary {e is} a list of distinct words. *)
Definition dict_behaves (words : list str) (d : worddict) : Prop :=
  NoDup words /\
  dict_len d = length words /\
  (forall ids, Forall (fun i => i < length words) ids ->
     get_words d ids = Ok (joined (map (fun i => nth i words []) ids))) /\
  (forall ids, Exists (fun i => length words <= i) ids -> get_words d ids = Fail Panicked) /\
  (forall text toks, tokens text toks -> get_word_ids d text = known_ids words toks).

(** pushing a list of words, with the answers of [push] *)
Fixpoint dict_pushes (d : worddict) (ws : list str) : worddict * list bool :=
  match ws with
  | [] => (d, [])
  | w :: t => let '(d, b) := dict_push d w in let '(d, bs) := dict_pushes d t in (d, b :: bs)
  end.

(** the first occurrences of the words in [ws], after the words [acc] *)
Fixpoint first_occurrences (acc ws : list str) : list str :=
  match ws with
  | [] => acc
  | w :: t => if in_dec (list_eq_dec N.eq_dec) w acc then first_occurrences acc t else first_occurrences (acc ++ [w]) t
  end.

(** the text file with the lines [ls] *)
Definition text_file (ls : list str) : str := concat (map (fun l => l ++ [10%N (* newline *)]) ls).
(** what a line may be: no newline, no carriage return at the end *)
Definition is_line (l : str) : Prop := ~ In 10%N (* newline *) l /\ forall s, l <> s ++ [13%N (* carriage return *)].

(** JSON as needed: decoding gives back the encoded text, whose encoding is one
    line (newlines are escaped; a JSON string ends in a quotation mark). *)
Definition json_ok (dec : str -> option str) (enc : str -> str) : Prop :=
  forall w, dec (enc w) = Some w /\ is_line (enc w).

(** ** Parsed elements *)

(** line [l] of an element file is the JSON string of a text; the element holds
    the ids of the known words after its last colon *)
Definition line_element (dec : str -> option str) (word_ids : str -> option nat) (l : str) (ids : list nat) : Prop :=
  exists q t toks, dec l = Some q /\ after_last_colon q t /\ tokens t toks /\
    ids = flat_map (fun w => match word_ids w with Some i => [i] | None => [] end) toks.

(** the last id of word [w] in the list [words] *)
Definition last_id (words : list str) (w : str) (r : option nat) : Prop :=
  match r with
  | None => ~ In w words
  | Some i => nth_error words i = Some w /\ forall j, i < j -> nth_error words j <> Some w
  end.

(** ** Shards *)

(** The files [fs] hold, one after the other, the elements [els]: each file
    loads and the loaded elements, concatenated, are [els]. *)
Definition files_hold (fs : list (list N)) (els : list (list nat)) : Prop :=
  exists parts, concat parts = els /\
    Forall2 (fun f part => exists v, els_from_bytes f = Ok v /\ vw_observes (map (map N.of_nat) part) v) fs parts.

(** ** Python embeddings *)

(** appending a list of words with vectors, with what the caller sees *)
Fixpoint pe_appends {F} (e : pyemb) (l : list (str * list F)) : pyemb * list (outcome bool) :=
  match l with
  | [] => (e, [])
  | (w, v) :: t => let '(e, b) := pe_append e v w in let '(e, bs) := pe_appends e t in (e, b :: bs)
  end.

(** the entries of [l] whose word did not occur before, after the entries [acc] *)
Fixpoint first_entries {F} (acc l : list (str * list F)) : list (str * list F) :=
  match l with
  | [] => acc
  | (w, v) :: t =>
      if in_dec (list_eq_dec N.eq_dec) w (map fst acc) then first_entries acc t
      else first_entries (acc ++ [(w, v)]) t
  end.
