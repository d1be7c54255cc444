(** * Specification vocabulary for UTF-8 and JSON strings *)
From Coq Require Import String.
From Verif Require Import Base MParse SParse MFiles SFiles.

(** Unicode scalar values *)
Definition scalar (c : N) : Prop := (c < 0xD800 \/ 0xE000 <= c < 0x110000)%N.
Definition is_text (w : str) : Prop := Forall scalar w.

(** the number whose base-64 digits are [ds] *)
Definition base64 (ds : list N) : N := fold_left (fun v x => (64 * v + x)%N) ds 0%N.
(** [b] is the UTF-8 form of the character [c] (Unicode standard, table 3-6, and
    the shortest form counts): a leading byte with the length and the first bits,
    then bytes 10xxxxxx with six bits each *)
Inductive utf8_form (c : N) : list N -> Prop :=
| form1 : (c < 0x80)%N -> utf8_form c [c]
| form2 a b : (0x80 <= c < 0x800)%N -> (b < 64)%N -> c = base64 [a; b] -> utf8_form c [0xC0 + a; 0x80 + b]%N
| form3 a b d : (0x800 <= c < 0x10000)%N -> (b < 64)%N -> (d < 64)%N -> c = base64 [a; b; d] ->
    utf8_form c [0xE0 + a; 0x80 + b; 0x80 + d]%N
| form4 a b d e : (0x10000 <= c < 0x110000)%N -> (b < 64)%N -> (d < 64)%N -> (e < 64)%N -> c = base64 [a; b; d; e] ->
    utf8_form c [0xF0 + a; 0x80 + b; 0x80 + d; 0x80 + e]%N.
(** the bytes of a text *)
Definition utf8_bytes (w : str) (b : list N) : Prop := is_text w /\ exists fs, Forall2 utf8_form w fs /\ b = concat fs.

(** ** JSON strings (RFC 8259, section 7) *)
Inductive hex : N -> N -> Prop :=
| hex_09 v : (v <= 9)%N -> hex (48 + v) v
| hex_af v : (10 <= v <= 15)%N -> hex (97 + (v - 10)) v
| hex_AF v : (10 <= v <= 15)%N -> hex (65 + (v - 10)) v.
(** [t] is backslash, u, and four hexadecimal digits with the value [n] *)
Definition u_escape (t : str) (n : N) : Prop :=
  exists a b c d va vb vc vd, t = [92; 117; a; b; c; d]%N /\ hex a va /\ hex b vb /\ hex c vc /\ hex d vd /\
    n = (((va * 16 + vb) * 16 + vc) * 16 + vd)%N.
(** the ways to write a character *)
Inductive spells : str -> N -> Prop :=
| sp_itself c : (32 <= c)%N -> c <> 34%N (* quotation mark *) -> c <> 92%N (* backslash *) -> spells [c] c
| sp_quote : spells [92; 34]%N 34%N
| sp_backslash : spells [92; 92]%N 92%N
| sp_slash : spells [92; 47]%N 47%N
| sp_b : spells [92; 98]%N 8%N
| sp_f : spells [92; 102]%N 12%N
| sp_n : spells [92; 110]%N 10%N
| sp_r : spells [92; 114]%N 13%N
| sp_t : spells [92; 116]%N 9%N
| sp_u t n : u_escape t n -> (n < 0xD800 \/ 0xE000 <= n)%N -> spells t n
| sp_pair t u hi lo :
    u_escape t (0xD800 + hi) -> u_escape u (0xDC00 + lo) -> (hi < 0x400)%N -> (lo < 0x400)%N ->
    spells (t ++ u) (0x10000 + hi * 0x400 + lo)%N.
Definition json_blank (s : str) : Prop := Forall (fun c => In c [32; 9; 10; 13]%N) s.
(** [s] is a JSON string with the value [w], with blanks around it *)
Definition json_string (s w : str) : Prop :=
  exists l r parts, json_blank l /\ json_blank r /\ Forall2 spells parts w /\ s = l ++ 34%N :: concat parts ++ 34%N :: r.

(** ** Files *)
(** the file [p] is a UTF-8 text whose lines are JSON strings, the words; [ids]
    gives each word its last line number *)
Definition json_words_at (d : disk) (p : path) (ids : str -> option nat) : Prop :=
  exists b t wl ws, node_at d p = Some (File b) /\ utf8_bytes t b /\ reads_as t wl /\
    Forall2 json_string wl ws /\ forall w, last_id ws w (ids w).
(** a line of an element file: a JSON string; the element holds the ids of the
    known words after its last colon *)
Definition json_element (ids : str -> option nat) (l : str) (e : list nat) : Prop :=
  exists q t toks, json_string l q /\ after_last_colon q t /\ tokens t toks /\
    e = flat_map (fun w => match ids w with Some i => [i] | None => [] end) toks.
(** the UTF-8 text of the file [p], unzipped if its name (which is UTF-8) ends in ".gz" *)
Definition utf8_part (gunzip : list N -> option (list N)) (d : disk) (p : path) (t : str) : Prop :=
  exists b u, node_at d p = Some (File b) /\ (forall n, In (Name n) p -> exists x, utf8_bytes x n) /\ utf8_bytes t u /\
    (((exists q s, p = q ++ [Name (s ++ text ".gz")]) /\ gunzip b = Some u) \/
     ((forall q s, p <> q ++ [Name (s ++ text ".gz")]) /\ u = b)).
Definition json_elements_at (gunzip : list N -> option (list N)) (d : disk) (p : path) (ids : str -> option nat) (els : list (list nat)) : Prop :=
  exists ts files parts,
    ((node_at d p = Some Dir /\ exists names, listing d p names /\
        Forall2 (fun n t => utf8_part gunzip d (p ++ [Name n]) t) names ts) \/
     (node_at d p <> Some Dir /\ exists t, utf8_part gunzip d p t /\ ts = [t])) /\
    Forall2 reads_as ts files /\ Forall2 (Forall2 (json_element ids)) files parts /\ els = concat parts.
