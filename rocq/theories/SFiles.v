(** * Specification vocabulary for disks, file names and text files *)
From Coq Require Import String Ascii.
From Verif Require Import Base Bytes MSliceVec SSliceVec MSearch MBuild MEmbed SEmbed MParse SParse MFiles.

(** the bytes of an ASCII text *)
Definition text (s : string) : list N := map N_of_ascii (list_ascii_of_string s).

(** [ds] is the decimal numeral of [n]: digits, no superfluous zero in front *)
Definition numeral (n : nat) (ds : list N) : Prop :=
  Forall (fun c => (48 <= c <= 57)%N) ds /\ ds <> [] /\ (hd 0%N ds = 48%N -> ds = [48%N]) /\
  fold_left (fun v c => (10 * v + (c - 48))%N) ds 0%N = N.of_nat n.

(** shard [i] for the output path [out]: "elements-i.bin" in [out] if that is a
    directory; otherwise beside [out], with "-i" put before the extension, which is
    ".bin" if [out] has none (a dot in front makes no extension) *)
Inductive shard_file (d : disk) (out : path) (i : nat) : path -> Prop :=
| in_directory ds :
    node_at d out = Some Dir -> numeral i ds ->
    shard_file d out i (out ++ [Name (text "elements-" ++ ds ++ text ".bin")])
| with_extension dir stem ext ds :
    node_at d out <> Some Dir -> out = dir ++ [Name (stem ++ text "." ++ ext)] -> stem <> [] -> ~ In 46%N ext -> numeral i ds ->
    shard_file d out i (dir ++ [Name (stem ++ text "-" ++ ds ++ text "." ++ ext)])
| without_extension dir n ds :
    node_at d out <> Some Dir -> out = dir ++ [Name n] -> ~ In 46%N (tl n) -> numeral i ds ->
    shard_file d out i (dir ++ [Name (n ++ text "-" ++ ds ++ text ".bin")]).

(** a file can be created at [p] *)
Definition creatable (d : disk) (p : path) : Prop :=
  exists dir n, p = dir ++ [Name n] /\ (dir = [] \/ node_at d dir = Some Dir) /\ node_at d p <> Some Dir.

(** UTF-8 as needed: an ASCII byte is a character of its own *)
Definition is_utf8 (utf8 : list N -> option str) (b : list N) : Prop := exists t, utf8 b = Some t.
Definition utf8_ok (utf8 : list N -> option str) : Prop :=
  is_utf8 utf8 [] /\
  forall a c b, (c < 128)%N -> (is_utf8 utf8 (a ++ c :: b) <-> is_utf8 utf8 a /\ is_utf8 utf8 b).
(** every name in [p] is UTF-8 *)
Definition utf8_path (utf8 : list N -> option str) (p : path) : Prop := forall n, In (Name n) p -> is_utf8 utf8 n.

(** a text and its lines: each ends with a newline, or a carriage return and a
    newline; the last one may lack it *)
Inductive reads_as : str -> list str -> Prop :=
| no_line : reads_as [] []
| line_lf l t ls : is_line l -> reads_as t ls -> reads_as (l ++ 10%N :: t) (l :: ls)
| line_crlf l t ls : ~ In 10%N l -> reads_as t ls -> reads_as (l ++ 13%N :: 10%N :: t) (l :: ls)
| last_line l : l <> [] -> ~ In 10%N l -> reads_as l [l].

(** names in byte order *)
Inductive name_lt : list N -> list N -> Prop :=
| lt_end y b : name_lt [] (y :: b)
| lt_byte x y a b : (x < y)%N -> name_lt (x :: a) (y :: b)
| lt_next x a b : name_lt a b -> name_lt (x :: a) (x :: b).
(** [names] are the entries of the directory [dir], in byte order *)
Definition listing (d : disk) (dir : path) (names : list (list N)) : Prop :=
  StronglySorted name_lt names /\ forall n, In n names <-> exists x, node_at d (dir ++ [Name n]) = Some x.

(** the text of the file [p], unzipped if its name ends in ".gz" *)
Definition part_text (utf8 : list N -> option str) (gunzip : list N -> option (list N)) (d : disk) (p : path) (t : str) : Prop :=
  exists b u, node_at d p = Some (File b) /\ utf8_path utf8 p /\ utf8 u = Some t /\
    (((exists q s, p = q ++ [Name (s ++ text ".gz")]) /\ gunzip b = Some u) \/
     ((forall q s, p <> q ++ [Name (s ++ text ".gz")]) /\ u = b)).
(** the texts of the element files: of the file [p], or of the files in the directory [p] *)
Definition element_texts (utf8 : list N -> option str) (gunzip : list N -> option (list N)) (d : disk) (p : path) (ts : list str) : Prop :=
  (node_at d p = Some Dir /\ exists names, listing d p names /\
     Forall2 (fun n t => part_text utf8 gunzip d (p ++ [Name n]) t) names ts) \/
  (node_at d p <> Some Dir /\ exists t, part_text utf8 gunzip d p t /\ ts = [t]).

(** the file [p] lists words: [ids] gives each its last line number *)
Definition words_at (utf8 : list N -> option str) (dec : str -> option str) (d : disk) (p : path) (ids : str -> option nat) : Prop :=
  exists b t wl ws, node_at d p = Some (File b) /\ utf8 b = Some t /\ reads_as t wl /\
    Forall2 (fun l w => dec l = Some w) wl ws /\ forall w, last_id ws w (ids w).
(** the element files at [p] hold the elements [els], in order *)
Definition elements_at utf8 gunzip (dec : str -> option str) (d : disk) (p : path) (ids : str -> option nat) (els : list (list nat)) : Prop :=
  exists ts files parts, element_texts utf8 gunzip d p ts /\ Forall2 reads_as ts files /\
    Forall2 (Forall2 (line_element dec ids)) files parts /\ els = concat parts.

(** a disk on which no path occurs twice *)
Definition disk_ok (d : disk) : Prop := NoDup (map fst d).
(** [d'] is [d] except for the paths [ps] *)
Definition same_but (ps : list path) (d d' : disk) : Prop := forall q, ~ In q ps -> node_at d' q = node_at d q.
