(** * Model of the file handling of src/elements/embeddings/parsing.rs

    A path is the list of its components ([std::path::Components]); a disk maps
    paths to files and directories.  Paths are taken literally: different lists of
    components are different places (no links; ["."] and [".."] are not resolved).
    Not modelled: permissions, full disks, other processes; the progress bars
    (only the [to_str().unwrap()] of their messages).  [utf8] decodes UTF-8,
    [gunzip] is [flate2::read::GzDecoder]; [None] is an error. *)
From Verif Require Import Base Bytes MSliceVec MSearch MBuild MEmbed MJson MParse.

Inductive comp := Root | Cur | Up | Name (n : list N).
Definition path : Type := list comp.
Definition comp_dec (a b : comp) : {a = b} + {a <> b}.
Proof. decide equality. apply (list_eq_dec N.eq_dec). Defined.
Definition path_eqb (p q : path) : bool := if list_eq_dec comp_dec p q then true else false.

Inductive node := File (bytes : list N) | Dir.
Definition disk : Type := list (path * node).

Fixpoint node_at (d : disk) (p : path) : option node :=
  match d with
  | [] => None
  | (q, n) :: t => if path_eqb q p then Some n else node_at t p
  end.
Definition put (d : disk) (p : path) (n : node) : disk := (p, n) :: filter (fun e => negb (path_eqb (fst e) p)) d.

(** [Path::is_dir] *)
Definition is_dir (d : disk) (p : path) : bool := match node_at d p with Some Dir => true | _ => false end.
(** [File::open] and reading to the end: opening a directory succeeds, reading it fails *)
Definition read_file (d : disk) (p : path) : outcome (list N) :=
  match node_at d p with Some (File b) => Ok b | _ => Fail IoError end.
(** [Path::file_name] *)
Definition file_name (p : path) : option (list N) :=
  match rev p with Name n :: _ => Some n | _ => None end.
(** the directory a file is created in; a single component is relative to the
    current directory, which exists *)
Definition parent_exists (d : disk) (p : path) : bool :=
  match removelast p with [] => true | q => is_dir d q end.
(** [File::create]: an empty file; an existing file is truncated *)
Definition create (d : disk) (p : path) : outcome disk :=
  match file_name p, is_dir d p, parent_exists d p with
  | Some _, false, true => Ok (put d p (File []))
  | _, _, _ => Fail IoError
  end.
(** [Result::unwrap], [Result::expect] *)
Definition or_panic {A} (x : outcome A) : outcome A :=
  match x with Fail IoError => Fail Panicked | x => x end.

(** ** [Path::file_stem], [Path::extension] of a file name: split at the last dot,
    unless that is the first character ([std::path::rsplit_file_at_dot]) *)
Definition DOT : N := 46.
Definition DASH : N := 45.
Fixpoint rsplit_dot (n : list N) : option (list N * list N) :=
  match n with
  | [] => None
  | c :: t =>
      match rsplit_dot t with
      | Some (b, a) => Some (c :: b, a)
      | None => if (c =? DOT)%N then Some ([], t) else None
      end
  end.
Definition file_stem (n : list N) : list N :=
  match rsplit_dot n with Some (c :: b, _) => c :: b | _ => n end.
Definition extension (n : list N) : option (list N) :=
  match rsplit_dot n with Some (_ :: _, a) => Some a | _ => None end.

(** [str::ends_with(".gz")] of a path whose last component is [n] *)
Definition ends_gz (n : list N) : bool :=
  match rev n with z :: g :: dot :: _ => ((dot =? 46) && (g =? 103) && (z =? 122))%N | _ => false end.

(** ** [Ord] of names: lexicographic in the bytes *)
Fixpoint name_leb (a b : list N) : bool :=
  match a, b with
  | [], _ => true
  | _ :: _, [] => false
  | x :: a', y :: b' => if (x <? y)%N then true else if (x =? y)%N then name_leb a' b' else false
  end.
Fixpoint insert_name (n : list N) (l : list (list N)) : list (list N) :=
  match l with
  | [] => [n]
  | m :: t => if name_leb n m then n :: m :: t else m :: insert_name n t
  end.
Definition sort_names (l : list (list N)) : list (list N) := fold_right insert_name [] l.

(** [read_dir]: the names in a directory *)
Definition child_of (dir : path) (p : path) : list (list N) :=
  match file_name p with
  | Some n => if path_eqb (removelast p) dir then [n] else []
  | None => []
  end.
Definition children (d : disk) (dir : path) : list (list N) := flat_map (fun e => child_of dir (fst e)) d.

Section Files.
  Context (utf8 : list N -> option str) (gunzip : list N -> option (list N)) (json_dec : str -> option str).

  Definition valid (b : list N) : bool := match utf8 b with Some _ => true | None => false end.
  (** [Path::to_str] is [Some] *)
  Definition path_valid (p : path) : bool :=
    forallb (fun c => match c with Name n => valid n | _ => true end) p.

  (** [parse_words], parsing.rs:19-31, of a file; [lines] panics at a line that is
      not UTF-8 *)
  Definition parse_words_at (d : disk) (words_path : path) : outcome wmap :=
    let* b := or_panic (read_file d words_path) in
    let* t := ounwrap (utf8 b) in
    parse_words json_dec t.

  (** [parts], :159-165 *)
  Definition parts (d : disk) (p : path) : list path :=
    if is_dir d p then map (fun n => p ++ [Name n]) (sort_names (children d p)) else [p].

  (** one part, :177-184 *)
  Definition parse_part (d : disk) (word_ids : wmap) (part : path) : outcome elements :=
    let* b := or_panic (read_file d part) in
    let* _ := oassert (path_valid part) in
    let* b := match file_name part with
              | Some n => if ends_gz n then ounwrap (gunzip b) else Ok b
              | None => Ok b
              end in
    let* t := ounwrap (utf8 b) in
    parse_file json_dec t word_ids.

  (** [parse_elements_in_directory_or_file], :154-217 *)
  Definition parse_elements_at (d : disk) (p : path) (word_ids : wmap) : outcome elements :=
    let* ps := omapM (parse_part d word_ids) (parts d p) in
    ofold (fun els q => els_extend els q) ps vw_new.

  (** [parse_elements_and_save_to_disk], :33-48: the disk afterwards and what the
      caller sees *)
  Definition save_at (d : disk) (elements_path words_path output_path : path) : disk * outcome nat :=
    match (let* word_ids := parse_words_at d words_path in parse_elements_at d elements_path word_ids) with
    | Fail x => (d, Fail x)
    | Ok els =>
        match or_panic (create d output_path) with
        | Fail x => (d, Fail x)
        | Ok d => (put d output_path (File (fst (els_write els))), Ok (vw_len els))
        end
    end.

  (** [get_shard_name], :50-61 *)
  Definition s_elements_ : list N := [101; 108; 101; 109; 101; 110; 116; 115; 45]%N. (* "elements-" *)
  Definition s_bin : list N := [98; 105; 110]%N.
  Definition get_shard_name (d : disk) (output_path : path) (shard_id : nat) : outcome path :=
    if is_dir d output_path then
      Ok (output_path ++ [Name (s_elements_ ++ digits (N.of_nat shard_id) ++ DOT :: s_bin)])
    else
      let* n := ounwrap (file_name output_path) in
      let* _ := oassert (valid (file_stem n)) in
      let* ext := match extension n with
                  | Some e => let* _ := oassert (valid e) in Ok e
                  | None => Ok s_bin
                  end in
      Ok (removelast output_path ++ [Name (file_stem n ++ DASH :: digits (N.of_nat shard_id) ++ DOT :: ext)]).

  (** the loop of [parse_elements_and_save_shards_to_disk], :76-97; the argument of
      [expect], :90, is evaluated after the file has been created *)
  Fixpoint shards_at (d : disk) (els : elements) (output_path : path) (show_progress : bool) (size : nat) (shards : list nat)
    : disk * outcome nat :=
    match shards with
    | [] => (d, Ok (vw_len els))
    | shard :: rest =>
        match get_shard_name d output_path shard with
        | Fail x => (d, Fail x)
        | Ok p =>
            let begin := shard * size in
            let end_ := Nat.min ((shard + 1) * size) (vw_len els) in
            if show_progress && negb (path_valid p) then (d, Fail Panicked)
            else
              match create d p with
              | Fail x => (d, Fail Panicked)
              | Ok d =>
                  if negb (path_valid p) then (d, Fail Panicked)
                  else
                    match vw_write_range five_byte id_repr els begin end_ with
                    | Fail x => (d, Fail x)
                    | Ok w => shards_at (put d p (File (fst w))) els output_path show_progress size rest
                    end
              end
        end
    end.
  (** [parse_elements_and_save_shards_to_disk], :63-100 *)
  Definition save_shards_at (d : disk) (elements_path words_path output_path : path) (num_shards : nat) (show_progress : bool)
    : disk * outcome nat :=
    match (let* word_ids := parse_words_at d words_path in
           let* els := parse_elements_at d elements_path word_ids in
           let* size := shard_size (vw_len els) num_shards in
           Ok (els, size)) with
    | Fail x => (d, Fail x)
    | Ok (els, size) => shards_at d els output_path show_progress size (seq 0 num_shards)
    end.

  (** ** [compute_embeddings_and_save_to_disk], :103-152

      The two input files are mapped into memory and read while the output file
      is written.  [Damaged]: a mapping is read although its file no longer holds
      the bytes that were mapped (the process is killed by SIGBUS, or computes from
      other bytes). *)
  Inductive run := Finished (r : outcome unit) | Damaged.

  Context {F : Type} (fr : repr F) (fadd : F -> F -> F) (fzero : F) (conv : mode -> list F -> outcome (list Z)).

  (** reading the mapping [bytes] of the file [p] *)
  Definition intact (d : disk) (p : path) (bytes : list N) : bool :=
    match node_at d p with Some (File b) => if list_eq_dec N.eq_dec b bytes then true else false | _ => false end.

  (** the loop, :131-151: [d] is the disk after the output file has been created;
      element [i] is read from the elements file, and from the embeddings file
      if it has words.  The result is what has been written (on a panic the
      [BufWriter] is dropped, which writes what it still holds). *)
  Definition chunk_ids (c : sumemb F) (i : nat) : list nat :=
    let chunk_size := (se_len c + NUM_CHUNKS - 1) / NUM_CHUNKS in
    let b := i * chunk_size in
    seq b (Nat.min ((i + 1) * chunk_size) (se_len c) - b).
  Definition has_words (c : sumemb F) (i : nat) : bool :=
    match vw_get (se_els c) i with Ok (_ :: _) => true | _ => false end.
  Fixpoint export_at (m : mode) (d : disk) (elements_path embeddings_path : path) (ebytes wbytes : list N)
           (c : sumemb F) (chunks : list nat) (done : list N) : list N * run :=
    match chunks with
    | [] => (done, Finished (Ok tt))
    | i :: rest =>
        let ids := chunk_ids c i in
        if negb (0 <? length ids) || intact d elements_path ebytes then
          if negb (existsb (has_words c) ids) || intact d embeddings_path wbytes then
            match export_chunk fadd fzero conv m c i with
            | Fail x => (done, Finished (Fail x))
            | Ok b => export_at m d elements_path embeddings_path ebytes wbytes c rest (done ++ b)
            end
          else (done, Damaged)
        else (done, Damaged)
    end.
  (** [Mmap::map] of an empty file is an error ([unwrap]) *)
  Definition map_file (d : disk) (p : path) : outcome (list N) :=
    let* b := or_panic (read_file d p) in
    let* _ := oassert (0 <? length b) in Ok b.
  Definition compute_at (m : mode) (d : disk) (elements_path embeddings_path output_path : path) : disk * run :=
    match (let* wbytes := map_file d embeddings_path in
           let* embs := fw_from_bytes fr wbytes in
           let* ebytes := map_file d elements_path in
           let* els := els_from_bytes ebytes in
           Ok (wbytes, ebytes, mkSumEmb embs els)) with
    | Fail x => (d, Finished (Fail x))
    | Ok (wbytes, ebytes, c) =>
        match or_panic (create d output_path) with
        | Fail x => (d, Finished (Fail x))
        | Ok d1 =>
            let '(b, r) := export_at m d1 elements_path embeddings_path ebytes wbytes c (seq 0 NUM_CHUNKS) [] in
            (put d1 output_path (File b), r)
        end
    end.
End Files.
