(** * Model of the functions of the Python module, py/src/lib.rs:17-147, and of the
    class [Embeddings], py/src/embeddings.rs.

    Conventions of [MPyIndex]: a failed conversion raises an exception ([Fail
    IoError]), a Rust panic is [Fail Panicked].  Progress output is not modelled.
    The output file of a call that panics is not modelled; the paths of one call
    are taken to name different files. *)
From Verif Require Import Base Bytes MSliceVec MSearch MBuild MFloat MFloatBits MAngular MEmbed MParse MPyIndex.

(** ** Arguments by position and by name: [argparse::parse_args] of the crate
    cpython, as its documentation says.  A parameter is a name and whether it may
    be left out; keyword arguments are a dictionary (the first pair of a name
    counts). *)
Definition param : Type := str * bool.
Fixpoint kw_get {V} (kwargs : list (str * V)) (name : str) : option V :=
  match kwargs with
  | [] => None
  | (n, v) :: t => if str_eqb n name then Some v else kw_get t name
  end.
Fixpoint bind_params {V} (params : list param) (args : list V) (kwargs : list (str * V)) : outcome (list (option V)) :=
  match params with
  | [] => Ok []
  | (name, opt) :: ps =>
      let* v := match kw_get kwargs name, args with
                | Some _, _ :: _ => Fail IoError (* given by name and by position *)
                | Some v, [] => Ok (Some v)
                | None, a :: _ => Ok (Some a)
                | None, [] => if (opt : bool) then Ok None else Fail IoError
                end in
      let* rest := bind_params ps (tl args) kwargs in
      Ok (v :: rest)
  end.
Definition bind_args {V} (params : list param) (args : list V) (kwargs : list (str * V)) : outcome (list (option V)) :=
  if length params <? length args + length kwargs then Fail IoError
  else if forallb (fun kv => existsb (fun p => str_eqb (fst p) (fst kv)) params) kwargs then bind_params params args kwargs
  else Fail IoError.

Inductive pyarg := ArgText (s : str) | ArgBool (b : bool) | ArgOther.
(** [String::extract], [bool::extract] *)
Definition arg_text (a : pyarg) : outcome str := match a with ArgText s => Ok s | _ => Fail IoError end.
Definition arg_bool (a : pyarg) : outcome bool := match a with ArgBool b => Ok b | _ => Fail IoError end.

(** the names of the parameters *)
Definition n_elements_path : str := [101; 108; 101; 109; 101; 110; 116; 115; 95; 112; 97; 116; 104]%N.
Definition n_embeddings_path : str := [101; 109; 98; 101; 100; 100; 105; 110; 103; 115; 95; 112; 97; 116; 104]%N.
Definition n_words_path : str := [119; 111; 114; 100; 115; 95; 112; 97; 116; 104]%N.
Definition n_output_path : str := [111; 117; 116; 112; 117; 116; 95; 112; 97; 116; 104]%N.
Definition n_show_progress : str := [115; 104; 111; 119; 95; 112; 114; 111; 103; 114; 101; 115; 115]%N.

(** What the files hold: bytes, text, and the texts of the file or (in the order
    of their paths) of the files in the directory; [None] if it cannot be opened. *)
Record fsys := mkFsys {
  fs_bytes : str -> option (list N);
  fs_text : str -> option str;
  fs_parts : str -> option (list str)
}.

(** a function of three paths and [show_progress], called with the parameters of
    [py_fn!] in the order they are declared *)
Definition call_fn {R} (names : str * str * str) (f : str -> str -> str -> outcome R)
           (args : list pyarg) (kwargs : list (str * pyarg)) : outcome R :=
  let '(n1, n2, n3) := names in
  let* vs := bind_args [(n1, false); (n2, false); (n3, false); (n_show_progress, true)] args kwargs in
  match vs with
  | [Some a; Some b; Some c; p] =>
      let* a := arg_text a in
      let* b := arg_text b in
      let* c := arg_text c in
      let* _ := match p with Some p => arg_bool p | None => Ok true end in
      f a b c
  | _ => Fail IoError
  end.

Section Mod.
  Context (m : mode) (json_dec : str -> option str) (json_enc : str -> str) (fs : fsys).

  (** [compute_embeddings_and_save_to_disk], src/elements/embeddings/parsing.rs:103-152:
      the file written and its contents *)
  Definition compute_embeddings (elements_path word_embeddings_path output_path : str) : outcome (str * list N) :=
    let* word_embeddings := ounwrap (fs_bytes fs word_embeddings_path) in
    let* embeddings := fw_from_bytes f32r word_embeddings in
    let* elements := ounwrap (fs_bytes fs elements_path) in
    let* elements := els_from_bytes elements in
    let* bytes := export f32_add f32_zero quantize m (mkSumEmb embeddings elements) in
    Ok (output_path, bytes).

  (** [py_compute_embeddings_and_save_to_disk], lib.rs:132-147 *)
  Definition py_compute_embeddings_fn (elements_path embeddings_path output_path : str) : outcome (str * list N) :=
    compute_embeddings elements_path embeddings_path output_path.
  (** as it is added to the module, lib.rs:43-55 *)
  Definition py_compute_embeddings (args : list pyarg) (kwargs : list (str * pyarg)) : outcome (str * list N) :=
    call_fn (n_embeddings_path, n_elements_path, n_output_path) py_compute_embeddings_fn args kwargs.

  (** [parse_elements_and_save_to_disk], parsing.rs:33-48 *)
  Definition parse_and_save_files (elements_path words_path output_path : str) : outcome (str * list N) :=
    let* words := ounwrap (fs_text fs words_path) in
    let* _ := parse_words json_dec words in
    let* parts := ounwrap (fs_parts fs elements_path) in
    let* r := parse_and_save json_dec parts words in
    Ok (output_path, fst r).
  (** [py_parse_elements_and_save_to_disk], lib.rs:102-117 *)
  Definition py_parse_elements_fn (elements_path words_path output_path : str) : outcome (str * list N) :=
    parse_and_save_files elements_path words_path output_path.
  (** as it is added to the module, lib.rs:30-42 *)
  Definition py_parse_elements (args : list pyarg) (kwargs : list (str * pyarg)) : outcome (str * list N) :=
    call_fn (n_elements_path, n_words_path, n_output_path) py_parse_elements_fn args kwargs.

  (** ** class [Embeddings], py/src/embeddings.rs *)

  (** [__new__], :27-56: the contents of the files named, if named *)
  Definition pe_open (embeddings : option (list N)) (words : option str) : outcome (@pyemb f32) :=
    match embeddings, words with
    | Some _, None => Fail Panicked
    | None, Some _ => Fail Panicked
    | Some embeddings, Some words =>
        let* words := dict_new json_dec words in
        let* embeddings := se_from_files embeddings None in
        Ok (mkPyEmb embeddings words)
    | None, None => Ok pe_new
    end.
  (** [__len__], :58-60 *)
  Definition pe_len (e : @pyemb f32) : nat := se_num_embeddings (pe_emb e).

  (** the arguments: an integer, a sequence of integers (both not negative and
      below 2^64), a text, anything else.  A text that is not empty is a sequence
      of texts, not of integers; an empty one is the empty sequence. *)
  Inductive emb_input := InId (n : nat) | InIds (l : list nat) | InText (s : str) | InOther.
  (** [usize::extract], [Vec::<usize>::extract], [String::extract] *)
  Definition in_id (i : emb_input) : outcome nat := match i with InId n => Ok n | _ => Fail IoError end.
  Definition in_ids (i : emb_input) : outcome (list nat) :=
    match i with InIds l => Ok l | InText [] => Ok [] | _ => Fail IoError end.
  Definition in_text (i : emb_input) : outcome str := match i with InText s => Ok s | _ => Fail IoError end.

  (** [get_embedding], :63-75 *)
  Definition pe_get (e : @pyemb f32) (input : emb_input) : outcome (list f32) :=
    let* idxs := match in_id input with
                 | Ok idx => Ok [idx]
                 | Fail _ =>
                     match in_ids input with
                     | Ok data => Ok data
                     | Fail _ => let* words := in_text input in Ok (get_word_ids (pe_words e) words)
                     end
                 end in
    se_create_embedding f32_add f32_zero m (pe_emb e) idxs.

  (** [.unwrap()] of a [PyResult] *)
  Definition unwrap_result {A} (o : outcome A) : outcome A :=
    match o with Fail IoError => Fail Panicked | o => o end.

  (** [dist], :78-83; [Element::from] is [angular::Vector::from] *)
  Definition pe_dist (e : @pyemb f32) (left_input right_input : emb_input) : outcome f32 :=
    let* l := unwrap_result (pe_get e left_input) in let left := angular_vector l in
    let* r := unwrap_result (pe_get e right_input) in let right := angular_vector r in
    angular_dist left right.
  (** [dists], :86-94 *)
  Definition pe_dists (e : @pyemb f32) (left_input : emb_input) (right_inputs : list emb_input) : outcome (list f32) :=
    let* l := unwrap_result (pe_get e left_input) in let left := angular_vector l in
    let* rights := omapM (fun i => let* r := unwrap_result (pe_get e i) in Ok (angular_vector r)) right_inputs in
    omapM (fun r => angular_dist left r) rights.

  (** [save], :118-143: the contents of the two files *)
  Definition pe_save (e : @pyemb f32) : list N * str :=
    (fst (fw_write f32r (se_embs (pe_emb e))), dict_write json_enc (pe_words e)).
End Mod.
