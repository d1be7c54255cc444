(** * Model of the Python classes [Granne] and [GranneBuilder]: py/src/lib.rs,
    py/src/variants/index.rs, py/src/variants/builder.rs.

    A Python argument is a [pyval]; an exception raised by a failed conversion is
    [Fail IoError] (the only use of [Err] here), a Rust panic (which reaches
    Python as an exception too) is [Fail Panicked].  Files are given by their
    contents; failing to open one is not modelled.  Distances are coded as in
    [MSearch].  [show_progress], the GIL and the borrow flags of [RefCell] (one
    thread) are not modelled. *)
From Coq Require Import ZArith.
From Flocq Require Import Core IEEE754.BinarySingleNaN.
From Verif Require Import Base Bytes MSliceVec MIndexIo MSearch MBuild MReorder MFloat MFloatBits MAngular MLayerSize MEmbed MParse.
Close Scope R_scope. Close Scope Z_scope.
Open Scope nat_scope.

(** ** [BuildConfig], src/index/mod.rs:199-291 *)
Record build_config := mkBuildConfig {
  bc_layer_multiplier : f32;
  bc_expected_num_elements : option nat;
  bc_num_neighbors : nat;
  bc_max_search : nat;
  bc_reinsert_elements : bool
}.
(** [Default], :220-231 *)
Definition bc_default : build_config := mkBuildConfig (f32_of_Z 15) None 30 200 true.
(** the setters, :242-285 *)
Definition set_num_neighbors (n : nat) (c : build_config) : build_config :=
  mkBuildConfig (bc_layer_multiplier c) (bc_expected_num_elements c) n (bc_max_search c) (bc_reinsert_elements c).
Definition set_max_search (n : nat) (c : build_config) : build_config :=
  mkBuildConfig (bc_layer_multiplier c) (bc_expected_num_elements c) (bc_num_neighbors c) n (bc_reinsert_elements c).
Definition set_expected_num_elements (n : nat) (c : build_config) : build_config :=
  mkBuildConfig (bc_layer_multiplier c) (Some n) (bc_num_neighbors c) (bc_max_search c) (bc_reinsert_elements c).
Definition set_layer_multiplier (x : f32) (c : build_config) : build_config :=
  mkBuildConfig x (bc_expected_num_elements c) (bc_num_neighbors c) (bc_max_search c) (bc_reinsert_elements c).
Definition set_reinsert_elements (yes : bool) (c : build_config) : build_config :=
  mkBuildConfig (bc_layer_multiplier c) (bc_expected_num_elements c) (bc_num_neighbors c) (bc_max_search c) yes.
(** as used by [MBuild], for the C library [L] *)
Definition config_from (L : libm) (c : build_config) : config :=
  config_of (bc_num_neighbors c) (bc_max_search c) (bc_reinsert_elements c) (bc_expected_num_elements c) L
            (bc_layer_multiplier c).

(** the keyword arguments of [GranneBuilder], lib.rs:384-395 *)
Record options := mkOptions {
  o_layer_multiplier : option f32;
  o_expected_num_elements : option nat;
  o_num_neighbors : option nat;
  o_max_search : option nat;
  o_reinsert_elements : bool
}.
Definition map_or {A B} (x : option A) (d : B) (f : A -> B) : B := match x with Some a => f a | None => d end.
(** lib.rs:397-405 *)
Definition options_config (o : options) : build_config :=
  let config := set_reinsert_elements (o_reinsert_elements o) bc_default in
  let config := map_or (o_layer_multiplier o) config (fun x => set_layer_multiplier x config) in
  let config := map_or (o_expected_num_elements o) config (fun x => set_expected_num_elements x config) in
  let config := map_or (o_num_neighbors o) config (fun x => set_num_neighbors x config) in
  map_or (o_max_search o) config (fun x => set_max_search x config).

(** ** Arguments *)
Inductive pyval :=
| PyFloats (l : list f32) (* a sequence of numbers *)
| PyText (s : str)
| PyOther.
(** [Vec::<f32>::extract]: a [str] is a sequence of one-character strings, so only
    the empty one converts *)
Definition extract_floats (v : pyval) : outcome (list f32) :=
  match v with PyFloats l => Ok l | PyText [] => Ok [] | _ => Fail IoError end.
(** [String::extract] *)
Definition extract_text (v : pyval) : outcome str :=
  match v with PyText s => Ok s | _ => Fail IoError end.

(** [element_type.to_ascii_lowercase().as_str()], lib.rs:185, 415 *)
Inductive etype := Angular | AngularInt | Words.
Definition ascii_lower (c : N) : N := if ((65 <=? c) && (c <=? 90))%N then (c + 32)%N else c.
Definition s_angular : str := [97; 110; 103; 117; 108; 97; 114]%N.
Definition s_angular_int : str := (s_angular ++ [95; 105; 110; 116])%N.
Definition s_embeddings : str := [101; 109; 98; 101; 100; 100; 105; 110; 103; 115]%N.
Definition etype_of (s : str) : option etype :=
  let s := map ascii_lower s in
  if str_eqb s s_angular then Some Angular
  else if str_eqb s s_angular_int then Some AngularInt
  else if str_eqb s s_embeddings then Some Words
  else None.

(** [py_compute_distance], lib.rs:70-88: no lower-casing here *)
Definition py_compute_distance (m : mode) (element_type : str) (a b : pyval) : outcome Z :=
  if str_eqb element_type s_angular then
    let* a := extract_floats a in
    let* b := extract_floats b in
    coded (angular_dist (angular_vector a) (angular_vector b))
  else if str_eqb element_type s_angular_int then
    let* a := extract_floats a in let* a := quantize m a in
    let* b := extract_floats b in let* b := quantize m b in
    coded (angular_int_dist m a b)
  else Fail Panicked.

(** [SumEmbeddings] of [f32] vectors as an element container *)
Definition word_ops (m : mode) : cops (sumemb f32) (list f32) :=
  se_ops f32_add f32_zero angular_vector (fun x y => coded (angular_dist x y)) m.

Section Py.
  (** build profile, fuel of the searches, [sort_unstable_by_key], JSON decoder, C
      library *)
  Context (m : mode) (fuel : nat) (usort : list (nat * Z) -> list (nat * Z)) (json_dec : str -> option str) (L : libm).

  Definition env_f32 : benv (fw f32) (list f32) := mkEnv m fuel (angular_ops m) usort (f32_code EPS100).
  Definition env_i8 : benv (fw Z) (list Z) := mkEnv m fuel (angular_int_ops m) usort (f32_code EPS100).
  Definition env_words : benv (sumemb f32) (list f32) := mkEnv m fuel (word_ops m) usort (f32_code EPS100).

  (** [SumEmbeddings::from_files], src/elements/embeddings/mod.rs:75-86; [expect] *)
  Definition se_from_files (embeddings : list N) (elements : option (list N)) : outcome (sumemb f32) :=
    let* els := match elements with Some b => els_from_bytes b | None => Ok vw_new end in
    let* embs := fw_from_bytes f32r embeddings in
    Ok (mkSumEmb embs els).

  (** ** [WordEmbeddingsBuilder], builder.rs:25-51, 84-93 *)
  Record word_builder := mkWordBuilder { wb_builder : builder (sumemb f32); wb_words : worddict }.
  Definition wb_new (cfg : config) (elements : option (list N)) (embeddings : list N) (words : str)
             (index : option (list N)) : outcome word_builder :=
    let* words := dict_new json_dec words in
    let* els := se_from_files embeddings elements in
    let* b := match index with
              | Some index => builder_open env_words cfg index els
              | None => builder_new env_words cfg els
              end in
    Ok (mkWordBuilder b words).
  Definition wb_push (w : word_builder) (element : pyval) : outcome word_builder :=
    let* words := extract_text element in
    let ids := get_word_ids (wb_words w) words in
    let* b := builder_push env_words (@se_push f32) (wb_builder w) ids in
    Ok (mkWordBuilder b (wb_words w)).

  (** ** [GranneBuilder], lib.rs:347-578 *)
  Inductive py_builder :=
  | PbF32 (b : builder (fw f32))
  | PbI8 (b : builder (fw Z))
  | PbWords (w : word_builder).

  (** [__new__], lib.rs:384-457 *)
  Definition pb_new (element_type : str) (elements embeddings : option (list N)) (words : option str)
             (index : option (list N)) (o : options) : outcome py_builder :=
    let cfg := config_from L (options_config o) in
    match index, elements, etype_of element_type with
    | None, None, Some Angular => let* b := builder_new env_f32 cfg fw_new in Ok (PbF32 b)
    | None, Some elements, Some Angular =>
        let* v := fw_from_bytes f32r elements in
        let* b := builder_new env_f32 cfg v in Ok (PbF32 b)
    | Some index, Some elements, Some Angular =>
        let* v := fw_from_bytes f32r elements in
        let* b := builder_open env_f32 cfg index v in Ok (PbF32 b)
    | None, None, Some AngularInt => let* b := builder_new env_i8 cfg fw_new in Ok (PbI8 b)
    | None, Some elements, Some AngularInt =>
        let* v := fw_from_bytes i8r elements in
        let* b := builder_new env_i8 cfg v in Ok (PbI8 b)
    | Some index, Some elements, Some AngularInt =>
        let* v := fw_from_bytes i8r elements in
        let* b := builder_open env_i8 cfg index v in Ok (PbI8 b)
    | index, elements, Some Words =>
        let* embeddings := ounwrap embeddings in
        let* words := ounwrap words in
        let* w := wb_new cfg elements embeddings words index in Ok (PbWords w)
    | _, _, _ => Fail Panicked
    end.

  (** [append], lib.rs:474-476; builder.rs:6-23, 84-93 *)
  Definition pb_append (p : py_builder) (element : pyval) : outcome py_builder :=
    match p with
    | PbF32 b =>
        let* v := extract_floats element in
        let* b := builder_push env_f32 (@fw_push f32) b (angular_vector v) in Ok (PbF32 b)
    | PbI8 b =>
        let* v := extract_floats element in
        let* q := quantize m v in
        let* b := builder_push env_i8 (@fw_push Z) b q in Ok (PbI8 b)
    | PbWords w => let* w := wb_push w element in Ok (PbWords w)
    end.

  (** [build], lib.rs:486-494; [None]: the default argument [usize::max_value()] *)
  Definition build_call {S E} (V : benv S E) (f : nat) (b : builder S) (num_elements : option nat) (sched : schedules)
    : outcome (builder S) :=
    match num_elements with
    | None => build V f b sched
    | Some n => build_partial V f b n sched
    end.
  Definition pb_build (f : nat) (p : py_builder) (num_elements : option nat) (sched : schedules) : outcome py_builder :=
    match p with
    | PbF32 b => let* b := build_call env_f32 f b num_elements sched in Ok (PbF32 b)
    | PbI8 b => let* b := build_call env_i8 f b num_elements sched in Ok (PbI8 b)
    | PbWords w =>
        let* b := build_call env_words f (wb_builder w) num_elements sched in
        Ok (PbWords (mkWordBuilder b (wb_words w)))
    end.

  (** [save_index], [save_elements], lib.rs:504-522, 640-650: the contents of the
      newly created file *)
  Definition pb_layers (p : py_builder) : layers :=
    FixWidth (match p with PbF32 b => b_layers b | PbI8 b => b_layers b | PbWords w => b_layers (wb_builder w) end).
  Definition pb_save_index (p : py_builder) : outcome (list N) :=
    let* c := write_index m (pb_layers p) (mkCursor [] 0) in Ok (cbuf c).
  Definition pb_save_elements (p : py_builder) : list N :=
    match p with
    | PbF32 b => fst (fw_write f32r (b_elems b))
    | PbI8 b => fst (fw_write i8r (b_elems b))
    | PbWords w => fst (se_write (b_elems (wb_builder w)))
    end.

  (** [get_neighbors], lib.rs:544-552 and 270-278; [num_layers() - 1] underflows
      without layers: a panic in debug builds; in release builds the huge layer
      number panics *)
  Definition neighbors_in (Ls : layers) (idx : nat) (layer : option nat) : outcome (list nat) :=
    match layer with
    | Some layer => get_neighbors m Ls idx layer
    | None =>
        let* _ := oassert (0 <? layers_len Ls) in
        get_neighbors m Ls idx (layers_len Ls - 1)
    end.
  Definition pb_get_neighbors (p : py_builder) (idx : nat) (layer : option nat) : outcome (list nat) :=
    neighbors_in (pb_layers p) idx layer.
  (** [__len__], [num_elements], [num_layers], [layer_len], lib.rs:554-578 *)
  Definition pb_len (p : py_builder) : outcome nat := index_len (pb_layers p).
  Definition pb_num_elements (p : py_builder) : nat :=
    match p with
    | PbF32 b => c_len (angular_ops m) (b_elems b)
    | PbI8 b => c_len (angular_int_ops m) (b_elems b)
    | PbWords w => c_len (word_ops m) (b_elems (wb_builder w))
    end.
  Definition pb_num_layers (p : py_builder) : nat := layers_len (pb_layers p).
  Definition pb_layer_len (p : py_builder) (layer : nat) : outcome nat := layer_len (pb_layers p) layer.

  (** ** [Granne], lib.rs:149-345 *)
  Inductive py_index :=
  | PiF32 (g : granne (fw f32))
  | PiI8 (g : granne (fw Z))
  | PiWords (g : granne (sumemb f32)) (words : worddict).

  (** [Granne::from_file], src/index/mod.rs:122-136: loads, and asks for the length *)
  Definition granne_from_file {S} (index : list N) (elements : S) : outcome (granne S) :=
    let* Ls := load_layers index in
    let* _ := index_len Ls in
    Ok (mkGranne Ls elements).

  (** [__new__], lib.rs:175-213; [WordEmbeddingsGranne::new], index.rs:47-59 *)
  Definition pi_open (index : list N) (element_type : str) (elements : list N) (embeddings : option (list N))
             (words : option str) : outcome py_index :=
    match etype_of element_type with
    | Some Angular =>
        let* v := fw_from_bytes f32r elements in
        let* g := granne_from_file index v in Ok (PiF32 g)
    | Some AngularInt =>
        let* v := fw_from_bytes i8r elements in
        let* g := granne_from_file index v in Ok (PiI8 g)
    | Some Words =>
        let* embeddings := ounwrap embeddings in
        let* words := ounwrap words in
        let* d := dict_new json_dec words in
        let* s := se_from_files embeddings (Some elements) in
        let* g := granne_from_file index s in Ok (PiWords g d)
    | None => Fail Panicked
    end.

  Definition pi_layers (p : py_index) : layers :=
    match p with PiF32 g => gr_layers g | PiI8 g => gr_layers g | PiWords g _ => gr_layers g end.

  Definition search_in {S E} (C : cops S E) (g : granne S) (element : E) (max_search num_elements : nat)
    : outcome (list (nat * Z)) :=
    granne_search m fuel (gr_layers g) (fun i => c_dte C (gr_elems g) i element) max_search num_elements.

  (** [search], lib.rs:227-234; index.rs:8-17, 25-34, 91-110 *)
  Definition DEFAULT_MAX_SEARCH := 200. (* lib.rs:14 *)
  Definition DEFAULT_NUM_ELEMENTS := 10. (* lib.rs:15 *)
  Definition pi_search (p : py_index) (element : pyval) (max_search num_elements : option nat) : outcome (list (nat * Z)) :=
    let max_search := map_or max_search DEFAULT_MAX_SEARCH (fun n => n) in
    let num_elements := map_or num_elements DEFAULT_NUM_ELEMENTS (fun n => n) in
    match p with
    | PiF32 g =>
        let* v := extract_floats element in
        search_in (angular_ops m) g (angular_vector v) max_search num_elements
    | PiI8 g =>
        let* v := extract_floats element in
        let* q := quantize m v in
        search_in (angular_int_ops m) g q max_search num_elements
    | PiWords g words =>
        let* data := (match extract_floats element with
                      | Ok data => Ok data
                      | Fail _ =>
                          let* text := extract_text element in
                          se_create_embedding f32_add f32_zero m (gr_elems g) (get_word_ids words text)
                      end) in
        search_in (word_ops m) g (angular_vector data) max_search num_elements
    end.

  (** what Python gets for an element *)
  Inductive pyelem := PeFloats (l : list f32) | PeInts (l : list Z) | PeText (s : str).
  (** [get_element], lib.rs:243-245; index.rs:19-21, 36-38, 112-114 *)
  Definition pi_get_element (p : py_index) (idx : nat) : outcome pyelem :=
    match p with
    | PiF32 g => let* v := c_get (angular_ops m) (gr_elems g) idx in Ok (PeFloats v)
    | PiI8 g => let* v := c_get (angular_int_ops m) (gr_elems g) idx in Ok (PeInts v)
    | PiWords g _ => let* v := c_get (word_ops m) (gr_elems g) idx in Ok (PeFloats v)
    end.
  (** [get_internal_element], lib.rs:255-257, 617-619; index.rs:116-121 *)
  Definition pi_get_internal_element (p : py_index) (idx : nat) : outcome pyelem :=
    match p with
    | PiWords g words =>
        let* ids := se_get_terms (gr_elems g) idx in
        let* s := get_words words ids in Ok (PeText s)
    | _ => pi_get_element p idx
    end.

  (** [__len__], [num_layers], [layer_len], [get_neighbors], lib.rs:270-299 *)
  Definition pi_len (p : py_index) : outcome nat := index_len (pi_layers p).
  Definition pi_num_layers (p : py_index) : nat := layers_len (pi_layers p).
  Definition pi_layer_len (p : py_index) (layer : nat) : outcome nat := layer_len (pi_layers p) layer.
  Definition pi_get_neighbors (p : py_index) (idx : nat) (layer : option nat) : outcome (list nat) :=
    neighbors_in (pi_layers p) idx layer.

  (** the [norm] closure of src/elements/embeddings/reorder.rs:34, into [NotNan] *)
  Definition f32_norm (v : list f32) : outcome Z :=
    coded (notnan (f32_sqrt (fold_left f32_add (map (fun x => f32_mul x x) v) f32_zero))).
  Fixpoint key_le (a b : list nat) : bool :=
    match a, b with
    | [], _ => true
    | _, [] => false
    | x :: a, y :: b => if x =? y then key_le a b else x <? y
    end.

  (** [reorder], lib.rs:311-315, 596-606; index.rs:71-76 *)
  Definition pi_reorder (p : py_index) : outcome (py_index * list nat) :=
    match p with
    | PiF32 g => let* r := reorder (angular_ops m) (vectors_permute m) m fuel g in Ok (PiF32 (fst r), snd r)
    | PiI8 g => let* r := reorder (angular_int_ops m) (vectors_permute m) m fuel g in Ok (PiI8 (fst r), snd r)
    | PiWords g words =>
        let* keys := compute_keys f32_add f32_zero f32_norm m (gr_elems g) in
        let* r := reorder_by_keys (@se_permute f32) key_le m g keys in Ok (PiWords (fst r) words, snd r)
    end.

  (** [save_index], [save_elements], lib.rs:325-343, 628-638; index.rs:78-88 *)
  Definition pi_save_index (p : py_index) : outcome (list N) :=
    let* c := write_index m (pi_layers p) (mkCursor [] 0) in Ok (cbuf c).
  Definition pi_save_elements (p : py_index) : list N :=
    match p with
    | PiF32 g => fst (fw_write f32r (gr_elems g))
    | PiI8 g => fst (fw_write i8r (gr_elems g))
    | PiWords g _ => fst (se_write (gr_elems g))
    end.
End Py.
