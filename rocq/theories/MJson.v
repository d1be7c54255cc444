(** * Model of the part of serde_json (external crate) used for the metadata
    block, index/io.rs:49-61 and 102-110: compact serialisation and parsing.

    Simplifications: of a number that is negative, has a fraction or an exponent
    only the fact is kept, not the value ([JReal]: no such number is a [usize]), and
    one that is beyond the range of f64 (such as 1e999, which serde_json refuses) is
    accepted; the writer does not escape (nothing to escape is ever written). *)
From Verif Require Import Base Bytes.
From Verif Require MUtf8.
From Coq Require Import String Ascii Decimal DecimalN.

(** bytes of an ASCII string literal *)
Fixpoint str (s : string) : list N :=
  match s with
  | EmptyString => []
  | String a t => N_of_ascii a :: str t
  end.

Inductive json :=
| JNull
| JBool (b : bool)
| JNum (n : N)
| JReal (* a number that is not a natural number *)
| JStr (s : list N)
| JArr (l : list json)
| JObj (kvs : list (list N * json)).

(** decimal digits (itoa) *)
Fixpoint uint_bytes (d : uint) : list N :=
  match d with
  | Nil => []
  | D0 u => 48 :: uint_bytes u | D1 u => 49 :: uint_bytes u | D2 u => 50 :: uint_bytes u
  | D3 u => 51 :: uint_bytes u | D4 u => 52 :: uint_bytes u | D5 u => 53 :: uint_bytes u
  | D6 u => 54 :: uint_bytes u | D7 u => 55 :: uint_bytes u | D8 u => 56 :: uint_bytes u
  | D9 u => 57 :: uint_bytes u
  end%N.
Definition digits (n : N) : list N := uint_bytes (N.to_uint n).

Definition json_quote (s : list N) : list N := 34%N :: s ++ [34%N].

(** comma-separated concatenation *)
Fixpoint commas (l : list (list N)) : list N :=
  match l with
  | [] => []
  | [x] => x
  | x :: t => x ++ 44%N :: commas t
  end.

(** [serde_json::to_string] *)
Fixpoint json_write (v : json) : list N :=
  match v with
  | JNull => str "null"
  | JBool true => str "true"
  | JBool false => str "false"
  | JNum n => digits n
  | JReal => [] (* never written *)
  | JStr s => json_quote s
  | JArr l => 91%N :: commas (map json_write l) ++ [93%N]
  | JObj kvs => 123%N :: commas (map (fun kv => json_quote (fst kv) ++ 58%N :: json_write (snd kv)) kvs) ++ [125%N]
  end.

(** ** Parser *)
Definition is_ws (b : N) : bool := ((b =? 32) || (b =? 10) || (b =? 13) || (b =? 9))%N.
Fixpoint skip_ws (l : list N) : list N :=
  match l with
  | [] => []
  | b :: t => if is_ws b then skip_ws t else l
  end.
Definition is_digit (b : N) : bool := ((48 <=? b) && (b <=? 57))%N.

Definition uint_cons (b : N) (u : uint) : uint :=
  match (b - 48)%N with
  | 0 => D0 u | 1 => D1 u | 2 => D2 u | 3 => D3 u | 4 => D4 u
  | 5 => D5 u | 6 => D6 u | 7 => D7 u | 8 => D8 u | _ => D9 u
  end%N.
(** longest run of digits, and the rest *)
Fixpoint span_digits (l : list N) : uint * list N :=
  match l with
  | [] => (Nil, [])
  | b :: t => if is_digit b then let '(u, r) := span_digits t in (uint_cons b u, r) else (Nil, l)
  end.

(** serde_json refuses numbers such as 007 *)
Definition leading_zero (u : uint) : bool :=
  match u with D0 Nil => false | D0 _ => true | _ => false end.

(** The part of a string literal after the opening quote: its bytes, with the escapes
    replaced, and what follows the closing quote.  Control characters must be escaped,
    surrogates come in pairs. *)
Definition j_app (c : list N) (r : option (list N * list N)) : option (list N * list N) :=
  match r with Some (s, rest) => Some (c ++ s, rest) | None => None end.
Fixpoint parse_str (l : list N) : option (list N * list N) :=
  match l with
  | [] => None
  | b :: t =>
      if (b =? 34)%N then Some ([], t)
      else if (b <? 32)%N then None
      else if (b =? 92)%N then
        match t with
        | e :: t1 =>
            if (e =? 117)%N then
              match t1 with
              | h1 :: h2 :: h3 :: h4 :: t2 =>
                  match MUtf8.hex4 h1 h2 h3 h4 with
                  | None => None
                  | Some n =>
                      if MUtf8.is_trail n then None
                      else if MUtf8.is_lead n then
                        match t2 with
                        | q :: u :: g1 :: g2 :: g3 :: g4 :: t3 =>
                            if ((q =? 92) && (u =? 117))%N then
                              match MUtf8.hex4 g1 g2 g3 g4 with
                              | Some k =>
                                  if MUtf8.is_trail k
                                  then j_app (MUtf8.utf8_char ((n - 55296) * 1024 + (k - 56320) + 65536)) (parse_str t3)
                                  else None
                              | None => None
                              end
                            else None
                        | _ => None
                        end
                      else j_app (MUtf8.utf8_char n) (parse_str t2)
                  end
              | _ => None
              end
            else match MUtf8.esc_letter e with Some x => j_app (MUtf8.utf8_char x) (parse_str t1) | None => None end
        | [] => None
        end
      else j_app [b] (parse_str t)
  end.
(** the bytes must be UTF-8 *)
Definition parse_string (l : list N) : option (list N * list N) :=
  match parse_str l with
  | Some (s, r) => match MUtf8.utf8_dec s with Some _ => Some (s, r) | None => None end
  | None => None
  end.

(** Numbers: an optional sign, digits without leading zeros, optionally a fraction
    and an exponent. *)
Definition take_digits (l : list N) : option (list N) :=
  match span_digits l with (Nil, _) => None | (_, r) => Some r end.
Definition parse_frac (l : list N) : option (bool * list N) :=
  match l with
  | b :: t => if (b =? 46)%N then match take_digits t with Some r => Some (true, r) | None => None end else Some (false, l)
  | [] => Some (false, l)
  end.
Definition skip_sign (l : list N) : list N :=
  match l with b :: t => if ((b =? 43) || (b =? 45))%N then t else l | [] => [] end.
Definition parse_exp (l : list N) : option (bool * list N) :=
  match l with
  | b :: t => if ((b =? 69) || (b =? 101))%N
              then match take_digits (skip_sign t) with Some r => Some (true, r) | None => None end
              else Some (false, l)
  | [] => Some (false, l)
  end.
Definition skip_minus (l : list N) : bool * list N :=
  match l with b :: t => if (b =? 45)%N then (true, t) else (false, l) | [] => (false, l) end.
Definition parse_num (l : list N) : option (json * list N) :=
  let '(neg, l) := skip_minus l in
  let '(u, r) := span_digits l in
  match u with
  | Nil => None
  | _ =>
      if leading_zero u then None
      else match parse_frac r with
           | None => None
           | Some (fr, r) =>
               match parse_exp r with
               | None => None
               | Some (ex, r) => Some (if neg || fr || ex then JReal else JNum (N.of_uint u), r)
               end
           end
  end.

Fixpoint strip_prefix (p l : list N) : option (list N) :=
  match p with
  | [] => Some l
  | a :: p' => match l with
               | b :: t => if (a =? b)%N then strip_prefix p' t else None
               | [] => None
               end
  end.

Definition next_char (l : list N) : option (N * list N) :=
  match skip_ws l with [] => None | b :: t => Some (b, t) end.

(** [d] is the number of levels of nesting left (serde_json's recursion limit) *)
Fixpoint parse_val (f d : nat) (l : list N) : option (json * list N) :=
  match f with
  | 0 => None
  | S f =>
      match next_char l with
      | None => None
      | Some (b, t) =>
          if (b =? 34)%N then
            match parse_string t with Some (s, r) => Some (JStr s, r) | None => None end
          else if (b =? 91)%N then
            match d with
            | 0 => None
            | S d =>
                match next_char t with
                | None => None
                | Some (b2, r) =>
                    if (b2 =? 93)%N then Some (JArr [], r)
                    else match parse_arr f d t with Some (vs, r) => Some (JArr vs, r) | None => None end
                end
            end
          else if (b =? 123)%N then
            match d with
            | 0 => None
            | S d =>
                match next_char t with
                | None => None
                | Some (b2, r) =>
                    if (b2 =? 125)%N then Some (JObj [], r)
                    else match parse_obj f d t with Some (vs, r) => Some (JObj vs, r) | None => None end
                end
            end
          else if is_digit b || (b =? 45)%N then parse_num (b :: t)
          else match strip_prefix (str "true") (b :: t) with
               | Some r => Some (JBool true, r)
               | None =>
                   match strip_prefix (str "false") (b :: t) with
                   | Some r => Some (JBool false, r)
                   | None => match strip_prefix (str "null") (b :: t) with
                             | Some r => Some (JNull, r)
                             | None => None
                             end
                   end
               end
      end
  end
with parse_arr (f d : nat) (l : list N) : option (list json * list N) :=
  match f with
  | 0 => None
  | S f =>
      match parse_val f d l with
      | None => None
      | Some (v, r) =>
          match next_char r with
          | None => None
          | Some (b, t) =>
              if (b =? 93)%N then Some ([v], t)
              else if (b =? 44)%N then
                match parse_arr f d t with Some (vs, r) => Some (v :: vs, r) | None => None end
              else None
          end
      end
  end
with parse_obj (f d : nat) (l : list N) : option (list (list N * json) * list N) :=
  match f with
  | 0 => None
  | S f =>
      match next_char l with
      | None => None
      | Some (q, t) =>
          if (q =? 34)%N then
            match parse_string t with
            | None => None
            | Some (k, r) =>
                match next_char r with
                | None => None
                | Some (c, r) =>
                    if (c =? 58)%N then
                      match parse_val f d r with
                      | None => None
                      | Some (v, r) =>
                          match next_char r with
                          | None => None
                          | Some (b, t) =>
                              if (b =? 125)%N then Some ([(k, v)], t)
                              else if (b =? 44)%N then
                                match parse_obj f d t with
                                | Some (kvs, r) => Some ((k, v) :: kvs, r)
                                | None => None
                                end
                              else None
                          end
                      end
                    else None
                end
            end
          else None
      end
  end.

(** [serde_json::from_reader]: one value (at most 127 levels of arrays and objects),
    then only white space *)
Definition json_parse (l : list N) : option json :=
  match parse_val (2 * List.length l + 2) 127 l with
  | Some (v, r) => match skip_ws r with [] => Some v | _ => None end
  | None => None
  end.

(** [Value::index] with a string, [serde_json::from_value] to [usize] and
    [Vec<usize>] *)
Fixpoint beqN (a b : list N) : bool :=
  match a, b with
  | [], [] => true
  | x :: a', y :: b' => (x =? y)%N && beqN a' b'
  | _, _ => false
  end.
Fixpoint obj_get (k : list N) (kvs : list (list N * json)) : option json :=
  match kvs with
  | [] => None
  | (k', v) :: t => match obj_get k t with
                    | Some w => Some w (* a later duplicate key wins *)
                    | None => if beqN k k' then Some v else None
                    end
  end.
Definition json_field (k : list N) (v : json) : option json :=
  match v with JObj kvs => obj_get k kvs | _ => None end.
Definition as_usize (v : json) : option nat :=
  match v with JNum n => if (n <? 2 ^ 64)%N then Some (N.to_nat n) else None | _ => None end.
Fixpoint all_some {A} (l : list (option A)) : option (list A) :=
  match l with
  | [] => Some []
  | Some x :: t => match all_some t with Some r => Some (x :: r) | None => None end
  | None :: _ => None
  end.
Definition as_usizes (v : json) : option (list nat) :=
  match v with JArr l => all_some (map as_usize l) | _ => None end.
