(** * Model of the decoding of text: UTF-8 (std) and JSON strings (serde_json), as
    used by src/elements/embeddings/parsing.rs:19-31, 219-244 and
    py/src/variants/mod.rs:15-32, 71-77.

    These are the functions the other model files take as parameters ([utf8],
    [json_dec], [json_enc]); both libraries are modelled from their documentation.
    Text is a list of Unicode scalar values. *)
From Verif Require Import Base MParse.
From Verif Require Export MUtf8.

(** ** [serde_json::to_string(&str)], variants/mod.rs:73: quotation mark, backslash
    and control characters are escaped *)
Definition hex_digit (n : N) : N := (if n <? 10 then 48 + n else 87 + n)%N.
Definition json_esc (c : N) : str :=
  (if c =? 34 then [92; 34]
   else if c =? 92 then [92; 92]
   else if c =? 8 then [92; 98]
   else if c =? 9 then [92; 116]
   else if c =? 10 then [92; 110]
   else if c =? 12 then [92; 102]
   else if c =? 13 then [92; 114]
   else if c <? 32 then [92; 117; 48; 48; hex_digit (c / 16); hex_digit (c mod 16)]
   else [c])%N.
Definition serde_enc (w : str) : str := 34%N :: flat_map json_esc w ++ [34%N].

(** ** [serde_json::from_str::<String>], parsing.rs:28, 227, variants/mod.rs:22 *)
Definition json_ws (c : N) : bool := ((c =? 32) || (c =? 9) || (c =? 10) || (c =? 13))%N.
Fixpoint skip_json_ws (s : str) : str :=
  match s with c :: t => if json_ws c then skip_json_ws t else s | [] => [] end.

(** what follows the opening quotation mark: the text, and what follows the closing
    one; control characters must be escaped, surrogates come in pairs *)
Definition j_cons (c : N) (r : option (str * str)) : option (str * str) :=
  match r with Some (w, rest) => Some (c :: w, rest) | None => None end.
Fixpoint json_body (s : str) : option (str * str) :=
  match s with
  | [] => None
  | c :: t =>
      if (c =? 34)%N then Some ([], t)
      else if (c <? 32)%N then None
      else if (c =? 92)%N then
        match t with
        | e :: t1 =>
            if (e =? 117)%N then
              match t1 with
              | h1 :: h2 :: h3 :: h4 :: t2 =>
                  match hex4 h1 h2 h3 h4 with
                  | None => None
                  | Some n =>
                      if is_trail n then None
                      else if is_lead n then
                        match t2 with
                        | b :: u :: g1 :: g2 :: g3 :: g4 :: t3 =>
                            if ((b =? 92) && (u =? 117))%N then
                              match hex4 g1 g2 g3 g4 with
                              | Some k =>
                                  if is_trail k
                                  then j_cons ((n - 55296) * 1024 + (k - 56320) + 65536)%N (json_body t3)
                                  else None
                              | None => None
                              end
                            else None
                        | _ => None
                        end
                      else j_cons n (json_body t2)
                  end
              | _ => None
              end
            else match esc_letter e with Some x => j_cons x (json_body t1) | None => None end
        | [] => None
        end
      else j_cons c (json_body t)
  end.
Definition serde_dec (s : str) : option str :=
  match skip_json_ws s with
  | c :: t =>
      if (c =? 34)%N then
        match json_body t with
        | Some (w, rest) => match skip_json_ws rest with [] => Some w | _ => None end
        | None => None
        end
      else None
  | [] => None
  end.
