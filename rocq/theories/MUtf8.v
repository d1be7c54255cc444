(** * Model of UTF-8 (std) and of the escapes of JSON strings (serde_json), from
    their documentation *)
From Verif Require Import Base.

(** ** UTF-8: [BufRead::lines], parsing.rs:24, 224, variants/mod.rs:18, and
    [Path::to_str], parsing.rs:179 (table 3-7 of the Unicode standard, as in
    [core::str::validations]) *)

(** a continuation byte *)
Definition cont (b : N) : bool := ((128 <=? b) && (b <? 192))%N.

Definition u_cons (c : N) (r : option (list N)) : option (list N) := match r with Some w => Some (c :: w) | None => None end.

Fixpoint utf8_dec (b : list N) : option (list N) :=
  match b with
  | [] => Some []
  | x :: t =>
      if (x <? 128)%N then u_cons x (utf8_dec t)
      else if ((194 <=? x) && (x <? 224))%N then
        match t with
        | y :: t => if cont y then u_cons ((x - 192) * 64 + (y - 128))%N (utf8_dec t) else None
        | _ => None
        end
      else if ((224 <=? x) && (x <? 240))%N then
        match t with
        | y :: z :: t =>
            if cont y && cont z && (negb (x =? 224) || (160 <=? y))%N && (negb (x =? 237) || (y <? 160))%N
            then u_cons ((x - 224) * 4096 + (y - 128) * 64 + (z - 128))%N (utf8_dec t) else None
        | _ => None
        end
      else if ((240 <=? x) && (x <? 245))%N then
        match t with
        | y :: z :: w :: t =>
            if cont y && cont z && cont w && (negb (x =? 240) || (144 <=? y))%N && (negb (x =? 244) || (y <? 144))%N
            then u_cons ((x - 240) * 262144 + (y - 128) * 4096 + (z - 128) * 64 + (w - 128))%N (utf8_dec t) else None
        | _ => None
        end
      else None
  end.

(** [str::as_bytes], variants/mod.rs:73: the bytes of a character *)
Definition utf8_char (c : N) : list N :=
  (if c <? 128 then [c]
   else if c <? 2048 then [192 + c / 64; 128 + c mod 64]
   else if c <? 65536 then [224 + c / 4096; 128 + c / 64 mod 64; 128 + c mod 64]
   else [240 + c / 262144; 128 + c / 4096 mod 64; 128 + c / 64 mod 64; 128 + c mod 64])%N.
Definition utf8_enc (w : list N) : list N := flat_map utf8_char w.

(** ** Escapes in JSON strings, as read by serde_json (parsing.rs:28, 227,
    variants/mod.rs:22, index/io.rs:102) *)
Definition hex_val (c : N) : option N :=
  (if (48 <=? c) && (c <=? 57) then Some (c - 48)
   else if (97 <=? c) && (c <=? 102) then Some (c - 87)
   else if (65 <=? c) && (c <=? 70) then Some (c - 55)
   else None)%N.
(** four hexadecimal digits *)
Definition hex4 (a b c d : N) : option N :=
  match hex_val a, hex_val b, hex_val c, hex_val d with
  | Some a, Some b, Some c, Some d => Some (a * 4096 + b * 256 + c * 16 + d)%N
  | _, _, _, _ => None
  end.
Definition is_lead (n : N) : bool := ((55296 <=? n) && (n <? 56320))%N.
Definition is_trail (n : N) : bool := ((56320 <=? n) && (n <? 57344))%N.
(** the escapes of one letter *)
Definition esc_letter (e : N) : option N :=
  (if e =? 34 then Some 34 else if e =? 92 then Some 92 else if e =? 47 then Some 47
   else if e =? 98 then Some 8 else if e =? 102 then Some 12 else if e =? 110 then Some 10
   else if e =? 114 then Some 13 else if e =? 116 then Some 9 else None)%N.

