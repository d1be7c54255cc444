(** * Specification vocabulary: JSON texts (RFC 8259), as bytes

    Of a number that is negative or has a fraction or an exponent only that fact is
    part of the value. *)
From Verif Require Import Base SText MJson.
From Coq Require Import String.
Local Open Scope list_scope.

(** white space: blanks, line feeds, carriage returns, tabs *)
Definition white (l : list N) : Prop := Forall (fun b => In b [32; 10; 13; 9]%N) l.

(** a natural number in decimal notation, without leading zeros *)
Definition number (n : N) (t : list N) : Prop :=
  t <> [] /\ Forall (fun b => (48 <= b <= 57)%N) t /\ (hd 48%N t = 48%N -> List.length t = 1) /\
  n = fold_left (fun a b => (a * 10 + (b - 48))%N) t 0%N.

(** the other numbers: a minus sign, a fraction or an exponent *)
Definition some_digits (t : list N) : Prop := t <> [] /\ Forall (fun b => (48 <= b <= 57)%N) t.
Definition fraction (t : list N) : Prop := exists ds, some_digits ds /\ t = 46%N (* . *) :: ds.
Definition exponent (t : list N) : Prop :=
  exists e sign ds, In e [69; 101]%N (* E, e *) /\ In sign [[]; [43]; [45]]%N (* +, - *) /\ some_digits ds /\ t = e :: sign ++ ds.
Definition real (t : list N) : Prop :=
  exists sign n int fr ex, (sign = [] \/ sign = [45%N]) /\ number n int /\ (fr = [] \/ fraction fr) /\ (ex = [] \/ exponent ex) /\
    sign ++ fr ++ ex <> [] /\ t = sign ++ int ++ fr ++ ex.

(** [t] is a part of a string, standing for the bytes [s]: a byte that need not be
    escaped stands for itself, an escape for the UTF-8 form of its character *)
Definition piece (t s : list N) : Prop :=
  (exists b, t = [b] /\ s = [b] /\ (32 <= b)%N /\ b <> 34%N /\ b <> 92%N) \/
  (exists c, spells t c /\ hd_error t = Some 92%N /\ utf8_form c s).
(** [t] is a string, with the quotes, and [s] the bytes of the text it stands for *)
Definition quoted (s t : list N) : Prop :=
  exists ps vs w, Forall2 piece ps vs /\ t = 34%N :: List.concat ps ++ [34%N] /\ s = List.concat vs /\ utf8_bytes w s.

(** [json_text v t]: the text [t] denotes the value [v] *)
Inductive json_text : json -> list N -> Prop :=
| TNull : json_text JNull (str "null")
| TTrue : json_text (JBool true) (str "true")
| TFalse : json_text (JBool false) (str "false")
| TNum n t : number n t -> json_text (JNum n) t
| TReal t : real t -> json_text JReal t
| TStr s t : quoted s t -> json_text (JStr s) t
| TArr0 w : white w -> json_text (JArr []) (str "[" ++ w ++ str "]")
| TArr vs t : items vs t -> json_text (JArr vs) (str "[" ++ t ++ str "]")
| TObj0 w : white w -> json_text (JObj []) (str "{" ++ w ++ str "}")
| TObj kvs t : members kvs t -> json_text (JObj kvs) (str "{" ++ t ++ str "}")
with items : list json -> list N -> Prop :=
| item_last v w1 t w2 : white w1 -> white w2 -> json_text v t -> items [v] (w1 ++ t ++ w2)
| item_more v vs w1 t w2 ts : white w1 -> white w2 -> json_text v t -> items vs ts ->
    items (v :: vs) (w1 ++ t ++ w2 ++ str "," ++ ts)
with members : list (list N * json) -> list N -> Prop :=
| member_last k q v w1 w2 w3 t w4 : white w1 -> white w2 -> white w3 -> white w4 -> quoted k q -> json_text v t ->
    members [(k, v)] (w1 ++ q ++ w2 ++ str ":" ++ w3 ++ t ++ w4)
| member_more k q v kvs w1 w2 w3 t w4 ts : white w1 -> white w2 -> white w3 -> white w4 -> quoted k q -> json_text v t ->
    members kvs ts -> members ((k, v) :: kvs) (w1 ++ q ++ w2 ++ str ":" ++ w3 ++ t ++ w4 ++ str "," ++ ts).

(** how deep arrays and objects are nested *)
Fixpoint nesting (v : json) : nat :=
  match v with
  | JArr vs => Datatypes.S (list_max (map nesting vs))
  | JObj kvs => Datatypes.S (list_max (map (fun kv => nesting (snd kv)) kvs))
  | _ => 0
  end.
(** a value with white space around it, nested at most 127 deep *)
Definition document (v : json) (l : list N) : Prop :=
  exists w1 t w2, white w1 /\ white w2 /\ json_text v t /\ nesting v <= 127 /\ l = w1 ++ t ++ w2.

(** the value of a field; when a field is given twice, the last counts *)
Definition field (kvs : list (list N * json)) (k : string) (v : json) : Prop :=
  exists before after, kvs = before ++ (str k, v) :: after /\ ~ In (str k) (map fst after).

(** lists of natural numbers below 2^64 *)
Definition usizes (l : list nat) : json := JArr (map (fun n => JNum (N.of_nat n)) l).
Definition is_usize (n : nat) : Prop := (N.of_nat n < 2 ^ 64)%N.

(** The metadata say that there are as many layers as [counts] has entries, and
    that they are stored in pieces of [sizes] bytes. *)
Definition metadata_says (kvs : list (list N * json)) (counts sizes : list nat) : Prop :=
  field kvs "num_layers" (JNum (N.of_nat (List.length counts))) /\
  field kvs "layer_counts" (usizes counts) /\ field kvs "layer_sizes" (usizes sizes) /\
  is_usize (List.length counts) /\ Forall is_usize counts /\ Forall is_usize sizes.
