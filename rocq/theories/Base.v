(** * Base: outcomes, list helpers.

    Shared vocabulary of the model files.  Nothing here models a particular
    function of the code base except where a comment says so. *)
From Coq Require Export List Arith NArith ZArith Lia Bool Permutation Sorted.
Export ListNotations.

(** ** Outcomes

    Rust's three ways of not returning a value: a panic, an [Err] of
    [std::io::Result], and (for loops modelled with fuel) not having finished
    within the given fuel. *)
Inductive err := Panicked | IoError | OutOfFuel.

Inductive outcome (A : Type) := Ok (a : A) | Fail (e : err).
Arguments Ok {A} _.
Arguments Fail {A} _.

Definition obind {A B} (x : outcome A) (f : A -> outcome B) : outcome B :=
  match x with Ok a => f a | Fail e => Fail e end.

Definition omap {A B} (f : A -> B) (x : outcome A) : outcome B :=
  match x with Ok a => Ok (f a) | Fail e => Fail e end.

Notation "'let*' x ':=' e 'in' k" := (obind e (fun x => k))
  (at level 200, x pattern, e at level 100, k at level 200, right associativity).

(** [assert!(b)] *)
Definition oassert (b : bool) : outcome unit := if b then Ok tt else Fail Panicked.

(** [Option::unwrap] / indexing result *)
Definition ounwrap {A} (x : option A) : outcome A :=
  match x with Some a => Ok a | None => Fail Panicked end.

(** Monadic map, left to right (an iterator whose closure may panic). *)
Fixpoint omapM {A B} (f : A -> outcome B) (l : list A) : outcome (list B) :=
  match l with
  | [] => Ok []
  | x :: xs => let* y := f x in let* ys := omapM f xs in Ok (y :: ys)
  end.

Fixpoint ofold {A S} (f : S -> A -> outcome S) (l : list A) (s : S) : outcome S :=
  match l with
  | [] => Ok s
  | x :: xs => let* s' := f s x in ofold f xs s'
  end.

(** ** Build profile: [debug_assert!] and arithmetic overflow checks are active
    in [Debug] only. *)
Inductive mode := Debug | Release.
Definition debug_assert (m : mode) (b : bool) : outcome unit :=
  match m with Debug => oassert b | Release => Ok tt end.

(** ** List helpers *)

(** [&l[b..e]]: panics unless [b <= e <= l.len()]. *)
Definition slice {A} (l : list A) (b e : nat) : outcome (list A) :=
  if (b <=? e) && (e <=? length l) then Ok (firstn (e - b) (skipn b l)) else Fail Panicked.

(** [l[i]] *)
Definition index {A} (l : list A) (i : nat) : outcome A := ounwrap (nth_error l i).

(** [l[i] = x]; [None] when out of range (a panic). *)
Fixpoint set_nth {A} (l : list A) (i : nat) (x : A) : list A :=
  match l, i with
  | [], _ => []
  | _ :: t, 0 => x :: t
  | h :: t, S i' => h :: set_nth t i' x
  end.

Definition store {A} (l : list A) (i : nat) (x : A) : outcome (list A) :=
  if i <? length l then Ok (set_nth l i x) else Fail Panicked.

(** [Vec::resize]: truncates, or extends with copies of [x]. *)
Definition resize {A} (l : list A) (n : nat) (x : A) : list A :=
  firstn n l ++ repeat x (n - length l).

(** [Iterator::take_while] *)
Fixpoint take_while {A} (p : A -> bool) (l : list A) : list A :=
  match l with
  | [] => []
  | x :: t => if p x then x :: take_while p t else []
  end.

(** [slice::chunks(k)] for [k > 0]: consecutive pieces of length [k], the last
    one possibly shorter.  [fuel] is the list length. *)
Fixpoint chunks_fuel {A} (fuel k : nat) (l : list A) : list (list A) :=
  match fuel with
  | 0 => []
  | S f => match l with
           | [] => []
           | _ => firstn k l :: chunks_fuel f k (skipn k l)
           end
  end.
Definition chunks {A} (k : nat) (l : list A) : list (list A) := chunks_fuel (length l) k l.

(** [slice::chunks_exact(k)] for [k > 0]: only the full pieces. *)
Fixpoint chunks_exact_n {A} (n k : nat) (l : list A) : list (list A) :=
  match n with
  | 0 => []
  | S n' => firstn k l :: chunks_exact_n n' k (skipn k l)
  end.
Definition chunks_exact {A} (k : nat) (l : list A) : list (list A) :=
  chunks_exact_n (length l / k) k l.

(** Insertion sort with a boolean order: the model of [sort]/[sort_unstable*]
    (the result of a stable sort; where the code uses an unstable sort on keys
    that may tie, the model says so). *)
Fixpoint insert_by {A} (le : A -> A -> bool) (x : A) (l : list A) : list A :=
  match l with
  | [] => [x]
  | y :: t => if le x y then x :: l else y :: insert_by le x t
  end.
Fixpoint sort_by {A} (le : A -> A -> bool) (l : list A) : list A :=
  match l with
  | [] => []
  | x :: t => insert_by le x (sort_by le t)
  end.

Definition sum_nat (l : list nat) : nat := fold_right Nat.add 0 l.

(** [iter().position(p)] *)
Fixpoint position {A} (p : A -> bool) (l : list A) : option nat :=
  match l with
  | [] => None
  | x :: t => if p x then Some 0 else option_map S (position p t)
  end.
