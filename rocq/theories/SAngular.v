(** * Specification vocabulary for vectors and their distances *)
From Coq Require Import ZArith Reals.
From Flocq Require Import Core IEEE754.BinarySingleNaN.
From Verif Require Import Base MSliceVec SSliceVec MBuild SBuild MFloat.
Close Scope R_scope.

(** ** Integer vectors *)
Definition i8s (x : list Z) : Prop := Forall (fun z => (-128 <= z <= 127)%Z) x.

(** the dot product *)
Fixpoint zdot (x y : list Z) : Z :=
  match x, y with
  | a :: x', b :: y' => (a * b + zdot x' y')%Z
  | _, _ => 0%Z
  end.

Definition zero_vec (x : list Z) : Prop := Forall (fun z => z = 0%Z) x.

(** the cosine of the angle between [x] and [y] *)
Definition cosine (x y : list Z) : R :=
  (IZR (zdot x y) / (sqrt (IZR (zdot x x)) * sqrt (IZR (zdot y y))))%R.

(** ** Float vectors *)
Definition finite_vec (x : list f32) : Prop := Forall (fun v => is_finite v = true) x.

(** the dot product of the values, in exact arithmetic *)
Fixpoint rdot (x y : list f32) : R :=
  match x, y with
  | a :: x', b :: y' => (B2R a * B2R b + rdot x' y')%R
  | _, _ => 0%R
  end.

(** the largest magnitude of a component *)
Fixpoint max_mag (x : list f32) : R :=
  match x with [] => 0%R | v :: t => Rmax (Rabs (B2R v)) (max_mag t) end.

(** the sum of the magnitudes of the products *)
Fixpoint adot (x y : list f32) : R :=
  match x, y with
  | a :: x', b :: y' => (Rabs (B2R a * B2R b) + adot x' y')%R
  | _, _ => 0%R
  end.

(** the length of the longest chain of roundings in the dot product of two
    vectors of dimension [n]: 32 lanes, their sum, the remainder *)
Definition rounds (n : nat) : nat := n / 32 + n mod 32 + 32.

(** the cosine of the angle between two float vectors *)
Definition fcosine (x y : list f32) : R := (rdot x y / (sqrt (rdot x x) * sqrt (rdot y y)))%R.

(** all components zero *)
Definition fzero (v : f32) : Prop := match v with B754_zero _ => True | _ => False end.
Definition fzeros (x : list f32) : Prop := Forall fzero x.

(** the largest component is neither tiny nor huge *)
Definition scaled (x : list f32) : Prop := (bpow radix2 (-50) <= max_mag x <= bpow radix2 50)%R.

(** ** Collections *)
(** the collection [v] holds the vectors [rows], of dimension [w] (a new
    collection has no dimension yet) *)
Definition holds {T} (w : nat) (rows : list (list T)) (v : fw T) : Prop :=
  fw_is w rows v \/ (rows = [] /\ v = fw_new).

(** the calls [cs] of a builder, one after the other *)
Fixpoint history {S E I} (V : benv S E) (cpush : S -> I -> outcome S) (b : builder S) (cs : list (call I))
  : outcome (builder S) :=
  match cs with
  | [] => Ok b
  | c :: cs => let* b' := do_call V cpush b c in history V cpush b' cs
  end.

(** calls of [push] with admissible vectors, and of [build] *)
Definition good_call {T} (w : nat) (good : list T -> Prop) (c : call (list T)) : Prop :=
  match c with
  | CPush x => length x = w /\ good x
  | CBuild _ _ => True
  | CBuildPartial _ _ _ => False
  end.
Fixpoint pushed {I} (cs : list (call I)) : list I :=
  match cs with
  | [] => []
  | CPush x :: cs => x :: pushed cs
  | _ :: cs => pushed cs
  end.
