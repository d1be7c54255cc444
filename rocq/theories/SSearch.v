(** * Specification vocabulary for search *)
From Verif Require Import Base Bytes MSliceVec MOffsets MSetVec MIndexIo SIndexIo MSearch.

(** A graph [G] (one list of neighbour lists per layer, coarsest first) whose
    layers are non-empty, grow, and only link to existing nodes of the same
    layer. *)
Definition layer_ok (g : list (list N)) : Prop :=
  g <> [] /\ Forall (Forall (fun x => N.to_nat x < length g)) g.
Definition graph_ok (G : list (list (list N))) : Prop :=
  Forall layer_ok G /\
  forall i j g h, nth_error G i = Some g -> nth_error G j = Some h -> i <= j -> length g <= length h.

(** [y] is a neighbour of [x] in layer [g]. *)
Definition edge (g : list (list N)) (x y : nat) : Prop :=
  exists ns, nth_error g x = Some ns /\ In (N.of_nat y) ns.

(** Nodes that can be reached from [x] along edges. *)
Inductive reach (g : list (list N)) (x : nat) : nat -> Prop :=
| reach_refl : reach g x x
| reach_step y z : reach g x y -> edge g y z -> reach g x z.

(** Results are ordered by distance, then by id. *)
Definition closer (a b : nat * Z) : Prop :=
  (snd a < snd b)%Z \/ (snd a = snd b /\ fst a < fst b).

(** The container knows the distance of its first [n] elements to the query. *)
Definition dist_is (dist : nat -> outcome Z) (f : nat -> Z) (n : nat) : Prop :=
  forall i, i < n -> dist i = Ok (f i).

(** [h] holds the [m] smallest of the elements [l]: it is an ascending list, as
    long as it can be, and everything left out is at least as large as
    everything kept. *)
Definition smallest {A} (le : A -> A -> bool) (m : nat) (l h : list A) : Prop :=
  StronglySorted (fun a b => le a b = true) h /\ length h = Nat.min m (length l) /\
  exists out, Permutation l (h ++ out) /\
    forall a b, In a h -> In b out -> le a b = true.

(** total orders *)
Definition total_order {A} (le : A -> A -> bool) : Prop :=
  (forall x y, le x y = true \/ le y x = true) /\
  (forall x y z, le x y = true -> le y z = true -> le x z = true) /\
  (forall x y, le x y = true -> le y x = true -> x = y).

(** a sequence of pushes *)
Fixpoint pushes {A} (le : A -> A -> bool) (h : msh A) (l : list A) : outcome (msh A) :=
  match l with [] => Ok h | x :: t => let* r := msh_push le h x in pushes le (fst r) t end.
