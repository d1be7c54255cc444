(** * Specification vocabulary for compressed offset tables *)
From Verif Require Import Base MSliceVec MOffsets MSetVec.

(** Offset number [length os] may be [x]: at the start of a block of 60 anything
    goes, otherwise [x] is at least the previous offset (0 at the very start)
    and less than 65535 beyond it. *)
Definition next_offset_ok (os : list nat) (x : nat) : Prop :=
  (os <> [] /\ length os mod 60 = 0) \/
  (last os 0 <= x /\ (N.of_nat (x - last os 0%nat) < 65535)%N).

(** every offset of the sequence is acceptable after its predecessors *)
Inductive offset_seq : list nat -> Prop :=
| OSnil : offset_seq []
| OSsnoc os x : offset_seq os -> next_offset_ok os x -> offset_seq (os ++ [x]).

(** a 32-bit unsigned value *)
Definition is_u32 (n : N) : Prop := (n < 4294967296)%N.

(** a compressed slice vector obtained by pushing the slices [ls] in order *)
Definition cvw_build {T} (m : mode) (ls : list (list T)) : outcome (cvw T) :=
  let* v := cvw_new m in ofold (cvw_push m) ls v.

(** slice number [n] may be [x]: shorter than 65535 elements, or any length when
    it is the last one of a block of 60 offsets *)
Definition slice_accepted {T} (n : nat) (x : list T) : Prop :=
  (n + 1) mod 60 = 0 \/ (N.of_nat (length x) < 65535)%N.

(** [v] behaves as the list [ls] of slices *)
Definition cvw_observes {T} (m : mode) (ls : list (list T)) (v : cvw T) : Prop :=
  cvw_len v = Ok (length ls) /\
  forall i x, nth_error ls i = Some x -> cvw_get m v i = Ok x.

(** a compressed layer obtained by pushing the neighbour lists [ls] in order *)
Definition msv_build (m : mode) (ls : list (list N)) : outcome msv :=
  let* v := msv_new m in ofold (msv_push m) ls v.

(** [r] is [l] in ascending order *)
Definition sorted_version (l r : list N) : Prop := Permutation r l /\ StronglySorted N.le r.

(** compressed layer [v] has as many nodes as [ls] and gives every node exactly
    the neighbours listed in [ls], ascending *)
Definition msv_observes (m : mode) (ls : list (list N)) (v : msv) : Prop :=
  msv_len v = Ok (length ls) /\
  forall i l, nth_error ls i = Some l -> exists r, msv_get m v i = Ok r /\ sorted_version l r.

(** a layer small enough that its byte size fits in 64 bits *)
Definition layer_fits (n : nat) : Prop := (N.of_nat n < 2 ^ 50)%N.
