(** * The four bytes of an [f32] in memory (IEEE 754 binary32, little-endian), as
    moved between collections and files by [write_as_bytes] and [load_bytes_as],
    src/io.rs:4-22.  Simplification: all NaNs are one value, whose bytes are
    those of the default NaN. *)
From Coq Require Import ZArith.
From Flocq Require Import IEEE754.Binary IEEE754.Bits IEEE754.BinarySingleNaN.
From Verif Require Import Base Bytes MFloat.

Definition f32_bits (x : f32) : N := Z.to_N (bits_of_b32 (BSN2B 24 128 default_nan_pl32 x)).
Definition f32_of_bits (n : N) : f32 := B2BSN 24 128 (b32_of_bits (Z.of_N n)).
Definition f32r : repr f32 :=
  {| rsize := 4; renc := fun x => le_enc 4 (f32_bits x); rdec := fun l => f32_of_bits (le_dec l) |}.
