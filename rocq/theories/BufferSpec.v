(** * Specification vocabulary for Buffer and BitConverter *)
From Verif Require Import Base BoxModel ArrayModel.

(** Byte [k] of the memory of an array, and how many there are. *)
Definition byte_at (a : arr) (k : Z) : Z := nth (Z.to_nat k) (data a) 0.
(** The element types that are not references. *)
Definition primitive (t : dtype) : Prop := t <> ObjectType /\ t <> StringType /\ t <> NullType.
(** Byte [i] of the number [v] in little-endian order. *)
Definition byte_of (v i : Z) : Z := (v / 2 ^ (8 * i)) mod 256.
