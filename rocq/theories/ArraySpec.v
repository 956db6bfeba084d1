(** * Specification vocabulary for arrays: shapes, row-major order, elements *)
From Coq Require Import ZArith List Bool.
From Verif Require Import BoxModel ArrayModel Bytes.
Import ListNotations.
Open Scope Z_scope.

(** A shape is the list of its dimensions; an index tuple is in the shape if each index is in its
    dimension. *)
Definition in_shape (dims idx : list Z) : Prop := Forall2 (fun d i => 0 <= i < d) dims idx.
Definition size_of (dims : list Z) : Z := fold_right Z.mul 1 dims.
(** Row-major position. *)
Fixpoint row_major (dims idx : list Z) : Z :=
  match dims, idx with
  | d :: ds, i :: is => i * size_of ds + row_major ds is
  | _, _ => 0
  end.

(** The three index arguments of the API for an index tuple: unused ones are -1. *)
Definition arg (idx : list Z) (k : nat) : Z := nth k idx (-1).

(** [has_shape a t dims]: [a] is an array of element type [t] and dimensions [dims] with its whole
    block of memory. *)
Definition has_shape (a : arr) (t : dtype) (dims : list Z) : Prop :=
  (1 <= length dims <= 3)%nat /\ Forall (fun d => 0 <= d) dims /\
  dataType a = t /\ dimension1Size a = arg dims 0 /\ dimension2Size a = arg dims 1 /\ dimension3Size a = arg dims 2 /\
  dimensionCount a = Z.of_nat (length dims) /\ totalElementCount a = size_of dims /\
  size_of dims * DataTypeSize t <= 2147483647 /\ size_of dims <= 2147483647 /\
  Z.of_nat (length (data a)) = size_of dims * DataTypeSize t /\ Forall byte (data a).

(** Element [p] of an array block: its bytes. *)
Definition element (a : arr) (p : Z) : list Z :=
  let n := Z.to_nat (DataTypeSize (dataType a)) in
  firstn n (skipn (Z.to_nat p * n) (data a)).

(** The triple of index arguments selects the tuple [idx]: equal on the used positions, negative on
    the others. *)
Definition selects (dims : list Z) (i1 i2 i3 : Z) (idx : list Z) : Prop :=
  in_shape dims idx /\ i1 = arg idx 0 /\ (match dims with [_] => i2 < 0 | _ => i2 = arg idx 1 end) /\
  (match dims with [_] | [_; _] => i3 < 0 | _ => i3 = arg idx 2 end).

(** The reference stored at position [p], and whether it matches the value looked for: a null element
    matches only null, others are asked with Equals. *)
Definition ref_at (a : arr) (p : Z) : Z := le_value (element a p).
Definition matches (eq : Z -> Z -> bool) (value obj : Z) : bool := if obj =? 0 then value =? 0 else eq obj value.
