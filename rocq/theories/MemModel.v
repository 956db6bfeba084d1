(** * Byte memory: what memcpy, memmove, memset and typed accesses do to one block (C library and
    C++ language, external to /repo) *)
From Verif Require Import Base.

Definition take {A} (n : Z) (l : list A) : list A := firstn (Z.to_nat n) l.
Definition drop {A} (n : Z) (l : list A) : list A := skipn (Z.to_nat n) l.

(** Read [n] items at offset [off]. *)
Definition memread {A} (mem : list A) (off n : Z) : outcome (list A) :=
  if (off <? 0) || (n <? 0) || (zlen mem <? off + n) then UB OutOfBoundsRead
  else Ret (take n (drop off mem)).
(** Overwrite the items at offset [off] by [bytes]. *)
Definition memwrite {A} (mem : list A) (off : Z) (bytes : list A) : outcome (list A) :=
  if (off <? 0) || (zlen mem <? off + zlen bytes) then UB OutOfBoundsWrite
  else Ret (take off mem ++ bytes ++ drop (off + zlen bytes) mem).
(** [memset (mem + off, v, n)]; a negative [n] becomes a huge [size_t]. *)
Definition memset {A} (mem : list A) (off : Z) (v : A) (n : Z) : outcome (list A) :=
  if n <? 0 then UB OutOfBoundsWrite else memwrite mem off (repeat v (Z.to_nat n)).
(** [memcpy] between two different blocks: no overlap is possible. *)
Definition memcpy {A} (dst : list A) (doff : Z) (src : list A) (soff n : Z) : outcome (list A) :=
  if n <? 0 then UB OutOfBoundsRead else
  bytes <- memread src soff n ;; memwrite dst doff bytes.
(** [memcpy] inside one block: undefined if the ranges overlap. *)
Definition memcpy_self {A} (mem : list A) (doff soff n : Z) : outcome (list A) :=
  if n <? 0 then UB OutOfBoundsRead else
  if (0 <? n) && (doff <? soff + n) && (soff <? doff + n) then UB OverlappingCopy else
  bytes <- memread mem soff n ;; memwrite mem doff bytes.
(** [memmove] inside one block: as if through a temporary. *)
Definition memmove_self {A} (mem : list A) (doff soff n : Z) : outcome (list A) :=
  if n <? 0 then UB OutOfBoundsRead else
  bytes <- memread mem soff n ;; memwrite mem doff bytes.
