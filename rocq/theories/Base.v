(** * Base: vocabulary shared by every model file.

    Nothing in this file models a particular function of /repo; it fixes how C++ outcomes and
    machine integers are represented.  Only definitions, no proofs. *)
From Coq Require Export ZArith List Bool Lia.
Export ListNotations.
Open Scope Z_scope.

(** Exception classes thrown by the library (/repo/DotNetLibrary/include/Exception.h 23-203). *)
Inductive exn :=
| ArgumentNullException | ArgumentException | ArgumentOutOfRangeException
| IndexOutOfRangeException | RankException | NotImplementedException
| InvalidCastException | InvalidOperationException | OverflowException
| FormatException | DivideByZeroException | ArithmeticException
| OutOfMemoryException | NotSupportedException | ThrowMinMaxException
| NullReferenceException | KeyNotFoundException (* of the translator, C# *).

(** Kinds of C++ undefined behaviour the model distinguishes. *)
Inductive ub :=
| SignedOverflow | OutOfBoundsRead | OutOfBoundsWrite | NullDereference
| OverlappingCopy | DivisionByZero | UninitialisedRead | NonTermination | InvalidShift.

(** Result of running a C++ function: a value, a thrown exception, or undefined behaviour. *)
Inductive outcome (A : Type) :=
| Ret (a : A)
| Exn (e : exn)
| UB (u : ub).
Arguments Ret {A} a.
Arguments Exn {A} e.
Arguments UB {A} u.

Definition bind {A B} (m : outcome A) (f : A -> outcome B) : outcome B :=
  match m with
  | Ret a => f a
  | Exn e => Exn e
  | UB u => UB u
  end.

Notation "x <- m ;; k" := (bind m (fun x => k))
  (at level 61, m at next level, right associativity).
Notation "' p <- m ;; k" := (bind m (fun x => let 'p := x in k))
  (at level 61, p pattern, m at next level, right associativity).

(** [if (c) throw new e();] *)
Definition throw_if (c : bool) (e : exn) : outcome unit := if c then Exn e else Ret tt.

(** Is this outcome free of undefined behaviour? *)
Definition no_ub {A} (m : outcome A) : Prop := forall u, m <> UB u.

(** ** Machine integers: mathematical integers plus explicit ranges *)

Definition in_signed (bits z : Z) : bool := (- 2 ^ (bits - 1) <=? z) && (z <? 2 ^ (bits - 1)).
Definition in_unsigned (bits z : Z) : bool := (0 <=? z) && (z <? 2 ^ bits).

(** Conversion to a signed/unsigned type of the given width (modular, as on every supported
    compiler and as required by C++20). *)
Definition cast_s (bits z : Z) : Z := (z + 2 ^ (bits - 1)) mod 2 ^ bits - 2 ^ (bits - 1).
Definition cast_u (bits z : Z) : Z := z mod 2 ^ bits.

Definition in_i8  := in_signed 8.
Definition in_i16 := in_signed 16.
Definition in_i32 := in_signed 32.
Definition in_i64 := in_signed 64.
Definition in_u8  := in_unsigned 8.
Definition in_u16 := in_unsigned 16.
Definition in_u32 := in_unsigned 32.
Definition in_u64 := in_unsigned 64.
Definition cast_i8  := cast_s 8.
Definition cast_i16 := cast_s 16.
Definition cast_i32 := cast_s 32.
Definition cast_i64 := cast_s 64.
Definition cast_u8  := cast_u 8.
Definition cast_u16 := cast_u 16.
Definition cast_u32 := cast_u 32.
Definition cast_u64 := cast_u 64.

(** Result of a signed 32/64-bit arithmetic operation whose exact value is [z]: undefined
    behaviour when it does not fit. *)
Definition i32 (z : Z) : outcome Z := if in_i32 z then Ret z else UB SignedOverflow.
Definition i64 (z : Z) : outcome Z := if in_i64 z then Ret z else UB SignedOverflow.

(** C++ [/] and [%] truncate towards zero. *)
Notation "a /c b" := (Z.quot a b) (at level 40, left associativity).
Notation "a %c b" := (Z.rem a b) (at level 40, left associativity).

(** Checked array read (C arrays, [i] may be any integer). *)
Definition read {A} (l : list A) (i : Z) : outcome A :=
  if i <? 0 then UB OutOfBoundsRead
  else match nth_error l (Z.to_nat i) with
       | Some a => Ret a
       | None => UB OutOfBoundsRead
       end.

(** Checked array write. *)
Fixpoint upd {A} (l : list A) (n : nat) (a : A) : list A :=
  match l, n with
  | [], _ => []
  | _ :: t, O => a :: t
  | x :: t, S n' => x :: upd t n' a
  end.
Definition write {A} (l : list A) (i : Z) (a : A) : outcome (list A) :=
  if (i <? 0) || (Z.of_nat (length l) <=? i) then UB OutOfBoundsWrite
  else Ret (upd l (Z.to_nat i) a).

(** Length of a list as an integer. *)
Definition zlen {A} (l : list A) : Z := Z.of_nat (length l).
