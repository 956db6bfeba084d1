(** * What C58 and C69-C72 ask of the translator, independent of its code *)
From Coq Require Import String.
From Verif Require Import Base MemModel FormatterSpec.

(** ** C58 *)
(** A use of a type, or a call of a method with given parameter types (full names). *)
Inductive usage : Type := Uses (type : list Z) | Calls (method : list Z) (parameters : list (list Z)).
(** The names a usage refers to: the types, and for a call the signature [method(type,...,type)]. *)
Fixpoint comma_separated (l : list (list Z)) : list Z :=
  match l with [] => [] | [x] => x | x :: l => x ++ T "," ++ comma_separated l end.
Definition signature (method : list Z) (parameters : list (list Z)) : list Z := method ++ T "(" ++ comma_separated parameters ++ T ")".
Definition names_used (u : usage) : list (list Z) :=
  match u with Uses t => [t] | Calls m ps => ps ++ [signature m ps] end.
(** A by-reference type is named without its ampersand. *)
Definition plain_name (n : list Z) : list Z := filter (fun c => negb (c =? 38)) n.
(** Unsupported: in namespace System and not in the table of supported items. *)
Definition unsupported (table : list (list Z)) (n : list Z) : Prop := (exists r, n = T "System." ++ r) /\ ~ In n table.

(** ** C72 *)
(** A C++ identifier over ASCII. *)
Definition ident_char (c : Z) : bool := ((97 <=? c) && (c <=? 122)) || ((65 <=? c) && (c <=? 90)) || (c =? 95).
Definition digit_char (c : Z) : bool := (48 <=? c) && (c <=? 57).
Definition identifier (n : list Z) : Prop :=
  match n with [] => False | c :: n => ident_char c = true /\ Forall (fun c => ident_char c || digit_char c = true) n end.
