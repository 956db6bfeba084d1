(** * Specification of integer text, independent of the parser *)
From Coq Require Import ZArith List Bool.
Import ListNotations.
Open Scope Z_scope.

Definition digit (c : Z) : Prop := 48 <= c <= 57.

(** Value of a digit string, most significant digit first. *)
Definition decimal_value (ds : list Z) : Z := fold_left (fun a c => 10 * a + (c - 48)) ds 0.

(** What is assumed of the C library's [iswspace]: it is false on digits, signs and NUL. *)
Definition space_ok (ws : Z -> bool) : Prop :=
  forall c, ws c = true -> ~ digit c /\ c <> 43 /\ c <> 45 /\ c <> 0.

(** [sign_text sg k]: the optional sign text [sg] means factor [k]. *)
Inductive sign_text : list Z -> Z -> Prop :=
| sign_none : sign_text [] 1
| sign_plus : sign_text [43] 1
| sign_minus : sign_text [45] (-1).

(** [integer_text ws s k ds]: [s] is white space, optional sign with factor [k], digits [ds] (at
    least one), white space.  It denotes [k * decimal_value ds]. *)
Definition integer_text (ws : Z -> bool) (s : list Z) (k : Z) (ds : list Z) : Prop :=
  exists w1 sg w2, s = w1 ++ sg ++ ds ++ w2 /\ sign_text sg k /\
    Forall (fun c => ws c = true) w1 /\ Forall (fun c => ws c = true) w2 /\
    Forall digit ds /\ ds <> [].

(** What the code accepts: as above but after the digits and one white space character anything
    may follow. *)
Definition lax_integer_text (ws : Z -> bool) (s : list Z) (k : Z) (ds : list Z) : Prop :=
  exists w1 sg rest, s = w1 ++ sg ++ ds ++ rest /\ sign_text sg k /\
    Forall (fun c => ws c = true) w1 /\ Forall digit ds /\ ds <> [] /\
    (rest = [] \/ exists c t, rest = c :: t /\ ws c = true).

(** [wrapped lo n x r]: [r] is the one number of [lo .. lo+n-1] that differs from [x] by a multiple
    of [n], i.e. what two's complement storage makes of [x]. *)
Definition wrapped (lo n x r : Z) : Prop := lo <= r < lo + n /\ exists q, r = x + q * n.
