(** * What Math and the floating point classes promise, without reference to their code

    [value f b] (MathModel.v) is the number a bit pattern stands for in units of the format's least
    positive number (2^-1074 for Double, 2^-149 for Single); [nan f b] tells whether it stands for
    none.  Infinity has the value that the next exponent would have, i.e. more than every finite one. *)
From Verif Require Import Base MathModel MathProofs.

(** 1.0 in those units. *)
Definition one_of (f : format) : Z := 2 ^ unit_exp f.
Definition infinite (f : format) (b : Z) : Prop := magnitude f b = exp_mask f.
Definition finite (f : format) (b : Z) : Prop := magnitude f b < exp_mask f.
(** [b] is the integer [z] as a floating point number. *)
Definition represents (f : format) (b z : Z) : Prop := pattern f b /\ finite f b /\ value f b = z * one_of f.
(** The order of all patterns used by CompareTo, Max, Min: NaN below every number. *)
Definition order (f : format) (a b : Z) : comparison :=
  match nan f a, nan f b with
  | true, true => Eq
  | true, false => Lt
  | false, true => Gt
  | false, false => Z.compare (value f a) (value f b)
  end.
Definition sign_of (c : comparison) : Z := match c with Lt => -1 | Eq => 0 | Gt => 1 end.
(** [r] is the nearest integer to [v], the even one if two are equally near; [u]: 1.0. *)
Definition nearest_even (u v n : Z) : Prop := 2 * Z.abs (v - n * u) <= u /\ (2 * Z.abs (v - n * u) = u -> Z.even n = true).
(** [r] is the least number greater than [x]. *)
Definition next_above (f : format) (x r : Z) : Prop :=
  pattern f r /\ nan f r = false /\ value f x < value f r /\ forall y, pattern f y -> nan f y = false -> value f x < value f y -> value f r <= value f y.
Definition next_below (f : format) (x r : Z) : Prop :=
  pattern f r /\ nan f r = false /\ value f r < value f x /\ forall y, pattern f y -> nan f y = false -> value f y < value f x -> value f y <= value f r.
(** Quotient and remainder as in C#: truncated, remainder with the sign of the dividend. *)
Definition div_rem (a b q r : Z) : Prop := a = q * b + r /\ Z.abs r < Z.abs b /\ 0 <= a * r.
