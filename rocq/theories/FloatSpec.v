(** * What correctly rounded arithmetic means

    A number is given as a fraction [n / d] in units of the format's least positive number. *)
From Verif Require Import Base MathModel MathProofs MathSpec.

(** [m] is the magnitude nearest to [n / d] among all finite magnitudes and infinity (which stands
    where the next exponent would start); of two equally near ones it is the even one. *)
Definition nearest (f : format) (n d m : Z) : Prop :=
  0 <= m <= exp_mask f /\
  forall k, 0 <= k <= exp_mask f ->
    Z.abs (mag_value f m * d - n) <= Z.abs (mag_value f k * d - n) /\
    (k <> m -> Z.abs (mag_value f k * d - n) = Z.abs (mag_value f m * d - n) -> Z.even m = true).

(** [b] is the correctly rounded result for the exact number [n / d] ([d] positive): the nearest
    number, infinite if that is nearer than every finite one, with the sign of [n]. *)
Definition rounded (f : format) (n d b : Z) : Prop :=
  pattern f b /\ nan f b = false /\ nearest f (Z.abs n) d (magnitude f b) /\
  (0 < n -> negative f b = false) /\ (n < 0 -> negative f b = true).
