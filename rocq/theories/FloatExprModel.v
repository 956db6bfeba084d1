(** * The floating point remainder the translator calls: /repo/DotNetLibrary/src/DoubleValue.cpp 135-137

    The quotient it calls is [Math_Divide] (FloatModel, DotNetMath.cpp 261-268); how floating expressions are written is
    [print] on [Binary _ StackF4 | StackF8] (ExprModel, MyIlInstructionVisitor.cs 189-246). *)
From Verif Require Import Base IeeeModel MathModel.

(** C library fmod (external, C17 F.10.7.1): NaN if an argument is NaN, the first is infinite or the second zero; the first argument if
    the second is infinite; otherwise what is left of the first after taking away the second as often as possible, with the sign of the
    first.  (It needs no rounding: C110.) *)
Definition fl_rem (f : format) (a b : Z) : Z :=
  if nan f a || nan f b || is_inf f a || is_zero f b then quiet_nan f
  else if is_inf f b then a
  else with_sign f (negative f a) (round_mag f (mag f a mod mag f b) 1).
(** DoubleValue.cpp 135-137 *)
Definition DoubleValue_Modulus (v1 v2 : Z) : Z := fl_rem double_fmt v1 v2.
