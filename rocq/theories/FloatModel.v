(** * Double arithmetic and the functions built on it

    Models the Double-valued members of /repo/DotNetLibrary/src/TimeSpanValue.cpp and
    DateTimeValue.cpp and the Double arithmetic of DotNetMath.cpp that MathModel.v leaves out. *)
From Verif Require Import Base DateTimeModel TimeSpanModel MathModel.

Notation dbl := double_fmt.
(** Int64Value::MaxValue and MinValue converted to Double for a comparison: 2^63 and -2^63. *)
Definition max64 : Z := fl_of_Z dbl 9223372036854775807.
Definition min64 : Z := fl_of_Z dbl (-9223372036854775808).

(** ** TimeSpanValue.cpp *)
(** 68-73, 82-87: get_TotalDays, TotalHours, TotalMinutes, TotalSeconds; [scale]: TicksPerDay, ... *)
Definition TS_Total (scale v : Z) : Z := fl_div dbl (fl_of_Z dbl v) (fl_of_Z dbl scale).
(** 74-81 *)
Definition TS_TotalMilliseconds (v : Z) : Z :=
  let temp := fl_div dbl (fl_of_Z dbl v) (fl_of_Z dbl TicksPerMillisecond) in
  if flt dbl (fl_of_Z dbl MaxMilliSeconds) temp then fl_of_Z dbl MaxMilliSeconds
  else if flt dbl temp (fl_of_Z dbl MinMilliSeconds) then fl_of_Z dbl MinMilliSeconds
  else temp.
(** 211-218; [scale] is the Int64 constant converted to Double by the caller (193-207) *)
Definition TS_Interval (value scale : Z) : outcome Z :=
  _ <- throw_if (IsNaN dbl value) ArgumentException ;;
  let ticks := fl_mul dbl value (fl_of_Z dbl scale) in
  _ <- throw_if (flt dbl max64 ticks || flt dbl ticks min64) OverflowException ;;
  fl_to_i64 dbl ticks.
Definition TS_FromDays (d : Z) : outcome Z := TS_Interval d TicksPerDay.
Definition TS_FromHours (d : Z) : outcome Z := TS_Interval d TicksPerHour.
Definition TS_FromMinutes (d : Z) : outcome Z := TS_Interval d TicksPerMinute.
Definition TS_FromSeconds (d : Z) : outcome Z := TS_Interval d TicksPerSecond.
Definition TS_FromMilliseconds (d : Z) : outcome Z := TS_Interval d TicksPerMillisecond.
(** 219-228 *)
Definition TS_Multiply (v factor : Z) : outcome Z :=
  _ <- throw_if (IsNaN dbl factor) ArgumentException ;;
  let ticks := Round (fl_mul dbl (fl_of_Z dbl v) factor) in
  _ <- throw_if (flt dbl max64 ticks || flt dbl ticks min64) OverflowException ;;
  fl_to_i64 dbl ticks.
(** 127-136 *)
Definition TS_Divide (v divisor : Z) : outcome Z :=
  _ <- throw_if (IsNaN dbl divisor) ArgumentException ;;
  let ticks := Round (fl_div dbl (fl_of_Z dbl v) divisor) in
  _ <- throw_if (flt dbl max64 ticks || flt dbl ticks min64 || IsNaN dbl ticks) OverflowException ;;
  fl_to_i64 dbl ticks.
(** 124-126 *)
Definition TS_DivideSpan (v w : Z) : Z := fl_div dbl (fl_of_Z dbl v) (fl_of_Z dbl w).

(** ** DateTimeValue.cpp *)
Definition fle (f : format) (a b : Z) : bool := negb (nan f a) && negb (nan f b) && (value f a <=? value f b).
Definition half_bits : Z := 4602678819172646912.
(** include/DateTimeValue.h 31-34, 56 *)
Definition MillisPerSecond : Z := 1000.
Definition MillisPerMinute : Z := MillisPerSecond * 60.
Definition MillisPerHour : Z := MillisPerMinute * 60.
Definition MillisPerDay : Z := MillisPerHour * 24.
Definition MaxMillis : Z := DaysTo10000 * MillisPerDay.
(** DateTimeValue.cpp 108-113 *)
Definition DT_Add (v value scale : Z) : outcome Z :=
  let millis_double := fl_add dbl (fl_mul dbl value (fl_of_Z dbl scale)) (if fle dbl 0 value then half_bits else minus_zero + half_bits) in
  _ <- throw_if (fle dbl millis_double (fl_of_Z dbl (- MaxMillis)) || fle dbl (fl_of_Z dbl MaxMillis) millis_double) ArgumentOutOfRangeException ;;
  ms <- fl_to_i64 dbl millis_double ;;
  delta <- i64 (ms * TicksPerMillisecond) ;;
  AddTicks v delta.
(** DateTimeValue.cpp 114-125, 193-195 *)
Definition DT_AddDays (v delta : Z) : outcome Z := DT_Add v delta MillisPerDay.
Definition DT_AddHours (v delta : Z) : outcome Z := DT_Add v delta MillisPerHour.
Definition DT_AddMilliseconds (v delta : Z) : outcome Z := DT_Add v delta 1.
Definition DT_AddMinutes (v delta : Z) : outcome Z := DT_Add v delta MillisPerMinute.
Definition DT_AddSeconds (v delta : Z) : outcome Z := DT_Add v delta MillisPerSecond.

(** ** DotNetMath.cpp *)
(** 261-268 *)
Definition Math_Divide (v1 v2 : Z) : Z :=
  if feq dbl v2 0 then (if feq dbl v1 0 then quiet_nan dbl else exp_mask dbl) else fl_div dbl v1 v2.
(** 295-297 *)
Definition FusedMultiplyAdd (x y z : Z) : Z := fl_add dbl (fl_mul dbl x y) z.
(** include/DotNetMath.h: MidpointRounding; the enumerators in order 0 .. 4. *)
Definition ToEven : Z := 0.
Definition AwayFromZero : Z := 1.
Definition ToZero : Z := 2.
Definition ToNegativeInfinity : Z := 3.
Definition ToPositiveInfinity : Z := 4.
(** 29-31: the limit 1e16 and the table of powers of ten, all exactly representable *)
Definition round_limit : Z := fl_of_Z dbl 10000000000000000.
Definition power10 (digits : Z) : Z := fl_of_Z dbl (10 ^ digits).
(** 478-507: the switch *)
Definition Round_mode (value mode : Z) : outcome Z :=
  if mode =? ToEven then Ret (Round value)
  else if mode =? AwayFromZero then
    let fraction := fl_frac dbl value in
    let value := fl_trunc dbl value in
    if negb (flt dbl (fabs dbl fraction) half_bits) && negb (nan dbl fraction) then
      s <- Float_Sign dbl fraction ;; Ret (fl_add dbl value (fl_of_Z dbl s))
    else Ret value
  else if mode =? ToZero then Ret (fl_trunc dbl value)
  else if mode =? ToNegativeInfinity then Ret (fl_floor dbl value)
  else if mode =? ToPositiveInfinity then Ret (fl_ceil dbl value)
  else Exn ArgumentException.
(** 471-513 *)
Definition Round_digits (value digits mode : Z) : outcome Z :=
  _ <- throw_if ((digits <? 0) || (15 <? digits)) ArgumentOutOfRangeException ;;
  _ <- throw_if ((mode <? ToEven) || (ToPositiveInfinity <? mode)) ArgumentException ;;
  if flt dbl (fabs dbl value) round_limit then
    r <- Round_mode (fl_mul dbl value (power10 digits)) mode ;;
    Ret (fl_div dbl r (power10 digits))
  else Ret value.
