(** * IEEE 754 floating point numbers (external)

    A Double (Single) is its 64 (32) bit pattern as a non-negative integer.  The hardware operations
    (binary64 and binary32, round to nearest even, as used by x86-64 SSE) are given on bit patterns:
    the exact rational result is rounded by [round_mag].  NaN results are the one pattern [quiet_nan]
    (payloads are not modelled; no function of the library looks at them). *)
From Verif Require Import Base.

(** ** Floating point formats.  [abs_mask], [exp_mask]: the literals of DoubleValue.cpp 95-126 and
    SingleValue.cpp 102-133. *)
Record format := mk_format { mbits : Z; ebits : Z; abs_mask : Z; exp_mask : Z; sign_bit : Z }.
Definition double_fmt : format := mk_format 52 11 9223372036854775807 9218868437227405312 9223372036854775808.
Definition single_fmt : format := mk_format 23 8 2147483647 2139095040 2147483648.

(** What the language says of [<], [==] on floating values (external): a pattern is a NaN if its
    magnitude is above infinity's, all other patterns have a value; here times 2^(bias-1+mbits), which
    makes it an integer.  Infinity gets the value the next exponent would have. *)
Definition negative (f : format) (b : Z) : bool := sign_bit f <=? b.
Definition magnitude (f : format) (b : Z) : Z := b mod sign_bit f.
Definition nan (f : format) (b : Z) : bool := exp_mask f <? magnitude f b.
Definition mag_value (f : format) (m : Z) : Z :=
  let e := m / 2 ^ mbits f in
  if e =? 0 then m else (2 ^ mbits f + m mod 2 ^ mbits f) * 2 ^ (e - 1).
Definition value (f : format) (b : Z) : Z :=
  if negative f b then - mag_value f (magnitude f b) else mag_value f (magnitude f b).
Definition flt (f : format) (a b : Z) : bool := negb (nan f a) && negb (nan f b) && (value f a <? value f b).
Definition feq (f : format) (a b : Z) : bool := negb (nan f a) && negb (nan f b) && (value f a =? value f b).

(** ** Rounding.  The number to be rounded is [n / d] in units of the format's least positive number
    (2^-1074 for Double). *)
Definition unit_of (f : format) : Z := 2 ^ (2 ^ (ebits f - 1) - 1 + mbits f - 1).
(** The greatest magnitude whose value does not exceed [n / d]. *)
Definition mag_floor (f : format) (n d : Z) : Z :=
  let q := n / d in
  let e := Z.max 0 (Z.log2 q - mbits f) in
  e * 2 ^ mbits f + q / 2 ^ e.
(** The nearest magnitude, even in a tie; beyond the greatest finite one: infinity. *)
Definition round_mag (f : format) (n d : Z) : Z :=
  let m := mag_floor f n d in
  if exp_mask f <=? m then exp_mask f else
  let twice := d * (mag_value f m + mag_value f (m + 1)) in
  if 2 * n <? twice then m
  else if twice <? 2 * n then m + 1
  else if Z.even m then m else m + 1.
Definition with_sign (f : format) (s : bool) (m : Z) : Z := (if s then sign_bit f else 0) + m.

(** ** IEEE operations (external) *)
Definition quiet_nan (f : format) : Z := exp_mask f + 2 ^ (mbits f - 1).
Definition mag (f : format) (b : Z) : Z := mag_value f (magnitude f b).
Definition is_inf (f : format) (b : Z) : bool := magnitude f b =? exp_mask f.
Definition is_zero (f : format) (b : Z) : bool := magnitude f b =? 0.
(** Conversion of an integer. *)
Definition fl_of_Z (f : format) (z : Z) : Z := with_sign f (z <? 0) (round_mag f (Z.abs z * unit_of f) 1).
Definition fl_mul (f : format) (a b : Z) : Z :=
  let s := xorb (negative f a) (negative f b) in
  if nan f a || nan f b then quiet_nan f
  else if (is_inf f a && is_zero f b) || (is_zero f a && is_inf f b) then quiet_nan f
  else if is_inf f a || is_inf f b then with_sign f s (exp_mask f)
  else with_sign f s (round_mag f (mag f a * mag f b) (unit_of f)).
Definition fl_div (f : format) (a b : Z) : Z :=
  let s := xorb (negative f a) (negative f b) in
  if nan f a || nan f b then quiet_nan f
  else if (is_inf f a && is_inf f b) || (is_zero f a && is_zero f b) then quiet_nan f
  else if is_inf f a || is_zero f b then with_sign f s (exp_mask f)
  else if is_inf f b then with_sign f s 0
  else with_sign f s (round_mag f (mag f a * unit_of f) (mag f b)).
Definition fl_add (f : format) (a b : Z) : Z :=
  if nan f a || nan f b then quiet_nan f
  else if is_inf f a && is_inf f b && xorb (negative f a) (negative f b) then quiet_nan f
  else if is_inf f a then a
  else if is_inf f b then b
  else let v := value f a + value f b in
       if v =? 0 then with_sign f (negative f a && negative f b) 0
       else with_sign f (v <? 0) (round_mag f (Z.abs v) 1).
(** C++ conversion to Int64: truncation, undefined when the result does not fit ([conv.fpint]). *)
Definition fl_to_Z (f : format) (a : Z) : Z :=
  let t := mag f a / unit_of f in if negative f a then - t else t.
Definition fl_to_i64 (f : format) (a : Z) : outcome Z :=
  if nan f a || is_inf f a then UB SignedOverflow else i64 (fl_to_Z f a).
(** Conversion between formats. *)
Definition fl_convert (f g : format) (b : Z) : Z :=
  if nan f b then quiet_nan g
  else if is_inf f b then with_sign g (negative f b) (exp_mask g)
  else with_sign g (negative f b) (round_mag g (mag f b * unit_of g) (unit_of f)).
(** Rounding to an integral value (C library: trunc, floor, ceil); [away]: a fraction moves the
    result away from zero. *)
Definition fl_integral (f : format) (away : bool) (a : Z) : Z :=
  if nan f a || is_inf f a then a else
  let u := unit_of f in
  let k := if away then (mag f a + u - 1) / u else mag f a / u in
  with_sign f (negative f a) (round_mag f (k * u) 1).
Definition fl_trunc (f : format) (a : Z) : Z := fl_integral f false a.
Definition fl_floor (f : format) (a : Z) : Z := fl_integral f (negative f a) a.
Definition fl_ceil (f : format) (a : Z) : Z := fl_integral f (negb (negative f a)) a.
(** modf: the fractional part (exact, with the sign of the argument). *)
Definition fl_frac (f : format) (a : Z) : Z :=
  if nan f a then quiet_nan f else if is_inf f a then with_sign f (negative f a) 0 else
  with_sign f (negative f a) (round_mag f (mag f a mod unit_of f) 1).

