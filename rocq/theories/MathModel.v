(** * Model of /repo/DotNetLibrary/src/DotNetMath.cpp (integer and bit-level part) and of the
    comparisons and classifications of DoubleValue.cpp and SingleValue.cpp

    A Double (Single) is its 64 (32) bit pattern as a non-negative integer.  The functions
    that use Double arithmetic (FusedMultiplyAdd, Round(value, digits, mode), Divide(Double)) are in
    FloatModel.v.  Not modelled: functions that only call the C math library (Acos ... Truncate, Log). *)
From Verif Require Export IeeeModel.
From Verif Require Import Base BoxModel.

(** ** Integers; one definition stands for the overloads of all integer types, which have the same
    text.  [lo]: MinValue of the type. *)
(** DotNetMath.cpp 36-47: the C library's abs, whose result is then converted to Double *)
Definition abs_int (lo v : Z) : outcome Z := if v =? lo then UB SignedOverflow else Ret (if v <? 0 then - v else v).
(** SByte and Int16 are promoted to int first (36-38, 45-47). *)
Definition Abs_Int16 (v : Z) : outcome Z := a <- abs_int (-2147483648) v ;; Ret (double_of_Z a).
Definition Abs_Int32 (v : Z) : outcome Z := a <- abs_int (-2147483648) v ;; Ret (double_of_Z a).
Definition Abs_Int64 (v : Z) : outcome Z := a <- abs_int (-9223372036854775808) v ;; Ret (double_of_Z a).
(** DotNetMath.cpp 72-74 *)
Definition BigMul (v1 v2 : Z) : outcome Z := i64 (v1 * v2).
(** DotNetMath.cpp 115-126 (and 127-162, 190-237 for the other integer types) *)
Definition Clamp (value min max : Z) : outcome Z :=
  _ <- throw_if (max <? min) ThrowMinMaxException ;;
  if value <? min then Ret min else if max <? value then Ret max else Ret value.
(** DotNetMath.cpp 328-330, 340-351, 361-369 and 383-385, 395-406, 416-424 *)
Definition Max (a b : Z) : Z := if b <=? a then a else b.
Definition Min (a b : Z) : Z := if a <=? b then a else b.
(** DotNetMath.cpp 256-260 *)
Definition Divide_Int64 (v1 v2 : Z) : outcome Z :=
  _ <- throw_if (v2 =? 0) DivideByZeroException ;; i64 (v1 /c v2).
(** DotNetMath.cpp 269-275: quotient and result *)
Definition DivRem_Int32 (a b : Z) : outcome (Z * Z) :=
  _ <- throw_if (b =? 0) DivideByZeroException ;;
  div <- i32 (a /c b) ;; p <- i32 (div * b) ;; r <- i32 (a - p) ;; Ret (div, r).
(** DotNetMath.cpp 276-282: the quotient is stored in an Int32 *)
Definition DivRem_Int64 (a b : Z) : outcome (Z * Z) :=
  _ <- throw_if (b =? 0) DivideByZeroException ;;
  q <- i64 (a /c b) ;;
  let div := cast_i32 q in
  p <- i64 (div * b) ;; r <- i64 (a - p) ;; Ret (div, r).
(** DotNetMath.cpp 539-553: arithmetic shift right, negation in the signed type, shift of the
    unsigned result *)
Definition Sign_Int32 (v : Z) : outcome Z :=
  n <- i32 (- v) ;; Ret (cast_i32 (Z.lor (Z.shiftr v 31) (Z.shiftr (cast_u32 n) 31))).
Definition Sign_Int64 (v : Z) : outcome Z :=
  n <- i64 (- v) ;; Ret (cast_i32 (Z.lor (Z.shiftr v 63) (Z.shiftr (cast_u64 n) 63))).

(** DoubleValue.cpp 101-103 / SingleValue.cpp 108-110: [v != v] *)
Definition IsNaN (f : format) (v : Z) : bool := negb (feq f v v).
(** DoubleValue.cpp 93-96 / SingleValue.cpp 100-103 *)
Definition IsFinite (f : format) (v : Z) : bool := Z.land v (abs_mask f) <? exp_mask f.
(** DoubleValue.cpp 97-100 / SingleValue.cpp 104-107 *)
Definition IsInfinity (f : format) (v : Z) : bool := Z.land v (abs_mask f) =? exp_mask f.
(** DoubleValue.cpp 104-109 / SingleValue.cpp 111-116 *)
Definition IsNegative (f : format) (v : Z) : bool := if IsNaN f v then true else negative f v.
(** DoubleValue.cpp 110-112, 120-122 / SingleValue.cpp 117-119, 127-129 *)
Definition IsNegativeInfinity (f : format) (v : Z) : bool := feq f v (exp_mask f + sign_bit f).
Definition IsPositiveInfinity (f : format) (v : Z) : bool := feq f v (exp_mask f).
(** DoubleValue.cpp 113-119 / SingleValue.cpp 120-126 *)
Definition IsNormal (f : format) (v : Z) : bool :=
  if IsNaN f v then false else
  let bits := Z.land v (abs_mask f) in
  (bits <? exp_mask f) && negb (bits =? 0) && negb (Z.land bits (exp_mask f) =? 0).
(** DoubleValue.cpp 123-127 / SingleValue.cpp 130-134 *)
Definition IsSubnormal (f : format) (v : Z) : bool :=
  let bits := Z.land v (abs_mask f) in
  (bits <? exp_mask f) && negb (bits =? 0) && (Z.land bits (exp_mask f) =? 0).
(** DoubleValue.cpp 55-68 / SingleValue.cpp 62-75 *)
Definition Float_CompareTo (f : format) (value valueToCompare : Z) : Z :=
  if flt f value valueToCompare then -1
  else if flt f valueToCompare value then 1
  else if feq f value valueToCompare then 0
  else if IsNaN f value then (if IsNaN f valueToCompare then 0 else -1) else 1.
(** DoubleValue.cpp 87-92 / SingleValue.cpp 94-99 *)
Definition Float_Equals (f : format) (value valueToCompare : Z) : bool :=
  if feq f valueToCompare value then true else IsNaN f valueToCompare && IsNaN f value.
(** DotNetMath.cpp 331-339, 352-360 (converting a Single to Double keeps sign and NaN) *)
Definition Float_Max (f : format) (v1 v2 : Z) : Z :=
  if flt f v2 v1 || IsNaN f v1 then v1 else if feq f v1 v2 then (if IsNegative f v1 then v2 else v1) else v2.
(** DotNetMath.cpp 386-394, 407-415 *)
Definition Float_Min (f : format) (v1 v2 : Z) : Z :=
  if flt f v1 v2 || IsNaN f v1 then v1 else if feq f v1 v2 then (if IsNegative f v1 then v1 else v2) else v2.
(** DotNetMath.cpp 33-35: fabs clears the sign bit *)
Definition fabs (f : format) (v : Z) : Z := magnitude f v.
(** DotNetMath.cpp 370-381, 425-436 *)
Definition MaxMagnitude (x y : Z) : Z :=
  let f := double_fmt in
  let ax := fabs f x in let ay := fabs f y in
  if flt f ay ax || IsNaN f ax then x else if feq f ax ay then (if IsNegative f x then y else x) else y.
Definition MinMagnitude (x y : Z) : Z :=
  let f := double_fmt in
  let ax := fabs f x in let ay := fabs f y in
  if flt f ax ay || IsNaN f ax then x else if feq f ax ay then (if IsNegative f x then x else y) else y.
(** DotNetMath.cpp 178-189, 238-249 *)
Definition Float_Clamp (f : format) (v lo hi : Z) : outcome Z :=
  _ <- throw_if (flt f hi lo) ThrowMinMaxException ;;
  Ret (if flt f v lo then lo else if flt f hi v then hi else v).
(** DotNetMath.cpp 526-537, 555-566; 0 has pattern 0 *)
Definition Float_Sign (f : format) (v : Z) : outcome Z :=
  if flt f v 0 then Ret (-1) else if flt f 0 v then Ret 1 else if feq f v 0 then Ret 0 else Exn ArithmeticException.

(** ** Bit-level functions on Double *)
Definition one_bits : Z := 4607182418800017408.
Definition minus_zero : Z := 9223372036854775808.
(** DoubleValue.cpp 25-27: the patterns of the nearest doubles of the three literals *)
Definition Double_MaxValue : Z := 9218868437227405307.
Definition Double_MinValue : Z := 18442240474082181115.
Definition Double_Epsilon : Z := 1.
(** DotNetMath.cpp 163-177 *)
Definition CopySign (x y : Z) : Z :=
  let y := if IsNaN double_fmt y then minus_zero else y in
  if sign_bit double_fmt <=? Z.lxor x y then Z.lxor x 9223372036854775808 else x.
(** DotNetMath.cpp 286-291; the shift result fits int *)
Definition ExtractExponentFromBits (bits : Z) : Z := Z.land (cast_i32 (Z.shiftr bits 52)) 2047.
Definition ExtractSignificandFromBits (bits : Z) : Z := Z.land bits 4503599627370495.
Definition not64 (x : Z) : Z := cast_u64 (Z.lnot x).
(** DotNetMath.cpp 441-465 *)
Definition Round (a : Z) : Z :=
  let bits := a in
  let exponent := ExtractExponentFromBits bits in
  if exponent <=? 1022 then
    if cast_u64 (Z.shiftl bits 1) =? 0 then a
    else CopySign (if (exponent =? 1022) && negb (ExtractSignificandFromBits bits =? 0) then one_bits else 0) a
  else if 1075 <=? exponent then a
  else
    let lastBitMask := cast_u64 (Z.shiftl 1 (1075 - exponent)) in
    let roundBitsMask := cast_u64 (lastBitMask - 1) in
    let bits := cast_u64 (bits + Z.shiftr lastBitMask 1) in
    if Z.land bits roundBitsMask =? 0 then Z.land bits (not64 lastBitMask) else Z.land bits (not64 roundBitsMask).
(** DotNetMath.cpp 75-91; [bits] is the Int64 with the same pattern, [>>] is arithmetic; unary minus flips
    the sign bit *)
Definition BitDecrement (x : Z) : outcome Z :=
  let bits := cast_i64 x in
  if 2146435072 <=? Z.land (Z.shiftr bits 32) 2146435072 then
    Ret (if bits =? 9218868437227405312 then Double_MaxValue else x)
  else if bits =? 0 then Ret (Double_Epsilon + minus_zero)
  else r <- i64 (bits + (if bits <? 0 then 1 else -1)) ;; Ret (cast_u64 r).
(** DotNetMath.cpp 92-108 *)
Definition BitIncrement (x : Z) : outcome Z :=
  let bits := cast_i64 x in
  if 2146435072 <=? Z.land (Z.shiftr bits 32) 2146435072 then
    Ret (if bits =? cast_i64 18442240474082181120 then Double_MinValue else x)
  else if bits =? cast_i64 9223372036854775808 then Ret Double_Epsilon
  else r <- i64 (bits + (if bits <? 0 then -1 else 1)) ;; Ret (cast_u64 r).
