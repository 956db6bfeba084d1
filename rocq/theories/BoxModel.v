(** * Boxed values: the [Object] hierarchy of value types

    Platform fixed to Linux x86-64: [wchar_t] is a signed 32-bit type, pointers have 64 bits
    (include/DotnetTypes.h 39-51). Floating point values are represented by their IEEE bit
    patterns. *)
From Verif Require Import Base IntModel IeeeModel.

(** ** Conversions between number types (external, IeeeModel.v). *)
Definition single_of_Z (z : Z) : Z := fl_of_Z single_fmt z.
Definition double_of_Z (z : Z) : Z := fl_of_Z double_fmt z.
Definition double_of_single (b : Z) : Z := fl_convert single_fmt double_fmt b.
Definition single_of_double (b : Z) : Z := fl_convert double_fmt single_fmt b.

(** include/DotnetTypes.h 92-95 *)
Inductive dtype :=
| NullType | ObjectType | BooleanType | CharType | SByteType | ByteType | Int16Type | UInt16Type
| Int32Type | UInt32Type | Int64Type | UInt64Type | SingleType | DoubleType | DecimalType
| DateTimeType | TimeSpanType | StringType.
Definition dtype_eqb (a b : dtype) : bool :=
  match a, b with
  | NullType, NullType | ObjectType, ObjectType | BooleanType, BooleanType | CharType, CharType
  | SByteType, SByteType | ByteType, ByteType | Int16Type, Int16Type | UInt16Type, UInt16Type
  | Int32Type, Int32Type | UInt32Type, UInt32Type | Int64Type, Int64Type | UInt64Type, UInt64Type
  | SingleType, SingleType | DoubleType, DoubleType | DecimalType, DecimalType
  | DateTimeType, DateTimeType | TimeSpanType, TimeSpanType | StringType, StringType => true
  | _, _ => false
  end.

(** The integer-like value classes. *)
Inductive itype := IChar | ISByte | IByte | IInt16 | IUInt16 | IInt32 | IUInt32 | IInt64 | IUInt64.
Definition ibits (t : itype) : Z :=
  match t with
  | ISByte | IByte => 8 | IInt16 | IUInt16 => 16 | IChar | IInt32 | IUInt32 => 32 | IInt64 | IUInt64 => 64
  end.
Definition isigned (t : itype) : bool :=
  match t with IChar | ISByte | IInt16 | IInt32 | IInt64 => true | _ => false end.
Definition cast_to (t : itype) (z : Z) : Z := if isigned t then cast_s (ibits t) z else cast_u (ibits t) z.
Definition in_range (t : itype) (z : Z) : bool := if isigned t then in_signed (ibits t) z else in_unsigned (ibits t) z.
Definition itype_eqb (a b : itype) : bool :=
  match a, b with
  | IChar, IChar | ISByte, ISByte | IByte, IByte | IInt16, IInt16 | IUInt16, IUInt16
  | IInt32, IInt32 | IUInt32, IUInt32 | IInt64, IInt64 | IUInt64, IUInt64 => true
  | _, _ => false
  end.
Definition dtype_of (t : itype) : dtype :=
  match t with
  | IChar => CharType | ISByte => SByteType | IByte => ByteType | IInt16 => Int16Type
  | IUInt16 => UInt16Type | IInt32 => Int32Type | IUInt32 => UInt32Type | IInt64 => Int64Type
  | IUInt64 => UInt64Type
  end.

(** An object of the library: boxed values, strings, and any other reference object. *)
Inductive box :=
| BBool (b : bool)
| BInt (t : itype) (z : Z)
| BSingle (bits : Z)
| BDouble (bits : Z)
| BDateTime (ticks : Z)
| BTimeSpan (ticks : Z)
| BString (s : str)
| BObject.

(** The virtual [GetRawDataType] of each class (include/xxxValue.h, include/Object.h). *)
Definition GetRawDataType (v : box) : dtype :=
  match v with
  | BBool _ => BooleanType | BInt t _ => dtype_of t | BSingle _ => SingleType | BDouble _ => DoubleType
  | BDateTime _ => DateTimeType | BTimeSpan _ => TimeSpanType | BString _ => StringType | BObject => ObjectType
  end.

(** get_AsBoolean: BooleanValue.cpp 27-29; xxxValue.cpp [value != 0]; CharValue, SingleValue,
    DoubleValue, DateTimeValue, TimeSpanValue and String inherit Object.cpp 46-48. *)
Definition get_AsBoolean (v : box) : outcome bool :=
  match v with
  | BBool b => Ret b
  | BInt IChar _ => Exn InvalidCastException
  | BInt _ z => Ret (negb (z =? 0))
  | _ => Exn InvalidCastException
  end.
(** get_AsChar: CharValue.cpp 25-27, xxxValue.cpp; missing in BooleanValue, SingleValue, DoubleValue. *)
Definition get_AsChar (v : box) : outcome Z :=
  match v with
  | BInt _ z => Ret (cast_to IChar z)
  | _ => Exn InvalidCastException
  end.
(** get_AsSByte, get_AsByte: BooleanValue.cpp 31-37, CharValue.cpp 28-33, xxxValue.cpp; missing in
    SingleValue and DoubleValue. *)
Definition get_As8 (t : itype) (v : box) : outcome Z :=
  match v with
  | BBool b => Ret (if b then 1 else 0)
  | BInt _ z => Ret (cast_to t z)
  | _ => Exn InvalidCastException
  end.
(** Conversion of a floating value to an integer type: truncation towards zero, undefined if it does
    not fit ([conv.fpint]). *)
Definition float_to (t : itype) (f : format) (b : Z) : outcome Z :=
  if nan f b || is_inf f b then UB SignedOverflow
  else if in_range t (fl_to_Z f b) then Ret (fl_to_Z f b) else UB SignedOverflow.
(** get_AsInt16 .. get_AsUInt64: BooleanValue.cpp 39-61, CharValue.cpp 34-51, xxxValue.cpp 38-55,
    SingleValue.cpp 38-55, DoubleValue.cpp 31-48.  Int64Value.cpp 38-43 converts through Int64 and
    UInt64 first, which changes nothing. *)
Definition get_AsInt (t : itype) (v : box) : outcome Z :=
  match v with
  | BBool b => Ret (if b then 1 else 0)
  | BInt IInt64 z => Ret (match t with
                          | IInt16 => cast_to IInt16 (cast_i64 z)
                          | IUInt16 => cast_to IUInt16 (cast_u64 z)
                          | _ => cast_to t z end)
  | BInt _ z => Ret (cast_to t z)
  | BSingle b => float_to t single_fmt b
  | BDouble b => float_to t double_fmt b
  | _ => Exn InvalidCastException
  end.
(** get_AsSingle, get_AsDouble: CharValue.cpp 52-57, xxxValue.cpp 56-61, SingleValue.cpp 56-61,
    DoubleValue.cpp 49-54; missing in BooleanValue. *)
Definition get_AsSingle (v : box) : outcome Z :=
  match v with
  | BInt _ z => Ret (single_of_Z z)
  | BSingle b => Ret b
  | BDouble b => Ret (single_of_double b)
  | _ => Exn InvalidCastException
  end.
Definition get_AsDouble (v : box) : outcome Z :=
  match v with
  | BInt _ z => Ret (double_of_Z z)
  | BSingle b => Ret (double_of_single b)
  | BDouble b => Ret b
  | _ => Exn InvalidCastException
  end.
(** DateTimeValue.cpp 370-372, TimeSpanValue.cpp 88-90 *)
Definition get_AsDateTime (v : box) : outcome Z :=
  match v with BDateTime t => Ret t | _ => Exn InvalidCastException end.
Definition get_AsTimeSpan (v : box) : outcome Z :=
  match v with BTimeSpan t => Ret t | _ => Exn InvalidCastException end.

(** CompareTo(T) of the integer classes: Int32Value.cpp 62-64 and its analogues (ByteValue.cpp
    60-62, SByteValue.cpp 62-64, Int16Value.cpp 61-63, UInt16Value.cpp 62-64, UInt32Value.cpp
    62-64, Int64Value.cpp 62-64, UInt64Value.cpp 62-64, CharValue.cpp 58-60): the difference in the
    promoted type, returned as Int32. *)
Definition int_CompareTo (t : itype) (a b : Z) : outcome Z :=
  match t with
  | ISByte | IByte | IInt16 | IUInt16 => Ret (a - b)
  | IChar | IInt32 => i32 (a - b)
  | IInt64 => r <- i64 (a - b) ;; Ret (cast_i32 r)
  | IUInt32 => Ret (cast_i32 (cast_u32 (a - b)))
  | IUInt64 => Ret (cast_i32 (cast_u64 (a - b)))
  end.

(** BooleanValue.cpp 63-71 *)
Definition bool_CompareTo (value valueToCompare : bool) : Z :=
  if Bool.eqb value valueToCompare then 0 else if negb value then -1 else 1.

(** CompareTo(Object pointer): BooleanValue.cpp 73-79, Int32Value.cpp 65-73 and its analogues,
    DateTimeValue.cpp and TimeSpanValue.cpp are in their own models.  [None] is null.  Only boxes
    of Boolean and integer classes are modelled as receivers here. *)
Definition CompareTo_obj (self : box) (other : option box) : outcome Z :=
  match self with
  | BBool a =>
      match other with
      | None => Ret 1
      | Some (BBool b) => Ret (bool_CompareTo a b)
      | Some _ => Exn ArgumentException
      end
  | BInt t a =>
      match other with
      | None => Ret 1
      | Some (BInt t' b) => if itype_eqb t t' then int_CompareTo t a b else Exn ArgumentException
      | Some _ => Exn ArgumentException
      end
  | _ => Exn NotImplementedException
  end.

(** Equals(Object pointer): BooleanValue.cpp 81-87 checks for null; the integer classes do not
    (Int32Value.cpp 74-79, CharValue.cpp 70-75, ByteValue.cpp 72-77, SByteValue.cpp 74-79,
    Int16Value.cpp 73-78, UInt16Value.cpp 74-79, UInt32Value.cpp 74-79, Int64Value.cpp 74-79,
    UInt64Value.cpp 74-79). *)
Definition Equals_obj (self : box) (other : option box) : outcome bool :=
  match self with
  | BBool a =>
      match other with
      | None => Ret false
      | Some (BBool b) => Ret (Bool.eqb b a)
      | Some _ => Ret false
      end
  | BInt t a =>
      match other with
      | None => UB NullDereference
      | Some (BInt t' b) => Ret (itype_eqb t t' && (a =? b))
      | Some _ => Ret false
      end
  | _ => Exn NotImplementedException
  end.
