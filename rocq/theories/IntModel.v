(** * Model of integer text: parsing, printing, comparing

    /repo/DotNetLibrary/src/{UInt64,Int64,Int32,UInt32,Int16,UInt16,SByte,Byte}Value.cpp.
    Characters are [wchar_t] values as [Z]; a [String] is the list of its characters and its buffer
    is that list followed by NUL (StringDotNet.cpp 32-93; see StringModel.v). A [String*] argument
    is an [option]: [None] is the null pointer.

    [ws] stands for the C library's [iswspace] (CharValue.cpp 176-178, locale dependent: left as a
    parameter).  [iswdigit] (CharValue.cpp 108-110) is fixed by the C standard to the ten digits. *)
From Verif Require Import Base.

Definition str := list Z.
Definition NUL : Z := 0.

(** CharValue.cpp 108-110 *)
Definition IsDigit (c : Z) : bool := (48 <=? c) && (c <=? 57).

(** ** [swprintf] with %d, %u, %lld, %llu: minimal decimal digits (C standard, external). *)
Fixpoint dec_digits (fuel : nat) (n : Z) : str :=
  match fuel with
  | O => []
  | S f => (if n / 10 =? 0 then [] else dec_digits f (n / 10)) ++ [48 + n mod 10]
  end.
Definition print_u (n : Z) : str := dec_digits 20 n.
Definition print_d (n : Z) : str := if n <? 0 then 45 :: print_u (- n) else print_u n.

Section WithCtype.
Variable ws : Z -> bool.

(** UInt64Value.cpp 119-124: first loop of TryParseInternal.  [src] is the buffer from the current
    position (terminator included), [n] the remaining [sourceLength]. *)
Fixpoint skip_ws (src : str) (n : Z) : outcome (str * Z) :=
  match src with
  | [] => UB OutOfBoundsRead
  | c :: t => if negb (c =? 0) && (0 <? n)
              then if negb (ws c) then Ret (src, n) else skip_ws t (n - 1)
              else Ret (src, n)
  end.

(** UInt64Value.cpp 125-135 *)
Definition read_sign (src : str) (n : Z) : outcome (str * Z * Z) :=
  match src with
  | [] => UB OutOfBoundsRead
  | c :: t => if negb (c =? 0) && (0 <? n)
              then if c =? 45 then Ret (t, n - 1, -1)
                   else if c =? 43 then Ret (t, n - 1, 1)
                   else Ret (src, n, 1)
              else Ret (src, n, 1)
  end.

(** UInt64Value.cpp 136-143; [result] is a UInt64 so the accumulation wraps. *)
Fixpoint read_digits (src : str) (n result : Z) (got : bool) : outcome (str * Z * Z * bool) :=
  match src with
  | [] => UB OutOfBoundsRead
  | c :: t => if negb (c =? 0) && (0 <? n)
              then if negb (IsDigit c) then Ret (src, n, result, got)
                   else read_digits t (n - 1) (cast_u64 (10 * result + c - 48)) true
              else Ret (src, n, result, got)
  end.

(** UInt64Value.cpp 115-147: returns (success, result, sign). *)
Definition TryParseInternal (src : str) (sourceLength : Z) : outcome (bool * Z * Z) :=
  '(src, n) <- skip_ws src sourceLength ;;
  '(src, n, sign) <- read_sign src n ;;
  '(src, n, result, got) <- read_digits src n 0 false ;;
  if 0 <? n then
    c <- read src 0 ;;
    Ret (if negb (ws c) then false else got, result, sign)
  else Ret (got, result, sign).

(** UInt64Value.cpp 110-114 *)
Definition TryParseInternal_str (s : option str) : outcome (bool * Z * Z) :=
  match s with
  | None => Exn ArgumentNullException
  | Some s => TryParseInternal (s ++ [NUL]) (zlen s)
  end.

(** UInt64Value.cpp 90-98, 99-109 *)
Definition UInt64_Parse (s : option str) : outcome Z :=
  '(ok, value, sign) <- TryParseInternal_str s ;;
  if negb ok then Exn FormatException else
  if 18446744073709551615 <? value then Exn OverflowException else Ret value.
Definition UInt64_TryParse (s : option str) : outcome (bool * Z) :=
  '(ok, value, sign) <- TryParseInternal_str s ;;
  Ret (ok && negb ((sign <? 0) || (18446744073709551615 <? value)), value).

(** Int64Value.cpp 90-96, 97-105 *)
Definition Int64_Parse (s : option str) : outcome Z :=
  '(ok, value, sign) <- TryParseInternal_str s ;;
  if negb ok then Exn FormatException else i64 (cast_i64 value * sign).
Definition Int64_TryParse (s : option str) : outcome (bool * Z) :=
  '(ok, value, sign) <- TryParseInternal_str s ;;
  r <- i64 (cast_i64 value * sign) ;;
  Ret (ok, r).

(** Int32Value.cpp 90-100, 101-113 *)
Definition Int32_Parse (s : option str) : outcome Z :=
  '(ok, value, sign) <- TryParseInternal_str s ;;
  if negb ok then Exn FormatException else
  if (0 <? sign) && (2147483647 <? value) then Exn OverflowException else
  if (sign <? 0) && (cast_i64 value <? -2147483648) then Exn OverflowException else
  i32 (cast_i32 value * sign).
Definition Int32_TryParse (s : option str) : outcome (bool * Z) :=
  '(ok, value, sign) <- TryParseInternal_str s ;;
  r <- i32 (cast_i32 value * sign) ;;
  Ret (ok && negb ((0 <? sign) && (2147483647 <? value))
          && negb ((sign <? 0) && (cast_i64 value <? -2147483648)), r).

(** Int16Value.cpp 89-99, 100-112: the product is an [int], converted to Int16. *)
Definition Int16_Parse (s : option str) : outcome Z :=
  '(ok, value, sign) <- TryParseInternal_str s ;;
  if negb ok then Exn FormatException else
  if (0 <? sign) && (32767 <? value) then Exn OverflowException else
  if (sign <? 0) && (cast_i64 value <? -32768) then Exn OverflowException else
  r <- i32 (cast_i16 value * sign) ;; Ret (cast_i16 r).
Definition Int16_TryParse (s : option str) : outcome (bool * Z) :=
  '(ok, value, sign) <- TryParseInternal_str s ;;
  r <- i32 (cast_i16 value * sign) ;;
  Ret (ok && negb ((0 <? sign) && (32767 <? value))
          && negb ((sign <? 0) && (cast_i64 value <? -32768)), cast_i16 r).

(** SByteValue.cpp 90-100, 101-113 *)
Definition SByte_Parse (s : option str) : outcome Z :=
  '(ok, value, sign) <- TryParseInternal_str s ;;
  if negb ok then Exn FormatException else
  if (0 <? sign) && (127 <? value) then Exn OverflowException else
  if (sign <? 0) && (cast_i64 value <? -128) then Exn OverflowException else
  r <- i32 (cast_i8 value * sign) ;; Ret (cast_i8 r).
Definition SByte_TryParse (s : option str) : outcome (bool * Z) :=
  '(ok, value, sign) <- TryParseInternal_str s ;;
  r <- i32 (cast_i8 value * sign) ;;
  Ret (ok && negb ((0 <? sign) && (127 <? value))
          && negb ((sign <? 0) && (cast_i64 value <? -128)), cast_i8 r).

(** ByteValue.cpp 88-96, 97-107 *)
Definition Byte_Parse (s : option str) : outcome Z :=
  '(ok, value, sign) <- TryParseInternal_str s ;;
  if negb ok then Exn FormatException else
  if (sign <? 0) || (255 <? value) then Exn OverflowException else Ret (cast_u8 value).
Definition Byte_TryParse (s : option str) : outcome (bool * Z) :=
  '(ok, value, sign) <- TryParseInternal_str s ;;
  Ret (ok && negb ((sign <? 0) || (255 <? value)), cast_u8 value).

(** UInt16Value.cpp 90-98, 99-109 *)
Definition UInt16_Parse (s : option str) : outcome Z :=
  '(ok, value, sign) <- TryParseInternal_str s ;;
  if negb ok then Exn FormatException else
  if 65535 <? value then Exn OverflowException else
  r <- i32 (cast_u16 value * sign) ;; Ret (cast_u16 r).
Definition UInt16_TryParse (s : option str) : outcome (bool * Z) :=
  '(ok, value, sign) <- TryParseInternal_str s ;;
  Ret (ok && negb ((sign <? 0) || (65535 <? value)), cast_u16 value).

(** UInt32Value.cpp 90-98, 99-109: [(UInt32) value * sign] is unsigned arithmetic. *)
Definition UInt32_Parse (s : option str) : outcome Z :=
  '(ok, value, sign) <- TryParseInternal_str s ;;
  if negb ok then Exn FormatException else
  if 4294967295 <? value then Exn OverflowException else
  Ret (cast_u32 (cast_u32 value * cast_u32 sign)).
Definition UInt32_TryParse (s : option str) : outcome (bool * Z) :=
  '(ok, value, sign) <- TryParseInternal_str s ;;
  Ret (ok && negb ((sign <? 0) || (4294967295 <? value)), cast_u32 value).
End WithCtype.

(** ** ToString: Object.cpp 38-43 with the FormatString of each class
    (Int32Value.cpp 83-89 "%d", Int16Value.cpp 82-88 "%d", SByteValue.cpp 83-89 "%d",
    Int64Value.cpp 83-89 "%lld", ByteValue.cpp 81-87, UInt16Value.cpp 83-89, UInt32Value.cpp 83-89
    "%u", UInt64Value.cpp 83-89 "%llu").  At most 20 characters, so the 128-character local buffer
    of Object::ToString suffices. *)
Definition ToString_signed (v : Z) : str := print_d v.
Definition ToString_unsigned (v : Z) : str := print_u v.

(** ** CompareTo(value): subtraction, then conversion to the Int32 return type
    ByteValue.cpp 60-62, SByteValue.cpp 62-64, Int16Value.cpp 61-63, UInt16Value.cpp 62-64,
    CharValue.cpp 55-57: [int] arithmetic. *)
Definition CompareTo_int (a b : Z) : outcome Z := i32 (a - b).
(** Int32Value.cpp 62-64 *)
Definition Int32_CompareTo (a b : Z) : outcome Z := i32 (a - b).
(** UInt32Value.cpp 62-64 *)
Definition UInt32_CompareTo (a b : Z) : outcome Z := Ret (cast_i32 (cast_u32 (a - b))).
(** Int64Value.cpp 62-64 *)
Definition Int64_CompareTo (a b : Z) : outcome Z := d <- i64 (a - b) ;; Ret (cast_i32 d).
(** UInt64Value.cpp 62-64 *)
Definition UInt64_CompareTo (a b : Z) : outcome Z := Ret (cast_i32 (cast_u64 (a - b))).
