(** * Model of the remaining text functions: Boolean and Char parsing and formatting, CopyChars,
    CharEnumerator, BitConverter.ToString *)
From Verif Require Import Base BoxModel MemModel ArrayModel StringBuilderModel StringModel.

(** ** Boolean *)
(** BooleanValue.cpp 22-25: "True" and "False" *)
Definition TrueString : str := [84; 114; 117; 101].
Definition FalseString : str := [70; 97; 108; 115; 101].
(** BooleanValue.cpp 105-115 *)
Definition Boolean_Parse (ct : ctype) (s : option str) : outcome bool :=
  match s with
  | None => Exn ArgumentException
  | Some s =>
    r <- Compare ct (Some s) (Some TrueString) true ;;
    if r =? 0 then Ret true else
    r <- Compare ct (Some s) (Some FalseString) true ;;
    if r =? 0 then Ret false else Exn FormatException
  end.

(** StringDotNet.cpp 658-663: [mem] is the block at [where]; [sizeof(Char)] units. *)
Definition CopyChars (mem : list Z) (whereSize : Z) (source : list Z) (sourceSize : Z) : outcome (list Z) :=
  let sourceSize := if whereSize <? sourceSize then whereSize - 1 else sourceSize in
  m <- memcpy mem 0 source 0 sourceSize ;;
  write m sourceSize 0.
(** BooleanValue.cpp 93-104: the block after the call and the result *)
Definition Boolean_FormatString (v : bool) (mem : list Z) (whereSize : Z) : outcome (list Z * Z) :=
  let text := if v then TrueString else FalseString in
  m <- CopyChars mem whereSize (buffer text) (zlen text) ;; Ret (m, zlen text).
(** StringDotNet.cpp 652-657 *)
Definition String_FormatString (this : str) (mem : list Z) (whereSize : Z) : outcome (list Z * Z) :=
  _ <- throw_if (whereSize <? zlen this) IndexOutOfRangeException ;;
  m <- CopyChars mem whereSize (buffer this) (zlen this) ;; Ret (m, zlen this).
(** StringBuilder.cpp 182-187 *)
Definition SB_FormatString (b : sb) (m : list Z) (whereSize : Z) : outcome (list Z * Z) :=
  _ <- throw_if (whereSize <? len b) IndexOutOfRangeException ;;
  m <- CopyChars m whereSize (mem b) (len b) ;; Ret (m, len b).
(** Object.cpp 44-47: the FormatString every class without its own inherits; L"Object" *)
Definition ObjectString : str := [79; 98; 106; 101; 99; 116].
Definition Object_FormatString (mem : list Z) (whereSize : Z) : outcome (list Z * Z) :=
  m <- CopyChars mem whereSize (buffer ObjectString) 6 ;; Ret (m, 6).
(** CharValue.cpp 79-84 *)
Definition Char_FormatString (v : Z) (mem : list Z) (whereSize : Z) : outcome (list Z * Z) :=
  _ <- throw_if (whereSize <? 2) IndexOutOfRangeException ;;
  m <- write mem 0 v ;; Ret (m, 1).
(** Object.cpp 38-43: FormatString on a block of 128 characters (uninitialised: [junk] is whatever
    it holds), terminate, make a String of it. *)
Definition Object_ToString (format : list Z -> Z -> outcome (list Z * Z)) (junk : list Z) : outcome str :=
  '(m, n) <- format junk 128 ;;
  m <- write m n 0 ;;
  String_from m 0 n.

(** ** Char *)
(** CharValue.cpp 193-201 *)
Definition Char_Parse (s : option str) : outcome Z :=
  match s with
  | None => Exn ArgumentNullException
  | Some s => _ <- throw_if (negb (zlen s =? 1)) FormatException ;; String_get_Chars s 0
  end.
(** CharValue.cpp 208-218: the returned flag and the result parameter *)
Definition Char_TryParse (s : option str) : outcome (bool * Z) :=
  match s with
  | None => Ret (false, 0)
  | Some s => if negb (zlen s =? 1) then Ret (false, 0) else c <- String_get_Chars s 0 ;; Ret (true, c)
  end.
(** CharValue.cpp 85-91, 100-106, 110-116, 120-126, 130-136, 140-146, 156-162, 166-172, 176-182, 186-192
    and (through IsDigit) 150-152: the (String, index) form of a predicate or of GetNumericValue. *)
Definition Char_at {A} (f : Z -> A) (s : option str) (index : Z) : outcome A :=
  match s with
  | None => Exn ArgumentNullException
  | Some s => _ <- throw_if (zlen s <=? index) ArgumentOutOfRangeException ;; c <- String_get_Chars s index ;; Ret (f c)
  end.
(** CharValue.cpp 92-97; iswdigit holds exactly of '0'..'9' in every locale (ISO C).  The Double is
    modelled by the integer it stands for. *)
Definition IsDigit (c : Z) : bool := (48 <=? c) && (c <=? 57).
Definition GetNumericValue (c : Z) : Z := if negb (IsDigit c) then -1 else c - 48.
(** CharValue.cpp 58-60: CompareTo(Char), on wchar_t = int *)
Definition Char_CompareTo (a b : Z) : outcome Z := i32 (a - b).

(** ** CharEnumerator (include/CharEnumerator.h 29-31) *)
Record enumerator := mk_enum { e_index : Z; e_string : str; e_current : Z }.
(** CharEnumerator.cpp 22-26 *)
Definition Enum_new (s : str) : enumerator := mk_enum (-1) s 0.
(** CharEnumerator.cpp 27-33 *)
Definition Enum_get_Current (e : enumerator) : outcome Z :=
  _ <- throw_if (e_index e =? -1) InvalidOperationException ;;
  _ <- throw_if (zlen (e_string e) <=? e_index e) InvalidOperationException ;;
  Ret (e_current e).
(** CharEnumerator.cpp 34-43 *)
Definition Enum_MoveNext (e : enumerator) : outcome (enumerator * bool) :=
  last <- i32 (zlen (e_string e) - 1) ;;
  if e_index e <? last then
    let i := e_index e + 1 in
    c <- String_get_Chars (e_string e) i ;;
    Ret (mk_enum i (e_string e) c, true)
  else Ret (mk_enum (zlen (e_string e)) (e_string e) (e_current e), false).
(** CharEnumerator.cpp 44-47 *)
Definition Enum_Reset (e : enumerator) : enumerator := mk_enum (-1) (e_string e) 0.

(** ** BitConverter.ToString *)
(** BitConverter.cpp 164-176: one nibble as a character *)
Definition hex_char (nibble : Z) : Z := if nibble <? 10 then nibble + 48 else nibble - 10 + 65.
(** BitConverter.cpp 157-179: the loop, [n] iterations from [i] on *)
Fixpoint hex_loop (a : arr) (startIndex i : Z) (n : nat) (b : sb) : outcome sb :=
  match n with
  | O => Ret b
  | S n =>
    b <- (if startIndex <? i then Append_char b 45 1 else Ret b) ;;
    off <- Address a i (-1) (-1) ;;
    byte <- read (data a) off ;;
    b <- Append_char b (hex_char (Z.land (Z.shiftr byte 4) 15)) 1 ;;
    b <- Append_char b (hex_char (Z.land byte 15)) 1 ;;
    hex_loop a startIndex (i + 1) n b
  end.
(** BitConverter.cpp 136-181 (default arguments 0, -1) *)
Definition BC_ToString (value : option arr) (startIndex length : Z) : outcome str :=
  match value with
  | None => Exn ArgumentNullException
  | Some a =>
    let n := totalElementCount a in
    length <- (if length =? -1 then i32 (n - startIndex) else Ret length) ;;
    if (startIndex <? 0) || (n <=? startIndex) then
      if (startIndex =? 0) && (n =? 0) then Ret [] else Exn ArgumentOutOfRangeException
    else
    _ <- throw_if (length <? 0) ArgumentOutOfRangeException ;;
    _ <- throw_if (n - length <? startIndex) ArgumentException ;;
    if length =? 0 then Ret [] else
    c <- i32 (length * 3) ;;
    b <- SB_capacity (c - 1) ;;
    end_ <- i32 (startIndex + length) ;;
    b <- hex_loop a startIndex startIndex (Z.to_nat (end_ - startIndex)) b ;;
    SB_ToString b
  end.
