(** * Model of /repo/DotNetLibrary/src/TimeSpanValue.cpp

    A [TimeSpan] is its [Int64 value] field (include/DotnetTypes.h 73-84).  The
    Double-valued members (get_TotalX, Divide, Multiply, FromX, Interval) are in FloatModel.v. *)
From Verif Require Import Base DateTimeModel IntModel.

(** TimeSpanValue.cpp 23-24: MaxValue is built from UInt64Value::MaxValue converted to Int64, and
    MinValue from UInt64Value::MinValue. *)
Definition TS_MaxValue : Z := cast_i64 18446744073709551615.
Definition TS_MinValue : Z := cast_i64 0.

(** TimeSpanValue.cpp 32-39 *)
Definition TS_TimeToTicks (hour minute second : Z) : outcome Z :=
  totalSeconds <- i64 (hour * 3600 + minute * 60 + second) ;;
  _ <- throw_if ((MaxSeconds <? totalSeconds) || (totalSeconds <? MinSeconds))
         ArgumentOutOfRangeException ;;
  i64 (totalSeconds * TicksPerSecond).

(** TimeSpanValue.cpp 40-42 *)
Definition TS_of_hms (hours minutes seconds : Z) : outcome Z := TS_TimeToTicks hours minutes seconds.

(** TimeSpanValue.cpp 43-49 *)
Definition TS_of_dhms (days hours minutes seconds milliseconds : Z) : outcome Z :=
  total <- i64 ((days * 3600 * 24 + hours * 3600 + minutes * 60 + seconds) * 1000 + milliseconds) ;;
  _ <- throw_if ((MaxMilliSeconds <? total) || (total <? MinMilliSeconds)) ArgumentOutOfRangeException ;;
  i64 (total * TicksPerMillisecond).

(** TimeSpanValue.cpp 50-67 *)
Definition TS_get_Days (v : Z) : Z := cast_i32 (v /c TicksPerDay).
Definition TS_get_Hours (v : Z) : Z := cast_i32 ((v /c TicksPerHour) %c 24).
Definition TS_get_Milliseconds (v : Z) : Z := cast_i32 ((v /c TicksPerMillisecond) %c 1000).
Definition TS_get_Minutes (v : Z) : Z := cast_i32 ((v /c TicksPerMinute) %c 60).
Definition TS_get_Seconds (v : Z) : Z := cast_i32 ((v /c TicksPerSecond) %c 60).

(** TimeSpanValue.cpp 91-96: the sum is a signed 64-bit addition ... *)
Definition TS_Add (a b : Z) : outcome Z :=
  result <- i64 (a + b) ;;
  _ <- throw_if ((Z.shiftr a 63 =? Z.shiftr b 63) && negb (Z.shiftr a 63 =? Z.shiftr result 63)) OverflowException ;;
  Ret result.
(** ... and the same function when the compiler gives signed overflow wrap-around semantics
    (-fwrapv, and what unoptimised code does on every supported target). *)
Definition TS_Add_wrapv (a b : Z) : outcome Z :=
  let result := cast_i64 (a + b) in
  _ <- throw_if ((Z.shiftr a 63 =? Z.shiftr b 63) && negb (Z.shiftr a 63 =? Z.shiftr result 63)) OverflowException ;;
  Ret result.

(** TimeSpanValue.cpp 243-248 *)
Definition TS_Subtract (a b : Z) : outcome Z :=
  result <- i64 (a - b) ;;
  _ <- throw_if ((Z.shiftr a 63 =? Z.shiftr b 63) && negb (Z.shiftr a 63 =? Z.shiftr result 63)) OverflowException ;;
  Ret result.
Definition TS_Subtract_wrapv (a b : Z) : outcome Z :=
  let result := cast_i64 (a - b) in
  _ <- throw_if ((Z.shiftr a 63 =? Z.shiftr b 63) && negb (Z.shiftr a 63 =? Z.shiftr result 63)) OverflowException ;;
  Ret result.

(** TimeSpanValue.cpp 97-103 (Compare) and 104-111 (CompareTo) *)
Definition TS_Compare (a b : Z) : Z := if b <? a then 1 else if a <? b then -1 else 0.

(** TimeSpanValue.cpp 137-142 *)
Definition TS_Duration (v : Z) : outcome Z :=
  _ <- throw_if (v =? TS_MinValue) OverflowException ;;
  if 0 <=? v then Ret v else i64 (- v).

(** TimeSpanValue.cpp 229-233 and 340-344 (op_UnaryNegation) *)
Definition TS_Negate (v : Z) : outcome Z :=
  _ <- throw_if (v =? TS_MinValue) OverflowException ;;
  i64 (- v).

(** [%02d] of swprintf for a non-negative value below 100 or larger (C standard, external). *)
Definition print_02d (n : Z) : str :=
  if n <? 0 then print_d n else if n <? 10 then 48 :: print_u n else print_u n.

(** TimeSpanValue.cpp 155-192: the characters of the text.  The local StringBuilder has 128
    characters of internal memory and at most 1+8+1+8+1+7 = 26 are appended, so its growth is not
    modelled here (StringBuilderModel.v does that).  [Append(L'0', 7 - fracLength)] with a
    non-positive count appends nothing (StringBuilder.cpp 261-271). *)
Definition TS_FormatString (v : Z) : outcome str :=
  let day := cast_i32 (v /c TicksPerDay) in
  let time := v %c TicksPerDay in
  day <- (if v <? 0 then i32 (- day) else Ret day) ;;
  time <- (if v <? 0 then i64 (- time) else Ret time) ;;
  let sign := if v <? 0 then [45] else [] in
  let hours := cast_i32 (time /c TicksPerHour) %c 24 in
  let min := cast_i32 (time /c TicksPerMinute) %c 60 in
  let sec := cast_i32 (time /c TicksPerSecond) %c 60 in
  let fractional := cast_i32 (time %c TicksPerSecond) in
  let hms := print_02d hours ++ [58] ++ print_02d min ++ [58] ++ print_02d sec in
  let date := if negb (day =? 0) then print_d day ++ [46] ++ hms else hms in
  let frac :=
    if negb (fractional =? 0) then
      let f := print_d fractional in
      [46] ++ f ++ repeat 48 (Z.to_nat (7 - zlen f))
    else [] in
  Ret (sign ++ date ++ frac).

Section Parse.
Variable ws : Z -> bool.

(** TimeSpanValue.cpp 263-275: the number loop.  [chars] is the buffer from the current position,
    [numbers] the numbers stored so far; storing a fifth one writes past [numbers[4]]. *)
Fixpoint TS_numbers (fuel : nat) (chars : str) (length : Z) (numbers : list Z)
  : outcome (str * Z * list Z) :=
  if 0 <? length then
    match fuel with
    | O => UB NonTermination
    | S f =>
      c0 <- read chars 0 ;;
      if negb (IsDigit c0) then Ret (chars, length, numbers) else
      stop <- (if 2 <? length then
                 c1 <- read chars 1 ;;
                 if negb (c1 =? 58) then
                   c2 <- read chars 2 ;;
                   Ret (negb (c2 =? 58) && negb (c2 =? 46) && negb (c1 =? 46))
                 else Ret false
               else Ret false) ;;
      if stop : bool then Ret (chars, length, numbers) else
      c1 <- read chars 1 ;;
      let digits := if IsDigit c1 then 2 else 1 in
      '(_, number, _) <- TryParseInternal ws chars digits ;;
      if 4 <=? zlen numbers then UB OutOfBoundsWrite else
      TS_numbers f (skipn (Z.to_nat (digits + 1)) chars) (length - (digits + 1)) (numbers ++ [cast_i64 number])
    end
  else Ret (chars, length, numbers).

(** TimeSpanValue.cpp 276-282: the fraction loop. *)
Fixpoint TS_fraction (fuel : nat) (chars : str) (length frac fractional : Z) : outcome Z :=
  if (1 <? frac) && (0 <? length) then
    match fuel with
    | O => UB NonTermination
    | S f =>
      c <- read chars 0 ;;
      if IsDigit c then
        let frac := frac /c 10 in
        TS_fraction f (skipn 1 chars) (length - 1) frac (fractional + (c - 48) * frac)
      else Ret fractional
    end
  else Ret fractional.

(** TimeSpanValue.cpp 249-303: always returns true; the result is the parsed span.  Unwritten
    entries of [numbers] are zero. *)
Definition TS_TryParse (s : str) : outcome Z :=
  let buf := s ++ [NUL] in
  c0 <- read buf 0 ;;
  let negate := c0 =? 45 in
  let chars := if negate then skipn 1 buf else buf in
  let length := if negate then zlen s - 1 else zlen s in
  '(chars, length, numbers) <- TS_numbers (S (List.length s)) chars length [] ;;
  fractional <- TS_fraction 8 chars length TicksPerSecond 0 ;;
  let amount := zlen numbers in
  let with_days := (3 <? amount) || (amount =? 1) in
  let n i := nth i numbers 0 in
  let days := if with_days then n 0%nat * TicksPerDay else 0 in
  let k := if with_days then 1%nat else 0%nat in
  ticks <- i64 (fractional + days + n k * TicksPerHour + n (S k) * TicksPerMinute + n (S (S k)) * TicksPerSecond) ;;
  if negate then i64 (- ticks) else Ret ticks.
End Parse.
