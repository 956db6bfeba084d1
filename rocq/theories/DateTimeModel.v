(** * Model of /repo/DotNetLibrary/src/DateTimeValue.cpp and include/DateTimeValue.h

    A [DateTime] is its [UInt64 value] field (include/DotnetTypes.h 59-69): a number of 100ns
    ticks.  Not modelled: get_UtcNow, get_Now, IsDaylightSavingTime, GetTimeZone, ToLocalTime,
    ToUniversalTime (they read the operating system's clock and time zone).  Add(Double,Int32) and its
    AddDays/AddHours/... wrappers are in FloatModel.v. *)
From Verif Require Import Base.

(** include/DateTimeValue.h 24-28 *)
Definition TicksPerMillisecond : Z := 10000.
Definition TicksPerSecond : Z := TicksPerMillisecond * 1000.
Definition TicksPerMinute : Z := TicksPerSecond * 60.
Definition TicksPerHour : Z := TicksPerMinute * 60.
Definition TicksPerDay : Z := TicksPerHour * 24.
(** include/DateTimeValue.h 37-43 *)
Definition DaysPerYear : Z := 365.
Definition DaysPer4Years : Z := DaysPerYear * 4 + 1.
Definition DaysPer100Years : Z := DaysPer4Years * 25 - 1.
Definition DaysPer400Years : Z := DaysPer100Years * 4 + 1.
(** include/DateTimeValue.h 52-57 *)
Definition DaysTo10000 : Z := DaysPer400Years * 25 - 366.
Definition MinTicks : Z := 0.
Definition MaxTicks : Z := DaysTo10000 * TicksPerDay - 1.
(** include/DateTimeValue.h 57-60: 0xd6bf94d5e5, 0xffffff29406b2a1b, 0x346dc5d638865 and
    0xfffcb923a29c779b stored in Int64 constants *)
Definition MaxSeconds : Z := 922337203685.
Definition MinSeconds : Z := cast_i64 18446743151372347931.
Definition MaxMilliSeconds : Z := 922337203685477.
Definition MinMilliSeconds : Z := cast_i64 18445821736505866139.

(** DateTimeValue.cpp 31-34 *)
Definition daysToMonth365 : list Z := [0; 31; 59; 90; 120; 151; 181; 212; 243; 273; 304; 334; 365].
Definition daysToMonth366 : list Z := [0; 31; 60; 91; 121; 152; 182; 213; 244; 274; 305; 335; 366].

(** DateTimeValue.cpp 35-37: the file-local free function [IsLeapYear] *)
Definition IsLeapYear_free (year : Z) : bool :=
  (year %c 4 =? 0) && (negb (year %c 100 =? 0) || (year %c 400 =? 0)).

(** DateTimeValue.cpp 38-40 *)
Definition GetDaysArray (year : Z) : list Z :=
  if IsLeapYear_free year then daysToMonth366 else daysToMonth365.

(** DateTimeValue.cpp 41-50.  All Int32 intermediates of [ndays] are below 2^31 because of the
    guard on [year]; the statement-level check [i32] records that. *)
Definition DateToTicks (year month day : Z) : outcome Z :=
  _ <- throw_if ((year <? 1) || (9999 <? year) || (month <? 1) || (12 <? month) || (day <? 1))
         ArgumentOutOfRangeException ;;
  let days := GetDaysArray year in
  dm <- read days month ;;
  dm1 <- read days (month - 1) ;;
  _ <- throw_if (dm - dm1 <? day) ArgumentOutOfRangeException ;;
  let yr := year - 1 in
  ndays <- i32 (yr * 365 + yr /c 4 - yr /c 100 + yr /c 400 + dm1 + day - 1) ;;
  i64 (ndays * TicksPerDay).

(** DateTimeValue.cpp 51-58 *)
Definition TimePartsToTicks (days hour minute second milliseconds : Z) : outcome Z :=
  totalSeconds <- i64 (days * 3600 * 24 + hour * 3600 + minute * 60 + second) ;;
  _ <- throw_if ((MaxSeconds <? totalSeconds) || (totalSeconds <? MinSeconds))
         ArgumentOutOfRangeException ;;
  _ <- throw_if ((milliseconds <? 0) || (1000 <? milliseconds)) ArgumentOutOfRangeException ;;
  i64 (totalSeconds * TicksPerSecond + milliseconds * TicksPerMillisecond).

(** DateTimeValue.cpp 59-63 *)
Definition TimeToTicks (hour minute second milliseconds : Z) : outcome Z :=
  _ <- throw_if ((hour <? 0) || (24 <=? hour) || (minute <? 0) || (60 <=? minute)
                 || (second <? 0) || (60 <=? second)) ArgumentOutOfRangeException ;;
  TimePartsToTicks 0 hour minute second milliseconds.

(** DateTimeValue.cpp 64-68: [DateTime(UInt64 ticks)].  [ticks] is already a UInt64. *)
Definition DateTime_of_ticks (ticks : Z) : outcome Z :=
  _ <- throw_if ((ticks <? MinTicks) || (MaxTicks <? ticks)) ArgumentOutOfRangeException ;;
  Ret ticks.

(** DateTimeValue.cpp 75-79: component constructor; [value] is a UInt64 so [+=] wraps. *)
Definition DateTime_of_parts (year month day hour minute second millisecond : Z) : outcome Z :=
  d <- DateToTicks year month day ;;
  let value := cast_u64 d in
  if 0 <=? hour then
    t <- TimeToTicks hour minute second millisecond ;;
    Ret (cast_u64 (value + t))
  else Ret value.

(** The shared shape of [while (n >= days[m]) m++;] (lines 162-163 and 421-422); [fuel] bounds the
    number of iterations, the array has 13 entries so reading past it happens before fuel ends. *)
Fixpoint month_loop (fuel : nat) (days : list Z) (n m : Z) : outcome Z :=
  match fuel with
  | O => UB NonTermination
  | S f =>
      dm <- read days m ;;
      if dm <=? n then month_loop f days n (m + 1) else Ret m
  end.

Inductive date_part := DatePartYear | DatePartDayOfYear | DatePartMonth | DatePartDay.

(** DateTimeValue.cpp 380-428: [Int32 GetDatePart(Int32 part)] *)
Definition GetDatePart (value : Z) (part : date_part) : outcome Z :=
  let n := cast_i32 (value /c TicksPerDay) in
  let y400 := n /c DaysPer400Years in
  let n := n - y400 * DaysPer400Years in
  let y100 := n /c DaysPer100Years in
  let y100 := if y100 =? 4 then 3 else y100 in
  let n := n - y100 * DaysPer100Years in
  let y4 := n /c DaysPer4Years in
  let n := n - y4 * DaysPer4Years in
  let y1 := n /c DaysPerYear in
  let y1 := if y1 =? 4 then 3 else y1 in
  match part with
  | DatePartYear => Ret (y400 * 400 + y100 * 100 + y4 * 4 + y1 + 1)
  | _ =>
    let n := n - y1 * DaysPerYear in
    match part with
    | DatePartDayOfYear => Ret (n + 1)
    | _ =>
      let leapYear := (y1 =? 3) && (negb (y4 =? 24) || (y100 =? 3)) in
      let days := if leapYear then daysToMonth366 else daysToMonth365 in
      let m := Z.shiftr n 5 + 1 in
      m <- month_loop 14 days n m ;;
      match part with
      | DatePartMonth => Ret m
      | _ => dm1 <- read days (m - 1) ;; Ret (n - dm1 + 1)
      end
    end
  end.

(** DateTimeValue.cpp 126-168: [void GetDatePart(Int32& year, Int32& month, Int32& day)], a second
    copy of the cascade used by AddMonths only; here [ticks] is an Int64. *)
Definition GetDatePart3 (value : Z) : outcome (Z * Z * Z) :=
  let ticks := cast_i64 value in
  let n := cast_i32 (ticks /c TicksPerDay) in
  let y400 := n /c DaysPer400Years in
  let n := n - y400 * DaysPer400Years in
  let y100 := n /c DaysPer100Years in
  let y100 := if y100 =? 4 then 3 else y100 in
  let n := n - y100 * DaysPer100Years in
  let y4 := n /c DaysPer4Years in
  let n := n - y4 * DaysPer4Years in
  let y1 := n /c DaysPerYear in
  let y1 := if y1 =? 4 then 3 else y1 in
  let year := y400 * 400 + y100 * 100 + y4 * 4 + y1 + 1 in
  let n := n - y1 * DaysPerYear in
  let leapYear := (y1 =? 3) && (negb (y4 =? 24) || (y100 =? 3)) in
  let days := if leapYear then daysToMonth366 else daysToMonth365 in
  let m := Z.shiftr n 5 + 1 in
  m <- month_loop 14 days n m ;;
  dm1 <- read days (m - 1) ;;
  Ret (year, m, n - dm1 + 1).

(** DateTimeValue.cpp 102-104, 377-379, 432-434, 444-446 *)
Definition get_Year (v : Z) := GetDatePart v DatePartYear.
Definition get_Day (v : Z) := GetDatePart v DatePartDay.
Definition get_DayOfYear (v : Z) := GetDatePart v DatePartDayOfYear.
Definition get_Month (v : Z) := GetDatePart v DatePartMonth.

(** DateTimeValue.cpp 429-431: Sunday = 0 (include/DateTimeValue.h 68-71) *)
Definition get_DayOfWeek (v : Z) : Z := (v /c TicksPerDay + 1) %c 7.
(** DateTimeValue.cpp 435-443 and 360-362 *)
Definition get_Hour (v : Z) : Z := cast_i32 ((v /c TicksPerHour) %c 24).
Definition get_Millisecond (v : Z) : Z := cast_i32 ((v /c TicksPerMillisecond) %c 1000).
Definition get_Minute (v : Z) : Z := cast_i32 ((v /c TicksPerMinute) %c 60).
Definition get_Second (v : Z) : Z := cast_i32 ((v /c TicksPerSecond) %c 60).
(** DateTimeValue.cpp 363-365: a TimeSpan, i.e. an Int64 *)
Definition get_TimeOfDay (v : Z) : Z := cast_i64 (v %c TicksPerDay).
(** DateTimeValue.cpp 373-376 *)
Definition get_Date (v : Z) : outcome Z := DateTime_of_ticks (v - v %c TicksPerDay).

(** DateTimeValue.cpp 260-265: the member function *)
Definition IsLeapYear (year : Z) : outcome bool :=
  _ <- throw_if ((year <? 1) || (9999 <? year)) ArgumentOutOfRangeException ;;
  Ret ((Z.land year 3 =? 0) && ((Z.land year 15 =? 0) || negb (year %c 25 =? 0))).

(** DateTimeValue.cpp 229-235: inside the member function, [IsLeapYear] is the member (class scope
    hides the free function), which checks the year. *)
Definition DaysInMonth (year month : Z) : outcome Z :=
  _ <- throw_if ((month <? 1) || (12 <? month)) ArgumentOutOfRangeException ;;
  leap <- IsLeapYear year ;;
  let days := if leap then daysToMonth366 else daysToMonth365 in
  dm <- read days month ;;
  dm1 <- read days (month - 1) ;;
  Ret (dm - dm1).

(** DateTimeValue.cpp 169-192.  [value.value % TicksPerDay] is unsigned, the sum with the Int64 is
    converted to UInt64. *)
Definition AddMonths (v months : Z) : outcome Z :=
  _ <- throw_if ((months <? -120000) || (120000 <? months)) ArgumentOutOfRangeException ;;
  '(year, month, day) <- GetDatePart3 v ;;
  i <- i32 (month - 1 + months) ;;
  let month := if 0 <=? i then i %c 12 + 1 else 12 + (i + 1) %c 12 in
  let year := if 0 <=? i then year + i /c 12 else year + (i - 11) /c 12 in
  _ <- throw_if ((year <? 1) || (9999 <? year)) ArgumentOutOfRangeException ;;
  days <- DaysInMonth year month ;;
  let day := if days <? day then days else day in
  t <- DateToTicks year month day ;;
  DateTime_of_ticks (cast_u64 (t + v %c TicksPerDay)).

(** DateTimeValue.cpp 203-208 *)
Definition AddYears (v delta : Z) : outcome Z :=
  _ <- throw_if ((delta <? -10000) || (10000 <? delta)) ArgumentOutOfRangeException ;;
  m <- i32 (delta * 12) ;;
  AddMonths v m.

(** DateTimeValue.cpp 196-202 *)
Definition AddTicks (v delta : Z) : outcome Z :=
  let ticks := cast_i64 v in
  hi <- i64 (MaxTicks - ticks) ;;
  if hi <? delta then Exn ArgumentOutOfRangeException else
  lo <- i64 (MinTicks - ticks) ;;
  if delta <? lo then Exn ArgumentOutOfRangeException else
  s <- i64 (ticks + delta) ;;
  DateTime_of_ticks (cast_u64 s).

(** DateTimeValue.cpp 105-107 and 447-449: [Add(TimeSpan)], [op_Addition] *)
Definition Add_TimeSpan (v ts : Z) : outcome Z := AddTicks v ts.

(** DateTimeValue.cpp 209-217 *)
Definition Compare (v1 v2 : Z) : Z :=
  let t1 := cast_i64 v1 in let t2 := cast_i64 v2 in
  if t2 <? t1 then 1 else if t1 <? t2 then -1 else 0.

(** DateTimeValue.cpp 236-238, 450-467 *)
Definition op_Equality (v1 v2 : Z) : bool := v1 =? v2.
Definition op_Inequality (v1 v2 : Z) : bool := negb (v1 =? v2).
Definition op_GreaterThan (v1 v2 : Z) : bool := v2 <? v1.
Definition op_GreaterThanOrEqual (v1 v2 : Z) : bool := v2 <=? v1.
Definition op_LessThan (v1 v2 : Z) : bool := v1 <? v2.
Definition op_LessThanOrEqual (v1 v2 : Z) : bool := v1 <=? v2.

(** DateTimeValue.cpp 292-294 and 468-470: the difference is computed in UInt64 and stored in the
    Int64 field of TimeSpan. *)
Definition Subtract_DateTime (v1 v2 : Z) : Z := cast_i64 (cast_u64 (v1 - v2)).

(** DateTimeValue.cpp 295-302 and 471-473 *)
Definition Subtract_TimeSpan (v ts : Z) : outcome Z :=
  let ticks := cast_i64 v in
  a <- i64 (ticks - MinTicks) ;;
  if a <? ts then Exn ArgumentOutOfRangeException else
  b <- i64 (ticks - MaxTicks) ;;
  if ts <? b then Exn ArgumentOutOfRangeException else
  s <- i64 (ticks - ts) ;;
  DateTime_of_ticks (cast_u64 s).
