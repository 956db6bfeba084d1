(** * Model of DateTimeValue.cpp 266-291 (text) and 303-357, 366-369 (clock and time zone, the POSIX branches) *)
From Verif Require Import Base DateTimeModel IntModel TimeSpanModel.

(** DateTimeValue.cpp 266-291.  At most 2+1+2+1+4+1+2+1+2+1+2+1+2 = 22 characters, so the local StringBuilder (128 characters) does not grow and the
    buffer suffices; [whereSize] is 128 (Object.cpp 38-43). *)
Definition DT_FormatString (v : Z) : outcome str :=
  month <- get_Month v ;;
  day <- get_Day v ;;
  year <- get_Year v ;;
  let hour := get_Hour v in
  let minute := get_Minute v in
  let second := get_Second v in
  let isPm := 12 <? hour in
  let hour := if 12 <? hour then hour - 12 else hour in
  Ret (print_d month ++ [47] ++ print_d day ++ [47] ++ print_d year ++ [32] ++ print_d hour ++ [58] ++ print_02d minute ++ [58] ++ print_02d second ++ [32]
       ++ (if isPm then [80; 77] else [65; 77])).

(** The fields of struct tm the library reads (C standard library, external): year since 1900, month since January. *)
Record tm := mk_tm { tm_year : Z; tm_mon : Z; tm_mday : Z; tm_hour : Z; tm_min : Z; tm_sec : Z }.

(** DateTimeValue.cpp 307-320: [utc] and [local] are what gmtime and localtime answer for the current time *)
Definition GetTimeZone (utc local : tm) : outcome Z :=
  h <- i32 (tm_hour local - tm_hour utc) ;;
  TS_of_hms h 0 0.
(** 322-326 (and 303-305); the result is converted from UInt64 once more *)
Definition ToLocalTime (utc local : tm) (v : Z) : outcome Z :=
  ts <- GetTimeZone utc local ;;
  rtn <- Add_TimeSpan v ts ;;
  DateTime_of_ticks rtn.
(** 327-331 *)
Definition ToUniversalTime (utc local : tm) (v : Z) : outcome Z :=
  ts <- GetTimeZone utc local ;;
  rtn <- Subtract_TimeSpan v ts ;;
  DateTime_of_ticks rtn.
(** 349-356: [local]: localtime_r of the clock, [nsec]: its nanoseconds *)
Definition get_Now (local : tm) (nsec : Z) : outcome Z :=
  y <- i32 (tm_year local + 1900) ;;
  m <- i32 (tm_mon local + 1) ;;
  rtn <- DateTime_of_parts y m (tm_mday local) (tm_hour local) (tm_min local) (tm_sec local) (cast_i32 (nsec /c 1000000)) ;;
  DateTime_of_ticks rtn.
(** 366-369 *)
Definition get_Today (local : tm) (nsec : Z) : outcome Z := n <- get_Now local nsec ;; get_Date n.
