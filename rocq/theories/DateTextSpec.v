(** * Specification for C105 and C106 *)
From Verif Require Import Base DateTimeSpec DateTextModel.

(** ** Text: the general format "M/d/yyyy h:mm:ss tt" *)
Definition two (n : Z) : list Z := [48 + n / 10; 48 + n mod 10].
Definition four (n : Z) : list Z := [48 + n / 1000; 48 + n / 100 mod 10; 48 + n / 10 mod 10; 48 + n mod 10].
(** one or two digits *)
Definition short (n : Z) : list Z := if n <? 10 then [48 + n] else two n.
(** the hour on a twelve hour clock: 12, 1, 2 ... 11 *)
Definition twelve (h : Z) : Z := if h mod 12 =? 0 then 12 else h mod 12.
Definition am : list Z := [65; 77].
Definition pm : list Z := [80; 77].
Definition net_text (y m d h mi s : Z) : list Z :=
  short m ++ [47] ++ short d ++ [47] ++ four y ++ [32] ++ short (twelve h) ++ [58] ++ two mi ++ [58] ++ two s ++ [32] ++ (if h <? 12 then am else pm).
(** [v] lies within second [s] of minute [mi] of hour [h] of day [d] of month [m] of year [y] *)
Definition within (v y m d h mi s : Z) : Prop :=
  valid_date y m d /\ valid_time h mi s 0 /\
  day_number y m d * ticks_per_day + time_ticks h mi s 0 <= v < day_number y m d * ticks_per_day + time_ticks h mi s 0 + 10000000.

(** ** Clock and time zone.  Times are counted in seconds from the beginning of the calendar; leap seconds do not exist (POSIX). *)
(** what a broken-down time denotes *)
Definition denotes (t : tm) (seconds : Z) : Prop :=
  valid_date (tm_year t + 1900) (tm_mon t + 1) (tm_mday t) /\ valid_time (tm_hour t) (tm_min t) (tm_sec t) 0 /\
  seconds = day_number (tm_year t + 1900) (tm_mon t + 1) (tm_mday t) * 86400 + tm_hour t * 3600 + tm_min t * 60 + tm_sec t.
