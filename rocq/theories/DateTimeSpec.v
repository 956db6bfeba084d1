(** * Independent specification of the proleptic Gregorian calendar

    Written without reference to the model: leap rule, month lengths, validity, the order on
    dates, and "the next day".  Instants are counted in 100ns ticks from 0001-01-01T00:00. *)
From Coq Require Import ZArith List Bool.
Open Scope Z_scope.

Definition leap (y : Z) : Prop := y mod 4 = 0 /\ (y mod 100 <> 0 \/ y mod 400 = 0).

Definition leapb (y : Z) : bool :=
  (y mod 4 =? 0) && (negb (y mod 100 =? 0) || (y mod 400 =? 0)).

Definition month_length (y m : Z) : Z :=
  if m =? 2 then (if leapb y then 29 else 28)
  else if (m =? 4) || (m =? 6) || (m =? 9) || (m =? 11) then 30
  else 31.

Definition year_length (y : Z) : Z := if leapb y then 366 else 365.

Definition valid_date (y m d : Z) : Prop :=
  1 <= y <= 9999 /\ 1 <= m <= 12 /\ 1 <= d <= month_length y m.

Definition valid_time (h mi s ms : Z) : Prop :=
  0 <= h <= 23 /\ 0 <= mi <= 59 /\ 0 <= s <= 59 /\ 0 <= ms <= 999.

(** The calendar day after [y]-[m]-[d]. *)
Definition next_day (y m d : Z) : Z * Z * Z :=
  if d <? month_length y m then (y, m, d + 1)
  else if m <? 12 then (y, m + 1, 1)
  else (y + 1, 1, 1).

(** Days in the years 1 .. y (y given as a nat), by adding up the years one at a time. *)
Fixpoint days_in_years (y : nat) : Z :=
  match y with
  | O => 0
  | S p => days_in_years p + year_length (Z.of_nat (S p))
  end.

(** Days in the months 1 .. m of year [y]. *)
Fixpoint days_in_months (y : Z) (m : nat) : Z :=
  match m with
  | O => 0
  | S p => days_in_months y p + month_length y (Z.of_nat (S p))
  end.

(** Number of days before date [y]-[m]-[d], counted from 0001-01-01. *)
Definition day_number (y m d : Z) : Z :=
  days_in_years (Z.to_nat (y - 1)) + days_in_months y (Z.to_nat (m - 1)) + (d - 1).

(** Lexicographic order on dates. *)
Definition date_lt (y m d y' m' d' : Z) : Prop :=
  y < y' \/ (y = y' /\ (m < m' \/ (m = m' /\ d < d'))).

Definition ticks_per_ms : Z := 10000.
Definition ticks_per_day : Z := 864000000000.
(** Ticks of the time of day [h]:[mi]:[s].[ms]. *)
Definition time_ticks (h mi s ms : Z) : Z := (((h * 60 + mi) * 60 + s) * 1000 + ms) * ticks_per_ms.
(** Last instant: the end of 9999-12-31, day number 3652058 (DateTimeProofs.day_number_last shows
    that this is what [day_number] gives). *)
Definition last_tick : Z := 3652059 * ticks_per_day - 1.
