(** * C01-C08: the DateTime theorems.  Statements only; proofs are in DateTimeProofs.v. *)
From Verif Require Import Base DateTimeModel DateTimeSpec DateTimeProofs.

(** C01: building any valid date and reading it back. *)
Theorem C01_date_round_trip : forall y m d, valid_date y m d ->
  exists t, DateTime_of_parts y m d 0 0 0 0 = Ret t /\ 0 <= t <= last_tick /\
    t = day_number y m d * ticks_per_day /\
    get_Year t = Ret y /\ get_Month t = Ret m /\ get_Day t = Ret d /\
    get_DayOfYear t = Ret (day_number y m d - day_number y 1 1 + 1).
Proof. exact c01. Qed.
Print Assumptions C01_date_round_trip.
Example C01_nonvacuous : valid_date 2000 2 29 /\ valid_date 9999 12 31 /\ ~ valid_date 1900 2 29.
Proof. unfold valid_date. vm_compute. repeat split; try discriminate. intros (_ & _ & _ & H). apply H. reflexivity. Qed.

(** C02: every tick count decomposes losslessly. *)
Theorem C02_ticks_decompose : forall v, 0 <= v <= last_tick ->
  exists y m d doy,
    get_Year v = Ret y /\ get_Month v = Ret m /\ get_Day v = Ret d /\ get_DayOfYear v = Ret doy /\
    valid_date y m d /\ doy = day_number y m d - day_number y 1 1 + 1 /\
    valid_time (get_Hour v) (get_Minute v) (get_Second v) (get_Millisecond v) /\
    DateTime_of_parts y m d (get_Hour v) (get_Minute v) (get_Second v) (get_Millisecond v)
      = Ret (v - v mod ticks_per_ms) /\
    (exists date, get_Date v = Ret date /\ date = day_number y m d * ticks_per_day /\
       date + get_TimeOfDay v = v /\ 0 <= get_TimeOfDay v < ticks_per_day).
Proof. exact c02. Qed.
Print Assumptions C02_ticks_decompose.
Example C02_nonvacuous : 0 <= 630823257457000000 <= last_tick /\ get_Year 630823257457000000 = Ret 2000.
Proof. vm_compute. repeat split; discriminate. Qed.

(** C03 holds with two exceptions in the code: a negative hour silently drops the time part, and
    millisecond 1000 is accepted.  This is the property away from those two. *)
Theorem C03_invalid_rejected_partial : forall y m d h mi s ms, 0 <= h -> ms <> 1000 ->
  (valid_date y m d /\ valid_time h mi s ms /\
   DateTime_of_parts y m d h mi s ms = Ret (day_number y m d * ticks_per_day + time_ticks h mi s ms)) \/
  (~ (valid_date y m d /\ valid_time h mi s ms) /\
   DateTime_of_parts y m d h mi s ms = Exn ArgumentOutOfRangeException).
Proof. exact c03_partial. Qed.
Print Assumptions C03_invalid_rejected_partial.
Example C03_nonvacuous :
  (valid_date 2024 2 29 /\ valid_time 23 59 59 999) /\ ~ (valid_date 2023 2 29 /\ valid_time 23 59 59 999).
Proof. unfold valid_date, valid_time. vm_compute. repeat split; try discriminate.
  intros [(_ & _ & _ & H) _]. apply H. reflexivity. Qed.

(** C03 at full strength is false: both witnesses are accepted by the constructor. *)
Theorem C03_invalid_rejected_refuted :
  exists y m d h mi s ms t, ~ (valid_date y m d /\ valid_time h mi s ms) /\
    DateTime_of_parts y m d h mi s ms = Ret t /\ h < 0 /\ (mi > 59 /\ s > 59).
Proof. exists 2020, 1, 1, (-1), 99, 99, 5000, 637134336000000000. split.
  - unfold valid_time. lia.
  - split; [vm_compute; reflexivity|]. split; [reflexivity|split; reflexivity]. Qed.
Print Assumptions C03_invalid_rejected_refuted.
Theorem C03_ms1000_refuted :
  exists y m d h mi s t, ~ valid_time h mi s 1000 /\ DateTime_of_parts y m d h mi s 1000 = Ret t.
Proof. exists 2020, 1, 1, 0, 0, 0, 637134336010000000. split.
  - unfold valid_time. lia.
  - vm_compute; reflexivity. Qed.
Print Assumptions C03_ms1000_refuted.

(** C04: AddMonths and AddYears, complete description (result or exception) on every instant. *)
Theorem C04_AddMonths : forall v y m d months,
  0 <= v <= last_tick -> get_Year v = Ret y -> get_Month v = Ret m -> get_Day v = Ret d ->
  let y' := (y * 12 + (m - 1) + months) / 12 in
  let m' := (y * 12 + (m - 1) + months) mod 12 + 1 in
  AddMonths v months =
    if (-120000 <=? months) && (months <=? 120000) && (1 <=? y') && (y' <=? 9999)
    then Ret (day_number y' m' (Z.min d (month_length y' m')) * ticks_per_day + v mod ticks_per_day)
    else Exn ArgumentOutOfRangeException.
Proof. exact c04. Qed.
Print Assumptions C04_AddMonths.
Theorem C04_AddYears : forall v y m d delta,
  0 <= v <= last_tick -> get_Year v = Ret y -> get_Month v = Ret m -> get_Day v = Ret d ->
  AddYears v delta =
    if (-10000 <=? delta) && (delta <=? 10000) && (1 <=? y + delta) && (y + delta <=? 9999)
    then Ret (day_number (y + delta) m (Z.min d (month_length (y + delta) m)) * ticks_per_day + v mod ticks_per_day)
    else Exn ArgumentOutOfRangeException.
Proof. exact c04_years. Qed.
Print Assumptions C04_AddYears.
Example C04_nonvacuous : exists v, DateTime_of_parts 2024 3 31 12 0 0 0 = Ret v /\ 0 <= v <= last_tick /\
  get_Day v = Ret 31 /\ bind (AddMonths v (-1)) get_Day = Ret 29 /\ bind (AddMonths v (-13)) get_Year = Ret 2023.
Proof. exists 638474832000000000. vm_compute. repeat split; discriminate. Qed.

(** C05: every comparison operator agrees with the calendar order. *)
Theorem C05_order : forall v1 v2 y1 m1 d1 y2 m2 d2,
  0 <= v1 <= last_tick -> 0 <= v2 <= last_tick ->
  get_Year v1 = Ret y1 -> get_Month v1 = Ret m1 -> get_Day v1 = Ret d1 ->
  get_Year v2 = Ret y2 -> get_Month v2 = Ret m2 -> get_Day v2 = Ret d2 ->
  let before := date_lt y1 m1 d1 y2 m2 d2 \/
     ((y1, m1, d1) = (y2, m2, d2) /\ get_TimeOfDay v1 < get_TimeOfDay v2) in
  let same := (y1, m1, d1) = (y2, m2, d2) /\ get_TimeOfDay v1 = get_TimeOfDay v2 in
  (op_LessThan v1 v2 = true <-> before) /\
  (op_Equality v1 v2 = true <-> same) /\
  (op_Inequality v1 v2 = negb (op_Equality v1 v2)) /\
  (op_LessThanOrEqual v1 v2 = true <-> before \/ same) /\
  (op_GreaterThan v2 v1 = op_LessThan v1 v2) /\
  (op_GreaterThanOrEqual v2 v1 = op_LessThanOrEqual v1 v2) /\
  (Compare v1 v2 = -1 <-> before) /\ (Compare v1 v2 = 0 <-> same) /\
  Compare v2 v1 = - Compare v1 v2 /\ -1 <= Compare v1 v2 <= 1.
Proof. exact c05_order. Qed.
Print Assumptions C05_order.
Theorem C05_next_day : forall y m d y' m' d' t,
  valid_date y m d -> next_day y m d = (y', m', d') -> DateTime_of_parts y m d 0 0 0 0 = Ret t ->
  (y' <= 9999 -> valid_date y' m' d' /\ DateTime_of_parts y' m' d' 0 0 0 0 = Ret (t + ticks_per_day) /\
     get_DayOfWeek (t + ticks_per_day) = (get_DayOfWeek t + 1) mod 7).
Proof. exact c05_next. Qed.
Print Assumptions C05_next_day.
Theorem C05_day_of_week : forall v y m d, 0 <= v <= last_tick ->
  get_Year v = Ret y -> get_Month v = Ret m -> get_Day v = Ret d ->
  get_DayOfWeek v = (day_number y m d + 1) mod 7.
Proof. exact c05_dow. Qed.
Print Assumptions C05_day_of_week.
Example C05_nonvacuous : DateTime_of_parts 1 1 1 0 0 0 0 = Ret 0 /\ get_DayOfWeek 0 = 1 /\
  next_day 1999 12 31 = (2000, 1, 1) /\ bind (DateTime_of_parts 2024 7 4 0 0 0 0) (fun t => Ret (get_DayOfWeek t)) = Ret 4.
Proof. vm_compute. repeat split. Qed.

(** C06: leap years and month lengths. *)
Theorem C06_IsLeapYear : forall y,
  (1 <= y <= 9999 -> exists b, IsLeapYear y = Ret b /\ (b = true <-> leap y)) /\
  (~ 1 <= y <= 9999 -> IsLeapYear y = Exn ArgumentOutOfRangeException).
Proof. exact c06_leap. Qed.
Print Assumptions C06_IsLeapYear.
Theorem C06_DaysInMonth : forall y m,
  (1 <= y <= 9999 /\ 1 <= m <= 12 -> DaysInMonth y m = Ret (month_length y m)) /\
  (~ (1 <= y <= 9999 /\ 1 <= m <= 12) -> DaysInMonth y m = Exn ArgumentOutOfRangeException).
Proof. exact c06_days. Qed.
Print Assumptions C06_DaysInMonth.
Example C06_nonvacuous : IsLeapYear 2000 = Ret true /\ IsLeapYear 1900 = Ret false /\ DaysInMonth 1904 2 = Ret 29.
Proof. vm_compute. repeat split. Qed.

(** C07: arithmetic is exact or throws, and is invertible; no undefined behaviour. *)
Theorem C07_arithmetic : forall v1 v2 ts w, 0 <= v1 <= last_tick -> 0 <= v2 <= last_tick -> in_i64 ts = true ->
  (Add_TimeSpan v1 ts = Ret w -> w = v1 + ts /\ 0 <= w <= last_tick /\ Subtract_TimeSpan w ts = Ret v1) /\
  ((forall w, Add_TimeSpan v1 ts <> Ret w) <-> ~ 0 <= v1 + ts <= last_tick) /\
  (Subtract_TimeSpan v1 ts = Ret w -> w = v1 - ts /\ 0 <= w <= last_tick /\ Add_TimeSpan w ts = Ret v1) /\
  ((forall w, Subtract_TimeSpan v1 ts <> Ret w) <-> ~ 0 <= v1 - ts <= last_tick) /\
  (forall u, Add_TimeSpan v1 ts <> UB u /\ Subtract_TimeSpan v1 ts <> UB u) /\
  Subtract_DateTime v1 v2 = v1 - v2 /\ Add_TimeSpan v2 (Subtract_DateTime v1 v2) = Ret v1.
Proof. exact c07. Qed.
Print Assumptions C07_arithmetic.
Example C07_nonvacuous : 0 <= 5 <= last_tick /\ in_i64 (-9223372036854775808) = true /\
  Add_TimeSpan 5 (-3) = Ret 2 /\ Add_TimeSpan 5 (-9223372036854775808) = Exn ArgumentOutOfRangeException.
Proof. vm_compute. repeat split; discriminate. Qed.

(** C08: exactly one component tuple escapes the range, by one tick. *)
Theorem C08_in_range_partial : forall y m d h mi s ms t,
  DateTime_of_parts y m d h mi s ms = Ret t ->
  0 <= t <= last_tick + 1 /\ (t = last_tick + 1 -> (y, m, d, h, mi, s, ms) = (9999, 12, 31, 23, 59, 59, 1000)).
Proof. exact c08_partial. Qed.
Print Assumptions C08_in_range_partial.
Theorem C08_in_range_refuted :
  exists y m d h mi s ms t, DateTime_of_parts y m d h mi s ms = Ret t /\ t > last_tick /\ get_Year t = Ret 10000.
Proof. exists 9999, 12, 31, 23, 59, 59, 1000, 3155378976000000000. vm_compute. repeat split. Qed.
Print Assumptions C08_in_range_refuted.

(** The tick constructor accepts exactly the ticks of the calendar. *)
Theorem C08_from_ticks : forall ticks, DateTime_of_ticks ticks = if (0 <=? ticks) && (ticks <=? last_tick) then Ret ticks else Exn ArgumentOutOfRangeException.
Proof.
  intros ticks. unfold DateTime_of_ticks. rewrite last_tick_val. dt_consts. unfold throw_if.
  replace ((0 <=? ticks) && (ticks <=? 3155378975999999999)) with (negb ((ticks <? 0) || (3155378975999999999 <? ticks))) by lia.
  destruct ((ticks <? 0) || (3155378975999999999 <? ticks)); reflexivity.
Qed.
Print Assumptions C08_from_ticks.
(** A DateTime made by any history of calls (constructors and arithmetic) is in range, if no component constructor was given
    1000 milliseconds (see C08_in_range_refuted). *)
Inductive made : Z -> Prop :=
  | made_ticks t v : DateTime_of_ticks t = Ret v -> made v
  | made_parts y m d h mi s ms v : ms <> 1000 -> DateTime_of_parts y m d h mi s ms = Ret v -> made v
  | made_months v n w : made v -> AddMonths v n = Ret w -> made w
  | made_years v n w : made v -> AddYears v n = Ret w -> made w
  | made_add v ts w : made v -> Add_TimeSpan v ts = Ret w -> made w
  | made_subtract v ts w : made v -> Subtract_TimeSpan v ts = Ret w -> made w
  | made_date v w : made v -> get_Date v = Ret w -> made w.
Theorem C08_history_partial : forall v, made v -> 0 <= v <= last_tick.
Proof.
  assert (T : forall t v, DateTime_of_ticks t = Ret v -> 0 <= v <= last_tick).
  { intros t v. rewrite C08_from_ticks. destruct ((0 <=? t) && (t <=? last_tick)) eqn:E; [|discriminate]. intros H. injection H as <-. apply andb_true_iff in E. destruct E as [E1 E2]. apply Z.leb_le in E1, E2. auto. }
  assert (B : forall A (o : outcome A) (f : A -> outcome Z) v, (x <- o ;; f x) = Ret v -> exists x, f x = Ret v) by (intros A o f v; destruct o; cbn; try discriminate; eauto).
  intros v H. induction H as [t v H|y m d h mi s ms v N H|v n w _ _ H|v n w _ _ H|v ts w _ _ H|v ts w _ _ H|v w _ _ H].
  - eapply T, H.
  - destruct (C08_in_range_partial _ _ _ _ _ _ _ _ H) as [R L]. destruct (Z.eq_dec v (last_tick + 1)) as [E|E]; [|lia]. exfalso. specialize (L E). congruence.
  - unfold AddMonths in H. repeat (match type of H with bind _ _ = _ => apply B in H; destruct H as [? H] | (let (_, _) := ?p in _) = _ => destruct p end); try (eapply T; exact H).
  - unfold AddYears in H. repeat (apply B in H; destruct H as [? H]). unfold AddMonths in H. repeat (match type of H with bind _ _ = _ => apply B in H; destruct H as [? H] | (let (_, _) := ?p in _) = _ => destruct p end); try (eapply T; exact H).
  - unfold Add_TimeSpan, AddTicks in H. repeat (match type of H with bind _ _ = _ => apply B in H; destruct H as [? H] | (if ?c then _ else _) = _ => destruct c; [discriminate|] end). eapply T; exact H.
  - unfold Subtract_TimeSpan in H. repeat (match type of H with bind _ _ = _ => apply B in H; destruct H as [? H] | (if ?c then _ else _) = _ => destruct c; [discriminate|] end). eapply T; exact H.
  - eapply T, H.
Qed.
Print Assumptions C08_history_partial.
Example C08_history_example : exists v, made v /\ get_Month v = Ret 2 /\ get_Day v = Ret 29.
Proof.
  exists 638447687450060000. assert (P : made 638422631450060000) by (eapply (made_parts 2024 1 31 1 59 5 6); [discriminate|vm_compute; reflexivity]). split; [|split; vm_compute; reflexivity].
  eapply (made_months _ 1); [exact P|vm_compute; reflexivity].
Qed.
