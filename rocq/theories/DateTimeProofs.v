(** * Proofs about the DateTime model *)
From Verif Require Import Tac DateTimeModel DateTimeSpec.

Ltac dt_consts :=
  change TicksPerDay with 864000000000 in *; change TicksPerHour with 36000000000 in *;
  change TicksPerMinute with 600000000 in *; change TicksPerSecond with 10000000 in *;
  change TicksPerMillisecond with 10000 in *; change DaysPer400Years with 146097 in *;
  change DaysPer100Years with 36524 in *; change DaysPer4Years with 1461 in *;
  change DaysPerYear with 365 in *; change MaxTicks with 3155378975999999999 in *;
  change MinTicks with 0 in *; change MaxSeconds with 922337203685 in *;
  change MinSeconds with (-922337203685) in *; unfold ticks_per_ms, ticks_per_day in *.

Lemma last_tick_val : last_tick = 3155378975999999999.
Proof. reflexivity. Qed.

Lemma leapb_spec y : leapb y = true <-> leap y.
Proof. unfold leapb, leap. lia. Qed.

Lemma free_leap y : 1 <= y -> IsLeapYear_free y = leapb y.
Proof. intros H. unfold IsLeapYear_free, leapb. lia. Qed.

Lemma days_in_years_closed n :
  days_in_years n = Z.of_nat n * 365 + Z.of_nat n / 4 - Z.of_nat n / 100 + Z.of_nat n / 400.
Proof.
  induction n as [|n IH]; [reflexivity|].
  cbn [days_in_years]. rewrite IH. clear IH. unfold year_length, leapb.
  replace (Z.of_nat (S n)) with (Z.of_nat n + 1) by lia.
  generalize (Z.of_nat n) (Zle_0_nat n). intros z Hz.
  destruct ((z + 1) mod 4 =? 0) eqn:E4; destruct ((z + 1) mod 100 =? 0) eqn:E100;
    destruct ((z + 1) mod 400 =? 0) eqn:E400; cbn [andb orb negb]; lia.
Qed.

Definition days_table (y : Z) : list Z := if leapb y then daysToMonth366 else daysToMonth365.

Lemma months_cases m : 1 <= m <= 12 ->
  m = 1 \/ m = 2 \/ m = 3 \/ m = 4 \/ m = 5 \/ m = 6 \/ m = 7 \/ m = 8 \/ m = 9 \/ m = 10 \/ m = 11 \/ m = 12.
Proof. lia. Qed.

Lemma table_nth y k : (k <= 12)%nat -> nth_error (days_table y) k = Some (days_in_months y k).
Proof.
  intros H. unfold days_table.
  do 13 (destruct k as [|k];
    [cbv [days_in_months month_length Z.of_nat Pos.of_succ_nat Pos.succ Z.eqb Pos.eqb orb];
     destruct (leapb y); reflexivity |]).
  lia.
Qed.

Lemma table_read y m : 1 <= m <= 12 ->
  read (days_table y) m = Ret (days_in_months y (Z.to_nat m)) /\
  read (days_table y) (m - 1) = Ret (days_in_months y (Z.to_nat (m - 1))).
Proof.
  intros H. unfold read. replace (m <? 0) with false by lia. replace (m - 1 <? 0) with false by lia.
  rewrite !table_nth by lia. split; reflexivity.
Qed.

Lemma table_diff y m : 1 <= m <= 12 ->
  days_in_months y (Z.to_nat m) - days_in_months y (Z.to_nat (m - 1)) = month_length y m.
Proof.
  intros H. replace (Z.to_nat m) with (S (Z.to_nat (m - 1))) by lia.
  cbn [days_in_months]. replace (Z.of_nat (S (Z.to_nat (m - 1)))) with m by lia. lia.
Qed.

Lemma month_length_bounds y m : 28 <= month_length y m <= 31.
Proof. unfold month_length. destruct (m =? 2), (leapb y), ((m =? 4) || (m =? 6) || (m =? 9) || (m =? 11)); lia. Qed.

Lemma days_in_months_bounds y m : 0 <= m <= 12 -> 0 <= days_in_months y (Z.to_nat m) <= 31 * m.
Proof.
  intros H.
  assert (K : forall k, 0 <= days_in_months y k <= 31 * Z.of_nat k).
  { induction k as [|k IH]; cbn [days_in_months]; [lia|].
    pose proof (month_length_bounds y (Z.of_nat (S k))). lia. }
  specialize (K (Z.to_nat m)). lia.
Qed.

Lemma days_in_months_12 y : days_in_months y 12 = year_length y.
Proof.
  unfold year_length. cbn [days_in_months Z.of_nat Pos.of_succ_nat Pos.succ]. unfold month_length.
  cbn [Z.eqb Pos.eqb orb]. destruct (leapb y); reflexivity.
Qed.

Lemma days_in_months_mono y a b : (a <= b)%nat -> days_in_months y a <= days_in_months y b.
Proof.
  induction 1 as [|b Hb IH]; [lia|]. cbn [days_in_months].
  pose proof (month_length_bounds y (Z.of_nat (S b))). lia.
Qed.

Lemma day_number_closed y m d : 1 <= y ->
  day_number y m d =
  (y - 1) * 365 + (y - 1) / 4 - (y - 1) / 100 + (y - 1) / 400 + days_in_months y (Z.to_nat (m - 1)) + d - 1.
Proof.
  intros H. unfold day_number. rewrite days_in_years_closed. rewrite Z2Nat.id by lia. lia.
Qed.

Lemma day_number_bounds y m d : valid_date y m d -> 0 <= day_number y m d <= 3652058.
Proof.
  intros (Hy & Hm & Hd). rewrite day_number_closed by lia.
  assert (B : 0 <= days_in_months y (Z.to_nat (m - 1)) + month_length y m <= year_length y).
  { rewrite <- days_in_months_12, <- table_diff by lia.
    pose proof (days_in_months_mono y (Z.to_nat m) 12 ltac:(lia)).
    pose proof (days_in_months_bounds y m ltac:(lia)).
    lia. }
  pose proof (days_in_months_bounds y (m - 1) ltac:(lia)).
  unfold year_length in B. destruct (leapb y) eqn:E; unfold leapb in E; lia.
Qed.

Lemma DateToTicks_valid y m d : valid_date y m d ->
  DateToTicks y m d = Ret (day_number y m d * ticks_per_day).
Proof.
  intros Hv. pose proof (day_number_bounds y m d Hv) as HB. destruct Hv as (Hy & Hm & Hd).
  unfold DateToTicks. rewrite throw_if_false by lia. rewrite bind_ret.
  unfold GetDaysArray. rewrite free_leap by lia. fold (days_table y).
  destruct (table_read y m Hm) as [R1 R2]. rewrite R1, R2. rewrite !bind_ret.
  rewrite throw_if_false by (rewrite table_diff by lia; lia). rewrite bind_ret.
  cbv zeta.
  replace ((y - 1) * 365 + (y - 1) /c 4 - (y - 1) /c 100 + (y - 1) /c 400 + days_in_months y (Z.to_nat (m - 1)) + d - 1)
    with (day_number y m d) by (rewrite day_number_closed by lia; lia).
  rewrite i32_ret by lia. rewrite bind_ret. rewrite i64_ret by (dt_consts; lia).
  reflexivity.
Qed.

Lemma DateToTicks_invalid y m d : ~ valid_date y m d -> DateToTicks y m d = Exn ArgumentOutOfRangeException.
Proof.
  intros Hv. unfold DateToTicks.
  destruct ((y <? 1) || (9999 <? y) || (m <? 1) || (12 <? m) || (d <? 1)) eqn:G; [reflexivity|].
  cbn [throw_if bind]. unfold GetDaysArray. rewrite free_leap by lia. fold (days_table y).
  destruct (table_read y m ltac:(lia)) as [R1 R2]. rewrite R1, R2. cbn [bind].
  rewrite throw_if_true; [reflexivity|]. rewrite table_diff by lia.
  unfold valid_date in Hv. lia.
Qed.

(** ** Day number -> date cascade *)

Lemma month_sweep : forall (lp : bool) n, 0 <= n < 365 + (if lp then 1 else 0) ->
  exists m dm1, month_loop 14 (if lp then daysToMonth366 else daysToMonth365) n (Z.shiftr n 5 + 1) = Ret m /\
    read (if lp then daysToMonth366 else daysToMonth365) (m - 1) = Ret dm1 /\
    1 <= m <= 12 /\ dm1 <= n /\
    forall dm, read (if lp then daysToMonth366 else daysToMonth365) m = Ret dm -> n < dm.
Proof.
  set (tab := fun lp : bool => if lp then daysToMonth366 else daysToMonth365).
  set (p := fun (lp : bool) n =>
    match month_loop 14 (tab lp) n (Z.shiftr n 5 + 1) with
    | Ret m => match read (tab lp) (m - 1) with
               | Ret dm1 => (1 <=? m) && (m <=? 12) && (dm1 <=? n) &&
                            match read (tab lp) m with Ret dm => n <? dm | _ => true end
               | _ => false end
    | _ => false end).
  assert (Q : forall lp : bool, sweep (365 + (if lp then 1 else 0)) (p lp) = true).
  { intros [|]; vm_compute; reflexivity. }
  intros lp n Hn. specialize (Q lp).
  assert (E : p lp n = true) by (apply (sweep_spec _ _ Q); destruct lp; cbn; lia).
  unfold p in E. change (tab lp) with (if lp then daysToMonth366 else daysToMonth365) in E.
  destruct (month_loop _ _ _ _) as [m| |]; try discriminate.
  destruct (read _ (m - 1)) as [dm1| |] eqn:R1; try discriminate.
  exists m, dm1. split; [reflexivity|]. split; [exact R1|].
  apply andb_true_iff in E. destruct E as [E E2].
  split; [lia|]. split; [lia|]. intros dm Hdm. rewrite Hdm in E2. lia.
Qed.

(** The year computed by the cascade from a day number. *)
Record civil (n y m d doy : Z) : Prop := mk_civil {
  cv_y : 1 <= y; cv_m : 1 <= m <= 12; cv_d : 1 <= d <= month_length y m;
  cv_n : day_number y m d = n; cv_doy : doy = days_in_months y (Z.to_nat (m - 1)) + d }.

Lemma cascade_year n (Hn : 0 <= n) :
  forall y400 r400 y100 r100 y4 r4 y1 r1,
  y400 = n /c 146097 -> r400 = n - y400 * 146097 ->
  y100 = (if r400 /c 36524 =? 4 then 3 else r400 /c 36524) -> r100 = r400 - y100 * 36524 ->
  y4 = r100 /c 1461 -> r4 = r100 - y4 * 1461 ->
  y1 = (if r4 /c 365 =? 4 then 3 else r4 /c 365) -> r1 = r4 - y1 * 365 ->
  let y := y400 * 400 + y100 * 100 + y4 * 4 + y1 + 1 in
  1 <= y /\ (y1 =? 3) && (negb (y4 =? 24) || (y100 =? 3)) = leapb y /\
  0 <= r1 < year_length y /\
  (y - 1) * 365 + (y - 1) / 4 - (y - 1) / 100 + (y - 1) / 400 + r1 = n.
Proof.
  intros y400 r400 y100 r100 y4 r4 y1 r1 E400 R400 E100 R100 E4 R4 E1 R1 y.
  assert (A : 0 <= y400 /\ 0 <= r400 < 146097) by lia. clear E400.
  assert (B : 0 <= y100 <= 3 /\ 0 <= r100 /\ (y100 < 3 -> r100 < 36524) /\ r100 <= 36524).
  { destruct (r400 /c 36524 =? 4) eqn:E; lia. } clear E100.
  assert (C : 0 <= y4 <= 24 /\ 0 <= r4 < 1461 /\ (y4 = 24 -> y100 < 3 -> r4 < 1460)) by lia. clear E4.
  assert (D : 0 <= y1 <= 3 /\ 0 <= r1 <= 365 /\ (r1 = 365 -> y1 = 3 /\ r4 = 1460)).
  { destruct (r4 /c 365 =? 4) eqn:E; lia. } clear E1.
  assert (Y1 : (y - 1) / 4 = y400 * 100 + y100 * 25 + y4) by (unfold y; lia).
  assert (Y2 : (y - 1) / 100 = y400 * 4 + y100) by (unfold y; lia).
  assert (Y3 : (y - 1) / 400 = y400) by (unfold y; lia).
  assert (L : (y1 =? 3) && (negb (y4 =? 24) || (y100 =? 3)) = leapb y).
  { assert (M4 : (y mod 4 =? 0) = (y1 =? 3)) by (unfold y; lia).
    unfold leapb. rewrite M4. destruct (y1 =? 3) eqn:E3; [|reflexivity]. cbn [andb].
    assert (M100 : (y mod 100 =? 0) = (y4 =? 24)) by (unfold y; lia).
    rewrite M100. destruct (y4 =? 24) eqn:E24; [|reflexivity]. cbn [negb orb]. unfold y; lia. }
  split; [unfold y; lia|]. split; [exact L|]. split.
  - unfold year_length. rewrite <- L. destruct (y1 =? 3) eqn:Q1, (y4 =? 24) eqn:Q4, (y100 =? 3) eqn:Q100; cbn; lia.
  - rewrite Y1, Y2, Y3. unfold y. lia.
Qed.

Lemma civil_intro n y r1 m dm1 : 1 <= y ->
  (y - 1) * 365 + (y - 1) / 4 - (y - 1) / 100 + (y - 1) / 400 + r1 = n ->
  1 <= m <= 12 -> read (days_table y) (m - 1) = Ret dm1 -> dm1 <= r1 ->
  (forall dm, read (days_table y) m = Ret dm -> r1 < dm) ->
  civil n y m (r1 - dm1 + 1) (r1 + 1).
Proof.
  intros Hy Hn Hm R1 Hlo Hhi. destruct (table_read y m Hm) as [T1 T2].
  rewrite T2 in R1. injection R1 as <-. specialize (Hhi _ T1).
  pose proof (table_diff y m Hm).
  constructor; try assumption; try lia.
  rewrite day_number_closed by lia. lia.
Qed.

Definition two64 : Z := 18446744073709551616.

(** What the four date parts are, for every UInt64 tick count. *)
Lemma date_parts v : 0 <= v < two64 ->
  exists y m d doy, civil (v / ticks_per_day) y m d doy /\
    get_Year v = Ret y /\ get_Month v = Ret m /\ get_Day v = Ret d /\ get_DayOfYear v = Ret doy.
Proof.
  intros Hv. unfold two64 in Hv.
  assert (Hq : 0 <= v / 864000000000 <= 21350398) by lia.
  assert (Hc : cast_i32 (v /c 864000000000) = v / 864000000000).
  { replace (v /c 864000000000) with (v / 864000000000) by lia. apply cast_i32_id. lia. }
  unfold get_Year, get_Month, get_Day, get_DayOfYear, GetDatePart.
  dt_consts. rewrite Hc. cbv zeta.
  set (n := v / 864000000000) in *. clearbody n. clear Hc Hv v.
  remember (n /c 146097) as y400 eqn:E400.
  remember (n - y400 * 146097) as r400 eqn:R400.
  remember (if r400 /c 36524 =? 4 then 3 else r400 /c 36524) as y100 eqn:E100.
  remember (r400 - y100 * 36524) as r100 eqn:R100.
  remember (r100 /c 1461) as y4 eqn:E4.
  remember (r100 - y4 * 1461) as r4 eqn:R4.
  remember (if r4 /c 365 =? 4 then 3 else r4 /c 365) as y1 eqn:E1.
  remember (r4 - y1 * 365) as r1 eqn:R1.
  destruct (cascade_year n ltac:(lia) _ _ _ _ _ _ _ _ E400 R400 E100 R100 E4 R4 E1 R1) as (Hy & HL & Hr & HN).
  rewrite HL.
  remember (y400 * 400 + y100 * 100 + y4 * 4 + y1 + 1) as y eqn:Ey.
  destruct (month_sweep (leapb y) r1) as (m & dm1 & HM & HR & Hm & Hlo & Hhi).
  { unfold year_length in Hr. destruct (leapb y); lia. }
  rewrite HM. cbn [bind]. rewrite HR. cbn [bind].
  exists y, m, (r1 - dm1 + 1), (r1 + 1).
  split; [|repeat split; reflexivity].
  apply civil_intro; assumption.
Qed.

(** The second copy of the cascade agrees. *)
Lemma date_parts3 v : 0 <= v <= MaxTicks ->
  exists y m d doy, civil (v / ticks_per_day) y m d doy /\ GetDatePart3 v = Ret (y, m, d).
Proof.
  intros Hv. unfold GetDatePart3. dt_consts. rewrite cast_i64_id by lia.
  assert (Hq : 0 <= v / 864000000000 <= 3652059) by lia.
  assert (Hc : cast_i32 (v /c 864000000000) = v / 864000000000).
  { replace (v /c 864000000000) with (v / 864000000000) by lia. apply cast_i32_id. lia. }
  rewrite Hc. cbv zeta.
  set (n := v / 864000000000) in *. clearbody n. clear Hc Hv v.
  remember (n /c 146097) as y400 eqn:E400.
  remember (n - y400 * 146097) as r400 eqn:R400.
  remember (if r400 /c 36524 =? 4 then 3 else r400 /c 36524) as y100 eqn:E100.
  remember (r400 - y100 * 36524) as r100 eqn:R100.
  remember (r100 /c 1461) as y4 eqn:E4.
  remember (r100 - y4 * 1461) as r4 eqn:R4.
  remember (if r4 /c 365 =? 4 then 3 else r4 /c 365) as y1 eqn:E1.
  remember (r4 - y1 * 365) as r1 eqn:R1.
  destruct (cascade_year n ltac:(lia) _ _ _ _ _ _ _ _ E400 R400 E100 R100 E4 R4 E1 R1) as (Hy & HL & Hr & HN).
  rewrite HL.
  remember (y400 * 400 + y100 * 100 + y4 * 4 + y1 + 1) as y eqn:Ey.
  destruct (month_sweep (leapb y) r1) as (m & dm1 & HM & HR & Hm & Hlo & Hhi).
  { unfold year_length in Hr. destruct (leapb y); lia. }
  rewrite HM. cbn [bind]. rewrite HR. cbn [bind].
  exists y, m, (r1 - dm1 + 1), (r1 + 1).
  split; [|reflexivity].
  apply civil_intro; assumption.
Qed.

(** ** Day numbers order dates *)
Lemma month_part_bound y m d : 1 <= m <= 12 -> 1 <= d <= month_length y m ->
  0 <= days_in_months y (Z.to_nat (m - 1)) + d - 1 < year_length y.
Proof.
  intros Hm Hd. pose proof (table_diff y m Hm).
  pose proof (days_in_months_bounds y (m - 1) ltac:(lia)).
  pose proof (days_in_months_mono y (Z.to_nat m) 12 ltac:(lia)).
  rewrite days_in_months_12 in *. lia.
Qed.

Lemma day_number_lt y m d y' m' d' :
  1 <= y -> 1 <= m <= 12 -> 1 <= d <= month_length y m ->
  1 <= y' -> 1 <= m' <= 12 -> 1 <= d' <= month_length y' m' ->
  date_lt y m d y' m' d' -> day_number y m d < day_number y' m' d'.
Proof.
  intros Hy Hm Hd Hy' Hm' Hd' [L|[-> [L|[-> L]]]].
  - unfold day_number.
    pose proof (month_part_bound y m d Hm Hd). pose proof (month_part_bound y' m' d' Hm' Hd').
    assert (S1 : days_in_years (Z.to_nat (y - 1)) + year_length y = days_in_years (Z.to_nat y)).
    { replace (Z.to_nat y) with (S (Z.to_nat (y - 1))) by lia. cbn [days_in_years].
      replace (Z.of_nat (S (Z.to_nat (y - 1)))) with y by lia. reflexivity. }
    assert (S2 : days_in_years (Z.to_nat y) <= days_in_years (Z.to_nat (y' - 1))).
    { rewrite !days_in_years_closed. rewrite !Z2Nat.id by lia. lia. }
    lia.
  - unfold day_number. pose proof (table_diff y' m Hm).
    pose proof (days_in_months_mono y' (Z.to_nat m) (Z.to_nat (m' - 1)) ltac:(lia)). lia.
  - unfold day_number. lia.
Qed.

Lemma date_trichotomy y m d y' m' d' :
  date_lt y m d y' m' d' \/ (y = y' /\ m = m' /\ d = d') \/ date_lt y' m' d' y m d.
Proof. unfold date_lt. lia. Qed.

Lemma day_number_inj y m d y' m' d' :
  1 <= y -> 1 <= m <= 12 -> 1 <= d <= month_length y m ->
  1 <= y' -> 1 <= m' <= 12 -> 1 <= d' <= month_length y' m' ->
  day_number y m d = day_number y' m' d' -> y = y' /\ m = m' /\ d = d'.
Proof.
  intros Hy Hm Hd Hy' Hm' Hd' E.
  destruct (date_trichotomy y m d y' m' d') as [L|[L|L]]; [|exact L|];
    apply day_number_lt in L; auto; lia.
Qed.

Lemma day_number_last : day_number 9999 12 31 = 3652058.
Proof. rewrite day_number_closed by lia. reflexivity. Qed.

Lemma last_tick_meaning : last_tick = (day_number 9999 12 31 + 1) * ticks_per_day - 1.
Proof. rewrite day_number_last. reflexivity. Qed.

(** A date in the first 3652059 days has year at most 9999. *)
Lemma civil_year_max n y m d doy : civil n y m d doy -> n <= 3652058 -> y <= 9999.
Proof.
  intros [Hy Hm Hd Hn _] Hle. destruct (Z_le_gt_dec y 9999) as [|G]; [assumption|exfalso].
  assert (L : day_number 9999 12 31 < day_number y m d).
  { apply day_number_lt; try lia; [|left; lia]. change (month_length 9999 12) with 31. lia. }
  rewrite day_number_last in L. lia.
Qed.

(** ** C01 *)
Lemma of_parts_valid y m d h mi s ms : valid_date y m d -> valid_time h mi s ms ->
  DateTime_of_parts y m d h mi s ms = Ret (day_number y m d * ticks_per_day + time_ticks h mi s ms).
Proof.
  intros Hd (Hh & Hmi & Hs & Hms). pose proof (day_number_bounds _ _ _ Hd) as HB.
  unfold DateTime_of_parts. rewrite DateToTicks_valid by exact Hd. rewrite bind_ret. cbv zeta.
  replace (0 <=? h) with true by lia.
  unfold TimeToTicks. rewrite throw_if_false by lia. rewrite bind_ret.
  unfold TimePartsToTicks. rewrite i64_ret by lia. rewrite bind_ret.
  rewrite throw_if_false by (dt_consts; lia). rewrite bind_ret.
  rewrite throw_if_false by lia. rewrite bind_ret.
  rewrite i64_ret by (dt_consts; lia). rewrite bind_ret.
  unfold time_ticks. dt_consts. rewrite !cast_u64_id by (rewrite ?cast_u64_id; lia). f_equal. lia.
Qed.

Lemma c01 y m d : valid_date y m d ->
  exists t, DateTime_of_parts y m d 0 0 0 0 = Ret t /\ 0 <= t <= last_tick /\
    t = day_number y m d * ticks_per_day /\
    get_Year t = Ret y /\ get_Month t = Ret m /\ get_Day t = Ret d /\
    get_DayOfYear t = Ret (day_number y m d - day_number y 1 1 + 1).
Proof.
  intros Hd. pose proof (day_number_bounds _ _ _ Hd) as HB.
  exists (day_number y m d * ticks_per_day).
  rewrite of_parts_valid; [|exact Hd|unfold valid_time; lia].
  split; [f_equal; unfold time_ticks; lia|].
  rewrite last_tick_val. split; [dt_consts; lia|]. split; [reflexivity|].
  destruct (date_parts (day_number y m d * ticks_per_day)) as (y' & m' & d' & doy & Hc & EY & EM & ED & EO).
  { unfold two64; dt_consts; lia. }
  replace (day_number y m d * ticks_per_day / ticks_per_day) with (day_number y m d) in Hc by (dt_consts; lia).
  destruct Hc as [Cy Cm Cd Cn Cdoy]. destruct Hd as (Hy & Hm & Hd).
  destruct (day_number_inj y' m' d' y m d) as (-> & -> & ->); try assumption; try lia.
  rewrite EY, EM, ED, EO. repeat split. f_equal. subst doy. unfold day_number.
  change (Z.to_nat (1 - 1)) with 0%nat. cbn [days_in_months]. lia.
Qed.

(** ** C02 *)
Lemma time_parts v : 0 <= v < two64 ->
  get_Hour v = v / 36000000000 mod 24 /\ get_Minute v = v / 600000000 mod 60 /\
  get_Second v = v / 10000000 mod 60 /\ get_Millisecond v = v / 10000 mod 1000.
Proof.
  intros Hv. unfold two64 in Hv. unfold get_Hour, get_Minute, get_Second, get_Millisecond. dt_consts.
  repeat split; rewrite cast_i32_id by lia; rewrite Z.quot_div_nonneg by lia;
    rewrite Z.rem_mod_nonneg by lia; reflexivity.
Qed.

Lemma day_split v : 0 <= v ->
  v mod 864000000000 = (((v / 36000000000 mod 24) * 60 + v / 600000000 mod 60) * 60 + v / 10000000 mod 60) * 10000000
                       + v mod 10000000 /\
  v / 10000 mod 1000 = v mod 10000000 / 10000.
Proof.
  intros Hv.
  replace (v / 10000) with (v / 10000) by reflexivity.
  set (s := v / 10000000).
  assert (E1 : v / 600000000 = s / 60) by (unfold s; rewrite Z.div_div by lia; reflexivity).
  assert (E2 : v / 36000000000 = s / 60 / 60) by (unfold s; rewrite !Z.div_div by lia; reflexivity).
  assert (E3 : v / 864000000000 = s / 60 / 60 / 24) by (unfold s; rewrite !Z.div_div by lia; reflexivity).
  rewrite E1, E2.
  pose proof (Z.div_mod v 864000000000 ltac:(lia)) as D. rewrite E3 in D.
  pose proof (Z.div_mod v 10000000 ltac:(lia)) as Ds. fold s in Ds.
  split.
  - generalize dependent s. intros. lia.
  - unfold s in *. assert (E4 : v / 10000000 = v / 10000 / 1000) by (rewrite Z.div_div by lia; reflexivity).
    lia.
Qed.

Lemma c02 v : 0 <= v <= last_tick ->
  exists y m d doy,
    get_Year v = Ret y /\ get_Month v = Ret m /\ get_Day v = Ret d /\ get_DayOfYear v = Ret doy /\
    valid_date y m d /\ doy = day_number y m d - day_number y 1 1 + 1 /\
    valid_time (get_Hour v) (get_Minute v) (get_Second v) (get_Millisecond v) /\
    DateTime_of_parts y m d (get_Hour v) (get_Minute v) (get_Second v) (get_Millisecond v)
      = Ret (v - v mod ticks_per_ms) /\
    (exists date, get_Date v = Ret date /\ date = day_number y m d * ticks_per_day /\
       date + get_TimeOfDay v = v /\ 0 <= get_TimeOfDay v < ticks_per_day).
Proof.
  rewrite last_tick_val. intros Hv.
  destruct (date_parts v) as (y & m & d & doy & Hc & EY & EM & ED & EO); [unfold two64; lia|].
  assert (HV : valid_date y m d).
  { pose proof Hc as [Cy Cm Cd Cn Cdoy]. apply civil_year_max in Hc; [|dt_consts; lia].
    unfold valid_date. lia. }
  destruct Hc as [Cy Cm Cd Cn Cdoy].
  destruct (time_parts v) as (TH & TM & TS & TMs); [unfold two64; lia|].
  assert (HT : valid_time (get_Hour v) (get_Minute v) (get_Second v) (get_Millisecond v)).
  { rewrite TH, TM, TS, TMs. unfold valid_time. lia. }
  exists y, m, d, doy. rewrite EY, EM, ED, EO.
  do 4 (split; [reflexivity|]). split; [exact HV|]. split.
  { subst doy. unfold day_number. change (Z.to_nat (1 - 1)) with 0%nat. cbn [days_in_months]. lia. }
  split; [exact HT|]. split.
  { rewrite of_parts_valid by assumption. f_equal. unfold time_ticks. rewrite Cn.
    destruct (day_split v) as [S1 S2]; [lia|]. rewrite TH, TM, TS, TMs.
    dt_consts. rewrite S2.
    set (a := v / 36000000000 mod 24) in *. set (b := v / 600000000 mod 60) in *.
    set (c := v / 10000000 mod 60) in *. clearbody a b c.
    assert (F : v mod 10000 = v mod 10000000 mod 10000).
    { apply Znumtheory.Zmod_div_mod; [lia|lia|]. exists 1000. reflexivity. }
    set (r := v mod 10000000) in *. clearbody r.
    pose proof (Z.div_mod v 864000000000 ltac:(lia)). pose proof (Z.div_mod r 10000 ltac:(lia)). lia. }
  unfold get_Date, get_TimeOfDay, DateTime_of_ticks. exists (v - v %c TicksPerDay).
  rewrite throw_if_false by (dt_consts; lia). split; [reflexivity|]. dt_consts.
  rewrite cast_i64_id by lia. rewrite Cn. lia.
Qed.

(** ** C03 *)
Lemma of_parts_cases y m d h mi s ms :
  DateTime_of_parts y m d h mi s ms =
    if (1 <=? y) && (y <=? 9999) && (1 <=? m) && (m <=? 12) && (1 <=? d) && (d <=? month_length y m)
    then if h <? 0 then Ret (day_number y m d * ticks_per_day)
         else if (h <=? 23) && (0 <=? mi) && (mi <=? 59) && (0 <=? s) && (s <=? 59) && (0 <=? ms) && (ms <=? 1000)
              then Ret (day_number y m d * ticks_per_day + time_ticks h mi s ms)
              else Exn ArgumentOutOfRangeException
    else Exn ArgumentOutOfRangeException.
Proof.
  destruct ((1 <=? y) && (y <=? 9999) && (1 <=? m) && (m <=? 12) && (1 <=? d) && (d <=? month_length y m)) eqn:V.
  - assert (Hv : valid_date y m d) by (unfold valid_date; lia).
    pose proof (day_number_bounds _ _ _ Hv) as HB.
    unfold DateTime_of_parts. rewrite DateToTicks_valid by exact Hv. rewrite bind_ret. cbv zeta.
    rewrite cast_u64_id by (dt_consts; lia).
    destruct (h <? 0) eqn:Hh; [replace (0 <=? h) with false by lia; reflexivity|].
    replace (0 <=? h) with true by lia.
    destruct ((h <=? 23) && (0 <=? mi) && (mi <=? 59) && (0 <=? s) && (s <=? 59) && (0 <=? ms) && (ms <=? 1000)) eqn:T.
    + unfold TimeToTicks. rewrite throw_if_false by lia. rewrite bind_ret.
      unfold TimePartsToTicks. rewrite i64_ret by lia. rewrite bind_ret.
      rewrite throw_if_false by (dt_consts; lia). rewrite bind_ret.
      rewrite throw_if_false by lia. rewrite bind_ret.
      rewrite i64_ret by (dt_consts; lia). rewrite bind_ret.
      unfold time_ticks. dt_consts. rewrite cast_u64_id by lia. f_equal. lia.
    + unfold TimeToTicks, TimePartsToTicks.
      destruct ((h <? 0) || (24 <=? h) || (mi <? 0) || (60 <=? mi) || (s <? 0) || (60 <=? s)) eqn:G; [reflexivity|].
      cbn [throw_if]. rewrite !bind_ret. rewrite i64_ret by lia. rewrite bind_ret.
      rewrite throw_if_false by (dt_consts; lia). rewrite bind_ret.
      rewrite throw_if_true by lia. reflexivity.
  - unfold DateTime_of_parts. rewrite DateToTicks_invalid by (unfold valid_date; lia). reflexivity.
Qed.

Lemma c03_partial y m d h mi s ms : 0 <= h -> ms <> 1000 ->
  (valid_date y m d /\ valid_time h mi s ms /\
   DateTime_of_parts y m d h mi s ms = Ret (day_number y m d * ticks_per_day + time_ticks h mi s ms)) \/
  (~ (valid_date y m d /\ valid_time h mi s ms) /\
   DateTime_of_parts y m d h mi s ms = Exn ArgumentOutOfRangeException).
Proof.
  intros Hh Hms. rewrite of_parts_cases.
  destruct ((1 <=? y) && (y <=? 9999) && (1 <=? m) && (m <=? 12) && (1 <=? d) && (d <=? month_length y m)) eqn:V;
  [|right; split; [unfold valid_date; lia|reflexivity]].
  replace (h <? 0) with false by lia.
  destruct ((h <=? 23) && (0 <=? mi) && (mi <=? 59) && (0 <=? s) && (s <=? 59) && (0 <=? ms) && (ms <=? 1000)) eqn:T.
  - left. unfold valid_date, valid_time. split; [lia|]. split; [lia|reflexivity].
  - right. unfold valid_time. split; [lia|reflexivity].
Qed.

(** ** C04 *)
Lemma member_leap y : IsLeapYear y =
  if (1 <=? y) && (y <=? 9999) then Ret (leapb y) else Exn ArgumentOutOfRangeException.
Proof.
  unfold IsLeapYear. destruct ((1 <=? y) && (y <=? 9999)) eqn:E.
  - rewrite throw_if_false by lia. rewrite bind_ret. f_equal.
    change 3 with (Z.ones 2). change 15 with (Z.ones 4). rewrite !Z.land_ones by lia.
    change (2 ^ 2) with 4. change (2 ^ 4) with 16. unfold leapb. lia.
  - rewrite throw_if_true by lia. reflexivity.
Qed.

Lemma DaysInMonth_eq y m : DaysInMonth y m =
  if (1 <=? m) && (m <=? 12) && (1 <=? y) && (y <=? 9999) then Ret (month_length y m)
  else Exn ArgumentOutOfRangeException.
Proof.
  unfold DaysInMonth. destruct ((m <? 1) || (12 <? m)) eqn:G.
  - replace ((1 <=? m) && (m <=? 12) && (1 <=? y) && (y <=? 9999)) with false by lia. reflexivity.
  - cbn [throw_if]. rewrite bind_ret, member_leap.
    replace ((1 <=? m) && (m <=? 12) && (1 <=? y) && (y <=? 9999)) with ((1 <=? y) && (y <=? 9999)) by lia.
    destruct ((1 <=? y) && (y <=? 9999)); [|reflexivity]. rewrite bind_ret. cbv zeta.
    fold (days_table y). destruct (table_read y m ltac:(lia)) as [R1 R2]. rewrite R1, R2. rewrite !bind_ret.
    rewrite table_diff by lia. reflexivity.
Qed.

Definition target_year (y m months : Z) : Z := (y * 12 + (m - 1) + months) / 12.
Definition target_month (y m months : Z) : Z := (y * 12 + (m - 1) + months) mod 12 + 1.

Lemma c04 v y m d months :
  0 <= v <= last_tick -> get_Year v = Ret y -> get_Month v = Ret m -> get_Day v = Ret d ->
  let y' := (y * 12 + (m - 1) + months) / 12 in
  let m' := (y * 12 + (m - 1) + months) mod 12 + 1 in
  AddMonths v months =
    if (-120000 <=? months) && (months <=? 120000) && (1 <=? y') && (y' <=? 9999)
    then Ret (day_number y' m' (Z.min d (month_length y' m')) * ticks_per_day + v mod ticks_per_day)
    else Exn ArgumentOutOfRangeException.
Proof.
  rewrite last_tick_val. intros Hv GY GM GD y' m'.
  destruct (date_parts v) as (y0 & m0 & d0 & doy & Hc & EY & EM & ED & _); [unfold two64; lia|].
  rewrite GY in EY. rewrite GM in EM. rewrite GD in ED. injection EY as <-. injection EM as <-. injection ED as <-.
  destruct (date_parts3 v) as (y1 & m1 & d1 & doy1 & Hc1 & E3); [dt_consts; lia|].
  pose proof Hc as Hc0. apply civil_year_max in Hc0; [|dt_consts; lia].
  destruct Hc as [Cy Cm Cd Cn Cdoy]. destruct Hc1 as [Cy1 Cm1 Cd1 Cn1 Cdoy1].
  destruct (day_number_inj y1 m1 d1 y m d) as (-> & -> & ->); try assumption; try lia.
  unfold AddMonths.
  destruct ((months <? -120000) || (120000 <? months)) eqn:G.
  { replace ((-120000 <=? months) && (months <=? 120000) && (1 <=? y') && (y' <=? 9999)) with false by lia.
    reflexivity. }
  cbn [throw_if]. rewrite bind_ret, E3, bind_ret. cbv beta iota zeta. rewrite i32_ret by lia. rewrite bind_ret.
  assert (EM' : (if 0 <=? m - 1 + months then (m - 1 + months) %c 12 + 1 else 12 + (m - 1 + months + 1) %c 12) = m').
  { unfold m'. destruct (0 <=? m - 1 + months) eqn:E; lia. }
  assert (EY' : (if 0 <=? m - 1 + months then y + (m - 1 + months) /c 12 else y + (m - 1 + months - 11) /c 12) = y').
  { unfold y'. destruct (0 <=? m - 1 + months) eqn:E; lia. }
  rewrite EM', EY'.
  assert (M' : 1 <= m' <= 12) by (unfold m'; lia).
  clearbody y' m'.
  destruct ((y' <? 1) || (9999 <? y')) eqn:GY'.
  { replace ((-120000 <=? months) && (months <=? 120000) && (1 <=? y') && (y' <=? 9999)) with false by lia.
    reflexivity. }
  replace ((-120000 <=? months) && (months <=? 120000) && (1 <=? y') && (y' <=? 9999)) with true by lia.
  cbn [throw_if]. rewrite bind_ret, DaysInMonth_eq.
  replace ((1 <=? m') && (m' <=? 12) && (1 <=? y') && (y' <=? 9999)) with true by lia.
  rewrite bind_ret.
  replace (if month_length y' m' <? d then month_length y' m' else d) with (Z.min d (month_length y' m'))
    by (destruct (month_length y' m' <? d) eqn:E; lia).
  assert (V' : valid_date y' m' (Z.min d (month_length y' m'))).
  { pose proof (month_length_bounds y' m'). unfold valid_date. lia. }
  rewrite DateToTicks_valid by exact V'. rewrite bind_ret.
  pose proof (day_number_bounds _ _ _ V') as HB'.
  unfold DateTime_of_ticks. dt_consts. rewrite Z.rem_mod_nonneg by lia.
  set (dn := day_number y' m' (Z.min d (month_length y' m'))) in *. clearbody dn.
  rewrite cast_u64_id by lia. rewrite throw_if_false by lia. reflexivity.
Qed.

Lemma c04_years v y m d delta :
  0 <= v <= last_tick -> get_Year v = Ret y -> get_Month v = Ret m -> get_Day v = Ret d ->
  AddYears v delta =
    if (-10000 <=? delta) && (delta <=? 10000) && (1 <=? y + delta) && (y + delta <=? 9999)
    then Ret (day_number (y + delta) m (Z.min d (month_length (y + delta) m)) * ticks_per_day + v mod ticks_per_day)
    else Exn ArgumentOutOfRangeException.
Proof.
  intros Hv GY GM GD. unfold AddYears.
  destruct ((delta <? -10000) || (10000 <? delta)) eqn:G.
  { replace ((-10000 <=? delta) && (delta <=? 10000) && (1 <=? y + delta) && (y + delta <=? 9999)) with false by lia.
    reflexivity. }
  cbn [throw_if]. rewrite bind_ret, i32_ret by lia. rewrite bind_ret.
  rewrite (c04 v y m d) by assumption. cbv zeta.
  assert (Hm : 1 <= m <= 12).
  { rewrite last_tick_val in Hv.
    destruct (date_parts v) as (y0 & m0 & d0 & doy & Hc & EY & EM & ED & _); [unfold two64; lia|].
    rewrite GM in EM. injection EM as <-. apply (cv_m _ _ _ _ _ Hc). }
  replace ((y * 12 + (m - 1) + delta * 12) / 12) with (y + delta) by lia.
  replace ((y * 12 + (m - 1) + delta * 12) mod 12 + 1) with m by lia.
  replace ((-120000 <=? delta * 12) && (delta * 12 <=? 120000) && (1 <=? y + delta) && (y + delta <=? 9999))
    with ((-10000 <=? delta) && (delta <=? 10000) && (1 <=? y + delta) && (y + delta <=? 9999)) by lia.
  reflexivity.
Qed.

(** ** C05 *)
Lemma parts_of v : 0 <= v <= last_tick ->
  exists y m d, get_Year v = Ret y /\ get_Month v = Ret m /\ get_Day v = Ret d /\
    valid_date y m d /\ day_number y m d = v / ticks_per_day.
Proof.
  intros Hv. destruct (c02 v Hv) as (y & m & d & doy & EY & EM & ED & _ & HV & _ & _ & _ & date & ED' & Edate & Esum & Hr).
  exists y, m, d. repeat (split; [assumption|]). subst date. dt_consts. lia.
Qed.

Lemma c05_order v1 v2 y1 m1 d1 y2 m2 d2 :
  0 <= v1 <= last_tick -> 0 <= v2 <= last_tick ->
  get_Year v1 = Ret y1 -> get_Month v1 = Ret m1 -> get_Day v1 = Ret d1 ->
  get_Year v2 = Ret y2 -> get_Month v2 = Ret m2 -> get_Day v2 = Ret d2 ->
  let before := date_lt y1 m1 d1 y2 m2 d2 \/
     ((y1, m1, d1) = (y2, m2, d2) /\ get_TimeOfDay v1 < get_TimeOfDay v2) in
  let same := (y1, m1, d1) = (y2, m2, d2) /\ get_TimeOfDay v1 = get_TimeOfDay v2 in
  (op_LessThan v1 v2 = true <-> before) /\
  (op_Equality v1 v2 = true <-> same) /\
  (op_Inequality v1 v2 = negb (op_Equality v1 v2)) /\
  (op_LessThanOrEqual v1 v2 = true <-> before \/ same) /\
  (op_GreaterThan v2 v1 = op_LessThan v1 v2) /\
  (op_GreaterThanOrEqual v2 v1 = op_LessThanOrEqual v1 v2) /\
  (Compare v1 v2 = -1 <-> before) /\ (Compare v1 v2 = 0 <-> same) /\
  Compare v2 v1 = - Compare v1 v2 /\ -1 <= Compare v1 v2 <= 1.
Proof.
  intros H1 H2 A1 A2 A3 B1 B2 B3.
  destruct (parts_of v1 H1) as (y & m & d & E1 & E2 & E3 & V1 & N1).
  rewrite A1 in E1; rewrite A2 in E2; rewrite A3 in E3. injection E1 as <-; injection E2 as <-; injection E3 as <-.
  destruct (parts_of v2 H2) as (y & m & d & E1 & E2 & E3 & V2 & N2).
  rewrite B1 in E1; rewrite B2 in E2; rewrite B3 in E3. injection E1 as <-; injection E2 as <-; injection E3 as <-.
  rewrite last_tick_val in *.
  assert (T1 : get_TimeOfDay v1 = v1 mod ticks_per_day)
    by (unfold get_TimeOfDay; dt_consts; rewrite cast_i64_id; lia).
  assert (T2 : get_TimeOfDay v2 = v2 mod ticks_per_day)
    by (unfold get_TimeOfDay; dt_consts; rewrite cast_i64_id; lia).
  rewrite T1, T2. clear A1 A2 A3 B1 B2 B3 T1 T2.
  destruct V1 as (Vy1 & Vm1 & Vd1). destruct V2 as (Vy2 & Vm2 & Vd2).
  assert (L : date_lt y1 m1 d1 y2 m2 d2 <-> v1 / ticks_per_day < v2 / ticks_per_day).
  { rewrite <- N1, <- N2. split.
    - apply day_number_lt; lia.
    - intros L. destruct (date_trichotomy y1 m1 d1 y2 m2 d2) as [K|[K|K]]; [exact K| |].
      + destruct K as (-> & -> & ->). lia.
      + apply day_number_lt in K; lia. }
  assert (S : (y1, m1, d1) = (y2, m2, d2) <-> v1 / ticks_per_day = v2 / ticks_per_day).
  { rewrite <- N1, <- N2. split.
    - intros K. injection K as -> -> ->. reflexivity.
    - intros K. apply day_number_inj in K; try lia. destruct K as (-> & -> & ->). reflexivity. }
  cbv zeta. rewrite L, S. clear L S.
  unfold op_LessThan, op_Equality, op_Inequality, op_LessThanOrEqual, op_GreaterThan, op_GreaterThanOrEqual, Compare.
  dt_consts. rewrite !cast_i64_id by lia.
  assert (LT : v1 < v2 <-> v1 / 864000000000 < v2 / 864000000000 \/
     v1 / 864000000000 = v2 / 864000000000 /\ v1 mod 864000000000 < v2 mod 864000000000) by lia.
  assert (EQ : v1 = v2 <-> v1 / 864000000000 = v2 / 864000000000 /\ v1 mod 864000000000 = v2 mod 864000000000) by lia.
  rewrite <- LT, <- EQ. clear LT EQ N1 N2.
  destruct (v2 <? v1) eqn:C1, (v1 <? v2) eqn:C2; repeat split; intros; try lia.
Qed.

Lemma day_number_next y m d : 1 <= y -> 1 <= m <= 12 -> 1 <= d <= month_length y m ->
  forall y' m' d', next_day y m d = (y', m', d') -> day_number y' m' d' = day_number y m d + 1.
Proof.
  intros Hy Hm Hd y' m' d'. unfold next_day.
  destruct (d <? month_length y m) eqn:E; [intros K; injection K as <- <- <-; unfold day_number; lia|].
  assert (d = month_length y m) as -> by lia.
  pose proof (table_diff y m Hm).
  destruct (m <? 12) eqn:E2; intros K; injection K as <- <- <-; unfold day_number.
  - replace (m + 1 - 1) with m by lia. lia.
  - assert (m = 12) as -> by lia. change (Z.to_nat (1 - 1)) with 0%nat. cbn [days_in_months].
    replace (Z.to_nat (y + 1 - 1)) with (S (Z.to_nat (y - 1))) by lia. cbn [days_in_years].
    replace (Z.of_nat (S (Z.to_nat (y - 1)))) with y by lia.
    rewrite <- days_in_months_12. change (Z.to_nat 12) with 12%nat in *. lia.
Qed.

Lemma c05_next y m d y' m' d' t :
  valid_date y m d -> next_day y m d = (y', m', d') -> DateTime_of_parts y m d 0 0 0 0 = Ret t ->
  (y' <= 9999 -> valid_date y' m' d' /\ DateTime_of_parts y' m' d' 0 0 0 0 = Ret (t + ticks_per_day) /\
     get_DayOfWeek (t + ticks_per_day) = (get_DayOfWeek t + 1) mod 7).
Proof.
  intros Hv Hn Ht Hy'.
  pose proof Hv as (Hy & Hm & Hd).
  pose proof (day_number_next y m d ltac:(lia) Hm Hd _ _ _ Hn) as HN.
  assert (V' : valid_date y' m' d').
  { unfold next_day in Hn. pose proof (month_length_bounds y' m').
    destruct (d <? month_length y m) eqn:E; [|destruct (m <? 12) eqn:E2]; injection Hn as <- <- <-; unfold valid_date; lia. }
  split; [exact V'|].
  rewrite of_parts_valid in Ht by (try exact Hv; unfold valid_time; lia). injection Ht as Ht.
  rewrite of_parts_valid by (try exact V'; unfold valid_time; lia).
  rewrite HN. split; [f_equal; lia|].
  pose proof (day_number_bounds y m d Hv).
  unfold get_DayOfWeek. unfold time_ticks in Ht. dt_consts. subst t.
  set (dn := day_number y m d) in *. clearbody dn. clear HN V' Hn.
  replace ((dn * 864000000000 + (((0 * 60 + 0) * 60 + 0) * 1000 + 0) * 10000 + 864000000000) /c 864000000000) with (dn + 1) by lia.
  replace ((dn * 864000000000 + (((0 * 60 + 0) * 60 + 0) * 1000 + 0) * 10000) /c 864000000000) with dn by lia.
  lia.
Qed.

Lemma c05_dow v y m d : 0 <= v <= last_tick ->
  get_Year v = Ret y -> get_Month v = Ret m -> get_Day v = Ret d ->
  get_DayOfWeek v = (day_number y m d + 1) mod 7.
Proof.
  intros Hv A1 A2 A3. destruct (parts_of v Hv) as (y0 & m0 & d0 & E1 & E2 & E3 & V1 & N1).
  rewrite A1 in E1; rewrite A2 in E2; rewrite A3 in E3. injection E1 as <-; injection E2 as <-; injection E3 as <-.
  rewrite N1. unfold get_DayOfWeek. dt_consts. lia.
Qed.

(** ** C06 *)
Lemma c06_leap y :
  (1 <= y <= 9999 -> exists b, IsLeapYear y = Ret b /\ (b = true <-> leap y)) /\
  (~ 1 <= y <= 9999 -> IsLeapYear y = Exn ArgumentOutOfRangeException).
Proof.
  rewrite member_leap. split; intros H.
  - replace ((1 <=? y) && (y <=? 9999)) with true by lia. exists (leapb y). split; [reflexivity|apply leapb_spec].
  - replace ((1 <=? y) && (y <=? 9999)) with false by lia. reflexivity.
Qed.

Lemma c06_days y m :
  (1 <= y <= 9999 /\ 1 <= m <= 12 -> DaysInMonth y m = Ret (month_length y m)) /\
  (~ (1 <= y <= 9999 /\ 1 <= m <= 12) -> DaysInMonth y m = Exn ArgumentOutOfRangeException).
Proof.
  rewrite DaysInMonth_eq. split; intros H.
  - replace ((1 <=? m) && (m <=? 12) && (1 <=? y) && (y <=? 9999)) with true by lia. reflexivity.
  - replace ((1 <=? m) && (m <=? 12) && (1 <=? y) && (y <=? 9999)) with false by lia. reflexivity.
Qed.

(** ** C07 *)
Lemma c07_add v ts : 0 <= v <= last_tick -> in_i64 ts = true ->
  Add_TimeSpan v ts =
    (if (0 <=? v + ts) && (v + ts <=? last_tick) then Ret (v + ts) else Exn ArgumentOutOfRangeException).
Proof.
  rewrite last_tick_val. intros Hv Ht. apply in_i64_iff in Ht.
  unfold Add_TimeSpan, AddTicks. dt_consts. rewrite cast_i64_id by lia.
  rewrite i64_ret by lia. rewrite bind_ret.
  destruct (3155378975999999999 - v <? ts) eqn:E1;
    [replace ((0 <=? v + ts) && (v + ts <=? 3155378975999999999)) with false by lia; reflexivity|].
  rewrite i64_ret by lia. rewrite bind_ret.
  destruct (ts <? 0 - v) eqn:E2;
    [replace ((0 <=? v + ts) && (v + ts <=? 3155378975999999999)) with false by lia; reflexivity|].
  replace ((0 <=? v + ts) && (v + ts <=? 3155378975999999999)) with true by lia.
  rewrite i64_ret by lia. rewrite bind_ret. rewrite cast_u64_id by lia.
  unfold DateTime_of_ticks. dt_consts. rewrite throw_if_false by lia. reflexivity.
Qed.

Lemma c07_sub v ts : 0 <= v <= last_tick -> in_i64 ts = true ->
  Subtract_TimeSpan v ts =
    (if (0 <=? v - ts) && (v - ts <=? last_tick) then Ret (v - ts) else Exn ArgumentOutOfRangeException).
Proof.
  rewrite last_tick_val. intros Hv Ht. apply in_i64_iff in Ht.
  unfold Subtract_TimeSpan. dt_consts. rewrite cast_i64_id by lia.
  rewrite i64_ret by lia. rewrite bind_ret.
  destruct (v - 0 <? ts) eqn:E1;
    [replace ((0 <=? v - ts) && (v - ts <=? 3155378975999999999)) with false by lia; reflexivity|].
  rewrite i64_ret by lia. rewrite bind_ret.
  destruct (ts <? v - 3155378975999999999) eqn:E2;
    [replace ((0 <=? v - ts) && (v - ts <=? 3155378975999999999)) with false by lia; reflexivity|].
  replace ((0 <=? v - ts) && (v - ts <=? 3155378975999999999)) with true by lia.
  rewrite i64_ret by lia. rewrite bind_ret. rewrite cast_u64_id by lia.
  unfold DateTime_of_ticks. dt_consts. rewrite throw_if_false by lia. reflexivity.
Qed.

Lemma c07_diff v1 v2 : 0 <= v1 <= last_tick -> 0 <= v2 <= last_tick -> Subtract_DateTime v1 v2 = v1 - v2.
Proof.
  rewrite last_tick_val. intros H1 H2. unfold Subtract_DateTime, cast_i64, cast_s, cast_u64, cast_u.
  change (2 ^ (64 - 1)) with 9223372036854775808. change (2 ^ 64) with 18446744073709551616. lia.
Qed.

Lemma c07 v1 v2 ts w : 0 <= v1 <= last_tick -> 0 <= v2 <= last_tick -> in_i64 ts = true ->
  (Add_TimeSpan v1 ts = Ret w -> w = v1 + ts /\ 0 <= w <= last_tick /\ Subtract_TimeSpan w ts = Ret v1) /\
  ((forall w, Add_TimeSpan v1 ts <> Ret w) <-> ~ 0 <= v1 + ts <= last_tick) /\
  (Subtract_TimeSpan v1 ts = Ret w -> w = v1 - ts /\ 0 <= w <= last_tick /\ Add_TimeSpan w ts = Ret v1) /\
  ((forall w, Subtract_TimeSpan v1 ts <> Ret w) <-> ~ 0 <= v1 - ts <= last_tick) /\
  (forall u, Add_TimeSpan v1 ts <> UB u /\ Subtract_TimeSpan v1 ts <> UB u) /\
  Subtract_DateTime v1 v2 = v1 - v2 /\ Add_TimeSpan v2 (Subtract_DateTime v1 v2) = Ret v1.
Proof.
  intros H1 H2 Ht. rewrite c07_diff by assumption.
  assert (Ht2 : in_i64 (v1 - v2) = true) by (apply in_i64_iff; rewrite last_tick_val in *; lia).
  rewrite (c07_add v1 ts), (c07_sub v1 ts) by assumption. rewrite (c07_add v2 (v1 - v2)) by assumption.
  destruct ((0 <=? v1 + ts) && (v1 + ts <=? last_tick)) eqn:EA; destruct ((0 <=? v1 - ts) && (v1 - ts <=? last_tick)) eqn:ES;
  (replace ((0 <=? v2 + (v1 - v2)) && (v2 + (v1 - v2) <=? last_tick)) with true by lia);
  repeat split; intros; try discriminate; try lia;
  repeat match goal with
  | H : Ret _ = Ret _ |- _ => injection H as <-
  | H : forall _, Ret _ <> Ret _ |- _ => exfalso; eapply H; reflexivity
  | |- context[Subtract_TimeSpan _ _] => rewrite c07_sub by (try assumption; lia)
  | |- context[Add_TimeSpan _ _] => rewrite c07_add by (try assumption; lia)
  end; try lia; try discriminate;
  try (replace ((0 <=? v1 + ts - ts) && (v1 + ts - ts <=? last_tick)) with true by lia; f_equal; lia);
  try (replace ((0 <=? v1 - ts + ts) && (v1 - ts + ts <=? last_tick)) with true by lia; f_equal; lia);
  f_equal; lia.
Qed.

(** ** C08 *)
Lemma c08_partial y m d h mi s ms t :
  DateTime_of_parts y m d h mi s ms = Ret t ->
  0 <= t <= last_tick + 1 /\ (t = last_tick + 1 -> (y, m, d, h, mi, s, ms) = (9999, 12, 31, 23, 59, 59, 1000)).
Proof.
  rewrite of_parts_cases, last_tick_val.
  destruct ((1 <=? y) && (y <=? 9999) && (1 <=? m) && (m <=? 12) && (1 <=? d) && (d <=? month_length y m)) eqn:V; [|discriminate].
  assert (HV : valid_date y m d) by (unfold valid_date; lia).
  pose proof (day_number_bounds _ _ _ HV) as HB.
  destruct (h <? 0) eqn:Hh.
  - intros K; injection K as <-. dt_consts. lia.
  - destruct ((h <=? 23) && (0 <=? mi) && (mi <=? 59) && (0 <=? s) && (s <=? 59) && (0 <=? ms) && (ms <=? 1000)) eqn:T; [|discriminate].
    intros K; injection K as <-. unfold time_ticks. dt_consts. split; [lia|].
    intros E. assert (D : day_number y m d = 3652058) by lia.
    assert (day_number y m d = day_number 9999 12 31) as D2 by (rewrite day_number_last; exact D).
    destruct HV as (Vy & Vm & Vd).
    apply day_number_inj in D2; try lia; [|change (month_length 9999 12) with 31; lia].
    destruct D2 as (-> & -> & ->). clear V HB Vd. rewrite D in E.
    assert (h = 23) as -> by lia. assert (mi = 59) as -> by lia. assert (s = 59) as -> by lia.
    assert (ms = 1000) as -> by lia. reflexivity.
Qed.
