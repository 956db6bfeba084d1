(** * C105, C106 *)
From Verif Require Import Tac Base IntSpec DateTimeModel DateTimeSpec DateTimeProofs IntModel IntProofs TimeSpanModel TimeSpanProofs DateTextModel DateTextSpec.

Lemma within_facts v y m d h mi s : within v y m d h mi s ->
  0 <= v <= last_tick /\ get_Year v = Ret y /\ get_Month v = Ret m /\ get_Day v = Ret d /\ get_Hour v = h /\ get_Minute v = mi /\ get_Second v = s.
Proof.
  intros ((Y & M & D) & T & R). assert (V : valid_date y m d) by (unfold valid_date; tauto).
  destruct T as (Hh & Hmi & Hs & _). pose proof (day_number_bounds y m d V) as B.
  assert (L : 0 <= v <= last_tick) by (rewrite last_tick_val; unfold time_ticks, ticks_per_day, ticks_per_ms in *; lia).
  split; [exact L|]. destruct (parts_of v L) as (y' & m' & d' & EY & EM & ED & (Y' & M' & D') & E).
  assert (X : day_number y' m' d' = day_number y m d) by (rewrite E; clear - R Hh Hmi Hs; unfold time_ticks, ticks_per_day, ticks_per_ms in *; generalize dependent (day_number y m d); intros; lia).
  apply day_number_inj in X; [|lia..]. destruct X as (-> & -> & ->). repeat (split; [assumption|]).
  rewrite last_tick_val in L. assert (L2 : 0 <= v < two64) by (unfold two64; clear - L; lia). destruct (time_parts v L2) as (A1 & A2 & A3 & _). rewrite A1, A2, A3.
  unfold time_ticks, ticks_per_day, ticks_per_ms in R. generalize dependent (day_number y m d). intros; repeat split; lia.
Qed.

Lemma short_eq n : 0 <= n < 100 -> print_d n = short n.
Proof. intro H. unfold print_d, short. replace (n <? 0) with false by lia. destruct (n <? 10) eqn:E; [rewrite print_u_1 by lia|rewrite print_u_2 by lia]; reflexivity. Qed.
Lemma two_eq n : 0 <= n < 100 -> print_02d n = two n.
Proof. exact (print_02d_eq n). Qed.
Lemma four_eq n : 1000 <= n < 10000 -> print_d n = four n.
Proof.
  intro H. unfold print_d, four. replace (n <? 0) with false by lia. unfold print_u. rewrite !dec_digits_S by lia. rewrite dec_digits_1 by lia.
  cbn [app]. repeat (f_equal; [lia|]). f_equal. lia.
Qed.
Lemma print_short_length n : 0 <= n < 1000 -> (length (print_d n) < 4)%nat.
Proof.
  intro H. unfold print_d. replace (n <? 0) with false by lia. assert (C : n < 10 \/ 10 <= n < 100 \/ 100 <= n) by lia.
  destruct C as [C|[C|C]]; [rewrite print_u_1 by lia; cbn; lia|rewrite print_u_2 by lia; cbn; lia|].
  unfold print_u. rewrite !dec_digits_S by lia. rewrite dec_digits_1 by lia. cbn. lia.
Qed.

(** What is written, for every date and time. *)
Lemma format_within v y m d h mi s : within v y m d h mi s ->
  DT_FormatString v = Ret (short m ++ [47] ++ short d ++ [47] ++ print_d y ++ [32] ++ short (if 12 <? h then h - 12 else h) ++ [58] ++ two mi ++ [58] ++ two s ++ [32] ++ (if 12 <? h then pm else am)).
Proof.
  intro W. destruct (within_facts v y m d h mi s W) as (_ & EY & EM & ED & EH & EMI & ES). destruct W as ((Y & M & D) & (Hh & Hmi & Hs & _) & _).
  pose proof (month_length_bounds y m) as B. unfold DT_FormatString. rewrite EM, bind_ret, ED, bind_ret, EY, bind_ret, EH, EMI, ES. cbv zeta.
  rewrite (short_eq m), (short_eq d), (two_eq mi), (two_eq s) by lia. rewrite (short_eq (if 12 <? h then h - 12 else h)) by (destruct (12 <? h) eqn:?; lia). reflexivity.
Qed.

(** ** C105 *)
(** The text is the one .NET writes from the year 1000 on, except in the hours beginning at midnight and at noon. *)
Theorem C105_text_partial v y m d h mi s : within v y m d h mi s -> 1000 <= y -> h <> 0 -> h <> 12 -> DT_FormatString v = Ret (net_text y m d h mi s).
Proof.
  intros W Y H0 H12. rewrite (format_within v y m d h mi s W). destruct W as ((Yb & _) & (Hh & _) & _).
  rewrite four_eq by lia. unfold net_text, twelve.
  replace (if 12 <? h then h - 12 else h) with (if h mod 12 =? 0 then 12 else h mod 12) by (destruct (12 <? h) eqn:E, (h mod 12 =? 0) eqn:F; lia).
  replace (if 12 <? h then pm else am) with (if h <? 12 then am else pm) by (destruct (12 <? h) eqn:E, (h <? 12) eqn:F; try reflexivity; lia). reflexivity.
Qed.
Print Assumptions C105_text_partial.

Lemma Ret_eq {A} (a b : A) : Ret a = Ret b -> a = b.
Proof. congruence. Qed.
Lemma app_parts {A} (a b c d : list A) : length a = length c -> a ++ b = c ++ d -> a = c /\ b = d.
Proof.
  revert c. induction a as [|x a IH]; intros [|y c] L E; cbn in *; try discriminate; [split; [reflexivity|exact E]|].
  injection E as -> E. injection L as L. destruct (IH c L E) as [-> ->]. split; reflexivity.
Qed.
(** a text without [c] before the first [c] is determined *)
Lemma until (c : Z) (a b a' b' : list Z) : ~ In c a -> ~ In c a' -> a ++ c :: b = a' ++ c :: b' -> a = a' /\ b = b'.
Proof.
  revert a'. induction a as [|x a IH]; intros [|y a'] N N' E; cbn in *.
  - injection E as ->. split; reflexivity.
  - injection E as E1 E2. subst y. destruct (N' (or_introl eq_refl)).
  - injection E as E1 E2. subst x. destruct (N (or_introl eq_refl)).
  - injection E as -> E. destruct (IH a' ltac:(tauto) ltac:(tauto) E) as [-> ->]. split; reflexivity.
Qed.
Lemma short_digits n : 0 <= n < 100 -> Forall digit (short n).
Proof. intro H. unfold short, two. destruct (n <? 10) eqn:E; repeat constructor; unfold digit; lia. Qed.
Lemma two_digits n : 0 <= n < 100 -> Forall digit (two n).
Proof. intro H. unfold two. repeat constructor; unfold digit; lia. Qed.
Lemma print_d_digits n : 0 <= n < two64 -> Forall digit (print_d n).
Proof. intro H. unfold print_d. replace (n <? 0) with false by lia. apply print_u_spec. exact H. Qed.
Lemma four_digits n : 0 <= n < 10000 -> Forall digit (four n).
Proof. intro H. unfold four. repeat constructor; unfold digit; lia. Qed.
Lemma no_mark (c : Z) (a : list Z) : Forall digit a -> c < 48 \/ 57 < c -> ~ In c a.
Proof. intros F C N. rewrite Forall_forall in F. specialize (F c N). unfold digit in F. lia. Qed.
Lemma cons_eq (a b : Z) (x y : list Z) : a :: x = b :: y -> a = b /\ x = y.
Proof. intro H. injection H as -> ->. split; reflexivity. Qed.
Lemma two_inj a b : 0 <= a < 100 -> 0 <= b < 100 -> two a = two b -> a = b.
Proof. unfold two. intros A B H. apply cons_eq in H. destruct H as [H1 H]. apply cons_eq in H. destruct H as [H2 _]. lia. Qed.
Lemma short_inj a b : 0 <= a < 100 -> 0 <= b < 100 -> short a = short b -> a = b.
Proof.
  intros A B. unfold short. destruct (a <? 10) eqn:E, (b <? 10) eqn:F; intro H.
  - apply cons_eq in H. lia.
  - discriminate.
  - discriminate.
  - apply two_inj; assumption.
Qed.
Lemma print_d_inj a b : 0 <= a < two64 -> 0 <= b < two64 -> print_d a = print_d b -> a = b.
Proof. intros A B. unfold print_d. replace (a <? 0) with false by lia. replace (b <? 0) with false by lia. apply print_u_inj; assumption. Qed.

(** texts built the same way agree piece by piece *)
Lemma pieces (m d h mi s : list Z) (y t : list Z) (m' d' h' mi' s' y' t' : list Z) :
  Forall digit m -> Forall digit d -> Forall digit y -> Forall digit h -> Forall digit mi -> Forall digit s ->
  Forall digit m' -> Forall digit d' -> Forall digit y' -> Forall digit h' -> Forall digit mi' -> Forall digit s' ->
  m ++ [47] ++ d ++ [47] ++ y ++ [32] ++ h ++ [58] ++ mi ++ [58] ++ s ++ [32] ++ t = m' ++ [47] ++ d' ++ [47] ++ y' ++ [32] ++ h' ++ [58] ++ mi' ++ [58] ++ s' ++ [32] ++ t' ->
  m = m' /\ d = d' /\ y = y' /\ h = h' /\ mi = mi' /\ s = s' /\ t = t'.
Proof.
  intros Dm Dd Dy Dh Dmi Ds Dm' Dd' Dy' Dh' Dmi' Ds' E. cbn [app] in E.
  do 6 (apply until in E; [|apply no_mark; [assumption|lia]|apply no_mark; [assumption|lia]]; let X := fresh "X" in destruct E as [X E]).
  repeat split; assumption.
Qed.

(** Everywhere else it is not. *)
Theorem C105_text_refuted v y m d h mi s : within v y m d h mi s -> y < 1000 \/ h = 0 \/ h = 12 -> DT_FormatString v <> Ret (net_text y m d h mi s).
Proof.
  intros W C E. rewrite (format_within v y m d h mi s W) in E. destruct W as ((Y & M & D) & (Hh & Hmi & Hs & _) & _).
  pose proof (month_length_bounds y m) as B. apply Ret_eq in E. unfold net_text in E.
  apply pieces in E; try (apply short_digits; first [lia|destruct (12 <? h) eqn:?; lia|unfold twelve; destruct (h mod 12 =? 0) eqn:?; lia]); try (apply two_digits; lia);
    [|apply print_d_digits; unfold two64; lia|apply four_digits; lia].
  destruct E as (_ & _ & EY & EH & _ & _ & ET). destruct C as [C|[-> | ->]]; [|discriminate|discriminate].
  pose proof (print_short_length y ltac:(lia)) as L. rewrite EY in L. cbn in L. lia.
Qed.
Print Assumptions C105_text_refuted.

(** The text identifies the second, all the same: noon is "12:... AM", midnight "0:... AM". *)
Theorem C105_identifies v w t : 0 <= v <= last_tick -> 0 <= w <= last_tick -> DT_FormatString v = Ret t -> DT_FormatString w = Ret t -> v / 10000000 = w / 10000000.
Proof.
  assert (A : forall v, 0 <= v <= last_tick -> exists y m d h mi s, within v y m d h mi s).
  { intros x X. destruct (parts_of x X) as (y & m & d & _ & _ & _ & V & E). rewrite last_tick_val in X.
    exists y, m, d, (x / 36000000000 mod 24), (x / 600000000 mod 60), (x / 10000000 mod 60). split; [exact V|]. rewrite E. unfold valid_time, time_ticks, ticks_per_day, ticks_per_ms. lia. }
  intros V W EV EW. destruct (A v V) as (y & m & d & h & mi & s & P). destruct (A w W) as (y' & m' & d' & h' & mi' & s' & Q).
  rewrite (format_within _ _ _ _ _ _ _ P) in EV. rewrite (format_within _ _ _ _ _ _ _ Q) in EW. rewrite <- EV in EW. apply Ret_eq in EW. rename EW into E.
  destruct P as ((Y & M & D) & (Hh & Hmi & Hs & _) & P), Q as ((Y' & M' & D') & (Hh' & Hmi' & Hs' & _) & Q).
  pose proof (month_length_bounds y m) as B. pose proof (month_length_bounds y' m') as B'.
  symmetry in E. apply pieces in E; try (apply short_digits; first [lia|destruct (12 <? h) eqn:?; lia|destruct (12 <? h') eqn:?; lia]); try (apply two_digits; lia); try (apply print_d_digits; unfold two64; lia).
  destruct E as (EM & ED & EY & EH & EMI & ES & ET).
  apply short_inj in EM; [|lia|lia]. apply short_inj in ED; [|lia|lia]. apply print_d_inj in EY; [|unfold two64; lia|unfold two64; lia].
  apply two_inj in EMI; [|lia|lia]. apply two_inj in ES; [|lia|lia].
  assert (h = h').
  { destruct (12 <? h) eqn:F, (12 <? h') eqn:F'; try discriminate; apply short_inj in EH; lia. }
  subst. unfold time_ticks, ticks_per_day, ticks_per_ms in *. generalize dependent (day_number y' m' d'). intros. lia.
Qed.
Print Assumptions C105_identifies.
(** ToString answers for every date, without undefined behaviour *)
Theorem C105_total v : 0 <= v <= last_tick -> exists t, DT_FormatString v = Ret t /\ (length t <= 22)%nat.
Proof.
  intro X. destruct (parts_of v X) as (y & m & d & _ & _ & _ & V & E). pose proof X as X'. rewrite last_tick_val in X'.
  eexists. split.
  { apply (format_within v y m d (v / 36000000000 mod 24) (v / 600000000 mod 60) (v / 10000000 mod 60)). split; [exact V|]. rewrite E. unfold valid_time, time_ticks, ticks_per_day, ticks_per_ms. lia. }
  destruct V as (Y & M & D). pose proof (month_length_bounds y m) as B.
  assert (S : forall n, (length (short n) <= 2)%nat) by (intro n; unfold short; destruct (n <? 10); cbn; lia).
  assert (L : (length (print_d y) <= 4)%nat).
  { destruct (y <? 1000) eqn:F; [pose proof (print_short_length y ltac:(lia)); lia|rewrite four_eq by lia; cbn; lia]. }
  rewrite !app_length. pose proof (S m). pose proof (S d). pose proof (S (if 12 <? v / 36000000000 mod 24 then v / 36000000000 mod 24 - 12 else v / 36000000000 mod 24)).
  destruct (12 <? v / 36000000000 mod 24); cbn [length two am pm]; lia.
Qed.
Print Assumptions C105_total.
Example C105_example : within 637500576000000000 2021 2 27 21 20 0 /\ DT_FormatString 637500576000000000 = Ret (net_text 2021 2 27 21 20 0).
Proof.
  assert (W : within 637500576000000000 2021 2 27 21 20 0).
  { unfold within, valid_date, valid_time. change (month_length 2021 2) with 28.
    assert (D : day_number 2021 2 27 = 737847) by (rewrite day_number_closed by lia; reflexivity). rewrite D. unfold time_ticks, ticks_per_day, ticks_per_ms. lia. }
  split; [exact W|apply C105_text_partial; [exact W|lia..]].
Qed.

(** ** C106 *)
(** Now is the local time of the clock, to the millisecond. *)
Theorem C106_now t seconds nsec : denotes t seconds -> 0 <= nsec < 1000000000 -> get_Now t nsec = Ret (seconds * 10000000 + nsec / 1000000 * 10000).
Proof.
  intros (V & T & ->) N. destruct V as (Y & M & D). unfold get_Now. rewrite i32_ret by lia. rewrite bind_ret. rewrite i32_ret by lia. rewrite bind_ret.
  assert (Q : cast_i32 (nsec /c 1000000) = nsec / 1000000) by (rewrite cast_i32_id; rewrite Z.quot_div_nonneg by lia; [reflexivity|lia]). rewrite Q.
  destruct T as (Hh & Hmi & Hs & _).
  assert (V : valid_date (tm_year t + 1900) (tm_mon t + 1) (tm_mday t)) by (unfold valid_date; tauto).
  pose proof (day_number_bounds _ _ _ V) as B.
  rewrite of_parts_valid; [|exact V|unfold valid_time; lia]. rewrite bind_ret. unfold DateTime_of_ticks, time_ticks, ticks_per_day, ticks_per_ms.
  generalize dependent (day_number (tm_year t + 1900) (tm_mon t + 1) (tm_mday t)). intros n B.
  rewrite throw_if_false by (unfold MinTicks, MaxTicks, DaysTo10000, DaysPer400Years, DaysPer100Years, DaysPer4Years, DaysPerYear, TicksPerDay, TicksPerHour, TicksPerMinute, TicksPerSecond, TicksPerMillisecond; lia).
  rewrite bind_ret. f_equal. lia.
Qed.
Print Assumptions C106_now.
(** Today is its date. *)
Theorem C106_today t seconds nsec : denotes t seconds -> 0 <= nsec < 1000000000 -> get_Today t nsec = Ret (seconds / 86400 * ticks_per_day).
Proof.
  intros P N. unfold get_Today. rewrite (C106_now t seconds nsec P N), bind_ret. destruct P as (V & (Hh & Hmi & Hs & _) & E).
  pose proof (day_number_bounds _ _ _ V) as B. generalize dependent (day_number (tm_year t + 1900) (tm_mon t + 1) (tm_mday t)). intros n E B.
  unfold get_Date, DateTime_of_ticks. change TicksPerDay with 864000000000. rewrite Z.rem_mod_nonneg by lia.
  rewrite throw_if_false by (unfold MinTicks, MaxTicks, DaysTo10000, DaysPer400Years, DaysPer100Years, DaysPer4Years, DaysPerYear, TicksPerDay, TicksPerHour, TicksPerMinute, TicksPerSecond, TicksPerMillisecond; lia).
  rewrite bind_ret. f_equal. unfold ticks_per_day. lia.
Qed.
Print Assumptions C106_today.

Lemma zone_hours utc local u l : denotes utc u -> denotes local l -> GetTimeZone utc local = Ret ((tm_hour local - tm_hour utc) * 36000000000).
Proof.
  intros (_ & (H & _) & _) (_ & (H' & _) & _). unfold GetTimeZone. rewrite i32_ret by lia. rewrite bind_ret. unfold TS_of_hms, TS_TimeToTicks.
  rewrite i64_ret by lia. rewrite bind_ret. change MaxSeconds with 922337203685. change MinSeconds with (-922337203685). change TicksPerSecond with 10000000.
  rewrite throw_if_false by lia. rewrite bind_ret, i64_ret by lia. f_equal. lia.
Qed.
(** The zone is right exactly if its offset is a whole number of hours and it is the same day there and in UTC. *)
Theorem C106_zone_partial utc local u l : denotes utc u -> denotes local l ->
  (GetTimeZone utc local = Ret ((l - u) * 10000000) <-> (l - u) mod 3600 = 0 /\ l / 86400 = u / 86400).
Proof.
  intros U L. rewrite (zone_hours utc local u l U L). destruct U as (_ & (H & M & S & _) & ->), L as (_ & (H' & M' & S' & _) & ->).
  generalize (day_number (tm_year local + 1900) (tm_mon local + 1) (tm_mday local)). generalize (day_number (tm_year utc + 1900) (tm_mon utc + 1) (tm_mday utc)). intros a b.
  generalize dependent (tm_hour local). generalize dependent (tm_hour utc). generalize dependent (tm_min local). generalize dependent (tm_min utc). generalize dependent (tm_sec local). generalize dependent (tm_sec utc).
  intros s Hs s' Hs' mi Hmi mi' Hmi' h Hh h' Hh'. split.
  - intro E. injection E as E. assert (X : a * 86400 + mi * 60 + s + 86400 * 0 = b * 86400 + mi' * 60 + s') by lia. assert (a = b) by lia. subst b. split; lia.
  - intros [E1 E2]. f_equal. assert (a = b) by lia. subst b. lia.
Qed.
Print Assumptions C106_zone_partial.
(** Otherwise the answer is wrong, e.g. by a day: five hours west of UTC, from midnight to five o'clock UTC, the zone is nineteen hours east. *)
Theorem C106_zone_refuted utc local u l : denotes utc u -> denotes local l -> l / 86400 <> u / 86400 \/ (l - u) mod 3600 <> 0 -> GetTimeZone utc local <> Ret ((l - u) * 10000000).
Proof. intros U L C E. apply (C106_zone_partial utc local u l U L) in E. lia. Qed.
Print Assumptions C106_zone_refuted.
(** ToLocalTime and ToUniversalTime move by the zone, and throw when that leaves the calendar. *)
Theorem C106_conversions utc local u l v : denotes utc u -> denotes local l -> 0 <= v <= last_tick -> (l - u) mod 3600 = 0 -> l / 86400 = u / 86400 ->
  let z := (l - u) * 10000000 in
  ToLocalTime utc local v = (if (0 <=? v + z) && (v + z <=? last_tick) then Ret (v + z) else Exn ArgumentOutOfRangeException) /\
  ToUniversalTime utc local v = (if (0 <=? v - z) && (v - z <=? last_tick) then Ret (v - z) else Exn ArgumentOutOfRangeException).
Proof.
  intros U L V E1 E2 z. pose proof (proj2 (C106_zone_partial utc local u l U L) (conj E1 E2)) as Z. fold z in Z.
  assert (BZ : in_i64 z = true).
  { unfold z. apply in_i64_iff. destruct U as (VU & (H & M & S & _) & ->), L as (VL & (H' & M' & S' & _) & ->).
    pose proof (day_number_bounds _ _ _ VU). pose proof (day_number_bounds _ _ _ VL). lia. }
  assert (K : forall x, (0 <=? x) && (x <=? last_tick) = true -> DateTime_of_ticks x = Ret x).
  { intros x X. rewrite last_tick_val in X. unfold DateTime_of_ticks. change MinTicks with 0. change MaxTicks with 3155378975999999999. rewrite throw_if_false by lia. reflexivity. }
  unfold ToLocalTime, ToUniversalTime. rewrite Z, !bind_ret, c07_add, c07_sub by assumption.
  split; [destruct ((0 <=? v + z) && (v + z <=? last_tick)) eqn:F|destruct ((0 <=? v - z) && (v - z <=? last_tick)) eqn:F]; rewrite ?bind_ret; try (apply K; exact F); reflexivity.
Qed.
Print Assumptions C106_conversions.
(** They are inverse to each other, whatever the zone is taken to be (as long as it does not change in between). *)
Theorem C106_inverse utc local u l v w : denotes utc u -> denotes local l -> 0 <= v <= last_tick ->
  (ToLocalTime utc local v = Ret w -> ToUniversalTime utc local w = Ret v) /\ (ToUniversalTime utc local v = Ret w -> ToLocalTime utc local w = Ret v).
Proof.
  intros U L V. pose proof (zone_hours utc local u l U L) as Z. set (z := (tm_hour local - tm_hour utc) * 36000000000) in *.
  assert (BZ : in_i64 z = true) by (unfold z; apply in_i64_iff; destruct U as (_ & (H & _) & _), L as (_ & (H' & _) & _); lia). clearbody z.
  assert (K : forall x, (0 <=? x) && (x <=? last_tick) = true -> DateTime_of_ticks x = Ret x).
  { intros x X. rewrite last_tick_val in X. unfold DateTime_of_ticks. change MinTicks with 0. change MaxTicks with 3155378975999999999. rewrite throw_if_false by lia. reflexivity. }
  unfold ToLocalTime, ToUniversalTime. rewrite Z, !bind_ret, (c07_add v z V BZ), (c07_sub v z V BZ). split.
  - destruct ((0 <=? v + z) && (v + z <=? last_tick)) eqn:F; [|discriminate]. rewrite bind_ret, (K _ F). intro E. injection E as <-. rewrite (c07_sub (v + z) z) by (try assumption; lia).
    replace (v + z - z) with v by lia. replace ((0 <=? v) && (v <=? last_tick)) with true by lia. rewrite bind_ret. apply K. lia.
  - destruct ((0 <=? v - z) && (v - z <=? last_tick)) eqn:F; [|discriminate]. rewrite bind_ret, (K _ F). intro E. injection E as <-. rewrite (c07_add (v - z) z) by (try assumption; lia).
    replace (v - z + z) with v by lia. replace ((0 <=? v) && (v <=? last_tick)) with true by lia. rewrite bind_ret. apply K. lia.
Qed.
Print Assumptions C106_inverse.
(** ten o'clock UTC, five o'clock five hours west; two o'clock UTC, nine in the evening there *)
Example C106_example : let utc h := mk_tm 121 1 25 h 30 0 in
  exists u l, denotes (utc 10) u /\ denotes (utc 5) l /\ GetTimeZone (utc 10) (utc 5) = Ret ((l - u) * 10000000) /\
  exists u' l', denotes (utc 2) u' /\ denotes (mk_tm 121 1 24 21 30 0) l' /\ l' - u' = -5 * 3600 /\ GetTimeZone (utc 2) (mk_tm 121 1 24 21 30 0) = Ret (19 * 36000000000).
Proof.
  assert (D : day_number 2021 2 25 = 737845) by (rewrite day_number_closed by lia; reflexivity).
  assert (D' : day_number 2021 2 24 = 737844) by (rewrite day_number_closed by lia; reflexivity).
  cbv zeta. exists (737845 * 86400 + 10 * 3600 + 30 * 60), (737845 * 86400 + 5 * 3600 + 30 * 60).
  unfold denotes, valid_date, valid_time. cbn -[day_number month_length]. rewrite D. change (month_length 2021 2) with 28. split; [lia|]. split; [lia|]. split; [reflexivity|].
  exists (737845 * 86400 + 2 * 3600 + 30 * 60), (737844 * 86400 + 21 * 3600 + 30 * 60). rewrite D'. split; [lia|]. split; [lia|]. split; reflexivity.
Qed.
