(** * Proofs about TimeSpan *)
From Verif Require Import Tac DateTimeModel IntModel IntSpec IntProofs TimeSpanModel TimeSpanSpec.

Ltac ts_consts :=
  change TicksPerDay with 864000000000 in *; change TicksPerHour with 36000000000 in *;
  change TicksPerMinute with 600000000 in *; change TicksPerSecond with 10000000 in *;
  change TicksPerMillisecond with 10000 in *; change MaxSeconds with 922337203685 in *;
  change MinSeconds with (-922337203685) in *; change MaxMilliSeconds with 922337203685477 in *;
  change MinMilliSeconds with (-922337203685477) in *; change TS_MinValue with 0 in *;
  change TS_MaxValue with (-1) in *.

(** ** C09 *)
Lemma quot_chain v : forall a b, 0 < a -> 0 < b -> v /c (a * b) = (v /c a) /c b.
Proof. intros a b Ha Hb. rewrite Z.quot_quot by lia. reflexivity. Qed.

Lemma c09 v : in_i64 v = true ->
  let D := TS_get_Days v in let H := TS_get_Hours v in let M := TS_get_Minutes v in
  let S := TS_get_Seconds v in let L := TS_get_Milliseconds v in
  exists sub, v = ((((D * 24 + H) * 60 + M) * 60 + S) * 1000 + L) * 10000 + sub /\
  Z.abs H <= 23 /\ Z.abs M <= 59 /\ Z.abs S <= 59 /\ Z.abs L <= 999 /\ Z.abs sub <= 9999 /\
  (0 <= v -> 0 <= D /\ 0 <= H /\ 0 <= M /\ 0 <= S /\ 0 <= L /\ 0 <= sub) /\
  (v <= 0 -> D <= 0 /\ H <= 0 /\ M <= 0 /\ S <= 0 /\ L <= 0 /\ sub <= 0).
Proof.
  intros Hv. apply in_i64_iff in Hv. cbv zeta.
  unfold TS_get_Days, TS_get_Hours, TS_get_Minutes, TS_get_Seconds, TS_get_Milliseconds. ts_consts.
  rewrite !cast_i32_id by lia.
  set (ms := v /c 10000). set (sub := v %c 10000).
  assert (E0 : v = ms * 10000 + sub) by (unfold ms, sub; pose proof (Z.quot_rem' v 10000); lia).
  assert (B0 : Z.abs sub <= 9999) by (unfold sub; lia).
  assert (P0 : (0 <= v -> 0 <= ms /\ 0 <= sub) /\ (v <= 0 -> ms <= 0 /\ sub <= 0)) by (unfold ms, sub; lia).
  replace (v /c 10000000) with (ms /c 1000) by (unfold ms; rewrite Z.quot_quot by lia; reflexivity).
  replace (v /c 600000000) with (ms /c 1000 /c 60) by (unfold ms; rewrite !Z.quot_quot by lia; reflexivity).
  replace (v /c 36000000000) with (ms /c 1000 /c 60 /c 60) by (unfold ms; rewrite !Z.quot_quot by lia; reflexivity).
  replace (v /c 864000000000) with (ms /c 1000 /c 60 /c 60 /c 24) by (unfold ms; rewrite !Z.quot_quot by lia; reflexivity).
  clearbody ms sub. exists sub.
  set (s := ms /c 1000). set (l := ms %c 1000).
  assert (E1 : ms = s * 1000 + l) by (unfold s, l; pose proof (Z.quot_rem' ms 1000); lia).
  assert (B1 : Z.abs l <= 999) by (unfold l; lia).
  assert (P1 : (0 <= ms -> 0 <= s /\ 0 <= l) /\ (ms <= 0 -> s <= 0 /\ l <= 0)) by (unfold s, l; lia).
  clearbody s l.
  set (m := s /c 60). set (s60 := s %c 60).
  assert (E2 : s = m * 60 + s60) by (unfold m, s60; pose proof (Z.quot_rem' s 60); lia).
  assert (B2 : Z.abs s60 <= 59) by (unfold s60; lia).
  assert (P2 : (0 <= s -> 0 <= m /\ 0 <= s60) /\ (s <= 0 -> m <= 0 /\ s60 <= 0)) by (unfold m, s60; lia).
  clearbody m s60.
  set (h := m /c 60). set (m60 := m %c 60).
  assert (E3 : m = h * 60 + m60) by (unfold h, m60; pose proof (Z.quot_rem' m 60); lia).
  assert (B3 : Z.abs m60 <= 59) by (unfold m60; lia).
  assert (P3 : (0 <= m -> 0 <= h /\ 0 <= m60) /\ (m <= 0 -> h <= 0 /\ m60 <= 0)) by (unfold h, m60; lia).
  clearbody h m60.
  set (d := h /c 24). set (h24 := h %c 24).
  assert (E4 : h = d * 24 + h24) by (unfold d, h24; pose proof (Z.quot_rem' h 24); lia).
  assert (B4 : Z.abs h24 <= 23) by (unfold h24; lia).
  assert (P4 : (0 <= h -> 0 <= d /\ 0 <= h24) /\ (h <= 0 -> d <= 0 /\ h24 <= 0)) by (unfold d, h24; lia).
  clearbody d h24.
  repeat split; lia.
Qed.

Lemma c09_ctor d h m s ms :
  in_i32 d = true -> in_i32 h = true -> in_i32 m = true -> in_i32 s = true -> in_i32 ms = true ->
  let total := ((((d * 24 + h) * 60 + m) * 60 + s) * 1000 + ms) * 10000 in
  TS_of_dhms d h m s ms = if in_i64 total then Ret total else Exn ArgumentOutOfRangeException.
Proof.
  rewrite !in_i32_iff. intros Hd Hh Hm Hs Hms total.
  unfold TS_of_dhms. ts_consts. rewrite i64_ret by lia. rewrite bind_ret.
  destruct (in_i64 total) eqn:E.
  - apply in_i64_iff in E. unfold total in E. rewrite throw_if_false by lia. rewrite bind_ret.
    rewrite i64_ret by lia. f_equal. unfold total. lia.
  - rewrite throw_if_true; [reflexivity|].
    assert (N : ~ (-9223372036854775808 <= total <= 9223372036854775807)) by (rewrite <- in_i64_iff; rewrite E; discriminate).
    unfold total in N. lia.
Qed.

Lemma c09_hms h m s :
  in_i32 h = true -> in_i32 m = true -> in_i32 s = true ->
  let total := ((h * 60 + m) * 60 + s) * 10000000 in
  TS_of_hms h m s = if in_i64 total then Ret total else Exn ArgumentOutOfRangeException.
Proof.
  rewrite !in_i32_iff. intros Hh Hm Hs total.
  unfold TS_of_hms, TS_TimeToTicks. ts_consts. rewrite i64_ret by lia. rewrite bind_ret.
  destruct (in_i64 total) eqn:E.
  - apply in_i64_iff in E. unfold total in E. rewrite throw_if_false by lia. rewrite bind_ret.
    rewrite i64_ret by lia. f_equal. unfold total. lia.
  - rewrite throw_if_true; [reflexivity|].
    assert (N : ~ (-9223372036854775808 <= total <= 9223372036854775807)) by (rewrite <- in_i64_iff; rewrite E; discriminate).
    unfold total in N. lia.
Qed.

(** ** C10, C11 *)
Lemma shiftr63 v : in_i64 v = true -> Z.shiftr v 63 = if v <? 0 then -1 else 0.
Proof.
  intros H. apply in_i64_iff in H. rewrite Z.shiftr_div_pow2 by lia. change (2 ^ 63) with 9223372036854775808.
  destruct (v <? 0) eqn:E; lia.
Qed.

Lemma c10 a b : in_i64 a = true -> in_i64 b = true ->
  TS_Add a b = if in_i64 (a + b) then Ret (a + b) else UB SignedOverflow.
Proof.
  intros Ha Hb. unfold TS_Add, i64. destruct (in_i64 (a + b)) eqn:E; [|reflexivity]. cbn [bind].
  rewrite !shiftr63 by assumption.
  destruct (a <? 0) eqn:A, (b <? 0) eqn:B, (a + b <? 0) eqn:C; cbn; try reflexivity; exfalso; clear E; try clear Ha Hb; lia.
Qed.

Lemma c10_wrapv a b : in_i64 a = true -> in_i64 b = true ->
  TS_Add_wrapv a b = if in_i64 (a + b) then Ret (a + b) else Exn OverflowException.
Proof.
  intros Ha Hb. unfold TS_Add_wrapv. cbv zeta.
  assert (HR : in_i64 (cast_i64 (a + b)) = true).
  { apply in_i64_iff. unfold cast_i64, cast_s. change (2 ^ (64 - 1)) with 9223372036854775808. change (2 ^ 64) with 18446744073709551616. lia. }
  rewrite !shiftr63 by assumption. apply in_i64_iff in Ha, Hb.
  assert (Hc : cast_i64 (a + b) = if in_i64 (a + b) then a + b else if a <? 0 then a + b + 18446744073709551616 else a + b - 18446744073709551616).
  { destruct (in_i64 (a + b)) eqn:E.
    - apply in_i64_iff in E. apply cast_i64_id. exact E.
    - assert (N : ~ (-9223372036854775808 <= a + b <= 9223372036854775807)) by (rewrite <- in_i64_iff; rewrite E; discriminate).
      unfold cast_i64, cast_s. change (2 ^ (64 - 1)) with 9223372036854775808. change (2 ^ 64) with 18446744073709551616.
      destruct (a <? 0) eqn:A; lia. }
  rewrite Hc. clear Hc HR.
  destruct (in_i64 (a + b)) eqn:E.
  - destruct (a <? 0) eqn:A, (b <? 0) eqn:B, (a + b <? 0) eqn:C; cbn; try reflexivity; exfalso; clear E; try clear Ha Hb; lia.
  - assert (N : ~ (-9223372036854775808 <= a + b <= 9223372036854775807)) by (rewrite <- in_i64_iff; rewrite E; discriminate).
    destruct (a <? 0) eqn:A.
    + replace (b <? 0) with true by lia. replace (a + b + 18446744073709551616 <? 0) with false by lia. reflexivity.
    + replace (b <? 0) with false by lia. replace (a + b - 18446744073709551616 <? 0) with true by lia. reflexivity.
Qed.

Lemma c11 a b : in_i64 a = true -> in_i64 b = true ->
  TS_Subtract a b =
    if in_i64 (a - b)
    then if ((0 <=? a) && (0 <=? b) && (a <? b)) || ((a <? 0) && (b <? 0) && (b <=? a))
         then Exn OverflowException else Ret (a - b)
    else UB SignedOverflow.
Proof.
  intros Ha Hb. unfold TS_Subtract, i64. destruct (in_i64 (a - b)) eqn:E; [|reflexivity]. cbn [bind].
  rewrite !shiftr63 by assumption.
  destruct (a <? 0) eqn:A, (b <? 0) eqn:B, (a - b <? 0) eqn:C; cbn;
    repeat match goal with |- context[if ?c then _ else _] => destruct c eqn:?; try reflexivity; try lia end.
Qed.

(** ** C12 *)
Lemma c12 v : in_i64 v = true -> v <> 0 -> v <> -9223372036854775808 ->
  TS_Negate v = Ret (- v) /\ TS_Duration v = Ret (Z.abs v).
Proof.
  intros H H0 Hm. apply in_i64_iff in H. unfold TS_Negate, TS_Duration. ts_consts.
  rewrite throw_if_false by lia. rewrite !bind_ret. rewrite i64_ret by lia. split; [reflexivity|].
  destruct (0 <=? v) eqn:E; f_equal; lia.
Qed.

(** ** C13 *)
Lemma dec_digits_1 f n : 0 <= n < 10 -> dec_digits (S f) n = [48 + n].
Proof. intros H. cbn [dec_digits]. replace (n / 10 =? 0) with true by lia. cbn [app]. f_equal. lia. Qed.
Lemma dec_digits_S f n : 10 <= n -> dec_digits (S f) n = dec_digits f (n / 10) ++ [48 + n mod 10].
Proof. intros H. cbn [dec_digits]. replace (n / 10 =? 0) with false by lia. reflexivity. Qed.

Lemma print_u_1 n : 0 <= n < 10 -> print_u n = [48 + n].
Proof. apply dec_digits_1. Qed.
Lemma print_u_2 n : 10 <= n < 100 -> print_u n = [48 + n / 10; 48 + n mod 10].
Proof. intros H. unfold print_u. rewrite dec_digits_S by lia. rewrite dec_digits_1 by lia. reflexivity. Qed.
Lemma print_02d_eq n : 0 <= n < 100 -> print_02d n = [48 + n / 10; 48 + n mod 10].
Proof.
  intros H. unfold print_02d. replace (n <? 0) with false by lia. destruct (n <? 10) eqn:E.
  - rewrite print_u_1 by lia. f_equal; [lia|f_equal; lia].
  - apply print_u_2. lia.
Qed.
Lemma print_u_7 n : 1000000 <= n < 10000000 ->
  print_u n = [48 + n / 1000000; 48 + n / 100000 mod 10; 48 + n / 10000 mod 10; 48 + n / 1000 mod 10;
               48 + n / 100 mod 10; 48 + n / 10 mod 10; 48 + n mod 10].
Proof.
  intros H. unfold print_u. rewrite !dec_digits_S by lia. rewrite dec_digits_1 by lia. cbn [app].
  rewrite !Z.div_div by lia. reflexivity.
Qed.

Lemma format_eq v : in_i64 v = true ->
  TS_FormatString v =
  let a := Z.abs v in
  let f := a mod 10000000 in
  Ret ((if v <? 0 then [45] else []) ++
  (if a / 864000000000 =? 0 then [] else print_u (a / 864000000000) ++ [46]) ++
  two_digits (a / 36000000000 mod 24) ++ [58] ++ two_digits (a / 600000000 mod 60) ++ [58] ++
  two_digits (a / 10000000 mod 60) ++
  (if f =? 0 then [] else [46] ++ print_u f ++ repeat 48 (Z.to_nat (7 - zlen (print_u f))))).
Proof.
  intros Hv. apply in_i64_iff in Hv. cbv zeta. unfold TS_FormatString. ts_consts. cbv zeta.
  set (a := Z.abs v) in *.
  assert (Ed : (if v <? 0 then i32 (- cast_i32 (v /c 864000000000)) else Ret (cast_i32 (v /c 864000000000))) = Ret (a / 864000000000)).
  { rewrite cast_i32_id by lia. destruct (v <? 0) eqn:E.
    - rewrite i32_ret by lia. f_equal. unfold a. lia.
    - f_equal. unfold a. lia. }
  assert (Et : (if v <? 0 then i64 (- (v %c 864000000000)) else Ret (v %c 864000000000)) = Ret (a mod 864000000000)).
  { destruct (v <? 0) eqn:E.
    - rewrite i64_ret by lia. f_equal. unfold a. lia.
    - f_equal. unfold a. lia. }
  rewrite Ed, bind_ret, Et, bind_ret. clear Ed Et.
  assert (Ha : 0 <= a <= 9223372036854775808) by (unfold a; lia).
  set (t := a mod 864000000000).
  assert (Ht : 0 <= t < 864000000000) by (unfold t; lia).
  rewrite !cast_i32_id by lia.
  assert (EH : (t /c 36000000000) %c 24 = a / 36000000000 mod 24).
  { rewrite Z.quot_div_nonneg, Z.rem_mod_nonneg by (try lia). unfold t. 
    replace 864000000000 with (36000000000 * 24) by reflexivity.
    rewrite Z.rem_mul_r by lia. rewrite (Z.mul_comm 36000000000 (_ mod _)), Z.div_add by lia.
    rewrite (Z.div_small (a mod 36000000000)) by (apply Z.mod_pos_bound; lia). rewrite Z.add_0_l.
    rewrite Z.mod_mod by lia. reflexivity. }
  assert (EM : (t /c 600000000) %c 60 = a / 600000000 mod 60).
  { rewrite Z.quot_div_nonneg, Z.rem_mod_nonneg by (try lia). unfold t.
    replace 864000000000 with (600000000 * 1440) by reflexivity.
    rewrite Z.rem_mul_r by lia. rewrite (Z.mul_comm 600000000 (_ mod _)), Z.div_add by lia.
    rewrite (Z.div_small (a mod 600000000)) by (apply Z.mod_pos_bound; lia). rewrite Z.add_0_l.
    rewrite <- Znumtheory.Zmod_div_mod; [reflexivity|lia|lia|exists 24; reflexivity]. }
  assert (ES : (t /c 10000000) %c 60 = a / 10000000 mod 60).
  { rewrite Z.quot_div_nonneg, Z.rem_mod_nonneg by (try lia). unfold t.
    replace 864000000000 with (10000000 * 86400) by reflexivity.
    rewrite Z.rem_mul_r by lia. rewrite (Z.mul_comm 10000000 (_ mod _)), Z.div_add by lia.
    rewrite (Z.div_small (a mod 10000000)) by (apply Z.mod_pos_bound; lia). rewrite Z.add_0_l.
    rewrite <- Znumtheory.Zmod_div_mod; [reflexivity|lia|lia|exists 1440; reflexivity]. }
  assert (EF : t %c 10000000 = a mod 10000000).
  { rewrite Z.rem_mod_nonneg by lia. unfold t.
    rewrite <- Znumtheory.Zmod_div_mod; [reflexivity|lia|lia|exists 86400; reflexivity]. }
  rewrite EH, EM, ES, EF. clearbody t. clear EH EM ES EF.
  rewrite !print_02d_eq by lia. fold (two_digits (a / 36000000000 mod 24)). fold (two_digits (a / 600000000 mod 60)).
  fold (two_digits (a / 10000000 mod 60)).
  f_equal. f_equal.
  assert (PD : print_d (a / 864000000000) = print_u (a / 864000000000)).
  { unfold print_d. replace (a / 864000000000 <? 0) with false by lia. reflexivity. }
  assert (PF : print_d (a mod 10000000) = print_u (a mod 10000000)).
  { unfold print_d. replace (a mod 10000000 <? 0) with false by lia. reflexivity. }
  rewrite PD, PF.
  destruct (a / 864000000000 =? 0); destruct (a mod 10000000 =? 0); cbn [negb]; rewrite <- ?app_assoc; reflexivity.
Qed.

Lemma c13_text v : in_i64 v = true -> frac_ok v -> TS_FormatString v = Ret (span_text v).
Proof.
  intros Hv Hf. rewrite format_eq by exact Hv. cbv zeta. unfold span_text. f_equal.
  do 7 f_equal. unfold frac_ok in Hf.
  destruct (Z.abs v mod 10000000 =? 0) eqn:E; [reflexivity|].
  f_equal. f_equal. rewrite print_u_7 by lia.
  change (zlen [48 + Z.abs v mod 10000000 / 1000000; 48 + Z.abs v mod 10000000 / 100000 mod 10; 48 + Z.abs v mod 10000000 / 10000 mod 10;
     48 + Z.abs v mod 10000000 / 1000 mod 10; 48 + Z.abs v mod 10000000 / 100 mod 10; 48 + Z.abs v mod 10000000 / 10 mod 10; 48 + Z.abs v mod 10000000 mod 10]) with 7.
  reflexivity.
Qed.

(** ** Parsing the text back *)
Section RoundTrip.
Variable ws : Z -> bool.
Hypothesis Hws : space_ok ws.

Lemma tp2 x y r : 0 <= x <= 9 -> 0 <= y <= 9 -> r <> [] ->
  TryParseInternal ws (48 + x :: 48 + y :: r) 2 = Ret (true, 10 * x + y, 1).
Proof.
  intros Hx Hy Hr. destruct r as [|c r]; [contradiction|].
  assert (W : ws (48 + x) = false) by (apply (ws_digit ws Hws); unfold digit; lia).
  unfold TryParseInternal. cbn [skip_ws]. replace (48 + x =? 0) with false by lia. cbn [negb andb].
  change (0 <? 2) with true. cbv iota. rewrite W. cbn [negb]. rewrite bind_ret.
  cbn [read_sign]. replace (48 + x =? 0) with false by lia. cbn [negb andb]. change (0 <? 2) with true. cbv iota.
  replace (48 + x =? 45) with false by lia. replace (48 + x =? 43) with false by lia. rewrite bind_ret.
  cbn [read_digits]. replace (48 + x =? 0) with false by lia. cbn [negb andb]. change (0 <? 2) with true. cbv iota.
  replace (IsDigit (48 + x)) with true by (symmetry; apply IsDigit_iff; unfold digit; lia). cbn [negb].
  replace (48 + y =? 0) with false by lia. change (0 <? 2 - 1) with true. cbn [negb andb].
  replace (IsDigit (48 + y)) with true by (symmetry; apply IsDigit_iff; unfold digit; lia). cbn [negb].
  change (0 <? 2 - 1 - 1) with false. rewrite andb_false_r. rewrite bind_ret. change (0 <? 2 - 1 - 1) with false. cbv iota.
  rewrite (cast_u64_id (10 * 0 + (48 + x) - 48)) by lia. rewrite cast_u64_id by lia.
  do 2 f_equal. f_equal. lia.
Qed.

Lemma tp1 x r : 0 <= x <= 9 -> r <> [] -> TryParseInternal ws (48 + x :: r) 1 = Ret (true, x, 1).
Proof.
  intros Hx Hr. destruct r as [|c r]; [contradiction|].
  assert (W : ws (48 + x) = false) by (apply (ws_digit ws Hws); unfold digit; lia).
  unfold TryParseInternal. cbn [skip_ws]. replace (48 + x =? 0) with false by lia. cbn [negb andb].
  change (0 <? 1) with true. cbv iota. rewrite W. cbn [negb]. rewrite bind_ret.
  cbn [read_sign]. replace (48 + x =? 0) with false by lia. cbn [negb andb]. change (0 <? 1) with true. cbv iota.
  replace (48 + x =? 45) with false by lia. replace (48 + x =? 43) with false by lia. rewrite bind_ret.
  cbn [read_digits]. replace (48 + x =? 0) with false by lia. cbn [negb andb]. change (0 <? 1) with true. cbv iota.
  replace (IsDigit (48 + x)) with true by (symmetry; apply IsDigit_iff; unfold digit; lia). cbn [negb].
  change (0 <? 1 - 1) with false. rewrite andb_false_r. rewrite bind_ret. change (0 <? 1 - 1) with false. cbv iota.
  rewrite cast_u64_id by lia.
  do 2 f_equal. f_equal. lia.
Qed.

Lemma isd x : 0 <= x <= 9 -> IsDigit (48 + x) = true.
Proof. intros. apply IsDigit_iff. unfold digit. lia. Qed.

Lemma rd0 {A} (x : A) l : read (x :: l) 0 = Ret x. Proof. reflexivity. Qed.
Lemma rd1 {A} (x y : A) l : read (x :: y :: l) 1 = Ret y. Proof. reflexivity. Qed.
Lemma rd2 {A} (x y z : A) l : read (x :: y :: z :: l) 2 = Ret z. Proof. reflexivity. Qed.

Lemma numbers_S f chars n nums : TS_numbers ws (S f) chars n nums =
  if 0 <? n then
      c0 <- read chars 0 ;;
      if negb (IsDigit c0) then Ret (chars, n, nums) else
      stop <- (if 2 <? n then
                 c1 <- read chars 1 ;;
                 if negb (c1 =? 58) then
                   c2 <- read chars 2 ;;
                   Ret (negb (c2 =? 58) && negb (c2 =? 46) && negb (c1 =? 46))
                 else Ret false
               else Ret false) ;;
      if stop : bool then Ret (chars, n, nums) else
      c1 <- read chars 1 ;;
      let digits := if IsDigit c1 then 2 else 1 in
      '(_, number, _) <- TryParseInternal ws chars digits ;;
      if 4 <=? zlen nums then UB OutOfBoundsWrite else
      TS_numbers ws f (skipn (Z.to_nat (digits + 1)) chars) (n - (digits + 1)) (nums ++ [cast_i64 number])
  else Ret (chars, n, nums).
Proof. reflexivity. Qed.

(** Two digits followed by a colon, a full stop or the end. *)
Lemma numbers_2 f n k r nums m : 0 <= n < 100 -> k = 58 \/ k = 46 \/ m = 2 -> 2 <= m -> zlen nums < 4 ->
  TS_numbers ws (S f) (two_digits n ++ k :: r) m nums =
  TS_numbers ws f r (m - 3) (nums ++ [n]).
Proof.
  intros Hn Hk Hm Hz. unfold two_digits. cbn [app].
  rewrite numbers_S. replace (0 <? m) with true by lia.
  rewrite rd0, rd1, rd2, !bind_ret. rewrite isd by lia. cbn [negb].
  replace (48 + n mod 10 =? 58) with false by lia. cbn [negb].
  assert (ES : (if 2 <? m then Ret (negb (k =? 58) && negb (k =? 46) && negb (48 + n mod 10 =? 46)) else Ret false) = Ret false).
  { destruct (2 <? m) eqn:E2; [|reflexivity].
    destruct Hk as [Hk | [Hk | Hk] ]; subst; try reflexivity; discriminate. }
  rewrite ES, !bind_ret. rewrite isd by lia.
  cbv zeta. rewrite tp2 by (try lia; discriminate). rewrite bind_ret. replace (4 <=? zlen nums) with false by lia.
  change (Z.to_nat (2 + 1)) with 3%nat. cbn [skipn]. change (2 + 1) with 3.
  rewrite cast_i64_id by lia. do 2 f_equal. f_equal. lia.
Qed.

(** One digit followed by a full stop. *)
Lemma numbers_1 f n r nums m : 0 <= n < 10 -> r <> [] -> 2 <= m -> zlen nums < 4 -> 
  TS_numbers ws (S f) (48 + n :: 46 :: r) m nums =
  TS_numbers ws f r (m - 2) (nums ++ [n]).
Proof.
  intros Hn Hr Hm Hz. destruct r as [|c r]; [contradiction|].
  rewrite numbers_S. replace (0 <? m) with true by lia.
  rewrite rd0, rd1, rd2, !bind_ret. rewrite isd by lia. change (negb true) with false. change (negb (46 =? 58)) with true. cbv iota.
  change (negb (46 =? 46)) with false. rewrite andb_false_r.
  replace (if 2 <? m then Ret false else Ret false) with (@Ret bool false) by (destruct (2 <? m); reflexivity).
  rewrite !bind_ret. change (IsDigit 46) with false. cbv zeta. cbv iota.
  rewrite tp1 by (try lia; discriminate). rewrite bind_ret. replace (4 <=? zlen nums) with false by lia.
  change (Z.to_nat (1 + 1)) with 2%nat. cbn [skipn]. change (1 + 1) with 2.
  rewrite cast_i64_id by lia. reflexivity.
Qed.

(** The fraction digits end the number loop. *)
Lemma numbers_stop f n nums r : 0 <= n < 10000000 ->
  TS_numbers ws (S f) (seven_digits n ++ r) 7 nums = Ret (seven_digits n ++ r, 7, nums).
Proof.
  intros Hn. unfold seven_digits. cbn [app]. rewrite numbers_S. change (0 <? 7) with true. cbv iota.
  rewrite rd0, rd1, rd2, !bind_ret. rewrite isd by lia. change (negb true) with false. cbv iota.
  change (2 <? 7) with true. cbv iota.
  replace (48 + n / 100000 mod 10 =? 58) with false by lia.
  replace (48 + n / 10000 mod 10 =? 58) with false by lia.
  replace (48 + n / 10000 mod 10 =? 46) with false by lia.
  replace (48 + n / 100000 mod 10 =? 46) with false by lia. reflexivity.
Qed.

Lemma frac_step f x r n fr acc : 0 <= x <= 9 -> 0 < n -> 1 < fr ->
  TS_fraction (S f) (48 + x :: r) n fr acc = TS_fraction f r (n - 1) (fr /c 10) (acc + x * (fr /c 10)).
Proof.
  intros Hx Hn Hf. cbn [TS_fraction]. replace (1 <? fr) with true by lia. replace (0 <? n) with true by lia.
  cbn [andb]. rewrite rd0, bind_ret, isd by lia. cbn [skipn]. cbv zeta. do 2 f_equal. lia.
Qed.

Lemma frac_7 n r : 0 <= n < 10000000 -> TS_fraction 8 (seven_digits n ++ r) 7 10000000 0 = Ret n.
Proof.
  intros Hn. unfold seven_digits. cbn [app].
  do 7 (rewrite frac_step by lia).
  change (10000000 /c 10) with 1000000. change (1000000 /c 10) with 100000. change (100000 /c 10) with 10000.
  change (10000 /c 10) with 1000. change (1000 /c 10) with 100. change (100 /c 10) with 10. change (10 /c 10) with 1.
  cbn [TS_fraction]. change (1 <? 1) with false. cbn [andb].
  f_equal.
  replace (n / 1000000) with (n / 10 / 10 / 10 / 10 / 10 / 10) by (rewrite !Z.div_div by lia; reflexivity).
  replace (n / 100000) with (n / 10 / 10 / 10 / 10 / 10) by (rewrite !Z.div_div by lia; reflexivity).
  replace (n / 10000) with (n / 10 / 10 / 10 / 10) by (rewrite !Z.div_div by lia; reflexivity).
  replace (n / 1000) with (n / 10 / 10 / 10) by (rewrite !Z.div_div by lia; reflexivity).
  replace (n / 100) with (n / 10 / 10) by (rewrite !Z.div_div by lia; reflexivity).
  set (a := n / 10); set (b := a / 10); set (c := b / 10); set (d := c / 10); set (e := d / 10); set (g := e / 10).
  pose proof (Z.div_mod n 10); pose proof (Z.div_mod a 10); pose proof (Z.div_mod b 10); pose proof (Z.div_mod c 10);
  pose proof (Z.div_mod d 10); pose proof (Z.div_mod e 10).
  fold a in H; fold b in H0; fold c in H1; fold d in H2; fold e in H3; fold g in H4. clearbody a b c d e g.
  lia.
Qed.

Lemma zlen_nil {A} : zlen (@nil A) = 0. Proof. reflexivity. Qed.
Ltac zl := rewrite ?zlen_app, ?zlen_cons, ?zlen_nil; lia.
Lemma zlen_two n : zlen (two_digits n) = 2. Proof. reflexivity. Qed.
Lemma zlen_seven n : zlen (seven_digits n) = 7. Proof. reflexivity. Qed.

(** hh:mm:ss with optional fraction, from a state where [pre] numbers were read. *)
Lemma numbers_hms f h m s fr pre : 0 <= h < 100 -> 0 <= m < 100 -> 0 <= s < 100 -> 0 <= fr < 10000000 -> zlen pre <= 1 -> (4 <= f)%nat ->
  let tail := if fr =? 0 then [] else [46] ++ seven_digits fr in
  let text := two_digits h ++ [58] ++ two_digits m ++ [58] ++ two_digits s ++ tail in
  exists chars n, TS_numbers ws f (text ++ [NUL]) (zlen text) pre = Ret (chars, n, pre ++ [h; m; s]) /\
    TS_fraction 8 chars n 10000000 0 = Ret fr.
Proof.
  intros Hh Hm Hs Hf Hp Hfu tail text. unfold text.
  destruct f as [|[|[|[|f]]]]; try lia.
  rewrite !zlen_app, !zlen_two. change (zlen [58]) with 1.
  rewrite <- !app_assoc. cbn [app].
  pose proof (zlen_nonneg tail).
  rewrite numbers_2 by zl. rewrite numbers_2 by zl.
  unfold tail. destruct (fr =? 0) eqn:E.
  - cbn [app]. change (zlen []) with 0. rewrite numbers_2 by zl.
    exists [], (-1). split.
    + cbn. rewrite <- !app_assoc. reflexivity.
    + cbn. f_equal. lia.
  - cbn [app]. rewrite zlen_cons, zlen_seven. rewrite numbers_2 by zl.
    replace (2 + (1 + (2 + (1 + (2 + (1 + 7))))) - 3 - 3 - 3) with 7 by lia.
    rewrite numbers_stop by lia. exists (seven_digits fr ++ [NUL]), 7. split.
    + rewrite <- !app_assoc. reflexivity.
    + apply frac_7. lia.
Qed.

Lemma TryParse_shape v : in_i64 v = true -> Z.abs v / 864000000000 < 100 -> TS_TryParse ws (span_text v) = Ret v.
Proof.
  intros Hv Hd. apply in_i64_iff in Hv. unfold span_text. cbv zeta.
  set (a := Z.abs v) in *. assert (Ha : 0 <= a <= 9223372036854775808) by (unfold a; lia).
  set (D := a / 864000000000) in *. set (H := a / 36000000000 mod 24). set (M := a / 600000000 mod 60).
  set (S := a / 10000000 mod 60). set (F := a mod 10000000).
  assert (BD : 0 <= D) by (unfold D; lia). assert (BH : 0 <= H < 24) by (unfold H; lia).
  assert (BM : 0 <= M < 60) by (unfold M; lia). assert (BS : 0 <= S < 60) by (unfold S; lia).
  assert (BF : 0 <= F < 10000000) by (unfold F; lia).
  assert (EA : a = F + D * 864000000000 + H * 36000000000 + M * 600000000 + S * 10000000).
  { unfold F, D, H, M, S.
    replace (a / 864000000000) with (a / 10000000 / 60 / 60 / 24) by (rewrite !Z.div_div by lia; reflexivity).
    replace (a / 36000000000) with (a / 10000000 / 60 / 60) by (rewrite !Z.div_div by lia; reflexivity).
    replace (a / 600000000) with (a / 10000000 / 60) by (rewrite !Z.div_div by lia; reflexivity).
    pose proof (Z.div_mod a 10000000). generalize dependent (a / 10000000). intros s ?.
    pose proof (Z.div_mod s 60). generalize dependent (s / 60). intros m ?.
    pose proof (Z.div_mod m 60). generalize dependent (m / 60). intros h ?.
    pose proof (Z.div_mod h 24). lia. }
  set (tail := if F =? 0 then [] else [46] ++ seven_digits F).
  set (days := if D =? 0 then [] else print_u D ++ [46]).
  set (hms := two_digits H ++ [58] ++ two_digits M ++ [58] ++ two_digits S ++ tail).
  clearbody D H M S F.
  assert (core : forall f, (6 <= f)%nat -> exists chars n nums,
    TS_numbers ws f ((days ++ hms) ++ [NUL]) (zlen (days ++ hms)) [] = Ret (chars, n, nums) /\
    TS_fraction 8 chars n 10000000 0 = Ret F /\
    nums = (if D =? 0 then [] else [D]) ++ [H; M; S]).
  { intros f Hf. unfold days. destruct (D =? 0) eqn:E0.
    - destruct (numbers_hms f H M S F []) as (c & n & E1 & E2); try lia. { cbn; lia. }
      cbv zeta in E1. exists c, n, [H; M; S]. split; [exact E1|]. split; [exact E2|reflexivity].
    - destruct f as [|f]; [lia|].
      destruct (numbers_hms f H M S F [D]) as (c & n & E1 & E2); try lia. { cbn; lia. }
      cbv zeta in E1. fold tail in E1. fold hms in E1. exists c, n, [D; H; M; S]. split; [|split; [exact E2|reflexivity]].
      rewrite <- app_assoc. rewrite zlen_app. assert (Hl : 3 <= zlen hms).
      { unfold hms. rewrite !zlen_app, !zlen_two. pose proof (zlen_nonneg tail). change (zlen [58]) with 1; lia. }
      destruct (Z_lt_ge_dec D 10) as [L|G].
      + rewrite print_u_1 by lia. cbn [app]. rewrite numbers_1; try (cbn; lia).
        * replace (zlen [48 + D; 46] + zlen hms - 2) with (zlen hms) by (zl). exact E1.
        * unfold hms, two_digits. discriminate.
        * zl.
      + rewrite print_u_2 by lia. rewrite <- app_assoc. cbn [app]. 
        change (48 + D / 10 :: 48 + D mod 10 :: 46 :: hms ++ [NUL]) with (two_digits D ++ 46 :: (hms ++ [NUL])).
        rewrite numbers_2; try (cbn; lia).
        * replace (zlen [48 + D / 10; 48 + D mod 10; 46] + zlen hms - 3) with (zlen hms) by (zl). exact E1.
        * zl. }
  assert (fuel : (6 <= List.length (days ++ hms))%nat).
  { unfold hms. rewrite !app_length. cbn [List.length two_digits]. lia. }
  assert (hd : exists c t, days ++ hms = c :: t /\ c <> 45).
  { unfold days, hms. destruct (D =? 0).
    - eexists _, _. cbn [app two_digits]. split; [reflexivity|lia].
    - destruct (Z_lt_ge_dec D 10) as [L|G].
      + rewrite print_u_1 by lia. eexists _, _. cbn [app]. split; [reflexivity|lia].
      + rewrite print_u_2 by lia. eexists _, _. cbn [app]. split; [reflexivity|lia]. }
  destruct hd as (hc & ht & Eh & Hh45).
  assert (fin : forall nums, nums = (if D =? 0 then [] else [D]) ++ [H; M; S] ->
    i64 (F + (if (3 <? zlen nums) || (zlen nums =? 1) then nth 0 nums 0 * TicksPerDay else 0)
       + nth (if (3 <? zlen nums) || (zlen nums =? 1) then 1%nat else 0%nat) nums 0 * TicksPerHour
       + nth (Datatypes.S (if (3 <? zlen nums) || (zlen nums =? 1) then 1%nat else 0%nat)) nums 0 * TicksPerMinute
       + nth (Datatypes.S (Datatypes.S (if (3 <? zlen nums) || (zlen nums =? 1) then 1%nat else 0%nat))) nums 0 * TicksPerSecond) = Ret a).
  { intros nums ->. ts_consts. destruct (D =? 0) eqn:E0; cbn [app zlen List.length].
    - change (zlen [H; M; S]) with 3. cbn [Z.ltb Z.compare Pos.compare Pos.compare_cont Z.eqb Pos.eqb orb nth].
      rewrite i64_ret by lia. f_equal. lia.
    - change (zlen [D; H; M; S]) with 4. cbn [Z.ltb Z.compare Pos.compare Pos.compare_cont Z.eqb Pos.eqb orb nth].
      rewrite i64_ret by lia. f_equal. lia. }
  unfold TS_TryParse. cbv zeta. change TicksPerSecond with 10000000 at 1.
  destruct (v <? 0) eqn:Ev.
  - replace ([45] ++ days ++ two_digits H ++ [58] ++ two_digits M ++ [58] ++ two_digits S ++ tail) with (45 :: (days ++ hms)) by reflexivity.
    cbn [app]. rewrite rd0, bind_ret. change (45 =? 45) with true. cbv iota zeta. cbn [skipn].
    destruct (core (Datatypes.S (List.length (45 :: (days ++ hms))))) as (c & n & nums & E1 & E2 & E3). { cbn [List.length]. lia. }
    rewrite zlen_cons. replace (1 + zlen (days ++ hms) - 1) with (zlen (days ++ hms)) by lia.
    rewrite E1, bind_ret, E2, bind_ret. 
    rewrite (fin nums E3), bind_ret. rewrite i64_ret by (unfold a; lia). f_equal. unfold a. lia.
  - change ([] ++ days ++ hms) with (days ++ hms).
    replace (read ((days ++ hms) ++ [NUL]) 0) with (Ret hc) by (rewrite Eh; reflexivity).
    rewrite bind_ret. replace (hc =? 45) with false by lia. cbv iota zeta.
    destruct (core (Datatypes.S (List.length (days ++ hms)))) as (c & n & nums & E1 & E2 & E3). { cbn [List.length]. lia. }
    rewrite E1, bind_ret, E2, bind_ret. 
    rewrite (fin nums E3), bind_ret. f_equal. unfold a. lia.
Qed.
End RoundTrip.

(** ** Different spans have different texts *)
Lemma digit_split ds1 : forall ds2 c1 c2 r1 r2, Forall digit ds1 -> Forall digit ds2 -> ~ digit c1 -> ~ digit c2 ->
  ds1 ++ c1 :: r1 = ds2 ++ c2 :: r2 -> ds1 = ds2 /\ c1 = c2 /\ r1 = r2.
Proof.
  induction ds1 as [|d ds1 IH]; intros [|d2 ds2] c1 c2 r1 r2 F1 F2 N1 N2 E; cbn [app] in E; inversion E; subst.
  - auto.
  - inversion F2; subst. contradiction.
  - inversion F1; subst. contradiction.
  - inversion F1; inversion F2; subst. destruct (IH ds2 c1 c2 r1 r2) as (-> & -> & ->); auto.
Qed.

Lemma two_digits_inj n m r s : 0 <= n < 100 -> 0 <= m < 100 -> two_digits n ++ r = two_digits m ++ s -> n = m /\ r = s.
Proof. intros Hn Hm E. unfold two_digits in E. cbn [app] in E. 
  pose proof (f_equal (fun l => nth 0 l 0) E) as E1. pose proof (f_equal (fun l => nth 1 l 0) E) as E2.
  pose proof (f_equal (@tl Z) (f_equal (@tl Z) E)) as E3. cbn [nth tl] in E1, E2, E3. split; [lia|exact E3]. Qed.

Lemma ten_chain n : n = n / 10 * 10 + n mod 10.
Proof. lia. Qed.
Lemma seven_digits_inj n m : 0 <= n < 10000000 -> 0 <= m < 10000000 -> seven_digits n = seven_digits m -> n = m.
Proof.
  intros Hn Hm E. unfold seven_digits in E. 
  pose proof (f_equal (fun l => nth 0 l 0) E) as E1. pose proof (f_equal (fun l => nth 1 l 0) E) as E2.
  pose proof (f_equal (fun l => nth 2 l 0) E) as E3. pose proof (f_equal (fun l => nth 3 l 0) E) as E4.
  pose proof (f_equal (fun l => nth 4 l 0) E) as E5. pose proof (f_equal (fun l => nth 5 l 0) E) as E6.
  pose proof (f_equal (fun l => nth 6 l 0) E) as E7. cbn [nth] in E1, E2, E3, E4, E5, E6, E7.
  apply Z.add_cancel_l in E1, E2, E3, E4, E5, E6, E7.
  assert (D : forall k, k / 1000000 = k / 10 / 10 / 10 / 10 / 10 / 10 /\ k / 100000 = k / 10 / 10 / 10 / 10 / 10
    /\ k / 10000 = k / 10 / 10 / 10 / 10 /\ k / 1000 = k / 10 / 10 / 10 /\ k / 100 = k / 10 / 10).
  { intros k. repeat split; rewrite !Z.div_div by reflexivity || lia; reflexivity. }
  destruct (D n) as (D1 & D2 & D3 & D4 & D5). destruct (D m) as (F1 & F2 & F3 & F4 & F5).
  rewrite D1, F1 in E1. rewrite D2, F2 in E2. rewrite D3, F3 in E3. rewrite D4, F4 in E4. rewrite D5, F5 in E5.
  clear D D1 D2 D3 D4 D5 F1 F2 F3 F4 F5 E.
  rewrite (ten_chain n), (ten_chain m).
  rewrite (ten_chain (n / 10)), (ten_chain (m / 10)).
  rewrite (ten_chain (n / 10 / 10)), (ten_chain (m / 10 / 10)).
  rewrite (ten_chain (n / 10 / 10 / 10)), (ten_chain (m / 10 / 10 / 10)).
  rewrite (ten_chain (n / 10 / 10 / 10 / 10)), (ten_chain (m / 10 / 10 / 10 / 10)).
  rewrite (ten_chain (n / 10 / 10 / 10 / 10 / 10)), (ten_chain (m / 10 / 10 / 10 / 10 / 10)).
  congruence.
Qed.

Lemma abs_parts a b : 0 <= a -> 0 <= b -> a / 864000000000 = b / 864000000000 -> a / 36000000000 mod 24 = b / 36000000000 mod 24 ->
  a / 600000000 mod 60 = b / 600000000 mod 60 -> a / 10000000 mod 60 = b / 10000000 mod 60 -> a mod 10000000 = b mod 10000000 -> a = b.
Proof.
  intros Ha Hb ED EH EM ES EF.
  assert (D : forall k, k / 864000000000 = k / 10000000 / 60 / 60 / 24 /\ k / 36000000000 = k / 10000000 / 60 / 60 /\ k / 600000000 = k / 10000000 / 60).
  { intros k. repeat split; rewrite !Z.div_div by reflexivity || lia; reflexivity. }
  destruct (D a) as (D1 & D2 & D3). destruct (D b) as (F1 & F2 & F3). rewrite D1, F1 in ED. rewrite D2, F2 in EH. rewrite D3, F3 in EM.
  clear D D1 D2 D3 F1 F2 F3.
  rewrite (Z.div_mod a 10000000), (Z.div_mod b 10000000) by lia.
  rewrite (Z.div_mod (a / 10000000) 60), (Z.div_mod (b / 10000000) 60) by lia.
  rewrite (Z.div_mod (a / 10000000 / 60) 60), (Z.div_mod (b / 10000000 / 60) 60) by lia.
  rewrite (Z.div_mod (a / 10000000 / 60 / 60) 24), (Z.div_mod (b / 10000000 / 60 / 60) 24) by lia.
  congruence.
Qed.

Lemma print_u_inj n m : 0 <= n < two64 -> 0 <= m < two64 -> print_u n = print_u m -> n = m.
Proof.
  intros Hn Hm E. destruct (print_u_spec n Hn) as (A & _). destruct (print_u_spec m Hm) as (B & _). congruence.
Qed.

Lemma span_text_inj v w : in_i64 v = true -> in_i64 w = true -> span_text v = span_text w -> v = w.
Proof.
  intros Hv Hw. apply in_i64_iff in Hv, Hw. unfold span_text. cbv zeta.
  set (a := Z.abs v). set (b := Z.abs w).
  assert (Ha : 0 <= a <= 9223372036854775808) by (unfold a; lia).
  assert (Hb : 0 <= b <= 9223372036854775808) by (unfold b; lia).
  set (Ta := if a mod 10000000 =? 0 then [] else _). set (Tb := if b mod 10000000 =? 0 then [] else _).
  assert (tails : Ta = Tb -> a mod 10000000 = b mod 10000000).
  { unfold Ta, Tb. destruct (a mod 10000000 =? 0) eqn:Z1, (b mod 10000000 =? 0) eqn:Z2; cbn [app]; intros E; try discriminate; [lia|].
    apply seven_digits_inj; try lia. apply (f_equal (@tl Z)) in E. exact E. }
  set (Ba := (if a / 864000000000 =? 0 then [] else print_u (a / 864000000000) ++ [46]) ++ two_digits (a / 36000000000 mod 24) ++
     [58] ++ two_digits (a / 600000000 mod 60) ++ [58] ++ two_digits (a / 10000000 mod 60) ++ Ta).
  set (Bb := (if b / 864000000000 =? 0 then [] else print_u (b / 864000000000) ++ [46]) ++ two_digits (b / 36000000000 mod 24) ++
     [58] ++ two_digits (b / 600000000 mod 60) ++ [58] ++ two_digits (b / 10000000 mod 60) ++ Tb).
  assert (body : Ba = Bb -> a = b).
  { unfold Ba, Bb. intros E.
    assert (Td : forall n, 0 <= n < 100 -> Forall digit (two_digits n)).
    { intros n Hn. unfold two_digits. repeat (constructor; [unfold digit; lia|]). constructor. }
    assert (rest : two_digits (a / 36000000000 mod 24) ++ [58] ++ two_digits (a / 600000000 mod 60) ++ [58] ++ two_digits (a / 10000000 mod 60) ++ Ta =
                   two_digits (b / 36000000000 mod 24) ++ [58] ++ two_digits (b / 600000000 mod 60) ++ [58] ++ two_digits (b / 10000000 mod 60) ++ Tb ->
                   a / 864000000000 = b / 864000000000 -> a = b).
    { intros R ED. apply two_digits_inj in R; [|lia|lia]. destruct R as (RH & R). apply (f_equal (@tl Z)) in R. cbn [app tl] in R.
      apply two_digits_inj in R; [|lia|lia]. destruct R as (RM & R). apply (f_equal (@tl Z)) in R. cbn [app tl] in R.
      apply two_digits_inj in R; [|lia|lia]. destruct R as (RS & R). apply tails in R.
      apply abs_parts; try assumption; lia. }
    assert (U : forall n, 0 <= n < two64 -> Forall digit (print_u n)) by (intros n Hn; apply (print_u_spec n Hn)).
    assert (X46 : ~ digit 46) by (unfold digit; lia). assert (X58 : ~ digit 58) by (unfold digit; lia).
    destruct (a / 864000000000 =? 0) eqn:Za, (b / 864000000000 =? 0) eqn:Zb; cbn [app] in E; try rewrite <- !app_assoc in E.
    - apply rest; [exact E|lia].
    - cbn [app] in E. apply digit_split in E; try assumption; [|apply Td; lia|apply U; unfold two64; lia]. destruct E as (_ & E & _). discriminate.
    - cbn [app] in E. apply digit_split in E; try assumption; [|apply U; unfold two64; lia|apply Td; lia]. destruct E as (_ & E & _). discriminate.
    - cbn [app] in E. apply digit_split in E; try assumption; [|apply U; unfold two64; lia|apply U; unfold two64; lia].
      destruct E as (E1 & _ & E2). apply print_u_inj in E1; [|unfold two64; lia|unfold two64; lia]. apply rest; assumption. }
  assert (hd : forall k r t, 0 <= k -> (if k / 864000000000 =? 0 then [] else print_u (k / 864000000000) ++ [46]) ++ two_digits (k / 36000000000 mod 24) ++ r <> 45 :: t \/ two64 <= k).
  { intros k r t Hk. destruct (Z_lt_ge_dec k two64) as [L|G]; [left|right; lia].
    destruct (k / 864000000000 =? 0) eqn:E.
    - unfold two_digits. cbn [app]. intros X. apply (f_equal (fun l => nth 0 l 0)) in X. cbn [nth] in X. lia.
    - destruct (print_u_spec (k / 864000000000)) as (_ & F & Ne). { unfold two64 in *; lia. }
      destruct (print_u (k / 864000000000)) as [|c q]; [contradiction|]. cbn [app]. intros X. apply (f_equal (fun l => nth 0 l 0)) in X. cbn [nth] in X. subst c.
      inversion F; subst. unfold digit in *. lia. }
  destruct (v <? 0) eqn:V, (w <? 0) eqn:W; cbn [app]; intros E.
  - apply (f_equal (@tl Z)) in E. cbn [tl] in E. pose proof (body E). unfold a, b in *. lia.
  - symmetry in E. destruct (hd b ([58] ++ two_digits (b / 600000000 mod 60) ++ [58] ++ two_digits (b / 10000000 mod 60) ++ Tb) Ba) as [N|N]; [lia|contradiction|unfold two64 in N; lia].
  - destruct (hd a ([58] ++ two_digits (a / 600000000 mod 60) ++ [58] ++ two_digits (a / 10000000 mod 60) ++ Ta) Bb) as [N|N]; [lia|contradiction|unfold two64 in N; lia].
  - pose proof (body E). unfold a, b in *. lia.
Qed.
