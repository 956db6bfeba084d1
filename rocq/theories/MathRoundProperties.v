(** * Theorems about Math.BitIncrement, BitDecrement and Round *)
From Verif Require Import Tac BoxModel MathModel MathProofs MathSpec.

(** ** C50 *)
(** Writing a pattern back: sign and magnitude. *)
Lemma key_of b k : pattern double_fmt b -> (negative double_fmt b = true -> magnitude double_fmt b = - k) -> (negative double_fmt b = false -> magnitude double_fmt b = k) -> key double_fmt b = k.
Proof. intros P H1 H2. unfold key. destruct (negative double_fmt b); [rewrite H1 by reflexivity|rewrite H2 by reflexivity]; lia. Qed.
Lemma pattern_fields b (s : bool) m : 0 <= m < 9223372036854775808 -> b = (if s then 9223372036854775808 else 0) + m ->
  pattern double_fmt b /\ negative double_fmt b = s /\ magnitude double_fmt b = m.
Proof.
  intros Hm ->. unfold pattern, negative, magnitude, double_fmt; cbn [sign_bit]. destruct s; lia.
Qed.
Lemma increment_key x : pattern double_fmt x -> finite double_fmt x -> exists r, BitIncrement x = Ret r /\ pattern double_fmt r /\ magnitude double_fmt r <= exp_mask double_fmt /\ key double_fmt r = key double_fmt x + 1.
Proof.
  intros P F. unfold BitIncrement. rewrite high_exponent by exact P. unfold finite in F. replace (exp_mask double_fmt <=? magnitude double_fmt x) with false by lia.
  destruct (signed_bits x P) as (C & N). rewrite N, C. pose proof (sign_split double_fmt double_good x P) as S. pose proof (mag_range double_fmt double_good x) as R.
  unfold key. set (m := magnitude double_fmt x) in *. change (cast_i64 9223372036854775808) with (-9223372036854775808). change (sign_bit double_fmt) with 9223372036854775808 in *. change (exp_mask double_fmt) with 9218868437227405312 in *.
  destruct (negative double_fmt x) eqn:Sx.
  - destruct (x - 18446744073709551616 =? -9223372036854775808) eqn:Z0.
    + eexists. split; [reflexivity|]. replace m with 0 by lia. repeat split; vm_compute; try reflexivity; discriminate.
    + rewrite i64_ret by lia. cbn [bind]. eexists. split; [reflexivity|]. assert (E : cast_u64 (x - 18446744073709551616 + -1) = 9223372036854775808 + (m - 1)). { unfold cast_u64, cast_u. change (2 ^ 64) with 18446744073709551616. lia. }
      rewrite E. destruct (pattern_fields _ true (m - 1) ltac:(lia) eq_refl) as (P' & S' & M'). split; [exact P'|]. rewrite S', M'. lia.
  - replace (x =? -9223372036854775808) with false by lia. rewrite i64_ret by lia. cbn [bind]. eexists. split; [reflexivity|]. assert (E : cast_u64 (x + 1) = 0 + (m + 1)). { unfold cast_u64, cast_u. change (2 ^ 64) with 18446744073709551616. lia. }
    rewrite E. destruct (pattern_fields _ false (m + 1) ltac:(lia) eq_refl) as (P' & S' & M'). split; [exact P'|]. rewrite S', M'. lia.
Qed.
Lemma decrement_key x : pattern double_fmt x -> finite double_fmt x -> exists r, BitDecrement x = Ret r /\ pattern double_fmt r /\ magnitude double_fmt r <= exp_mask double_fmt /\ key double_fmt r = key double_fmt x - 1.
Proof.
  intros P F. unfold BitDecrement. rewrite high_exponent by exact P. unfold finite in F. replace (exp_mask double_fmt <=? magnitude double_fmt x) with false by lia.
  destruct (signed_bits x P) as (C & N). rewrite N, C. pose proof (sign_split double_fmt double_good x P) as S. pose proof (mag_range double_fmt double_good x) as R.
  unfold key. set (m := magnitude double_fmt x) in *. change (sign_bit double_fmt) with 9223372036854775808 in *. change (exp_mask double_fmt) with 9218868437227405312 in *.
  destruct (negative double_fmt x) eqn:Sx.
  - replace (x - 18446744073709551616 =? 0) with false by lia. rewrite i64_ret by lia. cbn [bind]. eexists. split; [reflexivity|]. assert (E : cast_u64 (x - 18446744073709551616 + 1) = 9223372036854775808 + (m + 1)). { unfold cast_u64, cast_u. change (2 ^ 64) with 18446744073709551616. lia. }
    rewrite E. destruct (pattern_fields _ true (m + 1) ltac:(lia) eq_refl) as (P' & S' & M'). split; [exact P'|]. rewrite S', M'. lia.
  - destruct (x =? 0) eqn:Z0.
    + eexists. split; [reflexivity|]. replace m with 0 by lia. repeat split; vm_compute; try reflexivity; discriminate.
    + rewrite i64_ret by lia. cbn [bind]. eexists. split; [reflexivity|]. assert (E : cast_u64 (x + -1) = 0 + (m - 1)). { unfold cast_u64, cast_u. change (2 ^ 64) with 18446744073709551616. lia. }
      rewrite E. destruct (pattern_fields _ false (m - 1) ltac:(lia) eq_refl) as (P' & S' & M'). split; [exact P'|]. rewrite S', M'. lia.
Qed.
Theorem C50_neighbours_partial : forall x, pattern double_fmt x -> finite double_fmt x ->
  (exists r, BitIncrement x = Ret r /\ next_above double_fmt x r) /\ (exists r, BitDecrement x = Ret r /\ next_below double_fmt x r).
Proof.
  intros x P F. split.
  - destruct (increment_key x P F) as (r & E & Pr & Mr & K). exists r. split; [exact E|]. split; [exact Pr|]. split; [unfold nan; lia|].
    split; [apply (value_key double_fmt double_good); lia|]. intros y Py Ny H. apply (proj1 (value_key double_fmt double_good x y)) in H.
    apply Z.nlt_ge. intros H'. apply (proj1 (value_key double_fmt double_good y r)) in H'. lia.
  - destruct (decrement_key x P F) as (r & E & Pr & Mr & K). exists r. split; [exact E|]. split; [exact Pr|]. split; [unfold nan; lia|].
    split; [apply (value_key double_fmt double_good); lia|]. intros y Py Ny H. apply (proj1 (value_key double_fmt double_good y x)) in H.
    apply Z.nlt_ge. intros H'. apply (proj1 (value_key double_fmt double_good r y)) in H'. lia.
Qed.
(** Going up and down again returns to the same number (a zero may change its sign). *)
Theorem C50_inverse_partial : forall x r, pattern double_fmt x -> finite double_fmt x ->
  (BitIncrement x = Ret r -> finite double_fmt r -> exists y, BitDecrement r = Ret y /\ value double_fmt y = value double_fmt x /\ (value double_fmt x <> 0 -> y = x)) /\
  (BitDecrement x = Ret r -> finite double_fmt r -> exists y, BitIncrement r = Ret y /\ value double_fmt y = value double_fmt x /\ (value double_fmt x <> 0 -> y = x)).
Proof.
  assert (X : forall x y, pattern double_fmt x -> pattern double_fmt y -> key double_fmt y = key double_fmt x -> value double_fmt y = value double_fmt x /\ (value double_fmt x <> 0 -> y = x)).
  { intros x y Px Py K. split; [apply (value_key double_fmt double_good); exact K|]. intros NZ. assert (key double_fmt x <> 0). { intros K0. apply NZ. change 0 with (value double_fmt 0). apply (value_key double_fmt double_good). rewrite K0. reflexivity. }
    rewrite (sign_split double_fmt double_good x Px), (sign_split double_fmt double_good y Py). pose proof (mag_range double_fmt double_good x). pose proof (mag_range double_fmt double_good y). unfold key in *. destruct (negative double_fmt x), (negative double_fmt y); lia. }
  intros x r P F. split; intros E Fr.
  - destruct (increment_key x P F) as (r' & E' & Pr & _ & K). assert (r' = r) by congruence. subst r'. destruct (decrement_key r Pr Fr) as (y & Ey & Py & _ & Ky). exists y. split; [exact Ey|]. apply X; [exact P|exact Py|lia].
  - destruct (decrement_key x P F) as (r' & E' & Pr & _ & K). assert (r' = r) by congruence. subst r'. destruct (increment_key r Pr Fr) as (y & Ey & Py & _ & Ky). exists y. split; [exact Ey|]. apply X; [exact P|exact Py|lia].
Qed.
(** NaN stays, +Infinity does not grow, -Infinity does not shrink. *)
Theorem C50_special : forall x, pattern double_fmt x -> nan double_fmt x = true -> BitIncrement x = Ret x /\ BitDecrement x = Ret x.
Proof.
  intros x P N. unfold BitIncrement, BitDecrement. rewrite high_exponent by exact P. unfold nan in N. replace (exp_mask double_fmt <=? magnitude double_fmt x) with true by lia.
  destruct (signed_bits x P) as (C & _). pose proof (sign_split double_fmt double_good x P) as S. rewrite C. set (m := magnitude double_fmt x) in *. change (cast_i64 18442240474082181120) with (-4503599627370496). change (sign_bit double_fmt) with 9223372036854775808 in *. change (exp_mask double_fmt) with 9218868437227405312 in *.
  pose proof (mag_range double_fmt double_good x) as R. fold m in R. change (sign_bit double_fmt) with 9223372036854775808 in R.
  destruct (negative double_fmt x); split.
  - replace (x - 18446744073709551616 =? -4503599627370496) with false by lia. reflexivity.
  - replace (x - 18446744073709551616 =? 9218868437227405312) with false by lia. reflexivity.
  - replace (x =? -4503599627370496) with false by lia. reflexivity.
  - replace (x =? 9218868437227405312) with false by lia. reflexivity.
Qed.
Theorem C50_infinity : BitIncrement (exp_mask double_fmt) = Ret (exp_mask double_fmt) /\ BitDecrement (exp_mask double_fmt + sign_bit double_fmt) = Ret (exp_mask double_fmt + sign_bit double_fmt).
Proof. split; vm_compute; reflexivity. Qed.
(** DoubleValue::MaxValue is four steps below the greatest double (its literal has too few digits), so
    stepping away from an infinity skips four numbers. *)
Theorem C50_refuted :
  (exists r, BitDecrement (exp_mask double_fmt) = Ret r /\ ~ next_below double_fmt (exp_mask double_fmt) r) /\
  (exists r, BitIncrement (exp_mask double_fmt + sign_bit double_fmt) = Ret r /\ ~ next_above double_fmt (exp_mask double_fmt + sign_bit double_fmt) r).
Proof.
  split; eexists; (split; [vm_compute; reflexivity|]); intros (_ & _ & _ & H).
  - specialize (H 9218868437227405311). assert (X : value double_fmt 9218868437227405311 <= value double_fmt 9218868437227405307).
    { apply H; [unfold pattern, double_fmt; cbn; lia|reflexivity|]. apply (value_key double_fmt double_good). vm_compute. reflexivity. }
    assert (Y : value double_fmt 9218868437227405307 < value double_fmt 9218868437227405311) by (apply (value_key double_fmt double_good); vm_compute; reflexivity). lia.
  - specialize (H 18442240474082181119). assert (X : value double_fmt 18442240474082181115 <= value double_fmt 18442240474082181119).
    { apply H; [unfold pattern, double_fmt; cbn; lia|reflexivity|]. apply (value_key double_fmt double_good). vm_compute. reflexivity. }
    assert (Y : value double_fmt 18442240474082181119 < value double_fmt 18442240474082181115) by (apply (value_key double_fmt double_good); vm_compute; reflexivity). lia.
Qed.
Example C50_case : finite double_fmt one_bits /\ BitIncrement one_bits = Ret (one_bits + 1) /\ BitDecrement minus_zero = Ret (minus_zero + 1) /\ BitIncrement minus_zero = Ret 1.
Proof. repeat split; vm_compute; reflexivity. Qed.
Print Assumptions C50_neighbours_partial. Print Assumptions C50_inverse_partial. Print Assumptions C50_special. Print Assumptions C50_infinity. Print Assumptions C50_refuted.

(** ** C49 *)
Section Rounding.
(** U: 1.0 in units of the least positive double; kept abstract. *)
Let U := one_of double_fmt.
Lemma U_eq : U = 2 ^ 1074. Proof. unfold U, one_of. reflexivity. Qed.
Lemma U_pos : 0 < U. Proof. rewrite U_eq. apply Z.pow_pos_nonneg; lia. Qed.
Let D := 4503599627370496.   (* 2^52 *)
Lemma mag_value_normal e N : 1 <= e -> D <= N <= 2 * D -> mag_value double_fmt ((e - 1) * D + N) = N * 2 ^ (e - 1).
Proof.
  intros He HN. unfold mag_value. change (2 ^ mbits double_fmt) with D. destruct (Z_lt_dec N (2 * D)) as [L|L].
  - assert (Q : ((e - 1) * D + N) / D = e) by (symmetry; apply (Z.div_unique _ _ _ (N - D)); unfold D in *; lia). assert (Q' : ((e - 1) * D + N) mod D = N - D) by (symmetry; apply (Z.mod_unique _ _ e); unfold D in *; lia).
    rewrite Q, Q'. replace (e =? 0) with false by lia. f_equal. lia.
  - replace N with (2 * D) by lia. assert (Q : ((e - 1) * D + 2 * D) / D = e + 1) by (symmetry; apply (Z.div_unique _ _ _ 0); unfold D in *; lia). assert (Q' : ((e - 1) * D + 2 * D) mod D = 0) by (symmetry; apply (Z.mod_unique _ _ (e + 1)); unfold D in *; lia).
    rewrite Q, Q'. replace (e + 1 =? 0) with false by lia. replace (2 ^ (e + 1 - 1)) with (2 * 2 ^ (e - 1)) by (rewrite <- Z.pow_succ_r by lia; f_equal; lia). lia.
Qed.
(** Rounding N to a multiple of 2^k, ties to even, the way the code does it on N + (a multiple of 2^(k+1)). *)
Lemma round_multiple k B N c : 1 <= k -> B = 2 * 2 ^ k * c -> 0 <= N -> 0 <= c ->
  let L := 2 ^ k in let b := B + N + L / 2 in
  let r := if b mod L =? 0 then b - b / L mod 2 * L else b - b mod L in
  exists n, r = B + n * L /\ 2 * Z.abs (N - n * L) <= L /\ (2 * Z.abs (N - n * L) = L -> Z.even n = true).
Proof.
  intros Hk HB HN Hc L b r. assert (EL : L = 2 * (L / 2)). { unfold L. replace k with (Z.succ (k - 1)) by lia. rewrite Z.pow_succ_r by lia. rewrite (Z.mul_comm 2), Z.div_mul by lia. lia. }
  assert (PL : 0 < L) by (apply Z.pow_pos_nonneg; lia). set (h := L / 2) in *. set (q := (N + h) / L). pose proof (Z.div_mod (N + h) L ltac:(lia)) as Dm. pose proof (Z.mod_pos_bound (N + h) L PL) as R. fold q in Dm. set (t := (N + h) mod L) in *.
  assert (HB2 : B = 2 * c * L) by (rewrite HB; fold L; ring).
  assert (Qb : b / L = 2 * c + q) by (symmetry; apply (Z.div_unique _ _ _ t); unfold b; [lia|rewrite HB2; nia]). assert (Rb : b mod L = t) by (symmetry; apply (Z.mod_unique _ _ (2 * c + q)); unfold b; [lia|rewrite HB2; nia]).
  unfold r. rewrite Rb, Qb. destruct (t =? 0) eqn:T.
  - assert (M : (2 * c + q) mod 2 = q mod 2) by (replace (2 * c + q) with (q + c * 2) by ring; apply Z.mod_add; lia). rewrite M. exists (q - q mod 2).
    assert (t = 0) by lia. assert (Ev : Z.even (q - q mod 2) = true). { apply Z.even_spec. exists (q / 2). pose proof (Z.div_mod q 2 ltac:(lia)). lia. }
    split; [unfold b; nia|]. split; [|intros _; exact Ev]. pose proof (Z.mod_pos_bound q 2 ltac:(lia)). assert (q mod 2 = 0 \/ q mod 2 = 1) as [-> | ->] by lia; nia.
  - exists q. split; [unfold b; nia|]. split; [nia|]. intros H. exfalso. nia.
Qed.
Lemma multiple_bounds L N n d1 d2 : 0 < L -> 2 * Z.abs (N - n * L) <= L -> d1 * L <= N <= d2 * L -> d1 <= n <= d2.
Proof. intros HL H1 H2. split; nia. Qed.
(** The middle case: 1 <= |a| < 2^52. *)
Lemma Round_middle a : pattern double_fmt a -> 1023 <= biased a < 1075 ->
  exists n, finite double_fmt (Round a) /\ pattern double_fmt (Round a) /\ negative double_fmt (Round a) = negative double_fmt a /\ value double_fmt (Round a) = n * U /\ nearest_even U (value double_fmt a) n.
Proof.
  intros P He. pose proof (sign_split double_fmt double_good a P) as S. pose proof (mag_range double_fmt double_good a) as R. set (M := magnitude double_fmt a) in *. set (s := negative double_fmt a) in *. set (e := biased a) in *.
  change (sign_bit double_fmt) with 9223372036854775808 in *.
  pose proof (Z.div_mod M D ltac:(unfold D; lia)) as DM. pose proof (Z.mod_pos_bound M D ltac:(unfold D; lia)) as RM. assert (Ee : M / D = e) by reflexivity. rewrite Ee in DM. set (N := D + M mod D). assert (HN : D <= N < 2 * D) by (unfold N; lia). assert (EM : M = (e - 1) * D + N) by (unfold N; lia).
  set (k := 1075 - e). assert (Hk : 1 <= k <= 52) by lia. set (L := 2 ^ k). assert (PL : 0 < L) by (apply Z.pow_pos_nonneg; lia).
  assert (LD : D = 2 ^ (52 - k) * L) by (unfold L; rewrite <- Z.pow_add_r by lia; replace (52 - k + k) with 52 by lia; reflexivity).
  assert (P52 : 0 < 2 ^ (52 - k)) by (apply Z.pow_pos_nonneg; lia). assert (LLE : L <= D) by nia.
  set (B := (if s then 9223372036854775808 else 0) + (e - 1) * D).
  assert (HB : exists c, 0 <= c /\ B = 2 * L * c).
  { exists ((if s then 2 ^ (62 - k) else 0) + (if k =? 52 then 511 else (e - 1) * 2 ^ (51 - k))).
    assert (X1 : 9223372036854775808 = 2 * L * 2 ^ (62 - k)). { unfold L. replace (2 * 2 ^ k) with (2 ^ (k + 1)) by (rewrite Z.pow_add_r by lia; lia). rewrite <- Z.pow_add_r by lia. replace (k + 1 + (62 - k)) with 63 by lia. reflexivity. }
    assert (X2 : k <> 52 -> D = 2 * L * 2 ^ (51 - k)). { intros K. unfold L. replace (2 * 2 ^ k) with (2 ^ (k + 1)) by (rewrite Z.pow_add_r by lia; lia). rewrite <- Z.pow_add_r by lia. replace (k + 1 + (51 - k)) with 52 by lia. reflexivity. }
    assert (0 < 2 ^ (62 - k)) by (apply Z.pow_pos_nonneg; lia). unfold B. destruct (k =? 52) eqn:K.
    - assert (L = D) by (unfold L; replace k with 52 by lia; reflexivity). replace (e - 1) with 1022 by lia. destruct s; lia.
    - specialize (X2 ltac:(lia)). assert (0 < 2 ^ (51 - k)) by (apply Z.pow_pos_nonneg; lia). split; [destruct s; nia|]. rewrite X2. destruct s; [rewrite X1|]; ring. }
  destruct HB as (c & Hc & HB). assert (Ea : a = B + N) by (rewrite S, EM; unfold B; lia).
  destruct (round_multiple k B N c ltac:(lia) HB ltac:(unfold D in *; lia) Hc) as (n & Er & Hn & Ev). fold L in Er, Hn, Ev.
  assert (Rr : Round a = B + n * L).
  { unfold Round. cbn zeta. rewrite ExtractExponent_spec by exact P. fold e. replace (e <=? 1022) with false by lia. replace (1075 <=? e) with false by lia. fold k. rewrite Z.shiftl_1_l. fold L.
    rewrite Z.shiftr_div_pow2 by lia. change (2 ^ 1) with 2. assert (L2 : 0 <= L / 2 <= D) by (split; [apply Z.div_pos; lia|apply Z.div_le_upper_bound; lia]). assert (LB : L <= 4503599627370496) by exact LLE.
    rewrite (cast_u64_id L) by lia. rewrite (cast_u64_id (L - 1)) by lia. assert (AB : 0 <= a + L / 2 < 18446744073709551616) by (unfold pattern, double_fmt, D in *; cbn [sign_bit] in *; destruct s; lia). rewrite (cast_u64_id (a + L / 2)) by lia.
    rewrite !not64_land by (change (2 ^ 64) with 18446744073709551616; lia). unfold L. unfold L in AB. rewrite ldiff_bit, ldiff_low by lia. replace (2 ^ k - 1) with (Z.ones k) by (rewrite Z.ones_equiv; lia). rewrite Z.land_ones by lia. fold L. rewrite Ea. exact Er. }
  assert (NB : 2 ^ (52 - k) <= n <= 2 * 2 ^ (52 - k)) by (apply (multiple_bounds L N n); [exact PL|exact Hn|nia]).
  set (N' := n * L). assert (HN' : D <= N' <= 2 * D) by (unfold N'; nia).
  assert (MR : 0 <= (e - 1) * D + N' < 9218868437227405312) by (unfold D in *; lia).
  destruct (pattern_fields (Round a) s ((e - 1) * D + N') ltac:(lia)) as (P' & S' & M'); [rewrite Rr; unfold B, N'; lia|].
  assert (LU : L * 2 ^ (e - 1) = U) by (unfold L, k; rewrite <- Z.pow_add_r by lia; rewrite U_eq; f_equal; lia). assert (PE : 0 < 2 ^ (e - 1)) by (apply Z.pow_pos_nonneg; lia).
  assert (V : mag_value double_fmt M = N * 2 ^ (e - 1)) by (rewrite EM; apply mag_value_normal; lia). assert (V' : mag_value double_fmt ((e - 1) * D + N') = n * U) by (rewrite mag_value_normal by lia; unfold N'; rewrite <- LU; ring).
  exists (if s then - n else n). split; [unfold finite; rewrite M'; exact (proj2 MR)|]. split; [exact P'|]. split; [exact S'|]. split; [unfold value; rewrite S', M', V'; destruct s; ring|].
  assert (Abs : Z.abs (value double_fmt a - (if s then - n else n) * U) = Z.abs (N - n * L) * 2 ^ (e - 1)).
  { unfold value. fold s M. rewrite V. rewrite <- (Z.abs_eq (2 ^ (e - 1))) by lia. rewrite <- Z.abs_mul. rewrite (Z.abs_eq (2 ^ (e - 1))) by lia. rewrite <- LU. destruct s; [rewrite <- Z.abs_opp|]; f_equal; ring. }
  unfold nearest_even. rewrite Abs. rewrite <- LU. rewrite Z.mul_assoc. split; [apply Z.mul_le_mono_nonneg_r; lia|]. intros T. assert (X : 2 * Z.abs (N - n * L) = L) by (apply (Z.mul_reg_r _ _ (2 ^ (e - 1))); [lia|exact T]). specialize (Ev X). destruct s; [rewrite Z.even_opp|]; exact Ev.
Qed.
(** |a| < 1. *)
Lemma Round_small a : pattern double_fmt a -> biased a <= 1022 ->
  exists n, finite double_fmt (Round a) /\ pattern double_fmt (Round a) /\ negative double_fmt (Round a) = negative double_fmt a /\ value double_fmt (Round a) = n * U /\ nearest_even U (value double_fmt a) n.
Proof.
  intros P He. pose proof (sign_split double_fmt double_good a P) as S. pose proof (mag_range double_fmt double_good a) as R. set (M := magnitude double_fmt a) in *. set (s := negative double_fmt a) in *.
  change (sign_bit double_fmt) with 9223372036854775808 in *. assert (Eb : biased a = M / D) by reflexivity. assert (HM : M < 1023 * D) by (unfold D in *; lia).
  pose proof U_pos as PU. pose proof (mag_value_nonneg double_fmt double_good M (proj1 R)) as V0.
  assert (Half : 2 * mag_value double_fmt (1022 * D) = U). { replace (1022 * D) with ((1022 - 1) * D + D) by ring. rewrite mag_value_normal by (unfold D; lia). rewrite U_eq. change D with (2 ^ 52). rewrite <- Z.pow_add_r by lia. rewrite <- Z.pow_succ_r by lia. f_equal. }
  assert (One : mag_value double_fmt (1023 * D) = U). { replace (1023 * D) with ((1023 - 1) * D + D) by ring. rewrite mag_value_normal by (unfold D; lia). rewrite U_eq. change D with (2 ^ 52). rewrite <- Z.pow_add_r by lia. f_equal. }
  pose proof (mag_value_lt double_fmt double_good M (1023 * D) ltac:(lia)) as LT1. rewrite One in LT1.
  assert (NanA : nan double_fmt a = false) by (unfold nan; fold M; change (exp_mask double_fmt) with 9218868437227405312; unfold D in *; lia).
  assert (T : forall r v n, (v = 0 \/ v = one_bits) -> Round a = CopySign v a \/ (v = 0 /\ Round a = a /\ M = 0) -> r = Round a -> (v = 0 -> n = 0 /\ 2 * mag_value double_fmt M <= U) -> (v = one_bits -> n = (if s then -1 else 1) /\ U < 2 * mag_value double_fmt M) ->
    exists n, finite double_fmt (Round a) /\ pattern double_fmt (Round a) /\ negative double_fmt (Round a) = negative double_fmt a /\ value double_fmt (Round a) = n * U /\ nearest_even U (value double_fmt a) n).
  { intros r v n Hv HR Er Z0 Z1. exists n. assert (Pv : pattern double_fmt v) by (destruct Hv as [->| ->]; unfold pattern, double_fmt, one_bits; cbn [sign_bit]; lia).
    assert (Mv : magnitude double_fmt v = v) by (destruct Hv as [->| ->]; reflexivity).
    assert (RR : Round a = (if s then 9223372036854775808 else 0) + v). { destruct HR as [HR|(-> & HR & M0)]; [|rewrite HR, S, M0; reflexivity]. rewrite HR, CopySign_spec by assumption. rewrite NanA, orb_false_r, Mv. fold s. change (sign_bit double_fmt) with 9223372036854775808. destruct s; lia. }
    destruct (pattern_fields (Round a) s v ltac:(destruct Hv as [->| ->]; unfold one_bits; lia) RR) as (P' & S' & M'). assert (Vv : mag_value double_fmt v = if v =? 0 then 0 else U) by (destruct Hv as [->| ->]; [reflexivity|exact One]).
    split; [unfold finite; rewrite M'; destruct Hv as [->| ->]; reflexivity|]. split; [exact P'|]. split; [exact S'|]. unfold value. rewrite S', M', Vv. fold s M. unfold nearest_even.
    destruct Hv as [->| ->].
    - destruct (Z0 eq_refl) as (-> & H). split; [destruct s; reflexivity|]. split; [destruct s; lia|]. intros _. reflexivity.
    - destruct (Z1 eq_refl) as (-> & H). change (one_bits =? 0) with false. cbv iota. split; [destruct s; ring|]. split; [destruct s; lia|]. intros X. exfalso. destruct s; lia. }
  assert (RE : Round a = if cast_u64 (Z.shiftl a 1) =? 0 then a else CopySign (if (biased a =? 1022) && negb (ExtractSignificandFromBits a =? 0) then one_bits else 0) a).
  { unfold Round. cbn zeta. rewrite ExtractExponent_spec by exact P. replace (biased a <=? 1022) with true by lia. reflexivity. }
  assert (C0 : (cast_u64 (Z.shiftl a 1) =? 0) = (M =? 0)). { rewrite Z.shiftl_mul_pow2 by lia. change (2 ^ 1) with 2. unfold cast_u64, cast_u. change (2 ^ 64) with 18446744073709551616. destruct s; lia. }
  assert (C1 : (biased a =? 1022) && negb (ExtractSignificandFromBits a =? 0) = (1022 * D <? M)). { unfold ExtractSignificandFromBits. change 4503599627370495 with (Z.ones 52). rewrite Z.land_ones by lia. change (2 ^ 52) with D. rewrite Eb. unfold D in *. destruct s; lia. }
  rewrite C0, C1 in RE. destruct (M =? 0) eqn:M0.
  - apply (T (Round a) 0 0); [left; reflexivity|right; repeat split; [exact RE|lia]|reflexivity| |intros; discriminate]. intros _. split; [reflexivity|]. replace M with 0 by lia. rewrite mag_value_zero by exact double_good. lia.
  - destruct (1022 * D <? M) eqn:M1.
    + apply (T (Round a) one_bits (if s then -1 else 1)); [right; reflexivity|left; exact RE|reflexivity|intros; discriminate|]. intros _. split; [reflexivity|]. pose proof (mag_value_lt double_fmt double_good (1022 * D) M ltac:(unfold D in *; lia)). lia.
    + apply (T (Round a) 0 0); [left; reflexivity|left; exact RE|reflexivity| |intros; discriminate]. intros _. split; [reflexivity|]. destruct (Z.eq_dec M (1022 * D)) as [->|NE]; [lia|]. pose proof (mag_value_lt double_fmt double_good M (1022 * D) ltac:(lia)). lia.
Qed.
(** |a| >= 2^52: an integer already. *)
Lemma Round_big a : pattern double_fmt a -> 1075 <= biased a -> Round a = a /\ (finite double_fmt a -> exists n, value double_fmt a = n * U).
Proof.
  intros P He. pose proof (mag_range double_fmt double_good a) as R. set (M := magnitude double_fmt a) in *. set (e := biased a) in *. split.
  - unfold Round. cbn zeta. rewrite ExtractExponent_spec by exact P. fold e. replace (e <=? 1022) with false by lia. replace (1075 <=? e) with true by lia. reflexivity.
  - intros _. pose proof (Z.div_mod M D ltac:(unfold D; lia)) as DM. pose proof (Z.mod_pos_bound M D ltac:(unfold D; lia)) as RM. assert (Ee : M / D = e) by reflexivity. rewrite Ee in DM.
    assert (V : mag_value double_fmt M = ((D + M mod D) * 2 ^ (e - 1075)) * U). { replace M with ((e - 1) * D + (D + M mod D)) at 1 by lia. rewrite mag_value_normal by lia. rewrite U_eq, <- Z.mul_assoc, <- Z.pow_add_r by lia. f_equal. f_equal. lia. }
    exists (if negative double_fmt a then - ((D + M mod D) * 2 ^ (e - 1075)) else (D + M mod D) * 2 ^ (e - 1075)). unfold value. fold M. rewrite V. destruct (negative double_fmt a); ring.
Qed.
End Rounding.

(** Every finite double is rounded to the nearest integer, ties to the even one, keeping its sign; NaN and
    infinities are returned unchanged. *)
Theorem C49_Round : forall a, pattern double_fmt a ->
  (finite double_fmt a -> exists n, represents double_fmt (Round a) n /\ nearest_even (one_of double_fmt) (value double_fmt a) n /\ negative double_fmt (Round a) = negative double_fmt a) /\
  (~ finite double_fmt a -> Round a = a).
Proof.
  intros a P. assert (F : finite double_fmt a <-> biased a < 2047). { unfold finite, biased. change (exp_mask double_fmt) with 9218868437227405312. lia. } split; intros H.
  - destruct (Z_le_dec (biased a) 1022) as [L1|L1]; [|destruct (Z_lt_dec (biased a) 1075) as [L2|L2]].
    + destruct (Round_small a P L1) as (n & H1 & H2 & H3 & H4 & H5). exists n. split; [split; [exact H2|split; [exact H1|exact H4]]|]. split; [exact H5|exact H3].
    + destruct (Round_middle a P ltac:(lia)) as (n & H1 & H2 & H3 & H4 & H5). exists n. split; [split; [exact H2|split; [exact H1|exact H4]]|]. split; [exact H5|exact H3].
    + destruct (Round_big a P ltac:(lia)) as (E & X). rewrite E. destruct (X H) as (n & V). exists n. split; [split; [exact P|split; [exact H|exact V]]|]. split; [|reflexivity].
      rewrite V. unfold nearest_even. rewrite Z.sub_diag. pose proof U_pos. split; [|intros T]; cbn [Z.abs Z.mul] in *; lia.
  - apply Round_big; [exact P|]. assert (~ biased a < 2047) by tauto. lia.
Qed.
(** There is only one such integer. *)
Theorem C49_unique : forall u v n n', 0 < u -> nearest_even u v n -> nearest_even u v n' -> n = n'.
Proof.
  intros u v n n' Hu (H1 & H2) (H1' & H2'). destruct (Z.lt_trichotomy n n') as [L|[E|L]]; [exfalso|exact E|exfalso].
  - assert (X : (n' - n) * u <= u) by (rewrite Z.mul_sub_distr_r; lia). assert (n' = n + 1) by nia. subst n'. rewrite Z.mul_add_distr_r in *. assert (T : 2 * Z.abs (v - n * u) = u) by lia. assert (T' : 2 * Z.abs (v - (n * u + 1 * u)) = u) by lia. specialize (H2 T). specialize (H2' T'). rewrite Z.even_add, H2 in H2'. discriminate.
  - assert (X : (n - n') * u <= u) by (rewrite Z.mul_sub_distr_r; lia). assert (n = n' + 1) by nia. subst n. rewrite Z.mul_add_distr_r in *. assert (T : 2 * Z.abs (v - n' * u) = u) by lia. assert (T' : 2 * Z.abs (v - (n' * u + 1 * u)) = u) by lia. specialize (H2 T'). specialize (H2' T). rewrite Z.even_add, H2' in H2. discriminate.
Qed.
(** 2.5 -> 2, 3.5 -> 4, -0.5 -> -0. *)
Example C49_case : Round 4612811918334230528 = 4611686018427387904 /\ Round 4615063718147915776 = 4616189618054758400 /\ Round 13826050856027422720 = minus_zero.
Proof. repeat split; vm_compute; reflexivity. Qed.
Print Assumptions C49_Round. Print Assumptions C49_unique.
