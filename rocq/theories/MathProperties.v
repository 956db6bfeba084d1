(** * Theorems about Math, DoubleValue and SingleValue *)
From Verif Require Import Tac BoxModel MathModel MathProofs MathSpec FloatSpec FloatProofs.

Definition two_formats (f : format) : Prop := f = double_fmt \/ f = single_fmt.
Lemma two_good f : two_formats f -> good_format f.
Proof. intros [->| ->]; [apply double_good|apply single_good]. Qed.

(** ** C47: Abs, Sign, Max, Min, Clamp *)
Theorem C47_Max_Min_partial : forall a b, Max a b = Z.max a b /\ Min a b = Z.min a b.
Proof. intros a b. unfold Max, Min. split; [destruct (b <=? a) eqn:E|destruct (a <=? b) eqn:E]; lia. Qed.
Theorem C47_Clamp_partial : forall v lo hi,
  (lo <= hi -> exists r, Clamp v lo hi = Ret r /\ lo <= r <= hi /\ (lo <= v <= hi -> r = v) /\ (v < lo -> r = lo) /\ (hi < v -> r = hi)) /\
  (hi < lo -> Clamp v lo hi = Exn ThrowMinMaxException).
Proof.
  intros v lo hi. unfold Clamp. split; intros H.
  - rewrite throw_if_false by lia. cbn [bind]. destruct (v <? lo) eqn:E1; [|destruct (hi <? v) eqn:E2]; eexists; (split; [reflexivity|]); lia.
  - rewrite throw_if_true by lia. reflexivity.
Qed.
Lemma sgn_bits bits v : 0 < bits -> - 2 ^ bits < v < 2 ^ bits -> Z.lor (v / 2 ^ bits) (((- v) mod (2 * 2 ^ bits)) / 2 ^ bits) = Z.sgn v.
Proof.
  intros Hb H. assert (P : 0 < 2 ^ bits) by (apply Z.pow_pos_nonneg; lia). set (B := 2 ^ bits) in *. destruct (Z.lt_trichotomy v 0) as [L|[->|L]].
  - replace (v / B) with (-1) by (apply (Z.div_unique _ _ _ (v + B)); lia). rewrite Z.lor_m1_l. rewrite Z.sgn_neg by lia. reflexivity.
  - rewrite Z.div_0_l, Z.mod_0_l, Z.div_0_l by lia. reflexivity.
  - rewrite (Z.div_small v) by lia. rewrite Z.lor_0_l. replace ((- v) mod (2 * B)) with (2 * B - v) by (apply (Z.mod_unique _ _ (-1)); lia). rewrite Z.sgn_pos by lia. symmetry. apply (Z.div_unique _ _ _ (B - v)); lia.
Qed.
Theorem C47_Sign_partial : forall v,
  (-2147483648 < v <= 2147483647 -> Sign_Int32 v = Ret (Z.sgn v)) /\
  (-9223372036854775808 < v <= 9223372036854775807 -> Sign_Int64 v = Ret (Z.sgn v)).
Proof.
  intros v. split; intros H.
  - unfold Sign_Int32. rewrite i32_ret by lia. cbn [bind]. rewrite !Z.shiftr_div_pow2 by lia. unfold cast_u32, cast_u. change (2 ^ 32) with (2 * 2 ^ 31). rewrite sgn_bits by (change (2 ^ 31) with 2147483648; lia). rewrite cast_i32_id by lia. reflexivity.
  - unfold Sign_Int64. rewrite i64_ret by lia. cbn [bind]. rewrite !Z.shiftr_div_pow2 by lia. unfold cast_u64, cast_u. change (2 ^ 64) with (2 * 2 ^ 63). rewrite sgn_bits by (change (2 ^ 63) with 9223372036854775808; lia). rewrite cast_i32_id by lia. reflexivity.
Qed.
Lemma unit_double : unit_exp double_fmt = 1074. Proof. reflexivity. Qed.
Lemma unit_single : unit_exp single_fmt = 149. Proof. reflexivity. Qed.
(** Integers below 2^53 survive the conversion to Double. *)
Lemma double_of_Z_exact z : Z.abs z <= 9007199254740992 -> represents double_fmt (double_of_Z z) z.
Proof.
  intros H. destruct (fl_of_Z_rounded double_fmt double_good z) as (P & _). destruct (fl_of_Z_exact double_fmt double_good z) as (V & F); [exact H|reflexivity|].
  split; [exact P|]. split; [exact F|exact V].
Qed.
Theorem C47_Abs_partial : forall v,
  (-32768 <= v <= 32767 -> exists b, Abs_Int16 v = Ret b /\ represents double_fmt b (Z.abs v)) /\
  (-2147483648 < v <= 2147483647 -> exists b, Abs_Int32 v = Ret b /\ represents double_fmt b (Z.abs v)) /\
  (Z.abs v <= 9007199254740992 -> exists b, Abs_Int64 v = Ret b /\ represents double_fmt b (Z.abs v)).
Proof.
  assert (A : forall lo v, lo < v -> Z.abs v <= 9007199254740992 -> exists b, (a <- abs_int lo v ;; Ret (double_of_Z a)) = Ret b /\ represents double_fmt b (Z.abs v)).
  { intros lo v H1 H2. unfold abs_int. replace (v =? lo) with false by lia. cbn [bind]. eexists. split; [reflexivity|]. replace (if v <? 0 then - v else v) with (Z.abs v) by (destruct (v <? 0) eqn:E; lia). apply double_of_Z_exact. lia. }
  intros v. split; [|split]; intros H; apply A; lia.
Qed.
(** The least values are undefined behaviour, and large 64-bit results are rounded. *)
Theorem C47_refuted :
  Sign_Int32 (-2147483648) = UB SignedOverflow /\ Sign_Int64 (-9223372036854775808) = UB SignedOverflow /\
  Abs_Int32 (-2147483648) = UB SignedOverflow /\ Abs_Int64 (-9223372036854775808) = UB SignedOverflow /\
  exists b, Abs_Int64 (-9007199254740993) = Ret b /\ represents double_fmt b 9007199254740992.
Proof. repeat (split; [reflexivity|]). exists (double_of_Z 9007199254740992). split; [vm_compute; reflexivity|]. apply double_of_Z_exact. lia. Qed.
Example C47_case : Clamp 300 (-5) 255 = Ret 255 /\ Sign_Int64 (-77) = Ret (-1) /\ Abs_Int32 (-3) = Ret 4613937818241073152.
Proof. repeat split; vm_compute; reflexivity. Qed.
(** Doubles and Singles. *)
Lemma flt_iff f a b : flt f a b = true <-> nan f a = false /\ nan f b = false /\ value f a < value f b.
Proof. unfold flt. destruct (nan f a), (nan f b); cbn; try (split; [discriminate|intros (?&?&?); discriminate]). rewrite Z.ltb_lt. tauto. Qed.
Lemma feq_iff f a b : feq f a b = true <-> nan f a = false /\ nan f b = false /\ value f a = value f b.
Proof. unfold feq. destruct (nan f a), (nan f b); cbn; try (split; [discriminate|intros (?&?&?); discriminate]). rewrite Z.eqb_eq. tauto. Qed.
Lemma compare_signs f a b : Float_CompareTo f a b = sign_of (order f a b).
Proof.
  unfold Float_CompareTo, order, flt, feq. rewrite !IsNaN_nan. destruct (nan f a), (nan f b); cbn; try reflexivity.
  destruct (Z.compare_spec (value f a) (value f b)) as [E|E|E]; cbn [sign_of].
  - replace (value f a <? value f b) with false by lia. replace (value f b <? value f a) with false by lia. replace (value f a =? value f b) with true by lia. reflexivity.
  - replace (value f a <? value f b) with true by lia. reflexivity.
  - replace (value f a <? value f b) with false by lia. replace (value f b <? value f a) with true by lia. reflexivity.
Qed.
(** CompareTo and Equals of the floating classes describe one total order, in which -0 = +0 and all NaNs are equal and least. *)
Theorem C47_CompareTo_float_partial : forall f a b c,
  Float_CompareTo f a b = sign_of (order f a b) /\
  (Float_Equals f a b = true <-> Float_CompareTo f a b = 0) /\
  Float_CompareTo f b a = - Float_CompareTo f a b /\
  (Float_CompareTo f a b <= 0 -> Float_CompareTo f b c <= 0 -> Float_CompareTo f a c <= 0).
Proof.
  intros f a b c. rewrite !compare_signs. unfold order. split; [reflexivity|]. split; [|split].
  - unfold Float_Equals, feq. rewrite !IsNaN_nan. destruct (nan f a), (nan f b); cbn; try (split; [discriminate|lia]); try tauto.
    destruct (Z.compare_spec (value f a) (value f b)) as [E|E|E]; cbn [sign_of]; destruct (value f b =? value f a) eqn:Q; split; intros; try lia; discriminate.
  - destruct (nan f a), (nan f b); try reflexivity. rewrite (Z.compare_antisym (value f a) (value f b)). destruct (value f a ?= value f b); reflexivity.
  - destruct (nan f a), (nan f b), (nan f c); cbn [sign_of]; try lia.
    destruct (Z.compare_spec (value f a) (value f b)), (Z.compare_spec (value f b) (value f c)), (Z.compare_spec (value f a) (value f c)); cbn [sign_of]; lia.
Qed.
(** Max and Min return one of the operands, a NaN if there is one, and tell -0 from +0. *)
Theorem C47_Max_Min_float_partial : forall f a b, two_formats f -> pattern f a -> pattern f b -> nan f a = false -> nan f b = false ->
  (Float_Max f a b = a \/ Float_Max f a b = b) /\ (Float_Min f a b = a \/ Float_Min f a b = b) /\
  value f (Float_Max f a b) = Z.max (value f a) (value f b) /\ value f (Float_Min f a b) = Z.min (value f a) (value f b) /\
  (value f a = value f b -> negative f a <> negative f b -> negative f (Float_Max f a b) = false /\ negative f (Float_Min f a b) = true).
Proof.
  intros f a b F Pa Pb Na Nb. unfold Float_Max, Float_Min, flt, feq, IsNegative. rewrite !IsNaN_nan, Na, Nb. cbn [negb andb orb]. rewrite !orb_false_r.
  destruct (value f b <? value f a) eqn:E1, (value f a <? value f b) eqn:E2, (value f a =? value f b) eqn:E3; try lia; cbv iota.
  destruct (negative f a) eqn:Sa; (split; [tauto|]; split; [tauto|]; split; [lia|]; split; [lia|]); intros _ D; destruct (negative f b); split; congruence.
Qed.
Theorem C47_Max_Min_NaN_partial : forall f a b, nan f a = true \/ nan f b = true -> nan f (Float_Max f a b) = true /\ nan f (Float_Min f a b) = true.
Proof.
  intros f a b H. unfold Float_Max, Float_Min, flt, feq. rewrite !IsNaN_nan. destruct (nan f a) eqn:Na, (nan f b) eqn:Nb; cbn [negb andb orb]; try tauto. destruct H; discriminate.
Qed.
(** MaxMagnitude and MinMagnitude: the operand with the larger (smaller) absolute value. *)
Theorem C47_MaxMagnitude_partial : forall a b, pattern double_fmt a -> pattern double_fmt b ->
  (nan double_fmt a = true \/ nan double_fmt b = true -> nan double_fmt (MaxMagnitude a b) = true /\ nan double_fmt (MinMagnitude a b) = true) /\
  (nan double_fmt a = false -> nan double_fmt b = false ->
    (MaxMagnitude a b = a \/ MaxMagnitude a b = b) /\ (MinMagnitude a b = a \/ MinMagnitude a b = b) /\
    Z.abs (value double_fmt (MaxMagnitude a b)) = Z.max (Z.abs (value double_fmt a)) (Z.abs (value double_fmt b)) /\
    Z.abs (value double_fmt (MinMagnitude a b)) = Z.min (Z.abs (value double_fmt a)) (Z.abs (value double_fmt b))).
Proof.
  intros a b Pa Pb. assert (M : forall x, nan double_fmt (fabs double_fmt x) = nan double_fmt x). { intros x. unfold nan, fabs. pose proof (mag_range double_fmt double_good x) as R. unfold magnitude in *. rewrite Z.mod_mod by (unfold double_fmt; cbn; lia). reflexivity. }
  assert (V : forall x, value double_fmt (fabs double_fmt x) = Z.abs (value double_fmt x)).
  { intros x. pose proof (mag_range double_fmt double_good x) as R. pose proof (mag_value_nonneg double_fmt double_good _ (proj1 R)) as NN. unfold value, fabs. unfold negative at 1. replace (sign_bit double_fmt <=? magnitude double_fmt x) with false by lia. assert (E : magnitude double_fmt (magnitude double_fmt x) = magnitude double_fmt x) by (unfold magnitude at 1; apply Z.mod_small; exact R). rewrite E. destruct (negative double_fmt x); lia. }
  unfold MaxMagnitude, MinMagnitude, flt, feq. rewrite !IsNaN_nan, !M, !V. split.
  - intros H. destruct (nan double_fmt a) eqn:Na, (nan double_fmt b) eqn:Nb; cbn [negb andb orb]; try tauto. destruct H; discriminate.
  - intros -> ->. cbn [negb andb orb]. rewrite !orb_false_r.
    destruct (Z.abs (value double_fmt b) <? Z.abs (value double_fmt a)) eqn:E1, (Z.abs (value double_fmt a) <? Z.abs (value double_fmt b)) eqn:E2, (Z.abs (value double_fmt a) =? Z.abs (value double_fmt b)) eqn:E3; try lia; cbv iota;
    try destruct (IsNegative double_fmt a); (split; [tauto|]; split; [tauto|]; split; lia).
Qed.
Theorem C47_Clamp_Sign_float_partial : forall f v lo hi, two_formats f ->
  (nan f v = false -> nan f lo = false -> nan f hi = false ->
    (value f hi < value f lo -> Float_Clamp f v lo hi = Exn ThrowMinMaxException) /\
    (value f lo <= value f hi -> exists r, Float_Clamp f v lo hi = Ret r /\ (r = v \/ r = lo \/ r = hi) /\ value f r = Z.max (value f lo) (Z.min (value f hi) (value f v)) /\
       (value f lo <= value f v <= value f hi -> r = v))) /\
  (nan f v = true -> Float_Sign f v = Exn ArithmeticException) /\
  (nan f v = false -> Float_Sign f v = Ret (Z.sgn (value f v))).
Proof.
  intros f v lo hi F. assert (N0 : nan f 0 = false /\ value f 0 = 0) by (destruct F as [->| ->]; split; reflexivity). destruct N0 as (N0 & V0). split; [|split].
  - intros Nv Nl Nh. unfold Float_Clamp, flt. rewrite Nv, Nl, Nh. cbn [negb andb]. split; intros H.
    + rewrite throw_if_true by lia. reflexivity.
    + rewrite throw_if_false by lia. cbn [bind]. destruct (value f v <? value f lo) eqn:E1; [|destruct (value f hi <? value f v) eqn:E2]; eexists; (split; [reflexivity|]); (split; [tauto|]); split; intros; try reflexivity; lia.
  - intros Nv. unfold Float_Sign, flt, feq. rewrite Nv, N0. reflexivity.
  - intros Nv. unfold Float_Sign, flt, feq. rewrite Nv, N0, V0. cbn [negb andb]. destruct (Z.lt_trichotomy (value f v) 0) as [L|[L|L]].
    + replace (value f v <? 0) with true by lia. rewrite Z.sgn_neg by lia. reflexivity.
    + rewrite L. reflexivity.
    + replace (value f v <? 0) with false by lia. replace (0 <? value f v) with true by lia. rewrite Z.sgn_pos by lia. reflexivity.
Qed.
Example C47_float_case : Float_Max double_fmt 0 minus_zero = 0 /\ Float_Min double_fmt 0 minus_zero = minus_zero /\ Float_Sign double_fmt (one_bits + minus_zero) = Ret (-1) /\
  Float_CompareTo single_fmt 2143289344 0 = -1 /\ value double_fmt one_bits = one_of double_fmt.
Proof. repeat split; vm_compute; reflexivity. Qed.
Print Assumptions C47_Max_Min_partial. Print Assumptions C47_Clamp_partial. Print Assumptions C47_Sign_partial. Print Assumptions C47_Abs_partial. Print Assumptions C47_refuted.
Print Assumptions C47_CompareTo_float_partial. Print Assumptions C47_Max_Min_float_partial. Print Assumptions C47_Max_Min_NaN_partial. Print Assumptions C47_MaxMagnitude_partial. Print Assumptions C47_Clamp_Sign_float_partial.

(** ** C48: BigMul, DivRem, Divide *)
Theorem C48_BigMul_partial : forall a b, -2147483648 <= a <= 2147483647 -> -2147483648 <= b <= 2147483647 -> BigMul a b = Ret (a * b).
Proof. intros a b Ha Hb. unfold BigMul. apply i64_ret; nia. Qed.
Lemma quot_div_rem a b : b <> 0 -> div_rem a b (a /c b) (a - a /c b * b).
Proof.
  intros H. unfold div_rem. replace (a - a /c b * b) with (Z.rem a b) by (pose proof (Z.quot_rem' a b); lia). split; [pose proof (Z.quot_rem' a b); lia|]. split; [apply Z.rem_bound_abs; exact H|].
  pose proof (Z.rem_sign_mul a b H). lia.
Qed.
Lemma quot_range a b lo hi : lo <= 0 -> - lo = hi + 1 -> lo <= a <= hi -> b <> 0 -> ~ (a = lo /\ b = -1) -> lo <= a /c b <= hi.
Proof.
  intros Hl Hh Ha Hb N. destruct (Z.eq_dec b 1) as [->|B1]; [rewrite Z.quot_1_r; lia|]. destruct (Z.eq_dec b (-1)) as [->|B2]; [change (-1) with (- (1)); rewrite Z.quot_opp_r, Z.quot_1_r by lia; lia|].
  assert (Q : Z.abs b * Z.abs (a /c b) <= Z.abs a). { rewrite <- Z.quot_abs by exact Hb. apply Z.mul_quot_le; lia. }
  assert (Q2 : 2 * Z.abs (a /c b) <= Z.abs b * Z.abs (a /c b)) by (apply Z.mul_le_mono_nonneg_r; lia). lia.
Qed.
Theorem C48_DivRem_partial : forall a b, b <> 0 ->
  (-2147483648 <= a <= 2147483647 -> -2147483648 <= b <= 2147483647 -> ~ (a = -2147483648 /\ b = -1) ->
    exists q r, DivRem_Int32 a b = Ret (q, r) /\ div_rem a b q r) /\
  (-9223372036854775808 <= a <= 9223372036854775807 -> -9223372036854775808 <= b <= 9223372036854775807 -> -2147483648 <= Z.quot a b <= 2147483647 ->
    exists q r, DivRem_Int64 a b = Ret (q, r) /\ div_rem a b q r) /\
  (-9223372036854775808 <= a <= 9223372036854775807 -> -9223372036854775808 <= b <= 9223372036854775807 -> ~ (a = -9223372036854775808 /\ b = -1) ->
    exists q r, Divide_Int64 a b = Ret q /\ div_rem a b q r).
Proof.
  intros a b Hb. pose proof (quot_div_rem a b Hb) as (E & R & S). split; [|split]; intros Ha Hb2 N.
  - pose proof (quot_range a b (-2147483648) 2147483647 ltac:(lia) ltac:(lia) Ha Hb N) as Q. exists (a /c b), (a - a /c b * b). split; [|apply quot_div_rem; exact Hb].
    unfold DivRem_Int32. rewrite throw_if_false by lia. cbn [bind]. rewrite (i32_ret (a /c b)) by lia. cbn [bind]. rewrite i32_ret by nia. cbn [bind]. rewrite i32_ret by lia. reflexivity.
  - exists (a /c b), (a - a /c b * b). split; [|apply quot_div_rem; exact Hb].
    unfold DivRem_Int64. rewrite throw_if_false by lia. cbn [bind]. rewrite (i64_ret (a /c b)) by lia. cbn [bind]. rewrite cast_i32_id by lia. rewrite i64_ret by nia. cbn [bind]. rewrite i64_ret by lia. reflexivity.
  - pose proof (quot_range a b (-9223372036854775808) 9223372036854775807 ltac:(lia) ltac:(lia) Ha Hb N) as Q. exists (a /c b), (a - a /c b * b). split; [|apply quot_div_rem; exact Hb].
    unfold Divide_Int64. rewrite throw_if_false by lia. cbn [bind]. rewrite i64_ret by lia. reflexivity.
Qed.
Theorem C48_zero : forall a, DivRem_Int32 a 0 = Exn DivideByZeroException /\ DivRem_Int64 a 0 = Exn DivideByZeroException /\ Divide_Int64 a 0 = Exn DivideByZeroException.
Proof. intros a. repeat split. Qed.
(** The 64-bit DivRem keeps the quotient in 32 bits: 4294967296 divided by 1 is 0, remainder
    4294967296; MIN / -1 is undefined.  (Divide of Doubles: C85.) *)
Theorem C48_refuted :
  DivRem_Int64 4294967296 1 = Ret (0, 4294967296) /\ ~ div_rem 4294967296 1 0 4294967296 /\
  DivRem_Int32 (-2147483648) (-1) = UB SignedOverflow /\ DivRem_Int64 (-9223372036854775808) (-1) = UB SignedOverflow /\ Divide_Int64 (-9223372036854775808) (-1) = UB SignedOverflow.
Proof. split; [reflexivity|]. split; [unfold div_rem; lia|]. repeat split; vm_compute; reflexivity. Qed.
Example C48_case : DivRem_Int64 (-7) 2 = Ret (-3, -1) /\ BigMul (-2147483648) (-2147483648) = Ret 4611686018427387904.
Proof. split; reflexivity. Qed.
Print Assumptions C48_BigMul_partial. Print Assumptions C48_DivRem_partial. Print Assumptions C48_zero. Print Assumptions C48_refuted.

(** ** C51: classification and CopySign *)
(** Every pattern is exactly one of NaN, infinite, normal, subnormal, zero, and the predicates say which. *)
Theorem C51_classification : forall f b, two_formats f -> pattern f b ->
  let m := magnitude f b in
  IsNaN f b = (exp_mask f <? m) /\ IsInfinity f b = (m =? exp_mask f) /\
  IsNormal f b = ((2 ^ mbits f <=? m) && (m <? exp_mask f)) /\ IsSubnormal f b = ((0 <? m) && (m <? 2 ^ mbits f)) /\
  IsFinite f b = (m <? exp_mask f) /\
  IsPositiveInfinity f b = (b =? exp_mask f) /\ IsNegativeInfinity f b = (b =? exp_mask f + sign_bit f) /\
  length (filter (fun x => x) [IsNaN f b; IsInfinity f b; IsNormal f b; IsSubnormal f b; m =? 0]) = 1%nat.
Proof.
  intros f b F P m. pose proof (two_good f F) as G. pose proof (mag_range f G b) as R. fold m in R. pose proof (exp_mask_range f G) as X.
  assert (L : Z.land b (abs_mask f) = m) by (apply land_abs; [exact G|unfold pattern in P; lia]). pose proof (land_exp f G m R) as E.
  assert (M2 : 1 < 2 ^ mbits f) by (apply m2_pos; exact G). assert (MX : 2 ^ mbits f < exp_mask f) by (destruct F as [->| ->]; reflexivity).
  assert (N : IsNaN f b = (exp_mask f <? m)) by (rewrite IsNaN_nan; reflexivity).
  assert (I : IsInfinity f b = (m =? exp_mask f)) by (unfold IsInfinity; rewrite L; reflexivity).
  assert (No : IsNormal f b = ((2 ^ mbits f <=? m) && (m <? exp_mask f))). { unfold IsNormal. rewrite N, L, E. destruct (exp_mask f <? m) eqn:T; lia. }
  assert (Su : IsSubnormal f b = ((0 <? m) && (m <? 2 ^ mbits f))) by (unfold IsSubnormal; rewrite L, E; lia).
  assert (Inf : forall k, (k = 0 \/ k = sign_bit f) -> feq f b (exp_mask f + k) = (b =? exp_mask f + k)).
  { intros k Hk. assert (Mk : magnitude f (exp_mask f + k) = exp_mask f). { unfold magnitude. destruct Hk as [->| ->]; [rewrite Z.add_0_r|rewrite <- (Z.mul_1_l (sign_bit f)) at 1; rewrite Z.mod_add by lia]; apply Z.mod_small; lia. }
    assert (Nk : nan f (exp_mask f + k) = false) by (unfold nan; rewrite Mk; lia). assert (Sk : negative f (exp_mask f + k) = (k =? sign_bit f)) by (unfold negative; destruct Hk as [->| ->]; lia).
    destruct (b =? exp_mask f + k) eqn:Q.
    - apply Z.eqb_eq in Q. subst b. apply feq_iff. tauto.
    - destruct (feq f b (exp_mask f + k)) eqn:T; [|reflexivity]. apply feq_iff in T. destruct T as (_ & _ & T). apply (proj2 (value_key f G b _)) in T. unfold key in T. rewrite Mk, Sk in T. fold m in T.
      pose proof (sign_split f G b P) as S. fold m in S. destruct (negative f b), (k =? sign_bit f) eqn:K; lia. }
  split; [exact N|]. split; [exact I|]. split; [exact No|]. split; [exact Su|]. split; [unfold IsFinite; rewrite L; reflexivity|].
  split; [unfold IsPositiveInfinity; rewrite <- (Z.add_0_r (exp_mask f)); apply Inf; tauto|]. split; [apply Inf; tauto|].
  rewrite N, I, No, Su. destruct (Z.lt_trichotomy m (exp_mask f)) as [T|[T|T]].
  - replace (exp_mask f <? m) with false by lia. replace (m =? exp_mask f) with false by lia. replace (m <? exp_mask f) with true by lia. destruct (2 ^ mbits f <=? m) eqn:Q1.
    + replace (m <? 2 ^ mbits f) with false by lia. replace (m =? 0) with false by lia. rewrite andb_false_r. reflexivity.
    + replace (m <? 2 ^ mbits f) with true by lia. destruct (m =? 0) eqn:Q2; [replace (0 <? m) with false by lia|replace (0 <? m) with true by lia]; reflexivity.
  - replace (exp_mask f <? m) with false by lia. replace (m =? exp_mask f) with true by lia. replace (m <? exp_mask f) with false by lia. replace (m <? 2 ^ mbits f) with false by lia. replace (m =? 0) with false by lia. rewrite !andb_false_r. reflexivity.
  - replace (exp_mask f <? m) with true by lia. replace (m =? exp_mask f) with false by lia. replace (m <? exp_mask f) with false by lia. replace (m <? 2 ^ mbits f) with false by lia. replace (m =? 0) with false by lia. rewrite !andb_false_r. reflexivity.
Qed.
(** IsNegative is the sign of every number; of every NaN it says true. *)
Theorem C51_IsNegative_partial : forall f b, IsNegative f b = nan f b || negative f b.
Proof. intros f b. unfold IsNegative. rewrite IsNaN_nan. destruct (nan f b); reflexivity. Qed.
(** CopySign: the magnitude of the first, the sign of the second argument. *)
Theorem C51_CopySign_partial : forall x y, pattern double_fmt x -> pattern double_fmt y -> nan double_fmt y = false \/ negative double_fmt y = true ->
  pattern double_fmt (CopySign x y) /\ magnitude double_fmt (CopySign x y) = magnitude double_fmt x /\ negative double_fmt (CopySign x y) = negative double_fmt y.
Proof.
  intros x y Hx Hy N. rewrite CopySign_spec by assumption. assert (E : negative double_fmt y || nan double_fmt y = negative double_fmt y) by (destruct N as [-> | ->]; [apply orb_false_r|reflexivity]). rewrite E.
  pose proof (mag_range double_fmt double_good x) as R. set (m := magnitude double_fmt x) in *. unfold pattern, magnitude, negative, double_fmt in *; cbn [sign_bit] in *. destruct (9223372036854775808 <=? y) eqn:Q; lia.
Qed.
(** A positive NaN as second argument makes the result negative. *)
Theorem C51_refuted : negative double_fmt 9221120237041090560 = false /\ CopySign one_bits 9221120237041090560 = one_bits + minus_zero /\ IsNegative double_fmt 9221120237041090560 = true.
Proof. repeat split; vm_compute; reflexivity. Qed.
Example C51_case : CopySign one_bits minus_zero = one_bits + minus_zero /\ IsSubnormal double_fmt 5 = true /\ IsNormal single_fmt 1065353216 = true.
Proof. repeat split; vm_compute; reflexivity. Qed.
Print Assumptions C51_classification. Print Assumptions C51_IsNegative_partial. Print Assumptions C51_CopySign_partial. Print Assumptions C51_refuted.
