(** * C63, C65 for the remaining classes, C79: the order of time spans *)
From Verif Require Import Tac IntModel BoxModel BoxProofs DateTimeModel TimeSpanModel MathModel MathProofs MathSpec MathProperties FloatSpec FloatProofs BoxCompareModel.

(** ** C63: floating point conversions *)
Lemma to_Z_quot f b : good_format f -> fl_to_Z f b = Z.quot (value f b) (unit_of f).
Proof.
  intros G. unfold fl_to_Z, value, mag. pose proof (unit_pos f G). pose proof (mag_value_nonneg f G _ (proj1 (mag_range f G b))).
  destruct (negative f b); [rewrite Z.quot_opp_l by lia|]; rewrite Z.quot_div_nonneg by lia; reflexivity.
Qed.
Lemma convert_rounded f g b : good_format f -> good_format g -> finite f b -> rounded g (value f b * unit_of g) (unit_of f) (fl_convert f g b).
Proof.
  intros F G H. destruct (finite_class f b H) as (N & I). unfold fl_convert. rewrite N, I. pose proof (unit_pos f F) as Uf. pose proof (unit_pos g G) as Ug.
  replace (mag f b * unit_of g) with (Z.abs (value f b * unit_of g)) by (rewrite Z.abs_mul, (Z.abs_eq (unit_of g)), <- (mag_abs f F) by lia; reflexivity).
  apply (rounded_with_sign g G); [exact Uf| |]; intros Q.
  - apply (proj2 (negative_value f F b)). rewrite Z.mul_comm in Q. apply Z.mul_pos_cancel_l in Q; lia.
  - apply (proj1 (negative_value f F b)). destruct (Z_lt_dec (value f b) 0) as [L|L]; [exact L|]. exfalso. assert (0 <= value f b * unit_of g) by (apply Z.mul_nonneg_nonneg; lia). lia.
Qed.
Lemma shape_single m : 0 <= m < exp_mask single_fmt -> exists k e, mag_value single_fmt m = k * 2 ^ e /\ 0 <= k < 16777216 /\ 0 <= e <= 253.
Proof.
  intros H. unfold mag_value. cbn [mbits single_fmt exp_mask] in *. change (2 ^ 23) with 8388608 in *.
  assert (A : 0 <= m mod 8388608 < 8388608) by (apply Z.mod_pos_bound; lia). assert (B : 0 <= m / 8388608 <= 254) by lia.
  destruct (m / 8388608 =? 0) eqn:E.
  - exists m, 0. change (2 ^ 0) with 1. assert (m < 8388608) by lia. lia.
  - exists (8388608 + m mod 8388608), (m / 8388608 - 1). split; [reflexivity|]. lia.
Qed.
(** Every finite Single is a Double. *)
Lemma widen b : pattern single_fmt b -> finite single_fmt b -> exists c, pattern double_fmt c /\ finite double_fmt c /\ nan double_fmt c = false /\ value double_fmt c = value single_fmt b * 2 ^ 925.
Proof.
  intros P F. destruct (shape_single (magnitude single_fmt b)) as (k & e & V & Hk & He); [split; [apply (mag_range single_fmt single_good)|exact F]|].
  assert (X : exists m, 0 <= m < exp_mask double_fmt /\ mag_value double_fmt m = k * 2 ^ e * 2 ^ 925).
  { destruct (Z.eq_dec k 0) as [->|N].
    - exists 0. split; [unfold double_fmt; cbn [exp_mask]; lia|]. rewrite (mag_value_zero double_fmt double_good). lia.
    - pose proof (Z.log2_spec k ltac:(lia)) as L. pose proof (Z.log2_nonneg k) as L0. set (l := Z.log2 k) in *.
      assert (Ll : l <= 23). { assert (l < 24); [|lia]. apply (Z.pow_lt_mono_r_iff 2); [lia|lia|]. change (2 ^ 24) with 16777216. lia. }
      assert (Pp : 0 < 2 ^ (52 - l)) by (apply Z.pow_pos_nonneg; lia).
      assert (Q1 : 2 ^ 52 = 2 ^ l * 2 ^ (52 - l)) by (rewrite <- Z.pow_add_r by lia; f_equal; lia).
      assert (Q2 : 2 * 2 ^ 52 = 2 ^ Z.succ l * 2 ^ (52 - l)) by (rewrite Z.pow_succ_r, Q1 by lia; ring).
      assert (K : 2 ^ 52 <= k * 2 ^ (52 - l) < 2 * 2 ^ 52) by (split; [rewrite Q1; apply Z.mul_le_mono_nonneg_r; lia|rewrite Q2; apply Z.mul_lt_mono_pos_r; lia]).
      exists ((e + 925 - (52 - l)) * 2 ^ 52 + k * 2 ^ (52 - l)). split.
      + change (exp_mask double_fmt) with (2047 * 2 ^ 52). assert (2 ^ 52 = 4503599627370496) by reflexivity. lia.
      + rewrite (mag_value_shape double_fmt double_good) by (try (left; cbn [mbits double_fmt]); lia). rewrite <- !Z.mul_assoc, <- !Z.pow_add_r by lia. f_equal. f_equal. lia. }
  destruct X as (m & Hm & Vm). exists (with_sign double_fmt (negative single_fmt b) m). destruct (with_sign_fields double_fmt double_good (negative single_fmt b) m ltac:(lia)) as (W1 & W2 & W3 & W4).
  split; [exact W1|]. split; [unfold finite; rewrite W3; lia|]. split; [exact W4|]. rewrite (value_with_sign double_fmt double_good) by lia. rewrite Vm. unfold value. rewrite V. destruct (negative single_fmt b); ring.
Qed.
(** Boxed integers become the nearest Single and Double; a Single becomes the same Double, a Double
    the nearest Single; NaN stays NaN and infinities keep their sign. *)
Theorem C63_to_floating : 
  (forall t z, (exists d, get_AsDouble (BInt t z) = Ret d /\ rounded double_fmt (z * one_of double_fmt) 1 d) /\
               (exists s, get_AsSingle (BInt t z) = Ret s /\ rounded single_fmt (z * one_of single_fmt) 1 s)) /\
  (forall t z, Z.abs z <= 9007199254740992 -> exists d, get_AsDouble (BInt t z) = Ret d /\ represents double_fmt d z) /\
  (forall b, pattern single_fmt b -> exists d, get_AsDouble (BSingle b) = Ret d /\ pattern double_fmt d /\
     (nan single_fmt b = true -> nan double_fmt d = true) /\
     (infinite single_fmt b -> infinite double_fmt d /\ negative double_fmt d = negative single_fmt b) /\
     (finite single_fmt b -> finite double_fmt d /\ value double_fmt d * one_of single_fmt = value single_fmt b * one_of double_fmt)) /\
  (forall b, pattern double_fmt b -> exists s, get_AsSingle (BDouble b) = Ret s /\ pattern single_fmt s /\
     (nan double_fmt b = true -> nan single_fmt s = true) /\
     (infinite double_fmt b -> infinite single_fmt s /\ negative single_fmt s = negative double_fmt b) /\
     (finite double_fmt b -> rounded single_fmt (value double_fmt b * one_of single_fmt) (one_of double_fmt) s)).
Proof.
  split; [|split; [|split]].
  - intros t z. split; eexists; (split; [reflexivity|]); apply fl_of_Z_rounded; [exact double_good|exact single_good].
  - intros t z H. exists (double_of_Z z). split; [reflexivity|apply double_of_Z_exact; exact H].
  - intros b P. exists (double_of_single b). split; [reflexivity|]. unfold double_of_single.
    assert (Q : 0 <= exp_mask double_fmt <= exp_mask double_fmt) by (unfold double_fmt; cbn [exp_mask]; lia).
    destruct (with_sign_fields double_fmt double_good (negative single_fmt b) (exp_mask double_fmt) Q) as (W1 & W2 & W3 & W4).
    destruct (nan single_fmt b) eqn:N; [|destruct (is_inf single_fmt b) eqn:I].
    + unfold fl_convert. rewrite N. split; [split; [discriminate|reflexivity]|]. split; [reflexivity|]. unfold nan, infinite, finite in *. split; intros; lia.
    + unfold fl_convert. rewrite N, I. split; [exact W1|]. split; [discriminate|]. split; [intros _; split; assumption|]. unfold is_inf, finite in *. intros; lia.
    + assert (F : finite single_fmt b) by (unfold nan, is_inf, finite in *; lia). pose proof (convert_rounded single_fmt double_fmt b single_good double_good F) as R.
      split; [apply R|]. split; [discriminate|]. split; [intros X; unfold is_inf, infinite in *; lia|]. intros _.
      destruct (widen b P F) as (c & Pc & Fc & Nc & Vc).
      assert (Ud : unit_of double_fmt = 2 ^ 925 * unit_of single_fmt) by (change (unit_of double_fmt) with (2 ^ (925 + 149)); change (unit_of single_fmt) with (2 ^ 149); apply Z.pow_add_r; lia).
      pose proof (unit_pos single_fmt single_good) as Us.
      assert (E : value double_fmt (fl_convert single_fmt double_fmt b) = value double_fmt c).
      { apply (rounded_exact double_fmt double_good _ _ _ _ Us R Nc). rewrite Vc, Ud. ring. }
      split; [|rewrite E, Vc; change (one_of double_fmt) with (unit_of double_fmt); change (one_of single_fmt) with (unit_of single_fmt); rewrite Ud; ring].
      pose proof (value_mag double_fmt double_good c) as A. pose proof (value_mag double_fmt double_good (fl_convert single_fmt double_fmt b)) as B. rewrite E, A in B.
      apply (proj2 (mag_value_iff double_fmt double_good _ _ (proj1 (mag_range double_fmt double_good _)) (proj1 (mag_range double_fmt double_good _)))) in B. unfold finite in *. lia.
  - intros b P. exists (single_of_double b). split; [reflexivity|]. unfold single_of_double.
    assert (Q : 0 <= exp_mask single_fmt <= exp_mask single_fmt) by (unfold single_fmt; cbn [exp_mask]; lia).
    destruct (with_sign_fields single_fmt single_good (negative double_fmt b) (exp_mask single_fmt) Q) as (W1 & W2 & W3 & W4).
    destruct (nan double_fmt b) eqn:N; [|destruct (is_inf double_fmt b) eqn:I].
    + unfold fl_convert. rewrite N. split; [split; [discriminate|reflexivity]|]. split; [reflexivity|]. unfold nan, infinite, finite in *. split; intros; lia.
    + unfold fl_convert. rewrite N, I. split; [exact W1|]. split; [discriminate|]. split; [intros _; split; assumption|]. unfold is_inf, finite in *. intros; lia.
    + assert (F : finite double_fmt b) by (unfold nan, is_inf, finite in *; lia). pose proof (convert_rounded double_fmt single_fmt b double_good single_good F) as R.
      split; [apply R|]. split; [discriminate|]. split; [intros X; unfold is_inf, infinite in *; lia|]. intros _. exact R.
Qed.
(** Boxed floating point numbers are truncated to an integer; undefined (in C++) outside its range.
    Missing from the full statement: a defined result outside that range. *)
Theorem C63_from_floating_partial : forall t f b v, v = BSingle b /\ f = single_fmt \/ v = BDouble b /\ f = double_fmt ->
  (finite f b -> in_range t (Z.quot (value f b) (one_of f)) = true -> get_AsInt t v = Ret (Z.quot (value f b) (one_of f))) /\
  (finite f b -> in_range t (Z.quot (value f b) (one_of f)) = false -> get_AsInt t v = UB SignedOverflow) /\
  (~ finite f b -> get_AsInt t v = UB SignedOverflow).
Proof.
  intros t f b v H. assert (G : good_format f) by (destruct H as [[_ ->]|[_ ->]]; [exact single_good|exact double_good]).
  assert (E : get_AsInt t v = float_to t f b) by (destruct H as [[-> ->]|[-> ->]]; reflexivity). rewrite E. unfold float_to. change (one_of f) with (unit_of f). rewrite (to_Z_quot f b G).
  split; [|split]; intros F.
  - destruct (finite_class f b F) as (-> & ->). intros ->. reflexivity.
  - destruct (finite_class f b F) as (-> & ->). intros ->. reflexivity.
  - replace (nan f b || is_inf f b) with true by (unfold finite, nan, is_inf in *; lia). reflexivity.
Qed.
Example C63_floating_case : get_AsInt IByte (BSingle 3221225472) = UB SignedOverflow /\ get_AsInt IInt16 (BSingle 3225419776) = Ret (-3) /\ get_AsDouble (BSingle 1) = Ret 3936146074321813504 /\
  get_AsSingle (BInt IInt32 16777217) = Ret 1266679808.
Proof. repeat split; vm_compute; reflexivity. Qed.
Print Assumptions C63_to_floating. Print Assumptions C63_from_floating_partial.

(** ** C65: all value classes *)
(** How two values of the same class are ordered; no order between different classes. *)
Definition box_order (a b : box) : option comparison :=
  match a, b with
  | BBool x, BBool y => Some (Z.compare (Z.b2z x) (Z.b2z y))
  | BInt t x, BInt t' y => if dtype_eqb (dtype_of t) (dtype_of t') then Some (Z.compare x y) else None
  | BSingle x, BSingle y => Some (order single_fmt x y)
  | BDouble x, BDouble y => Some (order double_fmt x y)
  | BDateTime x, BDateTime y => Some (Z.compare x y)
  | BTimeSpan x, BTimeSpan y => Some (Z.compare x y)
  | _, _ => None
  end.
Definition value_class (a : box) : Prop := match a with BString _ | BObject => False | _ => True end.
(** Values a box can hold; the classes Int32 to UInt64 and Char, whose CompareTo goes wrong for far
    values (C18), are left out. *)
Definition narrow_value (a : box) : Prop :=
  match a with
  | BInt t z => match t with ISByte | IByte | IInt16 | IUInt16 => in_range t z = true | _ => False end
  | BDateTime v => 0 <= v <= 9223372036854775807
  | _ => True
  end.
Lemma itype_dtype t t' : itype_eqb t t' = dtype_eqb (dtype_of t) (dtype_of t').
Proof. destruct t, t'; reflexivity. Qed.
Lemma compare_sgn a b : sign_of (Z.compare a b) = Z.sgn (a - b).
Proof. destruct (Z.compare_spec a b); cbn [sign_of]; lia. Qed.
Theorem C65_CompareTo_partial : forall self, value_class self ->
  CompareTo_box self None = Ret 1 /\
  forall other,
  (GetRawDataType self <> GetRawDataType other -> CompareTo_box self (Some other) = Exn ArgumentException) /\
  (narrow_value self -> narrow_value other -> forall c, box_order self other = Some c ->
     exists r, CompareTo_box self (Some other) = Ret r /\ Z.sgn r = sign_of c).
Proof.
  intros self V. split; [destruct self; try contradiction; reflexivity|]. intros other. split.
  - intros N. destruct self, other; try contradiction; try reflexivity; cbn in N; try (exfalso; apply N; reflexivity).
    cbn. destruct (itype_eqb t t0) eqn:E; [|reflexivity]. exfalso. apply N. rewrite itype_dtype in E. destruct t, t0; try discriminate; reflexivity.
  - intros W W' c O. destruct self, other; try contradiction; try discriminate; cbn in O.
    + injection O as <-. destruct b, b0; eexists; (split; [reflexivity|]); reflexivity.
    + destruct (dtype_eqb (dtype_of t) (dtype_of t0)) eqn:E; [|discriminate]. injection O as <-. cbn [CompareTo_box CompareTo_obj]. rewrite itype_dtype, E. exists (z - z0). rewrite compare_sgn. split; [|reflexivity].
      destruct t, t0; try contradiction; try discriminate; reflexivity.
    + injection O as <-. eexists. split; [reflexivity|]. rewrite compare_signs. destruct (order _ _ _); reflexivity.
    + injection O as <-. eexists. split; [reflexivity|]. rewrite compare_signs. destruct (order _ _ _); reflexivity.
    + injection O as <-. eexists. split; [reflexivity|]. cbn in W, W'. unfold Compare. rewrite !cast_i64_id by lia. rewrite compare_sgn. destruct (ticks0 <? ticks) eqn:E1; [|destruct (ticks <? ticks0) eqn:E2]; lia.
    + injection O as <-. eexists. split; [reflexivity|]. unfold TS_Compare. rewrite compare_sgn. destruct (ticks0 <? ticks) eqn:E1; [|destruct (ticks <? ticks0) eqn:E2]; lia.
Qed.
Lemma float_equal f a b : Float_Equals f a b = true <-> order f a b = Eq.
Proof.
  destruct (C47_CompareTo_float_partial f a b a) as (A & B & _). rewrite B, A. destruct (order f a b); cbn [sign_of]; split; intros; congruence || lia.
Qed.
(** Equality with another object is equality of class and value, for every class; with null it is
    false except for the integer classes, which read through the null pointer. *)
Theorem C65_Equals_partial : forall self, value_class self ->
  (forall other, exists r, Equals_box self (Some other) = Ret r /\ (r = true <-> box_order self other = Some Eq)) /\
  Equals_box self None = match self with BInt _ _ => UB NullDereference | _ => Ret false end.
Proof.
  intros self V. split; [|destruct self; try contradiction; reflexivity]. intros other.
  destruct self, other; try contradiction; try (eexists; split; [reflexivity|]; cbn; split; discriminate); (eexists; split; [reflexivity|]); cbn.
  - destruct b, b0; cbn; split; congruence.
  - rewrite itype_dtype. destruct (dtype_eqb _ _); cbn; [|split; discriminate]. destruct (Z.compare_spec z z0); split; intros; try discriminate; try reflexivity; try lia.
  - rewrite float_equal. split; [intros ->; reflexivity|]. intros E. injection E as E. exact E.
  - rewrite float_equal. split; [intros ->; reflexivity|]. intros E. injection E as E. exact E.
  - rewrite Z.eqb_eq. destruct (Z.compare_spec ticks ticks0); split; intros; try discriminate; try reflexivity; try lia.
  - rewrite Z.eqb_eq. destruct (Z.compare_spec ticks ticks0); split; intros; try discriminate; try reflexivity; try lia.
Qed.
(** Object.Equals(a, b) accepts nulls, is reflexive and symmetric, and compares the values of two
    different objects. *)
Lemma box_order_sym a b : box_order a b = Some Eq <-> box_order b a = Some Eq.
Proof.
  assert (O : forall f x y, order f x y = Eq <-> order f y x = Eq).
  { intros f x y. unfold order. destruct (nan f x), (nan f y); try (split; congruence). rewrite (Z.compare_antisym (value f y) (value f x)). destruct (value f y ?= value f x); cbn; split; congruence. }
  assert (S : forall c d : comparison, (c = Eq <-> d = Eq) -> (Some c = Some Eq <-> Some d = Some Eq)). { intros c d H. split; intros E; injection E as E; f_equal; apply H; exact E. }
  destruct a, b; cbn [box_order]; try (split; discriminate); try (apply S; rewrite !Z.compare_eq_iff; split; congruence); try (apply S, O).
  destruct (dtype_eqb (dtype_of t) (dtype_of t0)) eqn:E, (dtype_eqb (dtype_of t0) (dtype_of t)) eqn:E'; try (destruct t, t0; discriminate); try (split; discriminate).
  apply S. rewrite !Z.compare_eq_iff. split; congruence.
Qed.
Theorem C65_Object_Equals_partial : forall heap p q, value_class (heap p) -> value_class (heap q) ->
  exists r, Object_Equals2 heap p q = Ret r /\ Object_Equals2 heap q p = Ret r /\
  (r = true <-> p = q \/ p <> 0 /\ q <> 0 /\ box_order (heap p) (heap q) = Some Eq).
Proof.
  intros heap p q Vp Vq. unfold Object_Equals2. rewrite (Z.eqb_sym q p). destruct (Z.eqb_spec p q) as [->|N]; [exists true; tauto|].
  rewrite (Bool.orb_comm (q =? 0)). destruct ((p =? 0) || (q =? 0)) eqn:Z0.
  - exists false. split; [reflexivity|]. split; [reflexivity|]. split; [discriminate|]. intros [E|(A & B & _)]; [contradiction|lia].
  - destruct (proj1 (C65_Equals_partial _ Vp) (heap q)) as (r & E & I). destruct (proj1 (C65_Equals_partial _ Vq) (heap p)) as (r' & E' & I').
    rewrite box_order_sym in I'. assert (r' = r) as ->. { destruct r, r'; try reflexivity; intuition congruence. }
    exists r. split; [destruct (heap p); try contradiction; exact E|]. split; [destruct (heap q); try contradiction; exact E'|]. rewrite I. assert (p <> 0 /\ q <> 0) as (P0 & Q0) by lia. split; [intros H; right; tauto|intros [H|H]; [contradiction|apply H]].
Qed.
Example C65_all_case : CompareTo_box (BDouble 9221120237041090560) (Some (BDouble 0)) = Ret (-1) /\ Equals_box (BDouble 0) (Some (BDouble 9223372036854775808)) = Ret true /\
  CompareTo_box (BTimeSpan 5) (Some (BTimeSpan (-7))) = Ret 1 /\ CompareTo_box (BInt IUInt16 3) (Some (BInt IUInt16 65535)) = Ret (-65532) /\ Equals_box (BSingle 0) (Some (BDouble 0)) = Ret false.
Proof. repeat split; vm_compute; reflexivity. Qed.
Print Assumptions C65_CompareTo_partial. Print Assumptions C65_Equals_partial. Print Assumptions C65_Object_Equals_partial.

(** ** C79: time spans are ordered by their length *)
Theorem C79_order : forall a b,
  (TS_Compare a b = 0 <-> a = b) /\ (TS_Compare a b = -1 <-> a < b) /\ (TS_Compare a b = 1 <-> b < a) /\
  (TS_Equals a b = true <-> a = b) /\ (TS_op_Equality a b = true <-> a = b) /\ (TS_op_Inequality a b = true <-> a <> b) /\
  (TS_op_LessThan a b = true <-> a < b) /\ (TS_op_LessThanOrEqual a b = true <-> a <= b) /\
  (TS_op_GreaterThan a b = true <-> b < a) /\ (TS_op_GreaterThanOrEqual a b = true <-> b <= a).
Proof.
  intros a b. unfold TS_Compare, TS_Equals, TS_op_Equality, TS_op_Inequality, TS_op_LessThan, TS_op_LessThanOrEqual, TS_op_GreaterThan, TS_op_GreaterThanOrEqual, TS_Equals.
  repeat split; intros H; try (destruct (b <? a) eqn:E1; [|destruct (a <? b) eqn:E2]); lia.
Qed.
(** Longer spans stay longer: the order agrees with addition, negation and the day part. *)
Theorem C79_arithmetic : forall a b c x y, in_i64 a = true -> in_i64 b = true -> in_i64 c = true ->
  (TS_Add a c = Ret x -> TS_Add b c = Ret y -> TS_Compare x y = TS_Compare a b) /\
  (TS_Negate a = Ret x -> TS_Negate b = Ret y -> TS_Compare x y = TS_Compare b a) /\
  (TS_Compare a b <= 0 -> TS_get_Days a <= TS_get_Days b).
Proof.
  intros a b c x y Ha Hb Hc. apply in_i64_iff in Ha, Hb, Hc. split; [|split].
  - unfold TS_Add. intros Ex Ey. destruct (i64 (a + c)) as [p| |] eqn:E1; cbn [bind] in Ex; try discriminate. destruct (i64 (b + c)) as [q| |] eqn:E2; cbn [bind] in Ey; try discriminate.
    assert (p = a + c) by (unfold i64 in E1; destruct (in_i64 (a + c)); congruence). assert (q = b + c) by (unfold i64 in E2; destruct (in_i64 (b + c)); congruence). subst p q.
    unfold throw_if in Ex, Ey. destruct (_ && _) in Ex; cbn [bind] in Ex; try discriminate. destruct (_ && _) in Ey; cbn [bind] in Ey; try discriminate. injection Ex as <-. injection Ey as <-.
    unfold TS_Compare. replace (b + c <? a + c) with (b <? a) by lia. replace (a + c <? b + c) with (a <? b) by lia. reflexivity.
  - unfold TS_Negate, throw_if. intros Ex Ey. destruct (a =? TS_MinValue); cbn [bind] in Ex; try discriminate. destruct (b =? TS_MinValue); cbn [bind] in Ey; try discriminate.
    assert (x = - a) by (unfold i64 in Ex; destruct (in_i64 (- a)); congruence). assert (y = - b) by (unfold i64 in Ey; destruct (in_i64 (- b)); congruence). subst x y.
    unfold TS_Compare. replace (- b <? - a) with (a <? b) by lia. replace (- a <? - b) with (b <? a) by lia. destruct (a <? b) eqn:A, (b <? a) eqn:B; try reflexivity; lia.
  - intros H. assert (L : a <= b). { unfold TS_Compare in H. destruct (b <? a) eqn:E; lia. }
    unfold TS_get_Days. assert (T : TicksPerDay = 864000000000) by reflexivity. rewrite T. rewrite !cast_i32_id by (Z.to_euclidean_division_equations; lia). apply Z.quot_le_mono; lia.
Qed.
Example C79_case : TS_Compare 864000000000 (-1) = 1 /\ TS_Compare 7 7 = 0 /\ TS_op_LessThanOrEqual 7 7 = true /\ TS_Add 5 3 = Ret 8.
Proof. repeat split; vm_compute; reflexivity. Qed.
Print Assumptions C79_order. Print Assumptions C79_arithmetic.
