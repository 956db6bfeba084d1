(** * C81-C83: scaling a TimeSpan, its total in one unit, and adding fractions to a DateTime *)
From Verif Require Import Tac DateTimeModel TimeSpanModel MathModel MathProofs MathSpec MathRoundProperties FloatModel FloatSpec FloatProofs FloatProperties.

(** Signed 64-bit integers as doubles. *)
Lemma of_Z_mono a b : a <= b -> value dbl (fl_of_Z dbl a) <= value dbl (fl_of_Z dbl b).
Proof.
  intros H. pose proof U_pos as Up. apply (rounded_mono dbl double_good (a * U) 1 _ (b * U) 1 _ Z.lt_0_1 Z.lt_0_1).
  - rewrite !Z.mul_1_r. apply Z.mul_le_mono_nonneg_r; lia.
  - apply (fl_of_Z_rounded dbl double_good).
  - apply (fl_of_Z_rounded dbl double_good).
Qed.
Lemma inf_big : 9223372036854775808 * U < mag_value dbl (exp_mask dbl).
Proof. vm_compute. reflexivity. Qed.
Lemma bounded_finite b : nan dbl b = false -> Z.abs (value dbl b) <= 9223372036854775808 * U -> finite dbl b.
Proof.
  intros N H. pose proof inf_big as Q. unfold nan, finite in *. destruct (Z.eq_dec (magnitude dbl b) (exp_mask dbl)) as [I|I]; [|lia].
  exfalso. rewrite (value_mag dbl double_good b), I in H. lia.
Qed.
Lemma i64_double v : in_i64 v = true -> finite dbl (fl_of_Z dbl v) /\ Z.abs (value dbl (fl_of_Z dbl v)) <= 9223372036854775808 * U.
Proof.
  intros H. apply in_i64_iff in H. pose proof U_pos as Up. pose proof (fl_of_Z_rounded dbl double_good v) as R.
  assert (A : value dbl (fl_of_Z dbl v) <= value dbl max64) by (apply of_Z_mono; lia).
  assert (B : value dbl min64 <= value dbl (fl_of_Z dbl v)) by (apply of_Z_mono; lia).
  rewrite (proj1 max64_value) in A. rewrite (proj1 min64_value) in B.
  assert (C : Z.abs (value dbl (fl_of_Z dbl v)) <= 9223372036854775808 * U) by lia.
  split; [|exact C]. apply bounded_finite; [apply R|exact C].
Qed.
Lemma nonzero_double v : v <> 0 -> is_zero dbl (fl_of_Z dbl v) = false.
Proof.
  intros H. rewrite (is_zero_value dbl double_good). apply Z.eqb_neq. intros E. pose proof U_pos as Up. pose proof (fl_of_Z_rounded dbl double_good v) as R.
  destruct (Z.lt_trichotomy v 0) as [L|[L|L]]; [|contradiction|].
  - pose proof (of_Z_mono v (-1) ltac:(lia)) as M. rewrite E, (proj1 (dbl_small (-1) ltac:(lia))) in M. lia.
  - pose proof (of_Z_mono 1 v ltac:(lia)) as M. rewrite E, (proj1 (dbl_small 1 ltac:(lia))) in M. lia.
Qed.
(** The common tail of Multiply and Divide for a number [p] that is not a NaN. *)
Lemma rounded_conversion p e : pattern dbl p -> nan dbl p = false ->
  (infinite dbl p -> (_ <- throw_if (flt dbl max64 (Round p) || flt dbl (Round p) min64) e ;; fl_to_i64 dbl (Round p)) = Exn e) /\
  (finite dbl p -> forall n, nearest_even (one_of dbl) (value dbl p) n ->
    (_ <- throw_if (flt dbl max64 (Round p) || flt dbl (Round p) min64) e ;; fl_to_i64 dbl (Round p)) =
    if (n <? -9223372036854775808) || (9223372036854775808 <? n) then Exn e else if n =? 9223372036854775808 then UB SignedOverflow else Ret n).
Proof.
  intros P N. pose proof U_pos as Up. destruct (C49_Round p P) as (A & B). split.
  - intros I. rewrite B by (unfold finite, infinite in *; lia). rewrite checked_conversion by exact N. pose proof inf_big as Q. pose proof (value_mag dbl double_good p) as M. rewrite I in M.
    replace ((value dbl p <? -9223372036854775808 * U) || (9223372036854775808 * U <? value dbl p)) with true; [reflexivity|]. lia.
  - intros F n Hn. destruct (A F) as (n' & (P' & F' & V) & Hn' & _). assert (n' = n) by (apply (C49_unique (one_of dbl) (value dbl p)); [exact Up|exact Hn'|exact Hn]). subst n'.
    rewrite checked_conversion by (apply (finite_class dbl); exact F'). rewrite V. change (one_of dbl) with U in *.
    assert (X1 : (n * U <? -9223372036854775808 * U) = (n <? -9223372036854775808)).
    { destruct (n <? -9223372036854775808) eqn:E; [apply Z.ltb_lt, Z.mul_lt_mono_pos_r; lia|apply Z.ltb_ge, Z.mul_le_mono_nonneg_r; lia]. }
    assert (X2 : (9223372036854775808 * U <? n * U) = (9223372036854775808 <? n)).
    { destruct (9223372036854775808 <? n) eqn:E; [apply Z.ltb_lt, Z.mul_lt_mono_pos_r; lia|apply Z.ltb_ge, Z.mul_le_mono_nonneg_r; lia]. }
    assert (X3 : (n * U =? 9223372036854775808 * U) = (n =? 9223372036854775808)).
    { destruct (n =? 9223372036854775808) eqn:E; [apply Z.eqb_eq; apply Z.eqb_eq in E; rewrite E; reflexivity|]. apply Z.eqb_neq. intros Q. apply Z.mul_reg_r in Q; lia. }
    rewrite X1, X2, X3, Z.quot_mul by lia. reflexivity.
Qed.

Lemma whole_nearest n : nearest_even (one_of dbl) (n * one_of dbl) n.
Proof. pose proof U_pos as Up. change (one_of dbl) with U. unfold nearest_even. rewrite Z.sub_diag. change (Z.abs 0) with 0. split; [lia|]. intros. exfalso. lia. Qed.

(** ** C81: Multiply and Divide by a number *)
(** Full statement: a NaN is refused; the product (quotient) of the span and the number, in Double
    arithmetic and rounded to the nearest integer, is the result or overflows.  Missing: the result 2^63,
    and Multiply of an empty span by an infinity (see the refutation). *)
Theorem C81_multiply_partial : forall v x, in_i64 v = true -> pattern dbl x ->
  (nan dbl x = true -> TS_Multiply v x = Exn ArgumentException) /\
  (infinite dbl x -> v <> 0 -> TS_Multiply v x = Exn OverflowException) /\
  (finite dbl x -> exists w p, rounded dbl (v * one_of dbl) 1 w /\ rounded dbl (value dbl w * value dbl x) (one_of dbl) p /\
    (infinite dbl p -> TS_Multiply v x = Exn OverflowException) /\
    (finite dbl p -> forall n, nearest_even (one_of dbl) (value dbl p) n ->
       (n < -9223372036854775808 \/ 9223372036854775808 < n -> TS_Multiply v x = Exn OverflowException) /\
       (-9223372036854775808 <= n < 9223372036854775808 -> TS_Multiply v x = Ret n))).
Proof.
  intros v x Hv P. destruct (i64_double v Hv) as (Fw & Bw). destruct (finite_class dbl _ Fw) as (Nw & Iw). unfold TS_Multiply. rewrite (IsNaN_nan dbl). split; [|split].
  - intros ->. reflexivity.
  - intros I Nz. assert (N : nan dbl x = false) by (unfold nan, infinite in *; lia). rewrite N, throw_if_false by reflexivity. cbn [bind].
    unfold fl_mul. rewrite Nw, N, Iw, (nonzero_double v Nz). cbn [orb andb]. replace (is_inf dbl x) with true by (unfold is_inf, infinite in *; lia).
    destruct (with_sign_fields dbl double_good (xorb (negative dbl (fl_of_Z dbl v)) (negative dbl x)) (exp_mask dbl) ltac:(unfold double_fmt; cbn [exp_mask]; lia)) as (B1 & B2 & B3 & B4).
    apply (proj1 (rounded_conversion _ OverflowException B1 B4)). exact B3.
  - intros F. exists (fl_of_Z dbl v), (fl_mul dbl (fl_of_Z dbl v) x). pose proof (fl_mul_rounded dbl double_good _ _ Fw F) as R.
    split; [apply (fl_of_Z_rounded dbl double_good)|]. split; [exact R|]. rewrite (proj1 (finite_class dbl x F)), throw_if_false by reflexivity. cbn [bind].
    destruct R as (P' & N' & _). destruct (rounded_conversion _ OverflowException P' N') as (A & B). split; [exact A|]. intros F' n Hn. rewrite (B F' n Hn). split; intros H.
    + replace ((n <? -9223372036854775808) || (9223372036854775808 <? n)) with true by lia. reflexivity.
    + replace ((n <? -9223372036854775808) || (9223372036854775808 <? n)) with false by lia. replace (n =? 9223372036854775808) with false by lia. reflexivity.
Qed.
Theorem C81_divide_partial : forall v x, in_i64 v = true -> pattern dbl x ->
  (nan dbl x = true -> TS_Divide v x = Exn ArgumentException) /\
  (infinite dbl x -> TS_Divide v x = Ret 0) /\
  (value dbl x = 0 -> TS_Divide v x = Exn OverflowException) /\
  (finite dbl x -> value dbl x <> 0 -> exists w p, rounded dbl (v * one_of dbl) 1 w /\
    rounded dbl (value dbl w * Z.sgn (value dbl x) * one_of dbl) (Z.abs (value dbl x)) p /\
    (infinite dbl p -> TS_Divide v x = Exn OverflowException) /\
    (finite dbl p -> forall n, nearest_even (one_of dbl) (value dbl p) n ->
       (n < -9223372036854775808 \/ 9223372036854775808 < n -> TS_Divide v x = Exn OverflowException) /\
       (-9223372036854775808 <= n < 9223372036854775808 -> TS_Divide v x = Ret n))).
Proof.
  intros v x Hv P. destruct (i64_double v Hv) as (Fw & Bw). destruct (finite_class dbl _ Fw) as (Nw & Iw). pose proof U_pos as Up.
  assert (Em : 0 <= exp_mask dbl <= exp_mask dbl) by (unfold double_fmt; cbn [exp_mask]; lia). assert (E0 : 0 <= 0 <= exp_mask dbl) by (unfold double_fmt; cbn [exp_mask]; lia).
  assert (RN : forall q, pattern dbl q -> nan dbl (Round q) = nan dbl q).
  { intros q Pq. destruct (C49_Round q Pq) as (A & B). destruct (nan dbl q) eqn:Nq.
    - rewrite B; [exact Nq|]. unfold finite, nan in *. lia.
    - destruct (Z.eq_dec (magnitude dbl q) (exp_mask dbl)) as [I|I]; [rewrite B; [exact Nq|unfold finite; lia]|].
      destruct A as (n & (_ & Fq & _) & _); [unfold finite, nan in *; lia|]. apply (finite_class dbl). exact Fq. }
  assert (Tail : forall q, pattern dbl q -> nan dbl q = false ->
    (_ <- throw_if (flt dbl max64 (Round q) || flt dbl (Round q) min64 || IsNaN dbl (Round q)) OverflowException ;; fl_to_i64 dbl (Round q)) =
    (_ <- throw_if (flt dbl max64 (Round q) || flt dbl (Round q) min64) OverflowException ;; fl_to_i64 dbl (Round q))).
  { intros q Pq Nq. rewrite (IsNaN_nan dbl), (RN q Pq), Nq, Bool.orb_false_r. reflexivity. }
  unfold TS_Divide. rewrite (IsNaN_nan dbl). split; [|split; [|split]].
  - intros ->. reflexivity.
  - intros I. assert (N : nan dbl x = false) by (unfold nan, infinite in *; lia). rewrite N, throw_if_false by reflexivity. cbn [bind].
    unfold fl_div. rewrite Nw, N, Iw. cbn [orb andb]. replace (is_inf dbl x) with true by (unfold is_inf, infinite in *; lia).
    assert (Zx : is_zero dbl x = false) by (unfold is_zero, infinite in *; rewrite I; reflexivity). rewrite Zx, Bool.andb_false_r. cbn [orb].
    destruct (with_sign_fields dbl double_good (xorb (negative dbl (fl_of_Z dbl v)) (negative dbl x)) 0 E0) as (B1 & B2 & B3 & B4).
    rewrite Tail by assumption. rewrite (proj2 (rounded_conversion _ OverflowException B1 B4)) with (n := 0); [reflexivity|unfold finite; rewrite B3; unfold double_fmt; cbn [exp_mask]; lia|].
    rewrite (value_with_sign dbl double_good _ _ E0), (mag_value_zero dbl double_good). destruct (xorb _ _); exact (whole_nearest 0).
  - intros V0. assert (Zx : is_zero dbl x = true) by (rewrite (is_zero_value dbl double_good), V0; reflexivity). assert (M0 : magnitude dbl x = 0) by (unfold is_zero in Zx; lia).
    assert (N : nan dbl x = false) by (unfold nan; rewrite M0; reflexivity). assert (I : is_inf dbl x = false) by (unfold is_inf; rewrite M0; reflexivity).
    rewrite N, throw_if_false by reflexivity. cbn [bind]. unfold fl_div. rewrite Nw, N, Iw, I, Zx. cbn [orb andb]. rewrite Bool.andb_true_r. destruct (is_zero dbl (fl_of_Z dbl v)) eqn:Zv.
    + assert (Pq : pattern dbl (quiet_nan dbl)) by (split; vm_compute; [discriminate|reflexivity]). assert (Nq : nan dbl (quiet_nan dbl) = true) by reflexivity.
      rewrite (IsNaN_nan dbl), (RN _ Pq), Nq, Bool.orb_true_r. reflexivity.
    + destruct (with_sign_fields dbl double_good (xorb (negative dbl (fl_of_Z dbl v)) (negative dbl x)) (exp_mask dbl) Em) as (B1 & B2 & B3 & B4).
      rewrite Tail by assumption. apply (proj1 (rounded_conversion _ OverflowException B1 B4)). exact B3.
  - intros F Nz. exists (fl_of_Z dbl v), (fl_div dbl (fl_of_Z dbl v) x). pose proof (fl_div_rounded dbl double_good _ _ Fw F Nz) as R.
    split; [apply (fl_of_Z_rounded dbl double_good)|]. split; [exact R|]. rewrite (proj1 (finite_class dbl x F)), throw_if_false by reflexivity. cbn [bind].
    destruct R as (P' & N' & _). rewrite Tail by assumption. destruct (rounded_conversion _ OverflowException P' N') as (A & B). split; [exact A|]. intros F' n Hn. rewrite (B F' n Hn). split; intros H.
    + replace ((n <? -9223372036854775808) || (9223372036854775808 <? n)) with true by lia. reflexivity.
    + replace ((n <? -9223372036854775808) || (9223372036854775808 <? n)) with false by lia. replace (n =? 9223372036854775808) with false by lia. reflexivity.
Qed.
(** Whole factors and divisors are exact while span and result have at most 2^53 ticks. *)
Theorem C81_whole_numbers : forall v x k, Z.abs v <= 9007199254740992 -> represents dbl x k ->
  (Z.abs (v * k) <= 9007199254740992 -> TS_Multiply v x = Ret (v * k)) /\
  (forall q, k <> 0 -> v = q * k -> TS_Divide v x = Ret q).
Proof.
  intros v x k Hv (P & F & V). assert (Hi : in_i64 v = true) by (apply in_i64_iff; lia). pose proof U_pos as Up. change (one_of dbl) with U in V.
  assert (Ev : forall w, rounded dbl (v * one_of dbl) 1 w -> value dbl w = v * U).
  { intros w R. rewrite <- (proj1 (dbl_small v Hv)). apply (rounded_exact dbl double_good (v * one_of dbl) 1); [lia|exact R|apply (finite_class dbl), dbl_small; exact Hv|]. rewrite (proj1 (dbl_small v Hv)). change (one_of dbl) with U. ring. }
  assert (Rep : forall z p n d, Z.abs z <= 9007199254740992 -> 0 < d -> rounded dbl n d p -> z * U * d = n -> finite dbl p /\ value dbl p = z * U).
  { intros z p n d Hz Hd R E. assert (Vp : value dbl p = z * U). { rewrite <- (proj1 (dbl_small z Hz)). apply (rounded_exact dbl double_good n d); [exact Hd|exact R|apply (finite_class dbl), dbl_small; exact Hz|]. rewrite (proj1 (dbl_small z Hz)). exact E. }
    split; [|exact Vp]. apply bounded_finite; [apply R|]. rewrite Vp, Z.abs_mul, (Z.abs_eq U) by lia. apply Z.mul_le_mono_nonneg_r; lia. }
  split.
  - intros Hk. destruct (C81_multiply_partial v x Hi P) as (_ & _ & H). destruct (H F) as (w & p & Rw & Rp & _ & C).
    destruct (Rep (v * k) p _ _ Hk Up Rp) as (Fp & Vp). { rewrite (Ev w Rw), V. change (one_of dbl) with U. ring. }
    apply (C Fp (v * k)); [rewrite Vp; apply whole_nearest|lia].
  - intros q Nk E. destruct (C81_divide_partial v x Hi P) as (_ & _ & _ & H). destruct (H F) as (w & p & Rw & Rp & _ & C). { rewrite V. intros Q. apply Z.mul_eq_0 in Q. lia. }
    assert (Hq : Z.abs q <= 9007199254740992).
    { rewrite E, Z.abs_mul in Hv. assert (Z.abs q * 1 <= Z.abs q * Z.abs k) by (apply Z.mul_le_mono_nonneg_l; lia). lia. }
    assert (Dp : 0 < Z.abs (value dbl x)). { rewrite V. pose proof (Z.mul_eq_0 k U). lia. }
    destruct (Rep q p _ _ Hq Dp Rp) as (Fp & Vp). { rewrite (Ev w Rw), V, E. change (one_of dbl) with U. rewrite Z.abs_mul, (Z.abs_eq U), Z.sgn_mul, (Z.sgn_pos U) by lia. rewrite <- (Z.sgn_abs k). ring. }
    apply (C Fp q); [rewrite Vp; apply whole_nearest|lia].
Qed.
(** An empty span times infinity is a NaN that is converted to an integer; 2^62 ticks times two is 2^63. *)
Theorem C81_refuted : TS_Multiply 0 (exp_mask dbl) = UB SignedOverflow /\ TS_Multiply 4611686018427387904 (fl_of_Z dbl 2) = UB SignedOverflow /\
  TS_Divide 4611686018427387904 half_bits = UB SignedOverflow.
Proof. repeat split; vm_compute; reflexivity. Qed.
(** Above 2^53 ticks even a factor of one changes the span. *)
Example C81_case : TS_Multiply 9007199254740993 (fl_of_Z dbl 1) = Ret 9007199254740992 /\ TS_Multiply 5 half_bits = Ret 2 /\ TS_Divide 7 (fl_of_Z dbl (-2)) = Ret (-4) /\ TS_Divide 7 0 = Exn OverflowException.
Proof. repeat split; vm_compute; reflexivity. Qed.
Print Assumptions C81_multiply_partial. Print Assumptions C81_divide_partial. Print Assumptions C81_whole_numbers. Print Assumptions C81_refuted.
