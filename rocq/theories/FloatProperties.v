(** * C79-C82: TimeSpan and DateTime in fractions of a unit *)
From Verif Require Import Tac DateTimeModel TimeSpanModel MathModel MathProofs MathSpec FloatModel FloatSpec FloatProofs.

Notation U := (unit_of double_fmt).
Lemma unit_is_one : U = one_of double_fmt.
Proof. reflexivity. Qed.
Lemma U_pos : 0 < U. Proof. exact (unit_pos dbl double_good). Qed.
Lemma dbl_small z : Z.abs z <= 9007199254740992 -> value dbl (fl_of_Z dbl z) = z * U /\ finite dbl (fl_of_Z dbl z).
Proof.
  intros H. apply (fl_of_Z_exact dbl double_good); [|reflexivity]. change (2 * 2 ^ mbits dbl) with 9007199254740992. exact H.
Qed.
Lemma fl_represents z : Z.abs z <= 9007199254740992 -> represents dbl (fl_of_Z dbl z) z.
Proof. intros H. destruct (dbl_small z H) as (V & F). split; [apply (fl_of_Z_rounded dbl double_good)|]. split; [exact F|exact V]. Qed.
Lemma max64_value : value dbl max64 = 9223372036854775808 * U /\ nan dbl max64 = false.
Proof. split; vm_compute; reflexivity. Qed.
Lemma min64_value : value dbl min64 = -9223372036854775808 * U /\ nan dbl min64 = false.
Proof. split; vm_compute; reflexivity. Qed.
Lemma fl_to_Z_quot b : fl_to_Z dbl b = Z.quot (value dbl b) U.
Proof.
  unfold fl_to_Z, value, mag. pose proof U_pos. pose proof (mag_value_nonneg dbl double_good _ (proj1 (mag_range dbl double_good b))).
  destruct (negative dbl b); [rewrite Z.quot_opp_l by lia|]; rewrite Z.quot_div_nonneg by lia; reflexivity.
Qed.
(** The test against the 64-bit range and the conversion, for a result that is not a NaN. *)
Lemma checked_conversion b e : nan dbl b = false ->
  (_ <- throw_if (flt dbl max64 b || flt dbl b min64) e ;; fl_to_i64 dbl b) =
  if (value dbl b <? -9223372036854775808 * U) || (9223372036854775808 * U <? value dbl b) then Exn e
  else if value dbl b =? 9223372036854775808 * U then UB SignedOverflow
  else Ret (Z.quot (value dbl b) U).
Proof.
  intros N. destruct max64_value as (V1 & N1). destruct min64_value as (V2 & N2). pose proof U_pos as P.
  unfold flt. rewrite N, N1, N2, V1, V2. cbn [negb andb]. rewrite Bool.orb_comm.
  destruct ((value dbl b <? -9223372036854775808 * U) || (9223372036854775808 * U <? value dbl b)) eqn:E; [rewrite throw_if_true by reflexivity; reflexivity|].
  rewrite throw_if_false by reflexivity. cbn [bind].
  assert (B : -9223372036854775808 * U <= value dbl b <= 9223372036854775808 * U) by lia. clear E.
  unfold fl_to_i64. rewrite N. replace (is_inf dbl b) with false.
  2:{ symmetry. unfold is_inf. apply Z.eqb_neq. intros I. pose proof (value_mag dbl double_good b) as M. rewrite I in M.
      assert (Q : 9223372036854775808 * U < mag_value dbl (exp_mask dbl)) by (vm_compute; reflexivity). lia. }
  cbn [orb]. rewrite fl_to_Z_quot. destruct (value dbl b =? 9223372036854775808 * U) eqn:E.
  - apply Z.eqb_eq in E. rewrite E, Z.quot_mul by lia. apply i64_ub. lia.
  - apply i64_ret. set (v := value dbl b) in *. clearbody v. pose proof (Z.quot_rem v U ltac:(lia)) as D.
    set (q := Z.quot v U) in *. set (r := Z.rem v U) in *.
    assert (R : Z.abs r < U) by (unfold r; pose proof (Z.rem_bound_abs v U ltac:(lia)); lia).
    assert (S : 0 <= r * v \/ True) by tauto.
    split.
    + apply Z.nlt_ge. intros L. assert (U * q <= U * (-9223372036854775809)) by (apply Z.mul_le_mono_nonneg_l; lia). lia.
    + apply Z.nlt_ge. intros L. assert (Rs : 0 <= r) by (unfold r; apply Z.rem_nonneg; [lia|]; destruct (Z.le_gt_cases 0 v); [assumption|]; exfalso; assert (q <= 0) by (unfold q; apply Z.quot_le_upper_bound; lia); lia).
      assert (U * 9223372036854775808 <= U * q) by (apply Z.mul_le_mono_nonneg_l; lia). lia.
Qed.

(** ** C80: TimeSpan.FromDays, FromHours, FromMinutes, FromSeconds, FromMilliseconds
    With the ticks per unit. *)
Definition from_units : list ((Z -> outcome Z) * Z) :=
  [(TS_FromDays, 864000000000); (TS_FromHours, 36000000000); (TS_FromMinutes, 600000000); (TS_FromSeconds, 10000000); (TS_FromMilliseconds, 10000)].
Lemma from_units_interval F scale : In (F, scale) from_units -> (forall x, F x = TS_Interval x scale) /\ 0 < scale <= 9007199254740992.
Proof.
  unfold from_units. cbn [In]. intros [H|[H|[H|[H|[H|[]]]]]]; inversion H; subst; (split; [reflexivity|lia]).
Qed.
Lemma interval_finite x scale : pattern dbl x -> finite dbl x -> 0 < scale <= 9007199254740992 ->
  exists t, rounded dbl (value dbl x * scale) 1 t /\
    TS_Interval x scale =
    if (value dbl t <? -9223372036854775808 * U) || (9223372036854775808 * U <? value dbl t) then Exn OverflowException
    else if value dbl t =? 9223372036854775808 * U then UB SignedOverflow
    else Ret (Z.quot (value dbl t) U).
Proof.
  intros P F Hs. destruct (dbl_small scale ltac:(lia)) as (Vs & Fs). pose proof U_pos as Up.
  set (t := fl_mul dbl x (fl_of_Z dbl scale)). pose proof (fl_mul_rounded dbl double_good x (fl_of_Z dbl scale) F Fs) as R. fold t in R. rewrite Vs in R.
  assert (R' : rounded dbl (value dbl x * scale) 1 t). { apply (rounded_cancel dbl _ _ U _ Up). rewrite Z.mul_1_l, <- Z.mul_assoc. exact R. }
  exists t. split; [exact R'|]. unfold TS_Interval. rewrite (IsNaN_nan dbl), (proj1 (finite_class dbl x F)). rewrite throw_if_false by reflexivity. cbn [bind].
  fold t. apply checked_conversion. apply R'.
Qed.
(** Full statement: a NaN is refused, a product outside the range of TimeSpan overflows, every other
    product, correctly rounded to a Double, gives its integral part.  Missing: exactly 2^63, where the
    conversion is undefined because the range test compares with MaxValue rounded up to 2^63. *)
Theorem C80_from_units_partial : forall F scale x, In (F, scale) from_units -> pattern dbl x ->
  (nan dbl x = true -> F x = Exn ArgumentException) /\
  (infinite dbl x -> F x = Exn OverflowException) /\
  (finite dbl x -> exists t, rounded dbl (value dbl x * scale) 1 t /\
    (value dbl t < -9223372036854775808 * U \/ 9223372036854775808 * U < value dbl t -> F x = Exn OverflowException) /\
    (-9223372036854775808 * U <= value dbl t < 9223372036854775808 * U -> F x = Ret (Z.quot (value dbl t) U))).
Proof.
  intros F scale x HF P. destruct (from_units_interval F scale HF) as (E & Hs). rewrite !E. split; [|split].
  - intros N. unfold TS_Interval. rewrite (IsNaN_nan dbl), N. reflexivity.
  - intros I. unfold infinite in I. assert (N : nan dbl x = false) by (unfold nan; lia). unfold TS_Interval. rewrite (IsNaN_nan dbl), N, throw_if_false by reflexivity. cbn [bind].
    destruct (dbl_small scale ltac:(lia)) as (Vs & Fs). destruct (finite_class dbl _ Fs) as (Ns & Is). pose proof U_pos as Up.
    assert (Zs : is_zero dbl (fl_of_Z dbl scale) = false). { rewrite (is_zero_value dbl double_good), Vs. pose proof (Z.mul_pos_pos scale U ltac:(lia) Up). lia. }
    unfold fl_mul. rewrite N, Ns. cbn [orb]. replace (is_inf dbl x) with true by (unfold is_inf; lia). rewrite Zs. rewrite Is, !Bool.andb_false_r. cbn [andb orb].
    set (b := with_sign _ _ _). destruct (with_sign_fields dbl double_good (xorb (negative dbl x) (negative dbl (fl_of_Z dbl scale))) (exp_mask dbl) ltac:(unfold double_fmt; cbn [exp_mask]; lia)) as (B1 & B2 & B3 & B4). fold b in B1, B2, B3, B4.
    rewrite checked_conversion by exact B4. pose proof (value_with_sign dbl double_good (xorb (negative dbl x) (negative dbl (fl_of_Z dbl scale))) (exp_mask dbl) ltac:(unfold double_fmt; cbn [exp_mask]; lia)) as V. fold b in V.
    assert (Q : 9223372036854775808 * U < mag_value dbl (exp_mask dbl)) by (vm_compute; reflexivity).
    replace ((value dbl b <? -9223372036854775808 * U) || (9223372036854775808 * U <? value dbl b)) with true; [reflexivity|].
    rewrite V. destruct (xorb (negative dbl x) (negative dbl (fl_of_Z dbl scale))); lia.
  - intros Fx. destruct (interval_finite x scale P Fx Hs) as (t & R & ->). exists t. split; [exact R|]. split; intros H.
    + replace ((value dbl t <? -9223372036854775808 * U) || (9223372036854775808 * U <? value dbl t)) with true by lia. reflexivity.
    + replace ((value dbl t <? -9223372036854775808 * U) || (9223372036854775808 * U <? value dbl t)) with false by lia. replace (value dbl t =? 9223372036854775808 * U) with false by lia. reflexivity.
Qed.
(** A greater number of units never gives a smaller span. *)
Theorem C80_monotone : forall F scale x y a b, In (F, scale) from_units -> pattern dbl x -> pattern dbl y -> finite dbl x -> finite dbl y ->
  value dbl x <= value dbl y -> F x = Ret a -> F y = Ret b -> a <= b.
Proof.
  intros F scale x y a b HF Px Py Fx Fy Hle. destruct (from_units_interval F scale HF) as (E & Hs). rewrite !E. pose proof U_pos as Up.
  destruct (interval_finite x scale Px Fx Hs) as (t & R & ->). destruct (interval_finite y scale Py Fy Hs) as (t' & R' & ->).
  intros H H'. assert (L : value dbl t <= value dbl t'). { apply (rounded_mono dbl double_good (value dbl x * scale) 1 t (value dbl y * scale) 1 t'); try assumption; try lia. rewrite !Z.mul_1_r. apply Z.mul_le_mono_nonneg_r; lia. }
  assert (X : forall v c, (if (v <? -9223372036854775808 * U) || (9223372036854775808 * U <? v) then Exn OverflowException else if v =? 9223372036854775808 * U then UB SignedOverflow else Ret (Z.quot v U)) = Ret c -> c = Z.quot v U).
  { intros v c. destruct ((v <? _) || _); [discriminate|]. destruct (v =? _); [discriminate|]. congruence. }
  apply X in H, H'. subst a b. apply Z.quot_le_mono; lia.
Qed.
(** Whole numbers of units are exact while the span has at most 2^53 ticks (28 years). *)
Theorem C80_whole_units : forall F scale x k, In (F, scale) from_units -> represents dbl x k -> Z.abs (k * scale) <= 9007199254740992 ->
  F x = Ret (k * scale).
Proof.
  intros F scale x k HF (P & Fx & V) Hk. destruct (from_units_interval F scale HF) as (E & Hs). rewrite E. pose proof U_pos as Up. change (one_of dbl) with U in V.
  destruct (interval_finite x scale P Fx Hs) as (t & R & ->).
  destruct (dbl_small (k * scale) Hk) as (Vk & Fk). assert (Vt : value dbl t = k * scale * U).
  { rewrite <- Vk. apply (rounded_exact dbl double_good (value dbl x * scale) 1); [lia|exact R|apply (finite_class dbl); exact Fk|]. rewrite Vk, V. ring. }
  rewrite Vt. replace ((k * scale * U <? -9223372036854775808 * U) || (9223372036854775808 * U <? k * scale * U)) with false.
  2:{ symmetry. apply Bool.orb_false_iff. split; apply Z.ltb_ge; apply Z.mul_le_mono_nonneg_r; lia. }
  replace (k * scale * U =? 9223372036854775808 * U) with false.
  2:{ symmetry. apply Z.eqb_neq. intros Q. apply Z.mul_reg_r in Q; lia. }
  rewrite Z.quot_mul by lia. reflexivity.
Qed.
(** In general the span is within one tick and a relative error of 2^-53 of the exact product. *)
Theorem C80_accuracy : forall F scale x r, In (F, scale) from_units -> pattern dbl x -> finite dbl x -> F x = Ret r ->
  9007199254740992 * Z.abs (r * U - value dbl x * scale) <= 9007199254740992 * U + Z.abs (value dbl x * scale).
Proof.
  intros F scale x r HF P Fx. destruct (from_units_interval F scale HF) as (E & Hs). rewrite E. pose proof U_pos as Up.
  destruct (interval_finite x scale P Fx Hs) as (t & R & ->). 
  destruct ((value dbl t <? _) || _) eqn:E1; [discriminate|]. destruct (value dbl t =? _) eqn:E2; [discriminate|]. intros H. assert (Er : r = Z.quot (value dbl t) U) by congruence. subst r.
  assert (Ft : finite dbl t).
  { assert (Q : 9223372036854775808 * U < mag_value dbl (exp_mask dbl)) by (vm_compute; reflexivity).
    destruct R as (_ & _ & (Rm & _) & _). unfold finite. destruct (Z.eq_dec (magnitude dbl t) (exp_mask dbl)) as [I|I]; [|lia]. exfalso. pose proof (value_mag dbl double_good t) as M. rewrite I in M. lia. }
  pose proof (rounded_error dbl double_good _ _ _ Z.lt_0_1 R Ft) as Er. change (2 * 2 ^ mbits dbl) with 9007199254740992 in Er. rewrite Z.mul_1_r in Er.
  set (v := value dbl t) in *. set (n := value dbl x * scale) in *. clearbody v n.
  pose proof (Z.quot_rem v U ltac:(lia)) as D. pose proof (Z.rem_bound_abs v U ltac:(lia)) as B.
  assert (A : Z.abs (Z.quot v U * U - v) <= U) by lia.
  assert (C : Z.abs (Z.quot v U * U - n) <= Z.abs (Z.quot v U * U - v) + Z.abs (v - n)) by lia.
  destruct Er as [Er|Er]; lia.
Qed.
(** FromDays(10675199.116730064) and FromMilliseconds(922337203685477.625): the product is exactly 2^63. *)
Theorem C80_refuted : TS_FromDays 4711992814487748784 = UB SignedOverflow /\ TS_FromMilliseconds 4830733898543285037 = UB SignedOverflow.
Proof. split; vm_compute; reflexivity. Qed.
(** 1.5 days; the hypotheses are satisfiable. *)
Example C80_case : TS_FromDays 4609434218613702656 = Ret 1296000000000 /\ TS_FromSeconds (quiet_nan dbl) = Exn ArgumentException /\
  represents dbl (fl_of_Z dbl (-7)) (-7) /\ TS_FromHours (fl_of_Z dbl (-7)) = Ret (-252000000000).
Proof. split; [vm_compute; reflexivity|]. split; [vm_compute; reflexivity|]. split; [apply fl_represents; lia|vm_compute; reflexivity]. Qed.
Print Assumptions C80_from_units_partial. Print Assumptions C80_monotone. Print Assumptions C80_whole_units. Print Assumptions C80_accuracy. Print Assumptions C80_refuted.
