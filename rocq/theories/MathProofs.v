(** * Lemmas about MathModel.v *)
From Verif Require Import Tac BoxModel MathModel.

(** ** Formats *)
Definition good_format (f : format) : Prop :=
  0 < mbits f /\ 1 < ebits f /\ sign_bit f = 2 ^ (mbits f + ebits f) /\ abs_mask f = sign_bit f - 1 /\ exp_mask f = (2 ^ ebits f - 1) * 2 ^ mbits f.
Lemma double_good : good_format double_fmt.
Proof. unfold good_format, double_fmt; cbn [mbits ebits sign_bit abs_mask exp_mask]. repeat split; reflexivity. Qed.
Lemma single_good : good_format single_fmt.
Proof. unfold good_format, single_fmt; cbn [mbits ebits sign_bit abs_mask exp_mask]. repeat split; reflexivity. Qed.
(** A bit pattern of the format. *)
Definition pattern (f : format) (b : Z) : Prop := 0 <= b < 2 * sign_bit f.

Section Formats.
Variable f : format.
Hypothesis G : good_format f.
Let m2 := 2 ^ mbits f.
Lemma m2_pos : 1 < m2.
Proof. destruct G as (H & _). unfold m2. change 1 with (2 ^ 0). apply Z.pow_lt_mono_r; lia. Qed.
Lemma sign_pos : 0 < sign_bit f.
Proof. destruct G as (H1 & H2 & -> & _). apply Z.pow_pos_nonneg; lia. Qed.
Lemma mag_range b : 0 <= magnitude f b < sign_bit f.
Proof. unfold magnitude. apply Z.mod_pos_bound. apply sign_pos. Qed.
Lemma exp_mask_range : 0 < exp_mask f < sign_bit f.
Proof.
  pose proof G as (H1 & H2 & -> & _ & ->). rewrite Z.pow_add_r by lia. fold m2. pose proof m2_pos. assert (2 ^ 1 <= 2 ^ ebits f) by (apply Z.pow_le_mono_r; lia). nia.
Qed.
Lemma sign_split b : pattern f b -> b = (if negative f b then sign_bit f else 0) + magnitude f b.
Proof.
  intros H. unfold pattern, negative, magnitude in *. pose proof sign_pos. destruct (sign_bit f <=? b) eqn:E.
  - replace b with (b - sign_bit f + 1 * sign_bit f) at 2 by lia. rewrite Z.mod_add by lia. rewrite Z.mod_small by lia. lia.
  - rewrite Z.mod_small by lia. lia.
Qed.

(** The value grows strictly with the magnitude. *)
Lemma mag_value_succ m : 0 <= m -> mag_value f m < mag_value f (m + 1).
Proof.
  intros H. unfold mag_value. fold m2. pose proof m2_pos as P.
  pose proof (Z.div_mod m m2 ltac:(lia)) as D. pose proof (Z.mod_pos_bound m m2 ltac:(lia)) as R. set (e := m / m2) in *. set (r := m mod m2) in *. assert (E0 : 0 <= e) by (apply Z.div_pos; lia).
  destruct (Z_lt_dec (r + 1) m2) as [L|L].
  - assert (Q : (m + 1) / m2 = e) by (symmetry; apply (Z.div_unique _ _ _ (r + 1)); lia). assert (Q' : (m + 1) mod m2 = r + 1) by (symmetry; apply (Z.mod_unique _ _ e); lia). rewrite Q, Q'.
    destruct (e =? 0) eqn:Z0; [lia|]. assert (0 < 2 ^ (e - 1)) by (apply Z.pow_pos_nonneg; lia). nia.
  - assert (Q : (m + 1) / m2 = e + 1) by (symmetry; apply (Z.div_unique _ _ _ 0); lia). assert (Q' : (m + 1) mod m2 = 0) by (symmetry; apply (Z.mod_unique _ _ (e + 1)); lia). rewrite Q, Q'.
    replace (e + 1 =? 0) with false by lia. replace (e + 1 - 1) with e by lia. destruct (e =? 0) eqn:Z0.
    + replace e with 0 by lia. change (2 ^ 0) with 1. nia.
    + assert (2 ^ e = 2 * 2 ^ (e - 1)) as -> by (rewrite <- Z.pow_succ_r by lia; f_equal; lia). assert (0 < 2 ^ (e - 1)) by (apply Z.pow_pos_nonneg; lia). nia.
Qed.
Lemma mag_value_lt m m' : 0 <= m < m' -> mag_value f m < mag_value f m'.
Proof.
  intros H. replace m' with (m + 1 + Z.of_nat (Z.to_nat (m' - m - 1))) by lia. induction (Z.to_nat (m' - m - 1)) as [|n IH].
  - rewrite Z.add_0_r. apply mag_value_succ. lia.
  - eapply Z.lt_trans; [exact IH|]. replace (m + 1 + Z.of_nat (S n)) with (m + 1 + Z.of_nat n + 1) by lia. apply mag_value_succ. lia.
Qed.
Lemma mag_value_zero : mag_value f 0 = 0.
Proof. unfold mag_value. fold m2. rewrite Z.div_0_l by (pose proof m2_pos; lia). reflexivity. Qed.
Lemma mag_value_nonneg m : 0 <= m -> 0 <= mag_value f m.
Proof. intros H. destruct (Z.eq_dec m 0) as [->|N]; [rewrite mag_value_zero; lia|]. pose proof (mag_value_lt 0 m ltac:(lia)). rewrite mag_value_zero in *. lia. Qed.
Lemma mag_value_iff m m' : 0 <= m -> 0 <= m' -> (mag_value f m < mag_value f m' <-> m < m') /\ (mag_value f m = mag_value f m' <-> m = m').
Proof.
  intros H H'. destruct (Z.lt_trichotomy m m') as [L|[->|L]].
  - pose proof (mag_value_lt m m' ltac:(lia)). lia.
  - lia.
  - pose proof (mag_value_lt m' m ltac:(lia)). lia.
Qed.
(** Sign and magnitude as one integer: the order of the values. *)
Definition key (b : Z) : Z := if negative f b then - magnitude f b else magnitude f b.
Lemma value_key a b : (value f a < value f b <-> key a < key b) /\ (value f a = value f b <-> key a = key b).
Proof.
  unfold value, key. pose proof (mag_range a) as Ra. pose proof (mag_range b) as Rb.
  pose proof (mag_value_nonneg _ (proj1 Ra)) as Na. pose proof (mag_value_nonneg _ (proj1 Rb)) as Nb.
  pose proof (mag_value_iff _ _ (proj1 Ra) (proj1 Rb)) as (I1 & I2). pose proof (mag_value_iff _ _ (proj1 Rb) (proj1 Ra)) as (I3 & I4).
  assert (Za : mag_value f (magnitude f a) = 0 <-> magnitude f a = 0) by (pose proof (mag_value_iff _ 0 (proj1 Ra) ltac:(lia)) as (_ & I); rewrite mag_value_zero in I; exact I).
  assert (Zb : mag_value f (magnitude f b) = 0 <-> magnitude f b = 0) by (pose proof (mag_value_iff _ 0 (proj1 Rb) ltac:(lia)) as (_ & I); rewrite mag_value_zero in I; exact I).
  destruct (negative f a), (negative f b); lia.
Qed.
Lemma IsNaN_nan v : IsNaN f v = nan f v.
Proof. unfold IsNaN, feq. rewrite Z.eqb_refl. destruct (nan f v); reflexivity. Qed.
Lemma land_abs v : 0 <= v -> Z.land v (abs_mask f) = magnitude f v.
Proof.
  intros H. pose proof G as (H1 & H2 & S & A & _). unfold magnitude. rewrite A, S. replace (2 ^ (mbits f + ebits f) - 1) with (Z.ones (mbits f + ebits f)) by (rewrite Z.ones_equiv; lia). apply Z.land_ones. lia.
Qed.
Lemma land_exp m : 0 <= m < sign_bit f -> (Z.land m (exp_mask f) =? 0) = (m <? m2).
Proof.
  intros H. pose proof G as (H1 & H2 & S & A & E). assert (E' : exp_mask f = Z.shiftl (Z.ones (ebits f)) (mbits f)) by (rewrite Z.shiftl_mul_pow2, Z.ones_equiv, E by lia; lia).
  assert (L : Z.land m (exp_mask f) = Z.shiftl (Z.land (Z.shiftr m (mbits f)) (Z.ones (ebits f))) (mbits f)).
  { rewrite E', Z.shiftl_land. apply Z.bits_inj'. intros n Hn. rewrite !Z.land_spec. destruct (Z_lt_dec n (mbits f)) as [L|L].
    - rewrite (Z.shiftl_spec_low (Z.ones (ebits f))) by lia. rewrite !andb_false_r. reflexivity.
    - f_equal. rewrite Z.shiftl_spec by lia. rewrite Z.shiftr_spec by lia. f_equal. lia. }
  rewrite L, Z.land_ones, Z.shiftr_div_pow2, Z.shiftl_mul_pow2 by lia. fold m2. pose proof m2_pos as P.
  rewrite (Z.mod_small (m / m2)). 2: { split; [apply Z.div_pos; lia|]. apply Z.div_lt_upper_bound; [lia|]. rewrite S, Z.pow_add_r in H by lia. fold m2 in H. lia. }
  destruct (m <? m2) eqn:T; [rewrite Z.div_small by lia; reflexivity|]. pose proof (Z.div_str_pos m m2 ltac:(lia)). nia.
Qed.
End Formats.

(** ** Bit masks *)
Lemma not64_land b x : 0 <= b < 2 ^ 64 -> Z.land b (not64 x) = Z.ldiff b x.
Proof.
  intros H. unfold not64, cast_u64, cast_u. rewrite <- Z.land_ones by lia. rewrite Z.ldiff_land.
  assert (E : Z.land b (Z.ones 64) = b) by (rewrite Z.land_ones by lia; apply Z.mod_small; lia).
  rewrite (Z.land_comm (Z.lnot x)), Z.land_assoc, E. reflexivity.
Qed.
Lemma ldiff_low b p : 0 <= b -> 0 <= p -> Z.ldiff b (2 ^ p - 1) = b - b mod 2 ^ p.
Proof.
  intros H Hp. replace (2 ^ p - 1) with (Z.ones p) by (rewrite Z.ones_equiv; lia). rewrite Z.ldiff_ones_r by lia. rewrite Z.shiftl_mul_pow2, Z.shiftr_div_pow2 by lia.
  pose proof (Z.div_mod b (2 ^ p) ltac:(apply Z.pow_nonzero; lia)). lia.
Qed.
Lemma ldiff_bit b p : 0 <= b -> 0 <= p -> Z.ldiff b (2 ^ p) = b - (b / 2 ^ p) mod 2 * 2 ^ p.
Proof.
  intros H Hp. pose proof (Z.testbit_spec' b p Hp) as T. rewrite <- T. destruct (Z.testbit b p) eqn:E; cbn [Z.b2z].
  - rewrite Z.mul_1_l. symmetry. apply Z.sub_nocarry_ldiff. apply Z.bits_inj'. intros n Hn. rewrite Z.ldiff_spec, Z.bits_0. rewrite Z.pow2_bits_eqb by lia. destruct (p =? n) eqn:Q; [|reflexivity]. apply Z.eqb_eq in Q. subst n. rewrite E. reflexivity.
  - rewrite Z.mul_0_l, Z.sub_0_r. apply Z.bits_inj'. intros n Hn. rewrite Z.ldiff_spec. rewrite Z.pow2_bits_eqb by lia. destruct (p =? n) eqn:Q; [|rewrite andb_true_r; reflexivity]. apply Z.eqb_eq in Q. subst n. rewrite E. reflexivity.
Qed.

(** The exponent of the least positive value, negated. *)
Definition unit_exp (f : format) : Z := 2 ^ (ebits f - 1) - 1 + mbits f - 1.

(** ** Fields of a double *)
Lemma land_field y n k : 0 <= n -> 0 <= k -> Z.land y (Z.shiftl (Z.ones n) k) = (y / 2 ^ k) mod 2 ^ n * 2 ^ k.
Proof.
  intros Hn Hk. rewrite <- (Z.land_ones _ n), <- Z.shiftr_div_pow2, <- Z.shiftl_mul_pow2 by lia. rewrite Z.shiftl_land. apply Z.bits_inj'. intros i Hi. rewrite !Z.land_spec. destruct (Z_lt_dec i k) as [L|L].
  - rewrite (Z.shiftl_spec_low (Z.ones n)) by lia. rewrite !andb_false_r. reflexivity.
  - f_equal. rewrite Z.shiftl_spec by lia. rewrite Z.shiftr_spec by lia. f_equal. lia.
Qed.
(** Biased exponent of a double. *)
Definition biased (b : Z) : Z := magnitude double_fmt b / 4503599627370496.
Lemma biased_spec b : pattern double_fmt b -> 0 <= biased b <= 2047 /\ (b / 4503599627370496) mod 2048 = biased b.
Proof.
  unfold pattern, biased, magnitude, double_fmt; cbn [sign_bit]. intros H.
  assert (R : 0 <= b mod 9223372036854775808 < 9223372036854775808) by (apply Z.mod_pos_bound; lia). split; [lia|]. lia.
Qed.
Lemma ExtractExponent_spec b : pattern double_fmt b -> ExtractExponentFromBits b = biased b.
Proof.
  intros H. destruct (biased_spec b H) as (_ & <-). unfold ExtractExponentFromBits. rewrite Z.shiftr_div_pow2 by lia. change (2 ^ 52) with 4503599627370496. unfold pattern, double_fmt in H; cbn [sign_bit] in H.
  rewrite cast_i32_id by lia. change 2047 with (Z.ones 11). rewrite Z.land_ones by lia. reflexivity.
Qed.
Lemma high_exponent x : pattern double_fmt x -> (2146435072 <=? Z.land (Z.shiftr (cast_i64 x) 32) 2146435072) = (exp_mask double_fmt <=? magnitude double_fmt x).
Proof.
  intros H. destruct (biased_spec x H) as (B & E). change 2146435072 with (Z.shiftl (Z.ones 11) 20) at 2. rewrite land_field by lia. rewrite Z.shiftr_div_pow2 by lia. change (2 ^ 32) with 4294967296. change (2 ^ 20) with 1048576. change (2 ^ 11) with 2048.
  rewrite Z.div_div by lia. change (4294967296 * 1048576) with 4503599627370496.
  assert (C : (cast_i64 x / 4503599627370496) mod 2048 = biased x).
  { rewrite <- E. unfold pattern, double_fmt in H; cbn [sign_bit] in H. unfold cast_i64, cast_s. change (2 ^ 64) with 18446744073709551616. change (2 ^ (64 - 1)) with 9223372036854775808. lia. }
  rewrite C. unfold biased in *. unfold double_fmt in *; cbn [sign_bit exp_mask] in *. lia.
Qed.
Lemma signed_bits x : pattern double_fmt x -> cast_i64 x = (if negative double_fmt x then x - 18446744073709551616 else x) /\ (cast_i64 x <? 0) = negative double_fmt x.
Proof.
  unfold pattern, negative, double_fmt; cbn [sign_bit]. intros H. unfold cast_i64, cast_s. change (2 ^ 64) with 18446744073709551616. change (2 ^ (64 - 1)) with 9223372036854775808.
  destruct (9223372036854775808 <=? x) eqn:E; lia.
Qed.
Lemma negative_bit x : pattern double_fmt x -> negative double_fmt x = Z.testbit x 63.
Proof.
  unfold pattern, negative, double_fmt; cbn [sign_bit]. intros H. destruct (9223372036854775808 <=? x) eqn:E.
  - symmetry. apply Z.testbit_true; [lia|]. change (2 ^ 63) with 9223372036854775808. lia.
  - symmetry. apply Z.testbit_false; [lia|]. change (2 ^ 63) with 9223372036854775808. lia.
Qed.
Lemma lxor_sign x : pattern double_fmt x -> Z.lxor x 9223372036854775808 = if negative double_fmt x then x - 9223372036854775808 else x + 9223372036854775808.
Proof.
  intros H. pose proof (negative_bit x H) as N. destruct (negative double_fmt x).
  - rewrite Z.sub_nocarry_ldiff.
    + change 9223372036854775808 with (2 ^ 63). apply Z.bits_inj'. intros n Hn. rewrite Z.lxor_spec, Z.ldiff_spec, Z.pow2_bits_eqb by lia. destruct (63 =? n) eqn:Q; [apply Z.eqb_eq in Q; subst n; rewrite <- N; reflexivity|]. destruct (Z.testbit x n); reflexivity.
    + change 9223372036854775808 with (2 ^ 63). apply Z.bits_inj'. intros n Hn. rewrite Z.ldiff_spec, Z.bits_0, Z.pow2_bits_eqb by lia. destruct (63 =? n) eqn:Q; [apply Z.eqb_eq in Q; subst n; rewrite <- N; reflexivity|]. reflexivity.
  - rewrite Z.add_nocarry_lxor; [reflexivity|]. change 9223372036854775808 with (2 ^ 63). apply Z.bits_inj'. intros n Hn. rewrite Z.land_spec, Z.bits_0, Z.pow2_bits_eqb by lia. destruct (63 =? n) eqn:Q; [apply Z.eqb_eq in Q; subst n; rewrite <- N; reflexivity|]. apply andb_false_r.
Qed.
Lemma lxor_pattern x y : pattern double_fmt x -> pattern double_fmt y -> pattern double_fmt (Z.lxor x y).
Proof.
  unfold pattern, double_fmt; cbn [sign_bit]. intros Hx Hy. change (2 * 9223372036854775808) with (2 ^ 64) in *. split; [apply Z.lxor_nonneg; lia|].
  destruct (Z.eq_dec (Z.lxor x y) 0) as [->|N]; [lia|]. assert (0 <= Z.lxor x y) by (apply Z.lxor_nonneg; lia). apply Z.log2_lt_pow2; [lia|].
  eapply Z.le_lt_trans; [apply Z.log2_lxor; lia|]. assert (forall v, 0 <= v < 2 ^ 64 -> Z.log2 v < 64) as Lg.
  { intros v Hv. destruct (Z.eq_dec v 0) as [->|Nv]; [cbn; lia|]. apply Z.log2_lt_pow2; lia. }
  apply Z.max_lub_lt; apply Lg; lia.
Qed.
Lemma CopySign_spec x y : pattern double_fmt x -> pattern double_fmt y ->
  CopySign x y = magnitude double_fmt x + (if negative double_fmt y || nan double_fmt y then sign_bit double_fmt else 0).
Proof.
  intros Hx Hy. unfold CopySign. rewrite IsNaN_nan. set (y' := if nan double_fmt y then minus_zero else y).
  assert (Hy' : pattern double_fmt y') by (unfold y'; destruct (nan double_fmt y); [unfold pattern, minus_zero, double_fmt; cbn; lia|exact Hy]).
  assert (Ny : negative double_fmt y' = negative double_fmt y || nan double_fmt y). { unfold y'. destruct (nan double_fmt y); [rewrite orb_true_r; reflexivity|rewrite orb_false_r; reflexivity]. }
  rewrite <- Ny. fold (negative double_fmt (Z.lxor x y')). rewrite negative_bit by (apply lxor_pattern; assumption). rewrite Z.lxor_spec, <- !negative_bit by assumption. rewrite lxor_sign by assumption.
  pose proof (sign_split double_fmt double_good x Hx) as S. destruct (negative double_fmt x), (negative double_fmt y'); cbn [xorb]; unfold double_fmt in *; cbn [sign_bit] in *; lia.
Qed.
