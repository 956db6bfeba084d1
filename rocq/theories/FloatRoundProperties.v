(** * C84: Math.Round(value, digits, mode).  C85: Math.Divide and Math.FusedMultiplyAdd *)
From Verif Require Import Tac MathModel MathProofs MathSpec MathProperties MathRoundProperties FloatSpec FloatProofs FloatModel FloatProperties FloatSpanProperties.

(** The integer that a rounding mode selects for the number [v] ([u]: 1.0): 0 ToEven, 1 AwayFromZero,
    2 ToZero, 3 ToNegativeInfinity, 4 ToPositiveInfinity. *)
Definition selects (mode u v n : Z) : Prop :=
  (mode = 0 /\ nearest_even u v n) \/
  (mode = 1 /\ 2 * Z.abs (v - n * u) <= u /\ (2 * Z.abs (v - n * u) = u -> Z.abs v <= Z.abs (n * u))) \/
  (mode = 2 /\ Z.abs (n * u) <= Z.abs v /\ Z.abs (v - n * u) < u) \/
  (mode = 3 /\ n * u <= v < (n + 1) * u) \/
  (mode = 4 /\ (n - 1) * u < v <= n * u).

Lemma U_1074 : U = 2 ^ 1074. Proof. reflexivity. Qed.
(** Multiples of powers of two with at most 53 bits are doubles. *)
Lemma small_mantissa j t : 0 <= j < 9007199254740992 -> 0 <= t <= 1900 -> exists m, 0 <= m < exp_mask dbl /\ mag_value dbl m = j * 2 ^ t.
Proof.
  intros Hj Ht. destruct (Z.eq_dec j 0) as [->|N].
  - exists 0. split; [split; [reflexivity|vm_compute; reflexivity]|]. rewrite (mag_value_zero dbl double_good). lia.
  - pose proof (Z.log2_spec j ltac:(lia)) as L. pose proof (Z.log2_nonneg j) as L0. set (l := Z.log2 j) in *.
    assert (Ll : l <= 52). { assert (l < 53); [|lia]. apply (Z.pow_lt_mono_r_iff 2); [lia|lia|]. change (2 ^ 53) with 9007199254740992. lia. }
    set (s := Z.min t (52 - l)). assert (Hs : 0 <= s <= 52 - l /\ s <= t) by lia.
    assert (Ps : 0 < 2 ^ s) by (apply Z.pow_pos_nonneg; lia).
    assert (K2 : j * 2 ^ s < 2 * 2 ^ 52).
    { apply Z.lt_le_trans with (2 ^ Z.succ l * 2 ^ s); [apply Z.mul_lt_mono_pos_r; lia|]. rewrite <- Z.pow_add_r by lia. change (2 * 2 ^ 52) with (2 ^ 53). apply Z.pow_le_mono_r; lia. }
    exists ((t - s) * 2 ^ 52 + j * 2 ^ s). split.
    + assert (2 ^ 52 = 4503599627370496) by reflexivity. change (exp_mask dbl) with (2047 * 2 ^ 52). assert (0 <= j * 2 ^ s) by (apply Z.mul_nonneg_nonneg; lia). lia.
    + rewrite (mag_value_shape dbl double_good); [rewrite <- Z.mul_assoc, <- Z.pow_add_r by lia; f_equal; f_equal; lia|lia|]. change (mbits dbl) with 52.
      destruct (Z_le_dec t (52 - l)) as [C|C].
      * right. assert (s = t) by lia. assert (0 <= j * 2 ^ s) by (apply Z.mul_nonneg_nonneg; lia). lia.
      * left. assert (s = 52 - l) as Es by lia. split; [|lia]. rewrite Es. replace (2 ^ 52) with (2 ^ l * 2 ^ (52 - l)) by (rewrite <- Z.pow_add_r by lia; f_equal; lia). apply Z.mul_le_mono_nonneg_r; [apply Z.pow_nonneg; lia|lia].
Qed.
(** A magnitude is a mantissa times a power of two. *)
Lemma mantissa m : 0 <= m < exp_mask dbl -> exists j t, mag_value dbl m = j * 2 ^ t /\ 0 <= j < 9007199254740992 /\ 0 <= t <= 2045.
Proof.
  intros H. unfold mag_value. change (2 ^ mbits dbl) with 4503599627370496. change (exp_mask dbl) with (2047 * 4503599627370496) in H.
  assert (A : 0 <= m mod 4503599627370496 < 4503599627370496) by (apply Z.mod_pos_bound; lia).
  destruct (m / 4503599627370496 =? 0) eqn:E.
  - exists m, 0. change (2 ^ 0) with 1. lia.
  - exists (4503599627370496 + m mod 4503599627370496), (m / 4503599627370496 - 1). split; [reflexivity|]. lia.
Qed.
(** Numbers from 2^53 are integers; the fraction of a smaller number is a double. *)
Lemma split_parts m : 0 <= m < exp_mask dbl ->
  (mag_value dbl m mod U = 0 \/ mag_value dbl m < 9007199254740992 * U) /\
  exists r, 0 <= r < exp_mask dbl /\ mag_value dbl r = mag_value dbl m mod U.
Proof.
  intros H. destruct (mantissa m H) as (j & t & V & Hj & Ht). rewrite V, U_1074. destruct (Z_le_dec 1074 t) as [L|L].
  - assert (Z0 : (j * 2 ^ t) mod 2 ^ 1074 = 0). { replace (2 ^ t) with (2 ^ (t - 1074) * 2 ^ 1074) by (rewrite <- Z.pow_add_r by lia; f_equal; lia). rewrite Z.mul_assoc. apply Z.mod_mul. apply Z.pow_nonzero; lia. }
    split; [left; exact Z0|]. exists 0. rewrite Z0, (mag_value_zero dbl double_good). split; [|reflexivity]. split; [reflexivity|vm_compute; reflexivity].
  - assert (Q : 2 ^ 1074 = 2 ^ (1074 - t) * 2 ^ t) by (rewrite <- Z.pow_add_r by lia; f_equal; lia). assert (Pt : 0 < 2 ^ t) by (apply Z.pow_pos_nonneg; lia). assert (Pu : 0 < 2 ^ (1074 - t)) by (apply Z.pow_pos_nonneg; lia).
    split.
    + right. rewrite Q, Z.mul_assoc. apply Z.mul_lt_mono_pos_r; [exact Pt|]. assert (9007199254740992 * 1 <= 9007199254740992 * 2 ^ (1074 - t)) by (apply Z.mul_le_mono_nonneg_l; lia). lia.
    + rewrite Q, Z.mul_mod_distr_r by lia. assert (B : 0 <= j mod 2 ^ (1074 - t) < 9007199254740992).
      { pose proof (Z.mod_pos_bound j (2 ^ (1074 - t)) Pu). pose proof (Z.mod_le j (2 ^ (1074 - t)) ltac:(lia) Pu). lia. }
      destruct (small_mantissa (j mod 2 ^ (1074 - t)) t B ltac:(lia)) as (r & Hr & Vr). exists r. split; assumption.
Qed.
Lemma round_exact_mag m n : 0 <= m <= exp_mask dbl -> n = mag_value dbl m -> round_mag dbl n 1 = m.
Proof. intros H ->. rewrite <- (Z.mul_1_r (mag_value dbl m)). apply (round_mag_exact dbl double_good); [exact H|lia]. Qed.
Lemma integer_mag k : 0 <= k <= 9007199254740992 -> exists m, 0 <= m < exp_mask dbl /\ mag_value dbl m = k * U.
Proof.
  intros H. destruct (dbl_small k ltac:(lia)) as (V & F). exists (magnitude dbl (fl_of_Z dbl k)). split; [split; [apply (mag_range dbl double_good)|exact F]|].
  rewrite <- (value_mag dbl double_good), V. apply Z.abs_eq, Z.mul_nonneg_nonneg; [apply H|apply Z.lt_le_incl, U_pos].
Qed.
Definition integer_of (away : bool) (a u : Z) : Z := if away then (a + u - 1) / u else a / u.
Lemma integer_of_bounds away a u : 0 < u -> 0 <= a -> 0 <= integer_of away a u /\ (a mod u = 0 -> integer_of away a u * u = a) /\ (forall L, a < L * u -> integer_of away a u <= L).
Proof.
  intros Hu Ha. unfold integer_of. pose proof (Z.div_mod a u ltac:(lia)) as D. pose proof (Z.mod_pos_bound a u Hu) as B.
  destruct away.
  - pose proof (Z.div_mod (a + u - 1) u ltac:(lia)) as D'. pose proof (Z.mod_pos_bound (a + u - 1) u Hu) as B'. split; [apply Z.div_pos; lia|]. split.
    + intros M. assert (E : (a + u - 1) / u = a / u) by (symmetry; apply (Z.div_unique _ _ _ (u - 1)); lia). rewrite E. lia.
    + intros L HL. apply Z.lt_succ_r. apply Z.div_lt_upper_bound; [exact Hu|]. lia.
  - split; [apply Z.div_pos; lia|]. split; [intros M; lia|]. intros L HL. apply Z.lt_le_incl. apply Z.div_lt_upper_bound; [exact Hu|]. lia.
Qed.
Lemma integral_spec away x : pattern dbl x -> finite dbl x ->
  let k := integer_of away (mag dbl x) U in let q := fl_integral dbl away x in
  represents dbl q (if negative dbl x then - k else k) /\ negative dbl q = negative dbl x.
Proof.
  intros P F. cbn zeta. destruct (finite_class dbl x F) as (N & I). unfold fl_integral. rewrite N, I. cbn [orb]. pose proof U_pos as Up.
  assert (Hm : 0 <= magnitude dbl x < exp_mask dbl) by (split; [apply (mag_range dbl double_good)|exact F]).
  assert (Ha : 0 <= mag dbl x) by (apply (mag_value_nonneg dbl double_good); apply Hm).
  destruct (integer_of_bounds away (mag dbl x) U Up Ha) as (K0 & K1 & K2).
  change (if away then (mag dbl x + U - 1) / U else mag dbl x / U) with (integer_of away (mag dbl x) U). set (k := integer_of away (mag dbl x) U) in *.
  assert (M : exists m, 0 <= m < exp_mask dbl /\ mag_value dbl m = k * U).
  { destruct (split_parts (magnitude dbl x) Hm) as ([Z0|Sm] & _).
    - exists (magnitude dbl x). split; [exact Hm|]. symmetry. apply K1. exact Z0.
    - apply integer_mag. split; [exact K0|]. apply K2. exact Sm. }
  destruct M as (m & Rm & Vm). rewrite (round_exact_mag m) by (try (symmetry; exact Vm); lia).
  destruct (with_sign_fields dbl double_good (negative dbl x) m ltac:(lia)) as (W1 & W2 & W3 & W4).
  split; [|exact W2]. split; [exact W1|]. split; [unfold finite; rewrite W3; apply Rm|]. rewrite (value_with_sign dbl double_good) by lia. rewrite Vm. change (one_of dbl) with U. destruct (negative dbl x); ring.
Qed.
Lemma frac_spec x : pattern dbl x -> finite dbl x -> let q := fl_frac dbl x in
  finite dbl q /\ nan dbl q = false /\ value dbl q = (if negative dbl x then - (mag dbl x mod U) else mag dbl x mod U) /\ Z.abs (value dbl q) = mag dbl x mod U.
Proof.
  intros P F. cbn zeta. destruct (finite_class dbl x F) as (N & I). unfold fl_frac. rewrite N, I. pose proof U_pos as Up.
  assert (Hm : 0 <= magnitude dbl x < exp_mask dbl) by (split; [apply (mag_range dbl double_good)|exact F]).
  destruct (split_parts (magnitude dbl x) Hm) as (_ & r & Rr & Vr). change (mag_value dbl (magnitude dbl x)) with (mag dbl x) in Vr. rewrite (round_exact_mag r) by (try (symmetry; exact Vr); lia).
  destruct (with_sign_fields dbl double_good (negative dbl x) r ltac:(lia)) as (W1 & W2 & W3 & W4). split; [unfold finite; rewrite W3; apply Rr|]. split; [exact W4|].
  rewrite (value_with_sign dbl double_good) by lia. rewrite Vr. split; [reflexivity|]. pose proof (Z.mod_pos_bound (mag dbl x) U Up). destruct (negative dbl x); [rewrite Z.abs_opp|]; apply Z.abs_eq; apply H.
Qed.

(** Arithmetic of the five modes, for the number [v] of absolute value [a]. *)
Lemma select_away u v a s : 0 < u -> 0 <= a -> v = (if s : bool then - a else a) ->
  selects 1 u v (let k := a / u + (if u <=? 2 * (a mod u) then 1 else 0) in if s then - k else k).
Proof.
  intros Hu Ha Hv. right. left. split; [reflexivity|]. pose proof (Z.div_mod a u ltac:(lia)) as D. pose proof (Z.mod_pos_bound a u Hu) as B. cbn zeta.
  set (k := a / u) in *. set (r := a mod u) in *. assert (K : 0 <= k) by (apply Z.div_pos; lia). assert (K' : 0 <= k * u) by (apply Z.mul_nonneg_nonneg; lia).
  destruct (u <=? 2 * r) eqn:E; destruct s; subst v; rewrite ?Z.mul_opp_l, ?Z.mul_add_distr_r; lia.
Qed.
Lemma select_directed u v a s mode (away : bool) : 0 < u -> 0 <= a -> v = (if s : bool then - a else a) ->
  (mode = 2 /\ away = false \/ mode = 3 /\ away = s \/ mode = 4 /\ away = negb s) ->
  selects mode u v (let k := integer_of away a u in if s then - k else k).
Proof.
  intros Hu Ha Hv Hm. cbn zeta. unfold integer_of.
  pose proof (Z.div_mod a u ltac:(lia)) as D. pose proof (Z.mod_pos_bound a u Hu) as B.
  pose proof (Z.div_mod (a + u - 1) u ltac:(lia)) as D'. pose proof (Z.mod_pos_bound (a + u - 1) u Hu) as B'.
  assert (K : 0 <= a / u) by (apply Z.div_pos; lia). set (k := a / u) in *. set (k' := (a + u - 1) / u) in *. clearbody k k'.
  assert (KK : 0 <= k * u) by (apply Z.mul_nonneg_nonneg; lia).
  unfold selects. destruct Hm as [(-> & ->)|[(-> & ->)|(-> & ->)]]; [right; right; left|do 3 right; left|do 4 right]; (split; [reflexivity|]);
    destruct s; cbn [negb]; subst v; rewrite ?Z.mul_opp_l, ?Z.mul_add_distr_r, ?Z.mul_sub_distr_r, ?Z.mul_opp_l; lia.
Qed.
Lemma value_signed x : value dbl x = if negative dbl x then - mag dbl x else mag dbl x.
Proof. reflexivity. Qed.
Lemma half_value : nan dbl half_bits = false /\ 2 * value dbl half_bits = U.
Proof. split; vm_compute; reflexivity. Qed.
Lemma fabs_value x : value dbl (fabs dbl x) = Z.abs (value dbl x) /\ nan dbl (fabs dbl x) = nan dbl x.
Proof.
  pose proof (mag_range dbl double_good x) as R. rewrite (value_mag dbl double_good). unfold fabs, value, nan, negative.
  assert (E : magnitude dbl (magnitude dbl x) = magnitude dbl x) by (unfold magnitude at 1; apply Z.mod_small; exact R). rewrite E.
  replace (sign_bit dbl <=? magnitude dbl x) with false by (symmetry; apply Z.leb_gt; apply R). split; reflexivity.
Qed.
Lemma frac_test u h r a : 2 * h = u -> Z.abs a = r -> negb (Z.abs a <? h) && true = (u <=? 2 * r).
Proof. intros H1 H2. lia. Qed.
Lemma bound_succ k L u a r : 0 < u -> a = u * k + r -> 0 <= r < u -> a < L * u -> k + 1 <= L.
Proof. intros Hu E R H. apply Z.nlt_ge. intros C. assert (u * L <= u * k) by (apply Z.mul_le_mono_nonneg_l; lia). lia. Qed.
Theorem mode_selects x mode : pattern dbl x -> finite dbl x -> 0 <= mode <= 4 ->
  exists q n, Round_mode x mode = Ret q /\ represents dbl q n /\ selects mode U (value dbl x) n.
Proof.
  intros P F Hm. pose proof U_pos as Up.
  assert (Hmag : 0 <= magnitude dbl x < exp_mask dbl) by (split; [apply (mag_range dbl double_good)|exact F]).
  assert (Ha : 0 <= mag dbl x) by (apply (mag_value_nonneg dbl double_good); apply Hmag).
  assert (C : mode = 0 \/ mode = 1 \/ mode = 2 \/ mode = 3 \/ mode = 4) by lia. destruct C as [->|[->|C]].
  - destruct (C49_Round x P) as (H & _). destruct (H F) as (n & R & N & _). exists (Round x), n. split; [reflexivity|]. split; [exact R|]. left. split; [reflexivity|exact N].
  - unfold Round_mode. change (1 =? ToEven) with false. change (1 =? AwayFromZero) with true. cbn iota zeta.
    destruct (integral_spec false x P F) as (Rt & Nt). cbn zeta in Rt, Nt. change (fl_integral dbl false x) with (fl_trunc dbl x) in *. change (integer_of false (mag dbl x) U) with (mag dbl x / U) in Rt.
    destruct (frac_spec x P F) as (Ff & Nf & Vf & Af). cbn zeta in Ff, Nf, Vf, Af. set (fr := fl_frac dbl x) in *. set (t := fl_trunc dbl x) in *.
    pose proof (select_away U (value dbl x) (mag dbl x) (negative dbl x) Up Ha (value_signed x)) as Sel. cbn zeta in Sel.
    pose proof (Z.div_mod (mag dbl x) U ltac:(apply Z.neq_sym, Z.lt_neq; exact Up)) as D. pose proof (Z.mod_pos_bound (mag dbl x) U Up) as B.
    assert (Q : negb (flt dbl (fabs dbl fr) half_bits) && negb (nan dbl fr) = (U <=? 2 * (mag dbl x mod U))).
    { destruct half_value as (Nh & Vh). destruct (fabs_value fr) as (Va & Na). unfold flt. rewrite Na, Nf, Nh, Va. cbn [negb andb]. apply frac_test; assumption. }
    rewrite Q. destruct (U <=? 2 * (mag dbl x mod U)) eqn:E.
    + destruct (C47_Clamp_Sign_float_partial dbl fr fr fr (or_introl eq_refl)) as (_ & _ & Sg). rewrite (Sg Nf). cbn [bind].
      apply Z.leb_le in E.
      assert (Sv : Z.sgn (value dbl fr) = if negative dbl x then -1 else 1). { rewrite Vf. clear - E B Up. set (r := mag dbl x mod U) in *. generalize U E B Up. intros u E' B' Up'. destruct (negative dbl x); [apply Z.sgn_neg|apply Z.sgn_pos]; lia. }
      rewrite Sv. set (k := mag dbl x / U) in *. set (sg := if negative dbl x then -1 else 1).
      assert (Kb : 0 <= k /\ k + 1 <= 9007199254740992).
      { split; [apply Z.div_pos; [exact Ha|exact Up]|]. destruct (split_parts (magnitude dbl x) Hmag) as ([Z0|Sm] & _).
        - exfalso. change (mag_value dbl (magnitude dbl x)) with (mag dbl x) in Z0. rewrite Z0 in E. change (2 * 0) with 0 in E. apply Z.lt_nge in Up. contradiction.
        - apply (bound_succ k _ U (mag dbl x) (mag dbl x mod U)); assumption. }
      assert (Hk : Z.abs (if negative dbl x then - (k + 1) else k + 1) <= 9007199254740992) by (clear - Kb; destruct (negative dbl x); lia).
      destruct (dbl_small sg ltac:(unfold sg; destruct (negative dbl x); lia)) as (Vs & Fs). destruct Rt as (Pt & Ft & Vt).
      pose proof (fl_add_rounded dbl double_good t (fl_of_Z dbl sg) Pt (proj1 (fl_of_Z_rounded dbl double_good sg)) Ft Fs) as R.
      destruct (dbl_small _ Hk) as (Vk & Fk). set (n := if negative dbl x then - (k + 1) else k + 1) in *.
      assert (V : value dbl (fl_add dbl t (fl_of_Z dbl sg)) = n * U).
      { rewrite <- Vk. apply (rounded_exact dbl double_good _ 1 _ _ Z.lt_0_1 R); [apply (finite_class dbl); exact Fk|]. rewrite Vk, Vt, Vs. change (one_of dbl) with U. unfold n, sg. destruct (negative dbl x); ring. }
      exists (fl_add dbl t (fl_of_Z dbl sg)), n. split; [reflexivity|]. split; [|exact Sel]. split; [apply R|]. split; [|exact V].
      apply bounded_finite; [apply R|]. rewrite V, Z.abs_mul, (Z.abs_eq U) by (apply Z.lt_le_incl; exact Up). apply Z.mul_le_mono_nonneg_r; [apply Z.lt_le_incl; exact Up|]. clear - Hk. lia.
    + exists t, (if negative dbl x then - (mag dbl x / U) else mag dbl x / U). split; [reflexivity|]. split; [exact Rt|]. rewrite Z.add_0_r in Sel. exact Sel.
  - assert (A : exists away, Round_mode x mode = Ret (fl_integral dbl away x) /\ (mode = 2 /\ away = false \/ mode = 3 /\ away = negative dbl x \/ mode = 4 /\ away = negb (negative dbl x))).
    { destruct C as [-> | [-> | ->]]; [exists false|exists (negative dbl x)|exists (negb (negative dbl x))]; (split; [reflexivity|]); tauto. }
    destruct A as (away & -> & M). destruct (integral_spec away x P F) as (Ri & _). cbn zeta in Ri.
    eexists. eexists. split; [reflexivity|]. split; [exact Ri|]. apply (select_directed U (value dbl x) (mag dbl x) (negative dbl x) mode away Up Ha (value_signed x) M).
Qed.

(** ** Math.Round(value, digits, mode) *)
Lemma power10_value d : 0 <= d <= 15 -> 1 <= 10 ^ d <= 1000000000000000 /\ value dbl (power10 d) = 10 ^ d * U /\ finite dbl (power10 d).
Proof.
  intros H. assert (B : 1 <= 10 ^ d <= 1000000000000000). { change 1 with (10 ^ 0). change 1000000000000000 with (10 ^ 15). split; apply Z.pow_le_mono_r; lia. }
  split; [exact B|]. apply dbl_small. lia.
Qed.
Lemma limit_value : value dbl round_limit = 10000000000000000 * U /\ nan dbl round_limit = false.
Proof. split; vm_compute; reflexivity. Qed.
(** A number of the format above 10^31. *)
Definition big_bits : Z := 5085370992030384128.
Lemma big_value : 10000000000000000000000000000000 * U <= value dbl big_bits < mag_value dbl (exp_mask dbl) /\ nan dbl big_bits = false /\ nan dbl (big_bits + minus_zero) = false /\ value dbl (big_bits + minus_zero) = - value dbl big_bits.
Proof. split; [split; [vm_compute; discriminate|vm_compute; reflexivity]|]. split; [reflexivity|]. split; vm_compute; reflexivity. Qed.
Lemma below_finite b : nan dbl b = false -> Z.abs (value dbl b) < mag_value dbl (exp_mask dbl) -> finite dbl b.
Proof.
  intros N H. unfold nan, finite in *. destruct (Z.eq_dec (magnitude dbl b) (exp_mask dbl)) as [I|I]; [|lia].
  exfalso. rewrite (value_mag dbl double_good b), I in H. exact (Z.lt_irrefl _ H).
Qed.
Lemma finite_below b : finite dbl b -> Z.abs (value dbl b) < mag_value dbl (exp_mask dbl).
Proof. intros F. rewrite (value_mag dbl double_good b). apply (mag_value_lt dbl double_good). split; [apply (mag_range dbl double_good)|exact F]. Qed.
Lemma scale_bound u v t L : 0 < u -> Z.abs v < 10000000000000000 * u -> 1 <= t <= 1000000000000000 -> 10000000000000000000000000000000 * u <= L -> - L <= v * t <= L.
Proof.
  intros Hu Hv Ht HL. assert (Z.abs (v * t) <= 10000000000000000 * u * 1000000000000000). { rewrite Z.abs_mul. apply Z.mul_le_mono_nonneg; lia. } lia.
Qed.
Lemma scaled x d : pattern dbl x -> nan dbl x = false -> Z.abs (value dbl x) < 10000000000000000 * U -> 0 <= d <= 15 ->
  finite dbl x /\ rounded dbl (value dbl x * 10 ^ d) 1 (fl_mul dbl x (power10 d)) /\ finite dbl (fl_mul dbl x (power10 d)).
Proof.
  intros P N H Hd. pose proof U_pos as Up. destruct (power10_value d Hd) as (B & V & F10). destruct big_value as ((G1 & G2) & G3 & G4 & G5).
  assert (F : finite dbl x). { apply below_finite; [exact N|]. eapply Z.lt_trans; [exact H|]. eapply Z.le_lt_trans; [|exact G2]. eapply Z.le_trans; [|exact G1]. apply Z.mul_le_mono_nonneg_r; [apply Z.lt_le_incl; exact Up|discriminate]. }
  split; [exact F|]. pose proof (fl_mul_rounded dbl double_good x (power10 d) F F10) as R. rewrite V in R. set (p := fl_mul dbl x (power10 d)) in *.
  assert (R' : rounded dbl (value dbl x * 10 ^ d) 1 p). { apply (rounded_cancel dbl _ _ U _ Up). rewrite Z.mul_1_l, <- Z.mul_assoc. exact R. }
  split; [exact R'|]. apply below_finite; [apply R'|]. destruct (scale_bound U (value dbl x) (10 ^ d) (value dbl big_bits) Up H B G1) as (S1 & S2).
  assert (value dbl p <= value dbl big_bits) by (apply (rounded_le dbl double_good _ 1 _ _ Z.lt_0_1 R'); [exact G3|rewrite Z.mul_1_r; exact S2]).
  assert (value dbl (big_bits + minus_zero) <= value dbl p) by (apply (rounded_ge dbl double_good _ 1 _ _ Z.lt_0_1 R'); [exact G4|rewrite Z.mul_1_r, G5; exact S1]). rewrite G5 in *.
  eapply Z.le_lt_trans; [|exact G2]. apply Z.abs_le. split; assumption.
Qed.
Lemma scale_down n u t : 0 < u -> 1 <= t -> - (Z.abs (n * u) * t) <= n * u <= Z.abs (n * u) * t.
Proof. intros Hu Ht. assert (Z.abs (n * u) * 1 <= Z.abs (n * u) * t) by (apply Z.mul_le_mono_nonneg_l; lia). lia. Qed.
Lemma unscaled q n d : represents dbl q n -> 0 <= d <= 15 -> rounded dbl (n * U) (10 ^ d) (fl_div dbl q (power10 d)) /\ finite dbl (fl_div dbl q (power10 d)).
Proof.
  intros (P & F & V) Hd. pose proof U_pos as Up. destruct (power10_value d Hd) as (B & V10 & F10). change (one_of dbl) with U in V.
  assert (Pp : 0 < 10 ^ d * U) by (apply Z.mul_pos_pos; [apply Z.lt_le_trans with 1; [reflexivity|apply B]|exact Up]).
  pose proof (fl_div_rounded dbl double_good q (power10 d) F F10) as R. rewrite V10 in R. specialize (R (Z.neq_sym _ _ (Z.lt_neq _ _ Pp))).
  rewrite (Z.sgn_pos _ Pp), (Z.abs_eq _ (Z.lt_le_incl _ _ Pp)), V, Z.mul_1_r in R.
  assert (R' : rounded dbl (n * U) (10 ^ d) (fl_div dbl q (power10 d))) by (apply (rounded_cancel dbl _ _ U _ Up); exact R). split; [exact R'|].
  assert (T : 0 < 10 ^ d) by (apply Z.lt_le_trans with 1; [reflexivity|apply B]).
  apply below_finite; [apply R'|]. eapply Z.le_lt_trans; [|apply (finite_below q F)]. rewrite V.
  destruct (scale_down n U (10 ^ d) Up (proj1 B)) as (S1 & S2). destruct (fabs_value q) as (Va & Na). rewrite (proj1 (finite_class dbl q F)) in Na. rewrite V in Va.
  assert (X : exists c, nan dbl c = false /\ value dbl c = - Z.abs (n * U)).
  { exists (with_sign dbl true (magnitude dbl q)). assert (M : 0 <= magnitude dbl q <= exp_mask dbl) by (split; [apply (mag_range dbl double_good)|apply Z.lt_le_incl, F]). split; [apply (with_sign_fields dbl double_good); exact M|]. rewrite (value_with_sign dbl double_good) by exact M. rewrite <- (value_mag dbl double_good), V. reflexivity. }
  destruct X as (c & Nc & Vc).
  assert (value dbl (fl_div dbl q (power10 d)) <= value dbl (fabs dbl q)) by (apply (rounded_le dbl double_good _ _ _ _ T R' Na); rewrite Va; exact S2).
  assert (value dbl c <= value dbl (fl_div dbl q (power10 d))) by (apply (rounded_ge dbl double_good _ _ _ _ T R' Nc); rewrite Vc, Z.mul_opp_l; exact S1).
  rewrite Va in *. rewrite Vc in *. apply Z.abs_le. split; assumption.
Qed.
Theorem C84_Round_digits : forall x d mode, pattern dbl x ->
  (d < 0 \/ 15 < d -> Round_digits x d mode = Exn ArgumentOutOfRangeException) /\
  (0 <= d <= 15 -> mode < 0 \/ 4 < mode -> Round_digits x d mode = Exn ArgumentException) /\
  (0 <= d <= 15 -> 0 <= mode <= 4 ->
    (nan dbl x = true \/ 10000000000000000 * one_of dbl <= Z.abs (value dbl x) -> Round_digits x d mode = Ret x) /\
    (nan dbl x = false -> Z.abs (value dbl x) < 10000000000000000 * one_of dbl -> exists p n r,
       rounded dbl (value dbl x * 10 ^ d) 1 p /\ selects mode (one_of dbl) (value dbl p) n /\
       rounded dbl (n * one_of dbl) (10 ^ d) r /\ finite dbl r /\ Round_digits x d mode = Ret r)).
Proof.
  intros x d mode P. change (one_of dbl) with U. split; [|split].
  - intros H. unfold Round_digits. rewrite throw_if_true by lia. reflexivity.
  - intros Hd H. unfold Round_digits. rewrite throw_if_false by lia. cbn [bind]. rewrite throw_if_true by (unfold ToEven, ToPositiveInfinity; lia). reflexivity.
  - intros Hd Hm. unfold Round_digits. rewrite throw_if_false by lia. cbn [bind]. rewrite throw_if_false by (unfold ToEven, ToPositiveInfinity; lia). cbn [bind].
    destruct limit_value as (Vl & Nl). destruct (fabs_value x) as (Va & Na). unfold flt. rewrite Nl, Na, Va, Vl. split.
    + intros [N|G]; [rewrite N; reflexivity|]. replace (Z.abs (value dbl x) <? 10000000000000000 * U) with false by (symmetry; apply Z.ltb_ge; exact G). rewrite Bool.andb_false_r. reflexivity.
    + intros N L. rewrite N. replace (Z.abs (value dbl x) <? 10000000000000000 * U) with true by (symmetry; apply Z.ltb_lt; exact L). cbn [negb andb].
      destruct (scaled x d P N L Hd) as (F & R & Fp). set (p := fl_mul dbl x (power10 d)) in *.
      destruct (mode_selects p mode (proj1 R) Fp Hm) as (q & n & -> & Rq & Sel). cbn [bind].
      destruct (unscaled q n d Rq Hd) as (R' & F'). exists p, n, (fl_div dbl q (power10 d)). split; [exact R|]. split; [exact Sel|]. split; [exact R'|]. split; [exact F'|reflexivity].
Qed.

(** With no digits the result is the integer itself, for every finite number. *)
Lemma from_limit_whole x : finite dbl x -> 10000000000000000 * U <= Z.abs (value dbl x) -> exists n, value dbl x = n * U.
Proof.
  intros F H. pose proof U_pos as Up. assert (Hm : 0 <= magnitude dbl x < exp_mask dbl) by (split; [apply (mag_range dbl double_good)|exact F]).
  rewrite (value_mag dbl double_good) in H. destruct (split_parts (magnitude dbl x) Hm) as ([Z0|Sm] & _).
  - pose proof (Z.div_mod (mag_value dbl (magnitude dbl x)) U ltac:(apply Z.neq_sym, Z.lt_neq; exact Up)) as D. rewrite Z0, Z.add_0_r, Z.mul_comm in D.
    rewrite value_signed. unfold mag. exists (if negative dbl x then - (mag_value dbl (magnitude dbl x) / U) else mag_value dbl (magnitude dbl x) / U). destruct (negative dbl x); rewrite D at 1; ring.
  - exfalso. apply (Z.lt_irrefl (10000000000000000 * U)). eapply Z.le_lt_trans; [exact H|]. eapply Z.lt_le_trans; [exact Sm|]. apply Z.mul_le_mono_nonneg_r; [apply Z.lt_le_incl; exact Up|discriminate].
Qed.
Lemma selects_whole mode u n : 0 < u -> 0 <= mode <= 4 -> selects mode u (n * u) n.
Proof.
  intros Hu Hm. unfold selects, nearest_even. rewrite Z.sub_diag, Z.mul_add_distr_r, Z.mul_sub_distr_r. change (Z.abs 0) with 0.
  assert (C : mode = 0 \/ mode = 1 \/ mode = 2 \/ mode = 3 \/ mode = 4) by lia. destruct C as [->|[->|[->|[->| ->]]]]; [left|right; left|do 2 right; left|do 3 right; left|do 4 right]; lia.
Qed.
Theorem C84_no_digits : forall x mode, pattern dbl x -> finite dbl x -> 0 <= mode <= 4 ->
  exists r n, Round_digits x 0 mode = Ret r /\ represents dbl r n /\ selects mode (one_of dbl) (value dbl x) n.
Proof.
  intros x mode P F Hm. destruct (C84_Round_digits x 0 mode P) as (_ & _ & H). destruct (H ltac:(lia) Hm) as (H1 & H2). clear H. change (one_of dbl) with U in *. pose proof U_pos as Up.
  assert (N : nan dbl x = false) by (apply (finite_class dbl); exact F).
  destruct (Z_lt_dec (Z.abs (value dbl x)) (10000000000000000 * U)) as [L|L].
  - clear H1 H2. unfold Round_digits. rewrite throw_if_false by reflexivity. cbn [bind]. rewrite throw_if_false by (unfold ToEven, ToPositiveInfinity; clear - Hm; lia). cbn [bind].
    destruct limit_value as (Vl & Nl). destruct (fabs_value x) as (Va & Na). unfold flt. rewrite Nl, Na, Va, Vl, N. replace (Z.abs (value dbl x) <? 10000000000000000 * U) with true by (symmetry; apply Z.ltb_lt; exact L). cbn [negb andb].
    destruct (scaled x 0 P N L ltac:(lia)) as (_ & R & Fp). set (p := fl_mul dbl x (power10 0)) in *. change (10 ^ 0) with 1 in R. rewrite Z.mul_1_r in R.
    assert (Vp : value dbl p = value dbl x) by (apply (rounded_exact dbl double_good _ 1 _ _ Z.lt_0_1 R N); apply Z.mul_1_r).
    destruct (mode_selects p mode (proj1 R) Fp Hm) as (q & n & -> & Rq & Sel). cbn [bind]. destruct (unscaled q n 0 Rq ltac:(lia)) as (R' & F').
    exists (fl_div dbl q (power10 0)), n. split; [reflexivity|]. rewrite <- Vp. split; [|exact Sel]. split; [apply R'|]. split; [exact F'|]. destruct Rq as (_ & Fq & Vq).
    change (one_of dbl) with U in *. rewrite <- Vq. apply (rounded_exact dbl double_good _ 1 _ _ Z.lt_0_1 R'); [apply (finite_class dbl); exact Fq|]. rewrite Z.mul_1_r. exact Vq.
  - apply Z.nlt_ge in L. rewrite (H1 (or_intror L)). destruct (from_limit_whole x F L) as (n & Vn). exists x, n. split; [reflexivity|]. split; [split; [exact P|split; [exact F|exact Vn]]|]. rewrite Vn. apply selects_whole; assumption.
Qed.

(** ** The modes are monotone *)
Lemma selects_mono mode u v n v' n' : 0 < u -> selects mode u v n -> selects mode u v' n' -> v <= v' -> n <= n'.
Proof.
  intros Hu H H' L. apply Z.nlt_ge. intros C. assert (M : n' * u + u <= n * u). { replace (n' * u + u) with ((n' + 1) * u) by ring. apply Z.mul_le_mono_nonneg_r; lia. }
  assert (S1 : forall k, k * u <= - u \/ k = 0 \/ u <= k * u).
  { intros k. destruct (Z.lt_trichotomy k 0) as [K|[K|K]]; [left|right; left; exact K|right; right].
    - replace (- u) with (-1 * u) by ring. apply Z.mul_le_mono_nonneg_r; lia.
    - replace u with (1 * u) at 1 by ring. apply Z.mul_le_mono_nonneg_r; lia. }
  pose proof (S1 n) as Sn. pose proof (S1 n') as Sn'. clear S1. unfold selects, nearest_even in *.
  destruct H as [(E & A & A')|[(E & A & A')|[(E & A & A')|[(E & A)|(E & A)]]]]; destruct H' as [(E' & B & B')|[(E' & B & B')|[(E' & B & B')|[(E' & B)|(E' & B)]]]]; try lia.
  assert (T : 2 * Z.abs (v - n * u) = u) by lia. assert (T' : 2 * Z.abs (v' - n' * u) = u) by lia. specialize (A' T). specialize (B' T').
    assert (Q : n * u = n' * u + u) by lia. assert (Qn : n = n' + 1). { apply (Z.mul_reg_r _ _ u); [lia|]. rewrite Z.mul_add_distr_r. lia. } rewrite Qn, Z.even_add, B' in A'. discriminate.
Qed.
(** The numbers below 10^16 end two below it. *)
Lemma below_limit x : nan dbl x = false -> value dbl x < 10000000000000000 * U -> value dbl x <= 9999999999999998 * U.
Proof.
  intros N H. pose proof U_pos as Up. destruct (Z_lt_dec (value dbl x) 0) as [Ng|Ng]; [apply Z.lt_le_incl; eapply Z.lt_le_trans; [exact Ng|]; apply Z.mul_nonneg_nonneg; [discriminate|apply Z.lt_le_incl; exact Up]|].
  apply Z.nlt_ge in Ng. rewrite <- (Z.abs_eq _ Ng) in *. rewrite (value_mag dbl double_good) in *. pose proof (proj1 (mag_range dbl double_good x)) as M0. set (m := magnitude dbl x) in *.
  assert (V1 : mag_value dbl (magnitude dbl round_limit) = 10000000000000000 * U) by (vm_compute; reflexivity).
  assert (V0 : mag_value dbl (magnitude dbl round_limit - 1) = 9999999999999998 * U) by (vm_compute; reflexivity).
  assert (L : m < magnitude dbl round_limit). { apply Z.nle_gt. intros C. rewrite <- V1 in H. apply (proj1 (mag_value_iff dbl double_good m (magnitude dbl round_limit) M0 ltac:(vm_compute; discriminate))) in H. exact (Z.lt_irrefl _ (Z.lt_le_trans _ _ _ H C)). }
  rewrite <- V0. apply (mag_value_le dbl double_good). split; [exact M0|]. apply Z.lt_le_pred in L. rewrite Z.sub_1_r. exact L.
Qed.

Lemma selects_near mode u v n : 0 < u -> selects mode u v n -> v - u < n * u < v + u.
Proof. intros Hu. unfold selects, nearest_even. rewrite Z.mul_add_distr_r, Z.mul_sub_distr_r. lia. Qed.
Lemma count_bound u v p n t : 0 < u -> 1 <= t -> v <= 9999999999999998 * u -> - (9999999999999998 * u) <= v ->
  2 * Z.abs (p - v * t) <= 1 \/ 9007199254740992 * Z.abs (p - v * t) <= Z.abs (v * t) -> p - u < n * u < p + u ->
  - (10000000000000000 * t) <= n <= 10000000000000000 * t.
Proof.
  intros Hu Ht H1 H2 E N. assert (W : 0 < t * u) by (apply Z.mul_pos_pos; lia). assert (A1 : v * t <= 9999999999999998 * (t * u)). { replace (9999999999999998 * (t * u)) with (9999999999999998 * u * t) by ring. apply Z.mul_le_mono_nonneg_r; lia. }
  assert (A2 : - (9999999999999998 * (t * u)) <= v * t). { replace (- (9999999999999998 * (t * u))) with (- (9999999999999998 * u) * t) by ring. apply Z.mul_le_mono_nonneg_r; lia. }
  split; apply Z.nlt_ge; intros C.
  - assert (n * u <= (- (10000000000000000 * t) - 1) * u) by (apply Z.mul_le_mono_nonneg_r; lia). replace ((- (10000000000000000 * t) - 1) * u) with (- (10000000000000000 * (t * u)) - u) in * by ring. set (w := t * u) in *. clearbody w. lia.
  - assert ((10000000000000000 * t + 1) * u <= n * u) by (apply Z.mul_le_mono_nonneg_r; lia). replace ((10000000000000000 * t + 1) * u) with (10000000000000000 * (t * u) + u) in * by ring. set (w := t * u) in *. clearbody w. lia.
Qed.
Lemma below_limit_neg x : nan dbl x = false -> - (10000000000000000 * U) < value dbl x -> - (9999999999999998 * U) <= value dbl x.
Proof.
  intros N H. destruct (Z_lt_dec (value dbl x) 0) as [Ng|Ng].
  - destruct (fabs_value x) as (Va & Na). rewrite N in Na. rewrite Z.abs_neq in Va by (apply Z.lt_le_incl; exact Ng).
    pose proof (below_limit (fabs dbl x) Na) as B. rewrite Va in B. assert (B' : - value dbl x <= 9999999999999998 * U) by (apply B; rewrite <- (Z.opp_involutive (10000000000000000 * U)); apply -> Z.opp_lt_mono; exact H).
    rewrite <- (Z.opp_involutive (value dbl x)). apply -> Z.opp_le_mono. exact B'.
  - apply Z.nlt_ge in Ng. eapply Z.le_trans; [|exact Ng]. vm_compute. discriminate.
Qed.
Lemma inside_limit x d mode p n r : pattern dbl x -> nan dbl x = false -> Z.abs (value dbl x) < 10000000000000000 * U -> 0 <= d <= 15 ->
  rounded dbl (value dbl x * 10 ^ d) 1 p -> finite dbl p -> selects mode U (value dbl p) n -> rounded dbl (n * U) (10 ^ d) r ->
  - (10000000000000000 * U) <= value dbl r <= 10000000000000000 * U.
Proof.
  intros P N H Hd R Fp Sel R'. pose proof U_pos as Up. apply Z.abs_lt in H. destruct (power10_value d Hd) as (B & _).
  pose proof (rounded_error dbl double_good _ _ _ Z.lt_0_1 R Fp) as E. change (2 * 2 ^ mbits dbl) with 9007199254740992 in E. rewrite Z.mul_1_r in E.
  pose proof (count_bound U (value dbl x) (value dbl p) n (10 ^ d) Up (proj1 B) (below_limit x N (proj2 H)) (below_limit_neg x N (proj1 H)) E (selects_near mode U _ n Up Sel)) as (C1 & C2).
  assert (T : 0 < 10 ^ d) by (apply Z.lt_le_trans with 1; [reflexivity|apply B]). destruct limit_value as (Vl & Nl).
  assert (V2 : value dbl (round_limit + minus_zero) = - (10000000000000000 * U) /\ nan dbl (round_limit + minus_zero) = false) by (split; vm_compute; reflexivity). destruct V2 as (V2 & N2).
  split.
  - rewrite <- V2. apply (rounded_ge dbl double_good _ _ _ _ T R' N2). rewrite V2. replace (- (10000000000000000 * U) * 10 ^ d) with (- (10000000000000000 * 10 ^ d) * U) by ring. apply Z.mul_le_mono_nonneg_r; [apply Z.lt_le_incl; exact Up|exact C1].
  - rewrite <- Vl. apply (rounded_le dbl double_good _ _ _ _ T R' Nl). rewrite Vl. replace (10000000000000000 * U * 10 ^ d) with (10000000000000000 * 10 ^ d * U) by ring. apply Z.mul_le_mono_nonneg_r; [apply Z.lt_le_incl; exact Up|exact C2].
Qed.
Theorem C84_monotone : forall x y d mode, pattern dbl x -> pattern dbl y -> nan dbl x = false -> nan dbl y = false -> 0 <= d <= 15 -> 0 <= mode <= 4 ->
  value dbl x <= value dbl y -> exists r s, Round_digits x d mode = Ret r /\ Round_digits y d mode = Ret s /\ value dbl r <= value dbl s.
Proof.
  intros x y d mode Px Py Nx Ny Hd Hm L. pose proof U_pos as Up. change U with (one_of dbl) in Up.
  destruct (proj2 (proj2 (C84_Round_digits x d mode Px)) Hd Hm) as (X1 & X2). destruct (proj2 (proj2 (C84_Round_digits y d mode Py)) Hd Hm) as (Y1 & Y2).
  assert (T : 0 < 10 ^ d) by (apply Z.pow_pos_nonneg; [reflexivity|apply Hd]).
  assert (Fin : forall z p, pattern dbl z -> nan dbl z = false -> Z.abs (value dbl z) < 10000000000000000 * one_of dbl -> rounded dbl (value dbl z * 10 ^ d) 1 p -> finite dbl p).
  { intros z p Pz Nz Hz Rp. destruct (scaled z d Pz Nz Hz Hd) as (_ & R & F). apply below_finite; [apply Rp|]. rewrite (rounded_value_unique dbl double_good _ _ _ _ Z.lt_0_1 Rp R). apply finite_below, F. }
  destruct (Z_lt_dec (Z.abs (value dbl x)) (10000000000000000 * one_of dbl)) as [Lx|Lx]; destruct (Z_lt_dec (Z.abs (value dbl y)) (10000000000000000 * one_of dbl)) as [Ly|Ly].
  - destruct (X2 Nx Lx) as (p & n & r & R & Sel & R' & _ & E). destruct (Y2 Ny Ly) as (p' & n' & s & S & Sel' & S' & _ & E'). exists r, s. split; [exact E|]. split; [exact E'|].
    apply (rounded_mono dbl double_good (n * one_of dbl) (10 ^ d) r (n' * one_of dbl) (10 ^ d) s T T); [|exact R'|exact S']. apply Z.mul_le_mono_nonneg_r; [apply Z.lt_le_incl; exact T|]. apply Z.mul_le_mono_nonneg_r; [apply Z.lt_le_incl; exact Up|].
    apply (selects_mono mode (one_of dbl) (value dbl p) n (value dbl p') n' Up Sel Sel').
    apply (rounded_mono dbl double_good (value dbl x * 10 ^ d) 1 p (value dbl y * 10 ^ d) 1 p' Z.lt_0_1 Z.lt_0_1); [|exact R|exact S]. rewrite !Z.mul_1_r. apply Z.mul_le_mono_nonneg_r; [apply Z.lt_le_incl; exact T|exact L].
  - destruct (X2 Nx Lx) as (p & n & r & R & Sel & R' & _ & E). apply Z.nlt_ge in Ly. exists r, y. split; [exact E|]. split; [apply Y1; right; exact Ly|].
    eapply Z.le_trans; [apply (inside_limit x d mode p n r Px Nx Lx Hd R (Fin x p Px Nx Lx R) Sel R')|]. change (one_of dbl) with U in *. clear - L Lx Ly Up. apply Z.abs_lt in Lx. generalize dependent (value dbl y). generalize dependent (value dbl x). generalize dependent U. intros. lia.
  - destruct (Y2 Ny Ly) as (p & n & s & R & Sel & R' & _ & E). apply Z.nlt_ge in Lx. exists x, s. split; [apply X1; right; exact Lx|]. split; [exact E|].
    eapply Z.le_trans; [|apply (inside_limit y d mode p n s Py Ny Ly Hd R (Fin y p Py Ny Ly R) Sel R')]. change (one_of dbl) with U in *. clear - L Lx Ly Up. apply Z.abs_lt in Ly. generalize dependent (value dbl y). generalize dependent (value dbl x). generalize dependent U. intros. lia.
  - apply Z.nlt_ge in Lx, Ly. exists x, y. split; [apply X1; right; exact Lx|]. split; [apply Y1; right; exact Ly|exact L].
Qed.

(** ** Numbers that already have the digits
    The number nearest to n / 10^d with at most 15 significant digits is not changed by the two modes
    that go to the nearest. *)
Lemma back_bound u v p n t : 0 < u -> 1 <= t <= 1000000000000000 -> Z.abs n <= 1000000000000000 -> 4000000000000000 <= u ->
  2 * Z.abs (v * t - n * u) <= t \/ 9007199254740992 * Z.abs (v * t - n * u) <= Z.abs (n * u) ->
  2 * Z.abs (p - v * t) <= 1 \/ 9007199254740992 * Z.abs (p - v * t) <= Z.abs (v * t) -> 2 * Z.abs (p - n * u) < u.
Proof.
  intros Hu Ht Hn Hu' E1 E2. assert (A : Z.abs (n * u) <= 1000000000000000 * u) by (rewrite Z.abs_mul, (Z.abs_eq u) by lia; apply Z.mul_le_mono_nonneg_r; lia).
  set (w := v * t) in *. set (m := n * u) in *. clearbody w m. lia.
Qed.
Lemma nearest_selects mode u v n n' : 0 < u -> mode = 0 \/ mode = 1 -> 2 * Z.abs (v - n * u) < u -> selects mode u v n' -> n' = n.
Proof.
  intros Hu Hm H S. assert (S0 : selects mode u v n).
  { destruct Hm as [->| ->]; [left|right; left]; (split; [reflexivity|]); (split; [lia|]); intros; exfalso; lia. }
  apply Z.le_antisymm; eapply selects_mono; try eassumption; apply Z.le_refl.
Qed.
Theorem C84_digits_kept : forall x n d mode, 0 <= d <= 15 -> mode = 0 \/ mode = 1 -> Z.abs n <= 1000000000000000 ->
  rounded dbl (n * one_of dbl) (10 ^ d) x -> exists r, Round_digits x d mode = Ret r /\ value dbl r = value dbl x.
Proof.
  intros x n d mode Hd Hm Hn Rx. pose proof U_pos as Up. change (one_of dbl) with U in *. destruct (power10_value d Hd) as (B & _).
  assert (T : 0 < 10 ^ d) by (apply Z.lt_le_trans with 1; [reflexivity|apply B]). destruct limit_value as (Vl & Nl).
  assert (V2 : value dbl (fl_of_Z dbl 1000000000000000) = 1000000000000000 * U /\ finite dbl (fl_of_Z dbl 1000000000000000)) by (apply dbl_small; discriminate).
  assert (V3 : value dbl (fl_of_Z dbl (-1000000000000000)) = -1000000000000000 * U /\ finite dbl (fl_of_Z dbl (-1000000000000000))) by (apply dbl_small; discriminate).
  assert (Hb : - (1000000000000000 * U) * 10 ^ d <= n * U <= 1000000000000000 * U * 10 ^ d).
  { clear - Up B Hn. generalize dependent (10 ^ d). generalize dependent U. intros u Hu t Ht. apply Z.abs_le in Hn.
    assert (A1 : n * u <= 1000000000000000 * u) by (apply Z.mul_le_mono_nonneg_r; lia). assert (A2 : -1000000000000000 * u <= n * u) by (apply Z.mul_le_mono_nonneg_r; lia).
    assert (A3 : 1000000000000000 * u * 1 <= 1000000000000000 * u * t) by (apply Z.mul_le_mono_nonneg_l; lia). lia. }
  assert (Lx : Z.abs (value dbl x) <= 1000000000000000 * U).
  { apply Z.abs_le. split.
    - replace (- (1000000000000000 * U)) with (-1000000000000000 * U) by reflexivity. rewrite <- (proj1 V3). apply (rounded_ge dbl double_good _ _ _ _ T Rx (proj1 (finite_class dbl _ (proj2 V3)))). rewrite (proj1 V3). apply Hb.
    - rewrite <- (proj1 V2). apply (rounded_le dbl double_good _ _ _ _ T Rx (proj1 (finite_class dbl _ (proj2 V2)))). rewrite (proj1 V2). apply Hb. }
  assert (Nx : nan dbl x = false) by apply Rx.
  assert (Lx' : Z.abs (value dbl x) < 10000000000000000 * U) by (eapply Z.le_lt_trans; [exact Lx|]; apply Z.mul_lt_mono_pos_r; [exact Up|reflexivity]).
  destruct (scaled x d (proj1 Rx) Nx Lx' Hd) as (Fx & R & Fp).
  destruct (proj2 (proj2 (C84_Round_digits x d mode (proj1 Rx))) Hd ltac:(clear - Hm; lia)) as (_ & H). destruct (H Nx Lx') as (p & n' & r & Rp & Sel & Rr & Fr & E). clear H.
  assert (Fp' : finite dbl p) by (apply below_finite; [apply Rp|]; rewrite (rounded_value_unique dbl double_good _ _ _ _ Z.lt_0_1 Rp R); apply finite_below, Fp).
  exists r. split; [exact E|].
  pose proof (rounded_error dbl double_good _ _ _ T Rx Fx) as E1. pose proof (rounded_error dbl double_good _ _ _ Z.lt_0_1 Rp Fp') as E2. change (2 * 2 ^ mbits dbl) with 9007199254740992 in E1, E2. rewrite (Z.mul_1_r (value dbl p)) in E2.
  assert (N : n' = n). { apply (nearest_selects mode U (value dbl p) n n' Up Hm); [|exact Sel]. apply (back_bound U (value dbl x) (value dbl p) n (10 ^ d) Up B Hn); [vm_compute; discriminate|exact E1|exact E2]. }
  subst n'. apply (rounded_value_unique dbl double_good _ _ _ _ T Rr Rx).
Qed.
(** The directed modes do change such numbers: 1.15 * 100 is rounded down to 114.99999999999999, and
    Math.Round(1.15, 2, ToZero) is 1.14.  And the digit is not chosen for the exact number: 2.675 is
    below the tie (the exact product with 100 goes to 267), but Math.Round(2.675, 2, AwayFromZero) is
    2.68, because the product is rounded to 267.5. *)
Definition b1_15 : Z := 4607857958744122982. (* 1.15 *)
Definition b1_14 : Z := 4607812922747849277. (* 1.14 *)
Definition b2_675 : Z := 4613205983301625446. (* 2.675 *)
Definition b2_68 : Z := 4613217242300693873. (* 2.68 *)
Lemma rounded_pos n d b : 0 < d -> 0 < n -> with_sign dbl false (round_mag dbl n d) = b -> rounded dbl n d b.
Proof. intros Hd Hn <-. pose proof (rounded_with_sign dbl double_good false n d Hd) as R. rewrite Z.abs_eq in R by (apply Z.lt_le_incl; exact Hn). apply R; [reflexivity|]. intros C. exfalso. exact (Z.lt_irrefl _ (Z.lt_trans _ _ _ Hn C)). Qed.
Theorem C84_limits :
  (rounded dbl (115 * one_of dbl) 100 b1_15 /\ rounded dbl (114 * one_of dbl) 100 b1_14 /\ Round_digits b1_15 2 ToZero = Ret b1_14) /\
  (selects AwayFromZero (one_of dbl) (value dbl b2_675 * 100) 267 /\ rounded dbl (268 * one_of dbl) 100 b2_68 /\ Round_digits b2_675 2 AwayFromZero = Ret b2_68).
Proof.
  split; [split; [apply rounded_pos; vm_compute; reflexivity|split; [apply rounded_pos; vm_compute; reflexivity|vm_compute; reflexivity]]|].
  split; [|split; [apply rounded_pos; vm_compute; reflexivity|vm_compute; reflexivity]].
  right. left. split; [reflexivity|]. split; vm_compute; [discriminate|]. intros C. discriminate C.
Qed.
(** 2.5 with no digits AwayFromZero. *)
Example C84_case : Round_digits 4612811918334230528 0 AwayFromZero = Ret (fl_of_Z dbl 3) /\
  Round_digits (fl_of_Z dbl 7) 16 0 = Exn ArgumentOutOfRangeException /\ Round_digits (fl_of_Z dbl 7) 2 5 = Exn ArgumentException.
Proof. repeat split; vm_compute; reflexivity. Qed.

(** ** C85: Math.Divide(Double, Double)
    Full statement: the IEEE quotient of the two numbers.  Missing: a zero divisor with a dividend that
    is negative or NaN, or a divisor -0 (see C85_refuted). *)
Lemma div_cases a b : nan dbl a = false -> nan dbl b = false -> feq dbl b 0 = is_zero dbl b.
Proof. intros Na Nb. rewrite (is_zero_value dbl double_good). unfold feq. rewrite Nb. change (nan dbl 0) with false. change (value dbl 0) with 0. reflexivity. Qed.
Theorem C85_Divide_partial : forall a b, pattern dbl a -> pattern dbl b ->
  (nan dbl b = true \/ nan dbl a = true /\ value dbl b <> 0 -> nan dbl (Math_Divide a b) = true) /\
  (finite dbl a -> finite dbl b -> value dbl b <> 0 -> rounded dbl (value dbl a * Z.sgn (value dbl b) * one_of dbl) (Z.abs (value dbl b)) (Math_Divide a b)) /\
  (infinite dbl a -> infinite dbl b -> nan dbl (Math_Divide a b) = true) /\
  (infinite dbl a -> finite dbl b -> value dbl b <> 0 -> infinite dbl (Math_Divide a b) /\ negative dbl (Math_Divide a b) = xorb (negative dbl a) (negative dbl b)) /\
  (finite dbl a -> infinite dbl b -> value dbl (Math_Divide a b) = 0 /\ negative dbl (Math_Divide a b) = xorb (negative dbl a) (negative dbl b)) /\
  (nan dbl b = false -> nan dbl a = false -> value dbl b = 0 -> value dbl a = 0 -> nan dbl (Math_Divide a b) = true) /\
  (nan dbl b = false -> nan dbl a = false -> value dbl b = 0 -> value dbl a <> 0 -> infinite dbl (Math_Divide a b) /\ negative dbl (Math_Divide a b) = false).
Proof.
  intros a b Pa Pb. assert (F : forall c, nan dbl c = false -> feq dbl c 0 = (value dbl c =? 0)) by (intros c Nc; unfold feq; rewrite Nc; reflexivity).
  assert (FN : forall c, nan dbl c = true -> feq dbl c 0 = false) by (intros c Nc; unfold feq; rewrite Nc; reflexivity).
  assert (Iz : forall c, infinite dbl c -> nan dbl c = false /\ is_inf dbl c = true /\ is_zero dbl c = false /\ value dbl c <> 0).
  { intros c I. assert (Z0 : is_zero dbl c = false) by (unfold is_zero; rewrite I; reflexivity). unfold nan, is_inf. rewrite I, Z.ltb_irrefl, Z.eqb_refl. split; [reflexivity|]. split; [reflexivity|]. split; [exact Z0|]. rewrite (is_zero_value dbl double_good) in Z0. apply Z.eqb_neq. exact Z0. }
  assert (Nq : nan dbl (quiet_nan dbl) = true) by (vm_compute; reflexivity).
  assert (We : 0 <= exp_mask dbl <= exp_mask dbl) by (split; [discriminate|apply Z.le_refl]).
  unfold Math_Divide. repeat apply conj.
  - intros H. assert (E : feq dbl b 0 = false). { destruct H as [H|(H & H')]; [apply FN; exact H|]. destruct (nan dbl b) eqn:Nb; [apply FN; exact Nb|]. rewrite (F b Nb). apply Z.eqb_neq. exact H'. }
    rewrite E. unfold fl_div. replace (nan dbl a || nan dbl b) with true; [exact Nq|]. destruct H as [->|(-> & _)]; [symmetry; apply Bool.orb_true_r|reflexivity].
  - intros Fa Fb Z0. rewrite (F b) by (apply (finite_class dbl); exact Fb). replace (value dbl b =? 0) with false by (symmetry; apply Z.eqb_neq; exact Z0). apply (fl_div_rounded dbl double_good); assumption.
  - intros Ia Ib. destruct (Iz a Ia) as (Na & A1 & A2 & A3). destruct (Iz b Ib) as (Nb & B1 & B2 & B3). rewrite (F b Nb). replace (value dbl b =? 0) with false by (symmetry; apply Z.eqb_neq; exact B3). unfold fl_div. rewrite Na, Nb, A1, B1. exact Nq.
  - intros Ia Fb Z0. destruct (Iz a Ia) as (Na & A1 & A2 & A3). destruct (finite_class dbl b Fb) as (Nb & B1). rewrite (F b Nb). assert (Bz : is_zero dbl b = false) by (rewrite (is_zero_value dbl double_good); apply Z.eqb_neq; exact Z0).
    replace (value dbl b =? 0) with false by (symmetry; apply Z.eqb_neq; exact Z0). unfold fl_div. rewrite Na, Nb, A1, A2, B1, Bz. cbn [orb andb]. destruct (with_sign_fields dbl double_good (xorb (negative dbl a) (negative dbl b)) _ We) as (_ & W2 & W3 & _). split; [exact W3|exact W2].
  - intros Fa Ib. destruct (finite_class dbl a Fa) as (Na & A1). destruct (Iz b Ib) as (Nb & B1 & B2 & B3). rewrite (F b Nb). replace (value dbl b =? 0) with false by (symmetry; apply Z.eqb_neq; exact B3).
    assert (W0 : 0 <= 0 <= exp_mask dbl) by (split; discriminate). unfold fl_div. rewrite Na, Nb, A1, B1, B2, Bool.andb_false_r. cbn [orb andb]. destruct (with_sign_fields dbl double_good (xorb (negative dbl a) (negative dbl b)) 0 W0) as (_ & W2 & _). split; [|exact W2]. rewrite (value_with_sign dbl double_good) by exact W0. destruct (xorb _ _); reflexivity.
  - intros Nb Na Zb Za. rewrite (F b Nb), (F a Na), Zb, Za. exact Nq.
  - intros Nb Na Zb Za. rewrite (F b Nb), (F a Na), Zb. replace (value dbl a =? 0) with false by (symmetry; apply Z.eqb_neq; exact Za). split; vm_compute; reflexivity.
Qed.
(** -1 / 0 is +Infinity, as are 1 / -0 and NaN / 0. *)
Theorem C85_refuted : Math_Divide (one_bits + minus_zero) 0 = exp_mask dbl /\ Math_Divide one_bits minus_zero = exp_mask dbl /\ Math_Divide (quiet_nan dbl) 0 = exp_mask dbl.
Proof. repeat split; vm_compute; reflexivity. Qed.
(** Math.FusedMultiplyAdd.  Full statement: x * y + z rounded once.  What holds: the product is rounded,
    then the sum; it is right when the product needs no rounding. *)
Theorem C85_FusedMultiplyAdd_partial : forall x y z, pattern dbl x -> pattern dbl y -> pattern dbl z -> finite dbl x -> finite dbl y -> finite dbl z ->
  exists p, rounded dbl (value dbl x * value dbl y) (one_of dbl) p /\
  (finite dbl p -> rounded dbl (value dbl p + value dbl z) 1 (FusedMultiplyAdd x y z) /\
    (value dbl p * one_of dbl = value dbl x * value dbl y -> rounded dbl (value dbl x * value dbl y + value dbl z * one_of dbl) (one_of dbl) (FusedMultiplyAdd x y z))).
Proof.
  intros x y z Px Py Pz Fx Fy Fz. change (one_of dbl) with U. pose proof U_pos as Up. exists (fl_mul dbl x y). pose proof (fl_mul_rounded dbl double_good x y Fx Fy) as R. split; [exact R|]. intros Fp.
  pose proof (fl_add_rounded dbl double_good (fl_mul dbl x y) z (proj1 R) Pz Fp Fz) as R'. split; [exact R'|]. intros E. unfold FusedMultiplyAdd. destruct R' as (A & B & C & D1 & D2). rewrite <- E, <- Z.mul_add_distr_r.
  set (s := value dbl (fl_mul dbl x y) + value dbl z) in *. split; [exact A|]. split; [exact B|]. split.
  - rewrite Z.abs_mul, (Z.abs_eq U) by (apply Z.lt_le_incl; exact Up). rewrite <- (Z.mul_1_l U) at 2. apply (nearest_cancel dbl); [exact Up|exact C].
  - split; intros H; [apply D1|apply D2]; clear - H Up; [apply Z.mul_pos_cancel_r in H|apply Z.nle_gt; intros C; apply (Z.lt_irrefl 0); eapply Z.le_lt_trans; [|exact H]; apply Z.mul_nonneg_nonneg; [exact C|apply Z.lt_le_incl; exact Up]]; assumption.
Qed.
(** With x = y = 1 + 2^-30 and z = -(1 + 2^-29) the exact result is 2^-60; this gives 0. *)
Definition b_x : Z := 4607182418804211712.
Definition b_z : Z := 13830554455663181824.
Theorem C85_fused_refuted : FusedMultiplyAdd b_x b_x b_z = 0 /\ value dbl b_x * value dbl b_x + value dbl b_z * one_of dbl = value dbl 4336966441157787648 * one_of dbl /\ value dbl 4336966441157787648 <> 0.
Proof. repeat split; vm_compute; try reflexivity. discriminate. Qed.
Example C85_case : Math_Divide (fl_of_Z dbl 7) (fl_of_Z dbl (-2)) = 13838435755002691584 /\ FusedMultiplyAdd (fl_of_Z dbl 3) (fl_of_Z dbl 4) (fl_of_Z dbl 5) = fl_of_Z dbl 17.
Proof. split; vm_compute; reflexivity. Qed.
Print Assumptions C84_monotone.
Print Assumptions C84_digits_kept.
Print Assumptions C85_Divide_partial.
