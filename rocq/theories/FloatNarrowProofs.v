(** * Dividing two Singles as Doubles and rounding the quotient to a Single is dividing them as Singles *)
From Verif Require Import Tac IeeeModel MathModel MathProofs MathSpec FloatSpec FloatProofs FloatModel FloatProperties FloatRoundProperties ConstantProofs ConstantProperties.

Lemma pow_pos x : 0 <= x -> 0 < 2 ^ x.
Proof. intros. apply Z.pow_pos_nonneg; lia. Qed.
Lemma single_shape m : 0 <= m < exp_mask sgl -> exists c x, 0 <= x <= 253 /\ 0 <= c < 16777216 /\ (8388608 <= c \/ x = 0) /\ mag_value sgl m = c * 2 ^ x /\ mag_value sgl (m + 1) = (c + 1) * 2 ^ x.
Proof.
  intros H. change (exp_mask sgl) with (255 * 8388608) in H. pose proof (Z.div_mod m 8388608 ltac:(lia)) as D. pose proof (Z.mod_pos_bound m 8388608 ltac:(lia)) as R.
  set (q := m / 8388608) in *. assert (Q : 0 <= q <= 254) by lia.
  destruct (Z.eq_dec q 0) as [E | E].
  - exists m, 0. repeat split; try lia; [pose proof (mag_value_shape sgl single_good 0 m) as V | pose proof (mag_value_shape sgl single_good 0 (m + 1)) as V]; change (2 ^ mbits sgl) with 8388608 in V; rewrite Z.mul_0_l, Z.add_0_l in V; apply V; lia.
  - exists (m - (q - 1) * 8388608), (q - 1). repeat split; try lia.
    + pose proof (mag_value_shape sgl single_good (q - 1) (m - (q - 1) * 8388608)) as V. change (2 ^ mbits sgl) with 8388608 in V. rewrite <- V by lia. f_equal. lia.
    + pose proof (mag_value_shape sgl single_good (q - 1) (m - (q - 1) * 8388608 + 1)) as V. change (2 ^ mbits sgl) with 8388608 in V. rewrite <- V by lia. f_equal. lia.
Qed.
Lemma multiple_zero k p q : 0 < p -> Z.abs (k * p) * 9007199254740992 <= q * p -> q < 9007199254740992 -> k = 0.
Proof. intros P H Q. rewrite Z.abs_mul, (Z.abs_eq p) in H by lia. nia. Qed.
(** A quotient that close to a midpoint is the midpoint. *)
Lemma exact_middle a z b y c x : 0 <= a < 16777216 -> 0 < b < 16777216 -> 0 <= c < 16777216 -> 0 <= x -> 0 <= y -> 0 <= z -> (8388608 <= c \/ x = 0) -> (8388608 <= b \/ y = 0) ->
  let W := (2 * c + 1) * 2 ^ x in let B := b * 2 ^ y in let A := a * 2 ^ z in
  Z.abs (W * B - A * 2 ^ 150) * 9007199254740992 <= W * B -> W * B = A * 2 ^ 150.
Proof.
  intros Ha Hb Hc Hx Hy Hz Nc Nb W B A H.
  assert (EW : W * B = (2 * c + 1) * b * 2 ^ (x + y)) by (unfold W, B; rewrite Z.pow_add_r by lia; ring).
  assert (EA : A * 2 ^ 150 = a * 2 ^ (z + 150)) by (unfold A; rewrite Z.pow_add_r by lia; ring).
  rewrite EW, EA in *. clear EW EA W B A. set (k := (2 * c + 1) * b) in *.
  assert (K : 0 < k < 33554432 * 16777216) by (unfold k; nia).
  destruct (Z_le_dec (x + y - 4) (z + 150)) as [L | L].
  - set (s := Z.max 0 (x + y - 4)). assert (Ps : 0 < 2 ^ s) by (apply pow_pos; lia).
    assert (E1 : k * 2 ^ (x + y) = k * 2 ^ (x + y - s) * 2 ^ s) by (rewrite <- Z.mul_assoc, <- Z.pow_add_r by lia; f_equal; f_equal; lia).
    assert (E2 : a * 2 ^ (z + 150) = a * 2 ^ (z + 150 - s) * 2 ^ s) by (rewrite <- Z.mul_assoc, <- Z.pow_add_r by lia; f_equal; f_equal; lia).
    rewrite E1, E2 in *. rewrite <- Z.mul_sub_distr_r in H.
    assert (Q : k * 2 ^ (x + y - s) < 9007199254740992).
    { assert (2 ^ (x + y - s) <= 2 ^ 4) by (apply Z.pow_le_mono_r; lia). change (2 ^ 4) with 16 in *. assert (0 <= 2 ^ (x + y - s)) by (apply Z.pow_nonneg; lia).
      assert (k * 2 ^ (x + y - s) <= k * 16) by (apply Z.mul_le_mono_nonneg_l; lia). lia. }
    apply (multiple_zero _ _ _ Ps H) in Q. f_equal. lia.
  - exfalso. assert (Kb : 8388608 <= k) by (unfold k; nia).
    assert (P1 : 0 < 2 ^ (z + 150)) by (apply pow_pos; lia).
    assert (P2 : 2 ^ (x + y) = 2 ^ (x + y - (z + 150)) * 2 ^ (z + 150)) by (rewrite <- Z.pow_add_r by lia; f_equal; lia).
    assert (P3 : 2 ^ 5 <= 2 ^ (x + y - (z + 150))) by (apply Z.pow_le_mono_r; lia). change (2 ^ 5) with 32 in P3.
    rewrite P2 in H. clear P2. revert H P1 P3. generalize (2 ^ (z + 150)) (2 ^ (x + y - (z + 150))). clear L Nc Nb. clearbody k. intros p r H P R.
    replace (k * (r * p) - a * p) with ((k * r - a) * p) in H by ring. rewrite Z.mul_assoc in H. rewrite Z.abs_mul, (Z.abs_eq p) in H by lia.
    assert (X : Z.abs (k * r - a) * 9007199254740992 <= k * r) by nia. assert (8388608 * 32 <= k * r) by nia. lia.
Qed.
(** How near: half a unit in the last place *)
Lemma nearest_error n d j : 0 <= n -> 0 < d -> nearest dbl n d j -> j < exp_mask dbl -> 9007199254740992 < mag_value dbl j ->
  Z.abs (mag_value dbl j * d - n) * 9007199254740992 <= mag_value dbl j * d.
Proof.
  intros Hn Hd (R & N) J V. change (exp_mask dbl) with 9218868437227405312 in *.
  destruct (Z_le_dec (mag_value dbl j * d) n) as [L | L].
  - destruct (N (j + 1) ltac:(lia)) as (A & _). destruct (gap_bound dbl double_good j ltac:(lia)) as [(_ & X) | X]; [change (2 * 2 ^ mbits dbl) with 9007199254740992 in X; lia | ].
    change (2 ^ mbits dbl) with 4503599627370496 in X. pose proof (mag_value_succ dbl double_good j ltac:(lia)) as S1.
    revert A X S1 V L. generalize (mag_value dbl (j + 1)) (mag_value dbl j). clear - Hd Hn. intros w v A X S1 V L. assert (v * d < w * d) by nia.
    assert (2 * (n - v * d) <= (w - v) * d) by lia. assert ((w - v) * d * 4503599627370496 <= v * d) by nia. lia.
  - assert (1 <= j) by (destruct (Z.eq_dec j 0) as [-> | ]; [rewrite (mag_value_zero dbl double_good) in V; lia | lia]).
    destruct (N (j - 1) ltac:(lia)) as (A & _). pose proof (mag_value_succ dbl double_good (j - 1) ltac:(lia)) as S1.
    destruct (gap_bound dbl double_good (j - 1) ltac:(lia)) as [(E & X) | X]; replace (j - 1 + 1) with j in * by lia; [change (2 * 2 ^ mbits dbl) with 9007199254740992 in X; lia | ].
    change (2 ^ mbits dbl) with 4503599627370496 in X.
    revert A X S1 V L. generalize (mag_value dbl (j - 1)) (mag_value dbl j). clear - Hd Hn. intros w v A X S1 V L. assert (w * d < v * d) by nia.
    assert (2 * (v * d - n) <= (v - w) * d) by lia. assert ((v - w) * d * 4503599627370496 <= w * d) by nia. lia.
Qed.
Section Quotient.
Variables ma mb D m : Z.
Notation A := (mag_value sgl ma).
Notation B := (mag_value sgl mb).
Hypothesis Ha : 0 <= ma < exp_mask sgl.
Hypothesis Hb : 0 < mb < exp_mask sgl.
Hypothesis ND : nearest dbl (A * 2 ^ 1074) B D.
Hypothesis NS : nearest sgl (A * 2 ^ 149) B m.
Lemma B_pos : 0 < B.
Proof. rewrite <- (mag_value_zero sgl single_good). apply (mag_value_lt sgl single_good). lia. Qed.
Lemma A_nonneg : 0 <= A.
Proof. apply (mag_value_nonneg sgl single_good). lia. Qed.
(** the midpoint above the magnitude [k] *)
Lemma middle k : 0 <= k < exp_mask sgl -> exists j, 0 <= j < exp_mask dbl /\ mag_value dbl j = (mag_value sgl k + mag_value sgl (k + 1)) * 2 ^ 924 /\
  (mag_value dbl j = mag_value dbl D -> mag_value dbl j * B = A * 2 ^ 1074).
Proof.
  intros Hk. destruct (single_shape k Hk) as (c & x & Hx & Hc & Nc & V & V1).
  assert (Hd : 0 <= mb < exp_mask sgl) by lia. destruct (single_shape mb Hd) as (b & y & Hy & Hb' & Nb & VB & _).
  destruct (single_shape ma Ha) as (a & z & Hz & Ha' & _ & VA & _).
  destruct (small_mantissa (2 * c + 1) (x + 924) ltac:(lia) ltac:(lia)) as (j & Hj & Vj).
  assert (Ej : mag_value dbl j = (2 * c + 1) * 2 ^ x * 2 ^ 924) by (rewrite Vj, Z.pow_add_r, Z.mul_assoc by lia; reflexivity).
  assert (EW : mag_value sgl k + mag_value sgl (k + 1) = (2 * c + 1) * 2 ^ x) by (rewrite V, V1; ring).
  exists j. split; [exact Hj | ]. split; [rewrite EW; exact Ej | ]. intros E.
  assert (JD : j = D). { destruct ND as (R & _). apply (proj2 (mag_value_iff dbl double_good j D ltac:(lia) ltac:(lia))). exact E. }
  assert (Pb : 0 < b). { pose proof B_pos as P. rewrite VB in P. pose proof (pow_pos y ltac:(lia)). nia. }
  assert (P0 : 0 < 2 ^ 924) by (apply pow_pos; lia). assert (Px : 0 < 2 ^ x) by (apply pow_pos; lia).
  assert (Big : 9007199254740992 < mag_value dbl j).
  { rewrite Ej. assert (9007199254740992 < 2 ^ 924) by (change 9007199254740992 with (2 ^ 53); apply Z.pow_lt_mono_r; lia). clear - H Px Hc. revert H. generalize (2 ^ 924). intros q Q. assert (1 <= (2 * c + 1) * 2 ^ x) by nia. nia. }
  pose proof (nearest_error (A * 2 ^ 1074) B j) as Er. rewrite JD in Er at 1.
  assert (P74 : 0 < 2 ^ 1074) by (apply pow_pos; lia).
  specialize (Er ltac:(apply Z.mul_nonneg_nonneg; [apply A_nonneg | lia]) B_pos ND (proj2 Hj) Big).
  assert (E74 : 2 ^ 1074 = 2 ^ 150 * 2 ^ 924) by (rewrite <- Z.pow_add_r by lia; reflexivity).
  pose proof (exact_middle a z b y c x ltac:(lia) ltac:(lia) ltac:(lia) ltac:(lia) ltac:(lia) ltac:(lia) Nc Nb) as K. cbv zeta in K. rewrite <- VB, <- VA in K.
  rewrite Ej, E74 in *. clear - Er K P0. revert Er K P0. generalize (2 ^ 150) (2 ^ 924) ((2 * c + 1) * 2 ^ x). intros p q W Er K P0.
  replace (W * q * B - A * (p * q)) with ((W * B - A * p) * q) in Er by ring. rewrite Z.abs_mul, (Z.abs_eq q) in Er by lia.
  replace (W * q * B) with (W * B * q) in * by ring.
  assert (X : Z.abs (W * B - A * p) * 9007199254740992 <= W * B) by nia. rewrite (K X). ring.
Qed.
Lemma exact_nearest j : 0 <= j < exp_mask dbl -> nearest dbl (mag_value dbl j) 1 j.
Proof.
  intros H. pose proof (round_mag_nearest dbl double_good (mag_value dbl j) 1) as N. rewrite (round_exact_mag j _ ltac:(lia) eq_refl) in N. apply N; [apply (mag_value_nonneg dbl double_good); lia | lia].
Qed.
Lemma narrow_nearest : nearest sgl (mag_value dbl D) (2 ^ 925) m.
Proof.
  destruct NS as (Rm & Nm). split; [exact Rm | ]. intros k Hk. pose proof B_pos as PB. pose proof A_nonneg as PA.
  assert (E25 : 2 ^ 925 = 2 * 2 ^ 924) by reflexivity. assert (E74 : 2 ^ 1074 = 2 ^ 149 * (2 * 2 ^ 924)) by reflexivity.
  assert (P0 : 0 < 2 ^ 924) by (apply pow_pos; lia). assert (P1 : 0 < 2 ^ 149) by (apply pow_pos; lia).
  assert (HD : 0 <= D) by (destruct ND as (R & _); lia).
  assert (P74 : 0 <= A * 2 ^ 1074) by (apply Z.mul_nonneg_nonneg; [exact PA | apply Z.lt_le_incl, pow_pos; lia]).
  destruct (Z.lt_trichotomy k m) as [L | [-> | L]]; [ | split; [lia | congruence] | ].
  - destruct (Nm (m - 1) ltac:(lia)) as (N1 & N2). destruct (middle (m - 1) ltac:(lia)) as (j & Hj & Vj & Ex). replace (m - 1 + 1) with m in * by lia.
    pose proof (mag_value_succ sgl single_good (m - 1) ltac:(lia)) as S1. replace (m - 1 + 1) with m in S1 by lia.
    pose proof (mag_value_le sgl single_good k (m - 1) ltac:(lia)) as S2.
    assert (Ge : (mag_value sgl (m - 1) + mag_value sgl m) * B <= 2 * (A * 2 ^ 149)).
    { revert N1 S1 PB. generalize (mag_value sgl (m - 1)) (mag_value sgl m) (A * 2 ^ 149). intros u v n N1 S1 PB. assert (u * B < v * B) by (apply Z.mul_lt_mono_pos_r; assumption). lia. }
    assert (Mo : mag_value dbl j <= mag_value dbl D).
    { apply (mag_value_le dbl double_good). split; [lia | ].
      refine (nearest_mono dbl double_good _ _ _ _ _ _ _ _ _ (exact_nearest j Hj) ND); [lia | exact PB | ]. rewrite Vj, E74, Z.mul_1_r. clear - Ge P0. revert Ge P0. generalize (2 ^ 924) (2 ^ 149) (mag_value sgl (m - 1) + mag_value sgl m). intros q p W Ge P0. nia. }
    split.
    + rewrite E25. revert Mo Vj S1 S2 P0. clear. generalize (2 ^ 924). intros q Mo Vj S1 S2 P0. rewrite Vj in Mo. nia.
    + intros _ Tie. apply N2; [lia | ].
      assert (Ev : mag_value dbl j = mag_value dbl D /\ mag_value sgl k = mag_value sgl (m - 1)). { rewrite E25 in Tie. revert Tie Mo Vj S1 S2 P0. clear. generalize (2 ^ 924). intros q Tie Mo Vj S1 S2 P0. rewrite Vj in *. nia. }
      destruct Ev as (Ev & _). specialize (Ex Ev). rewrite Vj, E74 in Ex. revert Ex P0 S1 PB. clear. generalize (2 ^ 924) (2 ^ 149). intros q p Ex P0 S1 PB.
      assert (X : (mag_value sgl (m - 1) + mag_value sgl m) * B = 2 * (A * p)) by nia. lia.
  - destruct (Nm (m + 1) ltac:(lia)) as (N1 & N2). destruct (middle m ltac:(lia)) as (j & Hj & Vj & Ex).
    pose proof (mag_value_succ sgl single_good m ltac:(lia)) as S1.
    pose proof (mag_value_le sgl single_good (m + 1) k ltac:(lia)) as S2.
    assert (Le : 2 * (A * 2 ^ 149) <= (mag_value sgl m + mag_value sgl (m + 1)) * B).
    { revert N1 S1 PB. generalize (mag_value sgl (m + 1)) (mag_value sgl m) (A * 2 ^ 149). intros u v n N1 S1 PB. assert (v * B < u * B) by (apply Z.mul_lt_mono_pos_r; assumption). lia. }
    assert (Mo : mag_value dbl D <= mag_value dbl j).
    { apply (mag_value_le dbl double_good). split; [lia | ].
      refine (nearest_mono dbl double_good _ _ _ _ _ _ _ _ _ ND (exact_nearest j Hj)); [exact PB | lia | ]. rewrite Vj, E74, Z.mul_1_r. clear - Le P0. revert Le P0. generalize (2 ^ 924) (2 ^ 149) (mag_value sgl m + mag_value sgl (m + 1)). intros q p W Le P0. nia. }
    split.
    + rewrite E25. revert Mo Vj S1 S2 P0. clear. generalize (2 ^ 924). intros q Mo Vj S1 S2 P0. rewrite Vj in Mo. nia.
    + intros _ Tie. apply N2; [lia | ].
      assert (Ev : mag_value dbl j = mag_value dbl D /\ mag_value sgl k = mag_value sgl (m + 1)). { rewrite E25 in Tie. revert Tie Mo Vj S1 S2 P0. clear. generalize (2 ^ 924). intros q Tie Mo Vj S1 S2 P0. rewrite Vj in *. nia. }
      destruct Ev as (Ev & _). specialize (Ex Ev). rewrite Vj, E74 in Ex. revert Ex P0 S1 PB. clear. generalize (2 ^ 924) (2 ^ 149). intros q p Ex P0 S1 PB.
      assert (X : (mag_value sgl m + mag_value sgl (m + 1)) * B = 2 * (A * p)) by nia. lia.
Qed.
End Quotient.

Notation widened := (fl_convert sgl dbl).
Notation narrowed := (fl_convert dbl sgl).
Lemma nan_inf f b : nan f b = true -> is_inf f b = false.
Proof. unfold nan, is_inf. lia. Qed.
Lemma nan_zero f b : good_format f -> nan f b = true -> is_zero f b = false.
Proof. intros G. pose proof (exp_mask_range f G). unfold nan, is_zero. lia. Qed.
Lemma inf_zero f b : good_format f -> is_inf f b = true -> is_zero f b = false.
Proof. intros G. pose proof (exp_mask_range f G). unfold is_inf, is_zero. lia. Qed.
Lemma class_cases f b : nan f b = true \/ (nan f b = false /\ is_inf f b = true) \/ finite f b.
Proof. unfold nan, is_inf, finite. lia. Qed.
Lemma quiet_dbl : nan dbl (quiet_nan dbl) = true. Proof. reflexivity. Qed.
Lemma widened_class a : pattern sgl a -> nan dbl (widened a) = nan sgl a /\ is_inf dbl (widened a) = is_inf sgl a /\ is_zero dbl (widened a) = is_zero sgl a /\
  (nan sgl a = false -> negative dbl (widened a) = negative sgl a) /\ (finite sgl a -> mag dbl (widened a) = mag sgl a * 2 ^ 925) /\ pattern dbl (widened a).
Proof.
  intros P. destruct (class_cases sgl a) as [N | [(N & Fi) | F]].
  - assert (E : widened a = quiet_nan dbl) by (unfold fl_convert; rewrite N; reflexivity). rewrite E, N, (nan_inf sgl a N), (nan_zero sgl a single_good N).
    split; [reflexivity | ]. split; [reflexivity | ]. split; [reflexivity | ]. split; [discriminate | ]. split; [ | split; [discriminate | reflexivity]].
    intros Fi. unfold finite in Fi. unfold nan in N. lia.
  - assert (E : widened a = with_sign dbl (negative sgl a) (exp_mask dbl)) by (unfold fl_convert; rewrite N, Fi; reflexivity). rewrite E, N, Fi, (inf_zero sgl a single_good Fi).
    destruct (with_sign_fields dbl double_good (negative sgl a) (exp_mask dbl) ltac:(split; [discriminate | apply Z.le_refl])) as (W1 & W2 & W3 & W4). unfold is_inf, is_zero. rewrite W2, W3, W4.
    split; [reflexivity | ]. split; [reflexivity | ]. split; [reflexivity | ]. split; [reflexivity | ]. split; [ | exact W1].
    intros F. unfold finite in F. unfold is_inf in Fi. lia.
  - destruct (widen_facts a P F) as (w & -> & Pw & Fw & M & S1 & _). destruct (finite_class dbl _ Fw) as (N1 & I1). destruct (finite_class sgl _ F) as (N2 & I2).
    rewrite N1, I1, N2, I2. split; [reflexivity | ]. split; [reflexivity | ]. split; [ | split; [intros _; exact S1 | split; [intros _; exact M | exact Pw]]].
    unfold is_zero. pose proof (mag_range dbl double_good (widened a)) as R1. pose proof (mag_range sgl single_good a) as R2.
    assert (P9 : 0 < 2 ^ 925) by (apply pow_pos; lia).
    destruct (Z.eqb_spec (magnitude sgl a) 0) as [E | E].
    + rewrite E, (mag_value_zero sgl single_good), Z.mul_0_l, <- (mag_value_zero dbl double_good) in M. apply (proj2 (mag_value_iff dbl double_good (magnitude dbl (widened a)) 0 (proj1 R1) (Z.le_refl 0))) in M. rewrite M. reflexivity.
    + apply Z.eqb_neq. intros Z0. rewrite Z0, (mag_value_zero dbl double_good) in M. assert (X : mag_value sgl (magnitude sgl a) = 0) by (symmetry in M; apply Z.mul_eq_0 in M; destruct M as [M | M]; [exact M | rewrite M in P9; discriminate P9]).
      rewrite <- (mag_value_zero sgl single_good) in X. apply (proj2 (mag_value_iff sgl single_good (magnitude sgl a) 0 (proj1 R2) (Z.le_refl 0))) in X. contradiction.
Qed.
(** ** Division *)
Lemma units : unit_of dbl = 2 ^ 1074 /\ unit_of sgl = 2 ^ 149.
Proof. split; reflexivity. Qed.
Lemma narrow_quotient ma mb : 0 <= ma < exp_mask sgl -> 0 < mb < exp_mask sgl ->
  let D := round_mag dbl (mag_value sgl ma * 2 ^ 925 * unit_of dbl) (mag_value sgl mb * 2 ^ 925) in
  D < exp_mask dbl /\ round_mag sgl (mag_value dbl D * unit_of sgl) (unit_of dbl) = round_mag sgl (mag_value sgl ma * unit_of sgl) (mag_value sgl mb).
Proof.
  intros Ha Hb D. pose proof (B_pos mb Hb) as PB. pose proof (A_nonneg ma Ha) as PA. destruct units as (Ud & Us).
  assert (P9 : 0 < 2 ^ 925) by (apply pow_pos; lia). assert (P7 : 0 < 2 ^ 1074) by (apply pow_pos; lia). assert (P4 : 0 < 2 ^ 149) by (apply pow_pos; lia).
  assert (ND : nearest dbl (mag_value sgl ma * 2 ^ 1074) (mag_value sgl mb) D).
  { unfold D. rewrite Ud. clear - PB PA P9 P7. revert P9 P7. generalize (2 ^ 925) (2 ^ 1074). intros p q P9 P7.
    apply (nearest_cancel dbl (mag_value sgl ma * q) (mag_value sgl mb) p _ P9). replace (mag_value sgl ma * p * q) with (mag_value sgl ma * q * p) by ring.
    apply (round_mag_nearest dbl double_good); [repeat apply Z.mul_nonneg_nonneg; lia | apply Z.mul_pos_pos; lia]. }
  clearbody D. split.
  - destruct (small_mantissa 1 1352 ltac:(lia) ltac:(lia)) as (j & Hj & Vj). rewrite Z.mul_1_l in Vj. enough (D <= j) by lia.
    refine (nearest_mono dbl double_good _ _ _ _ _ _ PB Z.lt_0_1 _ ND (exact_nearest j Hj)). rewrite Vj.
    destruct (single_shape ma Ha) as (a & z & Hz & Ha' & _ & VA & _). rewrite VA.
    assert (X : a * 2 ^ z * 2 ^ 1074 <= 2 ^ 24 * 2 ^ 253 * 2 ^ 1074).
    { apply Z.mul_le_mono_nonneg_r; [lia | ]. apply Z.mul_le_mono_nonneg; [lia | change (2 ^ 24) with 16777216; lia | apply Z.pow_nonneg; lia | apply Z.pow_le_mono_r; lia]. }
    rewrite <- !Z.pow_add_r in X by lia. change (24 + 253 + 1074) with 1351 in X. assert (Y : 2 ^ 1352 = 2 * 2 ^ 1351) by reflexivity. rewrite Y. assert (P1 : 0 < 2 ^ 1351) by (apply pow_pos; lia).
    rewrite Z.mul_1_r. revert X P1 PB. generalize (2 ^ 1351) (a * 2 ^ z * 2 ^ 1074) (mag_value sgl mb). clear. intros p n b X P1 PB. nia.
  - assert (N1 : nearest sgl (mag_value sgl ma * 2 ^ 149) (mag_value sgl mb) (round_mag sgl (mag_value sgl ma * 2 ^ 149) (mag_value sgl mb))) by (apply (round_mag_nearest sgl single_good); [apply Z.mul_nonneg_nonneg; lia | exact PB]).
    pose proof (narrow_nearest ma mb D _ Ha Hb ND N1) as N2. rewrite Ud, Us. refine (nearest_unique sgl single_good _ _ _ _ P9 _ N2).
    apply (nearest_cancel sgl _ _ (2 ^ 149) _ P4). rewrite <- Z.pow_add_r by lia. change (925 + 149) with 1074.
    apply (round_mag_nearest sgl single_good); [ | exact P7]. apply Z.mul_nonneg_nonneg; [ | lia]. apply (mag_value_nonneg dbl double_good). destruct ND as (R & _). lia.
Qed.
Theorem narrow_div a b : pattern sgl a -> pattern sgl b -> narrowed (fl_div dbl (widened a) (widened b)) = fl_div sgl a b.
Proof.
  intros Pa Pb. destruct (widened_class a Pa) as (Na & Ia & Za & Sa & Ma & _). destruct (widened_class b Pb) as (Nb & Ib & Zb & Sb & Mb & _).
  unfold fl_div at 1. rewrite Na, Nb, Ia, Ib, Za, Zb. unfold fl_div.
  destruct (nan sgl a) eqn:NA; [reflexivity | ]. destruct (nan sgl b) eqn:NB; [reflexivity | ]. cbn [orb]. rewrite Sa, Sb by reflexivity. set (s := xorb (negative sgl a) (negative sgl b)).
  assert (WI : narrowed (with_sign dbl s (exp_mask dbl)) = with_sign sgl s (exp_mask sgl)) by (destruct s; reflexivity).
  assert (WZ : narrowed (with_sign dbl s 0) = with_sign sgl s 0) by (destruct s; vm_compute; reflexivity).
  destruct (is_inf sgl a && is_inf sgl b || is_zero sgl a && is_zero sgl b) eqn:C1; [reflexivity | ].
  destruct (is_inf sgl a || is_zero sgl b) eqn:C2; [exact WI | ]. destruct (is_inf sgl b) eqn:C3; [exact WZ | ].
  apply Bool.orb_false_iff in C2. destruct C2 as (C2 & C4).
  assert (Fa : finite sgl a) by (unfold finite; unfold nan in NA; unfold is_inf in C2; lia). assert (Fb : finite sgl b) by (unfold finite; unfold nan in NB; unfold is_inf in C3; lia).
  rewrite (Ma Fa), (Mb Fb). pose proof (mag_range sgl single_good a) as Ra. pose proof (mag_range sgl single_good b) as Rb. unfold finite in Fa, Fb. unfold is_zero in C4.
  destruct (narrow_quotient (magnitude sgl a) (magnitude sgl b) ltac:(lia) ltac:(lia)) as (Fi & Q). unfold mag.
  set (D := round_mag dbl _ _) in *.
  assert (RD : 0 <= D <= exp_mask dbl).
  { split; [ | lia]. apply (round_mag_range dbl double_good).
    - apply Z.mul_nonneg_nonneg; [apply Z.mul_nonneg_nonneg; [apply (mag_value_nonneg sgl single_good); lia | apply Z.lt_le_incl, pow_pos; lia] | apply Z.lt_le_incl, (unit_pos dbl double_good)].
    - apply Z.mul_pos_pos; [rewrite <- (mag_value_zero sgl single_good); apply (mag_value_lt sgl single_good); lia | apply pow_pos; lia]. }
  destruct (with_sign_fields dbl double_good s D RD) as (W1 & W2 & W3 & W4).
  unfold fl_convert. rewrite W4. unfold is_inf, mag. rewrite W2, W3. replace (D =? exp_mask dbl) with false by lia. rewrite Q. reflexivity.
Qed.
