(** * Lemmas about IeeeModel.v *)
From Verif Require Import Tac IeeeModel MathModel MathProofs MathSpec FloatSpec.

Section Rounding.
Variable f : format.
Hypothesis G : good_format f.
Notation m2 := (2 ^ mbits f).

Lemma mag_value_shape e k : 0 <= e -> (m2 <= k <= 2 * m2 \/ e = 0 /\ 0 <= k <= 2 * m2) ->
  mag_value f (e * m2 + k) = k * 2 ^ e.
Proof.
  intros He Hk. pose proof (m2_pos f G) as P. unfold mag_value.
  destruct (Z.eq_dec k (2 * m2)) as [->|N].
  - assert (Q : (e * m2 + 2 * m2) / m2 = e + 2) by (symmetry; apply (Z.div_unique _ _ _ 0); lia).
    assert (Q' : (e * m2 + 2 * m2) mod m2 = 0) by (symmetry; apply (Z.mod_unique _ _ (e + 2)); lia).
    rewrite Q, Q'. replace (e + 2 =? 0) with false by lia. replace (e + 2 - 1) with (Z.succ e) by lia.
    rewrite Z.pow_succ_r by lia. ring.
  - destruct (Z_lt_dec k m2) as [L|L].
    + destruct Hk as [Hk|[-> Hk]]; [lia|]. rewrite Z.mul_0_l, Z.add_0_l. rewrite Z.div_small by lia. cbn [Z.eqb].
      change (2 ^ 0) with 1. ring.
    + assert (Q : (e * m2 + k) / m2 = e + 1) by (symmetry; apply (Z.div_unique _ _ _ (k - m2)); lia).
      assert (Q' : (e * m2 + k) mod m2 = k - m2) by (symmetry; apply (Z.mod_unique _ _ (e + 1)); lia).
      rewrite Q, Q'. replace (e + 1 =? 0) with false by lia. replace (e + 1 - 1) with e by lia. ring.
Qed.

Lemma mag_floor_spec n d : 0 <= n -> 0 < d ->
  0 <= mag_floor f n d /\ mag_value f (mag_floor f n d) * d <= n < mag_value f (mag_floor f n d + 1) * d.
Proof.
  intros Hn Hd. unfold mag_floor. pose proof (m2_pos f G) as P. set (q := n / d).
  assert (Hq : 0 <= q) by (apply Z.div_pos; lia).
  assert (Dq : q * d <= n < (q + 1) * d).
  { pose proof (Z.div_mod n d ltac:(lia)). pose proof (Z.mod_pos_bound n d Hd). fold q in H. lia. }
  set (e := Z.max 0 (Z.log2 q - mbits f)). assert (He : 0 <= e) by lia.
  pose proof G as (Gm & _). assert (Pe : 0 < 2 ^ e) by (apply Z.pow_pos_nonneg; lia).
  assert (Hk : m2 <= q / 2 ^ e < 2 * m2 \/ e = 0 /\ 0 <= q / 2 ^ e < 2 * m2).
  { destruct (Z.eq_dec q 0) as [->|Nq].
    - right. assert (e = 0) as -> by (unfold e; change (Z.log2 0) with 0; lia). split; [reflexivity|]. rewrite Z.div_0_l by lia. lia.
    - pose proof (Z.log2_spec q ltac:(lia)) as L. destruct (Z_le_dec (Z.log2 q) (mbits f)) as [C|C].
      + right. assert (e = 0) as E by (unfold e; lia). rewrite E. split; [reflexivity|]. change (2 ^ 0) with 1. rewrite Z.div_1_r.
        assert (2 ^ Z.succ (Z.log2 q) <= 2 * m2). { rewrite <- Z.pow_succ_r by lia. apply Z.pow_le_mono_r; lia. } lia.
      + left. assert (E : e = Z.log2 q - mbits f) by (unfold e; lia).
        assert (X : 2 ^ Z.log2 q = m2 * 2 ^ e) by (rewrite E, <- Z.pow_add_r by lia; f_equal; lia).
        rewrite Z.pow_succ_r, X in L by (apply Z.log2_nonneg). split.
        * apply Z.div_le_lower_bound; lia.
        * apply Z.div_lt_upper_bound; lia. }
  assert (V : mag_value f (e * m2 + q / 2 ^ e) = q / 2 ^ e * 2 ^ e) by (apply mag_value_shape; lia).
  assert (V' : mag_value f (e * m2 + q / 2 ^ e + 1) = (q / 2 ^ e + 1) * 2 ^ e) by (rewrite <- Z.add_assoc; apply mag_value_shape; lia).
  rewrite V, V'. split; [apply Z.add_nonneg_nonneg; [apply Z.mul_nonneg_nonneg; lia|apply Z.div_pos; lia]|].
  pose proof (Z.div_mod q (2 ^ e) ltac:(lia)) as D. pose proof (Z.mod_pos_bound q (2 ^ e) Pe) as R.
  set (k := q / 2 ^ e) in *.
  assert (B1 : k * 2 ^ e <= q) by lia. assert (B2 : q + 1 <= (k + 1) * 2 ^ e) by lia. split.
  - apply Z.le_trans with (q * d); [apply Z.mul_le_mono_nonneg_r; lia|lia].
  - apply Z.lt_le_trans with ((q + 1) * d); [lia|apply Z.mul_le_mono_nonneg_r; lia].
Qed.

Lemma exp_mask_even : Z.even (exp_mask f) = true.
Proof.
  pose proof G as (H1 & H2 & _ & _ & ->). rewrite Z.even_mul. replace (mbits f) with (Z.succ (mbits f - 1)) by lia.
  rewrite Z.pow_succ_r by lia. rewrite Z.even_mul. cbn. apply Bool.orb_true_r.
Qed.
Lemma mag_value_le m m' : 0 <= m <= m' -> mag_value f m <= mag_value f m'.
Proof. intros H. destruct (Z.eq_dec m m') as [->|N]; [lia|]. pose proof (mag_value_lt f G m m' ltac:(lia)). lia. Qed.

(** The rounding function gives the nearest magnitude ... *)
Theorem round_mag_nearest n d : 0 <= n -> 0 < d -> nearest f n d (round_mag f n d).
Proof.
  intros Hn Hd. destruct (mag_floor_spec n d Hn Hd) as (M0 & L & U). unfold round_mag. set (m := mag_floor f n d) in *.
  pose proof (exp_mask_range f G) as X.
  assert (Below : forall k, 0 <= k <= m -> mag_value f k * d <= mag_value f m * d) by (intros k Hk; apply Z.mul_le_mono_nonneg_r; [lia|apply mag_value_le; lia]).
  assert (Above : forall k, m + 1 <= k -> mag_value f (m + 1) * d <= mag_value f k * d) by (intros k Hk; apply Z.mul_le_mono_nonneg_r; [lia|apply mag_value_le; lia]).
  assert (Below' : forall k, 0 <= k < m -> mag_value f k * d < mag_value f m * d) by (intros k Hk; apply Z.mul_lt_mono_pos_r; [lia|apply (mag_value_lt f G); lia]).
  assert (Above' : forall k, m + 1 < k -> mag_value f (m + 1) * d < mag_value f k * d) by (intros k Hk; apply Z.mul_lt_mono_pos_r; [lia|apply (mag_value_lt f G); lia]).
  destruct (exp_mask f <=? m) eqn:E.
  - split; [lia|]. intros k Hk.
    assert (mag_value f (exp_mask f) * d <= n) by (pose proof (Below (exp_mask f) ltac:(lia)); lia).
    assert (mag_value f k * d <= mag_value f (exp_mask f) * d) by (apply Z.mul_le_mono_nonneg_r; [lia|apply mag_value_le; lia]).
    split; [lia|]. intros _ _. apply exp_mask_even.
  - rewrite Z.mul_add_distr_l, !(Z.mul_comm d). set (a := mag_value f m * d) in *. set (b := mag_value f (m + 1) * d) in *.
    assert (K : forall k, 0 <= k <= exp_mask f -> k <= m /\ mag_value f k * d <= a /\ (k <> m -> mag_value f k * d < a) \/ m + 1 <= k /\ b <= mag_value f k * d /\ (k <> m + 1 -> b < mag_value f k * d)).
    { intros k Hk. destruct (Z_le_dec k m) as [C|C]; [left|right].
      - split; [lia|]. split; [apply Below; lia|intros; apply Below'; lia].
      - split; [lia|]. split; [apply Above; lia|intros; apply Above'; lia]. }
    clear Below Above Below' Above'.
    assert (Ea : mag_value f m * d = a) by reflexivity. assert (Eb : mag_value f (m + 1) * d = b) by reflexivity. clearbody a b.
    assert (Odd : Z.even m = false -> Z.even (m + 1) = true) by (intros O; rewrite Z.even_add, O; reflexivity).
    destruct (2 * n <? a + b) eqn:E1; [|destruct (a + b <? 2 * n) eqn:E2; [|destruct (Z.even m) eqn:Ev]].
    + split; [lia|]. intros k Hk. specialize (K k Hk). rewrite Ea. split; [lia|]. intros Nk Eq. exfalso. lia.
    + split; [lia|]. intros k Hk. specialize (K k Hk). rewrite Eb. split; [lia|]. intros Nk Eq. exfalso. lia.
    + split; [lia|]. intros k Hk. specialize (K k Hk). rewrite Ea. split; [lia|]. intros _ _. exact Ev.
    + split; [lia|]. intros k Hk. specialize (K k Hk). rewrite Eb. split; [lia|]. intros _ _. apply Odd. reflexivity.
Qed.
(** ... which is unique. *)
Theorem nearest_unique n d m m' : 0 < d -> nearest f n d m -> nearest f n d m' -> m = m'.
Proof.
  intros Hd (R & H) (R' & H'). destruct (H m' R') as (A & A'). destruct (H' m R) as (B & B').
  destruct (Z.eq_dec m m') as [E|N]; [exact E|exfalso]. specialize (A' ltac:(lia) ltac:(lia)). specialize (B' N ltac:(lia)).
  assert (W : forall a b, 0 <= a -> a < b -> b <= exp_mask f -> Z.even a = true -> Z.even b = true ->
    Z.abs (mag_value f a * d - n) = Z.abs (mag_value f b * d - n) ->
    (forall k, 0 <= k <= exp_mask f -> Z.abs (mag_value f a * d - n) <= Z.abs (mag_value f k * d - n)) -> False).
  { intros a b Ha Hab Hb Ea Eb Eq Min.
    assert (b <> a + 1) by (intros ->; rewrite Z.even_add, Ea in Eb; discriminate).
    specialize (Min (a + 1) ltac:(lia)).
    assert (mag_value f a * d < mag_value f (a + 1) * d) by (apply Z.mul_lt_mono_pos_r; [lia|apply (mag_value_lt f G); lia]).
    assert (mag_value f (a + 1) * d < mag_value f b * d) by (apply Z.mul_lt_mono_pos_r; [lia|apply (mag_value_lt f G); lia]).
    lia. }
  destruct (Z.lt_trichotomy m m') as [L|[E|L]]; [|lia|].
  - apply (W m m'); try assumption; try lia. intros k Hk. apply (proj1 (H k Hk)).
  - apply (W m' m); try assumption; try lia. intros k Hk. apply (proj1 (H' k Hk)).
Qed.
(** Rounding is exact on representable numbers, and monotone. *)
Lemma round_mag_exact m d : 0 <= m <= exp_mask f -> 0 < d -> round_mag f (mag_value f m * d) d = m.
Proof.
  intros Hm Hd. assert (N : 0 <= mag_value f m * d) by (apply Z.mul_nonneg_nonneg; [apply (mag_value_nonneg f G); lia|lia]).
  apply (nearest_unique (mag_value f m * d) d); [exact Hd|apply round_mag_nearest; assumption|]. split; [exact Hm|]. intros k Hk.
  rewrite Z.sub_diag. split; [apply Z.abs_nonneg|]. intros Nk E. exfalso. apply Nk.
  assert (mag_value f k * d = mag_value f m * d) by (change (Z.abs 0) with 0 in E; lia). apply (mag_value_iff f G); [lia|lia|]. apply (Z.mul_reg_r _ _ d); lia.
Qed.
Lemma round_mag_range n d : 0 <= n -> 0 < d -> 0 <= round_mag f n d <= exp_mask f.
Proof. intros Hn Hd. apply (proj1 (round_mag_nearest n d Hn Hd)). Qed.
Lemma nearest_mono n d m n' d' m' : 0 < d -> 0 < d' -> n * d' <= n' * d -> nearest f n d m -> nearest f n' d' m' -> m <= m'.
Proof.
  intros Hd Hd' Hle (R & H) (R' & H'). apply Z.nlt_ge. intros L.
  destruct (H m' R') as (A & A'). destruct (H' m R) as (B & B').
  assert (V : mag_value f m' < mag_value f m) by (apply (mag_value_lt f G); lia).
  assert (Mid : m <> m' + 1 -> mag_value f m' < mag_value f (m' + 1) < mag_value f m) by (intros; split; apply (mag_value_lt f G); lia).
  set (x := mag_value f m) in *. set (y := mag_value f m') in *. clearbody x y.
  (* n/d is at least as near to x as to y, so 2n >= (x+y) d ; n'/d' likewise below *)
  assert (V1 : y * d < x * d) by (apply Z.mul_lt_mono_pos_r; lia). assert (V2 : y * d' < x * d') by (apply Z.mul_lt_mono_pos_r; lia).
  assert (C1 : (x + y) * d <= 2 * n) by (rewrite Z.mul_add_distr_r; lia).
  assert (C2 : 2 * n' <= (x + y) * d') by (rewrite Z.mul_add_distr_r; lia).
  assert (C3 : (x + y) * d * d' <= 2 * n * d') by (apply Z.mul_le_mono_nonneg_r; lia).
  assert (C4 : 2 * n' * d <= (x + y) * d' * d) by (apply Z.mul_le_mono_nonneg_r; lia).
  assert (Q : (x + y) * d * d' = (x + y) * d' * d) by ring.
  assert (Q2 : 2 * n * d' = 2 * (n * d')) by ring. assert (Q3 : 2 * n' * d = 2 * (n' * d)) by ring.
  assert (T : (x + y) * d * d' = 2 * n * d') by lia. assert (T' : 2 * n' * d = (x + y) * d' * d) by lia.
  assert (T1 : (x + y) * d = 2 * n) by (apply (Z.mul_reg_r _ _ d'); lia).
  assert (T2 : 2 * n' = (x + y) * d') by (apply (Z.mul_reg_r _ _ d); lia).
  rewrite Z.mul_add_distr_r in T1, T2.
  assert (E1 : Z.even m = true) by (apply A'; lia). assert (E2 : Z.even m' = true) by (apply B'; lia).
  (* both even and equally near: a magnitude between them is nearer *)
  assert (m <> m' + 1) by (intros ->; rewrite Z.even_add, E2 in E1; discriminate).
  destruct (H (m' + 1) ltac:(lia)) as (M & _). specialize (Mid ltac:(lia)).
  assert (y * d < mag_value f (m' + 1) * d) by (apply Z.mul_lt_mono_pos_r; lia).
  assert (mag_value f (m' + 1) * d < x * d) by (apply Z.mul_lt_mono_pos_r; lia). lia.
Qed.
Lemma round_mag_mono n d n' d' : 0 <= n -> 0 <= n' -> 0 < d -> 0 < d' -> n * d' <= n' * d -> round_mag f n d <= round_mag f n' d'.
Proof. intros. apply (nearest_mono n d _ n' d' _); try assumption; apply round_mag_nearest; assumption. Qed.

(** How far the rounded value is from the exact one: at most half a unit in the last place. *)
Lemma gap_bound m : 0 <= m -> (mag_value f (m + 1) - mag_value f m = 1 /\ mag_value f m < 2 * m2) \/ (mag_value f (m + 1) - mag_value f m) * m2 <= mag_value f m.
Proof.
  intros Hm. pose proof (m2_pos f G) as P. destruct (Z_lt_dec m (2 * m2)) as [L|L].
  - left. assert (V : forall k, 0 <= k <= 2 * m2 -> mag_value f k = k) by (intros k Hk; pose proof (mag_value_shape 0 k ltac:(lia) ltac:(lia)) as Q; rewrite Z.mul_0_l, Z.add_0_l in Q; rewrite Q; change (2 ^ 0) with 1; ring).
    rewrite !V by lia. lia.
  - right. set (e := m / m2 - 1). set (k := m - e * m2).
    pose proof (Z.div_mod m m2 ltac:(lia)) as D. pose proof (Z.mod_pos_bound m m2 ltac:(lia)) as R.
    assert (2 <= m / m2) by (apply Z.div_le_lower_bound; lia).
    assert (Hk : m2 <= k < 2 * m2). { unfold k, e. set (q := m / m2) in *. replace (m - (q - 1) * m2) with (m2 + m mod m2) by lia. lia. }
    assert (Em : m = e * m2 + k) by (unfold k; lia). assert (He : 0 <= e) by (unfold e; lia).
    rewrite Em at 1 2. rewrite <- Z.add_assoc. rewrite Em. rewrite !mag_value_shape by lia.
    replace ((k + 1) * 2 ^ e - k * 2 ^ e) with (2 ^ e) by ring. rewrite Z.mul_comm. apply Z.mul_le_mono_nonneg_r; [apply Z.pow_nonneg; lia|lia].
Qed.

Lemma with_sign_fields s m : 0 <= m <= exp_mask f -> pattern f (with_sign f s m) /\ negative f (with_sign f s m) = s /\ magnitude f (with_sign f s m) = m /\ nan f (with_sign f s m) = false.
Proof.
  intros Hm. pose proof (exp_mask_range f G) as X.
  assert (M : magnitude f (with_sign f s m) = m).
  { unfold magnitude, with_sign. destruct s; [|rewrite Z.add_0_l; apply Z.mod_small; lia].
    rewrite Z.add_comm, <- (Z.mul_1_l (sign_bit f)) at 1. rewrite Z.mod_add by lia. apply Z.mod_small. lia. }
  split; [unfold pattern, with_sign; destruct s; lia|]. split; [unfold negative, with_sign; destruct s; lia|]. split; [exact M|].
  unfold nan. rewrite M. lia.
Qed.
Lemma value_with_sign s m : 0 <= m <= exp_mask f -> value f (with_sign f s m) = if s then - mag_value f m else mag_value f m.
Proof. intros Hm. destruct (with_sign_fields s m Hm) as (_ & N & M & _). unfold value. rewrite N, M. reflexivity. Qed.
Lemma rounded_with_sign s n d : 0 < d -> (0 < n -> s = false) -> (n < 0 -> s = true) -> rounded f n d (with_sign f s (round_mag f (Z.abs n) d)).
Proof.
  intros Hd H1 H2. pose proof (round_mag_nearest (Z.abs n) d (Z.abs_nonneg n) Hd) as N.
  destruct (with_sign_fields s _ (proj1 N)) as (P & S & M & NN).
  split; [exact P|]. split; [exact NN|]. split; [rewrite M; exact N|]. rewrite S. split; assumption.
Qed.
Lemma mag_abs b : mag f b = Z.abs (value f b).
Proof. unfold mag, value. pose proof (mag_value_nonneg f G _ (proj1 (mag_range f G b))). destruct (negative f b); lia. Qed.
Lemma unit_pos : 0 < unit_of f.
Proof. pose proof G as (H1 & H2 & _). unfold unit_of. apply Z.pow_pos_nonneg; [lia|]. pose proof (Z.pow_pos_nonneg 2 (ebits f - 1) ltac:(lia) ltac:(lia)). lia. Qed.
Lemma negative_value b : (value f b < 0 -> negative f b = true) /\ (0 < value f b -> negative f b = false).
Proof. unfold value. pose proof (mag_value_nonneg f G _ (proj1 (mag_range f G b))). destruct (negative f b); split; intros; try reflexivity; lia. Qed.
Lemma is_zero_value b : is_zero f b = (value f b =? 0).
Proof.
  unfold is_zero, value. pose proof (proj1 (mag_range f G b)) as R. pose proof (proj2 (mag_value_iff f G (magnitude f b) 0 R ltac:(lia))) as I.
  rewrite (mag_value_zero f G) in I. destruct (negative f b); lia.
Qed.
Lemma finite_class b : finite f b -> nan f b = false /\ is_inf f b = false.
Proof. unfold finite, nan, is_inf. lia. Qed.

(** The operations are correctly rounded. *)
Lemma fl_of_Z_rounded z : rounded f (z * unit_of f) 1 (fl_of_Z f z).
Proof.
  pose proof unit_pos as U. unfold fl_of_Z. replace (Z.abs z * unit_of f) with (Z.abs (z * unit_of f)) by (rewrite Z.abs_mul, (Z.abs_eq (unit_of f)) by lia; reflexivity).
  apply rounded_with_sign; [lia| |]; intros H.
  - destruct (z <? 0) eqn:E; [|reflexivity]. exfalso. pose proof (Z.mul_neg_pos z (unit_of f) ltac:(lia) U). lia.
  - destruct (z <? 0) eqn:E; [reflexivity|]. exfalso. pose proof (Z.mul_nonneg_nonneg z (unit_of f) ltac:(lia) ltac:(lia)). lia.
Qed.
Lemma sign_mul a b : let s := xorb (negative f a) (negative f b) in
  (0 < value f a * value f b -> s = false) /\ (value f a * value f b < 0 -> s = true).
Proof.
  destruct (negative_value a) as (A1 & A2). destruct (negative_value b) as (B1 & B2).
  split; intros H.
  - apply Z.lt_0_mul in H. destruct H as [(H1 & H2)|(H1 & H2)]; [rewrite A2, B2 by lia; reflexivity|rewrite A1, B1 by lia; reflexivity].
  - apply Z.lt_mul_0 in H. destruct H as [(H1 & H2)|(H1 & H2)]; [rewrite A1, B2 by lia; reflexivity|rewrite A2, B1 by lia; reflexivity].
Qed.
Lemma fl_mul_rounded a b : finite f a -> finite f b -> rounded f (value f a * value f b) (unit_of f) (fl_mul f a b).
Proof.
  intros Fa Fb. destruct (finite_class a Fa) as (Na & Ia). destruct (finite_class b Fb) as (Nb & Ib).
  unfold fl_mul. rewrite Na, Nb, Ia, Ib, Bool.andb_false_r. cbn [orb andb]. rewrite !mag_abs, <- Z.abs_mul.
  destruct (sign_mul a b) as (S1 & S2). apply rounded_with_sign; [exact unit_pos|exact S1|exact S2].
Qed.
Lemma fl_div_rounded a b : finite f a -> finite f b -> value f b <> 0 ->
  rounded f (value f a * Z.sgn (value f b) * unit_of f) (Z.abs (value f b)) (fl_div f a b).
Proof.
  intros Fa Fb Nz. destruct (finite_class a Fa) as (Na & Ia). destruct (finite_class b Fb) as (Nb & Ib). pose proof unit_pos as U.
  unfold fl_div. rewrite Na, Nb, Ia, Ib, !is_zero_value. replace (value f b =? 0) with false by lia. rewrite !Bool.andb_false_r. cbn [orb andb].
  rewrite !mag_abs. replace (Z.abs (value f a) * unit_of f) with (Z.abs (value f a * Z.sgn (value f b) * unit_of f)).
  2:{ rewrite !Z.abs_mul. rewrite (Z.abs_eq (unit_of f)) by lia. destruct (value f b); cbn [Z.sgn]; [lia| |]; change (Z.abs 1) with 1; change (Z.abs (-1)) with 1; ring. }
  destruct (sign_mul a b) as (S1 & S2). assert (Sg : Z.sgn (value f a * Z.sgn (value f b) * unit_of f) = Z.sgn (value f a * value f b)) by (rewrite !Z.sgn_mul, Z.sgn_sgn, (Z.sgn_pos (unit_of f)) by lia; ring).
  apply rounded_with_sign; [lia| |]; intros H; [apply S1, Z.sgn_pos_iff; rewrite <- Sg; apply Z.sgn_pos_iff, H|apply S2, Z.sgn_neg_iff; rewrite <- Sg; apply Z.sgn_neg_iff, H].
Qed.
Lemma fl_add_rounded a b : pattern f a -> pattern f b -> finite f a -> finite f b -> rounded f (value f a + value f b) 1 (fl_add f a b).
Proof.
  intros Pa Pb Fa Fb. destruct (finite_class a Fa) as (Na & Ia). destruct (finite_class b Fb) as (Nb & Ib).
  unfold fl_add. rewrite Na, Nb, Ia, Ib. cbn [orb andb]. cbn zeta. destruct (value f a + value f b =? 0) eqn:E.
  - replace (value f a + value f b) with 0 by lia.
    pose proof (rounded_with_sign (negative f a && negative f b) 0 1 ltac:(lia) ltac:(lia) ltac:(lia)) as R.
    change (Z.abs 0) with 0 in R. replace (round_mag f 0 1) with 0 in R; [exact R|]. symmetry.
    pose proof (round_mag_exact 0 1) as Q. rewrite (mag_value_zero f G) in Q. apply Q; [|lia]. pose proof (exp_mask_range f G). lia.
  - apply rounded_with_sign; lia.
Qed.

(** Consequences of being correctly rounded. *)
Lemma value_mag b : Z.abs (value f b) = mag_value f (magnitude f b).
Proof. rewrite <- mag_abs. reflexivity. Qed.
Lemma nearest_zero d : 0 < d -> forall m, nearest f 0 d m -> m = 0.
Proof.
  intros Hd m H. apply (nearest_unique 0 d); [exact Hd|exact H|]. pose proof (round_mag_nearest 0 d ltac:(lia) Hd) as R.
  pose proof (round_mag_exact 0 d) as Q. rewrite (mag_value_zero f G), Z.mul_0_l in Q. rewrite Q in R; [exact R| |exact Hd]. pose proof (exp_mask_range f G). lia.
Qed.
Lemma rounded_sign n d b : 0 < d -> rounded f n d b -> (0 <= n -> 0 <= value f b) /\ (n <= 0 -> value f b <= 0) /\ (n = 0 -> value f b = 0).
Proof.
  intros Hd (P & N & M & S1 & S2). pose proof (mag_value_nonneg f G _ (proj1 (mag_range f G b))) as Nn.
  assert (Z0 : n = 0 -> value f b = 0). { intros ->. apply (nearest_zero d Hd) in M. unfold value. rewrite M, (mag_value_zero f G). destruct (negative f b); reflexivity. }
  unfold value in *. split; [|split]; intros H; [| |apply Z0; exact H].
  - destruct (Z.eq_dec n 0) as [E|E]; [rewrite (Z0 E); lia|]. rewrite S1 by lia. exact Nn.
  - destruct (Z.eq_dec n 0) as [E|E]; [rewrite (Z0 E); lia|]. rewrite S2 by lia. lia.
Qed.
Theorem rounded_mono n d b n' d' b' : 0 < d -> 0 < d' -> n * d' <= n' * d -> rounded f n d b -> rounded f n' d' b' -> value f b <= value f b'.
Proof.
  intros Hd Hd' Hle R R'. destruct (rounded_sign n d b Hd R) as (A1 & A2 & A3). destruct (rounded_sign n' d' b' Hd' R') as (B1 & B2 & B3).
  assert (X1 : 0 < n -> 0 < n * d') by (intros; apply Z.mul_pos_pos; lia).
  assert (X2 : n' < 0 -> n' * d < 0) by (intros; apply Z.mul_neg_pos; lia).
  assert (X3 : 0 <= n -> 0 <= n * d') by (intros; apply Z.mul_nonneg_nonneg; lia).
  assert (X4 : n' <= 0 -> n' * d <= 0) by (intros; apply Z.mul_nonpos_nonneg; lia).
  destruct (Z.lt_trichotomy n 0) as [Ln|[Ln|Ln]]; destruct (Z.lt_trichotomy n' 0) as [Ln'|[Ln'|Ln']]; try lia.
  - destruct R as (_ & _ & M & _ & S). destruct R' as (_ & _ & M' & _ & S'). unfold value. rewrite S, S' by lia.
    assert (magnitude f b' <= magnitude f b). { apply (nearest_mono (Z.abs n') d' _ (Z.abs n) d _); try assumption. rewrite !Z.abs_neq by lia. lia. }
    pose proof (mag_value_le (magnitude f b') (magnitude f b)). pose proof (mag_range f G b'). lia.
  - destruct R as (_ & _ & M & S & _). destruct R' as (_ & _ & M' & S' & _). unfold value. rewrite S, S' by lia.
    assert (magnitude f b <= magnitude f b'). { apply (nearest_mono (Z.abs n) d _ (Z.abs n') d' _); try assumption. rewrite !Z.abs_eq by lia. lia. }
    pose proof (mag_value_le (magnitude f b) (magnitude f b')). pose proof (mag_range f G b). lia.
Qed.
(** A number of the format is rounded to itself. *)
Theorem rounded_exact n d b c : 0 < d -> rounded f n d b -> nan f c = false -> value f c * d = n -> value f b = value f c.
Proof.
  intros Hd R Nc Ec. 
  assert (Rc : nearest f (Z.abs n) d (magnitude f c)).
  { pose proof (mag_range f G c) as Rg. unfold nan in Nc. pose proof (round_mag_exact (magnitude f c) d ltac:(lia) Hd) as Q.
    rewrite <- Q. replace (mag_value f (magnitude f c) * d) with (Z.abs n) by (rewrite <- Ec, Z.abs_mul, value_mag, (Z.abs_eq d) by lia; reflexivity).
    apply round_mag_nearest; lia. }
  destruct (Z.eq_dec n 0) as [E|E].
  - rewrite (proj2 (proj2 (rounded_sign n d b Hd R)) E). subst n. destruct (Z.eq_dec (value f c) 0); [lia|]. pose proof (Z.neq_mul_0 (value f c) d). lia.
  - destruct R as (P & N & M & S1 & S2). pose proof (nearest_unique (Z.abs n) d _ _ Hd M Rc) as Em. unfold value at 1. rewrite Em.
    destruct (negative_value c) as (C1 & C2). 
    assert (Sg : (0 < n -> 0 < value f c) /\ (n < 0 -> value f c < 0)).
    { rewrite <- Ec. split; intros H.
      - apply Z.lt_0_mul in H. lia.
      - apply Z.lt_mul_0 in H. lia. }
    unfold value. destruct (Z.lt_trichotomy n 0) as [L|[L|L]]; [rewrite S2, C1 by lia; reflexivity|lia|rewrite S1, C2 by lia; reflexivity].
Qed.
(** A result never crosses a number of the format. *)
Lemma rounded_self c : nan f c = false -> exists c', rounded f (value f c) 1 c' /\ value f c' = value f c.
Proof.
  intros N. exists (with_sign f (value f c <? 0) (round_mag f (Z.abs (value f c)) 1)).
  assert (R : rounded f (value f c) 1 (with_sign f (value f c <? 0) (round_mag f (Z.abs (value f c)) 1))) by (apply rounded_with_sign; lia).
  split; [exact R|]. apply (rounded_exact (value f c) 1); [lia|exact R|exact N|lia].
Qed.
Lemma rounded_le n d b c : 0 < d -> rounded f n d b -> nan f c = false -> n <= value f c * d -> value f b <= value f c.
Proof. intros Hd R N H. destruct (rounded_self c N) as (c' & R' & <-). apply (rounded_mono n d b (value f c) 1 c'); try assumption; lia. Qed.
Lemma rounded_ge n d b c : 0 < d -> rounded f n d b -> nan f c = false -> value f c * d <= n -> value f c <= value f b.
Proof. intros Hd R N H. destruct (rounded_self c N) as (c' & R' & <-). apply (rounded_mono (value f c) 1 c' n d b); try assumption; lia. Qed.
(** Integers up to 2^(mbits+1) are numbers of the format. *)
Lemma integer_representable z : Z.abs z <= 2 * m2 -> mbits f < 2 ^ (ebits f - 1) - 1 -> exists c, pattern f c /\ nan f c = false /\ finite f c /\ value f c = z * unit_of f.
Proof.
  intros Hz Hb. pose proof G as (H1 & H2 & _). pose proof (m2_pos f G) as P.
  set (bias := 2 ^ (ebits f - 1) - 1) in *.
  assert (EB : 2 ^ ebits f = 2 * 2 ^ (ebits f - 1)) by (rewrite <- Z.pow_succ_r by lia; f_equal; lia).
  destruct (Z.eq_dec z 0) as [->|Nz].
  - exists 0. pose proof (exp_mask_range f G). assert (M : magnitude f 0 = 0) by (unfold magnitude; apply Z.mod_0_l; lia).
    unfold pattern, nan, finite, value, negative. rewrite M, (mag_value_zero f G). destruct (sign_bit f <=? 0); lia.
  - set (l := Z.log2 (Z.abs z)). pose proof (Z.log2_spec (Z.abs z) ltac:(lia)) as L. fold l in L. pose proof (Z.log2_nonneg (Z.abs z)) as L0. fold l in L0.
    assert (Ll : l <= mbits f + 1). { apply (Z.pow_le_mono_r_iff 2); [lia|lia|]. rewrite Z.pow_add_r by lia. change (2 ^ 1) with 2. lia. }
    set (e := l + bias - 1). assert (He : 0 <= e) by (unfold e; lia).
    assert (Up : 0 <= mbits f - l \/ l = mbits f + 1) by lia.
    (* the mantissa *)
    set (k := if Z_le_dec l (mbits f) then Z.abs z * 2 ^ (mbits f - l) else m2).
    assert (Vk : m2 <= k < 2 * m2 /\ k * 2 ^ e = Z.abs z * unit_of f).
    { unfold k. destruct (Z_le_dec l (mbits f)) as [C|C].
      - assert (Q : 0 < 2 ^ (mbits f - l)) by (apply Z.pow_pos_nonneg; lia).
        assert (Q1 : m2 = 2 ^ l * 2 ^ (mbits f - l)) by (rewrite <- Z.pow_add_r by lia; f_equal; lia).
        assert (Q2 : 2 * m2 = 2 ^ Z.succ l * 2 ^ (mbits f - l)) by (rewrite Z.pow_succ_r by lia; rewrite Q1; ring).
        split; [split|].
        + rewrite Q1. apply Z.mul_le_mono_nonneg_r; lia.
        + rewrite Q2. apply Z.mul_lt_mono_pos_r; lia.
        + rewrite <- Z.mul_assoc, <- Z.pow_add_r by lia. f_equal. unfold unit_of, e. fold bias. f_equal. lia.
      - assert (l = mbits f + 1) by lia. split; [lia|]. assert (Z.abs z = 2 * m2). { rewrite H in L. rewrite Z.pow_add_r in L by lia. change (2 ^ 1) with 2 in L. lia. }
        rewrite H0. unfold unit_of, e. fold bias. replace (l + bias - 1) with (1 + (bias + mbits f - 1)) by lia. rewrite (Z.pow_add_r 2 1) by lia. change (2 ^ 1) with 2. ring. }
    destruct Vk as (Hk & Vk). pose proof (mag_value_shape e k He ltac:(lia)) as Vm. rewrite Vk in Vm.
    assert (Fin : 0 <= e * m2 + k < exp_mask f).
    { pose proof G as (_ & _ & _ & _ & ->). split; [apply Z.add_nonneg_nonneg; [apply Z.mul_nonneg_nonneg; lia|lia]|].
      assert (e + 2 <= 2 ^ ebits f - 1) by (unfold e; rewrite EB; unfold bias in *; lia).
      apply Z.lt_le_trans with ((e + 2) * m2); [lia|]. apply Z.mul_le_mono_nonneg_r; lia. }
    exists (with_sign f (z <? 0) (e * m2 + k)). destruct (with_sign_fields (z <? 0) (e * m2 + k) ltac:(lia)) as (W1 & W2 & W3 & W4).
    split; [exact W1|]. split; [exact W4|]. split; [unfold finite; rewrite W3; lia|]. rewrite value_with_sign by lia. rewrite Vm. destruct (z <? 0) eqn:E; lia.
Qed.
Lemma fl_of_Z_exact z : Z.abs z <= 2 * m2 -> mbits f < 2 ^ (ebits f - 1) - 1 -> value f (fl_of_Z f z) = z * unit_of f /\ finite f (fl_of_Z f z).
Proof.
  intros Hz Hb. destruct (integer_representable z Hz Hb) as (c & Pc & Nc & Fc & Vc).
  assert (V : value f (fl_of_Z f z) = value f c) by (apply (rounded_exact (z * unit_of f) 1); [lia|apply fl_of_Z_rounded|exact Nc|rewrite Vc; ring]).
  split; [lia|]. unfold finite in *. pose proof (value_mag c) as A. pose proof (value_mag (fl_of_Z f z)) as B. rewrite V, A in B.
  apply (proj2 (mag_value_iff f G _ _ (proj1 (mag_range f G _)) (proj1 (mag_range f G _)))) in B. lia.
Qed.
Lemma half_below a b g x : a < x -> b = a + g -> 0 < g -> Z.abs (a - x) <= Z.abs (b - x) -> 2 * Z.abs (a - x) <= g.
Proof. lia. Qed.
Lemma half_above a b g x : x < a -> a = b + g -> 0 < g -> Z.abs (a - x) <= Z.abs (b - x) -> 2 * Z.abs (a - x) <= g /\ b <= x.
Proof. lia. Qed.
(** The distance to the exact number is at most half the distance of neighbouring numbers. *)
Lemma rounded_error n d b : 0 < d -> rounded f n d b -> finite f b ->
  2 * Z.abs (value f b * d - n) <= d \/ 2 * m2 * Z.abs (value f b * d - n) <= Z.abs n.
Proof.
  intros Hd R Fb. pose proof (m2_pos f G) as P.
  assert (E : Z.abs (value f b * d - n) = Z.abs (mag_value f (magnitude f b) * d - Z.abs n)).
  { destruct (rounded_sign n d b Hd R) as (A1 & A2 & A3). rewrite <- value_mag. 
    destruct (Z.le_ge_cases 0 n) as [L|L]; [rewrite (Z.abs_eq (value f b)), (Z.abs_eq n) by lia; reflexivity|rewrite (Z.abs_neq (value f b)), (Z.abs_neq n) by lia; rewrite Z.mul_opp_l; lia]. }
  rewrite E. destruct R as (_ & _ & (Rm & M) & _). set (m := magnitude f b) in *. set (x := Z.abs n) in *. assert (Hx : 0 <= x) by (unfold x; lia). clearbody x. clear E.
  destruct (Z.lt_trichotomy (mag_value f m * d) x) as [L|[L|L]].
  - unfold finite in Fb. fold m in Fb. destruct (M (m + 1) ltac:(lia)) as (A & _).
    destruct (gap_bound m ltac:(lia)) as [(Gp & _)|Gp]; pose proof (mag_value_succ f G m ltac:(lia)) as Sc.
    + left. assert (mag_value f (m + 1) * d = mag_value f m * d + d) by (replace (mag_value f (m + 1)) with (mag_value f m + 1) by lia; ring). lia.
    + right. assert (Ed : mag_value f (m + 1) * d = mag_value f m * d + (mag_value f (m + 1) - mag_value f m) * d) by ring. set (g := mag_value f (m + 1) - mag_value f m) in *.
      assert (2 * Z.abs (mag_value f m * d - x) <= g * d) by (apply (half_below _ _ _ _ L Ed); [apply Z.mul_pos_pos; unfold g; lia|exact A]).
      assert (m2 * (2 * Z.abs (mag_value f m * d - x)) <= m2 * (g * d)) by (apply Z.mul_le_mono_nonneg_l; lia).
      assert (g * m2 * d <= mag_value f m * d) by (apply Z.mul_le_mono_nonneg_r; lia).
      replace (m2 * (g * d)) with (g * m2 * d) in * by ring. lia.
  - left. replace (mag_value f m * d - x) with 0 by lia. change (Z.abs 0) with 0. lia.
  - assert (m <> 0) by (intros ->; rewrite (mag_value_zero f G) in L; lia).
    destruct (M (m - 1) ltac:(lia)) as (A & _).
    destruct (gap_bound (m - 1) ltac:(lia)) as [(Gp & _)|Gp]; pose proof (mag_value_succ f G (m - 1) ltac:(lia)) as Sc; replace (m - 1 + 1) with m in * by lia.
    + left. assert (mag_value f m * d = mag_value f (m - 1) * d + d) by (replace (mag_value f m) with (mag_value f (m - 1) + 1) by lia; ring). lia.
    + right. assert (Ed : mag_value f m * d = mag_value f (m - 1) * d + (mag_value f m - mag_value f (m - 1)) * d) by ring. set (g := mag_value f m - mag_value f (m - 1)) in *.
      destruct (half_above _ _ _ _ L Ed) as (B0 & B1); [apply Z.mul_pos_pos; unfold g; lia|exact A|].
      assert (m2 * (2 * Z.abs (mag_value f m * d - x)) <= m2 * (g * d)) by (apply Z.mul_le_mono_nonneg_l; lia).
      assert (g * m2 * d <= mag_value f (m - 1) * d) by (apply Z.mul_le_mono_nonneg_r; lia).
      replace (m2 * (g * d)) with (g * m2 * d) in * by ring.
      lia.
Qed.

(** Cancelling a common factor. *)
Lemma nearest_cancel n d c m : 0 < c -> (nearest f (n * c) (d * c) m <-> nearest f n d m).
Proof.
  intros Hc. assert (E : forall k, Z.abs (mag_value f k * (d * c) - n * c) = Z.abs (mag_value f k * d - n) * c).
  { intros k. replace (mag_value f k * (d * c) - n * c) with ((mag_value f k * d - n) * c) by ring. rewrite Z.abs_mul, (Z.abs_eq c) by lia. reflexivity. }
  unfold nearest. split; intros (R & H); (split; [exact R|]); intros k Hk; destruct (H k Hk) as (A & B); rewrite !E in *.
  - split; [apply (Z.mul_le_mono_pos_r _ _ c Hc); exact A|]. intros N Q. apply B; [exact N|]. rewrite Q. reflexivity.
  - split; [apply (proj1 (Z.mul_le_mono_pos_r _ _ c Hc)); exact A|]. intros N Q. apply B; [exact N|]. apply (Z.mul_reg_r _ _ c); [lia|exact Q].
Qed.
Lemma rounded_cancel n d c b : 0 < c -> rounded f (n * c) (d * c) b -> rounded f n d b.
Proof.
  intros Hc (P & N & M & S1 & S2). split; [exact P|]. split; [exact N|]. rewrite Z.abs_mul, (Z.abs_eq c) in M by lia.
  split; [apply (nearest_cancel _ _ c); assumption|]. split; intros H; [apply S1, Z.mul_pos_pos; lia|apply S2, Z.mul_neg_pos; lia].
Qed.
Lemma rounded_value_unique n d b b' : 0 < d -> rounded f n d b -> rounded f n d b' -> value f b = value f b'.
Proof. intros Hd R R'. apply Z.le_antisymm; apply (rounded_mono n d _ n d _); try assumption; lia. Qed.
End Rounding.
