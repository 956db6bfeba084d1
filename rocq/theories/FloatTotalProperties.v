(** * C82: a TimeSpan expressed in one unit *)
From Verif Require Import Tac DateTimeModel TimeSpanModel MathModel MathProofs MathSpec MathRoundProperties FloatSpec FloatProofs FloatModel FloatProperties FloatSpanProperties.

(** The five properties and the ticks in their unit. *)
Definition totals : list ((Z -> Z) * Z) :=
  [(TS_Total TicksPerDay, 864000000000); (TS_Total TicksPerHour, 36000000000); (TS_Total TicksPerMinute, 600000000);
   (TS_Total TicksPerSecond, 10000000); (TS_TotalMilliseconds, 10000)].

Lemma totals_cases get scale : In (get, scale) totals -> (get = TS_Total scale \/ get = TS_TotalMilliseconds /\ scale = 10000) /\ 0 < scale <= 9007199254740992.
Proof.
  unfold totals. cbn [In]. intros [H|[H|[H|[H|[H|[]]]]]]; injection H as <- <-; (split; [|lia]); (left; reflexivity) || (right; split; reflexivity).
Qed.
Lemma total_rounded scale v : 0 < scale <= 9007199254740992 -> in_i64 v = true ->
  rounded dbl (value dbl (fl_of_Z dbl v)) scale (TS_Total scale v).
Proof.
  intros Hs Hv. pose proof U_pos as Up. destruct (i64_double v Hv) as (Fv & _). destruct (dbl_small scale ltac:(lia)) as (Vs & Fs).
  assert (Ps : 0 < scale * U) by (apply Z.mul_pos_pos; lia).
  pose proof (fl_div_rounded dbl double_good _ _ Fv Fs ltac:(lia)) as R. rewrite Vs in R. rewrite (Z.sgn_pos (scale * U)), (Z.abs_eq (scale * U)), Z.mul_1_r in R by lia.
  apply (rounded_cancel dbl _ _ U) in R; [exact R|exact Up].
Qed.
Lemma total_finite scale v : 0 < scale <= 9007199254740992 -> in_i64 v = true -> finite dbl (TS_Total scale v).
Proof.
  intros Hs Hv. pose proof (total_rounded scale v Hs Hv) as R. pose proof U_pos as Up. destruct (i64_double v Hv) as (_ & B).
  apply bounded_finite; [apply R|]. destruct max64_value as (V1 & N1). destruct min64_value as (V2 & N2).
  assert (H : 9223372036854775808 * U * 1 <= 9223372036854775808 * U * scale) by (apply Z.mul_le_mono_nonneg_l; lia).
  pose proof (rounded_le dbl double_good _ _ _ max64 (proj1 Hs) R N1) as A. pose proof (rounded_ge dbl double_good _ _ _ min64 (proj1 Hs) R N2) as C. rewrite V1 in A. rewrite V2 in C. lia.
Qed.
Lemma clamp_value v : in_i64 v = true ->
  value dbl (TS_TotalMilliseconds v) = Z.max (MinMilliSeconds * U) (Z.min (MaxMilliSeconds * U) (value dbl (TS_Total 10000 v))) /\
  pattern dbl (TS_TotalMilliseconds v) /\ finite dbl (TS_TotalMilliseconds v) /\
  (Z.abs (value dbl (TS_Total 10000 v)) <= 922337203685477 * U -> TS_TotalMilliseconds v = TS_Total 10000 v).
Proof.
  intros Hv. pose proof (total_rounded 10000 v ltac:(lia) Hv) as R. pose proof (total_finite 10000 v ltac:(lia) Hv) as F. pose proof (proj1 (finite_class dbl _ F)) as N. pose proof U_pos as Up.
  assert (Mx : MaxMilliSeconds = 922337203685477) by reflexivity. assert (Mn : MinMilliSeconds = -922337203685477) by reflexivity.
  destruct (fl_represents MaxMilliSeconds ltac:(rewrite Mx; lia)) as (P1 & F1 & V1). destruct (fl_represents MinMilliSeconds ltac:(rewrite Mn; lia)) as (P2 & F2 & V2). change (one_of dbl) with U in *.
  unfold TS_TotalMilliseconds. change TicksPerMillisecond with 10000. fold (TS_Total 10000 v). unfold flt. rewrite N, (proj1 (finite_class dbl _ F1)), (proj1 (finite_class dbl _ F2)). cbn [negb andb]. rewrite V1, V2.
  rewrite Mx, Mn in *. destruct (922337203685477 * U <? value dbl (TS_Total 10000 v)) eqn:E1; [|destruct (value dbl (TS_Total 10000 v) <? -922337203685477 * U) eqn:E2].
  - rewrite V1. split; [lia|]. split; [exact P1|]. split; [exact F1|]. intros; lia.
  - rewrite V2. split; [lia|]. split; [exact P2|]. split; [exact F2|]. intros; lia.
  - split; [lia|]. split; [apply R|]. split; [exact F|]. reflexivity.
Qed.
(** The total is the span's length divided by the unit: the nearest Double for spans of up to 2^53
    ticks (28 years), and within two roundings beyond.
    Missing for longer spans: one rounding instead of two (see the refutation). *)
Theorem C82_totals_partial : forall get scale v, In (get, scale) totals -> in_i64 v = true ->
  pattern dbl (get v) /\ finite dbl (get v) /\
  (Z.abs v <= 9007199254740992 -> rounded dbl (v * one_of dbl) scale (get v)) /\
  (forall k, v = k * scale -> Z.abs v <= 9007199254740992 -> represents dbl (get v) k) /\
  (scale <> 10000 -> exists w, rounded dbl (v * one_of dbl) 1 w /\ rounded dbl (value dbl w) scale (get v)).
Proof.
  intros get scale v H Hv. pose proof U_pos as Up. change (one_of dbl) with U.
  destruct (totals_cases get scale H) as (G & Hs).
  assert (A : pattern dbl (get v) /\ finite dbl (get v) /\ (Z.abs v <= 9007199254740992 -> get v = TS_Total scale v) /\ (scale <> 10000 -> get v = TS_Total scale v)).
  { destruct G as [->|[-> ->]].
    - split; [apply total_rounded; assumption|]. split; [apply total_finite; assumption|]. split; reflexivity.
    - destruct (clamp_value v Hv) as (_ & P & F & E). split; [exact P|]. split; [exact F|]. split; [|contradiction]. intros Hb. apply E.
      pose proof (total_rounded 10000 v ltac:(lia) Hv) as R. destruct (dbl_small v Hb) as (Vv & _). rewrite Vv in R.
      destruct (dbl_small 922337203685477 ltac:(lia)) as (V1 & F1). destruct (dbl_small (-922337203685477) ltac:(lia)) as (V2 & F2).
      pose proof (rounded_le dbl double_good (v * U) 10000 _ (fl_of_Z dbl 922337203685477) ltac:(lia) R (proj1 (finite_class dbl _ F1))) as X. pose proof (rounded_ge dbl double_good (v * U) 10000 _ (fl_of_Z dbl (-922337203685477)) ltac:(lia) R (proj1 (finite_class dbl _ F2))) as Y.
      rewrite V1 in X. rewrite V2 in Y. assert (v * U <= 9007199254740992 * U /\ -9007199254740992 * U <= v * U) by (split; apply Z.mul_le_mono_nonneg_r; lia). lia. }
  destruct A as (P & F & E1 & E2). split; [exact P|]. split; [exact F|].
  assert (R : Z.abs v <= 9007199254740992 -> rounded dbl (v * U) scale (get v)).
  { intros Hb. rewrite (E1 Hb). pose proof (total_rounded scale v Hs Hv) as R. rewrite (proj1 (dbl_small v Hb)) in R. exact R. }
  split; [exact R|]. split.
  - intros k Ek Hb. assert (Hk : Z.abs k <= 9007199254740992). { rewrite Ek, Z.abs_mul in Hb. assert (Z.abs k * 1 <= Z.abs k * Z.abs scale) by (apply Z.mul_le_mono_nonneg_l; lia). lia. }
    split; [exact P|]. split; [exact F|]. destruct (dbl_small k Hk) as (Vk & Fk). change (one_of dbl) with U. rewrite <- Vk. apply (rounded_exact dbl double_good (v * U) scale); [lia|exact (R Hb)|apply (finite_class dbl); exact Fk|]. rewrite Vk, Ek. ring.
  - intros Ns. exists (fl_of_Z dbl v). split; [apply (fl_of_Z_rounded dbl double_good)|]. rewrite (E2 Ns). apply total_rounded; assumption.
Qed.
(** Longer spans have totals that are not smaller, and the sign is that of the span. *)
Theorem C82_monotone : forall get scale v v', In (get, scale) totals -> in_i64 v = true -> in_i64 v' = true -> v <= v' ->
  value dbl (get v) <= value dbl (get v') /\ (0 <= v -> 0 <= value dbl (get v)) /\ (v <= 0 -> value dbl (get v) <= 0).
Proof.
  intros get scale v v' H Hv Hv' L. pose proof U_pos as Up.
  destruct (totals_cases get scale H) as (G & Hs).
  assert (M : forall s, 0 < s <= 9007199254740992 -> value dbl (TS_Total s v) <= value dbl (TS_Total s v')).
  { intros s Ss. refine (rounded_mono dbl double_good _ s _ _ s _ (proj1 Ss) (proj1 Ss) _ (total_rounded s v Ss Hv) (total_rounded s v' Ss Hv')).
    apply Z.mul_le_mono_nonneg_r; [lia|]. apply of_Z_mono. exact L. }
  assert (S : forall s, 0 < s <= 9007199254740992 -> (0 <= v -> 0 <= value dbl (TS_Total s v)) /\ (v <= 0 -> value dbl (TS_Total s v) <= 0)).
  { intros s Ss. pose proof (rounded_sign dbl double_good _ _ _ (proj1 Ss) (total_rounded s v Ss Hv)) as (A & B & _). pose proof (of_Z_mono 0 v) as C. pose proof (of_Z_mono v 0) as D. rewrite (proj1 (dbl_small 0 ltac:(lia))) in C, D. split; intros; [apply A|apply B]; lia. }
  destruct G as [->|[-> ->]].
  - split; [apply M; exact Hs|apply S; exact Hs].
  - specialize (M 10000 Hs). specialize (S 10000 Hs). destruct (clamp_value v Hv) as (-> & _). destruct (clamp_value v' Hv') as (-> & _).
    assert (Mx : MaxMilliSeconds = 922337203685477) by reflexivity. assert (Mn : MinMilliSeconds = -922337203685477) by reflexivity. rewrite Mx, Mn. lia.
Qed.
(** Dividing a span by a span: the nearest Double to the ratio for spans of up to 2^53 ticks; a zero
    divisor gives an infinity with the dividend's sign, or NaN for 0 / 0. *)
Theorem C82_divide : forall v w, Z.abs v <= 9007199254740992 -> Z.abs w <= 9007199254740992 ->
  (w <> 0 -> rounded dbl (v * Z.sgn w * one_of dbl) (Z.abs w) (TS_DivideSpan v w)) /\
  (w = 0 -> v <> 0 -> infinite dbl (TS_DivideSpan v w) /\ negative dbl (TS_DivideSpan v w) = (v <? 0)) /\
  (w = 0 -> v = 0 -> nan dbl (TS_DivideSpan v w) = true).
Proof.
  intros v w Hv Hw. pose proof U_pos as Up. destruct (dbl_small v Hv) as (Vv & Fv). destruct (dbl_small w Hw) as (Vw & Fw). change (one_of dbl) with U. split; [|split].
  - intros Nz. assert (Nw : value dbl (fl_of_Z dbl w) <> 0) by (rewrite Vw; intros Q; apply Z.mul_eq_0 in Q; lia).
    pose proof (fl_div_rounded dbl double_good _ _ Fv Fw Nw) as R. rewrite Vv, Vw, Z.sgn_mul, (Z.sgn_pos U), Z.abs_mul, (Z.abs_eq U) in R by lia.
    apply (rounded_cancel dbl _ _ U); [exact Up|]. replace (v * Z.sgn w * U * U) with (v * U * (Z.sgn w * 1) * U) by ring. exact R.
  - intros -> Nv. unfold TS_DivideSpan, fl_div. destruct (finite_class dbl _ Fv) as (-> & ->). destruct (finite_class dbl _ Fw) as (-> & ->). rewrite (nonzero_double v Nv). cbn [orb andb].
    assert (Z0 : is_zero dbl (fl_of_Z dbl 0) = true) by (rewrite (is_zero_value dbl double_good), Vw; reflexivity). rewrite Z0.
    destruct (with_sign_fields dbl double_good (xorb (negative dbl (fl_of_Z dbl v)) (negative dbl (fl_of_Z dbl 0))) (exp_mask dbl) ltac:(unfold double_fmt; cbn [exp_mask]; lia)) as (_ & B2 & B3 & _).
    split; [exact B3|]. rewrite B2. assert (N0 : negative dbl (fl_of_Z dbl 0) = false) by (vm_compute; reflexivity). rewrite N0, Bool.xorb_false_r.
    destruct (negative_value dbl double_good (fl_of_Z dbl v)) as (X & Y). rewrite Vv in X, Y. destruct (v <? 0) eqn:E; [apply X; apply Z.mul_neg_pos; lia|apply Y; apply Z.mul_pos_pos; lia].
  - intros -> ->. vm_compute. reflexivity.
Qed.
(** Beyond 2^53 ticks the total can miss the nearest Double, because the tick count is rounded first. *)
Theorem C82_refuted : exists v b, in_i64 v = true /\ rounded dbl (v * one_of dbl) 10000000 b /\ value dbl (TS_Total TicksPerSecond v) < value dbl b.
Proof.
  exists 5258986265376043509, (with_sign dbl false (round_mag dbl (Z.abs (5258986265376043509 * one_of dbl)) 10000000)). split; [reflexivity|]. split.
  - apply (rounded_with_sign dbl double_good); [lia|reflexivity|]. intros H. exfalso. pose proof U_pos as Up. change (one_of dbl) with U in H. lia.
  - vm_compute. reflexivity.
Qed.
Example C82_case : TS_Total TicksPerDay 1296000000000 = 4609434218613702656 /\ TS_TotalMilliseconds 9223372036854775807 = fl_of_Z dbl 922337203685477.
Proof. split; vm_compute; reflexivity. Qed.
Print Assumptions C82_totals_partial. Print Assumptions C82_monotone. Print Assumptions C82_divide. Print Assumptions C82_refuted.
