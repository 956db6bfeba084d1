(** * C83: DateTime.AddDays, AddHours, AddMinutes, AddSeconds, AddMilliseconds *)
From Verif Require Import Tac DateTimeSpec DateTimeModel DateTimeProofs TimeSpanModel MathModel MathProofs MathSpec MathRoundProperties FloatSpec FloatProofs FloatModel FloatProperties FloatSpanProperties.

(** The five functions and the milliseconds in their unit. *)
Definition adders : list ((Z -> Z -> outcome Z) * Z) :=
  [(DT_AddDays, 86400000); (DT_AddHours, 3600000); (DT_AddMinutes, 60000); (DT_AddSeconds, 1000); (DT_AddMilliseconds, 1)].
Lemma adders_cases add scale : In (add, scale) adders -> (forall v x, add v x = DT_Add v x scale) /\ 0 < scale <= 86400000.
Proof.
  unfold adders. cbn [In]. intros [H|[H|[H|[H|[H|[]]]]]]; injection H as <- <-; (split; [reflexivity|lia]).
Qed.
(** The date [v] moved by [ms] milliseconds. *)
Definition moved (v ms : Z) : outcome Z :=
  if (0 <=? v + ms * 10000) && (v + ms * 10000 <=? last_tick) then Ret (v + ms * 10000) else Exn ArgumentOutOfRangeException.
(** Half a millisecond, away from zero. *)
Definition half_away (x : Z) : Z := if 0 <=? value dbl x then one_of dbl / 2 else - (one_of dbl / 2).
Definition limit : Z := 315537897600000.

Lemma half_facts : value dbl half_bits = U / 2 /\ value dbl (minus_zero + half_bits) = - (U / 2) /\ pattern dbl half_bits /\ pattern dbl (minus_zero + half_bits) /\ finite dbl half_bits /\ finite dbl (minus_zero + half_bits) /\ 2 * (U / 2) = U.
Proof. repeat split; vm_compute; congruence. Qed.
Lemma limit_facts : fl_of_Z dbl MaxMillis = fl_of_Z dbl limit /\ fl_of_Z dbl (- MaxMillis) = fl_of_Z dbl (- limit).
Proof. assert (E : MaxMillis = limit) by reflexivity. rewrite E. split; reflexivity. Qed.
Lemma quot_small a u L : 0 < u -> 0 <= L -> Z.abs a < L * u -> Z.abs (Z.quot a u) <= L.
Proof.
  intros Hu HL H. pose proof (Z.quot_rem a u ltac:(lia)) as D. pose proof (Z.rem_bound_abs a u ltac:(lia)) as B.
  destruct (Z_le_dec (Z.abs (Z.quot a u)) L) as [E|E]; [exact E|]. exfalso.
  assert (X : (L + 1) * u <= Z.abs (Z.quot a u) * u) by (apply Z.mul_le_mono_nonneg_r; lia).
  assert (Y : Z.abs (Z.quot a u) * u = Z.abs (Z.quot a u * u)) by (rewrite Z.abs_mul, (Z.abs_eq u) by lia; reflexivity). lia.
Qed.
Lemma range_test u L v : ((v <=? - L * u) || (L * u <=? v)) = (L * u <=? Z.abs v).
Proof. lia. Qed.
Lemma move_back v q : 0 <= v <= last_tick -> Z.abs q <= 315537897600000 ->
  (ms <- i64 q ;; delta <- i64 (ms * TicksPerMillisecond) ;; AddTicks v delta) = moved v q.
Proof.
  intros Hv Hq. rewrite i64_ret by lia. cbn [bind]. change TicksPerMillisecond with 10000. rewrite i64_ret by lia. cbn [bind].
  pose proof (c07_add v (q * 10000) Hv ltac:(apply in_i64_iff; lia)) as A. unfold Add_TimeSpan in A. rewrite A. reflexivity.
Qed.
Lemma add_tail v s : 0 <= v <= last_tick -> nan dbl s = false ->
  (_ <- throw_if (fle dbl s (fl_of_Z dbl (- MaxMillis)) || fle dbl (fl_of_Z dbl MaxMillis) s) ArgumentOutOfRangeException ;;
   ms <- fl_to_i64 dbl s ;; delta <- i64 (ms * TicksPerMillisecond) ;; AddTicks v delta) =
  if limit * U <=? Z.abs (value dbl s) then Exn ArgumentOutOfRangeException else moved v (Z.quot (value dbl s) U).
Proof.
  intros Hv N. destruct limit_facts as (-> & ->). pose proof U_pos as Up. destruct (dbl_small limit ltac:(unfold limit; lia)) as (V1 & F1). destruct (dbl_small (- limit) ltac:(unfold limit; lia)) as (V2 & F2).
  unfold fle. rewrite N, (proj1 (finite_class dbl _ F1)), (proj1 (finite_class dbl _ F2)), V1, V2. cbn [negb andb]. rewrite range_test.
  destruct (limit * U <=? Z.abs (value dbl s)) eqn:E; [reflexivity|]. rewrite throw_if_false by reflexivity. cbn [bind].
  apply Z.leb_gt in E. assert (F : finite dbl s).
  { apply bounded_finite; [exact N|]. apply Z.lt_le_incl. eapply Z.lt_le_trans; [exact E|]. apply Z.mul_le_mono_nonneg_r; [apply Z.lt_le_incl, Up|unfold limit; lia]. }
  destruct (finite_class dbl s F) as (_ & I). unfold fl_to_i64. rewrite N, I, fl_to_Z_quot. cbn [orb]. apply move_back; [exact Hv|]. apply quot_small; [exact Up|lia|exact E].
Qed.
(** The number of units is multiplied and half a millisecond added in Double arithmetic, and the result
    truncated to whole milliseconds.  Full statement: for every number; missing: NaN (refuted below). *)
Theorem C83_add_partial : forall add scale v x, In (add, scale) adders -> 0 <= v <= last_tick -> pattern dbl x ->
  (infinite dbl x -> add v x = Exn ArgumentOutOfRangeException) /\
  (finite dbl x -> exists p s, rounded dbl (value dbl x * scale) 1 p /\
    (infinite dbl p -> add v x = Exn ArgumentOutOfRangeException) /\
    (finite dbl p -> rounded dbl (value dbl p + half_away x) 1 s /\
       (limit * one_of dbl <= Z.abs (value dbl s) -> add v x = Exn ArgumentOutOfRangeException) /\
       (Z.abs (value dbl s) < limit * one_of dbl -> add v x = moved v (Z.quot (value dbl s) (one_of dbl))))).
Proof.
  intros add scale v x H Hv P. destruct (adders_cases add scale H) as (E & Hs). rewrite E. change (one_of dbl) with U. pose proof U_pos as Up.
  destruct half_facts as (V1 & V2 & P1 & P2 & F1 & F2 & H2). destruct (dbl_small scale ltac:(lia)) as (Vs & Fs).
  assert (Z0 : fle dbl 0 x = negb (nan dbl x) && (0 <=? value dbl x)) by (unfold fle; change (nan dbl 0) with false; change (value dbl 0) with 0; reflexivity).
  set (h := if fle dbl 0 x then half_bits else minus_zero + half_bits).
  assert (Hh : pattern dbl h /\ finite dbl h) by (unfold h; destruct (fle dbl 0 x); split; assumption). destruct Hh as (Ph & Fh).
  assert (Inf : forall q, pattern dbl q -> infinite dbl q -> fl_add dbl q h = q).
  { intros q _ I. unfold fl_add. rewrite (proj1 (finite_class dbl _ Fh)), (proj2 (finite_class dbl _ Fh)). replace (nan dbl q) with false by (unfold nan, infinite in *; lia). replace (is_inf dbl q) with true by (unfold is_inf, infinite in *; lia). reflexivity. }
  assert (Big : forall q, infinite dbl q -> (limit * U <=? Z.abs (value dbl q)) = true).
  { intros q I. rewrite (value_mag dbl double_good q), I. pose proof inf_big. unfold limit. lia. }
  unfold DT_Add. fold h. split.
  - intros I. assert (Nx : nan dbl x = false) by (unfold nan, infinite in *; lia).
    assert (M : infinite dbl (fl_mul dbl x (fl_of_Z dbl scale)) /\ pattern dbl (fl_mul dbl x (fl_of_Z dbl scale)) /\ nan dbl (fl_mul dbl x (fl_of_Z dbl scale)) = false).
    { unfold fl_mul. rewrite Nx, (proj1 (finite_class dbl _ Fs)), (proj2 (finite_class dbl _ Fs)), (nonzero_double scale) by lia. replace (is_inf dbl x) with true by (unfold is_inf, infinite in *; lia).
      assert (Zx : is_zero dbl x = false) by (unfold is_zero, infinite in *; rewrite I; reflexivity). rewrite Zx. cbn [orb andb].
      destruct (with_sign_fields dbl double_good (xorb (negative dbl x) (negative dbl (fl_of_Z dbl scale))) (exp_mask dbl) ltac:(unfold double_fmt; cbn [exp_mask]; lia)) as (B1 & B2 & B3 & B4). split; [exact B3|]. split; assumption. }
    destruct M as (Mi & Mp & Mn). cbn zeta. rewrite (Inf _ Mp Mi). rewrite add_tail by assumption. rewrite (Big _ Mi). reflexivity.
  - intros F. pose proof (fl_mul_rounded dbl double_good x (fl_of_Z dbl scale) F Fs) as R. set (p := fl_mul dbl x (fl_of_Z dbl scale)) in *. rewrite Vs in R.
    assert (R' : rounded dbl (value dbl x * scale) 1 p). { apply (rounded_cancel dbl _ _ U _ Up). rewrite Z.mul_1_l, <- Z.mul_assoc. exact R. }
    exists p, (fl_add dbl p h). split; [exact R'|]. cbn zeta. destruct R' as (Pp & Np & _). split.
    + intros I. rewrite (Inf p Pp I), add_tail, (Big p I) by assumption. reflexivity.
    + intros Fp. pose proof (fl_add_rounded dbl double_good p h Pp Ph Fp Fh) as Ra.
      assert (Vh : value dbl h = half_away x). { unfold h, half_away. change (one_of dbl) with U. rewrite Z0, (proj1 (finite_class dbl x F)). cbn [negb andb]. destruct (0 <=? value dbl x); [exact V1|exact V2]. }
      rewrite Vh in Ra. split; [exact Ra|]. rewrite add_tail by (try assumption; apply Ra). split; intros L.
      * replace (limit * U <=? Z.abs (value dbl (fl_add dbl p h))) with true by lia. reflexivity.
      * replace (limit * U <=? Z.abs (value dbl (fl_add dbl p h))) with false by lia. reflexivity.
Qed.
Lemma same_sign k u c : 0 < u -> 0 < c -> (0 <=? k * u) = (0 <=? k * c).
Proof.
  intros Hu Hc. destruct (Z_le_dec 0 k) as [L|L].
  - replace (0 <=? k * u) with true by (symmetry; apply Z.leb_le, Z.mul_nonneg_nonneg; lia). symmetry; apply Z.leb_le, Z.mul_nonneg_nonneg; lia.
  - replace (0 <=? k * u) with false by (symmetry; apply Z.leb_gt, Z.mul_neg_pos; lia). symmetry; apply Z.leb_gt, Z.mul_neg_pos; lia.
Qed.
Lemma scaled_bound z u L : 0 < u -> Z.abs z <= L -> Z.abs (z * u) <= L * u.
Proof. intros Hu H. rewrite Z.abs_mul, (Z.abs_eq u) by lia. apply Z.mul_le_mono_nonneg_r; lia. Qed.
Lemma sum_bound z u h sv : 8 <= u -> 2 * h = u -> Z.abs (z * u) <= 315537897599999 * u ->
  (z * u + (if 0 <=? z then h else - h) <= 315537897600000 * u -> sv <= 315537897600000 * u) ->
  (-315537897600000 * u <= z * u + (if 0 <=? z then h else - h) -> -315537897600000 * u <= sv) -> Z.abs sv <= 9223372036854775808 * u.
Proof. intros. destruct (0 <=? z); lia. Qed.
Lemma quot_near z u h sv : 8 <= u -> 2 * h = u -> Z.abs (z * u) <= 315537897599999 * u ->
  2 * Z.abs (sv - (z * u + (if 0 <=? z then h else - h))) <= 1 \/ 9007199254740992 * Z.abs (sv - (z * u + (if 0 <=? z then h else - h))) <= Z.abs (z * u + (if 0 <=? z then h else - h)) ->
  Z.quot sv u = z /\ Z.abs sv < limit * u.
Proof.
  intros U8 H2 Lu Er. unfold limit.
  assert (Near : 8 * Z.abs (sv - (z * u + (if 0 <=? z then h else - h))) <= u) by (destruct Er as [Er|Er]; destruct (0 <=? z); lia).
  split; [|destruct (0 <=? z); lia]. destruct (0 <=? z) eqn:Ez.
  - assert (0 <= z * u) by (apply Z.mul_nonneg_nonneg; lia). rewrite Z.quot_div_nonneg by lia. symmetry. apply (Z.div_unique _ _ _ (sv - z * u)); lia.
  - replace sv with (- (- sv)) by lia. rewrite Z.quot_opp_l by lia. assert (z * u < 0) by (apply Z.mul_neg_pos; lia). rewrite Z.quot_div_nonneg by lia.
    assert (D : - z = - sv / u) by (apply (Z.div_unique _ _ _ (- sv + z * u)); lia). lia.
Qed.
(** Whole numbers of units move the date by exactly that much. *)
Theorem C83_whole_units : forall add scale v x k, In (add, scale) adders -> 0 <= v <= last_tick -> represents dbl x k -> Z.abs (k * scale) < limit ->
  add v x = moved v (k * scale).
Proof.
  intros add scale v x k H Hv (P & F & V) Hk. pose proof U_pos as Up. destruct (adders_cases add scale H) as (_ & Hs). change (one_of dbl) with U in *. unfold limit in Hk.
  destruct (C83_add_partial add scale v x H Hv P) as (_ & A). destruct (A F) as (p & s & R & _ & B). clear A. change (one_of dbl) with U in *.
  destruct (dbl_small (k * scale) ltac:(lia)) as (Vk & Fk).
  assert (Vp : value dbl p = k * scale * U). { rewrite <- Vk. apply (rounded_exact dbl double_good (value dbl x * scale) 1); [lia|exact R|apply (finite_class dbl); exact Fk|]. rewrite Vk, V. ring. }
  assert (Fp : finite dbl p). { apply bounded_finite; [apply R|]. rewrite Vp. apply scaled_bound; [exact Up|lia]. }
  destruct (B Fp) as (Rs & _ & C). destruct half_facts as (_ & _ & _ & _ & _ & _ & H2). set (h := U / 2) in *.
  assert (Ha : half_away x = if 0 <=? k * scale then h else - h) by (unfold half_away; change (one_of dbl / 2) with h; rewrite V, (same_sign k U scale Up (proj1 Hs)); reflexivity).
  rewrite Ha, Vp in Rs. set (z := k * scale) in *. clearbody z h.
  assert (Lu : Z.abs (z * U) <= 315537897599999 * U) by (apply scaled_bound; [exact Up|lia]).
  destruct (dbl_small 315537897600000 ltac:(vm_compute; discriminate)) as (W1 & G1). destruct (dbl_small (-315537897600000) ltac:(vm_compute; discriminate)) as (W2 & G2).
  pose proof (rounded_le dbl double_good _ 1 _ (fl_of_Z dbl 315537897600000) Z.lt_0_1 Rs (proj1 (finite_class dbl _ G1))) as L1. pose proof (rounded_ge dbl double_good _ 1 _ (fl_of_Z dbl (-315537897600000)) Z.lt_0_1 Rs (proj1 (finite_class dbl _ G2))) as L2.
  rewrite W1, Z.mul_1_r in L1. rewrite W2, Z.mul_1_r in L2. assert (U8 : 8 <= U) by (vm_compute; discriminate).
  assert (Fs : finite dbl s) by (apply bounded_finite; [apply Rs|apply (sum_bound z U h); assumption]).
  pose proof (rounded_error dbl double_good _ _ _ Z.lt_0_1 Rs Fs) as Er. change (2 * 2 ^ mbits dbl) with 9007199254740992 in Er. rewrite Z.mul_1_r in Er.
  destruct (quot_near z U h (value dbl s) U8 H2 Lu Er) as (Eq & Lt). rewrite Eq in C. apply C. exact Lt.
Qed.
(** The inverted view of a successful call. *)
Lemma add_inv add scale v x a : In (add, scale) adders -> 0 <= v <= last_tick -> pattern dbl x -> finite dbl x -> add v x = Ret a ->
  exists p s, rounded dbl (value dbl x * scale) 1 p /\ finite dbl p /\ rounded dbl (value dbl p + half_away x) 1 s /\ Z.abs (value dbl s) < limit * U /\ a = v + Z.quot (value dbl s) U * 10000 /\ 0 <= a <= last_tick.
Proof.
  intros H Hv P F E. destruct (C83_add_partial add scale v x H Hv P) as (_ & A). destruct (A F) as (p & s & R & I & B). exists p, s. split; [exact R|].
  assert (Fp : finite dbl p).
  { destruct R as (Pp & Np & _). destruct (Z_lt_dec (magnitude dbl p) (exp_mask dbl)) as [L|L]; [exact L|]. exfalso. rewrite I in E; [discriminate|]. unfold infinite. unfold nan in Np. apply Z.ltb_ge in Np. apply Z.le_antisymm; [exact Np|apply Z.nlt_ge; exact L]. }
  split; [exact Fp|]. destruct (B Fp) as (Rs & C & D). change (one_of dbl) with U in *. split; [exact Rs|].
  destruct (Z_le_dec (limit * U) (Z.abs (value dbl s))) as [L|L]; [rewrite (C L) in E; discriminate|]. apply Z.nle_gt in L. split; [exact L|]. rewrite (D L) in E. unfold moved in E.
  destruct ((0 <=? v + Z.quot (value dbl s) U * 10000) && (v + Z.quot (value dbl s) U * 10000 <=? last_tick)) eqn:Q; [|discriminate]. injection E as <-. split; [reflexivity|]. apply andb_prop in Q. destruct Q as (Q1 & Q2). split; [apply Z.leb_le, Q1|apply Z.leb_le, Q2].
Qed.
(** A larger number never gives an earlier date. *)
Theorem C83_monotone : forall add scale v x y a b, In (add, scale) adders -> 0 <= v <= last_tick -> pattern dbl x -> pattern dbl y -> finite dbl x -> finite dbl y ->
  value dbl x <= value dbl y -> add v x = Ret a -> add v y = Ret b -> a <= b.
Proof.
  intros add scale v x y a b H Hv Px Py Fx Fy L Ex Ey. pose proof U_pos as Up. destruct (adders_cases add scale H) as (_ & Hs).
  destruct (add_inv add scale v x a H Hv Px Fx Ex) as (p & s & R & _ & Rs & _ & -> & _). destruct (add_inv add scale v y b H Hv Py Fy Ey) as (p' & s' & R' & _ & Rs' & _ & -> & _).
  assert (Lp : value dbl p <= value dbl p'). { apply (rounded_mono dbl double_good _ 1 _ _ 1 _ Z.lt_0_1 Z.lt_0_1) with (2 := R) (3 := R'). rewrite !Z.mul_1_r. apply Z.mul_le_mono_nonneg_r; [apply Z.lt_le_incl, Hs|exact L]. }
  assert (Lh : half_away x <= half_away y).
  { unfold half_away. change (one_of dbl) with U. assert (0 <= U / 2) by (apply Z.div_pos; [apply Z.lt_le_incl, Up|reflexivity]). set (hh := U / 2) in *. clearbody hh. destruct (0 <=? value dbl x) eqn:E1, (0 <=? value dbl y) eqn:E2; lia. }
  assert (Ls : value dbl s <= value dbl s'). { apply (rounded_mono dbl double_good _ 1 _ _ 1 _ Z.lt_0_1 Z.lt_0_1) with (2 := Rs) (3 := Rs'). rewrite !Z.mul_1_r. apply Z.add_le_mono; assumption. }
  apply Z.add_le_mono_l, Z.mul_le_mono_nonneg_r; [discriminate|]. apply Z.quot_le_mono; assumption.
Qed.
(** The date moves by a whole number of milliseconds, less than three quarters of one away from the
    exact product. *)
Lemma accuracy_core u h n p s hs : 8 <= u -> 2 * h = u ->
  2 * Z.abs (p - n) <= 1 \/ 9007199254740992 * Z.abs (p - n) <= Z.abs n ->
  2 * Z.abs (s - (p + hs)) <= 1 \/ 9007199254740992 * Z.abs (s - (p + hs)) <= Z.abs (p + hs) ->
  Z.abs s < limit * u -> 0 <= s /\ hs = h \/ s <= 0 /\ hs = - h ->
  4 * Z.abs (Z.quot s u * u - n) <= 3 * u.
Proof.
  unfold limit. intros U8 H2 En Es B Sg. pose proof (Z.quot_rem s u ltac:(lia)) as D.
  assert (Rm : hs = h /\ 0 <= Z.rem s u < u \/ hs = - h /\ - u < Z.rem s u <= 0). { destruct Sg as [[Sg Sh]|[Sg Sh]]; [left|right]; (split; [exact Sh|]); [apply Z.rem_bound_pos|apply Z.rem_bound_pos_neg]; lia. }
  set (q := u * Z.quot s u) in *. replace (Z.quot s u * u) with q by (unfold q; ring). clearbody q. set (r := Z.rem s u) in *. clearbody r.
  assert (Bp : Z.abs (p + hs) <= 631075795200000 * u) by (destruct Es as [Es|Es]; lia).
  assert (Xs : 8 * Z.abs (s - (p + hs)) <= u) by (destruct Es as [Es|Es]; lia).
  assert (Bq : Z.abs n <= 631075795200002 * u) by (destruct En as [En|En]; lia).
  assert (Xn : 8 * Z.abs (p - n) <= u) by (destruct En as [En|En]; lia).
  assert (Y : 2 * Z.abs (q - (s - hs)) <= u) by lia. lia.
Qed.
Theorem C83_accuracy : forall add scale v x a, In (add, scale) adders -> 0 <= v <= last_tick -> pattern dbl x -> finite dbl x -> add v x = Ret a ->
  0 <= a <= last_tick /\ exists ms, a = v + ms * 10000 /\ 4 * Z.abs (ms * one_of dbl - value dbl x * scale) <= 3 * one_of dbl.
Proof.
  intros add scale v x a H Hv P F E. pose proof U_pos as Up. destruct (adders_cases add scale H) as (_ & Hs).
  destruct (add_inv add scale v x a H Hv P F E) as (p & s & R & Fp & Rs & B & -> & Ra). split; [exact Ra|]. exists (Z.quot (value dbl s) U). split; [reflexivity|]. change (one_of dbl) with U.
  destruct half_facts as (_ & _ & _ & _ & _ & _ & H2).
  assert (U8 : 8 <= U) by (vm_compute; discriminate).
  assert (Fs : finite dbl s). { apply bounded_finite; [apply Rs|]. apply Z.lt_le_incl. eapply Z.lt_le_trans; [exact B|]. apply Z.mul_le_mono_nonneg_r; [apply Z.lt_le_incl, Up|vm_compute; discriminate]. }
  pose proof (rounded_error dbl double_good _ _ _ Z.lt_0_1 R Fp) as Ep. pose proof (rounded_error dbl double_good _ _ _ Z.lt_0_1 Rs Fs) as Es.
  change (2 * 2 ^ mbits dbl) with 9007199254740992 in Ep, Es. rewrite Z.mul_1_r in Ep, Es.
  apply (accuracy_core U (U / 2) _ (value dbl p) _ (half_away x) U8 H2 Ep Es B).
  pose proof (rounded_sign dbl double_good _ _ _ Z.lt_0_1 R) as (A1 & A2 & _). pose proof (rounded_sign dbl double_good _ _ _ Z.lt_0_1 Rs) as (A3 & A4 & _).
  unfold half_away in *. change (one_of dbl) with U in *. assert (Hp : 0 <= U / 2) by (apply Z.div_pos; [apply Z.lt_le_incl, Up|reflexivity]). set (hh := U / 2) in *. clearbody hh. clear - A1 A2 A3 A4 Hp Hs.
  destruct (0 <=? value dbl x) eqn:E0; [left|right]; (split; [|reflexivity]).
  - apply A3. assert (0 <= value dbl x * scale) by (apply Z.mul_nonneg_nonneg; lia). lia.
  - apply A4. assert (value dbl x * scale <= 0) by (apply Z.mul_nonpos_nonneg; lia). lia.
Qed.
(** Full statement of C83: the nearest millisecond.  It fails just below one half: adding
    0.49999999999999994 milliseconds adds one, because the sum with 0.5 is rounded up; and a NaN is
    converted to an integer. *)
Theorem C83_refuted : DT_AddMilliseconds 0 4602678819172646911 = Ret 10000 /\ 2 * value dbl 4602678819172646911 < one_of dbl /\
  DT_AddDays 5 (quiet_nan dbl) = UB SignedOverflow.
Proof. repeat split; vm_compute; reflexivity. Qed.
Example C83_case : represents dbl (fl_of_Z dbl (-3)) (-3) /\ DT_AddDays 3000000000000 (fl_of_Z dbl (-3)) = Ret 408000000000 /\ DT_AddDays 0 (fl_of_Z dbl (-3)) = Exn ArgumentOutOfRangeException /\ DT_AddHours 0 half_bits = Ret 18000000000.
Proof.
  assert (R : represents dbl (fl_of_Z dbl (-3)) (-3)) by (apply fl_represents; lia). assert (A : In (DT_AddDays, 86400000) adders) by (left; reflexivity).
  split; [exact R|]. split; [|split].
  - rewrite (C83_whole_units _ _ _ _ (-3) A); [reflexivity|rewrite last_tick_val; lia|exact R|reflexivity].
  - rewrite (C83_whole_units _ _ _ _ (-3) A); [reflexivity|rewrite last_tick_val; lia|exact R|reflexivity].
  - vm_compute. reflexivity.
Qed.
Print Assumptions C83_add_partial. Print Assumptions C83_whole_units. Print Assumptions C83_monotone. Print Assumptions C83_accuracy. Print Assumptions C83_refuted.
