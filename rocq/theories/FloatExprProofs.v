(** * Proofs for C109, C110 *)
From Verif Require Import Tac IeeeModel MathModel MathProofs MathSpec FloatSpec FloatProofs FloatModel FloatProperties FloatRoundProperties ConstantProofs ConstantProperties FloatNarrowProofs StatementModel ExprModel ExprSpec ExprProofs ExprProperties ExprValueSpec ExprValueProofs FloatExprModel FloatExprSpec.
Import ListNotations.

(** ** The remainder needs no rounding *)
Section Rem.
Variable f : format.
Hypothesis G : good_format f.
Lemma made x : 0 <= x -> forall c, 0 <= c < 2 * 2 ^ mbits f -> exists m, 0 <= m /\ mag_value f m = c * 2 ^ x.
Proof.
  pose proof G as (Hm & _). assert (P : 0 < 2 ^ mbits f) by (apply pow_pos; lia). intros Hx0. pattern x. revert x Hx0. apply natlike_ind.
  - intros c Hc. exists c. split; [lia | ]. pose proof (mag_value_shape f G 0 c ltac:(lia)) as V. rewrite Z.mul_0_l, Z.add_0_l in V. apply V; lia.
  - intros y Hy IH c Hc. destruct (Z_le_dec (2 ^ mbits f) c) as [L | L].
    + exists (Z.succ y * 2 ^ mbits f + c). split; [nia | ]. apply (mag_value_shape f G); lia.
    + destruct (IH (2 * c) ltac:(lia)) as (m & M & V). exists m. split; [exact M | ]. rewrite V, Z.pow_succ_r by exact Hy. ring.
Qed.
Lemma taken m : 0 <= m -> exists c x, 0 <= x /\ 0 <= c < 2 * 2 ^ mbits f /\ mag_value f m = c * 2 ^ x.
Proof.
  pose proof G as (Hm & _). assert (P : 0 < 2 ^ mbits f) by (apply pow_pos; lia). intros H. unfold mag_value. pose proof (Z.div_pos m _ H P) as D. pose proof (Z.mod_pos_bound m _ P) as R.
  destruct (Z.eqb_spec (m / 2 ^ mbits f) 0) as [E | E].
  - exists m, 0. pose proof (Z.div_mod m (2 ^ mbits f) ltac:(lia)) as X. rewrite E in X. rewrite Z.mul_0_r, Z.add_0_l in X. rewrite <- X in R. repeat split; try lia.
  - exists (2 ^ mbits f + m mod 2 ^ mbits f), (m / 2 ^ mbits f - 1). repeat split; lia.
Qed.
Lemma remainder_exact ma mb : 0 <= ma -> 0 < mb -> exists m, 0 <= m <= ma /\ m < mb /\ mag_value f m = mag_value f ma mod mag_value f mb.
Proof.
  intros Ha Hb. destruct (taken ma Ha) as (a & x & Hx & Ha' & Va). destruct (taken mb ltac:(lia)) as (b & y & Hy & Hb' & Vb).
  assert (Pb : 0 < mag_value f mb) by (rewrite <- (mag_value_zero f G); apply (mag_value_lt f G); lia).
  assert (Pa : 0 <= mag_value f ma) by (apply (mag_value_nonneg f G); lia).
  enough (E : exists m, 0 <= m /\ mag_value f m = mag_value f ma mod mag_value f mb).
  { destruct E as (m & M & V). exists m. pose proof (Z.mod_pos_bound (mag_value f ma) _ Pb) as R. pose proof (Z.mod_le (mag_value f ma) _ Pa Pb) as L. rewrite <- V in R, L.
    split; [split; [exact M | ] | split; [ | exact V]].
    - destruct (Z_le_dec m ma) as [ | N]; [assumption | ]. pose proof (mag_value_lt f G ma m ltac:(lia)). lia.
    - apply (proj1 (mag_value_iff f G m mb M ltac:(lia))). lia. }
  assert (Py : 0 < 2 ^ y) by (apply pow_pos; lia). assert (Px : 0 < 2 ^ x) by (apply pow_pos; lia). rewrite Va, Vb in *. assert (0 < b) by nia.
  destruct (Z_le_dec x y) as [L | L].
  - replace (2 ^ y) with (2 ^ (y - x) * 2 ^ x) in * by (rewrite <- Z.pow_add_r by lia; f_equal; lia). assert (0 < 2 ^ (y - x)) by (apply pow_pos; lia).
    rewrite Z.mul_assoc, Zmult_mod_distr_r. apply made; [exact Hx | ]. pose proof (Z.mod_pos_bound a (b * 2 ^ (y - x)) ltac:(nia)). pose proof (Z.mod_le a (b * 2 ^ (y - x)) ltac:(lia) ltac:(nia)). lia.
  - replace (2 ^ x) with (2 ^ (x - y) * 2 ^ y) in * by (rewrite <- Z.pow_add_r by lia; f_equal; lia).
    rewrite Z.mul_assoc, Zmult_mod_distr_r. apply made; [exact Hy | ]. pose proof (Z.mod_pos_bound (a * 2 ^ (x - y)) b ltac:(lia)). lia.
Qed.
Lemma fl_rem_exact a b : finite f a -> finite f b -> is_zero f b = false -> exists m, 0 <= m < exp_mask f /\ m < magnitude f b /\ mag_value f m = mag f a mod mag f b /\ fl_rem f a b = with_sign f (negative f a) m.
Proof.
  intros Fa Fb Zb. destruct (finite_class f a Fa) as (Na & Ia). destruct (finite_class f b Fb) as (Nb & Ib). pose proof (mag_range f G a) as Ra. pose proof (mag_range f G b) as Rb. unfold finite in *. unfold is_zero in Zb.
  destruct (remainder_exact (magnitude f a) (magnitude f b) ltac:(lia) ltac:(lia)) as (m & M & L & V). exists m. split; [lia | ]. split; [exact L | ]. split; [exact V | ].
  unfold fl_rem, is_zero. rewrite Na, Nb, Ia, Ib, Zb. cbn [orb]. f_equal. unfold mag. rewrite <- V, <- (Z.mul_1_r (mag_value f m)). apply (round_mag_exact f G); lia.
Qed.
End Rem.
Theorem narrow_rem a b : pattern sgl a -> pattern sgl b -> narrowed (fl_rem dbl (widened a) (widened b)) = fl_rem sgl a b.
Proof.
  intros Pa Pb. destruct (widened_class a Pa) as (Na & Ia & Za & Sa & Ma & PA). destruct (widened_class b Pb) as (Nb & Ib & Zb & Sb & Mb & PB).
  destruct (nan sgl a || nan sgl b || is_inf sgl a || is_zero sgl b) eqn:C1.
  { unfold fl_rem. rewrite Na, Nb, Ia, Zb, C1. reflexivity. }
  apply Bool.orb_false_iff in C1. destruct C1 as (C1 & Cz). apply Bool.orb_false_iff in C1. destruct C1 as (C1 & Ci). apply Bool.orb_false_iff in C1. destruct C1 as (Ca & Cb).
  assert (Fa : finite sgl a) by (unfold finite; unfold nan in Ca; unfold is_inf in Ci; lia).
  destruct (is_inf sgl b) eqn:Cj.
  { unfold fl_rem. rewrite Na, Nb, Ia, Ib, Zb, Ca, Cb, Ci, Cz, Cj. cbn [orb]. destruct (widen_facts a Pa Fa) as (w & -> & _ & _ & _ & _ & E). exact E. }
  assert (Fb : finite sgl b) by (unfold finite; unfold nan in Cb; unfold is_inf in Cj; lia).
  destruct (widen_facts a Pa Fa) as (w & Ew & _ & Fw & _). destruct (widen_facts b Pb Fb) as (w' & Ew' & _ & Fw' & _). subst w w'.
  destruct (fl_rem_exact dbl double_good (widened a) (widened b) Fw Fw' (eq_trans Zb Cz)) as (m & M & _ & V & E).
  destruct (fl_rem_exact sgl single_good a b Fa Fb Cz) as (k & K & _ & Vk & Ek). rewrite E, Ek, (Sa Ca). rewrite (Ma Fa), (Mb Fb), Zmult_mod_distr_r, <- Vk in V.
  destruct (with_sign_fields dbl double_good (negative sgl a) m ltac:(lia)) as (W1 & W2 & W3 & W4). unfold fl_convert. rewrite W4. unfold is_inf, mag. rewrite W2, W3. replace (m =? exp_mask dbl) with false by lia. f_equal.
  rewrite V. destruct units as (-> & ->). replace (mag_value sgl k * 2 ^ 925 * 2 ^ 149) with (mag_value sgl k * 2 ^ 1074) by (rewrite <- Z.mul_assoc; f_equal). apply (round_mag_exact sgl single_good); [lia | apply pow_pos; lia].
Qed.

(** ** Results are patterns *)
Section Pattern.
Variable f : format.
Hypothesis G : good_format f.
Hypothesis Q : pattern f (quiet_nan f).
Lemma pat_sign s m : 0 <= m <= exp_mask f -> pattern f (with_sign f s m).
Proof. intros H. apply (with_sign_fields f G s m H). Qed.
Lemma pat_round s n d : 0 <= n -> 0 < d -> pattern f (with_sign f s (round_mag f n d)).
Proof. intros N D. apply pat_sign, (round_mag_range f G); assumption. Qed.
Lemma mag_nonneg b : 0 <= mag f b.
Proof. apply (mag_value_nonneg f G). apply (mag_range f G). Qed.
Lemma pat_inf s : pattern f (with_sign f s (exp_mask f)).
Proof. apply pat_sign. pose proof (exp_mask_range f G). lia. Qed.
Lemma pat_zero s : pattern f (with_sign f s 0).
Proof. apply pat_sign. pose proof (exp_mask_range f G). lia. Qed.
Lemma pat_add a b : pattern f a -> pattern f b -> pattern f (fl_add f a b).
Proof.
  intros A B. unfold fl_add. destruct (nan f a || nan f b); [exact Q | ]. destruct (is_inf f a && _ && _); [exact Q | ]. destruct (is_inf f a); [exact A | ]. destruct (is_inf f b); [exact B | ].
  cbv zeta. destruct (_ =? 0); [apply pat_zero | ]. apply pat_round; lia.
Qed.
Lemma pat_negate a : pattern f a -> pattern f (fl_negate f a).
Proof. unfold pattern, fl_negate, negative. intros H. destruct (Z.leb_spec (sign_bit f) a); lia. Qed.
Lemma pat_sub a b : pattern f a -> pattern f b -> pattern f (fl_sub f a b).
Proof. intros A B. unfold fl_sub. destruct (nan f b); [exact Q | ]. apply pat_add; [exact A | ]. apply pat_negate, B. Qed.
Lemma pat_mul a b : pattern f (fl_mul f a b).
Proof.
  unfold fl_mul. destruct (nan f a || nan f b); [exact Q | ]. destruct (_ || _); [exact Q | ]. destruct (_ || _); [apply pat_inf | ]. apply pat_round; [apply Z.mul_nonneg_nonneg; apply mag_nonneg | apply (unit_pos f G)].
Qed.
Lemma zero_mag b : is_zero f b = false -> 0 < mag f b.
Proof. unfold is_zero, mag. intros H. pose proof (mag_range f G b). rewrite <- (mag_value_zero f G). apply (mag_value_lt f G). lia. Qed.
Lemma pat_div a b : pattern f (fl_div f a b).
Proof.
  unfold fl_div. destruct (nan f a || nan f b); [exact Q | ]. destruct (is_inf f a && _ || _); [exact Q | ]. destruct (is_inf f a || is_zero f b) eqn:E; [apply pat_inf | ]. destruct (is_inf f b); [apply pat_zero | ].
  apply Bool.orb_false_iff in E. apply pat_round; [apply Z.mul_nonneg_nonneg; [apply mag_nonneg | apply Z.lt_le_incl, (unit_pos f G)] | apply zero_mag, E].
Qed.
Lemma pat_rem a b : pattern f a -> pattern f (fl_rem f a b).
Proof.
  intros A. unfold fl_rem. destruct (_ || _) eqn:E; [exact Q | ]. destruct (is_inf f b); [exact A | ]. apply Bool.orb_false_iff in E. apply pat_round; [ | lia]. apply Z.mod_pos_bound, zero_mag, E.
Qed.
Lemma pat_of_Z z : pattern f (fl_of_Z f z).
Proof. apply pat_round; [apply Z.mul_nonneg_nonneg; [lia | apply Z.lt_le_incl, (unit_pos f G)] | lia]. Qed.
Lemma pat_op op a b : pattern f a -> pattern f b -> pattern f (fl_op op f a b).
Proof. intros A B. destruct op; cbn [fl_op]; auto using pat_add, pat_sub, pat_mul, pat_div, pat_rem. Qed.
End Pattern.
Lemma good_fmt p : good_format (fmt p).
Proof. destruct p; first [exact single_good | exact double_good]. Qed.
Lemma quiet_fmt p : pattern (fmt p) (quiet_nan (fmt p)).
Proof. destruct p; split; first [discriminate | reflexivity]. Qed.
Lemma pat_resize s t b : is_float s = true -> is_float t = true -> pattern (fmt s) b -> pattern (fmt t) (resize s t b).
Proof.
  destruct s, t; cbn [is_float]; try discriminate; intros _ _ P; cbn [resize]; try exact P; unfold fl_convert.
  - destruct (nan _ b); [apply (quiet_fmt tR8) | ]. destruct (is_inf _ b); [apply (pat_inf _ double_good) | ]. apply (pat_round _ double_good); [apply Z.mul_nonneg_nonneg; [apply (mag_nonneg _ single_good) | apply Z.lt_le_incl, (unit_pos _ double_good)] | apply (unit_pos _ single_good)].
  - destruct (nan _ b); [apply (quiet_fmt tR4) | ]. destruct (is_inf _ b); [apply (pat_inf _ single_good) | ]. apply (pat_round _ single_good); [apply Z.mul_nonneg_nonneg; [apply (mag_nonneg _ double_good) | apply Z.lt_le_incl, (unit_pos _ single_good)] | apply (unit_pos _ double_good)].
Qed.

(** ** Math.Divide where it is division *)
Lemma zero_eq b : feq dbl b 0 = is_zero dbl b.
Proof.
  unfold feq, is_zero. pose proof (mag_range dbl double_good b) as R. assert (V0 : value dbl 0 = 0) by reflexivity. assert (N0 : nan dbl 0 = false) by reflexivity. rewrite V0, N0, Bool.andb_true_r.
  assert (V : value dbl b = 0 <-> magnitude dbl b = 0).
  { pose proof (proj2 (mag_value_iff dbl double_good (magnitude dbl b) 0 (proj1 R) (Z.le_refl 0))) as X. rewrite (mag_value_zero dbl double_good) in X. unfold value. destruct (negative dbl b); [rewrite <- X; lia | exact X]. }
  pose proof (exp_mask_range dbl double_good) as E. unfold nan. destruct (Z.eqb_spec (magnitude dbl b) 0) as [M | M].
  - rewrite (proj2 V M), M. reflexivity.
  - apply Bool.andb_false_intro2. apply Z.eqb_neq. tauto.
Qed.
Lemma divide_ok a b : (is_zero dbl b = true -> nan dbl a = false /\ (is_zero dbl a = true \/ negative dbl a = negative dbl b)) -> Math_Divide a b = fl_div dbl a b.
Proof.
  intros H. unfold Math_Divide. rewrite !zero_eq. destruct (is_zero dbl b) eqn:Zb; [ | reflexivity]. destruct (H eq_refl) as (Na & C). clear H. unfold fl_div.
  assert (Nb : nan dbl b = false) by (destruct (nan dbl b) eqn:E; [apply (nan_zero dbl b double_good) in E; congruence | reflexivity]).
  assert (Ib : is_inf dbl b = false) by (destruct (is_inf dbl b) eqn:E; [apply (inf_zero dbl b double_good) in E; congruence | reflexivity]).
  rewrite Na, Nb, Ib, Zb. cbn [orb]. rewrite Bool.andb_false_r, Bool.andb_true_r, Bool.orb_true_r. cbn [orb].
  destruct (is_zero dbl a) eqn:Za; [reflexivity | ]. destruct C as [C | C]; [discriminate | ]. rewrite C, Bool.xorb_nilpotent. reflexivity.
Qed.
Lemma narrow_divide a b : pattern sgl a -> pattern sgl b -> (is_zero sgl b = true -> nan sgl a = false /\ (is_zero sgl a = true \/ negative sgl a = negative sgl b)) -> narrowed (Math_Divide (widened a) (widened b)) = fl_div sgl a b.
Proof.
  intros Pa Pb H. rewrite divide_ok; [apply narrow_div; assumption | ]. destruct (widened_class a Pa) as (Na & Ia & Za & Sa & _). destruct (widened_class b Pb) as (Nb & Ib & Zb & Sb & _). rewrite Zb, Na, Za. intros Z0. destruct (H Z0) as (N & C). split; [exact N | ].
  destruct C as [C | C]; [left; exact C | right]. rewrite Sa by exact N. rewrite Sb; [exact C | ]. destruct (nan sgl b) eqn:E; [ | reflexivity]. apply (nan_zero sgl b single_good) in E. congruence.
Qed.

(** ** Integer parts *)
Lemma int_not_float t : is_int t -> is_float t = false.
Proof. destruct t; cbn; tauto. Qed.
Lemma promote_int t : is_int t -> is_int (promote t).
Proof. destruct t; cbn; tauto. Qed.
Lemma common_int a b : is_int a -> is_int b -> is_int (common a b).
Proof. destruct a, b; cbn; tauto. Qed.
Definition integral_result (o : outcome (num_type * Z)) : Prop := match o with Ret x => is_int (fst x) | _ => True end.
Lemma op_int o x y : is_int (fst x) -> is_int (fst y) -> integral_result (cpp_op_value o x y).
Proof.
  intros X Y. pose proof (common_int _ _ X Y) as C. pose proof (promote_int _ X) as P. unfold cpp_op_value, cpp_result. destruct o; repeat match goal with |- context [if ?b then _ else _] => destruct b end; cbn [integral_result fst]; try exact I; assumption.
Qed.
Lemma convert_twice v : convert tI8 (convert tI8 v) = convert tI8 v.
Proof. apply (cs_id 64 (convert tI8 v)); [lia | exact (convert_range tI8 v I)]. Qed.
Section Agree.
Variable Gamma : Z -> num_type.
Variable env : Z -> Z.
Notation cv := (cpp_value Gamma env).
Notation fv := (cpp_fvalue Gamma env).
Lemma f_bin o l r : fv (CBin o l r) = (x <- fv l ;; y <- fv r ;; if is_float (fst x) || is_float (fst y) then let t := float_common (fst x) (fst y) in a <- cpp_convert t x ;; b <- cpp_convert t y ;; cpp_float_op o t a b else cpp_op_value o x y).
Proof. reflexivity. Qed.
Lemma f_divide a b : fv (CCall (CId MathDivide) [a; b]) = (x <- fv a ;; y <- fv b ;; match fst x, fst y with tR8, tR8 => Ret (tR8, Math_Divide (snd x) (snd y)) | tI8, tI8 => q <- Divide_Int64 (snd x) (snd y) ;; Ret (tI8, q) | _, _ => UB NullDereference end).
Proof. reflexivity. Qed.
Lemma f_modulus a b : fv (CCall (CId DoubleModulus) [a; b]) = (x <- fv a ;; y <- fv b ;; v <- cpp_convert tR8 x ;; w <- cpp_convert tR8 y ;; Ret (tR8, DoubleValue_Modulus v w)).
Proof. reflexivity. Qed.
Lemma f_double a : fv (CCast TDouble a) = (x <- fv a ;; v <- cpp_convert tR8 x ;; Ret (tR8, v)).
Proof. reflexivity. Qed.
Lemma f_prim t a : fv (CCast (TPrim t) a) = (x <- fv a ;; v <- cpp_convert t x ;; Ret (t, v)).
Proof. reflexivity. Qed.
Lemma f_long a : fv (CCast TInt64 a) = (x <- fv a ;; v <- cpp_convert tI8 x ;; Ret (tI8, v)).
Proof. reflexivity. Qed.
Lemma bin_int o l r : fv l = cv l -> integral_result (cv l) -> fv r = cv r -> integral_result (cv r) -> fv (CBin o l r) = cv (CBin o l r) /\ integral_result (cv (CBin o l r)).
Proof.
  intros El Il Er Ir. rewrite f_bin, El, Er. change (cv (CBin o l r)) with (x <- cv l ;; y <- cv r ;; cpp_op_value o x y).
  destruct (cv l) as [x | |]; cbn [bind integral_result] in *; auto. destruct (cv r) as [y | |]; cbn [bind integral_result] in *; auto. rewrite (int_not_float _ Il), (int_not_float _ Ir). cbn [orb]. split; [reflexivity | ]. apply op_int; assumption.
Qed.
Lemma const_int n : fv (constant n) = cv (constant n) /\ (in_signed 64 n = true -> integral_result (cv (constant n))).
Proof.
  split.
  - unfold constant. destruct (constantConversions n) eqn:C; [unfold constantConversions in C | destruct (n <? 0); [ | reflexivity]].
    + repeat match type of C with (if ?b then _ else _) = _ => destruct b; [injection C as <-; reflexivity | ] end. discriminate.
    + change (fv (CUnary UNeg (CNum (- n)))) with (x <- cv (CNum (- n)) ;; if is_float (fst x) then Ret (fst x, fl_negate (fmt (fst x)) (snd x)) else cpp_result (promote (fst x)) (- snd x)).
      change (cv (CUnary UNeg (CNum (- n)))) with (x <- cv (CNum (- n)) ;; cpp_result (promote (fst x)) (- snd x)).
      cbn [cpp_value]. destruct (in_range tI4 (- n)); [reflexivity | ]. destruct (in_range tI8 (- n)); reflexivity.
  - intros H. destruct (constant_agree Gamma env 64 n (or_intror eq_refl) H) as (It & v & E & _). rewrite E. exact It.
Qed.
Lemma int_agree x : typed Gamma x -> fv (meant (erase x)) = cv (meant (erase x)) /\ integral_result (cv (meant (erase x))).
Proof.
  induction x as [n|n|v|op w signed checked l IHl r IHr|k signed l IHl r IHr|t zero e IHe|e IHe]; intros T; cbn [typed] in T.
  - destruct (const_int n) as (A & B). split; [exact A | apply B]. eapply signed_wider; [ | exact T]. lia.
  - destruct (const_int n) as (A & B). split; [exact A | apply B, T].
  - split; [reflexivity | exact T].
  - destruct T as (Tl & Tr & _). destruct (IHl Tl) as (El & Il). destruct (IHr Tr) as (Er & Ir). cbn [erase meant].
    assert (S1 : is_floating (stack_of w) = false) by (unfold stack_of; destruct (w =? 64); reflexivity). assert (S2 : is_integral (stack_of w) = true) by (unfold stack_of; destruct (w =? 64); reflexivity).
    destruct op; rewrite ?S1, ?S2; try (apply bin_int; assumption).
    rewrite f_divide, !f_long, El, Er. 
    change (cv (CCall (CId MathDivide) [CCast TInt64 (meant (erase l)); CCast TInt64 (meant (erase r))])) with
      (x <- (x <- cv (meant (erase l)) ;; Ret (tI8, convert tI8 (snd x))) ;; y <- (y <- cv (meant (erase r)) ;; Ret (tI8, convert tI8 (snd y))) ;; q <- Divide_Int64 (convert tI8 (snd x)) (convert tI8 (snd y)) ;; Ret (tI8, q)).
    destruct (cv (meant (erase l))) as [x | |]; cbn [bind integral_result] in *; auto. unfold cpp_convert. cbn [is_float]. rewrite (int_not_float _ Il). cbn [bind fst snd].
    destruct (cv (meant (erase r))) as [y | |]; cbn [bind integral_result] in *; auto. rewrite (int_not_float _ Ir). cbn [bind fst snd]. rewrite !convert_twice. destruct (Divide_Int64 _ _); cbn [bind fst integral_result is_int]; auto.
  - destruct T as (Tl & Tr & _). destruct (IHl Tl) as (El & Il). destruct (IHr Tr) as (Er & Ir). cbn [erase meant]. apply bin_int; assumption.
  - destruct T as (Te & It & _). destruct (IHe Te) as (E & Ie). cbn [erase meant]. rewrite f_prim, E. change (cv (CCast (TPrim t) (meant (erase e)))) with (x <- cv (meant (erase e)) ;; Ret (t, convert t (snd x))).
    destruct (cv (meant (erase e))) as [x | |]; cbn [bind integral_result] in *; auto. unfold cpp_convert. rewrite (int_not_float _ Ie), (int_not_float _ It). cbn [bind fst integral_result]. auto.
  - destruct T as (Te & _). destruct (IHe Te) as (E & Ie). cbn [erase meant].
    change (fv (CUnary UNot (meant (erase e)))) with (x <- fv (meant (erase e)) ;; if is_float (fst x) then UB NullDereference else Ret (promote (fst x), convert (promote (fst x)) (Z.lnot (snd x)))).
    change (cv (CUnary UNot (meant (erase e)))) with (x <- cv (meant (erase e)) ;; Ret (promote (fst x), convert (promote (fst x)) (Z.lnot (snd x)))). rewrite E.
    destruct (cv (meant (erase e))) as [x | |]; cbn [bind integral_result] in *; auto. rewrite (int_not_float _ Ie). cbn [fst]. split; [reflexivity | apply promote_int, Ie].
Qed.

(** ** Floating expressions *)
Hypothesis Env : well_typed Gamma env.
Lemma env_int v : is_int (Gamma v) -> in_range (Gamma v) (env v) = true.
Proof. intros H. pose proof (Env v) as E. rewrite (int_not_float _ H) in E. exact E. Qed.
Lemma float_type e : fitting Gamma e -> is_float (precision Gamma e) = true /\ is_float (cpp_type Gamma e) = true /\ (cpp_type Gamma e = precision Gamma e \/ precision Gamma e = tR4 /\ cpp_type Gamma e = tR8).
Proof.
  assert (X : forall p, is_float p = true -> tR8 = p \/ p = tR4 /\ tR8 = tR8) by (intros []; cbn; try discriminate; auto).
  assert (Y : forall p, is_float p = true -> float_common p p = p) by (intros []; cbn; try discriminate; auto).
  destruct e as [v | p z x | op p l r | p e]; cbn [fitting precision cpp_type]; intros F.
  - auto.
  - destruct F as (F & _). auto.
  - destruct F as (Fp & O & _ & _ & _ & _ & Cl & Cr). rewrite Cl, Cr, (Y p Fp). destruct op; try contradiction; auto.
  - destruct F as (F & _). auto.
Qed.
(** [v] in C++ stands for [z] on the stack. *)
Definition float_sim (p t : num_type) (o : outcome Z) (c : outcome (num_type * Z)) : Prop :=
  match o with Ret z => pattern (fmt p) z /\ exists v, c = Ret (t, v) /\ pattern (fmt t) v /\ resize t p v = z | Exn e => c = Exn e | UB _ => False end.
Lemma resize_same t v : resize t t v = v.
Proof. destruct t; reflexivity. Qed.
Lemma convert_float s t v : is_float s = true -> is_float t = true -> cpp_convert t (s, v) = Ret (resize s t v).
Proof. intros S1 T1. unfold cpp_convert. cbn [fst snd]. rewrite S1, T1. reflexivity. Qed.
Lemma fl_agree e : fitting Gamma e -> defined Gamma env e -> float_sim (precision Gamma e) (cpp_type Gamma e) (fl_value Gamma env e) (fv (meant (ferase e))).
Proof.
  induction e as [v | p zero x | op p l IHl r IHr | p e IHe]; intros F D.
  - cbn [fitting] in F. pose proof (Env v) as P. rewrite F in P. cbn [fl_value precision cpp_type ferase meant cpp_fvalue float_sim]. split; [exact P | ]. exists (env v). repeat split; try apply P. apply resize_same.
  - cbn [fitting] in F. destruct F as (Fp & T & Fx). cbn [defined] in D. pose proof (value_agree Gamma env x env_int T D) as V. destruct (int_agree x T) as (E & _). cbn [fl_value precision cpp_type ferase meant]. rewrite f_prim, E.
    destruct (il_value Gamma env x) as [z | ex | u]; cbn [sim bind float_sim] in *; [ | rewrite V; reflexivity | contradiction].
    destruct V as (v & Ev & St). rewrite Ev. cbn [bind]. unfold cpp_convert. cbn [fst snd]. rewrite Fp, (int_not_float _ (ctype_int Gamma x T)). cbn [bind].
    assert (W : 0 < width Gamma x) by (destruct (width_cases Gamma x T); lia).
    assert (Ez : (if zero then cast_u (width Gamma x) z else z) = v).
    { destruct zero.
      - apply andb_true_iff in Fx. destruct Fx as (Sg & B). pose proof (stands_mod _ _ _ _ W St) as M. unfold cast_u. rewrite <- M. apply Z.mod_small. destruct St as (R & _). unfold in_range in R. destruct (is_signed _); [discriminate | ]. apply in_unsigned_iff in R. pose proof (pow_le (bits (ctype Gamma x)) (width Gamma x)). lia.
      - symmetry. eapply stands_exact; [apply (ctype_int Gamma x T) | exact W | exact St | exact Fx]. }
    rewrite Ez. pose proof (pat_of_Z (fmt p) (good_fmt p) v) as P. split; [exact P | ]. eexists. split; [reflexivity | ]. split; [exact P | apply resize_same].
  - cbn [fitting] in F. destruct F as (Fp & O & Fl & Fr & Pl & Pr & Cl & Cr). cbn [defined] in D. destruct D as (Dl & Dr & Dz). specialize (IHl Fl Dl). specialize (IHr Fr Dr). rewrite Pl, Cl in IHl. rewrite Pr, Cr in IHr.
    cbn [fl_value precision cpp_type]. rewrite Cl, Cr. set (cl := meant (ferase l)) in *. set (cr := meant (ferase r)) in *.
    assert (Dv : op = Div -> fv (meant (ferase (FBin op p l r))) = (x <- (x <- fv cl ;; v <- cpp_convert tR8 x ;; Ret (tR8, v)) ;; y <- (y <- fv cr ;; v <- cpp_convert tR8 y ;; Ret (tR8, v)) ;; Ret (tR8, Math_Divide (snd x) (snd y)))).
    { intros ->. cbn [ferase meant]. assert (S1 : is_floating (float_stack p) = true) by (destruct p; reflexivity). rewrite S1, f_divide, !f_double. fold cl cr. destruct (fv cl) as [x | |]; cbn [bind]; try reflexivity; destruct (cpp_convert tR8 x); cbn [bind]; try reflexivity; destruct (fv cr) as [y | |]; cbn [bind]; try reflexivity; destruct (cpp_convert tR8 y); reflexivity. }
    assert (Rv : op = Rem -> fv (meant (ferase (FBin op p l r))) = (x <- fv cl ;; y <- fv cr ;; v <- cpp_convert tR8 x ;; w <- cpp_convert tR8 y ;; Ret (tR8, DoubleValue_Modulus v w))).
    { intros ->. cbn [ferase meant]. assert (S1 : is_floating (float_stack p) = true) by (destruct p; reflexivity). rewrite S1. apply f_modulus. }
    assert (Bv : op <> Div -> op <> Rem -> fv (meant (ferase (FBin op p l r))) = fv (CBin (operatorSymbols op) cl cr)) by (intros; destruct op; try congruence; reflexivity).
    destruct (fl_value Gamma env l) as [a | ex | u]; cbn [float_sim bind] in *; [ | destruct op; try contradiction; first [rewrite Dv by reflexivity | rewrite Rv by reflexivity | rewrite Bv, f_bin by discriminate]; rewrite IHl; reflexivity | contradiction].
    destruct IHl as (Pa & va & Ea & _ & Xa). rewrite resize_same in Xa. subst va.
    destruct (fl_value Gamma env r) as [b | ex | u]; cbn [float_sim bind] in *; [ | destruct op; try contradiction; first [rewrite Dv by reflexivity | rewrite Rv by reflexivity | rewrite Bv, f_bin by discriminate]; rewrite Ea, IHr; cbn [bind]; rewrite ?convert_float by auto; reflexivity | contradiction].
    destruct IHr as (Pb & vb & Eb & _ & Xb). rewrite resize_same in Xb. subst vb. pose proof (pat_op (fmt p) (good_fmt p) (quiet_fmt p) op a b Pa Pb) as Po. split; [exact Po | ].
    assert (Fc : float_common p p = p) by (destruct p; try discriminate; reflexivity).
    assert (B : op <> Div -> op <> Rem -> fv (CBin (operatorSymbols op) cl cr) = cpp_float_op (operatorSymbols op) p a b).
    { intros _ _. rewrite f_bin, Ea, Eb. cbn [bind fst snd]. rewrite Fp, Fc. cbn [orb]. rewrite !convert_float by assumption. cbn [bind]. rewrite !resize_same. reflexivity. }
    destruct op; try contradiction.
    + rewrite Bv, B, Fc by discriminate. eexists. split; [reflexivity | ]. split; [exact Po | apply resize_same].
    + rewrite Bv, B, Fc by discriminate. eexists. split; [reflexivity | ]. split; [exact Po | apply resize_same].
    + rewrite Bv, B, Fc by discriminate. eexists. split; [reflexivity | ]. split; [exact Po | apply resize_same].
    + rewrite Dv by reflexivity. rewrite Ea, Eb. cbn [bind]. rewrite !convert_float by auto. cbn [bind snd]. specialize (Dz eq_refl a b eq_refl eq_refl).
      assert (PA : pattern dbl (resize p tR8 a)) by (apply (pat_resize p tR8); auto). assert (PB : pattern dbl (resize p tR8 b)) by (apply (pat_resize p tR8); auto).
      assert (E : resize tR8 p (Math_Divide (resize p tR8 a) (resize p tR8 b)) = fl_div (fmt p) a b /\ pattern dbl (Math_Divide (resize p tR8 a) (resize p tR8 b))).
      { split.
        - destruct p; try discriminate; cbn [resize fmt] in *; [apply narrow_divide | apply divide_ok]; assumption.
        - unfold Math_Divide. destruct (feq dbl _ 0); [destruct (feq dbl _ 0); [apply (quiet_fmt tR8) | split; [discriminate | reflexivity]] | apply (pat_div dbl double_good (quiet_fmt tR8))]. }
      eexists. split; [reflexivity | ]. split; [apply E | apply E].
    + rewrite Rv by reflexivity. rewrite Ea, Eb. cbn [bind]. rewrite !convert_float by auto. cbn [bind].
      assert (PA : pattern dbl (resize p tR8 a)) by (apply (pat_resize p tR8); auto).
      eexists. split; [reflexivity | ]. split; [apply (pat_rem dbl double_good (quiet_fmt tR8)); exact PA | ]. unfold DoubleValue_Modulus. destruct p; try discriminate; cbn [resize fmt fl_op] in *; [apply narrow_rem; assumption | reflexivity].
  - cbn [fitting] in F. destruct F as (Fp & Fe & Fc). cbn [defined] in D. specialize (IHe Fe D). destruct (float_type e Fe) as (T1 & T2 & T3). cbn [fl_value precision cpp_type ferase meant]. rewrite f_prim.
    destruct (fl_value Gamma env e) as [a | ex | u]; cbn [float_sim bind] in *; [ | rewrite IHe; reflexivity | contradiction].
    destruct IHe as (Pa & v & Ev & Pv & X). rewrite Ev. cbn [bind]. rewrite convert_float by assumption. cbn [bind]. pose proof (pat_resize (precision Gamma e) p a T1 Fp Pa) as Pz. split; [exact Pz | ].
    eexists. split; [reflexivity | ]. split; [apply (pat_resize (cpp_type Gamma e) p v T2 Fp Pv) | ]. rewrite resize_same. destruct T3 as [T3 | (T3 & T4)].
    + rewrite T3 in *. rewrite resize_same in X. subst v. reflexivity.
    + rewrite T3, T4 in *. destruct Fc as [Fc | ->]; [discriminate | ]. cbn [resize] in X |- *. exact X.
Qed.
End Agree.
