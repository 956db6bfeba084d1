(** * C109: floating point expressions are worth the same before and after translation; C110: the floating point remainder is exact

    What an expression means: [meant] (ExprSpec, C59).  What instructions and C++ expressions are worth: FloatExprSpec. *)
From Verif Require Import Tac IeeeModel MathModel MathProofs MathSpec FloatSpec FloatProofs FloatModel ConstantProofs ConstantProperties FloatNarrowProofs StatementModel ExprModel ExprSpec ExprProofs ExprProperties ExprValueSpec ExprValueProofs ExprValueProperties FloatExprModel FloatExprSpec FloatExprProofs.
Import ListNotations.
Local Open Scope Z_scope.

Lemma ferase_arithmetic e : arithmetic (ferase e).
Proof. induction e; cbn [ferase arithmetic]; auto. apply erase_arithmetic. Qed.
(** For every expression of Single and Double variables, converted integers, + - * / % and conversions in which a quotient or remainder of
    Singles is not used as an operand ([fitting]) and no negative number or NaN is divided by zero ([defined]): whatever the C++ compiler
    reads has exactly the bits of the value of the instructions, and throws the same exception (of the integer parts); if its C++ type is
    wider than the stack's, rounding it to the stack's type gives exactly the bits of the value.
    Missing: quotients of Singles as operands, division by zero (refuted below). *)
Theorem C109_value_partial Gamma env e t : well_typed Gamma env -> fitting Gamma e -> defined Gamma env e -> reads (print false (ferase e)) t ->
  match fl_value Gamma env e with
  | Ret z => exists v, cpp_fvalue Gamma env t = Ret (cpp_type Gamma e, v) /\ (cpp_type Gamma e = precision Gamma e -> v = z) /\
             (cpp_type Gamma e <> precision Gamma e -> cpp_type Gamma e = tR8 /\ precision Gamma e = tR4 /\ fl_convert double_fmt single_fmt v = z)
  | Exn x => cpp_fvalue Gamma env t = Exn x
  | UB _ => False
  end.
Proof.
  intros Env F D R. apply (C59_arithmetic _ _ (ferase_arithmetic e)) in R. subst t. pose proof (fl_agree Gamma env Env e F D) as A. destruct (float_type Gamma e F) as (_ & _ & T).
  destruct (fl_value Gamma env e) as [z | x | u]; cbn [float_sim] in A; [ | exact A | exact A]. destruct A as (_ & v & Ev & _ & X). exists v. split; [exact Ev | ]. split.
  - intros E. rewrite E, resize_same in X. exact X.
  - intros N. destruct T as [T | (T1 & T2)]; [contradiction | ]. rewrite T1, T2 in X. auto.
Qed.
(** A variable of the precision of the expression gets exactly its value. *)
Theorem C109_store_partial Gamma env e t z : well_typed Gamma env -> fitting Gamma e -> defined Gamma env e -> reads (print false (ferase e)) t ->
  fl_value Gamma env e = Ret z -> exists v, cpp_fvalue Gamma env t = Ret v /\ cpp_convert (precision Gamma e) v = Ret z.
Proof.
  intros Env F D R E. apply (C59_arithmetic _ _ (ferase_arithmetic e)) in R. subst t. pose proof (fl_agree Gamma env Env e F D) as A. destruct (float_type Gamma e F) as (T1 & T2 & _). rewrite E in A. destruct A as (_ & v & Ev & _ & X).
  eexists. split; [exact Ev | ]. rewrite convert_float by assumption. rewrite X. reflexivity.
Qed.
(** In particular [c = a / b] and [c = a % b] with Singles, although computed with Doubles. *)
Theorem C109_single_quotient Gamma env a b t : Gamma a = tR4 -> Gamma b = tR4 -> well_typed Gamma env -> is_zero single_fmt (env b) = false ->
  reads (print false (Binary Div StackF4 (LdLoc a) (LdLoc b))) t -> exists v, cpp_fvalue Gamma env t = Ret v /\ cpp_convert tR4 v = Ret (fl_div single_fmt (env a) (env b)).
Proof.
  intros Ga Gb Env Z0 R. apply (C109_store_partial Gamma env (FBin Div tR4 (FLoc a) (FLoc b)) t (fl_div single_fmt (env a) (env b)) Env); [ | | exact R | reflexivity].
  - cbn [fitting precision cpp_type]. rewrite Ga, Gb. cbn [is_float]. tauto.
  - cbn [defined fl_value]. split; [exact I | ]. split; [exact I | ]. intros _ x y Hx Hy. injection Hy as <-. cbn [fmt]. rewrite Z0. discriminate.
Qed.
(** A comparison of such expressions has the same result. *)
Theorem C109_comparison_partial Gamma env k l r t a b : well_typed Gamma env -> fitting Gamma l -> fitting Gamma r -> defined Gamma env l -> defined Gamma env r ->
  precision Gamma l = precision Gamma r -> cpp_type Gamma l = precision Gamma l -> cpp_type Gamma r = precision Gamma r ->
  reads (print false (Comp k (ferase l) (ferase r))) t -> fl_value Gamma env l = Ret a -> fl_value Gamma env r = Ret b ->
  cpp_fvalue Gamma env t = Ret (tI4, if fl_compare (fmt (precision Gamma l)) k a b then 1 else 0).
Proof.
  intros Env Fl Fr Dl Dr P Tl Tr R El Er. apply (C59_arithmetic (Comp k (ferase l) (ferase r)) _ (conj (ferase_arithmetic l) (ferase_arithmetic r))) in R. subst t. cbn [meant].
  pose proof (fl_agree Gamma env Env l Fl Dl) as A. rewrite El in A. destruct A as (_ & v & Ev & _ & X). pose proof (fl_agree Gamma env Env r Fr Dr) as B. rewrite Er in B. destruct B as (_ & w & Ew & _ & Y).
  destruct (float_type Gamma l Fl) as (T1 & _ & _). rewrite Tl, resize_same in X. rewrite Tr, resize_same in Y. subst v w. rewrite f_bin, Ev, Ew. cbn [bind fst snd]. rewrite Tl, Tr, <- P, T1. cbn [orb].
  replace (float_common (precision Gamma l) (precision Gamma l)) with (precision Gamma l) by (destruct (precision Gamma l); try discriminate; reflexivity).
  rewrite !convert_float by assumption. cbn [bind]. rewrite !resize_same. destruct k; reflexivity.
Qed.
(** A conversion to an integer type that holds the truncated value gives it. *)
Theorem C109_to_integer_partial Gamma env e u t z : well_typed Gamma env -> fitting Gamma e -> defined Gamma env e -> cpp_type Gamma e = precision Gamma e -> is_int u ->
  reads (print false (ConvTo (Some u) (ferase e))) t -> fl_value Gamma env e = Ret z -> finite (fmt (precision Gamma e)) z -> in_range u (Z.quot (value (fmt (precision Gamma e)) z) (one_of (fmt (precision Gamma e)))) = true ->
  cpp_fvalue Gamma env t = Ret (u, Z.quot (value (fmt (precision Gamma e)) z) (one_of (fmt (precision Gamma e)))).
Proof.
  intros Env F D T U R E Fz Rg. apply (C59_arithmetic (ConvTo (Some u) (ferase e)) _ (ferase_arithmetic e)) in R. subst t. cbn [meant]. pose proof (fl_agree Gamma env Env e F D) as A. rewrite E in A. destruct A as (_ & v & Ev & _ & X). destruct (float_type Gamma e F) as (T1 & _ & _). rewrite T, resize_same in X. subst v.
  rewrite f_prim, Ev. cbn [bind]. unfold cpp_convert. cbn [fst snd]. rewrite T, T1, (int_not_float _ U). set (p := precision Gamma e) in *. destruct (finite_class _ _ Fz) as (N & In). rewrite N, In. cbn [orb].
  assert (Q : fl_to_Z (fmt p) z = Z.quot (value (fmt p) z) (one_of (fmt p))).
  { unfold fl_to_Z, value. change (mag_value (fmt p) (magnitude (fmt p) z)) with (mag (fmt p) z). pose proof (mag_nonneg (fmt p) (good_fmt p) z) as M. assert (O1 : one_of (fmt p) = unit_of (fmt p)) by (destruct p; reflexivity). rewrite O1. pose proof (unit_pos (fmt p) (good_fmt p)) as O2.
    destruct (negative (fmt p) z); [rewrite Z.quot_opp_l by lia | ]; rewrite Z.quot_div_nonneg by lia; reflexivity. }
  rewrite Q, Rg. reflexivity.
Qed.

(** ** Expressions the translation gives another value *)
Section Refuted.
(** three Single variables 0, 1, 2 *)
Let G4 : Z -> num_type := fun _ => tR4.
Let three (a b c : Z) : Z -> Z := fun v => if v =? 0 then a else if v =? 1 then b else c.
Let one4 : Z := 1065353216.
Let two4 : Z := 1073741824.
Let three4 : Z := 1077936128.
Let third4 : Z := 1051372203.
Lemma reads_it e t : arithmetic e -> reads (print false e) t -> t = meant e.
Proof. intros A R. apply (C59_arithmetic _ _ A), R. Qed.
(** [2f / 3f + 1f] stored in a Single: the quotient is not rounded to a Single, the sum differs in the last bit. *)
Theorem C109_chain_refuted t : let env := three two4 three4 one4 in let e := FBin Add tR4 (FBin Div tR4 (FLoc 0) (FLoc 1)) (FLoc 2) in
  reads (print false (ferase e)) t -> exists v, cpp_fvalue G4 env t = Ret v /\ cpp_convert tR4 v = Ret 1070945621 /\ fl_value G4 env e = Ret 1070945622.
Proof. intros env e R. apply (reads_it _ _ (ferase_arithmetic e)) in R. subst t. eexists. split; [vm_compute; reflexivity | ]. split; vm_compute; reflexivity. Qed.
(** [c = 1f / 3f; if (1f / 3f == c)]: false in C++. *)
Theorem C109_comparison_refuted t : let env := three one4 three4 third4 in let l := FBin Div tR4 (FLoc 0) (FLoc 1) in
  reads (print false (Comp Equality (ferase l) (LdLoc 2))) t -> fl_value G4 env l = Ret (env 2) /\ cpp_fvalue G4 env t = Ret (tI4, 0).
Proof. intros env l R. apply (reads_it (Comp Equality (ferase l) (LdLoc 2)) t (conj (ferase_arithmetic l) I)) in R. subst t. split; vm_compute; reflexivity. Qed.
(** [(double)(1f / 3f)] *)
Theorem C109_widening_refuted t : let env := three one4 three4 0 in let e := FConv tR8 (FBin Div tR4 (FLoc 0) (FLoc 1)) in
  reads (print false (ferase e)) t -> fl_value G4 env e = Ret 4599676419600023552 /\ cpp_fvalue G4 env t = Ret (tR8, 4599676419421066581).
Proof. intros env e R. apply (reads_it _ _ (ferase_arithmetic e)) in R. subst t. split; vm_compute; reflexivity. Qed.
(** [(int)(30691274f / 6138255f)]: 5 in .NET, 4 in C++. *)
Theorem C109_to_integer_refuted t : let env := three 1273636837 1253790494 0 in let e := FBin Div tR4 (FLoc 0) (FLoc 1) in
  reads (print false (ConvTo (Some tI4) (ferase e))) t -> (exists z, fl_value G4 env e = Ret z /\ value single_fmt z = 5 * one_of single_fmt) /\ cpp_fvalue G4 env t = Ret (tI4, 4).
Proof. intros env e R. apply (reads_it (ConvTo (Some tI4) (ferase e)) t (ferase_arithmetic e)) in R. subst t. split; [exists 1084227584; split | ]; vm_compute; reflexivity. Qed.
End Refuted.
(** Any negative Double over zero: minus infinity in .NET, infinity in C++; over minus zero the other way round. *)
Theorem C109_zero_refuted Gamma env a b t : Gamma a = tR8 -> Gamma b = tR8 -> nan double_fmt (env a) = false -> is_zero double_fmt (env a) = false -> is_zero double_fmt (env b) = true ->
  negative double_fmt (env a) <> negative double_fmt (env b) -> reads (print false (ferase (FBin Div tR8 (FLoc a) (FLoc b)))) t ->
  fl_value Gamma env (FBin Div tR8 (FLoc a) (FLoc b)) = Ret (with_sign double_fmt true (exp_mask double_fmt)) /\ cpp_fvalue Gamma env t = Ret (tR8, with_sign double_fmt false (exp_mask double_fmt)).
Proof.
  intros Ga Gb Na Za Zb S1 R. apply (reads_it _ _ (ferase_arithmetic _)) in R. subst t.
  assert (Nb : nan dbl (env b) = false) by (destruct (nan dbl (env b)) eqn:E; [apply (nan_zero dbl _ double_good) in E; congruence | reflexivity]).
  assert (Ib : is_inf dbl (env b) = false) by (destruct (is_inf dbl (env b)) eqn:E; [apply (inf_zero dbl _ double_good) in E; congruence | reflexivity]).
  split.
  - cbn [fl_value bind fl_op fmt]. unfold fl_div. rewrite Na, Nb, Ib, Za, Zb. cbn [orb]. rewrite Bool.andb_false_r, Bool.orb_true_r. cbn [orb andb].
    f_equal. f_equal. destruct (negative dbl (env a)), (negative dbl (env b)); try congruence; reflexivity.
  - cbn [ferase float_stack meant is_floating]. rewrite f_divide, !f_double. cbn [cpp_fvalue bind]. rewrite Ga, Gb, !convert_float by reflexivity. cbn [bind fst snd resize]. unfold Math_Divide. rewrite !zero_eq, Za, Zb. reflexivity.
Qed.

(** ** A case that meets the hypotheses *)
(** [(double)i * x - (double)((float)(a / b) + a)]; variables 0: Int32 7, 1: Double 1.5, 2 and 3: Single 1 and 3 *)
Definition case_types (v : Z) : num_type := if v =? 0 then tI4 else if (v =? 2) || (v =? 3) then tR4 else tR8.
Definition case_values (v : Z) : Z := if v =? 0 then 7 else if v =? 1 then 4609434218613702656 else if v =? 2 then 1065353216 else if v =? 3 then 1077936128 else 4611686018427387904.
Definition case_exp : fexp := FBin Sub tR8 (FBin Mul tR8 (FOfInt tR8 false (ILdLoc 0)) (FLoc 1)) (FConv tR8 (FBin Add tR4 (FConv tR4 (FBin Div tR4 (FLoc 2) (FLoc 3))) (FLoc 2))).
Lemma Ret_inj {A} (a b : A) : Ret a = Ret b -> a = b.
Proof. congruence. Qed.
Example C109_case : well_typed case_types case_values /\ fitting case_types case_exp /\ defined case_types case_values case_exp /\
  fl_value case_types case_values case_exp = Ret 4621349992605417472 /\ cpp_fvalue case_types case_values (meant (ferase case_exp)) = Ret (tR8, 4621349992605417472).
Proof.
  split; [ | split; [ | split; [ | split; vm_compute; reflexivity]]].
  - intros v. unfold case_types, case_values. destruct (v =? 0); [reflexivity | ]. destruct (v =? 1) eqn:E1; [apply Z.eqb_eq in E1; subst v; split; [discriminate | reflexivity] | ].
    destruct (v =? 2); [split; [discriminate | reflexivity] | ]. destruct (v =? 3); split; first [discriminate | reflexivity].
  - cbn. repeat split; auto.
  - unfold case_exp. cbn [defined safe].
    split; [split; [exact I | split; [exact I | ]] | split; [split; [split; [exact I | split; [exact I | ]] | split; [exact I | ]] | ]]; intros Op; try discriminate Op.
    intros a b Ha Hb Z0. exfalso. assert (E : b = 1077936128) by (symmetry; apply Ret_inj, Hb). rewrite E in Z0. vm_compute in Z0. discriminate Z0.
Qed.

(** ** C110: DoubleValue::Modulus, the remainder the translator uses for Doubles and Singles *)
(** For all finite a and nonzero finite b: exactly the remainder of the truncated division, no rounding, with a's sign even if it is zero,
    and smaller than b; it fits in a Double. *)
Theorem C110_exact a b : finite double_fmt a -> finite double_fmt b -> value double_fmt b <> 0 ->
  pattern double_fmt (DoubleValue_Modulus a b) /\ finite double_fmt (DoubleValue_Modulus a b) /\ value double_fmt (DoubleValue_Modulus a b) = Z.rem (value double_fmt a) (value double_fmt b) /\
  negative double_fmt (DoubleValue_Modulus a b) = negative double_fmt a /\ Z.abs (value double_fmt (DoubleValue_Modulus a b)) < Z.abs (value double_fmt b).
Proof.
  intros Fa Fb Z0. assert (Zb : is_zero dbl b = false).
  { destruct (is_zero dbl b) eqn:E; [ | reflexivity]. exfalso. apply Z0. unfold is_zero in E. apply Z.eqb_eq in E. unfold value. rewrite E, (mag_value_zero dbl double_good). destruct (negative dbl b); reflexivity. }
  destruct (fl_rem_exact dbl double_good a b Fa Fb Zb) as (m & M & _ & V & E). unfold DoubleValue_Modulus. change double_fmt with dbl. rewrite E.
  destruct (with_sign_fields dbl double_good (negative dbl a) m ltac:(lia)) as (W1 & W2 & W3 & W4). rewrite (value_with_sign dbl double_good) by lia. pose proof (zero_mag dbl double_good b Zb) as Pb. pose proof (mag_nonneg dbl double_good a) as Pa.
  split; [exact W1 | ]. split; [unfold finite; rewrite W3; lia | ]. rewrite V. unfold value. change (mag_value dbl (magnitude dbl a)) with (mag dbl a). change (mag_value dbl (magnitude dbl b)) with (mag dbl b).
  assert (Q : Z.rem (mag dbl a) (mag dbl b) = mag dbl a mod mag dbl b) by (apply Z.rem_mod_nonneg; lia). pose proof (Z.mod_pos_bound (mag dbl a) (mag dbl b) Pb) as R.
  split; [ | split; [exact W2 | ]].
  - destruct (negative dbl a), (negative dbl b); rewrite ?Z.rem_opp_r', ?Z.rem_opp_l', ?Q; reflexivity.
  - destruct (negative dbl a), (negative dbl b); lia.
Qed.
(** Not a number, infinity and zero. *)
Theorem C110_special a b : pattern double_fmt a ->
  (nan double_fmt a = true \/ nan double_fmt b = true \/ infinite double_fmt a \/ nan double_fmt b = false /\ value double_fmt b = 0 -> nan double_fmt (DoubleValue_Modulus a b) = true) /\
  (finite double_fmt a -> infinite double_fmt b -> DoubleValue_Modulus a b = a).
Proof.
  intros P. unfold DoubleValue_Modulus. change double_fmt with dbl. split.
  - intros H. unfold fl_rem. replace (nan dbl a || nan dbl b || is_inf dbl a || is_zero dbl b) with true; [reflexivity | ]. symmetry. destruct H as [H | [H | [H | (H1 & H)]]].
    + rewrite H. reflexivity.
    + rewrite H, Bool.orb_true_r. reflexivity.
    + replace (is_inf dbl a) with true by (unfold is_inf; symmetry; apply Z.eqb_eq; exact H). rewrite Bool.orb_true_r. reflexivity.
    + replace (is_zero dbl b) with true; [apply Bool.orb_true_r | ]. rewrite <- zero_eq. unfold feq. rewrite H1. change (nan dbl 0) with false. change (value dbl 0) with 0. rewrite H. reflexivity.
  - intros F Ib. destruct (finite_class dbl a F) as (Na & Ia). unfold fl_rem. assert (Eb : is_inf dbl b = true) by (unfold is_inf; apply Z.eqb_eq; exact Ib).
    assert (Nb : nan dbl b = false) by (unfold nan; unfold is_inf in Eb; lia). rewrite Na, Ia, Nb, Eb, (inf_zero dbl b double_good Eb). reflexivity.
Qed.
(** The remainder of Singles computed with Doubles is the exact remainder as a Single. *)
Theorem C110_single a b : pattern single_fmt a -> pattern single_fmt b -> finite single_fmt a -> finite single_fmt b -> value single_fmt b <> 0 ->
  let r := fl_convert double_fmt single_fmt (DoubleValue_Modulus (fl_convert single_fmt double_fmt a) (fl_convert single_fmt double_fmt b)) in
  value single_fmt r = Z.rem (value single_fmt a) (value single_fmt b) /\ negative single_fmt r = negative single_fmt a.
Proof.
  intros Pa Pb Fa Fb Z0 r. unfold r, DoubleValue_Modulus. change double_fmt with dbl. change single_fmt with sgl in *. rewrite narrow_rem by assumption.
  assert (Zb : is_zero sgl b = false).
  { destruct (is_zero sgl b) eqn:E; [ | reflexivity]. exfalso. apply Z0. unfold is_zero in E. apply Z.eqb_eq in E. unfold value. rewrite E, (mag_value_zero sgl single_good). destruct (negative sgl b); reflexivity. }
  destruct (fl_rem_exact sgl single_good a b Fa Fb Zb) as (m & M & _ & V & E). rewrite E. destruct (with_sign_fields sgl single_good (negative sgl a) m ltac:(lia)) as (W1 & W2 & W3 & W4). rewrite (value_with_sign sgl single_good) by lia. split; [ | exact W2].
  pose proof (zero_mag sgl single_good b Zb) as Qb. pose proof (mag_nonneg sgl single_good a) as Qa. rewrite V. unfold value. change (mag_value sgl (magnitude sgl a)) with (mag sgl a). change (mag_value sgl (magnitude sgl b)) with (mag sgl b).
  assert (Q : Z.rem (mag sgl a) (mag sgl b) = mag sgl a mod mag sgl b) by (apply Z.rem_mod_nonneg; lia).
  destruct (negative sgl a), (negative sgl b); rewrite ?Z.rem_opp_r', ?Z.rem_opp_l', ?Q; reflexivity.
Qed.
(** -7.5 % 2 = -1.5 *)
Example C110_case : DoubleValue_Modulus 13843502304583483392 4611686018427387904 = 13832806255468478464 /\ finite double_fmt 13843502304583483392 /\ value double_fmt 4611686018427387904 <> 0.
Proof. repeat split; vm_compute; try reflexivity. discriminate. Qed.
Print Assumptions C109_value_partial.
Print Assumptions C109_store_partial.
Print Assumptions C109_comparison_partial.
Print Assumptions C109_to_integer_partial.
Print Assumptions C110_exact.
Print Assumptions C110_single.
