(** * C76: integer expressions are worth the same before and after translation

    What an expression means: [meant] (ExprSpec, C59).  What instructions and C++ expressions are worth: ExprValueSpec. *)
From Verif Require Import Tac StatementModel ExprModel ExprSpec ExprProofs ExprProperties MathModel ExprValueSpec ExprValueProofs.
Import ListNotations.
Local Open Scope Z_scope.

Lemma erase_arithmetic x : arithmetic (erase x).
Proof. induction x; cbn [erase arithmetic]; auto. Qed.
(** For every expression whose operations are done in C++ types of the right width and sign ([typed]) and which does not overflow a
    signed or checked operation, divide with remainder by zero or shift too far ([safe]): whatever the C++ compiler reads has the value
    of the instructions, up to the width of the evaluation stack, and throws the same exception.
    Missing: signed overflow, checked overflow, remainder by zero, mixed signs and widths (refuted below). *)
Theorem C76_value_partial Gamma env x t : (forall v, is_int (Gamma v) -> in_range (Gamma v) (env v) = true) -> typed Gamma x -> safe Gamma env x -> reads (print false (erase x)) t ->
  match il_value Gamma env x with
  | Ret z => exists v, cpp_value Gamma env t = Ret (ctype Gamma x, v) /\ stands_for (width Gamma x) (ctype Gamma x) v z
  | Exn e => cpp_value Gamma env t = Exn e
  | UB _ => False
  end.
Proof. intros Env T S R. apply (C59_arithmetic _ _ (erase_arithmetic x)) in R. subst t. exact (value_agree Gamma env x Env T S). Qed.
(** A variable of an integer type no wider than the stack value gets the same number. *)
Theorem C76_store_partial Gamma env x t u z : (forall v, is_int (Gamma v) -> in_range (Gamma v) (env v) = true) -> typed Gamma x -> safe Gamma env x -> reads (print false (erase x)) t ->
  is_int u -> bits u <= width Gamma x -> il_value Gamma env x = Ret z -> exists v, cpp_value Gamma env t = Ret v /\ convert u (snd v) = convert u z.
Proof.
  intros Env T S R U B E. pose proof (C76_value_partial Gamma env x t Env T S R) as H. rewrite E in H. destruct H as (v & V & St). eexists. split; [exact V|]. cbn [snd]. apply convert_eq.
  pose proof (bits_pos u U). pose proof (width_cases Gamma x T). apply (mod_smaller _ (width Gamma x)); [lia|]. eapply stands_mod; [lia|exact St].
Qed.
(** A condition is true in C++ exactly if it is in the CIL. *)
Theorem C76_test_partial Gamma env x t z : (forall v, is_int (Gamma v) -> in_range (Gamma v) (env v) = true) -> typed Gamma x -> safe Gamma env x -> reads (print false (erase x)) t ->
  il_value Gamma env x = Ret z -> exists v, cpp_value Gamma env t = Ret v /\ (snd v = 0 <-> z = 0).
Proof.
  intros Env T S R E. pose proof (C76_value_partial Gamma env x t Env T S R) as H. rewrite E in H. destruct H as (v & V & St). eexists. split; [exact V|]. cbn [snd].
  pose proof (width_cases Gamma x T) as W. pose proof (ctype_int Gamma x T) as It. assert (Wp : 0 < width Gamma x) by lia. pose proof (stands_range _ _ _ _ Wp St) as Rz. split.
  - intros ->. destruct St as (_ & <- & _). apply cs_id; [exact Wp|]. apply in_signed_iff. destruct (pow_half _ Wp). lia.
  - intros ->. destruct (exact (width Gamma x) (ctype Gamma x)) eqn:X; [exact (stands_exact _ _ _ _ It Wp St X)|]. unfold exact in X. apply orb_false_iff in X. destruct X as [Sg B].
    destruct (Z.eq_dec (bits (ctype Gamma x)) (width Gamma x)) as [Bw|Bw]; [|apply St; lia]. pose proof (stands_mod _ _ _ _ Wp St) as M. destruct St as (Rv & _). unfold in_range in Rv. rewrite Sg, Bw in Rv. apply in_unsigned_iff in Rv. rewrite Z.mod_small in M by lia. rewrite M. apply Zmod_0_l.
Qed.

(** ** Expressions the translation gives another value *)
Section Refuted.
Variables (Gamma : Z -> num_type) (env : Z -> Z) (a b : Z).
(** every unchecked addition of two Int32 locals that wraps around in .NET has no defined value in C++ *)
Theorem C76_wraparound_refuted : Gamma a = tI4 -> Gamma b = tI4 -> in_range tI4 (env a) = true -> in_range tI4 (env b) = true -> in_range tI4 (env a + env b) = false ->
  let x := IBin Add 32 true false (ILdLoc a) (ILdLoc b) in
  il_value Gamma env x = Ret (cast_s 32 (env a + env b)) /\ forall t, reads (print false (erase x)) t -> cpp_value Gamma env t = UB SignedOverflow.
Proof.
  intros Ga Gb Ra Rb O x. split.
  - cbn. rewrite Ga, Gb. unfold width_of. cbn [bits Z.eqb Pos.eqb bind]. rewrite (cs_id 32 (env a)), (cs_id 32 (env b)); [reflexivity|lia|exact Rb|lia|exact Ra].
  - intros t R. apply (C59_arithmetic _ _ (erase_arithmetic x)) in R. subst t. cbn [x erase meant cpp_value bind]. rewrite Ga, Gb. unfold cpp_op_value. cbn [operatorSymbols]. cbv zeta. cbn [fst snd]. change (common tI4 tI4) with tI4. rewrite !convert_id by (exact I || assumption). unfold cpp_result. cbn [is_signed]. rewrite O. reflexivity.
Qed.
(** every checked one as well, instead of throwing *)
Theorem C76_checked_refuted : Gamma a = tI4 -> Gamma b = tI4 -> in_range tI4 (env a) = true -> in_range tI4 (env b) = true -> in_range tI4 (env a + env b) = false ->
  let x := IBin Add 32 true true (ILdLoc a) (ILdLoc b) in
  il_value Gamma env x = Exn OverflowException /\ forall t, reads (print false (erase x)) t -> cpp_value Gamma env t = UB SignedOverflow.
Proof.
  intros Ga Gb Ra Rb O x. split.
  - cbn [x il_value bind]. rewrite Ga, Gb. unfold width_of. cbn [bits Z.eqb Pos.eqb]. rewrite !cs_id; [|lia|exact Rb|lia|exact Ra]. unfold il_op, arithmetic_result. change (in_signed 32 (env a + env b)) with (in_range tI4 (env a + env b)). rewrite O. reflexivity.
  - apply C76_wraparound_refuted; assumption.
Qed.
(** checked unsigned addition wraps around instead of throwing *)
Theorem C76_checked_unsigned_refuted : Gamma a = tU4 -> Gamma b = tU4 -> in_range tU4 (env a) = true -> in_range tU4 (env b) = true -> in_range tU4 (env a + env b) = false ->
  let x := IBin Add 32 false true (ILdLoc a) (ILdLoc b) in
  il_value Gamma env x = Exn OverflowException /\ forall t, reads (print false (erase x)) t -> cpp_value Gamma env t = Ret (tU4, cast_u 32 (env a + env b)).
Proof.
  intros Ga Gb Ra Rb O x. split.
  - cbn [x il_value bind]. rewrite Ga, Gb. unfold width_of. cbn [bits Z.eqb Pos.eqb]. unfold il_op, arithmetic_result.
    assert (E : forall v, in_range tU4 v = true -> cast_u 32 (cast_s 32 v) = v) by (intros v R; unfold cast_u; rewrite cs_mod by lia; exact (cu_id 32 v R)). rewrite !E by assumption. change (in_unsigned 32 (env a + env b)) with (in_range tU4 (env a + env b)). rewrite O. reflexivity.
  - intros t R. apply (C59_arithmetic _ _ (erase_arithmetic x)) in R. subst t. cbn [x erase meant cpp_value bind]. rewrite Ga, Gb. unfold cpp_op_value. cbn [operatorSymbols]. cbv zeta. cbn [fst snd]. change (common tU4 tU4) with tU4. rewrite !convert_id by (exact I || assumption). reflexivity.
Qed.
(** the bounds check (uint)i < (uint)n is printed as i < n: every negative index passes it *)
Theorem C76_unsigned_compare_refuted : Gamma a = tI4 -> Gamma b = tI4 -> in_range tI4 (env a) = true -> in_range tI4 (env b) = true -> env a < 0 <= env b ->
  let x := IComp LessThan false (ILdLoc a) (ILdLoc b) in
  il_value Gamma env x = Ret 0 /\ forall t, reads (print false (erase x)) t -> cpp_value Gamma env t = Ret (tI4, 1).
Proof.
  intros Ga Gb Ra Rb H x. pose proof (proj1 (in_i32_iff _) Ra). pose proof (proj1 (in_i32_iff _) Rb). split.
  - cbn [x il_value width bind]. rewrite Ga, Gb. unfold width_of. cbn [bits Z.eqb Pos.eqb]. rewrite !cs_id; [|lia|exact Rb|lia|exact Ra]. unfold compare.
    assert (Ea : cast_u 32 (env a) = env a + 4294967296) by (unfold cast_u; symmetry; apply (Z.mod_unique_pos _ _ (-1)); lia). assert (Eb : cast_u 32 (env b) = env b) by (unfold cast_u; apply Z.mod_small; lia). rewrite Ea, Eb. replace (env a + 4294967296 <? env b) with false by lia. reflexivity.
  - intros t R. apply (C59_arithmetic _ _ (erase_arithmetic x)) in R. subst t. cbn [x erase meant cpp_value bind]. rewrite Ga, Gb. change (Ret (tI4, compare LessThan (convert tI4 (env a)) (convert tI4 (env b))) = Ret (tI4, 1)). rewrite !convert_id by (exact I || assumption). unfold compare. replace (env a <? env b) with true by lia. reflexivity.
Qed.
(** unsigned right shift of an Int32 (>>>) keeps the sign *)
Theorem C76_unsigned_shift_refuted : Gamma a = tI4 -> in_range tI4 (env a) = true -> env a < 0 ->
  let x := IBin Shr 32 false false (ILdLoc a) (ILdcI4 1) in
  exists z, il_value Gamma env x = Ret z /\ 0 <= z /\ forall t, reads (print false (erase x)) t -> exists v, cpp_value Gamma env t = Ret (tI4, v) /\ v < 0.
Proof.
  intros Ga Ra H x. pose proof (proj1 (in_i32_iff _) Ra). eexists. split; [|split].
  - cbn [x il_value width bind]. rewrite Ga. unfold width_of. cbn [bits Z.eqb Pos.eqb]. rewrite !cs_id; [reflexivity|lia|exact Ra].
  - cbn. assert (Ea : cast_u 32 (env a) = env a + 4294967296) by (unfold cast_u; symmetry; apply (Z.mod_unique_pos _ _ (-1)); lia). rewrite Ea. change (Z.pow_pos 2 1) with 2. pose proof (Z.div_mod (env a + 4294967296) 2). pose proof (Z.mod_pos_bound (env a + 4294967296) 2). rewrite cs_id; [lia|lia|]. apply in_signed_iff. change (2 ^ (32 - 1)) with 2147483648. lia.
  - intros t R. apply (C59_arithmetic _ _ (erase_arithmetic x)) in R. subst t. cbn [x erase meant cpp_value bind]. rewrite Ga. eexists. split; [reflexivity|]. cbn [snd fst]. change (2 ^ 1) with 2. pose proof (Z.div_mod (env a) 2). pose proof (Z.mod_pos_bound (env a) 2). lia.
Qed.
(** Int32 to UInt64 with zero extension, (ulong)(uint)i, is printed as a sign extension *)
Theorem C76_zero_extend_refuted : Gamma a = tI4 -> in_range tI4 (env a) = true -> env a < 0 ->
  let x := IConv tU8 true (ILdLoc a) in
  il_value Gamma env x = Ret (env a + 4294967296) /\ forall t, reads (print false (erase x)) t -> cpp_value Gamma env t = Ret (tU8, env a + 18446744073709551616).
Proof.
  intros Ga Ra H x. pose proof (proj1 (in_i32_iff _) Ra). split.
  - cbn [x il_value width bind]. rewrite Ga. unfold width_of. cbn [bits Z.eqb Pos.eqb]. rewrite (cs_id 32 (env a)); [|lia|exact Ra].
    assert (Ea : cast_u 32 (env a) = env a + 4294967296) by (unfold cast_u; symmetry; apply (Z.mod_unique_pos _ _ (-1)); lia). rewrite Ea. f_equal. unfold convert. cbn [is_signed bits]. rewrite (cu_id 64) by (apply in_unsigned_iff; change (2 ^ 64) with 18446744073709551616; lia). apply cs_id; [lia|]. apply in_signed_iff. change (2 ^ (64 - 1)) with 9223372036854775808. lia.
  - intros t R. apply (C59_arithmetic _ _ (erase_arithmetic x)) in R. subst t. cbn [x erase meant cpp_value bind as_num_type]. cbn [snd]. f_equal. f_equal. unfold convert. cbn [is_signed bits]. unfold cast_u. symmetry. apply (Z.mod_unique_pos _ _ (-1)); change (2 ^ 64) with 18446744073709551616; lia.
Qed.
(** remainder by zero is undefined instead of a DivideByZeroException *)
Theorem C76_remainder_refuted : Gamma a = tI4 -> Gamma b = tI4 -> env b = 0 ->
  let x := IBin Rem 32 true false (ILdLoc a) (ILdLoc b) in
  il_value Gamma env x = Exn DivideByZeroException /\ forall t, reads (print false (erase x)) t -> cpp_value Gamma env t = UB DivisionByZero.
Proof.
  intros Ga Gb Z0 x. split.
  - cbn [x il_value bind]. rewrite Ga, Gb, Z0. reflexivity.
  - intros t R. apply (C59_arithmetic _ _ (erase_arithmetic x)) in R. subst t. change (cpp_value Gamma env (CBin ORem (CId (Local a)) (CId (Local b))) = UB DivisionByZero). cbn [cpp_value bind]. rewrite Ga, Gb, Z0. reflexivity.
Qed.
(** UInt64 division goes through Math::Divide(Int64): every dividend from 2^63 on divided by 2 becomes a negative number *)
Theorem C76_unsigned_division_refuted : Gamma a = tU8 -> 9223372036854775808 <= env a < 18446744073709551616 ->
  let x := IBin Div 64 false false (ILdLoc a) (ILdcI8 2) in
  il_value Gamma env x = Ret (env a / 2) /\ forall t, reads (print false (erase x)) t -> cpp_value Gamma env t = Ret (tI8, Z.quot (env a - 18446744073709551616) 2).
Proof.
  intros Ga H x. assert (Cs : cast_s 64 (env a) = env a - 18446744073709551616). { unfold cast_s. change (2 ^ (64 - 1)) with 9223372036854775808. change (2 ^ 64) with 18446744073709551616. replace ((env a + 9223372036854775808) mod 18446744073709551616) with (env a - 9223372036854775808) by (apply (Z.mod_unique_pos _ _ 1); lia). lia. }
  pose proof (Z.div_mod (env a) 2). pose proof (Z.mod_pos_bound (env a) 2). split.
  - cbn [x il_value bind]. rewrite Ga. unfold width_of. cbn [bits Z.eqb Pos.eqb]. unfold il_op. cbn [Z.eqb]. change (cast_u 64 2) with 2. unfold cast_u at 1. rewrite cs_mod by lia. rewrite Z.mod_small by (change (2 ^ 64) with 18446744073709551616; lia). f_equal. apply cs_id; [lia|]. apply in_signed_iff. change (2 ^ (64 - 1)) with 9223372036854775808. lia.
  - intros t R. apply (C59_arithmetic _ _ (erase_arithmetic x)) in R. subst t. change ((q <- Divide_Int64 (convert tI8 (convert tI8 (env a))) 2 ;; Ret (tI8, q)) = Ret (tI8, Z.quot (env a - 18446744073709551616) 2)). change (convert tI8 (env a)) with (cast_s 64 (env a)). rewrite Cs.
    assert (R64 : in_range tI8 (env a - 18446744073709551616) = true) by (apply in_i64_iff; lia). rewrite convert_id by (exact I || exact R64). unfold Divide_Int64, throw_if. cbn [Z.eqb bind]. unfold i64, in_i64.
    pose proof (Z.quot_rem' (env a - 18446744073709551616) 2). pose proof (Z.rem_bound_abs (env a - 18446744073709551616) 2). replace (in_signed 64 (Z.quot (env a - 18446744073709551616) 2)) with true; [reflexivity|]. symmetry. apply in_signed_iff. change (2 ^ (64 - 1)) with 9223372036854775808. lia.
Qed.
(** a 64-bit constant that fits an int shifted by 32 or more is undefined: 1L << 40 *)
Theorem C76_long_constant_refuted n k : in_range tI4 n = true -> constantConversions n = None -> constantConversions k = None -> 0 <= n -> 32 <= k < 64 ->
  let x := IBin Shl 64 true false (ILdcI8 n) (ILdcI4 k) in
  il_value Gamma env x = Ret (cast_s 64 (n * 2 ^ k)) /\ forall t, reads (print false (erase x)) t -> cpp_value Gamma env t = UB InvalidShift.
Proof.
  intros Rn Cn Ck N K x. split.
  - cbn [x il_value bind]. unfold il_op. replace ((0 <=? k) && (k <? 64)) with true by lia. reflexivity.
  - intros t R. apply (C59_arithmetic _ _ (erase_arithmetic x)) in R. subst t. cbn [x erase meant]. unfold constant. rewrite Cn, Ck. replace (n <? 0) with false by lia. replace (k <? 0) with false by lia. change (stack_of 64) with StackI8. change (cpp_value Gamma env (CBin OShl (CNum n) (CNum k)) = UB InvalidShift). cbn [cpp_value]. rewrite Rn. replace (in_range tI4 k) with true by (symmetry; apply in_i32_iff; lia). cbn [bind fst snd]. unfold cpp_op_value. cbn [fst snd]. change (bits (promote tI4)) with 32. replace ((0 <=? k) && (k <? 32)) with false by lia. reflexivity.
Qed.
End Refuted.
(** ** A concrete case: h * 31 + (c ^ 5) with h, c : UInt32 and Char-like UInt16, stored into UInt32; and Math::Divide((Int64)i, (Int64)n) + i with n = 0 *)
Definition ex_types (v : Z) : num_type := if v =? 1 then tU4 else if v =? 2 then tU2 else tI4.
Definition ex_env (v : Z) : Z := if v =? 1 then 4000000000 else if v =? 2 then 65 else if v =? 3 then -7 else 0.
Example C76_example :
  let h := IBin Add 32 false false (IBin Mul 32 false false (ILdLoc 1) (ILdcI4 31)) (IBin BitXor 32 false false (ILdLoc 2) (ILdcI4 5)) in
  let q := IBin Add 32 true false (IBin Div 32 true false (ILdLoc 3) (ILdLoc 4)) (ILdLoc 3) in
  (forall v, is_int (ex_types v) -> in_range (ex_types v) (ex_env v) = true) /\ typed ex_types h /\ safe ex_types ex_env h /\ typed ex_types q /\ safe ex_types ex_env q /\
  cpp_value ex_types ex_env (meant (erase h)) = Ret (tU4, 3740915780) /\ il_value ex_types ex_env h = Ret (-554051516) /\ il_value ex_types ex_env q = Exn DivideByZeroException.
Proof.
  cbv zeta. split; [|split; [|split; [|split; [|split]]]].
  - intros v _. unfold ex_types, ex_env. destruct (v =? 1); [reflexivity|]. destruct (v =? 2); [reflexivity|]. destruct (v =? 3); reflexivity.
  - repeat split; auto.
  - repeat split; intros; try discriminate.
  - repeat split; auto.
  - split; [|split; [exact I|intros u v H; discriminate H]]. split; [exact I|]. split; [exact I|]. intros u v Hu Hv. assert (v = 0) by (injection Hv as <-; reflexivity). subst v. intros N. exfalso. apply N. reflexivity.
  - repeat split.
Qed.
Print Assumptions C76_value_partial.
Print Assumptions C76_store_partial.
Print Assumptions C76_test_partial.
Print Assumptions C76_unsigned_compare_refuted.
