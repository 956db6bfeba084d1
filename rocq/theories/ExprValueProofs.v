(** * Proofs for C76 *)
From Verif Require Import Tac StatementModel ExprModel ExprSpec ExprProofs MathModel ExprValueSpec.
Import ListNotations.
Local Open Scope Z_scope.

(** ** Conversions *)
Lemma pow_half w : 0 < w -> 2 ^ w = 2 * 2 ^ (w - 1) /\ 0 < 2 ^ (w - 1).
Proof. intros H. split; [|apply Z.pow_pos_nonneg; lia]. replace w with (Z.succ (w - 1)) at 1 by lia. apply Z.pow_succ_r. lia. Qed.
Lemma in_signed_iff w v : in_signed w v = true <-> - 2 ^ (w - 1) <= v < 2 ^ (w - 1).
Proof. unfold in_signed. lia. Qed.
Lemma in_unsigned_iff w v : in_unsigned w v = true <-> 0 <= v < 2 ^ w.
Proof. unfold in_unsigned. lia. Qed.
Lemma cs_range w v : 0 < w -> in_signed w (cast_s w v) = true.
Proof. intros W. destruct (pow_half w W). apply in_signed_iff. unfold cast_s. pose proof (Z.mod_pos_bound (v + 2 ^ (w - 1)) (2 ^ w)). lia. Qed.
Lemma cs_id w v : 0 < w -> in_signed w v = true -> cast_s w v = v.
Proof. intros W H. destruct (pow_half w W). apply in_signed_iff in H. unfold cast_s. rewrite Z.mod_small by lia. lia. Qed.
Lemma cs_mod w v : 0 < w -> cast_s w v mod 2 ^ w = v mod 2 ^ w.
Proof. intros W. destruct (pow_half w W). unfold cast_s. rewrite Zminus_mod_idemp_l. f_equal. lia. Qed.
Lemma cs_eq w u v : u mod 2 ^ w = v mod 2 ^ w -> cast_s w u = cast_s w v.
Proof. intros H. unfold cast_s. rewrite <- (Zplus_mod_idemp_l u), <- (Zplus_mod_idemp_l v), H. reflexivity. Qed.
Lemma cu_range w v : 0 < w -> in_unsigned w (cast_u w v) = true.
Proof. intros W. apply in_unsigned_iff. unfold cast_u. apply Z.mod_pos_bound. apply Z.pow_pos_nonneg; lia. Qed.
Lemma cu_id w v : in_unsigned w v = true -> cast_u w v = v.
Proof. intros H. apply in_unsigned_iff in H. apply Z.mod_small, H. Qed.
Lemma cu_mod w v : 0 < w -> cast_u w v mod 2 ^ w = v mod 2 ^ w.
Proof. intros W. unfold cast_u. apply Z.mod_mod. apply Z.pow_nonzero; lia. Qed.
Lemma mod_smaller a b u v : 0 <= a <= b -> u mod 2 ^ b = v mod 2 ^ b -> u mod 2 ^ a = v mod 2 ^ a.
Proof.
  intros H E. assert (D : forall x, x mod 2 ^ a = (x mod 2 ^ b) mod 2 ^ a).
  { intros x. replace b with (a + (b - a)) by lia. rewrite Z.pow_add_r by lia. rewrite Z.rem_mul_r by (try apply Z.pow_nonzero; try (apply Z.pow_pos_nonneg); lia). rewrite (Z.mul_comm (2 ^ a)), Z.mod_add by (apply Z.pow_nonzero; lia). rewrite Z.mod_mod by (apply Z.pow_nonzero; lia). reflexivity. }
  rewrite (D u), (D v), E. reflexivity.
Qed.
Lemma bits_pos t : is_int t -> 8 <= bits t <= 64.
Proof. destruct t; cbn; intros []; lia. Qed.
Lemma convert_eq t u v : u mod 2 ^ bits t = v mod 2 ^ bits t -> convert t u = convert t v.
Proof. intros H. unfold convert. destruct (is_signed t); [apply cs_eq, H|exact H]. Qed.
Lemma convert_range t v : is_int t -> in_range t (convert t v) = true.
Proof. intros H. pose proof (bits_pos t H). unfold in_range, convert. destruct (is_signed t); [apply cs_range|apply cu_range]; lia. Qed.
Lemma convert_id t v : is_int t -> in_range t v = true -> convert t v = v.
Proof. intros H. pose proof (bits_pos t H). unfold in_range, convert. destruct (is_signed t); intros R; [apply cs_id; [lia|exact R]|apply cu_id, R]. Qed.
Lemma convert_mod t v : is_int t -> convert t v mod 2 ^ bits t = v mod 2 ^ bits t.
Proof. intros H. pose proof (bits_pos t H). unfold convert. destruct (is_signed t); [apply cs_mod|apply cu_mod]; lia. Qed.
Lemma pow_le a b : a <= b -> 2 ^ a <= 2 ^ b.
Proof. intros H. apply Z.pow_le_mono_r; lia. Qed.
Lemma signed_wider a b v : a <= b -> in_signed a v = true -> in_signed b v = true.
Proof. intros H. rewrite !in_signed_iff. pose proof (pow_le (a - 1) (b - 1)). lia. Qed.
(** ** What [stands_for] gives *)
Lemma stands_mod w t v z : 0 < w -> stands_for w t v z -> v mod 2 ^ w = z mod 2 ^ w.
Proof. intros W (_ & E & _). rewrite <- E. symmetry. apply cs_mod, W. Qed.
Lemma stands_range w t v z : 0 < w -> stands_for w t v z -> in_signed w z = true.
Proof. intros W (_ & <- & _). apply cs_range, W. Qed.
Lemma stands_exact w t v z : is_int t -> 0 < w -> stands_for w t v z -> exact w t = true -> v = z.
Proof.
  intros It W (R & E & X) H. destruct (Z.lt_ge_cases w (bits t)) as [L|L]; [exact (X L)|]. rewrite <- E. symmetry. apply cs_id; [exact W|]. unfold exact in H. unfold in_range in R. pose proof (bits_pos t It).
  destruct (is_signed t); [exact (signed_wider _ _ _ L R)|]. cbn [orb] in H. apply in_unsigned_iff in R. apply in_signed_iff. pose proof (pow_le (bits t) (w - 1)). pose proof (Z.pow_pos_nonneg 2 (w - 1)). lia.
Qed.
Lemma int_promote t : is_int t -> is_int (promote t).
Proof. destruct t; cbn; tauto. Qed.
Lemma int_common a b : is_int a -> is_int b -> is_int (common a b).
Proof. destruct a, b; cbn; tauto. Qed.
Lemma promote_range t v : is_int t -> in_range t v = true -> in_range (promote t) v = true.
Proof. destruct t; cbn; intros []; unfold in_range, in_signed, in_unsigned; cbn; lia. Qed.
(** a signed common type holds both operands *)
Lemma common_holds a b : is_int a -> is_int b -> is_signed (common a b) = true -> (forall v, in_range a v = true -> in_range (common a b) v = true) /\ (forall v, in_range b v = true -> in_range (common a b) v = true).
Proof. destruct a, b; cbn; intros [] [] S; try discriminate; split; intros v; unfold in_range, in_signed, in_unsigned; cbn; lia. Qed.
Lemma common_bits a b : is_int a -> is_int b -> 32 <= bits (common a b) /\ bits (promote a) <= bits (common a b) /\ bits (promote b) <= bits (common a b).
Proof. destruct a, b; cbn; intros [] []; lia. Qed.
(** ** Bitwise operations *)
Lemma signed_shift w z : 0 < w -> (in_signed w z = true <-> Z.shiftr z (w - 1) = 0 \/ Z.shiftr z (w - 1) = -1).
Proof.
  intros W. rewrite in_signed_iff, Z.shiftr_div_pow2 by lia. destruct (pow_half w W) as [_ P]. set (m := 2 ^ (w - 1)) in *. clearbody m. split; intros H.
  - destruct (Z.lt_ge_cases z 0); [right; symmetry; apply (Z.div_unique z m (-1) (z + m)); lia|left; apply Z.div_small; lia].
  - pose proof (Z.div_mod z m). pose proof (Z.mod_pos_bound z m). destruct H as [H|H]; rewrite H in *; lia.
Qed.
Definition bitwise (f : Z -> Z -> Z) : Prop := f = Z.land \/ f = Z.lor \/ f = Z.lxor.
Lemma bitwise_signed f w a b : bitwise f -> 0 < w -> in_signed w a = true -> in_signed w b = true -> in_signed w (f a b) = true.
Proof.
  intros B W. rewrite !(signed_shift w _ W). destruct B as [->|[->| ->]]; rewrite ?Z.shiftr_land, ?Z.shiftr_lor, ?Z.shiftr_lxor; intros [->| ->] [->| ->]; cbn; auto.
Qed.
Lemma bitwise_mod f w a b : bitwise f -> 0 <= w -> f a b mod 2 ^ w = f (a mod 2 ^ w) (b mod 2 ^ w).
Proof.
  intros B W. rewrite <- !Z.land_ones by exact W. apply Z.bits_inj'. intros n Hn. destruct B as [->|[->| ->]]; rewrite ?Z.land_spec, ?Z.lor_spec, ?Z.lxor_spec, ?Z.land_spec;
    destruct (Z.testbit a n), (Z.testbit b n), (Z.testbit (Z.ones w) n); reflexivity.
Qed.
Lemma bitwise_unsigned f w a b : bitwise f -> 0 < w -> in_unsigned w a = true -> in_unsigned w b = true -> in_unsigned w (f a b) = true.
Proof.
  intros B W Ha Hb. rewrite <- (cu_id w a Ha), <- (cu_id w b Hb). unfold cast_u. rewrite <- bitwise_mod by (auto; lia). apply cu_range, W.
Qed.
(** ** Operators *)
Definition sim (w : Z) (t : num_type) (o : outcome Z) (c : outcome (num_type * Z)) : Prop :=
  match o with Ret z => exists v, c = Ret (t, v) /\ stands_for w t v z | Exn e => c = Exn e | UB _ => False end.
Definition modular (f : Z -> Z -> Z) : Prop := forall m x y, m <> 0 -> f (x mod m) (y mod m) mod m = f x y mod m.
Lemma modular_add : modular Z.add. Proof. intros m x y H. symmetry. apply Z.add_mod, H. Qed.
Lemma modular_mul : modular Z.mul. Proof. intros m x y H. symmetry. apply Z.mul_mod, H. Qed.
Lemma modular_sub : modular Z.sub. Proof. intros m x y H. rewrite Zminus_mod_idemp_l, Zminus_mod_idemp_r. reflexivity. Qed.
Section Operator.
Variables (w : Z) (t1 t2 : num_type) (v1 v2 z1 z2 : Z).
Hypothesis (W : w = 32 \/ w = 64) (I1 : is_int t1) (I2 : is_int t2) (S1 : stands_for w t1 v1 z1) (S2 : stands_for w t2 v2 z2).
Let tc := common t1 t2.
Let Wp : 0 < w. Proof. destruct W; lia. Qed.
Let Ic : is_int tc. Proof. apply int_common; assumption. Qed.
Lemma conv_same : bits tc = w -> is_signed tc = true -> convert tc v1 = z1 /\ convert tc v2 = z2.
Proof. intros B S. unfold convert. rewrite S, B. split; [apply S1|apply S2]. Qed.
Lemma conv_unsigned : bits tc = w -> is_signed tc = false -> convert tc v1 = cast_u w z1 /\ convert tc v2 = cast_u w z2.
Proof. intros B S. unfold convert. rewrite S, B. unfold cast_u. split; eapply stands_mod; eassumption. Qed.
Lemma conv_exact : is_signed tc = true -> exact w t1 = true -> exact w t2 = true -> convert tc v1 = z1 /\ convert tc v2 = z2.
Proof.
  intros S E1 E2. destruct (common_holds t1 t2 I1 I2 S) as [H1 H2]. pose proof (stands_exact _ _ _ _ I1 Wp S1 E1). pose proof (stands_exact _ _ _ _ I2 Wp S2 E2). subst.
  split; (apply convert_id; [exact Ic|]); [apply H1, S1|apply H2, S2].
Qed.
(** the operands, in the common type *)
Lemma operands : arithmetic_types w t1 t2 = true ->
  (is_signed tc = true /\ w <= bits tc /\ convert tc v1 = z1 /\ convert tc v2 = z2) \/ (is_signed tc = false /\ bits tc = w /\ convert tc v1 = cast_u w z1 /\ convert tc v2 = cast_u w z2).
Proof.
  unfold arithmetic_types. fold tc. intros H. apply orb_true_iff in H. destruct H as [B|H].
  - apply Z.eqb_eq in B. destruct (is_signed tc) eqn:S; [left|right]; (split; [reflexivity|]).
    + destruct (conv_same B S). repeat split; auto; lia.
    + destruct (conv_unsigned B S). auto.
  - apply andb_true_iff in H. destruct H as [H E2]. apply andb_true_iff in H. destruct H as [H E1]. apply andb_true_iff in H. destruct H as [B S]. left. destruct (conv_exact S E1 E2). repeat split; auto; lia.
Qed.
Lemma stands_signed v : is_signed tc = true -> w <= bits tc -> in_signed w v = true -> in_range tc v = true /\ stands_for w tc v v.
Proof.
  intros S B R. assert (X : in_range tc v = true) by (unfold in_range; rewrite S; eapply signed_wider; eassumption). split; [exact X|]. repeat split; [exact X|apply cs_id; assumption].
Qed.
Lemma stands_unsigned v z : is_signed tc = false -> bits tc = w -> in_unsigned w v = true -> cast_s w v = z -> stands_for w tc v z.
Proof. intros S B R E. repeat split; [unfold in_range; rewrite S, B; exact R|exact E|lia]. Qed.
Lemma arith_agree f signed checked : modular f -> arithmetic_types w t1 t2 = true ->
  (is_signed tc = true -> in_signed w (f z1 z2) = true) -> (checked = true -> if (signed : bool) then in_signed w (f z1 z2) = true else in_unsigned w (f (cast_u w z1) (cast_u w z2)) = true) ->
  sim w tc (arithmetic_result w signed checked f z1 z2) (cpp_result tc (f (convert tc v1) (convert tc v2))).
Proof.
  intros M A Hs Hc. assert (N : 2 ^ w <> 0) by (apply Z.pow_nonzero; lia).
  assert (V : arithmetic_result w signed checked f z1 z2 = Ret (cast_s w (f z1 z2))).
  { unfold arithmetic_result. destruct checked; [|reflexivity]. specialize (Hc eq_refl). destruct signed; rewrite Hc; f_equal; [symmetry; apply cs_id; assumption|]. apply cs_eq. unfold cast_u. apply M, N. }
  rewrite V. cbn [sim]. unfold cpp_result. destruct (operands A) as [(S & B & -> & ->)|(S & B & -> & ->)]; rewrite S.
  - destruct (stands_signed (f z1 z2) S B (Hs S)) as [R St]. rewrite R. eexists. split; [reflexivity|]. rewrite cs_id by auto. exact St.
  - eexists. split; [reflexivity|]. rewrite B. apply stands_unsigned; auto; [apply cu_range, Wp|]. apply cs_eq. rewrite cu_mod by exact Wp. unfold cast_u. apply M, N.
Qed.
Lemma bitwise_agree f : bitwise f -> arithmetic_types w t1 t2 = true -> sim w tc (Ret (f z1 z2)) (Ret (tc, f (convert tc v1) (convert tc v2))).
Proof.
  intros Bw A. assert (R : in_signed w (f z1 z2) = true) by (apply bitwise_signed; auto; eapply stands_range; eassumption). eexists. split; [reflexivity|]. destruct (operands A) as [(S & B & -> & ->)|(S & B & -> & ->)].
  - apply stands_signed; assumption.
  - apply stands_unsigned; auto; [apply bitwise_unsigned; auto; apply cu_range, Wp|]. rewrite <- (cs_id w (f z1 z2)) by assumption. apply cs_eq. unfold cast_u. rewrite <- bitwise_mod by (auto; lia). apply Z.mod_mod. apply Z.pow_nonzero; lia.
Qed.
Lemma cast_u_zero : z2 <> 0 -> cast_u w z2 <> 0.
Proof.
  intros N E. apply N. rewrite <- (cs_id w z2) by (auto; eapply stands_range; eassumption). rewrite <- (cs_id w 0); [|exact Wp|apply in_signed_iff; destruct (pow_half w Wp); lia]. apply cs_eq. rewrite Zmod_0_l. exact E.
Qed.
Lemma rem_agree signed : arithmetic_types w t1 t2 = true -> signed_types w signed t1 t2 = true -> z2 <> 0 -> (signed = true -> in_signed w (Z.quot z1 z2) = true) ->
  sim w tc (il_op Rem w signed false z1 z2) (cpp_op_value ORem (t1, v1) (t2, v2)).
Proof.
  intros A T N Q. unfold il_op. replace (z2 =? 0) with false by lia. unfold cpp_op_value. cbn [fst snd]. cbv zeta. fold tc. unfold signed_types in T. fold tc in T.
  destruct (operands A) as [(S & B & -> & ->)|(S & B & -> & ->)]; rewrite S in T; destruct signed; cbn [negb andb] in T; try discriminate.
  - replace (z2 =? 0) with false by lia. specialize (Q eq_refl). rewrite Q. destruct (stands_signed _ S B Q) as [R _]. rewrite R. eexists. split; [reflexivity|]. apply stands_signed; auto.
    pose proof (stands_range _ _ _ _ Wp S1) as R1. apply in_signed_iff in R1. apply in_signed_iff. pose proof (Z.rem_bound_abs z1 z2 N). pose proof (Z.rem_sign_nz z1 z2). pose proof (Z.quot_rem' z1 z2).
    assert (X : Z.abs (Z.rem z1 z2) <= Z.abs z1) by (rewrite <- Z.rem_abs by exact N; apply Z.rem_le; lia). assert (Y : 0 <= Z.rem z1 z2 * z1) by apply Z.rem_sign_mul, N. destruct (pow_half w Wp). nia.
  - pose proof (cast_u_zero N) as N'. replace (cast_u w z2 =? 0) with false by lia. pose proof (cu_range w z1 Wp) as U1. pose proof (cu_range w z2 Wp) as U2. apply in_unsigned_iff in U1, U2.
    assert (R : in_range tc (Z.quot (cast_u w z1) (cast_u w z2)) = true). { unfold in_range. rewrite S, B. apply in_unsigned_iff. pose proof (Z.quot_pos (cast_u w z1) (cast_u w z2)). pose proof (Z.quot_le_upper_bound (cast_u w z1) (cast_u w z2) (cast_u w z1)). nia. }
    rewrite R. eexists. split; [reflexivity|]. rewrite Z.rem_mod_nonneg by lia. apply stands_unsigned; auto. apply in_unsigned_iff. pose proof (Z.mod_pos_bound (cast_u w z1) (cast_u w z2)). lia.
Qed.
Lemma div_agree checked : exact w t1 = true -> exact w t2 = true -> (z2 <> 0 -> in_signed w (Z.quot z1 z2) = true) ->
  sim w tI8 (il_op Div w true checked z1 z2) (q <- Divide_Int64 (convert tI8 (convert tI8 v1)) (convert tI8 (convert tI8 v2)) ;; Ret (tI8, q)).
Proof.
  intros E1 E2 Q. pose proof (stands_exact _ _ _ _ I1 Wp S1 E1). pose proof (stands_exact _ _ _ _ I2 Wp S2 E2). subst v1 v2.
  pose proof (stands_range _ _ _ _ Wp S1) as R1. pose proof (stands_range _ _ _ _ Wp S2) as R2. assert (L : w <= 64) by lia.
  assert (C : forall z, in_signed w z = true -> convert tI8 (convert tI8 z) = z) by (intros z Hz; rewrite !convert_id; [reflexivity|exact I| | exact I|]; try (rewrite convert_id; [|exact I|]); unfold in_range; cbn; eapply signed_wider; eassumption).
  rewrite !C by assumption. unfold il_op, Divide_Int64, throw_if. destruct (z2 =? 0) eqn:Z0; [reflexivity|]. cbn [bind]. specialize (Q ltac:(lia)). rewrite Q. cbn [sim]. exists (Z.quot z1 z2).
  assert (R64 : in_signed 64 (Z.quot z1 z2) = true) by (eapply signed_wider; eassumption). unfold i64, in_i64. rewrite R64. cbn [bind]. split; [reflexivity|]. repeat split; [exact R64|apply cs_id; assumption].
Qed.
Lemma compare_agree k signed : (match k with Equality | Inequality => true | _ => false end = true /\ (signed_types w true t1 t2 = true \/ signed_types w false t1 t2 = true) \/ signed_types w signed t1 t2 = true) ->
  (if signed then compare k z1 z2 else compare k (cast_u w z1) (cast_u w z2)) = compare k (convert tc v1) (convert tc v2).
Proof.
  intros T. assert (U : signed_types w true t1 t2 = true -> convert tc v1 = z1 /\ convert tc v2 = z2).
  { unfold signed_types. fold tc. intros H. apply andb_true_iff in H. destruct H as [H E2]. apply andb_true_iff in H. destruct H as [S E1]. apply conv_exact; assumption. }
  assert (V : signed_types w false t1 t2 = true -> convert tc v1 = cast_u w z1 /\ convert tc v2 = cast_u w z2).
  { unfold signed_types. fold tc. intros H. apply andb_true_iff in H. destruct H as [S B]. apply conv_unsigned; [lia|]. destruct (is_signed tc); [discriminate|reflexivity]. }
  assert (Q : (cast_u w z1 =? cast_u w z2) = (z1 =? z2)).
  { destruct (z1 =? z2) eqn:E; [assert (z1 = z2) by lia; subst; apply Z.eqb_refl|]. apply Z.eqb_neq. intros F. assert (z1 = z2); [|lia]. rewrite <- (cs_id w z1), <- (cs_id w z2) by (auto; eapply stands_range; eassumption). apply cs_eq. exact F. }
  destruct T as [[K T]|T].
  - assert (X : compare k z1 z2 = compare k (cast_u w z1) (cast_u w z2)) by (destruct k; try discriminate; unfold compare; rewrite Q; reflexivity).
    destruct T as [T|T]; [destruct (U T) as [-> ->]|destruct (V T) as [-> ->]]; destruct signed; auto.
  - destruct signed; [destruct (U T) as [-> ->]|destruct (V T) as [-> ->]]; reflexivity.
Qed.
End Operator.
(** a value with a non-negative 32-bit stack value is that value *)
Lemma stands_amount t v z : is_int t -> stands_for 32 t v z -> 0 <= z -> v = z.
Proof.
  intros It S H. destruct (exact 32 t) eqn:E; [eapply stands_exact; eauto; lia|]. unfold exact in E. apply orb_false_iff in E. destruct E as [Sg B]. destruct (Z.eq_dec (bits t) 32) as [B32|B32]; [|apply S; lia].
  pose proof (stands_mod 32 t v z ltac:(lia) S) as M. pose proof (stands_range 32 t v z ltac:(lia) S) as R. destruct S as (Rt & _). unfold in_range in Rt. rewrite Sg, B32 in Rt. apply in_unsigned_iff in Rt. apply in_signed_iff in R. rewrite !Z.mod_small in M by lia. exact M.
Qed.
Lemma shift_range z d m : 0 < d -> 0 < m -> - m <= z < m -> - m <= z / d < m.
Proof.
  intros D M H. split.
  - apply Z.div_le_lower_bound; [exact D|]. pose proof (Z.mul_le_mono_nonneg_r 1 d m). lia.
  - apply Z.div_lt_upper_bound; [exact D|]. pose proof (Z.mul_le_mono_nonneg_r 1 d m). lia.
Qed.
Section Shift.
Variables (w : Z) (t1 t2 : num_type) (v1 v2 z1 z2 : Z).
Hypothesis (W : w = 32 \/ w = 64) (I1 : is_int t1) (I2 : is_int t2) (S1 : stands_for w t1 v1 z1) (S2 : stands_for 32 t2 v2 z2) (A : 0 <= z2 < w) (B : bits (promote t1) = w).
Let Wp : 0 < w. Proof. destruct W; lia. Qed.
Lemma promoted_exact : is_signed (promote t1) = true -> v1 = z1.
Proof. intros S. apply (stands_exact w t1); auto. assert (L : 32 <= w) by (destruct W; lia). clear - S L I1. unfold exact. destruct t1; cbn in *; try reflexivity; try discriminate; try contradiction; apply Z.ltb_lt; lia. Qed.
Lemma promoted_unsigned : is_signed (promote t1) = false -> v1 = cast_u w z1.
Proof.
  intros S. pose proof (stands_mod w t1 v1 z1 Wp S1) as M. unfold cast_u. rewrite <- M. symmetry. apply Z.mod_small. destruct S1 as (R & _). destruct t1; cbn in S, B; try discriminate; try contradiction; subst w; apply in_unsigned_iff; exact R.
Qed.
Lemma shl_agree signed checked : sim w (promote t1) (il_op Shl w signed checked z1 z2) (cpp_op_value OShl (t1, v1) (t2, v2)).
Proof.
  unfold il_op, cpp_op_value. cbn [fst snd]. cbv zeta. rewrite (stands_amount t2 v2 z2 I2 S2) by lia. rewrite B. replace ((0 <=? z2) && (z2 <? w)) with true by lia. cbn [sim]. eexists. split; [reflexivity|].
  pose proof (int_promote t1 I1) as Ip. repeat split; [apply convert_range, Ip| |lia]. apply cs_eq. rewrite <- B at 1. rewrite convert_mod by exact Ip. rewrite B. rewrite <- (Zmult_mod_idemp_l v1), <- (Zmult_mod_idemp_l z1), (stands_mod w t1 v1 z1 Wp S1). reflexivity.
Qed.
Lemma shr_agree signed checked : is_signed (promote t1) = signed -> sim w (promote t1) (il_op Shr w signed checked z1 z2) (cpp_op_value OShr (t1, v1) (t2, v2)).
Proof.
  intros Sg. unfold il_op, cpp_op_value. cbn [fst snd]. cbv zeta. rewrite (stands_amount t2 v2 z2 I2 S2) by lia. rewrite B. replace ((0 <=? z2) && (z2 <? w)) with true by lia. cbn [sim]. eexists. split; [reflexivity|].
  assert (P : 0 < 2 ^ z2) by (apply Z.pow_pos_nonneg; lia). destruct signed.
  - rewrite (promoted_exact Sg). pose proof (stands_range _ _ _ _ Wp S1) as R. assert (R' : in_signed w (z1 / 2 ^ z2) = true).
    { apply in_signed_iff in R. apply in_signed_iff. destruct (pow_half w Wp). apply shift_range; lia. }
    split; [unfold in_range; rewrite Sg, B; exact R'|split; [apply cs_id; assumption|reflexivity]].
  - rewrite (promoted_unsigned Sg). repeat split; [|intros L; exfalso; lia]. unfold in_range. rewrite Sg, B. pose proof (cu_range w z1 Wp) as U. apply in_unsigned_iff in U. apply in_unsigned_iff. split; [apply Z.div_pos; lia|]. apply Z.le_lt_trans with (cast_u w z1); [|lia]. apply Z.div_le_upper_bound; [lia|]. rewrite <- (Z.mul_1_l (cast_u w z1)) at 1. apply Z.mul_le_mono_nonneg_r; lia.
Qed.
End Shift.
Lemma not_agree w t v z : w = 32 \/ w = 64 -> is_int t -> stands_for w t v z -> bits (promote t) = w \/ (is_signed (promote t) = true /\ exact w t = true) ->
  stands_for w (promote t) (convert (promote t) (Z.lnot v)) (Z.lnot z).
Proof.
  intros W It S H. pose proof (int_promote t It) as Ip. assert (Wp : 0 < w) by lia. pose proof (stands_range _ _ _ _ Wp S) as R. assert (Rn : in_signed w (Z.lnot z) = true) by (apply in_signed_iff in R; apply in_signed_iff; unfold Z.lnot; lia).
  assert (X : v = z -> is_signed (promote t) = true -> stands_for w (promote t) (convert (promote t) (Z.lnot v)) (Z.lnot z)).
  { intros -> Sg. assert (Q : in_range (promote t) (Z.lnot z) = true) by (destruct S as (S & _); apply promote_range in S; [|exact It]; revert S; unfold in_range; rewrite Sg, !in_signed_iff; unfold Z.lnot; lia).
    rewrite convert_id by assumption. repeat split; [exact Q|apply cs_id; assumption]. }
  destruct H as [B|[Sg E]]; [|apply X; [apply (stands_exact w t); assumption|exact Sg]]. destruct (is_signed (promote t)) eqn:Sg; [apply X; [|reflexivity]; eapply (promoted_exact w t v z); eauto|].
  repeat split; [apply convert_range, Ip| |lia]. rewrite <- (cs_id w (Z.lnot z)) by assumption. apply cs_eq. rewrite <- B at 1. rewrite convert_mod by exact Ip. rewrite B. unfold Z.lnot. rewrite <- !Z.sub_1_r. rewrite <- (Zminus_mod_idemp_l (- v)), <- (Zminus_mod_idemp_l (- z)).
  replace (- v mod 2 ^ w) with ((0 - v) mod 2 ^ w) by (f_equal; lia). replace (- z mod 2 ^ w) with ((0 - z) mod 2 ^ w) by (f_equal; lia). rewrite <- (Zminus_mod_idemp_r 0 v), <- (Zminus_mod_idemp_r 0 z), (stands_mod w t v z Wp S). reflexivity.
Qed.
Lemma conv_agree w t (zero : bool) t0 v z : w = 32 \/ w = 64 -> is_int t -> is_int t0 -> stands_for w t0 v z ->
  (bits t <= w \/ (if zero then negb (is_signed t0) && (bits t0 <=? w) = true else exact w t0 = true)) ->
  stands_for (width_of t) t (convert t v) (cast_s (width_of t) (convert t (if zero then cast_u w z else z))).
Proof.
  intros W It I0 S H. assert (Wp : 0 < w) by lia. pose proof (bits_pos t It).
  assert (E : convert t (if zero then cast_u w z else z) = convert t v).
  { destruct H as [H|H].
    - apply convert_eq. assert (M : z mod 2 ^ bits t = v mod 2 ^ bits t) by (apply (mod_smaller _ w); [lia|symmetry; eapply stands_mod; eassumption]). destruct zero; [|exact M]. rewrite <- M. apply (mod_smaller _ w); [lia|]. apply cu_mod, Wp.
    - destruct zero; [|f_equal; symmetry; eapply stands_exact; eassumption]. f_equal. apply andb_true_iff in H. destruct H as [Sg B]. pose proof (stands_mod w t0 v z Wp S) as M. unfold cast_u. rewrite <- M. apply Z.mod_small. destruct S as (R & _). unfold in_range in R. destruct (is_signed t0); [discriminate|]. apply in_unsigned_iff in R. pose proof (pow_le (bits t0) w). lia. }
  rewrite E. repeat split; [apply convert_range, It|]. unfold width_of. destruct t; cbn; lia.
Qed.
Lemma constant_agree Gamma env w n : w = 32 \/ w = 64 -> in_signed w n = true -> is_int (constant_type n) /\ exists v, cpp_value Gamma env (constant n) = Ret (constant_type n, v) /\ stands_for w (constant_type n) v n.
Proof.
  intros W R. assert (R64 : in_signed 64 n = true) by (eapply signed_wider; [|exact R]; lia).
  assert (X : forall t, is_int t -> in_range t n = true -> stands_for w t n n) by (intros t It Q; repeat split; [exact Q|apply cs_id; [lia|exact R]]).
  unfold constant_type, constant. destruct (constantConversions n) as [i|] eqn:C.
  - unfold constantConversions in C. repeat match type of C with (if ?n =? ?k then _ else _) = _ => destruct (Z.eqb_spec n k) as [->|?]; [injection C as <-; split; [exact I|]; eexists; split; [reflexivity|]; apply X; [exact I|reflexivity]|] end. discriminate.
  - assert (N : n <> -2147483648 /\ n <> -9223372036854775808). { unfold constantConversions in C. split; intros ->; discriminate C. }
    apply in_signed_iff in R64. change (2 ^ (64 - 1)) with 9223372036854775808 in R64.
    assert (E4 : forall k, in_range tI4 k = true <-> -2147483648 <= k <= 2147483647) by (intros k; exact (in_i32_iff k)). assert (E8 : forall k, in_range tI8 k = true <-> -9223372036854775808 <= k <= 9223372036854775807) by (intros k; exact (in_i64_iff k)).
    destruct (n <? 0) eqn:S.
    + destruct (in_range tI4 n) eqn:Q4; (split; [exact I|]).
      * apply E4 in Q4. assert (Q4' : in_range tI4 (- n) = true) by (apply E4; lia). exists n. split; [|apply X; [exact I|apply E4, Q4]]. cbn [cpp_value]. rewrite Q4'. cbn [bind fst snd]. unfold cpp_result. change (promote tI4) with tI4. cbn [is_signed]. rewrite Z.opp_involutive. replace (in_range tI4 n) with true by (symmetry; apply E4; lia). reflexivity.
      * assert (~ (-2147483648 <= n <= 2147483647)) by (intros F; apply E4 in F; congruence). assert (Q4' : in_range tI4 (- n) = false) by (destruct (in_range tI4 (- n)) eqn:F; [apply E4 in F; lia|reflexivity]). assert (Q8 : in_range tI8 (- n) = true) by (apply E8; lia).
        exists n. split; [|apply X; [exact I|apply E8; lia]]. cbn [cpp_value]. rewrite Q4', Q8. cbn [bind fst snd]. unfold cpp_result. change (promote tI8) with tI8. cbn [is_signed]. rewrite Z.opp_involutive. replace (in_range tI8 n) with true by (symmetry; apply E8; lia). reflexivity.
    + cbn [cpp_value]. destruct (in_range tI4 n) eqn:Q4; (split; [exact I|]).
      * exists n. split; [reflexivity|apply X; [exact I|exact Q4]].
      * replace (in_range tI8 n) with true by (symmetry; apply E8; lia). exists n. split; [reflexivity|]. apply X; [exact I|apply E8; lia].
Qed.
(** ** The whole expression *)
Lemma width_cases Gamma x : typed Gamma x -> width Gamma x = 32 \/ width Gamma x = 64.
Proof.
  assert (U : forall t, width_of t = 32 \/ width_of t = 64) by (intros t; unfold width_of; destruct (bits t =? 64); auto).
  induction x; cbn [width typed]; auto; [intros (_ & _ & H & _); exact H|]. intros (H & _). auto.
Qed.
Lemma ctype_int Gamma x : typed Gamma x -> is_int (ctype Gamma x).
Proof.
  induction x; cbn [typed ctype].
  - intros H. apply (constant_agree Gamma (fun _ => 0) 32 n); auto.
  - intros H. apply (constant_agree Gamma (fun _ => 0) 64 n); auto.
  - auto.
  - intros (Hl & Hr & _). destruct op; try (apply int_common; auto); try (apply int_promote; auto). exact I.
  - intros _. exact I.
  - tauto.
  - intros (H & _). apply int_promote; auto.
Qed.
Lemma value_agree Gamma env x : (forall v, is_int (Gamma v) -> in_range (Gamma v) (env v) = true) -> typed Gamma x -> safe Gamma env x -> sim (width Gamma x) (ctype Gamma x) (il_value Gamma env x) (cpp_value Gamma env (meant (erase x))).
Proof.
  intros Env. induction x as [n|n|v|op w signed checked l IHl r IHr|k signed l IHl r IHr|t zero e IHe|e IHe]; intros T Sf.
  - apply (constant_agree Gamma env 32 n); auto.
  - apply (constant_agree Gamma env 64 n); auto.
  - cbn in T. cbn [il_value erase meant cpp_value sim ctype width]. exists (env v). split; [reflexivity|]. repeat split; [apply Env, T|]. unfold width_of. destruct (Gamma v); cbn; lia.
  - pose proof T as T'. cbn [typed] in T. destruct T as (Tl & Tr & W & Wl & T). cbn [safe] in Sf. destruct Sf as (Sl & Sr & Sop). specialize (IHl Tl Sl). specialize (IHr Tr Sr). rewrite Wl in IHl.
    pose proof (ctype_int Gamma l Tl) as Il. pose proof (ctype_int Gamma r Tr) as Ir. cbn [il_value width].
    assert (Call : match op with Div => False | _ => True end -> cpp_value Gamma env (meant (erase (IBin op w signed checked l r))) = (x <- cpp_value Gamma env (meant (erase l)) ;; y <- cpp_value Gamma env (meant (erase r)) ;; cpp_op_value (operatorSymbols op) x y)).
    { intros ND. cbn [erase meant]. destruct op; try contradiction; try reflexivity. unfold stack_of. destruct (w =? 64); reflexivity. }
    assert (CallD : op = Div -> cpp_value Gamma env (meant (erase (IBin op w signed checked l r))) = (x <- (x <- cpp_value Gamma env (meant (erase l)) ;; Ret (tI8, convert tI8 (snd x))) ;; y <- (y <- cpp_value Gamma env (meant (erase r)) ;; Ret (tI8, convert tI8 (snd y))) ;; q <- Divide_Int64 (convert tI8 (snd x)) (convert tI8 (snd y)) ;; Ret (tI8, q))).
    { intros ->. cbn [erase meant]. unfold stack_of. destruct (w =? 64); reflexivity. }
    destruct (il_value Gamma env l) as [a|ex|u] eqn:El; cbn [sim bind] in *; [|destruct op; rewrite ?Call, ?CallD by (exact I || reflexivity); rewrite IHl; reflexivity|contradiction]. destruct IHl as (va & Va & Sa).
    destruct (il_value Gamma env r) as [b|ex|u] eqn:Er; cbn [sim bind] in *; [|destruct op; rewrite ?Call, ?CallD by (exact I || reflexivity); rewrite Va, IHr; reflexivity|contradiction]. destruct IHr as (vb & Vb & Sb). specialize (Sop a b eq_refl eq_refl).
    destruct op; cbn [operation_safe] in Sop.
    + rewrite Call by exact I. rewrite Va, Vb. cbn [bind ctype]. destruct T as [Wr A]. rewrite Wr in Sb. apply arith_agree; auto using modular_add; apply Sop.
    + rewrite Call by exact I. rewrite Va, Vb. cbn [bind ctype]. destruct T as [Wr A]. rewrite Wr in Sb. apply arith_agree; auto using modular_sub; apply Sop.
    + rewrite Call by exact I. rewrite Va, Vb. cbn [bind ctype]. destruct T as [Wr A]. rewrite Wr in Sb. apply arith_agree; auto using modular_mul; apply Sop.
    + rewrite CallD by reflexivity. rewrite Va, Vb. cbn [bind ctype snd]. destruct T as (Wr & -> & E1 & E2). rewrite Wr in Sb. eapply (div_agree w _ _ va vb a b W Il Ir Sa Sb); eauto.
    + rewrite Call by exact I. rewrite Va, Vb. cbn [bind ctype]. destruct T as (Wr & A & St). rewrite Wr in Sb. destruct Sop as [N Q]. change (il_op Rem w signed checked a b) with (il_op Rem w signed false a b). apply (rem_agree w _ _ va vb a b W Il Ir Sa Sb signed); auto.
    + rewrite Call by exact I. rewrite Va, Vb. cbn [bind ctype]. destruct T as [Wr A]. rewrite Wr in Sb. apply (bitwise_agree w _ _ va vb a b W Il Ir Sa Sb Z.land); [left; reflexivity|exact A].
    + rewrite Call by exact I. rewrite Va, Vb. cbn [bind ctype]. destruct T as [Wr A]. rewrite Wr in Sb. apply (bitwise_agree w _ _ va vb a b W Il Ir Sa Sb Z.lor); [right; left; reflexivity|exact A].
    + rewrite Call by exact I. rewrite Va, Vb. cbn [bind ctype]. destruct T as [Wr A]. rewrite Wr in Sb. apply (bitwise_agree w _ _ va vb a b W Il Ir Sa Sb Z.lxor); [right; right; reflexivity|exact A].
    + rewrite Call by exact I. rewrite Va, Vb. cbn [bind ctype]. destruct T as [Wr A]. rewrite Wr in Sb. eapply shl_agree; eauto.
    + rewrite Call by exact I. rewrite Va, Vb. cbn [bind ctype]. destruct T as (Wr & A & Sg). rewrite Wr in Sb. eapply shr_agree; eauto.
  - cbn [typed] in T. destruct T as (Tl & Tr & Wlr & T). cbn [safe] in Sf. destruct Sf as (Sl & Sr). specialize (IHl Tl Sl). specialize (IHr Tr Sr). pose proof (width_cases Gamma l Tl) as W. rewrite <- Wlr in IHr.
    pose proof (ctype_int Gamma l Tl) as Il. pose proof (ctype_int Gamma r Tr) as Ir. cbn [il_value width ctype erase meant cpp_value].
    destruct (il_value Gamma env l) as [a|ex|u]; cbn [sim bind] in *; [|rewrite IHl; reflexivity|contradiction]. destruct IHl as (va & Va & Sa).
    destruct (il_value Gamma env r) as [b|ex|u]; cbn [sim bind] in *; [|rewrite Va, IHr; reflexivity|contradiction]. destruct IHr as (vb & Vb & Sb). rewrite Va, Vb. cbn [bind].
    rewrite (compare_agree (width Gamma l) _ _ va vb a b W Il Ir Sa Sb k signed T). set (c := compare k _ _).
    assert (C : c = 0 \/ c = 1) by (unfold c, compare; destruct k; cbv iota; match goal with |- context [if ?b then 1 else 0] => destruct b end; auto). exists c. split.
    + unfold cpp_op_value, c. cbn [fst snd]. destruct k; reflexivity.
    + destruct C as [-> | ->]; repeat split.
  - cbn [typed] in T. destruct T as (Te & It & T). cbn [safe] in Sf. specialize (IHe Te Sf). pose proof (width_cases Gamma e Te) as W. pose proof (ctype_int Gamma e Te) as Ie. cbn [il_value width ctype erase meant cpp_value as_num_type].
    destruct (il_value Gamma env e) as [a|ex|u]; cbn [sim bind] in *; [|rewrite IHe; reflexivity|contradiction]. destruct IHe as (va & Va & Sa). rewrite Va. cbn [bind snd]. eexists. split; [reflexivity|]. eapply conv_agree; eauto.
  - cbn [typed] in T. destruct T as (Te & T). cbn [safe] in Sf. specialize (IHe Te Sf). pose proof (width_cases Gamma e Te) as W. pose proof (ctype_int Gamma e Te) as Ie. cbn [il_value width ctype erase meant cpp_value].
    destruct (il_value Gamma env e) as [a|ex|u]; cbn [sim bind] in *; [|rewrite IHe; reflexivity|contradiction]. destruct IHe as (va & Va & Sa). rewrite Va. cbn [bind fst snd]. eexists. split; [reflexivity|]. apply not_agree; auto.
Qed.
