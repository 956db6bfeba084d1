(** * Tactics shared by the proof files (no definitions of the model). *)
From Verif Require Export Base.
From Coq Require Export ZifyBool ZifyNat.
Ltac Zify.zify_post_hook ::= Z.to_euclidean_division_equations.

(** Decide [throw_if c e] from the context by arithmetic. *)
Lemma throw_if_false c e : c = false -> throw_if c e = Ret tt.
Proof. intros ->; reflexivity. Qed.
Lemma throw_if_true c e : c = true -> throw_if c e = Exn e.
Proof. intros ->; reflexivity. Qed.
Lemma bind_ret {A B} (a : A) (f : A -> outcome B) : bind (Ret a) f = f a.
Proof. reflexivity. Qed.
Lemma bind_exn {A B} e (f : A -> outcome B) : bind (Exn e) f = Exn e.
Proof. reflexivity. Qed.
Lemma bind_ub {A B} e (f : A -> outcome B) : bind (UB e) f = UB e.
Proof. reflexivity. Qed.

Lemma in_i32_true z : -2147483648 <= z <= 2147483647 -> in_i32 z = true.
Proof. unfold in_i32, in_signed. change (2 ^ (32 - 1)) with 2147483648. lia. Qed.
Lemma in_i32_iff z : in_i32 z = true <-> -2147483648 <= z <= 2147483647.
Proof. unfold in_i32, in_signed. change (2 ^ (32 - 1)) with 2147483648. lia. Qed.
Lemma in_i64_iff z : in_i64 z = true <-> -9223372036854775808 <= z <= 9223372036854775807.
Proof. unfold in_i64, in_signed. change (2 ^ (64 - 1)) with 9223372036854775808. lia. Qed.
Lemma i32_ret z : -2147483648 <= z <= 2147483647 -> i32 z = Ret z.
Proof. intros H. unfold i32. rewrite in_i32_true by exact H. reflexivity. Qed.
Lemma i64_ret z : -9223372036854775808 <= z <= 9223372036854775807 -> i64 z = Ret z.
Proof. intros H. unfold i64. replace (in_i64 z) with true; [reflexivity|]. symmetry. apply in_i64_iff. exact H. Qed.
Lemma i32_ub z : ~ (-2147483648 <= z <= 2147483647) -> i32 z = UB SignedOverflow.
Proof. intros H. unfold i32. destruct (in_i32 z) eqn:E; [|reflexivity]. apply in_i32_iff in E. contradiction. Qed.
Lemma i64_ub z : ~ (-9223372036854775808 <= z <= 9223372036854775807) -> i64 z = UB SignedOverflow.
Proof. intros H. unfold i64. destruct (in_i64 z) eqn:E; [|reflexivity]. apply in_i64_iff in E. contradiction. Qed.
Lemma cast_i32_id z : -2147483648 <= z <= 2147483647 -> cast_i32 z = z.
Proof. intros H. unfold cast_i32, cast_s. change (2 ^ (32 - 1)) with 2147483648. change (2 ^ 32) with 4294967296.
  rewrite Z.mod_small by lia. lia. Qed.
Lemma cast_i64_id z : -9223372036854775808 <= z <= 9223372036854775807 -> cast_i64 z = z.
Proof. intros H. unfold cast_i64, cast_s. change (2 ^ (64 - 1)) with 9223372036854775808. change (2 ^ 64) with 18446744073709551616.
  rewrite Z.mod_small by lia. lia. Qed.
Lemma cast_u64_id z : 0 <= z <= 18446744073709551615 -> cast_u64 z = z.
Proof. intros H. unfold cast_u64, cast_u. change (2 ^ 64) with 18446744073709551616. apply Z.mod_small. lia. Qed.
Lemma cast_u32_id z : 0 <= z <= 4294967295 -> cast_u32 z = z.
Proof. intros H. unfold cast_u32, cast_u. change (2 ^ 32) with 4294967296. apply Z.mod_small. lia. Qed.

(** Finite sweep over 0 .. n-1 lifted to a universally quantified statement. *)
Definition sweep (n : nat) (p : Z -> bool) : bool := forallb (fun k => p (Z.of_nat k)) (seq 0 n).
Lemma sweep_spec n p : sweep n p = true -> forall z, 0 <= z < Z.of_nat n -> p z = true.
Proof.
  unfold sweep. rewrite forallb_forall. intros H z Hz.
  specialize (H (Z.to_nat z)). rewrite Z2Nat.id in H by lia. apply H. apply in_seq. lia.
Qed.
