(** * Proofs about boxed values *)
From Verif Require Import Tac BoxModel.

Lemma cast_to_spec t z : in_range t (cast_to t z) = true /\ (cast_to t z - z) mod 2 ^ ibits t = 0.
Proof.
  unfold cast_to, in_range, cast_s, cast_u, in_signed, in_unsigned.
  destruct t; cbn [isigned ibits].
  all: match goal with |- context[2 ^ (?b - 1)] => let v := eval compute in (2 ^ (b - 1)) in change (2 ^ (b - 1)) with v | _ => idtac end.
  all: match goal with |- context[2 ^ ?b] => let v := eval compute in (2 ^ b) in change (2 ^ b) with v | _ => idtac end.
  all: split; lia.
Qed.
Lemma in_range_spec t z : in_range t z = true <->
  (if isigned t then - 2 ^ (ibits t - 1) else 0) <= z < (if isigned t then 2 ^ (ibits t - 1) else 2 ^ ibits t).
Proof. unfold in_range, in_signed, in_unsigned. destruct (isigned t); lia. Qed.
Lemma cast_to_id t z : in_range t z = true -> cast_to t z = z.
Proof.
  rewrite in_range_spec. unfold cast_to, cast_s, cast_u.
  destruct t; cbn [isigned ibits].
  all: match goal with |- context[2 ^ (?b - 1)] => let v := eval compute in (2 ^ (b - 1)) in change (2 ^ (b - 1)) with v | _ => idtac end.
  all: match goal with |- context[2 ^ ?b] => let v := eval compute in (2 ^ b) in change (2 ^ b) with v | _ => idtac end.
  all: intros; lia.
Qed.
Lemma cast_to_mod t a b : (a - b) mod 2 ^ ibits t = 0 -> cast_to t a = cast_to t b.
Proof.
  unfold cast_to, cast_s, cast_u.
  destruct t; cbn [isigned ibits].
  all: match goal with |- context[2 ^ (?b - 1)] => let v := eval compute in (2 ^ (b - 1)) in change (2 ^ (b - 1)) with v | _ => idtac end.
  all: match goal with |- context[2 ^ ?b] => let v := eval compute in (2 ^ b) in change (2 ^ b) with v | _ => idtac end.
  all: intros; lia.
Qed.

Lemma get_AsInt_int t t' z : in_range t z = true -> get_AsInt t' (BInt t z) = Ret (cast_to t' z).
Proof.
  intros H. destruct t; try reflexivity. cbn [get_AsInt].
  apply in_range_spec in H. cbn in H.
  destruct t'; try reflexivity; f_equal; apply cast_to_mod; cbn [ibits].
  - change (2 ^ 16) with 65536. rewrite cast_i64_id by lia. rewrite Z.sub_diag. reflexivity.
  - unfold cast_u64, cast_u. change (2 ^ 16) with 65536. change (2 ^ 64) with 18446744073709551616. lia.
Qed.
