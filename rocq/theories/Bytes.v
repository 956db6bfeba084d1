(** * Little-endian memory representation of machine words (x86-64; external to /repo) *)
From Coq Require Import ZArith List Bool Lia.
Import ListNotations.
Open Scope Z_scope.

Definition byte (b : Z) : Prop := 0 <= b < 256.

(** The [n] bytes of a word, least significant first. *)
Fixpoint le_bytes (n : nat) (z : Z) : list Z :=
  match n with
  | O => []
  | S n => z mod 256 :: le_bytes n (z / 256)
  end.
Fixpoint le_value (l : list Z) : Z :=
  match l with
  | [] => 0
  | b :: t => b + 256 * le_value t
  end.

Lemma le_bytes_length n : forall z, length (le_bytes n z) = n.
Proof. induction n; intros; cbn [le_bytes length]; [reflexivity|f_equal; apply IHn]. Qed.
Lemma le_bytes_byte n : forall z, Forall byte (le_bytes n z).
Proof. induction n; intros; cbn [le_bytes]; constructor; [apply Z.mod_pos_bound; lia|apply IHn]. Qed.
Lemma pow256_S n : 2 ^ (8 * Z.of_nat (S n)) = 256 * 2 ^ (8 * Z.of_nat n).
Proof. replace (8 * Z.of_nat (S n)) with (8 + 8 * Z.of_nat n) by lia. rewrite Z.pow_add_r by lia. reflexivity. Qed.
Lemma le_value_bytes n : forall z, le_value (le_bytes n z) = z mod 2 ^ (8 * Z.of_nat n).
Proof.
  induction n; intros z; cbn [le_bytes le_value]; [change (2 ^ (8 * Z.of_nat 0)) with 1; rewrite Z.mod_1_r; reflexivity|].
  rewrite IHn, pow256_S. rewrite Z.rem_mul_r by (try lia; apply Z.pow_pos_nonneg; lia). lia.
Qed.
Lemma le_value_bound l : Forall byte l -> 0 <= le_value l < 2 ^ (8 * Z.of_nat (length l)).
Proof.
  induction 1 as [|b t Hb Ht IH]; cbn [le_value length]; [cbn; lia|].
  rewrite pow256_S. unfold byte in Hb. lia.
Qed.
Lemma le_bytes_value l : Forall byte l -> le_bytes (length l) (le_value l) = l.
Proof.
  induction 1 as [|b t Hb Ht IH]; cbn [le_value length le_bytes]; [reflexivity|]. unfold byte in Hb.
  f_equal.
  - rewrite (Z.mul_comm 256), Z.mod_add by lia. apply Z.mod_small. lia.
  - rewrite (Z.mul_comm 256), Z.div_add by lia. rewrite Z.div_small by lia. exact IH.
Qed.
Lemma le_bytes_mod n : forall z, le_bytes n (z mod 2 ^ (8 * Z.of_nat n)) = le_bytes n z.
Proof.
  intros z. rewrite <- le_value_bytes. pose proof (le_bytes_value (le_bytes n z) (le_bytes_byte n z)) as H.
  rewrite le_bytes_length in H. exact H.
Qed.
