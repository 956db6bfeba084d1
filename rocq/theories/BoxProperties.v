(** * C63: boxed conversions.  C65: comparing boxed values *)
From Verif Require Import Base BoxModel BoxProofs.

(** [w] is the C conversion of [z] to the integer type [t]: in range, equal modulo 2^bits, and [z]
    itself when that is in range. *)
Definition c_conversion (t : itype) (z w : Z) : Prop :=
  in_range t w = true /\ (w - z) mod 2 ^ ibits t = 0 /\ (in_range t z = true -> w = z).

(** C63: every boxed integer or character converts to every 8-bit, 16-bit, 32-bit or 64-bit
    integer type and to Char as C does.  Missing from the full statement: floating-point boxes,
    and the conversions that do not exist (C63_refuted). *)
Theorem C63_integer_conversions_partial : forall t z, in_range t z = true ->
  (forall t', t' <> IChar -> exists w, get_AsInt t' (BInt t z) = Ret w /\ c_conversion t' z w) /\
  (forall t', t' = ISByte \/ t' = IByte -> exists w, get_As8 t' (BInt t z) = Ret w /\ c_conversion t' z w) /\
  (exists w, get_AsChar (BInt t z) = Ret w /\ c_conversion IChar z w).
Proof.
  intros t z Hz.
  assert (C : forall t', c_conversion t' z (cast_to t' z)).
  { intros t'. destruct (cast_to_spec t' z) as (A & B). split; [exact A|]. split; [exact B|]. apply cast_to_id. }
  split; [|split].
  - intros t' _. exists (cast_to t' z). split; [apply get_AsInt_int; exact Hz|apply C].
  - intros t' _. exists (cast_to t' z). split; [reflexivity|apply C].
  - exists (cast_to IChar z). split; [reflexivity|apply C].
Qed.
Print Assumptions C63_integer_conversions_partial.
(** C63: unboxing to the boxed type is the identity, for every class. *)
Theorem C63_unbox_same_type_partial :
  (forall b, get_AsBoolean (BBool b) = Ret b) /\
  (forall t z, in_range t z = true -> get_AsInt t (BInt t z) = Ret z /\ get_As8 t (BInt t z) = Ret z) /\
  (forall z, in_range IChar z = true -> get_AsChar (BInt IChar z) = Ret z) /\
  (forall b, get_AsSingle (BSingle b) = Ret b) /\ (forall b, get_AsDouble (BDouble b) = Ret b) /\
  (forall v, get_AsDateTime (BDateTime v) = Ret v) /\ (forall v, get_AsTimeSpan (BTimeSpan v) = Ret v).
Proof.
  repeat split; intros; try reflexivity.
  - rewrite get_AsInt_int by assumption. rewrite cast_to_id by assumption. reflexivity.
  - unfold get_As8, get_AsChar. rewrite cast_to_id by assumption. reflexivity.
  - unfold get_As8, get_AsChar. rewrite cast_to_id by assumption. reflexivity.
Qed.
Print Assumptions C63_unbox_same_type_partial.
(** C63: Booleans are 0 and 1 as integers; an integer is true as Boolean iff it is not zero. *)
Theorem C63_boolean_partial : (forall b t, get_AsInt t (BBool b) = Ret (if b then 1 else 0) /\ get_As8 t (BBool b) = Ret (if b then 1 else 0)) /\
  (forall t z, t <> IChar -> exists b, get_AsBoolean (BInt t z) = Ret b /\ (b = true <-> z <> 0)).
Proof.
  split; [repeat split|]. intros t z Ht. exists (negb (z =? 0)). split; [destruct t; try reflexivity; contradiction|].
  destruct (Z.eqb_spec z 0); cbn; split; intros; try congruence.
Qed.
Print Assumptions C63_boolean_partial.
(** The full statement fails: some number-to-number conversions are missing. *)
Theorem C63_refuted : (forall b, get_As8 IByte (BDouble b) = Exn InvalidCastException) /\
  (forall b, get_As8 ISByte (BSingle b) = Exn InvalidCastException) /\
  (forall z, get_AsBoolean (BInt IChar z) = Exn InvalidCastException) /\
  (forall b, get_AsDouble (BBool b) = Exn InvalidCastException).
Proof. repeat split. Qed.
Print Assumptions C63_refuted.
Example C63_example : get_AsInt IInt16 (BInt IInt64 (2 ^ 40 + 65535)) = Ret (-1) /\ get_AsChar (BInt IByte 65) = Ret 65.
Proof. split; vm_compute; reflexivity. Qed.

(** C65: comparing a boxed Boolean with any object: null is smaller, another class is an
    ArgumentException, and False < True. *)
Theorem C65_boolean_CompareTo_partial : forall a other,
  CompareTo_obj (BBool a) other =
    match other with
    | None => Ret 1
    | Some (BBool b) => Ret (if a then (if b then 0 else 1) else (if b then -1 else 0))
    | Some _ => Exn ArgumentException
    end.
Proof. intros a [[[]| | | | | | |]|]; destruct a; reflexivity. Qed.
Print Assumptions C65_boolean_CompareTo_partial.
(** C65: a boxed integer equals another box iff both class and value agree, and comparing it with
    null or another class gives 1 or ArgumentException. *)
Theorem C65_integer_boxes_partial : forall t a,
  CompareTo_obj (BInt t a) None = Ret 1 /\
  (forall o, (forall b, o <> BInt t b) -> CompareTo_obj (BInt t a) (Some o) = Exn ArgumentException) /\
  (forall o, exists r, Equals_obj (BInt t a) (Some o) = Ret r /\ (r = true <-> o = BInt t a)).
Proof.
  intros t a. split; [reflexivity|]. split.
  - intros o Ho. destruct o; try reflexivity. cbn. destruct (itype_eqb t t0) eqn:E; [|reflexivity].
    exfalso. apply (Ho z). f_equal. destruct t, t0; try discriminate; reflexivity.
  - intros o. destruct o; try (eexists; split; [reflexivity|split; discriminate]).
    exists (itype_eqb t t0 && (a =? z)). split; [reflexivity|]. rewrite andb_true_iff, Z.eqb_eq. split.
    + intros (E & ->). f_equal. destruct t, t0; try discriminate; reflexivity.
    + intros E. injection E as -> ->. split; [destruct t; reflexivity|reflexivity].
Qed.
Print Assumptions C65_integer_boxes_partial.
(** Full statement: Equals never fails.  It fails: Equals(null) on a boxed integer dereferences
    the null pointer (Boolean checks for it). *)
Theorem C65_refuted : forall t a b, Equals_obj (BInt t a) None = UB NullDereference /\ Equals_obj (BBool b) None = Ret false.
Proof. repeat split. Qed.
Print Assumptions C65_refuted.
Example C65_example : CompareTo_obj (BInt IByte 3) (Some (BInt IByte 5)) = Ret (-2) /\ CompareTo_obj (BInt IByte 3) (Some (BInt IInt16 5)) = Exn ArgumentException.
Proof. split; reflexivity. Qed.
