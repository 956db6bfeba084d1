(** * C107 *)
From Verif Require Import Tac Base BoxModel BoxProofs CastModel CastSpec.

Lemma cast_in_range t z : in_range t z = true -> cast_to t z = z.
Proof.
  unfold in_range, cast_to, in_signed, in_unsigned, cast_s, cast_u. intro H.
  destruct t; cbn [isigned ibits] in *;
    first [change (2 ^ (8 - 1)) with 128 in *|change (2 ^ (16 - 1)) with 32768 in *|change (2 ^ (32 - 1)) with 2147483648 in *|change (2 ^ (64 - 1)) with 9223372036854775808 in *|idtac];
    first [change (2 ^ 8) with 256 in *|change (2 ^ 16) with 65536 in *|change (2 ^ 32) with 4294967296 in *|change (2 ^ 64) with 18446744073709551616 in *]; lia.
Qed.
Lemma getter_same b : is_value b = true -> exists g, getter (type_of b) = Some g /\ g b = Ret b.
Proof.
  destruct b as [x|t z|x|x|x|x|x|]; cbn [is_value]; intro H; try discriminate; try (eexists; split; reflexivity).
  pose proof (cast_in_range t z H) as C. destruct t; eexists; (split; [reflexivity|]); cbn -[cast_to]; rewrite C; reflexivity.
Qed.
Lemma dtype_eqb_eq a b : dtype_eqb a b = true -> a = b.
Proof. destruct a, b; try discriminate; reflexivity. Qed.
Lemma zero_value t b : zero t = Some b -> is_value b = true.
Proof. destruct t; intro H; try discriminate; injection H as <-; reflexivity. Qed.

Section Proofs.
Variables (parent : nat -> option nat) (meth : cls -> Z) (env : Z -> value).
Hypothesis ENV : forall x, fine (env x).
Hypothesis METH : forall c, in_range IInt32 (meth c) = true.
Notation csharp := (csharp parent meth env).
Notation cplusplus := (cplusplus parent meth env).

(** Whatever succeeds in C#, C++ gives the same value. *)
Lemma same e : plain e -> forall v, csharp e = Some (Ret v) -> fine v /\ cplusplus (translate e) = Some (Ret v).
Proof.
  induction e as [x| |c|t e IH|t e IH|c e IH|c|t|e IH|c e IH]; intros P v E; cbn [plain] in P.
  - injection E as <-. split; [apply ENV|reflexivity].
  - injection E as <-. split; constructor.
  - injection E as <-. split; constructor.
  - destruct P as [(l & ->) P]. cbn [CastSpec.csharp CastSpec.cplusplus translate] in *. specialize (IH P).
    destruct (csharp e) as [[w|?|?]|]; try discriminate. destruct (IH w eq_refl) as [F ->].
    destruct w; try discriminate. injection E as <-. split; [exact F|reflexivity].
  - destruct P as [(l & ->) P]. cbn [CastSpec.csharp CastSpec.cplusplus translate] in *. specialize (IH P).
    destruct (csharp e) as [[w|?|?]|]; try discriminate. destruct (IH w eq_refl) as [F ->].
    destruct w; try discriminate. destruct (dtype_eqb (type_of b) l) eqn:D; [|discriminate]. injection E as <-. apply dtype_eqb_eq in D. subst l.
    destruct (getter_same b F) as (g & -> & G). rewrite G. split; [exact F|reflexivity].
  - cbn [CastSpec.csharp CastSpec.cplusplus translate] in *. specialize (IH P).
    destruct (csharp e) as [[w|?|?]|]; try discriminate. destruct (IH w eq_refl) as [F ->].
    destruct w; try discriminate; try (exfalso; exact F).
    + injection E as <-. split; constructor.
    + destruct (derived parent c0 c); [|discriminate]. injection E as <-. split; constructor.
    + destruct (cls_eqb c CObject); [|discriminate]. injection E as <-. split; [exact F|reflexivity].
  - destruct P.
  - destruct t as [l|n]; cbn [CastSpec.csharp CastSpec.cplusplus translate] in *.
    + destruct (zero l) as [b|] eqn:Z; [|discriminate]. injection E as <-. split; [exact (zero_value l b Z)|reflexivity].
    + injection E as <-. split; constructor.
  - cbn [CastSpec.csharp CastSpec.cplusplus translate] in *. specialize (IH P).
    destruct (csharp e) as [[w|?|?]|]; try discriminate. destruct (IH w eq_refl) as [F ->].
    destruct w; try discriminate; try (exfalso; exact F); injection E as <-; split; constructor.
  - cbn [CastSpec.csharp CastSpec.cplusplus translate] in *. specialize (IH P).
    destruct (csharp e) as [[w|?|?]|]; try discriminate. destruct (IH w eq_refl) as [F ->].
    destruct w; try discriminate. destruct (derived parent c0 c); [|discriminate]. injection E as <-. split; [apply METH|reflexivity].
Qed.
End Proofs.

(** Whatever succeeds in C#, C++ gives the same value; what fails in C# see below. *)
Theorem C107_values_partial parent meth env e v : (forall x, fine (env x)) -> (forall c, in_range IInt32 (meth c) = true) -> plain e ->
  csharp parent meth env e = Some (Ret v) -> cplusplus parent meth env (translate e) = Some (Ret v).
Proof. intros A B P E. exact (proj2 (same parent meth env A B e P v E)). Qed.
Print Assumptions C107_values_partial.

(** Unboxing an object that is not a boxed number, date or time is refused by both. *)
Theorem C107_refused parent meth env e c t : (forall x, fine (env x)) -> (forall c, in_range IInt32 (meth c) = true) -> plain e ->
  csharp parent meth env e = Some (Ret (Obj c)) -> (exists b, type_of b = t /\ is_value b = true) ->
  csharp parent meth env (Unbox (VLib t) e) = Some (Exn InvalidCastException) /\ cplusplus parent meth env (translate (Unbox (VLib t) e)) = Some (Exn InvalidCastException).
Proof.
  intros A B P E (b & <- & V). destruct (same parent meth env A B e P _ E) as [_ E']. cbn [csharp cplusplus translate]. rewrite E, E'. split; [reflexivity|].
  destruct b as [x|k z|x|x|x|x|x|]; try discriminate; try reflexivity. destruct k; reflexivity.
Qed.
Print Assumptions C107_refused.

(** Unboxing to another integer type: C# throws, C++ answers the converted number. *)
Theorem C107_other_type_refuted parent meth env e t u z : (forall x, fine (env x)) -> (forall c, in_range IInt32 (meth c) = true) -> plain e ->
  t <> u -> csharp parent meth env e = Some (Ret (Boxed (BInt t z))) ->
  csharp parent meth env (Unbox (VLib (dtype_of u)) e) = Some (Exn InvalidCastException) /\
  exists w, cplusplus parent meth env (translate (Unbox (VLib (dtype_of u)) e)) = Some (Ret (Val (BInt u w))) /\ (in_range u z = true -> w = z).
Proof.
  intros A B P N E. destruct (same parent meth env A B e P _ E) as [F E']. cbn [csharp cplusplus translate]. rewrite E, E'. split.
  - destruct t, u; try (destruct N; reflexivity); reflexivity.
  - assert (S : forall w, w = cast_to u z -> in_range u z = true -> w = z) by (intros w -> R; apply cast_in_range; exact R).
    destruct t, u; try (destruct N; reflexivity); (eexists; split; [reflexivity|]); try (apply S; reflexivity); intro R.
    + change (cast_to IInt16 (cast_to IInt64 z) = z). rewrite (cast_in_range IInt64 z F). apply cast_in_range. exact R.
    + change (cast_to IUInt16 (cast_to IUInt64 z) = z). rewrite (cast_in_range IUInt64 z); [apply cast_in_range; exact R|].
      unfold in_range, in_unsigned in *. cbn [isigned ibits] in *. change (2 ^ 16) with 65536 in R. change (2 ^ 64) with 18446744073709551616. lia.
Qed.
Print Assumptions C107_other_type_refuted.
(** Unboxing null: a NullReferenceException in C#, undefined behaviour in C++. *)
Theorem C107_null_refuted parent meth env e t : (forall x, fine (env x)) -> (forall c, in_range IInt32 (meth c) = true) -> plain e ->
  csharp parent meth env e = Some (Ret NullRef) -> (exists b, type_of b = t /\ is_value b = true) ->
  csharp parent meth env (Unbox (VLib t) e) = Some (Exn NullReferenceException) /\ cplusplus parent meth env (translate (Unbox (VLib t) e)) = Some (UB NullDereference).
Proof.
  intros A B P E (b & <- & V). destruct (same parent meth env A B e P _ E) as [_ E']. destruct (getter_same b V) as (g & G & _).
  cbn [csharp cplusplus translate]. rewrite E, E', G. split; reflexivity.
Qed.
Print Assumptions C107_null_refuted.
(** A cast to a class the object does not belong to is not noticed; calling a method of that class is undefined behaviour. *)
Theorem C107_cast_refuted parent meth env e d c : (forall x, fine (env x)) -> (forall c, in_range IInt32 (meth c) = true) -> plain e ->
  csharp parent meth env e = Some (Ret (Obj d)) -> derived parent d c = false ->
  csharp parent meth env (Cast c e) = Some (Exn InvalidCastException) /\ cplusplus parent meth env (translate (Cast c e)) = Some (Ret (Obj d)) /\
  csharp parent meth env (Call c (Cast c e)) = Some (Exn InvalidCastException) /\ cplusplus parent meth env (translate (Call c (Cast c e))) = Some (UB OutOfBoundsRead).
Proof.
  intros A B P E D. destruct (same parent meth env A B e P _ E) as [_ E']. cbn [csharp cplusplus translate]. rewrite E, E', D, ?D. repeat split.
Qed.
Print Assumptions C107_cast_refuted.
(** default(C) is null in C# and a new object in C++. *)
Theorem C107_default_refuted parent meth env c :
  csharp parent meth env (IsNull (DefaultClass c)) = Some (Ret (Truth true)) /\ cplusplus parent meth env (translate (IsNull (DefaultClass c))) = Some (Ret (Truth false)).
Proof. split; reflexivity. Qed.
Print Assumptions C107_default_refuted.
(** The program's own structures and enumerations cannot be boxed or unboxed: the C++ is not accepted. *)
Theorem C107_own_refuted parent meth env n z x : env x = ValOwn n z ->
  csharp parent meth env (Unbox (VOwn n) (Box (VOwn n) (Var x))) = Some (Ret (ValOwn n z)) /\
  cplusplus parent meth env (translate (Box (VOwn n) (Var x))) = None /\ (forall e, cplusplus parent meth env (translate (Unbox (VOwn n) e)) = None).
Proof. intro E. cbn. rewrite E. rewrite Nat.eqb_refl. repeat split. Qed.
Print Assumptions C107_own_refuted.

(** a derived object through object and back, a number through a box *)
Example C107_example :
  let parent n := match n with 2%nat => Some 1%nat | _ => None end in
  let meth c := match c with CUser n => Z.of_nat n | _ => 0 end in
  let env x := Val (BInt IInt16 (-5)) in
  plain (Call (CUser 1) (Cast (CUser 1) (Cast CObject (New (CUser 2))))) /\ plain (Unbox (VLib Int16Type) (Cast CObject (Box (VLib Int16Type) (Var 0)))) /\
  (forall x, fine (env x)) /\
  csharp parent meth env (Call (CUser 1) (Cast (CUser 1) (Cast CObject (New (CUser 2))))) = Some (Ret (Val (BInt IInt32 2))) /\
  csharp parent meth env (Unbox (VLib Int16Type) (Cast CObject (Box (VLib Int16Type) (Var 0)))) = Some (Ret (Val (BInt IInt16 (-5)))) /\
  derived parent (CUser 1) (CUser 2) = false.
Proof. cbn. repeat split; try reflexivity; eexists; reflexivity. Qed.
