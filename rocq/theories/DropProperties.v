(** * C108: an operand the translator cannot write does not disappear unnoticed

    [print_without ks i]: the emitted text of an expression that has the instruction [i] at the place [ks], [i] being one
    of the instructions whose visit writes nothing ("is", "as", "await", "??", sizeof, typeof, decimal constants, delegates,
    dynamic operations ...).  [reads] is the C++ grammar of ExprSpec. *)
From Verif Require Import Tac StatementModel ExprModel ExprSpec ExprProofs DropModel DropSpec DropProofs.
Import ListNotations.

(** The frames write what ExprModel writes: with an instruction that is written at the place, the text is that of the whole. *)
Theorem C108_surroundings ks e : print_in ks (print (bare_at ks) e) = print false (plugs ks e).
Proof. exact (print_in_print ks e). Qed.
(** At every place other than those listed in DropSpec the C++ compiler rejects the text, whatever the expression around it is.
    Partial: the places of [unnoticed] remain (see below: they do go unnoticed). *)
Theorem C108_rejected_partial ks i t : unnoticed ks = false -> ~ reads (print_without ks i) t.
Proof. intros H. destruct i; exact (missing_reads ks H t). Qed.
(** ... in particular as either operand of a comparison, a shift, a remainder; as the right operand of any operator; as one of several arguments;
    as a receiver; as an assigned value; as a condition; as the whole expression. *)
Theorem C108_operand op s l ks i t : ~ reads (print_without (FBinR op s l :: ks) i) t.
Proof. apply C108_rejected_partial. reflexivity. Qed.
Theorem C108_comparison k x ks i t : ~ reads (print_without (FCompL k x :: ks) i) t /\ ~ reads (print_without (FCompR k x :: ks) i) t.
Proof. split; apply C108_rejected_partial; reflexivity. Qed.
Theorem C108_one_of_arguments f m b c e c' r ks i t : ~ reads (print_without (FStaticArg f m (ACons c' e b) c r :: ks) i) t /\ ~ reads (print_without (FStaticArg f m b c (ACons c' e r) :: ks) i) t.
Proof. split; apply C108_rejected_partial; [ | destruct b, c]; reflexivity. Qed.
Theorem C108_receiver arrow m a ks i t : ~ reads (print_without (FReceiver None arrow m a :: ks) i) t.
Proof. apply C108_rejected_partial. reflexivity. Qed.
Theorem C108_condition x y ks i t : ~ reads (print_without (FIfC x y :: ks) i) t.
Proof. apply C108_rejected_partial. reflexivity. Qed.
Theorem C108_assigned target c i t : ~ reads (print_without [FAssignV target c] i) t.
Proof. apply C108_rejected_partial. reflexivity. Qed.
Theorem C108_alone i t : ~ reads (print_without [] i) t.
Proof. apply C108_rejected_partial. reflexivity. Qed.

(** ** The other places *)
Lemma reads_meant e : placed e -> reads (print false e) (meant e).
Proof.
  intros P. destruct (proj1 all_good e P) as (_ & _ & G). destruct (G [] ltac:(repeat split; exact I)) as (n & H). rewrite app_nil_r in H. exists n. exact H.
Qed.
(** The only argument of a call: the text is, to the character, the text of the call without arguments ... *)
Theorem C108_lone_argument_refuted f m ks i : placed (plugs ks (CallStatic f m ANil)) ->
  reads (print_without (FStaticArg f m ANil None ANil :: ks) i) (meant (plugs ks (CallStatic f m ANil))).
Proof.
  intros P. replace (print_without (FStaticArg f m ANil None ANil :: ks) i) with (print false (plugs ks (CallStatic f m ANil))).
  - apply reads_meant, P.
  - rewrite <- print_in_print. destruct i; reflexivity.
Qed.
Theorem C108_lone_constructor_argument_refuted is_class f ks i : placed (plugs ks (NewObj is_class f ANil)) ->
  reads (print_without (FNewObj is_class f ANil None ANil :: ks) i) (meant (plugs ks (NewObj is_class f ANil))).
Proof.
  intros P. replace (print_without (FNewObj is_class f ANil None ANil :: ks) i) with (print false (plugs ks (NewObj is_class f ANil))).
  - apply reads_meant, P.
  - rewrite <- print_in_print. destruct i, is_class; reflexivity.
Qed.
(** ... a boxed value becomes the boxed default value *)
Theorem C108_boxed_refuted k i : reads (print_without [FBox k] i) (CNew (TValueOf k) []).
Proof. exists 9%nat. destruct i; reflexivity. Qed.
(** Without its left operand a subtraction is a negation and a product is a dereference. *)
Lemma left_missing o u s r i : (o = Sub /\ u = UNeg) \/ (o = Mul /\ u = UDeref) -> placed r -> 2 <= level r ->
  reads (print_without [FBinL o s r] i) (CUnary u (meant r)).
Proof.
  intros O P L. destruct (proj1 all_good r P) as (_ & G & _).
  assert (X : print_without [FBinL o s r] i = TLP :: TOp (operatorSymbols o) :: print false r ++ [TRP]) by (destruct O as [(-> & ->) | (-> & ->)]; destruct i; reflexivity).
  rewrite X. assert (Y : PA (TLP :: TOp (operatorSymbols o) :: print false r ++ [TRP]) (CUnary u (meant r), [])).
  { apply unary_assign; [ | exact I | exact I]. eapply paren_suffix; [ | | apply R_stop; exact I].
    - destruct O as [(-> & ->) | (-> & ->)]; exact I.
    - apply unary_assign; [ | exact I | exact I]. destruct O as [(-> & ->) | (-> & ->)]; [apply R_neg | apply R_deref]; (apply G; [exact L | exact I]). }
  exact Y.
Qed.
Theorem C108_minus_refuted s r i : placed r -> 2 <= level r -> reads (print_without [FBinL Sub s r] i) (CUnary UNeg (meant r)).
Proof. apply left_missing. left; split; reflexivity. Qed.
Theorem C108_times_refuted s r i : placed r -> 2 <= level r -> reads (print_without [FBinL Mul s r] i) (CUnary UDeref (meant r)).
Proof. apply left_missing. right; split; reflexivity. Qed.

(** f(a, x is C) is rejected, f(x is C) is f(), (x ?? y) - a is -a *)
Example C108_example :
  (forall t, ~ reads (print_without [FStaticArg 1 2 (ACons None (LdLoc 0) ANil) None ANil; FNot; FConv (Some tI4)] IsInst) t) /\
  print_without [FStaticArg 1 2 ANil None ANil] IsInst = [TId (Static 1 2); TLP; TRP] /\
  reads (print_without [FBinL Sub StackI4 (LdLoc 7)] NullCoalescing) (CUnary UNeg (CId (Local 7))) /\
  placed (plugs [FAddr; FCompL Equality (LdcI4' 0)] (CallStatic 1 2 ANil)).
Proof.
  split; [ | split; [reflexivity | split]].
  - intros t. apply (C108_one_of_arguments 1 2 ANil None (LdLoc 0) None ANil).
  - apply C108_minus_refuted; [exact I | cbn; lia].
  - cbn. repeat split; lia.
Qed.
Print Assumptions C108_rejected_partial.
Print Assumptions C108_lone_argument_refuted.
Print Assumptions C108_minus_refuted.
