(** * C59, C75: emitted expressions group as the source does; if statements test their condition *)
From Verif Require Import Tac StatementModel ExprModel ExprSpec ExprProofs.
Import ListNotations.
Local Open Scope Z_scope.

(** ** C59 *)
(** The tokens written for an instruction are one C++ expression, and it is the one meant: same operators, same operands.
    Missing: expressions that are not [placed] (the refutations below). *)
Theorem C59_groups_partial e t : placed e -> (reads (print false e) t <-> t = meant e).
Proof.
  intros P. assert (R : reads (print false e) (meant e)).
  { destruct (proj1 all_good e P) as (_ & _ & H). specialize (H [] ltac:(repeat split)). rewrite app_nil_r in H. exact H. }
  split; [intros H; exact (reads_unique _ _ _ H R)|intros ->; exact R].
Qed.
(** Arithmetic: constants, locals, static fields, operators, comparisons, conversions, complements, calls of static methods with such
    arguments and conditional expressions whose conditions are not conditional expressions themselves.  All of it is read as meant. *)
Fixpoint arithmetic (e : expr) : Prop :=
  match e with
  | LdcI4' _ | LdcI8' _ | LdLoc _ | LdsFlda _ _ => True
  | LdObj e | BitNot e | ConvTo _ e => arithmetic e
  | Binary _ _ l r | Comp _ l r => arithmetic l /\ arithmetic r
  | If c t f => arithmetic c /\ arithmetic t /\ arithmetic f /\ is_if c = false
  | CallStatic _ _ a => arithmetic_args a
  | _ => False
  end
with arithmetic_args (a : args) : Prop := match a with ANil => True | ACons _ e rest => arithmetic e /\ arithmetic_args rest end.
Lemma arithmetic_placed : (forall e, arithmetic e -> placed e /\ 2 <= level e) /\ (forall a, arithmetic_args a -> placed_args a).
Proof.
  apply expr_args_ind; cbn [arithmetic arithmetic_args placed placed_args level]; try (intros; contradiction); try (intros; split; [exact I|lia]).
  - intros n _. split; [exact I|]. destruct (constantConversions n); [lia|]. destruct (n <? 0); lia.
  - intros n _. split; [exact I|]. destruct (constantConversions n); [lia|]. destruct (n <? 0); lia.
  - auto.
  - intros op s l IHl r IHr [Hl Hr]. destruct (IHl Hl), (IHr Hr). split; [tauto|lia].
  - intros k l IHl r IHr [Hl Hr]. destruct (IHl Hl), (IHr Hr). split; [tauto|lia].
  - intros t e IH H. destruct (IH H). split; [tauto|lia].
  - intros e IH H. destruct (IH H). split; [tauto|lia].
  - intros c IHc t IHt f IHf (Hc & Ht & Hf & N). destruct (IHc Hc), (IHt Ht), (IHf Hf). split; [tauto|lia].
  - intros t m a IH H. split; [auto|lia].
  - auto.
  - intros c e IH rest IHr [H Hr]. destruct (IH H). auto.
Qed.
Theorem C59_arithmetic e t : arithmetic e -> (reads (print false e) t <-> t = meant e).
Proof. intros H. apply C59_groups_partial, arithmetic_placed, H. Qed.
(** Different arithmetic expressions are written differently, unless they mean the same C++ expression. *)
Theorem C59_unambiguous a b : placed a -> placed b -> print false a = print false b -> meant a = meant b.
Proof. intros Pa Pb E. apply (C59_groups_partial b); [exact Pb|]. rewrite <- E. apply C59_groups_partial; auto. Qed.
Example C59_example : let e := Binary Mul StackI4 (Binary Add StackI4 (LdLoc 1) (LdcI4' (-5))) (BitNot (ConvTo (Some tI8) (If (Comp LessThan (LdLoc 1) (LdLoc 2)) (LdcI4' 1) (LdLoc 3)))) in
  arithmetic e /\ placed (CallInstance (LdFlda (LdLoc 1) true 7) None true 8 (ACons (Some 9) e (ACons None (LdElema 4 (LdLoc 2) (ACons None (LdLoc 3) ANil)) ANil))) /\
  print false (Binary Mul StackI4 (Binary Add StackI4 (LdLoc 1) (LdcI4' (-5))) (LdLoc 2)) = [TLP; TLP; TId (Local 1); TOp OAdd; TOp OSub; TNum 5; TRP; TOp OMul; TId (Local 2); TRP].
Proof. cbv zeta. split; [cbn; tauto|]. split; [cbn; repeat split; try lia; try tauto; intros; reflexivity|reflexivity]. Qed.
(** Every member access through a cast is written as the cast of a member access: (T* )x->f. *)
Theorem C59_cast_receiver_refuted t e arrow f : placed e -> level e = 3 ->
  reads (print false (LdFlda (CastClass t e) arrow f)) (CCast (TPointer t) (CMember arrow (meant e) (Member f))) /\
  meant (LdFlda (CastClass t e) arrow f) = CMember arrow (CCast (TPointer t) (meant e)) (Member f).
Proof.
  intros P L. split; [|reflexivity]. change (print false (LdFlda (CastClass t e) arrow f)) with (print false (CastClass t (LdFlda e arrow f))).
  apply (C59_groups_partial (CastClass t (LdFlda e arrow f))); [|reflexivity]. cbn [placed level]. repeat split; auto; lia.
Qed.
(** Likewise every call through a cast: ((T)x).M(...) calls M on x and casts the result. *)
Theorem C59_cast_call_refuted t e arrow m a : placed e -> level e = 3 -> placed_args a ->
  reads (print false (CallInstance (CastClass t e) None arrow m a)) (CCast (TPointer t) (CCall (CMember arrow (meant e) (Member m)) (meant_args a))).
Proof.
  intros P L A. change (print false (CallInstance (CastClass t e) None arrow m a)) with (print false (CastClass t (CallInstance e None arrow m a))).
  apply (C59_groups_partial (CastClass t (CallInstance e None arrow m a))); [|reflexivity]. cbn [placed level]. repeat split; auto; lia.
Qed.
(** A conditional expression whose condition is one (every && or || in a condition is) regroups: (c ? t : f) ? a : b becomes c ? t : (f ? a : b). *)
Lemma cond_self a b d : a <> CCond a b d.
Proof. revert b d. induction a; intros b d E; try discriminate E. injection E as E _ _. exact (IHa1 _ _ E). Qed.
Theorem C59_condition_refuted c t f a b : placed c -> placed t -> placed f -> placed a -> placed b -> 2 <= level c -> is_if c = false ->
  reads (print false (If (If c t f) a b)) (CCond (meant c) (meant t) (CCond (meant f) (meant a) (meant b))) /\
  CCond (meant c) (meant t) (CCond (meant f) (meant a) (meant b)) <> meant (If (If c t f) a b).
Proof.
  intros Pc Pt Pf Pa Pb Lc Nc. split; [|cbn [meant]; intros E; injection E as E _ _; exact (cond_self _ _ _ E)].
  assert (X : PA (print false (If (If c t f) a b)) (CCond (meant c) (meant t) (CCond (meant f) (meant a) (meant b)), [])); [|exact X].
  destruct (proj1 all_good c Pc) as (_ & C2 & _). destruct (proj1 all_good t Pt) as (_ & _ & T1). destruct (proj1 all_good f Pf) as (_ & _ & F1). destruct (proj1 all_good a Pa) as (_ & _ & A1). destruct (proj1 all_good b Pb) as (_ & _ & B1).
  cbn [print]. assert (E : print true c = print false c) by (destruct c; try reflexivity; discriminate). rewrite E. norm.
  assert (Par : forall e r, good1 e -> no_suffix r -> PU (TLP :: print false e ++ TRP :: r) (meant e, r)) by (intros e r G N; eapply paren_suffix; [apply print_paren|apply G, ends_rp|apply R_stop, N]).
  apply unary_assign; [|exact I|exact I]. eapply paren_suffix; [apply print_paren| |apply R_stop; exact I].
  eapply R_cond; [eapply R_binary; [apply (C2 Lc); exact I|apply R_cstop; exact I]| |].
  - apply unary_assign; [apply (Par t); [exact T1|exact I]|exact I|exact I].
  - eapply R_cond; [eapply R_binary; [apply (Par f); [exact F1|exact I]|apply R_cstop; exact I]| |].
    + apply unary_assign; [apply (Par a); [exact A1|exact I]|exact I|exact I].
    + apply unary_assign; [apply (Par b); [exact B1|exact I]|exact I|exact I].
Qed.
(** An assignment used as an operand assigns to the operator's result: l op (v = x) becomes (l op v) = x. *)
Theorem C59_assignment_operand_refuted op l v x : op <> Div -> op <> Rem -> placed l -> placed x -> 2 <= level l ->
  reads (print false (Binary op StackI4 l (Assign (LdLoc v) None x))) (CAssign None (CBin (operatorSymbols op) (meant l) (CId (Local v))) (meant x)).
Proof.
  intros N1 N2 Pl Px Ll. destruct (proj1 all_good l Pl) as (_ & L2 & _). destruct (proj1 all_good x Px) as (_ & _ & X1).
  assert (X : PA (print false (Binary op StackI4 l (Assign (LdLoc v) None x))) (CAssign None (CBin (operatorSymbols op) (meant l) (CId (Local v))) (meant x), [])); [|exact X].
  assert (E : print false (Binary op StackI4 l (Assign (LdLoc v) None x)) = TLP :: print false l ++ TOp (operatorSymbols op) :: TId (Local v) :: TAssign None :: print false x ++ [TRP]) by (destruct op; try reflexivity; congruence). rewrite E.
  apply unary_assign; [|exact I|exact I]. eapply paren_suffix; [apply print_paren| |apply R_stop; exact I].
  eapply R_assign; [|apply X1, ends_rp]. eapply R_binary; [apply (L2 Ll); exact I|]. eapply R_climb; [destruct op; cbn; lia| |apply R_cstop; exact I]. eapply R_binary; [apply ident_suffix, R_stop; exact I|apply R_cstop; exact I].
Qed.
(** A member of a fresh array is not a C++ expression at all. *)
Theorem C59_fresh_array_refuted t n : 0 <= n -> constantConversions n = None -> forall u, ~ reads (print false (LdLen (NewArr t (ACons None (LdcI4' n) ANil)))) u.
Proof.
  intros N C u [k H]. cbn [print print_args] in H. unfold ConvertConstants in H. rewrite C in H. replace (n <? 0) with false in H by lia. cbn [app] in H.
  assert (X : p_assign 20 [TNew; TType TArray; TLP; TId (TypeTag t); TComma; TNum n; TRP; TArrow; TId get_Length; TLP; TRP] = Some (CNew TArray [CId (TypeTag t); CNum n], [TArrow; TId get_Length; TLP; TRP])) by reflexivity.
  apply (up_assign 20) in H. apply (up_assign k) in X. rewrite Nat.add_comm in X. congruence.
Qed.

(** ** C75 *)
(** If statements whose condition is not itself a conditional expression test exactly that condition.
    Missing: conditions with && and || (refuted below). *)
Theorem C75_condition_partial c t : placed c -> is_if c = false -> (reads (if_statement_condition c) t <-> t = meant c).
Proof. intros P N. assert (E : if_statement_condition c = print false c) by (destruct c; try reflexivity; discriminate). rewrite E. apply C59_groups_partial, P. Qed.
(** What a condition is worth when the locals have the truth values [v]. *)
Fixpoint holds (v : Z -> bool) (c : cexpr) : option bool :=
  match c with
  | CId (Local x) => Some (v x)
  | CNum n => Some (negb (n =? 0))
  | CCond c t f => match holds v c with Some true => holds v t | Some false => holds v f | None => None end
  | _ => None
  end.
(** a && b is the instruction "if a then b else 0", a || b is "if a then 1 else b". *)
Definition logic_and (a b : expr) : expr := If a b (LdcI4' 0).
Definition logic_or (a b : expr) : expr := If a (LdcI4' 1) b.
(** Every conjunction loses all but its first operand, every disjunction likewise. *)
Theorem C75_logic_refuted a t f : if_statement_condition (If a t f) = if_statement_condition a.
Proof. reflexivity. Qed.
Theorem C75_and_refuted x y : x <> y -> exists v u, reads (if_statement_condition (logic_and (LdLoc x) (LdLoc y))) u /\ holds v u = Some true /\ holds v (meant (logic_and (LdLoc x) (LdLoc y))) = Some false.
Proof.
  intros N. exists (fun z => z =? x), (CId (Local x)). split; [apply (C59_groups_partial (LdLoc x)); [exact I|reflexivity]|]. cbn. rewrite Z.eqb_refl. split; [reflexivity|]. replace (y =? x) with false by (symmetry; apply Z.eqb_neq; congruence). reflexivity.
Qed.
Theorem C75_or_refuted x y : x <> y -> exists v u, reads (if_statement_condition (logic_or (LdLoc x) (LdLoc y))) u /\ holds v u = Some false /\ holds v (meant (logic_or (LdLoc x) (LdLoc y))) = Some true.
Proof.
  intros N. exists (fun z => z =? y), (CId (Local x)). split; [apply (C59_groups_partial (LdLoc x)); [exact I|reflexivity]|]. cbn. rewrite Z.eqb_refl. replace (x =? y) with false by (symmetry; apply Z.eqb_neq; congruence). split; reflexivity.
Qed.
Example C75_example : let c := Comp LessThan (LdLoc 1) (Binary Add StackI4 (LdLoc 2) (LdcI4' 1)) in placed c /\ is_if c = false /\ if_statement_condition c = [TLP; TLP; TId (Local 1); TRP; TOp OLt; TLP; TId (Local 2); TOp OAdd; TNum 1; TRP; TRP].
Proof. cbv zeta. split; [cbn; repeat split; try lia; right; lia|split; reflexivity]. Qed.
Print Assumptions C59_groups_partial.
Print Assumptions C59_arithmetic.
Print Assumptions C59_condition_refuted.
Print Assumptions C75_condition_partial.
