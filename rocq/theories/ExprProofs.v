(** * Proofs for C59 *)
From Verif Require Import Tac StatementModel ExprModel ExprSpec.
Import ListNotations.
Local Open Scope Z_scope.

(** ** More fuel changes nothing *)
Definition mono_at (n : nat) : Prop :=
  (forall ts x, p_assign n ts = Some x -> p_assign (S n) ts = Some x) /\
  (forall p ts x, p_binary n p ts = Some x -> p_binary (S n) p ts = Some x) /\
  (forall p l ts x, p_climb n p l ts = Some x -> p_climb (S n) p l ts = Some x) /\
  (forall ts x, p_unary n ts = Some x -> p_unary (S n) ts = Some x) /\
  (forall e ts x, p_postfix n e ts = Some x -> p_postfix (S n) e ts = Some x) /\
  (forall ts x, p_primary n ts = Some x -> p_primary (S n) ts = Some x) /\
  (forall ts x, p_args n ts = Some x -> p_args (S n) ts = Some x) /\
  (forall ts x, p_more n ts = Some x -> p_more (S n) ts = Some x).
Lemma unfold_assign n ts : p_assign (S n) ts =
    match p_binary n 1 ts with
    | Some (l, TQ :: r) =>
        match p_assign n r with
        | Some (t, TColon :: r) => match p_assign n r with Some (f, r) => Some (CCond l t f, r) | None => None end
        | _ => None
        end
    | Some (l, TAssign o :: r) => match p_assign n r with Some (v, r) => Some (CAssign o l v, r) | None => None end
    | x => x
    end.
Proof. reflexivity. Qed.
Lemma unfold_binary n p ts : p_binary (S n) p ts = match p_unary n ts with Some (l, r) => p_climb n p l r | None => None end.
Proof. reflexivity. Qed.
Lemma unfold_climb n p l ts : p_climb (S n) p l ts =
    match ts with
    | TOp o :: r =>
        if prec o <? p then Some (l, ts)
        else match p_binary n (prec o + 1) r with Some (x, r) => p_climb n p (CBin o l x) r | None => None end
    | _ => Some (l, ts)
    end.
Proof. reflexivity. Qed.
Lemma unfold_unary n ts : p_unary (S n) ts =
    match ts with
    | TTilde :: r => match p_unary n r with Some (e, r) => Some (CUnary UNot e, r) | None => None end
    | TOp OSub :: r => match p_unary n r with Some (e, r) => Some (CUnary UNeg e, r) | None => None end
    | TOp OMul :: r => match p_unary n r with Some (e, r) => Some (CUnary UDeref e, r) | None => None end
    | TIncr up :: r => match p_unary n r with Some (e, r) => Some (CPre up e, r) | None => None end
    | TNew :: TType t :: TLP :: r => match p_args n r with Some (a, r) => Some (CNew t a, r) | None => None end
    | TLP :: TType t :: TRP :: r => match p_unary n r with Some (e, r) => Some (CCast t e, r) | None => None end
    | _ => match p_primary n ts with Some (e, r) => p_postfix n e r | None => None end
    end.
Proof. reflexivity. Qed.
Lemma unfold_postfix n e ts : p_postfix (S n) e ts =
    match ts with
    | TArrow :: TId i :: r => p_postfix n (CMember true e i) r
    | TDot :: TId i :: r => p_postfix n (CMember false e i) r
    | TLP :: r => match p_args n r with Some (a, r) => p_postfix n (CCall e a) r | None => None end
    | TIncr up :: r => p_postfix n (CPost up e) r
    | _ => Some (e, ts)
    end.
Proof. reflexivity. Qed.
Lemma unfold_primary n ts : p_primary (S n) ts =
    match ts with
    | TNum k :: r => Some (CNum k, r)
    | TStr s :: r => Some (CStr s, r)
    | TNullptr :: r => Some (CNull, r)
    | TId i :: r => Some (CId i, r)
    | TType t :: TLP :: r => match p_args n r with Some (a, r) => Some (CConstruct t a, r) | None => None end
    | TLP :: r => match p_assign n r with Some (e, TRP :: r) => Some (e, r) | _ => None end
    | _ => None
    end.
Proof. reflexivity. Qed.
Lemma unfold_args n ts : p_args (S n) ts = match ts with TRP :: r => Some ([], r) | _ => p_more n ts end.
Proof. reflexivity. Qed.
Lemma unfold_more n ts : p_more (S n) ts =
    match p_assign n ts with
    | Some (e, TRP :: r) => Some ([e], r)
    | Some (e, TComma :: r) => match p_more n r with Some (a, r) => Some (e :: a, r) | None => None end
    | _ => None
    end.
Proof. reflexivity. Qed.
Lemma mono_all n : mono_at n.
Proof.
  induction n as [|n (IA & IB & IC & IU & IP & IR & IG & IM)]; [repeat split; discriminate|].
  assert (A : forall ts x, p_assign (S n) ts = Some x -> p_assign (S (S n)) ts = Some x).
  { intros ts x. rewrite !unfold_assign. destruct (p_binary n 1 ts) as [[l r]|] eqn:E; [rewrite (IB _ _ _ E)|discriminate].
    destruct r as [|t r]; [auto|]. destruct t; auto.
    - destruct (p_assign n r) as [[t r1]|] eqn:E1; [rewrite (IA _ _ E1)|discriminate]. destruct r1 as [|u r1]; [discriminate|]. destruct u; try discriminate.
      destruct (p_assign n r1) as [[f r2]|] eqn:E2; [rewrite (IA _ _ E2); auto|discriminate].
    - destruct (p_assign n r) as [[t r1]|] eqn:E1; [rewrite (IA _ _ E1); auto|discriminate]. }
  assert (B : forall p ts x, p_binary (S n) p ts = Some x -> p_binary (S (S n)) p ts = Some x).
  { intros p ts x. rewrite !unfold_binary. destruct (p_unary n ts) as [[l r]|] eqn:E; [rewrite (IU _ _ E); apply IC|discriminate]. }
  assert (C : forall p l ts x, p_climb (S n) p l ts = Some x -> p_climb (S (S n)) p l ts = Some x).
  { intros p l ts x. rewrite !unfold_climb. destruct ts as [|t r]; [auto|]. destruct t; auto. destruct (prec o <? p); [auto|].
    destruct (p_binary n (prec o + 1) r) as [[y r1]|] eqn:E; [rewrite (IB _ _ _ E); apply IC|discriminate]. }
  assert (U : forall ts x, p_unary (S n) ts = Some x -> p_unary (S (S n)) ts = Some x).
  { intros ts x. rewrite !unfold_unary.
    assert (D : match p_primary n ts with Some (e, r) => p_postfix n e r | None => None end = Some x -> match p_primary (S n) ts with Some (e, r) => p_postfix (S n) e r | None => None end = Some x).
    { destruct (p_primary n ts) as [[e r]|] eqn:E; [rewrite (IR _ _ E); apply IP|discriminate]. }
    assert (V : forall r (f : cexpr -> cexpr), match p_unary n r with Some (e, r) => Some (f e, r) | None => None end = Some x -> match p_unary (S n) r with Some (e, r) => Some (f e, r) | None => None end = Some x).
    { intros r f. destruct (p_unary n r) as [[e r1]|] eqn:E; [rewrite (IU _ _ E); auto|discriminate]. }
    destruct ts as [|t r]; [exact D|]. destruct t; try exact D; try apply V.
    - destruct r as [|u r]; [exact D|]. destruct u; try exact D. destruct r as [|w r]; [exact D|]. destruct w; try exact D. destruct (p_args n r) as [[a r1]|] eqn:E; [rewrite (IG _ _ E); auto|discriminate].
    - destruct r as [|u r]; [exact D|]. destruct u; try exact D. destruct r as [|w r]; [exact D|]. destruct w; try exact D. apply V.
    - destruct o; try exact D; apply V. }
  assert (P : forall e ts x, p_postfix (S n) e ts = Some x -> p_postfix (S (S n)) e ts = Some x).
  { intros e ts x. rewrite !unfold_postfix. destruct ts as [|t r]; [auto|]. destruct t; auto.
    - destruct (p_args n r) as [[a r1]|] eqn:E; [rewrite (IG _ _ E); apply IP|discriminate].
    - destruct r as [|u r]; [auto|]. destruct u; auto.
    - destruct r as [|u r]; [auto|]. destruct u; auto. }
  assert (R : forall ts x, p_primary (S n) ts = Some x -> p_primary (S (S n)) ts = Some x).
  { intros ts x. rewrite !unfold_primary. destruct ts as [|t r]; [auto|]. destruct t; auto.
    - destruct r as [|u r]; [auto|]. destruct u; auto. destruct (p_args n r) as [[a r1]|] eqn:E; [rewrite (IG _ _ E); auto|discriminate].
    - destruct (p_assign n r) as [[e r1]|] eqn:E; [rewrite (IA _ _ E); auto|discriminate]. }
  assert (M : forall ts x, p_more (S n) ts = Some x -> p_more (S (S n)) ts = Some x).
  { intros ts x. rewrite !unfold_more. destruct (p_assign n ts) as [[e r]|] eqn:E; [rewrite (IA _ _ E)|discriminate]. destruct r as [|t r]; [auto|]. destruct t; auto.
    destruct (p_more n r) as [[a r1]|] eqn:E1; [rewrite (IM _ _ E1); auto|discriminate]. }
  assert (G : forall ts x, p_args (S n) ts = Some x -> p_args (S (S n)) ts = Some x).
  { intros ts x. rewrite !unfold_args. destruct ts as [|t r]; [auto|]. destruct t; auto. }
  repeat split; assumption.
Qed.
Lemma up_assign k n ts x : p_assign n ts = Some x -> p_assign (k + n) ts = Some x.
Proof. induction k as [|k IH]; [auto|]. intros H. apply (mono_all (k + n)), IH, H. Qed.
Lemma up_binary k n p ts x : p_binary n p ts = Some x -> p_binary (k + n) p ts = Some x.
Proof. induction k as [|k IH]; [auto|]. intros H. apply (mono_all (k + n)), IH, H. Qed.
Lemma up_climb k n p l ts x : p_climb n p l ts = Some x -> p_climb (k + n) p l ts = Some x.
Proof. induction k as [|k IH]; [auto|]. intros H. apply (mono_all (k + n)), IH, H. Qed.
Lemma up_unary k n ts x : p_unary n ts = Some x -> p_unary (k + n) ts = Some x.
Proof. induction k as [|k IH]; [auto|]. intros H. apply (mono_all (k + n)), IH, H. Qed.
Lemma up_postfix k n e ts x : p_postfix n e ts = Some x -> p_postfix (k + n) e ts = Some x.
Proof. induction k as [|k IH]; [auto|]. intros H. apply (mono_all (k + n)), IH, H. Qed.
Lemma up_primary k n ts x : p_primary n ts = Some x -> p_primary (k + n) ts = Some x.
Proof. induction k as [|k IH]; [auto|]. intros H. apply (mono_all (k + n)), IH, H. Qed.
Lemma up_args k n ts x : p_args n ts = Some x -> p_args (k + n) ts = Some x.
Proof. induction k as [|k IH]; [auto|]. intros H. apply (mono_all (k + n)), IH, H. Qed.
Lemma up_more k n ts x : p_more n ts = Some x -> p_more (k + n) ts = Some x.
Proof. induction k as [|k IH]; [auto|]. intros H. apply (mono_all (k + n)), IH, H. Qed.
(** ** The grammar as rules *)
Definition PA ts x := exists n, p_assign n ts = Some x.
Definition PB p ts x := exists n, p_binary n p ts = Some x.
Definition PC p l ts x := exists n, p_climb n p l ts = Some x.
Definition PU ts x := exists n, p_unary n ts = Some x.
Definition PS e ts x := exists n, p_postfix n e ts = Some x.
Definition PR ts x := exists n, p_primary n ts = Some x.
Definition PG ts x := exists n, p_args n ts = Some x.
Definition PM ts x := exists n, p_more n ts = Some x.
Lemma reads_unique ts t u : reads ts t -> reads ts u -> t = u.
Proof. intros [n H] [m K]. apply (up_assign m) in H. apply (up_assign n) in K. rewrite Nat.add_comm in K. congruence. Qed.
Definition no_suffix (ts : list token) : Prop := match ts with (TArrow | TDot | TLP | TIncr _) :: _ => False | _ => True end.
Definition no_op (ts : list token) : Prop := match ts with TOp _ :: _ => False | _ => True end.
Definition no_cond (ts : list token) : Prop := match ts with (TQ | TAssign _) :: _ => False | _ => True end.
Definition ends (ts : list token) : Prop := no_suffix ts /\ no_op ts /\ no_cond ts.
Definition plain_start (ts : list token) : Prop :=
  match ts with
  | (TNum _ | TStr _ | TNullptr | TId _ | TType _) :: _ => True
  | TLP :: TType _ :: TRP :: _ => False
  | TLP :: _ => True
  | _ => False
  end.
Lemma R_paren ts e r : PA ts (e, TRP :: r) -> PR (TLP :: ts) (e, r).
Proof. intros [n H]. exists (S n). rewrite unfold_primary, H. reflexivity. Qed.
Lemma R_construct t ts a r : PG ts (a, r) -> PR (TType t :: TLP :: ts) (CConstruct t a, r).
Proof. intros [n H]. exists (S n). rewrite unfold_primary, H. reflexivity. Qed.
Lemma R_unary ts e r x : plain_start ts -> PR ts (e, r) -> PS e r x -> PU ts x.
Proof.
  intros S0 [n H] [m K]. exists (S (m + n)). rewrite unfold_unary. apply (up_primary m) in H. apply (up_postfix n) in K. rewrite Nat.add_comm in K.
  assert (D : match p_primary (m + n) ts with Some (e, r) => p_postfix (m + n) e r | None => None end = Some x) by (rewrite H; exact K).
  destruct ts as [|t ts]; [exact D|]. destruct t; try exact D; try contradiction. destruct ts as [|u ts]; [exact D|]. destruct u; try exact D. destruct ts as [|w ts]; [exact D|]. destruct w; try exact D. contradiction.
Qed.
Lemma R_stop e r : no_suffix r -> PS e r (e, r).
Proof. intros H. exists 1%nat. rewrite unfold_postfix. destruct r as [|t r]; [reflexivity|]. destruct t; try reflexivity; contradiction. Qed.
Lemma R_member arrow e i r x : PS (CMember arrow e i) r x -> PS e ((if arrow then TArrow else TDot) :: TId i :: r) x.
Proof. intros [n H]. exists (S n). rewrite unfold_postfix. destruct arrow; exact H. Qed.
Lemma R_call e ts a r x : PG ts (a, r) -> PS (CCall e a) r x -> PS e (TLP :: ts) x.
Proof. intros [n H] [m K]. exists (S (m + n)). rewrite unfold_postfix. rewrite (up_args m _ _ _ H). rewrite Nat.add_comm. apply up_postfix, K. Qed.
Lemma R_post e up r x : PS (CPost up e) r x -> PS e (TIncr up :: r) x.
Proof. intros [n H]. exists (S n). rewrite unfold_postfix. exact H. Qed.
Lemma R_cast t ts e r : PU ts (e, r) -> PU (TLP :: TType t :: TRP :: ts) (CCast t e, r).
Proof. intros [n H]. exists (S n). rewrite unfold_unary, H. reflexivity. Qed.
Lemma R_not ts e r : PU ts (e, r) -> PU (TTilde :: ts) (CUnary UNot e, r).
Proof. intros [n H]. exists (S n). rewrite unfold_unary, H. reflexivity. Qed.
Lemma R_neg ts e r : PU ts (e, r) -> PU (TOp OSub :: ts) (CUnary UNeg e, r).
Proof. intros [n H]. exists (S n). rewrite unfold_unary, H. reflexivity. Qed.
Lemma R_deref ts e r : PU ts (e, r) -> PU (TOp OMul :: ts) (CUnary UDeref e, r).
Proof. intros [n H]. exists (S n). rewrite unfold_unary, H. reflexivity. Qed.
Lemma R_pre up ts e r : PU ts (e, r) -> PU (TIncr up :: ts) (CPre up e, r).
Proof. intros [n H]. exists (S n). rewrite unfold_unary, H. reflexivity. Qed.
Lemma R_new t ts a r : PG ts (a, r) -> PU (TNew :: TType t :: TLP :: ts) (CNew t a, r).
Proof. intros [n H]. exists (S n). rewrite unfold_unary, H. reflexivity. Qed.
Lemma R_binary p ts l r x : PU ts (l, r) -> PC p l r x -> PB p ts x.
Proof. intros [n H] [m K]. exists (S (m + n)). rewrite unfold_binary. rewrite (up_unary m _ _ _ H). rewrite Nat.add_comm. apply up_climb, K. Qed.
Lemma R_cstop p l ts : no_op ts -> PC p l ts (l, ts).
Proof. intros H. exists 1%nat. rewrite unfold_climb. destruct ts as [|t ts]; [reflexivity|]. destruct t; try reflexivity. contradiction. Qed.
Lemma R_climb p l o ts y r x : p <= prec o -> PB (prec o + 1) ts (y, r) -> PC p (CBin o l y) r x -> PC p l (TOp o :: ts) x.
Proof. intros P [n H] [m K]. exists (S (m + n)). rewrite unfold_climb. replace (prec o <? p) with false by lia. rewrite (up_binary m _ _ _ _ H). rewrite Nat.add_comm. apply up_climb, K. Qed.
Lemma R_assign_plain ts l r : PB 1 ts (l, r) -> no_cond r -> PA ts (l, r).
Proof. intros [n H] C. exists (S n). rewrite unfold_assign, H. destruct r as [|t r]; [reflexivity|]. destruct t; try reflexivity; contradiction. Qed.
Lemma R_cond ts l r t r1 f r2 : PB 1 ts (l, TQ :: r) -> PA r (t, TColon :: r1) -> PA r1 (f, r2) -> PA ts (CCond l t f, r2).
Proof. intros [n H] [m K] [k L]. exists (S (k + (m + n))). rewrite unfold_assign. rewrite (up_binary k _ _ _ _ (up_binary m _ _ _ _ H)). rewrite (up_assign k (m + n) r _ ltac:(rewrite Nat.add_comm; apply up_assign, K)). rewrite Nat.add_comm. rewrite (up_assign _ _ _ _ L). reflexivity. Qed.
Lemma R_assign o ts l r v r1 : PB 1 ts (l, TAssign o :: r) -> PA r (v, r1) -> PA ts (CAssign o l v, r1).
Proof. intros [n H] [m K]. exists (S (m + n)). rewrite unfold_assign. rewrite (up_binary m _ _ _ _ H). rewrite Nat.add_comm. rewrite (up_assign _ _ _ _ K). reflexivity. Qed.
Lemma R_args_nil r : PG (TRP :: r) ([], r).
Proof. exists 1%nat. reflexivity. Qed.
Definition not_rp (ts : list token) : Prop := match ts with TRP :: _ => False | _ => True end.
Lemma R_args ts x : not_rp ts -> PM ts x -> PG ts x.
Proof. intros S0 [n H]. exists (S n). rewrite unfold_args. destruct ts as [|t ts]; [exact H|]. destruct t; try exact H. contradiction. Qed.
Lemma R_last ts e r : PA ts (e, TRP :: r) -> PM ts ([e], r).
Proof. intros [n H]. exists (S n). rewrite unfold_more, H. reflexivity. Qed.
Lemma R_more ts e r a r1 : PA ts (e, TComma :: r) -> PM r (a, r1) -> PM ts (e :: a, r1).
Proof. intros [n H] [m K]. exists (S (m + n)). rewrite unfold_more. rewrite (up_assign m _ _ _ H). rewrite Nat.add_comm. rewrite (up_more _ _ _ _ K). reflexivity. Qed.
(** unary expressions where an assignment expression is expected *)
Lemma unary_assign ts e r : PU ts (e, r) -> no_op r -> no_cond r -> PA ts (e, r).
Proof. intros H O C. apply R_assign_plain; [|exact C]. eapply R_binary; [exact H|]. apply R_cstop, O. Qed.
(** one operator between two unary expressions *)
Lemma binary_assign o ts l r y r1 : PU ts (l, TOp o :: r) -> PU r (y, r1) -> no_op r1 -> no_cond r1 -> PA ts (CBin o l y, r1).
Proof.
  intros H K O C. apply R_assign_plain; [|exact C]. eapply R_binary; [exact H|]. eapply R_climb; [destruct o; cbn; lia| |apply R_cstop, O]. eapply R_binary; [exact K|]. apply R_cstop, O.
Qed.
(** ** Starts *)
Definition start_ok (ts : list token) : Prop := match ts with TRP :: _ => False | TType _ :: TRP :: _ => False | [] => False | _ => True end.
Scheme expr_mind := Induction for expr Sort Prop with args_mind := Induction for args Sort Prop.
Combined Scheme expr_args_ind from expr_mind, args_mind.
Lemma start_app a b : start_ok a -> (match a with [TType _] => False | _ => True end) -> start_ok (a ++ b).
Proof. destruct a as [|t a]; [intros []|]. destruct t; cbn; try (intros; exact I); try contradiction. destruct a as [|u a]; [intros _ []|]. destruct u; auto. Qed.
Definition start_good (a : list token) : Prop := start_ok a /\ match a with [TType _] => False | _ => True end.
Lemma good_app a b : start_good a -> start_good (a ++ b).
Proof. intros [H K]. split; [apply start_app; assumption|]. destruct a as [|t a]; [destruct H|]. destruct t; cbn; auto. destruct a as [|u a]; [destruct K|]. exact I. Qed.
Lemma constant_start n : start_good (ConvertConstants n).
Proof. unfold ConvertConstants. destruct (constantConversions n); [split; exact I|]. destruct (n <? 0); split; exact I. Qed.
Lemma print_start e : forall bare, start_good (print bare e).
Proof.
  revert e. fix IH 1. intros e bare. destruct e; cbn [print]; try (split; exact I); try apply constant_start; try (apply good_app, IH); try apply IH.
  - destruct op; try (split; exact I); destruct (is_floating s); try (split; exact I). destruct (is_integral s); split; exact I.
  - destruct bare; [apply good_app, IH|split; exact I].
  - destruct wrap; [split; exact I|apply good_app, IH].
  - destruct is_class; split; exact I.
  - destruct is_class; split; exact I.
  - apply good_app. destruct box; [split; exact I|apply IH].
Qed.
Lemma start_plain ts : start_ok ts -> plain_start (TLP :: ts).
Proof. destruct ts as [|t ts]; [intros []|]. destruct t; cbn; auto. Qed.
Lemma print_paren bare e r : plain_start (TLP :: print bare e ++ r).
Proof. apply start_plain. apply start_app; apply print_start. Qed.
Lemma start_not_rp ts : start_ok ts -> not_rp ts.
Proof. destruct ts as [|t ts]; [intros []|]. destruct t; cbn; auto. Qed.
Lemma plain_app a b : plain_start a -> (match a with [TLP] | [TLP; TType _] => False | _ => True end) -> plain_start (a ++ b).
Proof.
  destruct a as [|t a]; [intros []|]. destruct t; cbn; auto. destruct a as [|u a]; [intros _ []|]. destruct u; cbn; auto. destruct a as [|w a]; [intros _ []|]. auto.
Qed.
Lemma plain_level e : level e = 3 -> placed e -> forall r, plain_start (print false e ++ r).
Proof.
  revert e. fix IH 1. intros e L P r. destruct e; cbn [print]; rewrite <- ?app_assoc; try exact I; cbn [level placed] in L, P; try discriminate;
    try (apply IH; tauto); try (cbn [app]; rewrite <- ?app_assoc; apply print_paren).
  - unfold ConvertConstants. destruct (constantConversions n); [exact I|]. destruct (n <? 0); [discriminate|exact I].
  - unfold ConvertConstants. destruct (constantConversions n); [exact I|]. destruct (n <? 0); [discriminate|exact I].
  - destruct op; cbn [app]; rewrite <- ?app_assoc; try apply print_paren; destruct (is_floating s); try exact I; cbn [app]; rewrite <- ?app_assoc; try apply print_paren. destruct (is_integral s); [exact I|]. cbn [app]. rewrite <- app_assoc. apply print_paren.
  - destruct t; [exact I|]. cbn [app]. rewrite <- app_assoc. apply print_paren.
  - destruct wrap; [exact I|]. rewrite <- app_assoc. apply IH; tauto.
  - destruct is_class; exact I.
  - destruct is_class; [discriminate|exact I].
  - destruct box; [exact I|]. rewrite <- ?app_assoc. apply IH; tauto.
Qed.
(** ** Every expression reads as meant *)
Lemma paren_suffix ts e r x : plain_start (TLP :: ts) -> PA ts (e, TRP :: r) -> PS e r x -> PU (TLP :: ts) x.
Proof. intros S0 H K. eapply R_unary; [exact S0|apply R_paren, H|exact K]. Qed.
Lemma ident_suffix i r x : PS (CId i) r x -> PU (TId i :: r) x.
Proof. intros H. eapply R_unary; [exact I|exists 1%nat; reflexivity|exact H]. Qed.
Lemma ends_rp r : ends (TRP :: r).
Proof. repeat split. Qed.
Lemma ends_comma r : ends (TComma :: r).
Proof. repeat split. Qed.
Definition good3 (e : expr) : Prop := forall r x, PS (meant e) r x -> PU (print false e ++ r) x.
Definition good2 (e : expr) : Prop := forall r, no_suffix r -> PU (print false e ++ r) (meant e, r).
Definition good1 (e : expr) : Prop := forall r, ends r -> PA (print false e ++ r) (meant e, r).
Definition good (e : expr) : Prop := placed e -> (level e = 3 -> good3 e) /\ (2 <= level e -> good2 e) /\ good1 e.
Definition good_args (a : args) : Prop := placed_args a -> (forall r, PG (print_args a ++ TRP :: r) (meant_args a, r)) /\ (a <> ANil -> forall r, PM (print_args a ++ TRP :: r) (meant_args a, r)).
Lemma good3_2 e : good3 e -> good2 e.
Proof. intros H r N. apply H, R_stop, N. Qed.
Lemma good2_1 e : good2 e -> good1 e.
Proof. intros H r (N & O & C). apply unary_assign; auto. Qed.
Lemma from3 e : (placed e -> good3 e) -> good e.
Proof. intros H P. split; [auto|]. split; [intros _; apply good3_2; auto|apply good2_1, good3_2; auto]. Qed.
Lemma from2 e : level e = 2 -> (placed e -> good2 e) -> good e.
Proof. intros L H P. split; [lia|]. split; [auto|apply good2_1; auto]. Qed.
Lemma from1 e : level e = 1 -> (placed e -> good1 e) -> good e.
Proof. intros L H P. split; [lia|]. split; [lia|auto]. Qed.
Lemma good_constant n e : print false e = ConvertConstants n -> meant e = constant n -> level e = match constantConversions n with Some _ => 3 | None => if n <? 0 then 2 else 3 end -> good e.
Proof.
  intros E M L. unfold ConvertConstants, constant in *. destruct (constantConversions n) as [i|] eqn:C.
  - apply from3. intros _ r x H. rewrite E. rewrite M in H. apply ident_suffix, H.
  - destruct (n <? 0) eqn:N.
    + apply from2; [exact L|]. intros _ r H. rewrite E, M. cbn [app]. apply R_neg. eapply R_unary; [exact I|exists 1%nat; reflexivity|apply R_stop, H].
    + apply from3. intros _ r x H. rewrite E. rewrite M in H. eapply R_unary; [exact I|exists 1%nat; reflexivity|exact H].
Qed.
Ltac norm := repeat (progress (cbn [app]; rewrite <- ?app_assoc)); cbn [app].
Lemma all_good : (forall e, good e) /\ (forall a, good_args a).
Proof.
  apply expr_args_ind.
  - intros n. apply (good_constant n); reflexivity.
  - intros n. apply (good_constant n); reflexivity.
  - apply from3. intros _ r x H. eapply R_unary; [exact I|exists 1%nat; reflexivity|exact H].
  - intros s. apply from3. intros _ r x H. cbn [print]. norm. eapply paren_suffix; [exact I| |exact H]. apply unary_assign; [|exact I|exact I]. apply R_new. apply R_args; [exact I|]. apply R_last. apply unary_assign; [|exact I|exact I]. eapply R_unary; [exact I|exists 1%nat; reflexivity|apply R_stop; exact I].
  - intros v. apply from3. intros _ r x H. apply ident_suffix, H.
  - intros t f. apply from3. intros _ r x H. apply ident_suffix, H.
  - intros e IH. exact IH.
  - (* Binary *) intros op s l IHl r IHr. apply from3. intros (Pl & Pr & Lv) rest x H. destruct (IHl Pl) as (_ & L2 & L1). destruct (IHr Pr) as (_ & R2 & R1).
    assert (Simple : 2 <= level l /\ 2 <= level r -> forall o, PS (CBin o (meant l) (meant r)) rest x -> PU ((TLP :: print false l ++ TOp o :: print false r ++ [TRP]) ++ rest) x).
    { intros [A B] o K. norm. eapply paren_suffix; [apply print_paren| |exact K]. eapply binary_assign; [apply (L2 A); exact I|apply (R2 B); exact I|exact I|exact I]. }
    assert (Divide : 2 <= level l /\ 2 <= level r -> forall t, PS (CCall (CId MathDivide) [CCast t (meant l); CCast t (meant r)]) rest x -> PU ((TId MathDivide :: TLP :: TLP :: TType t :: TRP :: print false l ++ TComma :: TLP :: TType t :: TRP :: print false r ++ [TRP]) ++ rest) x).
    { intros [A B] t K. norm. apply ident_suffix. eapply R_call; [|exact K]. apply R_args; [exact I|]. eapply R_more.
      - apply unary_assign; [apply R_cast, (L2 A)|idtac|idtac]; exact I.
      - apply R_last. apply unary_assign; [apply R_cast, (R2 B)|idtac|idtac]; exact I. }
    cbn [print meant] in *. destruct op; try (destruct Lv as [[? _]|Lv]; [discriminate|]; apply (Simple Lv), H).
    + destruct Lv as [[? _]|Lv]; [discriminate|]. destruct (is_floating s); [apply (Divide Lv), H|]. destruct (is_integral s); [apply (Divide Lv), H|apply (Simple Lv), H].
    + destruct (is_floating s) eqn:F.
      * norm. apply ident_suffix. eapply R_call; [|exact H]. apply R_args; [apply start_not_rp, start_app; apply print_start|]. eapply R_more; [apply L1, ends_comma|]. apply R_last. apply R1, ends_rp.
      * destruct Lv as [[_ ?]|Lv]; [discriminate|]. apply (Simple Lv), H.
  - (* Comp *) intros k l IHl r IHr. apply from3. intros (Pl & Pr & Lv) rest x H. destruct (IHl Pl) as (_ & _ & L1). destruct (IHr Pr) as (_ & R2 & _). cbn [print meant] in *. norm. eapply paren_suffix; [exact I| |exact H].
    eapply binary_assign; [|apply (R2 Lv); exact I|exact I|exact I]. eapply paren_suffix; [apply print_paren| |apply R_stop; exact I]. apply L1, ends_rp.
  - (* ConvTo *) intros t e IH. apply from3. intros (P & Lv) rest x H. destruct (IH P) as (_ & E2 & E1). cbn [print meant] in *. destruct t as [t|]; norm.
    + eapply paren_suffix; [exact I| |exact H]. apply unary_assign; [|exact I|exact I]. apply R_cast. apply E2; [|exact I]. destruct Lv; [discriminate|assumption].
    + eapply paren_suffix; [apply print_paren| |exact H]. apply E1, ends_rp.
  - (* BitNot *) intros e IH. apply from2; [reflexivity|]. intros (P & Lv) rest N. destruct (IH P) as (_ & E2 & _). cbn [print meant]. norm. apply R_not, (E2 Lv), N.
  - (* If *) intros c IHc t IHt f IHf. apply from3. intros (Pc & Pt & Pf & Lv & NI) rest x H. destruct (IHc Pc) as (_ & C2 & _). destruct (IHt Pt) as (_ & _ & T1). destruct (IHf Pf) as (_ & _ & F1). cbn [print meant] in *.
    assert (E : print true c = print false c) by (destruct c; try reflexivity; discriminate). rewrite E. norm. eapply paren_suffix; [apply print_paren| |exact H].
    eapply R_cond.
    + eapply R_binary; [apply (C2 Lv); exact I|]. apply R_cstop. exact I.
    + apply unary_assign; [|exact I|exact I]. eapply paren_suffix; [apply print_paren| |apply R_stop; exact I]. apply T1, ends_rp.
    + apply unary_assign; [|exact I|exact I]. eapply paren_suffix; [apply print_paren| |apply R_stop; exact I]. apply F1, ends_rp.
  - (* CastClass *) intros t e IH. apply from2; [reflexivity|]. intros (P & Lv) rest N. destruct (IH P) as (_ & E2 & _). cbn [print meant]. norm. apply R_cast, (E2 Lv), N.
  - (* BoxTo *) intros t e IH. apply from3. intros P rest x H. destruct (IH P) as (_ & _ & E1). cbn [print meant] in *. norm. eapply paren_suffix; [exact I| |exact H]. apply unary_assign; [|exact I|exact I]. apply R_new. apply R_args; [apply start_not_rp, start_app; apply print_start|]. apply R_last. apply E1, ends_rp.
  - (* UnboxAny *) intros t wrap e IH. apply from3. intros (P & Lv) rest x H. destruct (IH P) as (E3 & _). specialize (E3 Lv). cbn [print meant] in *. destruct wrap; norm.
    + eapply R_unary; [exact I| |exact H]. apply R_construct. apply R_args; [apply start_not_rp, start_app; apply print_start|]. apply R_last. apply unary_assign; [|exact I|exact I]. apply E3. apply (R_member true). eapply R_call; [apply R_args_nil|apply R_stop; exact I].
    + apply E3. apply (R_member true). eapply R_call; [apply R_args_nil|exact H].
  - (* AddressOf *) intros e IH. apply from3. intros P rest x H. destruct (IH P) as (_ & _ & E1). cbn [print meant] in *. norm. eapply paren_suffix; [apply print_paren| |exact H]. apply E1, ends_rp.
  - (* LdFlda *) intros e IH arrow f. apply from3. intros (P & Lv) rest x H. destruct (IH P) as (E3 & _). cbn [print meant] in *. norm. apply (E3 Lv). apply R_member, H.
  - (* LdLen *) intros e IH. apply from3. intros (P & Lv) rest x H. destruct (IH P) as (E3 & _). cbn [print meant] in *. norm. apply (E3 Lv). apply (R_member true). eapply R_call; [apply R_args_nil|exact H].
  - (* LdElema *) intros t a IHa is IHi. apply from3. intros (P & Lv & Pi) rest x H. destruct (IHa P) as (E3 & _). destruct (IHi Pi) as (Ga & _). cbn [print meant] in *. norm. eapply paren_suffix; [exact I| |exact H]. apply unary_assign; [|exact I|exact I]. apply R_deref.
    eapply paren_suffix; [exact I| |apply R_stop; exact I]. apply unary_assign; [|exact I|exact I]. apply R_cast. apply (E3 Lv). apply (R_member true). eapply R_call; [apply Ga|apply R_stop; exact I].
  - (* NewArr *) intros t is IHi. apply from2; [reflexivity|]. intros (Pi & Ni) rest N. destruct (IHi Pi) as (_ & Gm). cbn [print meant]. norm. apply R_new. apply R_args; [exact I|]. eapply R_more; [|apply (Gm Ni)]. apply unary_assign; [|exact I|exact I]. apply ident_suffix, R_stop. exact I.
  - (* NewObj *) intros is_class t a IHa. apply from3. intros P rest x H. destruct (IHa P) as (Ga & _). cbn [print meant] in *. destruct is_class; norm.
    + eapply paren_suffix; [exact I| |exact H]. apply unary_assign; [|exact I|exact I]. apply R_new, Ga.
    + eapply R_unary; [exact I|apply R_construct, Ga|exact H].
  - (* DefaultValue *) intros is_class t. destruct is_class.
    + apply from2; [reflexivity|]. intros _ rest N. apply R_new, R_args_nil.
    + apply from3. intros _ rest x H. eapply R_unary; [exact I|apply R_construct, R_args_nil|exact H].
  - (* CallStatic *) intros t m a IHa. apply from3. intros P rest x H. destruct (IHa P) as (Ga & _). cbn [print meant] in *. norm. apply ident_suffix. eapply R_call; [apply Ga|exact H].
  - (* CallInstance *) intros e IH box arrow m a IHa. apply from3. intros (P & Lv & Pa) rest x H. destruct (IH P) as (E3 & _ & E1). destruct (IHa Pa) as (Ga & _). cbn [print meant] in *.
    assert (K : PS (match box with Some t => CConstruct (TValueOf t) [meant e] | None => meant e end) ((if arrow then TArrow else TDot) :: TId (Member m) :: TLP :: print_args a ++ TRP :: rest) x) by (apply R_member; eapply R_call; [apply Ga|exact H]).
    destruct box as [t|]; norm.
    + eapply R_unary; [exact I| |exact K]. apply R_construct. apply R_args; [apply start_not_rp, start_app; apply print_start|]. apply R_last. apply E1, ends_rp.
    + apply (E3 (Lv eq_refl)), K.
  - (* Assign *) intros target IHt c v IHv. apply from1; [reflexivity|]. intros (Pt & Pv & Lt & Lv) rest N. destruct (IHt Pt) as (_ & T2 & _). destruct (IHv Pv) as (_ & V2 & V1). cbn [print meant]. norm. eapply R_assign.
    + eapply R_binary; [apply (T2 Lt); exact I|]. apply R_cstop. exact I.
    + destruct c as [c|]; cbn [cast_tokens cast]; norm; [|apply V1, N]. destruct N as (N & O & C). apply unary_assign; auto. apply R_cast. apply V2; [|exact N]. destruct Lv; [discriminate|assumption].
  - (* PreIncrement *) intros up v. apply from2; [reflexivity|]. intros _ rest N. apply R_pre, ident_suffix, R_stop, N.
  - (* CompoundStep *) intros target IH up. apply from3. intros (P & Lv) rest x H. destruct (IH P) as (E3 & _). cbn [print meant] in *. norm. apply (E3 Lv). apply R_post, H.
  - (* Compound *) intros target IHt op v IHv. apply from1; [reflexivity|]. intros (Pt & Pv & Lt) rest N. destruct (IHt Pt) as (_ & T2 & _). destruct (IHv Pv) as (_ & _ & V1). cbn [print meant]. norm. eapply R_assign.
    + eapply R_binary; [apply (T2 Lt); exact I|]. apply R_cstop. exact I.
    + apply V1, N.
  - intros _. split; [intros r; apply R_args_nil|]. intros N. congruence.
  - (* ACons *) intros c e IH rest IHr (P & Pr). destruct (IH P) as (_ & _ & E1). destruct (IHr Pr) as (_ & Gm).
    assert (One : forall r, ends r -> PA ((match c with Some _ => cast_tokens c ++ TLP :: print false e ++ [TRP] | None => print false e end) ++ r) (cast c (meant e), r)).
    { intros r N. destruct c as [t|]; cbn [cast_tokens cast]; norm; [|apply E1, N]. destruct N as (N & O & C). apply unary_assign; auto. apply R_cast. eapply paren_suffix; [apply print_paren|apply E1, ends_rp|apply R_stop, N]. }
    assert (M : forall r, PM (print_args (ACons c e rest) ++ TRP :: r) (meant_args (ACons c e rest), r)).
    { intros r. cbn [print_args meant_args]. rewrite <- app_assoc. destruct rest as [|c' e' rest'].
      - cbn [app meant_args]. apply R_last. apply One, ends_rp.
      - cbn [app]. eapply R_more; [apply One, ends_comma|]. apply Gm. discriminate. }
    split; [|intros _; exact M]. intros r. apply R_args; [|apply M]. cbn [print_args]. rewrite <- app_assoc. apply start_not_rp, start_app; destruct c; try apply print_start; exact I.
Qed.
