(** * Specification for C59: the C++ expression grammar

    The part of the grammar of C++ expressions that the translator's output can use, as a recursive descent
    parser: assignment and conditional expressions, binary operators with their precedences (left associative),
    unary operators, casts, new, postfix operators, primaries.  A type is one token ([TType]): C++ decides
    between a cast and a parenthesised expression by whether a type name follows the parenthesis. *)
From Verif Require Import Base StatementModel ExprModel.
Import ListNotations.

Inductive unary_op : Type := UNeg | UNot | UDeref.
Inductive cexpr : Type :=
  | CNum (n : Z) | CStr (s : Z) | CNull | CId (i : ident)
  | CUnary (o : unary_op) (e : cexpr) | CBin (o : cpp_op) (l r : cexpr) | CCast (t : type_name) (e : cexpr)
  | CCond (c t f : cexpr) | CAssign (o : option cpp_op) (l r : cexpr) | CPre (up : bool) (e : cexpr) | CPost (up : bool) (e : cexpr)
  | CMember (arrow : bool) (e : cexpr) (i : ident) | CCall (f : cexpr) (a : list cexpr) | CNew (t : type_name) (a : list cexpr) | CConstruct (t : type_name) (a : list cexpr).
(** binding strength *)
Definition prec (o : cpp_op) : Z :=
  match o with OMul | ODiv | ORem => 10 | OAdd | OSub => 9 | OShl | OShr => 8 | OLt | OLe | OGt | OGe => 7 | OEq | ONe => 6 | OAnd => 5 | OXor => 4 | OOr => 3 end.
Fixpoint p_assign (n : nat) (ts : list token) {struct n} : option (cexpr * list token) :=
  match n with O => None | S n =>
    match p_binary n 1 ts with
    | Some (l, TQ :: r) =>
        match p_assign n r with
        | Some (t, TColon :: r) => match p_assign n r with Some (f, r) => Some (CCond l t f, r) | None => None end
        | _ => None
        end
    | Some (l, TAssign o :: r) => match p_assign n r with Some (v, r) => Some (CAssign o l v, r) | None => None end
    | x => x
    end
  end
with p_binary (n : nat) (p : Z) (ts : list token) {struct n} : option (cexpr * list token) :=
  match n with O => None | S n =>
    match p_unary n ts with Some (l, r) => p_climb n p l r | None => None end
  end
(** operators of strength at least [p], to the left operand [l] *)
with p_climb (n : nat) (p : Z) (l : cexpr) (ts : list token) {struct n} : option (cexpr * list token) :=
  match n with O => None | S n =>
    match ts with
    | TOp o :: r =>
        if prec o <? p then Some (l, ts)
        else match p_binary n (prec o + 1) r with Some (x, r) => p_climb n p (CBin o l x) r | None => None end
    | _ => Some (l, ts)
    end
  end
with p_unary (n : nat) (ts : list token) {struct n} : option (cexpr * list token) :=
  match n with O => None | S n =>
    match ts with
    | TTilde :: r => match p_unary n r with Some (e, r) => Some (CUnary UNot e, r) | None => None end
    | TOp OSub :: r => match p_unary n r with Some (e, r) => Some (CUnary UNeg e, r) | None => None end
    | TOp OMul :: r => match p_unary n r with Some (e, r) => Some (CUnary UDeref e, r) | None => None end
    | TIncr up :: r => match p_unary n r with Some (e, r) => Some (CPre up e, r) | None => None end
    | TNew :: TType t :: TLP :: r => match p_args n r with Some (a, r) => Some (CNew t a, r) | None => None end
    | TLP :: TType t :: TRP :: r => match p_unary n r with Some (e, r) => Some (CCast t e, r) | None => None end
    | _ => match p_primary n ts with Some (e, r) => p_postfix n e r | None => None end
    end
  end
with p_postfix (n : nat) (e : cexpr) (ts : list token) {struct n} : option (cexpr * list token) :=
  match n with O => None | S n =>
    match ts with
    | TArrow :: TId i :: r => p_postfix n (CMember true e i) r
    | TDot :: TId i :: r => p_postfix n (CMember false e i) r
    | TLP :: r => match p_args n r with Some (a, r) => p_postfix n (CCall e a) r | None => None end
    | TIncr up :: r => p_postfix n (CPost up e) r
    | _ => Some (e, ts)
    end
  end
with p_primary (n : nat) (ts : list token) {struct n} : option (cexpr * list token) :=
  match n with O => None | S n =>
    match ts with
    | TNum k :: r => Some (CNum k, r)
    | TStr s :: r => Some (CStr s, r)
    | TNullptr :: r => Some (CNull, r)
    | TId i :: r => Some (CId i, r)
    | TType t :: TLP :: r => match p_args n r with Some (a, r) => Some (CConstruct t a, r) | None => None end
    | TLP :: r => match p_assign n r with Some (e, TRP :: r) => Some (e, r) | _ => None end
    | _ => None
    end
  end
(** arguments up to and including the closing parenthesis *)
with p_args (n : nat) (ts : list token) {struct n} : option (list cexpr * list token) :=
  match n with O => None | S n =>
    match ts with TRP :: r => Some ([], r) | _ => p_more n ts end
  end
with p_more (n : nat) (ts : list token) {struct n} : option (list cexpr * list token) :=
  match n with O => None | S n =>
    match p_assign n ts with
    | Some (e, TRP :: r) => Some ([e], r)
    | Some (e, TComma :: r) => match p_more n r with Some (a, r) => Some (e :: a, r) | None => None end
    | _ => None
    end
  end.
(** A C++ compiler reads the tokens as the expression [t]. *)
Definition reads (ts : list token) (t : cexpr) : Prop := exists n, p_assign n ts = Some (t, []).

(** The expression meant: the tree of the instruction, operators applied to the same operands, with the casts and
    boxes the translator inserts. *)
Definition constant (n : Z) : cexpr := match constantConversions n with Some i => CId i | None => if n <? 0 then CUnary UNeg (CNum (- n)) else CNum n end.
Definition cast (c : option Z) (e : cexpr) : cexpr := match c with Some t => CCast (TNamed t) e | None => e end.
Fixpoint meant (e : expr) : cexpr :=
  match e with
  | LdcI4' n | LdcI8' n => constant n
  | LdNull => CNull
  | LdStr s => CNew TString [CStr s]
  | LdLoc v => CId (Local v)
  | LdsFlda t f => CId (Static t f)
  | LdObj e => meant e
  | Binary op s l r =>
      match op with
      | Div => if is_floating s then CCall (CId MathDivide) [CCast TDouble (meant l); CCast TDouble (meant r)]
               else if is_integral s then CCall (CId MathDivide) [CCast TInt64 (meant l); CCast TInt64 (meant r)] else CBin ODiv (meant l) (meant r)
      | Rem => if is_floating s then CCall (CId DoubleModulus) [meant l; meant r] else CBin ORem (meant l) (meant r)
      | _ => CBin (operatorSymbols op) (meant l) (meant r)
      end
  | Comp k l r => CBin (comparisonSymbols k) (meant l) (meant r)
  | ConvTo t e => match t with Some t => CCast (TPrim t) (meant e) | None => meant e end
  | BitNot e => CUnary UNot (meant e)
  | If c t f => CCond (meant c) (meant t) (meant f)
  | CastClass t e => CCast (TPointer t) (meant e)
  | BoxTo t e => CNew (TValueOf t) [meant e]
  | UnboxAny t wrap e => let v := CCall (CMember true (meant e) (GetAs t)) [] in if wrap then CConstruct (TNamed t) [v] else v
  | AddressOf e => meant e
  | LdFlda e arrow f => CMember arrow (meant e) (Member f)
  | LdLen e => CCall (CMember true (meant e) get_Length) []
  | LdElema t a is => CUnary UDeref (CCast (TPointer t) (CCall (CMember true (meant a) Address) (meant_args is)))
  | NewArr t is => CNew TArray (CId (TypeTag t) :: meant_args is)
  | NewObj is_class t a => if is_class then CNew (TNamed t) (meant_args a) else CConstruct (TNamed t) (meant_args a)
  | DefaultValue is_class t => if is_class then CNew (TNamed t) [] else CConstruct (TNamed t) []
  | CallStatic t m a => CCall (CId (Static t m)) (meant_args a)
  | CallInstance e box arrow m a => CCall (CMember arrow (match box with Some t => CConstruct (TValueOf t) [meant e] | None => meant e end) (Member m)) (meant_args a)
  | Assign target c v => CAssign None (meant target) (cast c (meant v))
  | PreIncrement up v => CPre up (CId (Local v))
  | CompoundStep target up => CPost up (meant target)
  | Compound target op v => CAssign (Some (operatorSymbols op)) (meant target) (meant v)
  end
with meant_args (a : args) : list cexpr := match a with ANil => [] | ACons c e rest => cast c (meant e) :: meant_args rest end.

(** Which operand may stand where without parentheses.  The levels of the C++ grammar: 3 postfix expressions, 2 unary
    expressions, 1 assignments. *)
Fixpoint level (e : expr) : Z :=
  match e with
  | LdcI4' n | LdcI8' n => match constantConversions n with Some _ => 3 | None => if n <? 0 then 2 else 3 end
  | LdObj e => level e
  | BitNot _ | CastClass _ _ | NewArr _ _ | PreIncrement _ _ => 2
  | DefaultValue is_class _ => if is_class then 2 else 3
  | Assign _ _ _ | Compound _ _ _ => 1
  | _ => 3
  end.
Definition is_if (e : expr) : bool := match e with If _ _ _ => true | _ => false end.
(** No assignment is an operand of an operator, a cast or an assignment's target; no cast, negative constant, complement,
    increment or array creation is the receiver of a member access; no conditional expression is the condition of another. *)
Fixpoint placed (e : expr) : Prop :=
  match e with
  | LdcI4' _ | LdcI8' _ | LdNull | LdStr _ | LdLoc _ | LdsFlda _ _ | DefaultValue _ _ | PreIncrement _ _ => True
  | LdObj e | BoxTo _ e | AddressOf e => placed e
  | Binary op s l r => placed l /\ placed r /\ ((op = Rem /\ is_floating s = true) \/ (2 <= level l /\ 2 <= level r))
  | Comp _ l r => placed l /\ placed r /\ 2 <= level r
  | ConvTo t e => placed e /\ (t = None \/ 2 <= level e)
  | BitNot e | CastClass _ e => placed e /\ 2 <= level e
  | If c t f => placed c /\ placed t /\ placed f /\ 2 <= level c /\ is_if c = false
  | UnboxAny _ _ e | LdFlda e _ _ | LdLen e | CompoundStep e _ => placed e /\ level e = 3
  | LdElema _ a is => placed a /\ level a = 3 /\ placed_args is
  | NewArr _ is => placed_args is /\ is <> ANil
  | NewObj _ _ a | CallStatic _ _ a => placed_args a
  | CallInstance e box _ _ a => placed e /\ (box = None -> level e = 3) /\ placed_args a
  | Assign target c v => placed target /\ placed v /\ 2 <= level target /\ (c = None \/ 2 <= level v)
  | Compound target _ v => placed target /\ placed v /\ 2 <= level target
  end
with placed_args (a : args) : Prop := match a with ANil => True | ACons _ e rest => placed e /\ placed_args rest end.
