(** * Model of two links between members and bodies: the arguments of base constructors
    (CppVisitorBase.cs 113-123, 309-324, 813-839) and the type a returned value is cast to
    (MyIlInstructionVisitor.cs 978-1000, CppTypeVisitor.cs 248-264, CppVisitorBase.cs 510-521, 577-588, 678-708) *)
From Verif Require Import Base MemberModel.

(** ** Constructor initialisers: the C# syntax tree is visited, not the instructions *)
Inductive ast :=
  | ALiteral (v : Z)            (* VisitPrimitiveExpression 607-644: one literal *)
  | AName (n : Z)               (* VisitIdentifierExpression 448-452 *)
  | ANull                       (* VisitNullReferenceExpression 551-554 *)
  | ANamed (n : Z) (e : ast)    (* VisitNamedArgumentExpression 523-526: writes only the expression *)
  | ASilent (id : Z)            (* an expression whose Visit method is empty: binary operators 268-270, casts 281-283, conditionals
                                   304-306, calls 486-488, members 505-507, indexers 471-473, arrays 246-256, default values 332-334, ref and out 351-353 *)
  | AFails (id : Z).            (* throws NotImplementedException: this, unary operators, new, as, is, ... *)
Inductive arg_token := TLiteral (v : Z) | TName (n : Z) | TNull | TComma.
Fixpoint VisitExpression (e : ast) : outcome (list arg_token) :=
  match e with
  | ALiteral v => Ret [TLiteral v]
  | AName n => Ret [TName n]
  | ANull => Ret [TNull]
  | ANamed _ e => VisitExpression e
  | ASilent _ => Ret []
  | AFails _ => Exn NotImplementedException
  end.
(** CppVisitorBase.cs 113-123 *)
Fixpoint WriteCommaSeparatedList (first : bool) (l : list ast) : outcome (list arg_token) :=
  match l with
  | [] => Ret []
  | e :: l => t <- VisitExpression e ;; r <- WriteCommaSeparatedList false l ;; Ret ((if first then [] else [TComma]) ++ t ++ r)
  end.
Inductive initializer_type := Base | This.
Inductive callee := CallBase (t : Z) | CallThis.   (* ": Name (" or ": this (" *)
(** CppVisitorBase.cs 309-324 *)
Definition VisitConstructorInitializer (k : initializer_type) (t : Z) (arguments : list ast) : outcome (callee * list arg_token) :=
  a <- WriteCommaSeparatedList true arguments ;; Ret (match k with This => CallThis | Base => CallBase t end, a).

(** ** Return casts *)
(** The instruction returned, as far as CppTypeVisitor.GetTypeForInstruction 248-264 looks at it. *)
Inductive returned :=
  | RLdLoc (t : cs_type) | RLdLoca (t : cs_type) | RLdObj (t : cs_type) | RLdFlda (t : cs_type) | RLdElema (t : cs_type)
  | RAddressOf (t : cs_type) | RStLoc (t : cs_type) | ROther.
Definition GetTypeForInstruction (i : returned) (defaultType : option cs_type) : option cs_type :=
  match i with
  | RLdLoc t | RLdLoca t | RLdObj t | RLdFlda t | RLdElema t | RAddressOf t | RStLoc t => Some t
  | ROther => defaultType
  end.
(** MyIlInstructionVisitor.cs 981-992: the cast written for a return with a value; ValidateType
    dereferences the type. *)
Definition VisitLeave (MethodReturnType : option cs_type) (i : returned) : outcome cpp_type :=
  match GetTypeForInstruction i MethodReturnType with Some t => Ret (FormatTypeDelaration t) | None => Exn NullReferenceException end.
(** The functions of the source file in the order they are written, with the values they return. *)
Inductive function_kind := FMethod (r : cs_type) | FGetter (t : cs_type) | FSetter | FOperator (r : cs_type) | FConstructor.
Record function := mk_function { f_kind : function_kind; f_returns : list returned }.
Fixpoint leaves (m : option cs_type) (l : list returned) : outcome (list cpp_type) :=
  match l with [] => Ret [] | i :: l => c <- VisitLeave m i ;; r <- leaves m l ;; Ret (c :: r) end.
(** Only VisitMethodDeclaration (CppVisitorBase.cs 515-516) sets MethodReturnType; the visitor is one
    object for the whole run (CppVisitorBase.cs 69). *)
Definition enter (m : option cs_type) (k : function_kind) : option cs_type := match k with FMethod r => Some r | _ => m end.
Fixpoint write_functions (m : option cs_type) (l : list function) : outcome (list (list cpp_type)) :=
  match l with
  | [] => Ret []
  | f :: l => let m := enter m (f_kind f) in c <- leaves m (f_returns f) ;; r <- write_functions m l ;; Ret (c :: r)
  end.
