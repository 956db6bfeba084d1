(** * Model: instructions for which MyIlInstructionVisitor writes nothing, inside an expression

    Many methods of /repo/CppTranslator/MyIlInstructionVisitor.cs consist of [return base.VisitX(inst);]; the base
    class calls [Default] (166-169), which returns without writing.  The operand is then simply missing from the text.
    This file models the text around an operand: the frames are the places of an operand in the instructions of
    ExprModel, and [print_in] writes the surrounding text with given tokens at that place. *)
From Verif Require Import Base StatementModel ExprModel.
Import ListNotations.

(** The value instructions whose visit writes nothing (line of the method) *)
Inductive unwritten : Type :=
  | Arglist (* 179 *) | Await (* 184 *) | CallIndirect (* 573 *) | Ckfinite (* 587 *)
  | DynamicBinaryOperator (* 669 *) | DynamicCompoundAssign (* 674 *) | DynamicConvert (* 679 *) | DynamicGetIndex (* 684 *)
  | DynamicGetMember (* 689 *) | DynamicInvokeConstructor (* 694 *) | DynamicInvoke (* 699 *) | DynamicInvokeMember (* 704 *)
  | DynamicIsEvent (* 709 *) | DynamicLogicOperator (* 714 *) | DynamicSetIndex (* 719 *) | DynamicSetMember (* 724 *) | DynamicUnaryOperator (* 729 *)
  | ExpressionTreeCast (* 734 *) | InvalidExpression (* 804 *) | IsInst (* 809 *) | LdcDecimal (* 814 *) | LdFtn (* 902 *)
  | LdMemberToken (* 931 *) | LdTypeToken (* 964 *) | LdVirtDelegate (* 969 *) | LdVirtFtn (* 974 *) | LocAlloc (* 1002 *) | LocAllocSpan (* 1007 *)
  | MakeRefAny (* 1017 *) | NullableRewrap (* 1061 *) | NullableUnwrap (* 1066 *) | NullCoalescing (* 1071 *) | RefAnyType (* 1106 *) | RefAnyValue (* 1111 *)
  | SizeOf (* 1122 *) | StringToInt (* 1257 *) | ThreeValuedBoolAnd (* 1301 *) | ThreeValuedBoolOr (* 1306 *) | Unbox (* 1378 *) | UserDefinedLogicOperator (* 1415 *).
(** Default 166-169 *)
Definition print_unwritten (i : unwritten) : list token := match i with _ => [] end.

(** The places of an operand: one per subexpression of each constructor of ExprModel.expr *)
Inductive frame : Type :=
  | FObj | FBinL (op : num_op) (s : stack_type) (r : expr) | FBinR (op : num_op) (s : stack_type) (l : expr)
  | FCompL (k : comparison_kind) (r : expr) | FCompR (k : comparison_kind) (l : expr)
  | FConv (t : option num_type) | FNot | FIfC (t f : expr) | FIfT (c f : expr) | FIfF (c t : expr)
  | FCast (t : Z) | FBox (t : Z) | FUnbox (t : Z) (wrap : bool) | FAddr | FFld (arrow : bool) (f : Z) | FLen
  | FElemArray (t : Z) (is : args) | FElemIndex (t : Z) (a : expr) (b : args) (c : option Z) (r : args)
  | FNewArr (t : Z) (b : args) (c : option Z) (r : args) | FNewObj (is_class : bool) (t : Z) (b : args) (c : option Z) (r : args)
  | FStaticArg (t m : Z) (b : args) (c : option Z) (r : args) | FReceiver (box : option Z) (arrow : bool) (m : Z) (a : args)
  | FInstanceArg (e : expr) (box : option Z) (arrow : bool) (m : Z) (b : args) (c : option Z) (r : args)
  | FAssignT (c : option Z) (v : expr) | FAssignV (target : expr) (c : option Z) | FStep (up : bool)
  | FCompoundT (op : num_op) (v : expr) | FCompoundV (target : expr) (op : num_op).
(** [splice b c e r]: arguments [b], then [e] (with its cast), then [r] *)
Fixpoint splice (b : args) (c : option Z) (e : expr) (r : args) : args :=
  match b with ANil => ACons c e r | ACons c' e' b => ACons c' e' (splice b c e r) end.
(** the instruction with operand [e] at the place *)
Definition plug (k : frame) (e : expr) : expr :=
  match k with
  | FObj => LdObj e | FBinL op s r => Binary op s e r | FBinR op s l => Binary op s l e
  | FCompL k r => Comp k e r | FCompR k l => Comp k l e | FConv t => ConvTo t e | FNot => BitNot e
  | FIfC t f => If e t f | FIfT c f => If c e f | FIfF c t => If c t e
  | FCast t => CastClass t e | FBox t => BoxTo t e | FUnbox t w => UnboxAny t w e | FAddr => AddressOf e
  | FFld a f => LdFlda e a f | FLen => LdLen e | FElemArray t is => LdElema t e is | FElemIndex t a b c r => LdElema t a (splice b c e r)
  | FNewArr t b c r => NewArr t (splice b c e r) | FNewObj k t b c r => NewObj k t (splice b c e r)
  | FStaticArg t m b c r => CallStatic t m (splice b c e r) | FReceiver box a m r => CallInstance e box a m r
  | FInstanceArg x box a m b c r => CallInstance x box a m (splice b c e r)
  | FAssignT c v => Assign e c v | FAssignV t c => Assign t c e | FStep up => CompoundStep e up
  | FCompoundT op v => Compound e op v | FCompoundV t op => Compound t op e
  end.
(** places from the innermost to the outermost *)
Fixpoint plugs (ks : list frame) (e : expr) : expr := match ks with [] => e | k :: ks => plugs ks (plug k e) end.

(** AddCallParameters 543-566, WriteCommaSeparatedList 1026-1038: an argument at a place *)
Definition open_cast (c : option Z) : list token := match c with Some _ => cast_tokens c ++ [TLP] | None => [] end.
Definition close_cast (c : option Z) : list token := match c with Some _ => [TRP] | None => [] end.
Fixpoint args_before (b : args) (c : option Z) : list token :=
  match b with
  | ANil => open_cast c
  | ACons c' e' b => open_cast c' ++ print false e' ++ close_cast c' ++ TComma :: args_before b c
  end.
Definition args_after (c : option Z) (r : args) : list token := close_cast c ++ match r with ANil => [] | _ => TComma :: print_args r end.
(** The text written before the operand; [bare] as in ExprModel.print.  The lines are those cited at ExprModel.expr. *)
Definition before (bare : bool) (k : frame) : list token :=
  match k with
  | FObj | FFld _ _ | FLen | FAssignT _ _ | FStep _ | FCompoundT _ _ => []
  | FBinL op s _ =>
      match op with
      | Div => if is_floating s then [TId MathDivide; TLP; TLP; TType TDouble; TRP] else if is_integral s then [TId MathDivide; TLP; TLP; TType TInt64; TRP] else [TLP]
      | Rem => if is_floating s then [TId DoubleModulus; TLP] else [TLP]
      | _ => [TLP]
      end
  | FBinR op s l =>
      match op with
      | Div => if is_floating s then TId MathDivide :: TLP :: TLP :: TType TDouble :: TRP :: print false l ++ [TComma; TLP; TType TDouble; TRP]
               else if is_integral s then TId MathDivide :: TLP :: TLP :: TType TInt64 :: TRP :: print false l ++ [TComma; TLP; TType TInt64; TRP]
               else TLP :: print false l ++ [TOp ODiv]
      | Rem => if is_floating s then TId DoubleModulus :: TLP :: print false l ++ [TComma] else TLP :: print false l ++ [TOp ORem]
      | _ => TLP :: print false l ++ [TOp (operatorSymbols op)]
      end
  | FCompL _ _ => [TLP; TLP]
  | FCompR k l => TLP :: TLP :: print false l ++ [TRP; TOp (comparisonSymbols k)]
  | FConv t => TLP :: match t with Some t => [TLP; TType (TPrim t); TRP] | None => [] end
  | FNot => [TTilde]
  | FIfC _ _ => if bare then [] else [TLP]
  | FIfT c _ => (if bare then [] else [TLP]) ++ print true c ++ [TQ; TLP]
  | FIfF c t => (if bare then [] else [TLP]) ++ print true c ++ TQ :: TLP :: print false t ++ [TRP; TColon; TLP]
  | FCast t => [TLP; TType (TPointer t); TRP]
  | FBox t => [TLP; TNew; TType (TValueOf t); TLP]
  | FUnbox t wrap => if wrap then [TType (TNamed t); TLP] else []
  | FAddr => [TLP]
  | FElemArray t _ => [TLP; TOp OMul; TLP; TLP; TType (TPointer t); TRP]
  | FElemIndex t a b c _ => TLP :: TOp OMul :: TLP :: TLP :: TType (TPointer t) :: TRP :: print false a ++ TArrow :: TId Address :: TLP :: args_before b c
  | FNewArr t b c _ => TNew :: TType TArray :: TLP :: TId (TypeTag t) :: TComma :: args_before b c
  | FNewObj is_class t b c _ => (if is_class then [TLP; TNew] else []) ++ TType (TNamed t) :: TLP :: args_before b c
  | FStaticArg t m b c _ => TId (Static t m) :: TLP :: args_before b c
  | FReceiver box _ _ _ => match box with Some t => [TType (TValueOf t); TLP] | None => [] end
  | FInstanceArg e box arrow m b c _ =>
      (match box with Some t => TType (TValueOf t) :: TLP :: print false e ++ [TRP] | None => print false e end)
      ++ (if arrow then TArrow else TDot) :: TId (Member m) :: TLP :: args_before b c
  | FAssignV target c => print false target ++ TAssign None :: cast_tokens c
  | FCompoundV target op => print false target ++ [TAssign (Some (operatorSymbols op))]
  end.
(** The text written after the operand *)
Definition after (bare : bool) (k : frame) : list token :=
  match k with
  | FObj | FNot | FCast _ | FAssignV _ _ | FCompoundV _ _ => []
  | FBinL op s r =>
      match op with
      | Div => if is_floating s then TComma :: TLP :: TType TDouble :: TRP :: print false r ++ [TRP]
               else if is_integral s then TComma :: TLP :: TType TInt64 :: TRP :: print false r ++ [TRP] else TOp ODiv :: print false r ++ [TRP]
      | Rem => if is_floating s then TComma :: print false r ++ [TRP] else TOp ORem :: print false r ++ [TRP]
      | _ => TOp (operatorSymbols op) :: print false r ++ [TRP]
      end
  | FBinR _ _ _ | FCompR _ _ | FConv _ | FAddr => [TRP]
  | FCompL k r => TRP :: TOp (comparisonSymbols k) :: print false r ++ [TRP]
  | FIfC t f => TQ :: TLP :: print false t ++ TRP :: TColon :: TLP :: print false f ++ TRP :: if bare then [] else [TRP]
  | FIfT _ f => TRP :: TColon :: TLP :: print false f ++ TRP :: if bare then [] else [TRP]
  | FIfF _ _ => TRP :: if bare then [] else [TRP]
  | FBox _ => [TRP; TRP]
  | FUnbox t wrap => [TArrow; TId (GetAs t); TLP; TRP] ++ if wrap then [TRP] else []
  | FFld arrow f => [if arrow then TArrow else TDot; TId (Member f)]
  | FLen => [TArrow; TId get_Length; TLP; TRP]
  | FElemArray _ is => TArrow :: TId Address :: TLP :: print_args is ++ [TRP; TRP; TRP]
  | FElemIndex _ _ _ c r => args_after c r ++ [TRP; TRP; TRP]
  | FNewArr _ _ c r | FStaticArg _ _ _ c r | FInstanceArg _ _ _ _ _ c r => args_after c r ++ [TRP]
  | FNewObj is_class _ _ c r => args_after c r ++ TRP :: if is_class then [TRP] else []
  | FReceiver box arrow m a => match box with Some _ => [TRP] | None => [] end ++ (if arrow then TArrow else TDot) :: TId (Member m) :: TLP :: print_args a ++ [TRP]
  | FAssignT c v => TAssign None :: cast_tokens c ++ print false v
  | FStep up => [TIncr up]
  | FCompoundT op v => TAssign (Some (operatorSymbols op)) :: print false v
  end.
(** BuildCondition 754-770 visits the condition of a conditional expression with [justCondition] set *)
Definition bare_at (ks : list frame) : bool := match ks with FIfC _ _ :: _ => true | _ => false end.
Fixpoint print_in (ks : list frame) (inner : list token) : list token :=
  match ks with [] => inner | k :: ks => print_in ks (before (bare_at ks) k ++ inner ++ after (bare_at ks) k) end.
(** The text of an expression whose operand at the place [ks] is an instruction that is not written *)
Definition print_without (ks : list frame) (i : unwritten) : list token := print_in ks (print_unwritten i).
