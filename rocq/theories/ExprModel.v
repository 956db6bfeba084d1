(** * Model of the expression level of /repo/CppTranslator/MyIlInstructionVisitor.cs

    The visitor writes text; the model writes the tokens of that text (white space, the spelling of names and
    types and the characters of literals are abstracted: see FormatterModel and TranslatorModel for these).
    The decompiler's instruction tree is the input.  Names, member names and types are numbers. *)
From Verif Require Import Base StatementModel.
Import ListNotations.

(** ** Instructions *)
Inductive comparison_kind : Type := Equality | Inequality | LessThan | LessThanOrEqual | GreaterThan | GreaterThanOrEqual.
(** UnderlyingResultType: the integer stack types I, I4, I8; the floating ones F4, F8; any other *)
Inductive stack_type : Type := StackI | StackI4 | StackI8 | StackF4 | StackF8 | StackOther.
Inductive expr : Type :=
  | LdcI4' (n : Z)                                    (* VisitLdcI4 843-847 *)
  | LdcI8' (n : Z)                                    (* VisitLdcI8 859-863 *)
  | LdNull                                            (* VisitLdNull 937-941 *)
  | LdStr (s : Z)                                     (* VisitLdStr 957-963 *)
  | LdLoc (v : Z)                                     (* VisitLdLoc, VisitLdLoca 915-931 *)
  | LdsFlda (t f : Z)                                 (* VisitLdsFlda 949-955 *)
  | LdObj (e : expr)                                  (* VisitLdObj 943-947 *)
  | Binary (op : num_op) (s : stack_type) (l r : expr)  (* VisitBinaryNumericInstruction 189-246 *)
  | Comp (k : comparison_kind) (l r : expr)           (* VisitComp 592-602 *)
  | ConvTo (t : option num_type) (e : expr)           (* VisitConv 604-646; None: a target without a printed cast *)
  | BitNot (e : expr)                                 (* VisitBitNot 248-253 *)
  | If (c t f : expr)                                 (* VisitIfInstruction as an expression 739-777 *)
  | CastClass (t : Z) (e : expr)                      (* VisitCastClass 578-585 *)
  | BoxTo (t : Z) (e : expr)                          (* VisitBox 386-392 *)
  | UnboxAny (t : Z) (wrap : bool) (e : expr)         (* VisitUnboxAny 1382-1398; wrap: DateTime and TimeSpan *)
  | AddressOf (e : expr)                              (* VisitAddressOf 172-178 *)
  | LdFlda (e : expr) (arrow : bool) (f : Z)          (* VisitLdFlda 887-894, HandleFieldAccess 138-151; arrow: see FormatTypeAccess *)
  | LdLen (e : expr)                                  (* VisitLdLen 909-914 *)
  | LdElema (t : Z) (a : expr) (indices : args)       (* VisitLdElema 865-875 *)
  | NewArr (t : Z) (indices : args)                   (* VisitNewArr 1017-1025 *)
  | NewObj (is_class : bool) (t : Z) (a : args)       (* VisitNewObj 1041-1050 *)
  | DefaultValue (is_class : bool) (t : Z)            (* VisitDefaultValue 660-667 *)
  | CallStatic (t m : Z) (a : args)                   (* FormatCall 408-432, static *)
  | CallInstance (e : expr) (box : option Z) (arrow : bool) (m : Z) (a : args)  (* FormatCall, FormatCallInstance 494-503; box: a primitive receiver *)
  | Assign (target : expr) (cast : option Z) (v : expr) (* VisitStLoc 1119-1126, VisitStObj 1173-1183, HandleStoreVariable; cast: an enum type *)
  | PreIncrement (up : bool) (v : Z)                  (* HandleIncrementAndDecrement 1136-1155 *)
  | CompoundStep (target : expr) (up : bool)          (* VisitNumericCompoundAssign 1076-1093 with the constant 1 *)
  | Compound (target : expr) (op : num_op) (v : expr) (* VisitNumericCompoundAssign 1094-1099 *)
with args : Type := ANil | ACons (cast : option Z) (e : expr) (rest : args).  (* cast: DoCastOnCallParamterIfNeeded 567-575 *)

(** ** Tokens *)
Inductive type_name : Type := TPrim (t : num_type) | TNamed (t : Z) | TPointer (t : Z) | TValueOf (t : Z) | TString | TArray | TDouble | TInt64.
Inductive ident : Type :=
  | Local (v : Z) | Member (f : Z) | Static (t f : Z) | TypeTag (t : Z) | GetAs (t : Z) | get_Length | Address | MathDivide | DoubleModulus
  | MaxValueOf (t : num_type) | MinValueOf (t : num_type).
Inductive cpp_op : Type := OAdd | OSub | OMul | ODiv | ORem | OAnd | OOr | OXor | OShl | OShr | OEq | ONe | OLt | OLe | OGt | OGe.
Inductive token : Type :=
  | TNum (n : Z) | TStr (s : Z) | TNullptr | TId (i : ident) | TType (t : type_name) | TNew | TLP | TRP | TComma | TQ | TColon | TArrow | TDot
  | TTilde | TOp (o : cpp_op) | TAssign (o : option cpp_op) | TIncr (up : bool).
(** the dictionaries operatorSymbols and comparisonSymbols 69-86 *)
Definition operatorSymbols (op : num_op) : cpp_op :=
  match op with Add => OAdd | Sub => OSub | Mul => OMul | Div => ODiv | Rem => ORem | BitAnd => OAnd | BitOr => OOr | BitXor => OXor | Shl => OShl | Shr => OShr end.
Definition comparisonSymbols (k : comparison_kind) : cpp_op :=
  match k with Equality => OEq | Inequality => ONe | LessThan => OLt | LessThanOrEqual => OLe | GreaterThan => OGt | GreaterThanOrEqual => OGe end.
(** constantConversions 88-104, the integers; keys are decimal texts, hence integers *)
Definition constantConversions (n : Z) : option ident :=
  if n =? 255 then Some (MaxValueOf tU1) else if n =? 127 then Some (MaxValueOf tI1) else if n =? 32767 then Some (MaxValueOf tI2)
  else if n =? 2147483647 then Some (MaxValueOf tI4) else if n =? 9223372036854775807 then Some (MaxValueOf tI8) else if n =? 65535 then Some (MaxValueOf tU2)
  else if n =? 4294967295 then Some (MaxValueOf tU4) else if n =? 18446744073709551615 then Some (MaxValueOf tU8)
  else if n =? -128 then Some (MinValueOf tI1) else if n =? -32768 then Some (MinValueOf tI2) else if n =? -2147483648 then Some (MinValueOf tI4)
  else if n =? -9223372036854775808 then Some (MinValueOf tI8) else None.
(** ConvertConstants 848-857; a negative number is written as a minus sign and digits *)
Definition ConvertConstants (n : Z) : list token :=
  match constantConversions n with Some i => [TId i] | None => if n <? 0 then [TOp OSub; TNum (- n)] else [TNum n] end.
Definition cast_tokens (c : option Z) : list token := match c with Some t => [TLP; TType (TNamed t); TRP] | None => [] end.
Definition is_floating (s : stack_type) : bool := match s with StackF4 | StackF8 => true | _ => false end.
Definition is_integral (s : stack_type) : bool := match s with StackI | StackI4 | StackI8 => true | _ => false end.
(** [bare]: inside BuildCondition, where a condition that is itself an IfInstruction is written without parentheses (757-765) *)
Fixpoint print (bare : bool) (e : expr) {struct e} : list token :=
  match e with
  | LdcI4' n | LdcI8' n => ConvertConstants n
  | LdNull => [TNullptr]
  | LdStr s => [TLP; TNew; TType TString; TLP; TStr s; TRP; TRP]
  | LdLoc v => [TId (Local v)]
  | LdsFlda t f => [TId (Static t f)]
  | LdObj e => print false e
  | Binary op s l r =>
      match op with
      | Div =>   (* HandleDivideByZero 205-230 *)
          if is_floating s then TId MathDivide :: TLP :: TLP :: TType TDouble :: TRP :: print false l ++ TComma :: TLP :: TType TDouble :: TRP :: print false r ++ [TRP]
          else if is_integral s then TId MathDivide :: TLP :: TLP :: TType TInt64 :: TRP :: print false l ++ TComma :: TLP :: TType TInt64 :: TRP :: print false r ++ [TRP]
          else TLP :: print false l ++ TOp ODiv :: print false r ++ [TRP]
      | Rem =>   (* 232-246 *)
          if is_floating s then TId DoubleModulus :: TLP :: print false l ++ TComma :: print false r ++ [TRP]
          else TLP :: print false l ++ TOp ORem :: print false r ++ [TRP]
      | _ => TLP :: print false l ++ TOp (operatorSymbols op) :: print false r ++ [TRP]
      end
  | Comp k l r => TLP :: TLP :: print false l ++ TRP :: TOp (comparisonSymbols k) :: print false r ++ [TRP]
  | ConvTo t e => TLP :: (match t with Some t => [TLP; TType (TPrim t); TRP] | None => [] end) ++ print false e ++ [TRP]
  | BitNot e => TTilde :: print false e
  | If c t f =>
      let core := print true c ++ TQ :: TLP :: print false t ++ TRP :: TColon :: TLP :: print false f ++ [TRP] in
      if bare then core else TLP :: core ++ [TRP]
  | CastClass t e => TLP :: TType (TPointer t) :: TRP :: print false e
  | BoxTo t e => TLP :: TNew :: TType (TValueOf t) :: TLP :: print false e ++ [TRP; TRP]
  | UnboxAny t wrap e =>
      if wrap then TType (TNamed t) :: TLP :: print false e ++ [TArrow; TId (GetAs t); TLP; TRP; TRP]
      else print false e ++ [TArrow; TId (GetAs t); TLP; TRP]
  | AddressOf e => TLP :: print false e ++ [TRP]
  | LdFlda e arrow f => print false e ++ [if arrow then TArrow else TDot; TId (Member f)]
  | LdLen e => print false e ++ [TArrow; TId get_Length; TLP; TRP]
  | LdElema t a is => TLP :: TOp OMul :: TLP :: TLP :: TType (TPointer t) :: TRP :: print false a ++ TArrow :: TId Address :: TLP :: print_args is ++ [TRP; TRP; TRP]
  | NewArr t is => TNew :: TType TArray :: TLP :: TId (TypeTag t) :: TComma :: print_args is ++ [TRP]
  | NewObj is_class t a => if is_class then TLP :: TNew :: TType (TNamed t) :: TLP :: print_args a ++ [TRP; TRP] else TType (TNamed t) :: TLP :: print_args a ++ [TRP]
  | DefaultValue is_class t => (if is_class then [TNew] else []) ++ [TType (TNamed t); TLP; TRP]
  | CallStatic t m a => TId (Static t m) :: TLP :: print_args a ++ [TRP]
  | CallInstance e box arrow m a =>
      (match box with Some t => TType (TValueOf t) :: TLP :: print false e ++ [TRP] | None => print false e end)
      ++ (if arrow then TArrow else TDot) :: TId (Member m) :: TLP :: print_args a ++ [TRP]
  | Assign target c v => print false target ++ TAssign None :: cast_tokens c ++ print false v
  | PreIncrement up v => [TIncr up; TId (Local v)]
  | CompoundStep target up => print false target ++ [TIncr up]
  | Compound target op v => print false target ++ TAssign (Some (operatorSymbols op)) :: print false v
  end
(** AddCallParameters 543-566, WriteCommaSeparatedList 1026-1038 *)
with print_args (a : args) {struct a} : list token :=
  match a with
  | ANil => []
  | ACons c e rest =>
      (match c with Some _ => cast_tokens c ++ TLP :: print false e ++ [TRP] | None => print false e end)
      ++ match rest with ANil => [] | _ => TComma :: print_args rest end
  end.
(** ** The condition of an if statement: VisitIfInstruction at the start of a line (justCondition = false), BuildCondition 754-770.
    The tokens between the parentheses after "if": a condition that is an IfInstruction is entered, its branches are not written. *)
Fixpoint if_statement_condition (c : expr) : list token :=
  match c with If c' _ _ => if_statement_condition c' | _ => print false c end.
