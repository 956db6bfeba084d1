(** * The text of the source file: CppVisitorBase.cs on Formatter.cs

    MemberModel gives what is defined; this file writes its characters: the heads of the definitions by HeaderTextModel.v, the bodies
    by BodyTextModel.v.  Names are numbers, spelled by [name_text], parameters by [param_text]; bodies are numbers, [code b] being the
    blocks of the main container of body [b].  Simplified: no type is nested; constructors and operators have bodies; the last return
    of a block inside the block of a static constructor is not dropped (C74; MyIlInstructionVisitor.cs 330). *)
From Coq Require Import String.
From Verif Require Import Base MemModel IntModel FormatterModel FormatterSpec TranslatorModel MemberModel ControlModel BodyTextModel HeaderTextModel.
Import ListNotations.
Local Open Scope list_scope.

(** CppTypeVisitor.cs 58-71 *)
Definition typeTranslation : list (text * text) := map (fun p => (T (fst p), T (snd p)))
  [("bool", "Boolean"); ("byte", "Byte"); ("sbyte", "SByte"); ("char", "Char"); ("double", "Double"); ("float", "Float"); ("int", "Int32"); ("uint", "UInt32");
   ("long", "Int64"); ("ulong", "UInt64"); ("object", "Object"); ("short", "Int16"); ("ushort", "UInt16"); ("string", "String")]%string.
Fixpoint translated (d : list (text * text)) (t : text) : text := match d with [] => t | (k, v) :: d => if text_eqb k t then v else translated d t end.
(** ConstructorInitializer: 'this' or 'base', the type resolved, the arguments *)
Record initializer := mk_initializer { i_this : bool; i_type : Z; i_arguments : list Z }.
Section Text.
Variable env : dotnet.
Variable absent : absence.
Variable name_text : Z -> text.
Variable param_text : nat -> nat -> text.
Variable statement_text condition_text value_text il_text argument_text : Z -> text.
Variable case_of : Z -> nat -> option Z.
Variable unwrapped : inst -> bool.
Variable branch_label : list inst -> Z.
Variable main : Z.
Variable code : Z -> list block.
(** the initialiser of the constructor with the given body *)
Variable init_of : Z -> option initializer.
Notation body_text := (StartMainBlock_text env statement_text condition_text value_text il_text case_of unwrapped branch_label main).
(** CppTypeVisitor.cs 271-279, 281-299 *)
Definition AppendType_text (t : text) (f : formatter) : formatter := Append f (translated typeTranslation t).
Definition VisitType_text (t : cs_type) (f : formatter) : formatter :=
  match t with
  | ArrayOf _ => Append f (T "Array*")
  | Named k _ n => let f := AppendType_text (name_text n) f in match k with KClass => Append f (T "*") | _ => f end
  | ByReference _ => Append (Append f (T "*** Unknow type ")) (itype_name name_text t)
  end.
(** MyIlInstructionVisitor.cs 278-340 with a statement to inject: at the end of the main container's blocks, until another container
    has been visited (C74); a plain return at the end of the block is not written *)
Definition plain_return (e : scopes) (i : inst) : bool := match i with Leave c None => target_label c e =? 0 | _ => false end.
Fixpoint spoken (e : scopes) (l : list inst) : list inst := match l with [] => [] | [i] => if plain_return e i then [] else [i] | i :: l => i :: spoken e l end.
Fixpoint holds_container (i : inst) : bool :=
  match i with Container _ _ => true | If _ t f => existsb holds_container t || existsb holds_container f | Switch _ ss => existsb (existsb holds_container) ss | _ => false end.
Fixpoint injected_blocks (injection : text) (seen : bool) (e : scopes) (bs : list block) (s : writer) : outcome writer :=
  match bs with
  | [] => Ret s
  | Block _ l c :: bs =>
      let seen := seen || existsb holds_container c in
      s <- lift (AddOpenBrace env) s ;;
      s <- write_code env (write env statement_text condition_text value_text il_text case_of unwrapped branch_label main e 1) (spoken e c) (AddLabelIfNeeded env il_text l c s) ;;
      s <- (if seen then Ret s else lift (fun f => AppendIndentedLine env f injection) s) ;;
      s <- lift (fun f => AddCloseBrace env f false) s ;;
      injected_blocks injection seen e bs s
  end.
Definition StartMainBlock_injected (injection : text) (bs : list block) (f : formatter) : outcome formatter := s <- injected_blocks injection false [(main, bs)] bs (1, f) ;; Ret (snd s).
(** CppVisitorBase.cs 131-137; CurrentClass is [c] *)
Definition class_type (c : class) : cs_type := Named (c_kind c) false (c_name c).
Definition Scope_text (c : class) (f : formatter) : outcome formatter := f <- FormatType_text env name_text (class_type c) f ;; Ret (Append f (T "::")).
Definition WriteMethodHeader_source (c : class) (k : nat) (methodName : text) (ps : list param) (f : formatter) : outcome formatter :=
  f <- Scope_text c f ;; f <- AppendName env f methodName ;; WriteCommaSeparatedListInParenthesis (VisitParameterDeclaration_text env name_text param_text k) ps f.
(** CppVisitorBase.cs 337-351 *)
Definition VisitConstructorInitializer_text (i : initializer) (f : formatter) : outcome formatter :=
  f <- (if i_this i then Ret (Append (Append f (T ": ")) (T "this")) else AppendName env (Append f (T ": ")) (name_text (i_type i))) ;;
  WriteCommaSeparatedListInParenthesis (fun _ a f => Ret (Append f (argument_text a))) (i_arguments i) (Append f (T " ")).
(** CppVisitorBase.cs 544-555, 845-890, 424-428 with 226-235, 678-708, 592-604: member number [k] *)
Definition source_member (c : class) (k : nat) (m : member) (f : formatter) : outcome formatter :=
  match m with
  | Method mods r n ps None => Ret f
  | Method mods r n ps (Some b) =>
      f <- AppendIndented f [] ;; f <- FormatTypeDelaration_text env name_text r f ;;
      f <- WriteMethodHeader_source c k (name_text n) ps (Append f (T " ")) ;;
      body_text (code b) f
  | Constructor mods ps b =>
      f <- AppendIndented f [] ;;
      if has MStatic mods then
        f <- Scope_text c (Append f (T "Boolean ")) ;; f <- AppendName env f (name_text (c_name c)) ;;
        f <- StartMainBlock_injected (T "return (true);") (code b) (AppendLine env f (T "_Static()")) ;;
        f <- AppendIndented f (T "Boolean ") ;; f <- Scope_text c f ;; f <- AppendName env f (name_text (c_name c)) ;;
        f <- Scope_text c (Append f (T "_Initilized = ")) ;; f <- AppendName env f (name_text (c_name c)) ;;
        Ret (AppendLine env f (T "_Static();"))
      else
        f <- WriteMethodHeader_source c k (name_text (c_name c)) ps f ;;
        f <- (match init_of b with Some i => VisitConstructorInitializer_text i (Append f (T " ")) | None => Ret f end) ;;
        body_text (code b) f
  | Field mods const ty names =>
      if has MStatic mods then
        f <- AppendIndented f [] ;; f <- Scope_text c (Append (VisitType_text ty f) (T " ")) ;;
        f <- WriteCommaSeparatedList (fun _ n f => AppendName env f (name_text n)) 0 true names f ;;
        Ret (AppendLine env f (T ";"))
      else Ret f
  | Property mods ty n get set hidden =>
      f <- (if present absent get then
              f <- AppendIndented f [] ;; f <- FormatTypeDelaration_text env name_text ty f ;;
              f <- Scope_text c (Append f (T " ")) ;;
              let f := AppendLine env (Append (Append f (T "get_")) (name_text n)) (T "()") in
              b <- body_of get ;; body_text (code b) f
            else Ret f) ;;
      if present absent set then
        f <- AppendIndented f (T "void ") ;; f <- Scope_text c f ;;
        f <- FormatTypeDelaration_text env name_text ty (Append (Append (Append f (T "set_")) (name_text n)) (T "(")) ;;
        let f := AppendLine env f (T " x_value )") in
        b <- body_of set ;; body_text (code b) f
      else Ret f
  | Operator op r ps b =>
      f <- AppendIndented f [] ;;
      f <- VisitAstType_text env name_text r f ;;
      f <- VisitAstType_text env name_text r (Append f (T " ")) ;;
      o <- Operators_text op ;;
      f <- WriteCommaSeparatedListInParenthesis (VisitParameterDeclaration_text env name_text param_text k) ps (Append (Append f (T "::")) o) ;;
      body_text (code b) f
  end.
Fixpoint source_members (c : class) (k : nat) (l : list member) (f : formatter) : outcome formatter :=
  match l with [] => Ret f | m :: l => f <- source_member c k m f ;; source_members c (S k) l f end.
(** CppVisitorBase.cs 196-205, 837-843 *)
Definition VisitTypeDeclaration_source (t : ttype) (f : formatter) : outcome formatter :=
  match c_kind (t_class t) with KEnum => Ret f | _ => f <- SetNamespace env f (t_space t) ;; source_members (t_class t) 0 (c_members (t_class t)) f end.
Fixpoint source_types (l : list ttype) (f : formatter) : outcome formatter :=
  match l with [] => Ret f | t :: l => f <- VisitTypeDeclaration_source t f ;; source_types l f end.
(** CppVisitorBase.cs 85-90 and Program.cs 101-132 with Formatter.cs 361: the source file *)
Definition source_text (declarations : list ttype) (f : formatter) : outcome formatter :=
  f <- source_types declarations (AppendLine env f (T "#include ""TranslatedHeader.h""")) ;; CloseNamespace env f.
End Text.
