(** * The text of the class definitions of the header: HeaderTypeVisitor.cs on Formatter.cs

    MemberModel gives what is declared; this file writes its characters.  Names are numbers, spelled by [name_text]; the spelling of a
    method's parameters is [param_text] (number of the member, number of the parameter).  Simplified: base types are simple names
    (C99 has the others), no type is nested (C99_nested_refuted), ValidateType writes nothing (C58). *)
From Coq Require Import String.
From Verif Require Import Base MemModel FormatterModel FormatterSpec TranslatorModel MemberModel.
Import ListNotations.
Local Open Scope list_scope.

(** A type declaration of the program: its namespace, its base types, its members. *)
Record ttype := mk_ttype { t_space : text; t_bases : list Z; t_class : class }.

Section Text.
Variable env : dotnet.
Variable absent : absence.
Variable name_text : Z -> text.
Variable param_text : nat -> nat -> text.
(** IType.Name of the decompiler *)
Fixpoint itype_name (t : cs_type) : text :=
  match t with Named _ _ n => name_text n | ArrayOf e => itype_name e ++ T "[]" | ByReference e => itype_name e ++ T "&" end.
(** CppTypeVisitor.cs 186-200 *)
Definition FormatType_text (t : cs_type) (f : formatter) : outcome formatter :=
  let name := itype_name t in
  name <- (match t with ByReference _ => Substring name 0 (zlen name - 1) | _ => Ret name end) ;;
  AppendName env f (match t with ArrayOf _ => T "Array" | _ => name end).
(** CppTypeVisitor.cs 173-181 *)
Definition FormatTypeDelaration_text (t : cs_type) (f : formatter) : outcome formatter :=
  f <- FormatType_text t f ;; Ret (if IsPointerType t then Append f (T "*") else f).
(** CppVisitorBase.cs 103-128 *)
Section Commas.
Context {A : Type}.
Variable each : nat -> A -> formatter -> outcome formatter.
Fixpoint WriteCommaSeparatedList (k : nat) (isFirst : bool) (l : list A) (f : formatter) : outcome formatter :=
  match l with
  | [] => Ret f
  | a :: l => f <- each k a (if negb isFirst then Append f (T ",") else f) ;; WriteCommaSeparatedList (S k) false l f
  end.
Definition WriteCommaSeparatedListInParenthesis (l : list A) (f : formatter) : outcome formatter :=
  f <- WriteCommaSeparatedList 0 true l (Append f (T "(")) ;; Ret (Append f (T ")")).
End Commas.
(** CppVisitorBase.cs 176-194 *)
Definition AddParameterModifiers_text (p : param) (f : formatter) : formatter :=
  match p_mod p with PRef => Append f (T "& ") | POut => Append f (T "* ") | _ => f end.
(** CppVisitorBase.cs 610-617 *)
Definition VisitParameterDeclaration_text (m k : nat) (p : param) (f : formatter) : outcome formatter :=
  f <- FormatTypeDelaration_text (p_type p) f ;; AppendName env (Append (AddParameterModifiers_text p f) (T " ")) (param_text m k).
(** CppVisitorBase.cs 154-175; HeaderTypeVisitor.cs 273-277 *)
Fixpoint WriteModifiers_text (mods : list modifier) (f : formatter) : formatter :=
  match mods with
  | [] => f
  | m :: mods =>
      let f := match m with MStatic => Append f (T "static ") | _ => f end in
      let f := match m with MAbstract => Append f (T "virtual ") | _ => f end in
      let f := match m with MVirtual => Append f (T "virtual ") | _ => f end in
      WriteModifiers_text mods f
  end.
Definition WriteMethodHeader_text (k : nat) (methodName : text) (ps : list param) (f : formatter) : outcome formatter :=
  f <- AppendName env f methodName ;; WriteCommaSeparatedListInParenthesis (VisitParameterDeclaration_text k) ps f.
(** CppVisitorBase.cs 71-73 *)
Definition Operators_text (o : operator_type) : outcome text :=
  match o with Addition => Ret (T "op_Addition") | Subtraction => Ret (T "op_Subtraction") | BitwiseAnd => Ret (T "op_BitwiseAnd") | OtherOperator _ => Exn KeyNotFoundException end.
(** CppVisitorBase.cs 468-471, 673-676, 764-767 (VisitAstType of MemberModel) *)
Definition VisitAstType_text (t : cs_type) (f : formatter) : outcome formatter :=
  match t with Named _ true _ => Exn NotImplementedException | Named _ false n => AppendName env f (name_text n) | _ => Ret f end.
(** MyIlInstructionVisitor.cs 1434-1454: the name of the backing field the getter returns *)
Definition hidden_text (n : Z) : text := ReplaceSpecial (T "<" ++ name_text n ++ T ">k__BackingField").
Definition is_static_field (mods : list modifier) (const : bool) : bool := has MStatic mods || const.
(** HeaderTypeVisitor.cs 230-340: member number [k] of the class *)
Definition member_text (cls : Z) (k : nat) (m : member) (f : formatter) : outcome formatter :=
  match m with
  | Method mods r n ps body =>   (* 260-272 *)
      f <- AppendIndented f [] ;;
      f <- FormatTypeDelaration_text r (WriteModifiers_text mods f) ;;
      f <- WriteMethodHeader_text k (name_text n) ps (Append f (T " ")) ;;
      let f := match body with None => Append f (T " = 0") | Some _ => f end in
      Ret (AppendLine env f (T ";"))
  | Constructor mods ps _ =>   (* 230-259 *)
      f <- AppendIndented f [] ;;
      if negb (has MStatic mods) then f <- WriteMethodHeader_text k (name_text cls) ps f ;; Ret (AppendLine env f (T ";"))
      else
        f <- AppendName env (Append f (T "static Boolean ")) (name_text cls) ;;
        f <- AppendIndented (AppendLine env f (T "_Static();")) (T "static Boolean ") ;;
        f <- AppendName env f (name_text cls) ;;
        Ret (AppendLine env f (T "_Initilized;"))
  | Field mods const ty names =>   (* 279-293 *)
      match names with
      | [] => Exn InvalidOperationException
      | _ =>
          f <- AppendIndented f [] ;;
          f <- FormatTypeDelaration_text ty (if is_static_field mods const then Append f (T "static ") else f) ;;
          f <- WriteCommaSeparatedList (fun _ n f => AppendName env f (name_text n)) 0 true names (Append f (T " ")) ;;
          Ret (AppendLine env f (T ";"))
      end
  | Property mods ty n get set hidden =>   (* 300-330 *)
      f <- (if present absent get then
              f <- AppendIndented f [] ;; f <- FormatTypeDelaration_text ty f ;;
              Ret (AppendLine env (Append (Append f (T " get_")) (name_text n)) (T "();"))
            else Ret f) ;;
      f <- (if present absent set then
              f <- AppendIndented f (T "void set_") ;;
              f <- FormatTypeDelaration_text ty (Append (Append f (name_text n)) (T "(")) ;;
              Ret (AppendLine env f (T " x_value );"))
            else Ret f) ;;
      _ <- body_of get ;;
      if hidden then
        f <- AppendIndented f [] ;; f <- FormatTypeDelaration_text ty f ;;
        Ret (AppendLine env (Append (Append f (T " ")) (hidden_text n)) (T ";"))
      else Ret f
  | Operator op r ps _ =>   (* 331-339 *)
      f <- AppendIndented f (T "static ") ;;
      f <- VisitAstType_text r f ;;
      o <- Operators_text op ;;
      f <- WriteCommaSeparatedListInParenthesis (VisitParameterDeclaration_text k) ps (Append (Append f (T " ")) o) ;;
      Ret (AppendLine env f (T ";"))
  end.
Fixpoint members_text (cls : Z) (k : nat) (l : list member) (f : formatter) : outcome formatter :=
  match l with [] => Ret f | m :: l => f <- member_text cls k m f ;; members_text cls (S k) l f end.
(** HeaderTypeVisitor.cs 183-194, 215-229 *)
Definition OutputParentage_text (t : ttype) (f : formatter) : outcome formatter :=
  match t_bases t with
  | _ :: _ => WriteCommaSeparatedList (fun _ n f => AppendName env f (name_text n)) 0 true (t_bases t) (Append f (T " : public "))
  | [] => Ret (match c_kind (t_class t) with KClass | KStruct => Append f (T " : public Object") | _ => f end)
  end.
(** HeaderTypeVisitor.cs 195-210 *)
Definition OutputEntityType_text (k : kind) (f : formatter) : outcome formatter :=
  AppendIndented f (match k with KInterface => T "class " | KStruct => T "struct " | _ => T "class " end).
(** HeaderTypeVisitor.cs 176-182 *)
Definition CreateDefaultConstructor_text (c : class) (f : formatter) : outcome formatter :=
  f <- AppendIndented f [] ;; f <- FormatTypeDelaration_text (Named (c_kind c) false (c_name c)) f ;; Ret (Append f (T "(){};")).
(** HeaderTypeVisitor.cs 152-175 *)
Definition HeaderTypeDeclaration_text (t : ttype) (f : formatter) : outcome formatter :=
  let c := t_class t in
  f <- SetNamespace env f (t_space t) ;;
  f <- OutputEntityType_text (c_kind c) f ;;
  f <- FormatType_text (Named (c_kind c) false (c_name c)) f ;;
  f <- OutputParentage_text t f ;;
  f <- AddOpenBrace env f ;;
  f <- (if negb (is_struct_kind (c_kind c)) then AppendIndentedLine env f (T "public:") else Ret f) ;;
  f <- members_text (c_name c) 0 (c_members c) f ;;
  f <- (if is_struct_kind (c_kind c) && existsb is_constructor (c_members c) && negb (existsb no_parameters (c_members c))
        then CreateDefaultConstructor_text c f else Ret f) ;;
  AddCloseBrace env f true.
Fixpoint types_text (l : list ttype) (f : formatter) : outcome formatter :=
  match l with [] => Ret f | t :: l => f <- HeaderTypeDeclaration_text t f ;; types_text l f end.
(** The dictionary of namespaces (156-157) after the given types *)
Fixpoint namespaces_of (l : list ttype) (d : list text) : list text :=
  match l with [] => d | t :: l => namespaces_of l (if known (t_space t) d then d else d ++ [t_space t]) end.
(** HeaderTypeVisitor.cs 99-112 *)
Fixpoint using_text (d : list text) (f : formatter) : formatter :=
  match d with
  | [] => f
  | ns :: d =>
      let f := Append f (T "using namespace ") in
      let f := match ns with [] => Append f (T "UNNAMED") | _ => Append f (ns ++ T "_NS") end in
      using_text d (AppendLine env f (T ";"))
  end.
Definition is_struct_decl (t : ttype) : bool := is_struct_kind (c_kind (t_class t)).
Definition is_class_decl (t : ttype) : bool := match c_kind (t_class t) with KClass => true | _ => false end.
(** HeaderTypeVisitor.cs 60-65, 77-112 (AddHeaders, CreateHeaders, WriteUsingNamespaces) on the sorted declarations (C69, C99) *)
Definition header_text (declarations : list ttype) (f : formatter) : outcome formatter :=
  let f := AppendLine env f (T "#pragma once") in
  let f := AppendLine env f (T "#include """ ++ T "TranslatedProtos.h""") in
  f <- types_text (filter is_struct_decl declarations) f ;;
  f <- types_text (filter is_class_decl declarations) f ;;
  f <- CloseNamespace env f ;;
  Ret (using_text (namespaces_of (filter is_struct_decl declarations ++ filter is_class_decl declarations) []) f).
End Text.
