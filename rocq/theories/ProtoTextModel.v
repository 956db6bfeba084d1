(** * The text of the prototypes: ProtoTypeVisitor.cs on Formatter.cs

    The types are those of HeaderTextModel.v; [values t] are the members of the declaration [t] if it is an enum, with their
    initialisers as in EnumModel.v.  Simplified: no type is nested. *)
From Coq Require Import String.
From Verif Require Import Base MemModel IntModel FormatterModel FormatterSpec TranslatorModel MemberModel HeaderTextModel.
From Verif Require EnumModel.
Import ListNotations.
Local Open Scope list_scope.

Section Text.
Variable env : dotnet.
Variable name_text : Z -> text.
Variable values : ttype -> list (text * EnumModel.init).
(** ProtoTypeVisitor.cs 59-72 *)
Definition keyword_text (k : kind) : text := match k with KEnum => T "enum " | KInterface => T "class " | KStruct => T "struct " | _ => T "class " end.
(** ProtoTypeVisitor.cs 89-104 *)
Definition OutputEnumValues (t : ttype) (f : formatter) : outcome formatter :=
  f <- AddOpenBrace env f ;; f <- EnumModel.members env f (name_text (c_name (t_class t))) true (values t) ;; AddCloseBrace env f true.
(** ProtoTypeVisitor.cs 54-84 *)
Definition VisitTypeDeclaration_proto (t : ttype) (f : formatter) : outcome formatter :=
  let c := t_class t in
  f <- SetNamespace env f (t_space t) ;;
  f <- AppendIndented f (keyword_text (c_kind c)) ;;
  f <- FormatType_text env name_text (Named (c_kind c) false (c_name c)) f ;;
  f <- (match c_kind c with KEnum => OutputEnumValues t f | _ => Ret (Append f (T ";")) end) ;;
  Ret (AppendLine env f []).
Fixpoint proto_types (l : list ttype) (f : formatter) : outcome formatter :=
  match l with [] => Ret f | t :: l => f <- VisitTypeDeclaration_proto t f ;; proto_types l f end.
(** ProtoTypeVisitor.cs 44-52 *)
Definition AddHeaders_proto (f : formatter) : formatter :=
  fold_left (AppendLine env) [T "#pragma once"; T "#include ""DotnetTypes.h"""; T "#include <DotNetLibrarySupport.h>"; T "using namespace DotnetLibrary;"; T "using namespace DotnetLibrarySupport;"; []] f.
(** CppVisitorBase.cs 85-101 and Program.cs 101-132 with Formatter.cs 361: the file of the prototypes *)
Definition proto_text (declarations : list ttype) (f : formatter) : outcome formatter :=
  f <- proto_types declarations (AddHeaders_proto f) ;; CloseNamespace env f.
End Text.
