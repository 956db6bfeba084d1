(** * Model of the enums of the prototypes: ProtoTypeVisitor.cs, on FormatterModel.v *)
From Coq Require Import String.
From Verif Require Import Base MemModel IntModel FormatterModel FormatterSpec.

(** The initialiser of a member, as a C# expression.  The decompiler itself writes literals; the other
    forms are those the visitor distinguishes. *)
Inductive init : Type :=
  | NoInit
  | Number (v : Z)              (* a literal: CppVisitorBase.cs 640-670 for an integer *)
  | Reference (name : text)     (* VisitIdentifierExpression 475-478 *)
  | Silent                      (* binary, cast, conditional, member reference: 287-289, 300-302, 327-329, 533-535 *)
  | Unsupported.                (* unary, parenthesised, checked, unchecked: 307-310, 619-622, 914-922 *)
(** [e_underlying]: the bytes of the underlying type; the code never looks at it. *)
Record enum := mk_enum { e_name : text; e_underlying : Z; e_members : list (text * init) }.

Section Environment.
Variable env : dotnet.
(** Int32.ToString etc. in the invariant culture *)
Definition number_text (v : Z) : text := (if v <? 0 then [45] else []) ++ print_u (Z.abs v).
Definition write_init (f : formatter) (i : init) : outcome formatter :=
  match i with
  | NoInit => Ret f
  | Number v => Ret (Append (Append f (T " = ")) (number_text v))
  | Reference n => AppendName env (Append f (T " = ")) n
  | Silent => Ret (Append f (T " = "))
  | Unsupported => Exn NotImplementedException
  end.
(** ProtoTypeVisitor.cs 106-116 *)
Definition VisitEnumMemberDeclaration (f : formatter) (enum : text) (m : text * init) : outcome formatter :=
  f <- AppendIndentedName env f (fst m) ;; write_init (Append (Append f (T "_")) enum) (snd m).
(** ProtoTypeVisitor.cs 92-101 *)
Fixpoint members (f : formatter) (enum : text) (first : bool) (l : list (text * init)) : outcome formatter :=
  match l with
  | [] => Ret f
  | m :: l =>
      let f := if negb first then AppendLine env f (T ",") else f in
      f <- VisitEnumMemberDeclaration f enum m ;; members f enum false l
  end.
(** ProtoTypeVisitor.cs 54-84, 87-103 for an enum; the namespace is set before (C99) *)
Definition VisitEnum (f : formatter) (e : enum) : outcome formatter :=
  f <- AppendIndented f (T "enum ") ;;
  f <- AppendName env f (e_name e) ;;
  f <- AddOpenBrace env f ;;
  f <- members f (e_name e) true (e_members e) ;;
  f <- AddCloseBrace env f true ;;
  Ret (AppendLine env f []).
End Environment.
