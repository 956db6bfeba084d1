(** * Model of the type definitions of the header: HeaderTypeVisitor.cs

    One level above the text layout (C56, C57): the header is a list of lines that open and close
    namespaces, begin a type, and direct the use of a namespace.  The members of the types are modelled
    in MemberModel.v; here only the types among them matter. *)
From Coq Require Import String.
From Verif Require Import Base MemModel FormatterModel FormatterSpec TranslatorModel.

(** A type of the C# program is identified by its namespace and its name.  Written in the source (as the
    decompiler writes it): a name, a qualified name, or a keyword. *)
Definition tid := (text * text)%type.
Inductive ast_type : Type := SimpleType (n : text) | MemberType (target : ast_type) (member : text) | PrimitiveType (keyword : text).
(** [h_bases]: every base type and how it is written; [h_nested]: the types declared inside. *)
Record htype := mk_htype { h_id : tid; h_kind : class_type; h_bases : list (tid * ast_type); h_nested : list class_type }.
(** IType.FullName *)
Definition FullName (t : tid) : text := match fst t with [] => snd t | n => n ++ T "." ++ snd t end.
Definition decl_of (h : htype) : declaration := mk_decl (FullName (h_id h)) (h_kind h) (map (fun b => FullName (fst b)) (h_bases h)) [].

Inductive line : Type := NsOpen (n : text) | NsClose | Head (t : text) | UsingNs (n : text).

Section Environment.
Variable env : dotnet.
(** CppVisitorBase.cs 764-767 with 470-473 (VisitIdentifier), 539-542, 673-676 *)
Fixpoint VisitAstType (t : ast_type) : outcome text :=
  match t with
  | SimpleType n => mangle env n
  | MemberType target _ => VisitAstType target
  | PrimitiveType _ => Exn NotImplementedException
  end.
(** HeaderTypeVisitor.cs 213-226 *)
Fixpoint WriteBaseClasses (isFirst : bool) (nodes : list (tid * ast_type)) : outcome text :=
  match nodes with
  | [] => Ret []
  | (_, node) :: nodes =>
      n <- VisitAstType node ;;
      rest <- WriteBaseClasses false nodes ;;
      Ret ((if negb isFirst then T "," else []) ++ n ++ rest)
  end.
(** HeaderTypeVisitor.cs 179-190 *)
Definition OutputParentage (h : htype) : outcome text :=
  match h_bases h with
  | _ :: _ => bs <- WriteBaseClasses true (h_bases h) ;; Ret (T " : public " ++ bs)
  | [] => Ret (match h_kind h with ClassType | StructType => T " : public Object" | _ => [] end)
  end.
(** HeaderTypeVisitor.cs 191-205 *)
Definition OutputEntityType (h : htype) : text :=
  match h_kind h with InterfaceType => T "class " | StructType => T "struct " | _ => T "class " end.
(** HeaderTypeVisitor.cs 159-161 *)
Definition head_text (h : htype) : outcome text :=
  n <- mangle env (snd (h_id h)) ;; p <- OutputParentage h ;; Ret (OutputEntityType h ++ n ++ p).

(** The visitor's state: the open namespace (Formatter.nameSpace), the dictionary of namespaces in the
    order of its entries, and the lines written. *)
Record hstate := mk_hstate { h_open : option text; h_spaces : list text; h_lines : list line }.
(** Formatter.cs 85-107 *)
Definition SetNamespace (s : hstate) (v : text) : hstate :=
  let n := namespace_name v in
  match h_open s with
  | Some c => if text_eqb n c then s else mk_hstate (Some n) (h_spaces s) (h_lines s ++ [NsClose; NsOpen n])
  | None => mk_hstate (Some n) (h_spaces s) (h_lines s ++ [NsOpen n])
  end.
(** HeaderTypeVisitor.cs 77-96, 150-175: one type.  A nested class or struct is visited while CreateHeaders
    enumerates the list of declarations, is added to it (111-128), and the enumeration then fails; a
    nested enum is ignored. *)
Definition adds_declaration (k : class_type) : bool := match k with EnumType => false | _ => true end.
Definition HeaderTypeDeclaration (h : htype) (s : hstate) : outcome hstate :=
  let s := SetNamespace s (fst (h_id h)) in
  let s := mk_hstate (h_open s) (if known (fst (h_id h)) (h_spaces s) then h_spaces s else h_spaces s ++ [fst (h_id h)]) (h_lines s) in
  t <- head_text h ;;
  Ret (mk_hstate (h_open s) (h_spaces s) (h_lines s ++ [Head t])).
(** HeaderTypeVisitor.cs 80-86, 87-93 *)
Fixpoint write_each (p : htype -> bool) (l : list htype) (s : hstate) : outcome hstate :=
  match l with
  | [] => Ret s
  | h :: l =>
      if p h then
        s <- HeaderTypeDeclaration h s ;;
        _ <- throw_if (existsb adds_declaration (h_nested h)) InvalidOperationException ;;
        write_each p l s
      else write_each p l s
  end.
(** HeaderTypeVisitor.cs 97-110 with Formatter.cs 111-118 *)
Definition WriteUsingNamespaces (s : hstate) : list line :=
  h_lines s ++ (match h_open s with Some _ => [NsClose] | None => [] end) ++ map (fun n => UsingNs (namespace_name n)) (h_spaces s).
(** HeaderTypeVisitor.cs 111-128 *)
Fixpoint insert_type (d : htype) (l : list htype) : list htype :=
  match l with
  | [] => [d]
  | x :: l => if IsParentOf (decl_of d) (decl_of x) then d :: x :: l else x :: insert_type d l
  end.
Definition visit_type (l : list htype) (d : htype) : list htype := if is_enum (decl_of d) then l else insert_type d l.
(** HeaderTypeVisitor.cs 77-96: the header of a program whose types are visited in the given order *)
Definition header_lines (types : list htype) : outcome (list line) :=
  let l := fold_left visit_type types [] in
  s <- write_each (fun h => is_struct (decl_of h)) l (mk_hstate None [] []) ;;
  s <- write_each (fun h => is_class (decl_of h)) l s ;;
  Ret (WriteUsingNamespaces s).

(** ProtoTypeVisitor.cs 55-84: the classes and structs (and enums) the prototypes declare: the namespace and the C++ name *)
Definition prototype_of (h : htype) : outcome tid := n <- mangle env (snd (h_id h)) ;; Ret (namespace_name (fst (h_id h)), n).
End Environment.
