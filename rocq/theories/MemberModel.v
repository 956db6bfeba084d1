(** * Model of the class members the translator writes: CppVisitorBase.cs, HeaderTypeVisitor.cs,
    CppTypeVisitor.cs 173-264

    The header visitor and the source visitor walk the members of the same class; the model gives the
    declarations of the one and the definitions of the other.  Names are numbers (their spelling: C71);
    bodies are numbers (their translation: C59-C62, C73-C78). *)
From Verif Require Import Base.

(** ** Types *)
Inductive kind := KClass | KStruct | KEnum | KInterface.
(** [keyword]: the C# syntax tree holds a PrimitiveType (int, string, object, void, ...). *)
Inductive cs_type :=
  | Named (k : kind) (keyword : bool) (n : Z)
  | ArrayOf (element : cs_type)
  | ByReference (element : cs_type).
Inductive cpp_name := CName (n : Z) | CArray | CBrackets (x : cpp_name).   (* CBrackets: T[], no C++ type *)
Inductive suffix := Star | Amp.
Record cpp_type := mk_cpp { base : cpp_name; suffixes : list suffix }.
(** IType.Name without the & of a reference *)
Fixpoint type_name (t : cs_type) : cpp_name :=
  match t with Named _ _ n => CName n | ArrayOf e => CBrackets (type_name e) | ByReference e => type_name e end.
(** CppTypeVisitor.cs 186-200 *)
Definition FormatType (t : cs_type) : cpp_name :=
  match t with ArrayOf _ => CArray | _ => type_name t end.
(** CppTypeVisitor.cs 206-216; the kind of a type *)
Definition is_struct_type (t : cs_type) : bool := match t with Named KStruct _ _ => true | _ => false end.
Definition IsPointerType (t : cs_type) : bool :=
  match t with
  | ByReference e => negb (is_struct_type e)
  | Named KClass _ _ | ArrayOf _ => true
  | Named _ _ _ => false
  end.
(** CppTypeVisitor.cs 173-181 (ValidateType: C58) *)
Definition FormatTypeDelaration (t : cs_type) : cpp_type := mk_cpp (FormatType t) (if IsPointerType t then [Star] else []).
(** CppTypeVisitor.cs 284-355: the type visitor.  [None]: the text "*** Unknow type". *)
Definition VisitType (t : cs_type) : option cpp_type :=
  match t with
  | ArrayOf _ => Some (mk_cpp CArray [Star])
  | Named KClass _ n => Some (mk_cpp (CName n) [Star])
  | Named _ _ n => Some (mk_cpp (CName n) [])
  | ByReference _ => None
  end.
(** CppVisitorBase.cs 332-334, 487-491, 672-675, 779-783: a type of the C# syntax tree.
    A composed type writes nothing. *)
Definition VisitAstType (t : cs_type) : outcome (option cpp_type) :=
  match t with
  | Named _ true _ => Exn NotImplementedException
  | Named _ false n => Ret (Some (mk_cpp (CName n) []))
  | _ => Ret None
  end.

(** ** Members *)
Inductive modifier := MStatic | MAbstract | MVirtual | MOverride | MNew | MOther.
Inductive param_modifier := PNone | PRef | POut | PParams | PIn.
Record param := mk_param { p_type : cs_type; p_mod : param_modifier }.
Inductive accessor := Absent | Body (b : Z).
Inductive operator_type := Addition | Subtraction | BitwiseAnd | OtherOperator (n : Z).
Inductive member :=
  | Method (mods : list modifier) (ret : cs_type) (n : Z) (ps : list param) (body : option Z)
  | Constructor (mods : list modifier) (ps : list param) (body : Z)
  | Property (mods : list modifier) (ty : cs_type) (n : Z) (get set : accessor) (hidden : bool)
      (* hidden: an automatic property, whose getter returns its backing field *)
  | Field (mods : list modifier) (const : bool) (ty : cs_type) (names : list Z)
  | Operator (op : operator_type) (ret : cs_type) (ps : list param) (body : Z).
Record class := mk_class { c_kind : kind; c_name : Z; c_members : list member }.

(** ** What is written *)
Inductive cpp_id := Id (n : Z) | Getter (n : Z) | Setter (n : Z) | Backing (n : Z) | Ctor | StaticInit | Initialised | Op (o : operator_type).
Inductive form := Prototype | Pure | Inline | Variable_.   (* f(); f() = 0; f(){}; a variable *)
Record declared := mk_declared { is_static : bool; is_virtual : bool; what : form; ret : option cpp_type; name : cpp_id; params : list cpp_type }.
Record defined := mk_defined { in_class : option Z; dret : option cpp_type; dname : cpp_id; dparams : list cpp_type; dbody : option Z }.
(** What `node.Getter` is for an accessor that is not there: a null reference or, as in
    ICSharpCode.Decompiler 7.2.1, a null object, which is different from null and has no annotations. *)
Inductive absence := NullReference | NullObject.

(** CppVisitorBase.cs 154-172 *)
Definition is_mod (m x : modifier) : bool :=
  match m, x with MStatic, MStatic | MAbstract, MAbstract | MVirtual, MVirtual | MOverride, MOverride | MNew, MNew => true | _, _ => false end.
Definition has (m : modifier) (l : list modifier) : bool := existsb (is_mod m) l.
(** CppVisitorBase.cs 176-194 *)
Definition AddParameterModifiers (p : param) : list suffix :=
  match p_mod p with PRef => [Amp] | POut => [Star] | _ => [] end.
(** CppVisitorBase.cs 595-602 *)
Definition VisitParameterDeclaration (p : param) : cpp_type :=
  let t := FormatTypeDelaration (p_type p) in mk_cpp (base t) (suffixes t ++ AddParameterModifiers p).
Definition parameters (ps : list param) : list cpp_type := map VisitParameterDeclaration ps.
Definition value_param (t : cs_type) : list cpp_type := [FormatTypeDelaration t].
(** CppVisitorBase.cs 71-73, 577-588 and HeaderTypeVisitor.cs 331-338: the dictionary of operators *)
Definition Operators (o : operator_type) : outcome cpp_id :=
  match o with OtherOperator _ => Exn KeyNotFoundException | _ => Ret (Op o) end.
Definition void_type : cpp_type := mk_cpp (CName 0) [].   (* the name 0: void *)
Definition boolean_type : cpp_type := mk_cpp (CName 1) [].  (* the name 1: Boolean *)

Section Library.
Variable absent : absence.
(** `accessor != null` *)
Definition present (a : accessor) : bool := match a, absent with Absent, NullReference => false | _, _ => true end.
(** `accessor.Annotation<ILFunction>()`, then `.Body` *)
Definition body_of (a : accessor) : outcome Z := match a with Body b => Ret b | Absent => Exn NullReferenceException end.

(** HeaderTypeVisitor.cs 230-338: the declarations of one member *)
Definition declare (m : member) : outcome (list declared) :=
  match m with
  | Method mods r n ps body =>   (* 257-269 *)
      Ret [mk_declared (has MStatic mods) (has MAbstract mods || has MVirtual mods) (match body with None => Pure | _ => Prototype end)
             (Some (FormatTypeDelaration r)) (Id n) (parameters ps)]
  | Constructor mods ps body =>   (* 228-255 *)
      if has MStatic mods then Ret [mk_declared true false Prototype (Some boolean_type) StaticInit []; mk_declared true false Variable_ (Some boolean_type) Initialised []]
      else Ret [mk_declared false false Prototype None Ctor (parameters ps)]
  | Field mods const ty names =>   (* 277-292: sym.IsStatic holds for constants too *)
      match names with
      | [] => Exn InvalidOperationException   (* First of an empty list *)
      | _ => Ret (map (fun n => mk_declared (has MStatic mods || const) false Variable_ (Some (FormatTypeDelaration ty)) (Id n) []) names)
      end
  | Property mods ty n get set hidden =>   (* 300-329 *)
      _ <- body_of get ;;
      Ret ((if present get then [mk_declared false false Prototype (Some (FormatTypeDelaration ty)) (Getter n) []] else []) ++
           (if present set then [mk_declared false false Prototype (Some void_type) (Setter n) (value_param ty)] else []) ++
           (if hidden then [mk_declared false false Variable_ (Some (FormatTypeDelaration ty)) (Backing n) []] else []))
  | Operator op r ps body =>   (* 331-338 *)
      t <- VisitAstType r ;; o <- Operators op ;;
      Ret [mk_declared true false Prototype t o (parameters ps)]
  end.
Fixpoint declare_all (l : list member) : outcome (list declared) :=
  match l with [] => Ret [] | m :: l => d <- declare m ;; r <- declare_all l ;; Ret (d ++ r) end.
(** HeaderTypeVisitor.cs 152-187 with 251-253: HadConstructor, HadDefaultConstructor *)
Definition is_constructor (m : member) : bool := match m with Constructor _ _ _ => true | _ => false end.
Definition no_parameters (m : member) : bool := match m with Constructor _ [] _ => true | _ => false end.
Definition is_struct_kind (k : kind) : bool := match k with KStruct => true | _ => false end.
Definition HeaderTypeDeclaration (c : class) : outcome (list declared) :=
  d <- declare_all (c_members c) ;;
  Ret (d ++ if is_struct_kind (c_kind c) && existsb is_constructor (c_members c) && negb (existsb no_parameters (c_members c))
            then [mk_declared false false Inline None Ctor []] else []).

(** CppVisitorBase.cs: the definitions of one member of class [cls] *)
Definition define (cls : Z) (m : member) : outcome (list defined) :=
  match m with
  | Method mods r n ps None => Ret []   (* 510-521 *)
  | Method mods r n ps (Some b) => Ret [mk_defined (Some cls) (Some (FormatTypeDelaration r)) (Id n) (parameters ps) (Some b)]
  | Constructor mods ps b =>   (* 813-857 *)
      if has MStatic mods then Ret [mk_defined (Some cls) (Some boolean_type) StaticInit [] (Some b); mk_defined (Some cls) (Some boolean_type) Initialised [] None]
      else Ret [mk_defined (Some cls) None Ctor (parameters ps) (Some b)]
  | Field mods const ty names =>   (* 226-235, 419-423: one line for all names *)
      if has MStatic mods then match names with [n] => Ret [mk_defined (Some cls) (VisitType ty) (Id n) [] None] | _ => Exn NotImplementedException end
      else Ret []
      (* the decompiler gives every field its own declaration; a longer list is not modelled *)
  | Property mods ty n get set hidden =>   (* 678-708 *)
      g <- (if present get then b <- body_of get ;; Ret [mk_defined (Some cls) (Some (FormatTypeDelaration ty)) (Getter n) [] (Some b)] else Ret []) ;;
      s <- (if present set then b <- body_of set ;; Ret [mk_defined (Some cls) (Some void_type) (Setter n) (value_param ty) (Some b)] else Ret []) ;;
      Ret (g ++ s)
  | Operator op r ps b =>   (* 577-588: the return type stands for the class *)
      t <- VisitAstType r ;; o <- Operators op ;;
      Ret [mk_defined (match t with Some t => match base t with CName n => Some n | _ => None end | None => None end) t o (parameters ps) (Some b)]
  end.
Fixpoint define_all (cls : Z) (l : list member) : outcome (list defined) :=
  match l with [] => Ret [] | m :: l => d <- define cls m ;; r <- define_all cls l ;; Ret (d ++ r) end.
(** CppVisitorBase.cs 199-208, 802-808 *)
Definition DefineClass (c : class) : outcome (list defined) := define_all (c_name c) (c_members c).
End Library.
