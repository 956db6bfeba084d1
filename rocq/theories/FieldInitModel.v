(** * Model of the initial values of fields: CppVisitorBase.cs 196-237, 424-428, 845-891, HeaderTypeVisitor.cs 241-245, 283-301

    Classes are numbered in the order in which the source pass visits them; fields are numbered within
    their class.  The input is the decompiled program: the decompiler (not part of the repository, version
    7 with the settings of Program.cs 57-59) moves the initialisers of static fields into the field
    declarations if the class has no static constructor of its own, and removes the generated one; it does
    the same with the initialisers of instance fields, and removes the only constructor of a class if it is
    public, has no parameters and nothing else to do.  The bodies it keeps are those of the IL code, where
    the initialisers still stand. *)
From Verif Require Import Base.

Inductive expr : Type := Const (n : Z) | Field (c f : nat) | Sum (a b : expr).
Inductive stmt : Type := Store (c f : nat) (e : expr) | Print (e : expr).

(** ** Static fields *)
(** [s_fields]: the static fields; [true]: of a struct type with a constructor (DateTime, TimeSpan, a struct of the
    program), which C++ initialises when it reaches the definition.  [s_inits]: static T f = e, in this order.
    [s_ctor]: the body of the static constructor the programmer wrote. *)
Record cls := mk_cls { s_fields : list (nat * bool); s_inits : list (nat * expr); s_ctor : option (list stmt) }.
Inductive member : Type := FieldDeclaration (f : nat) (struct : bool) (initialiser : option expr) | StaticConstructor (il_body : list stmt).
Definition stores (i : nat) (l : list (nat * expr)) : list stmt := map (fun x => Store i (fst x) (snd x)) l.
Definition initialiser_of (f : nat) (l : list (nat * expr)) : option expr := option_map snd (find (fun x => Nat.eqb f (fst x)) l).
(** The decompiler: see above.  Fields come before constructors. *)
Definition decompile (i : nat) (c : cls) : list member :=
  match s_ctor c with
  | Some body => map (fun x => FieldDeclaration (fst x) (snd x) None) (s_fields c) ++ [StaticConstructor (stores i (s_inits c) ++ body)]
  | None => map (fun x => FieldDeclaration (fst x) (snd x) (initialiser_of (fst x) (s_inits c))) (s_fields c)
  end.
(** The definitions of static storage in the source file *)
Inductive definition : Type := Define (c f : nat) (struct : bool) | DefineInitialised (c : nat) (body : list stmt).
(** 424-428 with 226-237 and 888-891: VisitVariableInitializer writes the name, and not the initialiser; 845-884: the function, and the
    variable that is initialised by calling it *)
Definition VisitMember (i : nat) (m : member) : list definition :=
  match m with
  | FieldDeclaration f st _ => [Define i f st]
  | StaticConstructor body => [DefineInitialised i body]
  end.
(** 196-208 for every class *)
Fixpoint emit (i : nat) (p : list cls) : list definition :=
  match p with [] => [] | c :: p => flat_map (VisitMember i) (decompile i c) ++ emit (S i) p end.
Definition source_file (p : list cls) : list definition := emit 0 p.

(** ** Instance fields *)
(** T f = v; or T f = a call of a static method that prints [out] and returns [v] *)
Inductive init : Type := Value (v : Z) | Announce (out v : Z).
(** A class: T f = e, in this order, and the body of the constructor if the programmer wrote one.  In [Field c f] and
    [Store c f], [c] is the distance from the root of the class hierarchy. *)
Record icls := mk_icls { i_inits : list (nat * init); i_ctor : option (list stmt) }.
(** The IL body the decompiler keeps, if it keeps the constructor *)
Definition istore (k : nat) (x : nat * init) : list stmt :=
  match snd x with Value v => [Store k (fst x) (Const v)] | Announce o v => [Print (Const o); Store k (fst x) (Const v)] end.
Definition istores (k : nat) (l : list (nat * init)) : list stmt := flat_map (istore k) l.
Definition kept_constructor (k : nat) (c : icls) : option (list stmt) :=
  match i_ctor c with Some body => Some (istores k (i_inits c) ++ body) | None => None end.
(** 845-866 and HeaderTypeVisitor.cs 283-301: a constructor is defined if the syntax tree has one; its body is the IL body without the call
    of the base constructor, which C++ makes first; field declarations have no initialisers. *)
Definition emitted_constructor (k : nat) (c : icls) : list stmt := match kept_constructor k c with Some b => b | None => [] end.
