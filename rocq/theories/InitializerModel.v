(** * Model of array initialisers: MyIlInstructionVisitor.cs 32, 278-286, 910-930, 1120-1136, 1165-1259

    `t = new T[n] { e0, e1, ... }` reaches the translator as an assignment whose value is a block: a
    temporary receives the new array, every element is stored through the temporary, and the block's
    value is the temporary.  The translator writes the target in place of the temporary.
    Names (ILVariable.Name, IField.Name) are numbers; the name 0 is `this`.  Local variables and fields
    share the numbers: equal numbers are written with equal names.  Element types, casts to enums and
    initialisers without elements (which the decompiler does not build) are not modelled. *)
From Verif Require Import Base.

Definition this : Z := 0.
(** Element expressions, free of side effects. *)
Inductive expr :=
  | Const (z : Z)
  | Var (v : Z)               (* LdLoc *)
  | FieldOf (o f : Z)         (* LdObj (LdFlda (LdLoc o) f) *)
  | Elem (a : Z) (i : Z).     (* LdObj (LdElema (LdLoc a) i) *)
Inductive rvalue :=
  | Plain (e : expr)
  | NewArr (n : Z)
  | InitArr (tmp : Z) (n : Z) (elements : list (Z * rvalue)).   (* Block of kind ArrayInitializer *)
Inductive target := ToVar (v : Z) | ToField (o f : Z) | ToElem (a i : Z) | ToStatic (f : Z).
Record statement := mk_stmt { dest : target; val : rvalue }.

(** What is written.  [CName n]: the bare name. *)
Inductive cexpr := CConst (z : Z) | CName (n : Z) | CField (o f : Z) | CElem (a i : Z) | CNew (n : Z).
Inductive ctarget := CToName (n : Z) | CToField (o f : Z) | CToElem (a i : Z) | CToStatic (f : Z).
Record cstatement := mk_cstmt { cdest : ctarget; cval : cexpr }.

(** variableTranslation (32), 1236-1242: an entry is never replaced *)
Definition translation := list (Z * Z).
Fixpoint translated (tr : translation) (n : Z) : option Z :=
  match tr with [] => None | (a, b) :: tr => if a =? n then Some b else translated tr n end.
Definition AddTranslatedName (a b : Z) (tr : translation) : translation :=
  match translated tr a with Some _ => tr | None => (a, b) :: tr end.
(** 914-924 VisitLdLoc *)
Definition VisitLdLoc (tr : translation) (n : Z) : Z := match translated tr n with Some m => m | None => n end.
Definition VisitExpr (tr : translation) (e : expr) : cexpr :=
  match e with
  | Const z => CConst z
  | Var v => CName (VisitLdLoc tr v)
  | FieldOf o f => CField (VisitLdLoc tr o) f
  | Elem a i => CElem (VisitLdLoc tr a) i
  end.
(** The target of StLoc (1131) is written without translation, that of StObj (1179) is visited. *)
Definition VisitTarget (tr : translation) (t : target) : ctarget :=
  match t with
  | ToVar v => CToName v
  | ToField o f => CToField (VisitLdLoc tr o) f
  | ToElem a i => CToElem (VisitLdLoc tr a) i
  | ToStatic f => CToStatic f
  end.
(** 1204-1218 (a local variable) and 1243-1256 (an address): what the temporary is translated to *)
Definition add_target (tmp : Z) (t : target) (tr : translation) : translation :=
  match t with
  | ToVar v => if v =? tmp then tr else AddTranslatedName tmp v tr
  | ToField _ f => AddTranslatedName tmp f tr
  | ToElem _ _ | ToStatic _ => tr
  end.
Section Elements.
Variable visit : translation -> target -> rvalue -> translation * list cstatement.
(** 1219-1235 InitializeElementsOfArray *)
Fixpoint InitializeElementsOfArray (tr : translation) (tmp : Z) (l : list (Z * rvalue)) : translation * list cstatement :=
  match l with
  | [] => (tr, [])
  | (i, r) :: l => let (tr, c) := visit tr (ToElem tmp i) r in let (tr, c') := InitializeElementsOfArray tr tmp l in (tr, c ++ c')
  end.
End Elements.
(** 1120-1136 VisitStLoc, 1176-1186 VisitStObj *)
Fixpoint visit (tr : translation) (t : target) (r : rvalue) {struct r} : translation * list cstatement :=
  match r with
  | Plain e => (tr, [mk_cstmt (VisitTarget tr t) (VisitExpr tr e)])
  | NewArr n => (tr, [mk_cstmt (VisitTarget tr t) (CNew n)])
  | InitArr tmp n elements =>
      let tr' := add_target tmp t tr in
      let (tr'', c) := InitializeElementsOfArray visit tr' tmp elements in
      (tr'', mk_cstmt (VisitTarget tr t) (CNew n) :: c)
  end.
Fixpoint visit_all (tr : translation) (l : list statement) : list cstatement :=
  match l with [] => [] | s :: l => let (tr, c) := visit tr (dest s) (val s) in c ++ visit_all tr l end.
(** 283: the dictionary is empty when a method starts. *)
Definition translate (l : list statement) : list cstatement := visit_all [] l.

(** 1204-1235 with [parent == null], an initialised array as an argument of a call (538-562): the store of the
    temporary and the stores of the elements are written between the parentheses.  What is written for the elements is left open. *)
Inductive token := Open | Close | Semicolon | Written (s : cstatement).
Fixpoint separated (l : list cstatement) : list token :=
  match l with [] => [] | [s] => [Written s] | s :: l => Written s :: Semicolon :: separated l end.
Definition argument_tokens (tmp n : Z) (elements : list (Z * rvalue)) : list token :=
  Open :: Written (mk_cstmt (CToName tmp) (CNew n)) :: Semicolon :: separated (snd (InitializeElementsOfArray visit [] tmp elements)) ++ [Close].
