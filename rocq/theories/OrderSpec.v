(** * Specification for C95: the order of evaluation

    An expression is a tree of nodes with operands.  What a node does with the values of its operands is
    arbitrary ([meaning]); the two languages differ in when the operands are evaluated.  C#: from left to right,
    each once.  C++: the operands of operators, calls and assignments are evaluated in any order, even
    interleaved; a called function runs without interruption. *)
From Verif Require Import Base StatementModel ExprModel ExprSpec.

Inductive label : Type :=
  | LNum (n : Z) | LStr (s : Z) | LNull | LStatic (i : ident)
  | LUnary (o : unary_op) | LBin (o : cpp_op) | LCast (t : type_name) | LMember (arrow : bool) (i : ident)
  | LCall (arrow : bool) (i : ident) | LStaticCall (i : ident) | LApply | LNew (t : type_name) | LConstruct (t : type_name)
  | LSetMember (arrow : bool) (i : ident) | LSetStatic (i : ident) | LStore | LSetOther.
(** Where a compound assignment reads and writes *)
Inductive place : Type := PMember (arrow : bool) (i : ident) | PStatic (i : ident) | PDeref | POther.
Inductive update : Type := UOp (o : cpp_op) | UPre (up : bool) | UPost (up : bool).

(** [act]: the new world and a value or an exception.  [get]: what a place holds.  [modify]: the value a compound assignment stores
    and the value it has, or an exception; for a local variable [change]. *)
Inductive effect := Pure | Reads | Acts.
Record meaning := mk_meaning {
  V : Type; W : Type;
  kind : label -> effect;
  act : label -> list V -> W -> W * (V + V);
  get : place -> list V -> W -> V;
  modify : place -> update -> list V -> V -> V -> W -> W * (V + V);
  change : update -> V -> V -> V * V;
  truth : V -> bool }.
(** Nodes declared pure only compute; nodes declared reading depend on the world and leave it alone. *)
Definition lawful (m : meaning) : Prop :=
  forall l vs, match kind m l with
    | Pure => exists v, forall w, act m l vs w = (w, inl v)
    | Reads => forall w, exists v, act m l vs w = (w, inl v)
    | Acts => True
    end.

Section Semantics.
Variable m : meaning.
Inductive term : Type :=
  | Val (v : V m)
  | Local_ (x : Z)
  | Node (l : label) (ts : list term)
  | Cond (c t f : term)
  | SetLocal (x : Z) (t : term)
  | ChangeLocal (x : Z) (u : update) (t : term)
  | Update (p : place) (u : update) (ts : list term) (t : term).
(** The C++ expression as a tree of nodes *)
Definition one : term := Node (LNum 1) [].
Fixpoint nodes (c : cexpr) : term :=
  match c with
  | CNum n => Node (LNum n) []
  | CStr s => Node (LStr s) []
  | CNull => Node LNull []
  | CId (Local x) => Local_ x
  | CId i => Node (LStatic i) []
  | CUnary o e => Node (LUnary o) [nodes e]
  | CBin o l r => Node (LBin o) [nodes l; nodes r]
  | CCast t e => Node (LCast t) [nodes e]
  | CCond c t f => Cond (nodes c) (nodes t) (nodes f)
  | CMember arrow e i => Node (LMember arrow i) [nodes e]
  | CCall (CMember arrow e i) a => Node (LCall arrow i) (nodes e :: map nodes a)
  | CCall (CId (Local x)) a => Node LApply (Local_ x :: map nodes a)
  | CCall (CId i) a => Node (LStaticCall i) (map nodes a)
  | CCall f a => Node LApply (nodes f :: map nodes a)
  | CNew t a => Node (LNew t) (map nodes a)
  | CConstruct t a => Node (LConstruct t) (map nodes a)
  | CAssign None (CId (Local x)) r => SetLocal x (nodes r)
  | CAssign None (CId i) r => Node (LSetStatic i) [nodes r]
  | CAssign None (CMember arrow e i) r => Node (LSetMember arrow i) [nodes e; nodes r]
  | CAssign None (CUnary UDeref e) r => Node LStore [nodes e; nodes r]
  | CAssign None l r => Node LSetOther [nodes l; nodes r]
  | CAssign (Some o) (CId (Local x)) r => ChangeLocal x (UOp o) (nodes r)
  | CAssign (Some o) (CId i) r => Update (PStatic i) (UOp o) [] (nodes r)
  | CAssign (Some o) (CMember arrow e i) r => Update (PMember arrow i) (UOp o) [nodes e] (nodes r)
  | CAssign (Some o) (CUnary UDeref e) r => Update PDeref (UOp o) [nodes e] (nodes r)
  | CAssign (Some o) l r => Update POther (UOp o) [nodes l] (nodes r)
  | CPre up (CId (Local x)) => ChangeLocal x (UPre up) one
  | CPre up e => Update POther (UPre up) [nodes e] one
  | CPost up (CId (Local x)) => ChangeLocal x (UPost up) one
  | CPost up (CId i) => Update (PStatic i) (UPost up) [] one
  | CPost up (CMember arrow e i) => Update (PMember arrow i) (UPost up) [nodes e] one
  | CPost up (CUnary UDeref e) => Update PDeref (UPost up) [nodes e] one
  | CPost up e => Update POther (UPost up) [nodes e] one
  end.

(** ** The state: local variables, and the world (fields, statics, arrays, the console) *)
Record state := mk_state { locals : Z -> V m; world : W m }.
Definition set_local (s : state) (x : Z) (v : V m) : state := mk_state (fun y => if y =? x then v else locals s y) (world s).
Definition set_world (s : state) (w : W m) : state := mk_state (locals s) w.
Definition same (s t : state) : Prop := (forall x, locals s x = locals t x) /\ world s = world t.
(** A result: a value or an exception, and the state reached *)
Inductive result (A : Type) := Done (s : state) (a : A) | Raised (s : state) (x : V m).
Arguments Done {A}. Arguments Raised {A}.
Definition finish (s : state) (r : W m * (V m + V m)) : result (V m) :=
  match r with (w, inl v) => Done (set_world s w) v | (w, inr x) => Raised (set_world s w) x end.
Definition agree {A} (r q : result A) : Prop :=
  match r, q with Done s a, Done t b => same s t /\ a = b | Raised s x, Raised t y => same s t /\ x = y | _, _ => False end.

(** ** C#: left to right.  A compound assignment reads its target before it evaluates the right operand. *)
Section List.
Variable lr : state -> term -> result (V m).
Fixpoint each (s : state) (ts : list term) : result (list (V m)) :=
  match ts with
  | [] => Done s []
  | t :: ts =>
      match lr s t with
      | Raised s x => Raised s x
      | Done s v => match each s ts with Done s vs => Done s (v :: vs) | Raised s x => Raised s x end
      end
  end.
End List.
Fixpoint lr (s : state) (t : term) {struct t} : result (V m) :=
  match t with
  | Val v => Done s v
  | Local_ x => Done s (locals s x)
  | Node l ts => match each lr s ts with Raised s x => Raised s x | Done s vs => finish s (act m l vs (world s)) end
  | Cond c t f => match lr s c with Raised s x => Raised s x | Done s v => if truth m v then lr s t else lr s f end
  | SetLocal x t => match lr s t with Raised s y => Raised s y | Done s v => Done (set_local s x v) v end
  | ChangeLocal x u t =>
      let old := locals s x in
      match lr s t with Raised s y => Raised s y | Done s v => let (n, r) := change m u old v in Done (set_local s x n) r end
  | Update p u ts t =>
      match each lr s ts with
      | Raised s x => Raised s x
      | Done s vs =>
          let old := get m p vs (world s) in
          match lr s t with Raised s x => Raised s x | Done s v => finish s (modify m p u vs old v (world s)) end
      end
  end.

(** ** C++: one step anywhere.  A compound assignment reads its target when it is done. *)
Inductive outcome := Next (s : state) (t : term) | Throws (s : state) (x : V m).
Definition within (f : term -> term) (o : outcome) : outcome := match o with Next s t => Next s (f t) | Throws s x => Throws s x end.
Definition finish_step (s : state) (r : W m * (V m + V m)) : outcome :=
  match r with (w, inl v) => Next (set_world s w) (Val v) | (w, inr x) => Throws (set_world s w) x end.
Inductive step : state -> term -> outcome -> Prop :=
  | S_local s x : step s (Local_ x) (Next s (Val (locals s x)))
  | S_operand s l a t b o : step s t o -> step s (Node l (a ++ t :: b)) (within (fun t => Node l (a ++ t :: b)) o)
  | S_node s l vs : step s (Node l (map Val vs)) (finish_step s (act m l vs (world s)))
  | S_condition s c t f o : step s c o -> step s (Cond c t f) (within (fun c => Cond c t f) o)
  | S_branch s v t f : step s (Cond (Val v) t f) (Next s (if truth m v then t else f))
  | S_value s x t o : step s t o -> step s (SetLocal x t) (within (SetLocal x) o)
  | S_set s x v : step s (SetLocal x (Val v)) (Next (set_local s x v) (Val v))
  | S_change_value s x u t o : step s t o -> step s (ChangeLocal x u t) (within (ChangeLocal x u) o)
  | S_change s x u v n r : change m u (locals s x) v = (n, r) -> step s (ChangeLocal x u (Val v)) (Next (set_local s x n) (Val r))
  | S_update_operand s p u a t b v o : step s t o -> step s (Update p u (a ++ t :: b) v) (within (fun t => Update p u (a ++ t :: b) v) o)
  | S_update_value s p u ts v o : step s v o -> step s (Update p u ts v) (within (Update p u ts) o)
  | S_update s p u vs v : step s (Update p u (map Val vs) (Val v)) (finish_step s (modify m p u vs (get m p vs (world s)) v (world s))).
(** A complete evaluation *)
Inductive evaluates : state -> term -> result (V m) -> Prop :=
  | E_value s v : evaluates s (Val v) (Done s v)
  | E_step s t s' t' r : step s t (Next s' t') -> evaluates s' t' r -> evaluates s t r
  | E_throw s t s' x : step s t (Throws s' x) -> evaluates s t (Raised s' x).
End Semantics.
Arguments Val {m}. Arguments Local_ {m}. Arguments Node {m}. Arguments Cond {m}. Arguments SetLocal {m}. Arguments ChangeLocal {m}. Arguments Update {m}.
Arguments Done {m A}. Arguments Raised {m A}. Arguments Next {m}. Arguments Throws {m}.
Arguments mk_state {m}. Arguments locals {m}. Arguments world {m}. Arguments set_local {m}. Arguments set_world {m}. Arguments same {m}. Arguments agree {m A}.
Arguments lr {m}. Arguments each {m}. Arguments step {m}. Arguments evaluates {m}. Arguments finish {m}. Arguments finish_step {m}. Arguments within {m}.

(** ** Which siblings may be evaluated in any order: neither acts (writes the world or throws) while the other acts, reads the world or
    assigns a local variable, and neither assigns a local variable the other uses. *)
Section Footprint.
Variable m : meaning.
Fixpoint acts (t : term m) : bool :=
  match t with
  | Val _ | Local_ _ => false
  | Node l ts => match kind m l with Acts => true | _ => existsb acts ts end
  | Cond c t f => acts c || acts t || acts f
  | SetLocal _ t | ChangeLocal _ _ t => acts t
  | Update _ _ _ _ => true
  end.
Fixpoint reads_world (t : term m) : bool :=
  match t with
  | Val _ | Local_ _ => false
  | Node l ts => match kind m l with Pure => existsb reads_world ts | _ => true end
  | Cond c t f => reads_world c || reads_world t || reads_world f
  | SetLocal _ t | ChangeLocal _ _ t => reads_world t
  | Update _ _ _ _ => true
  end.
Fixpoint assigns (x : Z) (t : term m) : bool :=
  match t with
  | Val _ | Local_ _ => false
  | Node _ ts => existsb (assigns x) ts
  | Cond c t f => assigns x c || assigns x t || assigns x f
  | SetLocal y t | ChangeLocal y _ t => (x =? y) || assigns x t
  | Update _ _ ts t => existsb (assigns x) ts || assigns x t
  end.
Fixpoint uses (x : Z) (t : term m) : bool :=
  match t with
  | Val _ => false
  | Local_ y => x =? y
  | Node _ ts => existsb (uses x) ts
  | Cond c t f => uses x c || uses x t || uses x f
  | SetLocal y t | ChangeLocal y _ t => (x =? y) || uses x t
  | Update _ _ ts t => existsb (uses x) ts || uses x t
  end.
Definition leaves (a b : term m) : Prop :=
  (acts a = true -> acts b = false /\ reads_world b = false /\ forall x, assigns x b = false) /\
  (forall x, assigns x a = true -> uses x b = false).
Definition independent (a b : term m) : Prop := leaves a b /\ leaves b a.
(** In every node the operands are pairwise independent; the right operand of a compound assignment neither acts nor assigns the target. *)
Fixpoint orderly (t : term m) : Prop :=
  match t with
  | Val _ | Local_ _ => True
  | Node _ ts => ForallOrdPairs independent ts /\ (fix all ts := match ts with [] => True | t :: ts => orderly t /\ all ts end) ts
  | Cond c t f => orderly c /\ orderly t /\ orderly f
  | SetLocal _ t => orderly t
  | ChangeLocal x _ t => orderly t /\ assigns x t = false
  | Update _ _ ts t => ForallOrdPairs independent ts /\ Forall (fun a => independent a t) ts /\ (fix all ts := match ts with [] => True | t :: ts => orderly t /\ all ts end) ts /\ orderly t /\ acts t = false
  end.
End Footprint.
Arguments acts {m}. Arguments reads_world {m}. Arguments assigns {m}. Arguments uses {m}. Arguments leaves {m}. Arguments independent {m}. Arguments orderly {m}.
