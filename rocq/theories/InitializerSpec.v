(** * Specification: what assignments with array initialisers do, in C# and in the C++ that is written *)
From Verif Require Import Base InitializerModel.

(** The state: local variables, fields of objects, static fields, arrays (by address) and the next free
    address.  A value is a number; references are addresses. *)
Record state := mk_state { vars : Z -> Z; fields : Z -> Z -> Z; statics : Z -> Z; heap : Z -> option (list Z); free : Z }.
Definition upd {A} (f : Z -> A) (k : Z) (v : A) : Z -> A := fun x => if x =? k then v else f x.
Definition set_var (s : state) (v x : Z) : state := mk_state (upd (vars s) v x) (fields s) (statics s) (heap s) (free s).
Definition set_field (s : state) (o f x : Z) : state := mk_state (vars s) (upd (fields s) o (upd (fields s o) f x)) (statics s) (heap s) (free s).
Definition set_static (s : state) (f x : Z) : state := mk_state (vars s) (fields s) (upd (statics s) f x) (heap s) (free s).
Definition set_heap (s : state) (a : Z) (l : list Z) : state := mk_state (vars s) (fields s) (statics s) (upd (heap s) a (Some l)) (free s).
(** A negative size throws. *)
Definition alloc (s : state) (n : Z) : option (state * Z) :=
  if n <? 0 then None
  else Some (mk_state (vars s) (fields s) (statics s) (upd (heap s) (free s) (Some (repeat 0 (Z.to_nat n)))) (free s + 1), free s).
Definition load (s : state) (a i : Z) : option Z :=
  match heap s a with Some l => if i <? 0 then None else nth_error l (Z.to_nat i) | None => None end.
Fixpoint replace (l : list Z) (n : nat) (x : Z) : list Z :=
  match l, n with [], _ => [] | _ :: l, O => x :: l | y :: l, S n => y :: replace l n x end.
Definition store (s : state) (a i x : Z) : option state :=
  match heap s a with
  | Some l => if (0 <=? i) && (i <? Z.of_nat (length l)) then Some (set_heap s a (replace l (Z.to_nat i) x)) else None
  | None => None
  end.

(** ** C#.  A result is the state reached and whether an exception was thrown there. *)
Inductive result (A : Type) := Done (s : state) (a : A) | Threw (s : state).
Arguments Done {A}. Arguments Threw {A}.
Definition eval (s : state) (e : expr) : option Z :=
  match e with
  | Const z => Some z
  | Var v => Some (vars s v)
  | FieldOf o f => Some (fields s (vars s o) f)
  | Elem a i => load s (vars s a) i
  end.
Section Stores.
Variable value : state -> rvalue -> result Z.
Fixpoint stores (s : state) (a : Z) (l : list (Z * rvalue)) : result unit :=
  match l with
  | [] => Done s tt
  | (i, r) :: l =>
      match value s r with
      | Threw s => Threw s
      | Done s x => match store s a i x with Some s => stores s a l | None => Threw s end
      end
  end.
End Stores.
Fixpoint value (s : state) (r : rvalue) {struct r} : result Z :=
  match r with
  | Plain e => match eval s e with Some x => Done s x | None => Threw s end
  | NewArr n => match alloc s n with Some (s, a) => Done s a | None => Threw s end
  | InitArr _ n elements =>
      match alloc s n with
      | None => Threw s
      | Some (s, a) => match stores value s a elements with Done s _ => Done s a | Threw s => Threw s end
      end
  end.
(** The target's object or array is evaluated first. *)
Definition assign (s : state) (st : statement) : result unit :=
  match dest st with
  | ToVar v => match value s (val st) with Done s x => Done (set_var s v x) tt | Threw s => Threw s end
  | ToField o f => let p := vars s o in match value s (val st) with Done s x => Done (set_field s p f x) tt | Threw s => Threw s end
  | ToElem a i => let p := vars s a in match value s (val st) with Done s x => match store s p i x with Some s => Done s tt | None => Threw s end | Threw s => Threw s end
  | ToStatic f => match value s (val st) with Done s x => Done (set_static s f x) tt | Threw s => Threw s end
  end.
Fixpoint run (s : state) (l : list statement) : result unit :=
  match l with
  | [] => Done s tt
  | st :: l => match assign s st with Done s _ => run s l | Threw s => Threw s end
  end.

(** ** C++: a bare name is a local variable (or parameter) if there is one, otherwise a member of `this` *)
Section Cpp.
Variable local : Z -> bool.
Definition read_name (s : state) (n : Z) : Z := if local n then vars s n else fields s (vars s this) n.
Definition write_name (s : state) (n x : Z) : state := if local n then set_var s n x else set_field s (vars s this) n x.
Definition ceval (s : state) (e : cexpr) : result Z :=
  match e with
  | CConst z => Done s z
  | CName n => Done s (read_name s n)
  | CField o f => Done s (fields s (read_name s o) f)
  | CElem a i => match load s (read_name s a) i with Some x => Done s x | None => Threw s end
  | CNew n => match alloc s n with Some (s, a) => Done s a | None => Threw s end
  end.
Definition cassign (s : state) (st : cstatement) : result unit :=
  match ceval s (cval st) with
  | Threw s => Threw s
  | Done s x =>
      match cdest st with
      | CToName n => Done (write_name s n x) tt
      | CToField o f => Done (set_field s (read_name s o) f x) tt
      | CToElem a i => match store s (read_name s a) i x with Some s => Done s tt | None => Threw s end
      | CToStatic f => Done (set_static s f x) tt
      end
  end.
Fixpoint crun (s : state) (l : list cstatement) : result unit :=
  match l with
  | [] => Done s tt
  | st :: l => match cassign s st with Done s _ => crun s l | Threw s => Threw s end
  end.
End Cpp.
(** The names a statement uses; a C++ compiler wants each of them to be declared. *)
Definition cnames (st : cstatement) : list Z :=
  match cval st with CName n => [n] | CField o _ => [o] | CElem a _ => [a] | _ => [] end ++
  match cdest st with CToName n => [n] | CToField o _ => [o] | CToElem a _ => [a] | CToStatic _ => [] end.
Definition well_scoped (declared : Z -> Prop) (l : list cstatement) : Prop := forall st n, In st l -> In n (cnames st) -> declared n.

(** States that cannot be told apart *)
Definition same (s t : state) : Prop :=
  (forall v, vars s v = vars t v) /\ (forall o f, fields s o f = fields t o f) /\ (forall f, statics s f = statics t f) /\
  (forall a, heap s a = heap t a) /\ free s = free t.
(** Both finish in the same state, or both throw. *)
Definition agree (r q : result unit) : Prop :=
  match r, q with Done s _, Done t _ => same s t | Threw _, Threw _ => True | _, _ => False end.
