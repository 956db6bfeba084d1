(** * Specification for C103: exceptions in C# and in C++ *)
From Verif Require Import Base TryModel.

(** ** Types *)
Definition lib_eq_dec (a b : lib) : {a = b} + {a <> b}. Proof. decide equality. Defined.
Definition etype_eq_dec (a b : etype) : {a = b} + {a <> b}. Proof. decide equality; [apply lib_eq_dec|apply Nat.eq_dec]. Defined.
Definition is_a (ancestors : etype -> list etype) (t u : etype) : bool := if in_dec etype_eq_dec u (ancestors t) then true else false.
(** The classes of .NET (SystemException, between these and Exception, is not a type the translator accepts) *)
Definition dotnet_bases (k : lib) : list etype :=
  match k with
  | ArgumentNull | ArgumentOutOfRange => [TLib Argument; TException; TObject]
  | DivideByZero | Overflow => [TLib Arithmetic; TException; TObject]
  | _ => [TException; TObject]
  end.
Fixpoint dotnet_ancestors (t : etype) : list etype :=
  t :: match t with TObject => [] | TException => [TObject] | TLib k => dotnet_bases k | TUser _ b => dotnet_ancestors b end.

(** ** Running a method
    [cond]: conditions may depend on everything done before.  [value v]: the class of the object the variable [v] refers to, if it is
    not null; [declared v]: the class [v] is declared with. *)
Section Run.
Variable cond : list Z -> Z -> bool.
Variable value : Z -> option etype.
Variable declared : Z -> etype.

(** C#: how a command ends.  [Raised t]: with an exception of class [t]. *)
Inductive ending : Type := Normal | Left (d : nat) | Returned | Raised (t : etype).
(** [caught]: the class of the exception being handled *)
Fixpoint run (caught : etype) (x : cmd) (tr : list Z) {struct x} : list Z * ending :=
  match x with
  | Act n => (tr ++ [n], Normal)
  | If c a b => if cond tr c then run_all caught a tr else run_all caught b tr
  | ThrowNew t => (tr, Raised t)
  | ThrowVar v => (tr, Raised (match value v with Some t => t | None => TLib NullReference end))
  | ThrowCaught | Rethrow => (tr, Raised caught)
  | Leave d => (tr, Left d)
  | Return => (tr, Returned)
  | Try _ body hs =>
      let (tr, e) := run_all caught body tr in
      let (tr, e) := match e with Raised t => handle t hs tr | _ => (tr, e) end in
      (tr, match e with Left O => Normal | Left (S d) => Left d | _ => e end)
  end
with run_all (caught : etype) (l : cmds) (tr : list Z) {struct l} : list Z * ending :=
  match l with
  | Nil => (tr, Normal)
  | Cons x l => let (tr, e) := run caught x tr in match e with Normal => run_all caught l tr | _ => (tr, e) end
  end
with handle (t : etype) (hs : handlers) (tr : list Z) {struct hs} : list Z * ending :=
  match hs with
  | HNil => (tr, Raised t)
  | HCons u filter body hs =>
      if is_a dotnet_ancestors t u && match filter with Some c => cond tr c | None => true end then run_all t body tr else handle t hs tr
  end.

(** C++: an exception is a pointer; handlers are chosen by its static type.  [dyn]: the class of the object, [None] for null. *)
Record pointer := mk_pointer { stat : etype; dyn : option etype }.
Inductive cending : Type := CNormal | Jump (l : Z) | CReturned | CRaised (p : pointer).
Section Statement.
(** [caught]: the exception being handled; [var]: the type of the handler's variable *)
Fixpoint exec (caught : pointer) (var : etype) (x : cstmt) (tr : list Z) {struct x} : list Z * cending :=
  match x with
  | CAct n => (tr ++ [n], CNormal)
  | CIf c a b => if cond tr c then exec_all caught var None a tr else exec_all caught var None b tr
  | CThrowNew t => (tr, CRaised (mk_pointer t (Some t)))
  | CThrowVar v => (tr, CRaised (mk_pointer (declared v) (value v)))
  | CThrowCaught => (tr, CRaised (mk_pointer var (dyn caught)))
  | CRethrow => (tr, CRaised caught)
  | CGoto l => (tr, Jump l)
  | CLabel _ => (tr, CNormal)
  | CReturn => (tr, CReturned)
  | CTry body hs => let (tr, e) := exec_all caught var None body tr in match e with CRaised p => catch p hs tr | _ => (tr, e) end
  end
(** [skip]: the label to go on from *)
with exec_all (caught : pointer) (var : etype) (skip : option Z) (l : cstmts) (tr : list Z) {struct l} : list Z * cending :=
  match l with
  | CNil => (tr, match skip with Some k => Jump k | None => CNormal end)
  | CCons x l =>
      match skip with
      | Some k => exec_all caught var (match x with CLabel k' => if k =? k' then None else skip | _ => skip end) l tr
      | None => let (tr, e) := exec caught var x tr in
                match e with CNormal => exec_all caught var None l tr | Jump k => exec_all caught var (Some k) l tr | _ => (tr, e) end
      end
  end
with catch (p : pointer) (hs : chandlers) (tr : list Z) {struct hs} : list Z * cending :=
  match hs with
  | CHNil => (tr, CRaised p)
  | CHCons u body hs => if is_a cpp_ancestors (stat p) u then exec_all p u None body tr else catch p hs tr
  end.
End Statement.
(** A method of either program (throw; outside of a handler is not C#; the exception handled at the beginning does not matter): what it did, and the class of the exception that leaves it, if one does *)
Definition csharp (m : cmds) : list Z * option etype :=
  let (tr, e) := run_all TObject m [] in (tr, match e with Raised t => Some t | _ => None end).
Definition cplusplus (m : cstmts) : list Z * option (option etype) :=
  let (tr, e) := exec_all (mk_pointer TObject (Some TObject)) TObject None m [] in (tr, match e with CRaised p => Some (dyn p) | _ => None end).

(** ** The supported style: exceptions thrown as new objects, or from variables that refer to an object of exactly their declared class, or rethrown with
    throw; no conditions on handlers; no handler for ArgumentException or ArithmeticException; no try statement at the very beginning of the method; a try
    statement is left for the next outer statement only, or by return. *)
Fixpoint plain (depth : nat) (x : cmd) : Prop :=
  match x with
  | Act _ | ThrowNew _ | Rethrow | Return => True
  | ThrowVar v => value v = Some (declared v)
  | ThrowCaught => False
  | Leave d => d = O /\ depth <> O
  | If _ a b => plain_all depth a /\ plain_all depth b
  | Try zero body hs => zero = false /\ plain_all (S depth) body /\ plain_handlers (S depth) hs
  end
with plain_all (depth : nat) (l : cmds) : Prop := match l with Nil => True | Cons x l => plain depth x /\ plain_all depth l end
with plain_handlers (depth : nat) (hs : handlers) : Prop :=
  match hs with
  | HNil => True
  | HCons t f b hs => t <> TLib Argument /\ t <> TLib Arithmetic /\ f = None /\ plain_all depth b /\ plain_handlers depth hs
  end.
End Run.

(** ** C104: the exceptions a program builds, and what .NET answers *)
Inductive built : Type := New0 | New1 (msg : option Z) | New2 (msg : option Z) (inner : option built).
(** [default]: the text of an exception created without one (or with null) *)
Definition net_message (default : Z) (e : built) : Z :=
  match e with New1 (Some m) | New2 (Some m) _ => m | _ => default end.
Definition net_inner (e : built) : option built := match e with New2 _ i => i | _ => None end.
(** the innermost exception; the exception itself if it has no inner one *)
Fixpoint net_base (e : built) : built := match e with New2 _ (Some i) => net_base i | _ => e end.
Fixpoint cpp_of (e : built) : exception :=
  match e with
  | New0 => new_Exception0
  | New1 m => new_Exception1 m
  | New2 m i => new_Exception2 m (match i with Some i => Some (cpp_of i) | None => None end)
  end.
