(** * Model of exceptions: MyIlInstructionVisitor.cs 258-272, 979-1000, 1116-1121, 1311-1361; DotNetLibrary/include/Exception.h

    Statements are numbers, conditions too; conditionals are as in C75.  A method's body is a list of commands (the branches
    between blocks and loops: C77); the try body and the handlers have one block each (C73). *)
From Verif Require Import Base.

(** ** Types of exceptions.  A class of the program carries its base. *)
Inductive lib : Type := Argument | ArgumentNull | ArgumentOutOfRange | Arithmetic | DivideByZero | Format | IndexOutOfRange | InvalidCast | InvalidOperation
  | NotImplemented | Overflow | Rank | NullReference.
Inductive etype : Type := TObject | TException | TLib (k : lib) | TUser (n : nat) (base : etype).
(** Exception.h 26, 89-197: the bases in C++.  The library has no NullReferenceException (it is listed for C#). *)
Definition library_bases (k : lib) : list etype := [TException; TObject].
Fixpoint cpp_ancestors (t : etype) : list etype :=
  t :: match t with TObject => [] | TException => [TObject] | TLib k => library_bases k | TUser _ b => cpp_ancestors b end.

(** ** The decompiled method *)
(** [Act n]: a statement that does not throw; [Leave d]: leaves the [d]-th enclosing try statement (0: the innermost);
    [Return]: leaves the method's body; [ThrowVar v]: throws what the variable [v] refers to; [ThrowCaught]: throws the variable of
    the innermost handler.  [Try zero body hs]: [zero]: the try body starts at the first instruction of the method, its label is IL_0000.  A
    handler: its type (a catch without type: object), the condition after "when", its body. *)
Inductive cmd : Type :=
  | Act (n : Z) | If (c : Z) (a b : cmds) | ThrowNew (t : etype) | ThrowVar (v : Z) | ThrowCaught | Rethrow | Leave (d : nat) | Return
  | Try (zero : bool) (body : cmds) (hs : handlers)
with cmds : Type := Nil | Cons (x : cmd) (l : cmds)
with handlers : Type := HNil | HCons (t : etype) (filter : option Z) (body : cmds) (hs : handlers).

(** ** The C++ written *)
Inductive cstmt : Type :=
  | CAct (n : Z) | CIf (c : Z) (a b : cstmts) | CThrowNew (t : etype) | CThrowVar (v : Z) | CThrowCaught | CRethrow | CGoto (l : Z) | CLabel (l : Z) | CReturn
  | CTry (body : cstmts) (hs : chandlers)
with cstmts : Type := CNil | CCons (x : cstmt) (l : cstmts)
with chandlers : Type := CHNil | CHCons (t : etype) (body : cstmts) (hs : chandlers).
Fixpoint capp (a b : cstmts) : cstmts := match a with CNil => b | CCons x a => CCons x (capp a b) end.

(** ** The visitor: [n]: blockIndex; [stack]: leaveBlocks; [zeros]: whether the labels of the enclosing try bodies are IL_0000 *)
(** 979-1000: [d]-th enclosing container.  The label written is the innermost, whatever container is left. *)
Definition VisitLeave (stack : list Z) (zeros : list bool) (d : nat) : cstmt :=
  if nth d zeros false then CReturn else CGoto (hd 0 stack).
Fixpoint visit (n : Z) (stack : list Z) (zeros : list bool) (x : cmd) {struct x} : Z * cstmts :=
  match x with
  | Act k => (n, CCons (CAct k) CNil)
  | If c a b => let (n, a) := visit_block n stack zeros a in let (n, b) := visit_block n stack zeros b in (n, CCons (CIf c a b) CNil)
  | ThrowNew t => (n, CCons (CThrowNew t) CNil)      (* 1311-1317 *)
  | ThrowVar v => (n, CCons (CThrowVar v) CNil)
  | ThrowCaught => (n, CCons CThrowCaught CNil)
  | Rethrow => (n, CCons CRethrow CNil)              (* 1116-1120 *)
  | Leave d => (n, CCons (VisitLeave stack zeros d) CNil)
  | Return => (n, CCons CReturn CNil)
  | Try zero body hs =>                              (* 1319-1361, 260-272 *)
      let l := n + 1 in
      let (n, b) := visit_block l (l :: stack) (zero :: zeros) body in
      let (n, hs) := visit_handlers n (l :: stack) (false :: zeros) hs in
      (n, CCons (CTry b hs) (CCons (CLabel l) CNil))
  end
with visit_block (n : Z) (stack : list Z) (zeros : list bool) (l : cmds) {struct l} : Z * cstmts :=
  match l with
  | Nil => (n, CNil)
  | Cons x l => let (n, a) := visit n stack zeros x in let (n, b) := visit_block n stack zeros l in (n, capp a b)
  end
(** 1322-1340: the condition of the handler is not written; the handler's own container has a label of its own, not IL_0000 *)
with visit_handlers (n : Z) (stack : list Z) (zeros : list bool) (hs : handlers) {struct hs} : Z * chandlers :=
  match hs with
  | HNil => (n, CHNil)
  | HCons t _ b hs => let (n, b) := visit_block n stack zeros b in let (n, hs) := visit_handlers n stack zeros hs in (n, CHCons t b hs)
  end.
Definition translate (m : cmds) : cstmts := snd (visit_block 0 [] [] m).

(** ** Exception objects: Exception.h 26-80.  Texts are numbers; [None]: null. *)
Inductive exception : Type := mk_exception (message : option Z) (innerException : option exception).
(** 35-38, 43-46, 52-55 *)
Definition new_Exception0 : exception := mk_exception None None.
Definition new_Exception1 (msg : option Z) : exception := mk_exception msg None.
Definition new_Exception2 (msg : option Z) (inner : option exception) : exception := mk_exception msg inner.
(** 60-62, 67-69, 74-76 *)
Definition get_Message (e : exception) : option Z := match e with mk_exception m _ => m end.
Definition get_InnerException (e : exception) : option exception := match e with mk_exception _ i => i end.
Definition GetBaseException (e : exception) : option exception := match e with mk_exception _ i => i end.
