(** * Model of string concatenation in the translator: MyIlInstructionVisitor.cs 436-493, with the operands'
    VisitLdLoc 914-924, VisitLdStr 956-962 and VisitLdNull

    `a + b + c` reaches the translator as a call of System.String.Concat: with two to four arguments, or (five
    operands and more) with one argument, a block that stores the operands in a new array.  Modelled operands:
    local variables, string literals, null and concatenations.  Other operands (boxed numbers, other calls)
    and the translation of array temporaries (C94) are not modelled. *)
From Coq Require Import String.
From Verif Require Import Base MemModel FormatterModel FormatterSpec.

Inductive operand :=
  | Null                                    (* LdNull *)
  | Literal (s : text)                      (* LdStr *)
  | Variable_ (name : text)                 (* LdLoc *)
  | ConcatCall (arguments : list operand)   (* Call String.Concat(x, y, ...) *)
  | ConcatBlock (elements : list element)   (* Call String.Concat(block) *)
  | Implicit (a : operand)                  (* Call String.op_Implicit(a) *)
with element :=
  | StLoc_                                  (* the temporary receives the array *)
  | StObj_ (value : operand)                (* an element receives its value *)
  | Other_.

Section Emit.
Variable env : dotnet.

Section Lists.
Variable visit : formatter -> operand -> outcome formatter.
(** 471-478 *)
Fixpoint visit_arguments (f : formatter) (first : bool) (l : list operand) : outcome formatter :=
  match l with
  | [] => Ret f
  | a :: l =>
      let f := if negb first then Append f (T ", ") else f in
      f <- visit f a ;; visit_arguments f false l
  end.
(** 483-493 HandleConcatBlock; 488 is a cast that throws for every other instruction *)
Fixpoint HandleConcatBlock (f : formatter) (first : bool) (l : list element) : outcome formatter :=
  match l with
  | [] => Ret f
  | StLoc_ :: l => HandleConcatBlock f first l
  | StObj_ a :: l =>
      let f := if negb first then Append f (T ", ") else f in
      f <- visit f a ;; HandleConcatBlock f false l
  | Other_ :: _ => Exn InvalidCastException
  end.
End Lists.

(** 436-482.  A call of Concat with one argument that is no block is an ordinary call (not modelled here:
    [visit] writes nothing for it).  450-453: the literal's text; for anything else [ldstr] is null, and as
    op_Implicit has one argument the check in 451 never holds. *)
Fixpoint visit (f : formatter) (o : operand) {struct o} : outcome formatter :=
  match o with
  | Null => Ret (Append f (T "nullptr"))
  | Literal s =>
      f <- AppendStringsWithControl (Append f (T "(new String(")) s ;; Ret (Append f (T "))"))
  | Variable_ name => AppendName env f name
  | ConcatCall l =>
      if (length l <? 2)%nat then Ret f
      else f <- visit_arguments visit (Append f (T "String::Concat(")) true l ;; Ret (Append f (T ")"))
  | ConcatBlock l => f <- HandleConcatBlock visit (Append f (T "String::Concat(")) true l ;; Ret (Append f (T ")"))
  | Implicit (Literal s) => AppendStringsWithControl f s
  | Implicit _ => Exn NullReferenceException
  end.
End Emit.
