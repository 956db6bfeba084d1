(** * Model of arguments and parameters: MyIlInstructionVisitor.cs 494-503, 543-575, 925-931, 943-947, 1160-1183; CppVisitorBase.cs 176-194, 610-617

    A call `M(ref x, y)` of a method of the program: the text of the arguments, the C++ type of the parameters (MemberModel.v) and
    the uses of the parameters in the body. *)
From Verif Require Import Base MemberModel.

(** A variable of the caller or of the body: [Global x] stands for any variable that the call can see (a local of the caller passed by
    reference, a static field); [Param i] is the i-th parameter. *)
Inductive place := Global (x : Z) | Param (i : nat).
(** What an instruction loads in a body: the value of a variable, or a constant.  A by-reference parameter is loaded through LdObj
    (LdLoc p), another one through LdLoc p. *)
Inductive source := Load (p : place) | Constant (z : Z).
Record assignment := mk_assignment { dest : place; src : source }.

(** The C++ text: a name or a number.  VisitLdLoca 925-929 (an argument passed by reference), VisitLdLoc 914-923, VisitLdObj 943-947
    (the target alone) all write the name. *)
Inductive written := Name (p : place) | Number (z : Z).
Definition VisitLdLoca (x : Z) : written := Name (Global x).
Definition VisitLdLoc (p : place) : written := Name p.
Definition VisitLdObj (p : place) : written := VisitLdLoc p.
Definition by_reference (p : param) : bool := match p_mod p with PRef | POut | PIn => true | _ => false end.
(** 543-566: one argument per parameter (the cast of a primitive or enum value, 567-575, is to the parameter's own type) *)
Definition AddCallParameter (p : param) (x : Z) : written := if by_reference p then VisitLdLoca x else VisitLdLoc (Global x).
Fixpoint AddCallParameters (ps : list param) (xs : list Z) : list written :=
  match ps, xs with p :: ps, x :: xs => AddCallParameter p x :: AddCallParameters ps xs | _, _ => [] end.
(** 1119-1126 VisitStLoc, 1177-1187 VisitStObj: target = value *)
Definition VisitSource (ps : list param) (s : source) : written :=
  match s with
  | Constant z => Number z
  | Load (Param i) => match nth_error ps i with Some p => if by_reference p then VisitLdObj (Param i) else VisitLdLoc (Param i) | None => VisitLdLoc (Param i) end
  | Load p => VisitLdLoc p
  end.
Definition VisitStore (ps : list param) (a : assignment) : place * written := (dest a, VisitSource ps (src a)).
(** CppVisitorBase.cs 610-617: the parameter of the syntax tree has the type behind the reference (TypeSystemAstBuilder.ConvertParameter of
    the decompiler's library), so [p_type] is no reference type here. *)
Definition ParameterTypes (ps : list param) : list cpp_type := map VisitParameterDeclaration ps.
(** 1166-1175 DeclareVariableIfNeeded: the declaration of a local variable, here of a `ref` local *)
Definition DeclareRefLocal (t : cs_type) : cpp_type := FormatTypeDelaration (ByReference t).
(** 494-503 FormatCallInstance with IsPrimative 117-137: a primitive receiver is put into a box; the name of a reference type and its
    primitive type are not those of the type behind it. *)
Section Boxing.
Variable is_primitive : cs_type -> bool.
Definition IsPrimative (t : cs_type) : bool := match t with ByReference _ => false | _ => is_primitive t end.
Inductive receiver := Boxed | Plain.
Definition FormatCallInstance (t : cs_type) : receiver := if IsPrimative t then Boxed else Plain.
End Boxing.
