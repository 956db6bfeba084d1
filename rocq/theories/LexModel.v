(** * The characters MyIlInstructionVisitor.cs writes for an expression

    ExprModel writes tokens; this file writes the characters, with the blanks (and missing blanks) of the string constants in
    /repo/CppTranslator/MyIlInstructionVisitor.cs.  The lines are those cited at ExprModel.expr.  Names are given as they are
    written ([AppendName], [ReplaceSpecial], [FormatType]: C55, C71). *)
From Coq Require Import String.
From Verif Require Import Base IntModel FormatterModel FormatterSpec StatementModel ExprModel.
Import ListNotations.

Section Names.
Variable local_text member_text type_text : Z -> text.
(** WrapTypeIfNeeded 157-162: the type, followed by "Value" for primitive types *)
Variable wrap_text : Z -> text.
(** further stars of FormatTypeDelaration (elements of reference type) *)
Variable extra : Z -> nat.
(** contents of the string constants *)
Variable contents : Z -> text.
Definition stars (n : nat) : text := repeat 42 n.
(** CastToPrimativeType 610-646 *)
Definition prim_text (t : num_type) : text :=
  match t with
  | tI1 => T "SByte" | tI2 => T "Int16" | tI4 => T "Int32" | tI8 => T "Int64" | tR4 => T "Single" | tR8 => T "Double"
  | tU1 => T "Byte" | tU2 => T "UInt16" | tU4 => T "UInt32" | tU8 => T "UInt64"
  end.
(** 69-78 *)
Definition operator_text (op : num_op) : text :=
  match op with Add => T "+" | Sub => T "-" | Mul => T "*" | Div => T "/" | Rem => T "%" | BitAnd => T "&" | BitOr => T "|" | BitXor => T "^" | Shl => T "<<" | Shr => T ">>" end.
(** 80-85: with blanks *)
Definition comparison_text (k : comparison_kind) : text :=
  match k with Equality => T " == " | Inequality => T " != " | LessThan => T " < " | LessThanOrEqual => T " <= " | GreaterThan => T " > " | GreaterThanOrEqual => T " >= " end.
(** 88-104: the values of the dictionary constantConversions *)
Definition limit_text (i : ident) : text :=
  match i with MaxValueOf t => prim_text t ++ T "Value::MaxValue" | MinValueOf t => prim_text t ++ T "Value::MinValue" | _ => [] end.
(** ConvertConstants 855-864 *)
Definition constant_text (n : Z) : text := match constantConversions n with Some i => limit_text i | None => print_d n end.
(** Formatter.AppendStringsWithControl (FormatterModel) *)
Definition literal_text (s : text) : text := match AppendStringsWithControl new_formatter s with Ret f => buffer f | _ => [] end.
Definition cast_text (c : option Z) : text := match c with Some t => T "(" ++ type_text t ++ T ")" | None => [] end.
(** [comma]: the separator, ", " in AddCallParameters 543-566, "," in WriteCommaSeparatedList 1026-1038 *)
Fixpoint visit (bare : bool) (e : expr) {struct e} : text :=
  match e with
  | LdcI4' n | LdcI8' n => constant_text n
  | LdNull => T "nullptr"
  | LdStr s => T "(new String(" ++ literal_text (contents s) ++ T "))"
  | LdLoc v => local_text v
  | LdsFlda t f => wrap_text t ++ T "::" ++ member_text f
  | LdObj e => visit false e
  | Binary op s l r =>
      match op with
      | Div =>
          if is_floating s then T "Math::Divide(" ++ T "(Double)" ++ visit false l ++ T "," ++ T "(Double)" ++ visit false r ++ T ")"
          else if is_integral s then T "Math::Divide(" ++ T "(Int64)" ++ visit false l ++ T "," ++ T "(Int64)" ++ visit false r ++ T ")"
          else T "(" ++ visit false l ++ T " " ++ operator_text Div ++ T " " ++ visit false r ++ T ")"
      | Rem =>
          if is_floating s then T "DoubleValue::Modulus(" ++ visit false l ++ T "," ++ visit false r ++ T ")"
          else T "(" ++ visit false l ++ T " " ++ operator_text Rem ++ T " " ++ visit false r ++ T ")"
      | _ => T "(" ++ visit false l ++ T " " ++ operator_text op ++ T " " ++ visit false r ++ T ")"
      end
  | Comp k l r => T "((" ++ visit false l ++ T ")" ++ comparison_text k ++ visit false r ++ T ")"
  | ConvTo t e => T "(" ++ match t with Some t => T "(" ++ prim_text t ++ T ")" | None => [] end ++ visit false e ++ T ")"
  | BitNot e => T "~" ++ visit false e
  | If c t f =>
      let core := visit true c ++ T " ? (" ++ visit false t ++ T ") : (" ++ visit false f ++ T ")" in
      if bare then core else T "(" ++ core ++ T ")"
  | CastClass t e => T "(" ++ type_text t ++ stars (S (extra t)) ++ T ")" ++ visit false e
  | BoxTo t e => T "(new " ++ wrap_text t ++ T "(" ++ visit false e ++ T ")" ++ T ")"
  | UnboxAny t wrap e =>
      if wrap then type_text t ++ T "(" ++ visit false e ++ T "->get_As" ++ type_text t ++ T "()" ++ T ")"
      else visit false e ++ T "->get_As" ++ type_text t ++ T "()"
  | AddressOf e => T "(" ++ visit false e ++ T ")"
  | LdFlda e arrow f => visit false e ++ (if arrow then T "->" else T ".") ++ member_text f
  | LdLen e => visit false e ++ T "->get_Length()"
  | LdElema t a is => T "(*((" ++ type_text t ++ stars (extra t) ++ T "*)" ++ visit false a ++ T "->Address(" ++ visit_args (T ",") is ++ T ")))"
  | NewArr t is => T "new Array(" ++ type_text t ++ T "Type," ++ visit_args (T ",") is ++ T ")"
  | NewObj is_class t a => if is_class then T "(new " ++ type_text t ++ T "(" ++ visit_args (T ", ") a ++ T ")" ++ T ")" else type_text t ++ T "(" ++ visit_args (T ", ") a ++ T ")"
  | DefaultValue is_class t => (if is_class then T "new " else []) ++ type_text t ++ T "()"
  | CallStatic t m a => wrap_text t ++ T "::" ++ member_text m ++ T "(" ++ visit_args (T ", ") a ++ T ")"
  | CallInstance e box arrow m a =>
      (match box with Some t => wrap_text t ++ T "(" ++ visit false e ++ T ")" | None => visit false e end)
      ++ (if arrow then T "->" else T ".") ++ member_text m ++ T "(" ++ visit_args (T ", ") a ++ T ")"
  | Assign target c v => visit false target ++ T " = " ++ cast_text c ++ visit false v
  | PreIncrement up v => (if up then T "++" else T "--") ++ local_text v
  | CompoundStep target up => visit false target ++ (if up then T "++" else T "--")
  | Compound target op v => visit false target ++ T " " ++ operator_text op ++ T "= " ++ visit false v
  end
with visit_args (comma : text) (a : args) {struct a} : text :=
  match a with
  | ANil => []
  | ACons c e rest =>
      (match c with Some _ => cast_text c ++ T "(" ++ visit false e ++ T ")" | None => visit false e end)
      ++ match rest with ANil => [] | _ => comma ++ visit_args comma rest end
  end.
End Names.
