(** * Specification for C76: what integer instructions and integer C++ expressions are worth

    The left side is the CIL (ECMA-335 III): integers on the evaluation stack have 32 or 64 bits and no sign; division,
    remainder, right shift, comparison and widening say which sign they mean, and arithmetic may be checked.
    The right side is C++ on x86-64: promotion, usual arithmetic conversions, undefined signed overflow. *)
From Verif Require Import Base StatementModel ExprModel ExprSpec MathModel.
Import ListNotations.

(** ** Integer types *)
Definition bits (t : num_type) : Z := match t with tI1 | tU1 => 8 | tI2 | tU2 => 16 | tI4 | tU4 => 32 | tI8 | tU8 => 64 | tR4 | tR8 => 0 end.
Definition is_signed (t : num_type) : bool := match t with tI1 | tI2 | tI4 | tI8 => true | _ => false end.
Definition is_int (t : num_type) : Prop := match t with tR4 | tR8 => False | _ => True end.
Definition in_range (t : num_type) (v : Z) : bool := if is_signed t then in_signed (bits t) v else in_unsigned (bits t) v.
(** conversion to an integer type *)
Definition convert (t : num_type) (v : Z) : Z := if is_signed t then cast_s (bits t) v else cast_u (bits t) v.

(** ** CIL *)
(** [w] is 32 or 64.  [IConv t zero e]: [zero] if a widening conversion extends with zeros. *)
Inductive il : Type :=
  | ILdcI4 (n : Z) | ILdcI8 (n : Z) | ILdLoc (v : Z)
  | IBin (op : num_op) (w : Z) (signed checked : bool) (l r : il)
  | IComp (k : comparison_kind) (signed : bool) (l r : il)
  | IConv (t : num_type) (zero : bool) (e : il)
  | INot (e : il).
Section Eval.
(** types and values of the locals *)
Variable Gamma : Z -> num_type.
Variable env : Z -> Z.
Definition width_of (t : num_type) : Z := if bits t =? 64 then 64 else 32.
Fixpoint width (x : il) : Z :=
  match x with ILdcI4 _ => 32 | ILdcI8 _ => 64 | ILdLoc v => width_of (Gamma v) | IBin _ w _ _ _ _ => w | IComp _ _ _ _ => 32 | IConv t _ _ => width_of t | INot e => width e end.
(** A stack value is represented as a signed number of its width. *)
Definition arithmetic_result (w : Z) (signed checked : bool) (f : Z -> Z -> Z) (a b : Z) : outcome Z :=
  if checked then
    if signed then (if in_signed w (f a b) then Ret (f a b) else Exn OverflowException)
    else (if in_unsigned w (f (cast_u w a) (cast_u w b)) then Ret (cast_s w (f (cast_u w a) (cast_u w b))) else Exn OverflowException)
  else Ret (cast_s w (f a b)).
Definition il_op (op : num_op) (w : Z) (signed checked : bool) (a b : Z) : outcome Z :=
  match op with
  | Add => arithmetic_result w signed checked Z.add a b
  | Sub => arithmetic_result w signed checked Z.sub a b
  | Mul => arithmetic_result w signed checked Z.mul a b
  | Div => if b =? 0 then Exn DivideByZeroException
           else if signed then (if in_signed w (Z.quot a b) then Ret (Z.quot a b) else Exn OverflowException)
           else Ret (cast_s w (cast_u w a / cast_u w b))
  | Rem => if b =? 0 then Exn DivideByZeroException
           else if signed then (if in_signed w (Z.quot a b) then Ret (Z.rem a b) else Exn OverflowException)
           else Ret (cast_s w (cast_u w a mod cast_u w b))
  | BitAnd => Ret (Z.land a b)
  | BitOr => Ret (Z.lor a b)
  | BitXor => Ret (Z.lxor a b)
  | Shl => if (0 <=? b) && (b <? w) then Ret (cast_s w (a * 2 ^ b)) else UB InvalidShift   (* unspecified *)
  | Shr => if (0 <=? b) && (b <? w) then Ret (if signed then a / 2 ^ b else cast_s w (cast_u w a / 2 ^ b)) else UB InvalidShift
  end.
Definition compare (k : comparison_kind) (a b : Z) : Z :=
  if match k with Equality => a =? b | Inequality => negb (a =? b) | LessThan => a <? b | LessThanOrEqual => a <=? b | GreaterThan => b <? a | GreaterThanOrEqual => b <=? a end then 1 else 0.
Fixpoint il_value (x : il) : outcome Z :=
  match x with
  | ILdcI4 n | ILdcI8 n => Ret n
  | ILdLoc v => Ret (cast_s (width_of (Gamma v)) (env v))
  | IBin op w signed checked l r => a <- il_value l ;; b <- il_value r ;; il_op op w signed checked a b
  | IComp k signed l r =>
      a <- il_value l ;; b <- il_value r ;;
      Ret (if signed then compare k a b else compare k (cast_u (width l) a) (cast_u (width l) b))
  | IConv t zero e => a <- il_value e ;; Ret (cast_s (width_of t) (convert t (if zero then cast_u (width e) a else a)))
  | INot e => a <- il_value e ;; Ret (Z.lnot a)
  end.

(** ** C++ *)
Definition promote (t : num_type) : num_type := if bits t <? 32 then tI4 else t.
Definition common (a b : num_type) : num_type :=
  let a := promote a in let b := promote b in
  if bits a =? bits b then (if is_signed a then b else a) else if bits b <? bits a then a else b.
Definition as_num_type (t : type_name) : option num_type := match t with TPrim t => Some t | TInt64 => Some tI8 | _ => None end.
(** The result [v] of an operation on type [t]. *)
Definition cpp_result (t : num_type) (v : Z) : outcome (num_type * Z) :=
  if is_signed t then (if in_range t v then Ret (t, v) else UB SignedOverflow) else Ret (t, cast_u (bits t) v).
Definition cpp_op_value (o : cpp_op) (x y : num_type * Z) : outcome (num_type * Z) :=
  let t := common (fst x) (fst y) in let a := convert t (snd x) in let b := convert t (snd y) in
  let lt := promote (fst x) in
  match o with
  | OAdd => cpp_result t (a + b) | OSub => cpp_result t (a - b) | OMul => cpp_result t (a * b)
  | ODiv => if b =? 0 then UB DivisionByZero else cpp_result t (Z.quot a b)
  | ORem => if b =? 0 then UB DivisionByZero else if in_range t (Z.quot a b) then Ret (t, Z.rem a b) else UB SignedOverflow
  | OAnd => Ret (t, Z.land a b) | OOr => Ret (t, Z.lor a b) | OXor => Ret (t, Z.lxor a b)
  | OShl => if (0 <=? snd y) && (snd y <? bits lt) then Ret (lt, convert lt (snd x * 2 ^ snd y)) else UB InvalidShift
  | OShr => if (0 <=? snd y) && (snd y <? bits lt) then Ret (lt, snd x / 2 ^ snd y) else UB InvalidShift
  | OEq => Ret (tI4, compare Equality a b) | ONe => Ret (tI4, compare Inequality a b) | OLt => Ret (tI4, compare LessThan a b)
  | OLe => Ret (tI4, compare LessThanOrEqual a b) | OGt => Ret (tI4, compare GreaterThan a b) | OGe => Ret (tI4, compare GreaterThanOrEqual a b)
  end.
Definition max_of (t : num_type) : Z := if is_signed t then 2 ^ (bits t - 1) - 1 else 2 ^ bits t - 1.
Definition min_of (t : num_type) : Z := if is_signed t then - 2 ^ (bits t - 1) else 0.
(** A decimal literal has the first of the types int and long that holds it.  Expressions outside this fragment have no value here ([NullDereference]). *)
Fixpoint cpp_value (c : cexpr) : outcome (num_type * Z) :=
  match c with
  | CNum n => if in_range tI4 n then Ret (tI4, n) else if in_range tI8 n then Ret (tI8, n) else UB NullDereference
  | CId (Local v) => Ret (Gamma v, env v)
  | CId (MaxValueOf t) => Ret (t, max_of t)
  | CId (MinValueOf t) => Ret (t, min_of t)
  | CUnary UNeg e => x <- cpp_value e ;; cpp_result (promote (fst x)) (- snd x)
  | CUnary UNot e => x <- cpp_value e ;; Ret (promote (fst x), convert (promote (fst x)) (Z.lnot (snd x)))
  | CBin o l r => x <- cpp_value l ;; y <- cpp_value r ;; cpp_op_value o x y
  | CCast t e => match as_num_type t with Some t => x <- cpp_value e ;; Ret (t, convert t (snd x)) | None => UB NullDereference end
  | CCall (CId MathDivide) [a; b] =>   (* the call converts to Int64; Math::Divide(Int64, Int64) is MathModel.Divide_Int64 *)
      x <- cpp_value a ;; y <- cpp_value b ;; q <- Divide_Int64 (convert tI8 (snd x)) (convert tI8 (snd y)) ;; Ret (tI8, q)
  | _ => UB NullDereference
  end.
End Eval.

(** The instruction as the translator's printer sees it: signs and overflow checks are not looked at (189-254, 592-646). *)
Definition stack_of (w : Z) : stack_type := if w =? 64 then StackI8 else StackI4.
Fixpoint erase (x : il) : expr :=
  match x with
  | ILdcI4 n => LdcI4' n | ILdcI8 n => LdcI8' n | ILdLoc v => LdLoc v
  | IBin op w _ _ l r => Binary op (stack_of w) (erase l) (erase r)
  | IComp k _ l r => Comp k (erase l) (erase r)
  | IConv t _ e => ConvTo (Some t) (erase e)
  | INot e => BitNot (erase e)
  end.

(** ** Where the two agree *)
Section Agree.
Variable Gamma : Z -> num_type.
(** The static type of the C++ expression. *)
Definition constant_type (n : Z) : num_type :=
  match constantConversions n with Some (MaxValueOf t) => t | Some (MinValueOf t) => t | _ => if in_range tI4 n then tI4 else tI8 end.
Fixpoint ctype (x : il) : num_type :=
  match x with
  | ILdcI4 n | ILdcI8 n => constant_type n
  | ILdLoc v => Gamma v
  | IBin Div _ _ _ _ _ => tI8
  | IBin (Shl | Shr) _ _ _ l _ => promote (ctype l)
  | IBin _ _ _ _ l r => common (ctype l) (ctype r)
  | IComp _ _ _ _ => tI4
  | IConv t _ _ => t
  | INot e => promote (ctype e)
  end.
(** A type in which a stack value of width [w] stands for itself (not modulo 2^w). *)
Definition exact (w : Z) (t : num_type) : bool := is_signed t || (bits t <? w).
(** The types fit the instruction: [w] is its width. Arithmetic is done in a type of exactly that width, or (after a division, whose
    result is an Int64) in a wider signed one with operands standing for themselves. *)
Definition arithmetic_types (w : Z) (a b : num_type) : bool :=
  let t := common a b in (bits t =? w) || ((w <? bits t) && is_signed t && exact w a && exact w b).
(** Operations that look at the sign are done in a type of that sign. *)
Definition signed_types (w : Z) (signed : bool) (a b : num_type) : bool :=
  let t := common a b in if signed then is_signed t && exact w a && exact w b else negb (is_signed t) && (bits t =? w).
Fixpoint typed (x : il) : Prop :=
  match x with
  | ILdcI4 n => in_signed 32 n = true
  | ILdcI8 n => in_signed 64 n = true
  | ILdLoc v => is_int (Gamma v)
  | IBin op w signed _ l r =>
      typed l /\ typed r /\ (w = 32 \/ w = 64) /\ width Gamma l = w /\
      match op with
      | Add | Sub | Mul | BitAnd | BitOr | BitXor => width Gamma r = w /\ arithmetic_types w (ctype l) (ctype r) = true
      | Div => width Gamma r = w /\ signed = true /\ exact w (ctype l) = true /\ exact w (ctype r) = true
      | Rem => width Gamma r = w /\ arithmetic_types w (ctype l) (ctype r) = true /\ signed_types w signed (ctype l) (ctype r) = true
      | Shl => width Gamma r = 32 /\ bits (promote (ctype l)) = w
      | Shr => width Gamma r = 32 /\ bits (promote (ctype l)) = w /\ is_signed (promote (ctype l)) = signed
      end
  | IComp k signed l r =>
      typed l /\ typed r /\ width Gamma l = width Gamma r /\
      (match k with Equality | Inequality => true | _ => false end = true /\ (signed_types (width Gamma l) true (ctype l) (ctype r) = true \/ signed_types (width Gamma l) false (ctype l) (ctype r) = true) \/
       signed_types (width Gamma l) signed (ctype l) (ctype r) = true)
  | IConv t zero e =>
      typed e /\ is_int t /\
      (bits t <= width Gamma e \/ (if zero then negb (is_signed (ctype e)) && (bits (ctype e) <=? width Gamma e) = true else exact (width Gamma e) (ctype e) = true))
  | INot e => typed e /\ (bits (promote (ctype e)) = width Gamma e \/ (is_signed (promote (ctype e)) = true /\ exact (width Gamma e) (ctype e) = true))
  end.
(** No signed or checked overflow, no remainder by zero, shift amounts in range. *)
Definition operation_safe (op : num_op) (w : Z) (signed checked : bool) (t : num_type) (a b : Z) : Prop :=
  let arith f := (is_signed t = true -> in_signed w (f a b) = true) /\ (checked = true -> if signed then in_signed w (f a b) = true else in_unsigned w (f (cast_u w a) (cast_u w b)) = true) in
  match op with
  | Add => arith Z.add | Sub => arith Z.sub | Mul => arith Z.mul
  | Div => b <> 0 -> in_signed w (Z.quot a b) = true
  | Rem => b <> 0 /\ (signed = true -> in_signed w (Z.quot a b) = true)
  | BitAnd | BitOr | BitXor => True
  | Shl | Shr => 0 <= b < w
  end.
Variable env : Z -> Z.
Fixpoint safe (x : il) : Prop :=
  match x with
  | IBin op w signed checked l r =>
      safe l /\ safe r /\ forall a b, il_value Gamma env l = Ret a -> il_value Gamma env r = Ret b -> operation_safe op w signed checked (common (ctype l) (ctype r)) a b
  | IComp _ _ l r => safe l /\ safe r
  | IConv _ _ e | INot e => safe e
  | _ => True
  end.
(** The C++ value [v] of type [t] stands for the stack value [z] of width [w]. *)
Definition stands_for (w : Z) (t : num_type) (v z : Z) : Prop := in_range t v = true /\ cast_s w v = z /\ (w < bits t -> v = z).
End Agree.
