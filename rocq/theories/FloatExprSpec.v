(** * Specification for C109: what floating point instructions and floating point C++ expressions are worth

    Left: the CIL with operations done in the precision of their operands (Single with Single gives Single; what .NET does).
    Right: C++ on x86-64: an operation is done in the wider of the types of its operands, a conversion rounds to nearest.
    Both use the same IEEE operations (IeeeModel).  Integer parts are those of C76 (ExprValueSpec). *)
From Verif Require Import Base StatementModel ExprModel ExprSpec IeeeModel MathModel MathProofs MathSpec FloatModel ExprValueSpec FloatExprModel.
Import ListNotations.

Definition is_float (t : num_type) : bool := match t with tR4 | tR8 => true | _ => false end.
Definition fmt (t : num_type) : format := match t with tR4 => single_fmt | _ => double_fmt end.
(** the other sign *)
Definition fl_negate (f : format) (a : Z) : Z := if negative f a then a - sign_bit f else a + sign_bit f.
Definition fl_sub (f : format) (a b : Z) : Z := if nan f b then quiet_nan f else fl_add f a (fl_negate f b).
(** comparison: with a NaN everything is false, except that it is different *)
Definition fl_compare (f : format) (k : comparison_kind) (a b : Z) : bool :=
  match k with
  | Equality => negb (nan f a) && negb (nan f b) && (value f a =? value f b)
  | Inequality => nan f a || nan f b || negb (value f a =? value f b)
  | LessThan => negb (nan f a) && negb (nan f b) && (value f a <? value f b)
  | LessThanOrEqual => negb (nan f a) && negb (nan f b) && (value f a <=? value f b)
  | GreaterThan => negb (nan f a) && negb (nan f b) && (value f b <? value f a)
  | GreaterThanOrEqual => negb (nan f a) && negb (nan f b) && (value f b <=? value f a)
  end.
(** from one floating type to another *)
Definition resize (s t : num_type) (b : Z) : Z := match s, t with tR4, tR8 => fl_convert single_fmt double_fmt b | tR8, tR4 => fl_convert double_fmt single_fmt b | _, _ => b end.

(** ** CIL *)
(** [FOfInt p zero x]: conv.r4, conv.r8 of an integer, unsigned if [zero].  [FBin op p l r]: + - * / % in precision [p]. *)
Inductive fexp : Type :=
  | FLoc (v : Z) | FOfInt (p : num_type) (zero : bool) (x : il) | FBin (op : num_op) (p : num_type) (l r : fexp) | FConv (p : num_type) (e : fexp).
Section Eval.
Variable Gamma : Z -> num_type.
Variable env : Z -> Z.   (* integers, and the bits of Singles and Doubles *)
(** the precision of the stack value *)
Definition precision (e : fexp) : num_type := match e with FLoc v => Gamma v | FOfInt p _ _ => p | FBin _ p _ _ => p | FConv p _ => p end.
Definition fl_op (op : num_op) (f : format) (a b : Z) : Z :=
  match op with Add => fl_add f a b | Sub => fl_sub f a b | Mul => fl_mul f a b | Div => fl_div f a b | Rem => fl_rem f a b | _ => quiet_nan f end.
Fixpoint fl_value (e : fexp) : outcome Z :=
  match e with
  | FLoc v => Ret (env v)
  | FOfInt p zero x => z <- il_value Gamma env x ;; Ret (fl_of_Z (fmt p) (if zero then cast_u (width Gamma x) z else z))
  | FBin op p l r => a <- fl_value l ;; b <- fl_value r ;; Ret (fl_op op (fmt p) a b)
  | FConv p e => a <- fl_value e ;; Ret (resize (precision e) p a)
  end.

(** ** C++ *)
(** conversion of a value of one arithmetic type to another *)
Definition cpp_convert (t : num_type) (x : num_type * Z) : outcome Z :=
  if is_float t then Ret (if is_float (fst x) then resize (fst x) t (snd x) else fl_of_Z (fmt t) (snd x))
  else if is_float (fst x) then
    (if nan (fmt (fst x)) (snd x) || is_inf (fmt (fst x)) (snd x) then UB SignedOverflow
     else let n := fl_to_Z (fmt (fst x)) (snd x) in if in_range t n then Ret n else UB SignedOverflow)
  else Ret (convert t (snd x)).
Definition float_common (a b : num_type) : num_type := match a, b with tR8, _ | _, tR8 => tR8 | _, _ => tR4 end.
Definition cpp_float_op (o : cpp_op) (t : num_type) (a b : Z) : outcome (num_type * Z) :=
  let truth k := Ret (tI4, if fl_compare (fmt t) k a b then 1 else 0) in
  match o with
  | OAdd => Ret (t, fl_add (fmt t) a b) | OSub => Ret (t, fl_sub (fmt t) a b) | OMul => Ret (t, fl_mul (fmt t) a b) | ODiv => Ret (t, fl_div (fmt t) a b)
  | OEq => truth Equality | ONe => truth Inequality | OLt => truth LessThan | OLe => truth LessThanOrEqual | OGt => truth GreaterThan | OGe => truth GreaterThanOrEqual
  | _ => UB NullDereference   (* does not compile *)
  end.
Fixpoint cpp_fvalue (c : cexpr) : outcome (num_type * Z) :=
  match c with
  | CId (Local v) => Ret (Gamma v, env v)
  | CUnary UNeg e => x <- cpp_fvalue e ;; if is_float (fst x) then Ret (fst x, fl_negate (fmt (fst x)) (snd x)) else cpp_result (promote (fst x)) (- snd x)
  | CUnary UNot e => x <- cpp_fvalue e ;; if is_float (fst x) then UB NullDereference else Ret (promote (fst x), convert (promote (fst x)) (Z.lnot (snd x)))
  | CBin o l r =>
      x <- cpp_fvalue l ;; y <- cpp_fvalue r ;;
      if is_float (fst x) || is_float (fst y) then
        let t := float_common (fst x) (fst y) in a <- cpp_convert t x ;; b <- cpp_convert t y ;; cpp_float_op o t a b
      else cpp_op_value o x y
  | CCast t e =>
      match (match t with TDouble => Some tR8 | _ => as_num_type t end) with
      | Some t => x <- cpp_fvalue e ;; v <- cpp_convert t x ;; Ret (t, v)
      | None => UB NullDereference
      end
  | CCall (CId MathDivide) [a; b] =>   (* include/DotNetMath.h: Divide(Int64, Int64), Divide(Double, Double) *)
      x <- cpp_fvalue a ;; y <- cpp_fvalue b ;;
      match fst x, fst y with
      | tR8, tR8 => Ret (tR8, Math_Divide (snd x) (snd y))
      | tI8, tI8 => q <- Divide_Int64 (snd x) (snd y) ;; Ret (tI8, q)
      | _, _ => UB NullDereference
      end
  | CCall (CId DoubleModulus) [a; b] =>   (* include/DoubleValue.h: Modulus(Double, Double) *)
      x <- cpp_fvalue a ;; y <- cpp_fvalue b ;; v <- cpp_convert tR8 x ;; w <- cpp_convert tR8 y ;; Ret (tR8, DoubleValue_Modulus v w)
  | CNum _ | CId _ => cpp_value Gamma env c
  | _ => UB NullDereference
  end.
End Eval.

(** The instruction as the translator's printer sees it. *)
Definition float_stack (p : num_type) : stack_type := match p with tR4 => StackF4 | _ => StackF8 end.
Fixpoint ferase (e : fexp) : expr :=
  match e with
  | FLoc v => LdLoc v
  | FOfInt p _ x => ConvTo (Some p) (erase x)
  | FBin op p l r => Binary op (float_stack p) (ferase l) (ferase r)
  | FConv p e => ConvTo (Some p) (ferase e)
  end.

(** ** Where the two agree *)
Section Agree.
Variable Gamma : Z -> num_type.
(** The type of the C++ expression: quotients and remainders are Doubles. *)
Fixpoint cpp_type (e : fexp) : num_type :=
  match e with
  | FLoc v => Gamma v
  | FOfInt p _ _ | FConv p _ => p
  | FBin (Div | Rem) _ _ _ => tR8
  | FBin _ _ l r => float_common (cpp_type l) (cpp_type r)
  end.
(** Operands have the same type in C++ as on the stack: a quotient or remainder of Singles is only stored or converted to Single. *)
Fixpoint fitting (e : fexp) : Prop :=
  match e with
  | FLoc v => is_float (Gamma v) = true
  | FOfInt p zero x =>
      is_float p = true /\ typed Gamma x /\
      (if zero then negb (is_signed (ctype Gamma x)) && (bits (ctype Gamma x) <=? width Gamma x) = true else exact (width Gamma x) (ctype Gamma x) = true)
  | FBin op p l r =>
      is_float p = true /\ match op with Add | Sub | Mul | Div | Rem => True | _ => False end /\
      fitting l /\ fitting r /\ precision Gamma l = p /\ precision Gamma r = p /\ cpp_type l = p /\ cpp_type r = p
  | FConv p e => is_float p = true /\ fitting e /\ (cpp_type e = precision Gamma e \/ p = tR4)
  end.
Variable env : Z -> Z.
(** The integer parts do what C++ defines (C76); a division by zero has a dividend zero or of the sign of the divisor. *)
Fixpoint defined (e : fexp) : Prop :=
  match e with
  | FLoc _ => True
  | FOfInt _ _ x => safe Gamma env x
  | FBin op p l r =>
      defined l /\ defined r /\
      (op = Div -> forall a b, fl_value Gamma env l = Ret a -> fl_value Gamma env r = Ret b -> is_zero (fmt p) b = true ->
       nan (fmt p) a = false /\ (is_zero (fmt p) a = true \/ negative (fmt p) a = negative (fmt p) b))
  | FConv _ e => defined e
  end.
(** Variables hold numbers of their types. *)
Definition well_typed : Prop := forall v, if is_float (Gamma v) then pattern (fmt (Gamma v)) (env v) else in_range (Gamma v) (env v) = true.
End Agree.
