(** * Comparison and equality of all value classes: the receivers BoxModel.v leaves out, TimeSpan's
      operators, and Object.Equals(a, b) *)
From Verif Require Import Base IntModel BoxModel DateTimeModel TimeSpanModel MathModel.

(** CompareTo(Object pointer): SingleValue.cpp 77-85, DoubleValue.cpp 69-77, DateTimeValue.cpp 221-228,
    TimeSpanValue.cpp 112-123; Boolean and the integers as in BoxModel.v.  String and plain objects
    have no such member. *)
Definition CompareTo_box (self : box) (other : option box) : outcome Z :=
  match self with
  | BBool _ | BInt _ _ => CompareTo_obj self other
  | BSingle a => match other with
                 | None => Ret 1
                 | Some (BSingle b) => Ret (Float_CompareTo single_fmt a b)
                 | Some _ => Exn ArgumentException
                 end
  | BDouble a => match other with
                 | None => Ret 1
                 | Some (BDouble b) => Ret (Float_CompareTo double_fmt a b)
                 | Some _ => Exn ArgumentException
                 end
  | BDateTime a => match other with
                   | None => Ret 1
                   | Some (BDateTime b) => Ret (Compare a b)
                   | Some _ => Exn ArgumentException
                   end
  | BTimeSpan a => match other with
                   | None => Ret 1
                   | Some (BTimeSpan b) => Ret (TS_Compare a b)
                   | Some _ => Exn ArgumentException
                   end
  | BString _ | BObject => Exn NotImplementedException
  end.
(** Equals(Object pointer): SingleValue.cpp 86-94, DoubleValue.cpp 78-86, DateTimeValue.cpp 242-247,
    TimeSpanValue.cpp 149-154; Boolean and the integers as in BoxModel.v. *)
Definition Equals_box (self : box) (other : option box) : outcome bool :=
  match self with
  | BBool _ | BInt _ _ => Equals_obj self other
  | BSingle a => match other with Some (BSingle b) => Ret (Float_Equals single_fmt a b) | _ => Ret false end
  | BDouble a => match other with Some (BDouble b) => Ret (Float_Equals double_fmt a b) | _ => Ret false end
  | BDateTime a => match other with Some (BDateTime b) => Ret (a =? b) | _ => Ret false end
  | BTimeSpan a => match other with Some (BTimeSpan b) => Ret (a =? b) | _ => Ret false end
  | BString _ | BObject => Exn NotImplementedException
  end.

(** Objects by address: [heap p] is what a non-null pointer [p] points to; null is 0.  Object.cpp
    25-31; a plain Object compares addresses (32-34). *)
Definition Object_Equals2 (heap : Z -> box) (p q : Z) : outcome bool :=
  if p =? q then Ret true
  else if (p =? 0) || (q =? 0) then Ret false
  else match heap p with
       | BObject => Ret (p =? q)
       | v => Equals_box v (Some (heap q))
       end.

(** TimeSpanValue.cpp 143-148, 313-330 *)
Definition TS_Equals (a b : Z) : bool := a =? b.
Definition TS_op_Equality (a b : Z) : bool := TS_Equals a b.
Definition TS_op_GreaterThan (a b : Z) : bool := b <? a.
Definition TS_op_GreaterThanOrEqual (a b : Z) : bool := b <=? a.
Definition TS_op_Inequality (a b : Z) : bool := negb (TS_Equals a b).
Definition TS_op_LessThan (a b : Z) : bool := a <? b.
Definition TS_op_LessThanOrEqual (a b : Z) : bool := a <=? b.
