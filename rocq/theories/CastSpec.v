(** * Specification for C107: casts, boxing and unboxing in C# and in C++ *)
From Verif Require Import Base BoxModel CastModel.

(** [Obj c]: a reference to an object of class [c]; [Boxed], [BoxedOwn]: a reference to a boxed value; [Val], [ValOwn]: a value; [Truth]: of a condition. *)
Inductive value : Type := NullRef | Obj (c : cls) | Boxed (b : box) | BoxedOwn (n : nat) (z : Z) | Val (b : box) | ValOwn (n : nat) (z : Z) | Truth (b : bool).

Definition cls_eqb (a b : cls) : bool :=
  match a, b with CObject, CObject | CString, CString => true | CUser n, CUser m => Nat.eqb n m | _, _ => false end.
(** the type of a value of the library's value types *)
Definition type_of (b : box) : dtype :=
  match b with
  | BBool _ => BooleanType | BSingle _ => SingleType | BDouble _ => DoubleType | BDateTime _ => DateTimeType | BTimeSpan _ => TimeSpanType
  | BInt IChar _ => CharType | BInt ISByte _ => SByteType | BInt IByte _ => ByteType | BInt IInt16 _ => Int16Type | BInt IUInt16 _ => UInt16Type
  | BInt IInt32 _ => Int32Type | BInt IUInt32 _ => UInt32Type | BInt IInt64 _ => Int64Type | BInt IUInt64 _ => UInt64Type
  | BString _ => StringType | BObject => ObjectType
  end.
Definition is_value (b : box) : bool := match b with BString _ | BObject => false | BInt t z => in_range t z | _ => true end.
Definition zero (t : dtype) : option box :=
  match t with
  | BooleanType => Some (BBool false) | CharType => Some (BInt IChar 0) | SByteType => Some (BInt ISByte 0) | ByteType => Some (BInt IByte 0)
  | Int16Type => Some (BInt IInt16 0) | UInt16Type => Some (BInt IUInt16 0) | Int32Type => Some (BInt IInt32 0) | UInt32Type => Some (BInt IUInt32 0)
  | Int64Type => Some (BInt IInt64 0) | UInt64Type => Some (BInt IUInt64 0) | SingleType => Some (BSingle 0) | DoubleType => Some (BDouble 0)
  | DateTimeType => Some (BDateTime 0) | TimeSpanType => Some (BTimeSpan 0)
  | _ => None
  end.

Section Meaning.
(** [parent n]: the base of class [n]: an older class (a smaller number), or object *)
Variable parent : nat -> option nat.
Fixpoint ancestors (fuel : nat) (n : nat) : list cls :=
  CUser n :: match fuel with O => [] | S k => match parent n with Some m => ancestors k m | None => [] end end.
Definition derived (d c : cls) : bool :=
  cls_eqb c CObject || match d with CUser n => existsb (cls_eqb c) (ancestors n n) | _ => cls_eqb c d end.
(** [meth d]: what the (virtual) method answers on an object of class [d] *)
Variable meth : cls -> Z.
Variable env : Z -> value.
(** results of calls *)
Definition answer (d : cls) : value := Val (BInt IInt32 (meth d)).

(** C#; [None]: the program is not well typed *)
Fixpoint csharp (e : expr) : option (outcome value) :=
  let on e (k : value -> option (outcome value)) := match csharp e with Some (Ret v) => k v | r => r end in
  match e with
  | Var x => Some (Ret (env x))
  | Null => Some (Ret NullRef)
  | New c => Some (Ret (Obj c))
  | Box t e => on e (fun v =>
      match v, t with
      | Val b, VLib _ => Some (Ret (Boxed b))
      | ValOwn n z, VOwn _ => Some (Ret (BoxedOwn n z))
      | _, _ => None
      end)
  | Unbox t e => on e (fun v =>
      match v with
      | NullRef => Some (Exn NullReferenceException)
      | Boxed b => match t with
                   | VLib t => if dtype_eqb (type_of b) t then Some (Ret (Val b)) else Some (Exn InvalidCastException)
                   | VOwn _ => Some (Exn InvalidCastException)
                   end
      | BoxedOwn n z => match t with
                        | VOwn m => if Nat.eqb n m then Some (Ret (ValOwn n z)) else Some (Exn InvalidCastException)
                        | VLib _ => Some (Exn InvalidCastException)
                        end
      | Obj _ => Some (Exn InvalidCastException)
      | _ => None
      end)
  | Cast c e => on e (fun v =>
      match v with
      | NullRef => Some (Ret NullRef)
      | Obj d => if derived d c then Some (Ret v) else Some (Exn InvalidCastException)
      | Boxed _ | BoxedOwn _ _ => if cls_eqb c CObject then Some (Ret v) else Some (Exn InvalidCastException)
      | _ => None
      end)
  | DefaultClass c => Some (Ret NullRef)
  | DefaultValue (VLib t) => option_map (fun b => Ret (Val b)) (zero t)
  | DefaultValue (VOwn n) => Some (Ret (ValOwn n 0))
  | IsNull e => on e (fun v => match v with NullRef => Some (Ret (Truth true)) | Obj _ | Boxed _ | BoxedOwn _ _ => Some (Ret (Truth false)) | _ => None end)
  | Call c e => on e (fun v =>
      match v with
      | NullRef => Some (Exn NullReferenceException)
      | Obj d => if derived d c then Some (Ret (answer d)) else None
      | _ => None
      end)
  end.

(** C++; [None]: not accepted by the compiler.  A pointer to an object of another class than the one it points to is kept by a cast and used by a call:
    undefined behaviour. *)
Fixpoint cplusplus (e : cexpr) : option (outcome value) :=
  let on e (k : value -> option (outcome value)) := match cplusplus e with Some (Ret v) => k v | r => r end in
  match e with
  | CVar x => Some (Ret (env x))
  | CNullptr => Some (Ret NullRef)
  | CNew c => Some (Ret (Obj c))
  | CNewValue t e => on e (fun v => match v, t with Val b, VLib _ => Some (Ret (Boxed b)) | _, _ => None end)
  | CGetAs t e =>
      match t with
      | VOwn _ => None
      | VLib t =>
          match getter t with
          | None => None
          | Some g => on e (fun v =>
              match v with
              | NullRef => Some (UB NullDereference)
              | Boxed b => Some (r <- g b ;; Ret (Val r))
              | Obj _ => Some (r <- g BObject ;; Ret (Val r))
              | _ => None
              end)
          end
      end
  | CCast c e => on e (fun v => match v with NullRef | Obj _ | Boxed _ => Some (Ret v) | _ => None end)
  | CInit (VLib t) => option_map (fun b => Ret (Val b)) (zero t)
  | CInit (VOwn n) => Some (Ret (ValOwn n 0))
  | CIsNull e => on e (fun v => match v with NullRef => Some (Ret (Truth true)) | Obj _ | Boxed _ => Some (Ret (Truth false)) | _ => None end)
  | CCall c e => on e (fun v =>
      match v with
      | NullRef => Some (UB NullDereference)
      | Obj d => if derived d c then Some (Ret (answer d)) else Some (UB OutOfBoundsRead)
      | Boxed _ => Some (UB OutOfBoundsRead)
      | _ => None
      end)
  end.

(** Values as they occur: library value types with values in range; no boxed values of the program's own types *)
Definition fine (v : value) : Prop := match v with Boxed b | Val b => is_value b = true | BoxedOwn _ _ => False | _ => True end.
(** The supported style: value types of the library only, no default(C) of a class *)
Fixpoint plain (e : expr) : Prop :=
  match e with
  | Var _ | Null | New _ => True
  | Box t e | Unbox t e => (exists l, t = VLib l) /\ plain e
  | Cast _ e | IsNull e | Call _ e => plain e
  | DefaultClass _ => False
  | DefaultValue _ => True
  end.
End Meaning.
