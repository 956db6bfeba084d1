(** * Model of casts, boxing and unboxing: MyIlInstructionVisitor.cs 152-164, 386-393, 578-585, 660-667, 936-940, 1045-1054, 1383-1399; Object.cpp 48-88

    The C++ is a tree here; that its text reads back as that tree is C59. *)
From Verif Require Import Base BoxModel.

(** A class of the program is a number, its bases are given by [parent]. *)
Inductive cls : Type := CObject | CString | CUser (n : nat).
(** value types: of the library, and structures and enumerations of the program *)
Inductive vtype : Type := VLib (t : dtype) | VOwn (n : nat).

(** ** IL *)
Inductive expr : Type :=
  | Var (x : Z)
  | Null
  | New (c : cls)
  | Box (t : vtype) (e : expr)
  | Unbox (t : vtype) (e : expr)
  | Cast (c : cls) (e : expr)
  | DefaultClass (c : cls)
  | DefaultValue (t : vtype)
  | IsNull (e : expr)
  | Call (c : cls) (e : expr).   (* a method of class [c] called on [e] *)

(** ** The C++ written *)
Inductive cexpr : Type :=
  | CVar (x : Z)
  | CNullptr
  | CNew (c : cls)                    (* new C() *)
  | CNewValue (t : vtype) (e : cexpr) (* new TValue(e) *)
  | CGetAs (t : vtype) (e : cexpr)    (* e->get_AsT() *)
  | CCast (c : cls) (e : cexpr)       (* a cast to pointer to C *)
  | CInit (t : vtype)                 (* T() *)
  | CIsNull (e : cexpr)               (* ((e)==nullptr) *)
  | CCall (c : cls) (e : cexpr).      (* e->m() where e is a pointer to C *)

Fixpoint translate (e : expr) : cexpr :=
  match e with
  | Var x => CVar x
  | Null => CNullptr                            (* 936-940 *)
  | New c => CNew c                             (* 1045-1054 *)
  | Box t e => CNewValue t (translate e)        (* 387-393, 152-164 *)
  | Unbox t e => CGetAs t (translate e)         (* 1383-1399 *)
  | Cast c e => CCast c (translate e)           (* 578-585 *)
  | DefaultClass c => CNew c                    (* 660-667: "new " *)
  | DefaultValue t => CInit t
  | IsNull e => CIsNull (translate e)           (* 592-601 *)
  | Call c e => CCall c (translate e)
  end.

(** ** The library's getters: which of them Object has (Object.cpp 48-88), and what they answer (BoxModel.v) *)
Definition bint (t : itype) (r : outcome Z) : outcome box := z <- r ;; Ret (BInt t z).
Definition getter (t : dtype) : option (box -> outcome box) :=
  match t with
  | BooleanType => Some (fun b => x <- get_AsBoolean b ;; Ret (BBool x))
  | CharType => Some (fun b => bint IChar (get_AsChar b))
  | SByteType => Some (fun b => bint ISByte (get_As8 ISByte b))
  | ByteType => Some (fun b => bint IByte (get_As8 IByte b))
  | Int16Type => Some (fun b => bint IInt16 (get_AsInt IInt16 b))
  | UInt16Type => Some (fun b => bint IUInt16 (get_AsInt IUInt16 b))
  | Int32Type => Some (fun b => bint IInt32 (get_AsInt IInt32 b))
  | UInt32Type => Some (fun b => bint IUInt32 (get_AsInt IUInt32 b))
  | Int64Type => Some (fun b => bint IInt64 (get_AsInt IInt64 b))
  | UInt64Type => Some (fun b => bint IUInt64 (get_AsInt IUInt64 b))
  | SingleType => Some (fun b => z <- get_AsSingle b ;; Ret (BSingle z))
  | DoubleType => Some (fun b => z <- get_AsDouble b ;; Ret (BDouble z))
  | DateTimeType => Some (fun b => z <- get_AsDateTime b ;; Ret (BDateTime z))
  | TimeSpanType => Some (fun b => z <- get_AsTimeSpan b ;; Ret (BTimeSpan z))
  | NullType | ObjectType | DecimalType | StringType => None
  end.
