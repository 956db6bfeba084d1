(** * Specification for C108: when a missing operand goes unnoticed *)
From Verif Require Import Base StatementModel ExprModel DropModel.
Import ListNotations.

(** C++ binary operators that are unary operators, too: without its left operand the rest is still an expression *)
Definition also_unary (op : num_op) : bool := match op with Add | Sub | Mul | BitAnd => true | _ => false end.
(** the only argument of a call, a constructor or a boxing, not wrapped in a cast: "f(x)" becomes "f()" *)
Definition lone_argument (k : frame) : bool :=
  match k with
  | FBox _ | FReceiver (Some _) _ _ _ => true
  | FElemIndex _ _ ANil None ANil | FNewObj _ _ ANil None ANil | FStaticArg _ _ ANil None ANil | FInstanceArg _ _ _ _ ANil None ANil => true
  | _ => false
  end.
(** the text written so far ends in an operator, a cast or an assignment: does an operator that can be unary follow? *)
Fixpoint operator_follows (ks : list frame) : bool :=
  match ks with
  | FBinL op _ _ :: _ => also_unary op
  | FObj :: ks | FNot :: ks | FCast _ :: ks | FAssignV _ _ :: ks | FCompoundV _ _ :: ks | FStep _ :: ks => operator_follows ks
  | _ => false
  end.
(** Places (innermost first) where the text without the operand may still be an expression *)
Fixpoint unnoticed (ks : list frame) : bool :=
  match ks with
  | [] => false
  | FObj :: ks => unnoticed ks
  | k :: _ => lone_argument k || operator_follows ks
  end.
