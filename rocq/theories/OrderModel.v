(** * Model of compound assignments with a user-defined operator: MyIlInstructionVisitor.cs 1401-1414

    All other expressions: ExprModel.v. *)
From Verif Require Import Base StatementModel ExprModel.

(** VisitUserDefinedCompoundAssign 1401-1414: `target = T::m(target,value)`, the target is visited twice.  The operator is a
    static method; the name it is called by is C71's subject. *)
Definition UserDefinedCompoundAssign (target : expr) (t m : Z) (v : expr) : expr :=
  Assign target None (CallStatic t m (ACons None target (ACons None v ANil))).
