(** * Specification: C++ block scope, and where a method uses its locals *)
From Verif Require Import Base LocalsModel.

(** The declarations visible, innermost scope first.  A name must have been declared in a scope around, and
    not twice in one scope (C++ [basic.scope.block], [basic.lookup.unqual]).  The parameters are the outermost. *)
Fixpoint scoped (scopes : list (list Z)) (out : list event) : bool :=
  match out with
  | [] => true
  | Open :: out => scoped ([] :: scopes) out
  | Close :: out => scoped (tl scopes) out
  | Declare v :: out =>
      match scopes with
      | [] => false
      | s :: scopes => negb (existsb (Z.eqb v) s) && scoped ((v :: s) :: scopes) out
      end
  | Mention v :: out => existsb (existsb (Z.eqb v)) scopes && scoped scopes out
  end.
Definition names_resolve (parameters : list Z) (out : list event) : Prop := scoped [parameters] out = true.

(** The variables a method's code uses, those bound by a handler around left out *)
Fixpoint used (n : node) : list Z :=
  match n with
  | Load v | Address v => [v]
  | Store v x => v :: used x
  | Other ps => concat (map used ps)
  | IfStmt c t f => used c ++ used t ++ used f
  | Switch v ss => used v ++ concat (map used ss)
  | Inner c => concat (map used c)
  | Container bs => concat (map (fun b => concat (map used b)) bs)
  | Try b hs => match b with [] => [] | b :: _ => concat (map used b) end ++
                concat (map (fun h => let '(v, hb) := h in match hb with [] => [] | b :: _ => filter (fun x => negb (x =? v)) (concat (map used b)) end) hs)
  end.
(** The variables it assigns or takes the address of *)
Fixpoint assigned (n : node) : list Z :=
  match n with
  | Load v => []
  | Address v => [v]
  | Store v x => v :: assigned x
  | Other ps => concat (map assigned ps)
  | IfStmt c t f => assigned c ++ assigned t ++ assigned f
  | Switch v ss => assigned v ++ concat (map assigned ss)
  | Inner c => concat (map assigned c)
  | Container bs => concat (map (fun b => concat (map assigned b)) bs)
  | Try b hs => concat (map (fun b => concat (map assigned b)) b) ++ concat (map (fun h => let '(_, hb) := h in concat (map (fun b => concat (map assigned b)) hb)) hs)
  end.
Definition used_in (b : list node) : list Z := concat (map used b).
Definition assigned_in (b : list node) : list Z := concat (map assigned b).
