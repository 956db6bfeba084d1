(** * Model of the declaration of locals in /repo/CppTranslator/MyIlInstructionVisitor.cs

    The decompiler's tree, reduced to what concerns local variables and C++ scopes.  Variables are the names
    (ILVariable.Name) as numbers; the name mangling is C55's subject.  Not modelled: array initializer blocks
    (whose temporary is renamed by variableTranslation), injected statements. *)
From Verif Require Import Base.

(** [Other]: an instruction whose parts are written one after the other.  [IfStmt c t f]: [f] is [Other []] (a Nop)
    if there is no else.  [Inner]: a Block that is not part of a container.  [Container]: its blocks.
    [Try]: the blocks of the body and, for every handler, its variable and the blocks of its body. *)
Inductive node : Type :=
  | Load (v : Z)                  (* LdLoc *)
  | Address (v : Z)               (* LdLoca *)
  | Store (v : Z) (value : node)  (* StLoc *)
  | Other (parts : list node)
  | IfStmt (c t f : node)
  | Switch (value : node) (sections : list node)
  | Inner (code : list node)
  | Container (bs : list (list node))
  | Try (body : list (list node)) (handlers : list (Z * list (list node))).
(** What is written: braces, declarations ("T name;", also the one in "catch (T name)") and names of variables *)
Inductive event : Type := Open | Close | Declare (v : Z) | Mention (v : Z).

(** CurrentVariables: the names declared so far *)
Definition state : Type := list Z.
Definition known (s : state) (v : Z) : bool := existsb (Z.eqb v) s.
Section Visits.
Context {A : Type}.
Variable f : A -> state -> state * list event.
Fixpoint visits (l : list A) (s : state) : state * list event :=
  match l with [] => (s, []) | a :: l => let (s, o) := f a s in let (s, o') := visits l s in (s, o ++ o') end.
End Visits.
(** 357-364 CheckVariableAddition, 1165-1175 DeclareVariableIfNeeded *)
Definition CheckVariableAddition (v : Z) (s : state) : state * list event := if known s v then (s, []) else (v :: s, [Declare v]).
(** 337-356: all the stores and addresses below, containers and handlers included *)
Fixpoint DeclareLocalVariables (n : node) (s : state) {struct n} : state * list event :=
  match n with
  | Load _ => (s, [])
  | Address v => CheckVariableAddition v s
  | Store v x => let (s, o) := CheckVariableAddition v s in let (s, o') := DeclareLocalVariables x s in (s, o ++ o')
  | Other ps => visits DeclareLocalVariables ps s
  | IfStmt c t f => let (s, o) := DeclareLocalVariables c s in let (s, o') := DeclareLocalVariables t s in let (s, o'') := DeclareLocalVariables f s in (s, o ++ o' ++ o'')
  | Switch v ss => let (s, o) := DeclareLocalVariables v s in let (s, o') := visits DeclareLocalVariables ss s in (s, o ++ o')
  | Inner c => visits DeclareLocalVariables c s
  | Container bs => visits (visits DeclareLocalVariables) bs s
  | Try b hs => let (s, o) := visits (visits DeclareLocalVariables) b s in let (s, o') := visits (fun h => let '(_, hb) := h in visits (visits DeclareLocalVariables) hb) hs s in (s, o ++ o')
  end.
Definition is_nop (n : node) : bool := match n with Other [] => true | _ => false end.
(** 317-340 WriteBlock; [vis] writes one instruction *)
Definition WriteBlock (vis : node -> state -> state * list event) (b : list node) (s : state) : state * list event :=
  let (s, d) := visits DeclareLocalVariables b s in let (s, o) := visits vis b s in (s, d ++ o).
Definition WriteFirst (vis : node -> state -> state * list event) (bs : list (list node)) (s : state) : state * list event :=
  match bs with [] => (s, []) | b :: _ => WriteBlock vis b s end.
Fixpoint visit (n : node) (s : state) {struct n} : state * list event :=
  match n with
  | Load v | Address v => (s, [Mention v])                                      (* 919-935 *)
  | Store v x => let (s, o) := visit x s in (s, Mention v :: o)                 (* 1127-1136 *)
  | Other ps => visits visit ps s
  | IfStmt c t f =>                                                             (* 705-755 *)
      let (s, o) := visit c s in let (s, o') := visit t s in
      let (s, o'') := if is_nop f then (s, []) else let (s, o'') := visit f s in (s, [Open] ++ o'' ++ [Close]) in
      (s, o ++ [Open] ++ o' ++ [Close] ++ o'')
  | Switch v ss => let (s, o) := visit v s in let (s, o') := visits visit ss s in (s, o ++ [Open] ++ o' ++ [Close])   (* 1262-1294 *)
  | Inner c => WriteBlock visit c s                                             (* 254-258 *)
  | Container bs => visits (fun b s => let (s, o) := WriteBlock visit b s in (s, [Open] ++ o ++ [Close])) bs s   (* 297-316 *)
  | Try b hs =>                                                                 (* 1319-1361: only the first blocks are written *)
      let (s, o) := WriteFirst visit b s in
      let (s, o') := visits (fun h s => let '(v, hb) := h in let (s, o) := WriteFirst visit hb s in (s, [Open; Declare v] ++ o ++ [Close])) hs s in
      (s, [Open] ++ o ++ [Close] ++ o')
  end.
(** 278-296 StartMainBlock, InitilizeLocalVariableNames: the parameters are known *)
Definition StartMainBlock (parameters : list Z) (bs : list (list node)) : list event := snd (visit (Container bs) parameters).
