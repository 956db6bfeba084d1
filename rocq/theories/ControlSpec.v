(** * Specification: what a method of the decompiler's tree and what a C++ function body do *)
From Verif Require Import Base ControlModel.

(** What can be observed of an execution: statements done, conditions tested with their outcome, the section a
    switch selected, the value returned.  Outcomes of tests are not determined here: a program has one
    execution for every sequence of outcomes. *)
Inductive event : Type := Did (n : Z) | Tested (n : Z) (b : bool) | Selected (n : Z) (section : nat) | Returned (v : option Z).

(** Finite executions of a transition system and their events *)
Section Runs.
Context {S : Type}.
Variable step : S -> list event -> S -> Prop.
Inductive run : S -> list event -> S -> Prop :=
  | run_nil s : run s [] s
  | run_cons s e s' tr s'' : step s e s' -> run s' tr s'' -> run s (e ++ tr) s''.
End Runs.

(** ** The decompiler's tree: what is left to do is a list of instructions and ends of containers *)
Inductive item : Type := Do (i : inst) | End (c : Z) (bs : list block).
(** Leaving container [c]: everything up to its end is dropped *)
Fixpoint after_end (c : Z) (k : list item) : option (list item) :=
  match k with
  | [] => None
  | End d _ :: k => if c =? d then Some k else after_end c k
  | Do _ :: k => after_end c k
  end.
(** Branching to block [b]: everything inside its container is dropped, the container's end stays *)
Fixpoint at_block (b : Z) (k : list item) : option (list item) :=
  match k with
  | [] => None
  | End _ bs :: k' => match find_in b bs with Some x => Some (map Do (block_code x) ++ k) | None => at_block b k' end
  | Do _ :: k => at_block b k
  end.
Section Tree.
Variable main : Z.
(** [None]: the method has returned.  There is no step from [End _ _ :: _]: running off the end of a block is not possible in a valid tree. *)
Inductive tree_step : option (list item) -> list event -> option (list item) -> Prop :=
  | T_simple n k : tree_step (Some (Do (Simple n) :: k)) [Did n] (Some k)
  | T_branch b k k' : at_block b k = Some k' -> tree_step (Some (Do (Branch b) :: k)) [] (Some k')
  | T_leave c v k k' : c <> main -> after_end c k = Some k' -> tree_step (Some (Do (Leave c v) :: k)) [] (Some k')
  | T_return v k : tree_step (Some (Do (Leave main v) :: k)) [Returned v] None
  | T_if n t f k (b : bool) : tree_step (Some (Do (If n t f) :: k)) [Tested n b] (Some (map Do (if b then t else f) ++ k))
  | T_switch n ss i s k : nth_error ss i = Some s -> tree_step (Some (Do (Switch n ss) :: k)) [Selected n i] (Some (map Do s ++ k))
  | T_container c b bs k : tree_step (Some (Do (Container c (b :: bs)) :: k)) [] (Some (map Do (block_code b) ++ End c (b :: bs) :: k)).
Definition tree_start (bs : list block) : option (list item) := Some [Do (Container main bs)].
End Tree.

(** ** C++ (6.9 statements; goto and labels 8.2, 8.7.6): what is left to do is a list of statements *)
Definition or_else {A} (a b : option A) : option A := match a with Some x => Some x | None => b end.
Definition label_eqb (a b : label) : bool := match a, b with IL x, IL y => x =? y | LeaveBlock x, LeaveBlock y => x =? y | _, _ => false end.
(** Where label [l] is: the statements from there on, [k] being what comes behind *)
Section FindList.
Variable f : cstmt -> list cstmt -> option (list cstmt).
Fixpoint find_list (ss k : list cstmt) : option (list cstmt) := match ss with [] => None | s :: ss => or_else (f s (ss ++ k)) (find_list ss k) end.
(** behind one section of a switch comes the next *)
Fixpoint find_sections (cs : list (list cstmt)) (k : list cstmt) : option (list cstmt) := match cs with [] => None | c :: cs => or_else (find_list c (concat cs ++ k)) (find_sections cs k) end.
End FindList.
Fixpoint find_stmt (l : label) (s : cstmt) (k : list cstmt) {struct s} : option (list cstmt) :=
  match s with
  | CLabel m => if label_eqb l m then Some k else None
  | CBlock b => find_list (find_stmt l) b k
  | CIf _ t f => or_else (find_list (find_stmt l) t k) (find_list (find_stmt l) f k)
  | CSwitch _ cs => find_sections (find_stmt l) cs k
  | _ => None
  end.
Definition find_label (l : label) (ss k : list cstmt) : option (list cstmt) := find_list (find_stmt l) ss k.
Section Cpp.
(** the whole function body *)
Variable program : list cstmt.
Inductive cpp_step : option (list cstmt) -> list event -> option (list cstmt) -> Prop :=
  | P_simple n k : cpp_step (Some (CSimple n :: k)) [Did n] (Some k)
  | P_goto l k k' : find_label l program [] = Some k' -> cpp_step (Some (CGoto l :: k)) [] (Some k')
  | P_return v k : cpp_step (Some (CReturn v :: k)) [Returned v] None
  | P_label l k : cpp_step (Some (CLabel l :: k)) [] (Some k)
  | P_block b k : cpp_step (Some (CBlock b :: k)) [] (Some (b ++ k))
  | P_if n t f k (b : bool) : cpp_step (Some (CIf n t f :: k)) [Tested n b] (Some ((if b then t else f) ++ k))
  | P_switch n cs i k : (i < length cs)%nat -> cpp_step (Some (CSwitch n cs :: k)) [Selected n i] (Some (concat (skipn i cs) ++ k)).
End Cpp.
(** A C++ compiler accepts the labels of a function if they are distinct and every goto has one *)
Section OfList.
Variable f : cstmt -> list label.
Definition all_of (ss : list cstmt) : list label := concat (map f ss).
End OfList.
Fixpoint labels_of (s : cstmt) : list label :=
  match s with
  | CLabel l => [l]
  | CBlock b => all_of labels_of b
  | CIf _ t f => all_of labels_of t ++ all_of labels_of f
  | CSwitch _ cs => concat (map (all_of labels_of) cs)
  | _ => []
  end.
Fixpoint gotos_of (s : cstmt) : list label :=
  match s with
  | CGoto l => [l]
  | CBlock b => all_of gotos_of b
  | CIf _ t f => all_of gotos_of t ++ all_of gotos_of f
  | CSwitch _ cs => concat (map (all_of gotos_of) cs)
  | _ => []
  end.
Definition labels (ss : list cstmt) : list label := all_of labels_of ss.
Definition gotos (ss : list cstmt) : list label := all_of gotos_of ss.
Definition valid_labels (ss : list cstmt) : Prop := NoDup (labels ss) /\ incl (gotos ss) (labels ss).

(** ** Methods *)
(** An instruction that control never comes out of at its end *)
Fixpoint never_ends (i : inst) : bool :=
  match i with
  | Simple _ => false
  | Branch _ | Leave _ _ => true
  | If _ t f => existsb never_ends t && existsb never_ends f
  | Switch _ ss => forallb (existsb never_ends) ss
  | Container c bs => negb (left c bs)
  end.
(** Not just a leave, and not starting with a container at the same offset *)
Definition labelled (l : Z) (code : list inst) : bool :=
  match code with
  | [] => true
  | Leave _ _ :: rest => match rest with [] => false | _ => true end
  | Container _ (Block _ l' _ :: _) :: _ => negb (l' =? l)
  | _ :: _ => true
  end.
(** The block can be the target of a branch: it is labelled, or it starts with a container at the same offset
    whose entry point can be *)
Fixpoint targetable (b : block) {struct b} : bool :=
  let 'Block _ l code := b in labelled l code || match code with Container _ (b0 :: _) :: _ => targetable b0 | _ => false end.
(** The labels (offsets) of the blocks of a tree, a block that starts with a container at the same offset or is just a leave not counted *)
Fixpoint offsets_of (i : inst) : list Z :=
  match i with
  | If _ t f => concat (map offsets_of t) ++ concat (map offsets_of f)
  | Switch _ ss => concat (map (fun s => concat (map offsets_of s)) ss)
  | Container _ bs => concat (map (fun b => let 'Block _ l code := b in (if labelled l code then [l] else []) ++ concat (map offsets_of code)) bs)
  | _ => []
  end.
Section Every.
Context {A : Type}.
Variable p : A -> Prop.
Fixpoint Every (l : list A) : Prop := match l with [] => True | a :: l => p a /\ Every l end.
End Every.
Section WellFormed.
Variable main : Z.
(** Valid trees: every block ends in a jump, branches go to blocks of containers around them.  Restrictions of
    the theorem: a leave goes out of the method or out of the innermost container, which is not at offset 0;
    the target of a branch is not just a leave; the sections of a switch, but the last, end in a jump. *)
Fixpoint ok (e : scopes) (i : inst) {struct i} : Prop :=
  match i with
  | Simple _ => True
  | Branch b => exists x, find_block b e = Some x /\ targetable x = true
  | Leave c v => c = main \/ exists bs e', e = (c, bs) :: e' /\ entry_label bs <> 0
  | If _ t f => Every (ok e) t /\ Every (ok e) f
  | Switch _ ss => ss <> [] /\ forallb (existsb never_ends) (removelast ss) = true /\ Every (Every (ok e)) ss
  | Container c bs => c <> main /\ bs <> [] /\
      Every (fun b => let 'Block _ _ code := b in existsb never_ends code = true /\ Every (ok ((c, bs) :: e)) code) bs
  end.
Definition well_formed (bs : list block) : Prop :=
  bs <> [] /\ entry_label bs = 0 /\ NoDup (offsets_of (Container main bs)) /\
  Every (fun b => let 'Block _ _ code := b in existsb never_ends code = true /\ Every (ok [(main, bs)]) code) bs.
End WellFormed.
