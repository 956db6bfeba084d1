(** * Model of control flow in /repo/CppTranslator/MyIlInstructionVisitor.cs

    Blocks, block containers, IL_xxxx labels, branches, leaves, if and switch statements.  The input is the
    decompiler's tree (ICSharpCode.Decompiler.IL); straight-line statements and conditions are opaque
    numbers, their text being modelled in ExprModel.v and StatementModel.v.  Not modelled here: try
    statements (StatementModel.v), array initializers, the statement injected into static constructors
    (Injection = null is assumed; StatementModel.v has it), declarations of locals (LocalsModel.v).

    The translation's output is a C++ statement tree: the braces written by Formatter.AddOpenBrace and
    AddCloseBrace delimit [CBlock] and the parts of [CIf] and [CSwitch]. *)
From Verif Require Import Base.

(** ** The decompiler's tree.
    [Branch b]: jump to the block with identity [b].  [Leave c v]: leave the container [c], returning the value
    [v] if [c] is the method's body.  [Container c bs]: the first block is the entry point.  A block has an
    identity and a label (its IL offset; Block.Label is "IL_" and the offset in hexadecimal). *)
Inductive inst : Type :=
  | Simple (n : Z)
  | Branch (b : Z)
  | Leave (c : Z) (v : option Z)
  | If (n : Z) (t f : list inst)
  | Switch (n : Z) (sections : list (list inst))
  | Container (c : Z) (bs : list block)
with block : Type := Block (id label : Z) (code : list inst).
Definition block_id (b : block) : Z := let 'Block i _ _ := b in i.
Definition block_label (b : block) : Z := let 'Block _ l _ := b in l.
Definition block_code (b : block) : list inst := let 'Block _ _ c := b in c.

(** ** The output *)
Inductive label : Type := IL (offset : Z) | LeaveBlock (k : Z).
Inductive cstmt : Type :=
  | CSimple (n : Z)
  | CGoto (l : label)
  | CReturn (v : option Z)
  | CLabel (l : label)
  | CBlock (body : list cstmt)
  | CIf (n : Z) (t f : list cstmt)
  | CSwitch (n : Z) (sections : list (list cstmt)).

(** ** Properties of the decompiler's tree the translator reads *)
(** BlockContainer.EntryPoint.Label, Leave.TargetLabel (ICSharpCode.Decompiler) *)
Definition entry_label (bs : list block) : Z := match bs with [] => -1 | b :: _ => block_label b end.
(** The containers around an instruction, innermost first *)
Definition scopes : Type := list (Z * list block).
Fixpoint target_label (c : Z) (e : scopes) : Z := match e with [] => -1 | (d, bs) :: e => if c =? d then entry_label bs else target_label c e end.
Definition find_in (b : Z) (bs : list block) : option block := find (fun x => block_id x =? b) bs.
Fixpoint find_block (b : Z) (e : scopes) : option block := match e with [] => None | (_, bs) :: e => match find_in b bs with Some x => Some x | None => find_block b e end end.
(** BlockContainer.LeaveCount > 0: some Leave inside has the container as its target *)
Fixpoint leaves (c : Z) (i : inst) {struct i} : bool :=
  match i with
  | Leave d _ => c =? d
  | If _ t f => existsb (leaves c) t || existsb (leaves c) f
  | Switch _ ss => existsb (existsb (leaves c)) ss
  | Container _ bs => existsb (fun b => let 'Block _ _ code := b in existsb (leaves c) code) bs
  | _ => false
  end.
Definition left (c : Z) (bs : list block) : bool := existsb (fun b => existsb (leaves c) (block_code b)) bs.

(** 366-384 AddLabelIfNeeded: no label for a block that is a single leave, nor for one that starts with a
    container whose entry point has the same label *)
Definition label_printed (l : Z) (code : list inst) : bool :=
  match code with
  | [Leave _ _] => false
  | Container _ (b :: _) :: _ => negb (block_label b =? l)
  | _ => true
  end.

(** Visit a list in order, handing the counter of leave blocks through *)
Section Thread.
Context {A B : Type}.
Variable f : A -> Z -> Z * B.
Fixpoint thread (l : list A) (n : Z) : Z * list B :=
  match l with
  | [] => (n, [])
  | a :: l => let (n, b) := f a n in let (n, bs) := thread l n in (n, b :: bs)
  end.
End Thread.
Definition thread_concat {A B} (f : A -> Z -> Z * list B) (l : list A) (n : Z) : Z * list B := let (n, bs) := thread f l n in (n, concat bs).

Section Method.
(** mainContainer *)
Variable main : Z.
(** [e]: the containers around; [top]: leaveBlocks.Peek(); the last argument and first result: blockIndex *)
Fixpoint visit (e : scopes) (top : Z) (i : inst) (n : Z) {struct i} : Z * list cstmt :=
  match i with
  | Simple m => (n, [CSimple m])
  | Branch b => (n, [CGoto (IL (match find_block b e with Some x => block_label x | None => -1 end))])   (* 394-399 *)
  | Leave c v => (n, [if target_label c e =? 0 then CReturn v else CGoto (LeaveBlock top)])   (* 979-1000 *)
  | If m t f =>                                                                               (* 705-755 *)
      let (n, ct) := thread_concat (visit e top) t n in
      let (n, cf) := thread_concat (visit e top) f n in
      (n, [CIf m ct cf])
  | Switch m ss =>                                                                            (* 1262-1294 *)
      let (n, cs) := thread (thread_concat (visit e top)) ss n in
      (n, [CSwitch m cs])
  | Container c bs =>                                                                         (* 297-316 *)
      let k := n + 1 in                                                                       (* 260-264 NewLeaveBlock *)
      let (n, out) := thread (fun b n => let 'Block _ l code := b in                          (* 317-340 WriteBlock *)
                                         let (n, body) := thread_concat (visit ((c, bs) :: e) k) code n in
                                         (n, CBlock ((if label_printed l code then [CLabel (IL l)] else []) ++ body))) bs k in
      (n, out ++ (if negb (c =? main) && left c bs then [CLabel (LeaveBlock k)] else []))
  end.
(** 278-286 *)
Definition StartMainBlock (bs : list block) : list cstmt := snd (visit [] 0 (Container main bs) 0).
End Method.
