(** * Model of the statement level of /repo/CppTranslator/MyIlInstructionVisitor.cs

    Compound assignments, switch sections, leave labels, try blocks and the injected return of static
    constructors.  The text of a statement is abstracted to events; the decompiler's tree
    (ICSharpCode.Decompiler.IL) is an input.  Not modelled here: IL_xxxx block labels and branches
    (AddLabelIfNeeded, VisitBranch), local declarations. *)
From Verif Require Import Base.

(** ** Compound assignment: 507-524, 1076-1099 *)
Inductive num_type : Type := tI1 | tI2 | tI4 | tI8 | tU1 | tU2 | tU4 | tU8 | tR4 | tR8.
(** The right operand.  A floating constant is the finite number [m * 2^e]. *)
Inductive operand : Type :=
  | LdcI4 (n : Z) | LdcI8 (n : Z) | LdcF4 (m e : Z) | LdcF8 (m e : Z) | Conv (t : num_type) (o : operand) | OtherValue (id : Z).
(** 507-510 *)
Definition IsConstant (o : operand) : bool := match o with OtherValue _ => false | _ => true end.
(** C# (int) of a floating number: truncation; outside Int32 the result is unspecified, modelled as what x86-64 gives *)
Definition truncated (m e : Z) : Z := if 0 <=? e then m * 2 ^ e else Z.quot m (2 ^ (- e)).
Definition float_to_int (m e : Z) : Z := let t := truncated m e in if in_i32 t then t else -2147483648.
(** 511-524; a non-constant under a Conv gives -1 (523) *)
Fixpoint GetAsIntConstant (o : operand) : outcome Z :=
  match o with
  | LdcI4 n => Ret n
  | LdcI8 _ => Exn InvalidCastException   (* 516: ((LdcI4)inst) of an LdcI8 *)
  | LdcF8 m e | LdcF4 m e => Ret (float_to_int m e)
  | Conv _ o => GetAsIntConstant o
  | OtherValue _ => Ret (-1)
  end.
Inductive num_op : Type := Add | Sub | Mul | Div | Rem | BitAnd | BitOr | BitXor | Shl | Shr.
(** What is written after the target: ++, -- or "op= value" *)
Inductive emitted_assign : Type := PostIncrement | PostDecrement | OpAssign (op : num_op) (o : operand).
(** 1076-1099 *)
Definition VisitNumericCompoundAssign (op : num_op) (o : operand) : outcome emitted_assign :=
  match op with
  | Add | Sub =>
      if IsConstant o then
        constant <- GetAsIntConstant o ;;
        Ret (if constant =? 1 then (match op with Add => PostIncrement | _ => PostDecrement end) else OpAssign op o)
      else Ret (OpAssign op o)
  | _ => Ret (OpAssign op o)
  end.
(** 1127-1136, 1147-1164: storing into a local; [Some true]: ++variable, [Some false]: --variable, [None]: an ordinary assignment.
    The value is [left op right] with [left] a local's name if it is one. *)
Definition HandleIncrementAndDecrement (variable : list Z) (binary : option (num_op * option (list Z) * operand)) : option bool :=
  match binary with
  | Some (op, Some lhs, LdcI4 n) =>
      match op with
      | Add | Sub => if negb (if list_eq_dec Z.eq_dec variable lhs then true else false) then None else if negb (n =? 1) then None else Some (match op with Add => true | _ => false end)
      | _ => None
      end
  | _ => None
  end.

(** ** Switch: 1262-1294 *)
(** A section: its labels as intervals in ascending order (ILSpy's LongSet) and its body. *)
Record section := mk_section { labels : list (Z * Z); body : Z }.
(** What is written: "case n:" / "default:" / ":" alone, and the body *)
Inductive case_line : Type := Case (n : Z) | Default | NoLabel.
Definition long_min : Z := -9223372036854775808.
(** 1276-1289: the loop over the labels breaks after the first *)
Definition first_label (s : section) : case_line :=
  match labels s with
  | [] => NoLabel
  | (lo, _) :: _ => if lo =? long_min then Default else Case lo
  end.
Definition FormatSwitchCases (sections : list section) : list (case_line * Z) := map (fun s => (first_label s, body s)) sections.

(** ** Statements *)
(** [LeaveTo c zero valued]: leave container [c]; [zero]: its label is IL_0000; [valued]: returns a value.
    [Container c leaves bs]: [leaves] is LeaveCount > 0.  [TryCatch c tr hs]: the try body (a container [c]
    of blocks) and the bodies of the handlers. *)
Inductive inst : Type :=
  | Simple (n : Z)
  | LeaveTo (c : Z) (zero valued : bool)
  | Container (c : Z) (leaves : bool) (bs : blocks)
  | TryCatch (c : Z) (tr : blocks) (hs : handlers)
  | TryFinally (tr fin : blocks)
with insts : Type := INil | ICons (i : inst) (is : insts)
with blocks : Type := BNil | BCons (b : insts) (bs : blocks)
with handlers : Type := HNil | HCons (h : blocks) (hs : handlers).
(** Output events.  [Goto l c]: "goto leaveBlock l" written for a leave of container [c]; [Label l c]: the
    label leaveBlock l written at the end of container [c]. *)
Inductive event : Type := Stmt (n : Z) | Goto (l c : Z) | Return | Label (l c : Z) | OpenB | CloseB | Inject.
(** Fields blockIndex, leaveBlocks, currentReturnContainer *)
Record state := mk_state { blockIndex : Z; leaveBlocks : list Z; current : Z }.

Section Method.
(** mainContainer, and whether a statement is injected (static constructors) *)
Variable main : Z.
Variable injection : bool.
(** 260-272 *)
Definition NewLeaveBlock (s : state) : state := mk_state (blockIndex s + 1) (blockIndex s + 1 :: leaveBlocks s) (current s).
Definition ExitLeaveBlock (s : state) : state := mk_state (blockIndex s) (tl (leaveBlocks s)) (current s).
Definition CurrentLeaveBlock (s : state) : Z := hd 0 (leaveBlocks s).
Definition set_current (s : state) (c : Z) : state := mk_state (blockIndex s) (leaveBlocks s) c.
(** 979-1000 *)
Definition VisitLeave (s : state) (c : Z) (zero : bool) : list event := if zero then [Return] else [Goto (CurrentLeaveBlock s) c].
(** 327-338: skipped in a static constructor when it is the block's last statement and a plain return *)
Definition is_nil (is : insts) : bool := match is with INil => true | _ => false end.
Definition skipped (i : inst) (rest : insts) : bool :=
  match i with LeaveTo _ zero valued => injection && is_nil rest && zero && negb valued | _ => false end.
Fixpoint visit (s : state) (i : inst) {struct i} : state * list event :=
  match i with
  | Simple n => (s, [Stmt n])
  | LeaveTo c zero _ => (s, VisitLeave s c zero)
  | Container c leaves bs =>   (* 297-316 *)
      let s := NewLeaveBlock (set_current s c) in
      let (s, out) := visit_blocks s bs in
      let lbl := if negb (c =? main) && leaves then [Label (CurrentLeaveBlock s) c] else [] in
      (ExitLeaveBlock s, out ++ lbl)
  | TryCatch c tr hs =>        (* 1319-1361: the first block of the try body, the first block of each handler *)
      let s := NewLeaveBlock s in
      let (s, out) := match tr with BNil => (s, []) | BCons b _ => visit_block s b end in
      let (s, out2) := visit_handlers s hs in
      (ExitLeaveBlock s, [OpenB] ++ out ++ [CloseB] ++ out2 ++ [Label (CurrentLeaveBlock s) c])
  | TryFinally _ _ => (s, [])  (* 1373-1376: nothing is written *)
  end
with visit_block (s : state) (b : insts) {struct b} : state * list event :=   (* 317-340 *)
  match b with
  | INil => (s, [])
  | ICons i rest =>
      if skipped i rest then visit_block s rest
      else let (s, out) := visit s i in let (s, out2) := visit_block s rest in (s, out ++ out2)
  end
with visit_blocks (s : state) (bs : blocks) {struct bs} : state * list event :=   (* 301-308 *)
  match bs with
  | BNil => (s, [])
  | BCons b bs =>
      let (s, out) := visit_block s b in
      let inj := if injection && (current s =? main) then [Inject] else [] in
      let (s, out2) := visit_blocks s bs in
      (s, [OpenB] ++ out ++ inj ++ [CloseB] ++ out2)
  end
with visit_handlers (s : state) (hs : handlers) {struct hs} : state * list event :=   (* 1322-1340 *)
  match hs with
  | HNil => (s, [])
  | HCons h hs =>
      let (s, out) := match h with BNil => (s, []) | BCons b _ => visit_block s b end in
      let (s, out2) := visit_handlers s hs in
      (s, [OpenB] ++ out ++ [CloseB] ++ out2)
  end.
(** 278-286: the body of a method *)
Definition StartMainBlock (bs : blocks) : list event := snd (visit (mk_state 0 [] main) (Container main false bs)).
End Method.
