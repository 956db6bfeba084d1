(** * The text of a method's body: MyIlInstructionVisitor.cs on Formatter.cs

    ControlModel gives the statement tree; this file writes its characters, with the Formatter's flags IsOnNewline and
    CharactersAddedToLine, on which the code decides whether a label, an indentation, an "if" or a semicolon is written.
    Declarations of locals (343-364), each a line of its own, count as simple statements.  Not modelled: try statements,
    initialised arrays (statements of several lines), the statement injected into static constructors. *)
From Coq Require Import String.
From Verif Require Import Base IntModel FormatterModel FormatterSpec ControlModel.
Import ListNotations.

(** blockIndex and the Formatter *)
Definition writer : Type := (Z * formatter)%type.
Definition say (t : text) (s : writer) : writer := (fst s, Append (snd s) t).
Section Each.
Context {A : Type}.
Variable f : nat -> A -> writer -> outcome writer.
Fixpoint each (k : nat) (l : list A) (s : writer) : outcome writer := match l with [] => Ret s | a :: l => s <- f k a s ;; each (S k) l s end.
End Each.

Section Text.
Variable env : dotnet.
(** texts of statements (empty if the instruction is not supported: C108), of conditions and switch values, of returned values with
    their cast (983-992); labels of blocks (Block.Label) *)
Variable statement_text condition_text value_text il_text : Z -> text.
(** the first label of a section; [None]: default *)
Variable case_of : Z -> nat -> option Z.
(** whether a branch or section is the instruction itself, not a block (only for those of one instruction); the label of such a block *)
Variable unwrapped : inst -> bool.
Variable branch_label : list inst -> Z.
Definition lift (f : formatter -> outcome formatter) (s : writer) : outcome writer := g <- f (snd s) ;; Ret (fst s, g).
Definition line (t : text) (s : writer) : writer := (fst s, AppendLine env (snd s) t).
(** 260-264 *)
Definition leave_text (k : Z) : text := T "leaveBlock" ++ print_d k.
Definition is_bare (t : list inst) : bool := match t with [i] => unwrapped i | _ => false end.
(** 366-384, the label of a block *)
Definition AddLabelIfNeeded (l : Z) (code : list inst) (s : writer) : writer :=
  if onNewline (snd s) && label_printed l code then line (T ":") (say (il_text l) s) else s.
Section Write.
Variable write : inst -> writer -> outcome writer.
(** 317-340 *)
Definition write_code (code : list inst) (s : writer) : outcome writer :=
  each (fun _ i s =>
    s <- (if onNewline (snd s) then lift (fun f => AppendIndented f []) s else Ret s) ;;
    s <- write i s ;;
    let s := if CharactersAddedToLine (snd s) then say (T ";") s else s in
    Ret (line [] s)) 0 code s.
Definition WriteBlock (l : Z) (code : list inst) (s : writer) : outcome writer := write_code code (AddLabelIfNeeded l code s).
(** AcceptVisitor on a branch of an if or the body of a section *)
Definition accept (t : list inst) (s : writer) : outcome writer :=
  if is_bare t then each (fun _ => write) 0 t s else WriteBlock (branch_label t) t s.
(** 778-787 *)
Definition WriteBlockWithBraces (t : list inst) (s : writer) : outcome writer :=
  s <- lift (AddOpenBrace env) s ;; s <- lift (fun f => AppendIndented f []) s ;;
  s <- accept t s ;;
  let s := if is_bare t then say (T ";") s else s in
  lift (fun f => AddCloseBrace env f false) s.
End Write.
Variable main : Z.
Fixpoint write (e : scopes) (top : Z) (i : inst) (s : writer) {struct i} : outcome writer :=
  match i with
  | Simple m => Ret (say (statement_text m) s)
  | Branch b => Ret (say (il_text (match find_block b e with Some x => block_label x | None => -1 end)) (say (T "goto ") s))   (* 394-399 *)
  | Leave c v =>                                                                                                              (* 979-1000 *)
      if target_label c e =? 0 then
        let s := say (T "return") s in
        Ret (match v with Some v => say (T ")") (say (value_text v) (say (T "(") s)) | None => s end)
      else Ret (say (leave_text top) (say (T "goto ") s))
  | If m t f =>                                                                                                               (* 738-777 *)
      let justCondition := CharactersAddedToLine (snd s) in
      let s := if negb justCondition then say (T "if ") s else s in
      let s := say (condition_text m) (say (T "(") s) in
      if justCondition then
        s <- accept (write e top) t (say (T " ? (") s) ;;
        s <- accept (write e top) f (say (T ") : (") s) ;;
        Ret (say (T ")") (say (T ")") s))
      else
        s <- WriteBlockWithBraces (write e top) t (say (T ")") s) ;;
        match f with [] => Ret s | _ => s <- lift (fun f => AppendIndented f (T "else ")) s ;; WriteBlockWithBraces (write e top) f s end
  | Switch m ss =>                                                                                                            (* 1262-1294 *)
      let s := say (T ")") (say (condition_text m) (say (T "switch(") s)) in
      s <- lift (AddOpenBrace env) s ;;
      s <- each (fun k body s =>
        s <- (match case_of m k with
              | None => lift (fun f => AppendIndented f (T "default")) s
              | Some n => s <- lift (fun f => AppendIndented f (T "case ")) s ;; Ret (say (print_d n) s)
              end) ;;
        let s := line (T ":") s in
        s <- lift (fun f => AppendIndented f []) s ;;
        s <- accept (write e top) body s ;;
        Ret (line (T ";") s)) 0 ss s ;;
      lift (fun f => AddCloseBrace env f false) s
  | Container c bs =>                                                                                                         (* 297-316 *)
      let k := fst s + 1 in
      s <- each (fun _ b s => let 'Block _ l code := b in
        s <- lift (AddOpenBrace env) s ;;
        s <- WriteBlock (write ((c, bs) :: e) k) l code s ;;
        lift (fun f => AddCloseBrace env f false) s) 0 bs (k, snd s) ;;
      Ret (if negb (c =? main) && left c bs then line (T ":") (say (leave_text k) s) else s)
  end.
(** 278-286; called on a new line (CppVisitorBase.cs WriteMethodHeader, AddOpenBrace starts one otherwise) *)
Definition StartMainBlock_text (bs : list block) (f : formatter) : outcome formatter := s <- write [] 0 (Container main bs) (0, f) ;; Ret (snd s).
End Text.
