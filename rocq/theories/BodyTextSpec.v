(** * Specification for C112: how C++11 reads the statements of a function's body

    A recursive descent reader of statements on the lexemes of LexSpec.v: blocks, if, switch, goto, return, labels, null
    statements (dropped), and simple statements (everything else up to a semicolon: expressions and declarations; their inside is
    C59's and C111's).  In C++11 a label needs a statement behind it (stmt.label): not a closing brace.  Sub-statements of if and switch
    that are not blocks are outside the fragment and not read. *)
From Coq Require Import String.
From Verif Require Import Base IntModel FormatterSpec ControlModel ControlSpec LexSpec.
Import ListNotations.

Inductive stmt : Type :=
  | SSimple (ls : list lexeme) | SGoto (l : list Z) | SReturn (ls : list lexeme) | SLabel (l : list Z) | SBlock (b : list stmt)
  | SIf (c : list lexeme) (t f : list stmt) | SSwitch (v : list lexeme) (cs : list (list lexeme * list stmt)).
Fixpoint same (a b : list Z) : bool := match a, b with [], [] => true | x :: a, y :: b => (x =? y) && same a b | _, _ => false end.
Definition is_punct (x : lexeme) (s : string) : bool := match x with Punct p => same p (T s) | _ => false end.
Definition is_word (x : lexeme) (s : string) : bool := match x with Word w => same w (T s) | _ => false end.
Definition brace (x : lexeme) : bool := is_punct x "{" || is_punct x "}".
(** the lexemes up to the parenthesis that closes, and the rest *)
Fixpoint parens (d : nat) (ls : list lexeme) : option (list lexeme * list lexeme) :=
  match ls with
  | [] => None
  | x :: r =>
      let more k := match parens k r with Some (a, b) => Some (x :: a, b) | None => None end in
      if brace x then None
      else if is_punct x "(" then more (S d)
      else if is_punct x ")" then match d with O => Some ([], r) | S d => more d end
      else more d
  end.
(** the lexemes up to the punctuator [stop] *)
Fixpoint until (stop : string) (ls : list lexeme) : option (list lexeme * list lexeme) :=
  match ls with
  | [] => None
  | x :: r => if is_punct x stop then Some ([], r) else if brace x then None else match until stop r with Some (a, b) => Some (x :: a, b) | None => None end
  end.
Definition expect (s : string) (ls : list lexeme) : option (list lexeme) := match ls with x :: r => if is_punct x s then Some r else None | [] => None end.
Definition closes (ls : list lexeme) : bool := match ls with [] => true | x :: _ => is_punct x "}" end.
Definition starts_case (x : lexeme) : bool := is_word x "case" || is_word x "default".
(** "( ... ) {" *)
Definition header (ls : list lexeme) : option (list lexeme * list lexeme) :=
  match expect "(" ls with
  | Some r => match parens 0 r with Some (c, r) => match expect "{" r with Some r => Some (c, r) | None => None end | None => None end
  | None => None
  end.
Fixpoint statements (n : nat) (ls : list lexeme) {struct n} : option (list stmt * list lexeme) :=
  match n with O => None | S n =>
    let more s r := match statements n r with Some (ss, r) => Some (s :: ss, r) | None => None end in
    let block r := match statements n r with Some (b, r) => match expect "}" r with Some r => Some (b, r) | None => None end | None => None end in
    let simple := match until ";" ls with Some (a, r) => more (SSimple a) r | None => None end in
    match ls with
    | [] => Some ([], [])
    | x :: r =>
        if is_punct x "}" || starts_case x then Some ([], ls)
        else if is_punct x ";" then statements n r
        else if is_punct x "{" then match block r with Some (b, r) => more (SBlock b) r | None => None end
        else if is_word x "if" then
          match header r with
          | Some (c, r) =>
              match block r with
              | Some (t, r) =>
                  match r with
                  | y :: r' => if is_word y "else" then match expect "{" r' with Some r' => match block r' with Some (f, r') => more (SIf c t f) r' | None => None end | None => None end else more (SIf c t []) r
                  | [] => more (SIf c t []) r
                  end
              | None => None
              end
          | None => None
          end
        else if is_word x "else" then None
        else if is_word x "switch" then
          match header r with
          | Some (v, r) => match cases n r with Some (cs, r) => match expect "}" r with Some r => more (SSwitch v cs) r | None => None end | None => None end
          | None => None
          end
        else if is_word x "goto" then match r with Word l :: y :: r => if is_punct y ";" then more (SGoto l) r else None | _ => None end
        else if is_word x "return" then match until ";" r with Some (a, r) => more (SReturn a) r | None => None end
        else match x, r with
             | Word l, y :: r => if is_punct y ":" then if closes r then None else more (SLabel l) r else simple
             | _, _ => simple
             end
    end
  end
with cases (n : nat) (ls : list lexeme) {struct n} : option (list (list lexeme * list stmt) * list lexeme) :=
  match n with O => None | S n =>
    match ls with
    | x :: r =>
        if starts_case x then
          match until ":" ls with
          | Some (l, r) => if closes r then None else match statements n r with Some (ss, r) => match cases n r with Some (cs, r) => Some ((l, ss) :: cs, r) | None => None end | None => None end
          | None => None
          end
        else Some ([], ls)
    | [] => Some ([], ls)
    end
  end.
(** A C++11 compiler reads the characters as these statements. *)
Definition read_as (t : list Z) (ss : list stmt) : Prop := exists ls n, divided t ls /\ statements n ls = Some (ss, []).

(** ** The pieces of text: divided into [ls], whatever is written behind a closing parenthesis or a semicolon *)
Definition fits (t : list Z) (ls : list lexeme) : Prop := forall c r lr, In c [41; 59] -> divided (c :: r) lr -> divided (t ++ c :: r) (ls ++ lr).
Definition statement_words : list string := ["case"; "default"; "if"; "else"; "switch"; "goto"; "return"]%string.
(** an expression or declaration: begins like none of the statements above, has no braces and no semicolon *)
Definition plain_statement (ls : list lexeme) : Prop :=
  match ls with
  | [] => False
  | x :: r => Forall (fun s => is_word x s = false) statement_words /\ match x, r with Word _, y :: _ => is_punct y ":" = false | _, _ => True end
  end /\ Forall (fun x => brace x = false /\ is_punct x ";" = false) ls.
Definition in_parens (ls : list lexeme) : Prop := forall r, parens 0 (ls ++ Punct (T ")") :: r) = Some (ls, r).
Section Meant.
Variable statement_lex condition_lex value_lex : Z -> list lexeme.
Variable il_text leave_text : Z -> list Z.
Variable case_of : Z -> nat -> option Z.
Definition label_word (l : label) : list Z := match l with IL o => il_text o | LeaveBlock k => leave_text k end.
Definition case_lex (c : option Z) : list lexeme :=
  match c with None => [Word (T "default")] | Some n => Word (T "case") :: (if n <? 0 then [Punct (T "-"); Number (print_u (- n))] else [Number (print_u n)]) end.
(** the statements of ControlModel.v in C++ *)
Fixpoint meant (s : cstmt) : list stmt :=
  match s with
  | CSimple n => match statement_lex n with [] => [] | ls => [SSimple ls] end
  | CGoto l => [SGoto (label_word l)]
  | CReturn v => [SReturn (match v with Some v => Punct (T "(") :: value_lex v ++ [Punct (T ")")] | None => [] end)]
  | CLabel l => [SLabel (label_word l)]
  | CBlock b => [SBlock (flat_map meant b)]
  | CIf n t f => [SIf (condition_lex n) (flat_map meant t) (flat_map meant f)]
  | CSwitch n cs => [SSwitch (condition_lex n) (combine (map (fun k => case_lex (case_of n k)) (seq 0 (length cs))) (map (flat_map meant) cs))]
  end.
End Meant.
(** ** The pieces: line ends, statements, conditions, values, labels *)
Definition good_texts (nl : list Z) (statement_text condition_text value_text il_text : Z -> list Z) (statement_lex condition_lex value_lex : Z -> list lexeme) (case_of : Z -> nat -> option Z) : Prop :=
  (nl <> [] /\ Forall (fun c => blank c = true) nl) /\
  (forall n, (statement_text n = [] /\ statement_lex n = []) \/ (statement_text n <> [] /\ fits (statement_text n) (statement_lex n) /\ plain_statement (statement_lex n))) /\
  (forall n, fits (condition_text n) (condition_lex n) /\ in_parens (condition_lex n)) /\
  (forall v, fits (value_text v) (value_lex v) /\ Forall (fun x => brace x = false /\ is_punct x ";" = false) (value_lex v)) /\
  (forall o, word_text (il_text o) /\ Forall (fun s => is_word (Word (il_text o)) s = false) statement_words) /\
  (forall m k n, case_of m k = Some n -> - 2 ^ 63 <= n < 2 ^ 63).
(** ** Trees in which no block and no branch of an if ends in a label *)
Section Left.
Variable main : Z.
Variable unwrapped : inst -> bool.
(** instructions that write nothing *)
Variable silent : Z -> bool.
(** a container that is left by a goto has a label behind it *)
Definition ends_in_label (i : inst) : bool := match i with Container c bs => negb (c =? main) && existsb (fun b => existsb (leaves c) (block_code b)) bs | _ => false end.
Definition writes (i : inst) : bool := match i with Simple n => negb (silent n) | Container _ [] => false | _ => true end.
(** does the text end in a label, if it did [before] *)
Fixpoint open_end (before : bool) (code : list inst) : bool := match code with [] => before | i :: code => open_end (if writes i then ends_in_label i else before) code end.
Definition branch_closed (t : list inst) : Prop := open_end false t = false \/ match t with [i] => unwrapped i = true | _ => False end.
Fixpoint labels_followed (i : inst) : Prop :=
  match i with
  | If _ t f => branch_closed t /\ branch_closed f /\ Every labels_followed t /\ Every labels_followed f
  | Switch _ ss => Every (Every labels_followed) ss
  | Container _ bs => Every (fun b => let 'Block _ l code := b in open_end (labelled l code) code = false /\ Every labels_followed code) bs
  | _ => True
  end.
End Left.
(** ** Labels and gotos of the statements read *)
Fixpoint label_names (s : stmt) : list (list Z) :=
  match s with SLabel l => [l] | SBlock b => flat_map label_names b | SIf _ t f => flat_map label_names t ++ flat_map label_names f | SSwitch _ cs => flat_map (fun p => flat_map label_names (snd p)) cs | _ => [] end.
Fixpoint goto_names (s : stmt) : list (list Z) :=
  match s with SGoto l => [l] | SBlock b => flat_map goto_names b | SIf _ t f => flat_map goto_names t ++ flat_map goto_names f | SSwitch _ cs => flat_map (fun p => flat_map goto_names (snd p)) cs | _ => [] end.
(** Names of variables, types and wrappers are none of the words statements begin with. *)
Definition no_statement_words (local_text type_text wrap_text : Z -> list Z) : Prop :=
  forall v, Forall (fun s => is_word (Word (local_text v)) s = false /\ is_word (Word (type_text v)) s = false /\ is_word (Word (wrap_text v)) s = false) statement_words.
