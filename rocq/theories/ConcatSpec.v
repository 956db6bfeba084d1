(** * Specification for C97: what a concatenation means in C#, and what the written text means in C++ *)
From Coq Require Import String.
From Verif Require Import Base MemModel StringBuilderModel StringModel FormatterSpec ConcatModel.

(** Names: letters, digits and underscores, no digit first. *)
Definition lower_letter (c : Z) : bool := (97 <=? c) && (c <=? 122).
Definition name_char (c : Z) : bool := lower_letter c || ((65 <=? c) && (c <=? 90)) || ((48 <=? c) && (c <=? 57)) || (c =? 95).
Definition is_name (n : list Z) : Prop :=
  forallb name_char n = true /\ (exists c n', n = c :: n' /\ (lower_letter c || ((65 <=? c) && (c <=? 90)) || (c =? 95)) = true).
(** The C++ variable of a C# variable. *)
Definition cpp_name (n : list Z) : list Z := match n with c :: _ => if lower_letter c then T "x_" ++ n else n | [] => [] end.

(** ** C#: null is the empty text in a concatenation *)
Section CSharp.
Variable vars : list Z -> option (list Z).
Definition or_empty (v : option (list Z)) : list Z := match v with Some s => s | None => [] end.
Fixpoint meaning (o : operand) : option (list Z) :=
  match o with
  | Null => None
  | Literal s => Some s
  | Variable_ n => vars n
  | ConcatCall l => Some (concat (map (fun a => or_empty (meaning a)) l))
  | ConcatBlock l => Some (concat (map (fun e => match e with StObj_ a => or_empty (meaning a) | _ => [] end) l))
  | Implicit a => meaning a
  end.

(** The operands stored by a block. *)
Definition stored (l : list element) : list operand := flat_map (fun e => match e with StObj_ a => [a] | _ => [] end) l.
(** Concatenations of at most seven operands, the first of which is not null; literals without surrogates (C54) and NUL. *)
Definition fit_list (lo : nat) (l : list operand) : Prop :=
  (lo <= length l <= 7)%nat /\ (exists a l', l = a :: l' /\ meaning a <> None) /\ zlen (concat (map (fun a => or_empty (meaning a)) l)) <= 2147483520.
Inductive fits : operand -> Prop :=
  | F_null : fits Null
  | F_literal s : Forall code_unit s -> Forall (fun c => surrogate c = false) s -> ~ In 0 s -> zlen s < 2147483647 -> fits (Literal s)
  | F_variable n : is_name n -> n <> T "this" -> n <> T "Void" -> fits (Variable_ n)
  | F_call l : fit_list 2 l -> Forall fits l -> fits (ConcatCall l)
  | F_block l : ~ In Other_ l -> fit_list 1 (stored l) -> Forall fits (stored l) -> fits (ConcatBlock l).
End CSharp.

(** ** C++ *)
(** The arguments of a call: the text between the parentheses is cut at the commas outside parentheses and literals. *)
Fixpoint cut (quoted : bool) (d : nat) (cur : list Z) (t : list Z) : option (list (list Z)) :=
  match t with
  | [] => if quoted then None else match d with O => Some [cur] | S _ => None end
  | c :: t =>
      if quoted then
        if c =? 34 then cut false d (cur ++ [c]) t
        else if c =? 92 then match t with [] => None | e :: t => cut true d (cur ++ [c; e]) t end
        else cut true d (cur ++ [c]) t
      else if c =? 34 then cut true d (cur ++ [c]) t
      else if c =? 40 then cut false (S d) (cur ++ [c]) t
      else if c =? 41 then match d with O => None | S d => cut false d (cur ++ [c]) t end
      else if c =? 44 then match d with O => option_map (cons cur) (cut false O [] t) | S _ => cut false d (cur ++ [c]) t end
      else cut false d (cur ++ [c]) t
  end.
Fixpoint strip (t : list Z) : list Z := match t with c :: t' => if c =? 32 then strip t' else t | [] => [] end.
Definition arguments (t : list Z) : option (list (list Z)) := option_map (map strip) (cut false O [] t).

Section Cpp.
Variable vars : list Z -> option (list Z).
(** The value of an expression: null or the text of a String, or the exception thrown.  StringDotNet.h 150: one to seven
    arguments. *)
Inductive evaluates : list Z -> outcome (option (list Z)) -> Prop :=
  | E_null : evaluates (T "nullptr") (Ret None)
  | E_name n : is_name n -> ~ In n keywords -> evaluates n (Ret (vars n))
  | E_literal lit s r : read_string cpp_ucn lit = Some (s, []) -> String_from (s ++ [0]) 0 (-1) = Ret r ->
      evaluates (T "(new String(" ++ lit ++ T "))") (Ret (Some r))
  | E_call body t ts v vs : arguments body = Some (t :: ts) -> (length ts <= 6)%nat ->
      evaluates t (Ret v) -> Forall2 (fun t v => evaluates t (Ret v)) ts vs ->
      evaluates (T "String::Concat(" ++ body ++ T ")") (bind (Concat_args v vs) (fun s => Ret (Some s))).
End Cpp.
