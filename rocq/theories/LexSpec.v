(** * Specification for C111: how C++ divides text into tokens ([lex.pptoken]), by the longest match

    Words (identifiers and keywords: letters, digits, _ and all characters above ASCII), preprocessing numbers, wide string
    literals (FormatterSpec.lex), operators and punctuators with the digraphs.  Comments are not read: a text in which one
    begins has no tokens here.  Not in the fragment: character literals, raw and prefixed literals other than L, trigraphs. *)
From Coq Require Import String.
From Verif Require Import Base IntModel FormatterSpec StatementModel ExprModel.
Import ListNotations.

Inductive lexeme : Type := Word (w : list Z) | Number (w : list Z) | Text (s : list Z) | Punct (p : list Z).
Definition digit (c : Z) : bool := (48 <=? c) && (c <=? 57).
Definition letter (c : Z) : bool := ((65 <=? c) && (c <=? 90)) || ((97 <=? c) && (c <=? 122)) || (c =? 95) || (127 <? c).
Definition word_char (c : Z) : bool := letter c || digit c.
Fixpoint span (p : Z -> bool) (l : list Z) : list Z * list Z :=
  match l with [] => ([], []) | c :: r => if p c then let (a, b) := span p r in (c :: a, b) else ([], l) end.
(** [lex.ppnumber]: digits, letters, periods, and signs after e, E, p, P *)
Fixpoint pp_number (prev : Z) (l : list Z) : list Z * list Z :=
  match l with
  | [] => ([], [])
  | c :: r =>
      if word_char c || (c =? 46) || ((c =? 43) || (c =? 45)) && ((prev =? 101) || (prev =? 69) || (prev =? 112) || (prev =? 80))
      then let (a, b) := pp_number c r in (c :: a, b) else ([], l)
  end.
Definition starts_number (l : list Z) : bool := match l with c :: r => digit c || (c =? 46) && match r with d :: _ => digit d | [] => false end | [] => false end.
(** longest first *)
Definition punctuators : list (list Z) := map T
  ["<=>"; "<<="; ">>="; "->*"; "..."; "::"; ".*"; "->"; "++"; "--"; "<<"; ">>"; "<="; ">="; "=="; "!="; "&&"; "||"; "+="; "-="; "*="; "/="; "%="; "^="; "&="; "|="; "##";
   "<:"; ":>"; "<%"; "%>"; "%:"; "{"; "}"; "["; "]"; "#"; "("; ")"; ";"; ":"; "?"; "."; "~"; "!"; "+"; "-"; "*"; "/"; "%"; "^"; "&"; "|"; "="; "<"; ">"; ","]%string.
Fixpoint strip (p l : list Z) : option (list Z) :=
  match p, l with [], _ => Some l | a :: p, b :: l => if a =? b then strip p l else None | _, [] => None end.
Fixpoint first_match (ps : list (list Z)) (l : list Z) : option (list Z * list Z) :=
  match ps with [] => None | p :: ps => match strip p l with Some r => Some (p, r) | None => first_match ps l end end.
Definition comment (l : list Z) : bool := match l with a :: r => (a =? 47) && match r with b :: _ => (b =? 47) || (b =? 42) | [] => false end | [] => false end.
Definition blank (c : Z) : bool := (c =? 32) || (c =? 9) || (c =? 10) || (c =? 13).
Fixpoint scan (n : nat) (l : list Z) : option (list lexeme) :=
  match n with O => None | S n =>
    let more x r := match scan n r with Some ls => Some (x :: ls) | None => None end in
    match l with
    | [] => Some []
    | c :: r =>
        if blank c then scan n r
        else match read_string cpp_ucn l with
             | Some (s, r) => more (Text s) r
             | None =>
                 if letter c then let (w, r) := span word_char l in more (Word w) r
                 else if starts_number l then let (w, r) := pp_number c l in more (Number w) r
                 else if comment l then None
                 else match first_match punctuators l with Some (p, r) => more (Punct p) r | None => None end
             end
    end
  end.
(** C++ divides the text into these tokens. *)
Definition divided (l : list Z) (ls : list lexeme) : Prop := exists n, scan n l = Some ls.

(** ** What the tokens of ExprModel are in C++ *)
Section Names.
Variable local_text member_text type_text wrap_text : Z -> list Z.
Variable extra : Z -> nat.
Variable contents : Z -> list Z.
Definition prim_word (t : num_type) : list Z :=
  match t with
  | tI1 => T "SByte" | tU1 => T "Byte" | tI2 => T "Int16" | tU2 => T "UInt16" | tI4 => T "Int32" | tU4 => T "UInt32" | tI8 => T "Int64" | tU8 => T "UInt64" | tR4 => T "Single" | tR8 => T "Double"
  end.
Definition qualified (a b : list Z) : list lexeme := [Word a; Punct (T "::"); Word b].
Definition op_punct (o : cpp_op) : list Z :=
  match o with
  | OAdd => T "+" | OSub => T "-" | OMul => T "*" | ODiv => T "/" | ORem => T "%" | OAnd => T "&" | OOr => T "|" | OXor => T "^" | OShl => T "<<" | OShr => T ">>"
  | OEq => T "==" | ONe => T "!=" | OLt => T "<" | OLe => T "<=" | OGt => T ">" | OGe => T ">="
  end.
Definition of_ident (i : ident) : list lexeme :=
  match i with
  | Local v => [Word (local_text v)] | Member f => [Word (member_text f)] | Static t f => qualified (wrap_text t) (member_text f)
  | TypeTag t => [Word (type_text t ++ T "Type")] | GetAs t => [Word (T "get_As" ++ type_text t)] | get_Length => [Word (T "get_Length")] | Address => [Word (T "Address")]
  | MathDivide => qualified (T "Math") (T "Divide") | DoubleModulus => qualified (T "DoubleValue") (T "Modulus")
  | MaxValueOf t => qualified (prim_word t ++ T "Value") (T "MaxValue") | MinValueOf t => qualified (prim_word t ++ T "Value") (T "MinValue")
  end.
Definition of_type (t : type_name) : list lexeme :=
  match t with
  | TPrim t => [Word (prim_word t)] | TNamed t => [Word (type_text t)] | TPointer t => Word (type_text t) :: repeat (Punct (T "*")) (S (extra t)) | TValueOf t => [Word (wrap_text t)]
  | TString => [Word (T "String")] | TArray => [Word (T "Array")] | TDouble => [Word (T "Double")] | TInt64 => [Word (T "Int64")]
  end.
Definition of_token (t : token) : list lexeme :=
  match t with
  | TNum n => [Number (print_u n)] | TStr s => [Text (contents s)] | TNullptr => [Word (T "nullptr")] | TId i => of_ident i | TType t => of_type t | TNew => [Word (T "new")]
  | TLP => [Punct (T "(")] | TRP => [Punct (T ")")] | TComma => [Punct (T ",")] | TQ => [Punct (T "?")] | TColon => [Punct (T ":")] | TArrow => [Punct (T "->")] | TDot => [Punct (T ".")] | TTilde => [Punct (T "~")]
  | TOp o => [Punct (op_punct o)] | TAssign None => [Punct (T "=")] | TAssign (Some o) => [Punct (op_punct o ++ T "=")] | TIncr up => [Punct (if up then T "++" else T "--")]
  end.
(** a name that C++ reads as one word *)
Definition word_text (w : list Z) : Prop := match w with [] => False | c :: _ => letter c = true end /\ Forall (fun c => word_char c = true) w.
Definition good_names : Prop := forall v, word_text (local_text v) /\ word_text (member_text v) /\ word_text (type_text v) /\ word_text (wrap_text v).
(** C54: no surrogates in string constants *)
Definition good_strings : Prop := forall s, Forall code_unit (contents s) /\ Forall (fun c => surrogate c = false) (contents s).
End Names.

(** ** Expressions whose constants are 64 bit integers and in which no number is directly followed by a period *)
Fixpoint ends_with_number (e : expr) : bool :=
  match e with
  | LdcI4' n | LdcI8' n => match constantConversions n with Some _ => false | None => true end
  | LdObj e | BitNot e | CastClass _ e | Assign _ _ e | Compound _ _ e => ends_with_number e
  | _ => false
  end.
Fixpoint separated (e : expr) : Prop :=
  match e with
  | LdcI4' n | LdcI8' n => - 2 ^ 63 <= n < 2 ^ 63
  | LdNull | LdStr _ | LdLoc _ | LdsFlda _ _ | DefaultValue _ _ | PreIncrement _ _ => True
  | LdObj e | ConvTo _ e | BitNot e | CastClass _ e | BoxTo _ e | UnboxAny _ _ e | AddressOf e | LdLen e | CompoundStep e _ => separated e
  | Binary _ _ l r | Comp _ l r | Compound l _ r | Assign l _ r => separated l /\ separated r
  | If c t f => separated c /\ separated t /\ separated f
  | LdFlda e arrow _ => separated e /\ (arrow = false -> ends_with_number e = false)
  | LdElema _ a is => separated a /\ separated_args is
  | NewArr _ a | NewObj _ _ a | CallStatic _ _ a => separated_args a
  | CallInstance e box arrow _ a => separated e /\ separated_args a /\ (arrow = false -> box = None -> ends_with_number e = false)
  end
with separated_args (a : args) : Prop := match a with ANil => True | ACons _ e rest => separated e /\ separated_args rest end.
(** C++ divides the text into the tokens [ts]. *)
Definition spelled (local_text member_text type_text wrap_text : Z -> list Z) (extra : Z -> nat) (contents : Z -> list Z) (l : list Z) (ts : list token) : Prop :=
  divided l (flat_map (of_token local_text member_text type_text wrap_text extra contents) ts).
