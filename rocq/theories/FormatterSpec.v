(** * What the translator's output has to satisfy: the C++ side, independent of Formatter.cs *)
From Coq Require Import String Ascii.
From Verif Require Import Base MemModel.

(** Text of a Coq string literal. *)
Fixpoint T (s : string) : list Z := match s with EmptyString => [] | String c s => Z.of_N (N_of_ascii c) :: T s end.

(** ** C++ literals ([lex.ccon], [lex.string]) *)
Definition simple_escape (e : Z) : option Z :=
  if e =? 39 then Some 39 else if e =? 34 then Some 34 else if e =? 63 then Some 63 else if e =? 92 then Some 92
  else if e =? 97 then Some 7 else if e =? 98 then Some 8 else if e =? 102 then Some 12 else if e =? 110 then Some 10
  else if e =? 114 then Some 13 else if e =? 116 then Some 9 else if e =? 118 then Some 11 else None.
Definition hex_value (c : Z) : option Z :=
  if (48 <=? c) && (c <=? 57) then Some (c - 48)
  else if (97 <=? c) && (c <=? 102) then Some (c - 87)
  else if (65 <=? c) && (c <=? 70) then Some (c - 55) else None.
(** The characters of a literal up to the closing [quote], and the text after it.  [ucn v]: may the
    universal character name \uXXXX with value [v] be used?  (Octal, \x and \U escapes, which the
    translator never writes, are not read.) *)
Fixpoint lex (ucn : Z -> bool) (quote : Z) (t : list Z) : option (list Z * list Z) :=
  let cons v r := match r with Some (vs, rest) => Some (v :: vs, rest) | None => None end in
  match t with
  | [] => None
  | c :: t =>
      if c =? quote then Some ([], t)
      else if c =? 10 then None
      else if c =? 92 then
        match t with
        | [] => None
        | e :: t =>
            match simple_escape e with
            | Some v => cons v (lex ucn quote t)
            | None =>
                if e =? 117 then
                  match t with
                  | h1 :: h2 :: h3 :: h4 :: t =>
                      match hex_value h1, hex_value h2, hex_value h3, hex_value h4 with
                      | Some a, Some b, Some c, Some d =>
                          let v := ((a * 16 + b) * 16 + c) * 16 + d in
                          if ucn v then cons v (lex ucn quote t) else None
                      | _, _, _, _ => None
                      end
                  | _ => None
                  end
                else None
            end
        end
      else cons c (lex ucn quote t)
  end.
(** C++ forbids \u names of surrogate code points ([lex.charset]). *)
Definition surrogate (v : Z) : bool := (55296 <=? v) && (v <=? 57343).
Definition cpp_ucn (v : Z) : bool := negb (surrogate v).
(** A whole wide string literal / wide character literal, and the text after it. *)
Definition read_string (ucn : Z -> bool) (t : list Z) : option (list Z * list Z) :=
  match t with 76 :: 34 :: t => lex ucn 34 t | _ => None end.
Definition read_char (ucn : Z -> bool) (t : list Z) : option (list Z * list Z) :=
  match t with 76 :: 39 :: t => lex ucn 39 t | _ => None end.
Definition code_unit (c : Z) : Prop := 0 <= c <= 65535.

(** ** C++ keywords ([lex.key], C++20, with the alternative tokens) *)
Definition keywords : list (list Z) := map T
  ["alignas"; "alignof"; "and"; "and_eq"; "asm"; "auto"; "bitand"; "bitor"; "bool"; "break"; "case"; "catch"; "char"; "char8_t"; "char16_t"; "char32_t"; "class";
   "compl"; "concept"; "const"; "consteval"; "constexpr"; "constinit"; "const_cast"; "continue"; "co_await"; "co_return"; "co_yield"; "decltype"; "default"; "delete";
   "do"; "double"; "dynamic_cast"; "else"; "enum"; "explicit"; "export"; "extern"; "false"; "float"; "for"; "friend"; "goto"; "if"; "inline"; "int"; "long"; "mutable";
   "namespace"; "new"; "noexcept"; "not"; "not_eq"; "nullptr"; "operator"; "or"; "or_eq"; "private"; "protected"; "public"; "register"; "reinterpret_cast"; "requires";
   "return"; "short"; "signed"; "sizeof"; "static"; "static_assert"; "static_cast"; "struct"; "switch"; "template"; "this"; "thread_local"; "throw"; "true"; "try";
   "typedef"; "typeid"; "typename"; "union"; "unsigned"; "using"; "virtual"; "void"; "volatile"; "wchar_t"; "while"; "xor"; "xor_eq"]%string.

(** ** Braces *)
(** Nesting depth after reading a text from depth [d]; [None]: a brace was closed that was not open. *)
Fixpoint depth (d : Z) (t : list Z) : option Z :=
  match t with
  | [] => Some d
  | c :: t => if c =? 123 then depth (d + 1) t else if c =? 125 then (if d <=? 0 then None else depth (d - 1) t) else depth d t
  end.
Definition balanced (t : list Z) : Prop := depth 0 t = Some 0.
(** A text that leaves every nesting as it was. *)
Definition neutral (t : list Z) : Prop := forall d, 0 <= d -> depth d t = Some d.
Definition no_braces (t : list Z) : Prop := ~ In 123 t /\ ~ In 125 t.

(** ** Calls a client makes on the output writer *)
Inductive call : Type :=
  | Write (t : list Z)              (* Append *)
  | WriteLine (t : list Z)          (* AppendLine *)
  | WriteIndented (t : list Z)      (* AppendIndented *)
  | WriteIndentedLine (t : list Z)  (* AppendIndentedLine *)
  | OpenBlock                       (* AddOpenBrace *)
  | CloseBlock (semicolon : bool)   (* AddCloseBrace *)
  | EnterNamespace (name : list Z)  (* NameSpace = name *)
  | LeaveNamespace.                 (* CloseNamespace *)
(** Nesting: current namespace and number of open blocks, the namespace included.  [None]: a block is
    closed that is not open, or something is to be indented deeper than [limit]. *)
Section Nesting.
Variable limit : Z.
Variable name_of : list Z -> list Z.   (* the C++ name of a namespace *)
Definition nesting : Type := option (list Z) * Z.
Definition open_one (n : nesting) : option nesting := let (s, l) := n in if l <=? limit then Some (s, l + 1) else None.
Definition close_one (n : nesting) : option nesting := let (s, l) := n in if (1 <=? l) && (l - 1 <=? limit) then Some (s, l - 1) else None.
Definition leave (n : nesting) : option nesting :=
  match fst n with Some _ => match close_one n with Some (_, l) => Some (None, l) | None => None end | None => Some n end.
Definition nest (n : nesting) (c : call) : option nesting :=
  match c with
  | Write _ | WriteLine _ => Some n
  | WriteIndented _ | WriteIndentedLine _ => if snd n <=? limit then Some n else None
  | OpenBlock => open_one n
  | CloseBlock _ => close_one n
  | EnterNamespace v =>
      if (match fst n with Some old => if list_eq_dec Z.eq_dec (name_of v) old then true else false | None => false end) then Some n
      else match leave n with Some (_, l) => open_one (Some (name_of v), l) | None => None end
  | LeaveNamespace => leave n
  end.
Fixpoint nest_all (n : nesting) (cs : list call) : option nesting :=
  match cs with [] => Some n | c :: cs => match nest n c with Some n => nest_all n cs | None => None end end.
End Nesting.
Definition call_text (c : call) : list Z :=
  match c with Write t | WriteLine t | WriteIndented t | WriteIndentedLine t => t | EnterNamespace v => v | _ => [] end.
