(** * Model of /repo/CppTranslator/Formatter.cs (the translator's output writer)

    C# code: strings are lists of UTF-16 code units, exceptions are .NET's.  Not modelled: the echo to
    the console (EmitToConsole) and the character encoding of the output file. *)
From Verif Require Import Base MemModel.

(** Strings are lists of code units. *)
Definition text := list Z.
(** Characters of the literals the code uses (ASCII codes). *)
Definition c_quote : Z := 34. Definition c_apos : Z := 39. Definition c_backslash : Z := 92.
Definition c_open : Z := 123. Definition c_close : Z := 125. Definition c_semi : Z := 59. Definition c_tab : Z := 9.

(** Environment of the .NET run time: the line separator and the Unicode class of lower case letters. *)
Record dotnet := mk_dotnet { nl : text; IsLower : Z -> bool }.

(** Formatter.cs 28-72: fields; [file]: name of the open output file, [files]: what has been written. *)
Record formatter := mk_formatter {
  buffer : text;            (* stringBuilder *)
  indentLevel : Z;
  onNewline : bool;
  CharactersAddedToLine : bool;
  nameSpace : option text;
  file : option text;
  files : list (text * text) }.
(** Formatter.cs 78-80 *)
Definition new_formatter : formatter := mk_formatter [] 0 false false None None [].

(** Formatter.cs 195-217 *)
Definition Append (f : formatter) (data : text) : formatter :=
  mk_formatter (buffer f ++ data) (indentLevel f) false (match data with [] => CharactersAddedToLine f | _ => true end) (nameSpace f) (file f) (files f).
Definition Append_char (f : formatter) (c : Z) : formatter :=
  mk_formatter (buffer f ++ [c]) (indentLevel f) false true (nameSpace f) (file f) (files f).
(** Formatter.cs 33: 22 tabulators *)
Definition tabs : text := repeat c_tab 22.
(** .NET String.Substring(start, length) *)
Definition Substring (s : text) (start len : Z) : outcome text :=
  _ <- throw_if ((start <? 0) || (len <? 0) || (zlen s <? start + len)) ArgumentOutOfRangeException ;; Ret (take len (drop start s)).
(** Formatter.cs 141-145 *)
Definition Indent (f : formatter) : outcome formatter :=
  t <- Substring tabs 0 (indentLevel f) ;;
  let f := Append f t in
  Ret (mk_formatter (buffer f) (indentLevel f) (onNewline f) false (nameSpace f) (file f) (files f)).
(** Formatter.cs 149-158 *)
Definition set_level (f : formatter) (n : Z) : formatter := mk_formatter (buffer f) n (onNewline f) (CharactersAddedToLine f) (nameSpace f) (file f) (files f).
Definition UpIndent (f : formatter) : formatter := set_level f (indentLevel f + 1).
Definition DownIndent (f : formatter) : formatter := set_level f (indentLevel f - 1).

Section Environment.
Variable env : dotnet.

(** Formatter.cs 276-281 *)
Definition Newline (f : formatter) : formatter :=
  let f := Append f (nl env) in mk_formatter (buffer f) (indentLevel f) true false (nameSpace f) (file f) (files f).
(** Formatter.cs 286-311 *)
Definition AppendLine (f : formatter) (data : text) : formatter := Newline (Append f data).
Definition AppendIndentedLine (f : formatter) (data : text) : outcome formatter := f <- Indent f ;; Ret (AppendLine f data).
Definition AppendIndented (f : formatter) (data : text) : outcome formatter := f <- Indent f ;; Ret (Append f data).
(** Formatter.cs 316-331; openBraceOnNewline is always true (34) *)
Definition AddOpenBrace (f : formatter) : outcome formatter :=
  let f := if negb (onNewline f) then Newline f else f in
  f <- AppendIndentedLine f [c_open] ;; Ret (UpIndent f).
(** Formatter.cs 336-353 *)
Definition AddCloseBrace (f : formatter) (needSemicolon : bool) : outcome formatter :=
  let f := if negb (onNewline f) then Newline f else f in
  let f := DownIndent f in
  f <- AppendIndented f [c_close] ;;
  let f := if needSemicolon then Append f [c_semi] else f in
  Ret (Newline f).

(** Formatter.cs 159-171: "x_" and "this" *)
Definition Prefix : text := [120; 95].
Definition this_text : text := [116; 104; 105; 115].
Definition text_eqb (a b : text) : bool := if list_eq_dec Z.eq_dec a b then true else false.
Definition PrefixName (name : text) : outcome text :=
  match name with
  | [] => Exn IndexOutOfRangeException
  | c :: _ => Ret (if IsLower env c && negb (text_eqb name this_text) then Prefix ++ name else name)
  end.
(** Formatter.cs 176-182: "Void" becomes "void" *)
Definition Void_text : text := [86; 111; 105; 100].
Definition void_text : text := [118; 111; 105; 100].
Definition mangle (name : text) : outcome text := nm <- PrefixName name ;; Ret (if text_eqb nm Void_text then void_text else nm).
Definition AppendName (f : formatter) (name : text) : outcome formatter := nm <- mangle name ;; Ret (Append f nm).
(** Formatter.cs 187-190: without the Void case *)
Definition AppendIndentedName (f : formatter) (name : text) : outcome formatter := nm <- PrefixName name ;; AppendIndented f nm.

(** Formatter.cs 111-118 *)
Definition set_namespace (f : formatter) (n : option text) : formatter := mk_formatter (buffer f) (indentLevel f) (onNewline f) (CharactersAddedToLine f) n (file f) (files f).
Definition CloseNamespace (f : formatter) : outcome formatter :=
  match nameSpace f with
  | Some _ => f <- AddCloseBrace f false ;; Ret (set_namespace f None)
  | None => Ret f
  end.
(** Formatter.cs 85-107: "UNNAMED", "_NS", "namespace " *)
Definition unnamed_text : text := [85; 78; 78; 65; 77; 69; 68].
Definition ns_text : text := [95; 78; 83].
Definition namespace_text : text := [110; 97; 109; 101; 115; 112; 97; 99; 101; 32].
Definition namespace_name (value : text) : text := match value with [] => unnamed_text | _ => value ++ ns_text end.
Definition SetNamespace (f : formatter) (value : text) : outcome formatter :=
  let newNamespace := namespace_name value in
  let opening f := let f := set_namespace f (Some newNamespace) in AddOpenBrace (Append (Append f namespace_text) newNamespace) in
  match nameSpace f with
  | Some old => if text_eqb newNamespace old then Ret f else f <- CloseNamespace f ;; opening f
  | None => opening f
  end.
(** Formatter.cs 132-136: Flush *)
Definition Flush (f : formatter) (name : text) : formatter :=
  mk_formatter [] (indentLevel f) (onNewline f) (CharactersAddedToLine f) (nameSpace f) (file f) (files f ++ [(name, buffer f)]).
(** Formatter.cs 357-366 *)
Definition Close (f : formatter) : outcome formatter :=
  match file f with
  | Some name => f <- CloseNamespace f ;; let f := Flush f name in
                 Ret (mk_formatter (buffer f) (indentLevel f) (onNewline f) (CharactersAddedToLine f) (nameSpace f) None (files f))
  | None => Ret f
  end.
(** Formatter.cs 53-65, 367-371: OutputName = name *)
Definition set_OutputName (f : formatter) (name : text) : outcome formatter :=
  f <- Close f ;; Ret (mk_formatter (buffer f) (indentLevel f) (onNewline f) (CharactersAddedToLine f) (nameSpace f) (Some name) (files f)).

(** Formatter.cs 235-272: what one character is appended as *)
Definition hex_lower (d : Z) : Z := if d <? 10 then 48 + d else 87 + d.
(** String.Format("{0:x}", n): no leading zeros *)
Fixpoint hex_loop (fuel : nat) (n : Z) : text :=
  match fuel with
  | O => []
  | S fuel => if n <? 16 then [hex_lower n] else hex_loop fuel (n / 16) ++ [hex_lower (n mod 16)]
  end.
Definition hex_number (n : Z) : text := hex_loop 8 n.
Definition is_control (c : Z) : bool := (c <=? 31) || ((127 <=? c) && (c <=? 159)).
Definition AppendCharWithControls (f : formatter) (chr : Z) (forString : bool) : outcome formatter :=
  let f := if negb forString then Append f [76; c_apos] else f in
  f <- (if chr =? c_quote then Ret (Append f [c_backslash; c_quote])
        else if chr =? c_backslash then Ret (Append f [c_backslash; c_backslash])
        else if chr =? 7 then Ret (Append f [c_backslash; 97])
        else if chr =? 8 then Ret (Append f [c_backslash; 98])
        else if chr =? 9 then Ret (Append f [c_backslash; 116])
        else if chr =? 13 then Ret (Append f [c_backslash; 114])
        else if chr =? 11 then Ret (Append f [c_backslash; 118])
        else if chr =? 12 then Ret (Append f [c_backslash; 102])
        else if chr =? 10 then Ret (Append f [c_backslash; 110])
        else if chr =? c_apos then Ret (if forString then Append f [c_apos] else Append f [c_backslash; c_apos])
        else if negb (is_control chr) && (32 <=? chr) && (chr <=? 126) then Ret (Append_char f chr)
        else let f := Append f [c_backslash; 117] in
             let num := hex_number chr in
             z <- Substring [48; 48; 48; 48] 0 (4 - zlen num) ;;
             Ret (Append (Append f z) num)) ;;
  Ret (if negb forString then Append f [c_apos] else f).
(** Formatter.cs 221-230 *)
Fixpoint append_chars (f : formatter) (data : text) : outcome formatter :=
  match data with [] => Ret f | c :: data => f <- AppendCharWithControls f c true ;; append_chars f data end.
Definition AppendStringsWithControl (f : formatter) (data : text) : outcome formatter :=
  f <- append_chars (Append f [76; c_quote]) data ;; Ret (Append f [c_quote]).
End Environment.
