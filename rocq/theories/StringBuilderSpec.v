(** * Specification vocabulary for StringBuilder: the text it holds *)
From Verif Require Import Base StringBuilderModel.

(** The characters a builder holds: the first [Length] characters of its buffer. *)
Definition content (b : sb) : list Z := firstn (Z.to_nat (len b)) (mem b).

(** Left-to-right replacement of the non-overlapping occurrences of [old] by [new]: scanning from the
    left, an occurrence is replaced as a whole, any other character is kept. *)
Definition starts_with (p s : list Z) : Prop := exists t, s = p ++ t.
Inductive substituted (old new : list Z) : list Z -> list Z -> Prop :=
| subst_end : substituted old new [] []
| subst_hit s r : substituted old new s r -> substituted old new (old ++ s) (new ++ r)
| subst_skip c s r : ~ starts_with old (c :: s) -> substituted old new s r -> substituted old new (c :: s) (c :: r).
(** The part of [s] from [i], [n] characters long. *)
Definition part (s : list Z) (i n : Z) : list Z := firstn (Z.to_nat n) (skipn (Z.to_nat i) s).

(** ** Histories: the operations a program performs on a builder, and what each does to a plain list
    of characters.  Strings and character arrays are lists of at most 2^31-1 characters. *)
Inductive op :=
| AppendText (t : list Z)                       (* Append(const Char[], n), Append(Int32), Append(Boolean), ... *)
| AppendString (t : list Z) (start count : Z)   (* Append(String, start, count); count < 0: all of it *)
| AppendArray (t : list Z) (start count : Z)    (* Append(Array, start, count) *)
| AppendChar (c n : Z)                          (* Append(Char, n) *)
| AppendNewLine | AppendStringLine (t : list Z) (* AppendLine() and AppendLine(String) *)
| InsertString (i : Z) (t : list Z) (count : Z) (* Insert(i, String, count) *)
| InsertText (i : Z) (t : list Z)               (* Insert(i, Int32), Insert(i, Boolean), ... *)
| InsertArray (i : Z) (t : list Z) (start count : Z)
| RemoveChars (i n : Z) | ClearAll | SetChar (i c : Z)
| ReplaceChar (old new i n : Z) | ReplaceString (old new : list Z) (i n : Z)
| EnsureCap (n : Z) | SetCap (n : Z) | SetLen (n : Z).

(** [s] with [t] put in at position [i]. *)
Definition put_in (i : Z) (t s : list Z) : list Z := firstn (Z.to_nat i) s ++ t ++ skipn (Z.to_nat i) s.
(** The window of an array argument: negative start means 0, negative count means all. *)
Definition window_start (start : Z) : Z := Z.max 0 start.
Definition window_count (t : list Z) (count : Z) : Z := if count <? 0 then zlen t else count.
Definition copies (k : nat) (t : list Z) : list Z := concat (repeat t k).

(** [behaves mx o s r s']: operation [o] on a builder of maximum capacity [mx] holding [s] leaves it
    holding [s'], throwing [e] when [r = Some e] and returning normally when [r = None]. *)
Inductive behaves (mx : Z) : op -> list Z -> option exn -> list Z -> Prop :=
| b_text t s : behaves mx (AppendText t) s None (s ++ t)
| b_text_long t s : mx < zlen s + zlen t -> behaves mx (AppendText t) s (Some ArgumentOutOfRangeException) s
| b_string t i n s : 0 <= i -> i + window_count t n <= zlen t ->
    behaves mx (AppendString t i n) s None (s ++ part t i (window_count t n))
| b_string_bad t i n s : i < 0 \/ zlen t < i + window_count t n \/ mx < zlen s + window_count t n ->
    behaves mx (AppendString t i n) s (Some ArgumentOutOfRangeException) s
| b_array t i n s : window_count t n = 0 \/ window_start i + window_count t n <= zlen t ->
    behaves mx (AppendArray t i n) s None (s ++ part t (window_start i) (window_count t n))
| b_array_bad t i n s : zlen t < window_start i + window_count t n \/ mx < zlen s + window_count t n ->
    behaves mx (AppendArray t i n) s (Some ArgumentOutOfRangeException) s
| b_char c n s : 0 <= n -> behaves mx (AppendChar c n) s None (s ++ repeat c (Z.to_nat n))
| b_char_bad c n s : n < 0 \/ mx < n -> behaves mx (AppendChar c n) s (Some ArgumentOutOfRangeException) s
| b_line s : behaves mx AppendNewLine s None (s ++ [13; 10])
| b_string_line t s : behaves mx (AppendStringLine t) s None (s ++ t ++ [13; 10])
| b_string_line_long t s : mx < zlen s + zlen t -> behaves mx (AppendStringLine t) s (Some ArgumentOutOfRangeException) s
| b_insert_none i t n s : n <= 0 -> behaves mx (InsertString i t n) s None s
| b_insert i t n s : 0 < n -> 0 <= i <= zlen s -> t <> [] ->
    behaves mx (InsertString i t n) s None (put_in i (copies (Z.to_nat n) t) s)
| b_insert_bad i t n s : 0 < n -> zlen s < i \/ t = [] ->
    behaves mx (InsertString i t n) s (Some IndexOutOfRangeException) s
(* the copies that still fit stay in the builder *)
| b_insert_long i t n k s : (k < Z.to_nat n)%nat -> 0 <= i <= zlen s -> t <> [] -> mx < zlen s + Z.of_nat (S k) * zlen t ->
    behaves mx (InsertString i t n) s (Some ArgumentOutOfRangeException) (put_in i (copies k t) s)
| b_insert_text i t s : 0 <= i <= zlen s -> behaves mx (InsertText i t) s None (put_in i t s)
| b_insert_text_bad i t s : zlen s < i -> behaves mx (InsertText i t) s (Some IndexOutOfRangeException) s
| b_insert_text_long i t s : 0 <= i <= zlen s -> mx < zlen s + zlen t ->
    behaves mx (InsertText i t) s (Some ArgumentOutOfRangeException) s
| b_insert_array_none i t j n s : window_count t n = 0 -> behaves mx (InsertArray i t j n) s None s
| b_insert_array i t j n s : 0 <= i <= zlen s -> 0 < window_count t n -> window_start j + window_count t n <= zlen t ->
    behaves mx (InsertArray i t j n) s None (put_in i (part t (window_start j) (window_count t n)) s)
| b_insert_array_bad i t j n s : zlen s < i -> 0 < window_count t n -> window_start j + window_count t n <= zlen t ->
    behaves mx (InsertArray i t j n) s (Some IndexOutOfRangeException) s
| b_insert_array_long i t j n s : zlen t < window_start j + window_count t n \/ mx < zlen s + window_count t n ->
    behaves mx (InsertArray i t j n) s (Some ArgumentOutOfRangeException) s
| b_remove i n s : 0 <= i -> 0 <= n -> i + n <= zlen s ->
    behaves mx (RemoveChars i n) s None (firstn (Z.to_nat i) s ++ skipn (Z.to_nat (i + n)) s)
| b_remove_bad i n s : i < 0 \/ n < 0 \/ zlen s < i + n -> behaves mx (RemoveChars i n) s (Some ArgumentOutOfRangeException) s
| b_clear s : behaves mx ClearAll s None []
| b_set i c a x z : i = zlen a -> behaves mx (SetChar i c) (a ++ x :: z) None (a ++ c :: z)
| b_set_bad i c s : i < 0 \/ zlen s <= i -> behaves mx (SetChar i c) s (Some IndexOutOfRangeException) s
| b_rchar o c i n s : 0 <= i -> 0 <= n -> i + n <= zlen s ->
    behaves mx (ReplaceChar o c i n) s None
      (firstn (Z.to_nat i) s ++ map (fun x => if x =? o then c else x) (part s i n) ++ skipn (Z.to_nat (i + n)) s)
| b_rchar_bad o c i n s : i < 0 \/ n < 0 \/ zlen s < i + n -> behaves mx (ReplaceChar o c i n) s (Some ArgumentOutOfRangeException) s
| b_replace o c i n s r : o <> [] -> 0 <= i -> 0 <= n -> i + n <= zlen s -> substituted o c (part s i n) r ->
    behaves mx (ReplaceString o c i n) s None (firstn (Z.to_nat i) s ++ r ++ skipn (Z.to_nat (i + n)) s)
| b_replace_bad o c i n s : o = [] \/ i < 0 \/ n < 0 \/ zlen s < i + n ->
    behaves mx (ReplaceString o c i n) s (Some ArgumentOutOfRangeException) s
| b_replace_long o c i n s r : substituted o c (part s i n) r -> mx < zlen s - n + zlen r ->
    behaves mx (ReplaceString o c i n) s (Some ArgumentOutOfRangeException) s
| b_ensure n s : 0 <= n -> behaves mx (EnsureCap n) s None s
| b_ensure_bad n s : n < 0 \/ mx < n -> behaves mx (EnsureCap n) s (Some ArgumentOutOfRangeException) s
| b_cap n s : 0 <= n <= mx -> behaves mx (SetCap n) s None s
| b_cap_bad n s : behaves mx (SetCap n) s (Some ArgumentOutOfRangeException) s
| b_len_cut n s : 0 <= n <= zlen s -> behaves mx (SetLen n) s None (firstn (Z.to_nat n) s)
(* growing: the characters added are the subject of C44 *)
| b_len_grow n s x : zlen s <= n <= mx -> zlen x = n - zlen s -> behaves mx (SetLen n) s None (s ++ x)
| b_len_bad n s : n < 0 \/ mx < n -> behaves mx (SetLen n) s (Some ArgumentOutOfRangeException) s.

Inductive history (mx : Z) : list op -> list Z -> list (option exn) -> list Z -> Prop :=
| h_nil s : history mx [] s [] s
| h_cons o os s r s1 rs s2 : behaves mx o s r s1 -> history mx os s1 rs s2 -> history mx (o :: os) s (r :: rs) s2.

(** Arguments a .NET program can pass: strings and arrays have an Int32 length, and Insert positions
    are not negative (negative ones: C42_insert_before_start_refuted). *)
Definition admissible (o : op) : Prop :=
  match o with
  | AppendText t | AppendString t _ _ | AppendArray t _ _ | AppendStringLine t => zlen t <= 2147483647
  | InsertString i t _ | InsertText i t | InsertArray i t _ _ => 0 <= i /\ zlen t <= 2147483647
  | ReplaceString o c _ _ => zlen o <= 2147483647 /\ zlen c <= 2147483647
  | _ => True
  end.
