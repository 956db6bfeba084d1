(** * Model of /repo/DotNetLibrary/src/StringBuilder.cpp (and of the String constructor it uses)

    A String is the list of its characters; its buffer is that list followed by a 0
    (StringDotNet.cpp 32-93).  Characters are wchar_t numbers.  Memory allocation succeeds and
    returns zeroed memory (PlatformSupport.cpp 33-51). *)
From Verif Require Import Base MemModel.

Definition str := list Z.
Definition buffer (s : str) : list Z := s ++ [0].

(** wcslen of the memory from a pointer on (C library, external). *)
Fixpoint wcslen (m : list Z) : outcome Z :=
  match m with
  | [] => UB OutOfBoundsRead
  | c :: t => if c =? 0 then Ret 0 else n <- wcslen t ;; Ret (n + 1)
  end.

(** StringDotNet.cpp 37-52, for a non-null pointer; [m] is the memory it points to.  The copy loop
    reads exactly [length] characters from [startIndex]. *)
Definition String_from (m : list Z) (startIndex length : Z) : outcome str :=
  length <- (if length <? 0 then wcslen m else Ret length) ;;
  n <- wcslen m ;;
  _ <- throw_if ((startIndex <? 0) || (n <? startIndex)) ArgumentOutOfRangeException ;;
  _ <- i32 (length + 1) ;;
  memread m startIndex length.

(** include/StringBuilder.h 22-34.  [mem] is the block chunkChars points to: internalMemory
    (DefaultCapacity + 1 characters) or a heap block; [internal] tells which. *)
Record sb := mk_sb { internal : bool; mem : list Z; cap : Z; len : Z; maxc : Z }.
Definition set_mem (b : sb) (m : list Z) (l : Z) : sb := mk_sb (internal b) m (cap b) l (maxc b).

(** StringBuilder.h 22-23 *)
Definition DefaultCapacity : Z := 128.
Definition MaximumCapacity : Z := 2147483647.

(** StringBuilder.cpp 81-87 *)
Definition Initialize : sb := mk_sb true (repeat 0 129) DefaultCapacity 0 MaximumCapacity.

(** StringBuilder.cpp 116-143.  The last branch installs internalMemory; it is reached only when
    that is already the current block, because heap blocks have a capacity above 128. *)
Definition set_Capacity (b : sb) (capacity : Z) : outcome sb :=
  _ <- throw_if (capacity <? 0) ArgumentOutOfRangeException ;;
  _ <- throw_if (maxc b <? capacity) ArgumentOutOfRangeException ;;
  _ <- throw_if (negb (internal b) && (capacity <? cap b)) ArgumentOutOfRangeException ;;
  if capacity <=? cap b then Ret (mk_sb (internal b) (mem b) capacity (len b) (maxc b))
  else if DefaultCapacity <? capacity then
    let partial := capacity %c DefaultCapacity in
    let c := (capacity /c DefaultCapacity) * DefaultCapacity in
    c <- (if 0 <? partial then i32 (c + DefaultCapacity) else Ret c) ;;
    size <- i32 (c + 1) ;;
    m <- memcpy (repeat 0 (Z.to_nat size)) 0 (mem b) 0 (len b) ;;
    Ret (mk_sb false m c (len b) (maxc b))
  else Ret (mk_sb true (mem b) capacity (len b) (maxc b)).

(** StringBuilder.cpp 27-48 (and 23-26, which call it); Math::Min at 40 *)
Definition SB_new (capacity maxCapacity : Z) : outcome sb :=
  let b := Initialize in
  _ <- throw_if (maxCapacity <? capacity) ArgumentOutOfRangeException ;;
  _ <- throw_if (maxCapacity <? 1) ArgumentOutOfRangeException ;;
  _ <- throw_if (capacity <? 0) ArgumentOutOfRangeException ;;
  let capacity := if capacity =? 0 then Z.min DefaultCapacity maxCapacity else capacity in
  set_Capacity (mk_sb (internal b) (mem b) (cap b) (len b) maxCapacity) capacity.
Definition SB_default : outcome sb := SB_new DefaultCapacity MaximumCapacity.
Definition SB_capacity (capacity : Z) : outcome sb := SB_new capacity MaximumCapacity.

(** StringDotNet.cpp 102-106: the index of the addressed character. *)
Definition String_Address (s : str) (index : Z) : outcome Z :=
  _ <- throw_if ((index <? 0) || (zlen s <=? index)) IndexOutOfRangeException ;; Ret index.
(** StringDotNet.cpp 99-101 *)
Definition String_get_Chars (s : str) (index : Z) : outcome Z :=
  i <- String_Address s index ;; read (buffer s) i.

(** StringBuilder.cpp 51-75; a null string counts as the empty one. *)
Definition SB_from (value : option str) (startIndex length capacity : Z) : outcome sb :=
  let b := Initialize in
  let value := match value with None => [] | Some s => s end in
  _ <- throw_if (capacity <? 0) ArgumentOutOfRangeException ;;
  _ <- throw_if (length <? 0) ArgumentOutOfRangeException ;;
  _ <- throw_if (startIndex <? 0) ArgumentOutOfRangeException ;;
  _ <- throw_if (zlen value - length <? startIndex) ArgumentOutOfRangeException ;;
  let capacity := if capacity =? 0 then DefaultCapacity else capacity in
  b <- set_Capacity b (Z.max capacity length) ;;
  off <- String_Address value startIndex ;;
  m <- memcpy (mem b) 0 (buffer value) off length ;;
  Ret (set_mem b m length).
(** StringBuilder.cpp 49-50: [value->get_Length()] is evaluated first. *)
Definition SB_of_string (value : option str) (capacity : Z) : outcome sb :=
  match value with
  | None => UB NullDereference
  | Some s => SB_from (Some s) 0 (zlen s) capacity
  end.

(** StringBuilder.cpp 318-326, 315-317 *)
Definition EnsureCapacity (b : sb) (capacity : Z) : outcome sb :=
  _ <- throw_if (capacity <? 0) ArgumentOutOfRangeException ;;
  if cap b <? capacity then set_Capacity b capacity else Ret b.
Definition EnsureRoomFor (b : sb) (amount : Z) : outcome sb :=
  n <- i32 (len b + amount) ;; EnsureCapacity b n.

(** StringBuilder.cpp 91-112 *)
Definition set_Length (b : sb) (newLength : Z) : outcome sb :=
  _ <- throw_if (newLength <? 0) ArgumentOutOfRangeException ;;
  _ <- throw_if (maxc b <? newLength) ArgumentOutOfRangeException ;;
  if newLength =? 0 then
    m <- memset (mem b) 0 0 (cap b) ;; Ret (set_mem b m 0)
  else
    b <- EnsureCapacity b newLength ;;
    delta <- i32 (newLength - len b) ;;
    if delta =? 0 then Ret b
    else
      m <- (if delta <? 0 then memset (mem b) (len b + delta) 0 (- delta) else Ret (mem b)) ;;
      Ret (set_mem b m newLength).

(** StringBuilder.cpp 147-151, 166-171 *)
Definition SB_Address (b : sb) (index : Z) : outcome Z :=
  _ <- throw_if ((index <? 0) || (len b <=? index)) IndexOutOfRangeException ;; Ret index.
Definition SB_get_Chars (b : sb) (index : Z) : outcome Z :=
  i <- SB_Address b index ;; read (mem b) i.
Definition SB_set_Chars (b : sb) (index newChar : Z) : outcome sb :=
  i <- SB_Address b index ;; m <- write (mem b) i newChar ;; Ret (set_mem b m (len b)).

(** memcmp == 0 on a range of the block and a string (C library, external). *)
Fixpoint list_eqb (a b : list Z) : bool :=
  match a, b with
  | [], [] => true
  | x :: a, y :: b => (x =? y) && list_eqb a b
  | _, _ => false
  end.
Definition memcmp_eq (m : list Z) (off : Z) (s : str) : outcome bool :=
  x <- memread m off (zlen s) ;; Ret (list_eqb x s).

(** StringBuilder.cpp 156-163.  The loop runs as long as [i < endIndex]; [fuel] bounds the number of
    iterations, running out of it means that the loop does not end. *)
Fixpoint count_loop (fuel : nat) (m : list Z) (sub : str) (i endIndex amount : Z) : outcome Z :=
  if i <? endIndex then
    match fuel with
    | O => UB NonTermination
    | S fuel =>
      hit <- memcmp_eq m i sub ;;
      if hit : bool then count_loop fuel m sub (i + zlen sub) endIndex (amount + 1)
      else count_loop fuel m sub (i + 1) endIndex amount
    end
  else Ret amount.
(** StringBuilder.cpp 152-165 *)
Definition CountSubStrings (b : sb) (sub : str) (startIndex length : Z) : outcome Z :=
  e1 <- i32 (startIndex + 1) ;;
  e2 <- i32 (e1 + length) ;;
  endIndex <- i32 (e2 - zlen sub) ;;
  count_loop (Z.to_nat (endIndex - startIndex)) (mem b) sub startIndex endIndex 0.

(** StringBuilder.cpp 172-174, 175-181 *)
Definition SB_ToString (b : sb) : outcome str := String_from (mem b) 0 (len b).
Definition SB_ToString_range (b : sb) (startIndex length : Z) : outcome str :=
  _ <- throw_if ((startIndex <? 0) || (len b <=? startIndex)) IndexOutOfRangeException ;;
  e <- i32 (startIndex + length) ;;
  _ <- throw_if (len b <? e) IndexOutOfRangeException ;;
  String_from (drop startIndex (mem b)) 0 length.

(** StringBuilder.cpp 188-203, for a pointer to the [zlen values] characters [values]. *)
Definition Append_at (b : sb) (values : list Z) (where_ : Z) : outcome sb :=
  let where_ := if where_ =? -1 then len b else where_ in
  _ <- throw_if (len b <? where_) IndexOutOfRangeException ;;
  b <- EnsureRoomFor b (zlen values) ;;
  m <- (if negb (where_ =? len b) then memmove_self (mem b) (where_ + zlen values) where_ (len b - where_) else Ret (mem b)) ;;
  m <- memwrite m where_ values ;;
  let l := len b + zlen values in
  m <- write m l 0 ;;
  Ret (set_mem b m l).

(** StringBuilder.cpp 226-230: [text] is what FormatString puts in the 128-character local buffer. *)
Definition Append_value (b : sb) (text : list Z) (index : Z) : outcome sb := Append_at b text index.

(** StringBuilder.cpp 204-225: the characters of a one-dimensional Char array are [values]. *)
Definition Append_array (b : sb) (values : option (list Z)) (startIndex charCount : Z) : outcome sb :=
  match values with
  | None => Ret b
  | Some vs =>
    let startIndex := if startIndex <? 0 then 0 else startIndex in
    let charCount := if charCount <? 0 then zlen vs else charCount in
    if charCount =? 0 then Ret b else
    _ <- throw_if (zlen vs - startIndex <? charCount) ArgumentOutOfRangeException ;;
    x <- memread vs startIndex charCount ;;
    Append_at b x (len b)
  end.

(** StringBuilder.cpp 266-269 *)
Fixpoint append_char_loop (m : list Z) (l value : Z) (n : nat) : outcome (list Z * Z) :=
  match n with
  | O => Ret (m, l)
  | S n => m <- write m l value ;; append_char_loop m (l + 1) value n
  end.
(** StringBuilder.cpp 261-271: the capacity is ensured for [repeatCount], not for the sum. *)
Definition Append_char (b : sb) (value repeatCount : Z) : outcome sb :=
  _ <- throw_if (repeatCount <? 0) ArgumentOutOfRangeException ;;
  b <- EnsureCapacity b repeatCount ;;
  '(m, l) <- append_char_loop (mem b) (len b) value (Z.to_nat repeatCount) ;;
  m <- write m l 0 ;;
  Ret (set_mem b m l).

(** StringBuilder.cpp 272-282 (default arguments: startIndex 0, charCount -1) *)
Definition Append_string (b : sb) (value : option str) (startIndex charCount : Z) : outcome sb :=
  match value with
  | None => UB NullDereference
  | Some s =>
    let charCount := if charCount <? 0 then zlen s else charCount in
    _ <- throw_if (startIndex <? 0) ArgumentOutOfRangeException ;;
    _ <- throw_if (zlen s - charCount <? startIndex) ArgumentOutOfRangeException ;;
    x <- memread (buffer s) startIndex charCount ;;
    Append_at b x (-1)
  end.
(** StringBuilder.cpp 255-257: [text] is the result of the virtual ToString, absent for null. *)
Definition Append_object (b : sb) (text : option str) : outcome sb :=
  match text with None => UB NullDereference | Some s => Append_string b (Some s) 0 (-1) end.

(** StringBuilder.cpp 303-310 *)
Definition AppendLine (b : sb) : outcome sb := b <- Append_char b 13 1 ;; Append_char b 10 1.
Definition AppendLine_string (b : sb) (value : option str) : outcome sb :=
  b <- Append_string b value 0 (-1) ;; AppendLine b.

(** StringBuilder.cpp 311-314 *)
Definition Clear (b : sb) : outcome sb := set_Length b 0.

(** wcscmp of two memories: 0 iff equal up to and including the first 0 (C library, external). *)
Fixpoint wcscmp_eq (m1 m2 : list Z) : outcome bool :=
  match m1, m2 with
  | c1 :: t1, c2 :: t2 => if negb (c1 =? c2) then Ret false else if c1 =? 0 then Ret true else wcscmp_eq t1 t2
  | _, _ => UB OutOfBoundsRead
  end.
(** StringBuilder.cpp 327-331 *)
Definition SB_Equals (b : sb) (other : option sb) : outcome bool :=
  match other with
  | None => Ret false
  | Some o => if negb (cap o =? cap b) || negb (maxc o =? maxc b) then Ret false else wcscmp_eq (mem o) (mem b)
  end.

(** StringBuilder.cpp 332-347.  [tolerant] says whether the platform's memcpy copies overlapping
    ranges like memmove; the C standard leaves that undefined. *)
Definition memcpy_overlap {A} (tolerant : bool) (m : list A) (doff soff n : Z) : outcome (list A) :=
  if tolerant then memmove_self m doff soff n else memcpy_self m doff soff n.
Definition SB_Remove (tolerant : bool) (b : sb) (startIndex length : Z) : outcome sb :=
  _ <- throw_if (length <? 0) ArgumentOutOfRangeException ;;
  _ <- throw_if (startIndex <? 0) ArgumentOutOfRangeException ;;
  _ <- throw_if (len b - startIndex <? length) ArgumentOutOfRangeException ;;
  let howmany := len b - startIndex - length in
  m <- memcpy_overlap tolerant (mem b) startIndex (startIndex + length) howmany ;;
  let l := len b - length in
  m <- write m l 0 ;;
  Ret (set_mem b m l).

(** StringBuilder.cpp 401-406.  A throwing iteration leaves the state of the iterations before it:
    the result is the final state and the exception, if any. *)
Fixpoint insert_loop (b : sb) (index : Z) (s : str) (n : nat) : outcome (sb * option exn) :=
  match n with
  | O => Ret (b, None)
  | S n =>
    match (_ <- String_Address s 0 ;; Append_at b s index) with
    | Ret b' => insert_loop b' index s n
    | Exn e => Ret (b, Some e)
    | UB u => UB u
    end
  end.
Definition SB_Insert (b : sb) (index : Z) (value : option str) (count : Z) : outcome (sb * option exn) :=
  match value with
  | None => if 0 <? count then UB NullDereference else Ret (b, None)
  | Some s => insert_loop b index s (Z.to_nat count)
  end.
(** StringBuilder.cpp 348-359, 382-397, 407-426: the value overloads; [text] as in Append_value. *)
Definition SB_Insert_value (b : sb) (index : Z) (text : list Z) : outcome sb := Append_value b text index.
(** StringBuilder.cpp 360-381, with [values] as in Append_array *)
Definition SB_Insert_array (b : sb) (index : Z) (values : option (list Z)) (startIndex charCount : Z) : outcome sb :=
  match values with
  | None => Ret b
  | Some vs =>
    let startIndex := if startIndex <? 0 then 0 else startIndex in
    let charCount := if charCount <? 0 then zlen vs else charCount in
    if charCount =? 0 then Ret b else
    _ <- throw_if (zlen vs - startIndex <? charCount) ArgumentOutOfRangeException ;;
    x <- memread vs startIndex charCount ;;
    Append_at b x index
  end.

(** StringBuilder.cpp 442-446 *)
Fixpoint replace_char_loop (m : list Z) (oldChar newChar i : Z) (n : nat) : outcome (list Z) :=
  match n with
  | O => Ret m
  | S n =>
    c <- read m i ;;
    m <- (if c =? oldChar then write m i newChar else Ret m) ;;
    replace_char_loop m oldChar newChar (i + 1) n
  end.
(** StringBuilder.cpp 433-448; the UInt32 comparison also rejects negative numbers. *)
Definition SB_Replace_char (b : sb) (oldChar newChar startIndex count : Z) : outcome sb :=
  _ <- throw_if ((startIndex <? 0) || (len b <? startIndex)) ArgumentOutOfRangeException ;;
  _ <- throw_if ((count <? 0) || (len b - count <? startIndex)) ArgumentOutOfRangeException ;;
  m <- replace_char_loop (mem b) oldChar newChar startIndex (Z.to_nat count) ;;
  Ret (set_mem b m (len b)).

(** StringBuilder.cpp 481-493 *)
Fixpoint replace_loop (fuel : nat) (m : list Z) (l : Z) (search replace : str) (i endIndex : Z) : outcome (list Z * Z) :=
  if i <? endIndex then
    match fuel with
    | O => UB NonTermination
    | S fuel =>
      hit <- memcmp_eq m i search ;;
      if hit : bool then
        let delta := zlen replace - zlen search in
        m <- memmove_self m (i + zlen replace) (i + zlen search) (l - i - zlen search) ;;
        let l := l + delta in
        m <- write m l 0 ;;
        m <- memwrite m i replace ;;
        replace_loop fuel m l search replace (i + zlen replace) (endIndex + delta)
      else replace_loop fuel m l search replace (i + 1) endIndex
    end
  else Ret (m, l).
(** StringBuilder.cpp 477-494 *)
Definition ReplaceSubString (b : sb) (search replace : str) (startIndex count : Z) : outcome sb :=
  e1 <- i32 (startIndex + 1) ;;
  e2 <- i32 (e1 + count) ;;
  endIndex <- i32 (e2 - zlen search) ;;
  '(m, l) <- replace_loop (Z.to_nat (endIndex - startIndex)) (mem b) (len b) search replace startIndex endIndex ;;
  Ret (set_mem b m l).
(** StringBuilder.cpp 449-476 *)
Definition SB_Replace (b : sb) (search replace : option str) (startIndex count : Z) : outcome sb :=
  _ <- throw_if ((startIndex <? 0) || (len b <? startIndex)) ArgumentOutOfRangeException ;;
  _ <- throw_if ((count <? 0) || (len b - count <? startIndex)) ArgumentOutOfRangeException ;;
  match search with
  | None => Exn ArgumentOutOfRangeException
  | Some search =>
    _ <- throw_if (zlen search =? 0) ArgumentOutOfRangeException ;;
    let replace := match replace with None => [] | Some r => r end in
    howMany <- CountSubStrings b search startIndex count ;;
    if howMany =? 0 then Ret b else
    let delta := zlen replace - zlen search in
    b <- (if 0 <? delta then n <- i32 (delta * howMany) ;; EnsureRoomFor b n else Ret b) ;;
    ReplaceSubString b search replace startIndex count
  end.
