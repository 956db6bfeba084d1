(** * Model of /repo/DotNetLibrary/src/StringDotNet.cpp

    A String is the list of its characters ([str], StringBuilderModel.v); its buffer is that list
    followed by a 0, which every constructor in 32-93 ensures (operator new returns zeroed memory).
    Object arguments are modelled by the result of their virtual ToString ([option str], [None] for a
    null reference), character arrays by the list of their elements. *)
From Verif Require Import Base MemModel StringBuilderModel.

(** The C library's character classification, external to /repo; the theorems hold for every one. *)
Record ctype := mk_ctype { iswupper : Z -> bool; iswlower : Z -> bool; iswspace : Z -> bool; towlower : Z -> Z; towupper : Z -> Z }.
(** The "C" locale's. *)
Definition c_locale : ctype := mk_ctype
  (fun c => (65 <=? c) && (c <=? 90)) (fun c => (97 <=? c) && (c <=? 122)) (fun c => (c =? 32) || (9 <=? c) && (c <=? 13))
  (fun c => if (65 <=? c) && (c <=? 90) then c + 32 else c) (fun c => if (97 <=? c) && (c <=? 122) then c - 32 else c).

(** ** Comparison *)
(** StringDotNet.cpp 113-132: the loop, on the memory from the two pointers on *)
Fixpoint compare_loop (ct : ctype) (ignoreCase doOrdinal : bool) (m1 m2 : list Z) (n : nat) {struct n} : outcome Z :=
  match n with
  | O => Ret 0
  | S n =>
    match m1, m2 with
    | x1 :: m1, x2 :: m2 =>
      let c1 := if ignoreCase then towlower ct x1 else x1 in
      let c2 := if ignoreCase then towlower ct x2 else x2 in
      if negb ignoreCase && negb doOrdinal && iswupper ct c1 && iswlower ct c2 then Ret 1
      else if negb ignoreCase && negb doOrdinal && iswupper ct c2 && iswlower ct c1 then Ret (-1)
      else if (c1 =? 0) || negb (c1 =? c2) then Ret (if c2 <? c1 then 1 else if c1 <? c2 then -1 else 0)
      else compare_loop ct ignoreCase doOrdinal m1 m2 n
    | _, _ => UB OutOfBoundsRead
    end
  end.
(** StringDotNet.cpp 107-133; a pointer before the buffer is only dereferenced when [length > 0]. *)
Definition Compare_chars (ct : ctype) (s1 : str) (s1Index : Z) (s2 : str) (s2Index length : Z) (ignoreCase doOrdinal : bool) : outcome Z :=
  if (0 <? length) && ((s1Index <? 0) || (s2Index <? 0)) then UB OutOfBoundsRead
  else compare_loop ct ignoreCase doOrdinal (drop s1Index (buffer s1)) (drop s2Index (buffer s2)) (Z.to_nat length).
(** StringDotNet.cpp 134-136, 137-140, 141-143 and 144-146 *)
Definition Compare (ct : ctype) (s1 s2 : option str) (ignoreCase : bool) : outcome Z :=
  match s1, s2 with Some a, Some b => Compare_chars ct a 0 b 0 (zlen a) ignoreCase false | _, _ => UB NullDereference end.
Definition Compare_part (ct : ctype) (s1 : str) (i1 : Z) (s2 : str) (i2 length : Z) (ignoreCase : bool) : outcome Z :=
  Compare_chars ct s1 i1 s2 i2 length ignoreCase false.
Definition CompareOrdinal (ct : ctype) (s1 s2 : option str) : outcome Z :=
  match s1, s2 with Some a, Some b => Compare_chars ct a 0 b 0 (zlen a) false true | _, _ => UB NullDereference end.
(** StringDotNet.cpp 155-159 *)
Definition CompareTo_string (ct : ctype) (this : str) (s : option str) : outcome Z :=
  match s with None => Ret 1 | Some s => Compare ct (Some this) (Some s) false end.
(** An Object argument: null, a String, or something else. *)
Inductive obj := Null | AString (s : str) | Other.
(** StringDotNet.cpp 147-154: the result of the comparison is dropped. *)
Definition CompareTo_object (ct : ctype) (this : str) (o : obj) : outcome Z :=
  match o with
  | Null => Ret 1
  | Other => Exn ArgumentException
  | AString s => _ <- CompareTo_string ct this (Some s) ;; Ret 0
  end.

(** StringDotNet.cpp 238-246; [same]: the two arguments are one object. *)
Definition op_Inequality (same : bool) (a b : option str) : outcome bool :=
  if same then Ret false else
  match a, b with
  | None, None => Ret false
  | Some a, Some b => if negb (zlen a =? zlen b) then Ret true else e <- wcscmp_eq (buffer a) (buffer b) ;; Ret (negb e)
  | _, _ => Ret true
  end.
(** StringDotNet.cpp 252-254, 265-267 and 247-251, 255-264 *)
Definition String_Equals (same : bool) (a b : option str) : outcome bool := e <- op_Inequality same a b ;; Ret (negb e).
Definition String_Equals_object (same : bool) (a : option str) (o : obj) : outcome bool :=
  match o with AString s => String_Equals same a (Some s) | _ => Ret false end.

(** ** Searching for characters *)
(** [for (index = i; n times; ++index) if (hit(get_Chars(index))) return index; return -1;] *)
Fixpoint scan_up (s : str) (hit : Z -> bool) (i : Z) (n : nat) : outcome (option Z) :=
  match n with
  | O => Ret None
  | S n => c <- String_get_Chars s i ;; if hit c then Ret (Some i) else scan_up s hit (i + 1) n
  end.
Fixpoint scan_down (s : str) (hit : Z -> bool) (i : Z) (n : nat) : outcome (option Z) :=
  match n with
  | O => Ret None
  | S n => c <- String_get_Chars s i ;; if hit c then Ret (Some i) else scan_down s hit (i - 1) n
  end.
Definition or_minus_one (r : option Z) : Z := match r with Some i => i | None => -1 end.

(** StringDotNet.cpp 277-286, 271-273, 274-276 *)
Definition IndexOf_char (s : str) (value startIndex count : Z) : outcome Z :=
  rest <- i32 (zlen s - startIndex) ;;
  _ <- throw_if (rest <? count) ArgumentNullException ;;
  endIndex <- i32 (startIndex + count) ;;
  r <- scan_up s (Z.eqb value) startIndex (Z.to_nat (endIndex - startIndex)) ;; Ret (or_minus_one r).
Definition IndexOf_char_all (s : str) (value : Z) : outcome Z := IndexOf_char s value 0 (zlen s).
Definition IndexOf_char_from (s : str) (value startIndex : Z) : outcome Z :=
  count <- i32 (zlen s - startIndex) ;; IndexOf_char s value startIndex count.
(** StringDotNet.cpp 321-341, for a one-dimensional Char array; an empty array never evaluates get_Chars. *)
Definition IndexOfAny (s : str) (arr : option (list Z)) (startIndex count : Z) : outcome Z :=
  match arr with
  | None => Exn ArgumentNullException
  | Some arr =>
    _ <- throw_if ((startIndex <? 0) || (count <? 0)) ArgumentNullException ;;
    _ <- throw_if (zlen s - startIndex <? count) ArgumentNullException ;;
    match arr with
    | [] => Ret (-1)
    | _ => r <- scan_up s (fun c => existsb (Z.eqb c) arr) startIndex (Z.to_nat count) ;; Ret (or_minus_one r)
    end
  end.
(** StringDotNet.cpp 417-428 (default arguments -1, -1) *)
Definition LastIndexOf_char (s : str) (value startIndex count : Z) : outcome Z :=
  let startIndex := if startIndex <? 0 then zlen s - 1 else startIndex in
  count <- (if count <? 0 then i32 (startIndex + 1) else Ret count) ;;
  endIndex <- i32 (startIndex - count) ;;
  r <- scan_down s (Z.eqb value) startIndex (Z.to_nat (startIndex - endIndex)) ;; Ret (or_minus_one r).
(** StringDotNet.cpp 447-467, for a one-dimensional Char array *)
Definition LastIndexOfAny (s : str) (arr : option (list Z)) (startIndex count : Z) : outcome Z :=
  match arr with
  | None => Exn ArgumentNullException
  | Some arr =>
    let startIndex := if startIndex <? 0 then zlen s - 1 else startIndex in
    count <- (if count <? 0 then i32 (startIndex + 1) else Ret count) ;;
    endIndex <- i32 (startIndex - count) ;;
    match arr with
    | [] => Ret (-1)
    | _ => r <- scan_down s (fun c => existsb (Z.eqb c) arr) startIndex (Z.to_nat (startIndex - endIndex)) ;; Ret (or_minus_one r)
    end
  end.

(** ** Searching for strings *)
(** The C string at a pointer: the characters before the first 0 (C library, external). *)
Fixpoint cstr (m : list Z) : outcome (list Z) :=
  match m with
  | [] => UB OutOfBoundsRead
  | c :: t => if c =? 0 then Ret [] else r <- cstr t ;; Ret (c :: r)
  end.
Fixpoint is_prefix (p s : list Z) : bool :=
  match p, s with
  | [], _ => true
  | x :: p, y :: s => (x =? y) && is_prefix p s
  | _ :: _, [] => false
  end.
(** wcsstr on C strings: offset of the first occurrence (C library, external). *)
Fixpoint find_sub (s p : list Z) : option Z :=
  if is_prefix p s then Some 0
  else match s with [] => None | _ :: t => match find_sub t p with Some i => Some (i + 1) | None => None end end.
Definition wcsstr (m1 m2 : list Z) : outcome (option Z) := h <- cstr m1 ;; p <- cstr m2 ;; Ret (find_sub h p).

(** StringDotNet.cpp 297-310, 287-291, 292-296 *)
Definition IndexOf_string (s : str) (value : option str) (startIndex count : Z) : outcome Z :=
  match value with
  | None => Exn ArgumentNullException
  | Some value =>
    _ <- throw_if ((startIndex <? 0) || (count <? 0)) ArgumentNullException ;;
    _ <- throw_if (zlen s - startIndex <? count) ArgumentNullException ;;
    found <- wcsstr (drop startIndex (buffer s)) (buffer value) ;;
    match found with
    | None => Ret (-1)
    | Some off => let delta := startIndex + off in Ret (if startIndex + count <? delta then -1 else delta)
    end
  end.
Definition IndexOf_string_all (s : str) (value : option str) : outcome Z := IndexOf_string s value 0 (zlen s).
Definition IndexOf_string_from (s : str) (value : option str) (startIndex : Z) : outcome Z :=
  match value with
  | None => Exn ArgumentNullException
  | Some v => count <- i32 (zlen s - startIndex) ;; IndexOf_string s (Some v) startIndex count
  end.
(** StringDotNet.cpp 437-445: the loop; a pointer outside the buffer is undefined. *)
Fixpoint last_sub_loop (s value : str) (startIndex i : Z) (n : nat) : outcome Z :=
  match n with
  | O => Ret (-1)
  | S n =>
    if (i <? 0) || (zlen s <? i) then UB OutOfBoundsRead else
    found <- wcsstr (drop i (buffer s)) (buffer value) ;;
    match found with
    | Some off => if i + off <=? startIndex then Ret (i + off) else last_sub_loop s value startIndex (i - 1) n
    | None => last_sub_loop s value startIndex (i - 1) n
    end
  end.
(** StringDotNet.cpp 429-446 *)
Definition LastIndexOf_string (s : str) (value : option str) (startIndex count : Z) : outcome Z :=
  match value with
  | None => Exn ArgumentNullException
  | Some value =>
    let startIndex := if startIndex <? 0 then zlen s - 1 else startIndex in
    count <- (if count <? 0 then i32 (startIndex + 1) else Ret count) ;;
    endIndex <- i32 (startIndex - count) ;;
    last_sub_loop s value startIndex startIndex (Z.to_nat (startIndex - endIndex))
  end.

(** ** Functions that go through a StringBuilder *)
(** [StringBuilder sb(this);] with the default capacity (StringBuilder.h 47) *)
Definition builder_of (this : str) : outcome sb := SB_of_string (Some this) DefaultCapacity.

(** StringDotNet.cpp 190-193 *)
Definition Contains (this : str) (sub : option str) : outcome bool :=
  b <- builder_of this ;;
  match sub with
  | None => UB NullDereference
  | Some sub => n <- CountSubStrings b sub 0 (zlen this) ;; Ret (negb (n =? 0))
  end.
(** StringDotNet.cpp 509-521; [same]: the argument is the receiver itself *)
Definition StartsWith (same : bool) (this : str) (what : option str) : outcome bool :=
  match what with
  | None => Exn ArgumentNullException
  | Some what =>
    if same then Ret true else if zlen what =? 0 then Ret true else
    b <- builder_of this ;; n <- CountSubStrings b what 0 (zlen what) ;; Ret (negb (n =? 0))
  end.
(** StringDotNet.cpp 219-231 *)
Definition EndsWith (same : bool) (this : str) (what : option str) : outcome bool :=
  match what with
  | None => Exn ArgumentNullException
  | Some what =>
    if same then Ret true else if zlen what =? 0 then Ret true else
    b <- builder_of this ;; n <- CountSubStrings b what (zlen this - zlen what) (zlen what) ;; Ret (negb (n =? 0))
  end.
(** StringDotNet.cpp 232-237 *)
Definition EndsWith_char (this : str) (what : Z) : outcome bool :=
  let lastPos := zlen this - 1 in
  if lastPos <? 0 then Ret false else c <- read (buffer this) lastPos ;; Ret (c =? what).
(** StringDotNet.cpp 342-350 *)
Definition Insert (this : str) (startIndex : Z) (value : option str) : outcome str :=
  match value with
  | None => Exn ArgumentNullException
  | Some v =>
    _ <- throw_if ((startIndex <? 0) || (zlen this <? startIndex)) ArgumentOutOfRangeException ;;
    b <- builder_of this ;;
    '(b, e) <- SB_Insert b startIndex (Some v) 1 ;;
    match e with Some e => Exn e | None => SB_ToString b end
  end.
(** StringDotNet.cpp 492-498; [tolerant] as in SB_Remove *)
Definition Remove (tolerant : bool) (this : str) (startIndex count : Z) : outcome str :=
  b <- builder_of this ;;
  count <- (if count <? 0 then i32 (zlen this - startIndex) else Ret count) ;;
  b <- SB_Remove tolerant b startIndex count ;; SB_ToString b.
(** StringDotNet.cpp 499-503, 504-508 *)
Definition Replace_char (this : str) (oldChar newChar : Z) : outcome str :=
  b <- builder_of this ;; b <- SB_Replace_char b oldChar newChar 0 (len b) ;; SB_ToString b.
Definition Replace (this : str) (oldValue newValue : option str) : outcome str :=
  b <- builder_of this ;; b <- SB_Replace b oldValue newValue 0 (len b) ;; SB_ToString b.

(** [for (...) sb.Append(Object)] *)
Fixpoint append_objects (b : sb) (values : list (option str)) : outcome sb :=
  match values with [] => Ret b | v :: values => b <- Append_object b v ;; append_objects b values end.
(** StringDotNet.cpp 160-170; GetRawDataType of an Array is ObjectType, so 164-165 never throw. *)
Definition Concat_array (values : option (list (option str))) : outcome str :=
  match values with
  | None => Exn ArgumentNullException
  | Some vs => b <- SB_default ;; b <- append_objects b vs ;; SB_ToString b
  end.
(** StringDotNet.cpp 171-189: null arguments after the first are skipped. *)
Definition Concat_args (o1 : option str) (rest : list (option str)) : outcome str :=
  match o1 with
  | None => Exn ArgumentNullException
  | Some _ =>
    b <- SB_default ;;
    b <- append_objects b (o1 :: filter (fun o => match o with None => false | Some _ => true end) rest) ;;
    SB_ToString b
  end.

(** StringDotNet.cpp 382-387 / 409-414: [sep] appends the separator *)
Fixpoint join_loop (sep : sb -> outcome sb) (isFirst : bool) (b : sb) (values : list (option str)) : outcome sb :=
  match values with
  | [] => Ret b
  | v :: values =>
    b <- (if isFirst then Ret b else sep b) ;;
    b <- Append_object b v ;;
    join_loop sep false b values
  end.
(** StringDotNet.cpp 364-381, 388 / 391-408, 415 *)
Definition join_with (sep : sb -> outcome sb) (values : option (list (option str))) (startIndex count : Z) : outcome str :=
  match values with
  | None => Exn ArgumentNullException
  | Some vs =>
    if zlen vs =? 0 then Ret [] else
    _ <- throw_if (startIndex <? 0) ArgumentNullException ;;
    let count := if count <? 0 then zlen vs - startIndex else count in
    _ <- throw_if (zlen vs - startIndex <? count) ArgumentNullException ;;
    b <- SB_default ;;
    b <- join_loop sep true b (firstn (Z.to_nat count) (skipn (Z.to_nat startIndex) vs)) ;;
    SB_ToString b
  end.
(** StringDotNet.cpp 363-389, 390-416 *)
Definition Join_char (separator : Z) := join_with (fun b => Append_char b separator 1).
Definition Join_string (separator : option str) := join_with (fun b => Append_string b separator 0 (-1)).

(** StringDotNet.cpp 468-479, 480-491; [length + width] is the capacity *)
Definition PadLeft (this : str) (width chr : Z) : outcome str :=
  _ <- throw_if (width <? 0) ArgumentOutOfRangeException ;;
  let count := width - zlen this in
  if count <=? 0 then Ret this else
  c <- i32 (zlen this + width) ;; b <- SB_capacity c ;;
  b <- Append_char b chr count ;; b <- Append_string b (Some this) 0 (-1) ;; SB_ToString b.
Definition PadRight (this : str) (width chr : Z) : outcome str :=
  _ <- throw_if (width <? 0) ArgumentOutOfRangeException ;;
  let count := width - zlen this in
  if count <=? 0 then Ret this else
  c <- i32 (zlen this + width) ;; b <- SB_capacity c ;;
  b <- Append_string b (Some this) 0 (-1) ;; b <- Append_char b chr count ;; SB_ToString b.

(** ** Substring, Trim, copies *)
(** StringDotNet.cpp 522-542 (default length -1) *)
Definition Substring (this : str) (startIndex length : Z) : outcome str :=
  _ <- throw_if (startIndex <? 0) ArgumentOutOfRangeException ;;
  _ <- throw_if (zlen this <? startIndex) ArgumentOutOfRangeException ;;
  let length := if length <? 0 then zlen this - startIndex else length in
  _ <- throw_if (zlen this - length <? startIndex) ArgumentOutOfRangeException ;;
  if length =? 0 then Ret []
  else if (startIndex =? 0) && (length =? zlen this) then Ret this
  else String_from (buffer this) startIndex length.

(** StringDotNet.cpp 27-30 *)
Definition WhiteSpaceChars : list Z :=
  [9; 10; 11; 12; 13; 32; 160; 8192; 8193; 8194; 8195; 8196; 8197; 8198; 8199; 8200; 8201; 8202; 8203; 12288; 65279].
(** StringDotNet.cpp 645-651 *)
Definition IsWhiteSpace (value : Z) (separators : list Z) : bool := existsb (Z.eqb value) separators.
(** StringDotNet.cpp 625-644 *)
Definition TrimHelper (this : str) (seps : list Z) (trimStart trimEnd : bool) : outcome str :=
  start <- (if trimStart then
              r <- scan_up this (fun c => negb (IsWhiteSpace c seps)) 0 (length this) ;;
              Ret (match r with Some i => i | None => zlen this end)
            else Ret 0) ;;
  end_ <- (if trimEnd then
             r <- scan_down this (fun c => negb (IsWhiteSpace c seps)) (zlen this - 1) (Z.to_nat (zlen this - start)) ;;
             Ret (match r with Some i => i | None => start - 1 end)
           else Ret (zlen this - 1)) ;;
  String_from (buffer this) start (end_ - start + 1).
(** StringDotNet.cpp 592-624: a null or empty separator array means white space. *)
Definition separators (arr : option (list Z)) : list Z :=
  match arr with None | Some [] => WhiteSpaceChars | Some l => l end.
Definition Trim (this : str) (arr : option (list Z)) : outcome str := TrimHelper this (separators arr) true true.
Definition TrimStart (this : str) (arr : option (list Z)) : outcome str := TrimHelper this (separators arr) true false.
Definition TrimEnd (this : str) (arr : option (list Z)) : outcome str := TrimHelper this (separators arr) false true.

(** StringDotNet.cpp 194-198 *)
Definition String_Copy (s : option str) : outcome str :=
  match s with None => Exn ArgumentNullException | Some s => String_from (buffer s) 0 (zlen s) end.
(** StringDotNet.cpp 199-218: the destination as the list of its characters.  Address of its element
    throws IndexOutOfRange outside the array. *)
Definition CopyTo (this : str) (sourceIndex : Z) (destination : option (list Z)) (destinationIndex count : Z) : outcome (list Z) :=
  match destination with
  | None => Exn ArgumentNullException
  | Some d =>
    _ <- throw_if (count <? 0) ArgumentNullException ;;
    _ <- throw_if (sourceIndex <? 0) ArgumentNullException ;;
    _ <- throw_if (zlen this - sourceIndex <? count) ArgumentNullException ;;
    _ <- throw_if ((zlen d - count <? destinationIndex) || (destinationIndex <? 0)) ArgumentNullException ;;
    src <- String_Address this sourceIndex ;;
    dst <- String_Address d destinationIndex ;;
    x <- memread (buffer this) src count ;; memwrite d dst x
  end.
(** StringDotNet.cpp 543-560: element by element through get_Chars *)
Fixpoint chars_loop (this : str) (i : Z) (n : nat) : outcome (list Z) :=
  match n with O => Ret [] | S n => c <- String_get_Chars this i ;; r <- chars_loop this (i + 1) n ;; Ret (c :: r) end.
Definition ToCharArray (this : str) (startIndex length : Z) : outcome (list Z) :=
  _ <- throw_if (startIndex <? 0) ArgumentOutOfRangeException ;;
  length <- (if length <? 0 then i32 (zlen this - startIndex) else Ret length) ;;
  d <- i32 (zlen this - length) ;;
  _ <- throw_if (d <? startIndex) ArgumentOutOfRangeException ;;
  if length <? 0 then UB OutOfBoundsWrite else chars_loop this startIndex (Z.to_nat length).
(** [for (i = 0; i < n; ++i) block[i] = f(i);] *)
Fixpoint fill_loop (f : Z -> outcome Z) (m : list Z) (i : Z) (n : nat) : outcome (list Z) :=
  match n with O => Ret m | S n => c <- f i ;; m <- write m i c ;; fill_loop f m (i + 1) n end.
(** A new block of [length + 1] characters, filled and terminated: the String on it. *)
Definition fresh_string (f : Z -> outcome Z) (length : Z) : outcome str :=
  size <- i32 (length + 1) ;;
  m <- fill_loop f (repeat 0 (Z.to_nat size)) 0 (Z.to_nat length) ;;
  m <- write m length 0 ;;
  Ret (take length m).
(** StringDotNet.cpp 80-92 *)
Definition String_repeat (chr amount : Z) : outcome str :=
  _ <- throw_if (amount <? 0) ArgumentOutOfRangeException ;;
  if chr =? 0 then _ <- i32 (amount + 1) ;; Ret (repeat 0 (Z.to_nat amount)) else fresh_string (fun _ => Ret chr) amount.
(** StringDotNet.cpp 53-79, for a one-dimensional Char array given by its elements *)
Definition String_of_array (values : option (list Z)) (startIndex length : Z) : outcome str :=
  length <- (if length <? 0 then match values with None => UB NullDereference | Some v => Ret (zlen v) end else Ret length) ;;
  match values with
  | None => Ret []
  | Some v =>
    if length =? 0 then Ret [] else
    let startIndex := if startIndex <? 0 then 0 else startIndex in
    _ <- throw_if (zlen v - startIndex <? length) ArgumentOutOfRangeException ;;
    fresh_string (fun i => j <- i32 (i + startIndex) ;; a <- String_Address v j ;; read v a) length
  end.
(** StringDotNet.cpp 561-571, 578-588: the new String is made by 80-92 with chr 0 *)
Definition ToLower (ct : ctype) (this : str) : outcome str := fresh_string (fun i => c <- read (buffer this) i ;; Ret (towlower ct c)) (zlen this).
Definition ToUpper (ct : ctype) (this : str) : outcome str := fresh_string (fun i => c <- read (buffer this) i ;; Ret (towupper ct c)) (zlen this).
(** StringDotNet.cpp 356-360: the loop *)
Fixpoint space_loop (ct : ctype) (m : list Z) (n : nat) {struct n} : outcome bool :=
  match n with
  | O => Ret true
  | S n => match m with [] => UB OutOfBoundsRead | c :: m => if negb (iswspace ct c) then Ret false else space_loop ct m n end
  end.
(** StringDotNet.cpp 351-353, 354-362 *)
Definition IsNullOrEmpty (s : option str) : bool := match s with None => true | Some s => zlen s =? 0 end.
Definition IsNullOrWhiteSpace (ct : ctype) (s : option str) : outcome bool :=
  if IsNullOrEmpty s then Ret true else match s with None => Ret true | Some s => space_loop ct (buffer s) (length s) end.
