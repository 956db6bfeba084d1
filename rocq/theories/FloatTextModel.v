(** * Model of floating point text: DoubleValue.cpp 128-170, SingleValue.cpp 135-177

    [f] is the format: Double or Single (the two files have the same text up to the type and the
    conversion specification: %lG or %G).  The C library's [swprintf] (%G) and [swscanf] (%lG, %G) are
    external: modelled from the C standard (7.21.6.1, 7.22.1.3, locale "C") and, where that leaves a
    choice, glibc.  [ws]: iswspace, as in IntModel.v. *)
From Verif Require Import Base IntModel IeeeModel.

(** ** swprintf with %G (external): six significant digits *)
(** [n / d] as [n' / d' * 10 ^ e] with [1 <= n' / d' < 10]; 400 steps are enough for every Double. *)
Fixpoint normalise (fuel : nat) (n d e : Z) : Z * Z * Z :=
  match fuel with
  | O => (n, d, e)
  | S k => if n <? d then normalise k (10 * n) d (e - 1)
           else if 10 * d <=? n then normalise k n (10 * d) (e + 1)
           else (n, d, e)
  end.
(** The integer nearest to [n / d], even in a tie. *)
Definition round_even (n d : Z) : Z :=
  let q := n / d in
  if 2 * (n - q * d) <? d then q
  else if d <? 2 * (n - q * d) then q + 1
  else if Z.even q then q else q + 1.
(** Six digits [m] (100000 <= m <= 999999) and exponent [e]: the number is nearest to [m / 10^5 * 10^e] *)
Definition six_digits (n d : Z) : Z * Z :=
  let '(n, d, e) := normalise 400 n d 0 in
  let m := round_even (n * 100000) d in
  if m =? 1000000 then (100000, e + 1) else (m, e).
Fixpoint strip (s : str) : str :=   (* without zeros at the end *)
  match s with
  | [] => []
  | c :: t => match strip t with [] => if c =? 48 then [] else [c] | u => c :: u end
  end.
Definition zeros (n : Z) : str := repeat 48 (Z.to_nat n).
Definition fraction (s : str) : str := match strip s with [] => [] | u => 46 :: u end.
Definition exponent_text (e : Z) : str :=
  (if e <? 0 then 45 else 43) :: (if Z.abs e <? 10 then [48] else []) ++ print_u (Z.abs e).
Definition print_digits (m e : Z) : str :=
  let ds := print_u m in
  if (-4 <=? e) && (e <? 6) then
    if 0 <=? e then firstn (Z.to_nat (e + 1)) ds ++ fraction (skipn (Z.to_nat (e + 1)) ds)
    else 48 :: 46 :: zeros (- e - 1) ++ strip ds
  else firstn 1 ds ++ fraction (skipn 1 ds) ++ 69 :: exponent_text e.
(** A Single is passed as the Double of the same value. *)
Definition format_G (f : format) (b : Z) : str :=
  (if negative f b then [45] else []) ++
  (if nan f b then [78; 65; 78]        (* NAN *)
   else if is_inf f b then [73; 78; 70]  (* INF *)
   else if mag f b =? 0 then [48]
   else let '(m, e) := six_digits (mag f b) (unit_of f) in print_digits m e).

(** DoubleValue.cpp 128-134, SingleValue.cpp 135-141 (not MINGW): the number of characters, negative
    if the text and its NUL do not fit (C standard); the buffer is written only if they do. *)
Definition FormatString (f : format) (b : Z) (whereSize : Z) : option str :=
  let s := format_G f b in if Z.of_nat (length s) <? whereSize then Some s else None.
(** Object.cpp 38-43: a buffer of 128 characters; a negative length would index before the buffer. *)
Definition Float_ToString (f : format) (b : Z) : outcome str :=
  match FormatString f b 128 with Some s => Ret s | None => UB OutOfBoundsWrite end.

(** ** swscanf with %lG or %G (external) *)
Definition upper (c : Z) : Z := if (97 <=? c) && (c <=? 122) then c - 32 else c.
Fixpoint starts (w s : str) : bool :=
  match w, s with
  | [], _ => true
  | a :: w, c :: s => (a =? upper c) && starts w s
  | _, _ => false
  end.
Fixpoint take_digits (s : str) : str * str :=
  match s with
  | c :: t => if IsDigit c then let '(ds, r) := take_digits t in (c :: ds, r) else ([], s)
  | [] => ([], [])
  end.
Fixpoint number_of (acc : Z) (s : str) : Z := match s with [] => acc | c :: t => number_of (10 * acc + (c - 48)) t end.
Definition scan_exponent (s : str) : Z :=
  match s with
  | c :: t =>
      if upper c =? 69 then
        let '(neg, u) := match t with
          | x :: u => if x =? 45 then (true, u) else if x =? 43 then (false, u) else (false, t)
          | [] => (false, []) end in
        let e := number_of 0 (fst (take_digits u)) in if neg then - e else e
      else 0
  | [] => 0
  end.
Inductive scanned := Decimal (m k : Z) (* m * 10^k *) | Infinite | NotANumber | Hexadecimal (s : str) | NoMatch.
Definition scan_magnitude (s : str) : scanned :=
  if starts [78; 65; 78] s then NotANumber
  else if starts [73; 78; 70; 73; 78; 73; 84; 89] s then Infinite
  else if starts [73; 78; 70; 73] s then NoMatch
  else if starts [73; 78; 70] s then Infinite
  else if starts [48; 88] s then Hexadecimal s
  else
    let '(ip, r) := take_digits s in
    let '(fp, r) := match r with c :: t => if c =? 46 then take_digits t else ([], r) | [] => ([], []) end in
    match ip ++ fp with
    | [] => NoMatch
    | ds => Decimal (number_of 0 ds) (scan_exponent r - Z.of_nat (length fp))
    end.
Fixpoint skip_space (ws : Z -> bool) (s : str) : str :=
  match s with c :: t => if ws c then skip_space ws t else s | [] => [] end.
Definition scan_sign (s : str) : bool * str :=
  match s with
  | c :: t => if c =? 45 then (true, t) else if c =? 43 then (false, t) else (false, s)
  | [] => (false, [])
  end.
Section WithLibrary.
Variable ws : Z -> bool.
Variable hexadecimal : str -> option Z.   (* the magnitude of a number that starts with 0x, not modelled *)
Variable f : format.
(** [None]: nothing was assigned (swscanf does not return 1). *)
Definition swscanf_G (s : str) : option Z :=
  let '(neg, r) := scan_sign (skip_space ws s) in
  match scan_magnitude r with
  | Decimal m k => Some (with_sign f neg (round_mag f (m * 10 ^ Z.max k 0 * unit_of f) (10 ^ Z.max (- k) 0)))
  | Infinite => Some (with_sign f neg (exp_mask f))
  | NotANumber => Some (with_sign f neg (quiet_nan f))
  | Hexadecimal s => match hexadecimal s with Some m => Some (with_sign f neg m) | None => None end
  | NoMatch => None
  end.
(** DoubleValue.cpp 138-142, SingleValue.cpp 145-149: [rtn] is not initialised. *)
Definition Float_Parse (stringToParse : option str) : outcome Z :=
  match stringToParse with
  | None => UB NullDereference
  | Some s => match swscanf_G (s ++ [NUL]) with Some b => Ret b | None => UB UninitialisedRead end
  end.
(** DoubleValue.cpp 157-170, SingleValue.cpp 164-177: line 168 reads [rtn] in any case. *)
Definition Float_TryParseInternal (s : str) : outcome (bool * Z) :=
  '(src, _) <- skip_ws ws (s ++ [NUL]) (Z.of_nat (length s)) ;;
  match swscanf_G src with Some b => Ret (true, b) | None => UB UninitialisedRead end.
(** DoubleValue.cpp 143-151, SingleValue.cpp 150-158.  [None]: the caller's variable is not written. *)
Definition Float_TryParse (source : option str) : outcome (bool * option Z) :=
  match source with
  | None => Ret (false, None)
  | Some s => '(good, v) <- Float_TryParseInternal s ;; Ret (good, Some v)
  end.
End WithLibrary.
