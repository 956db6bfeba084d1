(** * What an enum means, in C# and in C++ *)
From Coq Require Import String.
From Verif Require Import Base FormatterSpec IntSpec.
Local Open Scope list_scope.

(** C#: a member without value has the value of its predecessor plus one, the first one zero. *)
Fixpoint cs_values (follow : Z) (l : list (option Z)) : list Z :=
  match l with [] => [] | v :: l => let v := match v with Some v => v | None => follow end in v :: cs_values (v + 1) l end.

(** C++: white space separates words; each of [{ } , ; = -] is a token of its own. *)
Fixpoint same (a b : list Z) : bool := match a, b with [], [] => true | x :: a, y :: b => (x =? y) && same a b | _, _ => false end.
Definition blank (c : Z) : bool := (c =? 32) || (c =? 9) || (c =? 10) || (c =? 13).
Definition mark (c : Z) : bool := (c =? 123) || (c =? 125) || (c =? 44) || (c =? 59) || (c =? 61) || (c =? 45).
Fixpoint tokens (s word : list Z) : list (list Z) :=
  let flush := match word with [] => [] | _ => [word] end in
  match s with
  | [] => flush
  | c :: s => if blank c then flush ++ tokens s [] else if mark c then flush ++ [[c]] ++ tokens s [] else tokens s (word ++ [c])
  end.
(** A decimal literal: no leading zero (that would be octal), within long long. *)
Definition literal (w : list Z) : option Z :=
  if negb (same w []) && forallb (fun c => (48 <=? c) && (c <=? 57)) w && (same w [48] || negb (hd 0 w =? 48)) && (decimal_value w <=? 9223372036854775807)
  then Some (decimal_value w) else None.
(** An enumerator: its name, its value if it has none of its own being [follow]. *)
Definition enumerator (follow : Z) (g : list (list Z)) : option (list Z * Z) :=
  match g with
  | [n] => Some (n, follow)
  | [n; e; d] => if same e (T "=") then match literal d with Some v => Some (n, v) | None => None end else None
  | [n; e; m; d] => if same e (T "=") && same m (T "-") then match literal d with Some v => Some (n, - v) | None => None end else None
  | _ => None
  end.
Fixpoint enumerators (follow : Z) (gs : list (list (list Z))) : option (list (list Z * Z)) :=
  match gs with
  | [] => Some []
  | g :: gs => match enumerator follow g with
               | Some (n, v) => match enumerators (v + 1) gs with Some l => Some ((n, v) :: l) | None => None end
               | None => None
               end
  end.
(** The parts between commas. *)
Fixpoint parts (ts : list (list Z)) (part : list (list Z)) : list (list (list Z)) :=
  match ts with [] => [part] | t :: ts => if same t (T ",") then part :: parts ts [] else parts ts (part ++ [t]) end.
(** [enum name { ... };] *)
Definition read_enum (s : list Z) : option (list Z * list (list Z * Z)) :=
  match tokens s [] with
  | k :: n :: b :: rest =>
      match rev rest with
      | w :: c :: body =>
          if same k (T "enum") && same b (T "{") && same c (T "}") && same w (T ";") then
            match enumerators 0 (match body with [] => [] | _ => parts (rev body) [] end) with Some l => Some (n, l) | None => None end
          else None
      | _ => None
      end
  | _ => None
  end.
(** A character of a name. *)
Definition name_char (c : Z) : Prop := blank c = false /\ mark c = false.
(** The C++ names of a type and of the members of an enum. *)
Definition prefixed (lower : Z -> bool) (n : list Z) : list Z :=
  match n with c :: _ => if lower c && negb (same n (T "this")) then T "x_" ++ n else n | [] => [] end.
Definition type_name (lower : Z -> bool) (n : list Z) : list Z := if same (prefixed lower n) (T "Void") then T "void" else prefixed lower n.
Definition member_name (lower : Z -> bool) (enum m : list Z) : list Z := prefixed lower m ++ T "_" ++ enum.
Definition name_text (n : list Z) : Prop := n <> [] /\ Forall name_char n.
