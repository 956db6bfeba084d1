(** * Specification vocabulary for TextModel.v *)
From Verif Require Import Base StringSpec.

(** The upper-case hexadecimal digits. *)
Definition hex_digits : list Z := [48; 49; 50; 51; 52; 53; 54; 55; 56; 57; 65; 66; 67; 68; 69; 70].
Definition hex_digit (v : Z) : Z := nth (Z.to_nat v) hex_digits 0.
(** A byte as two digits; a dump puts '-' between the bytes. *)
Definition hex_byte (b : Z) : list Z := [hex_digit (b / 16); hex_digit (b mod 16)].
Definition hex_dump (bytes : list Z) : list Z := joined [45] (map hex_byte bytes).

(** Reading a dump back: the number of a digit, and the bytes of a text. *)
Definition digit_value (c : Z) : option Z :=
  if (48 <=? c) && (c <=? 57) then Some (c - 48) else if (65 <=? c) && (c <=? 70) then Some (c - 55) else None.
Fixpoint read_dump (t : list Z) : option (list Z) :=
  match t with
  | h :: l :: t =>
    match digit_value h, digit_value l with
    | Some h, Some l =>
      match t with
      | [] => Some [16 * h + l]
      | d :: t => if d =? 45 then match read_dump t with Some r => Some (16 * h + l :: r) | None => None end else None
      end
    | _, _ => None
    end
  | _ => None
  end.

(** An enumeration of [s]: before the first character, on character [i], or after the last. *)
Inductive position := Before | On (i : Z) | After.
Definition next (s : list Z) (p : position) : position :=
  match p with
  | Before => if 0 <? zlen s then On 0 else After
  | On i => if i + 1 <? zlen s then On (i + 1) else After
  | After => After
  end.
