(** * Specification vocabulary for strings: lists of characters *)
From Verif Require Import Base.

(** Every String has an Int32 length. *)
Definition a_string (s : list Z) : Prop := zlen s <= 2147483647.
Definition no_nul (s : list Z) : Prop := Forall (fun c => c <> 0) s.

(** [s] has the character [c] at index [i]. *)
Definition char_at (s : list Z) (i c : Z) : Prop := exists a b, s = a ++ c :: b /\ zlen a = i.
(** [sub] occurs in [s] at index [i]. *)
Definition occurs_at (s sub : list Z) (i : Z) : Prop := exists a b, s = a ++ sub ++ b /\ zlen a = i.
Definition has_prefix (s p : list Z) : Prop := exists b, s = p ++ b.
Definition has_suffix (s p : list Z) : Prop := exists a, s = a ++ p.

(** [r] is the [n] characters of [s] from index [i] on. *)
Definition is_part (s : list Z) (i n : Z) (r : list Z) : Prop := exists a b, s = a ++ r ++ b /\ zlen a = i /\ zlen r = n.

(** What a search returns: the least (greatest) index with property [P], -1 if there is none. *)
Definition first_index (P : Z -> Prop) (r : Z) : Prop := (P r /\ forall j, P j -> r <= j) \/ (r = -1 /\ forall j, ~ P j).
Definition last_index (P : Z -> Prop) (r : Z) : Prop := (P r /\ forall j, P j -> j <= r) \/ (r = -1 /\ forall j, ~ P j).

(** [r] is [s] without its longest prefix (if [front]) and suffix (if [back]) of characters of [seps]. *)
Definition trimmed (seps : list Z) (front back : bool) (s r : list Z) : Prop :=
  exists pre post, s = pre ++ r ++ post /\ Forall (fun c => In c seps) pre /\ Forall (fun c => In c seps) post /\
    (front = false -> pre = []) /\ (back = false -> post = []) /\
    (front = true -> forall c t, r = c :: t -> ~ In c seps) /\
    (back = true -> forall c t, r = t ++ [c] -> ~ In c seps).

(** The values with the separator between neighbours. *)
Fixpoint joined (sep : list Z) (vs : list (list Z)) : list Z :=
  match vs with
  | [] => []
  | [v] => v
  | v :: vs => v ++ sep ++ joined sep vs
  end.

(** Lexicographic comparison by character number: -1, 0 or 1. *)
Inductive lexicographic : list Z -> list Z -> Z -> Prop :=
| lex_equal : lexicographic [] [] 0
| lex_shorter y b : lexicographic [] (y :: b) (-1)
| lex_longer x a : lexicographic (x :: a) [] 1
| lex_less x y a b : x < y -> lexicographic (x :: a) (y :: b) (-1)
| lex_greater x y a b : y < x -> lexicographic (x :: a) (y :: b) 1
| lex_next x a b r : lexicographic a b r -> lexicographic (x :: a) (x :: b) r.
