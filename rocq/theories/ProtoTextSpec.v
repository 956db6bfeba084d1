(** * Specification for C115: how C++ reads the prototypes

    A reader of the lexemes of LexSpec.v: namespaces, using directives, forward declarations of classes and structs, and unscoped
    enums whose enumerators have no value of their own or a decimal one within long long.  Everything else is not read. *)
From Coq Require Import String.
From Verif Require Import Base FormatterSpec IntSpec LexSpec BodyTextSpec MemberModel HeaderTextModel HeaderTextSpec.
From Verif Require EnumModel EnumSpec.
Import ListNotations.
Local Open Scope list_scope.

Inductive pdecl : Type := Forward (k : key) (n : list Z) | Enumeration (n : list Z) (l : list (list Z * Z)).
Inductive pitem : Type := PSpace (n : list Z) (l : list pdecl) | PUsing (n : list Z).

(** ** The reader *)
Definition natural (x : lexeme) : option Z := match x with Number w => EnumSpec.literal w | _ => None end.
(** "name", "name = literal" or "name = - literal"; [follow] is the value of the first form *)
Definition enumerator (follow : Z) (ls : list lexeme) : option (list Z * Z) :=
  match ls with
  | [x] => match name_of x with Some n => Some (n, follow) | None => None end
  | [x; e; y] => if is_punct e "=" then match name_of x, natural y with Some n, Some v => Some (n, v) | _, _ => None end else None
  | [x; e; m; y] => if is_punct e "=" && is_punct m "-" then match name_of x, natural y with Some n, Some v => Some (n, - v) | _, _ => None end else None
  | _ => None
  end.
Fixpoint enumerators (follow : Z) (l : list (list lexeme)) : option (list (list Z * Z)) :=
  match l with
  | [] => Some []
  | a :: l => match enumerator follow a with Some (n, v) => match enumerators (v + 1) l with Some r => Some ((n, v) :: r) | None => None end | None => None end
  end.
Definition pdecl_of (ls : list lexeme) : option (pdecl * list lexeme) :=
  match ls with
  | x :: y :: r =>
      match name_of y with
      | Some n =>
          if is_word x "enum" then
            match expect "{" r with
            | Some r => match until "}" r with
                        | Some (a, r) => match enumerators 0 (match a with [] => [] | _ => split "," a end), expect ";" r with Some l, Some r => Some (Enumeration n l, r) | _, _ => None end
                        | None => None
                        end
            | None => None
            end
          else match (if is_word x "class" then Some Class else if is_word x "struct" then Some Struct else None), expect ";" r with Some k, Some r => Some (Forward k n, r) | _, _ => None end
      | None => None
      end
  | _ => None
  end.
Fixpoint pdecls (n : nat) (ls : list lexeme) : option (list pdecl * list lexeme) :=
  match n with O => None | S n =>
    match expect "}" ls with
    | Some r => Some ([], r)
    | None => match pdecl_of ls with Some (c, r) => match pdecls n r with Some (cs, r) => Some (c :: cs, r) | None => None end | None => None end
    end
  end.
Fixpoint pitems (n : nat) (ls : list lexeme) : option (list pitem) :=
  match n with O => None | S n =>
    let more i r := match pitems n r with Some is => Some (i :: is) | None => None end in
    match ls with
    | [] => Some []
    | x :: y :: z :: r =>
        if is_word x "namespace" then
          match name_of y, is_punct z "{" with Some v, true => match pdecls n r with Some (cs, r) => more (PSpace v cs) r | None => None end | _, _ => None end
        else if is_word x "using" && is_word y "namespace" then match name_of z, expect ";" r with Some v, Some r => more (PUsing v) r | _, _ => None end
        else None
    | _ => None
    end
  end.
(** A C++ compiler reads the characters as these declarations. *)
Definition read_as_prototypes (t : list Z) (its : list pitem) : Prop := exists ls n, divided t ls /\ pitems n ls = Some its.
Definition declared_in (its : list pitem) : list (list Z * pdecl) := flat_map (fun i => match i with PSpace n l => map (fun c => (n, c)) l | PUsing _ => [] end) its.
Definition used_in (its : list pitem) : list (list Z) := flat_map (fun i => match i with PSpace _ _ => [] | PUsing n => [n] end) its.

(** ** What is meant *)
Section Meant.
Variable lower : Z -> bool.
Variable name_text : Z -> list Z.
Variable values : ttype -> list (list Z * EnumModel.init).
Definition own_value (i : EnumModel.init) : option Z := match i with EnumModel.Number v => Some v | _ => None end.
(** classes and interfaces are classes; the members of an enum have its name behind theirs and the values of C# *)
Definition declaration_for (t : ttype) : pdecl :=
  let n := name_text (c_name (t_class t)) in
  match c_kind (t_class t) with
  | KEnum => Enumeration (spelled lower n) (combine (map (fun m => EnumSpec.prefixed lower (fst m) ++ T "_" ++ n) (values t)) (EnumSpec.cs_values 0 (map (fun m => own_value (snd m)) (values t))))
  | KStruct => Forward Struct (spelled lower n)
  | _ => Forward Class (spelled lower n)
  end.
(** The conditions: identifiers; initialisers are literals (C100) *)
Definition plain (i : EnumModel.init) : Prop := match i with EnumModel.NoInit | EnumModel.Number _ => True | _ => False end.
Definition declarable (t : ttype) : Prop :=
  (t_space t = [] \/ word_text (t_space t)) /\ c_name (t_class t) <> 0 /\
  (c_kind (t_class t) = KEnum -> Forall (fun m => word_text (fst m) /\ plain (snd m)) (values t) /\ Forall (fun v => Z.abs v <= 9223372036854775807) (EnumSpec.cs_values 0 (map (fun m => own_value (snd m)) (values t)))).
End Meant.
