(** * Specification for C96: calls, in C# and in C++ *)
From Verif Require Import Base MemberModel ArgumentModel.

(** The variables hold numbers (values, or addresses of objects and arrays).  A parameter is another name of a variable, or a
    variable of its own. *)
Definition store := Z -> Z.
Inductive cell := Alias (x : Z) | Own (v : Z).
Definition get (s : store) (c : cell) : Z := match c with Alias x => s x | Own v => v end.
Definition set (s : store) (x v : Z) : store := fun y => if y =? x then v else s y.
Fixpoint set_cell (f : list cell) (i : nat) (v : Z) : list cell :=
  match f, i with [], _ => [] | _ :: f, O => Own v :: f | c :: f, S i => c :: set_cell f i v end.
Definition state := (store * list cell)%type.
Definition load (s : state) (p : place) : option Z :=
  match p with Global x => Some (fst s x) | Param i => option_map (get (fst s)) (nth_error (snd s) i) end.
Definition assign (s : state) (p : place) (v : Z) : option state :=
  match p with
  | Global x => Some (set (fst s) x v, snd s)
  | Param i =>
      match nth_error (snd s) i with
      | Some (Alias x) => Some (set (fst s) x v, snd s)
      | Some (Own _) => Some (fst s, set_cell (snd s) i v)
      | None => None
      end
  end.

(** ** C#: `ref`, `out` and `in` parameters are other names of the arguments *)
Definition cs_bind (s : store) (p : param) (x : Z) : cell := match p_mod p with PRef | POut | PIn => Alias x | PNone | PParams => Own (s x) end.
Fixpoint cs_bind_all (s : store) (ps : list param) (xs : list Z) : list cell :=
  match ps, xs with p :: ps, x :: xs => cs_bind s p x :: cs_bind_all s ps xs | _, _ => [] end.
Fixpoint cs_run (s : state) (l : list assignment) : option state :=
  match l with
  | [] => Some s
  | a :: l =>
      match (match src a with Constant z => Some z | Load p => load s p end) with
      | Some v => match assign s (dest a) v with Some s => cs_run s l | None => None end
      | None => None
      end
  end.
Definition cs_call (s : store) (ps : list param) (xs : list Z) (body : list assignment) : option store :=
  option_map fst (cs_run (s, cs_bind_all s ps xs) body).

(** ** C++ *)
Section Cpp.
(** the declared C++ types of the variables *)
Variable global_type : Z -> cpp_type.
(** T& binds to a variable of type T and is another name of it; a parameter of an object type T is initialised by a value of type T. *)
Definition referred (t : cpp_type) : option cpp_type :=
  match rev (suffixes t) with Amp :: r => Some (mk_cpp (base t) (rev r)) | _ => None end.
Inductive binds (s : store) (parameter : cpp_type) (x : Z) : cell -> Prop :=
  | B_reference : referred parameter = Some (global_type x) -> binds s parameter x (Alias x)
  | B_value : referred parameter = None -> parameter = global_type x -> binds s parameter x (Own (s x)).
Inductive binds_all (s : store) : list cpp_type -> list written -> list cell -> Prop :=
  | B_nil : binds_all s [] [] []
  | B_cons p ps x xs c f : binds s p x c -> binds_all s ps xs f -> binds_all s (p :: ps) (Name (Global x) :: xs) (c :: f).
(** The type of a name used in an expression: a reference stands for what it refers to. *)
Definition object_type (t : cpp_type) : cpp_type := match referred t with Some t => t | None => t end.
Definition type_of (ps : list cpp_type) (p : place) : option cpp_type :=
  match p with Global x => Some (global_type x) | Param i => option_map object_type (nth_error ps i) end.
(** An assignment needs equal types; numbers fit variables that are no pointers, and zero fits every pointer. *)
Definition is_pointer (t : cpp_type) : bool := match suffixes t with [] => false | _ => true end.
Definition assignable (ps : list cpp_type) (p : place) (w : written) : Prop :=
  match type_of ps p, w with
  | Some t, Name q => type_of ps q = Some t
  | Some t, Number z => is_pointer t = true -> z = 0
  | None, _ => False
  end.
Inductive runs (ps : list cpp_type) : state -> list (place * written) -> state -> Prop :=
  | R_nil s : runs ps s [] s
  | R_cons s p w l v s' s'' : assignable ps p w -> (match w with Number z => Some z | Name q => load s q end) = Some v ->
      assign s p v = Some s' -> runs ps s' l s'' -> runs ps s ((p, w) :: l) s''.
(** The whole program is accepted and the call leaves [s']. *)
Definition cpp_call (s : store) (ps : list cpp_type) (args : list written) (body : list (place * written)) (s' : store) : Prop :=
  exists f f', binds_all s ps args f /\ runs ps (s, f) body (s', f').
End Cpp.

(** ** C# accepts the program *)
Section Typing.
Variable global_type : Z -> cs_type.
Variable ps : list param.
Definition cs_type_of (p : place) : option cs_type :=
  match p with Global x => Some (global_type x) | Param i => option_map p_type (nth_error ps i) end.
(** Only zero (null, false, ...) is a constant of every type; numbers belong to structs (the primitive types) and enums. *)
Definition takes_number (t : cs_type) : bool := match t with Named KStruct _ _ | Named KEnum _ _ => true | _ => false end.
Definition cs_assignable (a : assignment) : Prop :=
  match cs_type_of (dest a), src a with
  | Some t, Load q => cs_type_of q = Some t
  | Some t, Constant z => takes_number t = true \/ z = 0
  | None, _ => False
  end.
Definition cs_arguments (xs : list Z) : Prop := Forall2 (fun p x => p_type p = global_type x) ps xs.
(** No reference to a reference *)
Fixpoint no_reference (t : cs_type) : Prop := match t with Named _ _ _ => True | ArrayOf e => no_reference e | ByReference _ => False end.
End Typing.
