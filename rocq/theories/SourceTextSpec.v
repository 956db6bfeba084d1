(** * Specification for C114: how C++ reads the definitions of a source file

    A reader of the lexemes of LexSpec.v: namespaces with definitions of functions and of variables, of which each is a member of the
    class its name is qualified with.  Types and parameters are read as in HeaderTextSpec.v, the bodies, up to the closing brace, as
    in BodyTextSpec.v.  Everything else is not read. *)
From Coq Require Import String.
From Verif Require Import Base FormatterSpec ControlModel LexSpec BodyTextSpec MemberModel HeaderTextModel HeaderTextSpec.
Import ListNotations.
Local Open Scope list_scope.

(** [init]: the constructor called first, and its arguments; the initial value of a variable *)
Inductive definition : Type :=
  | Function (ty : option ctype) (cls name : list Z) (ps : list ctype) (init : option (list Z * list lexeme)) (body : list stmt)
  | Variable_def (ty : ctype) (cls name : list Z) (value : list lexeme).
Definition space : Type := (list Z * list definition)%type.

(** ** The reader *)
Definition block_of (n : nat) (ls : list lexeme) : option (list stmt * list lexeme) :=
  match expect "{" ls with
  | Some r => match statements n r with Some (b, r) => match expect "}" r with Some r => Some (b, r) | None => None end | None => None end
  | None => None
  end.
(** ": name ( arguments )", in constructors *)
Definition initialiser_of (ctor : bool) (ls : list lexeme) : option (option (list Z * list lexeme) * list lexeme) :=
  match expect ":" ls with
  | None => Some (None, ls)
  | Some (x :: r) =>
      match name_of x, expect "(" r with
      | Some w, Some r => if ctor then match parens 0 r with Some (a, r) => Some (Some (w, a), r) | None => None end else None
      | _, _ => None
      end
  | Some [] => None
  end.
(** what follows the type [ty]: class :: name ... *)
Definition rest_of (n : nat) (ty : option ctype) (ls : list lexeme) : option (definition * list lexeme) :=
  match ls with
  | x :: y :: z :: r =>
      match name_of x, is_punct y "::", name_of z with
      | Some c, true, Some w =>
          match call r with
          | Some (ps, r) =>
              let ctor := match ty with None => true | _ => false end in
              if Bool.eqb ctor (same c w) then
                match initialiser_of ctor r with
                | Some (i, r) => match block_of n r with Some (b, r) => Some (Function ty c w ps i b, r) | None => None end
                | None => None
                end
              else None
          | None =>
              match ty, until ";" r with
              | Some ty, Some ([], r) => Some (Variable_def ty c w [], r)
              | Some ty, Some (e :: v, r) => if is_punct e "=" then Some (Variable_def ty c w v, r) else None
              | _, _ => None
              end
          end
      | _, _, _ => None
      end
  | _ => None
  end.
Definition definition_of (n : nat) (ls : list lexeme) : option (definition * list lexeme) :=
  match ls with
  | x :: y :: r =>
      if is_punct y "::" then rest_of n None ls
      else match type_word x with Some w => let (m, r) := marks (y :: r) in rest_of n (Some (mk_ctype w m)) r | None => None end
  | _ => None
  end.
Fixpoint definitions (n : nat) (ls : list lexeme) : option (list definition * list lexeme) :=
  match n with O => None | S n =>
    match expect "}" ls with
    | Some r => Some ([], r)
    | None => match definition_of n ls with Some (d, r) => match definitions n r with Some (ds, r) => Some (d :: ds, r) | None => None end | None => None end
    end
  end.
Fixpoint spaces (n : nat) (ls : list lexeme) : option (list space) :=
  match n with O => None | S n =>
    match ls with
    | [] => Some []
    | x :: y :: z :: r =>
        match is_word x "namespace", name_of y, is_punct z "{" with
        | true, Some v, true => match definitions n r with Some (ds, r) => match spaces n r with Some l => Some ((v, ds) :: l) | None => None end | None => None end
        | _, _, _ => None
        end
    | _ => None
    end
  end.
(** A C++ compiler reads the characters as these definitions. *)
Definition read_as_source (t : list Z) (l : list space) : Prop := exists ls n, divided t ls /\ spaces n ls = Some l.
Definition all_definitions (l : list space) : list (list Z * definition) := flat_map (fun s => map (fun d => (fst s, d)) (snd s)) l.

(** ** What is meant *)
Section Meant.
Variable lower : Z -> bool.
Variable name_text : Z -> list Z.
(** the statements a body stands for, and the constructor called first by a constructor with this body *)
Variable statements_of : Z -> list stmt.
Variable calls : Z -> option (list Z * list lexeme).
Notation sp n := (spelled lower (name_text n)).
Notation ctypes := (ctype_for lower name_text).
(** a static constructor's own return becomes "return (true);" *)
Definition returns_true (b : list stmt) : list stmt := removelast b ++ [SReturn [Punct (T "("); Word (T "true"); Punct (T ")")]].
Definition boolean : ctype := mk_ctype (T "Boolean") [].
Definition defined (cls : Z) (m : member) : list definition :=
  let function ty n ps b := Function ty (sp cls) n ps None (statements_of b) in
  match m with
  | Method mods r n ps (Some b) => [function (Some (ctypes r)) (sp n) (map (param_for lower name_text) ps) b]
  | Method _ _ _ _ None => []
  | Constructor mods ps b =>
      if existsb says_static mods
      then [Function (Some boolean) (sp cls) (sp cls ++ T "_Static") [] None (returns_true (statements_of b));
            Variable_def boolean (sp cls) (sp cls ++ T "_Initilized") [Word (sp cls); Punct (T "::"); Word (sp cls ++ T "_Static"); Punct (T "("); Punct (T ")")]]
      else [Function None (sp cls) (sp cls) (map (param_for lower name_text) ps) (calls b) (statements_of b)]
  | Property mods ty n get set hidden =>
      (match get with Body b => [function (Some (ctypes ty)) (T "get_" ++ name_text n) [] b] | Absent => [] end) ++
      (match set with Body b => [function (Some (mk_ctype (T "void") [])) (T "set_" ++ name_text n) [ctypes ty] b] | Absent => [] end)
  | Field mods const ty names => if existsb says_static mods then map (fun n => Variable_def (ctypes ty) (sp cls) (sp n) []) names else []
  | Operator op r ps b =>
      [function (Some (ctypes r)) (match op with Addition => T "op_Addition" | Subtraction => T "op_Subtraction" | BitwiseAnd => T "op_BitwiseAnd" | OtherOperator _ => [] end) (map (param_for lower name_text) ps) b]
  end.
(** the definitions of the types, which are no enumerations *)
Definition contents (ts : list ttype) : list (list Z * definition) :=
  flat_map (fun t => match c_kind (t_class t) with KEnum => [] | _ => map (fun d => (space_name (t_space t), d)) (flat_map (defined (c_name (t_class t))) (c_members (t_class t))) end) ts.
End Meant.

(** arguments with commas between them *)
Fixpoint joined (l : list (list lexeme)) : list lexeme := match l with [] => [] | [a] => a | a :: l => a ++ Punct (T ",") :: joined l end.

(** ** The program *)
(** Bodies are one block (C114_blocks_refuted). *)
Definition one_block (main : Z) (unwrapped : inst -> bool) (silent : Z -> bool) (bs : list block) : Prop :=
  (exists b, bs = [b]) /\ labels_followed main unwrapped silent (Container main bs).
(** Bodies of static constructors: simple statements and a return, without other blocks (C74); *)
Definition straight (main : Z) (bs : list block) : Prop := exists o ns, bs = [Block o 0 (map ControlModel.Simple ns ++ [Leave main None])].
(** The arguments of an initialiser are expressions: divided before a comma and a parenthesis, with parentheses in pairs. *)
Definition good_argument (t : list Z) (ls : list lexeme) : Prop :=
  (forall c r lr, In c [44; 41] -> divided (c :: r) lr -> divided (t ++ c :: r) (ls ++ lr)) /\
  (forall d r, parens d (ls ++ r) = match parens d r with Some (a, b) => Some (ls ++ a, b) | None => None end).
Section Readable.
Variable main : Z.
Variable unwrapped : inst -> bool.
Variable silent : Z -> bool.
Variable code : Z -> list block.
Variable init_of : Z -> option (bool * Z).   (* 'this' or 'base', the type *)
Variable lower : Z -> bool.
Variable name_text : Z -> list Z.
Notation ok b := (one_block main unwrapped silent (code b)).
(** names of types in definitions of variables must not begin with a lower case letter (C114_lower_refuted) *)
Definition capital (t : cs_type) : Prop := match t with Named _ _ n => spelled lower (name_text n) = name_text n | ArrayOf _ => True | ByReference _ => False end.
Definition definable (absent : absence) (cls : Z) (m : member) : Prop :=
  match m with
  | Method mods r n ps (Some b) => n <> 0 /\ spelled lower (name_text n) <> spelled lower (name_text cls) /\ writable r /\ writable_params ps /\ ok b
  | Method _ _ _ _ None => True
  | Constructor mods ps b =>
      if existsb says_static mods then straight main (code b)
      else writable_params ps /\ ok b /\ match init_of b with Some (this, n) => this = false /\ n <> 0 | None => True end
  | Property mods ty n get set hidden =>
      writable ty /\ match get with Body b => ok b | Absent => absent = NullReference end /\ match set with Body b => ok b | Absent => absent = NullReference end /\
      T "get_" ++ name_text n <> spelled lower (name_text cls) /\ T "set_" ++ name_text n <> spelled lower (name_text cls)
  | Field mods const ty names => existsb says_static mods = true -> writable ty /\ capital ty /\ exists n, names = [n] /\ n <> 0
  | Operator op r ps b => writable_params ps /\ ok b /\ (exists k, (k = KStruct \/ k = KEnum) /\ r = Named k false cls) /\ match op with OtherOperator _ => False | _ => True end /\
      forall s, In s ["op_Addition"; "op_Subtraction"; "op_BitwiseAnd"]%string -> T s <> spelled lower (name_text cls)
  end.
Definition well_defined (absent : absence) (t : ttype) : Prop :=
  match c_kind (t_class t) with
  | KEnum => True
  | _ => (t_space t = [] \/ word_text (t_space t)) /\ c_name (t_class t) <> 0 /\ Forall (definable absent (c_name (t_class t))) (c_members (t_class t))
  end.
End Readable.
