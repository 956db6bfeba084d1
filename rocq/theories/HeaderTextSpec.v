(** * Specification for C113: how C++ reads the class definitions of a header

    A reader of the lexemes of LexSpec.v: namespaces, using directives, class definitions with their bases, and member declarations
    (data, functions, pure functions, constructors, functions with an empty body), each with its access.  Everything else is not
    read; names may be no keywords.  Names of parameters have no meaning and are dropped. *)
From Coq Require Import String.
From Verif Require Import Base FormatterSpec LexSpec BodyTextSpec MemberModel.
Import ListNotations.
Local Open Scope list_scope.

Inductive access : Type := Public | Private.
Inductive key : Type := Class | Struct.
Inductive mark : Type := Pointer | Reference.
Record ctype := mk_ctype { ct_name : list Z; ct_marks : list mark }.
Inductive cform : Type := Data | Declaration | PureVirtual | EmptyBody.
Record cmember := mk_cmember { cm_access : access; cm_static : bool; cm_virtual : bool; cm_form : cform; cm_type : option ctype; cm_name : list Z; cm_params : list ctype }.
Record cclass := mk_cclass { cc_key : key; cc_name : list Z; cc_bases : list (access * list Z); cc_members : list cmember }.
Inductive item : Type := Space (n : list Z) (l : list cclass) | Using (n : list Z).

(** ** The reader *)
Definition keyword (w : list Z) : bool := existsb (same w) keywords.
Definition name_of (x : lexeme) : option (list Z) := match x with Word w => if keyword w then None else Some w | _ => None end.
Definition type_word (x : lexeme) : option (list Z) := match x with Word w => if keyword w && negb (same w (T "void")) then None else Some w | _ => None end.
Fixpoint split (stop : string) (ls : list lexeme) : list (list lexeme) :=
  match ls with
  | [] => [[]]
  | x :: r => if is_punct x stop then [] :: split stop r else match split stop r with a :: q => (x :: a) :: q | [] => [[x]] end
  end.
Fixpoint all {A B} (f : A -> option B) (l : list A) : option (list B) :=
  match l with [] => Some [] | a :: l => match f a, all f l with Some b, Some bs => Some (b :: bs) | _, _ => None end end.
Fixpoint marks (ls : list lexeme) : list mark * list lexeme :=
  match ls with
  | x :: r =>
      if is_punct x "*" then let (m, r) := marks r in (Pointer :: m, r)
      else if is_punct x "&" then let (m, r) := marks r in (Reference :: m, r)
      else ([], ls)
  | [] => ([], [])
  end.
(** a parameter: its type and its name *)
Definition param_of (ls : list lexeme) : option ctype :=
  match ls with
  | x :: r => match type_word x, marks r with Some w, (m, [y]) => match name_of y with Some _ => Some (mk_ctype w m) | None => None end | _, _ => None end
  | [] => None
  end.
Definition params_of (ls : list lexeme) : option (list ctype) := match ls with [] => Some [] | _ => all param_of (split "," ls) end.
(** "( parameters )" and the rest *)
Definition call (ls : list lexeme) : option (list ctype * list lexeme) :=
  match expect "(" ls with
  | Some r => match until ")" r with Some (a, r) => match params_of a with Some ps => Some (ps, r) | None => None end | None => None end
  | None => None
  end.
Definition form_of (ls : list lexeme) : option cform :=
  match ls with
  | [] => Some Declaration
  | [x; y] => if is_punct x "=" && match y with Number n => same n (T "0") | _ => false end then Some PureVirtual else if is_punct x "{" && is_punct y "}" then Some EmptyBody else None
  | _ => None
  end.
(** decl-specifiers, each at most once *)
Fixpoint specifiers (st vi : bool) (ls : list lexeme) : option (bool * bool * list lexeme) :=
  match ls with
  | x :: r =>
      if is_word x "static" then if st then None else specifiers true vi r
      else if is_word x "virtual" then if vi then None else specifiers st true r
      else Some (st, vi, ls)
  | [] => None
  end.
(** a declared variable: its own * and &, and its name *)
Definition declarator (a : access) (st : bool) (w : list Z) (ls : list lexeme) : option cmember :=
  match marks ls with (m, [y]) => match name_of y with Some n => Some (mk_cmember a st false Data (Some (mk_ctype w m)) n []) | None => None end | _ => None end.
Definition typed (a : access) (st vi : bool) (w : list Z) (r : list lexeme) : option (list cmember) :=
  let (m, q) := marks r in
  match q with
  | y :: q =>
      match name_of y, call q with
      | Some n, Some (ps, q) => match form_of q with Some fm => Some [mk_cmember a st vi fm (Some (mk_ctype w m)) n ps] | None => None end
      | _, _ => if vi then None else all (declarator a st w) (split "," r)
      end
  | [] => None
  end.
(** a member declaration of class [cls] *)
Definition member_of (cls : list Z) (a : access) (ls : list lexeme) : option (list cmember) :=
  match specifiers false false ls with
  | Some (st, vi, x :: r) =>
      match call r with
      | Some (ps, q) =>
          match form_of q with
          | Some fm => if negb st && negb vi && match x with Word w => same w cls | _ => false end then Some [mk_cmember a false false fm None cls ps] else None
          | None => None
          end
      | None => match type_word x with Some w => typed a st vi w r | None => None end
      end
  | _ => None
  end.
Fixpoint access_of (a : access) (ls : list lexeme) : access * list lexeme :=
  match ls with
  | x :: y :: r => if is_word x "public" && is_punct y ":" then access_of Public r else if is_word x "private" && is_punct y ":" then access_of Private r else (a, ls)
  | _ => (a, ls)
  end.
(** the declarations between semicolons *)
Fixpoint body (cls : list Z) (a : access) (l : list (list lexeme)) : option (list cmember) :=
  match l with
  | [] => None
  | [c] => match access_of a c with (_, []) => Some [] | _ => None end
  | c :: l =>
      match access_of a c with
      | (a, []) => body cls a l
      | (a, c) => match member_of cls a c, body cls a l with Some m, Some ms => Some (m ++ ms) | _, _ => None end
      end
  end.
Definition default_access (k : key) : access := match k with Class => Private | Struct => Public end.
Definition base_of (k : key) (ls : list lexeme) : option (access * list Z) :=
  match ls with
  | [x] => match name_of x with Some n => Some (default_access k, n) | None => None end
  | [x; y] => match name_of y with Some n => if is_word x "public" then Some (Public, n) else if is_word x "private" then Some (Private, n) else None | None => None end
  | _ => None
  end.
(** the lexemes up to the brace that closes, and the rest *)
Fixpoint braces (d : nat) (ls : list lexeme) : option (list lexeme * list lexeme) :=
  match ls with
  | [] => None
  | x :: r =>
      let more k := match braces k r with Some (a, b) => Some (x :: a, b) | None => None end in
      if is_punct x "{" then more (S d) else if is_punct x "}" then match d with O => Some ([], r) | S d => more d end else more d
  end.
Definition class_of (ls : list lexeme) : option (cclass * list lexeme) :=
  match ls with
  | x :: y :: r =>
      match (if is_word x "class" then Some Class else if is_word x "struct" then Some Struct else None), name_of y, until "{" r with
      | Some k, Some n, Some (h, r) =>
          match (match h with [] => Some [] | c :: h => if is_punct c ":" then all (base_of k) (split "," h) else None end), braces 0 r with
          | Some bs, Some (b, r) => match body n (default_access k) (split ";" b), expect ";" r with Some ms, Some r => Some (mk_cclass k n bs ms, r) | _, _ => None end
          | _, _ => None
          end
      | _, _, _ => None
      end
  | _ => None
  end.
Fixpoint classes (n : nat) (ls : list lexeme) : option (list cclass * list lexeme) :=
  match n with O => None | S n =>
    match expect "}" ls with
    | Some r => Some ([], r)
    | None => match class_of ls with Some (c, r) => match classes n r with Some (cs, r) => Some (c :: cs, r) | None => None end | None => None end
    end
  end.
Fixpoint items (n : nat) (ls : list lexeme) : option (list item) :=
  match n with O => None | S n =>
    let more i r := match items n r with Some is => Some (i :: is) | None => None end in
    match ls with
    | [] => Some []
    | x :: y :: z :: r =>
        if is_word x "namespace" then
          match name_of y, is_punct z "{" with Some v, true => match classes n r with Some (cs, r) => more (Space v cs) r | None => None end | _, _ => None end
        else if is_word x "using" && is_word y "namespace" then match name_of z, expect ";" r with Some v, Some r => more (Using v) r | _, _ => None end
        else None
    | _ => None
    end
  end.
(** A C++ compiler reads the characters as these definitions. *)
Definition read_as_header (t : list Z) (its : list item) : Prop := exists ls n, divided t ls /\ items n ls = Some its.
(** The classes defined, with their namespaces; the directives, which must come last. *)
Definition defined_in (its : list item) : list (list Z * cclass) := flat_map (fun i => match i with Space n l => map (fun c => (n, c)) l | Using _ => [] end) its.
Definition directives (its : list item) : list (list Z) := flat_map (fun i => match i with Space _ _ => [] | Using n => [n] end) its.

(** ** What is meant *)
Section Meant.
Variable lower : Z -> bool.
Variable name_text : Z -> list Z.
(** x_ before lower case letters; Void is void *)
Definition spelled (n : list Z) : list Z :=
  match n with
  | c :: _ => if lower c && negb (same n (T "this")) then T "x_" ++ n else if same n (T "Void") then T "void" else n
  | [] => []
  end.
(** class types and arrays are pointers, references are to the object itself *)
Definition ctype_for (t : cs_type) : ctype :=
  match t with
  | Named KClass _ n | ByReference (Named KClass _ n) => mk_ctype (spelled (name_text n)) [Pointer]
  | Named _ _ n | ByReference (Named _ _ n) => mk_ctype (spelled (name_text n)) []
  | ArrayOf _ => mk_ctype (T "Array") [Pointer]
  | ByReference _ => mk_ctype [] []
  end.
(** ref parameters are references, out parameters pointers *)
Definition param_for (p : param) : ctype :=
  let t := ctype_for (p_type p) in mk_ctype (ct_name t) (ct_marks t ++ match p_mod p with PRef => [Reference] | POut => [Pointer] | _ => [] end).
Definition says_static (m : modifier) : bool := match m with MStatic => true | _ => false end.
Definition says_virtual (m : modifier) : bool := match m with MAbstract | MVirtual => true | _ => false end.
(** the declarations of a member of class [cls]: static constructors are functions with a flag, properties are functions *)
Definition meaning (cls : Z) (m : member) : list cmember :=
  let member st vi fm ty n ps := mk_cmember Public st vi fm ty n ps in
  let cls := spelled (name_text cls) in
  match m with
  | Method mods r n ps body => [member (existsb says_static mods) (existsb says_virtual mods) (match body with None => PureVirtual | _ => Declaration end) (Some (ctype_for r)) (spelled (name_text n)) (map param_for ps)]
  | Constructor mods ps _ =>
      if existsb says_static mods
      then [member true false Declaration (Some (mk_ctype (T "Boolean") [])) (cls ++ T "_Static") []; member true false Data (Some (mk_ctype (T "Boolean") [])) (cls ++ T "_Initilized") []]
      else [member false false Declaration None cls (map param_for ps)]
  | Property mods ty n get set hidden =>
      (match get with Body _ => [member false false Declaration (Some (ctype_for ty)) (T "get_" ++ name_text n) []] | Absent => [] end) ++
      (match set with Body _ => [member false false Declaration (Some (mk_ctype (T "void") [])) (T "set_" ++ name_text n) [ctype_for ty]] | Absent => [] end) ++
      (if hidden then [member false false Data (Some (ctype_for ty)) (name_text n ++ T "k__BackingField") []] else [])
  | Field mods const ty names => map (fun n => member (existsb says_static mods || const) false Data (Some (ctype_for ty)) (spelled (name_text n)) []) names
  | Operator op r ps _ =>
      [member true false Declaration (Some (ctype_for r)) (match op with Addition => T "op_Addition" | Subtraction => T "op_Subtraction" | BitwiseAnd => T "op_BitwiseAnd" | OtherOperator _ => [] end) (map param_for ps)]
  end.
(** a struct with constructors (of objects) has one without parameters *)
Definition is_ctor (m : member) : bool := match m with Constructor mods _ _ => negb (existsb says_static mods) | _ => false end.
Definition takes_nothing (m : member) : bool := match m with Constructor mods [] _ => negb (existsb says_static mods) | _ => false end.
Definition default_constructor (c : class) : list cmember :=
  match c_kind c with
  | KStruct => if existsb is_ctor (c_members c) && negb (existsb takes_nothing (c_members c)) then [mk_cmember Public false false EmptyBody None (spelled (name_text (c_name c))) []] else []
  | _ => []
  end.
Definition key_of (k : kind) : key := match k with KStruct => Struct | _ => Class end.
Definition bases_of (k : kind) (bs : list Z) : list (access * list Z) :=
  match bs with
  | [] => match k with KClass | KStruct => [(Public, T "Object")] | _ => [] end
  | b :: bs => (Public, spelled (name_text b)) :: map (fun b => (default_access (key_of k), spelled (name_text b))) bs
  end.
Definition class_for (c : class) (bs : list Z) : cclass :=
  mk_cclass (key_of (c_kind c)) (spelled (name_text (c_name c))) (bases_of (c_kind c) bs) (flat_map (meaning (c_name c)) (c_members c) ++ default_constructor c).
End Meant.
Definition space_name (v : list Z) : list Z := match v with [] => T "UNNAMED" | _ => v ++ T "_NS" end.

(** ** The program *)
(** Names are C# identifiers; 0 is Void, which is no other name; the decompiler writes the parameter this with @. *)
Definition good_names (name_text : Z -> list Z) (param_text : nat -> nat -> list Z) : Prop :=
  name_text 0 = T "Void" /\ name_text 1 = T "Boolean" /\ (forall n, word_text (name_text n) /\ name_text n <> T "this" /\ (name_text n = T "Void" -> n = 0)) /\
  (forall k j, word_text (param_text k j) /\ param_text k j <> T "this" /\ param_text k j <> T "Void").
(** .NET's lower case letters among the ASCII ones *)
Definition ascii_lower (lower : Z -> bool) : Prop := (forall c, 97 <= c <= 122 -> lower c = true) /\ (forall c, 65 <= c <= 90 -> lower c = false).
Definition good_newline (nl : list Z) : Prop := nl <> [] /\ Forall (fun c => blank c = true) nl.
(** values of interface types are not expressible (C113_interface_refuted); references to classes and structs only; no array is passed by reference *)
Definition writable (t : cs_type) : Prop := match t with Named KInterface _ _ => False | Named _ _ _ | ArrayOf _ => True | ByReference (Named KClass _ _) | ByReference (Named KStruct _ _) => True | _ => False end.
Definition writable_params (ps : list param) : Prop := Forall (fun p => writable (p_type p)) ps.
Definition count (p : modifier -> bool) (l : list modifier) : nat := length (filter p l).
Definition pointer_like (t : cs_type) : bool := match t with Named KClass _ _ | ArrayOf _ | ByReference (Named KClass _ _) => true | _ => false end.
Definition is_body (a : accessor) : Prop := match a with Body _ => True | Absent => False end.
Definition readable (absent : absence) (m : member) : Prop :=
  match m with
  | Method mods r n ps _ => n <> 0 /\ (count says_static mods <= 1)%nat /\ (count says_virtual mods <= 1)%nat /\ writable r /\ writable_params ps
  | Constructor mods ps _ => writable_params ps /\ (existsb says_static mods = true -> ps = [])
  | Property mods ty n get set hidden => writable ty /\ is_body get /\ (absent = NullObject -> is_body set)
  | Field mods const ty names => names <> [] /\ ~ In 0 names /\ writable ty /\ (length names = 1%nat \/ pointer_like ty = false)
  | Operator op r ps _ => writable_params ps /\ match r with Named KStruct false _ | Named KEnum false _ => True | _ => False end /\ match op with OtherOperator _ => False | _ => True end
  end.
(** A type of the program: its namespace, its base classes, its members.  A struct whose objects are constructed with arguments only has no static constructor (C113_default_refuted). *)
Definition static_ctor (m : member) : bool := match m with Constructor mods _ _ => existsb says_static mods | _ => false end.
Definition well_formed (absent : absence) (space : list Z) (bases : list Z) (c : class) : Prop :=
  (space = [] \/ word_text space) /\ c_name c <> 0 /\ ~ In 0 bases /\ Forall (readable absent) (c_members c) /\
  (c_kind c = KStruct -> existsb static_ctor (c_members c) = true -> existsb is_ctor (c_members c) = true -> existsb takes_nothing (c_members c) = true).
