(** * What a C++ compiler makes of the header, independent of the translator *)
From Coq Require Import String.
From Verif Require Import Base MemModel FormatterSpec HeaderModel TranslatorSpec.
Local Open Scope list_scope.

(** ** Reading the first line of a type: [class N : public A, B] *)
Fixpoint eqb_text (a b : list Z) : bool :=
  match a, b with [], [] => true | x :: a, y :: b => (x =? y) && eqb_text a b | _, _ => false end.
(** Words, colons and commas. *)
Fixpoint words (s : list Z) (word : list Z) : list (list Z) :=
  let flush := match word with [] => [] | _ => [word] end in
  match s with
  | [] => flush
  | c :: s =>
      if c =? 32 then flush ++ words s []
      else if (c =? 44) || (c =? 58) then flush ++ [[c]] ++ words s []
      else words s (word ++ [c])
  end.
Inductive key : Type := KClass | KStruct.
Inductive access : Type := Public | Private.
Definition default_access (k : key) : access := match k with KClass => Private | KStruct => Public end.
(** base-specifier-list: an access is given to one base; without it the bases of a class are private, those of a struct public. *)
Fixpoint read_bases (fuel : nat) (k : key) (ws : list (list Z)) : option (list (access * list Z)) :=
  match fuel with
  | O => None
  | S fuel =>
      let continue a b rest :=
        match rest with
        | [] => Some [(a, b)]
        | w :: rest => if eqb_text w (T ",") then match read_bases fuel k rest with Some bs => Some ((a, b) :: bs) | None => None end else None
        end in
      match ws with
      | [] => None
      | w :: ws => if eqb_text w (T "public") then match ws with b :: rest => continue Public b rest | [] => None end else continue (default_access k) w ws
      end
  end.
Definition read_head (s : list Z) : option (key * list Z * list (access * list Z)) :=
  match words s [] with
  | w :: n :: rest =>
      let k := if eqb_text w (T "class") then Some KClass else if eqb_text w (T "struct") then Some KStruct else None in
      match k, rest with
      | Some k, [] => Some (k, n, [])
      | Some k, c :: bs => if eqb_text c (T ":") then match read_bases (length bs) k bs with Some bs => Some (k, n, bs) | None => None end else None
      | None, _ => None
      end
  | _ => None
  end.

(** ** Namespaces *)
(** The namespace that is open after some lines, the types defined by them, and the directives in force. *)
Fixpoint open_after (ls : list line) (cur : option (list Z)) : option (list Z) :=
  match ls with
  | [] => cur
  | NsOpen n :: ls => open_after ls (Some n)
  | NsClose :: ls => open_after ls None
  | _ :: ls => open_after ls cur
  end.
Fixpoint defined_by (ls : list line) (cur : option (list Z)) : list (list Z * list Z) :=
  match ls with
  | [] => []
  | NsOpen n :: ls => defined_by ls (Some n)
  | NsClose :: ls => defined_by ls None
  | Head t :: ls => (match read_head t, cur with Some (_, n, _), Some c => [(c, n)] | _, _ => [] end) ++ defined_by ls cur
  | UsingNs _ :: ls => defined_by ls cur
  end.
Fixpoint directives (ls : list line) : list (list Z) :=
  match ls with [] => [] | UsingNs n :: ls => n :: directives ls | _ :: ls => directives ls end.
(** Namespaces are opened only outside of a namespace and closed only inside one; types are defined inside one;
    directives stand outside. *)
Fixpoint well_nested (ls : list line) (cur : option (list Z)) : Prop :=
  match ls with
  | [] => cur = None
  | NsOpen n :: ls => cur = None /\ well_nested ls (Some n)
  | NsClose :: ls => cur <> None /\ well_nested ls None
  | Head _ :: ls => cur <> None /\ well_nested ls cur
  | UsingNs _ :: ls => cur = None /\ well_nested ls cur
  end.

(** Unqualified name lookup in namespace [ns]: a type of the namespace itself, otherwise the types of the
    namespaces used at the global scope, of which there must be exactly one. *)
Inductive lookup (known : list (list Z * list Z)) (used : list (list Z)) (ns n : list Z) : list Z * list Z -> Prop :=
| lookup_own : In (ns, n) known -> lookup known used ns n (ns, n)
| lookup_used u : ~ In (ns, n) known -> In u used -> In (u, n) known -> (forall v, In v used -> In (v, n) known -> v = u) -> lookup known used ns n (u, n).

(** ** The C# program *)
(** The types the translator is given: classes, structs and enums of the program. *)
Definition translated (h : htype) : bool := match h_kind h with TranslatorModel.InterfaceType => false | _ => true end.
Definition has_definition (h : htype) : bool := match h_kind h with TranslatorModel.StructType | TranslatorModel.ClassType => true | _ => false end.
Definition key_of (h : htype) : key := match h_kind h with TranslatorModel.StructType => KStruct | _ => KClass end.
(** The name of a namespace in C++. *)
Definition cpp_namespace (v : list Z) : list Z := match v with [] => T "UNNAMED" | _ => v ++ T "_NS" end.
Definition cpp_id (t : list Z * list Z) : list Z * list Z := (cpp_namespace (fst t), snd t).
(** Names that are C++ identifiers and keep their form: not beginning with a lower case letter, not Void. *)
Definition ordinary (lower : Z -> bool) (n : list Z) : Prop :=
  identifier n /\ (forall c r, n = c :: r -> lower c = false) /\ n <> T "Void" /\ n <> T "public".
(** The run-time library: types of the two namespaces the prototypes use, no name twice. *)
Definition runtime_namespaces : list (list Z) := [T "DotnetLibrary"; T "DotnetLibrarySupport"].
Definition runtime (lib : list (list Z * list Z)) : Prop := Forall (fun x => In (fst x) runtime_namespaces) lib /\ NoDup (map snd lib).
(** The base types a type must have in C++. *)
Definition wanted (h : htype) : list (list Z * list Z) := match map fst (h_bases h) with [] => [(T "System", T "Object")] | l => l end.
(** [p] is one of the base types of [c]. *)
Definition base (p c : htype) : Prop := In (h_id p) (map fst (h_bases c)).
