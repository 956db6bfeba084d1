(** * What declarations, definitions and calls of members mean, in C++ and in C# *)
From Verif Require Import Base MemberModel.

(** ** C++: a definition belongs to a declaration of the same name, parameters and type *)
Definition matches (d : declared) (f : defined) : Prop := name d = dname f /\ ret d = dret f /\ params d = dparams f.

(** ** C++: the function a call reaches
    [hs]: the declarations of the classes of an inheritance chain, the root first.  [o->n(args)] with
    an object of class number [d], an expression of class number [s] and arguments of exactly the
    types [ps]: the function of class number [k] runs. *)
Definition at_class {A} (l : list (list A)) (i : nat) : list A := nth i l [].
Definition declares_name (h : list declared) (n : cpp_id) : Prop := exists d, In d h /\ name d = n.
Definition declares (h : list declared) (n : cpp_id) (ps : list cpp_type) (v : bool) : Prop :=
  exists d, In d h /\ name d = n /\ params d = ps /\ what d <> Variable_ /\ is_static d = false /\ is_virtual d = v.
Definition declares_any h n ps : Prop := exists v, declares h n ps v.
Definition cpp_call (hs : list (list declared)) (s d : nat) (n : cpp_id) (ps : list cpp_type) (k : nat) : Prop :=
  exists i, (i <= s)%nat /\ declares_name (at_class hs i) n /\ (forall j, (i < j <= s)%nat -> ~ declares_name (at_class hs j) n) /\   (* name lookup *)
    declares_any (at_class hs i) n ps /\                                                              (* overload resolution *)
    ((exists j, (j <= i)%nat /\ declares (at_class hs j) n ps true) /\                              (* virtual: the final overrider *)
       (i <= k <= d)%nat /\ declares_any (at_class hs k) n ps /\ (forall j, (k < j <= d)%nat -> ~ declares_any (at_class hs j) n ps)
     \/ (forall j, (j <= i)%nat -> ~ declares (at_class hs j) n ps true) /\ k = i).

(** ** C#: methods and accessors with their modifiers *)
Definition functions_of (m : member) : list (cpp_id * list param * list modifier) :=
  match m with
  | Method mods _ n ps _ => [(Id n, ps, mods)]
  | Property mods ty n get set _ =>
      (match get with Body _ => [(Getter n, [], mods)] | Absent => [] end) ++
      (match set with Body _ => [(Setter n, [mk_param ty PNone], mods)] | Absent => [] end)
  | _ => []
  end.
Definition cs_declares (ms : list member) (n : cpp_id) (ps : list param) (mods : list modifier) : Prop :=
  exists m, In m ms /\ In (n, ps, mods) (functions_of m).
Definition cs_declares_any ms n ps : Prop := exists mods, cs_declares ms n ps mods.
Definition overriding (mods : list modifier) : Prop := In MOverride mods.
Definition polymorphic (mods : list modifier) : Prop := In MVirtual mods \/ In MAbstract mods.
(** The call of the function class number [b] introduced, on an object of class number [d], runs the
    function of class number [k]: for a virtual function the last override before a class that
    introduces a new function of the same signature. *)
Definition cs_call (cs : list (list member)) (b d : nat) (n : cpp_id) (ps : list param) (k : nat) : Prop :=
  exists mods, cs_declares (at_class cs b) n ps mods /\ (b <= d)%nat /\
    (polymorphic mods /\ (b <= k <= d)%nat /\
       (forall j mods', (b < j <= k)%nat -> cs_declares (at_class cs j) n ps mods' -> overriding mods') /\
       (k = b \/ exists mods', cs_declares (at_class cs k) n ps mods' /\ overriding mods') /\
       ((forall j, (k < j <= d)%nat -> ~ cs_declares_any (at_class cs j) n ps) \/
        exists e mods', (k < e <= d)%nat /\ cs_declares (at_class cs e) n ps mods' /\ ~ overriding mods' /\ forall j, (k < j < e)%nat -> ~ cs_declares_any (at_class cs j) n ps)
     \/ ~ polymorphic mods /\ k = b).

(** ** C++: which structs can be created without arguments, which declarations are allowed *)
Definition default_constructible (ds : list declared) : Prop :=
  (forall d, In d ds -> name d <> Ctor) \/ exists d, In d ds /\ name d = Ctor /\ params d = [].
Definition pure_is_virtual (d : declared) : Prop := what d = Pure -> is_virtual d = true.
Definition needs (d : declared) : bool :=
  match what d with Prototype => true | Variable_ => is_static d | _ => false end.

(** ** C#: the bodies a member has, with the C++ function each belongs to and the number of its parameters *)
Definition bodies_of (m : member) : list (cpp_id * nat * Z) :=
  match m with
  | Method _ _ n ps (Some b) => [(Id n, length ps, b)]
  | Constructor mods ps b => if existsb (fun x => match x with MStatic => true | _ => false end) mods then [(StaticInit, O, b)] else [(Ctor, length ps, b)]
  | Property _ _ n get set _ => (match get with Body b => [(Getter n, O, b)] | Absent => [] end) ++ (match set with Body b => [(Setter n, 1%nat, b)] | Absent => [] end)
  | Operator op _ ps b => [(Op op, length ps, b)]
  | _ => []
  end.
Definition defined_bodies (fs : list defined) : list (cpp_id * nat * Z) :=
  flat_map (fun f => match dbody f with Some b => [(dname f, length (dparams f), b)] | None => [] end) fs.
