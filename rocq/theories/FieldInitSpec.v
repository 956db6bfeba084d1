(** * Specification for C101 and C102: what fields hold, in C# and in C++ *)
From Verif Require Import Base FieldInitModel.

(** ** Running statements
    The static storage, the classes whose initialisation has begun, and what was printed.  [access c] is done
    before a field of class [c] is read or written. *)
Record state := mk_state { store : nat -> nat -> Z; started : nat -> bool; printed : list Z }.
Definition initial : state := mk_state (fun _ _ => 0) (fun _ => false) [].
Definition set (s : state) (c f : nat) (v : Z) : state :=
  mk_state (fun c' f' => if Nat.eqb c' c && Nat.eqb f' f then v else store s c' f') (started s) (printed s).
Section Access.
Variable access : nat -> state -> state.
Fixpoint eval (e : expr) (s : state) : Z * state :=
  match e with
  | Const n => (n, s)
  | Field c f => let s := access c s in (store s c f, s)
  | Sum a b => let (x, s) := eval a s in let (y, s) := eval b s in (x + y, s)
  end.
Definition exec (a : stmt) (s : state) : state :=
  match a with
  | Store c f e => let (v, s) := eval e s in set (access c s) c f v
  | Print e => let (v, s) := eval e s in mk_state (store s) (started s) (printed s ++ [v])
  end.
Definition run (l : list stmt) (s : state) : state := fold_left (fun s a => exec a s) l s.
End Access.

(** ** C#: the first access to a class runs its field initialisers, in order, and its static constructor *)
Definition mark (c : nat) (s : state) : state := mk_state (store s) (fun c' => if Nat.eqb c' c then true else started s c') (printed s).
Definition initialisation (p : list cls) (c : nat) : list stmt :=
  match nth_error p c with
  | Some k => map (fun x => Store c (fst x) (snd x)) (s_inits k) ++ match s_ctor k with Some b => b | None => [] end
  | None => []
  end.
(** [n] bounds the nesting; no class is initialised twice, so the number of classes is enough. *)
Fixpoint initialise (p : list cls) (n : nat) (c : nat) (s : state) : state :=
  match n with
  | O => s
  | S n => if started s c then s else run (initialise p n) (initialisation p c) (mark c s)
  end.
(** What the program prints; [main]: the statements of Main *)
Definition csharp (p : list cls) (main : list stmt) : list Z := printed (run (initialise p (S (length p))) main initial).

(** ** C++: all storage is zero; then the definitions of the source file are executed in order; then main *)
Definition no_access (c : nat) (s : state) : state := s.
Definition define (d : definition) (s : state) : state :=
  match d with
  | Define c f struct => if struct then set s c f 0 else s
  | DefineInitialised c body => run no_access body s
  end.
Definition start_up (l : list definition) : state := fold_left (fun s d => define d s) l initial.
Definition cplusplus (l : list definition) (main : list stmt) : list Z := printed (run no_access main (start_up l)).

(** ** The programs in the supported style
    A class with initialisers has a static constructor; what runs at initialisation prints nothing, stores to the class itself, and reads the
    class itself and classes that come earlier - and of those only fields that Main does not change. *)
Fixpoint reads_of (e : expr) : list (nat * nat) := match e with Const _ => [] | Field c f => [(c, f)] | Sum a b => reads_of a ++ reads_of b end.
Definition stored_by (main : list stmt) (c f : nat) : Prop := exists e, In (Store c f e) main.
Definition good_expr (main : list stmt) (i : nat) (e : expr) : Prop :=
  forall c f, In (c, f) (reads_of e) -> c = i \/ (c < i)%nat /\ ~ stored_by main c f.
Definition good_stmt (main : list stmt) (i : nat) (a : stmt) : Prop :=
  match a with Store c f e => c = i /\ good_expr main i e | Print _ => False end.
Definition good_program (main : list stmt) (p : list cls) : Prop :=
  forall i c, nth_error p i = Some c ->
    (s_ctor c = None -> s_inits c = []) /\
    (forall f e, In (f, e) (s_inits c) -> good_expr main i e) /\
    (forall b a, s_ctor c = Some b -> In a b -> good_stmt main i a).

(** ** Instance fields: creating an object of the last of a chain of classes, each the base of the next *)
Definition initialise_field (k : nat) (s : state) (x : nat * init) : state :=
  match snd x with
  | Value v => set s k (fst x) v
  | Announce out v => set (mk_state (store s) (started s) (printed s ++ [out])) k (fst x) v
  end.
(** C#: the initialisers, then the base class's constructor, then the body *)
Fixpoint create (k : nat) (rev_chain : list icls) (s : state) : state :=
  match rev_chain with
  | [] => s
  | c :: bases =>
      let k := (k - 1)%nat in
      let s := fold_left (initialise_field k) (i_inits c) s in
      let s := create k bases s in
      run no_access (match i_ctor c with Some b => b | None => [] end) s
  end.
(** C++: the base class's constructor, then the body *)
Fixpoint construct (k : nat) (rev_chain : list (list stmt)) (s : state) : state :=
  match rev_chain with [] => s | b :: bases => run no_access b (construct (k - 1) bases s) end.
Fixpoint emitted (k : nat) (rev_chain : list icls) : list (list stmt) :=
  match rev_chain with [] => [] | c :: bases => emitted_constructor (k - 1) c :: emitted (k - 1) bases end.
Definition csharp_object (chain : list icls) : state := create (length chain) (rev chain) initial.
Definition cpp_object (chain : list icls) : state := construct (length chain) (emitted (length chain) (rev chain)) initial.
(** Constructors know the fields of their class and of its bases only; initialisers print nothing, or the class has no base. *)
Definition knows (k : nat) (a : stmt) : Prop :=
  match a with Store c _ e => (c <= k)%nat /\ (forall x, In x (reads_of e) -> (fst x <= k)%nat) | Print e => forall x, In x (reads_of e) -> (fst x <= k)%nat end.
Definition good_chain (chain : list icls) : Prop :=
  forall k c, nth_error chain k = Some c -> (i_ctor c = None -> i_inits c = []) /\ (forall b a, i_ctor c = Some b -> In a b -> knows k a) /\
    (k = 0%nat \/ forall x, In x (i_inits c) -> exists v, snd x = Value v).
