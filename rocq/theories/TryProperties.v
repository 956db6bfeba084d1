(** * C103: exceptions reach the same handler *)
From Coq Require Import Lia.
From Verif Require Import Base Tac TryModel TrySpec.

(** ** Classes *)
Lemma ancestors_same t u : u <> TLib Argument -> u <> TLib Arithmetic -> (In u (cpp_ancestors t) <-> In u (dotnet_ancestors t)).
Proof.
  intros A B. induction t as [| |k|n b IH]; cbn; try tauto.
  destruct k; cbn; intuition congruence.
Qed.
Lemma is_a_spec anc t u : is_a anc t u = true <-> In u (anc t).
Proof. unfold is_a. destruct (in_dec etype_eq_dec u (anc t)); split; auto; discriminate. Qed.
(** C103: for every handler type but two, the library's classes are caught exactly when .NET's are. *)
Theorem C103_classes_partial t u : u <> TLib Argument -> u <> TLib Arithmetic -> is_a cpp_ancestors t u = is_a dotnet_ancestors t u.
Proof.
  intros A B. apply Bool.eq_iff_eq_true. rewrite !is_a_spec. apply ancestors_same; assumption.
Qed.

Scheme cmd_mut := Induction for cmd Sort Prop with cmds_mut := Induction for cmds Sort Prop with handlers_mut := Induction for handlers Sort Prop.
Combined Scheme cmd_all from cmd_mut, cmds_mut, handlers_mut.

Fixpoint top_labels (l : cstmts) : list Z :=
  match l with CNil => [] | CCons (CLabel k) l => k :: top_labels l | CCons _ l => top_labels l end.
Lemma top_labels_app a b : top_labels (capp a b) = top_labels a ++ top_labels b.
Proof. induction a as [|x a IH]; [reflexivity|]. destruct x; cbn; rewrite ?IH; reflexivity. Qed.

Section Run.
Variable cond : list Z -> Z -> bool.
Variable value : Z -> option etype.
Variable declared : Z -> etype.
Notation run_all := (run_all cond value). Notation run := (run cond value). Notation handle := (handle cond value).
Notation exec_all := (exec_all cond value declared). Notation exec := (exec cond value declared). Notation catch := (catch cond value declared).

Lemma ea_cons p v s x l tr : exec_all p v s (CCons x l) tr =
  match s with
  | Some k => exec_all p v (match x with CLabel k' => if k =? k' then None else s | _ => s end) l tr
  | None => let (tr, e) := exec p v x tr in match e with CNormal => exec_all p v None l tr | Jump k => exec_all p v (Some k) l tr | _ => (tr, e) end
  end.
Proof. reflexivity. Qed.
Lemma ex_if p v c a b tr : exec p v (CIf c a b) tr = if cond tr c then exec_all p v None a tr else exec_all p v None b tr.
Proof. reflexivity. Qed.
Lemma ex_try p v b hs tr : exec p v (CTry b hs) tr = let (tr, e) := exec_all p v None b tr in match e with CRaised p => catch p hs tr | _ => (tr, e) end.
Proof. reflexivity. Qed.
Lemma ex_label p v k tr : exec p v (CLabel k) tr = (tr, CNormal). Proof. reflexivity. Qed.
Lemma ea_nil p v tr s : exec_all p v s CNil tr = (tr, match s with Some k => Jump k | None => CNormal end). Proof. reflexivity. Qed.
Lemma ct_cons p u b hs tr : catch p (CHCons u b hs) tr = if is_a cpp_ancestors (stat p) u then exec_all p u None b tr else catch p hs tr.
Proof. reflexivity. Qed.
Lemma ru_if t c a b tr : run t (If c a b) tr = if cond tr c then run_all t a tr else run_all t b tr. Proof. reflexivity. Qed.
Lemma ru_try t z b hs tr : run t (Try z b hs) tr =
  let (tr, e) := run_all t b tr in
  let (tr, e) := match e with Raised t => handle t hs tr | _ => (tr, e) end in
  (tr, match e with Left O => Normal | Left (S d) => Left d | _ => e end).
Proof. reflexivity. Qed.
Lemma ra_cons t x l tr : run_all t (Cons x l) tr = let (tr, e) := run t x tr in match e with Normal => run_all t l tr | _ => (tr, e) end.
Proof. reflexivity. Qed.
Lemma ha_cons t u f b hs tr : handle t (HCons u f b hs) tr =
  if is_a dotnet_ancestors t u && match f with Some c => cond tr c | None => true end then run_all t b tr else handle t hs tr.
Proof. reflexivity. Qed.
Lemma exec_app p v a : forall s b tr, exec_all p v s (capp a b) tr =
  let (tr', e) := exec_all p v s a tr in
  match e with CNormal => exec_all p v None b tr' | Jump k => exec_all p v (Some k) b tr' | _ => (tr', e) end.
Proof.
  induction a as [|x a IH]; intros s b tr; cbn [capp].
  - cbn. destruct s; reflexivity.
  - rewrite !ea_cons. destruct s as [k|]; [apply IH|].
    destruct (exec p v x tr) as [tr' [|k| |q]]; try reflexivity; apply IH.
Qed.
Lemma skip_all p v k l tr : ~ In k (top_labels l) -> exec_all p v (Some k) l tr = (tr, Jump k).
Proof.
  induction l as [|x l IH]; intro N; [reflexivity|]. rewrite ea_cons. destruct x; cbn in N; try (apply IH; assumption).
  destruct (k =? l0) eqn:E; [exfalso; apply N; left; lia|]. apply IH. tauto.
Qed.
(** endings that correspond, inside a try statement whose label is [l] *)
Inductive corr (l : Z) : ending -> cending -> Prop :=
  | cr_normal : corr l Normal CNormal
  | cr_left : corr l (Left 0) (Jump l)
  | cr_return : corr l Returned CReturned
  | cr_raised t : corr l (Raised t) (CRaised (mk_pointer t (Some t))).
Definition corresponds (l : Z) (a : list Z * ending) (b : list Z * cending) : Prop := fst a = fst b /\ corr l (snd a) (snd b).
(** the label on top of the stack, if there is a try statement around *)
Definition top_ok (depth : nat) (n : Z) (stack : list Z) : Prop := depth = O \/ exists l r, stack = l :: r /\ l <= n.
Definition zeros_ok (zeros : list bool) : Prop := forall d, nth d zeros false = false.
Definition fresh (n n' : Z) (c : cstmts) : Prop := n <= n' /\ Forall (fun k => n < k <= n') (top_labels c).

Definition goal_cmd (x : cmd) : Prop := forall depth n stack zeros, plain value declared depth x -> top_ok depth n stack -> zeros_ok zeros ->
  let (n', c) := visit n stack zeros x in
  fresh n n' c /\ (depth = O -> forall t tr d, snd (run t x tr) <> Left d) /\
  forall t v tr, corresponds (hd 0 stack) (run t x tr) (exec_all (mk_pointer t (Some t)) v None c tr).
Definition goal_cmds (l : cmds) : Prop := forall depth n stack zeros, plain_all value declared depth l -> top_ok depth n stack -> zeros_ok zeros ->
  let (n', c) := visit_block n stack zeros l in
  fresh n n' c /\ (depth = O -> forall t tr d, snd (run_all t l tr) <> Left d) /\
  forall t v tr, corresponds (hd 0 stack) (run_all t l tr) (exec_all (mk_pointer t (Some t)) v None c tr).
Definition goal_handlers (hs : handlers) : Prop := forall depth n stack zeros, plain_handlers value declared (S depth) hs -> top_ok (S depth) n stack -> zeros_ok zeros ->
  let (n', c) := visit_handlers n stack zeros hs in
  n <= n' /\ forall t tr, corresponds (hd 0 stack) (handle t hs tr) (catch (mk_pointer t (Some t)) c tr).

Lemma zeros_cons z : zeros_ok z -> zeros_ok (false :: z).
Proof. intros H [|d]; [reflexivity|apply H]. Qed.
Lemma top_up depth n n' stack : n <= n' -> top_ok depth n stack -> top_ok depth n' stack.
Proof. intros L [H|(l & r & E & K)]; [left; exact H|right; exists l, r; split; [exact E|lia]]. Qed.
Lemma corr_label_irrelevant l l' e c : corr l e c -> (forall d, e <> Left d) -> corr l' e c.
Proof. intros H N. destruct H; try constructor. exfalso. apply (N O). reflexivity. Qed.

Lemma simulation : (forall x, goal_cmd x) /\ (forall l, goal_cmds l) /\ (forall hs, goal_handlers hs).
Proof.
  apply cmd_all; unfold goal_cmd, goal_cmds, goal_handlers.
  - (* Act *) intros k depth n stack zeros _ _ _. cbn. split; [split; [lia|constructor]|]. split; [discriminate|]. intros. split; constructor.
  - (* If *) intros c a IHa b IHb depth n stack zeros [Pa Pb] T Z. cbn [visit].
    specialize (IHa depth n stack zeros Pa T Z). destruct (visit_block n stack zeros a) as [n1 ca]. destruct IHa as ([F1 _] & L1 & A1).
    specialize (IHb depth n1 stack zeros Pb (top_up _ _ _ _ F1 T) Z). destruct (visit_block n1 stack zeros b) as [n2 cb]. destruct IHb as ([F2 _] & L2 & A2).
    split; [split; [lia|constructor]|]. split.
    + intros D t tr d. rewrite ru_if. destruct (cond tr c); auto.
    + intros t v tr. rewrite ru_if, ea_cons, ex_if. destruct (cond tr c).
      * specialize (A1 t v tr). destruct (exec_all (mk_pointer t (Some t)) v None ca tr) as [tr' [|k| |q]]; exact A1.
      * specialize (A2 t v tr). destruct (exec_all (mk_pointer t (Some t)) v None cb tr) as [tr' [|k| |q]]; exact A2.
  - (* ThrowNew *) intros t depth n stack zeros _ _ _. cbn. split; [split; [lia|constructor]|]. split; [discriminate|]. intros. split; constructor.
  - (* ThrowVar *) intros v depth n stack zeros P _ _. cbn in *. split; [split; [lia|constructor]|]. split; [discriminate|]. intros. rewrite P. split; constructor.
  - (* ThrowCaught *) intros depth n stack zeros [].
  - (* Rethrow *) intros depth n stack zeros _ _ _. cbn. split; [split; [lia|constructor]|]. split; [discriminate|]. intros. split; constructor.
  - (* Leave *) intros d depth n stack zeros [-> D] T Z. cbn. unfold VisitLeave. rewrite Z. split; [split; [lia|constructor]|]. split; [contradiction|].
    intros. cbn. split; constructor.
  - (* Return *) intros depth n stack zeros _ _ _. cbn. split; [split; [lia|constructor]|]. split; [discriminate|]. intros. split; constructor.
  - (* Try *) intros zero body IHb hs IHh depth n stack zeros (-> & Pb & Ph) T Z. cbn [visit].
    assert (T' : top_ok (S depth) (n + 1) (n + 1 :: stack)) by (right; exists (n + 1), stack; split; [reflexivity|lia]).
    specialize (IHb (S depth) (n + 1) (n + 1 :: stack) (false :: zeros) Pb T' (zeros_cons _ Z)).
    destruct (visit_block (n + 1) (n + 1 :: stack) (false :: zeros) body) as [n1 cb]. destruct IHb as ([F1 _] & _ & A1).
    specialize (IHh depth n1 (n + 1 :: stack) (false :: zeros) Ph (top_up _ _ _ _ F1 T') (zeros_cons _ Z)).
    destruct (visit_handlers n1 (n + 1 :: stack) (false :: zeros) hs) as [n2 ch]. destruct IHh as (F2 & A2).
    assert (C : forall t v tr, corresponds (hd 0 stack) (run t (Try false body hs) tr) (exec_all (mk_pointer t (Some t)) v None (CCons (CTry cb ch) (CCons (CLabel (n + 1)) CNil)) tr) /\
      forall d, snd (run t (Try false body hs) tr) <> Left d).
    { intros t v tr. rewrite ru_try, ea_cons, ex_try. destruct (A1 t v tr) as [E1 E2]. cbn [hd] in E2.
      destruct (run_all t body tr) as [tr1 e1], (exec_all (mk_pointer t (Some t)) v None cb tr) as [tr1' e1']. cbn [fst snd] in *. subst tr1'.
      destruct E2 as [| | |u].
      - split; [split; constructor|discriminate].
      - rewrite ea_cons, Z.eqb_refl. cbn. split; [split; constructor|discriminate].
      - split; [split; constructor|discriminate].
      - destruct (A2 u tr1) as [H1 H2]. cbn [hd] in H2.
        destruct (handle u hs tr1) as [tr2 e2], (catch (mk_pointer u (Some u)) ch tr1) as [tr2' e2']. cbn [fst snd] in *. subst tr2'.
        destruct H2 as [| | |w].
        + split; [split; constructor|discriminate].
        + rewrite ea_cons, Z.eqb_refl. cbn. split; [split; constructor|discriminate].
        + split; [split; constructor|discriminate].
        + split; [split; constructor|discriminate]. }
    split; [split; [lia|]|split].
    + cbn. constructor; [lia|constructor].
    + intros _ t tr d. apply (C t TObject tr).
    + intros t v tr. apply C.
  - (* Nil *) intros depth n stack zeros _ _ _. cbn. split; [split; [lia|constructor]|]. split; [discriminate|]. intros. split; constructor.
  - (* Cons *) intros x IHx l IHl depth n stack zeros [Px Pl] T Z. cbn [visit_block].
    specialize (IHx depth n stack zeros Px T Z). destruct (visit n stack zeros x) as [n1 ca]. destruct IHx as ([F1 G1] & L1 & A1).
    specialize (IHl depth n1 stack zeros Pl (top_up _ _ _ _ F1 T) Z). destruct (visit_block n1 stack zeros l) as [n2 cb]. destruct IHl as ([F2 G2] & L2 & A2).
    split; [split; [lia|]|split].
    + rewrite top_labels_app. apply Forall_app. split; eapply Forall_impl; try eassumption; cbn; lia.
    + intros D t tr d. rewrite ra_cons. specialize (L1 D t tr d). destruct (run t x tr) as [tr1 [|k| |w]]; cbn in *; auto.
    + intros t v tr. rewrite ra_cons, exec_app. destruct (A1 t v tr) as [E1 E2].
      assert (D : depth = O \/ depth <> O) by lia.
      pose proof (fun D => L1 D t tr) as N1.
      destruct (run t x tr) as [tr1 e1], (exec_all (mk_pointer t (Some t)) v None ca tr) as [tr1' e1']. cbn [fst snd] in *. subst tr1'.
      destruct E2 as [| | |w]; [apply A2| |split; constructor..].
      destruct D as [D|D]; [exfalso; apply (N1 D O); reflexivity|].
      destruct T as [T|(k & r & -> & K)]; [contradiction|]. cbn [hd] in *. rewrite skip_all; [split; constructor|].
      intro J. rewrite Forall_forall in G2. specialize (G2 k J). lia.
  - (* HNil *) intros depth n stack zeros _ _ _. cbn. split; [lia|]. intros. split; constructor.
  - (* HCons *) intros u f b IHb hs IHh depth n stack zeros (N1 & N2 & -> & Pb & Ph) T Z. cbn [visit_handlers].
    specialize (IHb (S depth) n stack zeros Pb T Z). destruct (visit_block n stack zeros b) as [n1 cb]. destruct IHb as ([F1 _] & _ & A1).
    specialize (IHh depth n1 stack zeros Ph (top_up _ _ _ _ F1 T) Z). destruct (visit_handlers n1 stack zeros hs) as [n2 ch]. destruct IHh as (F2 & A2).
    split; [lia|]. intros t tr. rewrite ha_cons, ct_cons. cbn [stat]. rewrite Bool.andb_true_r, C103_classes_partial by assumption.
    destruct (is_a dotnet_ancestors t u); [apply A1|apply A2].
Qed.
End Run.

(** C103: the statements executed, and the exception that leaves the method.  Missing: the methods refuted below. *)
Theorem C103_handlers_partial cond value declared m : plain_all value declared 0 m ->
  fst (cplusplus cond value declared (translate m)) = fst (csharp cond value m) /\
  snd (cplusplus cond value declared (translate m)) = option_map Some (snd (csharp cond value m)).
Proof.
  intro P. destruct (simulation cond value declared) as (_ & S & _).
  specialize (S m 0%nat 0 [] [] P (or_introl eq_refl) ltac:(intros [|d]; reflexivity)). unfold translate.
  destruct (visit_block 0 [] [] m) as [n c]. destruct S as (_ & L & C). cbn [snd].
  unfold cplusplus, csharp. specialize (L eq_refl TObject []). specialize (C TObject TObject []). destruct C as [E1 E2].
  destruct (TrySpec.run_all cond value TObject m []) as [tr e], (TrySpec.exec_all cond value declared (mk_pointer TObject (Some TObject)) TObject None c []) as [tr' e'].
  cbn [fst snd] in *. subst tr'. destruct E2; split; reflexivity.
Qed.

(** A handler for ArgumentException does not catch ArgumentNullException, one for ArithmeticException does not catch DivideByZeroException. *)
Theorem C103_hierarchy_refuted cond value declared n k b : (k, b) = (ArgumentNull, Argument) \/ (k, b) = (ArgumentOutOfRange, Argument) \/ (k, b) = (DivideByZero, Arithmetic) \/ (k, b) = (Overflow, Arithmetic) ->
  let m := Cons (Try false (Cons (ThrowNew (TLib k)) Nil) (HCons (TLib b) None (Cons (Act n) Nil) HNil)) Nil in
  csharp cond value m = ([n], None) /\ cplusplus cond value declared (translate m) = ([], Some (Some (TLib k))).
Proof. intros [E|[E|[E|E]]]; apply pair_equal_spec in E; destruct E as [-> ->]; split; reflexivity. Qed.
(** throw v; is caught by the declared class of v, not by the class of the object. *)
Theorem C103_static_type_refuted cond value declared v d n m0 : value v = Some (TUser d TException) -> declared v = TException ->
  let m := Cons (Try false (Cons (ThrowVar v) Nil) (HCons (TUser d TException) None (Cons (Act n) Nil) (HCons TException None (Cons (Act m0) Nil) HNil))) Nil in
  csharp cond value m = ([n], None) /\ cplusplus cond value declared (translate m) = ([m0], None).
Proof.
  intros V D. cbn zeta.
  assert (A : is_a dotnet_ancestors (TUser d TException) (TUser d TException) = true) by (apply is_a_spec; left; reflexivity).
  split; [unfold csharp|unfold cplusplus, translate]; cbn -[is_a dotnet_ancestors cpp_ancestors].
  - rewrite V, A. reflexivity.
  - rewrite D. reflexivity.
Qed.
(** throw e; in a handler: the class of the object is forgotten. *)
Theorem C103_throw_caught_refuted cond value declared d n m0 :
  let t := TUser d TException in
  let m := Cons (Try false (Cons (Try false (Cons (ThrowNew t) Nil) (HCons TException None (Cons ThrowCaught Nil) HNil)) Nil) (HCons t None (Cons (Act n) Nil) (HCons TException None (Cons (Act m0) Nil) HNil))) Nil in
  csharp cond value m = ([n], None) /\ cplusplus cond value declared (translate m) = ([m0], None).
Proof.
  cbn zeta. assert (A : is_a dotnet_ancestors (TUser d TException) (TUser d TException) = true) by (apply is_a_spec; left; reflexivity).
  assert (B : is_a dotnet_ancestors (TUser d TException) TException = true) by (apply is_a_spec; right; left; reflexivity).
  assert (C : is_a cpp_ancestors (TUser d TException) TException = true) by (apply is_a_spec; right; left; reflexivity).
  split; [unfold csharp|unfold cplusplus, translate]; cbn -[is_a dotnet_ancestors cpp_ancestors].
  - rewrite B. cbn -[is_a dotnet_ancestors]. rewrite A. reflexivity.
  - rewrite C. reflexivity.
Qed.
(** The condition of a handler is ignored. *)
Theorem C103_condition_refuted cond value declared c n m0 t : cond [] c = false ->
  let m := Cons (Try false (Cons (ThrowNew t) Nil) (HCons t (Some c) (Cons (Act n) Nil) (HCons t None (Cons (Act m0) Nil) HNil))) Nil in
  csharp cond value m = ([m0], None) /\ cplusplus cond value declared (translate m) = ([n], None).
Proof.
  intro F. cbn zeta. assert (A : is_a dotnet_ancestors t t = true) by (apply is_a_spec; destruct t; left; reflexivity).
  assert (B : is_a cpp_ancestors t t = true) by (apply is_a_spec; destruct t; left; reflexivity).
  split; [unfold csharp|unfold cplusplus, translate]; cbn -[is_a dotnet_ancestors cpp_ancestors].
  - rewrite A, F. reflexivity.
  - rewrite B. reflexivity.
Qed.
(** A method that begins with a try statement returns at its end. *)
Theorem C103_first_statement_refuted cond value declared a b hs :
  let m := Cons (Try true (Cons (Act a) (Cons (Leave 0) Nil)) hs) (Cons (Act b) Nil) in
  csharp cond value m = ([a; b], None) /\ cplusplus cond value declared (translate m) = ([a], None).
Proof.
  cbn zeta. split; [reflexivity|]. unfold translate. cbn [visit_block visit VisitLeave nth].
  destruct (visit_handlers (0 + 1) [0 + 1] [false] hs) as [n ch]. reflexivity.
Qed.
(** Leaving two try statements at once: C++ goes on after the inner one. *)
Theorem C103_two_levels_refuted cond value declared a b :
  let m := Cons (Try false (Cons (Try false (Cons (Leave 1) Nil) HNil) (Cons (Act a) Nil)) HNil) (Cons (Act b) Nil) in
  csharp cond value m = ([b], None) /\ cplusplus cond value declared (translate m) = ([a; b], None).
Proof. split; reflexivity. Qed.
(** throw null: C# throws a NullReferenceException, C++ a null pointer, which the handler then uses. *)
Theorem C103_null_refuted cond value declared v n : value v = None -> declared v = TException ->
  let m := Cons (Try false (Cons (ThrowVar v) Nil) (HCons TException None (Cons (Act n) (Cons Rethrow Nil)) HNil)) Nil in
  csharp cond value m = ([n], Some (TLib NullReference)) /\ cplusplus cond value declared (translate m) = ([n], Some None).
Proof. intros V D. cbn zeta. split; [unfold csharp|unfold cplusplus, translate]; cbn; rewrite ?V; [|rewrite D]; cbn; rewrite ?V; reflexivity. Qed.

(** a loop body's worth: nested try statements, a class of the program, rethrow, return inside a try *)
Example C103_example :
  let mine := TUser 0 (TLib Format) in
  let m := Cons (Act 1)
    (Cons (Try false (Cons (Act 2) (Cons (Try false (Cons (If 7 (Cons (ThrowNew mine) Nil) (Cons Return Nil)) Nil) (HCons (TLib Rank) None (Cons (Act 3) (Cons (Leave 0) Nil)) (HCons (TLib Format) None (Cons (Act 4) (Cons Rethrow Nil)) HNil))) Nil))
       (HCons TException None (Cons (Act 5) (Cons (Leave 0) Nil)) HNil)) (Cons (Act 6) Nil)) in
  (forall value declared, plain_all value declared 0 m) /\
  cplusplus (fun tr _ => Nat.eqb (length tr) 2) (fun _ => None) (fun _ => TException) (translate m) = ([1; 2; 4; 5; 6], None) /\
  cplusplus (fun _ _ => false) (fun _ => None) (fun _ => TException) (translate m) = ([1; 2], None).
Proof. split; [|split; reflexivity]. intros. cbn. repeat split; discriminate. Qed.

(** ** C104 *)
Theorem C104_inner e : get_InnerException (cpp_of e) = option_map cpp_of (net_inner e).
Proof. destruct e as [|m|m [i|]]; reflexivity. Qed.
(** The message, if one was given; see below for the others. *)
Theorem C104_message_partial default e m : (e = New1 (Some m) \/ exists i, e = New2 (Some m) i) -> get_Message (cpp_of e) = Some (net_message default e).
Proof. intros [->|(i & ->)]; reflexivity. Qed.
Theorem C104_message_refuted default i e : e = New0 \/ e = New1 None \/ e = New2 None i -> get_Message (cpp_of e) <> Some (net_message default e).
Proof. intros [->|[->| ->]]; discriminate. Qed.
Theorem C104_base_partial e i : net_inner e = Some i -> net_inner i = None -> GetBaseException (cpp_of e) = Some (cpp_of (net_base e)).
Proof. destruct e as [|m|m [j|]]; try discriminate. cbn. intros H N. injection H as ->. destruct i as [|n|n [k|]]; cbn in *; try discriminate; reflexivity. Qed.
(** Without inner exception the answer is null; with a chain of three or more it is never the innermost. *)
Theorem C104_base_refuted e : net_inner e = None \/ (exists i j, net_inner e = Some i /\ net_inner i = Some j) -> GetBaseException (cpp_of e) <> Some (cpp_of (net_base e)).
Proof.
  intros [N|(i & j & N & M)].
  - destruct e as [|m|m [k|]]; discriminate.
  - destruct e as [|m|m [k|]]; try discriminate. cbn in N. injection N as ->. destruct i as [|n|n [k|]]; try discriminate. cbn in M. injection M as ->. cbn.
    assert (B : forall e, get_InnerException (cpp_of (net_base e)) = None).
    { fix F 1. intros [|a|a [b|]]; try reflexivity. exact (F b). }
    intro H. injection H as H. specialize (B j). rewrite <- H in B. discriminate.
Qed.
Example C104_example : let e := New2 (Some 3) (Some (New1 (Some 4))) in
  get_Message (cpp_of e) = Some 3 /\ GetBaseException (cpp_of e) = Some (cpp_of (New1 (Some 4))) /\ net_base e = New1 (Some 4).
Proof. repeat split. Qed.

Print Assumptions C103_handlers_partial.
Print Assumptions C104_base_refuted.
