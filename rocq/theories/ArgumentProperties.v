(** * C96: arguments passed by value and by reference *)
From Verif Require Import Base Tac MemberModel ArgumentModel ArgumentSpec.

(** The variable of the caller that an assignment to [p] changes *)
Definition target (ps : list param) (xs : list Z) (p : place) : option Z :=
  match p with
  | Global x => Some x
  | Param i => match nth_error ps i with Some q => match p_mod q with PRef | POut | PIn => nth_error xs i | _ => None end | None => None end
  end.
(** Variables passed as `in` are not changed during the call. *)
Definition in_stable (ps : list param) (xs : list Z) (body : list assignment) : Prop :=
  forall i p x a, nth_error ps i = Some p -> p_mod p = PIn -> nth_error xs i = Some x -> In a body -> target ps xs (dest a) <> Some x.

Section Proofs.
Variable gt : Z -> cs_type.
Variable ps : list param.
Variable xs : list Z.
Hypothesis NR : forall x, no_reference (gt x).
Hypothesis NO : Forall (fun p => p_mod p <> POut) ps.
Hypothesis AR : cs_arguments gt ps xs.
Notation ct := (fun x => FormatTypeDelaration (gt x)).

Lemma plain_suffix t : no_reference t -> suffixes (FormatTypeDelaration t) = [] \/ suffixes (FormatTypeDelaration t) = [Star].
Proof. intros _. unfold FormatTypeDelaration. cbn. destruct (IsPointerType t); auto. Qed.
Lemma plain_referred t : no_reference t -> referred (FormatTypeDelaration t) = None.
Proof. intros N. unfold referred. destruct (plain_suffix t N) as [E|E]; rewrite E; reflexivity. Qed.
Lemma ref_referred t : referred (mk_cpp (base (FormatTypeDelaration t)) (suffixes (FormatTypeDelaration t) ++ [Amp])) = Some (FormatTypeDelaration t).
Proof. unfold referred. cbn [suffixes]. rewrite rev_app_distr. cbn. rewrite rev_involutive. reflexivity. Qed.
(** The cell a parameter becomes in C++ *)
Definition cpp_cell (s : store) (p : param) (x : Z) : cell := match p_mod p with PRef => Alias x | _ => Own (s x) end.
Lemma bind_cell s p x c : p_mod p <> POut -> p_type p = gt x -> binds ct s (VisitParameterDeclaration p) x c <-> c = cpp_cell s p x.
Proof.
  intros N T. unfold VisitParameterDeclaration, AddParameterModifiers, cpp_cell. rewrite T. destruct (p_mod p) eqn:M; try congruence; rewrite ?app_nil_r.
  2: { split; [intros B; inversion B as [R|R E]; [reflexivity|]; rewrite ref_referred in R; discriminate|intros ->; apply B_reference, ref_referred]. }
  all: assert (E : mk_cpp (base (FormatTypeDelaration (gt x))) (suffixes (FormatTypeDelaration (gt x))) = FormatTypeDelaration (gt x)) by reflexivity; rewrite E;
    (split; [intros B; inversion B as [R|R E']; [rewrite (plain_referred _ (NR x)) in R; discriminate|reflexivity]|intros ->; apply B_value; [apply plain_referred, NR|reflexivity]]).
Qed.
Lemma object_of p x : p_mod p <> POut -> p_type p = gt x -> object_type (VisitParameterDeclaration p) = FormatTypeDelaration (p_type p).
Proof.
  intros N T. unfold object_type, VisitParameterDeclaration, AddParameterModifiers. destruct (p_mod p) eqn:M; try congruence; rewrite ?app_nil_r; [|rewrite ref_referred; reflexivity|..];
    (assert (E : mk_cpp (base (FormatTypeDelaration (p_type p))) (suffixes (FormatTypeDelaration (p_type p))) = FormatTypeDelaration (p_type p)) by reflexivity; rewrite E, T, (plain_referred _ (NR x)); reflexivity).
Qed.
Fixpoint cpp_cells (s : store) (ps : list param) (xs : list Z) : list cell :=
  match ps, xs with p :: ps, x :: xs => cpp_cell s p x :: cpp_cells s ps xs | _, _ => [] end.
Lemma bind_all s f : binds_all ct s (ParameterTypes ps) (AddCallParameters ps xs) f <-> f = cpp_cells s ps xs.
Proof.
  revert f. clear - NR NO AR. pose proof AR as A. unfold cs_arguments in A. clear AR. revert NO. induction A as [|p x ps xs T F IH]; intros NO f.
  - split; [intros B; inversion B; reflexivity|intros ->; constructor].
  - inversion NO as [|? ? N1 N2]; subst. cbn [ParameterTypes map AddCallParameters cpp_cells].
    assert (E : AddCallParameter p x = Name (Global x)) by (unfold AddCallParameter; destruct (by_reference p); reflexivity). rewrite E. split.
    + intros B. inversion B as [|q qs z zs c g B1 B2]; subst. apply (bind_cell s p x c N1 T) in B1. apply IH in B2; [|exact N2]. subst. reflexivity.
    + intros ->. constructor; [apply bind_cell; auto|apply IH; auto].
Qed.
Lemma nth_types i p : nth_error ps i = Some p -> exists x, nth_error xs i = Some x /\ p_type p = gt x /\ p_mod p <> POut.
Proof.
  clear - NO AR. pose proof AR as A. unfold cs_arguments in A. clear AR. revert i NO. induction A as [|q x qs zs T F IH]; intros i NO H; [destruct i; discriminate|]. inversion NO; subst. destruct i as [|i]; cbn in *; [injection H as ->; eauto|eauto].
Qed.
Lemma types p : type_of ct (ParameterTypes ps) p = option_map FormatTypeDelaration (cs_type_of gt ps p).
Proof.
  destruct p as [x|i]; cbn; [reflexivity|]. unfold ParameterTypes. rewrite nth_error_map. destruct (nth_error ps i) as [p|] eqn:E; [|reflexivity]. cbn. destruct (nth_types i p E) as (x & _ & T & N). f_equal. eapply object_of; eauto.
Qed.
Lemma written_source s : VisitSource ps s = match s with Constant z => Number z | Load p => Name p end.
Proof. destruct s as [[x|i]|z]; cbn; [reflexivity| |reflexivity]. destruct (nth_error ps i) as [p|]; [|reflexivity]. destruct (by_reference p); reflexivity. Qed.
Lemma accepted a : cs_assignable gt ps a -> assignable ct (ParameterTypes ps) (dest a) (VisitSource ps (src a)).
Proof.
  unfold cs_assignable, assignable. rewrite written_source, types. destruct (cs_type_of gt ps (dest a)) as [t|] eqn:E; [|intros []]. cbn [option_map]. destruct (src a) as [q|z]; intros H.
  - rewrite types, H. reflexivity.
  - intros P. destruct H as [H|H]; [|exact H]. unfold is_pointer, FormatTypeDelaration in P. destruct t as [[] k n|e|e]; try discriminate.
Qed.
(** Corresponding frames *)
Definition frames (s : store) (f g : list cell) : Prop := length f = length g /\
  forall i c d, nth_error f i = Some c -> nth_error g i = Some d ->
    (exists p x, nth_error ps i = Some p /\ nth_error xs i = Some x /\
      match p_mod p with PRef => c = Alias x /\ d = Alias x | PIn => c = Alias x /\ d = Own (s x) | _ => c = d /\ exists v, c = Own v end).
Lemma start s : frames s (cs_bind_all s ps xs) (cpp_cells s ps xs).
Proof.
  unfold frames. clear - NO AR. pose proof AR as A. unfold cs_arguments in A. clear AR. revert NO. induction A as [|p x ps xs T F IH]; intros NO; [split; [reflexivity|intros [|i]; discriminate]|]. inversion NO as [|? ? N1 N2]; subst. destruct (IH N2) as [L H]. split; [cbn; congruence|].
  intros [|i] c d Hc Hd; cbn in *; [|apply (H i c d Hc Hd)]. injection Hc as <-. injection Hd as <-. exists p, x. unfold cs_bind, cpp_cell. destruct (p_mod p); eauto; congruence.
Qed.
Lemma frame_get s f g i : frames s f g -> option_map (get s) (nth_error f i) = option_map (get s) (nth_error g i).
Proof.
  intros [Le H]. destruct (nth_error f i) as [c|] eqn:C.
  - destruct (nth_error g i) as [d|] eqn:D; [|apply nth_error_None in D; assert (i < length f)%nat by (apply nth_error_Some; congruence); lia].
    destruct (H i c d C D) as (p & x & _ & _ & M). cbn. f_equal. destruct (p_mod p); destruct M as [-> M]; subst; try reflexivity.
  - destruct (nth_error g i) as [d|] eqn:D; [|reflexivity]. apply nth_error_None in C. assert (i < length g)%nat by (apply nth_error_Some; congruence). lia.
Qed.
Lemma load_same s f g p : frames s f g -> load (s, f) p = load (s, g) p.
Proof. intros F. destruct p as [x|i]; cbn; [reflexivity|]. apply frame_get, F. Qed.
Lemma set_cell_nth f : forall i j v, (i < length f)%nat -> nth_error (set_cell f i v) j = if Nat.eqb j i then Some (Own v) else nth_error f j.
Proof. induction f as [|c f IH]; intros i j v H; cbn in H; [lia|]. destruct i as [|i], j as [|j]; cbn; auto. apply IH. lia. Qed.
Lemma set_cell_length f : forall i v, length (set_cell f i v) = length f.
Proof. induction f as [|c f IH]; intros [|i] v; cbn; auto. Qed.
Definition stable (p : place) : Prop := forall i q x, nth_error ps i = Some q -> p_mod q = PIn -> nth_error xs i = Some x -> target ps xs p <> Some x.
Lemma set_frames s f g x v : frames s f g -> (forall i q y, nth_error ps i = Some q -> p_mod q = PIn -> nth_error xs i = Some y -> x <> y) -> frames (set s x v) f g.
Proof.
  intros [Le H] N. split; [exact Le|]. intros i c d Hc Hd. destruct (H i c d Hc Hd) as (p & y & P & X & M). exists p, y. split; [exact P|]. split; [exact X|]. destruct (p_mod p) eqn:E; auto. destruct M as [-> ->]. split; [reflexivity|].
  unfold set. destruct (y =? x) eqn:Y; [|reflexivity]. apply Z.eqb_eq in Y. subst. destruct (N i p x P E X). reflexivity.
Qed.
Lemma assign_same s f g p v : frames s f g -> stable p ->
  match assign (s, f) p v with
  | Some (s', f') => exists g', assign (s, g) p v = Some (s', g') /\ frames s' f' g'
  | None => assign (s, g) p v = None
  end.
Proof.
  intros F St. destruct p as [x|i]; cbn.
  - exists g. split; [reflexivity|]. apply set_frames; [exact F|]. intros j q y P M X E. subst. exact (St j q y P M X eq_refl).
  - pose proof F as [Le H]. destruct (nth_error f i) as [c|] eqn:C.
    2: { destruct (nth_error g i) as [d|] eqn:D; [|reflexivity]. apply nth_error_None in C. assert (i < length g)%nat by (apply nth_error_Some; congruence). lia. }
    assert (Li : (i < length f)%nat) by (apply nth_error_Some; congruence).
    destruct (nth_error g i) as [d|] eqn:D; [|apply nth_error_None in D; lia].
    destruct (H i c d C D) as (p & x & P & X & M).
    assert (T : forall y, p_mod p = PRef -> nth_error xs i = Some y -> target ps xs (Param i) = Some y) by (intros y E Y; unfold target; rewrite P, E; exact Y).
    destruct (p_mod p) eqn:E.
    + destruct M as [<- [w ->]]. eexists. split; [reflexivity|]. split; [rewrite !set_cell_length; exact Le|]. intros j c d Hc Hd. rewrite set_cell_nth in Hc, Hd by lia. destruct (Nat.eqb j i) eqn:J; [|exact (H j c d Hc Hd)].
      apply Nat.eqb_eq in J. subst j. exists p, x. rewrite E. injection Hc as <-. injection Hd as <-. eauto 6.
    + destruct M as [-> ->]. eexists. split; [reflexivity|]. apply set_frames; [exact F|]. intros j q y Pj Mj Xj ->. exact (St j q y Pj Mj Xj (T y eq_refl X)).
    + rewrite Forall_forall in NO. destruct (NO p (nth_error_In _ _ P) E).
    + destruct M as [<- [w ->]]. eexists. split; [reflexivity|]. split; [rewrite !set_cell_length; exact Le|]. intros j c d Hc Hd. rewrite set_cell_nth in Hc, Hd by lia. destruct (Nat.eqb j i) eqn:J; [|exact (H j c d Hc Hd)].
      apply Nat.eqb_eq in J. subst j. exists p, x. rewrite E. injection Hc as <-. injection Hd as <-. eauto 6.
    + destruct (St i p x P E X). unfold target. rewrite P, E. exact X.
Qed.
Lemma run_same l : forall s f g, frames s f g -> Forall (cs_assignable gt ps) l -> (forall a, In a l -> stable (dest a)) ->
  match cs_run (s, f) l with
  | Some (s', _) => (exists g', runs ct (ParameterTypes ps) (s, g) (map (VisitStore ps) l) (s', g')) /\ forall t g', runs ct (ParameterTypes ps) (s, g) (map (VisitStore ps) l) (t, g') -> t = s'
  | None => forall q, ~ runs ct (ParameterTypes ps) (s, g) (map (VisitStore ps) l) q
  end.
Proof.
  induction l as [|a l IH]; intros s f g F T St; cbn [cs_run map].
  - split; [exists g; constructor|]. intros t g' R. inversion R; reflexivity.
  - inversion T as [|? ? Ta Tl]; subst. pose proof (accepted a Ta) as Ac. unfold VisitStore at 1 2 3. rewrite written_source in *.
    assert (V : (match src a with Constant z => Some z | Load p => load (s, f) p end) = match (match src a with Constant z => Number z | Load p => Name p end) with Number z => Some z | Name q => load (s, g) q end) by (destruct (src a); [apply load_same, F|reflexivity]).
    rewrite V. destruct (match (match src a with Constant z => Number z | Load p => Name p end) with Number z => Some z | Name q => load (s, g) q end) as [v|] eqn:Ev.
    2: { intros q R. inversion R as [|? ? ? ? v0 q0 ? A1 A2 A3 A4]; subst. rewrite written_source in A2. congruence. }
    pose proof (assign_same s f g (dest a) v F (St a (or_introl eq_refl))) as As. destruct (assign (s, f) (dest a) v) as [[s1 f1]|].
    + destruct As as (g1 & Eg & F1). specialize (IH s1 f1 g1 F1 Tl (fun b H => St b (or_intror H))). destruct (cs_run (s1, f1) l) as [[s2 f2]|].
      * destruct IH as [[g2 R] U]. split; [exists g2; econstructor; eauto|]. intros t g' R'. inversion R' as [|? ? ? ? v' q ? A1 A2 A3 A4]; subst. assert (v' = v) by congruence. subst v'. rewrite Eg in A3. injection A3 as <-. eapply U, A4.
      * intros q R'. inversion R' as [|? ? ? ? v' q' ? A1 A2 A3 A4]; subst. rewrite ?written_source in A2; assert (v' = v) by congruence. subst v'. rewrite Eg in A3. injection A3 as <-. exact (IH _ A4).
    + intros q R'. inversion R' as [|? ? ? ? v' q' ? A1 A2 A3 A4]; subst. rewrite ?written_source in A2; assert (v' = v) by congruence. subst v'. congruence.
Qed.
End Proofs.

(** A call of a method whose parameters are passed by value, `ref`, `in` (where the argument does not change during the call) or
    `params`, of any types: the C++ program is accepted and leaves the variables as C# does, and in no other way.
    Missing: `out` parameters, `in` parameters that change; see the refutations. *)
Theorem C96_arguments_partial gt ps xs body s s' :
  (forall x, no_reference (gt x)) -> (forall p, In p ps -> p_mod p <> POut) -> cs_arguments gt ps xs -> (forall a, In a body -> cs_assignable gt ps a) -> in_stable ps xs body ->
  cs_call s ps xs body = Some s' ->
  forall t, cpp_call (fun x => FormatTypeDelaration (gt x)) s (ParameterTypes ps) (AddCallParameters ps xs) (map (VisitStore ps) body) t <-> t = s'.
Proof.
  intros NR NO AR T St C t. apply Forall_forall in NO. apply Forall_forall in T. unfold cs_call in C.
  pose proof (run_same gt ps xs NR NO AR body s _ _ (start gt ps xs NO AR s) T (fun a H i q x P M X => St i q x a P M X H)) as R.
  destruct (cs_run (s, cs_bind_all s ps xs) body) as [[s1 f1]|]; [|discriminate]. injection C as ->. destruct R as [[g R] U]. split.
  - intros (f & f' & B & R'). apply (bind_all gt ps xs NR NO AR) in B. subst f. eapply U, R'.
  - intros ->. eexists _, _. split; [apply (bind_all gt ps xs NR NO AR); reflexivity|exact R].
Qed.

(** ** Refutations *)
(** A C++ compiler rejects every call of a method with an `out` parameter. *)
Theorem C96_out_refuted gt s ps xs args body : In POut (map p_mod ps) -> cs_arguments gt ps xs -> args = AddCallParameters ps xs ->
  forall t, ~ cpp_call (fun x => FormatTypeDelaration (gt x)) s (ParameterTypes ps) args body t.
Proof.
  intros I A -> t (f & f' & B & _). clear body t f'. unfold cs_arguments in A. revert f I B. induction A as [|p x ps xs T F IH]; intros f I B; [destruct I|]. cbn [ParameterTypes map AddCallParameters] in B.
  assert (E : AddCallParameter p x = Name (Global x)) by (unfold AddCallParameter; destruct (by_reference p); reflexivity). rewrite E in B. inversion B as [|q qs z zs c g B1 B2]; subst. destruct I as [I|I]; [|exact (IH _ I B2)].
  unfold VisitParameterDeclaration, AddParameterModifiers in B1. rewrite I, T in B1. inversion B1 as [R|R E']; subst.
  - unfold referred in R. cbn [suffixes] in R. rewrite rev_app_distr in R. discriminate R.
  - apply (f_equal (fun t => length (suffixes t))) in E'. cbn [suffixes] in E'. rewrite app_length in E'. cbn in E'. lia.
Qed.
(** The body cannot assign an `out` parameter either, unless to zero, which makes the pointer null. *)
Theorem C96_out_assigned_refuted gt p z : p_mod p = POut -> z <> 0 -> ~ assignable (fun x => FormatTypeDelaration (gt x)) (ParameterTypes [p]) (Param 0) (VisitSource [p] (Constant z)).
Proof.
  intros M N A. cbn in A. unfold VisitParameterDeclaration, AddParameterModifiers in A. rewrite M in A.
  assert (E : object_type (mk_cpp (base (FormatTypeDelaration (p_type p))) (suffixes (FormatTypeDelaration (p_type p)) ++ [Star])) = mk_cpp (base (FormatTypeDelaration (p_type p))) (suffixes (FormatTypeDelaration (p_type p)) ++ [Star])).
  { unfold object_type, referred. cbn [suffixes]. rewrite rev_app_distr. reflexivity. }
  rewrite E in A. apply N, A. unfold is_pointer. cbn [suffixes]. destruct (suffixes (FormatTypeDelaration (p_type p))); reflexivity.
Qed.
(** M(in T p, ref T q) { q = c; T.g = p; } called as M(in x, ref x): C# leaves g = c, C++ the old value of x. *)
Theorem C96_in_refuted gt x g c s n : x <> g -> s x <> c -> gt x = Named KStruct true n -> gt g = Named KStruct true n -> (forall y, no_reference (gt y)) ->
  let ps := [mk_param (Named KStruct true n) PIn; mk_param (Named KStruct true n) PRef] in
  let body := [mk_assignment (Param 1) (Constant c); mk_assignment (Global g) (Load (Param 0))] in
  exists s' t', cs_call s ps [x; x] body = Some s' /\ cpp_call (fun x => FormatTypeDelaration (gt x)) s (ParameterTypes ps) (AddCallParameters ps [x; x]) (map (VisitStore ps) body) t' /\ s' g = c /\ t' g = s x.
Proof.
  intros Nx Nc Tx Tg NR ps body. eexists _, _. split; [reflexivity|]. split.
  - eexists _, _. split; [apply (bind_all gt ps [x; x] NR); [repeat constructor; discriminate|repeat constructor; cbn; congruence|reflexivity]|]. cbn.
    econstructor; [cbn; discriminate|reflexivity|reflexivity|]. econstructor; [cbn; rewrite Tg; reflexivity|reflexivity|reflexivity|constructor].
  - cbn. unfold set. rewrite !Z.eqb_refl. split; reflexivity.
Qed.
(** A `ref` local is declared as a variable of its own (or, for other types than structs, as a pointer), never as a reference. *)
Theorem C96_ref_local_refuted t : referred (DeclareRefLocal t) = None /\ (is_struct_type t = true -> DeclareRefLocal t = FormatTypeDelaration t).
Proof.
  unfold DeclareRefLocal, FormatTypeDelaration, referred. split; [cbn [suffixes IsPointerType]; destruct (negb (is_struct_type t)); reflexivity|]. destruct t as [[] k n|e|e]; try discriminate. reflexivity.
Qed.
(** A method of a primitive `ref` parameter is called on the bare number, which in C++ has no methods. *)
Theorem C96_receiver_refuted is_primitive t : is_primitive t = true -> no_reference t -> FormatCallInstance is_primitive t = Boxed /\ FormatCallInstance is_primitive (ByReference t) = Plain.
Proof. intros P N. split; [|reflexivity]. unfold FormatCallInstance, IsPrimative. destruct t; [rewrite P; reflexivity|rewrite P; reflexivity|destruct N]. Qed.

(** Swap(ref a, ref b) { T t = a; a = b; b = t; } with t as a value parameter, and a count by value *)
Definition int : cs_type := Named KStruct true 5.
Example C96_example : let ps := [mk_param int PRef; mk_param int PRef; mk_param int PNone] in
  let body := [mk_assignment (Param 2) (Load (Param 0)); mk_assignment (Param 0) (Load (Param 1)); mk_assignment (Param 1) (Load (Param 2)); mk_assignment (Global 9) (Constant 4)] in
  cs_arguments (fun _ => int) ps [1; 2; 3] /\ (forall a, In a body -> cs_assignable (fun _ => int) ps a) /\ in_stable ps [1; 2; 3] body /\
  exists s', cs_call (fun x => 10 * x) ps [1; 2; 3] body = Some s' /\ s' 1 = 20 /\ s' 2 = 10 /\ s' 3 = 30 /\ s' 9 = 4.
Proof.
  cbv zeta. split; [repeat constructor|]. split; [intros a H; repeat (destruct H as [<-|H]; [cbn; auto|]); destruct H|]. split.
  - intros i p x a P M. assert (X : p_mod p <> PIn) by (apply nth_error_In in P; repeat (destruct P as [<-|P]; [discriminate|]); destruct P). congruence.
  - eexists. split; [reflexivity|]. repeat split; reflexivity.
Qed.
Print Assumptions C96_arguments_partial.
Print Assumptions C96_out_refuted.
Print Assumptions C96_in_refuted.
