(** * C89: declarations and definitions agree.  C90: virtual calls reach the same function *)
From Verif Require Import Base Tac MemberModel MemberSpec.

(** ** C89 *)
(** Members for which the agreement holds; the theorems below say what happens to the others. *)
Definition supported (absent : absence) (cls : Z) (m : member) : Prop :=
  match m with
  | Method _ _ _ _ _ | Constructor _ _ _ => True
  | Field _ const ty names => const = false /\ (exists n, names = [n]) /\ forall e, ty <> ByReference e
  | Property _ _ _ get set _ => (exists b, get = Body b) /\ (absent = NullReference \/ exists b, set = Body b)
  | Operator op r _ _ => (forall n, op <> OtherOperator n) /\ exists k, r = Named k false cls
  end.
Lemma has_in m l : (forall x, is_mod m x = true <-> x = m) -> has m l = true <-> In m l.
Proof.
  intros E. unfold has. rewrite existsb_exists. split.
  - intros (x & I & H). apply E in H. subst. exact I.
  - intros I. exists m. split; [exact I|apply E; reflexivity].
Qed.
Lemma is_mod_eq m : m <> MOther -> forall x, is_mod m x = true <-> x = m.
Proof. intros N x. split; [|intros ->; destruct m; try reflexivity; congruence]. destruct m, x; cbn; intros; try discriminate; try reflexivity; congruence. Qed.
Lemma visit_type ty : (forall e, ty <> ByReference e) -> VisitType ty = Some (FormatTypeDelaration ty).
Proof. destruct ty as [k kw n|e|e]; [destruct k; reflexivity|reflexivity|intros H; destruct (H e eq_refl)]. Qed.
Definition corresponds (cls : Z) (ds : list declared) (fs : list defined) : Prop :=
  Forall2 (fun d f => matches d f /\ in_class f = Some cls) (filter needs ds) fs.
Lemma member_corresponds absent cls m : supported absent cls m -> exists ds fs, declare absent m = Ret ds /\ define absent cls m = Ret fs /\ corresponds cls ds fs.
Proof.
  unfold corresponds. destruct m as [mods r n ps body|mods ps body|mods ty n get set hidden|mods const ty names|op r ps body]; cbn [supported declare define].
  - intros _. destruct body; eexists; eexists; (split; [reflexivity|]; split; [reflexivity|]); cbn [filter needs what]; repeat constructor.
  - intros _. destruct (has MStatic mods); eexists; eexists; (split; [reflexivity|]; split; [reflexivity|]); cbn [filter needs what is_static]; repeat constructor.
  - intros ((b & ->) & S). cbn [body_of bind present]. destruct set as [|b'].
    + destruct S as [-> |(b' & E)]; [|discriminate]. cbn [present bind]. eexists; eexists. split; [reflexivity|]. split; [reflexivity|].
      destruct hidden; cbn [app filter needs what is_static]; repeat constructor.
    + cbn [body_of bind]. eexists; eexists. split; [reflexivity|]. split; [reflexivity|].
      destruct hidden; cbn [app filter needs what is_static]; repeat constructor.
  - intros (-> & (n & ->) & N). cbn [map]. destruct (has MStatic mods) eqn:S; eexists; eexists; (split; [reflexivity|]; split; [reflexivity|]); cbn [orb filter needs what is_static]; repeat constructor; cbn [name ret params dname dret dparams]; auto. rewrite visit_type by exact N. reflexivity.
  - intros (N & k & ->). cbn [VisitAstType bind]. destruct op as [| | |n]; [| | |destruct (N n eq_refl)]; cbn [Operators bind base]; eexists; eexists; (split; [reflexivity|]; split; [reflexivity|]); cbn [filter needs what]; repeat constructor.
Qed.
Lemma Forall2_app' {A B} (R : A -> B -> Prop) a b c d : Forall2 R a b -> Forall2 R c d -> Forall2 R (a ++ c) (b ++ d).
Proof. intros H1 H2. apply Forall2_app; assumption. Qed.
(** C89: in a class of supported members, the definitions written to the source file are, in order and
    one for one, the definitions the declarations of the header need: the same name, parameter types and
    type, in the same class. *)
Theorem C89_agree_partial : forall absent c, Forall (supported absent (c_name c)) (c_members c) -> exists ds fs,
  HeaderTypeDeclaration absent c = Ret ds /\ DefineClass absent c = Ret fs /\
  Forall2 (fun d f => matches d f /\ in_class f = Some (c_name c)) (filter needs ds) fs.
Proof.
  intros absent c F. assert (X : exists ds fs, declare_all absent (c_members c) = Ret ds /\ define_all absent (c_name c) (c_members c) = Ret fs /\ corresponds (c_name c) ds fs).
  { induction F as [|m l Hm F IH].
    - exists [], []. split; [reflexivity|]. split; [reflexivity|]. constructor.
    - destruct IH as (ds & fs & E1 & E2 & R). destruct (member_corresponds absent (c_name c) m Hm) as (d & f & D1 & D2 & S). exists (d ++ ds), (f ++ fs).
      cbn [declare_all define_all]. rewrite D1, D2, E1, E2. split; [reflexivity|]. split; [reflexivity|]. unfold corresponds. rewrite filter_app. apply Forall2_app'; assumption. }
  destruct X as (ds & fs & E1 & E2 & R). unfold HeaderTypeDeclaration, DefineClass. rewrite E1. cbn [bind]. eexists. exists fs. split; [reflexivity|]. split; [exact E2|].
  rewrite filter_app. match goal with |- context [filter needs (if ?x then _ else _)] => destruct x end; cbn [filter needs what]; rewrite app_nil_r; exact R.
Qed.
Lemma declare_all_in absent l ds d : declare_all absent l = Ret ds -> In d ds <-> exists m x, In m l /\ declare absent m = Ret x /\ In d x.
Proof.
  revert ds. induction l as [|m l IH]; intros ds; cbn [declare_all].
  - intros E. injection E as <-. cbn. split; [intros []|intros (m & x & [] & _)].
  - destruct (declare absent m) as [x| |] eqn:E; cbn [bind]; try discriminate. destruct (declare_all absent l) as [r| |] eqn:R; cbn [bind]; try discriminate. intros Q. injection Q as <-.
    rewrite in_app_iff, (IH r eq_refl). split.
    + intros [H|(m' & y & I & D & H)]; [exists m, x; split; [left; reflexivity|split; assumption]|exists m', y; split; [right; exact I|split; assumption]].
    + intros (m' & y & [-> |I] & D & H); [left; rewrite E in D; injection D as <-; exact H|right; exists m', y; split; [exact I|split; assumption]].
Qed.
(** C89: a method is declared static, virtual or pure exactly if C# says static, virtual (or abstract),
    or gives it no body; an abstract method's declaration is allowed in C++. *)
Theorem C89_method_modifiers : forall absent c ds mods r n ps body, HeaderTypeDeclaration absent c = Ret ds -> In (Method mods r n ps body) (c_members c) ->
  exists d, In d ds /\ name d = Id n /\ params d = parameters ps /\ (is_static d = true <-> In MStatic mods) /\ (is_virtual d = true <-> polymorphic mods) /\ (what d = Pure <-> body = None) /\
    ((body = None -> In MAbstract mods) -> pure_is_virtual d).
Proof.
  intros absent c ds mods r n ps body E I. unfold HeaderTypeDeclaration in E. destruct (declare_all absent (c_members c)) as [x| |] eqn:D; cbn [bind] in E; try discriminate. injection E as <-.
  eexists (mk_declared _ _ _ _ _ _). split; [apply in_app_iff; left; apply (declare_all_in absent _ _ _ D); exists (Method mods r n ps body); eexists; split; [exact I|]; split; [reflexivity|]; left; reflexivity|].
  cbn [name params is_static is_virtual what]. split; [reflexivity|]. split; [reflexivity|].
  assert (V : has MAbstract mods || has MVirtual mods = true <-> polymorphic mods) by (rewrite orb_true_iff, !has_in by (apply is_mod_eq; discriminate); unfold polymorphic; tauto).
  split; [apply has_in, is_mod_eq; discriminate|]. split; [exact V|]. split; [destruct body; split; congruence|].
  intros A P. cbn [what] in P. apply V. right. apply A. destruct body; [discriminate|reflexivity].
Qed.
(** C89: whatever is written to the source file, every function has the body of the C# member it stands for, and no body is lost. *)
Theorem C89_bodies : forall absent c fs, DefineClass absent c = Ret fs -> defined_bodies fs = flat_map bodies_of (c_members c).
Proof.
  intros absent c. unfold DefineClass. generalize (c_name c) as cls. induction (c_members c) as [|m l IH]; intros cls fs; cbn [define_all]; [intros E; injection E as <-; reflexivity|].
  destruct (define absent cls m) as [d| |] eqn:D; cbn [bind]; try discriminate. destruct (define_all absent cls l) as [r| |] eqn:R; cbn [bind]; try discriminate. intros E. injection E as <-.
  unfold defined_bodies. rewrite flat_map_app. change (flat_map _ r) with (defined_bodies r). rewrite (IH _ _ R). cbn [flat_map]. f_equal. clear - D.
  destruct m as [mods rt n ps [b|]|mods ps b|mods ty n get set hidden|mods const ty names|op rt ps b]; cbn [define bodies_of] in *.
  - injection D as <-. cbn. unfold parameters. rewrite map_length. reflexivity.
  - injection D as <-. reflexivity.
  - change (has MStatic mods) with (existsb (is_mod MStatic) mods) in D. assert (E : existsb (is_mod MStatic) mods = existsb (fun x => match x with MStatic => true | _ => false end) mods) by (clear; induction mods as [|[] ? IH]; cbn in *; congruence).
    rewrite E in D. destruct (existsb _ mods); injection D as <-; cbn; [reflexivity|]. unfold parameters. rewrite map_length. reflexivity.
  - destruct get as [|g], set as [|s], absent; cbn [present body_of bind] in D; try discriminate; injection D as <-; reflexivity.
  - destruct (has MStatic mods); [destruct names as [|? [|]]; try discriminate|]; injection D as <-; reflexivity.
  - destruct (VisitAstType rt) as [t| |]; cbn [bind] in D; try discriminate. destruct op; cbn [Operators bind] in D; try discriminate; injection D as <-; cbn; unfold parameters; rewrite map_length; reflexivity.
Qed.
Print Assumptions C89_bodies.
(** C89: a struct without a static constructor can be created without arguments. *)
Theorem C89_default_partial : forall absent c ds, HeaderTypeDeclaration absent c = Ret ds -> c_kind c = KStruct ->
  (forall mods ps b, In (Constructor mods ps b) (c_members c) -> ~ In MStatic mods) -> default_constructible ds.
Proof.
  intros absent c ds E K NS. unfold HeaderTypeDeclaration in E. destruct (declare_all absent (c_members c)) as [x| |] eqn:D; cbn [bind] in E; try discriminate. injection E as <-. rewrite K. cbn [is_struct_kind].
  destruct (existsb is_constructor (c_members c)) eqn:C; cbn [andb].
  2:{ left. intros d. rewrite app_nil_r, (declare_all_in absent _ _ _ D). intros (m & y & I & Dm & H).
      assert (is_constructor m = false) by (destruct (is_constructor m) eqn:Q; [|reflexivity]; rewrite <- C; symmetry; apply existsb_exists; exists m; split; assumption).
      destruct m as [mods r n ps body|mods ps body|mods ty n get set hidden|mods const ty names|op r ps body]; cbn [declare is_constructor] in *; try discriminate.
      - injection Dm as <-. destruct H as [<- |[]]. discriminate.
      - destruct (body_of get); cbn [bind] in Dm; try discriminate. injection Dm as <-. rewrite !in_app_iff in H. destruct H as [H|[H|H]]; (match type of H with In _ (if ?x then _ else _) => destruct x end); (destruct H as [H|H]; [rewrite <- H; discriminate|destruct H]) || destruct H.
      - destruct names; [discriminate|]. injection Dm as <-. destruct H as [<- |H]; [discriminate|]. apply in_map_iff in H. destruct H as (n & <- & _). discriminate.
      - destruct (VisitAstType r); cbn [bind] in Dm; try discriminate. destruct op; cbn [Operators bind] in Dm; try discriminate; injection Dm as <-; destruct H as [<- |[]]; discriminate. }
  right. destruct (existsb no_parameters (c_members c)) eqn:N; cbn [negb].
  - apply existsb_exists in N. destruct N as (m & I & H). destruct m as [|mods ps body| | |]; try discriminate. destruct ps; [|discriminate].
    assert (S : has MStatic mods = false) by (destruct (has MStatic mods) eqn:S; [|reflexivity]; apply has_in in S; [|apply is_mod_eq; discriminate]; destruct (NS _ _ _ I S)).
    exists (mk_declared false false Prototype None Ctor []). split; [|split; reflexivity]. rewrite app_nil_r. apply (declare_all_in absent _ _ _ D).
    exists (Constructor mods [] body). eexists. split; [exact I|]. cbn [declare]. rewrite S. split; [reflexivity|left; reflexivity].
  - eexists. split; [apply in_app_iff; right; left; reflexivity|split; reflexivity].
Qed.

(** ** What fails *)
(** C89: a static property is declared - and called as Class::get_P - but not static. *)
Theorem C89_static_property_refuted : forall absent c ds mods ty n get set hidden, HeaderTypeDeclaration absent c = Ret ds -> In (Property mods ty n get set hidden) (c_members c) -> In MStatic mods ->
  exists d, In d ds /\ name d = Getter n /\ is_static d = false.
Proof.
  intros absent c ds mods ty n get set hidden E I _. unfold HeaderTypeDeclaration in E. destruct (declare_all absent (c_members c)) as [x| |] eqn:D; cbn [bind] in E; try discriminate. injection E as <-.
  assert (exists y, declare absent (Property mods ty n get set hidden) = Ret y) as (y & Y).
  { clear - D I. revert x D. induction (c_members c) as [|m l IH]; intros x; [destruct I|]. cbn [declare_all]. destruct (declare absent m) as [y| |] eqn:Y; cbn [bind]; try discriminate. destruct I as [-> |I]; [intros _; exists y; exact Y|]. destruct (declare_all absent l) as [z| |]; cbn [bind]; try discriminate. intros _. exact (IH I z eq_refl). }
  pose proof Y as Y'. cbn [declare] in Y'. destruct get as [|b]; cbn [body_of bind] in Y'; [discriminate|]. injection Y' as Y'.
  eexists. split; [apply in_app_iff; left; apply (declare_all_in absent _ _ _ D); exists (Property mods ty n (Body b) set hidden); exists y; split; [exact I|]; split; [exact Y|]; rewrite <- Y'; left; reflexivity|]. split; reflexivity.
Qed.
(** C89: a property with one accessor: the header fails without a getter; where the library gives a
    null object, both files fail without a setter or the source fails after the header declared it. *)
Theorem C89_accessor_refuted : forall absent cls mods ty n b hidden,
  declare absent (Property mods ty n Absent (Body b) hidden) = Exn NullReferenceException /\
  define NullObject cls (Property mods ty n (Body b) Absent hidden) = Exn NullReferenceException.
Proof. intros. split; reflexivity. Qed.
(** C89: operators: only +, - and & are known; a result type that is a keyword fails; any other result
    type than the class itself puts the definition into another class. *)
Theorem C89_operator_refuted :
  (forall absent n r ps b, declare absent (Operator (OtherOperator n) (Named KStruct false r) ps b) = Exn KeyNotFoundException) /\
  (forall absent op k r ps b, declare absent (Operator op (Named k true r) ps b) = Exn NotImplementedException) /\
  (forall absent cls k r ps b, r <> cls -> exists f, define absent cls (Operator Addition (Named k false r) ps b) = Ret [f] /\ in_class f <> Some cls).
Proof. split; [reflexivity|]. split; [reflexivity|]. intros. eexists. split; [reflexivity|]. cbn. congruence. Qed.
(** C89: a constant is declared static but never defined. *)
Theorem C89_constant_refuted : forall absent cls ty n, exists d,
  declare absent (Field [] true ty [n]) = Ret [d] /\ needs d = true /\ define absent cls (Field [] true ty [n]) = Ret [].
Proof. intros. eexists. split; [reflexivity|]. split; reflexivity. Qed.
(** C89: a struct with a static constructor and one with parameters cannot be created without arguments. *)
Theorem C89_default_refuted : exists c ds, c_kind c = KStruct /\ HeaderTypeDeclaration NullObject c = Ret ds /\ ~ default_constructible ds.
Proof.
  exists (mk_class KStruct 9 [Constructor [MStatic] [] 1; Constructor [] [mk_param (Named KStruct true 5) PNone] 2]). eexists. split; [reflexivity|]. split; [reflexivity|].
  intros [H|(d & I & N & P)].
  - eapply H; [right; right; left; reflexivity|reflexivity].
  - cbn in I. destruct I as [<- |[<- |[<- |[]]]]; cbn in N, P; discriminate.
Qed.
(** C89: an external method is declared pure but not virtual, which is not C++. *)
Theorem C89_extern_refuted : forall absent r n ps, exists d, declare absent (Method [MStatic] r n ps None) = Ret [d] /\ ~ pure_is_virtual d.
Proof. intros. eexists. split; [reflexivity|]. intros H. specialize (H eq_refl). discriminate. Qed.
(** C89: overloads that differ in the element type of an array become the same C++ function; so do a
    parameter passed by [in] and by value. *)
Theorem C89_overload_refuted : forall e e', parameters [mk_param (ArrayOf e) PNone] = parameters [mk_param (ArrayOf e') PNone] /\ parameters [mk_param e PIn] = parameters [mk_param e PNone].
Proof. intros. split; reflexivity. Qed.
(** C89: otherwise, overloads stay different. *)
Definition plain_param (p : param) : Prop := (exists k w n, p_type p = Named k w n) /\ (p_mod p = PNone \/ p_mod p = PRef \/ p_mod p = POut).
Definition same_type (a b : cs_type) : Prop := match a, b with Named k w n, Named k' w' n' => n = n' -> k = k' /\ w = w' | _, _ => True end.   (* a name means one type *)
Theorem C89_overload_partial : forall ps ps', Forall plain_param ps -> Forall plain_param ps' -> (forall p p', In p ps -> In p' ps' -> same_type (p_type p) (p_type p')) -> parameters ps = parameters ps' -> ps = ps'.
Proof.
  induction ps as [|p ps IH]; intros [|p' ps'] F F' S E; try discriminate; [reflexivity|].
  inversion_clear F as [|? ? (T & M) G]. inversion_clear F' as [|? ? (T' & M') G']. unfold parameters in E. cbn [map] in E. injection E as E1 E2 E3.
  f_equal; [|apply IH; try assumption; intros; apply S; right; assumption].
  specialize (S p p' (or_introl eq_refl) (or_introl eq_refl)). destruct p as (t & m), p' as (t' & m'). cbn [p_type p_mod] in *. destruct T as (k & w & n & ->), T' as (k' & w' & n' & ->).
  cbn [FormatTypeDelaration FormatType type_name base suffixes] in *. injection E1 as E1. destruct (S E1) as (<- & <-). subst n'. f_equal.
  unfold AddParameterModifiers in E2. cbn [p_mod] in E2. apply app_inv_head in E2. destruct M as [-> |[-> | ->]], M' as [-> |[-> | ->]]; try discriminate; reflexivity.
Qed.
Example C89_example : exists ds fs, let c := mk_class KClass 7 [Method [MVirtual] (Named KStruct true 5) 20 [mk_param (Named KClass false 8) PRef] (Some 1); Property [] (Named KStruct true 5) 21 (Body 2) (Body 3) true; Constructor [] [] 4; Field [MStatic] false (ArrayOf (Named KStruct true 5)) [22]; Operator Addition (Named KClass false 7) [] 5] in
  Forall (supported NullObject 7) (c_members c) /\ HeaderTypeDeclaration NullObject c = Ret ds /\ DefineClass NullObject c = Ret fs /\ length ds = 7%nat /\ length fs = 6%nat.
Proof.
  eexists. eexists. cbn zeta. split; [|split; [reflexivity|split; [reflexivity|split; reflexivity]]].
  repeat constructor; cbn [c_members supported]; repeat split; try (eexists; reflexivity); try discriminate; right; eexists; reflexivity.
Qed.

(** ** C90: virtual calls *)
Definition headers (absent : absence) (cl : list class) (hs : list (list declared)) : Prop := Forall2 (fun c h => HeaderTypeDeclaration absent c = Ret h) cl hs.
(** A method or field of this name. *)
Definition has_name (ms : list member) (n : Z) : Prop :=
  exists m, In m ms /\ match m with Method _ _ n' _ _ => n' = n | Field _ _ _ names => In n names | _ => False end.

Lemma method_of ms n ps mods : cs_declares ms (Id n) ps mods <-> exists r body, In (Method mods r n ps body) ms.
Proof.
  split.
  - intros (m & I & H). destruct m as [mods' r n' ps' body|mods' ps' body|mods' ty n' get set hidden|mods' const ty names|op r ps' body]; cbn [functions_of] in H; try destruct H.
    + injection H as -> -> ->. exists r, body. exact I.
    + destruct H.
    + destruct get; cbn [app] in H; [|destruct H as [H|H]; [discriminate|]]; destruct set; cbn in H; (destruct H as [H|H]; [discriminate|destruct H]) || destruct H.
  - intros (r & body & I). eexists. split; [exact I|]. left. reflexivity.
Qed.
Lemma header_declares absent c h n PS v : HeaderTypeDeclaration absent c = Ret h ->
  declares h (Id n) PS v <-> exists ps mods, cs_declares (c_members c) (Id n) ps mods /\ parameters ps = PS /\ ~ In MStatic mods /\ (v = true <-> polymorphic mods).
Proof.
  intros E. unfold HeaderTypeDeclaration in E. destruct (declare_all absent (c_members c)) as [x| |] eqn:D; cbn [bind] in E; try discriminate. injection E as <-.
  assert (S : forall mods, has MStatic mods = true <-> In MStatic mods) by (intros; apply has_in, is_mod_eq; discriminate).
  assert (V : forall mods, has MAbstract mods || has MVirtual mods = true <-> polymorphic mods) by (intros; rewrite orb_true_iff, !has_in by (apply is_mod_eq; discriminate); unfold polymorphic; tauto).
  split.
  - intros (d & I & N & P & W & St & Vi). apply in_app_iff in I. destruct I as [I|I].
    2:{ match type of I with In _ (if ?x then _ else _) => destruct x end; [destruct I as [<- |[]]; discriminate|destruct I]. }
    apply (declare_all_in absent _ _ _ D) in I. destruct I as (m & y & I & Dm & H).
    destruct m as [mods r n' ps body|mods ps body|mods ty n' get set hidden|mods const ty names|op r ps body]; cbn [declare] in Dm.
    + injection Dm as <-. destruct H as [<- |[]]. cbn [name params what is_static is_virtual] in *. injection N as ->. exists ps, mods. split; [apply method_of; exists r, body; exact I|]. split; [exact P|]. split; [rewrite <- S, St; discriminate|]. rewrite <- Vi. apply V.
    + destruct (has MStatic mods); injection Dm as <-; [destruct H as [<- |[<- |[]]]|destruct H as [<- |[]]]; discriminate.
    + destruct (body_of get); cbn [bind] in Dm; try discriminate. injection Dm as <-. rewrite !in_app_iff in H. destruct H as [H|[H|H]]; (match type of H with In _ (if ?x then _ else _) => destruct x end); (destruct H as [H|H]; [rewrite <- H in N; discriminate|destruct H]) || destruct H.
    + destruct names; [discriminate|]. injection Dm as <-. exfalso. apply W. destruct H as [<- |H]; [reflexivity|]. apply in_map_iff in H. destruct H as (q & <- & _). reflexivity.
    + destruct (VisitAstType r); cbn [bind] in Dm; try discriminate. destruct op; cbn [Operators bind] in Dm; try discriminate; injection Dm as <-; destruct H as [<- |[]]; discriminate.
  - intros (ps & mods & H & P & N & Vi). apply method_of in H. destruct H as (r & body & I).
    exists (mk_declared (has MStatic mods) (has MAbstract mods || has MVirtual mods) (match body with None => Pure | _ => Prototype end) (Some (FormatTypeDelaration r)) (Id n) (parameters ps)).
    split; [apply in_app_iff; left; apply (declare_all_in absent _ _ _ D); exists (Method mods r n ps body); eexists; split; [exact I|split; [reflexivity|left; reflexivity]]|].
    cbn [name params what is_static is_virtual]. split; [reflexivity|]. split; [exact P|]. split; [destruct body; discriminate|]. split; [destruct (has MStatic mods) eqn:Q; [apply S in Q; destruct (N Q)|reflexivity]|].
    apply Bool.eq_iff_eq_true. rewrite V. symmetry. exact Vi.
Qed.
Lemma header_name absent c h n : HeaderTypeDeclaration absent c = Ret h -> declares_name h (Id n) <-> has_name (c_members c) n.
Proof.
  intros E. unfold HeaderTypeDeclaration in E. destruct (declare_all absent (c_members c)) as [x| |] eqn:D; cbn [bind] in E; try discriminate. injection E as <-. split.
  - intros (d & I & N). apply in_app_iff in I. destruct I as [I|I].
    2:{ match type of I with In _ (if ?x then _ else _) => destruct x end; [destruct I as [<- |[]]; discriminate|destruct I]. }
    apply (declare_all_in absent _ _ _ D) in I. destruct I as (m & y & I & Dm & H). exists m. split; [exact I|].
    destruct m as [mods r n' ps body|mods ps body|mods ty n' get set hidden|mods const ty names|op r ps body]; cbn [declare] in Dm.
    + injection Dm as <-. destruct H as [<- |[]]. cbn in N. congruence.
    + destruct (has MStatic mods); injection Dm as <-; [destruct H as [<- |[<- |[]]]|destruct H as [<- |[]]]; discriminate.
    + destruct (body_of get); cbn [bind] in Dm; try discriminate. injection Dm as <-. rewrite !in_app_iff in H. destruct H as [H|[H|H]]; (match type of H with In _ (if ?x then _ else _) => destruct x end); (destruct H as [H|H]; [rewrite <- H in N; discriminate|destruct H]) || destruct H.
    + destruct names as [|z names]; [discriminate|]. injection Dm as <-. destruct H as [<- |H]; [cbn in N; left; congruence|]. apply in_map_iff in H. destruct H as (q & <- & Q). cbn in N. right. congruence.
    + destruct (VisitAstType r); cbn [bind] in Dm; try discriminate. destruct op; cbn [Operators bind] in Dm; try discriminate; injection Dm as <-; destruct H as [<- |[]]; discriminate.
  - intros (m & I & H). destruct m as [mods r n' ps body|mods ps body|mods ty n' get set hidden|mods const ty names|op r ps body]; try destruct H.
    + eexists. split; [apply in_app_iff; left; apply (declare_all_in absent _ _ _ D); exists (Method mods r n' ps body); eexists; split; [exact I|split; [reflexivity|left; reflexivity]]|cbn [name]; f_equal; exact H].
    + exists (mk_declared (has MStatic mods || const) false Variable_ (Some (FormatTypeDelaration ty)) (Id n) []). split; [|reflexivity]. apply in_app_iff; left. apply (declare_all_in absent _ _ _ D). exists (Field mods const ty names). eexists. split; [exact I|]. cbn [declare].
      destruct names; [destruct H|]. split; [reflexivity|]. apply (in_map (fun n => mk_declared (has MStatic mods || const) false Variable_ (Some (FormatTypeDelaration ty)) (Id n) [])). exact H.
Qed.
Lemma headers_at absent cl hs i : headers absent cl hs -> (i < length cl)%nat -> exists c, at_class (map c_members cl) i = c_members c /\ HeaderTypeDeclaration absent c = Ret (at_class hs i).
Proof.
  intros F. revert i. induction F as [|c h cl hs E F IH]; intros i L; [cbn in L; lia|]. destruct i; [exists c; split; [reflexivity|exact E]|]. cbn in L. apply (IH i). lia.
Qed.
Lemma modifier_dec (x y : modifier) : {x = y} + {x <> y}. Proof. decide equality. Qed.
Lemma cs_type_dec (x y : cs_type) : {x = y} + {x <> y}. Proof. decide equality; try apply Z.eq_dec; try apply bool_dec; decide equality. Qed.
Lemma param_dec (x y : param) : {x = y} + {x <> y}. Proof. decide equality; [decide equality|apply cs_type_dec]. Qed.
Lemma declares_dec ms n ps : cs_declares_any ms (Id n) ps \/ ~ cs_declares_any ms (Id n) ps.
Proof.
  induction ms as [|m ms IH]; [right; intros (mods & m & [] & _)|]. destruct IH as [(mods & m' & I & H)|N]; [left; exists mods, m'; split; [right; exact I|exact H]|].
  destruct m as [mods r n' ps' body|mods ps' body|mods ty n' get set hidden|mods const ty names|op r ps' body].
  1: destruct (Z.eq_dec n' n) as [-> |Nn]; [destruct (list_eq_dec param_dec ps' ps) as [-> |Np]; [left; exists mods; eexists; split; [left; reflexivity|left; reflexivity]|]|].
  all: right; intros (mods' & H); apply method_of in H; destruct H as (r' & b' & [E|I]); [congruence|apply N; exists mods'; apply method_of; exists r', b'; exact I].
Qed.
Lemma polymorphic_dec mods : polymorphic mods \/ ~ polymorphic mods.
Proof. unfold polymorphic. destruct (in_dec modifier_dec MVirtual mods), (in_dec modifier_dec MAbstract mods); tauto. Qed.
Lemma last_one (P : nat -> Prop) b s : (forall i, P i \/ ~ P i) -> (b <= s)%nat -> P b -> exists i, (b <= i <= s)%nat /\ P i /\ forall j, (i < j <= s)%nat -> ~ P j.
Proof.
  intros D L B. induction L as [|s L IH]; [exists b; split; [lia|]; split; [exact B|intros; lia]|].
  destruct (D (S s)) as [Y|N]; [exists (S s); split; [lia|]; split; [exact Y|intros; lia]|].
  destruct IH as (i & H & Pi & Q). exists i. split; [lia|]. split; [exact Pi|]. intros j J. destruct (Nat.eq_dec j (S s)) as [-> |]; [exact N|apply Q; lia].
Qed.
(** C90: a call of a method through an expression of class number [s] on an object of class number [d]
    runs the same class's method in C++ as in C#, if between the class that introduces the method and the
    object's class it is only overridden (never hidden by a new one), and no class between declares its
    name with other parameters only. *)
Theorem C90_dispatch_partial : forall absent cl hs b s d n ps mods k, headers absent cl hs -> (b <= s <= d)%nat -> (d < length cl)%nat ->
  let cs := map c_members cl in
  cs_declares (at_class cs b) (Id n) ps mods -> ~ In MStatic mods ->
  (forall mods', cs_declares (at_class cs b) (Id n) ps mods' -> mods' = mods) ->                                                     (* C#: one method per signature *)
  (forall j, (j < b)%nat -> ~ cs_declares_any (at_class cs j) (Id n) ps) ->                                                          (* [b] introduces it *)
  (forall j mods', (b < j <= d)%nat -> cs_declares (at_class cs j) (Id n) ps mods' -> overriding mods' /\ ~ In MStatic mods' /\ polymorphic mods) ->   (* only overridden; C#: only if virtual *)
  (forall j, (b < j <= s)%nat -> has_name (at_class cs j) n -> cs_declares_any (at_class cs j) (Id n) ps) ->                         (* no hiding *)
  (forall j ps' mods', (j <= d)%nat -> cs_declares (at_class cs j) (Id n) ps' mods' -> parameters ps' = parameters ps -> ps' = ps) -> (* see C89_overload_partial *)
  cs_call cs b d (Id n) ps k <-> cpp_call hs s d (Id n) (parameters ps) k.
Proof.
  intros absent cl hs b s d n ps mods k HH L Ld cs B NS Un Intro Over Hide Dist.
  assert (BD : forall j v, (j <= d)%nat -> declares (at_class hs j) (Id n) (parameters ps) v <-> exists mods', cs_declares (at_class cs j) (Id n) ps mods' /\ ~ In MStatic mods' /\ (v = true <-> polymorphic mods')).
  { intros j v J. destruct (headers_at absent cl hs j HH ltac:(lia)) as (c & Ec & Eh). rewrite (header_declares absent c _ n _ v Eh), <- Ec. fold cs. split.
    - intros (ps' & mods' & H & P & R). rewrite (Dist j ps' mods' J H P) in H. exists mods'. split; [exact H|exact R].
    - intros (mods' & H & R). exists ps, mods'. split; [exact H|]. split; [reflexivity|exact R]. }
  assert (DA : forall j, (j <= d)%nat -> declares_any (at_class hs j) (Id n) (parameters ps) <-> cs_declares_any (at_class cs j) (Id n) ps).
  { intros j J. split.
    - intros (v & H). apply BD in H; [|exact J]. destruct H as (mods' & H & _). exists mods'. exact H.
    - intros (mods' & H). assert (~ In MStatic mods').
      { destruct (lt_eq_lt_dec j b) as [[Q| ->]|Q]; [destruct (Intro j Q); exists mods'; exact H|rewrite (Un _ H); exact NS|apply (Over j mods'); [lia|exact H]]. }
      destruct (polymorphic_dec mods') as [Y|N]; [exists true|exists false]; apply BD; try exact J; exists mods'; (split; [exact H|]; split; [assumption|]); split; intros; try assumption; try reflexivity; try discriminate; contradiction. }
  assert (NM : forall j, (j <= d)%nat -> declares_name (at_class hs j) (Id n) <-> has_name (at_class cs j) n).
  { intros j J. destruct (headers_at absent cl hs j HH ltac:(lia)) as (c & Ec & Eh). unfold cs. rewrite Ec. apply (header_name absent). exact Eh. }
  assert (HN : forall j, cs_declares_any (at_class cs j) (Id n) ps -> has_name (at_class cs j) n).
  { intros j (mods' & H). apply method_of in H. destruct H as (r & body & I). eexists. split; [exact I|reflexivity]. }
  assert (Dany : cs_declares_any (at_class cs b) (Id n) ps) by (exists mods; exact B).
  split.
  - intros (mods' & H & _ & C). rewrite (Un _ H) in *. clear mods' H.
    destruct (last_one (fun j => cs_declares_any (at_class cs j) (Id n) ps) b s (fun j => declares_dec _ n ps) ltac:(lia) Dany) as (i & Hi & Di & Li).
    exists i. split; [lia|]. split; [apply NM, HN; [lia|exact Di]|]. split; [intros j J N; apply NM in N; [|lia]; apply (Li j J), Hide; [lia|exact N]|]. split; [apply DA; [lia|exact Di]|].
    destruct C as [(P & Hk & _ & Dk & After)|(P & ->)].
    + left. assert (Dk' : cs_declares_any (at_class cs k) (Id n) ps) by (destruct Dk as [-> |(mods' & H & _)]; [exact Dany|exists mods'; exact H]).
      assert (Af : forall j, (k < j <= d)%nat -> ~ cs_declares_any (at_class cs j) (Id n) ps).
      { destruct After as [A|(e & mods' & He & H & NO & _)]; [exact A|]. destruct (Over e mods' ltac:(lia) H) as (O & _). contradiction. }
      split; [exists b; split; [lia|]; apply BD; [lia|]; exists mods; split; [exact B|split; [exact NS|split; [intros _; exact P|reflexivity]]]|].
      split; [split; [destruct (le_lt_dec i k) as [Q|Q]; [exact Q|destruct (Af i ltac:(lia) Di)]|lia]|]. split; [apply DA; [lia|exact Dk']|]. intros j J N. apply (Af j J), DA; [lia|exact N].
    + right. assert (Q : forall j, (b < j <= d)%nat -> ~ cs_declares_any (at_class cs j) (Id n) ps) by (intros j J (mods' & H); destruct (Over j mods' J H) as (_ & _ & X); contradiction).
      assert (i = b) as -> by (destruct (Nat.eq_dec i b) as [E|E]; [exact E|destruct (Q i ltac:(lia) Di)]). split; [|reflexivity].
      intros j J H. apply BD in H; [|lia]. destruct H as (mods' & H & _ & X). destruct (Nat.eq_dec j b) as [-> |E]; [rewrite (Un _ H) in X; apply P, X; reflexivity|apply (Intro j ltac:(lia)); exists mods'; exact H].
  - intros (i & Hi & _ & _ & Di & C). apply DA in Di; [|lia].
    assert (Hb : (b <= i)%nat) by (destruct (le_lt_dec b i) as [Q|Q]; [exact Q|destruct (Intro i Q Di)]).
    exists mods. split; [exact B|]. split; [lia|]. destruct (polymorphic_dec mods) as [P|P].
    + left. split; [exact P|]. destruct C as [(_ & Hk & Dk & After)|(NV & _)].
      * apply DA in Dk; [|lia]. split; [lia|]. split; [intros j mods' J H; apply (Over j mods' ltac:(lia) H)|]. split.
        { destruct (Nat.eq_dec k b) as [-> |E]; [left; reflexivity|right]. destruct Dk as (mods' & H). exists mods'. split; [exact H|apply (Over k mods' ltac:(lia) H)]. }
        left. intros j J N. apply (After j J), DA; [lia|exact N].
      * exfalso. apply (NV b Hb), BD; [lia|]. exists mods. split; [exact B|]. split; [exact NS|]. split; [intros _; exact P|reflexivity].
    + right. split; [exact P|]. assert (Q : forall j, (b < j <= d)%nat -> ~ cs_declares_any (at_class cs j) (Id n) ps) by (intros j J (mods' & H); destruct (Over j mods' J H) as (_ & _ & X); contradiction).
      assert (i = b) as -> by (destruct (Nat.eq_dec i b) as [E|E]; [exact E|destruct (Q i ltac:(lia) Di)]).
      destruct C as [((j & J & H) & _)|(_ & E)]; [exfalso|exact E]. apply BD in H; [|lia]. destruct H as (mods' & H & _ & X). destruct (Nat.eq_dec j b) as [-> |E]; [rewrite (Un _ H) in X; apply P, X; reflexivity|apply (Intro j ltac:(lia)); exists mods'; exact H].
Qed.
(** C90: virtual properties: C# runs the accessor of the object's class, C++ that of the expression's. *)
Theorem C90_property_refuted : forall absent ty ty' n b b' k k', k = KClass -> k' = KClass ->
  let base := mk_class k 2 [Property [MVirtual] ty n (Body b) (Body b) false] in
  let derived := mk_class k' 3 [Property [MOverride] ty' n (Body b') (Body b') false] in
  exists hs, headers absent [base; derived] hs /\ cs_call [c_members base; c_members derived] 0 1 (Getter n) [] 1 /\ cpp_call hs 0 1 (Getter n) [] 0 /\ ~ cpp_call hs 0 1 (Getter n) [] 1.
Proof.
  intros absent ty ty' n b b' k k' -> -> base derived. eexists. split; [repeat constructor|].
  assert (NV : forall j, ~ declares (at_class [[mk_declared false false Prototype (Some (FormatTypeDelaration ty)) (Getter n) []; mk_declared false false Prototype (Some void_type) (Setter n) (value_param ty)]; [mk_declared false false Prototype (Some (FormatTypeDelaration ty')) (Getter n) []; mk_declared false false Prototype (Some void_type) (Setter n) (value_param ty')]] j) (Getter n) [] true).
  { intros j (d & Hin & N & P & W & S & V). destruct j as [|[|[|j]]]; cbn in Hin; try (destruct Hin as [E|[E|[]]]; rewrite <- E in V; discriminate); destruct Hin. }
  split; [|split].
  - exists [MVirtual]. split; [eexists; split; [left; reflexivity|left; reflexivity]|]. split; [lia|]. left. split; [left; left; reflexivity|]. split; [lia|]. split.
    { intros j mods' J H. assert (j = 1%nat) as -> by lia. destruct H as (m & [<- |[]] & [H|[H|[]]]); [|discriminate]. injection H as H. rewrite <- H. left. reflexivity. }
    split; [right; exists [MOverride]; split; [eexists; split; [left; reflexivity|left; reflexivity]|left; reflexivity]|]. left. intros; lia.
  - exists 0%nat. split; [lia|]. split; [eexists; split; [left; reflexivity|reflexivity]|]. split; [intros; lia|].
    split; [exists false; eexists; split; [left; reflexivity|repeat split; discriminate]|]. right. split; [intros j _; apply NV|reflexivity].
  - intros (i & Hi & _ & _ & _ & C). destruct C as [((j & J & H) & _)|(_ & E)]; [|lia]. cbn in H. exact (NV j H).
Qed.
(** C90: a new (not overriding) method of the same signature is an override in C++. *)
Theorem C90_new_refuted : exists cl hs, headers NullObject cl hs /\ cs_call (map c_members cl) 0 1 (Id 20) [] 0 /\ cpp_call hs 0 1 (Id 20) [] 1.
Proof.
  exists [mk_class KClass 2 [Method [MVirtual] (Named KStruct true 5) 20 [] (Some 1)]; mk_class KClass 3 [Method [MNew] (Named KStruct true 5) 20 [] (Some 2)]]. eexists. split; [repeat constructor|]. split.
  - exists [MVirtual]. split; [eexists; split; [left; reflexivity|left; reflexivity]|]. split; [lia|]. left. split; [left; left; reflexivity|]. split; [lia|]. split; [intros; lia|]. split; [left; reflexivity|]. right. exists 1%nat, [MNew]. split; [lia|]. split; [eexists; split; [left; reflexivity|left; reflexivity]|]. split; [intros [E|[]]; discriminate|intros; lia].
  - exists 0%nat. split; [lia|]. split; [eexists; split; [left; reflexivity|reflexivity]|]. split; [intros; lia|]. split; [eexists; eexists; split; [left; reflexivity|repeat split; discriminate]|]. left.
    split; [exists 0%nat; split; [lia|]; eexists; split; [left; reflexivity|repeat split; discriminate]|]. split; [lia|]. split; [eexists; eexists; split; [left; reflexivity|repeat split; discriminate]|intros; lia].
Qed.
(** C90: a class that declares the name with other parameters hides the inherited method: the call
    through that class does not reach it (C++ converts the arguments or refuses). *)
Theorem C90_hiding_refuted : exists cl hs ps, headers NullObject cl hs /\ cs_call (map c_members cl) 0 1 (Id 20) ps 0 /\ forall k, ~ cpp_call hs 1 1 (Id 20) (parameters ps) k.
Proof.
  exists [mk_class KClass 2 [Method [] (Named KStruct true 5) 20 [mk_param (Named KStruct true 6) PNone] (Some 1)]; mk_class KClass 3 [Method [] (Named KStruct true 5) 20 [mk_param (Named KStruct true 5) PNone] (Some 2)]]. eexists. exists [mk_param (Named KStruct true 6) PNone]. split; [repeat constructor|]. split.
  - exists []. split; [eexists; split; [left; reflexivity|left; reflexivity]|]. split; [lia|]. right. split; [intros [[]|[]]|reflexivity].
  - intros k (i & Hi & _ & Hd & D & _). destruct i as [|[|i]]; [| |lia].
    + apply (Hd 1%nat ltac:(lia)). eexists. split; [left; reflexivity|reflexivity].
    + destruct D as (v & d & I & _ & P & _). cbn in I. destruct I as [<- |[]]. discriminate.
Qed.
Example C90_example : exists cl hs, headers NullObject cl hs /\ cs_call (map c_members cl) 0 2 (Id 20) [] 2 /\ length cl = 3%nat.
Proof.
  exists [mk_class KClass 2 [Method [MAbstract] (Named KStruct true 5) 20 [] None]; mk_class KClass 3 [Method [MOverride] (Named KStruct true 5) 20 [] (Some 1)]; mk_class KClass 4 [Method [MOverride] (Named KStruct true 5) 20 [] (Some 2)]]. eexists. split; [repeat constructor|]. split; [|reflexivity].
  exists [MAbstract]. split; [eexists; split; [left; reflexivity|left; reflexivity]|]. split; [lia|]. left. split; [right; left; reflexivity|]. split; [lia|]. split.
  { intros j mods' J H. apply method_of in H. destruct H as (r & bd & H). destruct j as [|[|[|j]]]; try lia; cbn in H; destruct H as [H|[]]; injection H as <-; left; reflexivity. }
  split; [right; exists [MOverride]; split; [eexists; split; [left; reflexivity|left; reflexivity]|left; reflexivity]|]. left. intros; lia.
Qed.
Print Assumptions C89_agree_partial.
Print Assumptions C89_method_modifiers.
Print Assumptions C89_default_partial.
Print Assumptions C89_overload_partial.
Print Assumptions C90_dispatch_partial.
Print Assumptions C90_property_refuted.
Print Assumptions C90_new_refuted.
Print Assumptions C90_hiding_refuted.
