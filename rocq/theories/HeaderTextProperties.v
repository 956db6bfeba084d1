(** * C113: the text of the header is read by C++ as the class declarations that are meant

    The visitor of HeaderTextModel.v on the formatter of FormatterModel.v; the lexemes of LexSpec.v, the reader and the meaning of
    HeaderTextSpec.v. *)
From Coq Require Import String.
From Verif Require Import Tac Base IntModel FormatterModel FormatterSpec TranslatorModel MemberModel LexSpec LexProofs BodyTextSpec BodyWriteProofs HeaderTextModel HeaderTextSpec HeaderTextProofs HeaderReadProofs HeaderMemberProofs HeaderClassProofs HeaderFileProofs.
Import ListNotations.
Local Open Scope list_scope.

(** The structs are written first, then the classes; nothing else is. *)
Definition kind_is (k : kind) (t : ttype) : bool := match k, c_kind (t_class t) with KStruct, KStruct | KClass, KClass => true | _, _ => false end.
Definition shown (ts : list ttype) : list ttype := filter (kind_is KStruct) ts ++ filter (kind_is KClass) ts.
Lemma shown_same ts : shown ts = filter is_struct_decl ts ++ filter is_class_decl ts.
Proof. unfold shown. f_equal; apply filter_ext; intros t; unfold kind_is, is_struct_decl, is_class_decl; destruct (c_kind (t_class t)); reflexivity. Qed.
Lemma directives_map vs : directives (map Using vs) = vs.
Proof. unfold directives. induction vs as [|v vs IH]; [reflexivity|]. cbn. rewrite IH. reflexivity. Qed.
(** After the two directives of the preprocessor, a C++ compiler reads in the characters exactly the classes that are meant, in order,
    each in its namespace, and then one using directive for every namespace.
    Missing: the types and members that are not [readable] (see the refutations), nested types (C99), composed base types (C99). *)
Theorem C113_header_partial : forall env absent name_text param_text ts f, good_newline (nl env) -> HeaderTextSpec.good_names name_text param_text -> ascii_lower (IsLower env) ->
  Forall (fun t => well_formed absent (t_space t) (t_bases t) (t_class t)) ts -> indentLevel f = 0 -> nameSpace f = None ->
  exists g t its vs, header_text env absent name_text param_text ts f = Ret g /\
    buffer g = buffer f ++ T "#pragma once" ++ nl env ++ T "#include ""TranslatedProtos.h""" ++ nl env ++ t /\
    read_as_header t (its ++ map Using vs) /\ directives its = [] /\
    defined_in its = map (fun t => (space_name (t_space t), class_for (IsLower env) name_text (t_class t) (t_bases t))) (shown ts) /\
    NoDup vs /\ forall v, In v vs <-> In v (map fst (defined_in its)).
Proof.
  intros env absent name_text param_text ts f NL GN AL F L N. destruct (header_read env name_text param_text absent NL GN AL ts F f L N) as (g & t & its & E & B & R & D & C). rewrite <- shown_same in C, R.
  exists g, t, its, (map space_name (namespaces_of (shown ts) [])). split; [exact E|]. split; [exact B|]. rewrite map_map. split; [exact R|]. split; [exact D|]. split; [exact C|]. split.
  - assert (X : NoDup (namespaces_of (shown ts) [])) by (apply ns_nodup; constructor). clear - X. induction X as [|v l NI X IH]; cbn [map]; constructor; [|exact IH]. intros H. apply in_map_iff in H. destruct H as (w & E & I). apply space_inj in E. subst w. contradiction.
  - intros v. rewrite C, map_map. cbn [fst]. rewrite !in_map_iff. split.
    + intros (w & <- & I). apply ns_in in I. destruct I as [[]|(t' & I & <-)]. eauto.
    + intros (t' & <- & I). exists (t_space t'). split; [reflexivity|]. apply ns_in. right. eauto.
Qed.
(** The characters have one reading. *)
Theorem C113_one_reading : forall t a b, read_as_header t a -> read_as_header t b -> a = b.
Proof.
  intros t a b (la & n & Da & Ia) (lb & m & Db & Ib). pose proof (divided_unique _ _ _ Da Db). subst lb. pose proof (items_mono _ _ _ Ia (n + m) ltac:(lia)) as A. pose proof (items_mono _ _ _ Ib (n + m) ltac:(lia)) as B. congruence.
Qed.

(** ** What is not written as it is meant *)
Definition lf : dotnet := mk_dotnet [10] (fun c => (97 <=? c) && (c <=? 122)).
Definition name (n : Z) : list Z := if n =? 0 then T "Void" else if n =? 1 then T "Boolean" else (if Z.even n then T "T" else T "f") ++ print_u n.
Definition par (k j : nat) : list Z := T "p" ++ print_u (Z.of_nat j).
Lemma name_good : HeaderTextSpec.good_names name par.
Proof.
  assert (W : forall p n, word_text (T p) -> word_text (T p ++ print_u n)) by (intros p n W; apply word_app; [exact W|apply dec_word]).
  split; [reflexivity|]. split; [reflexivity|]. split.
  - intros n. unfold name. destruct (Z.eqb_spec n 0); [subst n; split; [split; [reflexivity|repeat constructor]|split; [discriminate|auto]]|]. destruct (Z.eqb_spec n 1); [subst n; split; [split; [reflexivity|repeat constructor]|split; discriminate]|].
    destruct (Z.even n); (split; [apply W; split; [reflexivity|repeat constructor]|split; discriminate]).
  - intros k j. unfold par. split; [apply W; split; [reflexivity|repeat constructor]|split; discriminate].
Qed.
Lemma lf_good : good_newline (nl lf) /\ ascii_lower (IsLower lf).
Proof. split; [split; [discriminate|repeat constructor]|]. split; intros c H; cbn; lia. Qed.
Definition write (absent : absence) (ts : list ttype) : outcome formatter := header_text lf absent name par ts new_formatter.
Definition first_lines : list Z := T "#pragma once" ++ [10] ++ T "#include ""TranslatedProtos.h""" ++ [10].
(** a class T2 of the namespace App with one member *)
Definition alone (m : member) : list ttype := [mk_ttype (T "App") [] (mk_class KClass 2 [m])].
Definition is_read (absent : absence) (m : member) (cs : list cmember) : Prop :=
  exists g t, write absent (alone m) = Ret g /\ buffer g = first_lines ++ t /\ read_as_header t [Space (T "App_NS") [mk_cclass Class (T "T2") [(Public, T "Object")] cs]; Using (T "App_NS")].
Ltac reading := eexists; match goal with |- exists t, ?w = Ret _ /\ _ => let g := eval vm_compute in w in match g with Ret ?g => let b := eval vm_compute in (skipn (length first_lines) (buffer g)) in
  let s := eval vm_compute in (scan (S (length b)) b) in match s with Some ?ls => exists b; split; [vm_compute; reflexivity|]; split; [vm_compute; reflexivity|]; exists ls, 9%nat; split; [exists (S (length b)); vm_compute; reflexivity|vm_compute; reflexivity] end end end.
(** A field of an interface type is an object and no pointer. *)
Theorem C113_interface_refuted : is_read NullObject (Field [] false (Named KInterface false 4) [3]) [mk_cmember Public false false Data (Some (mk_ctype (T "T4") [])) (T "x_f3") []].
Proof. reading. Qed.
(** Of several names in one declaration only the first is a pointer. *)
Theorem C113_names_refuted : is_read NullObject (Field [] false (Named KClass false 4) [3; 5])
  [mk_cmember Public false false Data (Some (mk_ctype (T "T4") [Pointer])) (T "x_f3") []; mk_cmember Public false false Data (Some (mk_ctype (T "T4") [])) (T "x_f5") []].
Proof. reading. Qed.
(** A reference to an enum is a reference to a pointer. *)
Theorem C113_enum_reference_refuted : is_read NullObject (Method [] (Named KStruct true 0) 3 [mk_param (ByReference (Named KEnum false 4)) PRef] (Some 0))
  [mk_cmember Public false false Declaration (Some (mk_ctype (T "void") [])) (T "x_f3") [mk_ctype (T "T4") [Pointer; Reference]]].
Proof. reading. Qed.
(** The operator of a class returns an object and no pointer. *)
Theorem C113_operator_refuted : is_read NullObject (Operator Addition (Named KClass false 2) [mk_param (Named KClass false 2) PNone] 0)
  [mk_cmember Public true false Declaration (Some (mk_ctype (T "T2") [])) (T "op_Addition") [mk_ctype (T "T2") [Pointer]]].
Proof. reading. Qed.
(** A property without setter has one. *)
Theorem C113_setter_refuted : is_read NullObject (Property [] (Named KStruct true 4) 6 (Body 0) Absent false)
  [mk_cmember Public false false Declaration (Some (mk_ctype (T "T4") [])) (T "get_T6") []; mk_cmember Public false false Declaration (Some (mk_ctype (T "void") [])) (T "set_T6") [mk_ctype (T "T4") []]].
Proof. reading. Qed.
(** A static property is a member of every object: static is not written. *)
Theorem C113_static_property_refuted : is_read NullObject (Property [MStatic] (Named KStruct true 4) 6 (Body 0) (Body 1) false)
  [mk_cmember Public false false Declaration (Some (mk_ctype (T "T4") [])) (T "get_T6") []; mk_cmember Public false false Declaration (Some (mk_ctype (T "void") [])) (T "set_T6") [mk_ctype (T "T4") []]].
Proof. reading. Qed.
(** A struct whose objects are constructed with arguments, with a static constructor: no object is made without arguments. *)
Theorem C113_default_refuted : exists g t, write NullObject [mk_ttype (T "App") [] (mk_class KStruct 2 [Constructor [MStatic] [] 0; Constructor [] [mk_param (Named KStruct true 4) PNone] 1])] = Ret g /\ buffer g = first_lines ++ t /\
  read_as_header t [Space (T "App_NS") [mk_cclass Struct (T "T2") [(Public, T "Object")]
    [mk_cmember Public true false Declaration (Some (mk_ctype (T "Boolean") [])) (T "T2_Static") []; mk_cmember Public true false Data (Some (mk_ctype (T "Boolean") [])) (T "T2_Initilized") [];
     mk_cmember Public false false Declaration None (T "T2") [mk_ctype (T "T4") []]]]; Using (T "App_NS")].
Proof. reading. Qed.
(** Texts that are no header *)
Definition unreadable (absent : absence) (ts : list ttype) : Prop := exists g t, write absent ts = Ret g /\ buffer g = first_lines ++ t /\ forall its, ~ read_as_header t its.
Ltac unreading := eexists; match goal with |- exists t, ?w = Ret _ /\ _ => let g := eval vm_compute in w in match g with Ret ?g => let b := eval vm_compute in (skipn (length first_lines) (buffer g)) in
  let s := eval vm_compute in (scan (S (length b)) b) in match s with Some ?ls => exists b; split; [vm_compute; reflexivity|]; split; [vm_compute; reflexivity|];
    let its := fresh in let q := fresh in let n := fresh in let D := fresh in let I' := fresh in let X := fresh in intros its (q & n & D & I');
    assert (X : divided b ls) by (exists (S (length b)); vm_compute; reflexivity); pose proof (divided_unique _ _ _ D X); subst q; destruct n as [|[|n]]; [discriminate I'|vm_compute in I'; discriminate I'|vm_compute in I'; discriminate I'] end end end.
(** A namespace with a dot *)
Theorem C113_dotted_refuted : unreadable NullObject [mk_ttype (T "App.Data") [] (mk_class KClass 2 [])].
Proof. unreading. Qed.
(** An array by reference *)
Theorem C113_array_reference_refuted : unreadable NullObject (alone (Method [] (Named KStruct true 0) 3 [mk_param (ByReference (ArrayOf (Named KStruct true 4))) PRef] (Some 0))).
Proof. unreading. Qed.
(** A property without getter ends the translation. *)
Theorem C113_getter_refuted : forall absent, write absent (alone (Property [] (Named KStruct true 4) 6 Absent (Body 0) false)) = Exn NullReferenceException.
Proof. intros []; vm_compute; reflexivity. Qed.

(** ** An example: a struct, two classes of one namespace, one of another *)
Definition program : list ttype :=
  [mk_ttype (T "App") [4; 6] (mk_class KClass 2 [
     Method [MVirtual] (Named KClass false 2) 3 [mk_param (ByReference (Named KStruct true 8)) PRef; mk_param (ArrayOf (Named KClass false 2)) PNone] (Some 0);
     Method [MAbstract] (Named KStruct true 0) 10 [] None; Constructor [MStatic] [] 1; Constructor [] [mk_param (Named KStruct true 8) PNone] 2;
     Property [] (Named KStruct true 8) 12 (Body 3) (Body 4) true; Field [MStatic] false (Named KClass false 14) [5]; Field [] false (Named KStruct true 8) [7; 9]]);
   mk_ttype (T "App") [] (mk_class KClass 14 []); mk_ttype [] [] (mk_class KStruct 16 [Constructor [] [mk_param (Named KStruct true 8) PNone] 5; Operator Addition (Named KStruct false 16) [mk_param (Named KStruct false 16) PNone] 6]);
   mk_ttype (T "Other") [2] (mk_class KClass 18 []); mk_ttype (T "App") [] (mk_class KInterface 20 [])].
Definition rows (l : list (nat * string)) : list Z := flat_map (fun p => repeat 9 (fst p) ++ T (snd p) ++ [10]) l.
Example C113_example : HeaderTextSpec.good_names name par /\ good_newline (nl lf) /\ ascii_lower (IsLower lf) /\ Forall (fun t => well_formed NullObject (t_space t) (t_bases t) (t_class t)) program /\
  exists g, write NullObject program = Ret g /\ buffer g = rows
    [(0, "#pragma once"); (0, "#include ""TranslatedProtos.h"""); (0, "namespace UNNAMED"); (0, "{"); (1, "struct T16 : public Object"); (1, "{");
     (2, "T16(T8 x_p0);"); (2, "static T16 op_Addition(T16 x_p0);"); (2, "T16(){};"); (1, "};"); (0, "}"); (0, "namespace App_NS"); (0, "{");
     (1, "class T2 : public T4,T6"); (1, "{"); (2, "public:"); (2, "virtual T2* x_f3(T8&  x_p0,Array* x_p1);"); (2, "virtual void T10() = 0;");
     (2, "static Boolean T2_Static();"); (2, "static Boolean T2_Initilized;"); (2, "T2(T8 x_p0);"); (2, "T8 get_T12();");
     (2, "void set_T12(T8 x_value );"); (2, "T8 T12k__BackingField;"); (2, "static T14* x_f5;"); (2, "T8 x_f7,x_f9;"); (1, "};");
     (1, "class T14 : public Object"); (1, "{"); (2, "public:"); (1, "};"); (0, "}"); (0, "namespace Other_NS"); (0, "{");
     (1, "class T18 : public T2"); (1, "{"); (2, "public:"); (1, "};"); (0, "}"); (0, "using namespace UNNAMED;"); (0, "using namespace App_NS;");
     (0, "using namespace Other_NS;")]%string%nat.
Proof.
  split; [exact name_good|]. split; [apply lf_good|]. split; [apply lf_good|]. split.
  - assert (A : @nil Z = [] \/ word_text []) by (left; reflexivity). assert (B : forall (s : string), word_text (T s) -> T s = [] \/ word_text (T s)) by auto.
    unfold program. repeat (apply Forall_cons || apply Forall_nil); (split; [first [exact A|apply B; split; [reflexivity|repeat constructor]]|]); (split; [discriminate|]); (split; [cbn; intuition discriminate|]); (split; [|cbn; intros; congruence || discriminate]);
      cbn [c_members t_class]; repeat (apply Forall_cons || apply Forall_nil); cbn [readable]; unfold writable_params; repeat split; try discriminate; try (cbn; lia); try (repeat constructor; fail); try (cbn; intuition discriminate); auto.
  - eexists. split; vm_compute; reflexivity.
Qed.
Print Assumptions C113_header_partial.
Print Assumptions C113_one_reading.
Print Assumptions C113_interface_refuted.
Print Assumptions C113_names_refuted.
Print Assumptions C113_enum_reference_refuted.
Print Assumptions C113_operator_refuted.
Print Assumptions C113_setter_refuted.
Print Assumptions C113_static_property_refuted.
Print Assumptions C113_default_refuted.
Print Assumptions C113_dotted_refuted.
Print Assumptions C113_array_reference_refuted.
Print Assumptions C113_getter_refuted.
