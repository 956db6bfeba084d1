(** * C115: the text of the prototypes is read by C++ as the declarations that are meant

    The visitor of ProtoTextModel.v on the formatter of FormatterModel.v; the lexemes of LexSpec.v, the reader and the meaning of
    ProtoTextSpec.v. *)
From Coq Require Import String.
From Verif Require Import Tac Base IntModel FormatterModel FormatterSpec TranslatorModel MemberModel LexSpec LexProofs BodyTextSpec BodyWriteProofs HeaderTextModel HeaderTextSpec HeaderTextProofs HeaderFileProofs HeaderTextProperties ProtoTextModel ProtoTextSpec ProtoTextProofs.
From Verif Require EnumModel EnumSpec EnumProperties.
Import ListNotations.
Local Open Scope list_scope.

(** After the directives of the preprocessor, a C++ compiler reads in the characters the two using directives of the library and then
    exactly the declarations that are meant, in order, each in its namespace.
    Missing: initialisers of enum members that are no literals within long long (C100 and below), dotted namespaces, nested types. *)
Theorem C115_prototypes_partial : forall env name_text param_text values ts f, good_newline (nl env) -> HeaderTextSpec.good_names name_text param_text -> ascii_lower (IsLower env) ->
  Forall (declarable values) ts -> indentLevel f = 0 -> nameSpace f = None ->
  exists g t its, proto_text env name_text values ts f = Ret g /\
    buffer g = buffer f ++ (T "#pragma once" ++ nl env ++ T "#include ""DotnetTypes.h""" ++ nl env ++ T "#include <DotNetLibrarySupport.h>" ++ nl env) ++ t /\
    read_as_prototypes t its /\ used_in its = [T "DotnetLibrary"; T "DotnetLibrarySupport"] /\
    declared_in its = map (fun t => (space_name (t_space t), declaration_for (IsLower env) name_text values t)) ts.
Proof. intros env name_text param_text values ts f NL GN AL F L N. exact (proto_read env name_text param_text values NL GN AL ts F f L N). Qed.
(** The characters have one reading. *)
Theorem C115_one_reading : forall t a b, read_as_prototypes t a -> read_as_prototypes t b -> a = b.
Proof.
  intros t a b (la & n & Da & Ia) (lb & m & Db & Ib). pose proof (divided_unique _ _ _ Da Db). subst lb. pose proof (pitems_mono _ _ _ Ia (n + m) ltac:(lia)) as A. pose proof (pitems_mono _ _ _ Ib (n + m) ltac:(lia)) as B. congruence.
Qed.
(** Whatever the two files are read as: a class the header defines has been declared by the prototypes, in the same namespace, under the
    same name and with the same key. *)
Theorem C115_header : forall env absent name_text param_text values ts f f' g g' p t, good_newline (nl env) -> HeaderTextSpec.good_names name_text param_text -> ascii_lower (IsLower env) ->
  Forall (declarable values) ts -> Forall (fun t => well_formed absent (t_space t) (t_bases t) (t_class t)) ts ->
  indentLevel f = 0 -> nameSpace f = None -> indentLevel f' = 0 -> nameSpace f' = None ->
  proto_text env name_text values ts f = Ret g -> buffer g = buffer f ++ (T "#pragma once" ++ nl env ++ T "#include ""DotnetTypes.h""" ++ nl env ++ T "#include <DotNetLibrarySupport.h>" ++ nl env) ++ p ->
  header_text env absent name_text param_text ts f' = Ret g' -> buffer g' = buffer f' ++ T "#pragma once" ++ nl env ++ T "#include ""TranslatedProtos.h""" ++ nl env ++ t ->
  forall ps hs, read_as_prototypes p ps -> read_as_header t hs -> forall v c, In (v, c) (defined_in hs) -> In (v, Forward (cc_key c) (cc_name c)) (declared_in ps).
Proof.
  intros env absent name_text param_text values ts f f' g g' p t NL GN AL F W L N L' N' EP BP EH BH ps hs RP RH v c I.
  destruct (C115_prototypes_partial env name_text param_text values ts f NL GN AL F L N) as (g1 & t1 & its & E1 & B1 & R1 & _ & D1). rewrite EP in E1. injection E1 as <-. rewrite BP in B1. apply app_inv_head in B1. apply app_inv_head in B1. subst t1. rewrite (C115_one_reading _ _ _ RP R1). clear RP R1.
  destruct (C113_header_partial env absent name_text param_text ts f' NL GN AL W L' N') as (g2 & t2 & hts & vs & E2 & B2 & R2 & _ & D2 & _). rewrite EH in E2. injection E2 as <-. rewrite BH in B2.
  assert (X : t = t2) by (repeat (apply app_inv_head in B2); exact B2). subst t2. rewrite (C113_one_reading _ _ _ RH R2) in I.
  assert (Y : defined_in (hts ++ map Using vs) = defined_in hts). { unfold defined_in. rewrite flat_map_app. replace (flat_map _ (map Using vs)) with (@nil (list Z * cclass)); [apply app_nil_r|]. clear. induction vs as [|v vs IH]; [reflexivity|exact IH]. }
  rewrite Y, D2 in I. apply in_map_iff in I. destruct I as (t0 & E & I). injection E as <- <-. rewrite D1. apply in_map_iff. exists t0. unfold shown in I. apply in_app_iff in I.
  assert (K : In t0 ts /\ (c_kind (t_class t0) = KStruct \/ c_kind (t_class t0) = KClass)) by (destruct I as [I|I]; apply filter_In in I; destruct I as [I Q]; (split; [exact I|]); unfold kind_is in Q; destruct (c_kind (t_class t0)); auto; discriminate).
  destruct K as [K Q]. split; [|exact K]. f_equal. unfold declaration_for, class_for. cbn [cc_key cc_name]. destruct Q as [-> | ->]; reflexivity.
Qed.
(** ** Enumerators are distinct *)
(** the enumerators, with their namespaces: those of an unscoped enum are names of the namespace *)
Definition enumerators_in (its : list pitem) : list (list Z * list Z) := flat_map (fun d => match snd d with Enumeration _ l => map (fun e => (fst d, fst e)) l | Forward _ _ => [] end) (declared_in its).
Lemma last_mark p : forall p' q q' : list Z, ~ In 95 p -> ~ In 95 p' -> p ++ 95 :: q = p' ++ 95 :: q' -> p = p' /\ q = q'.
Proof.
  induction p as [|a p IH]; intros [|b p'] q q' A B E; cbn in E.
  - injection E as <-. auto.
  - injection E as <- _. destruct B. left. reflexivity.
  - injection E as -> _. destruct A. left. reflexivity.
  - injection E as <- E. destruct (IH p' q q') as [-> ->]; [intros H; apply A; right; exact H|intros H; apply B; right; exact H|exact E|auto].
Qed.
Lemma last_part a b e e' : ~ In 95 e -> ~ In 95 e' -> a ++ T "_" ++ e = b ++ T "_" ++ e' -> a = b /\ e = e'.
Proof.
  intros A B E. apply (f_equal (@rev Z)) in E. cbn [app] in E. change (T "_" ++ ?x) with (95 :: x) in E. rewrite !rev_app_distr in E. cbn [rev] in E. rewrite <- !app_assoc in E. cbn [app] in E.
  apply last_mark in E; [|rewrite <- in_rev; exact A|rewrite <- in_rev; exact B]. destruct E as [E1 E2]. split; [rewrite <- (rev_involutive a), E2; apply rev_involutive|rewrite <- (rev_involutive e), E1; apply rev_involutive].
Qed.
Lemma prefixed_inj lower m m' : ascii_lower lower -> EnumSpec.prefixed lower m = EnumSpec.prefixed lower m' -> m = m'.
Proof.
  intros [AL _] E.
  assert (X : forall d w k, lower d && negb (EnumSpec.same (d :: w) (T "this")) = false -> T "x_" ++ k <> d :: w).
  { intros d w k H Q. cbn in Q. injection Q as <- Q. rewrite (AL 120) in H by lia. cbn in H. discriminate. }
  destruct m as [|c m], m' as [|d m']; unfold EnumSpec.prefixed in E.
  - reflexivity.
  - destruct (lower d && _); discriminate.
  - destruct (lower c && _); discriminate.
  - destruct (lower c && negb _) eqn:P1, (lower d && negb _) eqn:P2.
    + apply app_inv_head in E. exact E.
    + destruct (X _ _ _ P2 E).
    + destruct (X _ _ _ P1 (eq_sym E)).
    + exact E.
Qed.
Lemma nodup_map {A B} (g : A -> B) l : (forall a b, In a l -> In b l -> g a = g b -> a = b) -> NoDup l -> NoDup (map g l).
Proof.
  intros H N. induction N as [|a l I N IH]; cbn; constructor.
  - intros X. apply in_map_iff in X. destruct X as (b & E & J). apply I. rewrite <- (H b a (or_intror J) (or_introl eq_refl) E). exact J.
  - apply IH. intros x y J K. apply H; right; assumption.
Qed.
Lemma nodup_app {A} (a b : list A) : NoDup a -> NoDup b -> (forall x, In x a -> ~ In x b) -> NoDup (a ++ b).
Proof.
  intros NA NB H. induction NA as [|x a I NA IH]; [exact NB|]. cbn. constructor; [|apply IH; intros y J; apply H; right; exact J]. rewrite in_app_iff. intros [J|J]; [contradiction|]. exact (H x (or_introl eq_refl) J).
Qed.
Lemma combine_fst {A B} (l : list A) : forall m : list B, length l = length m -> map fst (combine l m) = l.
Proof. induction l as [|a l IH]; intros [|b m] L; cbn in *; try discriminate; [reflexivity|]. rewrite IH by lia. reflexivity. Qed.
Lemma cs_values_length l : forall k, length (EnumSpec.cs_values k l) = length l.
Proof. induction l as [|v l IH]; intros k; cbn; [reflexivity|]. rewrite IH. reflexivity. Qed.
Definition enum_type (t : ttype) : bool := match c_kind (t_class t) with KEnum => true | _ => false end.
(** If no enum has an underscore in its name, and every enum has another full name and in it every member another name
    (as in C#), no two enumerators of a namespace have the same name in C++.
    Missing: enums with underscores in their names; see C115_clash_refuted. *)
Theorem C115_distinct_partial : forall lower name_text values ts its, ascii_lower lower ->
  declared_in its = map (fun t => (space_name (t_space t), declaration_for lower name_text values t)) ts ->
  NoDup (map (fun t => (t_space t, name_text (c_name (t_class t)))) (filter enum_type ts)) ->
  (forall t, In t ts -> enum_type t = true -> NoDup (map fst (values t)) /\ ~ In 95 (name_text (c_name (t_class t)))) ->
  NoDup (enumerators_in its).
Proof.
  intros lower name_text values ts its AL D ND H. unfold enumerators_in. rewrite D. clear D its.
  set (en := fun t => if enum_type t then map (fun m => (space_name (t_space t), EnumSpec.prefixed lower (fst m) ++ T "_" ++ name_text (c_name (t_class t)))) (values t) else []).
  assert (E : flat_map (fun d => match snd d with Enumeration _ l => map (fun e => (fst d, fst e)) l | Forward _ _ => [] end) (map (fun t => (space_name (t_space t), declaration_for lower name_text values t)) ts) = flat_map en ts).
  { rewrite flat_map_concat_map, flat_map_concat_map, map_map. f_equal. apply map_ext. intros t. unfold en, enum_type, declaration_for. cbn [fst snd]. destruct (c_kind (t_class t)); try reflexivity.
    rewrite <- (map_map fst (fun e => (space_name (t_space t), e))). rewrite combine_fst by (rewrite cs_values_length, !map_length; reflexivity). rewrite map_map. reflexivity. }
  rewrite E. clear E. induction ts as [|t ts IH]; [constructor|]. cbn [flat_map filter] in *.
  assert (IH' : NoDup (flat_map en ts)). { apply IH; [|intros u I; apply H; right; exact I]. destruct (enum_type t); [|exact ND]. inversion ND; assumption. }
  destruct (enum_type t) eqn:Q; [|unfold en at 1; rewrite Q; exact IH'].
  destruct (H t (or_introl eq_refl) Q) as (NV & NU). inversion ND as [|? ? NI ND']; subst.
  apply nodup_app; [|exact IH'|].
  - unfold en. rewrite Q. rewrite <- (map_map fst (fun m => (space_name (t_space t), EnumSpec.prefixed lower m ++ T "_" ++ name_text (c_name (t_class t))))). apply nodup_map; [|exact NV].
    intros a b Ia Ib X. apply in_map_iff in Ia. destruct Ia as (ma & <- & Ia). apply in_map_iff in Ib. destruct Ib as (mb & <- & Ib). apply (f_equal snd) in X. cbn [snd] in X. apply app_inv_tail in X. apply (prefixed_inj lower _ _ AL X).
  - intros x J K. unfold en in J. rewrite Q in J. apply in_map_iff in J. destruct J as (m & <- & J). apply in_flat_map in K. destruct K as (u & Iu & K). unfold en in K. destruct (enum_type u) eqn:Qu; [|destruct K]. apply in_map_iff in K. destruct K as (m' & X & K).
    destruct (H u (or_intror Iu) Qu) as (_ & NU'). pose proof (f_equal fst X) as X1. pose proof (f_equal snd X) as X2. cbn [fst snd] in X1, X2. apply space_inj in X1. apply last_part in X2; [|exact NU'|exact NU]. destruct X2 as [_ X2].
    apply NI. apply in_map_iff. exists u. split; [rewrite X1, X2; reflexivity|]. apply filter_In. auto.
Qed.

(** ** What is not written as it is meant *)
Definition enum_named (n : Z) (v : list Z) : ttype := mk_ttype v [] (mk_class KEnum n []).
Definition first_directives_lf : list Z := T "#pragma once" ++ [10] ++ T "#include ""DotnetTypes.h""" ++ [10] ++ T "#include <DotNetLibrarySupport.h>" ++ [10].
Definition write_protos (name : Z -> list Z) (values : ttype -> list (list Z * EnumModel.init)) (ts : list ttype) : outcome formatter := proto_text lf name values ts new_formatter.
Notation library := [PUsing (T "DotnetLibrary"); PUsing (T "DotnetLibrarySupport")].
Definition protos_are (name : Z -> list Z) (values : ttype -> list (list Z * EnumModel.init)) (ts : list ttype) (its : list pitem) : Prop :=
  exists g t, write_protos name values ts = Ret g /\ buffer g = first_directives_lf ++ t /\ read_as_prototypes t its.
Ltac reading_protos := eexists; match goal with |- exists t, ?w = Ret _ /\ _ => let g := eval vm_compute in w in match g with Ret ?g => let b := eval vm_compute in (skipn (length first_directives_lf) (buffer g)) in
  let s := eval vm_compute in (scan (S (length b)) b) in match s with Some ?ls => exists b; split; [vm_compute; reflexivity|]; split; [vm_compute; reflexivity|]; exists ls, 19%nat; split; [exists (S (length b)); vm_compute; reflexivity|vm_compute; reflexivity] end end end.
Definition no_protos (values : ttype -> list (list Z * EnumModel.init)) (ts : list ttype) : Prop := exists g t, write_protos name values ts = Ret g /\ buffer g = first_directives_lf ++ t /\ forall its, ~ read_as_prototypes t its.
Ltac no_reading := eexists; match goal with |- exists t, ?w = Ret _ /\ _ => let g := eval vm_compute in w in match g with Ret ?g => let b := eval vm_compute in (skipn (length first_directives_lf) (buffer g)) in
  let s := eval vm_compute in (scan (S (length b)) b) in match s with Some ?ls => exists b; split; [vm_compute; reflexivity|]; split; [vm_compute; reflexivity|];
    let q := fresh in let n := fresh in let D := fresh in let I' := fresh in let X := fresh in intros ? (q & n & D & I');
    assert (X : divided b ls) by (exists (S (length b)); vm_compute; reflexivity); pose proof (divided_unique _ _ _ D X); subst q; let L := fresh in assert (L : (n <= 19 + n)%nat) by lia; pose proof (pitems_mono _ _ _ I' (19 + n)%nat L) as Y; vm_compute in Y; discriminate Y end end end.
(** The member A_F of the enum T2 and the member A of the enum F_T2 are both called A_F_T2, in one namespace, which C++ forbids. *)
Theorem C115_clash_refuted :
  protos_are (fun n => if n =? 2 then T "T2" else T "F_T2") (fun t => if c_name (t_class t) =? 2 then [(T "A_F", EnumModel.NoInit)] else [(T "A", EnumModel.NoInit)]) [enum_named 2 []; enum_named 3 []]
    (library ++ [PSpace (T "UNNAMED") [Enumeration (T "T2") [(T "A_F_T2", 0)]; Enumeration (T "F_T2") [(T "A_F_T2", 0)]]]).
Proof. reading_protos. Qed.
(** A member whose value is that of another one is written with its C# name, which is no enumerator's. *)
Theorem C115_reference_refuted : no_protos (fun _ => [(T "A", EnumModel.NoInit); (T "B", EnumModel.Reference (T "A"))]) [enum_named 2 []].
Proof. no_reading. Qed.
(** Values of C# that have no decimal literal in C++ *)
Theorem C115_large_refuted : no_protos (fun _ => [(T "All", EnumModel.Number 18446744073709551615)]) [enum_named 2 []] /\ no_protos (fun _ => [(T "Least", EnumModel.Number (-9223372036854775808))]) [enum_named 2 []].
Proof. split; no_reading. Qed.
(** Namespaces within namespaces are written with a period. *)
Theorem C115_dotted_refuted : no_protos (fun _ => []) [mk_ttype (T "App.Parts") [] (mk_class KClass 2 [])].
Proof. no_reading. Qed.

(** ** The theorems have cases *)
Definition proto_types_sample : list ttype :=
  [mk_ttype (T "App") [] (mk_class KClass 2 []); mk_ttype (T "App") [] (mk_class KEnum 4 []); mk_ttype [] [] (mk_class KStruct 6 []); mk_ttype [] [] (mk_class KEnum 8 []); mk_ttype (T "App") [] (mk_class KInterface 10 [])].
Definition proto_values (t : ttype) : list (list Z * EnumModel.init) :=
  if c_name (t_class t) =? 4 then [(T "Red", EnumModel.NoInit); (T "green", EnumModel.Number (-7)); (T "this", EnumModel.NoInit); (T "Void", EnumModel.Number 9223372036854775807)] else [].
Definition proto_meant : list (list Z * pdecl) :=
  [(T "App_NS", Forward Class (T "T2")); (T "App_NS", Enumeration (T "T4") [(T "Red_T4", 0); (T "x_green_T4", -7); (T "this_T4", -6); (T "Void_T4", 9223372036854775807)]);
   (T "UNNAMED", Forward Struct (T "T6")); (T "UNNAMED", Enumeration (T "T8") []); (T "App_NS", Forward Class (T "T10"))].
Example C115_example : good_newline (nl lf) /\ HeaderTextSpec.good_names name par /\ ascii_lower (IsLower lf) /\ Forall (declarable proto_values) proto_types_sample /\
  map (fun t => (space_name (t_space t), declaration_for (IsLower lf) name proto_values t)) proto_types_sample = proto_meant /\
  exists g t its, write_protos name proto_values proto_types_sample = Ret g /\ buffer g = first_directives_lf ++ t /\ read_as_prototypes t its /\ declared_in its = proto_meant /\ length its = 5%nat.
Proof.
  split; [apply lf_good|]. split; [exact name_good|]. split; [apply lf_good|]. split; [|split].
  - repeat apply Forall_cons; [| | | | |apply Forall_nil]; (split; [first [left; reflexivity|right; split; [reflexivity|repeat constructor]]|]); (split; [discriminate|]); try discriminate; intros _; cbn.
    + split; [|repeat constructor; discriminate]. repeat (apply Forall_cons; [split; [split; [reflexivity|repeat constructor]|exact Logic.I]|]). apply Forall_nil.
    + split; constructor.
  - reflexivity.
  - eexists. match goal with |- exists t its, ?w = Ret _ /\ _ => let g := eval vm_compute in w in match g with Ret ?g => let b := eval vm_compute in (skipn (length first_directives_lf) (buffer g)) in
      let s := eval vm_compute in (scan (S (length b)) b) in match s with Some ?ls => let sp := eval vm_compute in (pitems 29 ls) in match sp with Some ?sp => exists b, sp; split; [vm_compute; reflexivity|]; split; [vm_compute; reflexivity|]; split;
        [exists ls, 29%nat; split; [exists (S (length b)); vm_compute; reflexivity|vm_compute; reflexivity]|]; split; vm_compute; reflexivity end end end end.
Qed.
Example C115_distinct_example : forall its, declared_in its = map (fun t => (space_name (t_space t), declaration_for (IsLower lf) name proto_values t)) proto_types_sample -> NoDup (enumerators_in its) /\ length (enumerators_in its) = 4%nat.
Proof.
  intros its D. split; [|unfold enumerators_in; rewrite D; reflexivity]. apply (C115_distinct_partial _ _ _ _ _ (proj2 lf_good) D).
  - cbn. repeat (apply NoDup_cons; [cbn; intros X; decompose [or] X; (contradiction || discriminate)|]). apply NoDup_nil.
  - intros t I Q. unfold proto_types_sample in I. cbn in I. decompose [or] I; subst; try discriminate; try contradiction.
    + split; [cbn; repeat (apply NoDup_cons; [cbn; intros X; decompose [or] X; (contradiction || discriminate)|]); apply NoDup_nil|]. cbn; intros X; decompose [or] X; (contradiction || discriminate).
    + split; [apply NoDup_nil|]. cbn; intros X; decompose [or] X; (contradiction || discriminate).
Qed.
Example C115_header_example : Forall (fun t => well_formed NullReference (t_space t) (t_bases t) (t_class t)) proto_types_sample /\ length (shown proto_types_sample) = 2%nat.
Proof.
  split; [|reflexivity]. repeat apply Forall_cons; [| | | | |apply Forall_nil]; (split; [first [left; reflexivity|right; split; [reflexivity|repeat constructor]]|]); (split; [discriminate|]); (split; [intros []|]); (split; [apply Forall_nil|]); cbn; try discriminate; auto.
Qed.
Print Assumptions C115_prototypes_partial.
Print Assumptions C115_one_reading.
Print Assumptions C115_header.
Print Assumptions C115_distinct_partial.
