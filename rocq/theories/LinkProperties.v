(** * C116: the source defines what the header declares

    The texts of HeaderTextModel.v and SourceTextModel.v, as C++ reads them (HeaderTextSpec.v, SourceTextSpec.v). *)
From Coq Require Import String Permutation.
From Verif Require Import Tac Base IntModel FormatterModel FormatterSpec TranslatorModel MemberModel ControlModel LexSpec LexProofs BodyTextModel BodyTextSpec BodyTextProperties HeaderTextModel HeaderTextSpec HeaderTextProofs HeaderFileProofs HeaderTextProperties
  SourceTextModel SourceTextSpec SourceReadProofs SourceFileProofs SourceTextProperties.
Import ListNotations.
Local Open Scope list_scope.

(** What has to be defined for a program that uses it to be linked: its namespace, its class, its type, name and parameters. *)
Definition entity : Type := (list Z * (list Z * (option ctype * list Z * list ctype)))%type.
(** functions that are neither pure nor have a body, and static data *)
Definition entities_of_class (v : list Z) (c : cclass) : list entity :=
  map (fun d => (v, (cc_name c, (cm_type d, cm_name d, cm_params d)))) (filter (fun d => match cm_form d with Declaration => true | Data => cm_static d | _ => false end) (cc_members c)).
Definition declared_entities (hs : list item) : list entity := flat_map (fun p => entities_of_class (fst p) (snd p)) (defined_in hs).
Definition defined_entities (sps : list space) : list entity :=
  map (fun d => (fst d, match snd d with Function ty cls name ps _ _ => (cls, (ty, name, ps)) | Variable_def ty cls name _ => (cls, (Some ty, name, [])) end)) (all_definitions sps).

Lemma perm_flat {A B} (g : A -> list B) l l' : Permutation l l' -> Permutation (flat_map g l) (flat_map g l').
Proof.
  induction 1 as [|a l l' _ IH|a b l|l m n _ IH1 _ IH2]; cbn; [constructor|apply Permutation_app_head, IH| |etransitivity; eassumption].
  rewrite !app_assoc. apply Permutation_app_tail, Permutation_app_comm.
Qed.
Definition typed_kind (t : ttype) : bool := match c_kind (t_class t) with KEnum => false | _ => true end.
Lemma shown_perm ts : Forall (fun t => c_kind (t_class t) <> KInterface) ts -> Permutation (filter typed_kind ts) (shown ts).
Proof.
  unfold shown. induction 1 as [|t ts H F IH]; [constructor|]. cbn [filter]. assert (X : kind_is KStruct t = match c_kind (t_class t) with KStruct => true | _ => false end) by reflexivity. assert (Y : kind_is KClass t = match c_kind (t_class t) with KClass => true | _ => false end) by reflexivity.
  rewrite X, Y. unfold typed_kind at 1. destruct (c_kind (t_class t)) eqn:K; first [congruence|exact IH|apply (perm_skip t), IH|idtac].
  apply Permutation_cons_app, IH.
Qed.
Lemma class_entities lower name_text statements_of calls t : Forall (fun m => ~ constant m) (c_members (t_class t)) ->
  map (fun d => (space_name (t_space t), signature d)) (flat_map (defined lower name_text statements_of calls (c_name (t_class t))) (c_members (t_class t))) =
  entities_of_class (space_name (t_space t)) (class_for lower name_text (t_class t) (t_bases t)).
Proof.
  intros F. unfold entities_of_class, class_for. cbn [cc_members cc_name]. rewrite filter_app.
  assert (Z : filter (fun d => match cm_form d with Declaration => true | Data => cm_static d | _ => false end) (default_constructor lower name_text (t_class t)) = []).
  { unfold default_constructor. destruct (c_kind (t_class t)); try reflexivity. destruct (existsb is_ctor _ && _); reflexivity. }
  rewrite Z, app_nil_r. induction F as [|m l H F IH]; [reflexivity|]. cbn [flat_map]. rewrite filter_app, !map_app, IH. f_equal.
  rewrite <- (map_map signature (fun s => (space_name (t_space t), s))), (C114_matches lower name_text statements_of calls (c_name (t_class t)) m H), map_map. reflexivity.
Qed.
(** Whatever the two files are read as: what the source defines is what the header declares and leaves to be defined, with the same
    class, type, name and parameters, in the same namespace, each as often as it is declared.
    Missing: constants (C114_constant_refuted), interfaces (C113_interface_refuted), nested types, and what C113 and C114 miss. *)
Section Written.
Variable env : dotnet.
Variable absent : absence.
Variable name_text : Z -> text.
Variable param_text : nat -> nat -> text.
Variable statement_text condition_text value_text il_text argument_text : Z -> text.
Variable statement_lex condition_lex value_lex argument_lex : Z -> list lexeme.
Variable case_of : Z -> nat -> option Z.
Variable unwrapped : inst -> bool.
Variable branch_label : list inst -> Z.
Variable main : Z.
Variable code : Z -> list block.
Variable init_of : Z -> option initializer.
Variable statements_of : Z -> list stmt.
Notation as_cpp := (flat_map (BodyTextSpec.meant statement_lex condition_lex value_lex il_text (fun k => T "leaveBlock" ++ print_d k) case_of)).
Theorem C116_linked_partial ts f f' g g' s h sps hs :
  good_newline (nl env) -> HeaderTextSpec.good_names name_text param_text -> ascii_lower (IsLower env) ->
  good_texts (nl env) statement_text condition_text value_text il_text statement_lex condition_lex value_lex case_of ->
  (forall a, good_argument (argument_text a) (argument_lex a)) ->
  (forall b ss, as_cpp (StartMainBlock main (code b)) = [SBlock ss] -> statements_of b = ss) ->
  Forall (well_defined main unwrapped (fun n => match statement_text n with [] => true | _ => false end) code (fun b => match init_of b with Some i => Some (i_this i, i_type i) | None => None end) (IsLower env) name_text absent) ts ->
  Forall (fun t => well_formed absent (t_space t) (t_bases t) (t_class t) /\ c_kind (t_class t) <> KInterface /\ Forall (fun m => ~ constant m) (c_members (t_class t))) ts ->
  indentLevel f = 0 -> nameSpace f = None -> nameSpace f' = None ->
  header_text env absent name_text param_text ts f = Ret g -> buffer g = buffer f ++ T "#pragma once" ++ nl env ++ T "#include ""TranslatedProtos.h""" ++ nl env ++ h ->
  source_text env absent name_text param_text statement_text condition_text value_text il_text argument_text case_of unwrapped branch_label main code init_of ts f' = Ret g' -> buffer g' = buffer f' ++ T "#include ""TranslatedHeader.h""" ++ nl env ++ s ->
  read_as_header h hs -> read_as_source s sps -> Permutation (defined_entities sps) (declared_entities hs).
Proof.
  intros NL GN AL G GA ST FS FH L N N' EH BH ES BS RH RS.
  assert (W : Forall (fun t => well_formed absent (t_space t) (t_bases t) (t_class t)) ts) by (eapply Forall_impl; [|exact FH]; intros t X; apply X).
  destruct (C113_header_partial env absent name_text param_text ts f NL GN AL W L N) as (g2 & t2 & hts & vs & E2 & B2 & R2 & _ & D2 & _). rewrite EH in E2. injection E2 as <-. rewrite BH in B2.
  assert (X : h = t2) by (repeat (apply app_inv_head in B2); exact B2). subst t2. rewrite (C113_one_reading _ _ _ RH R2). clear RH.
  destruct (C114_source_partial env absent name_text param_text statement_text condition_text value_text il_text argument_text statement_lex condition_lex value_lex argument_lex case_of unwrapped branch_label main code init_of statements_of ts f' g' GN AL G GA ST FS N' ES) as (t1 & sp1 & B1 & R1 & D1).
  rewrite BS in B1. assert (X : s = t1) by (repeat (apply app_inv_head in B1); exact B1). subst t1. rewrite (C114_one_reading _ _ _ RS R1). clear RS.
  assert (Y : defined_in (hts ++ map Using vs) = defined_in hts). { unfold defined_in. rewrite flat_map_app. replace (flat_map _ (map Using vs)) with (@nil (list Z * cclass)); [apply app_nil_r|]. clear. induction vs as [|v vs IH]; [reflexivity|exact IH]. }
  unfold declared_entities, defined_entities. rewrite Y, D1, D2. clear - FH.
  set (F := fun t => entities_of_class (space_name (t_space t)) (class_for (IsLower env) name_text (t_class t) (t_bases t))).
  assert (P1 : flat_map (fun p => entities_of_class (fst p) (snd p)) (map (fun t => (space_name (t_space t), class_for (IsLower env) name_text (t_class t) (t_bases t))) (shown ts)) = flat_map F (shown ts)).
  { rewrite !flat_map_concat_map, map_map. reflexivity. }
  rewrite P1. clear P1.
  assert (P2 : map (fun d => (fst d, match snd d with Function ty cls name ps _ _ => (cls, (ty, name, ps)) | Variable_def ty cls name _ => (cls, (Some ty, name, [])) end))
    (contents (IsLower env) name_text statements_of (fun b => match init_of b with Some i => Some (spelled (IsLower env) (name_text (i_type i)), joined (map argument_lex (i_arguments i))) | None => None end) ts) = flat_map F (filter typed_kind ts)).
  { unfold contents. generalize (fun b => match init_of b with Some i => Some (spelled (IsLower env) (name_text (i_type i)), joined (map argument_lex (i_arguments i))) | None => None end). intros calls.
    induction FH as [|t ts (_ & _ & H) FH IH]; [reflexivity|]. cbn [flat_map filter]. rewrite map_app, IH. unfold typed_kind at 2. destruct (c_kind (t_class t)); cbn [flat_map map app]; try exact eq_refl; (apply f_equal2; [|exact eq_refl]); rewrite map_map; (etransitivity; [|exact (class_entities (IsLower env) name_text statements_of calls t H)]); apply map_ext; intros []; reflexivity. }
  rewrite P2. apply perm_flat, shown_perm. eapply Forall_impl; [|exact FH]. intros t X. apply X.
Qed.
End Written.

(** ** What is not linked *)
(** A constant is declared as static data and is defined nowhere. *)
Theorem C116_constant_refuted : forall lower name_text statements_of calls ty n,
  let m := Field [] true ty [n] in let c := mk_class KClass 2 [m] in
  flat_map (defined lower name_text statements_of calls (c_name c)) (c_members c) = [] /\
  exists e, entities_of_class (T "App_NS") (class_for lower name_text c []) = [e].
Proof. intros. split; [reflexivity|]. eexists. reflexivity. Qed.
(** ** The theorem has cases *)
Definition header_lines : list Z := T "#pragma once" ++ [10] ++ T "#include ""TranslatedProtos.h""" ++ [10].
Definition meant_by (b : Z) : list stmt :=
  match flat_map (BodyTextSpec.meant (pieces "S") (pieces "C") (pieces "V") (piece "IL_") (fun k => T "leaveBlock" ++ print_d k) first_default) (StartMainBlock 0 (sample_code b)) with [SBlock ss] => ss | _ => [] end.
Lemma write_is absent ts : write absent ts = header_text lf absent name par ts new_formatter.
Proof. reflexivity. Qed.
Lemma write_source_is ts : write_source name ts =
  source_text lf NullReference name par (piece "S") (piece "C") (piece "V") (piece "IL_") (piece "A") first_default (fun _ => false) (fun _ => 0) 0 sample_code sample_init ts new_formatter.
Proof. reflexivity. Qed.
Lemma lines_are h : buffer new_formatter ++ T "#pragma once" ++ nl lf ++ T "#include ""TranslatedProtos.h""" ++ nl lf ++ h = header_lines ++ h.
Proof. reflexivity. Qed.
Lemma lines_source s : include_line ++ s = buffer new_formatter ++ T "#include ""TranslatedHeader.h""" ++ nl lf ++ s.
Proof. reflexivity. Qed.
Example C116_example :
  Forall (fun t => well_formed NullReference (t_space t) (t_bases t) (t_class t) /\ c_kind (t_class t) <> KInterface /\ Forall (fun m => ~ constant m) (c_members (t_class t))) sample_types /\
  exists g h hs g' s sps, write NullReference sample_types = Ret g /\ buffer g = header_lines ++ h /\ read_as_header h hs /\
    write_source name sample_types = Ret g' /\ buffer g' = include_line ++ s /\ read_as_source s sps /\
    length (declared_entities hs) = 8%nat /\ Permutation (defined_entities sps) (declared_entities hs).
Proof.
  assert (W : Forall (fun t => well_formed NullReference (t_space t) (t_bases t) (t_class t) /\ c_kind (t_class t) <> KInterface /\ Forall (fun m => ~ constant m) (c_members (t_class t))) sample_types).
  { assert (A : @nil Z = [] \/ word_text []) by (left; reflexivity). assert (B : forall (s : string), word_text (T s) -> T s = [] \/ word_text (T s)) by auto.
    unfold sample_types. repeat (apply Forall_cons || apply Forall_nil); (split; [|split; [discriminate|cbn [c_members t_class]; repeat (apply Forall_cons || apply Forall_nil); cbn; intuition discriminate]]);
      (split; [first [exact A|apply B; split; [reflexivity|repeat constructor]]|]); (split; [discriminate|]); (split; [cbn; intuition discriminate|]); (split; [|cbn; intros; congruence || discriminate]);
      cbn [c_members t_class]; repeat (apply Forall_cons || apply Forall_nil); cbn [readable]; unfold writable_params; repeat split; try discriminate; try (cbn; lia); try (repeat constructor; fail); try (cbn; intuition discriminate); auto. }
  split; [exact W|].
  destruct C114_example as (GN & AL & G & GA & WD & g' & s & ES & BS & sps & RS & _ & _ & L).
  destruct (C113_header_partial lf NullReference name par sample_types new_formatter (proj1 lf_good) name_good (proj2 lf_good)) as (g & h & its & vs & EH & BH & RH & _ & _); [eapply Forall_impl; [|exact W]; intros t X; apply X|reflexivity|reflexivity|].
  rewrite <- write_is in EH. rewrite lines_are in BH.
  assert (P : Permutation (defined_entities sps) (declared_entities (its ++ map Using vs))).
  { refine (C116_linked_partial lf NullReference name par (piece "S") (piece "C") (piece "V") (piece "IL_") (piece "A") (pieces "S") (pieces "C") (pieces "V") (pieces "A") first_default (fun _ => false) (fun _ => 0) 0 sample_code sample_init meant_by
      sample_types new_formatter new_formatter g g' s h sps _ (proj1 lf_good) name_good AL G GA _ WD W eq_refl eq_refl eq_refl _ _ _ _ RH RS);
      [|rewrite <- write_is; exact EH|rewrite lines_are; exact BH|rewrite <- write_source_is; exact ES|rewrite <- lines_source; exact BS].
    intros b ss X. unfold meant_by. rewrite X. reflexivity. }
  exists g, h, (its ++ map Using vs), g', s, sps. split; [exact EH|]. split; [exact BH|]. split; [exact RH|]. split; [exact ES|]. split; [exact BS|]. split; [exact RS|]. assert (L' : length (declared_entities (its ++ map Using vs)) = 8%nat).
  { rewrite <- (Permutation_length P). unfold defined_entities. rewrite map_length. exact L. }
  split; [exact L'|exact P].
Qed.
Print Assumptions C116_linked_partial.
Print Assumptions C116_constant_refuted.
Print Assumptions C116_example.
