(** * Theorems for C114: the text of the source file is read as the definitions of the members

    C114_source_partial: what follows the #include line is read, by the rules of C++ (LexSpec.v, BodyTextSpec.v, HeaderTextSpec.v,
    SourceTextSpec.v), as namespaces with exactly the definitions meant, in order: of each method, accessor, operator and constructor
    with its class, name, parameters and the statements C112 reads in its body, of each static field, and of the flags of the static
    constructors.  C114_matches: what is defined is what the header declares (C113).  Missing (_partial): texts that are not
    written (exceptions of the Formatter, C112), bodies of several blocks, 'this' initialisers, static fields of types named in lower
    case, operators with another result type (each refuted below), static constructors with loops or exceptions, nested types. *)
From Coq Require Import String.
From Verif Require Import Tac Base IntModel MemModel FormatterModel FormatterSpec TranslatorModel MemberModel ControlModel LexSpec LexProofs BodyTextModel BodyTextSpec BodyTextProperties HeaderTextModel HeaderTextSpec HeaderTextProofs HeaderTextProperties
  SourceTextModel SourceTextSpec SourceReadProofs SourceFileProofs.
Import ListNotations.
Local Open Scope list_scope.

Section Written.
Variable env : dotnet.
Variable absent : absence.
Variable name_text : Z -> text.
Variable param_text : nat -> nat -> text.
Variable statement_text condition_text value_text il_text argument_text : Z -> text.
Variable statement_lex condition_lex value_lex argument_lex : Z -> list lexeme.
Variable case_of : Z -> nat -> option Z.
Variable unwrapped : inst -> bool.
Variable branch_label : list inst -> Z.
Variable main : Z.
Variable code : Z -> list block.
Variable init_of : Z -> option initializer.
Variable statements_of : Z -> list stmt.
Notation as_cpp := (flat_map (BodyTextSpec.meant statement_lex condition_lex value_lex il_text (fun k => T "leaveBlock" ++ print_d k) case_of)).
Theorem C114_source_partial ts f g :
  HeaderTextSpec.good_names name_text param_text -> ascii_lower (IsLower env) ->
  good_texts (nl env) statement_text condition_text value_text il_text statement_lex condition_lex value_lex case_of ->
  (forall a, good_argument (argument_text a) (argument_lex a)) ->
  (forall b ss, as_cpp (StartMainBlock main (code b)) = [SBlock ss] -> statements_of b = ss) ->
  Forall (well_defined main unwrapped (fun n => match statement_text n with [] => true | _ => false end) code (fun b => match init_of b with Some i => Some (i_this i, i_type i) | None => None end) (IsLower env) name_text absent) ts ->
  nameSpace f = None ->
  source_text env absent name_text param_text statement_text condition_text value_text il_text argument_text case_of unwrapped branch_label main code init_of ts f = Ret g ->
  exists t sps, buffer g = buffer f ++ T "#include ""TranslatedHeader.h""" ++ nl env ++ t /\ read_as_source t sps /\
    all_definitions sps = contents (IsLower env) name_text statements_of
      (fun b => match init_of b with Some i => Some (spelled (IsLower env) (name_text (i_type i)), joined (map argument_lex (i_arguments i))) | None => None end) ts.
Proof.
  intros GN AL G GA ST F N H. exact (source_read env absent name_text param_text statement_text condition_text value_text il_text argument_text statement_lex condition_lex value_lex argument_lex case_of unwrapped branch_label main code init_of statements_of GN AL G GA ST ts f g F N H).
Qed.
End Written.
(** One text has one reading. *)
Theorem C114_one_reading : forall t a b, read_as_source t a -> read_as_source t b -> a = b.
Proof.
  intros t a b (la & n & Da & Ia) (lb & m & Db & Ib). pose proof (divided_unique _ _ _ Da Db). subst lb. pose proof (spaces_mono _ _ _ Ia (n + m) ltac:(lia)) as A. pose proof (spaces_mono _ _ _ Ib (n + m) ltac:(lia)) as B. congruence.
Qed.
(** ** Declarations and definitions *)
(** what has to be defined: functions that are neither pure nor have a body, static data *)
Definition needs_definition (m : cmember) : bool := match cm_form m with Declaration => true | Data => cm_static m | _ => false end.
Definition signature (d : definition) : list Z * (option ctype * list Z * list ctype) :=
  match d with Function ty cls name ps _ _ => (cls, (ty, name, ps)) | Variable_def ty cls name _ => (cls, (Some ty, name, [])) end.
Definition constant (m : member) : Prop := match m with Field mods const _ _ => const = true /\ existsb says_static mods = false | _ => False end.
Theorem C114_matches : forall lower name_text statements_of calls cls m, ~ constant m ->
  map signature (defined lower name_text statements_of calls cls m) =
  map (fun d => (spelled lower (name_text cls), (cm_type d, cm_name d, cm_params d))) (filter needs_definition (meaning lower name_text cls m)).
Proof.
  intros lower name_text statements_of calls cls m H. destruct m as [mods r n ps [b|]|mods ps b|mods ty n get set hidden|mods const ty names|op r ps b]; cbn [defined meaning].
  - reflexivity.
  - reflexivity.
  - destruct (existsb says_static mods); reflexivity.
  - destruct get, set, hidden; reflexivity.
  - cbn [constant] in H. destruct (existsb says_static mods); cbn [orb].
    + induction names as [|n names IH]; [reflexivity|]. cbn [map filter needs_definition cm_form cm_static signature cm_type cm_name cm_params]. rewrite IH. reflexivity.
    + destruct const; [destruct H; auto|]. induction names as [|n names IH]; [reflexivity|]. cbn [map filter needs_definition cm_form cm_static]. exact IH.
  - reflexivity.
Qed.
(** A constant is declared static and defined nowhere. *)
Theorem C114_constant_refuted : forall lower name_text statements_of calls cls ty n,
  defined lower name_text statements_of calls cls (Field [] true ty [n]) = [] /\ map needs_definition (meaning lower name_text cls (Field [] true ty [n])) = [true].
Proof. split; reflexivity. Qed.

(** ** What is not written as it is meant *)
Definition pause : list inst := [ControlModel.Simple 1; Leave 0 None].
Definition sample_code (b : Z) : list block := if b =? 1 then [Block 0 0 [ControlModel.Simple 1; Branch 1]; Block 1 8 pause] else [Block 0 0 pause].
Definition sample_init (b : Z) : option initializer := if b =? 2 then Some (mk_initializer false 6 [7; 8]) else if b =? 3 then Some (mk_initializer true 6 []) else None.
Definition include_line : list Z := T "#include ""TranslatedHeader.h""" ++ [10].
Definition write_source (name : Z -> list Z) (ts : list ttype) : outcome formatter :=
  source_text lf NullReference name par (piece "S") (piece "C") (piece "V") (piece "IL_") (piece "A") first_default (fun _ => false) (fun _ => 0) 0 sample_code sample_init ts new_formatter.
Notation P s := (Punct (T s)).
(** what is read in the body number 0 *)
Definition read_body : list stmt := [SLabel (T "IL_0"); SSimple [Word (T "S1")]; SReturn []].
Definition source_is (ts : list ttype) (ds : list definition) : Prop := exists g t, write_source name ts = Ret g /\ buffer g = include_line ++ t /\ read_as_source t [(T "App_NS", ds)].
Ltac reading_source := eexists; match goal with |- exists t, ?w = Ret _ /\ _ => let g := eval vm_compute in w in match g with Ret ?g => let b := eval vm_compute in (skipn (length include_line) (buffer g)) in
  let s := eval vm_compute in (scan (S (length b)) b) in match s with Some ?ls => exists b; split; [vm_compute; reflexivity|]; split; [vm_compute; reflexivity|]; exists ls, 19%nat; split; [exists (S (length b)); vm_compute; reflexivity|vm_compute; reflexivity] end end end.
Definition no_source (ts : list ttype) : Prop := exists g t, write_source name ts = Ret g /\ buffer g = include_line ++ t /\ forall sps, ~ read_as_source t sps.
Ltac no_reading := eexists; match goal with |- exists t, ?w = Ret _ /\ _ => let g := eval vm_compute in w in match g with Ret ?g => let b := eval vm_compute in (skipn (length include_line) (buffer g)) in
  let s := eval vm_compute in (scan (S (length b)) b) in match s with Some ?ls => exists b; split; [vm_compute; reflexivity|]; split; [vm_compute; reflexivity|];
    let q := fresh in let n := fresh in let D := fresh in let I' := fresh in let X := fresh in intros ? (q & n & D & I');
    assert (X : divided b ls) by (exists (S (length b)); vm_compute; reflexivity); pose proof (divided_unique _ _ _ D X); subst q; let L := fresh in assert (L : (n <= 19 + n)%nat) by lia; pose proof (spaces_mono _ _ _ I' (19 + n)%nat L) as Y; vm_compute in Y; discriminate Y end end end.
(** A body of two blocks has two pairs of braces. *)
Theorem C114_blocks_refuted : no_source (alone (Method [] (Named KStruct true 4) 3 [] (Some 1))).
Proof. no_reading. Qed.
(** "this" is no name of a class. *)
Theorem C114_this_refuted : no_source (alone (Constructor [] [] 3)).
Proof. no_reading. Qed.
(** The operator of T2 with the result T4 is defined as a member of T4, where the header declares one of T2. *)
Theorem C114_operator_refuted :
  source_is (alone (Operator Addition (Named KStruct false 4) [mk_param (Named KStruct true 2) PNone] 0)) [Function (Some (mk_ctype (T "T4") [])) (T "T4") (T "op_Addition") [mk_ctype (T "T2") []] None read_body].
Proof. reading_source. Qed.
(** The static field of a class named f5 has the type x_f5 in the header and f5 in the source. *)
Theorem C114_lower_refuted :
  source_is (alone (Field [MStatic] false (Named KClass false 5) [3])) [Variable_def (mk_ctype (T "f5") [Pointer]) (T "T2") (T "x_f3") []] /\
  meaning (IsLower lf) name 2 (Field [MStatic] false (Named KClass false 5) [3]) = [mk_cmember Public true false Data (Some (mk_ctype (T "x_f5") [Pointer])) (T "x_f3") []].
Proof. split; [reading_source|reflexivity]. Qed.
(** Of two names declared together the second is a variable of the namespace *)
Theorem C114_names_refuted : no_source (alone (Field [MStatic] false (Named KStruct true 4) [3; 5])).
Proof. no_reading. Qed.

(** ** The theorem has cases *)
Definition sample_types : list ttype :=
  [mk_ttype (T "App") [] (mk_class KClass 2 [Constructor [MStatic] [] 0; Constructor [] [mk_param (Named KStruct true 4) PRef] 2; Method [MStatic] (Named KClass false 4) 3 [mk_param (ArrayOf (Named KStruct true 4)) PNone] (Some 0);
     Property [] (Named KStruct true 4) 6 (Body 0) (Body 0) true; Field [MStatic] false (Named KClass false 4) [5]; Field [] false (Named KStruct true 4) [7]]);
   mk_ttype (T "App") [] (mk_class KEnum 8 []);
   mk_ttype [] [] (mk_class KStruct 10 [Operator Subtraction (Named KStruct false 10) [mk_param (Named KStruct true 10) PNone] 0; Method [MAbstract] (Named KStruct true 0) 3 [] None])].
Lemma good_piece_argument a : good_argument (piece "A" a) (pieces "A" a).
Proof.
  split.
  - intros c r lr H D. unfold pieces. cbn [app]. apply D_word; [apply piece_word; split; [reflexivity|repeat constructor]| |exact D]. destruct H as [<-|[<-|[]]]; split; (reflexivity || discriminate).
  - intros d r. destruct d; reflexivity.
Qed.
Example C114_example :
  HeaderTextSpec.good_names name par /\ ascii_lower (IsLower lf) /\ good_texts (nl lf) (piece "S") (piece "C") (piece "V") (piece "IL_") (pieces "S") (pieces "C") (pieces "V") first_default /\ (forall a, good_argument (piece "A" a) (pieces "A" a)) /\
  Forall (well_defined 0 (fun _ => false) (fun n => match piece "S" n with [] => true | _ => false end) sample_code (fun b => match sample_init b with Some i => Some (i_this i, i_type i) | None => None end) (IsLower lf) name NullReference) sample_types /\
  exists g t, write_source name sample_types = Ret g /\ buffer g = include_line ++ t /\
    let call_it := fun b => match sample_init b with Some i => Some (spelled (IsLower lf) (name (i_type i)), joined (map (pieces "A") (i_arguments i))) | None => None end in
    exists sps, read_as_source t sps /\ map fst sps = [T "App_NS"; T "UNNAMED"] /\ all_definitions sps = contents (IsLower lf) name (fun _ => read_body) call_it sample_types /\ length (all_definitions sps) = 8%nat.
Proof.
  split; [exact name_good|]. split; [apply lf_good|]. split; [exact good_pieces|]. split; [exact good_piece_argument|]. split.
  - assert (OB : one_block 0 (fun _ => false) (fun n => match piece "S" n with [] => true | _ => false end) [Block 0 0 pause]) by (split; [eexists; reflexivity|cbn; auto]).
    assert (OB2 : one_block 0 (fun _ => false) (fun n => match piece "S" n with [] => true | _ => false end) (sample_code 2)) by exact OB. assert (OB0 : one_block 0 (fun _ => false) (fun n => match piece "S" n with [] => true | _ => false end) (sample_code 0)) by exact OB.
    repeat apply Forall_cons; [| | |constructor].
    + split; [right; split; [reflexivity|repeat constructor]|]. split; [discriminate|]. cbn [t_class c_members c_name]. repeat apply Forall_cons; [| | | | | |constructor]; cbn [definable existsb says_static orb].
      * exists 0, [1]. reflexivity.
      * split; [repeat constructor|]. split; [exact OB2|]. cbn. split; [reflexivity|discriminate].
      * split; [discriminate|]. split; [discriminate|]. split; [exact Logic.I|]. split; [repeat constructor|exact OB0].
      * split; [exact Logic.I|]. split; [exact OB0|]. split; [exact OB0|]. split; discriminate.
      * intros _. split; [exact Logic.I|]. split; [reflexivity|]. exists 5. split; [reflexivity|discriminate].
      * discriminate.
    + exact Logic.I.
    + split; [left; reflexivity|]. split; [discriminate|]. cbn [t_class c_members c_name]. repeat apply Forall_cons; [| |constructor]; cbn [definable].
      * split; [repeat constructor|]. split; [exact OB0|]. split; [exists KStruct; auto|]. split; [exact Logic.I|]. intros s [<-|[<-|[<-|[]]]]; discriminate.
      * exact Logic.I.
  - eexists. match goal with |- exists t, ?w = Ret _ /\ _ => let g := eval vm_compute in w in match g with Ret ?g => let b := eval vm_compute in (skipn (length include_line) (buffer g)) in
      let s := eval vm_compute in (scan (S (length b)) b) in match s with Some ?ls => let sp := eval vm_compute in (spaces 29 ls) in match sp with Some ?sp => exists b; split; [vm_compute; reflexivity|]; split; [vm_compute; reflexivity|]; intros call_it; exists sp; split;
        [exists ls, 29%nat; split; [exists (S (length b)); vm_compute; reflexivity|vm_compute; reflexivity]|]; split; [vm_compute; reflexivity|]; split; vm_compute; reflexivity end end end end.
Qed.
Print Assumptions C114_source_partial.
Print Assumptions C114_one_reading.
Print Assumptions C114_matches.
