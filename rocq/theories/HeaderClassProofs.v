(** * Lemmas for C113: a class definition is read *)
From Coq Require Import String.
From Verif Require Import Tac Base FormatterModel FormatterSpec FormatterProofs TranslatorModel MemberModel LexSpec LexProofs BodyTextSpec BodyTextProofs BodyWriteProofs HeaderTextModel HeaderTextSpec HeaderTextProofs HeaderReadProofs HeaderMemberProofs.
Import ListNotations.
Local Open Scope list_scope.

(** ** The declarations between the braces *)
Lemma body_chunks w cs mss : Forall2 (good_chunk w) cs mss -> body w Public (split ";" (flat_map (fun c => c ++ [P ";"]) cs)) = Some (concat mss).
Proof.
  intros F. induction F as [|c ms cs mss (A & _ & H & M) F IH]; [reflexivity|]. cbn [flat_map concat]. rewrite <- app_assoc. cbn [app]. rewrite split_stop by (exact A || reflexivity).
  destruct c as [|x c]; [contradiction|]. destruct (split ";" (flat_map (fun c => c ++ [P ";"]) cs)) as [|d q] eqn:E; [discriminate IH|].
  change (match access_of Public (x :: c) with (a, []) => body w a (d :: q) | (a, c) => match member_of w a c, body w a (d :: q) with Some m, Some ms => Some (m ++ ms) | _, _ => None end end = Some (ms ++ concat mss)).
  assert (X : access_of Public (x :: c) = (Public, x :: c)). { destruct H as [H1 H2]. destruct c; cbn [access_of]; [reflexivity|]. rewrite H1, H2. reflexivity. }
  rewrite X, M, IH. reflexivity.
Qed.
Lemma split_cons s x r : exists a q, split s r = a :: q /\ (is_punct x s = false -> split s (x :: r) = (x :: a) :: q).
Proof.
  destruct (split s r) as [|a q] eqn:E; [destruct r as [|y r]; cbn [split] in E; [discriminate|]; destruct (is_punct y s); [discriminate|]; destruct (split s r); discriminate|].
  exists a, q. split; [reflexivity|]. intros H. cbn [split]. rewrite H, E. reflexivity.
Qed.
Lemma body_public w a r : body w a (split ";" (Word (T "public") :: P ":" :: r)) = body w Public (split ";" r).
Proof.
  destruct (split_cons ";" (P ":") r) as (b & q & E & H). destruct (split_cons ";" (Word (T "public")) (P ":" :: r)) as (b' & q' & E' & H'). rewrite (H eq_refl) in E'. injection E' as <- <-. rewrite (H' eq_refl), E. reflexivity.
Qed.
Lemma all_chunks_balanced w cs mss : Forall2 (good_chunk w) cs mss -> balanced (flat_map (fun c => c ++ [P ";"]) cs).
Proof.
  intros F. induction F as [|c ms cs mss (_ & B & _) F IH]; [apply balanced_nil|]. cbn [flat_map]. apply balanced_app; [|exact IH]. apply balanced_app; [exact B|]. apply balanced_one; reflexivity.
Qed.
Section Env.
Variable env : dotnet.
Variable name_text : Z -> text.
Variable param_text : nat -> nat -> text.
Variable absent : absence.
Hypothesis NL : good_newline (nl env).
Hypothesis GN : HeaderTextSpec.good_names name_text param_text.
Hypothesis AL : ascii_lower (IsLower env).
Notation sp := (spelled (IsLower env)).
Notation mm := (meant (IsLower env) name_text).
Notation chk := (chunks env name_text param_text absent).
Notation mlines := (member_lines env name_text param_text absent).
(** ** Members *)
Lemma members_read cls lvl l : 0 <= lvl <= 22 -> cls <> 0 -> Forall rmember l -> forall ds, declare_all absent l = Ret ds -> forall k,
  exists tx cs mss, says (members_text env absent name_text param_text cls k l) lvl (lines env lvl tx) /\ Forall2 chunk_ok tx cs /\ Forall2 (good_chunk (sp (name_text cls))) cs mss /\ concat mss = map (mm cls) ds.
Proof.
  intros LV C R. induction R as [|m l R F IH]; intros ds D k; cbn [declare_all] in D.
  - injection D as <-. exists [], [], []. repeat split; try constructor. apply says_ret.
  - apply bind_inv in D. destruct D as (d & Dm & D). apply bind_inv in D. destruct D as (r & Dl & D). injection D as <-. destruct (IH r Dl (Datatypes.S k)) as (tx & cs & mss & A & B & G & M).
    destruct (chunks_read env name_text param_text absent GN AL cls k m d C R Dm) as (ms & Gm & Mm).
    exists (mlines cls k m ++ tx), (chk cls k m ++ cs), (ms ++ mss). split; [|split; [|split]].
    + rewrite lines_app. cbn [members_text]. apply (says_bind (member_text env absent name_text param_text cls k m)); [|exact A]. eapply says_member; eassumption.
    + apply Forall2_app; [|exact B]. eapply chunks_ok; eassumption.
    + apply Forall2_app; assumption.
    + rewrite concat_app, map_app, M, Mm. reflexivity.
Qed.
Lemma lines_closed lvl tx cs : Forall2 chunk_ok tx cs -> closed (lines env lvl tx) (flat_map (fun c => c ++ [P ";"]) cs).
Proof.
  intros F. induction F as [|t c tx cs O F IH]; [apply closed_nil|]. cbn [lines flat_map]. apply closed_app; [|exact IH]. unfold eol. apply (closed_app _ []); [apply closed_blanks, tab_blanks|].
  intros r lr D. rewrite (app_assoc t), <- app_assoc. apply O. apply (closed_blanks (nl env) ltac:(apply NL)). exact D.
Qed.
(** ** Braces *)
Definition step (m : formatter -> outcome formatter) (d : Z) (ls : list lexeme) : Prop :=
  forall f, 0 <= indentLevel f -> 0 <= indentLevel f + d -> indentLevel f <= 21 -> exists g t, m f = Ret g /\ closed t ls /\ starts t /\ buffer g = buffer f ++ t /\ indentLevel g = indentLevel f + d /\ nameSpace g = nameSpace f.
Lemma blanks_starts b c t : blanks b -> after_word c -> starts (b ++ c :: t).
Proof. intros B C. destruct b as [|x b]; [exact C|]. inversion B as [|? ? H]; subst. cbn. apply blank_cases in H. destruct H as [-> |[-> |[-> | ->]]]; split; (reflexivity || discriminate). Qed.
Lemma blanks_app a b : blanks a -> blanks b -> blanks (a ++ b).
Proof. intros A B. apply Forall_app. auto. Qed.
Lemma open_step : step (AddOpenBrace env) 1 [P "{"].
Proof.
  intros f L0 L1 L2. unfold AddOpenBrace. fold (maybe env f). destruct (maybe_inv env NL f) as (b0 & B0 & E0). unfold AppendIndentedLine.
  assert (L : indentLevel (maybe env f) = indentLevel f) by (unfold maybe; destruct (onNewline f); reflexivity). assert (N : nameSpace (maybe env f) = nameSpace f) by (unfold maybe; destruct (onNewline f); reflexivity).
  rewrite Indent_in by (rewrite L; lia). cbn [bind]. eexists _, (b0 ++ repeat c_tab (Z.to_nat (indentLevel (maybe env f))) ++ T "{" ++ nl env). split; [reflexivity|]. split; [|split; [|split; [|split]]].
  - apply (closed_app b0 []); [apply closed_blanks, B0|]. apply (closed_app _ []); [apply closed_blanks, tab_blanks|]. apply (closed_app _ [Punct (T "{")] _ []); [apply closed_open|apply closed_blanks, NL].
  - rewrite app_assoc. apply (blanks_starts _ 123); [apply blanks_app; [exact B0|apply tab_blanks]|split; [reflexivity|discriminate]].
  - cbn. rewrite E0. repeat rewrite <- app_assoc. reflexivity.
  - cbn. rewrite L. reflexivity.
  - cbn. exact N.
Qed.
Lemma close_step semi : step (fun f => AddCloseBrace env f semi) (-1) (if semi then [P "}"; P ";"] else [P "}"]).
Proof.
  intros f L0 L1 L2. unfold AddCloseBrace. fold (maybe env f). destruct (maybe_inv env NL f) as (b0 & B0 & E0). unfold AppendIndented.
  assert (L : indentLevel (maybe env f) = indentLevel f) by (unfold maybe; destruct (onNewline f); reflexivity). assert (N : nameSpace (maybe env f) = nameSpace f) by (unfold maybe; destruct (onNewline f); reflexivity).
  assert (L' : indentLevel (DownIndent (maybe env f)) = indentLevel f + -1) by (cbn; rewrite L; lia).
  rewrite Indent_in by (rewrite L'; lia). cbn [bind]. eexists _, (b0 ++ repeat c_tab (Z.to_nat (indentLevel (DownIndent (maybe env f)))) ++ T "}" ++ (if semi then T ";" else []) ++ nl env). split; [reflexivity|]. split; [|split; [|split; [|split]]].
  - apply (closed_app b0 []); [apply closed_blanks, B0|]. apply (closed_app _ []); [apply closed_blanks, tab_blanks|]. destruct semi.
    + apply (closed_app _ [Punct (T "}")] _ [P ";"]); [apply closed_close|]. apply (closed_app _ [Punct (T ";")] _ []); [apply closed_semi|apply closed_blanks, NL].
    + apply (closed_app _ [Punct (T "}")] _ []); [apply closed_close|apply closed_blanks, NL].
  - rewrite app_assoc. apply (blanks_starts _ 125); [apply blanks_app; [exact B0|apply tab_blanks]|split; [reflexivity|discriminate]].
  - destruct semi; cbn; rewrite E0; repeat rewrite <- app_assoc; reflexivity.
  - destruct semi; exact L'.
  - destruct semi; exact N.
Qed.
(** ** The head of a class *)
Definition key_word (k : kind) : list Z := match k with KStruct => T "struct" | _ => T "class" end.
Definition parent_lex (t : ttype) : list lexeme :=
  match t_bases t with
  | _ :: _ => P ":" :: Word (T "public") :: names_lex env name_text (t_bases t)
  | [] => match c_kind (t_class t) with KClass | KStruct => [P ":"; Word (T "public"); Word (T "Object")] | _ => [] end
  end.
Definition parent_chars (t : ttype) : text :=
  match t_bases t with
  | _ :: _ => T " : public " ++ names_chars env name_text (t_bases t)
  | [] => match c_kind (t_class t) with KClass | KStruct => T " : public Object" | _ => [] end
  end.
Lemma says_parent t lvl : says (OutputParentage_text env name_text t) lvl (parent_chars t).
Proof.
  unfold OutputParentage_text, parent_chars. destruct (t_bases t) as [|b bs].
  - destruct (c_kind (t_class t)); first [apply says_append|apply says_ret].
  - apply (says_after (fun f => Append f (T " : public ")) (WriteCommaSeparatedList (fun _ n f => AppendName env f (name_text n)) 0 true (b :: bs))); [intros f; auto|apply (says_names env name_text param_text GN)].
Qed.
Lemma public_div (w : text) r lr : divided (w ++ r) lr -> divided (T " : public " ++ w ++ r) (P ":" :: Word (T "public") :: lr).
Proof. intros D. apply D_space. apply (D_colon (T "public " ++ w ++ r)). apply (word_space (T "public")); [split; [reflexivity|repeat constructor]|exact D]. Qed.
Lemma parent_div t r lr : head_is after_word r -> divided r lr -> head_is after_word (parent_chars t ++ r) /\ divided (parent_chars t ++ r) (parent_lex t ++ lr).
Proof.
  intros H D. unfold parent_chars, parent_lex. destruct (t_bases t) as [|b bs].
  - destruct (c_kind (t_class t)); cbn [app]; try (split; [exact H|exact D]); (split; [split; [reflexivity|discriminate]|]); change (T " : public Object") with (T " : public " ++ T "Object"); apply (public_div (T "Object")); apply D_word; [split; [reflexivity|repeat constructor]|exact H|exact D|split; [reflexivity|repeat constructor]|exact H|exact D].
  - split; [split; [reflexivity|discriminate]|]. rewrite <- app_assoc. apply public_div. apply (names_ends env name_text param_text GN); assumption.
Qed.
(** ** The class *)
Definition ctor_lex (c : class) : list (list lexeme) :=
  if is_struct_kind (c_kind c) && existsb is_constructor (c_members c) && negb (existsb no_parameters (c_members c)) then [[Word (sp (name_text (c_name c))); P "("; P ")"; P "{"; P "}"]] else [].
Definition class_lex (t : ttype) (cs : list (list lexeme)) : list lexeme :=
  Word (key_word (c_kind (t_class t))) :: Word (sp (name_text (c_name (t_class t)))) :: parent_lex t ++ P "{" :: (if negb (is_struct_kind (c_kind (t_class t))) then [Word (T "public"); P ":"] else []) ++ flat_map (fun c => c ++ [P ";"]) (cs ++ ctor_lex (t_class t)) ++ [P "}"; P ";"].
Lemma ctor_read c : c_name c <> 0 -> Forall2 (good_chunk (sp (name_text (c_name c)))) (ctor_lex c)
  (map (fun d => [mm (c_name c) d]) (if is_struct_kind (c_kind c) && existsb is_constructor (c_members c) && negb (existsb no_parameters (c_members c)) then [mk_declared false false Inline None Ctor []] else [])).
Proof.
  intros C. unfold ctor_lex. destruct (is_struct_kind (c_kind c) && existsb is_constructor (c_members c) && negb (existsb no_parameters (c_members c))); [|constructor]. constructor; [|constructor].
  pose proof (cname_keyword env name_text param_text GN AL _ C) as K. split; [|split; [|split]].
  - repeat constructor.
  - apply (balanced_app [_; _; _] [P "{"; P "}"]); [apply balanced_plain; repeat constructor|apply balanced_pair].
  - split; apply not_special; (exact K || reflexivity).
  - eapply read_constructor; [exact K|apply call_none|reflexivity].
Qed.
Lemma bases_read k b bs : ~ In 0 (b :: bs) -> all (base_of k) (split "," (Word (T "public") :: names_lex env name_text (b :: bs))) = Some ((Public, sp (name_text b)) :: map (fun b => (default_access k, sp (name_text b))) bs).
Proof.
  intros Z. assert (K : forall m, In m (b :: bs) -> keyword (sp (name_text m)) = false) by (intros m I; apply (cname_keyword env name_text param_text GN AL); intros ->; contradiction).
  destruct (split_cons "," (Word (T "public")) (names_lex env name_text (b :: bs))) as (a & q & E & H). rewrite (H eq_refl). clear H. unfold names_lex in E. rewrite split_list in E; [|intros; repeat constructor|discriminate]. cbn [length seq combine map fst snd] in E. injection E as <- <-.
  cbn [all]. unfold base_of at 1. unfold name_of. rewrite (K b (or_introl eq_refl)). change (is_word (Word (T "public")) "public") with true. cbv iota.
  rewrite (all_map _ _ (fun p => (default_access k, sp (name_text (snd p))))); [rewrite (map_combine_snd (fun b => (default_access k, sp (name_text b)))); reflexivity|].
  intros [j m] I. cbn [fst snd]. unfold base_of, name_of. rewrite (K m (or_intror (in_combine_r _ _ _ _ I))). reflexivity.
Qed.
Definition good_class (t : ttype) : Prop := c_name (t_class t) <> 0 /\ ~ In 0 (t_bases t) /\ Forall rmember (c_members (t_class t)).
Lemma parent_plain t : Forall (fun x => brace x = false /\ is_punct x "{" = false) (parent_lex t).
Proof.
  unfold parent_lex. destruct (t_bases t) as [|b bs]; [destruct (c_kind (t_class t)); repeat constructor|]. constructor; [split; reflexivity|]. constructor; [split; reflexivity|].
  apply list_lex_all; [split; reflexivity|]. intros k n _. repeat constructor.
Qed.
Lemma parent_read t : ~ In 0 (t_bases t) ->
  (match parent_lex t with [] => Some [] | c :: h => if is_punct c ":" then all (base_of (key_of (c_kind (t_class t)))) (split "," h) else None end) = Some (bases_of (IsLower env) name_text (c_kind (t_class t)) (t_bases t)).
Proof.
  intros Z. unfold parent_lex, bases_of. destruct (t_bases t) as [|b bs]; [destruct (c_kind (t_class t)); reflexivity|]. change (is_punct (P ":") ":") with true. cbv iota. apply bases_read, Z.
Qed.
Lemma class_read t cs mss : good_class t -> Forall2 (good_chunk (sp (name_text (c_name (t_class t))))) cs mss -> forall r,
  class_of (class_lex t cs ++ r) = Some (mk_cclass (key_of (c_kind (t_class t))) (sp (name_text (c_name (t_class t)))) (bases_of (IsLower env) name_text (c_kind (t_class t)) (t_bases t))
    (concat mss ++ map (mm (c_name (t_class t))) (if is_struct_kind (c_kind (t_class t)) && existsb is_constructor (c_members (t_class t)) && negb (existsb no_parameters (c_members (t_class t))) then [mk_declared false false Inline None Ctor []] else [])), r).
Proof.
  intros (C & Z & _) G r. set (c := t_class t) in *. set (w := sp (name_text (c_name c))) in *.
  pose proof (Forall2_app G (ctor_read c C)) as F. fold w in F.
  set (ex := if is_struct_kind (c_kind c) && existsb is_constructor (c_members c) && negb (existsb no_parameters (c_members c)) then [mk_declared false false Inline None Ctor []] else []) in *.
  set (all_cs := flat_map (fun c => c ++ [P ";"]) (cs ++ ctor_lex c)).
  assert (B : balanced all_cs) by (eapply all_chunks_balanced, F).
  assert (M : body w Public (split ";" all_cs) = Some (concat mss ++ map (mm (c_name c)) ex)).
  { unfold all_cs. rewrite (body_chunks w _ _ F), concat_app. f_equal. f_equal. clear. induction ex as [|d ex IH]; [reflexivity|]. cbn. rewrite IH. reflexivity. }
  set (pub := if negb (is_struct_kind (c_kind c)) then [Word (T "public"); P ":"] else []).
  assert (M' : body w (default_access (key_of (c_kind c))) (split ";" (pub ++ all_cs)) = Some (concat mss ++ map (mm (c_name c)) ex)).
  { unfold pub. destruct (c_kind c) eqn:K; cbn [is_struct_kind negb app key_of default_access]; rewrite ?body_public; exact M. }
  assert (B' : balanced (pub ++ all_cs)). { apply balanced_app; [|exact B]. unfold pub. destruct (negb (is_struct_kind (c_kind c))); [apply balanced_plain; repeat constructor|apply balanced_nil]. }
  unfold class_lex. fold c w pub all_cs. cbn [app]. unfold class_of.
  assert (K : (if is_word (Word (key_word (c_kind c))) "class" then Some Class else if is_word (Word (key_word (c_kind c))) "struct" then Some Struct else None) = Some (key_of (c_kind c))) by (destruct (c_kind c); reflexivity). rewrite K.
  unfold name_of at 1. unfold w at 1. rewrite (cname_keyword env name_text param_text GN AL _ C). fold w.
  replace ((parent_lex t ++ P "{" :: pub ++ all_cs ++ [P "}"; P ";"]) ++ r) with (parent_lex t ++ Punct (T "{") :: (pub ++ all_cs) ++ P "}" :: P ";" :: r) by (repeat rewrite <- app_assoc; cbn [app]; repeat rewrite <- app_assoc; reflexivity).
  rewrite until_plain by apply parent_plain. pose proof (parent_read t Z) as PR. fold c in PR. rewrite PR. rewrite B'. cbn [braces]. change (is_punct (P "}") "{") with false. change (is_punct (P "}") "}") with true. cbv iota. rewrite app_nil_r, M'. reflexivity.
Qed.
Definition rest_of (t : ttype) (f : formatter) : outcome formatter :=
  let c := t_class t in
  f <- OutputEntityType_text (c_kind c) f ;;
  f <- FormatType_text env name_text (Named (c_kind c) false (c_name c)) f ;;
  f <- OutputParentage_text env name_text t f ;;
  f <- AddOpenBrace env f ;;
  f <- (if negb (is_struct_kind (c_kind c)) then AppendIndentedLine env f (T "public:") else Ret f) ;;
  f <- members_text env absent name_text param_text (c_name c) 0 (c_members c) f ;;
  f <- (if is_struct_kind (c_kind c) && existsb is_constructor (c_members c) && negb (existsb no_parameters (c_members c))
        then CreateDefaultConstructor_text env name_text c f else Ret f) ;;
  AddCloseBrace env f true.
(** the class is written and read as what is meant *)
Definition is_class_text (t : ttype) (c : cclass) : Prop := exists cl, (forall r, class_of (cl ++ r) = Some (c, r)) /\ (exists x l, cl = x :: l /\ is_punct x "}" = false) /\
  forall f, indentLevel f = 1 -> exists g tx, rest_of t f = Ret g /\ closed tx cl /\ buffer g = buffer f ++ tx /\ indentLevel g = 1 /\ nameSpace g = nameSpace f.
Definition meant_class (c : class) (bs : list Z) (ds : list declared) : cclass :=
  mk_cclass (key_of (c_kind c)) (sp (name_text (c_name c))) (bases_of (IsLower env) name_text (c_kind c) bs) (map (mm (c_name c)) ds).
Lemma class_text t ds : good_class t -> HeaderTypeDeclaration absent (t_class t) = Ret ds -> is_class_text t (meant_class (t_class t) (t_bases t) ds).
Proof.
  intros G D. pose proof G as (C & Z & R). unfold HeaderTypeDeclaration in D. apply bind_inv in D. destruct D as (d & Dd & D). injection D as <-.
  destruct (members_read (c_name (t_class t)) 2 (c_members (t_class t)) ltac:(lia) C R d Dd 0) as (tx & cs & mss & Sy & O & GC & M).
  exists (class_lex t cs). split; [|split].
  - intros r. rewrite (class_read t cs mss G GC r), M, <- map_app. reflexivity.
  - eexists _, _. split; [reflexivity|reflexivity].
  - intros f L. unfold rest_of, OutputEntityType_text. set (c := t_class t) in *.
    destruct (says_indented (match c_kind c with KInterface => T "class " | KStruct => T "struct " | _ => T "class " end) 1 ltac:(lia) f L) as (f1 & E1 & B1 & L1 & N1). rewrite E1. cbn [bind]. clear E1.
    destruct (says_name env (name_text (c_name c)) 1 (word_nonempty _ (name_word name_text param_text GN _)) f1 L1) as (f2 & E2 & B2 & L2 & N2). unfold FormatType_text. cbn [itype_name bind]. rewrite E2. cbn [bind]. clear E2.
    destruct (says_parent t 1 f2 L2) as (f3 & E3 & B3 & L3 & N3). rewrite E3. cbn [bind]. clear E3.
    destruct (open_step f3) as (f4 & t4 & E4 & C4 & S4 & B4 & L4 & N4); [lia|lia|lia|]. rewrite E4. cbn [bind]. clear E4.
    assert (X : exists f5 t5, (if negb (is_struct_kind (c_kind c)) then AppendIndentedLine env f4 (T "public:") else Ret f4) = Ret f5 /\ closed t5 (if negb (is_struct_kind (c_kind c)) then [Word (T "public"); P ":"] else []) /\ buffer f5 = buffer f4 ++ t5 /\ indentLevel f5 = 2 /\ nameSpace f5 = nameSpace f4).
    { destruct (negb (is_struct_kind (c_kind c))); [|exists f4, []; repeat split; [apply closed_nil|rewrite app_nil_r; reflexivity|lia]].
      unfold AppendIndentedLine. rewrite Indent_in by lia. cbn [bind]. eexists _, (repeat c_tab (Z.to_nat (indentLevel f4)) ++ T "public" ++ T ":" ++ nl env). split; [reflexivity|]. split; [|split; [|split]].
      - apply (closed_app _ []); [apply closed_blanks, tab_blanks|]. apply (closed_word (T "public")); [split; [reflexivity|repeat constructor]|split; [reflexivity|discriminate]|]. apply closed_colon; [apply NL|apply NL].
      - cbn. repeat rewrite <- app_assoc. reflexivity.
      - cbn. lia.
      - reflexivity. }
    destruct X as (f5 & t5 & E5 & C5 & B5 & L5 & N5). rewrite E5. cbn [bind]. clear E5.
    destruct (Sy f5 L5) as (f6 & E6 & B6 & L6 & N6). rewrite E6. cbn [bind]. clear E6.
    assert (X : exists f7 t7, (if is_struct_kind (c_kind c) && existsb is_constructor (c_members c) && negb (existsb no_parameters (c_members c)) then CreateDefaultConstructor_text env name_text c f6 else Ret f6) = Ret f7 /\ closed t7 (flat_map (fun c => c ++ [P ";"]) (ctor_lex c)) /\ buffer f7 = buffer f6 ++ t7 /\ indentLevel f7 = 2 /\ nameSpace f7 = nameSpace f6).
    { unfold ctor_lex. destruct (is_struct_kind (c_kind c) && existsb is_constructor (c_members c) && negb (existsb no_parameters (c_members c))) eqn:Q; [|exists f6, []; repeat split; [apply closed_nil|rewrite app_nil_r; reflexivity|exact L6]].
      apply andb_true_iff in Q. destruct Q as [Q _]. apply andb_true_iff in Q. destruct Q as [Q _]. unfold CreateDefaultConstructor_text.
      destruct (says_indented [] 2 ltac:(lia) f6 L6) as (g & E & B & Lg & N). rewrite E. cbn [bind].
      destruct (says_type env name_text param_text GN AL (Named (c_kind c) false (c_name c)) 2 Logic.I g Lg) as (h & E' & B' & Lh & N'). rewrite E'. cbn [bind]. eexists _, (repeat c_tab 2 ++ sp (name_text (c_name c)) ++ T "(" ++ T ")" ++ T "{" ++ T "}" ++ T ";"). split; [reflexivity|]. split; [|split; [|split]].
      - apply (closed_app _ []); [apply closed_blanks, tab_blanks|]. cbn [flat_map app]. apply (closed_word (sp (name_text (c_name c)))); [apply (cname_word env name_text param_text GN)|split; [reflexivity|discriminate]|].
        apply (closed_app (T "(") [P "("] _ [P ")"; P "{"; P "}"; P ";"]); [apply closed_lp|]. apply (closed_app (T ")") [P ")"] _ [P "{"; P "}"; P ";"]); [apply closed_rp|].
        apply (closed_app (T "{") [P "{"] _ [P "}"; P ";"]); [apply closed_open|]. apply (closed_app (T "}") [P "}"] _ [P ";"]); [apply closed_close|apply closed_semi].
      - cbn [buffer Append]. rewrite B', B. unfold type_chars, star, type_name_text. destruct (c_kind c); try discriminate Q. cbn [IsPointerType]. change (Z.to_nat 2) with 2%nat. repeat (rewrite ?app_nil_r; rewrite <- ?app_assoc). reflexivity.
      - exact Lh.
      - cbn. congruence. }
    destruct X as (f7 & t7 & E7 & C7 & B7 & L7 & N7). rewrite E7. cbn [bind]. clear E7.
    destruct (close_step true f7) as (f8 & t8 & E8 & C8 & S8 & B8 & L8 & N8); [lia|lia|lia|]. rewrite E8. clear E8.
    exists f8, (repeat c_tab (Z.to_nat 1) ++ key_word (c_kind c) ++ T " " ++ sp (name_text (c_name c)) ++ parent_chars t ++ t4 ++ t5 ++ lines env 2 tx ++ t7 ++ t8). split; [reflexivity|]. split; [|split; [|split]].
    + apply (closed_app _ []); [apply closed_blanks, tab_blanks|]. intros r lr Dr. unfold class_lex. fold c. cbn [app]. rewrite <- !app_assoc. apply word_space; [destruct (c_kind c); split; try reflexivity; repeat constructor|].
      assert (Y : divided (t4 ++ t5 ++ lines env 2 tx ++ t7 ++ t8 ++ r) (P "{" :: (if negb (is_struct_kind (c_kind c)) then [Word (T "public"); P ":"] else []) ++ flat_map (fun c => c ++ [P ";"]) cs ++ flat_map (fun c => c ++ [P ";"]) (ctor_lex c) ++ [P "}"; P ";"] ++ lr)).
      { apply C4, C5. apply (lines_closed 2 tx cs O). apply C7, C8, Dr. }
      destruct (parent_div t _ _ (starts_head t4 _ S4) Y) as [H1 H2]. rewrite flat_map_app. apply D_word; [apply (cname_word env name_text param_text GN)|exact H1|]. repeat (rewrite <- app_assoc; cbn [app]). exact H2.
    + assert (KW : buffer f1 = buffer f ++ repeat c_tab (Z.to_nat 1) ++ key_word (c_kind c) ++ T " ") by (rewrite B1; destruct (c_kind c); reflexivity).
      rewrite B8, B7, B6, B5, B4, B3, B2, KW. repeat rewrite <- app_assoc. reflexivity.
    + lia.
    + congruence.
Qed.
End Env.
