(** * Lemmas for C114: the members, the namespaces and the whole source file *)
From Coq Require Import String.
From Verif Require Import Tac Base MemModel FormatterModel FormatterSpec FormatterProofs TranslatorModel TranslatorProperties MemberModel ControlModel ControlSpec LexSpec LexProofs BodyTextModel BodyTextSpec BodyTextProofs BodyWriteProofs
  HeaderTextModel HeaderTextSpec HeaderTextProofs HeaderReadProofs HeaderFileProofs SourceTextModel SourceTextSpec SourceWriteProofs SourceReadProofs.
Import ListNotations.
Local Open Scope list_scope.

Section Source.
Variable env : dotnet.
Variable absent : absence.
Variable name_text : Z -> text.
Variable param_text : nat -> nat -> text.
Variable statement_text condition_text value_text il_text argument_text : Z -> text.
Variable statement_lex condition_lex value_lex argument_lex : Z -> list lexeme.
Variable case_of : Z -> nat -> option Z.
Variable unwrapped : inst -> bool.
Variable branch_label : list inst -> Z.
Variable main : Z.
Variable code : Z -> list block.
Variable init_of : Z -> option initializer.
Variable statements_of : Z -> list stmt.
Hypothesis GN : HeaderTextSpec.good_names name_text param_text.
Hypothesis AL : ascii_lower (IsLower env).
Hypothesis G : good_texts (nl env) statement_text condition_text value_text il_text statement_lex condition_lex value_lex case_of.
Hypothesis GA : forall a, good_argument (argument_text a) (argument_lex a).
Notation mt := (BodyTextSpec.meant statement_lex condition_lex value_lex il_text leave_text case_of).
Hypothesis ST : forall b ss, flat_map mt (StartMainBlock main (code b)) = [SBlock ss] -> statements_of b = ss.
Notation silent := (fun n : Z => match statement_text n with [] => true | _ => false end).
Notation sp n := (spelled (IsLower env) (name_text n)).
Notation calls := (fun b => match init_of b with Some i => Some (sp (i_type i), joined (map argument_lex (i_arguments i))) | None => None end).
Notation first_of := (fun b => match init_of b with Some i => Some (i_this i, i_type i) | None => None end).
Notation defs := (defined (IsLower env) name_text statements_of calls).
Notation ok := (definable main unwrapped silent code first_of (IsLower env) name_text absent).
Notation body_text := (StartMainBlock_text env statement_text condition_text value_text il_text case_of unwrapped branch_label main).
Notation smember := (source_member env absent name_text param_text statement_text condition_text value_text il_text argument_text case_of unwrapped branch_label main code init_of).
Notation tlex := (type_lex env name_text).
Notation tchars := (type_chars env name_text).
Notation braced t ss := (SourceWriteProofs.braced t ss).
Lemma NL : nl env <> [] /\ blanks (nl env).
Proof. exact (proj1 G). Qed.
Lemma says_adds m t f g : (forall l, says m l t) -> m f = Ret g -> adds f g t.
Proof. intros H E. destruct (H (indentLevel f) f eq_refl) as (h & E' & B & _ & N). rewrite E in E'. injection E' as <-. split; assumption. Qed.
Lemma indented_adds f d g : AppendIndented f d = Ret g -> exists b, blanks b /\ adds f g (b ++ d).
Proof. intros H. pose proof (Indented_keeps d f g H) as N. apply AppendIndented_inv in H. destruct H as (b & B & E & _). exists b. split; [exact B|]. split; assumption. Qed.
Lemma name_nonempty n : name_text n <> [].
Proof. apply word_nonempty, (name_word name_text param_text GN). Qed.
Lemma scope_adds c f g : Scope_text env name_text c f = Ret g -> adds f g (sp (c_name c) ++ T "::").
Proof.
  intros H. unfold Scope_text, FormatType_text, class_type in H. apply bind_inv in H. destruct H as (x & H & K). injection K as <-. apply (adds_trans f x); [|apply adds_append].
  cbn [itype_name bind] in H. exact (says_adds _ _ _ _ (fun l => says_name env (name_text (c_name c)) l (name_nonempty _)) H).
Qed.
Lemma name_adds w f g : w <> [] -> AppendName env f w = Ret g -> adds f g (spelled (IsLower env) w).
Proof. intros W H. exact (says_adds _ _ _ _ (fun l => says_name env w l W) H). Qed.
Lemma type_adds t f g : writable t -> FormatTypeDelaration_text env name_text t f = Ret g -> adds f g (tchars t).
Proof. intros W H. exact (says_adds _ _ _ _ (fun l => says_type env name_text param_text GN AL t l (wtype_of t W)) H). Qed.
Lemma params_adds k ps f g : writable_params ps -> WriteCommaSeparatedListInParenthesis (VisitParameterDeclaration_text env name_text param_text k) ps f = Ret g -> adds f g (params_chars env name_text param_text k ps).
Proof. intros W H. exact (says_adds _ _ _ _ (fun l => says_params env name_text param_text GN AL k ps l (wparams_of ps W)) H). Qed.
Lemma body_adds b f g : one_block main unwrapped silent (code b) -> body_text (code b) f = Ret g -> exists t, adds f g t /\ braced t (statements_of b).
Proof.
  intros [[bl E] F] H. pose proof (ST b) as X. rewrite E in *. destruct (main_block env statement_text condition_text value_text il_text statement_lex condition_lex value_lex case_of unwrapped branch_label main G bl f g F H) as (t & ss & A & B & M).
  exists t. rewrite (X ss M). split; assumption.
Qed.
(** ** Lexemes *)
Lemma blanks_closed b t ls : blanks b -> closed t ls -> closed (b ++ t) ls.
Proof. intros B C. apply (closed_app b [] t ls); [apply closed_blanks, B|exact C]. Qed.
Lemma closed_line t ls : closed t ls -> closed (nl env ++ t) ls.
Proof. apply blanks_closed, NL. Qed.
Lemma scoped c w t ls : word_text w -> starts t -> closed t ls -> closed (sp c ++ T "::" ++ w ++ t) (Word (sp c) :: P "::" :: Word w :: ls).
Proof.
  intros W S C r lr D. rewrite <- !app_assoc. cbn [app]. apply D_word; [apply (cname_word env name_text param_text GN)|split; [reflexivity|discriminate]|]. apply (D_scope (w ++ t ++ r)). apply D_word; [exact W|apply starts_head, S|apply C, D].
Qed.
Lemma typed_closed ty t ls : writable ty -> closed t ls -> closed (tchars ty ++ T " " ++ t) (tlex ty ++ ls).
Proof. intros W C r lr D. rewrite <- !app_assoc. apply (type_div env name_text param_text GN ty 32); [apply wtype_of, W|left; reflexivity|]. apply D_space. apply C, D. Qed.
Lemma word_closed w t ls : word_text w -> closed t ls -> closed (w ++ T " " ++ t) (Word w :: ls).
Proof. intros W C r lr D. rewrite <- !app_assoc. apply word_space; [exact W|apply C, D]. Qed.
Lemma empty_closed : closed (T "()") [P "("; P ")"].
Proof. intros r lr D. change (T "()") with (T "(" ++ T ")"). rewrite <- app_assoc. apply D_lp, D_rp, D. Qed.
Lemma value_closed ty : writable ty -> closed (T "(" ++ tchars ty ++ T " x_value )") (P "(" :: tlex ty ++ [Word (T "x_value"); P ")"]).
Proof.
  intros W r lr D. rewrite <- !app_assoc. cbn [app]. apply D_lp. rewrite <- app_assoc. apply (type_div env name_text param_text GN ty 32); [apply wtype_of, W|left; reflexivity|].
  apply (D_space (T "x_value )" ++ r)). change (T "x_value )") with (T "x_value" ++ T " " ++ T ")"). rewrite <- !app_assoc. apply (word_space (T "x_value")); [split; [reflexivity|repeat constructor]|]. apply D_rp, D.
Qed.
(** ** Functions *)
Lemma cls_keyword n : n <> 0 -> keyword (sp n) = false.
Proof. apply (cname_keyword env name_text param_text GN AL). Qed.
Lemma typed_function ty cls w pt pl ps t ss : writable ty -> cls <> 0 -> keyword w = false -> word_text w -> sp cls <> w -> starts pt -> closed pt pl -> (forall r, call (pl ++ r) = Some (ps, r)) -> braced t ss ->
  exists la, closed (tchars ty ++ T " " ++ sp cls ++ T "::" ++ w ++ pt ++ t) la /\ defines la (Function (Some (ctype_for (IsLower env) name_text ty)) (sp cls) w ps None ss).
Proof.
  intros W Nc K Ww Ne S Cp C (l & Cb & RR). exists (tlex ty ++ Word (sp cls) :: P "::" :: Word w :: pl ++ [] ++ (P "{" :: l ++ [P "}"])). split.
  - apply typed_closed; [exact W|]. apply scoped; [exact Ww| |apply closed_app; assumption]. destruct pt; [destruct S|exact S].
  - split; [unfold type_lex; reflexivity|]. intros r. rewrite <- app_assoc.
    destruct (rest_function (Some (ctype_for (IsLower env) name_text ty)) (sp cls) w ps None [] l ss pl (cls_keyword cls Nc) K Ne C (no_initialiser _) RR r) as [n E].
    exists n. cbn [app]. rewrite (type_definition env name_text param_text GN AL n ty (sp cls) _ W). rewrite <- E. repeat (cbn [app]; rewrite <- ?app_assoc). reflexivity.
Qed.
Lemma word_function tw cls w pt pl ps t ss : type_word (Word tw) = Some tw -> is_punct (Word tw) "}" = false -> word_text tw -> cls <> 0 -> keyword w = false -> word_text w -> sp cls <> w -> starts pt -> closed pt pl -> (forall r, call (pl ++ r) = Some (ps, r)) -> braced t ss ->
  exists la, closed (tw ++ T " " ++ sp cls ++ T "::" ++ w ++ pt ++ t) la /\ defines la (Function (Some (mk_ctype tw [])) (sp cls) w ps None ss).
Proof.
  intros W Np Wt Nc K Ww Ne S Cp C (l & Cb & RR). exists (Word tw :: Word (sp cls) :: P "::" :: Word w :: pl ++ [] ++ (P "{" :: l ++ [P "}"])). split.
  - apply word_closed; [exact Wt|]. apply scoped; [exact Ww| |apply closed_app; assumption]. destruct pt; [destruct S|exact S].
  - split; [reflexivity|]. intros r.
    destruct (rest_function (Some (mk_ctype tw [])) (sp cls) w ps None [] l ss pl (cls_keyword cls Nc) K Ne C (no_initialiser _) RR r) as [n E].
    exists n. cbn [app]. rewrite (word_definition n tw (sp cls) _ W). rewrite <- E. repeat (cbn [app]; rewrite <- ?app_assoc). reflexivity.
Qed.
(** ** Arguments *)
Lemma args_div args : forall k r lr, divided (41 :: r) lr -> divided (list_text (fun _ a => argument_text a) k true args ++ 41 :: r) (joined (map argument_lex args) ++ lr).
Proof.
  assert (X : forall args a k r lr, divided (41 :: r) lr -> divided ((argument_text a ++ list_text (fun _ a => argument_text a) k false args) ++ 41 :: r) (joined (map argument_lex (a :: args)) ++ lr)).
  { clear args. induction args as [|b args IH]; intros a k r lr D; cbn [list_text map joined]; rewrite <- !app_assoc.
    - apply (proj1 (GA a)); [right; left; reflexivity|exact D].
    - cbn [negb app]. apply (proj1 (GA a)); [left; reflexivity|]. specialize (IH b (S k) r lr D). rewrite <- app_assoc in IH. exact (D_comma _ _ IH). }
  intros k r lr D. destruct args as [|a args]; [exact D|]. cbn [list_text negb app]. apply X, D.
Qed.
Lemma args_parens args r : parens 0 (joined (map argument_lex args) ++ P ")" :: r) = Some (joined (map argument_lex args), r).
Proof.
  destruct args as [|a args]; [reflexivity|]. revert a. induction args as [|b args IH]; intros a.
  - cbn [map joined]. rewrite (proj2 (GA a)). cbn. rewrite app_nil_r. reflexivity.
  - change (joined (map argument_lex (a :: b :: args))) with (argument_lex a ++ P "," :: joined (map argument_lex (b :: args))). rewrite <- app_assoc. rewrite (proj2 (GA a)).
    assert (E : forall q, parens 0 (P "," :: q) = match parens 0 q with Some (a, b) => Some (P "," :: a, b) | None => None end) by reflexivity. rewrite <- app_comm_cons. rewrite E. rewrite IH. reflexivity.
Qed.
Lemma args_adds args f g : WriteCommaSeparatedListInParenthesis (fun _ a f => Ret (Append f (argument_text a))) args f = Ret g -> adds f g (T "(" ++ list_text (fun _ a => argument_text a) 0 true args ++ T ")").
Proof.
  intros H. unfold WriteCommaSeparatedListInParenthesis in H. apply bind_inv in H. destruct H as (x & H & K). injection K as <-. apply (adds_trans f (Append f (T "("))); [apply adds_append|]. apply (adds_trans _ x); [|apply adds_append].
  refine (says_adds _ _ _ _ _ H). intros l. apply says_list. intros k a _. apply says_append.
Qed.
(** ** Members *)
Lemma adds_eq f g t u : adds f g t -> t = u -> adds f g u.
Proof. intros A <-. exact A. Qed.
Definition good_member (f g : formatter) (ds : list definition) : Prop := exists t las, adds f g t /\ closed t (concat las) /\ Forall2 defines las ds.
Lemma good_none f : good_member f f [].
Proof. exists [], []. split; [apply adds_nil|]. split; [apply closed_nil|constructor]. Qed.
Lemma good_one f g t la d : adds f g t -> closed t la -> defines la d -> good_member f g [d].
Proof. intros A C D. exists t, [la]. split; [exact A|]. cbn [concat]. rewrite app_nil_r. split; [exact C|]. constructor; [exact D|constructor]. Qed.
Lemma good_app f g h ds es : good_member f g ds -> good_member g h es -> good_member f h (ds ++ es).
Proof.
  intros (t & la & A & C & D) (u & lb & A' & C' & D'). exists (t ++ u), (la ++ lb). split; [eapply adds_trans; eassumption|]. rewrite concat_app. split; [apply closed_app; assumption|apply Forall2_app; assumption].
Qed.
Lemma header_adds c k w ps f g : w <> [] -> writable_params ps -> WriteMethodHeader_source env name_text param_text c k w ps f = Ret g ->
  adds f g (sp (c_name c) ++ T "::" ++ spelled (IsLower env) w ++ params_chars env name_text param_text k ps).
Proof.
  intros W WP H. unfold WriteMethodHeader_source in H. apply bind_inv in H. destruct H as (x & H1 & H). apply bind_inv in H. destruct H as (y & H2 & H).
  apply scope_adds in H1. apply (name_adds w) in H2; [|exact W]. apply params_adds in H; [|exact WP]. eapply adds_eq; [exact (adds_trans _ _ _ _ _ H1 (adds_trans _ _ _ _ _ H2 H))|]. rewrite <- !app_assoc. reflexivity.
Qed.
Lemma params_start k ps : starts (params_chars env name_text param_text k ps).
Proof. split; [reflexivity|discriminate]. Qed.
Lemma params_call k ps r : writable_params ps -> call (params_lex env name_text param_text k ps ++ r) = Some (map (param_for (IsLower env) name_text) ps, r).
Proof. intros W. rewrite (read_call env name_text param_text GN AL k ps r (wparams_of ps W)). rewrite (params_same env name_text ps W). reflexivity. Qed.
Lemma method_source c k mods r n ps b f g : c_name c <> 0 -> ok (c_name c) (Method mods r n ps (Some b)) -> smember c k (Method mods r n ps (Some b)) f = Ret g -> good_member f g (defs (c_name c) (Method mods r n ps (Some b))).
Proof.
  intros Nc (Nn & Ne & W & WP & OB) H. cbn [source_member] in H. apply bind_inv in H. destruct H as (x & H1 & H). apply bind_inv in H. destruct H as (y & H2 & H). apply bind_inv in H. destruct H as (z & H3 & H).
  apply indented_adds in H1. destruct H1 as (b0 & B0 & A1). apply (type_adds r) in H2; [|exact W]. apply (header_adds c k) in H3; [|apply name_nonempty|exact WP]. apply (body_adds b) in H; [|exact OB]. destruct H as (t & A4 & Br).
  destruct (typed_function r (c_name c) (sp n) _ _ _ t (statements_of b) W Nc (cls_keyword n Nn) (cname_word env name_text param_text GN n) (not_eq_sym Ne) (params_start k ps) (params_closed env name_text param_text GN k ps (wparams_of ps WP)) (fun r => params_call k ps r WP) Br) as (la & C & D).
  eapply (good_one f g _ la); [|apply (blanks_closed b0); [exact B0|exact C]|exact D].
  eapply adds_eq; [exact (adds_trans _ _ _ _ _ A1 (adds_trans _ _ _ _ _ H2 (adds_trans _ _ _ _ _ (adds_append y (T " ")) (adds_trans _ _ _ _ _ H3 A4))))|]. rewrite app_nil_r, <- ?app_assoc. reflexivity.
Qed.
Lemma operator_source c k op r ps b f g : c_name c <> 0 -> ok (c_name c) (Operator op r ps b) -> smember c k (Operator op r ps b) f = Ret g -> good_member f g (defs (c_name c) (Operator op r ps b)).
Proof.
  intros Nc (WP & OB & (kd & Kd & ->) & Op & Ne) H. cbn [source_member VisitAstType_text] in H. apply bind_inv in H. destruct H as (x & H1 & H). apply bind_inv in H. destruct H as (y & H2 & H). apply bind_inv in H. destruct H as (z & H3 & H).
  apply bind_inv in H. destruct H as (o & H4 & H). apply bind_inv in H. destruct H as (u & H5 & H).
  apply indented_adds in H1. destruct H1 as (b0 & B0 & A1). apply (name_adds (name_text (c_name c))) in H2; [|apply name_nonempty]. apply (name_adds (name_text (c_name c))) in H3; [|apply name_nonempty].
  apply params_adds in H5; [|exact WP]. apply (body_adds b) in H; [|exact OB]. destruct H as (t & A4 & Br). set (cls := c_name c) in *.
  assert (X : exists w, o = w /\ keyword w = false /\ word_text w /\ sp cls <> w /\ (match op with Addition => T "op_Addition" | Subtraction => T "op_Subtraction" | BitwiseAnd => T "op_BitwiseAnd" | OtherOperator _ => [] end) = w).
  { exists o. split; [reflexivity|]. destruct op; try destruct Op; injection H4 as <-; (split; [reflexivity|]); (split; [split; [reflexivity|repeat first [apply Forall_nil | apply Forall_cons; [reflexivity|]]]|]); (split; [|reflexivity]); apply not_eq_sym; [apply (Ne "op_Addition"%string)|apply (Ne "op_Subtraction"%string)|apply (Ne "op_BitwiseAnd"%string)]; cbn [In]; auto. }
  destruct X as (w & -> & Kw & Ww & Nw & Ew). clear H4.
  assert (TW : type_word (Word (sp cls)) = Some (sp cls)) by apply (type_word_name env name_text param_text GN AL).
  destruct (word_function (sp cls) cls w _ _ _ t (statements_of b) TW eq_refl (cname_word env name_text param_text GN cls) Nc Kw Ww Nw (params_start k ps) (params_closed env name_text param_text GN k ps (wparams_of ps WP)) (fun r => params_call k ps r WP) Br) as (la & C & D).
  cbn [defined]. change (match op with Addition => T "op_Addition" | Subtraction => T "op_Subtraction" | BitwiseAnd => T "op_BitwiseAnd" | OtherOperator _ => [] end) with (match op with Addition => T "op_Addition" | Subtraction => T "op_Subtraction" | BitwiseAnd => T "op_BitwiseAnd" | OtherOperator _ => [] end). rewrite Ew.
  eapply (good_one f g _ la); [|apply (blanks_closed b0); [exact B0|exact C]|destruct Kd as [-> | ->]; exact D].
  eapply adds_eq; [exact (adds_trans _ _ _ _ _ A1 (adds_trans _ _ _ _ _ H2 (adds_trans _ _ _ _ _ (adds_append y (T " ")) (adds_trans _ _ _ _ _ H3 (adds_trans _ _ _ _ _ (adds_append z (T "::")) (adds_trans _ _ _ _ _ (adds_append (Append z (T "::")) w) (adds_trans _ _ _ _ _ H5 A4)))))))|]. rewrite app_nil_r, <- ?app_assoc. reflexivity.
Qed.
Lemma cls_word n : word_text (sp n).
Proof. apply (cname_word env name_text param_text GN). Qed.
Lemma suffixed n s : Forall (fun c => word_char c = true) s -> word_text (sp n ++ s).
Proof. apply word_app, cls_word. Qed.
Lemma longer (n : list Z) s : s <> [] -> n <> n ++ s.
Proof. intros H E. apply H. rewrite <- (app_nil_r n) in E at 1. apply app_inv_head in E. auto. Qed.
Lemma constructor_source c k mods ps b f g : c_name c <> 0 -> existsb says_static mods = false -> ok (c_name c) (Constructor mods ps b) -> smember c k (Constructor mods ps b) f = Ret g -> good_member f g (defs (c_name c) (Constructor mods ps b)).
Proof.
  intros Nc Ns Ok H. cbn [definable defined] in *. rewrite Ns in *. destruct Ok as (WP & OB & OI). cbn [source_member] in H. rewrite has_static, Ns in H. set (cls := c_name c) in *.
  apply bind_inv in H. destruct H as (x & H1 & H). apply bind_inv in H. destruct H as (y & H2 & H). apply bind_inv in H. destruct H as (z & H3 & H).
  apply indented_adds in H1. destruct H1 as (b0 & B0 & A1). apply (header_adds c k) in H2; [|apply name_nonempty|exact WP]. fold cls in H2. apply (body_adds b) in H; [|exact OB]. destruct H as (t & A4 & (l & Cb & RR)).
  assert (X : exists ti il i, adds y z ti /\ closed ti il /\ (forall r, initialiser_of true (il ++ P "{" :: r) = Some (i, P "{" :: r)) /\ (ti = [] \/ starts ti) /\ i = match init_of b with Some i => Some (sp (i_type i), joined (map argument_lex (i_arguments i))) | None => None end).
  { destruct (init_of b) as [i|].
    - destruct OI as [Th Nt]. unfold VisitConstructorInitializer_text in H3. rewrite Th in H3. apply bind_inv in H3. destruct H3 as (v & H3 & H4). apply (name_adds (name_text (i_type i))) in H3; [|apply name_nonempty]. apply args_adds in H4.
      exists (T " " ++ T ": " ++ sp (i_type i) ++ T " " ++ T "(" ++ list_text (fun _ a => argument_text a) 0 true (i_arguments i) ++ T ")"), (P ":" :: Word (sp (i_type i)) :: P "(" :: joined (map argument_lex (i_arguments i)) ++ [P ")"]), (Some (sp (i_type i), joined (map argument_lex (i_arguments i)))).
      split; [|split; [|split; [|split; [|reflexivity]]]].
      + eapply adds_eq; [exact (adds_trans _ _ _ _ _ (adds_append y (T " ")) (adds_trans _ _ _ _ _ (adds_append (Append y (T " ")) (T ": ")) (adds_trans _ _ _ _ _ H3 (adds_trans _ _ _ _ _ (adds_append v (T " ")) H4))))|]. rewrite <- ?app_assoc. reflexivity.
      + intros r lr D. change ((P ":" :: Word (sp (i_type i)) :: P "(" :: ?x) ++ lr) with (P ":" :: Word (sp (i_type i)) :: P "(" :: (x ++ lr)). rewrite <- !app_assoc. apply D_space. change (T ": ") with (T ":" ++ T " "). rewrite <- app_assoc. apply (D_colon (sp (i_type i) ++ _)).
        apply word_space; [apply cls_word|]. apply D_lp. apply args_div. apply D_rp, D.
      + intros r. apply base_initialiser; [apply cls_keyword, Nt|]. intros q. apply args_parens.
      + right. split; [reflexivity|discriminate].
    - injection H3 as <-. exists [], [], None. split; [apply adds_nil|]. split; [apply closed_nil|]. split; [intros r; reflexivity|]. split; [left; reflexivity|reflexivity]. }
  destruct X as (ti & il & i & A3 & Ci & Ri & Si & Ei). rewrite <- Ei.
  apply (good_one f g (b0 ++ sp cls ++ T "::" ++ sp cls ++ params_chars env name_text param_text k ps ++ ti ++ t) (Word (sp cls) :: P "::" :: Word (sp cls) :: params_lex env name_text param_text k ps ++ il ++ (P "{" :: l ++ [P "}"]))).
  - eapply adds_eq; [exact (adds_trans _ _ _ _ _ A1 (adds_trans _ _ _ _ _ H2 (adds_trans _ _ _ _ _ A3 A4)))|]. rewrite app_nil_r, <- ?app_assoc. reflexivity.
  - apply (blanks_closed b0); [exact B0|]. apply scoped; [apply cls_word|split; [reflexivity|discriminate]|]. apply closed_app; [apply (params_closed env name_text param_text GN k ps (wparams_of ps WP))|]. apply closed_app; assumption.
  - split; [reflexivity|]. intros r.
    destruct (rest_function None (sp cls) (sp cls) _ i il l (statements_of b) _ (cls_keyword cls Nc) (cls_keyword cls Nc) eq_refl (fun r => params_call k ps r WP) Ri RR r) as [n E]. exists n. rewrite <- E. repeat (cbn [app]; rewrite <- ?app_assoc). reflexivity.
Qed.
Lemma closed_to t ls ls' : closed t ls -> ls = ls' -> closed t ls'.
Proof. intros C <-. exact C. Qed.
Lemma static_source c k mods ps b f g : c_name c <> 0 -> existsb says_static mods = true -> ok (c_name c) (Constructor mods ps b) -> smember c k (Constructor mods ps b) f = Ret g -> good_member f g (defs (c_name c) (Constructor mods ps b)).
Proof.
  intros Nc Ns Ok H. cbn [definable defined] in *. rewrite Ns in *. destruct Ok as (o & ns & Ec). cbn [source_member] in H. rewrite has_static, Ns in H. pose proof (ST b) as SB. rewrite Ec in *. set (cls := c_name c) in *.
  apply bind_inv in H. destruct H as (x & H1 & H). apply bind_inv in H. destruct H as (y & H2 & H). apply bind_inv in H. destruct H as (z & H3 & H). apply bind_inv in H. destruct H as (u & H4 & H).
  apply bind_inv in H. destruct H as (v & H5 & H). apply bind_inv in H. destruct H as (w & H6 & H). apply bind_inv in H. destruct H as (p & H7 & H). apply bind_inv in H. destruct H as (q & H8 & H). apply bind_inv in H. destruct H as (s & H9 & H). injection H as <-.
  apply indented_adds in H1. destruct H1 as (b0 & B0 & A1). apply scope_adds in H2. apply (name_adds (name_text cls)) in H3; [|apply name_nonempty].
  destruct (main_injected env statement_text condition_text value_text il_text statement_lex condition_lex value_lex case_of unwrapped branch_label main G o ns _ _ H4) as (t & ss & A4 & Br & M). specialize (SB _ M). clear M H4.
  apply indented_adds in H5. destruct H5 as (b5 & B5 & A5). apply scope_adds in H6. apply (name_adds (name_text cls)) in H7; [|apply name_nonempty]. apply scope_adds in H8. apply (name_adds (name_text cls)) in H9; [|apply name_nonempty]. fold cls in H2, H6, H8.
  unfold returns_true. rewrite SB, removelast_last.
  assert (WB : word_text (T "Boolean")) by (split; [reflexivity|repeat constructor]).
  assert (WS : word_text (sp cls ++ T "_Static")) by (apply suffixed; repeat constructor). assert (WI : word_text (sp cls ++ T "_Initilized")) by (apply suffixed; repeat constructor).
  assert (KS : keyword (sp cls ++ T "_Static") = false) by (apply no_suffix; reflexivity). assert (KI : keyword (sp cls ++ T "_Initilized") = false) by (apply no_suffix; reflexivity).
  assert (C1 : closed (T "()" ++ nl env) [P "("; P ")"]) by (apply (closed_app _ [P "("; P ")"] _ []); [apply empty_closed|apply closed_blanks, NL]).
  assert (S1 : starts (T "()" ++ nl env)) by (split; [reflexivity|discriminate]). assert (TB : type_word (Word (T "Boolean")) = Some (T "Boolean")) by reflexivity. assert (TP : is_punct (Word (T "Boolean")) "}" = false) by reflexivity.
  assert (NE : sp cls <> sp cls ++ T "_Static") by (apply longer; discriminate). assert (CN : forall r, call ([P "("; P ")"] ++ r) = Some ([], r)) by (intros r; reflexivity).
  destruct (word_function (T "Boolean") cls (sp cls ++ T "_Static") (T "()" ++ nl env) [P "("; P ")"] [] t (ss ++ [SReturn [P "("; Word (T "true"); P ")"]]) TB TP WB Nc KS WS NE S1 C1 CN Br) as (la & C & D).
  change [?a; ?b] with ([a] ++ [b]). apply (good_app f u).
  - apply (good_one f u (b0 ++ (T "Boolean" ++ T " " ++ sp cls ++ T "::" ++ (sp cls ++ T "_Static") ++ (T "()" ++ nl env) ++ t)) la); [|apply blanks_closed; [exact B0|exact C]|exact D].
    eapply adds_eq; [exact (adds_trans _ _ _ _ _ A1 (adds_trans _ _ _ _ _ (adds_append x (T "Boolean ")) (adds_trans _ _ _ _ _ H2 (adds_trans _ _ _ _ _ H3 (adds_trans _ _ _ _ _ (adds_line env z (T "_Static()")) A4)))))|].
    rewrite app_nil_r, <- ?app_assoc. change (T "_Static()") with (T "_Static" ++ T "()"). rewrite <- ?app_assoc. reflexivity.
  - apply (good_one u _ (b5 ++ (T "Boolean" ++ T " " ++ sp cls ++ T "::" ++ (sp cls ++ T "_Initilized") ++ T " = " ++ sp cls ++ T "::" ++ (sp cls ++ T "_Static") ++ T "()" ++ T ";" ++ nl env))
      (Word (T "Boolean") :: Word (sp cls) :: P "::" :: Word (sp cls ++ T "_Initilized") :: P "=" :: Word (sp cls) :: P "::" :: Word (sp cls ++ T "_Static") :: [P "("; P ")"] ++ [P ";"])).
    + eapply adds_eq; [exact (adds_trans _ _ _ _ _ A5 (adds_trans _ _ _ _ _ H6 (adds_trans _ _ _ _ _ H7 (adds_trans _ _ _ _ _ (adds_append p (T "_Initilized = ")) (adds_trans _ _ _ _ _ H8 (adds_trans _ _ _ _ _ H9 (adds_line env s (T "_Static();"))))))))|].
      change (T "_Static();") with (T "_Static" ++ T "()" ++ T ";"). change (T "_Initilized = ") with (T "_Initilized" ++ T " = "). change (T "Boolean ") with (T "Boolean" ++ T " "). rewrite <- ?app_assoc. reflexivity.
    + apply blanks_closed; [exact B5|]. apply word_closed; [exact WB|]. apply scoped; [exact WI|split; [reflexivity|discriminate]|].
      intros r lr Dr. change (T " = ") with (T " " ++ T "=" ++ T " "). rewrite <- !app_assoc. apply D_space. apply (D_assign (sp cls ++ _)).
      assert (CC : closed (sp cls ++ T "::" ++ (sp cls ++ T "_Static") ++ T "()" ++ T ";" ++ nl env) (Word (sp cls) :: P "::" :: Word (sp cls ++ T "_Static") :: [P "("; P ")"] ++ [P ";"])).
      { apply scoped; [exact WS|split; [reflexivity|discriminate]|]. apply closed_app; [apply empty_closed|]. apply (closed_app _ [P ";"] _ []); [apply closed_semi|apply closed_blanks, NL]. }
      specialize (CC r lr Dr). rewrite <- !app_assoc in CC. exact CC.
    + split; [reflexivity|]. intros r. exists 0%nat. cbn [app]. rewrite word_definition by reflexivity. unfold rest_of, name_of. rewrite (cls_keyword cls Nc), KI. change (is_punct (P "::") "::") with true. cbv iota. reflexivity.
Qed.
Lemma property_source c k mods ty n get set hidden f g : c_name c <> 0 -> ok (c_name c) (Property mods ty n get set hidden) -> smember c k (Property mods ty n get set hidden) f = Ret g -> good_member f g (defs (c_name c) (Property mods ty n get set hidden)).
Proof.
  intros Nc (W & OG & OS & NG & NS) H. cbn [source_member] in H. apply bind_inv in H. destruct H as (h & H1 & H2). cbn [defined]. set (cls := c_name c) in *.
  assert (S1 : starts (T "()" ++ nl env)) by (split; [reflexivity|discriminate]). assert (CN : forall r, call ([P "("; P ")"] ++ r) = Some ([], r)) by (intros r; reflexivity).
  assert (C1 : closed (T "()" ++ nl env) [P "("; P ")"]) by (apply (closed_app _ [P "("; P ")"] _ []); [apply empty_closed|apply closed_blanks, NL]).
  assert (WG : word_text (T "get_" ++ name_text n)) by (apply word_app; [split; [reflexivity|repeat constructor]|apply (name_word name_text param_text GN)]).
  assert (WS : word_text (T "set_" ++ name_text n)) by (apply word_app; [split; [reflexivity|repeat constructor]|apply (name_word name_text param_text GN)]).
  assert (KG : keyword (T "get_" ++ name_text n) = false) by (apply no_prefix; reflexivity). assert (KS : keyword (T "set_" ++ name_text n) = false) by (apply no_prefix; reflexivity).
  assert (TV : type_word (Word (T "void")) = Some (T "void")) by reflexivity. assert (TP : is_punct (Word (T "void")) "}" = false) by reflexivity. assert (WV : word_text (T "void")) by (split; [reflexivity|repeat constructor]).
  apply (good_app f h).
  - destruct get as [|b].
    + rewrite OG in H1. cbn [present] in H1. injection H1 as <-. apply good_none.
    + cbn [present body_of bind] in H1. apply bind_inv in H1. destruct H1 as (x & H1 & H). apply bind_inv in H. destruct H as (y & H3 & H). apply bind_inv in H. destruct H as (z & H4 & H). clear H2.
      apply indented_adds in H1. destruct H1 as (b0 & B0 & A1). apply (type_adds ty) in H3; [|exact W]. apply scope_adds in H4. fold cls in H4. apply (body_adds b) in H; [|exact OG]. destruct H as (t & A4 & Br).
      destruct (typed_function ty cls (T "get_" ++ name_text n) (T "()" ++ nl env) [P "("; P ")"] [] t (statements_of b) W Nc KG WG (not_eq_sym NG) S1 C1 CN Br) as (la & C & D).
      eapply (good_one f h _ la); [|apply (blanks_closed b0); [exact B0|exact C]|exact D].
      eapply adds_eq; [exact (adds_trans _ _ _ _ _ A1 (adds_trans _ _ _ _ _ H3 (adds_trans _ _ _ _ _ (adds_append y (T " ")) (adds_trans _ _ _ _ _ H4 (adds_trans _ _ _ _ _ (adds_append z (T "get_")) (adds_trans _ _ _ _ _ (adds_append (Append z (T "get_")) (name_text n)) (adds_trans _ _ _ _ _ (adds_line env (Append (Append z (T "get_")) (name_text n)) (T "()")) A4)))))))|]. rewrite app_nil_r, <- ?app_assoc. reflexivity.
  - destruct set as [|b].
    + rewrite OS in H2. cbn [present] in H2. injection H2 as <-. apply good_none.
    + cbn [present body_of bind] in H2. clear H1. apply bind_inv in H2. destruct H2 as (x & H1 & H). apply bind_inv in H. destruct H as (y & H3 & H). apply bind_inv in H. destruct H as (z & H4 & H).
      apply indented_adds in H1. destruct H1 as (b0 & B0 & A1). apply scope_adds in H3. fold cls in H3. apply (type_adds ty) in H4; [|exact W]. apply (body_adds b) in H; [|exact OS]. destruct H as (t & A4 & Br).
      assert (C2 : closed ((T "(" ++ tchars ty ++ T " x_value )") ++ nl env) (P "(" :: tlex ty ++ [Word (T "x_value"); P ")"])) by (eapply closed_to; [apply closed_app; [apply value_closed, W|apply closed_blanks, NL]|apply app_nil_r]).
      assert (S2 : starts ((T "(" ++ tchars ty ++ T " x_value )") ++ nl env)) by (split; [reflexivity|discriminate]).
      assert (CV : forall r, call ((P "(" :: tlex ty ++ [Word (T "x_value"); P ")"]) ++ r) = Some ([ctype_for (IsLower env) name_text ty], r)).
      { intros r. change ((P "(" :: ?a) ++ r) with (P "(" :: a ++ r). rewrite (read_value env name_text param_text GN AL ty r (wtype_of ty W)). cbn [value_param map]. rewrite <- (ctype_same env name_text ty W). reflexivity. }
      destruct (word_function (T "void") cls (T "set_" ++ name_text n) _ _ _ t (statements_of b) TV TP WV Nc KS WS (not_eq_sym NS) S2 C2 CV Br) as (la & C & D).
      eapply (good_one h g _ la); [|apply (blanks_closed b0); [exact B0|exact C]|exact D].
      eapply adds_eq; [exact (adds_trans _ _ _ _ _ A1 (adds_trans _ _ _ _ _ H3 (adds_trans _ _ _ _ _ (adds_append y (T "set_")) (adds_trans _ _ _ _ _ (adds_append (Append y (T "set_")) (name_text n)) (adds_trans _ _ _ _ _ (adds_append (Append (Append y (T "set_")) (name_text n)) (T "(")) (adds_trans _ _ _ _ _ H4 (adds_trans _ _ _ _ _ (adds_line env z (T " x_value )")) A4)))))))|].
      change (T "void ") with (T "void" ++ T " "). rewrite <- ?app_assoc. reflexivity.
Qed.
Lemma translated_not d t : (forall k v, In (k, v) d -> k <> t) -> translated d t = t.
Proof. induction d as [|[k v] d IH]; intros H; [reflexivity|]. cbn [translated]. destruct (text_eqb k t) eqn:E; [apply text_eqb_eq in E; destruct (H k v (or_introl eq_refl) E)|]. apply IH. intros k' v' I. apply (H k' v'). right. exact I. Qed.
Lemma lower_key k v : In (k, v) typeTranslation -> spelled (IsLower env) k <> k.
Proof.
  intros I. unfold typeTranslation in I. cbn [map In fst snd] in I.
  repeat match type of I with _ \/ _ => destruct I as [I|I] | _ = _ => injection I as <- <-; unfold spelled; cbn [T]; match goal with |- context [IsLower env ?c] => rewrite (proj1 AL c) by (cbn; lia) end; intros E; apply (f_equal (@length Z)) in E; discriminate E | False => destruct I end.
Qed.
Lemma visit_adds t f : writable t -> capital (IsLower env) name_text t -> adds f (VisitType_text name_text t f) (tchars t).
Proof.
  intros W C. unfold type_chars, type_name_text, star. destruct t as [kd w n|e|e]; cbn [capital] in C; [|split; reflexivity|destruct C]. unfold VisitType_text, AppendType_text.
  rewrite translated_not by (intros k v I E; subst k; exact (lower_key _ v I C)). rewrite C. destruct kd; try destruct W; cbn [IsPointerType]; split; cbn; rewrite <- ?app_assoc, ?app_nil_r; reflexivity.
Qed.
Lemma field_source c k mods const ty names f g : c_name c <> 0 -> ok (c_name c) (Field mods const ty names) -> smember c k (Field mods const ty names) f = Ret g -> good_member f g (defs (c_name c) (Field mods const ty names)).
Proof.
  intros Nc Ok H. cbn [definable defined source_member] in *. rewrite has_static in H. destruct (existsb says_static mods); [|injection H as <-; apply good_none].
  destruct (Ok eq_refl) as (W & Cp & n & -> & Nn). cbn [map WriteCommaSeparatedList negb] in *. set (cls := c_name c) in *.
  apply bind_inv in H. destruct H as (x & H1 & H). apply bind_inv in H. destruct H as (y & H2 & H). apply bind_inv in H. destruct H as (z & H3 & H). injection H as <-. apply bind_inv in H3. destruct H3 as (z' & H3 & H). injection H as <-.
  apply indented_adds in H1. destruct H1 as (b0 & B0 & A1). apply scope_adds in H2. fold cls in H2. apply (name_adds (name_text n)) in H3; [|apply name_nonempty].
  apply (good_one f _ (b0 ++ tchars ty ++ T " " ++ sp cls ++ T "::" ++ sp n ++ T ";" ++ nl env) (tlex ty ++ Word (sp cls) :: P "::" :: Word (sp n) :: [P ";"])).
  - eapply adds_eq; [exact (adds_trans _ _ _ _ _ A1 (adds_trans _ _ _ _ _ (visit_adds ty x W Cp) (adds_trans _ _ _ _ _ (adds_append _ (T " ")) (adds_trans _ _ _ _ _ H2 (adds_trans _ _ _ _ _ H3 (adds_line env z' (T ";")))))))|]. rewrite app_nil_r, <- ?app_assoc. reflexivity.
  - apply blanks_closed; [exact B0|]. apply typed_closed; [exact W|]. apply scoped; [apply cls_word|split; [reflexivity|discriminate]|]. apply (closed_app _ [P ";"] _ []); [apply closed_semi|apply closed_blanks, NL].
  - split; [unfold type_lex; reflexivity|]. intros r. exists 0%nat. rewrite <- app_assoc. rewrite <- app_comm_cons. rewrite (type_definition env name_text param_text GN AL 0 ty (sp cls) _ W). cbn [app]. unfold rest_of, name_of. rewrite (cls_keyword cls Nc), (cls_keyword n Nn). reflexivity.
Qed.
Lemma member_source c k m f g : c_name c <> 0 -> ok (c_name c) m -> smember c k m f = Ret g -> good_member f g (defs (c_name c) m).
Proof.
  intros Nc Ok H. destruct m as [mods r n ps [b|]|mods ps b|mods ty n get set hidden|mods const ty names|op r ps b].
  - eapply method_source; eassumption.
  - injection H as <-. apply good_none.
  - destruct (existsb says_static mods) eqn:E; [eapply static_source|eapply constructor_source]; eassumption.
  - eapply property_source; eassumption.
  - eapply field_source; eassumption.
  - eapply operator_source; eassumption.
Qed.
Notation smembers := (source_members env absent name_text param_text statement_text condition_text value_text il_text argument_text case_of unwrapped branch_label main code init_of).
Notation stype := (VisitTypeDeclaration_source env absent name_text param_text statement_text condition_text value_text il_text argument_text case_of unwrapped branch_label main code init_of).
Notation stypes := (source_types env absent name_text param_text statement_text condition_text value_text il_text argument_text case_of unwrapped branch_label main code init_of).
Notation stext := (source_text env absent name_text param_text statement_text condition_text value_text il_text argument_text case_of unwrapped branch_label main code init_of).
Notation well := (well_defined main unwrapped silent code first_of (IsLower env) name_text absent).
Notation contained := (contents (IsLower env) name_text statements_of calls).
Lemma members_source c l : c_name c <> 0 -> Forall (ok (c_name c)) l -> forall k f g, smembers c k l f = Ret g -> good_member f g (flat_map (defs (c_name c)) l).
Proof.
  intros Nc F. induction F as [|m l Ok F IH]; intros k f g H; cbn [source_members flat_map] in *; [injection H as <-; apply good_none|].
  apply bind_inv in H. destruct H as (h & H1 & H). apply (good_app f h); [eapply member_source; eassumption|eapply IH; eassumption].
Qed.
(** ** Namespaces *)
Definition sstate (f : formatter) (ls : list lexeme) (done : list (list Z * definition)) : Prop :=
  match nameSpace f with
  | None => exists sps, SourceReadProofs.outside ls sps /\ all_definitions sps = done
  | Some v => exists sps ds, SourceReadProofs.inside v ls sps ds /\ all_definitions sps ++ map (fun d => (v, d)) ds = done
  end.
Lemma definitions_app a b : all_definitions (a ++ b) = all_definitions a ++ all_definitions b.
Proof. apply flat_map_app. Qed.
Lemma close_source f ls done g : sstate f ls done -> CloseNamespace env f = Ret g -> exists t la, closed t la /\ buffer g = buffer f ++ t /\ nameSpace g = None /\ sstate g (ls ++ la) done.
Proof.
  unfold sstate, CloseNamespace. destruct (nameSpace f) as [v|] eqn:N; intros Sf H.
  - destruct Sf as (sps & ds & I & D). apply bind_inv in H. destruct H as (x & H & K). injection K as <-. apply (Close_inv env NL) in H. destruct H as (t & C & B & _). exists t, [P "}"]. split; [exact C|]. split; [exact B|]. split; [reflexivity|].
    cbn [nameSpace set_namespace]. exists (sps ++ [(v, ds)]). split; [apply SourceReadProofs.inside_close, I|]. rewrite definitions_app. cbn. rewrite app_nil_r. exact D.
  - injection H as <-. exists [], []. rewrite !app_nil_r. split; [apply closed_nil|]. split; [reflexivity|]. split; [exact N|]. rewrite N. exact Sf.
Qed.
Lemma open_source f ls done v g : v = [] \/ word_text v -> nameSpace f = None -> sstate f ls done -> (let f := set_namespace f (Some (space_name v)) in AddOpenBrace env (Append (Append f namespace_text) (space_name v))) = Ret g ->
  exists t la, closed t la /\ buffer g = buffer f ++ t /\ nameSpace g = Some (space_name v) /\ sstate g (ls ++ la) done.
Proof.
  intros W N Sf H. cbv zeta in H. pose proof (Open_keeps env _ _ H) as K. unfold sstate in Sf. rewrite N in Sf. destruct Sf as (sps & O & D).
  assert (X : exists t, closed t [P "{"] /\ starts t /\ buffer g = buffer f ++ namespace_text ++ space_name v ++ t).
  { unfold AddOpenBrace in H. cbn [onNewline Append negb] in H. apply bind_inv in H. destruct H as (y & H & E). injection E as <-. unfold AppendIndentedLine in H. apply bind_inv in H. destruct H as (z & H & E). injection E as <-.
    apply Indent_inv in H. destruct H as (b & B & E & _). exists (nl env ++ b ++ T "{" ++ nl env). split; [|split].
    - apply closed_line. apply blanks_closed; [exact B|]. apply (closed_app _ [P "{"] _ []); [apply closed_open|apply closed_blanks, NL].
    - destruct NL as [N0 F]. destruct (nl env) as [|c q]; [contradiction|]. inversion F as [|? ? Bc _]; subst. cbn. destruct (blank_cases c Bc) as [-> |[-> |[-> | ->]]]; split; (reflexivity || discriminate).
    - cbn. rewrite E. cbn. repeat rewrite <- app_assoc. reflexivity. }
  destruct X as (t & C & S0 & B). exists (namespace_text ++ space_name v ++ t), [Word (T "namespace"); Word (space_name v); P "{"]. split; [|split; [exact B|split; [rewrite K; reflexivity|]]].
  - intros r lr Dr. change namespace_text with (T "namespace" ++ T " "). rewrite <- !app_assoc. apply (word_space (T "namespace")); [split; [reflexivity|repeat constructor]|]. apply D_word; [apply space_word, W|apply starts_head, S0|apply C, Dr].
  - unfold sstate. rewrite K. cbn [nameSpace Append set_namespace]. exists sps, []. split; [apply SourceReadProofs.outside_open; [apply space_keyword|exact O]|]. cbn [map]. rewrite app_nil_r. exact D.
Qed.
Lemma space_source f ls done v g : v = [] \/ word_text v -> sstate f ls done -> SetNamespace env f v = Ret g -> exists t la, closed t la /\ buffer g = buffer f ++ t /\ nameSpace g = Some (space_name v) /\ sstate g (ls ++ la) done.
Proof.
  intros W Sf H. unfold SetNamespace in H. rewrite space_same in H. destruct (nameSpace f) as [o|] eqn:N.
  - destruct (text_eqb (space_name v) o) eqn:Q.
    + apply text_eqb_eq in Q. subst o. injection H as <-. exists [], []. rewrite !app_nil_r. split; [apply closed_nil|]. split; [reflexivity|]. split; [exact N|exact Sf].
    + apply bind_inv in H. destruct H as (x & H1 & H). destruct (close_source f ls done x Sf H1) as (t & la & C & B & Nx & Sx). destruct (open_source x _ done v g W Nx Sx H) as (u & lb & C' & B' & Ng & Sg).
      exists (t ++ u), (la ++ lb). split; [apply closed_app; assumption|]. rewrite B', B, <- app_assoc. split; [reflexivity|]. split; [exact Ng|]. rewrite app_assoc. exact Sg.
  - eapply open_source; eassumption.
Qed.
Lemma type_source t f ls done g : well t -> sstate f ls done -> stype t f = Ret g -> exists tx la, closed tx la /\ buffer g = buffer f ++ tx /\ sstate g (ls ++ la) (done ++ contained [t]).
Proof.
  intros W Sf H. unfold well_defined in W. unfold VisitTypeDeclaration_source in H. unfold contents. cbn [flat_map]. rewrite app_nil_r.
  assert (X : c_kind (t_class t) = KEnum \/ c_kind (t_class t) <> KEnum) by (destruct (c_kind (t_class t)); [right; discriminate|right; discriminate|right; discriminate|left; reflexivity] || (destruct (c_kind (t_class t)); auto; right; discriminate)).
  destruct X as [X|X].
  - rewrite X in *. injection H as <-. exists [], []. rewrite !app_nil_r. split; [apply closed_nil|]. split; [reflexivity|exact Sf].
  - assert (W' : (t_space t = [] \/ word_text (t_space t)) /\ c_name (t_class t) <> 0 /\ Forall (ok (c_name (t_class t))) (c_members (t_class t))) by (destruct (c_kind (t_class t)); try exact W; congruence). clear W.
    assert (H' : bind (SetNamespace env f (t_space t)) (fun f => smembers (t_class t) 0 (c_members (t_class t)) f) = Ret g) by (destruct (c_kind (t_class t)); try exact H; congruence). clear H.
    set (ds := flat_map (defs (c_name (t_class t))) (c_members (t_class t))) in *.
    replace (match c_kind (t_class t) with KEnum => [] | _ => map (fun d => (space_name (t_space t), d)) ds end) with (map (fun d => (space_name (t_space t), d)) ds) by (destruct (c_kind (t_class t)); try reflexivity; congruence).
    destruct W' as (Ws & Nc & F). apply bind_inv in H'. destruct H' as (x & H1 & H). destruct (space_source f ls done (t_space t) x Ws Sf H1) as (t1 & l1 & C1 & B1 & N1 & S1).
    destruct (members_source (t_class t) _ Nc F 0%nat x g H) as (t2 & las & (B2 & N2) & C2 & D2). exists (t1 ++ t2), (l1 ++ concat las). split; [apply closed_app; assumption|]. rewrite B2, B1, <- app_assoc. split; [reflexivity|].
    unfold sstate in *. rewrite N2. rewrite N1 in *. destruct S1 as (sps & ds0 & I & D). exists sps, (ds0 ++ ds). split; [rewrite app_assoc; apply inside_defs; assumption|]. rewrite map_app, app_assoc. change (list Z) with text in *. rewrite D. reflexivity.
Qed.
Lemma contents_cons t ts : contained (t :: ts) = contained [t] ++ contained ts.
Proof. unfold contents. cbn [flat_map]. rewrite app_nil_r. reflexivity. Qed.
Lemma types_source ts : Forall well ts -> forall f ls done g, sstate f ls done -> stypes ts f = Ret g -> exists tx la, closed tx la /\ buffer g = buffer f ++ tx /\ sstate g (ls ++ la) (done ++ contained ts).
Proof.
  intros F. induction F as [|t ts W F IH]; intros f ls done g Sf H; cbn [source_types] in H.
  - injection H as <-. exists [], []. rewrite !app_nil_r. split; [apply closed_nil|]. split; [reflexivity|exact Sf].
  - apply bind_inv in H. destruct H as (x & H1 & H). destruct (type_source t f ls done x W Sf H1) as (t1 & l1 & C1 & B1 & S1). destruct (IH x _ _ g S1 H) as (t2 & l2 & C2 & B2 & S2).
    exists (t1 ++ t2), (l1 ++ l2). split; [apply closed_app; assumption|]. rewrite B2, B1, <- app_assoc. split; [reflexivity|]. rewrite contents_cons, !app_assoc. exact S2.
Qed.
Lemma source_read ts f g : Forall well ts -> nameSpace f = None -> stext ts f = Ret g ->
  exists t sps, buffer g = buffer f ++ T "#include ""TranslatedHeader.h""" ++ nl env ++ t /\ read_as_source t sps /\ all_definitions sps = contained ts.
Proof.
  intros F N H. unfold source_text in H. apply bind_inv in H. destruct H as (x & H1 & H). set (f0 := AppendLine env f (T "#include ""TranslatedHeader.h""")) in *.
  assert (S0 : sstate f0 [] []). { unfold sstate. replace (nameSpace f0) with (@None text) by (symmetry; exact N). exists []. split; [apply SourceReadProofs.outside_nil|reflexivity]. }
  destruct (types_source ts F f0 [] [] x S0 H1) as (t1 & l1 & C1 & B1 & S1). destruct (close_source x _ _ g S1 H) as (t2 & l2 & C2 & B2 & N2 & S2). unfold sstate in S2. rewrite N2 in S2. destruct S2 as (sps & O & D).
  exists (t1 ++ t2), sps. split; [|split; [|exact D]].
  - rewrite B2, B1. unfold f0. cbn [buffer AppendLine Newline Append]. rewrite <- !app_assoc. reflexivity.
  - destruct (SourceReadProofs.outside_all _ _ O) as [m M]. exists (([] ++ l1) ++ l2), m. split; [|exact M]. cbn [app]. rewrite <- (app_nil_r (t1 ++ t2)), <- (app_nil_r (l1 ++ l2)). apply (closed_app _ _ _ _ C1 C2), D_nil.
Qed.
End Source.
