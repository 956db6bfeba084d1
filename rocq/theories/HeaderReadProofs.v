(** * Lemmas for C113: how the lexemes of the header are read *)
From Coq Require Import String.
From Verif Require Import Tac Base FormatterModel FormatterSpec MemberModel LexSpec LexProofs BodyTextSpec BodyTextProofs BodyWriteProofs HeaderTextModel HeaderTextSpec HeaderTextProofs.
Import ListNotations.
Local Open Scope list_scope.

Section Env.
Variable env : dotnet.
Variable name_text : Z -> text.
Variable param_text : nat -> nat -> text.
Variable absent : absence.
Hypothesis GN : HeaderTextSpec.good_names name_text param_text.
Hypothesis AL : ascii_lower (IsLower env).
Notation sp := (spelled (IsLower env)).
Notation ct := (ctype_of (IsLower env) name_text).
Notation tlex := (type_lex env name_text).
Notation tname := (type_name_text env name_text).
Notation plex := (param_lex env name_text param_text).
Notation pslex := (params_lex env name_text param_text).
Lemma not_special w s : keyword w = false -> keyword (T s) = true -> is_word (Word w) s = false.
Proof. intros K S. unfold is_word. destruct (same w (T s)) eqn:E; [|reflexivity]. apply same_eq in E. subst. congruence. Qed.
Lemma type_not_special w s v : type_word (Word w) = Some v -> keyword (T s) = true -> same (T "void") (T s) = false -> is_word (Word w) s = false.
Proof.
  unfold type_word. destruct (keyword w) eqn:K; [|intros _ S _; apply not_special; assumption]. destruct (same w (T "void")) eqn:V; [|discriminate]. apply same_eq in V. subst w. intros _ _ H. exact H.
Qed.
Lemma type_read t : wtype t -> type_word (Word (tname t)) = Some (tname t).
Proof. destruct t as [k w n|e|[k w n|e|e]]; cbn [wtype type_name_text]; intros W; try destruct W; try exact (type_word_name env name_text param_text GN AL n). reflexivity. Qed.
Lemma marks_star (b : bool) w r : marks ((if b then [P "*"] else []) ++ Word w :: r) = (map mark_of (if b then [Star] else []), Word w :: r).
Proof. destruct b; reflexivity. Qed.
Lemma ct_type t : wtype t -> ct (FormatTypeDelaration t) = mk_ctype (tname t) (map mark_of (if IsPointerType t then [Star] else [])).
Proof. destruct t as [k w n|e|[k w n|e|e]]; cbn [wtype]; intros W; try destruct W; reflexivity. Qed.
Lemma read_param k j p : wtype (p_type p) -> param_of (plex k j p) = Some (ct (VisitParameterDeclaration p)).
Proof.
  intros W. unfold param_lex, type_lex. cbn [app]. unfold param_of. rewrite (type_read _ W).
  assert (M : marks ((if IsPointerType (p_type p) then [P "*"] else []) ++ mod_lex p ++ [Word (sp (param_text k j))]) = (map mark_of ((if IsPointerType (p_type p) then [Star] else []) ++ AddParameterModifiers p), [Word (sp (param_text k j))])).
  { unfold mod_lex, AddParameterModifiers. destruct (IsPointerType (p_type p)), (p_mod p); reflexivity. }
  rewrite M. unfold name_of. rewrite (pname_keyword env name_text param_text GN AL).
  change (ct (VisitParameterDeclaration p)) with (mk_ctype (ct_name (ct (FormatTypeDelaration (p_type p)))) (map mark_of ((if IsPointerType (p_type p) then [Star] else []) ++ AddParameterModifiers p))). rewrite (ct_type _ W). reflexivity.
Qed.
(** ** Lists *)
Definition free (s : string) (ls : list lexeme) : Prop := Forall (fun x => is_punct x s = false) ls.
Lemma split_free s ls r : free s ls -> split s (ls ++ r) = match split s r with a :: q => (ls ++ a) :: q | [] => [ls] end.
Proof.
  intros F. induction F as [|x ls H F IH]; cbn [app split].
  - destruct (split s r) as [|a q] eqn:E; [|reflexivity]. destruct r as [|y r]; cbn [split] in E; [discriminate|]. destruct (is_punct y s); [discriminate|]. destruct (split s r); discriminate.
  - rewrite H, IH. destruct (split s r); reflexivity.
Qed.
Lemma split_all s ls : free s ls -> split s ls = [ls].
Proof. intros F. rewrite <- (app_nil_r ls) at 1. rewrite split_free by exact F. cbn. rewrite app_nil_r. reflexivity. Qed.
Lemma split_stop s ls r : free s ls -> is_punct (P s) s = true -> split s (ls ++ P s :: r) = ls :: split s r.
Proof. intros F H. rewrite split_free by exact F. cbn [split]. rewrite H, app_nil_r. reflexivity. Qed.
Lemma split_list {A} (lx : nat -> A -> list lexeme) l : (forall k a, In a l -> free "," (lx k a)) -> forall k, l <> [] -> split "," (list_lex lx k true l) = map (fun p => lx (fst p) (snd p)) (combine (seq k (length l)) l).
Proof.
  assert (X : forall l, (forall k a, In a l -> free "," (lx k a)) -> forall k a, free "," a -> split "," (a ++ list_lex lx k false l) = a :: map (fun p => lx (fst p) (snd p)) (combine (seq k (length l)) l)).
  { clear l. induction l as [|b l IH]; intros F k a G; cbn [list_lex negb].
    - rewrite app_nil_r, split_all by exact G. reflexivity.
    - change ([P ","] ++ lx k b ++ list_lex lx (S k) false l) with (P "," :: lx k b ++ list_lex lx (S k) false l). rewrite split_stop by (exact G || reflexivity).
      rewrite (IH (fun k a I => F k a (or_intror I)) (S k) (lx k b)) by (apply F; left; reflexivity). reflexivity. }
  intros F k N. destruct l as [|a l]; [congruence|]. cbn [list_lex negb app]. rewrite (X l (fun k a I => F k a (or_intror I)) (S k) (lx k a)) by (apply F; left; reflexivity). reflexivity.
Qed.
Lemma all_map {A B C} (f : B -> option C) (g : A -> B) (h : A -> C) l : (forall a, In a l -> f (g a) = Some (h a)) -> all f (map g l) = Some (map h l).
Proof. induction l as [|a l IH]; intros H; [reflexivity|]. cbn [map all]. rewrite (H a (or_introl eq_refl)), IH by (intros; apply H; right; assumption). reflexivity. Qed.
Lemma map_combine_snd {A B} (h : A -> B) (l : list A) : forall k, map (fun p => h (snd p)) (combine (seq k (length l)) l) = map h l.
Proof. induction l as [|a l IH]; intros k; [reflexivity|]. cbn. rewrite IH. reflexivity. Qed.
(** a list written with commas *)
Lemma read_list {A B} (f : list lexeme -> option B) lx (h : A -> B) l : (forall k a, In a l -> free "," (lx k a) /\ f (lx k a) = Some (h a)) -> forall k, l <> [] -> all f (split "," (list_lex lx k true l)) = Some (map h l).
Proof.
  intros H k N. rewrite split_list; [|intros k' a I; apply H, I|exact N]. rewrite (all_map f _ (fun p => h (snd p))); [rewrite map_combine_snd; reflexivity|]. intros [k' a] I. apply H. apply (in_combine_r _ _ _ _ I).
Qed.
Definition simple (x : lexeme) : Prop := match x with Punct p => In p (map T ["*"; "&"]%string) | Text _ => False | _ => True end.
Lemma type_simple t : Forall simple (tlex t).
Proof. unfold type_lex. constructor; [exact I|]. destruct (IsPointerType t); constructor; [left; reflexivity|constructor]. Qed.
Lemma param_simple k j p : Forall simple (plex k j p).
Proof. unfold param_lex. apply Forall_app. split; [apply type_simple|]. apply Forall_app. split; [|constructor; [exact I|constructor]]. unfold mod_lex. destruct (p_mod p); try exact (Forall_nil _); (constructor; [cbn; auto|exact (Forall_nil _)]). Qed.
Lemma simple_not x s : simple x -> T s <> T "*" -> T s <> T "&" -> is_punct x s = false.
Proof. destruct x as [w|w|w|p]; cbn [simple is_punct]; intros H A B; try reflexivity. destruct (same p (T s)) eqn:E; [|reflexivity]. apply same_eq in E. subst p. destruct H as [H|[H|[]]]; congruence. Qed.
Lemma simple_free ls s : Forall simple ls -> T s <> T "*" -> T s <> T "&" -> free s ls.
Proof. intros F A B. eapply Forall_impl; [|exact F]. intros x H. apply simple_not; assumption. Qed.
Definition not_closing (x : lexeme) : Prop := brace x = false /\ is_punct x ")" = false.
Lemma list_lex_all {A} (Q : lexeme -> Prop) (lx : nat -> A -> list lexeme) l : Q (P ",") -> (forall k a, In a l -> Forall Q (lx k a)) -> forall k b, Forall Q (list_lex lx k b l).
Proof.
  intros C. induction l as [|a l IH]; intros H k b; [constructor|]. cbn [list_lex]. apply Forall_app. split; [destruct b; cbn [negb]; [constructor|repeat constructor; exact C]|]. apply Forall_app. split; [apply H; left; reflexivity|]. apply IH. intros; apply H; right; assumption.
Qed.
Lemma simple_closing x : simple x -> not_closing x.
Proof. intros H. unfold not_closing, brace. rewrite !(simple_not x _ H) by discriminate. auto. Qed.
Lemma args_closing k ps j b : Forall not_closing (list_lex (plex k) j b ps).
Proof. apply list_lex_all; [split; reflexivity|]. intros i p _. eapply Forall_impl; [apply simple_closing|apply param_simple]. Qed.
Lemma read_call k ps r : wparams ps -> call (pslex k ps ++ r) = Some (map ct (parameters ps), r).
Proof.
  intros W. unfold params_lex, call. cbn [app expect]. change (is_punct (P "(") "(") with true. cbv iota.
  assert (U : until ")" ((list_lex (plex k) 0 true ps ++ [P ")"]) ++ r) = Some (list_lex (plex k) 0 true ps, r)).
  { rewrite <- app_assoc. apply until_plain. eapply Forall_impl; [|apply args_closing]. intros x H. exact H. }
  rewrite U. unfold params_of. destruct ps as [|p ps]; [reflexivity|].
  assert (R : all param_of (split "," (list_lex (plex k) 0 true (p :: ps))) = Some (map (fun p => ct (VisitParameterDeclaration p)) (p :: ps))).
  { apply (read_list param_of (plex k)); [|discriminate]. intros j q I. split; [apply simple_free; [apply param_simple|discriminate|discriminate]|]. apply read_param. exact (proj1 (Forall_forall _ _) W q I). }
  rewrite R. unfold parameters. rewrite map_map. cbn [list_lex negb app]. unfold param_lex at 1, type_lex at 1. reflexivity.
Qed.
Lemma read_specifiers l x r : (count says_static l <= 1)%nat -> (count says_virtual l <= 1)%nat -> is_word x "static" = false -> is_word x "virtual" = false ->
  specifiers false false (mods_lex l ++ x :: r) = Some (existsb says_static l, existsb says_virtual l, x :: r).
Proof.
  intros S V NS NV.
  assert (X : forall l st vi, (st = true -> count says_static l = 0%nat) -> (vi = true -> count says_virtual l = 0%nat) -> (count says_static l <= 1)%nat -> (count says_virtual l <= 1)%nat ->
    specifiers st vi (mods_lex l ++ x :: r) = Some (st || existsb says_static l, vi || existsb says_virtual l, x :: r)).
  { clear l S V. induction l as [|m l IH]; intros st vi A B S V.
    - cbn [mods_lex flat_map app specifiers existsb]. rewrite NS, NV, !orb_false_r. reflexivity.
    - assert (E : mods_lex (m :: l) = (if says_static m then [Word (T "static")] else if says_virtual m then [Word (T "virtual")] else []) ++ mods_lex l) by reflexivity. rewrite E. clear E. unfold count in *. cbn [filter existsb] in *.
      destruct (says_static m) eqn:Em; [|destruct (says_virtual m) eqn:Ev].
      + assert (Ev : says_virtual m = false) by (destruct m; reflexivity || discriminate). rewrite Ev in *. cbn [app specifiers length] in *. change (is_word (Word (T "static")) "static") with true. cbv iota.
        destruct st; [specialize (A eq_refl); discriminate|]. rewrite IH; [reflexivity|intros _; lia|exact B|lia|exact V].
      + cbn [app specifiers length] in *. change (is_word (Word (T "virtual")) "static") with false. change (is_word (Word (T "virtual")) "virtual") with true. cbv iota.
        destruct vi; [specialize (B eq_refl); discriminate|]. rewrite IH; [destruct st; reflexivity|exact A|intros _; lia|exact S|lia].
      + cbn [app]. rewrite IH; [reflexivity|exact A|exact B|exact S|exact V]. }
  apply (X l false false); auto; discriminate.
Qed.
Lemma has_static l : has MStatic l = existsb says_static l.
Proof. unfold has. induction l as [|m l IH]; [reflexivity|]. cbn. rewrite IH. destruct m; reflexivity. Qed.
Lemma has_virtual l : has MAbstract l || has MVirtual l = existsb says_virtual l.
Proof. unfold has. induction l as [|m l IH]; [reflexivity|]. cbn. rewrite <- IH. destruct m; cbn; rewrite ?orb_true_r; reflexivity. Qed.
(** ** Typed declarations *)
Notation mm := (meant (IsLower env) name_text).
Lemma no_call_star (b : bool) w r : call ((if b then [P "*"] else []) ++ Word w :: r) = None.
Proof. destruct b; reflexivity. Qed.
Lemma type_start t s : wtype t -> keyword (T s) = true -> same (T "void") (T s) = false -> is_word (Word (tname t)) s = false.
Proof. intros W. eapply type_not_special, type_read, W. Qed.
(** a function, whatever its specifiers *)
Lemma typed_function st vi t w c ps q fm : wtype t -> keyword w = false -> call c = Some (ps, q) -> form_of q = Some fm ->
  typed Public st vi (tname t) (tl (tlex t) ++ Word w :: c) = Some [mk_cmember Public st vi fm (Some (ct (FormatTypeDelaration t))) w ps].
Proof.
  intros W K C F. unfold typed, type_lex. cbn [tl]. rewrite marks_star. unfold name_of. rewrite K, C, F. rewrite (ct_type t W). reflexivity.
Qed.
Lemma read_function cls mods t w c ps q fm : (count says_static mods <= 1)%nat -> (count says_virtual mods <= 1)%nat -> wtype t -> keyword w = false -> call c = Some (ps, q) -> form_of q = Some fm ->
  member_of cls Public (mods_lex mods ++ tlex t ++ Word w :: c) = Some [mk_cmember Public (existsb says_static mods) (existsb says_virtual mods) fm (Some (ct (FormatTypeDelaration t))) w ps].
Proof.
  intros S V W K C F. unfold member_of. change (tlex t ++ Word w :: c) with (Word (tname t) :: (tl (tlex t) ++ Word w :: c)).
  rewrite (read_specifiers mods (Word (tname t))) by (assumption || (apply type_start; [exact W|reflexivity|reflexivity])).
  cbn [type_lex tl]. rewrite no_call_star, (type_read t W). apply (typed_function _ _ t w c ps q fm W K C F).
Qed.
Lemma names_simple l k b : Forall (fun x => match x with Word w => keyword w = false | _ => x = P "," end) (list_lex (fun _ n => [Word (sp (name_text n))]) k b l) \/ In 0 l.
Proof.
  revert k b. induction l as [|n l IH]; intros k b; [left; constructor|]. destruct (Z.eq_dec n 0) as [-> |N]; [right; left; reflexivity|]. destruct (IH (S k) false) as [F|I]; [|right; right; exact I]. left. cbn [list_lex].
  apply Forall_app. split; [destruct b; repeat constructor|]. constructor; [apply (cname_keyword env name_text param_text GN AL), N|exact F].
Qed.
Lemma pointer_same t : IsPointerType t = plike t.
Proof. destruct t as [[] w n|e|[[] w n|e|e]]; reflexivity. Qed.
Lemma read_data cls mods t names : (count says_static mods <= 1)%nat -> existsb says_virtual mods = false -> wtype t -> names <> [] -> ~ In 0 names -> (length names = 1%nat \/ plike t = false) ->
  member_of cls Public (mods_lex mods ++ tlex t ++ names_lex env name_text names) = Some (map (fun n => mk_cmember Public (existsb says_static mods) false Data (Some (ct (FormatTypeDelaration t))) (sp (name_text n)) []) names).
Proof.
  intros S V W N Z P1. unfold member_of. change (tlex t ++ names_lex env name_text names) with (Word (tname t) :: (tl (tlex t) ++ names_lex env name_text names)).
  assert (C : (count says_virtual mods <= 1)%nat). { unfold count. clear - V. induction mods as [|m mods IH]; [auto|]. cbn in *. apply orb_false_iff in V. destruct V as [A B]. rewrite A. apply IH, B. }
  rewrite (read_specifiers mods (Word (tname t))) by (assumption || (apply type_start; [exact W|reflexivity|reflexivity])). rewrite V.
  destruct names as [|n names]; [congruence|]. assert (K : forall m, In m (n :: names) -> keyword (sp (name_text m)) = false) by (intros m I; apply (cname_keyword env name_text param_text GN AL); intros ->; contradiction).
  unfold names_lex. cbn [list_lex negb app type_lex tl]. rewrite no_call_star, (type_read t W). unfold typed. rewrite marks_star. unfold name_of at 1. rewrite (K n (or_introl eq_refl)).
  assert (NC : call (list_lex (fun _ n => [Word (sp (name_text n))]) 1 false names) = None) by (destruct names; reflexivity). rewrite NC. rewrite (ct_type t W).
  destruct P1 as [L|PL].
  - destruct names as [|m names]; [|discriminate L]. cbn [list_lex]. rewrite split_all by (destruct (IsPointerType t); repeat constructor). cbn [all]. unfold declarator. rewrite marks_star. unfold name_of. rewrite (K n (or_introl eq_refl)). reflexivity.
  - rewrite pointer_same, PL. cbn [app map].
    change (Word (sp (name_text n)) :: list_lex (fun _ n => [Word (sp (name_text n))]) 1 false names) with (list_lex (fun _ n => [Word (sp (name_text n))]) 0 true (n :: names)).
    rewrite (read_list (declarator Public (existsb says_static mods) (tname t)) (fun _ n => [Word (sp (name_text n))]) (fun n => mk_cmember Public (existsb says_static mods) false Data (Some (mk_ctype (tname t) [])) (sp (name_text n)) [])); [reflexivity| |discriminate].
    intros k m I. split; [repeat constructor|]. unfold declarator. cbn [marks]. change (is_punct (Word (sp (name_text m))) "*") with false. change (is_punct (Word (sp (name_text m))) "&") with false. cbv iota. unfold name_of. rewrite (K m I). reflexivity.
Qed.
Lemma read_datum cls mods t w : (count says_static mods <= 1)%nat -> existsb says_virtual mods = false -> wtype t -> keyword w = false ->
  member_of cls Public (mods_lex mods ++ tlex t ++ [Word w]) = Some [mk_cmember Public (existsb says_static mods) false Data (Some (ct (FormatTypeDelaration t))) w []].
Proof.
  intros S V W K. unfold member_of. change (tlex t ++ [Word w]) with (Word (tname t) :: (tl (tlex t) ++ [Word w])).
  assert (C : (count says_virtual mods <= 1)%nat). { unfold count. clear - V. induction mods as [|m mods IH]; [auto|]. cbn in *. apply orb_false_iff in V. destruct V as [A B]. rewrite A. apply IH, B. }
  rewrite (read_specifiers mods (Word (tname t))) by (assumption || (apply type_start; [exact W|reflexivity|reflexivity])). rewrite V.
  cbn [type_lex tl]. rewrite no_call_star, (type_read t W). unfold typed. rewrite marks_star. unfold name_of at 1. rewrite K.
  rewrite (ct_type t W). cbn [call expect]. rewrite split_all by (destruct (IsPointerType t); repeat constructor). cbn [all]. unfold declarator. rewrite marks_star. unfold name_of. rewrite K. reflexivity.
Qed.
(** a constructor *)
Lemma read_constructor w c ps q fm : keyword w = false -> call c = Some (ps, q) -> form_of q = Some fm -> member_of w Public (Word w :: c) = Some [mk_cmember Public false false fm None w ps].
Proof.
  intros K C F. unfold member_of. cbn [specifiers]. rewrite !(not_special w) by (exact K || reflexivity). rewrite C, F. rewrite (proj2 (same_eq w w) eq_refl). reflexivity.
Qed.
Lemma call_none r : call (P "(" :: P ")" :: r) = Some ([], r).
Proof. reflexivity. Qed.
Lemma read_value ty q : wtype ty -> call (P "(" :: (tlex ty ++ [Word (T "x_value"); P ")"]) ++ q) = Some (map ct (value_param ty), q).
Proof.
  intros W. unfold call. cbn [expect]. change (is_punct (P "(") "(") with true. cbv iota.
  assert (U : until ")" ((tlex ty ++ [Word (T "x_value"); P ")"]) ++ q) = Some (tlex ty ++ [Word (T "x_value")], q)).
  { change [Word (T "x_value"); P ")"] with ([Word (T "x_value")] ++ [P ")"]). rewrite app_assoc, <- app_assoc. apply until_plain. apply Forall_app. split; [|repeat constructor].
    eapply Forall_impl; [|apply type_simple]. intros x H. exact (simple_closing x H). }
  rewrite U. unfold params_of.
  assert (S : split "," (tlex ty ++ [Word (T "x_value")]) = [tlex ty ++ [Word (T "x_value")]]).
  { apply split_all. apply Forall_app. split; [apply simple_free; [apply type_simple|discriminate|discriminate]|repeat constructor]. }
  unfold type_lex in *. cbn [app] in *. rewrite S. cbn [all]. unfold param_of. rewrite (type_read ty W), marks_star. cbn [name_of]. change (keyword (T "x_value")) with false. cbv iota. cbn [value_param map]. rewrite (ct_type ty W). reflexivity.
Qed.
End Env.
