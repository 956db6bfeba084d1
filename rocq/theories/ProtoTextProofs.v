(** * Lemmas for C115: the characters of the prototypes and their lexemes *)
From Coq Require Import String.
From Verif Require Import Tac Base MemModel IntModel IntProofs FormatterModel FormatterSpec FormatterProofs TranslatorModel MemberModel LexSpec LexProofs BodyTextSpec BodyTextProofs BodyWriteProofs HeaderTextModel HeaderTextSpec HeaderTextProofs HeaderReadProofs HeaderMemberProofs HeaderClassProofs HeaderFileProofs ProtoTextModel ProtoTextSpec.
From Verif Require EnumModel EnumSpec EnumProperties.
Import ListNotations.
Local Open Scope list_scope.

(** ** Fuel *)
Lemma pdecls_mono n : forall ls x, pdecls n ls = Some x -> forall m, (n <= m)%nat -> pdecls m ls = Some x.
Proof.
  induction n as [|n IH]; intros ls x H m L; [discriminate|]. destruct m as [|m]; [lia|]. cbn [pdecls] in *. destruct (expect "}" ls); [exact H|]. destruct (pdecl_of ls) as [[c r]|]; [|exact H].
  destruct (pdecls n r) as [[cs r']|] eqn:E; [|discriminate]. rewrite (IH r _ E m) by lia. exact H.
Qed.
Lemma pitems_mono n : forall ls x, pitems n ls = Some x -> forall m, (n <= m)%nat -> pitems m ls = Some x.
Proof.
  induction n as [|n IH]; intros ls x H m L; [discriminate|]. destruct m as [|m]; [lia|]. cbn [pitems] in *. destruct ls as [|a [|b [|c r]]]; try exact H.
  assert (M : forall i q, match pitems n q with Some is => Some (i :: is) | None => None end = Some x -> match pitems m q with Some is => Some (i :: is) | None => None end = Some x).
  { intros i q. destruct (pitems n q) as [is|] eqn:E; [|discriminate]. rewrite (IH q _ E m) by lia. auto. }
  destruct (is_word a "namespace").
  - destruct (name_of b); [|exact H]. destruct (is_punct c "{"); [|exact H]. destruct (pdecls n r) as [[cs q]|] eqn:E; [|discriminate]. rewrite (pdecls_mono n r _ E m) by lia. apply M, H.
  - destruct (is_word a "using" && is_word b "namespace"); [|exact H]. destruct (name_of c); [|exact H]. destruct (expect ";" r); [|exact H]. apply M, H.
Qed.
(** ** Outside and inside of a namespace *)
Definition poutside (ls : list lexeme) (its : list pitem) : Prop := forall n r is, pitems n r = Some is -> exists m, pitems m (ls ++ r) = Some (its ++ is).
Definition pinside (v : list Z) (ls : list lexeme) (its : list pitem) (cs : list pdecl) : Prop :=
  forall n r cs' r', pdecls n r = Some (cs', r') -> forall k is, pitems k r' = Some is -> exists m, pitems m (ls ++ r) = Some (its ++ PSpace v (cs ++ cs') :: is).
Lemma poutside_nil : poutside [] [].
Proof. intros n r is H. exists n. exact H. Qed.
Lemma poutside_open v ls its : keyword v = false -> poutside ls its -> pinside v (ls ++ [Word (T "namespace"); Word v; P "{"]) its [].
Proof.
  intros K O n r cs' r' C k is I. rewrite <- app_assoc. cbn [app]. apply (O (Datatypes.S (n + k))). cbn [pitems]. change (is_word (Word (T "namespace")) "namespace") with true. cbv iota. unfold name_of. rewrite K.
  change (is_punct (P "{") "{") with true. cbv iota. rewrite (pdecls_mono _ _ _ C (n + k)) by lia. rewrite (pitems_mono _ _ _ I (n + k)) by lia. reflexivity.
Qed.
Lemma pinside_decl v ls its cs c cl : pinside v ls its cs -> (forall r, pdecl_of (cl ++ r) = Some (c, r)) -> (exists x l, cl = x :: l /\ is_punct x "}" = false) -> pinside v (ls ++ cl) its (cs ++ [c]).
Proof.
  intros S C (x & l & E & N) n r cs' r' H k is I. rewrite <- !app_assoc. cbn [app]. eapply (S (Datatypes.S n) (cl ++ r) (c :: cs') r'); [|exact I].
  cbn [pdecls]. rewrite C, H. rewrite E. cbn [app expect]. rewrite N. reflexivity.
Qed.
Lemma pinside_close v ls its cs : pinside v ls its cs -> poutside (ls ++ [P "}"]) (its ++ [PSpace v cs]).
Proof.
  intros S n r is I. rewrite <- !app_assoc. cbn [app]. specialize (S 1%nat (P "}" :: r) [] r eq_refl n is I). rewrite app_nil_r in S. exact S.
Qed.
Lemma poutside_using v ls its : keyword v = false -> poutside ls its -> poutside (ls ++ [Word (T "using"); Word (T "namespace"); Word v; P ";"]) (its ++ [PUsing v]).
Proof.
  intros K O n r is I. rewrite <- !app_assoc. cbn [app]. apply (O (Datatypes.S n)). cbn [pitems]. change (is_word (Word (T "using")) "namespace") with false. change (is_word (Word (T "using")) "using" && is_word (Word (T "namespace")) "namespace") with true. cbv iota.
  unfold name_of. rewrite K. cbn [expect]. change (is_punct (P ";") ";") with true. cbv iota. rewrite I. reflexivity.
Qed.
Lemma poutside_all ls its : poutside ls its -> exists m, pitems m ls = Some its.
Proof. intros O. destruct (O 1%nat [] [] eq_refl) as (m & H). rewrite !app_nil_r in H. eauto. Qed.

Section Env.
Variable env : dotnet.
Variable name_text : Z -> text.
Variable param_text : nat -> nat -> text.
Variable values : ttype -> list (text * EnumModel.init).
Hypothesis NL : good_newline (nl env).
Hypothesis GN : HeaderTextSpec.good_names name_text param_text.
Hypothesis AL : ascii_lower (IsLower env).
Notation sp := (spelled (IsLower env)).
(** ** Enumerators *)
Lemma keyword_lower c w : keyword (c :: w) = true -> 97 <= c <= 122.
Proof.
  intros H. apply keyword_in in H. assert (A : forallb (fun k => match k with d :: _ => (97 <=? d) && (d <=? 122) | [] => false end) keywords = true) by reflexivity. rewrite forallb_forall in A. specialize (A _ H). cbn in A. lia.
Qed.
Notation px := (EnumSpec.prefixed (IsLower env)).
Lemma joined_keyword m n : word_text m -> keyword (px m ++ T "_" ++ n) = false.
Proof.
  intros W. destruct m as [|c m]; [destruct W; contradiction|]. unfold EnumSpec.prefixed. destruct (EnumSpec.same (c :: m) (T "this")) eqn:Q.
  - apply EnumProperties.same_iff in Q. rewrite Q. rewrite andb_false_r. rewrite app_assoc. change (T "this" ++ T "_") with (T "this_"). apply no_prefix. reflexivity.
  - destruct (IsLower env c) eqn:L; cbn [andb negb].
    + rewrite <- app_assoc. apply no_prefix. reflexivity.
    + destruct (keyword ((c :: m) ++ T "_" ++ n)) eqn:K; [|reflexivity]. cbn [app] in K. apply keyword_lower in K. rewrite (proj1 AL) in L by lia. discriminate.
Qed.
Lemma prefixed_word n : word_text n -> word_text (px n).
Proof.
  intros W. destruct n as [|c n]; [destruct W; contradiction|]. unfold EnumSpec.prefixed. destruct (IsLower env c && _); [|exact W]. split; [reflexivity|]. apply Forall_app. split; [repeat constructor|apply W].
Qed.
Lemma PrefixName_prefixed n : n <> [] -> PrefixName env n = Ret (px n).
Proof.
  intros N. destruct n as [|c n]; [congruence|]. unfold PrefixName, EnumSpec.prefixed. change this_text with (T "this"). change Prefix with (T "x_").
  replace (text_eqb (c :: n) (T "this")) with (EnumSpec.same (c :: n) (T "this")); [destruct (IsLower env c && _); reflexivity|].
  destruct (EnumSpec.same (c :: n) (T "this")) eqn:Q; symmetry; [apply EnumProperties.same_iff in Q; rewrite Q; apply text_eqb_refl|]. destruct (text_eqb (c :: n) (T "this")) eqn:X; [|reflexivity]. apply text_eqb_eq in X. rewrite X in Q. discriminate.
Qed.
Lemma joined_word m n : word_text m -> word_text n -> word_text (px m ++ T "_" ++ n).
Proof.
  intros M N. apply (word_app _ (T "_" ++ n)); [apply prefixed_word, M|]. constructor; [reflexivity|]. apply N.
Qed.
Definition init_lex (i : EnumModel.init) : list lexeme :=
  match i with EnumModel.Number v => P "=" :: (if v <? 0 then [P "-"] else []) ++ [Number (print_u (Z.abs v))] | _ => [] end.
Definition enumerator_lex (n : text) (m : text * EnumModel.init) : list lexeme := Word (px (fst m) ++ T "_" ++ n) :: init_lex (snd m).
Fixpoint enumerators_lex (n : text) (first : bool) (l : list (text * EnumModel.init)) : list lexeme :=
  match l with [] => [] | m :: l => (if first then [] else [P ","]) ++ enumerator_lex n m ++ enumerators_lex n false l end.
(** what is written after the literal is no part of it *)
Definition apart (c : Z) : Prop := after_word c /\ after_number c.
Definition init_chars (i : EnumModel.init) : text := match i with EnumModel.Number v => T " = " ++ EnumModel.number_text v | _ => [] end.
Definition in_range (i : EnumModel.init) : Prop := match i with EnumModel.Number v => Z.abs v <= 9223372036854775807 | _ => True end.
Lemma init_div i r lr : plain i -> in_range i -> head_is apart r -> divided r lr -> divided (init_chars i ++ r) (init_lex i ++ lr) /\ head_is after_word (init_chars i ++ r).
Proof.
  intros Pl R H D. destruct i as [|v|s| |]; try destruct Pl.
  - split; [exact D|]. destruct r; [exact I|apply H].
  - split; [|split; [reflexivity|discriminate]]. cbn [init_lex init_chars in_range] in *.
    assert (HN : head_is after_number r) by (destruct r; [exact I|apply H]). destruct (D_number (Z.abs v) r lr ltac:(unfold two64; lia) HN D) as [DN HD].
    change (T " = ") with (T " " ++ T "=" ++ T " "). rewrite <- !app_assoc. apply D_space. cbn [app]. change (P "=") with (Punct (T "=")). apply D_assign. unfold EnumModel.number_text. destruct (v <? 0).
    + rewrite <- !app_assoc. cbn [app]. apply (D_minus (print_u (Z.abs v) ++ r)); [exact HD|exact DN].
    + exact DN.
Qed.
Lemma says_init i l : plain i -> says (fun f => EnumModel.write_init env f i) l (init_chars i).
Proof.
  intros Pl. destruct i as [|v|s| |]; try destruct Pl; cbn [EnumModel.write_init init_chars]; [apply says_ret|]. apply says_pure. intros f. cbn. rewrite <- app_assoc. auto.
Qed.
Fixpoint enumerators_chars (n : text) (first : bool) (l : list (text * EnumModel.init)) : text :=
  match l with [] => [] | m :: l => (if first then [] else T "," ++ nl env) ++ repeat c_tab 2 ++ (px (fst m) ++ T "_" ++ n) ++ init_chars (snd m) ++ enumerators_chars n false l end.
Lemma says_enumerators n l : Forall (fun m => word_text (fst m) /\ plain (snd m)) l -> forall first : bool, says (fun f => EnumModel.members env f n first l) 2 (enumerators_chars n first l).
Proof.
  intros F. induction F as [|m l [W Pl] F IH]; intros first; cbn [EnumModel.members enumerators_chars]; [apply says_ret|].
  assert (X : says (fun f => f <- EnumModel.VisitEnumMemberDeclaration env f n m ;; EnumModel.members env f n false l) 2 (repeat c_tab 2 ++ (px (fst m) ++ T "_" ++ n) ++ init_chars (snd m) ++ enumerators_chars n false l)).
  { intros f L. unfold EnumModel.VisitEnumMemberDeclaration, AppendIndentedName. pose proof (PrefixName_prefixed _ (word_nonempty _ W)) as PN. unfold text in *. rewrite PN. clear PN. cbn [bind]. destruct (says_indented (px (fst m)) 2 ltac:(lia) f L) as (f1 & E1 & B1 & L1 & N1). rewrite E1. cbn [bind].
    destruct (says_init (snd m) 2 Pl (Append (Append f1 (T "_")) n) ltac:(cbn; lia)) as (f2 & E2 & B2 & L2 & N2). rewrite E2. cbn [bind]. destruct (IH false f2 L2) as (f3 & E3 & B3 & L3 & N3). exists f3. split; [exact E3|]. split; [|split; [exact L3|cbn in N2; congruence]].
    rewrite B3, B2. cbn [buffer Append]. rewrite B1. change (Z.to_nat 2) with 2%nat. repeat rewrite <- app_assoc. reflexivity. }
  destruct first; cbn [negb app]; [exact X|]. intros f L. destruct (X (AppendLine env f (T ",")) ltac:(cbn; lia)) as (g & E & B & Lg & N). exists g. split; [exact E|]. split; [|auto]. rewrite B. cbn. repeat rewrite <- app_assoc. reflexivity.
Qed.
Lemma enumerators_div n l : word_text n -> Forall (fun m => word_text (fst m) /\ plain (snd m)) l -> Forall (fun m => in_range (snd m)) l -> forall (first : bool) r lr, head_is apart r -> divided r lr ->
  divided (enumerators_chars n first l ++ r) (enumerators_lex n first l ++ lr) /\ (first = false -> head_is apart (enumerators_chars n first l ++ r)).
Proof.
  intros N F. induction F as [|m l [W Pl] F IH]; intros R first r lr H D; cbn [enumerators_chars enumerators_lex]; [auto|]. inversion R as [|? ? R1 R2]; subst. destruct (IH R2 false r lr H D) as [D' H']. specialize (H' eq_refl).
  destruct (init_div (snd m) _ _ Pl R1 H' D') as [D2 H2].
  assert (X : divided (repeat c_tab 2 ++ (px (fst m) ++ T "_" ++ n) ++ init_chars (snd m) ++ enumerators_chars n false l ++ r) (enumerator_lex n m ++ enumerators_lex n false l ++ lr)).
  { apply (closed_blanks (repeat c_tab 2)); [apply tab_blanks|]. unfold enumerator_lex. cbn [app]. apply D_word; [apply joined_word; assumption|exact H2|exact D2]. }
  split.
  - destruct first; repeat rewrite <- app_assoc; cbn [app]; repeat rewrite <- app_assoc in *; [exact X|]. apply D_comma. apply (closed_blanks (nl env)); [apply NL|exact X].
  - intros ->. repeat split; discriminate.
Qed.
(** ** Reading an enum *)
Lemma init_free i s : In s [","; "{"; "}"]%string -> free s (init_lex i).
Proof. intros H. destruct i as [|v|n| |]; cbn [init_lex]; try apply Forall_nil. destruct H as [<-|[<-|[<-|[]]]]; destruct (v <? 0); repeat constructor. Qed.
Lemma enumerator_free n m s : In s [","; "{"; "}"]%string -> free s (enumerator_lex n m).
Proof. intros H. constructor; [reflexivity|]. apply init_free, H. Qed.
Lemma split_enumerators n l : forall m, split "," (enumerator_lex n m ++ enumerators_lex n false l) = enumerator_lex n m :: map (enumerator_lex n) l.
Proof.
  induction l as [|k l IH]; intros m; cbn [enumerators_lex map].
  - rewrite app_nil_r. apply split_all, enumerator_free. cbn. auto.
  - cbn [app]. change (P ",") with (P ","). rewrite split_stop; [|apply enumerator_free; cbn; auto|reflexivity]. rewrite IH. reflexivity.
Qed.
Lemma enumerator_forms w i follow : keyword w = false -> plain i -> in_range i -> enumerator follow (Word w :: init_lex i) = Some (w, match own_value i with Some v => v | None => follow end).
Proof.
  intros J Pl R. assert (K : name_of (Word w) = Some w) by (unfold name_of; rewrite J; reflexivity). destruct i as [|v|s| |]; try destruct Pl; cbn [init_lex own_value].
  - cbn [enumerator]. rewrite K. reflexivity.
  - assert (L : natural (Number (print_u (Z.abs v))) = Some (Z.abs v)) by (cbn [natural]; apply EnumProperties.literal_print; cbn [in_range] in R; lia).
    destruct (v <? 0) eqn:S; cbn [app enumerator]; [change (is_punct (P "=") "=" && is_punct (P "-") "-") with true|change (is_punct (P "=") "=") with true]; cbv iota; rewrite K, L; do 2 f_equal; lia.
Qed.
Lemma enumerator_read n m follow : word_text (fst m) -> plain (snd m) -> in_range (snd m) -> enumerator follow (enumerator_lex n m) = Some (px (fst m) ++ T "_" ++ n, match own_value (snd m) with Some v => v | None => follow end).
Proof. intros W. apply enumerator_forms, joined_keyword, W. Qed.
Lemma enumerators_read n l : Forall (fun m => word_text (fst m) /\ plain (snd m)) l -> Forall (fun m => in_range (snd m)) l -> forall follow,
  enumerators follow (map (enumerator_lex n) l) = Some (combine (map (fun m => px (fst m) ++ T "_" ++ n) l) (EnumSpec.cs_values follow (map (fun m => own_value (snd m)) l))).
Proof.
  intros F. induction F as [|m l [W Pl] F IH]; intros R follow; [reflexivity|]. inversion R as [|? ? R1 R2]; subst. cbn [map enumerators EnumSpec.cs_values combine]. rewrite (enumerator_read n m follow W Pl R1). rewrite (IH R2). reflexivity.
Qed.
Lemma range_of l : forall follow, Forall (fun v => Z.abs v <= 9223372036854775807) (EnumSpec.cs_values follow (map (fun m : text * EnumModel.init => own_value (snd m)) l)) -> Forall (fun m => in_range (snd m)) l.
Proof.
  induction l as [|m l IH]; intros follow F; [constructor|]. cbn [map EnumSpec.cs_values] in F. inversion F as [|? ? A B]; subst. constructor; [|eapply IH, B]. destruct (snd m); cbn in *; auto.
Qed.
Lemma enumerators_plain n l : forall first, Forall (fun x => brace x = false /\ is_punct x "}" = false) (enumerators_lex n first l).
Proof.
  assert (X : forall m, Forall (fun x => brace x = false /\ is_punct x "}" = false) (enumerator_lex n m)).
  { intros m. pose proof (enumerator_free n m "{" ltac:(cbn; auto)) as A. pose proof (enumerator_free n m "}" ltac:(cbn; auto)) as B. unfold free in *. rewrite Forall_forall in *. intros x I. unfold brace. rewrite (A x I), (B x I). auto. }
  induction l as [|m l IH]; intros first; cbn [enumerators_lex]; [constructor|]. apply Forall_app. split; [destruct first; repeat constructor|]. apply Forall_app. auto.
Qed.
(** ** A declaration *)
Notation decl := (declaration_for (IsLower env) name_text values).
Definition decl_lex (t : ttype) : list lexeme :=
  let n := name_text (c_name (t_class t)) in
  match c_kind (t_class t) with
  | KEnum => Word (T "enum") :: Word (sp n) :: P "{" :: enumerators_lex n true (values t) ++ [P "}"; P ";"]
  | k => [Word (key_word k); Word (sp n); P ";"]
  end.
Lemma decl_read t r : declarable values t -> pdecl_of (decl_lex t ++ r) = Some (decl t, r).
Proof.
  intros (_ & C & E). pose proof (cname_keyword env name_text param_text GN AL _ C) as K. unfold decl_lex, declaration_for. set (n := name_text (c_name (t_class t))) in *. destruct (c_kind (t_class t)); cbn [app]; unfold pdecl_of, name_of; rewrite K; try reflexivity.
  destruct (E eq_refl) as [F R]. pose proof (range_of _ _ R) as R'. change (is_word (Word (T "enum")) "enum") with true. cbv iota. cbn [expect]. change (is_punct (P "{") "{") with true. cbv iota. rewrite <- app_assoc. cbn [app].
  change (P "}") with (Punct (T "}")). rewrite until_plain by apply enumerators_plain.
  assert (X : match enumerators_lex n true (values t) with [] => [] | _ => split "," (enumerators_lex n true (values t)) end = map (enumerator_lex n) (values t)).
  { destruct (values t) as [|m l]; [reflexivity|]. cbn [enumerators_lex app]. unfold enumerator_lex at 1. cbn [app]. exact (split_enumerators n l m). }
  rewrite X, (enumerators_read n _ F R' 0). cbn [expect]. change (is_punct (P ";") ";") with true. cbv iota. reflexivity.
Qed.
Lemma close_apart f : indentLevel f = 2 -> exists g t, AddCloseBrace env f true = Ret g /\ closed t [P "}"; P ";"] /\ (forall r, head_is apart (t ++ r)) /\ buffer g = buffer f ++ t /\ indentLevel g = 1 /\ nameSpace g = nameSpace f.
Proof.
  intros L2. destruct (close_step env NL true f) as (g & t & E & C & S & B & L & N); [lia|lia|lia|]. exists g, t. split; [exact E|]. split; [exact C|]. split; [|repeat split; (exact B || exact N || lia)].
  unfold AddCloseBrace in E. fold (maybe env f) in E. destruct (maybe_inv env NL f) as (b0 & B0 & E0). unfold AppendIndented in E.
  assert (L' : indentLevel (DownIndent (maybe env f)) = 1) by (unfold maybe; destruct (onNewline f); cbn; lia). rewrite Indent_in in E by (rewrite L'; lia). cbn [bind] in E. match type of E with Ret ?x = Ret _ => assert (G : g = x) by congruence end. clear E. rewrite G in B. clear G.
  assert (X : exists c q, t = c :: q /\ (blank c = true \/ c = 125)).
  { cbn in B. rewrite E0 in B. repeat rewrite <- app_assoc in B. apply app_inv_head in B. destruct b0 as [|c b0]; [|apply Forall_inv in B0; exists c; eexists; split; [symmetry; exact B|left; exact B0]].
    cbn [app] in B. match type of B with context [repeat c_tab ?k] => destruct k end; cbn in B; eexists _, _; (split; [symmetry; exact B|]); [right|left]; reflexivity. }
  destruct X as (c & q & -> & X). intros r. cbn [app head_is]. destruct X as [X| ->]; [apply blank_cases in X; destruct X as [-> |[-> |[-> | ->]]]|]; repeat split; discriminate.
Qed.
Definition rest_of_decl (t : ttype) (f : formatter) : outcome formatter :=
  let c := t_class t in
  f <- AppendIndented f (keyword_text (c_kind c)) ;;
  f <- FormatType_text env name_text (Named (c_kind c) false (c_name c)) f ;;
  f <- (match c_kind c with KEnum => OutputEnumValues env name_text values t f | _ => Ret (Append f (T ";")) end) ;;
  Ret (AppendLine env f []).
Lemma decl_text t : declarable values t -> forall f, indentLevel f = 1 -> exists g tx, rest_of_decl t f = Ret g /\ closed tx (decl_lex t) /\ buffer g = buffer f ++ tx /\ indentLevel g = 1 /\ nameSpace g = nameSpace f.
Proof.
  intros (_ & C & E) f L. set (n := name_text (c_name (t_class t))). pose proof (cname_word env name_text param_text GN (c_name (t_class t))) as W. fold n in W. unfold rest_of_decl.
  destruct (says_indented (keyword_text (c_kind (t_class t))) 1 ltac:(lia) f L) as (f1 & E1 & B1 & L1 & N1). rewrite E1. cbn [bind]. clear E1.
  destruct (says_name env n 1 (word_nonempty _ (name_word name_text param_text GN _)) f1 L1) as (f2 & E2 & B2 & L2 & N2). unfold FormatType_text. cbn [itype_name bind]. fold n. rewrite E2. cbn [bind]. clear E2.
  assert (KW : forall tx ls, closed tx ls -> starts tx -> closed (repeat c_tab (Z.to_nat 1) ++ keyword_text (c_kind (t_class t)) ++ sp n ++ tx ++ nl env) (Word (match c_kind (t_class t) with KEnum => T "enum" | k => key_word k end) :: Word (sp n) :: ls)).
  { intros tx ls Ct St r lr D. rewrite <- !app_assoc. apply (closed_blanks (repeat c_tab (Z.to_nat 1))); [apply tab_blanks|]. cbn [app].
    assert (Y : divided (sp n ++ tx ++ nl env ++ r) (Word (sp n) :: ls ++ lr)). { apply D_word; [exact W|apply starts_head, St|]. apply Ct, (closed_blanks (nl env)); [apply NL|exact D]. }
    destruct (c_kind (t_class t)); cbn [keyword_text key_word].
    all: match goal with |- divided (?k ++ _) (Word ?w :: _) => change k with (w ++ T " "); rewrite <- app_assoc; apply word_space; [split; [reflexivity|repeat constructor]|exact Y] end. }
  destruct (c_kind (t_class t)) eqn:Q.
  all: try (eexists _, (repeat c_tab (Z.to_nat 1) ++ keyword_text (c_kind (t_class t)) ++ sp n ++ T ";" ++ nl env); cbn [bind]; split; [reflexivity|]; unfold decl_lex; rewrite Q; split; [apply (KW (T ";") [P ";"]); [apply closed_semi|split; [reflexivity|discriminate]]|];
    split; [cbn; rewrite B2, B1; repeat rewrite <- app_assoc; reflexivity|]; split; [exact L2|cbn; congruence]).
  destruct (E eq_refl) as [F R]. pose proof (range_of _ _ R) as R'. pose proof (name_word name_text param_text GN (c_name (t_class t))) as NW. fold n in NW. unfold OutputEnumValues. fold n.
  destruct (open_step env NL f2) as (f3 & t3 & E3 & C3 & S3 & B3 & L3 & N3); [lia|lia|lia|]. rewrite E3. cbn [bind]. clear E3.
  destruct (says_enumerators n _ F true f3 ltac:(lia)) as (f4 & E4 & B4 & L4 & N4). rewrite E4. cbn [bind]. clear E4.
  destruct (close_apart f4 L4) as (f5 & t5 & E5 & C5 & A5 & B5 & L5 & N5). rewrite E5. cbn [bind]. clear E5.
  exists (AppendLine env f5 []), (repeat c_tab (Z.to_nat 1) ++ keyword_text KEnum ++ sp n ++ (t3 ++ enumerators_chars n true (values t) ++ t5) ++ nl env). split; [reflexivity|]. split; [|split; [|split]].
  - unfold decl_lex. rewrite Q. apply (KW _ (P "{" :: enumerators_lex n true (values t) ++ [P "}"; P ";"])).
    + intros r lr D. rewrite <- !app_assoc. cbn [app]. apply C3. destruct (enumerators_div n _ NW F R' true (t5 ++ r) ([P "}"; P ";"] ++ lr) (A5 r)) as [X _]; [apply C5, D|]. rewrite <- app_assoc. exact X.
    + destruct t3; [destruct S3|exact S3].
  - cbn. rewrite B5, B4, B3, B2, B1. repeat rewrite <- app_assoc. reflexivity.
  - exact L5.
  - cbn. congruence.
Qed.
(** ** The file *)
Definition pstate (f : formatter) (ls : list lexeme) (used : list (list Z)) (done : list (list Z * pdecl)) : Prop :=
  match nameSpace f with
  | None => indentLevel f = 0 /\ exists its, poutside ls its /\ declared_in its = done /\ used_in its = used
  | Some v => indentLevel f = 1 /\ exists its cs, pinside v ls its cs /\ declared_in its ++ map (fun c => (v, c)) cs = done /\ used_in its = used
  end.
Lemma declared_app a b : declared_in (a ++ b) = declared_in a ++ declared_in b.
Proof. apply flat_map_app. Qed.
Lemma used_app a b : used_in (a ++ b) = used_in a ++ used_in b.
Proof. apply flat_map_app. Qed.
Lemma pclose_state f ls u done : pstate f ls u done -> exists g tx la, CloseNamespace env f = Ret g /\ closed tx la /\ buffer g = buffer f ++ tx /\ nameSpace g = None /\ pstate g (ls ++ la) u done.
Proof.
  unfold pstate, CloseNamespace. destruct (nameSpace f) as [v|] eqn:N.
  - intros (L & its & cs & I & D & X). destruct (close_step env NL false f) as (g & t & E & C & _ & B & Lg & Ng); [lia|lia|lia|]. rewrite E. cbn [bind]. eexists _, t, [P "}"]. split; [reflexivity|]. split; [exact C|]. split; [exact B|]. split; [reflexivity|].
    cbn [nameSpace set_namespace indentLevel]. split; [lia|]. exists (its ++ [PSpace v cs]). split; [apply pinside_close, I|]. rewrite declared_app, used_app, X. cbn. rewrite !app_nil_r. auto.
  - intros (L & its & O & D & X). exists f, [], []. rewrite !app_nil_r. split; [reflexivity|]. split; [apply closed_nil|]. split; [reflexivity|]. split; [exact N|]. rewrite N. split; [exact L|]. exists its. auto.
Qed.
Lemma popen_state f ls u done v : v = [] \/ word_text v -> nameSpace f = None -> pstate f ls u done ->
  exists g tx la, (let f := set_namespace f (Some (space_name v)) in AddOpenBrace env (Append (Append f namespace_text) (space_name v))) = Ret g /\ closed tx la /\ buffer g = buffer f ++ tx /\ nameSpace g = Some (space_name v) /\ pstate g (ls ++ la) u done.
Proof.
  intros W N. unfold pstate. rewrite N. intros (L & its & O & D & X). destruct (open_step env NL (Append (Append (set_namespace f (Some (space_name v))) namespace_text) (space_name v))) as (g & t & E & C & S & B & Lg & Ng); [cbn; lia|cbn; lia|cbn; lia|].
  cbv zeta. rewrite E. exists g, (T "namespace" ++ T " " ++ space_name v ++ t), [Word (T "namespace"); Word (space_name v); P "{"]. split; [reflexivity|]. split; [|split; [|split]].
  - intros r lr Dr. rewrite <- !app_assoc. apply (word_space (T "namespace")); [split; [reflexivity|repeat constructor]|]. apply D_word; [apply space_word, W|apply starts_head, S|apply C, Dr].
  - rewrite B. cbn. repeat rewrite <- app_assoc. reflexivity.
  - exact Ng.
  - rewrite Ng. cbn [nameSpace Append set_namespace]. split; [rewrite Lg; cbn; lia|]. exists its, []. split; [apply poutside_open; [apply space_keyword|exact O]|]. rewrite app_nil_r. auto.
Qed.
Lemma pspace_state f ls u done v : v = [] \/ word_text v -> pstate f ls u done -> exists g tx la, SetNamespace env f v = Ret g /\ closed tx la /\ buffer g = buffer f ++ tx /\ nameSpace g = Some (space_name v) /\ pstate g (ls ++ la) u done.
Proof.
  intros W S. unfold SetNamespace. rewrite space_same. destruct (nameSpace f) as [o|] eqn:N.
  - destruct (text_eqb (space_name v) o) eqn:Q.
    + apply text_eqb_eq in Q. subst o. exists f, [], []. rewrite !app_nil_r. repeat split; [apply closed_nil|exact N|exact S].
    + destruct (pclose_state f ls u done S) as (g & t & la & E & C & B & Ng & Sg). rewrite E. cbn [bind]. destruct (popen_state g _ u done v W Ng Sg) as (h & w & lb & E' & C' & B' & Nh & Sh). exists h, (t ++ w), (la ++ lb). split; [exact E'|]. split; [apply closed_app; assumption|]. rewrite B', B, <- app_assoc. split; [reflexivity|]. split; [exact Nh|]. rewrite app_assoc. exact Sh.
  - apply popen_state; assumption.
Qed.
Lemma pdecl_state f ls u done t : declarable values t -> pstate f ls u done ->
  exists g tx la, VisitTypeDeclaration_proto env name_text values t f = Ret g /\ closed tx la /\ buffer g = buffer f ++ tx /\ pstate g (ls ++ la) u (done ++ [(space_name (t_space t), decl t)]).
Proof.
  intros D0 S. destruct (pspace_state f ls u done (t_space t) (proj1 D0) S) as (g & tx & la & E & C & B & N & Sg). unfold VisitTypeDeclaration_proto. cbv zeta. rewrite E. cbn [bind].
  unfold pstate in Sg. rewrite N in Sg. destruct Sg as (L & its & cs & I & D & Q). destruct (decl_text t D0 g L) as (h & w & E' & C' & B' & Lh & Nh). unfold rest_of_decl in E'. cbv zeta in E'. exists h, (tx ++ w), (la ++ decl_lex t). split; [exact E'|]. split; [apply closed_app; assumption|]. rewrite B', B, <- app_assoc. split; [reflexivity|].
  unfold pstate. rewrite Nh, N. split; [exact Lh|]. exists its, (cs ++ [decl t]). split; [rewrite app_assoc; apply pinside_decl; [exact I|intros r; apply decl_read, D0|]|].
  - unfold decl_lex. destruct (c_kind (t_class t)); eexists _, _; (split; [reflexivity|]); reflexivity.
  - rewrite map_app, app_assoc. change (list Z) with text in *. rewrite D. auto.
Qed.
Lemma pdecls_state l : Forall (declarable values) l -> forall f ls u done, pstate f ls u done ->
  exists g tx la, proto_types env name_text values l f = Ret g /\ closed tx la /\ buffer g = buffer f ++ tx /\ pstate g (ls ++ la) u (done ++ map (fun t => (space_name (t_space t), decl t)) l).
Proof.
  intros F. induction F as [|t l W F IH]; intros f ls u done S.
  - exists f, [], []. cbn [map]. rewrite !app_nil_r. repeat split; [apply closed_nil|exact S].
  - destruct (pdecl_state f ls u done t W S) as (g & tx & la & E & C & B & Sg). cbn [proto_types]. rewrite E. cbn [bind]. destruct (IH g _ _ _ Sg) as (h & w & lb & E' & C' & B' & Sh). exists h, (tx ++ w), (la ++ lb).
    split; [exact E'|]. split; [apply closed_app; assumption|]. rewrite B', B, <- app_assoc. split; [reflexivity|]. rewrite <- app_assoc in Sh. rewrite <- app_assoc in Sh. exact Sh.
Qed.
Definition used_lex : list lexeme := [Word (T "using"); Word (T "namespace"); Word (T "DotnetLibrary"); P ";"] ++ [Word (T "using"); Word (T "namespace"); Word (T "DotnetLibrarySupport"); P ";"].
Lemma used_closed : closed (T "using namespace DotnetLibrary;" ++ nl env ++ T "using namespace DotnetLibrarySupport;" ++ nl env ++ nl env) used_lex.
Proof.
  assert (X : forall w, word_text w -> closed (T "using " ++ T "namespace " ++ w ++ T ";" ++ nl env) [Word (T "using"); Word (T "namespace"); Word w; P ";"]).
  { intros w W r lr Dr. change (T "using ") with (T "using" ++ T " "). change (T "namespace ") with (T "namespace" ++ T " "). rewrite <- !app_assoc. apply (word_space (T "using")); [split; [reflexivity|repeat constructor]|]. apply (word_space (T "namespace")); [split; [reflexivity|repeat constructor]|].
    apply D_word; [exact W|split; [reflexivity|discriminate]|]. apply (closed_semi (nl env ++ r) lr). apply (closed_blanks (nl env)); [apply NL|exact Dr]. }
  intros r lr D. change (T "using namespace DotnetLibrary;") with (T "using " ++ T "namespace " ++ T "DotnetLibrary" ++ T ";"). change (T "using namespace DotnetLibrarySupport;") with (T "using " ++ T "namespace " ++ T "DotnetLibrarySupport" ++ T ";").
  unfold used_lex. rewrite <- app_assoc. pose proof (X (T "DotnetLibrary") ltac:(split; [reflexivity|repeat constructor]) _ _ (X (T "DotnetLibrarySupport") ltac:(split; [reflexivity|repeat constructor]) _ _ (closed_blanks (nl env) ltac:(apply NL) r lr D))) as Y.
  repeat rewrite <- app_assoc in *. exact Y.
Qed.
Definition first_directives : text := T "#pragma once" ++ nl env ++ T "#include ""DotnetTypes.h""" ++ nl env ++ T "#include <DotNetLibrarySupport.h>" ++ nl env.
Lemma proto_read ts : Forall (declarable values) ts -> forall f, indentLevel f = 0 -> nameSpace f = None ->
  exists g t its, proto_text env name_text values ts f = Ret g /\ buffer g = buffer f ++ first_directives ++ t /\
    read_as_prototypes t its /\ used_in its = [T "DotnetLibrary"; T "DotnetLibrarySupport"] /\ declared_in its = map (fun t => (space_name (t_space t), decl t)) ts.
Proof.
  intros F f L N. unfold proto_text. set (f0 := AddHeaders_proto env f). set (tu := T "using namespace DotnetLibrary;" ++ nl env ++ T "using namespace DotnetLibrarySupport;" ++ nl env ++ nl env).
  assert (B0 : buffer f0 = buffer f ++ first_directives ++ tu) by (unfold f0, tu, first_directives; cbn; repeat rewrite <- app_assoc; cbn; repeat rewrite <- app_assoc; reflexivity).
  assert (S0 : pstate f0 used_lex [T "DotnetLibrary"; T "DotnetLibrarySupport"] []).
  { unfold pstate. change (nameSpace f0) with (nameSpace f). rewrite N. split; [exact L|]. exists [PUsing (T "DotnetLibrary"); PUsing (T "DotnetLibrarySupport")]. split; [|split; reflexivity].
    unfold used_lex. apply (poutside_using _ _ [_]); [reflexivity|]. apply (poutside_using (T "DotnetLibrary") [] []); [reflexivity|]. apply poutside_nil. }
  destruct (pdecls_state ts F f0 _ _ _ S0) as (f1 & t1 & l1 & E1 & C1 & B1 & S1). rewrite E1. cbn [bind].
  destruct (pclose_state f1 _ _ _ S1) as (f2 & t2 & l2 & E2 & C2 & B2 & N2 & S2). unfold pstate in S2. rewrite N2 in S2. destruct S2 as (_ & its & O & D & U).
  exists f2, (tu ++ t1 ++ t2), its. split; [exact E2|]. split; [|split; [|split]].
  - rewrite B2, B1, B0. repeat rewrite <- app_assoc. reflexivity.
  - destruct (poutside_all _ _ O) as (m & M). exists ((used_lex ++ l1) ++ l2), m. split; [|exact M].
    pose proof (closed_app _ _ _ _ used_closed (closed_app _ _ _ _ C1 C2)) as C. fold tu in C. specialize (C [] [] D_nil). rewrite !app_nil_r in C. rewrite <- app_assoc. exact C.
  - exact U.
  - exact D.
Qed.
End Env.
