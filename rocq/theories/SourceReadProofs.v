(** * Lemmas for C114: how the lexemes of the source file are read *)
From Coq Require Import String.
From Verif Require Import Tac Base FormatterModel FormatterSpec FormatterProofs TranslatorModel MemberModel ControlModel LexSpec LexProofs BodyTextSpec BodyTextProofs BodyWriteProofs HeaderTextModel HeaderTextSpec HeaderTextProofs HeaderReadProofs HeaderFileProofs SourceTextModel SourceTextSpec.
Import ListNotations.
Local Open Scope list_scope.

(** ** Fuel *)
Lemma block_same n ls : block_of n ls = match expect "{" ls with Some r => pblock n r | None => None end.
Proof. reflexivity. Qed.
Lemma block_mono n m : (n <= m)%nat -> grows (block_of n) (block_of m).
Proof. intros L r y. rewrite !block_same. destruct (expect "{" r); [|auto]. apply (up_b n m _ _ L). Qed.
Lemma rest_mono n m ty : (n <= m)%nat -> grows (rest_of n ty) (rest_of m ty).
Proof.
  intros L ls y. unfold rest_of. destruct ls as [|a [|b [|c r]]]; auto. destruct (name_of a); auto. destruct (is_punct b "::"); auto. destruct (name_of c); auto.
  destruct (call r) as [[ps q]|]; [|auto]. destruct (Bool.eqb _ _); [|auto]. destruct (initialiser_of _ q) as [[i q']|]; [|auto].
  destruct (block_of n q') as [[bd q'']|] eqn:E; [|discriminate]. rewrite (block_mono n m L _ _ E). auto.
Qed.
Lemma definition_mono n m : (n <= m)%nat -> grows (definition_of n) (definition_of m).
Proof.
  intros L ls y. unfold definition_of. destruct ls as [|a [|b r]]; auto. destruct (is_punct b "::"); [apply rest_mono, L|]. destruct (type_word a); [|auto]. destruct (marks (b :: r)). apply rest_mono, L.
Qed.
Lemma definitions_mono n : forall ls x, definitions n ls = Some x -> forall m, (n <= m)%nat -> definitions m ls = Some x.
Proof.
  induction n as [|n IH]; intros ls x H m L; [discriminate|]. destruct m as [|m]; [lia|]. cbn [definitions] in *. destruct (expect "}" ls); [exact H|]. destruct (definition_of n ls) as [[d r]|] eqn:E; [|discriminate].
  rewrite (definition_mono n m ltac:(lia) _ _ E). destruct (definitions n r) as [[ds r']|] eqn:E'; [|discriminate]. rewrite (IH r _ E' m) by lia. exact H.
Qed.
Lemma spaces_mono n : forall ls x, spaces n ls = Some x -> forall m, (n <= m)%nat -> spaces m ls = Some x.
Proof.
  induction n as [|n IH]; intros ls x H m L; [discriminate|]. destruct m as [|m]; [lia|]. cbn [spaces] in *. destruct ls as [|a [|b [|c r]]]; try exact H.
  destruct (is_word a "namespace"); [|exact H]. destruct (name_of b); [|exact H]. destruct (is_punct c "{"); [|exact H]. destruct (definitions n r) as [[ds q]|] eqn:E; [|discriminate]. rewrite (definitions_mono n r _ E m) by lia.
  destruct (spaces n q) as [sps|] eqn:E'; [|discriminate]. rewrite (IH q _ E' m) by lia. exact H.
Qed.
(** ** Lexemes that are a definition *)
Definition defines (ls : list lexeme) (d : definition) : Prop := expect "}" ls = None /\ forall r, exists n, definition_of n (ls ++ r) = Some (d, r).
Lemma defines_head ls d : defines ls d -> exists x l, ls = x :: l /\ is_punct x "}" = false.
Proof.
  intros [E H]. destruct ls as [|x l]; [|exists x, l; split; [reflexivity|cbn in E; destruct (is_punct x "}"); [discriminate|reflexivity]]].
  exfalso. destruct (H []) as [n X]. discriminate.
Qed.
Definition outside (ls : list lexeme) (sps : list space) : Prop := forall n r l, spaces n r = Some l -> exists m, spaces m (ls ++ r) = Some (sps ++ l).
Definition inside (v : list Z) (ls : list lexeme) (sps : list space) (ds : list definition) : Prop :=
  forall n r ds' r', definitions n r = Some (ds', r') -> forall k l, spaces k r' = Some l -> exists m, spaces m (ls ++ r) = Some (sps ++ (v, ds ++ ds') :: l).
Lemma outside_nil : outside [] [].
Proof. intros n r l H. exists n. exact H. Qed.
Lemma outside_open v ls sps : keyword v = false -> outside ls sps -> inside v (ls ++ [Word (T "namespace"); Word v; P "{"]) sps [].
Proof.
  intros K O n r ds' r' C k l I. rewrite <- app_assoc. cbn [app]. apply (O (Datatypes.S (n + k))). cbn [spaces]. change (is_word (Word (T "namespace")) "namespace") with true. unfold name_of. rewrite K.
  change (is_punct (P "{") "{") with true. cbv iota. rewrite (definitions_mono _ _ _ C (n + k)) by lia. rewrite (spaces_mono _ _ _ I (n + k)) by lia. reflexivity.
Qed.
Lemma inside_def v ls sps ds la d : inside v ls sps ds -> defines la d -> inside v (ls ++ la) sps (ds ++ [d]).
Proof.
  intros S D n r ds' r' H k l I. rewrite <- !app_assoc. cbn [app]. destruct (defines_head la d D) as (x & q & -> & E). destruct D as [_ D]. destruct (D r) as [m X].
  eapply (S (Datatypes.S (n + m)) _ (d :: ds') r'); [|exact I]. cbn [definitions]. cbn [app expect]. rewrite E. cbn [app] in X. rewrite (definition_mono m (n + m) ltac:(lia) _ _ X). rewrite (definitions_mono _ _ _ H (n + m)) by lia. reflexivity.
Qed.
Lemma inside_defs v las ds : Forall2 defines las ds -> forall ls sps ds0, inside v ls sps ds0 -> inside v (ls ++ concat las) sps (ds0 ++ ds).
Proof.
  intros F. induction F as [|la d las ds D F IH]; intros ls sps ds0 S; [cbn [concat]; rewrite !app_nil_r; exact S|]. cbn [concat]. rewrite app_assoc. change (d :: ds) with ([d] ++ ds). rewrite (app_assoc ds0). apply IH, inside_def; assumption.
Qed.
Lemma inside_close v ls sps ds : inside v ls sps ds -> outside (ls ++ [P "}"]) (sps ++ [(v, ds)]).
Proof.
  intros S n r l I. rewrite <- !app_assoc. cbn [app]. specialize (S 1%nat (P "}" :: r) [] r eq_refl n l I). rewrite app_nil_r in S. exact S.
Qed.
Lemma outside_all ls sps : outside ls sps -> exists m, spaces m ls = Some sps.
Proof. intros O. destruct (O 1%nat [] [] eq_refl) as (m & H). rewrite !app_nil_r in H. eauto. Qed.
(** ** Definitions *)
Lemma read_block l ss r : R l ss false -> exists n, block_of n ((P "{" :: l ++ [P "}"]) ++ r) = Some (ss, r).
Proof. intros H. destruct (block_reads l ss r H) as [n E]. exists n. rewrite block_same. cbn [app expect]. change (is_punct (P "{") "{") with true. cbv iota. rewrite <- app_assoc. exact E. Qed.
Lemma rest_function ty c w ps (i : option (list Z * list lexeme)) il l ss pl :
  keyword c = false -> keyword w = false -> (match ty with None => c = w | Some _ => c <> w end) -> (forall r, call (pl ++ r) = Some (ps, r)) ->
  (forall r, initialiser_of (match ty with None => true | _ => false end) (il ++ P "{" :: r) = Some (i, P "{" :: r)) -> R l ss false ->
  forall r, exists n, rest_of n ty (Word c :: P "::" :: Word w :: pl ++ il ++ (P "{" :: l ++ [P "}"]) ++ r) = Some (Function ty c w ps i ss, r).
Proof.
  intros Kc Kw E C I RR r. destruct (read_block l ss r RR) as [n B]. exists n. unfold rest_of, name_of. rewrite Kc, Kw. change (is_punct (P "::") "::") with true. cbv iota. rewrite C. cbv zeta.
  replace (Bool.eqb _ (same c w)) with true.
  - cbn [app]. rewrite I. cbn [app] in B. rewrite B. reflexivity.
  - destruct ty as [ty|].
    + destruct (same c w) eqn:Q; [apply same_eq in Q; contradiction|reflexivity].
    + subst w. rewrite (proj2 (same_eq c c) eq_refl). reflexivity.
Qed.
Lemma no_initialiser b r : initialiser_of b ([] ++ P "{" :: r) = Some (None, P "{" :: r).
Proof. reflexivity. Qed.
Lemma base_initialiser w al r : keyword w = false -> (forall r, parens 0 (al ++ P ")" :: r) = Some (al, r)) -> initialiser_of true ((P ":" :: Word w :: P "(" :: al ++ [P ")"]) ++ P "{" :: r) = Some (Some (w, al), P "{" :: r).
Proof.
  intros K A. unfold initialiser_of. cbn [app expect]. change (is_punct (P ":") ":") with true. change (is_punct (P "(") "(") with true. cbv iota. unfold name_of. rewrite K. rewrite <- app_assoc. cbn [app]. change (expect "(" (P "(" :: al ++ P ")" :: P "{" :: r)) with (Some (al ++ P ")" :: P "{" :: r)). cbv iota. rewrite A. reflexivity.
Qed.
Section Types.
Variable env : dotnet.
Variable name_text : Z -> text.
Variable param_text : nat -> nat -> text.
Hypothesis GN : HeaderTextSpec.good_names name_text param_text.
Hypothesis AL : ascii_lower (IsLower env).
Notation ct := (ctype_for (IsLower env) name_text).
Notation tlex := (type_lex env name_text).
Lemma type_definition n t c q : writable t -> definition_of n (tlex t ++ Word c :: q) = rest_of n (Some (ct t)) (Word c :: q).
Proof.
  intros W. pose proof (wtype_of t W) as WT. rewrite <- (ctype_same env name_text t W). rewrite (ct_type env name_text t WT). unfold type_lex. cbn [app]. unfold definition_of.
  pose proof (marks_star (IsPointerType t) c q) as M. rewrite (type_read env name_text param_text GN AL t WT). destruct (IsPointerType t); cbn [app] in *; [change (is_punct (P "*") "::") with false|change (is_punct (Word c) "::") with false]; cbv iota; rewrite M; reflexivity.
Qed.
Lemma word_definition n w c q : type_word (Word w) = Some w -> definition_of n (Word w :: Word c :: q) = rest_of n (Some (mk_ctype w [])) (Word c :: q).
Proof. intros W. unfold definition_of. rewrite W. reflexivity. Qed.
Lemma ctor_definition n c q : definition_of n (Word c :: P "::" :: q) = rest_of n None (Word c :: P "::" :: q).
Proof. reflexivity. Qed.
End Types.
