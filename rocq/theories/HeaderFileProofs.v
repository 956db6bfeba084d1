(** * Lemmas for C113: namespaces and the whole header *)
From Coq Require Import String.
From Verif Require Import Tac Base FormatterModel FormatterSpec FormatterProofs TranslatorModel MemberModel LexSpec LexProofs BodyTextSpec BodyTextProofs BodyWriteProofs HeaderTextModel HeaderTextSpec HeaderTextProofs HeaderReadProofs HeaderMemberProofs HeaderClassProofs.
Import ListNotations.
Local Open Scope list_scope.

(** ** Fuel *)
Lemma classes_mono n : forall ls x, classes n ls = Some x -> forall m, (n <= m)%nat -> classes m ls = Some x.
Proof.
  induction n as [|n IH]; intros ls x H m L; [discriminate|]. destruct m as [|m]; [lia|]. cbn [classes] in *. destruct (expect "}" ls); [exact H|]. destruct (class_of ls) as [[c r]|]; [|exact H].
  destruct (classes n r) as [[cs r']|] eqn:E; [|discriminate]. rewrite (IH r _ E m) by lia. exact H.
Qed.
Lemma items_mono n : forall ls x, items n ls = Some x -> forall m, (n <= m)%nat -> items m ls = Some x.
Proof.
  induction n as [|n IH]; intros ls x H m L; [discriminate|]. destruct m as [|m]; [lia|]. cbn [items] in *. destruct ls as [|a [|b [|c r]]]; try exact H.
  assert (M : forall i q, match items n q with Some is => Some (i :: is) | None => None end = Some x -> match items m q with Some is => Some (i :: is) | None => None end = Some x).
  { intros i q. destruct (items n q) as [is|] eqn:E; [|discriminate]. rewrite (IH q _ E m) by lia. auto. }
  destruct (is_word a "namespace").
  - destruct (name_of b); [|exact H]. destruct (is_punct c "{"); [|exact H]. destruct (classes n r) as [[cs q]|] eqn:E; [|discriminate]. rewrite (classes_mono n r _ E m) by lia. apply M, H.
  - destruct (is_word a "using" && is_word b "namespace"); [|exact H]. destruct (name_of c); [|exact H]. destruct (expect ";" r); [|exact H]. apply M, H.
Qed.
(** ** Outside and inside of a namespace *)
Definition outside (ls : list lexeme) (its : list item) : Prop := forall n r is, items n r = Some is -> exists m, items m (ls ++ r) = Some (its ++ is).
Definition inside (v : list Z) (ls : list lexeme) (its : list item) (cs : list cclass) : Prop :=
  forall n r cs' r', classes n r = Some (cs', r') -> forall k is, items k r' = Some is -> exists m, items m (ls ++ r) = Some (its ++ Space v (cs ++ cs') :: is).
Lemma outside_nil : outside [] [].
Proof. intros n r is H. exists n. exact H. Qed.
Lemma outside_open v ls its : keyword v = false -> outside ls its -> inside v (ls ++ [Word (T "namespace"); Word v; P "{"]) its [].
Proof.
  intros K O n r cs' r' C k is I. rewrite <- app_assoc. cbn [app]. apply (O (Datatypes.S (n + k))). cbn [items]. change (is_word (Word (T "namespace")) "namespace") with true. cbv iota. unfold name_of. rewrite K.
  change (is_punct (P "{") "{") with true. cbv iota. rewrite (classes_mono _ _ _ C (n + k)) by lia. rewrite (items_mono _ _ _ I (n + k)) by lia. reflexivity.
Qed.
Lemma inside_class v ls its cs c cl : inside v ls its cs -> (forall r, class_of (cl ++ r) = Some (c, r)) -> (exists x l, cl = x :: l /\ is_punct x "}" = false) -> inside v (ls ++ cl) its (cs ++ [c]).
Proof.
  intros S C (x & l & E & N) n r cs' r' H k is I. rewrite <- !app_assoc. cbn [app]. eapply (S (Datatypes.S n) (cl ++ r) (c :: cs') r'); [|exact I].
  cbn [classes]. rewrite C, H. rewrite E. cbn [app expect]. rewrite N. reflexivity.
Qed.
Lemma inside_close v ls its cs : inside v ls its cs -> outside (ls ++ [P "}"]) (its ++ [Space v cs]).
Proof.
  intros S n r is I. rewrite <- !app_assoc. cbn [app]. specialize (S 1%nat (P "}" :: r) [] r eq_refl n is I). rewrite app_nil_r in S. exact S.
Qed.
Lemma outside_using v ls its : keyword v = false -> outside ls its -> outside (ls ++ [Word (T "using"); Word (T "namespace"); Word v; P ";"]) (its ++ [Using v]).
Proof.
  intros K O n r is I. rewrite <- !app_assoc. cbn [app]. apply (O (Datatypes.S n)). cbn [items]. change (is_word (Word (T "using")) "namespace") with false. change (is_word (Word (T "using")) "using" && is_word (Word (T "namespace")) "namespace") with true. cbv iota.
  unfold name_of. rewrite K. cbn [expect]. change (is_punct (P ";") ";") with true. cbv iota. rewrite I. reflexivity.
Qed.
Lemma outside_all ls its : outside ls its -> exists m, items m ls = Some its.
Proof. intros O. destruct (O 1%nat [] [] eq_refl) as (m & H). rewrite !app_nil_r in H. eauto. Qed.
(** ** Names of namespaces *)
Lemma space_same v : namespace_name v = space_name v.
Proof. destruct v; reflexivity. Qed.
Lemma space_word v : v = [] \/ word_text v -> word_text (space_name v).
Proof. intros [-> |W]; [split; [reflexivity|repeat constructor]|]. destruct v as [|c v]; [destruct W; contradiction|]. apply (word_app (c :: v)); [exact W|repeat constructor]. Qed.
Lemma space_keyword v : keyword (space_name v) = false.
Proof. destruct v as [|c v]; [reflexivity|]. apply (no_suffix (T "_NS") (c :: v)). reflexivity. Qed.
Lemma space_inj v w : space_name v = space_name w -> v = w.
Proof.
  unfold space_name. destruct v as [|a v], w as [|b w]; intros E; try reflexivity.
  - exfalso. apply (f_equal (@rev Z)) in E. rewrite rev_app_distr in E. discriminate.
  - exfalso. apply (f_equal (@rev Z)) in E. rewrite rev_app_distr in E. discriminate.
  - apply app_inv_tail in E. exact E.
Qed.
Section Env.
Variable env : dotnet.
Variable name_text : Z -> text.
Variable param_text : nat -> nat -> text.
Variable absent : absence.
Hypothesis NL : good_newline (nl env).
Hypothesis GN : HeaderTextSpec.good_names name_text param_text.
Hypothesis AL : ascii_lower (IsLower env).
Notation ict := (is_class_text env name_text param_text absent).
(** what has been written so far *)
Definition state (f : formatter) (ls : list lexeme) (done : list (list Z * cclass)) : Prop :=
  match nameSpace f with
  | None => indentLevel f = 0 /\ exists its, outside ls its /\ defined_in its = done /\ directives its = []
  | Some v => indentLevel f = 1 /\ exists its cs, inside v ls its cs /\ defined_in its ++ map (fun c => (v, c)) cs = done /\ directives its = []
  end.
Lemma defined_app a b : defined_in (a ++ b) = defined_in a ++ defined_in b.
Proof. apply flat_map_app. Qed.
Lemma directives_app a b : directives (a ++ b) = directives a ++ directives b.
Proof. apply flat_map_app. Qed.
Lemma close_state f ls done : state f ls done -> exists g tx la, CloseNamespace env f = Ret g /\ closed tx la /\ buffer g = buffer f ++ tx /\ nameSpace g = None /\ state g (ls ++ la) done.
Proof.
  unfold state, CloseNamespace. destruct (nameSpace f) as [v|] eqn:N.
  - intros (L & its & cs & I & D & X). destruct (close_step env NL false f) as (g & t & E & C & _ & B & Lg & Ng); [lia|lia|lia|]. rewrite E. cbn [bind]. eexists _, t, [P "}"]. split; [reflexivity|]. split; [exact C|]. split; [exact B|]. split; [reflexivity|].
    cbn [nameSpace set_namespace indentLevel]. split; [lia|]. exists (its ++ [Space v cs]). split; [apply inside_close, I|]. rewrite defined_app, directives_app, X. cbn. rewrite app_nil_r. auto.
  - intros (L & its & O & D & X). exists f, [], []. rewrite !app_nil_r. split; [reflexivity|]. split; [apply closed_nil|]. split; [reflexivity|]. split; [exact N|]. rewrite N. split; [exact L|]. exists its. auto.
Qed.
Lemma open_state f ls done v : v = [] \/ word_text v -> nameSpace f = None -> state f ls done ->
  exists g tx la, (let f := set_namespace f (Some (space_name v)) in AddOpenBrace env (Append (Append f namespace_text) (space_name v))) = Ret g /\ closed tx la /\ buffer g = buffer f ++ tx /\ nameSpace g = Some (space_name v) /\ state g (ls ++ la) done.
Proof.
  intros W N. unfold state. rewrite N. intros (L & its & O & D & X). destruct (open_step env NL (Append (Append (set_namespace f (Some (space_name v))) namespace_text) (space_name v))) as (g & t & E & C & S & B & Lg & Ng); [cbn; lia|cbn; lia|cbn; lia|].
  cbv zeta. rewrite E. exists g, (T "namespace" ++ T " " ++ space_name v ++ t), [Word (T "namespace"); Word (space_name v); P "{"]. split; [reflexivity|]. split; [|split; [|split]].
  - intros r lr Dr. rewrite <- !app_assoc. apply (word_space (T "namespace")); [split; [reflexivity|repeat constructor]|]. apply D_word; [apply space_word, W|apply starts_head, S|apply C, Dr].
  - rewrite B. cbn. repeat rewrite <- app_assoc. reflexivity.
  - exact Ng.
  - rewrite Ng. cbn [nameSpace Append set_namespace]. split; [rewrite Lg; cbn; lia|]. exists its, []. split; [apply outside_open; [apply space_keyword|exact O]|]. rewrite app_nil_r. auto.
Qed.
Lemma space_state f ls done v : v = [] \/ word_text v -> state f ls done -> exists g tx la, SetNamespace env f v = Ret g /\ closed tx la /\ buffer g = buffer f ++ tx /\ nameSpace g = Some (space_name v) /\ state g (ls ++ la) done.
Proof.
  intros W S. unfold SetNamespace. rewrite space_same. destruct (nameSpace f) as [o|] eqn:N.
  - destruct (text_eqb (space_name v) o) eqn:Q.
    + apply text_eqb_eq in Q. subst o. exists f, [], []. rewrite !app_nil_r. repeat split; [apply closed_nil|exact N|exact S].
    + destruct (close_state f ls done S) as (g & t & la & E & C & B & Ng & Sg). rewrite E. cbn [bind]. destruct (open_state g _ done v W Ng Sg) as (h & u & lb & E' & C' & B' & Nh & Sh). exists h, (t ++ u), (la ++ lb). split; [exact E'|]. split; [apply closed_app; assumption|]. rewrite B', B, <- app_assoc. split; [reflexivity|]. split; [exact Nh|]. rewrite app_assoc. exact Sh.
  - apply open_state; assumption.
Qed.
Lemma type_state f ls done t c : (t_space t = [] \/ word_text (t_space t)) -> ict t c -> state f ls done ->
  exists g tx la, HeaderTypeDeclaration_text env absent name_text param_text t f = Ret g /\ closed tx la /\ buffer g = buffer f ++ tx /\ state g (ls ++ la) (done ++ [(space_name (t_space t), c)]).
Proof.
  intros W (cl & R & H & X) S. destruct (space_state f ls done (t_space t) W S) as (g & tx & la & E & C & B & N & Sg). unfold HeaderTypeDeclaration_text. cbv zeta. rewrite E. cbn [bind].
  unfold state in Sg. rewrite N in Sg. destruct Sg as (L & its & cs & I & D & Q). destruct (X g L) as (h & u & E' & C' & B' & Lh & Nh). exists h, (tx ++ u), (la ++ cl). split; [exact E'|]. split; [apply closed_app; assumption|]. rewrite B', B, <- app_assoc. split; [reflexivity|].
  unfold state. rewrite Nh, N. split; [exact Lh|]. exists its, (cs ++ [c]). split; [rewrite app_assoc; apply inside_class; assumption|]. rewrite map_app, app_assoc. change (list Z) with text in *. rewrite D. auto.
Qed.
Lemma types_state l cs : Forall2 (fun t c => (t_space t = [] \/ word_text (t_space t)) /\ ict t c) l cs -> forall f ls done, state f ls done ->
  exists g tx la, types_text env absent name_text param_text l f = Ret g /\ closed tx la /\ buffer g = buffer f ++ tx /\ state g (ls ++ la) (done ++ map (fun p => (space_name (t_space (fst p)), snd p)) (combine l cs)).
Proof.
  intros F. induction F as [|t c l cs (W & X) F IH]; intros f ls done S.
  - exists f, [], []. rewrite !app_nil_r. repeat split; [apply closed_nil|exact S].
  - destruct (type_state f ls done t c W X S) as (g & tx & la & E & C & B & Sg). cbn [types_text]. rewrite E. cbn [bind]. destruct (IH g _ _ Sg) as (h & u & lb & E' & C' & B' & Sh). exists h, (tx ++ u), (la ++ lb).
    split; [exact E'|]. split; [apply closed_app; assumption|]. rewrite B', B, <- app_assoc. split; [reflexivity|]. rewrite <- app_assoc in Sh. rewrite <- app_assoc in Sh. exact Sh.
Qed.
Lemma using_ok d : Forall (fun v => v = [] \/ word_text v) d -> forall f ls its, outside ls its -> exists tx la, closed tx la /\ buffer (using_text env d f) = buffer f ++ tx /\ outside (ls ++ la) (its ++ map (fun v => Using (space_name v)) d).
Proof.
  intros F. induction F as [|v d W F IH]; intros f ls its O.
  - exists [], []. rewrite !app_nil_r. repeat split; [apply closed_nil|exact O].
  - cbn [using_text map]. set (g := AppendLine _ _ _). destruct (IH g _ _ (outside_using (space_name v) ls its (space_keyword v) O)) as (tx & la & C & B & O').
    exists ((T "using namespace " ++ space_name v ++ T ";" ++ nl env) ++ tx), ([Word (T "using"); Word (T "namespace"); Word (space_name v); P ";"] ++ la). split; [|split].
    + apply closed_app; [|exact C]. intros r lr Dr. change (T "using namespace ") with (T "using" ++ T " " ++ T "namespace" ++ T " "). rewrite <- !app_assoc. apply (word_space (T "using")); [split; [reflexivity|repeat constructor]|]. apply (word_space (T "namespace")); [split; [reflexivity|repeat constructor]|].
      cbn [app]. apply D_word; [apply space_word, W|split; [reflexivity|discriminate]|]. apply (closed_semi (nl env ++ r) lr). apply (closed_blanks (nl env)); [apply NL|exact Dr].
    + rewrite B. unfold g. destruct v as [|c v]; cbn [buffer AppendLine Newline Append space_name]; repeat (cbn [app]; rewrite <- ?app_assoc); reflexivity.
    + rewrite <- !app_assoc in O'. rewrite app_assoc in O'. rewrite <- app_assoc in O'. exact O'.
Qed.
(** ** The header *)
Lemma known_in v d : known v d = true <-> In v d.
Proof. unfold known. rewrite existsb_exists. split; [intros (x & H & E); apply text_eqb_eq in E; subst x; exact H|intros H; exists v; split; [exact H|apply text_eqb_refl]]. Qed.
Lemma ns_in l : forall d v, In v (namespaces_of l d) <-> In v d \/ exists t, In t l /\ t_space t = v.
Proof.
  induction l as [|t l IH]; intros d v; cbn [namespaces_of]; [split; [auto|intros [H|(t & [] & _)]; exact H]|]. rewrite IH.
  destruct (known (t_space t) d) eqn:K.
  - apply known_in in K. split.
    + intros [H|(u & H & E)]; [auto|right; exists u; cbn; auto].
    + intros [H|(u & [<- |H] & E)]; [auto|left; rewrite <- E; exact K|right; eauto].
  - rewrite in_app_iff. cbn. split.
    + intros [[H|[E|[]]]|(u & H & E)]; [auto|right; exists t; auto|right; exists u; auto].
    + intros [H|(u & [<- |H] & E)]; [auto|auto|right; eauto].
Qed.
Lemma ns_nodup l : forall d, NoDup d -> NoDup (namespaces_of l d).
Proof.
  induction l as [|t l IH]; intros d N; cbn [namespaces_of]; [exact N|]. apply IH. destruct (known (t_space t) d) eqn:K; [exact N|].
  assert (X : ~ In (t_space t) d) by (intros H; apply known_in in H; congruence). clear - N X. induction d as [|x d IH]; cbn; [constructor; auto; constructor|]. inversion N as [|? ? A B]; subst. constructor; [|apply IH; [exact B|intros H; apply X; right; exact H]].
  rewrite in_app_iff. cbn. intros [H|[H|[]]]; [contradiction|]. apply X. left. symmetry. exact H.
Qed.
(** ** What is declared is what is meant *)
Notation mm := (meant (IsLower env) name_text).
Notation ct := (ctype_of (IsLower env) name_text).
Notation mean := (meaning (IsLower env) name_text).
Lemma wtype_of t : writable t -> wtype t.
Proof. destruct t as [[] w n|e|[[] w n|e|e]]; cbn; auto. Qed.
Lemma wparams_of ps : writable_params ps -> wparams ps.
Proof. intros F. eapply Forall_impl; [|exact F]. intros p. apply wtype_of. Qed.
Lemma ctype_same t : writable t -> ct (FormatTypeDelaration t) = ctype_for (IsLower env) name_text t.
Proof. destruct t as [[] w n|e|[[] w n|e|e]]; cbn [writable]; intros W; try destruct W; reflexivity. Qed.
Lemma params_same ps : writable_params ps -> map ct (parameters ps) = map (param_for (IsLower env) name_text) ps.
Proof.
  intros F. unfold parameters. rewrite map_map. induction F as [|p ps W F IH]; [reflexivity|]. cbn [map]. rewrite IH. f_equal. unfold param_for. rewrite <- (ctype_same _ W). unfold ctype_of, VisitParameterDeclaration, AddParameterModifiers. cbn [base suffixes ct_name ct_marks].
  rewrite map_app. destruct (p_mod p); reflexivity.
Qed.
Lemma member_means cls m : readable absent m -> rmember m /\ exists ds, declare absent m = Ret ds /\ map (mm cls) ds = mean cls m.
Proof.
  intros R. destruct m as [mods r n ps body|mods ps b|mods ty n get set hidden|mods const ty names|op r ps b]; cbn [readable] in R; cbn [rmember declare meaning].
  - destruct R as (N & A & B & W & WP). split; [auto 10 using wtype_of, wparams_of|]. eexists. split; [reflexivity|]. cbn [map]. unfold meant. cbn [is_static is_virtual what ret name params option_map id_text]. rewrite has_static, has_virtual, (ctype_same r W), (params_same ps WP). destruct body; reflexivity.
  - destruct R as [R _]. split; [apply wparams_of, R|]. rewrite <- has_static. destruct (has MStatic mods); eexists; (split; [reflexivity|]).
    + cbn [map]. unfold meant, ctype_of. cbn [is_static is_virtual what ret name params option_map id_text boolean_type base suffixes map form_of_declared]. rewrite (boolean_spelled env name_text param_text GN AL). reflexivity.
    + cbn [map]. unfold meant. cbn [is_static is_virtual what ret name params option_map id_text form_of_declared]. rewrite (params_same ps R). reflexivity.
  - destruct R as (W & G & H). split; [apply wtype_of, W|]. destruct get as [|g]; [destruct G|]. cbn [body_of bind present]. eexists. split; [reflexivity|]. rewrite !map_app. f_equal; [|f_equal].
    + cbn [map]. unfold meant. cbn [is_static is_virtual what ret name params option_map id_text form_of_declared]. rewrite (ctype_same ty W). reflexivity.
    + assert (E : present absent set = match set with Body _ => true | Absent => false end). { destruct set; [|destruct absent; reflexivity]. cbn. destruct absent; [reflexivity|destruct (H eq_refl)]. }
      rewrite E. destruct set; [reflexivity|]. cbn [map value_param]. unfold meant. cbn [is_static is_virtual what ret name params option_map id_text form_of_declared map value_param]. rewrite (ctype_same ty W). unfold ctype_of. cbn [void_type base suffixes map]. rewrite (void_spelled env name_text param_text GN AL). reflexivity.
    + destruct hidden; [|reflexivity]. cbn [map]. unfold meant. cbn [is_static is_virtual what ret name params option_map id_text form_of_declared]. rewrite (ctype_same ty W). reflexivity.
  - destruct R as (NE & N0 & W & P1). split.
    + split; [exact N0|]. split; [apply wtype_of, W|]. destruct P1 as [L|Q]; [auto|right]. destruct ty as [[] w k|e|[[] w k|e|e]]; cbn in *; auto; try discriminate; contradiction.
    + destruct names as [|n names]; [congruence|]. eexists. split; [reflexivity|]. rewrite map_map. apply map_ext. intros k. unfold meant. cbn [is_static is_virtual what ret name params option_map id_text form_of_declared]. rewrite has_static, (ctype_same ty W). reflexivity.
  - destruct R as (WP & W & O). split; [split; [apply wparams_of, WP|destruct r as [[] [] n|e|e]; auto]|]. destruct r as [[] [] n|e|e]; try destruct W; cbn [VisitAstType bind]; destruct op; try destruct O; cbn [Operators bind]; eexists; (split; [reflexivity|]); cbn [map]; unfold meant; cbn [is_static is_virtual what ret name params option_map id_text form_of_declared]; rewrite (params_same ps WP); reflexivity.
Qed.
Lemma members_mean cls l : Forall (readable absent) l -> Forall rmember l /\ exists ds, declare_all absent l = Ret ds /\ map (mm cls) ds = flat_map (mean cls) l.
Proof.
  intros F. induction F as [|m l R F (A & ds & D & M)]; [split; [constructor|exists []; auto]|]. destruct (member_means cls m R) as (B & d & Dm & Mm). split; [constructor; assumption|]. cbn [declare_all flat_map]. rewrite Dm. cbn [bind]. rewrite D. cbn [bind]. eexists. split; [reflexivity|]. rewrite map_app, Mm, M. reflexivity.
Qed.
Lemma default_same l : Forall (readable absent) l -> (existsb static_ctor l = true -> existsb is_ctor l = true -> existsb takes_nothing l = true) ->
  existsb is_constructor l && negb (existsb no_parameters l) = existsb is_ctor l && negb (existsb takes_nothing l).
Proof.
  intros F. destruct (existsb static_ctor l) eqn:Q; intros H.
  - assert (N : existsb no_parameters l = true).
    { apply existsb_exists in Q. destruct Q as (m & I & Q). apply existsb_exists. exists m. split; [exact I|]. rewrite Forall_forall in F. specialize (F m I). destruct m; try discriminate. cbn in *. destruct F as [_ F]. rewrite (F Q). reflexivity. }
    rewrite N, andb_false_r. destruct (existsb is_ctor l); [rewrite H by reflexivity; reflexivity|reflexivity].
  - clear F H. assert (X : existsb is_constructor l = existsb is_ctor l /\ existsb no_parameters l = existsb takes_nothing l).
    { induction l as [|m l IH]; [auto|]. cbn [existsb] in *. apply orb_false_iff in Q. destruct Q as [Q1 Q2]. destruct (IH Q2) as [-> ->]. destruct m; auto. cbn in *. rewrite Q1. destruct ps; auto. }
    destruct X as [-> ->]. reflexivity.
Qed.
Lemma class_means t : well_formed absent (t_space t) (t_bases t) (t_class t) -> ict t (class_for (IsLower env) name_text (t_class t) (t_bases t)).
Proof.
  intros (_ & C & Z & F & DC). destruct (members_mean (c_name (t_class t)) _ F) as (R & ds & D & M).
  assert (H : exists es, HeaderTypeDeclaration absent (t_class t) = Ret (ds ++ es) /\ map (mm (c_name (t_class t))) es = default_constructor (IsLower env) name_text (t_class t)).
  { unfold HeaderTypeDeclaration, default_constructor. rewrite D. cbn [bind]. eexists. split; [reflexivity|]. destruct (c_kind (t_class t)); cbn [is_struct_kind andb]; try reflexivity. rewrite (default_same _ F (DC eq_refl)). destruct (existsb is_ctor _ && _); reflexivity. }
  destruct H as (es & H & E). pose proof (class_text env name_text param_text absent NL GN AL t _ (conj C (conj Z R)) H) as X. unfold meant_class in X. rewrite map_app, M, E in X. exact X.
Qed.
Lemma header_read ts : Forall (fun t => well_formed absent (t_space t) (t_bases t) (t_class t)) ts -> forall f, indentLevel f = 0 -> nameSpace f = None ->
  let shown := filter is_struct_decl ts ++ filter is_class_decl ts in
  exists g t spaces, header_text env absent name_text param_text ts f = Ret g /\
    buffer g = buffer f ++ T "#pragma once" ++ nl env ++ T "#include ""TranslatedProtos.h""" ++ nl env ++ t /\
    read_as_header t (spaces ++ map (fun v => Using (space_name v)) (namespaces_of shown [])) /\
    directives spaces = [] /\ defined_in spaces = map (fun t => (space_name (t_space t), class_for (IsLower env) name_text (t_class t) (t_bases t))) shown.
Proof.
  intros F f L N shown. unfold header_text. fold shown. set (f0 := AppendLine _ _ _).
  assert (B0 : buffer f0 = buffer f ++ T "#pragma once" ++ nl env ++ T "#include ""TranslatedProtos.h""" ++ nl env) by (unfold f0; cbn; repeat rewrite <- app_assoc; cbn; repeat rewrite <- app_assoc; reflexivity).
  assert (S0 : state f0 [] []). { unfold state. change (nameSpace f0) with (nameSpace f). rewrite N. split; [exact L|]. exists []. repeat split. apply outside_nil. }
  set (cl := fun t => class_for (IsLower env) name_text (t_class t) (t_bases t)).
  assert (X : forall p, Forall2 (fun t c => (t_space t = [] \/ word_text (t_space t)) /\ ict t c) (filter p ts) (map cl (filter p ts))).
  { intros p. clear - F NL GN AL. induction F as [|t ts W F IH]; [constructor|]. cbn [filter]. destruct (p t); [|exact IH]. cbn [map]. constructor; [|exact IH]. split; [apply W|apply class_means, W]. }
  destruct (types_state _ _ (X is_struct_decl) f0 [] [] S0) as (f1 & t1 & l1 & E1 & C1 & B1 & S1). rewrite E1. cbn [bind].
  destruct (types_state _ _ (X is_class_decl) f1 _ _ S1) as (f2 & t2 & l2 & E2 & C2 & B2 & S2). rewrite E2. cbn [bind].
  destruct (close_state f2 _ _ S2) as (f3 & t3 & l3 & E3 & C3 & B3 & N3 & S3). rewrite E3. cbn [bind].
  unfold state in S3. rewrite N3 in S3. destruct S3 as (L3 & its & O & D & Q).
  assert (W : Forall (fun v => v = [] \/ word_text v) (namespaces_of shown [])).
  { apply Forall_forall. intros v H. apply ns_in in H. destruct H as [[]|(t & H & <-)]. rewrite Forall_forall in F. unfold shown in H. apply in_app_iff in H. destruct H as [H|H]; apply filter_In in H; apply F, H. }
  destruct (using_ok _ W f3 _ its O) as (t4 & l4 & C4 & B4 & O4). eexists _, (t1 ++ t2 ++ t3 ++ t4), its. split; [reflexivity|]. split; [|split; [|split]].
  - rewrite B4, B3, B2, B1, B0. repeat rewrite <- app_assoc. reflexivity.
  - destruct (outside_all _ _ O4) as (m & M). exists ((((([] ++ l1) ++ l2) ++ l3) ++ l4)), m. split; [|exact M].
    assert (C : closed (t1 ++ t2 ++ t3 ++ t4) (l1 ++ l2 ++ l3 ++ l4)) by (repeat (apply closed_app; [assumption|]); assumption).
    specialize (C [] [] D_nil). rewrite !app_nil_r in C. cbn [app]. repeat rewrite <- app_assoc. exact C.
  - exact Q.
  - rewrite D. cbn [app]. assert (Y : forall l, map (fun p => (space_name (t_space (fst p)), snd p)) (combine l (map cl l)) = map (fun t => (space_name (t_space t), cl t)) l) by (induction l as [|t l IH]; [reflexivity|]; cbn; rewrite IH; reflexivity).
    rewrite !Y, <- map_app. reflexivity.
Qed.
End Env.
