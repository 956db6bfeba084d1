(** * Lemmas for C113: the characters of the header and their lexemes *)
From Coq Require Import String.
From Verif Require Import Tac Base MemModel IntModel IntProofs FormatterModel FormatterSpec FormatterProofs FormatterProperties TranslatorModel TranslatorProperties MemberModel LexSpec LexProofs BodyTextSpec BodyWriteProofs HeaderTextModel HeaderTextSpec.
Import ListNotations.
Local Open Scope list_scope.

(** ** The declarations of MemberModel.v in C++ *)
Section Meant.
Variable lower : Z -> bool.
Variable name_text : Z -> list Z.
Notation spelled := (spelled lower).
Definition mark_of (s : suffix) : mark := match s with Star => Pointer | Amp => Reference end.
Definition ctype_of (t : cpp_type) : ctype :=
  mk_ctype (match base t with CName n => spelled (name_text n) | CArray => T "Array" | CBrackets _ => [] end) (map mark_of (suffixes t)).
Definition id_text (cls : Z) (i : cpp_id) : list Z :=
  match i with
  | Id n => spelled (name_text n) | Getter n => T "get_" ++ name_text n | Setter n => T "set_" ++ name_text n | Backing n => name_text n ++ T "k__BackingField"
  | Ctor => spelled (name_text cls) | StaticInit => spelled (name_text cls) ++ T "_Static" | Initialised => spelled (name_text cls) ++ T "_Initilized"
  | Op o => match o with Addition => T "op_Addition" | Subtraction => T "op_Subtraction" | BitwiseAnd => T "op_BitwiseAnd" | OtherOperator _ => [] end
  end.
(** a declaration of MemberModel.v in C++ *)
Definition form_of_declared (w : form) : cform := match w with Prototype => Declaration | Pure => PureVirtual | Inline => EmptyBody | Variable_ => Data end.
Definition meant (cls : Z) (d : declared) : cmember :=
  mk_cmember Public (is_static d) (is_virtual d) (form_of_declared (what d)) (option_map ctype_of (ret d)) (id_text cls (MemberModel.name d)) (map ctype_of (params d)).
End Meant.
(** what the lemmas need *)
Definition wtype (t : cs_type) : Prop := match t with ByReference (Named _ _ _) => True | ByReference _ => False | _ => True end.
Definition wparams (ps : list param) : Prop := Forall (fun p => wtype (p_type p)) ps.
Definition plike (t : cs_type) : bool := match t with Named KClass _ _ | ArrayOf _ => true | ByReference (Named KStruct _ _) => false | ByReference _ => true | _ => false end.
Definition rmember (m : member) : Prop :=
  match m with
  | Method mods r n ps _ => n <> 0 /\ (count says_static mods <= 1)%nat /\ (count says_virtual mods <= 1)%nat /\ wtype r /\ wparams ps
  | Constructor mods ps _ => wparams ps
  | Property mods ty n get set hidden => wtype ty
  | Field mods const ty names => ~ In 0 names /\ wtype ty /\ (length names = 1%nat \/ plike ty = false)
  | Operator op r ps _ => wparams ps /\ match r with Named _ false _ => True | _ => False end
  end.

(** ** Words that are no keywords *)
Lemma same_eq a : forall b, same a b = true <-> a = b.
Proof. induction a as [|x a IH]; intros [|y b]; cbn [same]; try (split; congruence). rewrite andb_true_iff, Z.eqb_eq, IH. split; [intros [-> ->]; reflexivity|intros E; injection E as -> ->; auto]. Qed.
Lemma keyword_in w : keyword w = true <-> In w keywords.
Proof. unfold keyword. rewrite existsb_exists. split; [intros (x & H & E); apply same_eq in E; subst x; exact H|intros H; exists w; split; [exact H|apply same_eq; reflexivity]]. Qed.
Fixpoint prefix (p w : list Z) : bool := match p, w with [], _ => true | a :: p, b :: w => (a =? b) && prefix p w | _, [] => false end.
Lemma prefix_app p w : prefix p (p ++ w) = true.
Proof. induction p as [|a p IH]; [reflexivity|]. cbn. rewrite Z.eqb_refl. exact IH. Qed.
Lemma no_prefix p w : forallb (fun k => negb (prefix p k)) keywords = true -> keyword (p ++ w) = false.
Proof. intros H. destruct (keyword (p ++ w)) eqn:E; [|reflexivity]. apply keyword_in in E. rewrite forallb_forall in H. specialize (H _ E). rewrite prefix_app in H. discriminate. Qed.
Lemma no_suffix s w : forallb (fun k => negb (prefix (rev s) (rev k))) keywords = true -> keyword (w ++ s) = false.
Proof. intros H. destruct (keyword (w ++ s)) eqn:E; [|reflexivity]. apply keyword_in in E. rewrite forallb_forall in H. specialize (H _ E). rewrite rev_app_distr, prefix_app in H. discriminate. Qed.

(** ** What a step writes *)
Definition says (m : formatter -> outcome formatter) (lvl : Z) (t : text) : Prop :=
  forall f, indentLevel f = lvl -> exists g, m f = Ret g /\ buffer g = buffer f ++ t /\ indentLevel g = lvl /\ nameSpace g = nameSpace f.
Lemma says_bind m k l t u : says m l t -> says k l u -> says (fun f => g <- m f ;; k g) l (t ++ u).
Proof.
  intros M K f L. destruct (M f L) as (g & E & B & Lg & N). destruct (K g Lg) as (h & E' & B' & Lh & N'). exists h. rewrite E. cbn [bind]. split; [exact E'|]. rewrite B', B, <- app_assoc, N', N. auto.
Qed.
Lemma says_pure (h : formatter -> formatter) l t : (forall f, buffer (h f) = buffer f ++ t /\ indentLevel (h f) = indentLevel f /\ nameSpace (h f) = nameSpace f) -> says (fun f => Ret (h f)) l t.
Proof. intros H f L. exists (h f). destruct (H f) as (A & B & C). rewrite B. auto. Qed.
Lemma says_ret l : says (fun f => Ret f) l [].
Proof. apply says_pure. intros f. rewrite app_nil_r. auto. Qed.
Lemma says_append d l : says (fun f => Ret (Append f d)) l d.
Proof. apply says_pure. auto. Qed.
Lemma says_after (h : formatter -> formatter) m l t u : (forall f, buffer (h f) = buffer f ++ t /\ indentLevel (h f) = indentLevel f /\ nameSpace (h f) = nameSpace f) -> says m l u -> says (fun f => m (h f)) l (t ++ u).
Proof. intros H M. apply (says_bind (fun f => Ret (h f)) m); [apply says_pure, H|exact M]. Qed.
Lemma says_ext m k l t : (forall f, m f = k f) -> says k l t -> says m l t.
Proof. intros E K f L. rewrite E. apply K, L. Qed.
Lemma says_indented d l : 0 <= l <= 22 -> says (fun f => AppendIndented f d) l (repeat c_tab (Z.to_nat l) ++ d).
Proof.
  intros H f L. unfold AppendIndented. rewrite Indent_in by (rewrite L; exact H). cbn [bind]. eexists. split; [reflexivity|]. cbn. rewrite <- app_assoc, L. auto.
Qed.
Section Env.
Variable env : dotnet.
Variable name_text : Z -> text.
Variable param_text : nat -> nat -> text.
Variable absent : absence.
Hypothesis NL : good_newline (nl env).
Hypothesis GN : HeaderTextSpec.good_names name_text param_text.
Hypothesis AL : ascii_lower (IsLower env).
Notation sp := (spelled (IsLower env)).
Lemma says_line d l : says (fun f => Ret (AppendLine env f d)) l (d ++ nl env).
Proof. apply says_pure. intros f. cbn. rewrite <- app_assoc. auto. Qed.
(** ** Names *)
Lemma same_text a b : same a b = text_eqb a b.
Proof. destruct (text_eqb a b) eqn:E; [apply text_eqb_eq in E; subst; apply same_eq; reflexivity|]. destruct (same a b) eqn:S; [|reflexivity]. apply same_eq in S. subst. rewrite text_eqb_refl in E. discriminate. Qed.
Lemma mangle_spelled n : n <> [] -> mangle env n = Ret (sp n).
Proof.
  intros N. unfold mangle, PrefixName, spelled. destruct n as [|c n]; [congruence|]. rewrite !same_text. change this_text with (T "this"). change Void_text with (T "Void"). change void_text with (T "void"). change Prefix with (T "x_").
  set (w := c :: n). destruct (IsLower env c && negb (text_eqb w (T "this"))); cbn [bind]; [|reflexivity]. replace (text_eqb (T "x_" ++ w) (T "Void")) with false; [reflexivity|]. symmetry. apply not_true_is_false. intros X. apply text_eqb_eq in X. discriminate.
Qed.
Lemma says_name n l : n <> [] -> says (fun f => AppendName env f n) l (sp n).
Proof. intros N. unfold AppendName. rewrite (mangle_spelled n N). cbn [bind]. apply says_append. Qed.
Lemma word_nonempty w : word_text w -> w <> [].
Proof. intros [H _] ->. exact H. Qed.
Lemma spelled_word n : word_text n -> word_text (sp n).
Proof.
  intros W. pose proof W as [H F]. destruct n as [|c n]; [contradiction|]. unfold spelled. destruct (IsLower env c && _); [split; [reflexivity|]; apply Forall_app; split; [repeat constructor|exact F]|].
  destruct (same (c :: n) (T "Void")); [split; [reflexivity|repeat constructor]|exact W].
Qed.
Lemma spelled_keyword n : word_text n -> n <> T "this" -> n <> T "Void" -> keyword (sp n) = false.
Proof.
  intros W N V. destruct (keyword (sp n)) eqn:E; [|reflexivity]. exfalso. apply keyword_in in E. pose proof (mangle_spelled n (word_nonempty n W)) as M.
  pose proof (C55_no_keyword env (proj1 AL) n _ M E) as X. destruct n as [|c n]; [destruct W; contradiction|]. clear M E W. unfold spelled in X.
  destruct (same (c :: n) (T "this")) eqn:S1; [apply same_eq in S1; contradiction|]. destruct (same (c :: n) (T "Void")) eqn:S2; [apply same_eq in S2; contradiction|].
  destruct (IsLower env c) eqn:L; cbn [andb negb] in X; [destruct X; discriminate|]. destruct X as [X|X]; [contradiction|]. injection X as -> ->. rewrite (proj1 AL) in L by lia. discriminate.
Qed.
Lemma name_word n : word_text (name_text n). Proof. apply GN. Qed.
Lemma cname_word n : word_text (sp (name_text n)). Proof. apply spelled_word, name_word. Qed.
Lemma cname_keyword n : n <> 0 -> keyword (sp (name_text n)) = false.
Proof. intros H. destruct GN as (_ & _ & G & _). destruct (G n) as (W & N & V). apply spelled_keyword; [exact W|exact N|]. intros E. exact (H (V E)). Qed.
Lemma pname_word k j : word_text (sp (param_text k j)). Proof. apply spelled_word, GN. Qed.
Lemma pname_keyword k j : keyword (sp (param_text k j)) = false.
Proof. destruct GN as (_ & _ & _ & G). destruct (G k j) as (W & N & V). apply spelled_keyword; assumption. Qed.
Lemma void_spelled : sp (name_text 0) = T "void".
Proof. destruct GN as (-> & _). unfold spelled. cbn [T]. rewrite (proj2 AL) by (cbn; lia). reflexivity. Qed.
Lemma boolean_spelled : sp (name_text 1) = T "Boolean".
Proof. destruct GN as (_ & -> & _). unfold spelled. cbn [T]. rewrite (proj2 AL) by (cbn; lia). reflexivity. Qed.
Lemma type_word_name n : type_word (Word (sp (name_text n))) = Some (sp (name_text n)).
Proof. unfold type_word. destruct (Z.eq_dec n 0) as [-> |H]; [rewrite void_spelled; reflexivity|]. rewrite cname_keyword by exact H. reflexivity. Qed.

(** ** Types *)
Definition star (t : cs_type) : text := if IsPointerType t then T "*" else [].
Definition type_name_text (t : cs_type) : text := match t with ArrayOf _ => T "Array" | Named _ _ n | ByReference (Named _ _ n) => sp (name_text n) | ByReference _ => [] end.
Definition type_chars (t : cs_type) : text := type_name_text t ++ star t.
Lemma itype_nonempty t : itype_name name_text t <> [].
Proof. destruct t as [k w n|e|e]; cbn; [apply word_nonempty, name_word| |]; destruct (itype_name name_text e); discriminate. Qed.
Lemma sub_ref a : Substring (a ++ T "&") 0 (zlen (a ++ T "&") - 1) = Ret a.
Proof.
  unfold Substring. rewrite zlen_app. change (zlen (T "&")) with 1. pose proof (zlen_nonneg a). replace (zlen a + 1 - 1) with (zlen a) by lia. replace ((0 <? 0) || (zlen a <? 0) || (zlen a + 1 <? 0 + zlen a)) with false by lia.
  cbn [throw_if bind]. unfold take, drop, zlen. cbn [Z.to_nat skipn]. rewrite Nat2Z.id, firstn_app, firstn_all, Nat.sub_diag. cbn [firstn]. rewrite app_nil_r. reflexivity.
Qed.
Lemma says_type t l : wtype t -> says (FormatTypeDelaration_text env name_text t) l (type_chars t).
Proof.
  intros W. unfold FormatTypeDelaration_text, type_chars. apply (says_bind (FormatType_text env name_text t) (fun f => Ret (if IsPointerType t then Append f (T "*") else f))).
  2:{ unfold star. destruct (IsPointerType t); [apply says_append|apply says_ret]. }
  unfold FormatType_text. destruct t as [k w n|e|e].
  - cbn [itype_name bind]. apply (says_name (name_text n)), word_nonempty, name_word.
  - cbn [bind]. intros f L. destruct (says_name (T "Array") l ltac:(discriminate) f L) as (g & E & B & R). exists g. split; [exact E|]. rewrite B. split; [|exact R]. f_equal. unfold spelled. cbn [T]. rewrite (proj2 AL) by (cbn; lia). reflexivity.
  - destruct e as [k w n|e|e]; [|destruct W|destruct W]. cbn [itype_name]. rewrite sub_ref. cbn [bind]. apply (says_name (name_text n)), word_nonempty, name_word.
Qed.

(** ** Lists and parameters *)
Fixpoint list_text {A} (tx : nat -> A -> text) (k : nat) (first : bool) (l : list A) : text :=
  match l with [] => [] | a :: l => (if negb first then T "," else []) ++ tx k a ++ list_text tx (S k) false l end.
Lemma says_list {A} (each : nat -> A -> formatter -> outcome formatter) tx lvl l : (forall k a, In a l -> says (each k a) lvl (tx k a)) -> forall k first, says (WriteCommaSeparatedList each k first l) lvl (list_text tx k first l).
Proof.
  induction l as [|a l IH]; intros H k first; [apply says_ret|]. intros f L. cbn [WriteCommaSeparatedList list_text].
  destruct (H k a (or_introl eq_refl) (if negb first then Append f (T ",") else f)) as (g & E & B & Lg & N); [destruct first; exact L|]. rewrite E. cbn [bind].
  destruct (IH (fun k a I => H k a (or_intror I)) (S k) false g Lg) as (h & E' & B' & Lh & N'). exists h. split; [exact E'|]. rewrite B', B, N', N. destruct first; cbn [negb buffer Append nameSpace]; rewrite <- ?app_assoc; auto.
Qed.
Definition mod_text (p : param) : text := match p_mod p with PRef => T "& " | POut => T "* " | _ => [] end.
Definition param_chars (k j : nat) (p : param) : text := type_chars (p_type p) ++ mod_text p ++ T " " ++ sp (param_text k j).
Lemma says_param k j p l : wtype (p_type p) -> says (VisitParameterDeclaration_text env name_text param_text k j p) l (param_chars k j p).
Proof.
  intros W f L. unfold VisitParameterDeclaration_text, param_chars. destruct (says_type _ l W f L) as (g & E & B & Lg & N). rewrite E. cbn [bind].
  destruct (says_name (param_text k j) l (word_nonempty _ (proj1 ((proj2 (proj2 (proj2 GN))) k j))) (Append (AddParameterModifiers_text p g) (T " "))) as (h & E' & B' & Lh & N').
  { unfold AddParameterModifiers_text. destruct (p_mod p); exact Lg. }
  exists h. split; [exact E'|]. unfold mod_text. unfold AddParameterModifiers_text in B', N'. destruct (p_mod p); cbn [buffer Append nameSpace] in B', N'; rewrite B', N', B, <- !app_assoc; auto.
Qed.
Definition params_chars (k : nat) (ps : list param) : text := T "(" ++ list_text (param_chars k) 0 true ps ++ T ")".
Lemma says_params k ps l : wparams ps -> says (WriteCommaSeparatedListInParenthesis (VisitParameterDeclaration_text env name_text param_text k) ps) l (params_chars k ps).
Proof.
  intros W f L. unfold WriteCommaSeparatedListInParenthesis, params_chars.
  destruct (says_list (VisitParameterDeclaration_text env name_text param_text k) (param_chars k) l ps) with (k := 0%nat) (first := true) (f := Append f (T "(")) as (g & E & B & Lg & N).
  - intros j p I. apply says_param. exact (proj1 (Forall_forall _ _) W p I).
  - exact L.
  - rewrite E. cbn [bind]. eexists. split; [reflexivity|]. cbn [buffer Append indentLevel nameSpace] in *. rewrite B, <- !app_assoc. auto.
Qed.
Definition names_chars (l : list Z) : text := list_text (fun _ n => sp (name_text n)) 0 true l.
Lemma says_names lvl l : says (WriteCommaSeparatedList (fun _ n f => AppendName env f (name_text n)) 0 true l) lvl (names_chars l).
Proof. apply says_list. intros k n _. apply says_name, word_nonempty, name_word. Qed.
(** ** Members *)
Fixpoint mods_chars (l : list modifier) : text :=
  match l with [] => [] | m :: l => (if says_static m then T "static " else if says_virtual m then T "virtual " else []) ++ mods_chars l end.
Lemma says_mods l : forall f, buffer (WriteModifiers_text l f) = buffer f ++ mods_chars l /\ indentLevel (WriteModifiers_text l f) = indentLevel f /\ nameSpace (WriteModifiers_text l f) = nameSpace f.
Proof.
  induction l as [|m l IH]; intros f; cbn [WriteModifiers_text mods_chars]; [rewrite app_nil_r; auto|].
  destruct m; cbn [says_static says_virtual]; match goal with |- context [WriteModifiers_text l ?h] => destruct (IH h) as (A & B & C); rewrite A; split; [cbn [buffer Append app]; rewrite <- ?app_assoc; reflexivity|split; [exact B|exact C]] end.
Qed.
Definition op_chars (o : operator_type) : text := match o with Addition => T "op_Addition" | Subtraction => T "op_Subtraction" | BitwiseAnd => T "op_BitwiseAnd" | OtherOperator _ => [] end.
Definition eol : text := T ";" ++ nl env.
Variable lvl : Z.
Hypothesis LV : 0 <= lvl <= 22.
Definition tab : text := repeat c_tab (Z.to_nat lvl).
Definition hidden_chars (n : Z) : text := name_text n ++ T "k__BackingField".
Lemma hidden_same n : hidden_text name_text n = hidden_chars n.
Proof.
  unfold hidden_text, hidden_chars. pose proof (name_word n) as [_ F]. apply (ReplaceSpecial_backing (name_text n)); intros I; pose proof (proj1 (Forall_forall _ _) F _ I) as X; discriminate.
Qed.
(** the lines of a member *)
Definition member_lines (cls : Z) (k : nat) (m : member) : list text :=
  match m with
  | Method mods r n ps body => [mods_chars mods ++ type_chars r ++ T " " ++ sp (name_text n) ++ params_chars k ps ++ match body with None => T " = 0" | _ => [] end]
  | Constructor mods ps _ => if has MStatic mods then [T "static Boolean " ++ sp (name_text cls) ++ T "_Static()"; T "static Boolean " ++ sp (name_text cls) ++ T "_Initilized"] else [sp (name_text cls) ++ params_chars k ps]
  | Field mods const ty names => [(if is_static_field mods const then T "static " else []) ++ type_chars ty ++ T " " ++ names_chars names]
  | Property mods ty n get set hidden =>
      (if present absent get then [type_chars ty ++ T " get_" ++ name_text n ++ T "()"] else []) ++
      (if present absent set then [T "void set_" ++ name_text n ++ T "(" ++ type_chars ty ++ T " x_value )"] else []) ++
      (if hidden then [type_chars ty ++ T " " ++ hidden_chars n] else [])
  | Operator op r ps _ => [T "static " ++ match r with Named _ _ n => sp (name_text n) | _ => [] end ++ T " " ++ op_chars op ++ params_chars k ps]
  end.
Definition lines (l : list text) : text := flat_map (fun t => tab ++ t ++ eol) l.
Ltac use H := let g := fresh "g" in let E := fresh "E" in let B := fresh "B" in let L := fresh "L" in let N := fresh "N" in
  destruct H as (g & E & B & L & N); rewrite E; cbn [bind].
Ltac tidy := unfold tab, eol; repeat (progress (rewrite ?app_nil_r; cbn [app]; repeat rewrite <- app_assoc)).
Ltac fin := eexists; split; [reflexivity|]; cbn [buffer Append AppendLine Newline indentLevel nameSpace lines flat_map app] in *;
  repeat match goal with B : buffer _ = _ |- _ => rewrite B; clear B end; tidy; split; [reflexivity|split; [assumption|]]; congruence.
Lemma lines_app a b : lines (a ++ b) = lines a ++ lines b.
Proof. apply flat_map_app. Qed.
Definition nothing (cls : Z) (k : nat) (m : member) (f : formatter) : Prop := exists x, member_text env absent name_text param_text cls k m f = Exn x.
Lemma present_hidden (get : accessor) : (exists x, body_of get = Exn x) \/ (exists b, get = Body b /\ body_of get = Ret b).
Proof. destruct get; [left|right]; eexists; [|split]; reflexivity. Qed.
Lemma says_member cls k m : rmember m -> forall ds, declare absent m = Ret ds -> says (member_text env absent name_text param_text cls k m) lvl (lines (member_lines cls k m)).
Proof.
  intros R ds D f L. destruct m as [mods r n ps body|mods ps b|mods ty n get set hidden|mods const ty names|op r ps b]; cbn [rmember] in R; cbn [member_text member_lines].
  - destruct R as (N0 & _ & _ & W & WP). use (says_indented [] lvl LV f L). destruct (says_mods mods g) as (B1 & L1 & N1). 
    use (says_type r lvl W (WriteModifiers_text mods g) (eq_trans L1 L0)). unfold WriteMethodHeader_text. use (says_name (name_text n) lvl (word_nonempty _ (name_word n)) (Append g0 (T " ")) L2). use (says_params k ps lvl WP g1 L3). 
    rewrite B1, B in B0. destruct body; fin.
  - use (says_indented [] lvl LV f L). destruct (has MStatic mods) eqn:S; cbn [negb].
    + use (says_name (name_text cls) lvl (word_nonempty _ (name_word cls)) (Append g (T "static Boolean ")) L0). use (says_indented (T "static Boolean ") lvl LV (AppendLine env g0 (T "_Static();")) L1). use (says_name (name_text cls) lvl (word_nonempty _ (name_word cls)) g1 L2).
      cbn [buffer AppendLine Newline Append] in B1. eexists; split; [reflexivity|]; cbn [buffer Append AppendLine Newline indentLevel nameSpace lines flat_map app] in *. rewrite B2, B1, B0, B. tidy. split; [reflexivity|]. split; [assumption|congruence].
    + unfold WriteMethodHeader_text. use (says_name (name_text cls) lvl (word_nonempty _ (name_word cls)) g L0). use (says_params k ps lvl R g0 L1). fin.
  - (* property *)
    cbn [declare] in D. destruct (present_hidden get) as [(x & X)|(b & -> & X)]; [rewrite X in D; discriminate D|]. clear D. change (present absent (Body b)) with true. cbv iota.
    assert (G : says (fun f => f <- AppendIndented f [] ;; f <- FormatTypeDelaration_text env name_text ty f ;; Ret (AppendLine env (Append (Append f (T " get_")) (name_text n)) (T "();"))) lvl (tab ++ type_chars ty ++ T " get_" ++ name_text n ++ T "();" ++ nl env)).
    { intros f' L'. use (says_indented [] lvl LV f' L'). use (says_type ty lvl R g L0). fin. }
    assert (H : says (fun f => f <- AppendIndented f (T "void set_") ;; f <- FormatTypeDelaration_text env name_text ty (Append (Append f (name_text n)) (T "(")) ;; Ret (AppendLine env f (T " x_value );"))) lvl (tab ++ T "void set_" ++ name_text n ++ T "(" ++ type_chars ty ++ T " x_value );" ++ nl env)).
    { intros f' L'. use (says_indented (T "void set_") lvl LV f' L'). use (says_type ty lvl R (Append (Append g (name_text n)) (T "(")) L0). fin. }
    use (G f L). destruct (present absent set).
    + use (H g L0). rewrite X. cbn [bind]. destruct hidden; [|cbn [lines]; fin].
      use (says_indented [] lvl LV g0 L1). use (says_type ty lvl R g1 L2). rewrite hidden_same. fin.
    + rewrite X. cbn [bind]. destruct hidden; [|fin]. use (says_indented [] lvl LV g L0). use (says_type ty lvl R g0 L1). rewrite hidden_same. fin.
  - destruct R as (N0 & W & _). destruct names as [|n0 names]; [discriminate D|]. use (says_indented [] lvl LV f L). 
    use (says_type ty lvl W (if is_static_field mods const then Append g (T "static ") else g) ltac:(destruct (is_static_field mods const); exact L0)).
    use (says_names lvl (n0 :: names) (Append g0 (T " ")) L1). destruct (is_static_field mods const); fin.
  - destruct R as (WP & W). use (says_indented (T "static ") lvl LV f L). destruct r as [kd [] n|e|e]; try destruct W. cbn [VisitAstType_text].
    use (says_name (name_text n) lvl (word_nonempty _ (name_word n)) g L0). destruct op; cbn [Operators_text bind op_chars]; try discriminate D;
    match goal with |- context [WriteCommaSeparatedListInParenthesis _ ps ?h] => use (says_params k ps lvl WP h L1) end; fin.
Qed.

(** ** Lexemes *)
Ltac word := split; [reflexivity|repeat constructor].
Definition ends (t : list Z) (ls : list lexeme) : Prop := forall r lr, head_is after_word r -> divided r lr -> divided (t ++ r) (ls ++ lr).
Definition starts (t : list Z) : Prop := match t with [] => False | c :: _ => after_word c end.
Lemma ends_word w : word_text w -> ends w [Word w].
Proof. intros W r lr H D. apply D_word; assumption. Qed.
Lemma closed_ends t ls : closed t ls -> ends t ls.
Proof. intros C r lr _ D. apply C, D. Qed.
Lemma starts_head t r : starts t -> head_is after_word (t ++ r).
Proof. destruct t; [intros []|auto]. Qed.
Lemma ends_ends a la b lb : ends a la -> starts b -> ends b lb -> ends (a ++ b) (la ++ lb).
Proof. intros A S B r lr H D. rewrite <- !app_assoc. apply A; [apply starts_head, S|apply B; assumption]. Qed.
Lemma ends_closed a la b lb : ends a la -> starts b -> closed b lb -> closed (a ++ b) (la ++ lb).
Proof. intros A S B r lr D. rewrite <- !app_assoc. apply A; [apply starts_head, S|apply B, D]. Qed.
Lemma closed_then a la b lb : closed a la -> ends b lb -> ends (a ++ b) (la ++ lb).
Proof. intros A B r lr H D. rewrite <- !app_assoc. apply A, B; assumption. Qed.
Definition P (s : string) : lexeme := Punct (T s).
Lemma closed_space : closed (T " ") [].
Proof. intros r lr D. apply D_space, D. Qed.
Lemma closed_comma : closed (T ",") [P ","].
Proof. intros r lr D. apply D_comma, D. Qed.
Definition type_lex (t : cs_type) : list lexeme := Word (type_name_text t) :: if IsPointerType t then [P "*"] else [].
Lemma type_name_word t : wtype t -> word_text (type_name_text t).
Proof. destruct t as [k w n|e|[k w n|e|e]]; cbn [wtype type_name_text]; intros W; try destruct W; try apply cname_word. split; [reflexivity|repeat constructor]. Qed.
Definition after_type (c : Z) : Prop := c = 32 \/ c = 38 \/ c = 42.
Lemma type_div t c r lr : wtype t -> after_type c -> divided (c :: r) lr -> divided (type_chars t ++ c :: r) (type_lex t ++ lr).
Proof.
  intros W C D. assert (A : after_word c /\ c <> 61) by (destruct C as [-> |[-> | ->]]; repeat split; discriminate). destruct A as [A A']. unfold type_chars, type_lex, star. rewrite <- app_assoc.
  change ((Word (type_name_text t) :: ?x) ++ lr) with (Word (type_name_text t) :: (x ++ lr)). apply D_word; [apply type_name_word, W| |].
  - destruct (IsPointerType t); [split; [reflexivity|discriminate]|exact A].
  - destruct (IsPointerType t); [|exact D]. change (divided (T "*" ++ c :: r) (P "*" :: lr)). apply D_star; [exact A'|exact D].
Qed.
Definition mod_lex (p : param) : list lexeme := match p_mod p with PRef => [P "&"] | POut => [P "*"] | _ => [] end.
Definition param_lex (k j : nat) (p : param) : list lexeme := type_lex (p_type p) ++ mod_lex p ++ [Word (sp (param_text k j))].
Lemma param_ends k j p : wtype (p_type p) -> ends (param_chars k j p) (param_lex k j p).
Proof.
  intros W r lr H D. unfold param_chars, param_lex. rewrite <- !app_assoc.
  assert (N : divided (T " " ++ sp (param_text k j) ++ r) ([Word (sp (param_text k j))] ++ lr)) by (apply D_space, (ends_word _ (pname_word k j)); assumption).
  assert (N' : divided (T " " ++ T " " ++ sp (param_text k j) ++ r) ([Word (sp (param_text k j))] ++ lr)) by (apply D_space, N).
  unfold mod_text, mod_lex. destruct (p_mod p); cbn [app].
  - apply (type_div _ 32); [exact W|left; reflexivity|exact N].
  - apply (type_div _ 38); [exact W|right; left; reflexivity|]. change (divided (38 :: T " " ++ T " " ++ sp (param_text k j) ++ r) (P "&" :: [Word (sp (param_text k j))] ++ lr)). punct.
  - apply (type_div _ 42); [exact W|right; right; reflexivity|]. change (divided (42 :: T " " ++ T " " ++ sp (param_text k j) ++ r) (P "*" :: [Word (sp (param_text k j))] ++ lr)). punct.
  - apply (type_div _ 32); [exact W|left; reflexivity|exact N].
  - apply (type_div _ 32); [exact W|left; reflexivity|exact N].
Qed.
Fixpoint list_lex {A} (lx : nat -> A -> list lexeme) (k : nat) (first : bool) (l : list A) : list lexeme :=
  match l with [] => [] | a :: l => (if negb first then [P ","] else []) ++ lx k a ++ list_lex lx (S k) false l end.
(** the first item has nothing before it *)
Lemma list_div {A} (tx : nat -> A -> text) lx (l : list A) : (forall k a, In a l -> ends (tx k a) (lx k a)) -> forall k (first : bool) r lr, (l = [] -> first = true) -> head_is after_word r -> divided r lr -> divided (list_text tx k first l ++ r) (list_lex lx k first l ++ lr).
Proof.
  induction l as [|a l IH]; intros H k first r lr F Hr D; [exact D|]. cbn [list_text list_lex]. rewrite <- !app_assoc.
  assert (X : divided (tx k a ++ list_text tx (S k) false l ++ r) (lx k a ++ list_lex lx (S k) false l ++ lr)).
  { apply (H k a (or_introl eq_refl)).
    - destruct l as [|b l]; [exact Hr|]. cbn [list_text negb app]. split; [reflexivity|discriminate].
    - destruct l as [|b l]; [exact D|]. apply IH; [intros k' a' I; apply H; right; exact I|discriminate|exact Hr|exact D]. }
  destruct first; cbn [negb app]; [exact X|]. apply D_comma, X.
Qed.
Definition params_lex (k : nat) (ps : list param) : list lexeme := P "(" :: list_lex (param_lex k) 0 true ps ++ [P ")"].
Lemma params_closed k ps : wparams ps -> closed (params_chars k ps) (params_lex k ps).
Proof.
  intros W r lr D. unfold params_chars, params_lex. change ((P "(" :: ?x ++ [P ")"]) ++ lr) with (P "(" :: ((x ++ [P ")"]) ++ lr)). rewrite <- !app_assoc. apply D_lp. apply list_div; [|auto|split; [reflexivity|discriminate]|apply D_rp, D].
  intros j p I. apply param_ends. exact (proj1 (Forall_forall _ _) W p I).
Qed.
Definition names_lex (l : list Z) : list lexeme := list_lex (fun _ n => [Word (sp (name_text n))]) 0 true l.
Lemma names_ends l : ends (names_chars l) (names_lex l).
Proof. intros r lr H D. apply list_div; [|auto|exact H|exact D]. intros k n _. apply ends_word, cname_word. Qed.
Definition mods_lex (l : list modifier) : list lexeme := flat_map (fun m => if says_static m then [Word (T "static")] else if says_virtual m then [Word (T "virtual")] else []) l.
Lemma word_space w r lr : word_text w -> divided r lr -> divided (w ++ T " " ++ r) (Word w :: lr).
Proof. intros W D. apply D_word; [exact W|split; [reflexivity|discriminate]|apply D_space, D]. Qed.
Lemma mods_closed l : closed (mods_chars l) (mods_lex l).
Proof.
  intros r lr D. induction l as [|m l IH]; [exact D|]. cbn [mods_chars mods_lex flat_map]. rewrite <- !app_assoc. destruct (says_static m); [apply (word_space (T "static")); [word|exact IH]|]. destruct (says_virtual m); [apply (word_space (T "virtual")); [word|exact IH]|exact IH].
Qed.
Definition chunks (cls : Z) (k : nat) (m : member) : list (list lexeme) :=
  match m with
  | Method mods r n ps body => [mods_lex mods ++ type_lex r ++ Word (sp (name_text n)) :: params_lex k ps ++ match body with None => [P "="; Number (T "0")] | _ => [] end]
  | Constructor mods ps _ => if has MStatic mods then [[Word (T "static"); Word (T "Boolean"); Word (sp (name_text cls) ++ T "_Static"); P "("; P ")"]; [Word (T "static"); Word (T "Boolean"); Word (sp (name_text cls) ++ T "_Initilized")]] else [Word (sp (name_text cls)) :: params_lex k ps]
  | Field mods const ty names => [(if is_static_field mods const then [Word (T "static")] else []) ++ type_lex ty ++ names_lex names]
  | Property mods ty n get set hidden =>
      (if present absent get then [type_lex ty ++ [Word (T "get_" ++ name_text n); P "("; P ")"]] else []) ++
      (if present absent set then [Word (T "void") :: Word (T "set_" ++ name_text n) :: P "(" :: type_lex ty ++ [Word (T "x_value"); P ")"]] else []) ++
      (if hidden then [type_lex ty ++ [Word (hidden_chars n)]] else [])
  | Operator op r ps _ => [Word (T "static") :: match r with Named _ _ n => [Word (sp (name_text n))] | _ => [] end ++ Word (op_chars op) :: params_lex k ps]
  end.
Definition chunk_ok (t : text) (c : list lexeme) : Prop := closed (t ++ T ";") (c ++ [P ";"]).
Ltac norm' := cbn [app]; repeat (rewrite <- app_assoc; cbn [app]).
Lemma suffix_word n s : word_text n -> Forall (fun c => word_char c = true) s -> word_text (n ++ s).
Proof. apply word_app. Qed.
Lemma chunks_ok cls k m : rmember m -> forall ds, declare absent m = Ret ds -> Forall2 chunk_ok (member_lines cls k m) (chunks cls k m).
Proof.
  intros R ds D. destruct m as [mods r n ps body|mods ps b|mods ty n get set hidden|mods const ty names|op r ps b]; cbn [rmember] in R; cbn [member_lines chunks].
  - destruct R as (N0 & _ & _ & W & WP). constructor; [|constructor]. intros q lq Q. apply (closed_semi q lq) in Q. rewrite <- !app_assoc. apply mods_closed. apply (type_div r 32 _ _ W (or_introl eq_refl)). apply D_space.
    rewrite <- app_comm_cons, <- app_assoc. apply D_word; [apply cname_word|split; [reflexivity|discriminate]|]. apply (params_closed k ps WP).
    destruct body; [exact Q|]. change (divided (T " = 0" ++ T ";" ++ q) ([P "="; Number (T "0")] ++ [P ";"] ++ lq)).
    destruct (D_number 0 (T ";" ++ q) _ ltac:(split; reflexivity || lia) ltac:(split; [reflexivity|discriminate]) Q) as [X _]. apply D_space. apply (D_assign (T "0" ++ T ";" ++ q)). exact X.
  - destruct (has MStatic mods).
    + assert (W : forall s, Forall (fun c => word_char c = true) s -> word_text (sp (name_text cls) ++ s)) by (intros s; apply word_app, cname_word).
      constructor; [|constructor; [|constructor]]; intros q lq Q; apply (closed_semi q lq) in Q.
      * rewrite <- !app_assoc. change (T "static Boolean ") with (T "static" ++ T " " ++ T "Boolean" ++ T " "). rewrite <- !app_assoc. cbn [app]. apply (word_space (T "static")); [word|]. apply (word_space (T "Boolean")); [word|].
        change (T "_Static()") with (T "_Static" ++ T "(" ++ T ")"). rewrite <- !app_assoc, app_assoc. apply D_word; [apply W; repeat constructor|split; [reflexivity|discriminate]|]. apply D_lp, D_rp, Q.
      * rewrite <- !app_assoc. change (T "static Boolean ") with (T "static" ++ T " " ++ T "Boolean" ++ T " "). rewrite <- !app_assoc. cbn [app]. apply (word_space (T "static")); [word|]. apply (word_space (T "Boolean")); [word|].
        rewrite app_assoc. apply D_word; [apply W; repeat constructor|split; [reflexivity|discriminate]|exact Q].
    + constructor; [|constructor]. intros q lq Q. apply (closed_semi q lq) in Q. rewrite <- !app_assoc. apply D_word; [apply cname_word|split; [reflexivity|discriminate]|]. apply (params_closed k ps R), Q.
  - assert (WN : word_text (T "get_" ++ name_text n) /\ word_text (T "set_" ++ name_text n) /\ word_text (hidden_chars n)).
    { pose proof (name_word n) as WN. split; [|split]; [apply word_app; [word|apply WN]|apply word_app; [word|apply WN]|apply word_app; [exact WN|repeat constructor]]. }
    destruct WN as (W1 & W2 & W3). apply Forall2_app; [|apply Forall2_app].
    + destruct (present absent get); constructor; [|constructor]. intros q lq Q; apply (closed_semi q lq) in Q. rewrite <- !app_assoc. change (T " get_" ++ ?x) with (32 :: T "get_" ++ x). apply type_div; [exact R|left; reflexivity|]. apply (D_space (T "get_" ++ _)).
      rewrite app_assoc. apply D_word; [exact W1|split; [reflexivity|discriminate]|]. change (T "()" ++ ?x) with (T "(" ++ T ")" ++ x). apply D_lp, D_rp, Q.
    + destruct (present absent set); constructor; [|constructor]. intros q lq Q; apply (closed_semi q lq) in Q. rewrite <- !app_assoc. change (T "void set_" ++ ?x) with (T "void" ++ T " " ++ T "set_" ++ x). cbn [app]. apply (word_space (T "void")); [word|].
      change (Word (T "set_" ++ name_text n) :: ?x) with ([Word (T "set_" ++ name_text n)] ++ x). rewrite (app_assoc (T "set_")). apply D_word; [exact W2|split; [reflexivity|discriminate]|]. apply D_lp. rewrite <- app_assoc.
      apply (type_div ty 32); [exact R|left; reflexivity|]. apply (D_space (T "x_value )" ++ _)). change (T "x_value )" ++ ?x) with (T "x_value" ++ T " " ++ T ")" ++ x). apply (word_space (T "x_value")); [word|]. apply D_rp, Q.
    + destruct hidden; constructor; [|constructor]. intros q lq Q; apply (closed_semi q lq) in Q. rewrite <- !app_assoc. apply (type_div ty 32); [exact R|left; reflexivity|]. apply D_space. apply D_word; [exact W3|split; [reflexivity|discriminate]|exact Q].
  - destruct R as (N0 & W & _). constructor; [|constructor]. intros q lq Q; apply (closed_semi q lq) in Q. rewrite <- !app_assoc.
    assert (X : divided (type_chars ty ++ T " " ++ names_chars names ++ T ";" ++ q) (type_lex ty ++ names_lex names ++ [P ";"] ++ lq)).
    { apply (type_div ty 32); [exact W|left; reflexivity|]. apply D_space. apply names_ends; [split; [reflexivity|discriminate]|exact Q]. }
    destruct (is_static_field mods const); [|exact X]. apply (word_space (T "static")); [word|exact X].
  - destruct R as (WP & W). constructor; [|constructor]. intros q lq Q; apply (closed_semi q lq) in Q. destruct r as [kd w n|e|e]; try destruct W. rewrite <- !app_assoc. apply (word_space (T "static")); [word|]. apply word_space; [apply cname_word|].
    rewrite <- app_comm_cons. apply D_word; [destruct op; cbn [op_chars]; first [word|cbn [declare] in D; destruct w; discriminate D]|split; [reflexivity|discriminate]|]. apply (params_closed k ps WP), Q.
Qed.
End Env.
