(** * C99: the types of the header and their bases *)
From Coq Require Import String Permutation.
From Verif Require Import Base MemModel Tac FormatterModel FormatterSpec FormatterProofs TranslatorModel TranslatorSpec TranslatorProperties HeaderModel HeaderSpec.
Local Open Scope list_scope.

(** ** Reading heads *)
Lemma eqb_text_iff a b : eqb_text a b = true <-> a = b.
Proof.
  revert b. induction a as [|x a IH]; intros [|y b]; cbn [eqb_text]; try (split; congruence). rewrite andb_true_iff, Z.eqb_eq, IH. split; [intros [-> ->]; reflexivity|intros E; injection E as -> ->; auto].
Qed.
Definition wordlike (n : list Z) : Prop := n <> [] /\ Forall (fun c => c <> 32 /\ c <> 44 /\ c <> 58) n.
Lemma identifier_wordlike n : identifier n -> wordlike n.
Proof.
  destruct n as [|c n]; [intros []|]. cbn [identifier]. intros [H1 H2]. split; [discriminate|]. constructor.
  - unfold ident_char in H1. lia.
  - eapply Forall_impl; [|exact H2]. cbn beta. intros a. unfold ident_char, digit_char. lia.
Qed.
Lemma words_word n : forall rest w, wordlike n -> words (n ++ rest) w = words rest (w ++ n).
Proof.
  intros rest w [_ H]. revert w. induction H as [|c n (H1 & H2 & H3) _ IH]; intros w; cbn [app]; [rewrite app_nil_r; reflexivity|]. cbn [words].
  replace (c =? 32) with false by (symmetry; lia). replace ((c =? 44) || (c =? 58)) with false by (symmetry; lia). rewrite IH, <- app_assoc. reflexivity.
Qed.
Lemma words_end w : w <> [] -> words [] w = [w].
Proof. destruct w; [congruence|reflexivity]. Qed.
Lemma words_space s w : w <> [] -> words (32 :: s) w = w :: words s [].
Proof. destruct w; [congruence|reflexivity]. Qed.
Lemma words_comma s w : w <> [] -> words (44 :: s) w = w :: T "," :: words s [].
Proof. destruct w; [congruence|reflexivity]. Qed.
(** The list of bases as it is written: names with commas between them. *)
Fixpoint comma_list (l : list (list Z)) : list Z := match l with [] => [] | [n] => n | n :: l => n ++ T "," ++ comma_list l end.
Lemma words_list l : l <> [] -> Forall wordlike l -> words (comma_list l) [] = match l with [] => [] | n :: l => n :: flat_map (fun m => [T ","; m]) l end.
Proof.
  induction l as [|n l IH]; intros N F; [congruence|]. inversion F as [|? ? F1 F2]; subst. destruct l as [|m l].
  - cbn [comma_list flat_map]. rewrite <- (app_nil_r n) at 1. rewrite words_word by exact F1. cbn [app]. apply words_end, F1.
  - change (comma_list (n :: m :: l)) with (n ++ T "," ++ comma_list (m :: l)). rewrite words_word by exact F1. cbn [app]. change (T "," ++ comma_list (m :: l)) with (44 :: comma_list (m :: l)). rewrite words_comma by apply F1. rewrite IH by (discriminate || exact F2). reflexivity.
Qed.
Lemma not_public n : n <> T "public" -> eqb_text n (T "public") = false.
Proof. intros H. destruct (eqb_text n (T "public")) eqn:E; [apply eqb_text_iff in E; congruence|reflexivity]. Qed.
Lemma read_rest k l : forall fuel n, (length (n :: flat_map (fun m => [T ","; m]) l) <= fuel)%nat -> Forall (fun m => m <> T "public") (n :: l) ->
  read_bases fuel k (n :: flat_map (fun m => [T ","; m]) l) = Some (map (fun m => (default_access k, m)) (n :: l)).
Proof.
  induction l as [|m l IH]; intros [|fuel] n L F; try (cbn in L; lia); inversion F as [|? ? F1 F2]; subst; cbn [read_bases]; rewrite (not_public n F1); [reflexivity|].
  cbn [flat_map app] in *. change (eqb_text (T ",") (T ",")) with true. cbn iota. rewrite IH; [reflexivity|cbn [length] in *; lia|exact F2].
Qed.
Lemma read_list k n l fuel : (length (T "public" :: n :: flat_map (fun m => [T ","; m]) l) <= fuel)%nat -> Forall (fun m => m <> T "public") (n :: l) ->
  read_bases fuel k (T "public" :: n :: flat_map (fun m => [T ","; m]) l) = Some ((Public, n) :: map (fun m => (default_access k, m)) l).
Proof.
  intros L F. inversion F as [|? ? F1 F2]; subst. destruct fuel as [|fuel]; [cbn in L; lia|]. cbn [read_bases]. change (eqb_text (T "public") (T "public")) with true. cbn iota. destruct l as [|m l]; [reflexivity|].
  cbn [flat_map app] in *. change (eqb_text (T ",") (T ",")) with true. cbn iota. rewrite read_rest; [reflexivity|cbn [length] in *; lia|exact F2].
Qed.
Lemma read_head_of k n l b : wordlike n -> Forall wordlike (b :: l) -> Forall (fun m => m <> T "public") (b :: l) ->
  read_head ((match k with KClass => T "class " | KStruct => T "struct " end) ++ n ++ T " : public " ++ comma_list (b :: l)) = Some (k, n, (Public, b) :: map (fun m => (default_access k, m)) l).
Proof.
  intros Hn Hl Hp.
  assert (A : words (n ++ T " : public " ++ comma_list (b :: l)) [] = n :: T ":" :: T "public" :: b :: flat_map (fun m => [T ","; m]) l).
  { rewrite words_word by exact Hn. cbn [app]. change (T " : public " ++ comma_list (b :: l)) with (32 :: 58 :: 32 :: T "public" ++ 32 :: comma_list (b :: l)). rewrite words_space by apply Hn. cbn [words Z.eqb Pos.eqb orb app].
    change (T "public" ++ 32 :: comma_list (b :: l)) with (T "public" ++ (32 :: comma_list (b :: l))). rewrite words_word; [|split; [discriminate|vm_compute; repeat constructor; discriminate]]. cbn [app]. rewrite words_space by discriminate. rewrite (words_list (b :: l)) by (discriminate || exact Hl). reflexivity. }
  unfold read_head. destruct k.
  - change (T "class " ++ n ++ T " : public " ++ comma_list (b :: l)) with (T "class" ++ (32 :: n ++ T " : public " ++ comma_list (b :: l))). rewrite words_word; [|split; [discriminate|vm_compute; repeat constructor; discriminate]]. cbn [app]. rewrite words_space by discriminate. rewrite A. change (eqb_text (T "class") (T "class")) with true. change (eqb_text (T ":") (T ":")) with true. cbn iota. rewrite read_list by (reflexivity || exact Hp). reflexivity.
  - change (T "struct " ++ n ++ T " : public " ++ comma_list (b :: l)) with (T "struct" ++ (32 :: n ++ T " : public " ++ comma_list (b :: l))). rewrite words_word; [|split; [discriminate|vm_compute; repeat constructor; discriminate]]. cbn [app]. rewrite words_space by discriminate. rewrite A. change (eqb_text (T "struct") (T "class")) with false. change (eqb_text (T "struct") (T "struct")) with true. change (eqb_text (T ":") (T ":")) with true. cbn iota. rewrite read_list by (reflexivity || exact Hp). reflexivity.
Qed.

Section Environment.
Variable env : dotnet.
Notation ordinary := (ordinary (IsLower env)).
Lemma ordinary_mangle n : ordinary n -> mangle env n = Ret n.
Proof.
  intros (H1 & H2 & H3 & _). destruct n as [|c r]; [destruct H1|]. unfold mangle, PrefixName. rewrite (H2 c r eq_refl). cbn [andb bind].
  destruct (text_eqb (c :: r) Void_text) eqn:E; [apply text_eqb_eq in E; destruct H3; exact E|reflexivity].
Qed.
Definition simple (b : tid * ast_type) : Prop := snd b = SimpleType (snd (fst b)) /\ ordinary (snd (fst b)).
Lemma write_bases l : forall first, Forall simple l -> WriteBaseClasses env first l = Ret ((if first then [] else match l with [] => [] | _ => T "," end) ++ comma_list (map (fun b => snd (fst b)) l)).
Proof.
  induction l as [|[i a] l IH]; intros first F; cbn [WriteBaseClasses]; [destruct first; reflexivity|]. inversion F as [|? ? F1 F2]; subst. destruct F1 as [S1 S2]. cbn [fst snd] in S1, S2. subst a. cbn [VisitAstType]. rewrite (ordinary_mangle _ S2), IH by exact F2. cbn [bind map fst snd].
  destruct l as [|b l]; [cbn [map comma_list app]; rewrite !app_nil_r; destruct first; reflexivity|]. cbn [map]. change (comma_list (snd i :: snd (fst b) :: map (fun b => snd (fst b)) l)) with (snd i ++ T "," ++ comma_list (snd (fst b) :: map (fun b => snd (fst b)) l)). destruct first; reflexivity.
Qed.
(** The head of a type reads as the type with its bases: the first one public. *)
Lemma head_reads h : has_definition h = true -> ordinary (snd (h_id h)) -> Forall simple (h_bases h) ->
  exists t b l, head_text env h = Ret t /\ map snd (wanted h) = b :: l /\ read_head t = Some (key_of h, snd (h_id h), (Public, b) :: map (fun m => (default_access (key_of h), m)) l).
Proof.
  intros D O S. unfold head_text. rewrite (ordinary_mangle _ O). cbn [bind].
  assert (K : OutputEntityType h = match key_of h with KClass => T "class " | KStruct => T "struct " end).
  { unfold OutputEntityType, key_of. unfold has_definition in D. destruct (h_kind h); try discriminate; reflexivity. }
  unfold OutputParentage. unfold wanted. destruct (h_bases h) as [|[i a] l] eqn:E.
  - exists (OutputEntityType h ++ snd (h_id h) ++ T " : public Object"), (T "Object"), []. split; [unfold has_definition in D; destruct (h_kind h); try discriminate; reflexivity|]. split; [reflexivity|]. rewrite K. apply (read_head_of (key_of h) _ [] (T "Object")); [apply identifier_wordlike, O| |].
    + constructor; [split; [discriminate|vm_compute; repeat constructor; discriminate]|constructor].
    + constructor; [discriminate|constructor].
  - rewrite write_bases by exact S. cbn [bind]. cbn [app]. exists (OutputEntityType h ++ snd (h_id h) ++ T " : public " ++ comma_list (map (fun b => snd (fst b)) ((i, a) :: l))), (snd i), (map (fun b => snd (fst b)) l). split; [reflexivity|]. split; [cbn [map fst snd]; rewrite map_map; reflexivity|]. rewrite K. cbn [map fst snd]. apply read_head_of; [apply identifier_wordlike, O| |].
    + change (snd i :: map (fun b => snd (fst b)) l) with (map (fun b => snd (fst b)) ((i, a) :: l)). apply Forall_map. eapply Forall_impl; [|exact S]. intros b [_ B]. apply identifier_wordlike, B.
    + change (snd i :: map (fun b => snd (fst b)) l) with (map (fun b => snd (fst b)) ((i, a) :: l)). apply Forall_map. eapply Forall_impl; [|exact S]. intros b [_ B]. apply B.
Qed.

(** ** The lines of the header *)
Definition ns_lines (cur : option text) (v : text) : list line :=
  match cur with Some c => if text_eqb (namespace_name v) c then [] else [NsClose; NsOpen (namespace_name v)] | None => [NsOpen (namespace_name v)] end.
Definition head_of (h : htype) : text := match head_text env h with Ret t => t | _ => [] end.
Fixpoint emit (L : list htype) (cur : option text) : list line :=
  match L with
  | [] => []
  | h :: L => ns_lines cur (fst (h_id h)) ++ Head (head_of h) :: emit L (Some (namespace_name (fst (h_id h))))
  end.
Fixpoint final_ns (L : list htype) (cur : option text) : option text :=
  match L with [] => cur | h :: L => final_ns L (Some (namespace_name (fst (h_id h)))) end.
Fixpoint spaces_of (L : list htype) (l : list text) : list text :=
  match L with [] => l | h :: L => spaces_of L (if known (fst (h_id h)) l then l else l ++ [fst (h_id h)]) end.
Lemma set_namespace_lines s v : SetNamespace s v = mk_hstate (Some (namespace_name v)) (h_spaces s) (h_lines s ++ ns_lines (h_open s) v).
Proof.
  unfold SetNamespace, ns_lines. destruct s as [[c|] sp ls]; cbn [h_open h_spaces h_lines]; [|reflexivity]. destruct (text_eqb (namespace_name v) c) eqn:E; [|reflexivity]. apply text_eqb_eq in E. subst c. rewrite app_nil_r. reflexivity.
Qed.
Definition good (h : htype) : Prop := (exists t, head_text env h = Ret t) /\ Forall (fun k => k = EnumType) (h_nested h).
Lemma write_each_emit p l : forall s, (forall h, In h l -> p h = true -> good h) ->
  write_each env p l s = Ret (mk_hstate (final_ns (filter p l) (h_open s)) (spaces_of (filter p l) (h_spaces s)) (h_lines s ++ emit (filter p l) (h_open s))).
Proof.
  induction l as [|h l IH]; intros s G; cbn [write_each filter].
  - cbn [final_ns spaces_of emit]. rewrite app_nil_r. destruct s; reflexivity.
  - destruct (p h) eqn:E; [|apply IH; intros x Hx; apply G; right; exact Hx]. destruct (G h (or_introl eq_refl) E) as [[t Ht] N]. unfold HeaderTypeDeclaration. rewrite set_namespace_lines. cbn [h_open h_spaces h_lines]. rewrite Ht. cbn [bind].
    replace (existsb adds_declaration (h_nested h)) with false; [|symmetry; apply not_true_is_false; intros X; apply existsb_exists in X; destruct X as (k & Hk & A); rewrite Forall_forall in N; rewrite (N k Hk) in A; discriminate].
    cbn [throw_if bind]. rewrite IH by (intros x Hx; apply G; right; exact Hx). cbn [h_open h_spaces h_lines final_ns spaces_of emit]. do 2 f_equal. unfold head_of. rewrite Ht, <- !app_assoc. reflexivity.
Qed.
Lemma emit_app a b : forall cur, emit (a ++ b) cur = emit a cur ++ emit b (final_ns a cur).
Proof. induction a as [|h a IH]; intros cur; cbn [app emit final_ns]; [reflexivity|]. rewrite IH, <- app_assoc. reflexivity. Qed.
Lemma final_app a b : forall cur, final_ns (a ++ b) cur = final_ns b (final_ns a cur).
Proof. induction a as [|h a IH]; intros cur; cbn [app final_ns]; [reflexivity|]. apply IH. Qed.
Lemma spaces_app a b : forall l, spaces_of (a ++ b) l = spaces_of b (spaces_of a l).
Proof. induction a as [|h a IH]; intros l; cbn [app spaces_of]; [reflexivity|]. apply IH. Qed.
(** The types in the order of their definitions. *)
Definition order (types : list htype) : list htype :=
  let l := fold_left visit_type types [] in filter (fun h => is_struct (decl_of h)) l ++ filter (fun h => is_class (decl_of h)) l.
Lemma header_emit types : (forall h, In h (fold_left visit_type types []) -> has_definition h = true -> good h) ->
  header_lines env types = Ret (emit (order types) None ++ (match final_ns (order types) None with Some _ => [NsClose] | None => [] end) ++ map (fun n => UsingNs (namespace_name n)) (spaces_of (order types) [])).
Proof.
  intros G. unfold header_lines, order. set (l := fold_left visit_type types []) in *. clearbody l.
  rewrite write_each_emit by (intros h Hh E; apply G; [exact Hh|]; unfold is_struct, decl_of in E; cbn [d_type] in E; unfold has_definition; destruct (h_kind h); try discriminate; reflexivity). cbn [bind].
  rewrite write_each_emit by (intros h Hh E; apply G; [exact Hh|]; unfold is_class, decl_of in E; cbn [d_type] in E; unfold has_definition; destruct (h_kind h); try discriminate; reflexivity). cbn [bind h_open h_spaces h_lines app].
  unfold WriteUsingNamespaces. cbn [h_open h_spaces h_lines]. rewrite emit_app, final_app, spaces_app. reflexivity.
Qed.

(** ** What the lines mean *)
Lemma ns_lines_open cur v : open_after (ns_lines cur v) cur = Some (namespace_name v).
Proof. unfold ns_lines. destruct cur as [c|]; [|reflexivity]. destruct (text_eqb (namespace_name v) c) eqn:E; [|reflexivity]. apply text_eqb_eq in E. subst c. reflexivity. Qed.
Lemma open_app a b : forall cur, open_after (a ++ b) cur = open_after b (open_after a cur).
Proof. induction a as [|[n| |t|n] a IH]; intros cur; cbn [app open_after]; try apply IH; reflexivity. Qed.
Lemma defined_app a b : forall cur, defined_by (a ++ b) cur = defined_by a cur ++ defined_by b (open_after a cur).
Proof. induction a as [|[n| |t|n] a IH]; intros cur; cbn [app defined_by open_after]; rewrite ?IH, <- ?app_assoc; reflexivity. Qed.
Lemma directives_app a b : directives (a ++ b) = directives a ++ directives b.
Proof. induction a as [|[n| |t|n] a IH]; cbn [app directives]; rewrite ?IH; reflexivity. Qed.
Lemma emit_open L : forall cur, open_after (emit L cur) cur = final_ns L cur.
Proof. induction L as [|h L IH]; intros cur; cbn [emit final_ns]; [reflexivity|]. rewrite open_app, ns_lines_open. cbn [open_after]. apply IH. Qed.
Lemma ns_lines_directives cur v : directives (ns_lines cur v) = [].
Proof. unfold ns_lines. destruct cur as [c|]; [|reflexivity]. destruct (text_eqb _ c); reflexivity. Qed.
Lemma emit_directives L : forall cur, directives (emit L cur) = [].
Proof. induction L as [|h L IH]; intros cur; cbn [emit]; [reflexivity|]. rewrite directives_app, ns_lines_directives. cbn [app directives]. apply IH. Qed.
Lemma ns_lines_defined cur v : defined_by (ns_lines cur v) cur = [].
Proof. unfold ns_lines. destruct cur as [c|]; [|reflexivity]. destruct (text_eqb _ c); reflexivity. Qed.
Lemma cpp_namespace_eq v : cpp_namespace v = namespace_name v.
Proof. reflexivity. Qed.
Lemma emit_defined L : forall cur, (forall h, In h L -> exists k bs, read_head (head_of h) = Some (k, snd (h_id h), bs)) -> defined_by (emit L cur) cur = map (fun h => cpp_id (h_id h)) L.
Proof.
  induction L as [|h L IH]; intros cur R; cbn [emit map]; [reflexivity|]. rewrite defined_app, ns_lines_defined, ns_lines_open. cbn [app defined_by]. destruct (R h (or_introl eq_refl)) as (k & bs & E). rewrite E. cbn [app]. rewrite IH by (intros x Hx; apply R; right; exact Hx). reflexivity.
Qed.
Lemma emit_nested L : forall cur rest, well_nested rest (final_ns L cur) -> well_nested (emit L cur ++ rest) cur.
Proof.
  induction L as [|h L IH]; intros cur rest W; cbn [emit app final_ns] in *; [exact W|]. specialize (IH _ _ W). rewrite <- app_assoc. cbn [app]. unfold ns_lines. destruct cur as [c|].
  - destruct (text_eqb (namespace_name (fst (h_id h))) c) eqn:E; cbn [app well_nested].
    + apply text_eqb_eq in E. subst c. split; [discriminate|exact IH].
    + split; [discriminate|]. split; [reflexivity|]. split; [discriminate|exact IH].
  - cbn [app well_nested]. split; [reflexivity|]. split; [discriminate|exact IH].
Qed.
Lemma usings_nested l : well_nested (map (fun n => UsingNs (namespace_name n)) l) None.
Proof. induction l as [|n l IH]; cbn [map well_nested]; auto. Qed.
Lemma usings_defined l : forall c, defined_by (map (fun n => UsingNs (namespace_name n)) l) c = [].
Proof. induction l as [|n l IH]; intros c; cbn [map defined_by]; auto. Qed.
Lemma closing_nested (f : option text) l : well_nested ((match f with Some _ => [NsClose] | None => [] end) ++ map (fun n => UsingNs (namespace_name n)) l) f.
Proof. destruct f; cbn [app well_nested]; [split; [discriminate|]|]; apply usings_nested. Qed.
Lemma closing_defined (f : option text) l : defined_by ((match f with Some _ => [NsClose] | None => [] end) ++ map (fun n => UsingNs (namespace_name n)) l) f = [].
Proof. destruct f; cbn [app defined_by]; apply usings_defined. Qed.
Lemma usings_directives l : directives (map (fun n => UsingNs (namespace_name n)) l) = map namespace_name l.
Proof. induction l as [|n l IH]; cbn [map directives]; [reflexivity|]. rewrite IH. reflexivity. Qed.
End Environment.

(** ** The order of the types *)
Lemma insert_type_decl d l : map decl_of (insert_type d l) = insert_declaration (decl_of d) (map decl_of l).
Proof. induction l as [|x l IH]; cbn [insert_type insert_declaration map]; [reflexivity|]. destruct (IsParentOf (decl_of d) (decl_of x)); cbn [map]; [reflexivity|]. rewrite IH. reflexivity. Qed.
Lemma fold_decl types : forall l, map decl_of (fold_left visit_type types l) = fold_left VisitTypeDeclaration (map decl_of types) (map decl_of l).
Proof.
  induction types as [|d types IH]; intros l; cbn [fold_left map]; [reflexivity|]. rewrite IH. f_equal. unfold visit_type, VisitTypeDeclaration. destruct (is_enum (decl_of d)); [reflexivity|]. apply insert_type_decl.
Qed.
Lemma filter_decl (f : declaration -> bool) l : map decl_of (filter (fun h => f (decl_of h)) l) = filter f (map decl_of l).
Proof. induction l as [|x l IH]; cbn [filter map]; [reflexivity|]. destruct (f (decl_of x)); cbn [map]; rewrite IH; reflexivity. Qed.
Lemma order_decl types : map decl_of (order types) = header_of (map decl_of types).
Proof. unfold order, header_of, CreateHeaders. rewrite map_app, (filter_decl is_struct), (filter_decl is_class), (fold_decl types []). reflexivity. Qed.
Lemma insert_type_permutation d l : Permutation (insert_type d l) (d :: l).
Proof. induction l as [|x l IH]; cbn [insert_type]; [reflexivity|]. destruct (IsParentOf _ _); [reflexivity|]. rewrite IH. apply perm_swap. Qed.
Lemma fold_type_permutation types : forall l, Permutation (fold_left visit_type types l) (l ++ filter (fun d => negb (is_enum (decl_of d))) types).
Proof.
  induction types as [|d types IH]; intros l; cbn [fold_left filter]; [rewrite app_nil_r; reflexivity|]. rewrite IH. unfold visit_type. destruct (is_enum (decl_of d)); cbn [negb]; [reflexivity|]. rewrite insert_type_permutation. apply (Permutation_middle l _ d).
Qed.
Lemma filter_permutation {A} (f : A -> bool) a b : Permutation a b -> Permutation (filter f a) (filter f b).
Proof. intros Q. induction Q as [|x a b _ IH|x y a|a b c _ IH1 _ IH2]; cbn [filter]; [reflexivity|destruct (f x); [constructor; exact IH|exact IH]|destruct (f x), (f y); try reflexivity; apply perm_swap|etransitivity; eassumption]. Qed.
Lemma order_permutation types : Permutation (order types) (filter has_definition types).
Proof.
  unfold order. pose proof (fold_type_permutation types []) as P. cbn [app] in P. set (L := fold_left _ _ _) in *. clearbody L.
  rewrite (filter_permutation (fun h => is_struct (decl_of h)) _ _ P), (filter_permutation (fun h => is_class (decl_of h)) _ _ P). clear. induction types as [|d types IH]; cbn [filter]; [reflexivity|].
  unfold is_enum, is_struct, is_class, has_definition, decl_of in *. cbn [d_type] in *. destruct (h_kind d) eqn:K; cbn [negb filter]; try exact IH; rewrite K.
  - cbn [app]. constructor. exact IH.
  - rewrite <- IH. symmetry. apply Permutation_middle.
  - exact IH.
Qed.
Lemma in_order types h : In h (order types) <-> In h types /\ has_definition h = true.
Proof.
  rewrite <- filter_In. split; apply Permutation_in; [|symmetry]; apply order_permutation.
Qed.
Lemma in_fold types h : In h (fold_left visit_type types []) -> In h types.
Proof. intros H. apply (Permutation_in h (fold_type_permutation types [])) in H. cbn [app] in H. apply filter_In in H. apply H. Qed.
(** Full names identify types whose names have no dots. *)
Lemma last_dot a b c d : ~ In 46 b -> ~ In 46 d -> a ++ 46 :: b = c ++ 46 :: d -> a = c /\ b = d.
Proof.
  revert c. induction a as [|x a IH]; intros [|y c] Hb Hd E; cbn [app] in E.
  - injection E as ->. auto.
  - injection E as <- E. destruct Hb. rewrite E, in_app_iff. right. left. reflexivity.
  - injection E as -> E. destruct Hd. rewrite <- E, in_app_iff. right. left. reflexivity.
  - injection E as -> E. destruct (IH c Hb Hd E) as [-> ->]. auto.
Qed.
Lemma identifier_no_dot n : identifier n -> ~ In 46 n.
Proof.
  destruct n as [|c n]; [intros []|]. cbn [identifier]. intros [H1 H2] [->|H]; [discriminate|]. rewrite Forall_forall in H2. specialize (H2 _ H). discriminate.
Qed.
Lemma FullName_inj a b : identifier (snd a) -> identifier (snd b) -> FullName a = FullName b -> a = b.
Proof.
  destruct a as [na a], b as [nb b]. cbn [snd]. intros Ha Hb. apply identifier_no_dot in Ha. apply identifier_no_dot in Hb. unfold FullName. cbn [fst snd]. destruct na as [|x na], nb as [|y nb]; intros E.
  - subst; reflexivity.
  - destruct Ha. rewrite E, !in_app_iff. right. left. left. reflexivity.
  - destruct Hb. rewrite <- E, !in_app_iff. right. left. left. reflexivity.
  - change (T ".") with [46] in E. cbn [app] in E. change (x :: na ++ 46 :: a) with ((x :: na) ++ 46 :: a) in E. change (y :: nb ++ 46 :: b) with ((y :: nb) ++ 46 :: b) in E. apply last_dot in E; [|assumption..]. destruct E as [E ->]. rewrite E. reflexivity.
Qed.

(** ** C99 *)
(** A program within the supported style: every type has an ordinary name; nested types are enums; a base is
    written by its plain name and is a type of the same namespace, or one of the run-time library whose name
    the namespace does not use for another type. *)
Definition from_runtime (lib : list tid) (types : list htype) (h : htype) (n : text) : Prop :=
  (exists u, In (u, n) lib) /\ (forall x, In x types -> h_id x <> (fst (h_id h), n)).
Definition base_supported lower (lib : list tid) (types : list htype) (h : htype) (b : tid * ast_type) : Prop :=
  snd b = SimpleType (snd (fst b)) /\ ordinary lower (snd (fst b)) /\
  (fst (fst b) = fst (h_id h) /\ (exists p, In p types /\ h_id p = fst b /\ has_definition p = true) \/
   (forall p, In p types -> h_id p <> fst b) /\ from_runtime lib types h (snd (fst b))).
Definition supported lower (lib : list tid) (types : list htype) : Prop :=
  runtime lib /\ NoDup (map h_id types) /\
  forall h, In h types -> translated h = true /\ ordinary lower (snd (h_id h)) /\ Forall (fun b => ordinary lower (snd (fst b))) (h_bases h) /\
    (has_definition h = true -> Forall (fun k => k = EnumType) (h_nested h) /\ Forall (base_supported lower lib types h) (h_bases h) /\ (h_bases h = [] -> from_runtime lib types h (T "Object"))).
(** The order in which the types are visited never puts a type after one of its bases and one of the types
    derived from it; no type derives from itself; no struct derives from a class. *)
Definition order_supported (types : list htype) : Prop :=
  (forall l1 d l2 p c, types = l1 ++ d :: l2 -> In p l1 -> In c l1 -> base p d -> base d c -> False) /\
  (forall d, In d types -> ~ base d d) /\
  (forall s c, In s types -> In c types -> key_of s = KStruct -> key_of c = KClass -> ~ base c s).
(** The C++ type a base must be: the definition of the program's type, complete at this point, or the library's type. *)
Definition is_base (lib : list tid) (before : list line) (id x : tid) : Prop :=
  x = cpp_id id /\ In x (defined_by before None) \/ In x lib /\ snd x = snd id.

Lemma cpp_id_runtime u n t : In u runtime_namespaces -> (u, n) <> cpp_id t.
Proof.
  intros H E. unfold cpp_id, cpp_namespace in E. injection E as E _. destruct (fst t) as [|c r].
  - destruct H as [<-|[<-|[]]]; discriminate.
  - apply (f_equal (@rev Z)) in E. rewrite rev_app_distr in E. destruct H as [<-|[<-|[]]]; discriminate.
Qed.
Lemma cpp_id_inj a b : cpp_id a = cpp_id b -> a = b.
Proof. destruct a as [na a], b as [nb b]. unfold cpp_id. cbn [fst snd]. intros E. injection E as E ->. rewrite !cpp_namespace_eq in E. apply C72_distinct in E. subst. reflexivity. Qed.
Lemma NoDup_snd {A B} (l : list (A * B)) a b n : NoDup (map snd l) -> In (a, n) l -> In (b, n) l -> a = b.
Proof.
  induction l as [|[x y] l IH]; cbn [map snd In]; intros N Ha Hb; [destruct Ha|]. inversion N as [|? ? N1 N2]; subst. destruct Ha as [Ha|Ha], Hb as [Hb|Hb]; [congruence| | |apply IH; assumption].
  - injection Ha as -> ->. destruct N1. apply (in_map snd) in Hb. exact Hb.
  - injection Hb as -> ->. destruct N1. apply (in_map snd) in Ha. exact Ha.
Qed.
Lemma lookup_runtime lib types h n : runtime lib -> from_runtime lib types h n ->
  exists x, lookup (map (fun p => cpp_id (h_id p)) types ++ lib) runtime_namespaces (cpp_namespace (fst (h_id h))) n x /\ In x lib /\ snd x = n.
Proof.
  intros [R1 R2] [[u U] N]. exists (u, n). split; [|auto].
  assert (O : forall v, In v runtime_namespaces -> In (v, n) (map (fun p => cpp_id (h_id p)) types ++ lib) -> In (v, n) lib).
  { intros v V H. apply in_app_iff in H. destruct H as [H|H]; [|exact H]. apply in_map_iff in H. destruct H as (p & E & _). symmetry in E. destruct (cpp_id_runtime _ _ _ V E). }
  rewrite Forall_forall in R1. pose proof (R1 _ U) as U'. cbn [fst] in U'. apply lookup_used.
  - intros H. apply in_app_iff in H. destruct H as [H|H].
    + apply in_map_iff in H. destruct H as (p & E & P). apply (N p P). apply cpp_id_inj. exact E.
    + apply R1 in H. cbn [fst] in H. apply (cpp_id_runtime _ n (fst (h_id h), n) H). reflexivity.
  - exact U'.
  - apply in_app_iff. right. exact U.
  - intros v V H. apply (O v V) in H. apply (NoDup_snd lib v u n R2 H U).
Qed.

(** For every supported program: the header is written; namespaces are opened and closed properly; every class
    and struct is defined exactly once, inside its namespace; each of its bases is found by C++ name lookup,
    is the type the C# program means, and is complete where it is needed; the first base is public, the
    others are public exactly for structs.
    Partial: bases of other namespaces, qualified bases, interfaces, nested types and unfavourable orders
    are excluded by the hypotheses; the refutations below show what happens to them. *)
Theorem C99_bases_partial env lib types : supported (IsLower env) lib types -> order_supported types ->
  exists ls, header_lines env types = Ret ls /\ well_nested ls None /\
    Permutation (defined_by ls None) (map (fun h => cpp_id (h_id h)) (filter has_definition types)) /\
    forall h, In h types -> has_definition h = true ->
      exists l1 t l2 first rest, ls = l1 ++ Head t :: l2 /\ open_after l1 None = Some (cpp_namespace (fst (h_id h))) /\
        read_head t = Some (key_of h, snd (h_id h), (Public, first) :: map (fun n => (default_access (key_of h), n)) rest) /\
        Forall2 (fun n id => exists x, lookup (map (fun p => cpp_id (h_id p)) types ++ lib) (runtime_namespaces ++ directives l1) (cpp_namespace (fst (h_id h))) n x /\ is_base lib l1 id x)
                (first :: rest) (wanted h).
Proof.
  intros (R & N & S) (O1 & O2 & O3).
  assert (HR : forall h, In h types -> has_definition h = true -> exists t b l, head_text env h = Ret t /\ map snd (wanted h) = b :: l /\ read_head t = Some (key_of h, snd (h_id h), (Public, b) :: map (fun m => (default_access (key_of h), m)) l)).
  { intros h Hh D. destruct (S h Hh) as (_ & On & _ & SD). destruct (SD D) as (_ & B & _). apply head_reads; [exact D|exact On|]. eapply Forall_impl; [|exact B]. intros b (B1 & B2 & _). split; assumption. }
  assert (G : forall h, In h (fold_left visit_type types []) -> has_definition h = true -> good env h).
  { intros h Hh D. apply in_fold in Hh. destruct (HR h Hh D) as (t & _ & _ & E & _). split; [exists t; exact E|]. apply (S h Hh); exact D. }
  rewrite (header_emit env types G). eexists. split; [reflexivity|].
  assert (HO : forall h, In h (order types) -> exists k bs, read_head (head_of env h) = Some (k, snd (h_id h), bs)).
  { intros h Hh. apply in_order in Hh. destruct Hh as [Hh D]. destruct (HR h Hh D) as (t & b & l & E & _ & E2). unfold head_of. rewrite E. eauto. }
  assert (BO : forall p c, In p types -> In c types -> base_of (decl_of p) (decl_of c) <-> base p c).
  { intros p c Hp Hc. destruct (S p Hp) as (_ & Op & _). destruct (S c Hc) as (_ & _ & Oc & _). unfold base_of, base. cbn [decl_of d_name d_bases]. rewrite !in_map_iff. split.
    - intros (b & E & Hb). exists b. split; [|exact Hb]. rewrite Forall_forall in Oc. specialize (Oc b Hb). symmetry in E. symmetry. apply FullName_inj; [apply Op|apply Oc|exact E].
    - intros (b & E & Hb). exists b. rewrite E. auto. }
  assert (NB1 : never_in_between (map decl_of types)).
  { intros l1 d l2 q c E Hq Hc B1 B2. apply map_eq_app in E. destruct E as (m1 & m2 & E & E1' & E2'). destruct m2 as [|d' m2]; [discriminate|]. cbn [map] in E2'. injection E2' as Ed E2'. subst l1 l2 d. apply in_map_iff in Hq. destruct Hq as (q' & <- & Hq). apply in_map_iff in Hc. destruct Hc as (c' & <- & Hc).
    assert (Id : In d' types) by (rewrite E; apply in_app_iff; cbn; auto). assert (Iq : In q' types) by (rewrite E; apply in_app_iff; auto). assert (Ic : In c' types) by (rewrite E; apply in_app_iff; auto).
    apply (O1 m1 d' m2 q' c' E Hq Hc); apply BO; assumption. }
  assert (NB2 : forall d, In d (map decl_of types) -> ~ base_of d d).
  { intros d Hd B. apply in_map_iff in Hd. destruct Hd as (d' & <- & Hd). apply (O2 d' Hd), BO; assumption. }
  assert (NB3 : forall s c, In s (map decl_of types) -> In c (map decl_of types) -> is_struct s = true -> is_class c = true -> ~ base_of c s).
  { intros s c Hs Hc Is Ic B. apply in_map_iff in Hs. destruct Hs as (s' & <- & Hs). apply in_map_iff in Hc. destruct Hc as (c' & <- & Hc). apply (O3 s' c' Hs Hc); [| |apply BO; assumption].
    - unfold is_struct, decl_of in Is. cbn [d_type] in Is. unfold key_of. destruct (h_kind s'); try discriminate; reflexivity.
    - unfold is_class, decl_of in Ic. cbn [d_type] in Ic. unfold key_of. destruct (h_kind c'); try discriminate; reflexivity. }
  split; [|split].
  - apply emit_nested. apply closing_nested.
  - rewrite defined_app, emit_open, emit_defined by exact HO. replace (defined_by _ (final_ns (order types) None)) with (@nil tid).
    + rewrite app_nil_r. apply Permutation_map, order_permutation.
    + symmetry. apply closing_defined.
  - intros h Hh D. destruct (HR h Hh D) as (t & b & l & Et & Eb & Er). assert (I : In h (order types)) by (apply in_order; auto). destruct (in_split _ _ I) as (L1 & L2 & EO).
    exists (emit env L1 None ++ ns_lines (final_ns L1 None) (fst (h_id h))), t, (emit env L2 (Some (namespace_name (fst (h_id h)))) ++ (match final_ns (order types) None with Some _ => [NsClose] | None => [] end) ++ map (fun n => UsingNs (namespace_name n)) (spaces_of (order types) [])), b, l.
    split; [|split; [|split; [exact Er|]]].
    + rewrite EO at 1. rewrite emit_app. cbn [emit]. unfold head_of. rewrite Et, <- !app_assoc. reflexivity.
    + rewrite open_app, emit_open. apply ns_lines_open.
    + rewrite directives_app, emit_directives, ns_lines_directives. cbn [app]. change (runtime_namespaces ++ []) with runtime_namespaces.
      assert (DB : defined_by (emit env L1 None ++ ns_lines (final_ns L1 None) (fst (h_id h))) None = map (fun p => cpp_id (h_id p)) L1).
      { rewrite defined_app, emit_open, ns_lines_defined, app_nil_r. apply emit_defined. intros x Hx. apply HO. rewrite EO. apply in_app_iff. auto. }
      unfold is_base. rewrite DB. rewrite <- Eb. clear DB Eb Er Et b l t.
      destruct (S h Hh) as (_ & On & _ & SD). destruct (SD D) as (_ & B & OB). unfold wanted. destruct (h_bases h) as [|b0 bs] eqn:EB.
      * cbn [map]. constructor; [|constructor]. destruct (lookup_runtime lib types h (T "Object") R (OB eq_refl)) as (x & X1 & X2 & X3). exists x. cbn [snd]. auto.
      * match goal with |- Forall2 _ _ (match map fst ?l with _ => _ end) => change (Forall2 (fun n id => exists x, lookup (map (fun p => cpp_id (h_id p)) types ++ lib) runtime_namespaces (cpp_namespace (fst (h_id h))) n x /\ (x = cpp_id id /\ In x (map (fun p => cpp_id (h_id p)) L1) \/ In x lib /\ snd x = snd id)) (map snd (map fst l)) (map fst l)) end. rewrite <- EB. rewrite <- EB in B. clear SD EB b0 bs OB.
        assert (Q : forall id, In id (map fst (h_bases h)) -> exists x, lookup (map (fun p => cpp_id (h_id p)) types ++ lib) runtime_namespaces (cpp_namespace (fst (h_id h))) (snd id) x /\ (x = cpp_id id /\ In x (map (fun p => cpp_id (h_id p)) L1) \/ In x lib /\ snd x = snd id)).
        { intros id Hid. apply in_map_iff in Hid. destruct Hid as (b & <- & Hb). rewrite Forall_forall in B. destruct (B b Hb) as (_ & Ob & [(E1 & p & P1 & P2 & P3)|(_ & FR)]).
          - exists (cpp_id (fst b)). split; [|left; split; [reflexivity|]].
            + assert (EC : cpp_id (fst b) = (cpp_namespace (fst (h_id h)), snd (fst b))) by (apply pair_equal_spec; split; [exact (f_equal cpp_namespace E1)|reflexivity]). rewrite EC. apply lookup_own. apply in_app_iff. left. apply in_map_iff. exists p. rewrite P2. auto.
            + apply in_map_iff. exists p. rewrite P2. split; [reflexivity|].
              assert (Ip : In p (order types)) by (apply in_order; auto). rewrite EO in Ip. apply in_app_iff in Ip. destruct Ip as [Ip|[Ip|Ip]]; [exact Ip| |].
              * subst p. destruct (O2 h Hh). unfold base. rewrite P2. apply in_map. exact Hb.
              * exfalso. pose proof (C69_bases_first_partial (map decl_of types)) as NB. rewrite <- order_decl, EO, map_app in NB. cbn [map] in NB.
                apply (NB NB1 NB2 NB3 (map decl_of L1) (decl_of h) (map decl_of L2) (decl_of p) eq_refl); [apply in_map; exact Ip|]. apply BO; [exact P1|exact Hh|]. unfold base. rewrite P2. apply in_map. exact Hb.
          - destruct (lookup_runtime lib types h _ R FR) as (x & X1 & X2 & X3). exists x. auto. }
        clear - Q. induction (map fst (h_bases h)) as [|id ids IH]; cbn [map]; constructor; [apply Q; left; reflexivity|]. apply IH. intros i Hi. apply Q. right. exact Hi.
Qed.

(** Every type is declared by the prototypes under its name, in its namespace. *)
Theorem C99_prototypes env h : ordinary (IsLower env) (snd (h_id h)) -> prototype_of env h = Ret (cpp_id (h_id h)).
Proof. intros O. unfold prototype_of. rewrite (ordinary_mangle env _ O). reflexivity. Qed.

(** Whatever its name, a type has the same name in the prototypes as in the header. *)
Theorem C99_same_name env h t : head_text env h = Ret t ->
  exists n rest, prototype_of env h = Ret (cpp_namespace (fst (h_id h)), n) /\
    t = (match h_kind h with StructType => T "struct " | _ => T "class " end) ++ n ++ rest /\ (rest = [] \/ exists r, rest = T " : public " ++ r).
Proof.
  unfold head_text, prototype_of. intro E. destruct (mangle env (snd (h_id h))) as [n|e|u]; cbn [bind] in *; try discriminate.
  destruct (OutputParentage env h) as [r|e|u] eqn:P; cbn [bind] in E; try discriminate. injection E as <-.
  exists n, r. split; [reflexivity|split].
  - unfold OutputEntityType. destruct (h_kind h); reflexivity.
  - unfold OutputParentage in P. destruct (h_bases h).
    + injection P as <-. destruct (h_kind h); [left|right|right|left]; try reflexivity; eexists; reflexivity.
    + destruct (WriteBaseClasses env true (p :: l)) as [b|e|u]; cbn [bind] in P; try discriminate. injection P as <-. right. eexists. reflexivity.
Qed.

Lemma write_each_good env p l : forall s s', write_each env p l s = Ret s' -> forall h, In h l -> p h = true -> good env h.
Proof.
  induction l as [|x l IH]; intros s s' E h [].
  - subst x. intros P. cbn [write_each] in E. rewrite P in E. unfold HeaderTypeDeclaration in E. destruct (head_text env h) as [t|e|u] eqn:Et; cbn [bind] in E; try discriminate. destruct (existsb adds_declaration (h_nested h)) eqn:X; [discriminate|].
    split; [exists t; exact Et|]. apply Forall_forall. intros k Hk. destruct k; [reflexivity|exfalso..]; apply Bool.not_true_iff_false in X; apply X; apply existsb_exists; eexists; (split; [exact Hk|reflexivity]).
  - cbn [write_each] in E. destruct (p x); [|apply (IH _ _ E h H)]. destruct (HeaderTypeDeclaration env x s) as [s1|e|u]; cbn [bind] in E; try discriminate. destruct (existsb adds_declaration (h_nested x)); [discriminate|]. apply (IH _ _ E h H).
Qed.
Lemma header_good env types ls : header_lines env types = Ret ls -> forall h, In h (fold_left visit_type types []) -> has_definition h = true -> good env h.
Proof.
  unfold header_lines. set (l := fold_left visit_type types []). clearbody l. intros E h Hh D.
  destruct (write_each env (fun h => is_struct (decl_of h)) l (mk_hstate None [] [])) as [s1|e|u] eqn:E1; cbn [bind] in E; try discriminate.
  destruct (write_each env (fun h => is_class (decl_of h)) l s1) as [s2|e|u] eqn:E2; cbn [bind] in E; try discriminate.
  unfold has_definition in D. destruct (h_kind h) eqn:K; try discriminate.
  - apply (write_each_good _ _ _ _ _ E1 h Hh). unfold is_struct, decl_of. cbn [d_type]. rewrite K. reflexivity.
  - apply (write_each_good _ _ _ _ _ E2 h Hh). unfold is_class, decl_of. cbn [d_type]. rewrite K. reflexivity.
Qed.
Lemma spaces_in L : forall l n, In n (spaces_of L l) <-> In n l \/ exists h, In h L /\ fst (h_id h) = n.
Proof.
  induction L as [|h L IH]; intros l n; cbn [spaces_of].
  - split; [auto|intros [H|(h & [] & _)]; exact H].
  - rewrite IH. destruct (known (fst (h_id h)) l) eqn:K.
    + apply known_in in K. split; [intros [H|(x & H1 & H2)]; [auto|right; exists x; cbn [In]; auto]|intros [H|(x & [<-|H1] & H2)]; [auto|subst n; auto|right; exists x; auto]].
    + rewrite in_app_iff. cbn [In]. split; [intros [[H|[H|[]]]|(x & H1 & H2)]; [auto|right; exists h; auto|right; exists x; auto]|intros [H|(x & [<-|H1] & H2)]; [auto|auto|right; exists x; auto]].
Qed.
Lemma spaces_nodup L : forall l, NoDup l -> NoDup (spaces_of L l).
Proof.
  induction L as [|h L IH]; intros l N; cbn [spaces_of]; [exact N|]. apply IH. destruct (known (fst (h_id h)) l) eqn:K; [exact N|].
  apply (Permutation_NoDup (Permutation_cons_append l _)). constructor; [|exact N]. intros H. apply known_in in H. congruence.
Qed.
(** Whatever the program: the namespaces of its classes and structs are used exactly once each, and only after the last definition. *)
Theorem C99_directives env types ls : header_lines env types = Ret ls ->
  NoDup (directives ls) /\ (forall n, In n (directives ls) <-> exists h, In h types /\ has_definition h = true /\ n = cpp_namespace (fst (h_id h))) /\
  (forall l1 t l2, ls = l1 ++ Head t :: l2 -> directives l1 = []).
Proof.
  intros E. rewrite (header_emit env types (header_good env types ls E)) in E. injection E as <-.
  assert (C : directives (match final_ns (order types) None with Some _ => [NsClose] | None => [] end) = []) by (destruct (final_ns (order types) None); reflexivity).
  rewrite !directives_app, emit_directives, C, usings_directives. cbn [app]. split; [|split].
  - pose proof (spaces_nodup (order types) [] (NoDup_nil _)) as N. induction N as [|x l H _ IH]; cbn [map]; constructor; [|exact IH]. intros X. apply in_map_iff in X. destruct X as (y & Y1 & Y2). apply C72_distinct in Y1. subst y. auto.
  - intros n. rewrite in_map_iff. split.
    + intros (v & <- & H). apply spaces_in in H. destruct H as [[]|(h & H1 & H2)]. apply in_order in H1. exists h. rewrite H2. tauto.
    + intros (h & H1 & H2 & ->). exists (fst (h_id h)). split; [reflexivity|]. apply spaces_in. right. exists h. split; [apply in_order; auto|reflexivity].
  - intros l1 t l2 E. assert (A : forall l, ~ In (Head t) (map (fun n => UsingNs (namespace_name n)) l)) by (intros l H; apply in_map_iff in H; destruct H as (? & ? & _); discriminate).
    apply app_eq_app in E. destruct E as (l & [[E1 E2]|[E1 E2]]).
    + pose proof (emit_directives env (order types) None) as D. rewrite E1, directives_app in D. apply app_eq_nil in D. apply D.
    + rewrite E1, directives_app, emit_directives. cbn [app]. apply app_eq_app in E2. destruct E2 as (m & [[F1 F2]|[F1 F2]]).
      * rewrite F1, directives_app in C. apply app_eq_nil in C. apply C.
      * exfalso. apply (A (spaces_of (order types) [])). rewrite F2. apply in_app_iff. right. left. reflexivity.
Qed.
(** Consequently the bases of a type can only be types of its own namespace or of the library. *)
Theorem C99_own_namespace_only env lib types ls l1 t l2 ns n x : runtime lib -> header_lines env types = Ret ls -> ls = l1 ++ Head t :: l2 ->
  lookup (map (fun p => cpp_id (h_id p)) types ++ lib) (runtime_namespaces ++ directives l1) ns n x -> fst x = ns \/ In (fst x) runtime_namespaces.
Proof.
  intros R E El L. destruct (C99_directives env types ls E) as (_ & _ & D). rewrite (D _ _ _ El), app_nil_r in L. destruct L as [_|u _ U _ _]; cbn [fst]; auto.
Qed.
(** A class derived from a class of another namespace does not compile, whatever the library. *)
Theorem C99_other_namespace_refuted env : (IsLower env 65 = false /\ IsLower env 66 = false) -> exists types ls, header_lines env types = Ret ls /\ order_supported types /\
  exists d p l1 t l2, In d types /\ In p types /\ base p d /\ ls = l1 ++ Head t :: l2 /\ read_head t = Some (KClass, snd (h_id d), [(Public, snd (h_id p))]) /\
  forall lib x, runtime lib -> open_after l1 None = Some (cpp_namespace (fst (h_id d))) /\ (lookup (map (fun p => cpp_id (h_id p)) types ++ lib) (runtime_namespaces ++ directives l1) (cpp_namespace (fst (h_id d))) (snd (h_id p)) x -> x <> cpp_id (h_id p)).
Proof.
  intros [HA HB]. set (A := mk_htype (T "N", T "A") ClassType [] []). set (B := mk_htype (T "M", T "B") ClassType [((T "N", T "A"), SimpleType (T "A"))] []).
  exists [A; B], [NsOpen (T "N_NS"); Head (T "class A : public Object"); NsClose; NsOpen (T "M_NS"); Head (T "class B : public A"); NsClose; UsingNs (T "N_NS"); UsingNs (T "M_NS")].
  split; [|split].
  - unfold header_lines. change (fold_left visit_type [A; B] []) with [A; B]. cbn [write_each is_struct is_class decl_of d_type A B h_kind]. unfold HeaderTypeDeclaration, head_text, mangle, PrefixName. cbn [h_id A B fst snd T]. cbn. rewrite ?HA, ?HB. cbn. rewrite ?HA, ?HB. reflexivity.
  - split; [|split].
    + intros l1 d l2 p c E. destruct l1 as [|x [|y l1]]; cbn [app] in E; [intros []| |destruct l1; discriminate]. injection E as <- <- _. intros [<-|[]] [<-|[]] _ H. cbn in H. exact H.
    + intros d [<-|[<-|[]]]; cbn; [intros []|intros [H|[]]; discriminate].
    + intros s c [<-|[<-|[]]] _ K; discriminate.
  - exists B, A, [NsOpen (T "N_NS"); Head (T "class A : public Object"); NsClose; NsOpen (T "M_NS")], (T "class B : public A"), [NsClose; UsingNs (T "N_NS"); UsingNs (T "M_NS")].
    split; [right; left; reflexivity|]. split; [left; reflexivity|]. split; [left; reflexivity|]. split; [reflexivity|]. split; [reflexivity|]. intros lib x R. split; [reflexivity|]. intros L E. subst x. inversion L as [H1 H2|u H1 [<-|[<-|[]]] H3 H4 H5]; discriminate.
Qed.
(** The second base of a class is private. *)
Theorem C99_second_base_refuted env : IsLower env 65 = false -> IsLower env 73 = false -> IsLower env 66 = false -> exists h ls l1 t l2 n i, header_lines env [h] = Ret ls /\ ls = l1 ++ Head t :: l2 /\ read_head t = Some (KClass, n, [(Public, T "B"); (Private, i)]) /\ map fst (h_bases h) = [(T "System", T "B"); (T "System", i)].
Proof.
  intros HA HI HB. set (h := mk_htype (T "N", T "A") ClassType [((T "System", T "B"), SimpleType (T "B")); ((T "System", T "I"), SimpleType (T "I"))] []).
  exists h, [NsOpen (T "N_NS"); Head (T "class A : public B,I"); NsClose; UsingNs (T "N_NS")], [NsOpen (T "N_NS")], (T "class A : public B,I"), [NsClose; UsingNs (T "N_NS")], (T "A"), (T "I").
  split; [|auto]. unfold header_lines. change (fold_left visit_type [h] []) with [h]. unfold write_each, HeaderTypeDeclaration, head_text, OutputParentage, h. cbn. unfold mangle, PrefixName. cbn. rewrite HA, HI, HB. reflexivity.
Qed.
(** A base written with its namespace: only the namespace is written. *)
Theorem C99_qualified_refuted env : IsLower env 78 = false -> forall m, VisitAstType env (MemberType (SimpleType (T "N")) m) = Ret (T "N").
Proof. intros H m. cbn [VisitAstType]. unfold mangle, PrefixName. cbn [T]. cbn. rewrite H. reflexivity. Qed.
(** A program with a class or struct inside another type has no header at all. *)
Theorem C99_nested_refuted env types h k : In h types -> has_definition h = true -> In k (h_nested h) -> k <> EnumType -> forall ls, header_lines env types <> Ret ls.
Proof.
  intros Hh D Hk K ls E. assert (F : In h (fold_left visit_type types [])).
  { apply (Permutation_in h (Permutation_sym (fold_type_permutation types []))). cbn [app]. apply filter_In. split; [exact Hh|]. unfold has_definition in D. unfold is_enum, decl_of. cbn [d_type]. destruct (h_kind h); try discriminate; reflexivity. }
  destruct (header_good env types ls E h F D) as [_ N]. rewrite Forall_forall in N. apply K, N, Hk.
Qed.
(** The namespace of an enum is not used unless it holds a class or struct as well: the code of other namespaces cannot name the enum. *)
Theorem C99_enum_namespace_refuted env e types ls : h_kind e = EnumType -> (forall h, In h types -> fst (h_id h) = fst (h_id e) -> h_kind h = EnumType) -> header_lines env types = Ret ls -> ~ In (cpp_namespace (fst (h_id e))) (directives ls).
Proof.
  intros _ O E H. apply (C99_directives env types ls E) in H. destruct H as (h & H1 & H2 & H3). rewrite !cpp_namespace_eq in H3. apply C72_distinct in H3. unfold has_definition in H2. rewrite (O h H1 (eq_sym H3)) in H2. discriminate.
Qed.
(** The interfaces of the program are not given to the translator (Program.cs 110) and the library has none: the interface a type
    implements, of its own namespace, is named as a base but declared nowhere. *)
Theorem C99_interface_refuted env lib types ls l1 t l2 ns i : runtime lib -> (forall u, ~ In (u, i) lib) -> (forall p, In p types -> h_id p <> (ns, i)) ->
  header_lines env types = Ret ls -> ls = l1 ++ Head t :: l2 -> forall x, ~ lookup (map (fun p => cpp_id (h_id p)) types ++ lib) (runtime_namespaces ++ directives l1) (cpp_namespace ns) i x.
Proof.
  intros R Hl Ht E El x L. destruct (C99_directives env types ls E) as (_ & _ & D). rewrite (D _ _ _ El), app_nil_r in L.
  assert (O : forall u, In (u, i) (map (fun p => cpp_id (h_id p)) types ++ lib) -> exists p, In p types /\ cpp_id (h_id p) = (u, i)).
  { intros u H. apply in_app_iff in H. destruct H as [H|H]; [apply in_map_iff in H; destruct H as (p & P1 & P2); exists p; auto|destruct (Hl u H)]. }
  destruct L as [H|u _ U H _].
  - destruct (O _ H) as (p & P1 & P2). apply (Ht p P1). apply cpp_id_inj. exact P2.
  - destruct (O _ H) as (p & P1 & P2). symmetry in P2. exact (cpp_id_runtime _ _ _ U P2).
Qed.

(** A program that meets the hypotheses: a class of the program's namespace derived from another one that is visited later, and a struct. *)
Example C99_example : let env := mk_dotnet [10] (fun c => (97 <=? c) && (c <=? 122)) in let lib := [(T "DotnetLibrary", T "Object"); (T "DotnetLibrary", T "Exception")] in
  let A := mk_htype (T "App", T "Shape") ClassType [] [] in let B := mk_htype (T "App", T "Circle") ClassType [((T "App", T "Shape"), SimpleType (T "Shape"))] [EnumType] in
  let S := mk_htype (T "App", T "Point") StructType [] [] in let X := mk_htype ([], T "Failure") ClassType [((T "System", T "Exception"), SimpleType (T "Exception"))] [] in
  supported (IsLower env) lib [B; A; S; X] /\ order_supported [B; A; S; X] /\
  header_lines env [B; A; S; X] = Ret [NsOpen (T "App_NS"); Head (T "struct Point : public Object"); Head (T "class Shape : public Object"); Head (T "class Circle : public Shape"); NsClose; NsOpen (T "UNNAMED"); Head (T "class Failure : public Exception"); NsClose; UsingNs (T "App_NS"); UsingNs (T "UNNAMED")].
Proof.
  assert (O : forall s, match T s with [] => False | c :: r => identifier (c :: r) /\ ((97 <=? c) && (c <=? 122)) = false /\ c :: r <> T "Void" /\ c :: r <> T "public" end -> ordinary (fun c => (97 <=? c) && (c <=? 122)) (T s)).
  { intros s. destruct (T s) as [|c r]; [intros []|]. intros (H1 & H2 & H3 & H4). split; [exact H1|]. split; [intros c' r' E; injection E as <- _; exact H2|auto]. }
  assert (O1 : ordinary (fun c => (97 <=? c) && (c <=? 122)) (T "Shape")) by (apply O; vm_compute; repeat constructor; discriminate).
  assert (O2 : ordinary (fun c => (97 <=? c) && (c <=? 122)) (T "Circle")) by (apply O; vm_compute; repeat constructor; discriminate).
  assert (O3 : ordinary (fun c => (97 <=? c) && (c <=? 122)) (T "Point")) by (apply O; vm_compute; repeat constructor; discriminate).
  assert (O4 : ordinary (fun c => (97 <=? c) && (c <=? 122)) (T "Failure")) by (apply O; vm_compute; repeat constructor; discriminate).
  assert (O5 : ordinary (fun c => (97 <=? c) && (c <=? 122)) (T "Exception")) by (apply O; vm_compute; repeat constructor; discriminate).
  clear O. intros env lib A B S X. split; [|split; [|vm_compute; reflexivity]].
  - split; [|split].
    + split; [repeat constructor; cbn; auto|]. cbn. repeat constructor; cbn; intuition discriminate.
    + cbn. repeat constructor; cbn; intuition discriminate.
    + assert (FO : forall h n u, In (u, n) lib -> (forall x, In x [B; A; S; X] -> h_id x <> (fst (h_id h), n)) -> from_runtime lib [B; A; S; X] h n) by (intros h n u H1 H2; split; [exists u; exact H1|exact H2]).
      intros h [<-|[<-|[<-|[<-|[]]]]]; cbn [translated B A S X h_kind h_id snd h_bases h_nested].
      * split; [reflexivity|]. split; [exact O2|]. split; [constructor; [exact O1|constructor]|]. intros _. split; [repeat constructor|]. split; [|discriminate]. constructor; [|constructor]. split; [reflexivity|]. split; [exact O1|]. left. split; [reflexivity|]. exists A. cbn. auto.
      * split; [reflexivity|]. split; [exact O1|]. split; [constructor|]. intros _. split; [constructor|]. split; [constructor|]. intros _. apply (FO A _ (T "DotnetLibrary")); [left; reflexivity|]. intros x [<-|[<-|[<-|[<-|[]]]]]; discriminate.
      * split; [reflexivity|]. split; [exact O3|]. split; [constructor|]. intros _. split; [constructor|]. split; [constructor|]. intros _. apply (FO S _ (T "DotnetLibrary")); [left; reflexivity|]. intros x [<-|[<-|[<-|[<-|[]]]]]; discriminate.
      * split; [reflexivity|]. split; [exact O4|]. split; [constructor; [exact O5|constructor]|]. intros _. split; [constructor|]. split; [|discriminate]. constructor; [|constructor]. split; [reflexivity|]. split; [exact O5|]. right. split; [intros p [<-|[<-|[<-|[<-|[]]]]]; discriminate|]. apply (FO X _ (T "DotnetLibrary")); [right; left; reflexivity|]. intros x [<-|[<-|[<-|[<-|[]]]]]; discriminate.
  - split; [|split].
    + intros l1 d l2 p c E Hp _ BP _. assert (Ip : In p [B; A; S; X]) by (rewrite E; apply in_app_iff; auto). destruct l1 as [|x1 [|x2 [|x3 [|x4 l1]]]]; cbn [app] in E; [destruct Hp| | | |destruct l1; discriminate].
      * injection E as _ <- _. destruct BP.
      * injection E as _ _ <- _. destruct BP.
      * injection E as _ _ _ <- _. destruct BP as [BP|[]]. destruct Ip as [<-|[<-|[<-|[<-|[]]]]]; discriminate.
    + intros d [<-|[<-|[<-|[<-|[]]]]]; cbn; intuition discriminate.
    + intros s c [<-|[<-|[<-|[<-|[]]]]] _ K; try discriminate. intros _ []. 
Qed.
Print Assumptions C99_bases_partial.
Print Assumptions C99_directives.
Print Assumptions C99_own_namespace_only.
Print Assumptions C99_nested_refuted.
