(** * C58, C69-C72: supported types, definition order, enum members, consistent names, namespaces *)
From Coq Require Import String Bool Permutation Sorting.Sorted.
From Verif Require Import Tac MemModel MemProofs FormatterModel FormatterSpec FormatterProofs FormatterProperties TranslatorModel TranslatorSpec.
Import ListNotations.
Local Open Scope Z_scope.

(** ** C58 *)
Lemma known_in x l : known x l = true <-> In x l.
Proof. unfold known. rewrite existsb_exists. split; [intros (y & H & E); apply text_eqb_eq in E; subst; exact H|]. intros H. exists x. split; [exact H|]. apply text_eqb_refl. Qed.
Lemma StartsWith_iff p : forall s, StartsWith s p = true <-> exists r, s = p ++ r.
Proof.
  induction p as [|c p IH]; intros s; cbn [StartsWith].
  - split; [exists s; reflexivity|reflexivity].
  - destruct s as [|d s]; [split; [discriminate|intros (r & E); discriminate]|]. rewrite andb_true_iff, IH. split.
    + intros (E & r & ->). exists r. apply Z.eqb_eq in E. subst. reflexivity.
    + intros (r & E). injection E as -> ->. split; [apply Z.eqb_refl|exists r; reflexivity].
Qed.
(** State after any history: the table, then what was reported, in order; what was reported is what was used and is unsupported. *)
Definition inv (table : list text) (used : list text) (v : validator) : Prop :=
  legalTypes v = table ++ traced v /\ NoDup (traced v) /\ forall n, In n (traced v) <-> (exists r, In r used /\ plain_name r = n) /\ unsupported table n.
Lemma validate_inv table used v x : inv table used v -> exists v', ValidateType v x = Ret v' /\ inv table (used ++ [x]) v'.
Proof.
  intros (L & N & I). unfold ValidateType. change (remove_reference x) with (plain_name x). set (n := plain_name x).
  assert (U : forall m, (exists r, In r (used ++ [x]) /\ plain_name r = m) <-> (exists r, In r used /\ plain_name r = m) \/ m = n).
  { intros m. split.
    - intros (r & Hr & E). apply in_app_iff in Hr. destruct Hr as [Hr|[->|[]]]; [left; eauto|right; symmetry; exact E].
    - intros [(r & Hr & E)|E]; [exists r; rewrite in_app_iff; auto|exists x; rewrite in_app_iff; cbn; auto]. }
  destruct (StartsWith n System_dot) eqn:S; cbn [negb].
  - destruct (known n (legalTypes v)) eqn:K; cbn [negb].
    + exists v. split; [reflexivity|]. split; [exact L|]. split; [exact N|]. intros m. rewrite I, U. apply known_in in K. rewrite L in K. apply in_app_iff in K. split; [tauto|]. intros [[H|E] Hu]; [tauto|].
      subst m. destruct K as [K|K]; [destruct Hu as [_ Hu]; contradiction|]. apply I in K. tauto.
    + unfold IllegalType, Dictionary_Add. rewrite throw_if_false by exact K. rewrite !bind_ret. eexists. split; [reflexivity|]. unfold inv. cbn [legalTypes traced].
      assert (KN : ~ In n (table ++ traced v)) by (rewrite <- L; intros H; apply known_in in H; congruence).
      split; [rewrite L, app_assoc; reflexivity|]. split.
      * apply (Permutation_NoDup (l := n :: traced v)); [apply Permutation_cons_append|]. constructor; [|exact N]. intros H. apply KN. apply in_app_iff. auto.
      * intros m. rewrite in_app_iff, I, U. cbn [In]. split.
        -- intros [H|[E|[]]]; [tauto|]. subst m. split; [tauto|]. split; [apply StartsWith_iff; exact S|]. intros H. apply KN. apply in_app_iff. auto.
        -- intros [[H|E] Hu]; [tauto|]. auto.
  - exists v. split; [reflexivity|]. split; [exact L|]. split; [exact N|]. intros m. rewrite I, U. split; [tauto|]. intros [[H|E] Hu]; [tauto|]. subst m. destruct Hu as [Hu _]. apply StartsWith_iff in Hu. change (T "System.") with System_dot in Hu. congruence.
Qed.
Lemma signature_loop table ps : forall used v sb (needComma : bool), inv table used v -> exists v', BuildCallSignature v sb needComma ps = Ret (v', sb ++ (match ps with [] => [] | _ => if needComma then T "," else [] end) ++ comma_separated ps ++ T ")") /\ inv table (used ++ ps) v'.
Proof.
  induction ps as [|p ps IH]; intros used v sb nc H; cbn [BuildCallSignature].
  - exists v. split; [reflexivity|]. rewrite app_nil_r. exact H.
  - destruct (validate_inv table used v p H) as (v1 & -> & H1). rewrite bind_ret. destruct (IH (used ++ [p]) v1 ((if nc then sb ++ [44] else sb) ++ p) true H1) as (v2 & -> & H2). exists v2.
    rewrite <- app_assoc in H2. split; [|exact H2]. do 2 f_equal. destruct ps as [|q ps]; destruct nc; cbn [comma_separated app]; rewrite <- ?app_assoc; reflexivity.
Qed.
Definition do_usage (v : validator) (u : usage) : outcome validator := match u with Uses t => ValidateType v t | Calls m ps => ValidateCall v m ps end.
Fixpoint do_usages (v : validator) (us : list usage) : outcome validator := match us with [] => Ret v | u :: us => v <- do_usage v u ;; do_usages v us end.
Lemma usages_inv table us : forall used v, inv table used v -> exists v', do_usages v us = Ret v' /\ inv table (used ++ flat_map names_used us) v'.
Proof.
  induction us as [|u us IH]; intros used v H; cbn [do_usages flat_map].
  - exists v. rewrite app_nil_r. auto.
  - assert (X : exists v', do_usage v u = Ret v' /\ inv table (used ++ names_used u) v').
    { destruct u as [t|m ps]; cbn [do_usage names_used]; [apply validate_inv, H|]. unfold ValidateCall. destruct (signature_loop table ps used v (m ++ [40]) false H) as (v1 & -> & H1). rewrite bind_ret. cbn [fst snd].
      set (sg := (m ++ [40]) ++ _). assert (ES : sg = signature m ps) by (unfold sg, signature; destruct ps; rewrite <- !app_assoc; reflexivity). rewrite ES.
      destruct (validate_inv table _ v1 (signature m ps) H1) as (v2 & -> & H2). exists v2. split; [reflexivity|]. rewrite app_assoc. exact H2. }
    destruct X as (v1 & -> & H1). rewrite bind_ret. destruct (IH _ v1 H1) as (v2 & E & H2). exists v2. split; [exact E|]. rewrite app_assoc. exact H2.
Qed.
Lemma load_nodup rows : forall d, NoDup (d ++ rows) -> LoadValidationData d rows = (d ++ rows, true).
Proof.
  induction rows as [|r rows IH]; intros d N; cbn [LoadValidationData]; [rewrite app_nil_r; reflexivity|]. unfold Dictionary_Add.
  assert (K : known r d = false). { apply not_true_is_false. intros K. apply known_in in K. apply NoDup_remove_2 in N. apply N. apply in_app_iff. auto. }
  rewrite throw_if_false by exact K. rewrite bind_ret. rewrite IH; rewrite <- app_assoc; [reflexivity|exact N].
Qed.
(** With a table without duplicate rows, every history of type uses and calls runs to the end and reports
    each unsupported name it refers to exactly once, and nothing else. *)
Theorem C58_reported_exactly_once missing rows us : NoDup rows ->
  exists v, do_usages (LoadValidTypes missing rows) us = Ret v /\ NoDup (traced v) /\
    forall n, In n (traced v) <-> (exists u r, In u us /\ In r (names_used u) /\ plain_name r = n) /\ unsupported rows n.
Proof.
  intros N. unfold LoadValidTypes. rewrite (load_nodup rows [] N). destruct (usages_inv rows us [] (mk_validator rows [])) as (v & E & _ & Nv & I).
  { split; [cbn; rewrite app_nil_r; reflexivity|]. split; [constructor|]. intros n. cbn. split; [intros []|]. intros [(r & [] & _) _]. }
  exists v. split; [exact E|]. split; [exact Nv|]. intros n. rewrite I. cbn [app]. split.
  - intros [(r & Hr & En) Hu]. apply in_flat_map in Hr. destruct Hr as (u & H1 & H2). split; [exists u, r; auto|exact Hu].
  - intros [(u & r & H1 & H2 & En) Hu]. split; [exists r; rewrite in_flat_map; split; [exists u; auto|exact En]|exact Hu].
Qed.
(** A duplicate row in the table (nothing in the code prevents one) makes the rest of the table be ignored:
    a supported type after it is reported. *)
Theorem C58_duplicate_row_refuted : exists missing rows us v n, do_usages (LoadValidTypes missing rows) us = Ret v /\ In n (traced v) /\ In n rows.
Proof.
  exists [], [T "System.A"; T "System.A"; T "System.B"], [Uses (T "System.B")]. eexists _, (T "System.B"). split; [reflexivity|]. cbn [traced]. split; vm_compute; tauto.
Qed.
Example C58_example : exists v, do_usages (LoadValidTypes [] [T "System.Object"; T "System.Object.Equals(System.Object)"])
  [Uses (T "System.Object"); Calls (T "System.Object.Equals") [T "System.Object&"]; Uses (T "System.Guid"); Calls (T "My.F") [T "System.Guid"; T "My.T"]; Calls (T "System.Guid.F") []] = Ret v /\ traced v = [T "System.Guid"; T "System.Guid.F()"].
Proof. eexists. split; vm_compute; reflexivity. Qed.

(** ** C69 *)
(** [p] is a direct base type of [c]. *)
Definition base_of (p c : declaration) : Prop := In (d_name p) (d_bases c).
Lemma IsParentOf_iff p c : IsParentOf p c = true <-> base_of p c.
Proof. apply known_in. Qed.
(** No later definition is a base of an earlier one. *)
Definition bases_first (l : list declaration) : Prop := forall l1 c l2 p, l = l1 ++ c :: l2 -> In p l2 -> ~ base_of p c.
Lemma bases_first_cons c l : bases_first (c :: l) <-> (forall p, In p l -> ~ base_of p c) /\ bases_first l.
Proof.
  split.
  - intros H. split; [intros p; apply (H [] c l p); reflexivity|]. intros l1 x l2 p E. apply (H (c :: l1) x l2 p). rewrite E. reflexivity.
  - intros [H1 H2] l1 x l2 p E. destruct l1 as [|y l1]; injection E as -> E; [subst; apply H1|]. apply (H2 l1 x l2 p E).
Qed.
Lemma insert_permutation d l : Permutation (insert_declaration d l) (d :: l).
Proof. induction l as [|x l IH]; cbn [insert_declaration]; [reflexivity|]. destruct (IsParentOf d x); [reflexivity|]. rewrite IH. apply perm_swap. Qed.
Lemma insert_sorted d l : bases_first l -> ~ base_of d d -> ((exists c, In c l /\ base_of d c) -> forall p, In p l -> ~ base_of p d) -> bases_first (insert_declaration d l).
Proof.
  induction l as [|x l IH]; intros S D H; cbn [insert_declaration].
  - intros [|y [|z l1]] c l2 p E; [injection E as <- <-; intros []|discriminate|discriminate].
  - apply bases_first_cons in S. destruct S as [S1 S2]. destruct (IsParentOf d x) eqn:E.
    + apply bases_first_cons. split; [|apply bases_first_cons; auto]. apply H. exists x. split; [left; reflexivity|apply IsParentOf_iff, E].
    + apply bases_first_cons. split.
      * intros p Hp. apply (Permutation_in p (insert_permutation d l)) in Hp. destruct Hp as [<-|Hp]; [|apply S1, Hp]. intros B. apply IsParentOf_iff in B. congruence.
      * apply IH; [exact S2|exact D|]. intros (c & Hc & B) p Hp. apply H; [exists c; split; [right; exact Hc|exact B]|right; exact Hp].
Qed.
Lemma fold_permutation types : forall l, Permutation (fold_left VisitTypeDeclaration types l) (l ++ filter (fun d => negb (is_enum d)) types).
Proof.
  induction types as [|d types IH]; intros l; cbn [fold_left filter]; [rewrite app_nil_r; reflexivity|]. rewrite IH. unfold VisitTypeDeclaration. destruct (is_enum d); cbn [negb]; [reflexivity|]. rewrite insert_permutation. apply (Permutation_middle l _ d).
Qed.
(** Every struct and class is written exactly once, whatever the order of the types. *)
Theorem C69_each_type_once types : Permutation (header_of types) (filter (fun d => is_struct d || is_class d) types).
Proof.
  unfold header_of, CreateHeaders. pose proof (fold_permutation types []) as P. cbn [app] in P. set (L := fold_left _ _ _) in *. clearbody L.
  assert (F : forall (f : declaration -> bool) a b, Permutation a b -> Permutation (filter f a) (filter f b)).
  { intros f a b Q. induction Q as [|x a b _ IH|x y a|a b c _ IH1 _ IH2]; cbn [filter]; [reflexivity|destruct (f x); [constructor; exact IH|exact IH]|destruct (f x), (f y); try reflexivity; apply perm_swap|etransitivity; eassumption]. }
  rewrite (F is_struct _ _ P), (F is_class _ _ P). clear. induction types as [|d types IH]; cbn [filter]; [reflexivity|]. unfold is_enum, is_struct at 1, is_class at 1, is_struct at 2, is_class at 2. destruct d as [n t b fs]. cbn [d_type]. destruct t; cbn [negb orb filter is_struct is_class d_type]; try exact IH.
  - cbn [app]. constructor. exact IH.
  - rewrite <- IH. symmetry. apply Permutation_middle.
Qed.
(** If no type follows both one of its bases and one of its derived types in the input, bases are defined before the types derived from them. *)
Definition never_in_between (types : list declaration) : Prop :=
  forall l1 d l2 p c, types = l1 ++ d :: l2 -> In p l1 -> In c l1 -> base_of p d -> base_of d c -> False.
Theorem C69_bases_first_partial types : never_in_between types -> (forall d, In d types -> ~ base_of d d) ->
  (forall s c, In s types -> In c types -> is_struct s = true -> is_class c = true -> ~ base_of c s) -> bases_first (header_of types).
Proof.
  intros H D SC. unfold header_of, CreateHeaders.
  assert (A : forall post pre l, types = pre ++ post -> Permutation l (filter (fun d => negb (is_enum d)) pre) -> bases_first l -> bases_first (fold_left VisitTypeDeclaration post l)).
  { induction post as [|d post IH]; intros pre l E P S; cbn [fold_left]; [exact S|]. apply (IH (pre ++ [d])).
    - rewrite E, <- app_assoc. reflexivity.
    - unfold VisitTypeDeclaration. rewrite filter_app. cbn [filter]. destruct (is_enum d); cbn [negb]; [rewrite app_nil_r; exact P|]. rewrite insert_permutation, P. apply Permutation_cons_append.
    - unfold VisitTypeDeclaration. destruct (is_enum d); [exact S|].
      assert (I : forall x, In x l -> In x pre) by (intros x Hx; apply (Permutation_in x P) in Hx; apply filter_In in Hx; tauto).
      apply insert_sorted; [exact S|apply D; rewrite E, in_app_iff; cbn; auto|]. intros (c & Hc & Bc) p Hp Bp. apply (H pre d post p c E); auto. }
  pose proof (A types [] [] eq_refl (Permutation_refl _)) as S. specialize (S ltac:(intros [|? ?] ? ? ? E; discriminate)). pose proof (fold_permutation types []) as P. cbn [app] in P. set (L := fold_left _ _ _) in *. clearbody L.
  assert (F : forall f l, bases_first l -> bases_first (filter f l)).
  { intros f l. induction l as [|x l IH]; intros B; cbn [filter]; [exact B|]. apply bases_first_cons in B. destruct B as [B1 B2]. destruct (f x); [|apply IH, B2]. apply bases_first_cons. split; [intros p Hp; apply filter_In in Hp; apply B1; tauto|apply IH, B2]. }
  assert (J : forall a b, bases_first a -> bases_first b -> (forall x y, In x a -> In y b -> ~ base_of y x) -> bases_first (a ++ b)).
  { induction a as [|x a IH]; intros b Ba Bb X; cbn [app]; [exact Bb|]. apply bases_first_cons in Ba. destruct Ba as [B1 B2]. apply bases_first_cons. split.
    - intros p Hp. apply in_app_iff in Hp. destruct Hp as [Hp|Hp]; [apply B1, Hp|]. apply (X x p); [left; reflexivity|exact Hp].
    - apply IH; [exact B2|exact Bb|]. intros u w Hu Hw. apply X; [right; exact Hu|exact Hw]. }
  assert (In_types : forall x, In x L -> In x types) by (intros x Hx; apply (Permutation_in x P) in Hx; apply filter_In in Hx; tauto).
  apply J; [apply F, S|apply F, S|]. intros x y Hx Hy. apply filter_In in Hx. apply filter_In in Hy. destruct Hx as [Hx Sx], Hy as [Hy Cy]. apply SC; auto.
Qed.
(** In general the order is wrong: three classes C : B : A visited in the order C, A, B are written B, C, A. *)
Theorem C69_order_refuted : exists types, NoDup (map d_name types) /\ (forall d, In d types -> ~ base_of d d) /\ Forall (fun d => is_class d = true) types /\ ~ bases_first (header_of types).
Proof.
  set (A := mk_decl (T "A") ClassType [] []). set (B := mk_decl (T "B") ClassType [T "A"] []). set (C := mk_decl (T "C") ClassType [T "B"] []). exists [C; A; B]. split; [|split; [|split]].
  - cbn. repeat constructor; cbn; intuition discriminate.
  - intros d [<-|[<-|[<-|[]]]]; cbn; intuition discriminate.
  - repeat constructor.
  - intros H. apply (H [] B [C; A] A); [vm_compute; reflexivity|right; left; reflexivity|left; reflexivity].
Qed.
(** Structs are written in the order they are visited, so a struct whose field types come first stays behind them ... *)
Definition holds (p c : declaration) : Prop := In (d_name p) (d_fields c).
Theorem C69_structs_in_order types : (forall s d, In s types -> In d types -> is_struct s = true -> ~ base_of s d) ->
  exists classes, header_of types = filter is_struct types ++ classes /\ Forall (fun d => is_class d = true) classes.
Proof.
  intros H. unfold header_of, CreateHeaders. exists (filter is_class (fold_left VisitTypeDeclaration types [])). split; [|apply Forall_forall; intros d Hd; apply filter_In in Hd; tauto]. f_equal.
  assert (A : forall post l, (forall x, In x l -> In x types) -> (forall x, In x post -> In x types) -> filter is_struct (fold_left VisitTypeDeclaration post l) = filter is_struct l ++ filter is_struct post).
  { induction post as [|d post IH]; intros l Hl Hp; cbn [fold_left filter]; [rewrite app_nil_r; reflexivity|].
    assert (Hd : In d types) by (apply Hp; left; reflexivity). assert (Hp' : forall x, In x post -> In x types) by (intros x Hx; apply Hp; right; exact Hx).
    unfold VisitTypeDeclaration at 2. destruct (is_enum d) eqn:E.
    - rewrite (IH l Hl Hp'). replace (is_struct d) with false; [reflexivity|]. unfold is_enum, is_struct in *. destruct (d_type d); congruence.
    - rewrite IH; [| |exact Hp'].
      2:{ intros x Hx. apply (Permutation_in x (insert_permutation d l)) in Hx. destruct Hx as [<-|Hx]; auto. }
      assert (F : filter is_struct (insert_declaration d l) = filter is_struct l ++ (if is_struct d then [d] else [])).
      { clear IH. induction l as [|x l IHl]; cbn [insert_declaration filter]; [reflexivity|]. destruct (IsParentOf d x) eqn:P.
        - assert (N : is_struct d = false). { apply not_true_is_false. intros S. apply (H d x Hd); [apply Hl; left; reflexivity|exact S|apply IsParentOf_iff, P]. }
          cbn [filter]. rewrite N, app_nil_r. reflexivity.
        - cbn [filter]. rewrite IHl by (intros y Hy; apply Hl; right; exact Hy). destruct (is_struct x); reflexivity. }
      rewrite F, <- app_assoc. destruct (is_struct d); reflexivity. }
  rewrite (A types []); [reflexivity|intros x []|auto].
Qed.
(** ... but nothing moves a struct before another that holds it by value. *)
Theorem C69_field_order_refuted : exists types outer inner rest, holds inner outer /\ Forall (fun d => is_struct d = true) types /\ header_of types = outer :: inner :: rest.
Proof. exists [mk_decl (T "Outer") StructType [] [T "Inner"]; mk_decl (T "Inner") StructType [] []]. eexists _, _, []. split; [|split; [|vm_compute; reflexivity]]; [left; reflexivity|repeat constructor]. Qed.
Example C69_example : let A := mk_decl (T "A") ClassType [] [] in let B := mk_decl (T "B") ClassType [T "A"] [] in let C := mk_decl (T "C") ClassType [T "A"] [] in let S := mk_decl (T "S") StructType [] [] in
  never_in_between [C; B; S; A] /\ header_of [C; B; S; A] = [S; A; C; B].
Proof.
  cbv zeta. split; [|vm_compute; reflexivity]. intros l1 d l2 p c E Hp Hc B1 B2. destruct l1 as [|x1 [|x2 [|x3 [|x4 l1]]]]; try (injection E; intros; subst; cbn in *; intuition (subst; cbn in *; intuition discriminate)). destruct l1; discriminate.
Qed.

(** ** C70 *)
Lemma PrefixName_inj env : lower_ascii env -> forall a b m, PrefixName env a = Ret m -> PrefixName env b = Ret m -> a = b.
Proof.
  intros Hl.
  assert (A : forall n m, PrefixName env n = Ret m -> (m = n /\ (lower_name env n = false \/ n = this_text)) \/ (m = Prefix ++ n /\ lower_name env n = true)).
  { intros [|c n] m E; [discriminate|]. cbn [PrefixName] in E. cbn [lower_name]. destruct (IsLower env c); cbn [andb] in E; [|injection E as <-; auto]. destruct (text_eqb (c :: n) this_text) eqn:X; cbn [negb] in E; injection E as <-; [|auto]. apply text_eqb_eq in X. auto. }
  assert (B : forall a b, a = Prefix ++ b -> lower_name env a = false \/ a = this_text -> False).
  { intros a b -> [C|C]; [|discriminate]. cbn in C. rewrite Hl in C by lia. discriminate. }
  intros a b m Ea Eb. destruct (A a m Ea) as [[M1 C1]|[M1 C1]], (A b m Eb) as [[M2 C2]|[M2 C2]].
  - congruence.
  - exfalso. apply (B a b); [congruence|exact C1].
  - exfalso. apply (B b a); [congruence|exact C2].
  - rewrite M1 in M2. apply app_inv_head in M2. exact M2.
Qed.
(** Within one enum the emitted enumerators are different. *)
Theorem C70_same_enum env enum m1 m2 r : lower_ascii env -> enum_member env m1 enum = Ret r -> enum_member env m2 enum = Ret r -> m1 = m2.
Proof.
  intros Hl E1 E2. unfold enum_member in *. destruct (PrefixName env m1) as [a|e|] eqn:A; cbn [bind] in E1; try discriminate. destruct (PrefixName env m2) as [b|e|] eqn:B; cbn [bind] in E2; try discriminate.
  apply (PrefixName_inj env Hl m1 m2 a A). rewrite B. f_equal. injection E1 as <-. injection E2 as E2. apply app_inv_tail in E2. exact E2.
Qed.
(** Across enums they are different if the enums' names contain no underscore. *)
Theorem C70_different_enums_partial env e1 e2 m1 m2 r : lower_ascii env -> ~ In 95 e1 -> ~ In 95 e2 -> enum_member env m1 e1 = Ret r -> enum_member env m2 e2 = Ret r -> m1 = m2 /\ e1 = e2.
Proof.
  intros Hl N1 N2 E1 E2. unfold enum_member in *. destruct (PrefixName env m1) as [a|e|] eqn:A; cbn [bind] in E1; try discriminate. destruct (PrefixName env m2) as [b|e|] eqn:B; cbn [bind] in E2; try discriminate.
  injection E1 as <-. injection E2 as E2.
  assert (X : forall (e1 e2 a b : list Z), ~ In 95 e1 -> ~ In 95 e2 -> a ++ 95 :: e1 = b ++ 95 :: e2 -> a = b /\ e1 = e2).
  { clear. intros e1 e2 a. induction a as [|x a IH]; intros b N1 N2 E.
    - destruct b as [|y b]; cbn [app] in E.
      + assert (e1 = e2) by congruence. auto.
      + assert (e1 = b ++ 95 :: e2) by congruence. exfalso. apply N1. subst. apply in_app_iff. right. left. reflexivity.
    - destruct b as [|y b]; cbn [app] in E.
      + assert (a ++ 95 :: e1 = e2) by congruence. exfalso. apply N2. subst. apply in_app_iff. right. left. reflexivity.
      + assert (Q : a ++ 95 :: e1 = b ++ 95 :: e2) by congruence. destruct (IH b N1 N2 Q) as [-> ->]. split; [congruence|reflexivity]. }
  destruct (X e1 e2 a b N1 N2 (eq_sym E2)) as [Eab Ee]. split; [|exact Ee]. apply (PrefixName_inj env Hl m1 m2 a A). rewrite Eab. exact B.
Qed.
(** In general two enums clash: member B of enum C_D and member B_C of enum D become the same enumerator. *)
Theorem C70_clash_refuted env : IsLower env 66 = false -> enum_member env (T "B") (T "C_D") = enum_member env (T "B_C") (T "D").
Proof. intros H. unfold enum_member, PrefixName. cbn [T]. cbn. rewrite H. reflexivity. Qed.
Example C70_example : enum_member (mk_dotnet [10] (fun c => (97 <=? c) && (c <=? 122))) (T "red") (T "Color") = Ret (T "x_red_Color").
Proof. vm_compute. reflexivity. Qed.

(** ** C71 *)
Lemma text_eqb_neq a b : a <> b -> text_eqb a b = false.
Proof. intros H. apply not_true_is_false. intros X. apply text_eqb_eq in X. auto. Qed.
Lemma mangle_lower env n : lower_name env n = true -> n <> this_text -> mangle env n = Ret (Prefix ++ n).
Proof. intros L N. unfold mangle, PrefixName. destruct n as [|c n]; [discriminate|]. cbn [lower_name] in L. rewrite L, (text_eqb_neq _ _ N). cbn [andb negb]. rewrite bind_ret. rewrite text_eqb_neq by discriminate. reflexivity. Qed.
Lemma mangle_upper env n : n <> [] -> lower_name env n = false -> n <> Void_text -> mangle env n = Ret n.
Proof. intros E L N. unfold mangle, PrefixName. destruct n as [|c n]; [congruence|]. cbn [lower_name] in L. rewrite L. cbn [andb]. rewrite bind_ret, (text_eqb_neq _ _ N). reflexivity. Qed.
Lemma called_same n : n <> [] -> n <> ctor_text -> n <> op_Equality_text -> method_called n = Some n.
Proof. intros E C O. unfold method_called, GetMethodName. rewrite !text_eqb_neq by assumption. destruct n; [congruence|reflexivity]. Qed.
(** A method is called under the name it is declared with unless that name starts with a lower case letter (or is Void, .ctor or op_Equality). *)
Theorem C71_method_partial env name : name <> [] -> lower_name env name = false -> name <> Void_text -> name <> ctor_text -> name <> op_Equality_text ->
  exists m, method_declared env name = Ret m /\ method_called name = Some m.
Proof. intros N L V C O. exists name. split; [apply mangle_upper; assumption|apply called_same; assumption]. Qed.
(** Every method whose name starts with a lower case letter is declared as x_name but called as name: the
    generated program does not compile, or calls something else. *)
Theorem C71_method_lower_refuted env name : lower_name env name = true -> name <> this_text -> name <> ctor_text -> name <> op_Equality_text ->
  method_declared env name = Ret (Prefix ++ name) /\ method_called name = Some name.
Proof. intros L N C O. split; [apply mangle_lower; assumption|apply called_same; [destruct name; [discriminate L|discriminate]|assumption|assumption]]. Qed.
(** What a call writes: nothing for a constructor, Equals for the equality operator, and the method's own name otherwise. *)
Theorem C71_called : method_called (T ".ctor") = None /\ method_called (T "op_Equality") = Some (T "Equals") /\
  forall name, name <> [] -> name <> T ".ctor" -> name <> T "op_Equality" -> method_called name = Some name.
Proof. split; [reflexivity|split; [reflexivity|exact called_same]]. Qed.
(** A method that is a C++ keyword is even called under the keyword. *)
Theorem C71_method_keyword_refuted : In (T "delete") keywords /\ method_called (T "delete") = Some (T "delete").
Proof. split; [|reflexivity]. vm_compute. tauto. Qed.
(** Property accessors are consistent whatever the property's name. *)
Theorem C71_getter name : getter_called name = Some (getter_declared name).
Proof. apply called_same; discriminate. Qed.
(** The same holds of fields and, for names that do not start with a lower case letter, of created classes and of backing fields. *)
Theorem C71_field env name : StartsWith name [60] = false -> field_used env name = field_declared env name.
Proof. intros H. unfold field_used, field_declared, ReplaceSpecial. rewrite H. reflexivity. Qed.
Theorem C71_class_partial env name : name <> [] -> lower_name env name = false -> name <> Void_text -> class_declared env name = Ret (class_created name).
Proof. apply mangle_upper. Qed.
Theorem C71_class_lower_refuted env name : lower_name env name = true -> name <> this_text -> class_declared env name = Ret (Prefix ++ name) /\ class_created name = name.
Proof. intros L N. split; [apply mangle_lower; assumption|reflexivity]. Qed.
(** The backing field of property P is the field <P>k__BackingField. *)
Definition backing_field (p : list Z) : list Z := T "<" ++ p ++ T ">k__BackingField".
Lemma filter_id (k : Z) (p : list Z) : ~ In k p -> filter (fun c => negb (c =? k)) p = p.
Proof. induction p as [|c p IH]; intros H; [reflexivity|]. cbn [filter]. cbn [In] in H. replace (c =? k) with false by (symmetry; apply Z.eqb_neq; intros ->; tauto). cbn [negb]. rewrite IH by tauto. reflexivity. Qed.
Lemma ReplaceSpecial_backing p : ~ In 60 p -> ~ In 62 p -> ReplaceSpecial (backing_field p) = p ++ T "k__BackingField".
Proof.
  intros H1 H2. unfold ReplaceSpecial, backing_field. change (StartsWith (T "<" ++ p ++ T ">k__BackingField") [60]) with true. cbv iota. rewrite !filter_app, (filter_id 60 p H1), (filter_id 62 p H2). reflexivity.
Qed.
Theorem C71_backing_field_partial env p : ~ In 60 p -> ~ In 62 p -> p <> [] -> lower_name env p = false -> field_used env (backing_field p) = Ret (backing_declared (backing_field p)).
Proof.
  intros H1 H2 N L. unfold field_used, backing_declared. rewrite (ReplaceSpecial_backing p H1 H2). apply mangle_upper; [destruct p; [congruence|discriminate]|destruct p; [congruence|exact L]|].
  intros E. apply (f_equal (fun l : list Z => length l)) in E. rewrite app_length in E. cbn in E. lia.
Qed.
Theorem C71_backing_field_lower_refuted env p : ~ In 60 p -> ~ In 62 p -> lower_name env p = true ->
  exists used, field_used env (backing_field p) = Ret used /\ used = Prefix ++ backing_declared (backing_field p).
Proof.
  intros H1 H2 L. unfold field_used, backing_declared. rewrite (ReplaceSpecial_backing p H1 H2). eexists. split; [|reflexivity]. apply mangle_lower; [destruct p; [discriminate|exact L]|].
  intros E. apply (f_equal (fun l : list Z => length l)) in E. rewrite app_length in E. cbn in E. lia.
Qed.
Example C71_example : let env := mk_dotnet [10] (fun c => (97 <=? c) && (c <=? 122)) in
  (method_declared env (T "run") = Ret (T "x_run") /\ method_called (T "run") = Some (T "run")) /\ (method_declared env (T "Run") = Ret (T "Run") /\ method_called (T "Run") = Some (T "Run")) /\
  field_used env (backing_field (T "count")) = Ret (T "x_countk__BackingField") /\ backing_declared (backing_field (T "count")) = T "countk__BackingField".
Proof. vm_compute. auto. Qed.

(** ** C72 *)
Theorem C72_identifier_partial v : v = [] \/ identifier v -> identifier (namespace_name v).
Proof.
  intros [->|H]; [vm_compute; repeat constructor|]. unfold namespace_name. destruct v as [|c v]; [destruct H|]. destruct H as [H1 H2]. cbn [app identifier]. split; [exact H1|]. apply Forall_app. split; [exact H2|]. repeat constructor.
Qed.
(** A namespace of several parts (A.B) is written with its dots: not a C++ identifier. *)
Theorem C72_nested_refuted a b : ~ identifier (namespace_name (a ++ T "." ++ b)).
Proof.
  unfold namespace_name. destruct (a ++ T "." ++ b) as [|c n] eqn:E; [destruct a; discriminate|]. rewrite <- E. clear E. destruct a as [|d a]; cbn [app T identifier].
  - intros [H _]. discriminate.
  - intros [_ H]. rewrite !Forall_app in H. destruct H as [[_ H] _]. inversion H as [|? ? H1 H2]; subst. discriminate.
Qed.
(** Different namespaces get different names. *)
Theorem C72_distinct v w : namespace_name v = namespace_name w -> v = w.
Proof.
  assert (A : forall v, v ++ ns_text <> unnamed_text).
  { intros x E. apply (f_equal (@rev Z)) in E. rewrite rev_app_distr in E. discriminate. }
  unfold namespace_name. destruct v as [|c v], w as [|d w]; intros E; [reflexivity|symmetry in E; destruct (A _ E)|destruct (A _ E)|]. apply app_inv_tail in E. exact E.
Qed.
Example C72_example : identifier (T "MyApp") /\ namespace_name (T "MyApp") = T "MyApp_NS" /\ namespace_name [] = T "UNNAMED".
Proof. vm_compute. repeat constructor. Qed.
Print Assumptions C58_reported_exactly_once.
Print Assumptions C69_bases_first_partial.
Print Assumptions C70_different_enums_partial.
Print Assumptions C71_method_partial.
Print Assumptions C72_identifier_partial.
