(** * C100: the values of enums *)
From Coq Require Import String.
From Verif Require Import Base MemModel Tac IntModel IntSpec IntProofs FormatterModel FormatterSpec FormatterProofs ConstantProperties EnumModel EnumSpec.
Local Open Scope list_scope.

Lemma same_iff a b : same a b = true <-> a = b.
Proof.
  revert b. induction a as [|x a IH]; intros [|y b]; cbn [same]; try (split; congruence). rewrite andb_true_iff, Z.eqb_eq, IH. split; [intros [-> ->]; reflexivity|intros E; injection E as -> ->; auto].
Qed.
Lemma same_refl a : same a a = true.
Proof. apply same_iff. reflexivity. Qed.
Lemma same_not a b : a <> b -> same a b = false.
Proof. intros H. destruct (same a b) eqn:E; [apply same_iff in E; congruence|reflexivity]. Qed.
(** ** Tokens *)
Lemma tokens_blank b s : Forall (fun c => blank c = true) b -> tokens (b ++ s) [] = tokens s [].
Proof. induction 1 as [|c b H _ IH]; cbn [app]; [reflexivity|]. cbn [tokens]. rewrite H. exact IH. Qed.
Lemma tokens_name n : forall s w, Forall name_char n -> tokens (n ++ s) w = tokens s (w ++ n).
Proof. intros s w H. revert w. induction H as [|c n [H1 H2] _ IH]; intros w; cbn [app]; [rewrite app_nil_r; reflexivity|]. cbn [tokens]. rewrite H1, H2, IH, <- app_assoc. reflexivity. Qed.
Lemma tokens_flush_blank c s w : w <> [] -> blank c = true -> tokens (c :: s) w = w :: tokens s [].
Proof. intros W H. cbn [tokens]. rewrite H. destruct w; [congruence|reflexivity]. Qed.
Lemma mark_not_blank c : mark c = true -> blank c = false.
Proof. unfold mark, blank. lia. Qed.
Lemma tokens_flush_mark c s w : w <> [] -> mark c = true -> tokens (c :: s) w = w :: [c] :: tokens s [].
Proof. intros W H. cbn [tokens]. rewrite (mark_not_blank c H), H. destruct w; [congruence|reflexivity]. Qed.
Lemma tokens_mark c s : mark c = true -> tokens (c :: s) [] = [c] :: tokens s [].
Proof. intros H. cbn [tokens]. rewrite (mark_not_blank c H), H. reflexivity. Qed.
Lemma tokens_space s : tokens (32 :: s) [] = tokens s [].
Proof. reflexivity. Qed.
(** A word followed by a blank or a mark. *)
Lemma tokens_word n c s : n <> [] -> Forall name_char n -> blank c = true \/ mark c = true -> tokens (n ++ c :: s) [] = n :: tokens (c :: s) [].
Proof.
  intros N F [H|H]; rewrite tokens_name by exact F; cbn [app].
  - rewrite tokens_flush_blank by assumption. cbn [tokens]. rewrite H. reflexivity.
  - rewrite tokens_flush_mark by assumption. rewrite tokens_mark by exact H. reflexivity.
Qed.

(** ** Numbers *)
Lemma literal_print v : 0 <= v <= 9223372036854775807 -> literal (print_u v) = Some v.
Proof.
  intros H. destruct (print_u_spec v ltac:(unfold two64; lia)) as (V & F & N). unfold literal.
  assert (H0 : print_u v = [48] \/ hd 0 (print_u v) <> 48) by (apply (dec_digits_head 20 v); [change (10 ^ Z.of_nat 20) with 100000000000000000000; lia|lia]).
  rewrite V. revert H0. generalize dependent (print_u v). intros w V F N H0. rewrite (same_not w [] N).
  replace (forallb (fun c => (48 <=? c) && (c <=? 57)) w) with true; [|symmetry; apply forallb_forall; intros c Hc; rewrite Forall_forall in F; specialize (F c Hc); unfold digit in F; lia].
  replace (same w [48] || negb (hd 0 w =? 48)) with true; [|symmetry; destruct H0 as [-> | H0]; [reflexivity|]; apply orb_true_iff; right; lia].
  replace (v <=? 9223372036854775807) with true by lia. reflexivity.
Qed.
Lemma print_name v : 0 <= v < two64 -> name_text (print_u v).
Proof.
  intros H. destruct (print_u_spec v H) as (_ & F & N). split; [exact N|]. eapply Forall_impl; [|exact F]. intros c. unfold digit, name_char, blank, mark. lia.
Qed.

Section Environment.
Variable env : dotnet.
Hypothesis nl_blank : Forall (fun c => blank c = true) (nl env).
Notation lower := (IsLower env).
Lemma prefixed_eq n : n <> [] -> PrefixName env n = Ret (prefixed lower n).
Proof.
  destruct n as [|c n]; [congruence|]. intros _. unfold PrefixName, prefixed. destruct (IsLower env c); cbn [andb]; [|reflexivity].
  replace (text_eqb (c :: n) this_text) with (same (c :: n) (T "this")); [reflexivity|]. destruct (same (c :: n) (T "this")) eqn:E.
  - apply same_iff in E. symmetry. apply text_eqb_eq. exact E.
  - symmetry. apply not_true_is_false. intros X. apply text_eqb_eq in X. change this_text with (T "this") in X. apply same_iff in X. congruence.
Qed.
Lemma mangle_eq n : n <> [] -> mangle env n = Ret (type_name lower n).
Proof.
  intros N. unfold mangle, type_name. rewrite (prefixed_eq n N). cbn [bind]. destruct (same (prefixed lower n) (T "Void")) eqn:E.
  - apply same_iff in E. rewrite E. reflexivity.
  - replace (text_eqb (prefixed lower n) Void_text) with false; [reflexivity|]. symmetry. apply not_true_is_false. intros X. apply text_eqb_eq in X. change Void_text with (T "Void") in X. apply same_iff in X. congruence.
Qed.
Lemma prefixed_name n : name_text n -> name_text (prefixed lower n).
Proof.
  intros [N F]. unfold prefixed. destruct n as [|c n]; [congruence|]. destruct (lower c && negb (same (c :: n) (T "this"))); [|split; assumption]. split; [discriminate|]. apply Forall_app. split; [repeat constructor|exact F].
Qed.
Lemma type_name_name n : name_text n -> name_text (type_name lower n).
Proof. intros H. unfold type_name. destruct (same _ _); [split; [discriminate|repeat constructor]|apply prefixed_name, H]. Qed.
Lemma member_name_name e m : name_text e -> name_text m -> name_text (member_name lower e m).
Proof. intros E M. destruct (prefixed_name m M) as [P1 P2]. unfold member_name. split; [destruct (prefixed lower m); [congruence|discriminate]|]. apply Forall_app. split; [exact P2|]. apply Forall_app. split; [repeat constructor|apply E]. Qed.
Lemma tabs_blank n : Forall (fun c => blank c = true) (repeat c_tab n).
Proof. apply Forall_forall. intros c H. apply repeat_spec in H. subst. reflexivity. Qed.
Lemma maybe_blank f : Forall (fun c => blank c = true) (maybe_nl env f).
Proof. unfold maybe_nl. destruct (onNewline f); [constructor|exact nl_blank]. Qed.

(** The text of a member, and its tokens. *)
Definition value_of (i : init) : option Z := match i with Number v => Some v | _ => None end.
Definition plain_init (i : init) : Prop := match i with NoInit => True | Number v => Z.abs v <= 9223372036854775807 | _ => False end.
Definition init_text (i : init) : text := match i with Number v => T " = " ++ number_text v | _ => [] end.
Definition init_tokens (i : init) : list (list Z) := match i with Number v => T "=" :: (if v <? 0 then [T "-"; print_u (Z.abs v)] else [print_u (Z.abs v)]) | _ => [] end.
Lemma member_adds f e (m : text * init) : 0 <= indentLevel f <= 22 -> name_text (fst m) -> plain_init (snd m) -> exists f', VisitEnumMemberDeclaration env f e m = Ret f' /\
  adds f f' (repeat c_tab (Z.to_nat (indentLevel f)) ++ member_name lower e (fst m) ++ init_text (snd m)) (nameSpace f) (indentLevel f).
Proof.
  intros L [N _] P. unfold VisitEnumMemberDeclaration, AppendIndentedName, AppendIndented. rewrite (prefixed_eq _ N). cbn [bind]. destruct (Indent_adds f L) as (g & -> & G). cbn [bind].
  destruct G as (G1 & G2 & G3 & G4 & G5). unfold member_name. destruct m as [m [|v|n| |]]; cbn [fst snd write_init init_text plain_init] in *; try contradiction; (eexists; split; [reflexivity|]); unfold adds, Append; cbn [buffer indentLevel nameSpace file files]; rewrite G1; repeat split; try assumption; rewrite <- ?app_assoc, ?app_nil_r; reflexivity.
Qed.
(** Text that ends with a line break (or is followed by a mark) behind a member. *)
Lemma member_tokens e (m : text * init) c s : name_text e -> name_text (fst m) -> plain_init (snd m) -> blank c = true \/ mark c = true ->
  tokens (member_name lower e (fst m) ++ init_text (snd m) ++ c :: s) [] = member_name lower e (fst m) :: init_tokens (snd m) ++ tokens (c :: s) [].
Proof.
  intros E M P C. destruct (member_name_name e (fst m) E M) as [N F]. destruct m as [m [|v|n| |]]; cbn [fst snd init_text init_tokens plain_init] in *; try contradiction.
  - cbn [app]. apply tokens_word; assumption.
  - change (T " = " ++ number_text v) with (32 :: T "= " ++ number_text v). cbn [app]. rewrite tokens_word by (auto). f_equal. change (T "= " ++ number_text v) with (61 :: 32 :: number_text v). cbn [app].
    rewrite tokens_space, tokens_mark by reflexivity. change (T "=") with [61]. f_equal. rewrite tokens_space.
    destruct (print_name (Z.abs v) ltac:(unfold two64; lia)) as [N1 F1]. unfold number_text. destruct (v <? 0); cbn [app].
    + rewrite tokens_mark by reflexivity. change (T "-") with [45]. f_equal. apply tokens_word; assumption.
    + apply tokens_word; assumption.
Qed.
Lemma init_no_comma i t : plain_init i -> In t (init_tokens i) -> same t (T ",") = false.
Proof.
  destruct i as [|v|n| |]; cbn [plain_init init_tokens]; intros P H; try contradiction. apply same_not. intros E. subst t. destruct (print_name (Z.abs v) ltac:(unfold two64; lia)) as [_ F].
  assert (X : forall w, print_u (Z.abs v) = w -> w = T "," -> False) by (intros w Ew E2; subst w; rewrite E2 in F; inversion F as [|? ? [F1 F2] F3]; discriminate).
  destruct (v <? 0); destruct H as [H|H]; try discriminate; cbn [In] in H; intuition (try discriminate; eauto).
Qed.
Lemma enumerator_member e (m : text * init) follow : name_text e -> name_text (fst m) -> plain_init (snd m) ->
  enumerator follow (member_name lower e (fst m) :: init_tokens (snd m)) = Some (member_name lower e (fst m), match value_of (snd m) with Some v => v | None => follow end).
Proof.
  intros E M P. destruct m as [m [|v|n| |]]; cbn [fst snd init_tokens plain_init value_of] in *; try contradiction; [reflexivity|].
  assert (L : literal (print_u (Z.abs v)) = Some (Z.abs v)) by (apply literal_print; lia). destruct (v <? 0) eqn:S; cbn [enumerator]; rewrite !same_refl; cbn [andb]; rewrite L; do 2 f_equal; lia.
Qed.
(** ** All members *)
Definition groups (e : text) (l : list (text * init)) : list (list (list Z)) := map (fun m : text * init => member_name lower e (fst m) :: init_tokens (snd m)) l.
Fixpoint joined (gs : list (list (list Z))) : list (list Z) := match gs with [] => [] | [g] => g | g :: gs => g ++ T "," :: joined gs end.
Definition fine (m : text * init) : Prop := name_text (fst m) /\ plain_init (snd m).
Lemma members_adds e (l : list (text * init)) : name_text e -> forall f first, 0 <= indentLevel f <= 22 -> Forall fine l -> exists f' t, members env f e first l = Ret f' /\ adds f f' t (nameSpace f) (indentLevel f) /\
  (first = false -> t = [] \/ exists r, t = 44 :: r) /\
  forall c s, blank c = true \/ mark c = true -> tokens (t ++ c :: s) [] = (match l with [] => [] | _ => if first then [] else [T ","] end) ++ joined (groups e l) ++ tokens (c :: s) [].
Proof.
  intros E. induction l as [|m l IH]; intros f first L F; cbn [members].
  - exists f, []. split; [reflexivity|]. split; [unfold adds; rewrite app_nil_r; repeat split|]. split; [auto|reflexivity].
  - inversion F as [|? ? [F1 F2] F3]; subst. set (g := if negb first then AppendLine env f (T ",") else f).
    assert (G : adds f g (if negb first then T "," ++ nl env else []) (nameSpace f) (indentLevel f)).
    { unfold g. destruct first; cbn [negb]; [unfold adds; rewrite app_nil_r; repeat split|apply AppendLine_adds]. }
    clearbody g. assert (G2 : indentLevel g = indentLevel f) by apply G. assert (G3 : nameSpace g = nameSpace f) by apply G.
    destruct (member_adds g e m ltac:(lia) F1 F2) as (h & -> & H). cbn [bind]. assert (H2 : indentLevel h = indentLevel f) by (destruct H as (_ & H & _); congruence). assert (H3 : nameSpace h = nameSpace f) by (destruct H as (_ & _ & H & _); congruence).
    destruct (IH h false ltac:(lia) F3) as (k & t & -> & K & Kt & KT). rewrite H2, H3 in K. rewrite G2, G3 in H.
    eexists k, _. split; [reflexivity|]. split; [eapply adds_trans; [exact G|]; eapply adds_trans; [exact H|exact K]|]. split.
    + intros ->. right. cbn [negb]. eexists. reflexivity.
    + intros c s C. rewrite <- !app_assoc.
      assert (A : forall r, tokens ((if negb first then T "," ++ nl env else []) ++ r) [] = (if first then [] else [T ","]) ++ tokens r []).
      { intros r. destruct first; cbn [negb app]; [reflexivity|]. change (T "," ++ nl env) with (44 :: nl env). cbn [app]. rewrite tokens_mark by reflexivity. change (T ",") with [44]. f_equal. apply tokens_blank. exact nl_blank. }
      rewrite A, (tokens_blank (repeat _ _)) by apply tabs_blank. f_equal.
      assert (S : exists d r, t ++ c :: s = d :: r /\ (blank d = true \/ mark d = true)).
      { destruct (Kt eq_refl) as [-> | (r & ->)]; cbn [app]; eexists _, _; (split; [reflexivity|]); [exact C|right; reflexivity]. }
      destruct S as (d & r & Sd & D). rewrite Sd, member_tokens by assumption. rewrite <- Sd, KT by exact C. unfold groups. cbn [map]. destruct l as [|m2 l]; cbn [map joined app]; rewrite <- ?app_assoc; cbn [app]; rewrite <- ?app_assoc; reflexivity.
Qed.
Lemma parts_group g : forall acc ts, (forall t, In t g -> same t (T ",") = false) -> parts (g ++ ts) acc = parts ts (acc ++ g).
Proof. induction g as [|t g IH]; intros acc ts H; cbn [app]; [rewrite app_nil_r; reflexivity|]. cbn [parts]. rewrite (H t (or_introl eq_refl)), IH by (intros x Hx; apply H; right; exact Hx). rewrite <- app_assoc. reflexivity. Qed.
Lemma parts_joined gs : gs <> [] -> (forall g t, In g gs -> In t g -> same t (T ",") = false) -> parts (joined gs) [] = gs.
Proof.
  induction gs as [|g gs IH]; intros N H; [congruence|]. destruct gs as [|g2 gs].
  - cbn [joined]. rewrite <- (app_nil_r g) at 1. rewrite parts_group by (intros t; apply H; left; reflexivity). reflexivity.
  - change (joined (g :: g2 :: gs)) with (g ++ T "," :: joined (g2 :: gs)). rewrite parts_group by (intros t; apply H; left; reflexivity). cbn [parts app]. rewrite same_refl, IH; [reflexivity|discriminate|]. intros x t Hx. apply H. right. exact Hx.
Qed.
Lemma groups_no_comma e (l : list (text * init)) : name_text e -> Forall fine l -> forall g t, In g (groups e l) -> In t g -> same t (T ",") = false.
Proof.
  intros E F g t Hg Ht. apply in_map_iff in Hg. destruct Hg as (m & <- & Hm). rewrite Forall_forall in F. destruct (F m Hm) as [F1 F2]. destruct Ht as [<-|Ht]; [|apply (init_no_comma (snd m)); assumption].
  apply same_not. intros X. destruct (member_name_name e (fst m) E F1) as [_ N]. rewrite X in N. inversion N as [|? ? [N1 N2] _]. discriminate.
Qed.
Lemma enumerators_groups e (l : list (text * init)) : name_text e -> Forall fine l -> forall follow,
  enumerators follow (groups e l) = Some (combine (map (fun m : text * init => member_name lower e (fst m)) l) (cs_values follow (map (fun m : text * init => value_of (snd m)) l))).
Proof.
  intros E F. induction F as [|m l [F1 F2] _ IH]; intros follow; [reflexivity|]. unfold groups. cbn [map enumerators cs_values combine]. rewrite (enumerator_member e m follow E F1 F2). cbn iota beta. fold (groups e l). rewrite IH. reflexivity.
Qed.
End Environment.

(** ** C100 *)
(** For every enum whose members have no initialiser or a literal within long long: the text that is written reads in C++
    as an enum of the same members with the same values.
    Partial: values outside of long long (below), and initialisers that are not literals. *)
Theorem C100_values_partial env f e : Forall (fun c => blank c = true) (nl env) -> 0 <= indentLevel f <= 21 -> name_text (e_name e) ->
  Forall (fun m : text * init => name_text (fst m) /\ (snd m = NoInit \/ exists v, snd m = Number v /\ -9223372036854775807 <= v <= 9223372036854775807)) (e_members e) ->
  exists f' s, VisitEnum env f e = Ret f' /\ buffer f' = buffer f ++ s /\ indentLevel f' = indentLevel f /\ nameSpace f' = nameSpace f /\
    read_enum s = Some (type_name (IsLower env) (e_name e),
      combine (map (fun m : text * init => member_name (IsLower env) (e_name e) (fst m)) (e_members e))
              (cs_values 0 (map (fun m : text * init => match snd m with Number v => Some v | _ => None end) (e_members e)))).
Proof.
  intros NL L N M.
  assert (FM : Forall fine (e_members e)).
  { eapply Forall_impl; [|exact M]. intros m [M1 M2]. split; [exact M1|]. destruct M2 as [-> |(v & -> & V)]; cbn [plain_init]; [exact I|lia]. }
  unfold VisitEnum, AppendIndented. destruct (Indent_adds f ltac:(lia)) as (f1 & -> & A1). cbn [bind]. unfold AppendName. rewrite (mangle_eq env (e_name e)) by apply N. cbn [bind].
  set (f3 := Append (Append f1 (T "enum ")) (type_name (IsLower env) (e_name e))).
  assert (A3 : adds f f3 (repeat c_tab (Z.to_nat (indentLevel f)) ++ T "enum " ++ type_name (IsLower env) (e_name e)) (nameSpace f) (indentLevel f)).
  { destruct A1 as (B1 & B2 & B3 & B4 & B5). unfold f3, adds, Append. cbn [buffer indentLevel nameSpace file files]. rewrite B1, <- !app_assoc. repeat split; assumption. }
  clearbody f3. assert (L3 : indentLevel f3 = indentLevel f) by apply A3. assert (N3 : nameSpace f3 = nameSpace f) by apply A3.
  destruct (Open_adds env f3 ltac:(lia)) as (f4 & -> & A4). cbn [bind]. rewrite L3, N3 in A4. assert (L4 : indentLevel f4 = indentLevel f + 1) by apply A4. assert (N4 : nameSpace f4 = nameSpace f) by apply A4.
  destruct (members_adds env NL (e_name e) (e_members e) N f4 true ltac:(lia) FM) as (f5 & t & -> & A5 & _ & T5). cbn [bind]. rewrite L4, N4 in A5. assert (L5 : indentLevel f5 = indentLevel f + 1) by apply A5. assert (N5 : nameSpace f5 = nameSpace f) by apply A5.
  destruct (Close_adds env f5 true ltac:(lia)) as (f6 & -> & A6). cbn [bind]. rewrite L5, N5 in A6.
  pose proof (AppendLine_adds env f6 []) as A7. assert (L6 : indentLevel f6 = indentLevel f) by (destruct A6 as (_ & X & _); lia). assert (N6 : nameSpace f6 = nameSpace f) by apply A6. rewrite L6, N6 in A7.
  pose proof (adds_trans _ _ _ _ _ _ _ _ _ A3 (adds_trans _ _ _ _ _ _ _ _ _ A4 (adds_trans _ _ _ _ _ _ _ _ _ A5 (adds_trans _ _ _ _ _ _ _ _ _ A6 A7)))) as A.
  destruct A as (B1 & B2 & B3 & _). eexists _, _. split; [reflexivity|]. split; [exact B1|]. split; [exact B2|]. split; [exact B3|]. clear A1 A3 A4 A5 A6 A7 B1 B2 B3.
  assert (TK : forall u, tokens (((repeat c_tab (Z.to_nat (indentLevel f)) ++ T "enum " ++ type_name (IsLower env) (e_name e)) ++ (maybe_nl env f3 ++ repeat c_tab (Z.to_nat (indentLevel f)) ++ 123 :: nl env) ++ u)) [] = T "enum" :: type_name (IsLower env) (e_name e) :: T "{" :: tokens u []).
  { intros u. rewrite <- !app_assoc. rewrite tokens_blank by apply tabs_blank. change (T "enum " ++ ?x) with (T "enum" ++ 32 :: x). rewrite tokens_word; [|discriminate|repeat constructor|left; reflexivity]. f_equal. rewrite tokens_space.
    destruct (type_name_name env (e_name e) N) as [T1 T2].
    assert (X : forall v, tokens (type_name (IsLower env) (e_name e) ++ (maybe_nl env f3 ++ repeat c_tab (Z.to_nat (indentLevel f))) ++ 123 :: v) [] = type_name (IsLower env) (e_name e) :: T "{" :: tokens v []).
    { intros v. assert (BL : Forall (fun c => blank c = true) (maybe_nl env f3 ++ repeat c_tab (Z.to_nat (indentLevel f)))) by (apply Forall_app; split; [apply maybe_blank; exact NL|apply tabs_blank]). destruct (maybe_nl env f3 ++ repeat c_tab (Z.to_nat (indentLevel f))) as [|b bs]; cbn [app].
      - rewrite tokens_word by auto. reflexivity.
      - rewrite tokens_word; [|assumption..|left; inversion BL; assumption]. f_equal. change (b :: bs ++ 123 :: v) with ((b :: bs) ++ 123 :: v). rewrite tokens_blank by exact BL. rewrite tokens_mark by reflexivity. reflexivity. }
    specialize (X (nl env ++ u)). rewrite <- !app_assoc in X. cbn [app]. rewrite X. rewrite tokens_blank by exact NL. reflexivity. }
  unfold read_enum. rewrite TK. clear TK.
  assert (TT : forall u, tokens (t ++ (maybe_nl env f5 ++ repeat c_tab (Z.to_nat (indentLevel f + 1 - 1)) ++ 125 :: semi_text true ++ nl env) ++ u) [] = joined (groups env (e_name e) (e_members e)) ++ [T "}"; T ";"] ++ tokens u []).
  { intros u. rewrite <- !app_assoc. cbn [app]. 
    assert (BL : Forall (fun c => blank c = true) (maybe_nl env f5 ++ repeat c_tab (Z.to_nat (indentLevel f + 1 - 1)))) by (apply Forall_app; split; [apply maybe_blank; exact NL|apply tabs_blank]).
    rewrite (app_assoc (maybe_nl env f5)). destruct (maybe_nl env f5 ++ repeat c_tab (Z.to_nat (indentLevel f + 1 - 1))) as [|b bs]; cbn [app].
    - rewrite T5 by (right; reflexivity). replace (match e_members e with [] => [] | _ => [] end) with (@nil (list Z)) by (destruct (e_members e); reflexivity). cbn [app]. f_equal. rewrite tokens_mark by reflexivity. cbn [semi_text app]. rewrite <- ?app_assoc. cbn [app]. rewrite tokens_mark by reflexivity. rewrite tokens_blank by exact NL. reflexivity.
    - rewrite T5 by (left; inversion BL; assumption). replace (match e_members e with [] => [] | _ => [] end) with (@nil (list Z)) by (destruct (e_members e); reflexivity). cbn [app]. f_equal. change (b :: bs ++ ?x) with ((b :: bs) ++ x). rewrite tokens_blank by exact BL. rewrite tokens_mark by reflexivity. cbn [semi_text app]. rewrite <- ?app_assoc. cbn [app]. rewrite tokens_mark by reflexivity. rewrite tokens_blank by exact NL. reflexivity. }
  rewrite TT. cbn [app]. replace (tokens (nl env) []) with (@nil (list Z)) by (rewrite <- (app_nil_r (nl env)), tokens_blank by exact NL; reflexivity).
  rewrite rev_app_distr. cbn [rev app]. rewrite !same_refl. cbn [andb]. rewrite rev_involutive.
  assert (EG : match rev (joined (groups env (e_name e) (e_members e))) with [] => [] | _ => parts (joined (groups env (e_name e) (e_members e))) [] end = groups env (e_name e) (e_members e)).
  { destruct (e_members e) as [|m l] eqn:EM; [reflexivity|]. rewrite parts_joined; [|discriminate|apply groups_no_comma; assumption].
    destruct (rev (joined (groups env (e_name e) (m :: l)))) as [|x y] eqn:ER; [|reflexivity]. apply (f_equal (@length _)) in ER. rewrite rev_length in ER. exfalso. unfold groups in ER. cbn [map] in ER. destruct (map _ l); cbn [joined app length] in ER; discriminate. }
  rewrite EG, (enumerators_groups env (e_name e) (e_members e) N FM). reflexivity.
Qed.
Definition ascii_env : dotnet := mk_dotnet [10] (fun c => (97 <=? c) && (c <=? 122)).
(** Values of C# that have no decimal literal in C++: ulong values from 2^63 on, and long.MinValue, whose literal is written without its sign first. *)
Theorem C100_large_values_refuted : exists f e1 e2 f1 f2, e_members e1 = [(T "All", Number 18446744073709551615)] /\ e_members e2 = [(T "Lowest", Number (-9223372036854775808))] /\
  VisitEnum ascii_env f e1 = Ret f1 /\ read_enum (buffer f1) = None /\ VisitEnum ascii_env f e2 = Ret f2 /\ read_enum (buffer f2) = None.
Proof.
  exists new_formatter, (mk_enum (T "E") 8 [(T "All", Number 18446744073709551615)]), (mk_enum (T "E") 8 [(T "Lowest", Number (-9223372036854775808))]). do 2 eexists. split; [reflexivity|]. split; [reflexivity|]. split; [vm_compute; reflexivity|]. split; [vm_compute; reflexivity|]. split; [vm_compute; reflexivity|]. vm_compute. reflexivity.
Qed.
(** The underlying type is not written: enums of one and of eight bytes have the same text. *)
Theorem C100_underlying_refuted env f n ms : VisitEnum env f (mk_enum n 1 ms) = VisitEnum env f (mk_enum n 8 ms).
Proof. reflexivity. Qed.
(** An initialiser that is not a literal aborts the translation, disappears, or names a member that does not exist in C++. *)
Theorem C100_initialiser_refuted : (forall env f n l m i, 0 <= indentLevel f <= 21 -> n <> [] -> m <> [] -> i = Unsupported -> VisitEnum env f (mk_enum n 4 ((m, i) :: l)) = Exn NotImplementedException) /\
  (exists f1, VisitEnum ascii_env new_formatter (mk_enum (T "E") 4 [(T "A", Silent)]) = Ret f1 /\ read_enum (buffer f1) = None) /\
  (exists f1, VisitEnum ascii_env new_formatter (mk_enum (T "E") 4 [(T "A", NoInit); (T "B", Reference (T "A"))]) = Ret f1 /\ tokens (buffer f1) [] = [T "enum"; T "E"; T "{"; T "A_E"; T ","; T "B_E"; T "="; T "A"; T "}"; T ";"]).
Proof.
  split; [|split; eexists; (split; [vm_compute; reflexivity|vm_compute; reflexivity])].
  intros env f n l m i L N M ->. unfold VisitEnum, AppendIndented. destruct (Indent_adds f ltac:(lia)) as (f1 & -> & A1). cbn [bind e_name e_members]. unfold AppendName. rewrite (mangle_eq env n N). cbn [bind].
  set (f3 := Append (Append f1 (T "enum ")) (type_name (IsLower env) n)). assert (L3 : indentLevel f3 = indentLevel f) by (destruct A1 as (_ & X & _); exact X). clearbody f3.
  destruct (Open_adds env f3 ltac:(lia)) as (f4 & -> & A4). cbn [bind members negb]. unfold VisitEnumMemberDeclaration, AppendIndentedName, AppendIndented. cbn [fst snd]. rewrite (prefixed_eq env m M). cbn [bind].
  destruct (Indent_adds f4) as (f5 & -> & A5); [destruct A4 as (_ & X & _); lia|]. reflexivity.
Qed.
Example C100_example : let e := mk_enum (T "Color") 4 [(T "red", NoInit); (T "Green", Number 5); (T "Blue", NoInit); (T "None", Number (-1))] in
  exists f, VisitEnum ascii_env new_formatter e = Ret f /\
    buffer f = T "enum Color" ++ [10] ++ T "{" ++ [10; 9] ++ T "x_red_Color," ++ [10; 9] ++ T "Green_Color = 5," ++ [10; 9] ++ T "Blue_Color," ++ [10; 9] ++ T "None_Color = -1" ++ [10] ++ T "};" ++ [10; 10] /\
    read_enum (buffer f) = Some (T "Color", [(T "x_red_Color", 0); (T "Green_Color", 5); (T "Blue_Color", 6); (T "None_Color", -1)]).
Proof. eexists. split; [vm_compute; reflexivity|]. split; vm_compute; reflexivity. Qed.
Print Assumptions C100_values_partial.
Print Assumptions C100_large_values_refuted.
Print Assumptions C100_initialiser_refuted.
