(** * Lemmas about FormatterModel.v *)
From Coq Require Import Bool.
From Verif Require Import Tac MemModel MemProofs StringBuilderModel StringBuilderProofs StringSpec StringProofs TextProofs FormatterModel FormatterSpec.

(** ** Literals *)
(** What one character of a string literal is written as. *)
Definition escaped (forString : bool) (c : Z) : list Z :=
  if c =? 34 then [92; 34] else if c =? 92 then [92; 92] else if c =? 7 then [92; 97] else if c =? 8 then [92; 98] else if c =? 9 then [92; 116]
  else if c =? 13 then [92; 114] else if c =? 11 then [92; 118] else if c =? 12 then [92; 102] else if c =? 10 then [92; 110]
  else if c =? 39 then (if forString then [39] else [92; 39])
  else if (32 <=? c) && (c <=? 126) then [c]
  else 92 :: 117 :: hex_lower (c / 4096) :: hex_lower (c / 256 mod 16) :: hex_lower (c / 16 mod 16) :: hex_lower (c mod 16) :: [].
Lemma hex_padded c : code_unit c -> exists z, Substring [48; 48; 48; 48] 0 (4 - zlen (hex_number c)) = Ret z /\
  z ++ hex_number c = [hex_lower (c / 4096); hex_lower (c / 256 mod 16); hex_lower (c / 16 mod 16); hex_lower (c mod 16)].
Proof.
  unfold code_unit. intros H. unfold hex_number. cbn [hex_loop].
  destruct (c <? 16) eqn:E1; [|destruct (c / 16 <? 16) eqn:E2; [|destruct (c / 16 / 16 <? 16) eqn:E3; [|replace (c / 16 / 16 / 16 <? 16) with true by lia]]]; cbn [app];
  (eexists; split; [reflexivity|]); cbn [app].
  - replace (c / 4096) with 0 by lia. replace (c / 256 mod 16) with 0 by lia. replace (c / 16 mod 16) with 0 by lia. replace (c mod 16) with c by lia. reflexivity.
  - replace (c / 4096) with 0 by lia. replace (c / 256 mod 16) with 0 by lia. replace (c / 16 mod 16) with (c / 16) by lia. reflexivity.
  - replace (c / 4096) with 0 by lia. replace (c / 256 mod 16) with (c / 16 / 16) by lia. reflexivity.
  - replace (c / 4096) with (c / 16 / 16 / 16) by lia. replace (c / 256 mod 16) with (c / 16 / 16 mod 16) by lia. reflexivity.
Qed.
Lemma AppendChar_spec f c forString : code_unit c -> exists f', AppendCharWithControls f c forString = Ret f' /\
  buffer f' = buffer f ++ (if forString then [] else [76; 39]) ++ escaped forString c ++ (if forString then [] else [39]) /\ indentLevel f' = indentLevel f /\ nameSpace f' = nameSpace f /\ file f' = file f /\ files f' = files f.
Proof.
  intros H. unfold AppendCharWithControls, escaped.
  change c_quote with 34. change c_backslash with 92. change c_apos with 39.
  assert (B : forall g : formatter, g = (if negb forString then Append f [76; 39] else f) -> buffer g = buffer f ++ (if forString then [] else [76; 39]) /\ indentLevel g = indentLevel f /\ nameSpace g = nameSpace f /\ file g = file f /\ files g = files f).
  { intros g ->. destruct forString; cbn [negb]; [rewrite app_nil_r|]; repeat split. }
  set (g := if negb forString then Append f [76; 39] else f) in *. destruct (B g eq_refl) as (Bg & B1 & B2 & B3 & B4). clearbody g.
  assert (X : forall h t, buffer h = buffer g ++ t -> indentLevel h = indentLevel g -> nameSpace h = nameSpace g -> file h = file g -> files h = files g ->
    exists f', Ret (if negb forString then Append h [39] else h) = Ret f' /\ buffer f' = buffer f ++ (if forString then [] else [76; 39]) ++ t ++ (if forString then [] else [39]) /\ indentLevel f' = indentLevel f /\ nameSpace f' = nameSpace f /\ file f' = file f /\ files f' = files f).
  { intros h t Bh H1 H2 H3 H4. eexists. split; [reflexivity|]. destruct forString; cbn [negb Append buffer indentLevel nameSpace file files]; rewrite Bh, Bg, ?app_nil_r; repeat split; try congruence; rewrite <- ?app_assoc; reflexivity. }
  repeat match goal with |- context [if c =? ?k then _ else _] => destruct (c =? k) eqn:?; [cbn [bind]; apply X; reflexivity|] end.
  destruct (c =? 39) eqn:E39; [cbn [bind]; destruct forString; apply X; reflexivity|].
  assert (P : negb (is_control c) && (32 <=? c) && (c <=? 126) = (32 <=? c) && (c <=? 126)) by (unfold is_control; lia). rewrite P.
  destruct ((32 <=? c) && (c <=? 126)); [cbn [bind]; apply X; reflexivity|].
  destruct (hex_padded c H) as (z & -> & Hz). cbn [bind]. apply X; try reflexivity. cbn [Append buffer]. rewrite <- !app_assoc, Hz. reflexivity.
Qed.
Lemma append_chars_spec s : forall f, Forall code_unit s -> exists f', append_chars f s = Ret f' /\ buffer f' = buffer f ++ flat_map (escaped true) s /\ indentLevel f' = indentLevel f /\ nameSpace f' = nameSpace f /\ file f' = file f /\ files f' = files f.
Proof.
  induction s as [|c s IH]; intros f H; cbn [append_chars flat_map].
  - exists f. rewrite app_nil_r. repeat split.
  - inversion H as [|? ? Hc Hs]; subst. destruct (AppendChar_spec f c true Hc) as (f1 & -> & B1 & L1 & N1 & F1 & G1). cbn [bind]. destruct (IH f1 Hs) as (f2 & -> & B2 & L2 & N2 & F2 & G2).
    exists f2. split; [reflexivity|]. rewrite B2, B1, app_nil_r. cbn [app]. rewrite <- app_assoc. repeat split; congruence.
Qed.
Lemma hex_lower_value d : 0 <= d < 16 -> hex_value (hex_lower d) = Some d.
Proof. intros H. unfold hex_lower, hex_value. destruct (d <? 10) eqn:E; [replace ((48 <=? 48 + d) && (48 + d <=? 57)) with true by lia; f_equal; lia|]. replace ((48 <=? 87 + d) && (87 + d <=? 57)) with false by lia. replace ((97 <=? 87 + d) && (87 + d <=? 102)) with true by lia. f_equal. lia. Qed.
Definition needs_ucn (c : Z) : bool := negb ((32 <=? c) && (c <=? 126) || (7 <=? c) && (c <=? 13)).
(** The lexer reads one escaped character. *)
Lemma lex_escaped ucn (forString : bool) c rest : code_unit c ->
  lex ucn (if forString then 34 else 39) (escaped forString c ++ rest) =
  if negb (needs_ucn c) || ucn c then match lex ucn (if forString then 34 else 39) rest with Some (vs, r) => Some (c :: vs, r) | None => None end else None.
Proof.
  unfold code_unit. intros H. unfold escaped.
  assert (E39 : c = 39 \/ c <> 39) by lia. destruct E39 as [->|N39]; [destruct forString; reflexivity|]. replace (c =? 39) with false by lia.
  repeat match goal with |- context [if c =? ?k then _ else _] => destruct (Z.eqb_spec c k) as [->|?]; [destruct forString; reflexivity|] end.
  destruct ((32 <=? c) && (c <=? 126)) eqn:E.
  - cbn [app lex]. replace (c =? (if forString then 34 else 39)) with false by (destruct forString; lia). replace (c =? 10) with false by lia. replace (c =? 92) with false by lia. unfold needs_ucn. rewrite E. reflexivity.
  - cbn [app]. cbn [lex]. replace (92 =? (if forString then 34 else 39)) with false by (destruct forString; reflexivity). change (92 =? 10) with false. change (92 =? 92) with true. change (simple_escape 117) with (@None Z). change (117 =? 117) with true. cbv iota.
    rewrite !hex_lower_value by lia. cbn zeta. replace (((c / 4096 * 16 + c / 256 mod 16) * 16 + c / 16 mod 16) * 16 + c mod 16) with c by lia.
    replace (needs_ucn c) with true by (unfold needs_ucn; lia). cbn [negb orb]. reflexivity.
Qed.
Lemma lex_string ucn s rest : Forall code_unit s ->
  lex ucn 34 (flat_map (escaped true) s ++ 34 :: rest) = if forallb (fun c => negb (needs_ucn c) || ucn c) s then Some (s, rest) else None.
Proof.
  induction s as [|c s IH]; intros H; [reflexivity|]. inversion H as [|? ? Hc Hs]; subst. cbn [flat_map forallb]. rewrite <- app_assoc. rewrite (lex_escaped ucn true c _ Hc). rewrite (IH Hs).
  destruct (negb (needs_ucn c) || ucn c); [|reflexivity]. cbn [andb]. destruct (forallb _ s); reflexivity.
Qed.
Lemma AppendStrings_spec f s : Forall code_unit s -> exists f', AppendStringsWithControl f s = Ret f' /\ buffer f' = buffer f ++ 76 :: 34 :: flat_map (escaped true) s ++ [34].
Proof.
  intros H. unfold AppendStringsWithControl. change c_quote with 34. destruct (append_chars_spec s (Append f [76; 34]) H) as (f1 & -> & B & _). cbn [bind]. eexists. split; [reflexivity|]. cbn [Append buffer]. rewrite B. cbn [Append buffer]. rewrite <- !app_assoc. reflexivity.
Qed.

(** ** Names *)
Definition lower_name (env : dotnet) (n : text) : bool := match n with [] => false | c :: _ => IsLower env c end.
Lemma text_eqb_eq a b : text_eqb a b = true <-> a = b.
Proof. unfold text_eqb. destruct (list_eq_dec Z.eq_dec a b); split; congruence. Qed.
Lemma text_eqb_refl a : text_eqb a a = true.
Proof. apply text_eqb_eq. reflexivity. Qed.
Lemma mangle_cases env n m : mangle env n = Ret m ->
  (m = n /\ (lower_name env n = false \/ n = this_text) /\ n <> Void_text) \/ (n = Void_text /\ m = void_text) \/ (m = Prefix ++ n /\ lower_name env n = true /\ n <> this_text).
Proof.
  unfold mangle, PrefixName. destruct n as [|c n]; [discriminate|]. rewrite bind_ret. cbn [lower_name]. set (N := c :: n) in *. clearbody N.
  destruct (text_eqb N this_text) eqn:ET; [apply text_eqb_eq in ET|assert (N <> this_text) by (intros ->; rewrite text_eqb_refl in ET; discriminate)]; destruct (IsLower env c); cbn [andb negb]; intros E.
  1,2,4: destruct (text_eqb N Void_text) eqn:EV; [apply text_eqb_eq in EV|assert (N <> Void_text) by (intros ->; rewrite text_eqb_refl in EV; discriminate)]; injection E as <-; auto.
  right. right. replace (text_eqb (Prefix ++ N) Void_text) with false in E; [injection E as <-; auto|]. symmetry. apply not_true_is_false. intros X. apply text_eqb_eq in X. discriminate.
Qed.

(** The runtime's String constructor on a NUL-terminated array. *)
Lemma String_from_terminated (s z : list Z) : ~ In 0 s -> zlen s < 2147483647 -> String_from (s ++ 0 :: z) 0 (-1) = Ret s.
Proof.
  intros H0 L. pose proof (String_from_text s z L) as E. pose proof (zlen_nonneg s). unfold String_from in *. change (-1 <? 0) with true. replace (zlen s <? 0) with false in E by lia. cbv iota in *.
  assert (W : wcslen (s ++ 0 :: z) = Ret (zlen s)) by (apply wcslen_text; apply Forall_forall; intros c Hc ->; exact (H0 Hc)).
  rewrite W in *. rewrite !bind_ret in *. exact E.
Qed.

(** ** Braces and indentation *)
Lemma depth_app a : forall d b, depth d (a ++ b) = match depth d a with Some e => depth e b | None => None end.
Proof. induction a as [|c a IH]; intros d b; [reflexivity|]. cbn [app depth]. destruct (c =? 123); [apply IH|]. destruct (c =? 125); [|apply IH]. destruct (d <=? 0); [reflexivity|apply IH]. Qed.
Lemma depth_plain t : forall d, no_braces t -> depth d t = Some d.
Proof.
  induction t as [|c t IH]; intros d [H1 H2]; [reflexivity|]. cbn [depth]. cbn [In] in *. replace (c =? 123) with false by (symmetry; apply Z.eqb_neq; intros ->; tauto). replace (c =? 125) with false by (symmetry; apply Z.eqb_neq; intros ->; tauto).
  apply IH. split; tauto.
Qed.
Lemma plain_neutral t : no_braces t -> neutral t.
Proof. intros H d _. apply depth_plain, H. Qed.
Lemma neutral_app a b : neutral a -> neutral b -> neutral (a ++ b).
Proof. intros Ha Hb d Hd. rewrite depth_app, (Ha d Hd). apply Hb, Hd. Qed.
Lemma no_braces_app a b : no_braces a -> no_braces b -> no_braces (a ++ b).
Proof. unfold no_braces. rewrite !in_app_iff. tauto. Qed.
Lemma Indent_in f : 0 <= indentLevel f <= 22 -> Indent f = Ret (mk_formatter (buffer f ++ repeat c_tab (Z.to_nat (indentLevel f))) (indentLevel f) false false (nameSpace f) (file f) (files f)).
Proof.
  intros H. unfold Indent, Substring. change (zlen tabs) with 22. rewrite throw_if_false by lia. rewrite !bind_ret. cbn [Append buffer indentLevel onNewline nameSpace file files].
  do 2 f_equal. f_equal. unfold take, drop. change (Z.to_nat 0) with O. cbn [skipn]. unfold tabs. assert (E : (Z.to_nat (indentLevel f) <= 22)%nat) by lia. revert E. generalize (Z.to_nat (indentLevel f)). intros n E.
  do 23 (destruct n as [|n]; [reflexivity|]). lia.
Qed.
Lemma Indent_out f : indentLevel f < 0 \/ 22 < indentLevel f -> Indent f = Exn ArgumentOutOfRangeException.
Proof. intros H. unfold Indent, Substring. change (zlen tabs) with 22. rewrite throw_if_true by lia. reflexivity. Qed.
Lemma no_braces_tabs n : no_braces (repeat c_tab n).
Proof. split; intros H; apply repeat_spec in H; discriminate. Qed.
(** [f'] is [f] with [t] added, at nesting [l] and namespace [s]. *)
Definition adds (f f' : formatter) (t : text) (s : option text) (l : Z) : Prop :=
  buffer f' = buffer f ++ t /\ indentLevel f' = l /\ nameSpace f' = s /\ file f' = file f /\ files f' = files f.
Lemma adds_trans f g h t u s s' l l' : adds f g t s l -> adds g h u s' l' -> adds f h (t ++ u) s' l'.
Proof. intros (B1 & L1 & N1 & F1 & G1) (B2 & L2 & N2 & F2 & G2). unfold adds. rewrite B2, B1, app_assoc. repeat split; congruence. Qed.
Section Env.
Variable env : dotnet.
Hypothesis nl_plain : no_braces (nl env).
Lemma Append_adds f t : adds f (Append f t) t (nameSpace f) (indentLevel f).
Proof. repeat split. Qed.
Lemma Newline_adds f : adds f (Newline env f) (nl env) (nameSpace f) (indentLevel f).
Proof. repeat split. Qed.
Lemma AppendLine_adds f t : adds f (AppendLine env f t) (t ++ nl env) (nameSpace f) (indentLevel f).
Proof. unfold AppendLine. eapply adds_trans; [apply Append_adds|]. apply (Newline_adds (Append f t)). Qed.
Lemma Indent_adds f : 0 <= indentLevel f <= 22 -> exists f', Indent f = Ret f' /\ adds f f' (repeat c_tab (Z.to_nat (indentLevel f))) (nameSpace f) (indentLevel f).
Proof. intros H. rewrite (Indent_in f H). eexists. split; [reflexivity|]. repeat split. Qed.
Definition maybe_nl (f : formatter) : text := if onNewline f then [] else nl env.
Lemma maybe_adds f : adds f (if negb (onNewline f) then Newline env f else f) (maybe_nl f) (nameSpace f) (indentLevel f).
Proof. unfold maybe_nl. destruct (onNewline f); cbn [negb]; [|apply Newline_adds]. unfold adds. rewrite app_nil_r. repeat split. Qed.
Lemma maybe_plain f : no_braces (maybe_nl f).
Proof. unfold maybe_nl. destruct (onNewline f); [split; intros []|exact nl_plain]. Qed.
Lemma Open_adds f : 0 <= indentLevel f <= 22 -> exists f', AddOpenBrace env f = Ret f' /\
  adds f f' (maybe_nl f ++ repeat c_tab (Z.to_nat (indentLevel f)) ++ 123 :: nl env) (nameSpace f) (indentLevel f + 1).
Proof.
  intros H. unfold AddOpenBrace. pose proof (maybe_adds f) as A. set (g := if negb (onNewline f) then Newline env f else f) in *. clearbody g. destruct A as (A1 & A2 & A3 & A4 & A5).
  unfold AppendIndentedLine. destruct (Indent_adds g) as (h & -> & I); [lia|]. rewrite !bind_ret. eexists. split; [reflexivity|].
  destruct I as (I1 & I2 & I3 & I4 & I5). rewrite A2 in I1. unfold adds, UpIndent, set_level, AppendLine, Newline, Append. cbn [buffer indentLevel nameSpace file files]. rewrite I1, A1. repeat split; try congruence.
  rewrite <- !app_assoc. reflexivity.
Qed.
Lemma Open_out f : indentLevel f < 0 \/ 22 < indentLevel f -> AddOpenBrace env f = Exn ArgumentOutOfRangeException.
Proof.
  intros H. unfold AddOpenBrace. pose proof (maybe_adds f) as A. set (g := if negb (onNewline f) then Newline env f else f) in *. clearbody g. destruct A as (A1 & A2 & A3 & A4 & A5).
  unfold AppendIndentedLine. rewrite Indent_out by lia. reflexivity.
Qed.
Definition semi_text (s : bool) : text := if s then [59] else [].
Lemma Close_adds f semi : 1 <= indentLevel f <= 23 -> exists f', AddCloseBrace env f semi = Ret f' /\
  adds f f' (maybe_nl f ++ repeat c_tab (Z.to_nat (indentLevel f - 1)) ++ 125 :: semi_text semi ++ nl env) (nameSpace f) (indentLevel f - 1).
Proof.
  intros H. unfold AddCloseBrace. pose proof (maybe_adds f) as A. set (g := if negb (onNewline f) then Newline env f else f) in *. clearbody g. destruct A as (A1 & A2 & A3 & A4 & A5).
  unfold AppendIndented. destruct (Indent_adds (DownIndent g)) as (h & -> & I); [cbn; lia|]. rewrite !bind_ret. eexists. split; [reflexivity|].
  destruct I as (I1 & I2 & I3 & I4 & I5). cbn [DownIndent set_level buffer indentLevel nameSpace file files] in *. rewrite A2 in I1, I2.
  destruct semi; unfold adds, Newline, Append, semi_text; cbn [buffer indentLevel nameSpace file files]; rewrite I1, A1; repeat split; try congruence; rewrite <- !app_assoc; reflexivity.
Qed.
Lemma Close_out f semi : indentLevel f < 1 \/ 23 < indentLevel f -> AddCloseBrace env f semi = Exn ArgumentOutOfRangeException.
Proof.
  intros H. unfold AddCloseBrace. pose proof (maybe_adds f) as A. set (g := if negb (onNewline f) then Newline env f else f) in *. clearbody g. destruct A as (A1 & A2 & A3 & A4 & A5).
  unfold AppendIndented. rewrite Indent_out by (cbn; lia). reflexivity.
Qed.
Lemma depth_open a b d : no_braces a -> no_braces b -> depth d (a ++ 123 :: b) = Some (d + 1).
Proof. intros Ha Hb. rewrite depth_app, (depth_plain a d Ha). cbn [depth]. change (123 =? 123) with true. cbv iota. apply depth_plain, Hb. Qed.
Lemma depth_close a b d : no_braces a -> no_braces b -> 1 <= d -> depth d (a ++ 125 :: b) = Some (d - 1).
Proof. intros Ha Hb Hd. rewrite depth_app, (depth_plain a d Ha). cbn [depth]. change (125 =? 123) with false. change (125 =? 125) with true. cbv iota. replace (d <=? 0) with false by lia. apply depth_plain, Hb. Qed.

(** Running one call. *)
Definition do_call (f : formatter) (c : call) : outcome formatter :=
  match c with
  | Write t => Ret (Append f t)
  | WriteLine t => Ret (AppendLine env f t)
  | WriteIndented t => AppendIndented f t
  | WriteIndentedLine t => AppendIndentedLine env f t
  | OpenBlock => AddOpenBrace env f
  | CloseBlock s => AddCloseBrace env f s
  | EnterNamespace v => SetNamespace env f v
  | LeaveNamespace => CloseNamespace env f
  end.
Fixpoint do_calls (f : formatter) (cs : list call) : outcome formatter :=
  match cs with [] => Ret f | c :: cs => f <- do_call f c ;; do_calls f cs end.

(** What a call adds: text [t] that moves the nesting to [n]. *)
Definition moves (f : formatter) (r : outcome formatter) (n : option nesting) : Prop :=
  match n with
  | Some (s, l) => 0 <= l /\ exists f' t, r = Ret f' /\ adds f f' t s l /\ depth (indentLevel f) t = Some l
  | None => r = Exn ArgumentOutOfRangeException
  end.
Lemma open_moves f : 0 <= indentLevel f -> moves f (AddOpenBrace env f) (open_one 22 (nameSpace f, indentLevel f)).
Proof.
  intros H. unfold open_one. destruct (indentLevel f <=? 22) eqn:E.
  - split; [lia|]. destruct (Open_adds f) as (f' & -> & A); [lia|]. eexists _, _. split; [reflexivity|]. split; [exact A|]. rewrite app_assoc. apply depth_open; [apply no_braces_app; [apply maybe_plain|apply no_braces_tabs]|exact nl_plain].
  - apply Open_out. lia.
Qed.
Lemma close_moves f semi : 0 <= indentLevel f -> moves f (AddCloseBrace env f semi) (close_one 22 (nameSpace f, indentLevel f)).
Proof.
  intros H. unfold close_one. destruct ((1 <=? indentLevel f) && (indentLevel f - 1 <=? 22)) eqn:E.
  - split; [lia|]. destruct (Close_adds f semi) as (f' & -> & A); [lia|]. eexists _, _. split; [reflexivity|]. split; [exact A|]. rewrite app_assoc. apply depth_close; [apply no_braces_app; [apply maybe_plain|apply no_braces_tabs]| |lia].
    apply no_braces_app; [|exact nl_plain]. destruct semi; split; cbn; lia.
  - apply Close_out. lia.
Qed.
Lemma adds_namespace f f' t s l s' : adds f f' t s l -> adds f (set_namespace f' s') t s' l.
Proof. intros (B & L & N & F & G). repeat split; assumption. Qed.
Lemma leave_moves f : 0 <= indentLevel f -> moves f (CloseNamespace env f) (leave 22 (nameSpace f, indentLevel f)).
Proof.
  intros H. unfold CloseNamespace, leave. cbn [fst]. destruct (nameSpace f) as [s|] eqn:E.
  - pose proof (close_moves f false H) as C. rewrite E in C. destruct (close_one 22 (Some s, indentLevel f)) as [[s' l]|]; cbn [moves] in *.
    + destruct C as (C0 & f' & t & -> & A & D). rewrite bind_ret. split; [exact C0|]. eexists _, t. split; [reflexivity|]. split; [eapply adds_namespace; exact A|exact D].
    + rewrite C. reflexivity.
  - split; [exact H|]. exists f, []. split; [reflexivity|]. split; [|reflexivity]. unfold adds. rewrite app_nil_r. repeat split; assumption.
Qed.
Lemma namespace_plain v : neutral v -> neutral (namespace_text ++ namespace_name v).
Proof. intros H. apply neutral_app; [apply plain_neutral; split; cbn; lia|]. unfold namespace_name. destruct v; [apply plain_neutral; split; cbn; lia|]. apply neutral_app; [exact H|apply plain_neutral; split; cbn; lia]. Qed.
Lemma enter_moves f v : neutral v -> 0 <= indentLevel f ->
  moves f (AddOpenBrace env (Append (Append (set_namespace f (Some (namespace_name v))) namespace_text) (namespace_name v))) (open_one 22 (Some (namespace_name v), indentLevel f)).
Proof.
  intros Hv H. set (g := Append (Append _ _) _). pose proof (open_moves g H) as O. change (nameSpace g) with (Some (namespace_name v)) in O. change (indentLevel g) with (indentLevel f) in O.
  destruct (open_one 22 _) as [[s l]|]; cbn [moves] in *; [|exact O]. destruct O as (O0 & f' & t & -> & A & D). split; [exact O0|]. eexists _, ((namespace_text ++ namespace_name v) ++ t). split; [reflexivity|]. split.
  - eapply adds_trans; [|exact A]. unfold g. instantiate (1 := indentLevel f). instantiate (1 := Some (namespace_name v)). repeat split. cbn [Append buffer set_namespace]. rewrite app_assoc. reflexivity.
  - rewrite depth_app, (namespace_plain v Hv _ H). exact D.
Qed.
Lemma moves_trans f g t s l r n : adds f g t s l -> depth (indentLevel f) t = Some l -> moves g r n -> moves f r n.
Proof.
  intros A D M. destruct n as [[s' l']|]; cbn [moves] in *; [|exact M]. destruct M as (M0 & h & u & -> & B & E). split; [exact M0|]. eexists _, (t ++ u). split; [reflexivity|]. split; [eapply adds_trans; eassumption|].
  rewrite depth_app, D. destruct A as (_ & L & _). rewrite L in E. exact E.
Qed.
Lemma call_moves f c : neutral (call_text c) -> 0 <= indentLevel f -> moves f (do_call f c) (nest 22 namespace_name (nameSpace f, indentLevel f) c).
Proof.
  intros Hc H. destruct c as [t|t|t|t| |semi|v| ]; cbn [do_call nest call_text fst snd] in *.
  - split; [exact H|]. eexists _, _. split; [reflexivity|]. split; [apply Append_adds|apply Hc, H].
  - split; [exact H|]. eexists _, _. split; [reflexivity|]. split; [apply AppendLine_adds|apply neutral_app; [exact Hc|apply plain_neutral, nl_plain|exact H]].
  - unfold AppendIndented. destruct (indentLevel f <=? 22) eqn:E; [|cbn [moves]; rewrite Indent_out by lia; reflexivity]. split; [exact H|]. destruct (Indent_adds f) as (g & -> & A); [lia|]. rewrite bind_ret. eexists _, _. split; [reflexivity|].
    destruct A as (A1 & A2 & A3 & A4 & A5). split; [eapply adds_trans; [|rewrite <- A3, <- A2; apply Append_adds]; repeat split; eassumption|]. apply neutral_app; [apply plain_neutral, no_braces_tabs|exact Hc|exact H].
  - unfold AppendIndentedLine. destruct (indentLevel f <=? 22) eqn:E; [|cbn [moves]; rewrite Indent_out by lia; reflexivity]. split; [exact H|]. destruct (Indent_adds f) as (g & -> & A); [lia|]. rewrite bind_ret. eexists _, _. split; [reflexivity|].
    destruct A as (A1 & A2 & A3 & A4 & A5). split; [eapply adds_trans; [|rewrite <- A3, <- A2; apply AppendLine_adds]; repeat split; eassumption|]. apply neutral_app; [apply plain_neutral, no_braces_tabs|apply neutral_app; [exact Hc|apply plain_neutral, nl_plain]|exact H].
  - apply open_moves, H.
  - apply close_moves, H.
  - unfold SetNamespace. destruct (nameSpace f) as [old|] eqn:E.
    + unfold text_eqb. destruct (list_eq_dec Z.eq_dec (namespace_name v) old) as [EN|N].
      * split; [exact H|]. exists f, []. split; [reflexivity|]. split; [|reflexivity]. unfold adds. rewrite app_nil_r. repeat split; assumption.
      * pose proof (leave_moves f H) as L. rewrite E in L. destruct (leave 22 _) as [[s l]|]; cbn [moves] in L; [|rewrite L; reflexivity].
        destruct L as (L0 & g & t & -> & A & D). rewrite bind_ret. eapply moves_trans; [exact A|exact D|]. destruct A as (_ & A2 & _). rewrite <- A2. apply enter_moves; [exact Hc|lia].
    + unfold leave. cbn [fst]. apply enter_moves; assumption.
  - apply leave_moves, H.
Qed.
Lemma calls_move cs : forall f, Forall (fun c => neutral (call_text c)) cs -> 0 <= indentLevel f -> moves f (do_calls f cs) (nest_all 22 namespace_name (nameSpace f, indentLevel f) cs).
Proof.
  induction cs as [|c cs IH]; intros f Hc H; cbn [do_calls nest_all].
  - split; [exact H|]. exists f, []. split; [reflexivity|]. split; [|reflexivity]. unfold adds. rewrite app_nil_r. repeat split.
  - inversion Hc as [|? ? H1 H2]; subst. pose proof (call_moves f c H1 H) as M. destruct (nest 22 _ _ c) as [[s l]|]; cbn [moves] in M; [|rewrite M; reflexivity].
    destruct M as (M0 & g & t & -> & A & D). rewrite bind_ret. destruct A as (A1 & A2 & A3 & A4 & A5). pose proof (IH g H2) as I. rewrite A2, A3 in I. eapply moves_trans; [|exact D|apply I, M0]. repeat split; assumption.
Qed.
End Env.
