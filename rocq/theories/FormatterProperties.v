(** * C54-C57: literals, names, braces and indentation of the generated C++ *)
From Coq Require Import String Ascii.
From Verif Require Import Tac MemModel MemProofs StringBuilderModel StringBuilderProofs TextProofs FormatterModel FormatterSpec FormatterProofs.
Import ListNotations.
Local Open Scope Z_scope.

(** ** C54 *)
Lemma not_surrogate_ucn s : Forall (fun c => surrogate c = false) s -> forallb (fun c => negb (needs_ucn c) || cpp_ucn c) s = true.
Proof. intros H. apply forallb_forall. intros c Hc. unfold cpp_ucn. rewrite (proj1 (Forall_forall _ _) H c Hc). cbn. apply orb_true_r. Qed.
(** Every string without surrogates is emitted as a literal that C++ reads back as that string, whatever follows it. *)
Theorem C54_string_literal_partial f s rest : Forall code_unit s -> Forall (fun c => surrogate c = false) s ->
  exists f' lit, AppendStringsWithControl f s = Ret f' /\ buffer f' = buffer f ++ lit /\ read_string cpp_ucn (lit ++ rest) = Some (s, rest).
Proof.
  intros Hs Hn. destruct (AppendStrings_spec f s Hs) as (f' & E & B). exists f', (76 :: 34 :: flat_map (escaped true) s ++ [34]). split; [exact E|]. split; [exact B|].
  cbn [read_string app]. rewrite <- app_assoc. cbn [app]. rewrite (lex_string cpp_ucn s rest Hs), (not_surrogate_ucn s Hn). reflexivity.
Qed.
(** The full statement fails exactly for the others: a string with a surrogate (any character outside the
    basic multilingual plane) becomes a literal that no C++ compiler accepts. *)
Theorem C54_surrogate_refuted f s rest : Forall code_unit s -> Exists (fun c => surrogate c = true) s ->
  exists f' lit, AppendStringsWithControl f s = Ret f' /\ buffer f' = buffer f ++ lit /\ read_string cpp_ucn (lit ++ rest) = None.
Proof.
  intros Hs Hn. destruct (AppendStrings_spec f s Hs) as (f' & E & B). exists f', (76 :: 34 :: flat_map (escaped true) s ++ [34]). split; [exact E|]. split; [exact B|].
  cbn [read_string app]. rewrite <- app_assoc. cbn [app]. rewrite (lex_string cpp_ucn s rest Hs). replace (forallb _ s) with false; [reflexivity|]. symmetry.
  apply Bool.not_true_is_false. intros F. apply Exists_exists in Hn. destruct Hn as (c & Hc & Sc). pose proof (proj1 (forallb_forall _ _) F c Hc) as X. cbv beta in X. unfold cpp_ucn in X. rewrite Sc in X. unfold needs_ucn in X. unfold surrogate in Sc. lia.
Qed.
(** Two strings are never emitted as the same literal, surrogates or not. *)
Theorem C54_string_literals_distinct f s1 s2 f1 f2 : Forall code_unit s1 -> Forall code_unit s2 ->
  AppendStringsWithControl f s1 = Ret f1 -> AppendStringsWithControl f s2 = Ret f2 -> buffer f1 = buffer f2 -> s1 = s2.
Proof.
  intros H1 H2 E1 E2 B. destruct (AppendStrings_spec f s1 H1) as (g1 & F1 & B1). destruct (AppendStrings_spec f s2 H2) as (g2 & F2 & B2).
  rewrite E1 in F1. rewrite E2 in F2. injection F1 as <-. injection F2 as <-. rewrite B1, B2 in B. apply app_inv_head in B. cbn [app] in B. assert (B' : flat_map (escaped true) s1 ++ [34] = flat_map (escaped true) s2 ++ [34]) by congruence.
  pose proof (lex_string (fun _ => true) s1 [] H1) as L1. pose proof (lex_string (fun _ => true) s2 [] H2) as L2. rewrite B', L2 in L1.
  assert (A : forall s, forallb (fun c => negb (needs_ucn c) || true) s = true) by (intros s; apply forallb_forall; intros; apply orb_true_r). rewrite !A in L1. congruence.
Qed.
Theorem C54_char_literal_partial f c rest : code_unit c -> surrogate c = false ->
  exists f' lit, AppendCharWithControls f c false = Ret f' /\ buffer f' = buffer f ++ lit /\ read_char cpp_ucn (lit ++ rest) = Some ([c], rest).
Proof.
  intros Hc Sc. destruct (AppendChar_spec f c false Hc) as (f' & E & B & _). cbv iota in B. exists f', ([76; 39] ++ escaped false c ++ [39]). split; [exact E|]. split; [exact B|].
  cbn [read_char app]. rewrite <- app_assoc. cbn [app]. rewrite (lex_escaped cpp_ucn false c _ Hc). unfold cpp_ucn at 1. rewrite Sc. cbn [negb]. rewrite orb_true_r. reflexivity.
Qed.
Theorem C54_char_surrogate_refuted f c rest : code_unit c -> surrogate c = true ->
  exists f' lit, AppendCharWithControls f c false = Ret f' /\ buffer f' = buffer f ++ lit /\ read_char cpp_ucn (lit ++ rest) = None.
Proof.
  intros Hc Sc. destruct (AppendChar_spec f c false Hc) as (f' & E & B & _). cbv iota in B. exists f', ([76; 39] ++ escaped false c ++ [39]). split; [exact E|]. split; [exact B|].
  cbn [read_char app]. rewrite <- app_assoc. cbn [app]. rewrite (lex_escaped cpp_ucn false c _ Hc). unfold cpp_ucn at 1. rewrite Sc. cbn [negb]. replace (needs_ucn c) with true by (unfold needs_ucn; unfold surrogate in Sc; lia). reflexivity.
Qed.
(** The emitted [new String(L"...")] builds the source string at run time: [String_from] is the runtime's
    constructor applied to the NUL-terminated array the literal denotes. *)
Theorem C54_string_object_partial f s rest : Forall code_unit s -> Forall (fun c => surrogate c = false) s -> ~ In 0 s -> zlen s < 2147483647 ->
  exists f' lit v, AppendStringsWithControl f s = Ret f' /\ buffer f' = buffer f ++ lit /\ read_string cpp_ucn (lit ++ rest) = Some (v, rest) /\ String_from (v ++ [0]) 0 (-1) = Ret s.
Proof.
  intros Hs Hn H0 L. destruct (C54_string_literal_partial f s rest Hs Hn) as (f' & lit & E & B & R). exists f', lit, s. repeat split; try assumption. apply String_from_terminated; assumption.
Qed.
(** With an embedded NUL the string object is cut at it. *)
Theorem C54_embedded_nul_refuted f a b rest : Forall code_unit (a ++ 0 :: b) -> Forall (fun c => surrogate c = false) (a ++ 0 :: b) -> ~ In 0 a -> zlen a < 2147483647 ->
  exists f' lit v, AppendStringsWithControl f (a ++ 0 :: b) = Ret f' /\ buffer f' = buffer f ++ lit /\ read_string cpp_ucn (lit ++ rest) = Some (v, rest) /\ String_from (v ++ [0]) 0 (-1) = Ret a.
Proof.
  intros Hs Hn H0 L. destruct (C54_string_literal_partial f _ rest Hs Hn) as (f' & lit & E & B & R). exists f', lit, (a ++ 0 :: b). repeat split; try assumption. rewrite <- app_assoc. cbn [app]. apply (String_from_terminated a); assumption.
Qed.
Example C54_example : Forall code_unit (T "say ""hi""" ++ [10; 8364]) /\ Forall (fun c => surrogate c = false) (T "say ""hi""" ++ [10; 8364]) /\ ~ In 0 (T "say ""hi""" ++ [10; 8364]) /\
  match AppendStringsWithControl new_formatter (T "say ""hi""" ++ [10; 8364]) with Ret f' => buffer f' = T "L""say \""hi\""\n\u20ac""" | _ => False end.
Proof.
  split; [|split; [|split]].
  - repeat (constructor; [unfold code_unit; cbn; lia|]). constructor.
  - repeat (constructor; [reflexivity|]). constructor.
  - cbn. lia.
  - vm_compute. reflexivity.
Qed.

(** ** C55 *)
(** What is assumed of Char.IsLower: it holds for the ASCII lower case letters. *)
Definition lower_ascii (env : dotnet) : Prop := forall c, 97 <= c <= 122 -> IsLower env c = true.
Theorem C55_injective env : lower_ascii env -> forall n1 n2 m, mangle env n1 = Ret m -> mangle env n2 = Ret m -> n1 = n2.
Proof.
  intros Hl.
  assert (A : forall n1 n2 m, n1 = m -> lower_name env n1 = false \/ n1 = this_text -> (m = void_text \/ m = Prefix ++ n2) -> n1 = n2).
  { intros n1 n2 m Hm HC HM. subst m. destruct HM as [HM|HM]; rewrite HM in HC; destruct HC as [HC|HC]; try discriminate HC; cbn in HC; rewrite Hl in HC by lia; discriminate HC. }
  intros n1 n2 m E1 E2.
  destruct (mangle_cases env n1 m E1) as [(M1 & C1 & _)|[(N1 & M1)|(M1 & _ & _)]], (mangle_cases env n2 m E2) as [(M2 & C2 & _)|[(N2 & M2)|(M2 & _ & _)]];
    try congruence; try (apply (A _ _ m); auto; fail); try (symmetry; apply (A _ _ m); auto; fail).
  - rewrite M1 in M2. discriminate.
  - rewrite M2 in M1. discriminate.
  - rewrite M1 in M2. injection M2. auto.
Qed.
(** No emitted name is a C++ keyword, except this and void. *)
Theorem C55_no_keyword env : lower_ascii env -> forall n m, mangle env n = Ret m -> In m keywords -> m = T "this" \/ m = T "void".
Proof.
  intros Hl n m E K. destruct (mangle_cases env n m E) as [(M & C & _)|[(N & M)|(M & _ & _)]]; [|right; exact M|].
  - destruct C as [C|C]; [|left; rewrite M; exact C]. exfalso. subst m.
    assert (X : Forall (fun k => match k with [] => False | c :: _ => 97 <= c <= 122 end) keywords) by (repeat (constructor; [cbn; lia|]); constructor).
    pose proof (proj1 (Forall_forall _ _) X n K) as Y. cbv beta in Y. destruct n as [|c n]; [destruct Y|]. cbn in C. rewrite (Hl c Y) in C. discriminate.
  - exfalso. assert (X : Forall (fun k => match k with 120 :: 95 :: _ => False | _ => True end) keywords) by (repeat (constructor; [cbn; exact I|]); constructor).
    pose proof (proj1 (Forall_forall _ _) X m K) as Y. subst m. exact Y.
Qed.
(** Every non-empty name is emitted; Formatter.cs 166 indexes its first character, so the empty name aborts the translation. *)
Theorem C55_total env n : n <> [] -> exists m, mangle env n = Ret m.
Proof. intros H. unfold mangle, PrefixName. destruct n; [congruence|]. eexists. reflexivity. Qed.
Theorem C55_empty_refuted env f : AppendName env f [] = Exn IndexOutOfRangeException.
Proof. reflexivity. Qed.
Example C55_example : let env := mk_dotnet [10] (fun c => (97 <=? c) && (c <=? 122)) in
  lower_ascii env /\ mangle env (T "delete") = Ret (T "x_delete") /\ mangle env (T "Delete") = Ret (T "Delete") /\ mangle env (T "Void") = Ret (T "void") /\ mangle env (T "void") = Ret (T "x_void").
Proof. cbv zeta. split; [intros c H; cbn; lia|]. repeat split. Qed.

(** ** C56 *)
(** Calls are [FormatterSpec.call]; [nest_all] counts the open blocks.  Missing from the full statement:
    nestings deeper than 22 (see C57). *)
Theorem C56_nesting_partial env cs s l : no_braces (nl env) -> Forall (fun c => neutral (call_text c)) cs -> nest_all 22 namespace_name (None, 0) cs = Some (s, l) ->
  exists f', do_calls env new_formatter cs = Ret f' /\ depth 0 (buffer f') = Some l /\ nameSpace f' = s /\ indentLevel f' = l.
Proof.
  intros Hn Hc E. pose proof (calls_move env Hn cs new_formatter Hc ltac:(cbn; lia)) as M.
  assert (E' : nest_all 22 namespace_name (nameSpace new_formatter, indentLevel new_formatter) cs = Some (s, l)) by exact E. rewrite E' in M. destruct M as (_ & f' & t & Ef & (A1 & A2 & A3 & _) & D).
  exists f'. split; [exact Ef|]. rewrite A1. auto.
Qed.
(** A whole output file: opening it, any calls that leave nothing but the last namespace open, closing it.
    The file's text is balanced, the files written before are untouched and the writer is ready for the next file. *)
Definition ready (f : formatter) : Prop := buffer f = [] /\ indentLevel f = 0 /\ nameSpace f = None /\ file f = None.
Theorem C56_file_balanced_partial env f name cs s : no_braces (nl env) -> Forall (fun c => neutral (call_text c)) cs -> ready f ->
  nest_all 22 namespace_name (None, 0) cs = Some (s, match s with Some _ => 1 | None => 0 end) ->
  exists g h f' t, set_OutputName env f name = Ret g /\ do_calls env g cs = Ret h /\ Close env h = Ret f' /\ ready f' /\ files f' = files f ++ [(name, t)] /\ balanced t.
Proof.
  intros Hn Hc (R1 & R2 & R3 & R4) E. unfold set_OutputName, Close at 1. rewrite R4. rewrite bind_ret. set (g := mk_formatter _ _ _ _ _ _ _).
  assert (G : buffer g = [] /\ indentLevel g = 0 /\ nameSpace g = None /\ file g = Some name /\ files g = files f) by (unfold g; cbn; auto). clearbody g. destruct G as (G1 & G2 & G3 & G4 & G5).
  pose proof (calls_move env Hn cs g Hc ltac:(lia)) as M. rewrite G2, G3 in M. assert (E' : nest_all 22 namespace_name (@None text, 0) cs = Some (s, match s with Some _ => 1 | None => 0 end)) by exact E. rewrite E' in M. destruct M as (_ & h & t & Eh & (A1 & A2 & A3 & A4 & A5) & D).
  pose proof (leave_moves env Hn h ltac:(rewrite A2; destruct s; lia)) as L. rewrite G2 in D. rewrite G1 in A1. cbn [app] in A1.
  assert (X : leave 22 (nameSpace h, indentLevel h) = Some (None, 0)) by (rewrite A2, A3; destruct s; reflexivity). rewrite X in L. destruct L as (_ & k & u & Ek & (B1 & B2 & B3 & B4 & B5) & DL).
  exists g, h. unfold Close. rewrite A4, G4, Ek, bind_ret. eexists _, (t ++ u). split; [reflexivity|]. split; [exact Eh|]. split; [reflexivity|]. unfold ready, Flush, balanced. cbn [buffer indentLevel nameSpace file files]. rewrite B5, A5, G5, B1, A1.
  repeat split; try assumption. rewrite depth_app, D. rewrite A2 in DL. exact DL.
Qed.
(** Entering another namespace first closes the current one: the added text is, up to line ends and
    indentation, [} namespace new {]. *)
Theorem C56_namespace_closes_previous env f old v : nameSpace f = Some old -> namespace_name v <> old -> indentLevel f = 1 ->
  exists f', SetNamespace env f v = Ret f' /\ nameSpace f' = Some (namespace_name v) /\ indentLevel f' = 1 /\
    buffer f' = buffer f ++ (if onNewline f then [] else nl env) ++ T "}" ++ nl env ++ T "namespace " ++ namespace_name v ++ nl env ++ T "{" ++ nl env.
Proof.
  intros E N L. unfold SetNamespace, CloseNamespace. rewrite E. unfold text_eqb. destruct (list_eq_dec Z.eq_dec (namespace_name v) old) as [X|_]; [congruence|].
  destruct (Close_adds env f false) as (g & -> & (A1 & A2 & A3 & A4 & A5)); [lia|]. rewrite !bind_ret. set (h := Append (Append _ _) _).
  assert (H : buffer h = buffer g ++ T "namespace " ++ namespace_name v /\ indentLevel h = 0 /\ nameSpace h = Some (namespace_name v) /\ onNewline h = false).
  { unfold h. cbn [Append buffer set_namespace indentLevel nameSpace onNewline]. rewrite <- app_assoc. repeat split. lia. }
  clearbody h. destruct H as (H1 & H2 & H3 & H4). destruct (Open_adds env h) as (f' & -> & (B1 & B2 & B3 & _)); [lia|]. exists f'. split; [reflexivity|]. rewrite B1, B2, B3, H1, H2, H3, A1, L. split; [reflexivity|]. split; [reflexivity|].
  unfold maybe_nl. rewrite H4. cbn [Z.sub Z.to_nat repeat app semi_text]. rewrite <- !app_assoc. reflexivity.
Qed.
Example C56_example : let env := mk_dotnet [10] (fun c => (97 <=? c) && (c <=? 122)) in
  let cs := [WriteLine (T "#pragma once"); EnterNamespace (T "A"); WriteIndented (T "class C"); OpenBlock; WriteIndentedLine (T "int x;"); CloseBlock true; EnterNamespace (T "B"); WriteIndentedLine (T "class D;")] in
  nest_all 22 namespace_name (None, 0) cs = Some (Some (T "B_NS"), 1) /\
  match do_calls env new_formatter cs with
  | Ret f => buffer f = T "#pragma once" ++ [10] ++ T "namespace A_NS" ++ [10] ++ T "{" ++ [10; 9] ++ T "class C" ++ [10; 9] ++ T "{" ++ [10; 9; 9] ++ T "int x;" ++ [10; 9] ++ T "};" ++ [10] ++ T "}" ++ [10]
                        ++ T "namespace B_NS" ++ [10] ++ T "{" ++ [10; 9] ++ T "class D;" ++ [10]
  | _ => False end.
Proof. cbv zeta. split; vm_compute; reflexivity. Qed.

(** ** C57 *)
(** Up to nesting 22 a line is indented by exactly its nesting. *)
Theorem C57_indentation_partial env f t : 0 <= indentLevel f <= 22 -> exists f', AppendIndentedLine env f t = Ret f' /\ buffer f' = buffer f ++ repeat 9 (Z.to_nat (indentLevel f)) ++ t ++ nl env /\ indentLevel f' = indentLevel f.
Proof.
  intros H. unfold AppendIndentedLine. destruct (Indent_adds f H) as (g & -> & (A1 & A2 & _)). rewrite bind_ret. eexists. split; [reflexivity|]. cbn [AppendLine Newline Append buffer indentLevel]. rewrite A1, A2, <- !app_assoc. auto.
Qed.
(** At every other nesting the translation aborts. *)
Theorem C57_deep_refuted env f t : 22 < indentLevel f -> AppendIndentedLine env f t = Exn ArgumentOutOfRangeException.
Proof. intros H. unfold AppendIndentedLine. rewrite Indent_out by lia. reflexivity. Qed.
(** ... so a program whose blocks nest more than 23 deep cannot be translated at all. *)
Theorem C57_deep_program_refuted env n cs : no_braces (nl env) -> (24 <= n)%nat -> do_calls env new_formatter (repeat OpenBlock n ++ cs) = Exn ArgumentOutOfRangeException.
Proof.
  intros Hn H. replace n with (24 + (n - 24))%nat by lia. rewrite repeat_app, <- app_assoc.
  pose proof (calls_move env Hn (repeat OpenBlock 24) new_formatter) as M. cbn [new_formatter nameSpace indentLevel] in M.
  assert (X : do_calls env new_formatter (repeat OpenBlock 24) = Exn ArgumentOutOfRangeException).
  { apply M; [|lia]. apply Forall_forall. intros c Hc. apply repeat_spec in Hc. subst c. intros d _. reflexivity. }
  revert X. generalize new_formatter (repeat OpenBlock 24) (repeat OpenBlock (n - 24) ++ cs). intros f l1 l2. revert f. induction l1 as [|c l1 IH]; intros f; cbn [do_calls app]; [discriminate|].
  destruct (do_call env f c); cbn [bind]; auto; discriminate.
Qed.
(** Exactly the call sequences counted by [nest_all] with limit 22 are translated; all others abort. *)
Theorem C57_exact env cs : no_braces (nl env) -> Forall (fun c => neutral (call_text c)) cs ->
  (exists f', do_calls env new_formatter cs = Ret f') <-> nest_all 22 namespace_name (None, 0) cs <> None.
Proof.
  intros Hn Hc. pose proof (calls_move env Hn cs new_formatter Hc ltac:(cbn; lia)) as M. change (nest_all 22 namespace_name (nameSpace new_formatter, indentLevel new_formatter) cs) with (nest_all 22 namespace_name (None, 0) cs) in M. destruct (nest_all 22 namespace_name (None, 0) cs) as [[s l]|]; cbn [moves] in M.
  - destruct M as (_ & f' & t & E & _). split; [congruence|]. intros _. exists f'. exact E.
  - split; [intros (f' & E); congruence|congruence].
Qed.
Example C57_example : let env := mk_dotnet [10] (fun c => (97 <=? c) && (c <=? 122)) in
  match do_calls env new_formatter [OpenBlock; OpenBlock; WriteIndentedLine (T "x")] with Ret f => indentLevel f = 2 | _ => False end.
Proof. vm_compute. reflexivity. Qed.
Print Assumptions C54_string_literal_partial.
Print Assumptions C54_string_object_partial.
Print Assumptions C55_injective.
Print Assumptions C55_no_keyword.
Print Assumptions C56_nesting_partial.
Print Assumptions C56_file_balanced_partial.
Print Assumptions C57_exact.
