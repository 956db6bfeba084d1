(** * C97: string concatenation, from the C# expression to the text it yields at run time *)
From Coq Require Import String Ascii Bool.
From Verif Require Import Tac MemModel MemProofs StringBuilderModel StringBuilderProofs StringModel StringSpec StringProofs StringBuildProofs StringBuildProperties TextProofs
  FormatterModel FormatterSpec FormatterProofs FormatterProperties TranslatorProperties ConcatModel ConcatSpec.
Import ListNotations.
Local Open Scope Z_scope.

(** ** Induction over operands *)
Section Induction.
Variable P : operand -> Prop.
Hypotheses (HN : P Null) (HL : forall s, P (Literal s)) (HV : forall n, P (Variable_ n))
  (HC : forall l, Forall P l -> P (ConcatCall l)) (HB : forall l, Forall P (stored l) -> P (ConcatBlock l)) (HI : forall a, P a -> P (Implicit a)).
Fixpoint operand_induction (o : operand) : P o.
Proof.
  destruct o as [|s|n|l|l|a]; [exact HN|apply HL|apply HV|apply HC|apply HB|apply HI; apply operand_induction].
  - induction l as [|a l IH]; constructor; [apply operand_induction|exact IH].
  - induction l as [|[|a|] l IH]; cbn; [constructor|exact IH|constructor; [apply operand_induction|exact IH]|exact IH].
Qed.
End Induction.

(** ** Cutting *)
Definition whole (t : list Z) : Prop := forall d cur rest, cut false d cur (t ++ rest) = cut false d (cur ++ t) rest.
Lemma whole_app a b : whole a -> whole b -> whole (a ++ b).
Proof. intros A B d cur rest. rewrite <- app_assoc, A, B, app_assoc. reflexivity. Qed.
Definition plain_char (c : Z) : bool := negb ((c =? 34) || (c =? 40) || (c =? 41) || (c =? 44)).
Lemma whole_plain t : forallb plain_char t = true -> whole t.
Proof.
  induction t as [|c t IH]; intros H d cur rest; [rewrite app_nil_r; reflexivity|]. cbn [forallb] in H. apply andb_prop in H. destruct H as (C & H). cbn [app cut]. unfold plain_char in C.
  destruct (c =? 34), (c =? 40), (c =? 41), (c =? 44); try discriminate C. rewrite (IH H), <- app_assoc. reflexivity.
Qed.
Lemma whole_parens t : whole t -> whole (40 :: t ++ [41]).
Proof. intros W d cur rest. cbn [app cut]. rewrite <- app_assoc, W. cbn. rewrite <- !app_assoc. reflexivity. Qed.
Lemma cut_quoted c d cur rest : code_unit c -> cut true d cur (escaped true c ++ rest) = cut true d (cur ++ escaped true c) rest.
Proof.
  intros U. assert (HX : forall x, (hex_lower x =? 34) || (hex_lower x =? 92) = true -> ~ 0 <= x < 16) by (intros x; unfold hex_lower; destruct (x <? 10) eqn:?; lia).
  unfold escaped. destruct (c =? 34) eqn:C1; [reflexivity|]. destruct (c =? 92) eqn:C2; [reflexivity|].
  do 8 (match goal with |- context [if ?b then _ else _] => destruct b eqn:? end; [reflexivity|]). 
  match goal with |- context [if ?b then _ else _] => destruct b eqn:? end.
  - cbn [app cut]. rewrite C1, C2. reflexivity.
  - unfold code_unit in U. cbn [app cut]. 
    assert (H : forall x, 0 <= x < 16 -> hex_lower x =? 34 = false /\ hex_lower x =? 92 = false).
    { intros x B. destruct (hex_lower x =? 34) eqn:E1, (hex_lower x =? 92) eqn:E2; auto; exfalso; apply (HX x); try rewrite E1; try rewrite E2; try reflexivity; exact B. }
    change (92 =? 34) with false. change (92 =? 92) with true. cbv iota.
    destruct (H (c / 4096)) as (-> & ->); [split; [apply Z.div_pos; lia|apply Z.div_lt_upper_bound; lia]|].
    destruct (H (c / 256 mod 16)) as (-> & ->); [apply Z.mod_pos_bound; lia|].
    destruct (H (c / 16 mod 16)) as (-> & ->); [apply Z.mod_pos_bound; lia|].
    destruct (H (c mod 16)) as (-> & ->); [apply Z.mod_pos_bound; lia|]. rewrite <- !app_assoc. reflexivity.
Qed.
Lemma whole_literal s : Forall code_unit s -> whole (76 :: 34 :: flat_map (escaped true) s ++ [34]).
Proof.
  intros U d cur rest. cbn [app]. cbn [cut]. change (76 =? 34) with false. change (76 =? 40) with false. change (76 =? 41) with false. change (76 =? 44) with false. change (34 =? 34) with true. cbv iota.
  assert (G : forall cur, cut true d cur ((flat_map (escaped true) s ++ [34]) ++ rest) = cut false d (cur ++ flat_map (escaped true) s ++ [34]) rest).
  { induction U as [|c s C U IH]; intros cur'; [reflexivity|]. cbn [flat_map]. rewrite <- !app_assoc, (cut_quoted _ _ _ _ C). rewrite <- app_assoc in IH. rewrite IH, !app_assoc. reflexivity. }
  rewrite G, <- !app_assoc. reflexivity.
Qed.
Definition more (ts : list (list Z)) : list Z := flat_map (fun t => T ", " ++ t) ts.
Lemma cut_more ts : Forall whole ts -> forall cur, cut false O cur (more ts) = Some (cur :: map (cons 32) ts).
Proof.
  induction 1 as [|t ts W _ IH]; intros cur; [reflexivity|]. unfold more. change (T ", ") with [44; 32]. cbn [flat_map app]. change (flat_map _ ts) with (more ts).
  cbn [cut app]. change (44 =? 34) with false. change (44 =? 40) with false. change (44 =? 41) with false. change (44 =? 44) with true. change (32 =? 34) with false. change (32 =? 40) with false. change (32 =? 41) with false. change (32 =? 44) with false. cbv iota.
  rewrite W, IH. reflexivity.
Qed.
(** Texts that start with no blank. *)
Definition starts (t : list Z) : Prop := match t with c :: _ => c <> 32 | [] => False end.
Lemma strip_starts t : starts t -> strip t = t.
Proof. destruct t as [|c t]; [contradiction|]. cbn [starts strip]. intros N. destruct (c =? 32) eqn:E; [lia|reflexivity]. Qed.
Lemma arguments_cut t ts : Forall whole (t :: ts) -> Forall starts (t :: ts) -> arguments (t ++ more ts) = Some (t :: ts).
Proof.
  intros W S. inversion W as [|? ? W0 W1]; subst. inversion S as [|? ? S0 S1]; subst. unfold arguments. rewrite (W0 O [] (more ts)), (cut_more _ W1). cbn [option_map map app]. rewrite (strip_starts _ S0). do 2 f_equal.
  clear - S1. induction S1 as [|t ts N _ IH]; [reflexivity|]. cbn [map]. f_equal; [|exact IH]. cbn [strip]. change (32 =? 32) with true. apply strip_starts, N.
Qed.

(** ** What is written *)
Section Written.
Variable env : dotnet.
Definition names_ascii : Prop := forall c, 0 <= c < 128 -> IsLower env c = lower_letter c.
Hypothesis LOW : names_ascii.
Definition writes_text (o : operand) (t : list Z) : Prop := forall f, exists f', visit env f o = Ret f' /\ buffer f' = buffer f ++ t.
Definition lit_text (s : list Z) : list Z := 76 :: 34 :: flat_map (escaped true) s ++ [34].
Definition call_text (ts : list (list Z)) : list Z := match ts with t :: ts => T "String::Concat(" ++ (t ++ more ts) ++ T ")" | [] => [] end.
Lemma write_null : writes_text Null (T "nullptr").
Proof. intros f. eexists. split; reflexivity. Qed.
Lemma write_literal s : Forall code_unit s -> writes_text (Literal s) (T "(new String(" ++ lit_text s ++ T "))").
Proof.
  intros U f. cbn [visit]. destruct (AppendStrings_spec (Append f (T "(new String(")) s U) as (f' & -> & B). rewrite bind_ret. eexists. split; [reflexivity|]. cbn [Append buffer] in *. rewrite B. unfold lit_text. rewrite <- !app_assoc. reflexivity.
Qed.
Lemma name_ascii c : name_char c = true -> 0 <= c < 128.
Proof. unfold name_char, lower_letter. lia. Qed.
Lemma write_variable n : is_name n -> n <> T "this" -> n <> T "Void" -> writes_text (Variable_ n) (cpp_name n).
Proof.
  intros (A & c & n' & -> & S) N1 N2 f. cbn [visit]. unfold AppendName. assert (C : 0 <= c < 128) by (cbn [forallb] in A; apply andb_prop in A; apply name_ascii, A).
  assert (M : mangle env (c :: n') = Ret (cpp_name (c :: n'))).
  { unfold cpp_name. destruct (lower_letter c) eqn:E.
    - apply mangle_lower; [cbn [lower_name]; rewrite (LOW c C); exact E|exact N1].
    - apply mangle_upper; [discriminate|cbn [lower_name]; rewrite (LOW c C); exact E|exact N2]. }
  rewrite M, bind_ret. eexists. split; reflexivity.
Qed.
Lemma write_arguments l ts : Forall2 writes_text l ts -> forall f, exists f', visit_arguments (visit env) f false l = Ret f' /\ buffer f' = buffer f ++ more ts.
Proof.
  induction 1 as [|a t l ts W _ IH]; intros f; [exists f; split; [reflexivity|rewrite app_nil_r; reflexivity]|]. cbn [visit_arguments negb]. destruct (W (Append f (T ", "))) as (f1 & -> & B). rewrite bind_ret. destruct (IH f1) as (f2 & -> & B2).
  exists f2. split; [reflexivity|]. rewrite B2, B. unfold more. cbn [flat_map Append buffer]. rewrite <- !app_assoc. reflexivity.
Qed.
Lemma write_call a l t ts : writes_text a t -> Forall2 writes_text l ts -> (1 <= length l)%nat -> writes_text (ConcatCall (a :: l)) (call_text (t :: ts)).
Proof.
  intros W F L f. cbn [visit]. destruct (Nat.ltb_spec (length (a :: l)) 2) as [X|_]; [cbn [length] in X; lia|]. cbn [visit_arguments negb]. destruct (W (Append f (T "String::Concat("))) as (f1 & -> & B). rewrite bind_ret. destruct (write_arguments _ _ F f1) as (f2 & -> & B2).
  rewrite bind_ret. eexists. split; [reflexivity|]. cbn [Append buffer] in *. rewrite B2, B. unfold call_text. rewrite <- !app_assoc. reflexivity.
Qed.
Lemma write_elements l : ~ In Other_ l -> forall ts, Forall2 writes_text (stored l) ts -> forall f, exists f', HandleConcatBlock (visit env) f false l = Ret f' /\ buffer f' = buffer f ++ more ts.
Proof.
  induction l as [|[|a|] l IH]; intros N ts F f; cbn [HandleConcatBlock] in *.
  - cbn in F. inversion F; subst. exists f. split; [reflexivity|rewrite app_nil_r; reflexivity].
  - apply IH; [intros X; apply N; right; exact X|exact F].
  - cbn [stored flat_map app] in F. inversion F as [|? t ? ts' W F']; subst. cbn [negb]. destruct (W (Append f (T ", "))) as (f1 & -> & B). rewrite bind_ret. destruct (IH ltac:(intros X; apply N; right; exact X) ts' F' f1) as (f2 & -> & B2).
    exists f2. split; [reflexivity|]. rewrite B2, B. unfold more. cbn [flat_map Append buffer]. rewrite <- !app_assoc. reflexivity.
  - exfalso. apply N. left. reflexivity.
Qed.
Lemma write_first l : ~ In Other_ l -> forall t ts, Forall2 writes_text (stored l) (t :: ts) -> forall f, exists f', HandleConcatBlock (visit env) f true l = Ret f' /\ buffer f' = buffer f ++ t ++ more ts.
Proof.
  induction l as [|[|a|] l IH]; intros N t ts F f; cbn [HandleConcatBlock] in *.
  - cbn in F. inversion F.
  - apply IH; [intros X; apply N; right; exact X|exact F].
  - cbn [stored flat_map app] in F. inversion F as [|? ? ? ? W F']; subst. cbn [negb]. destruct (W f) as (f1 & -> & B). rewrite bind_ret. destruct (write_elements l ltac:(intros X; apply N; right; exact X) ts F' f1) as (f2 & -> & B2).
    exists f2. split; [reflexivity|]. rewrite B2, B, <- app_assoc. reflexivity.
  - exfalso. apply N. left. reflexivity.
Qed.
Lemma write_block l t ts : ~ In Other_ l -> Forall2 writes_text (stored l) (t :: ts) -> writes_text (ConcatBlock l) (call_text (t :: ts)).
Proof.
  intros N F f. cbn [visit]. destruct (write_first l N t ts F (Append f (T "String::Concat("))) as (f1 & -> & B). rewrite bind_ret. eexists. split; [reflexivity|]. cbn [Append buffer] in *. rewrite B. unfold call_text. rewrite <- !app_assoc. reflexivity.
Qed.

(** ** What it means *)
Section Meaning.
Variables vars cvars : list Z -> option (list Z).
Hypothesis SAME : forall n, is_name n -> cvars (cpp_name n) = vars n.
Definition reads_as (o : operand) (t : list Z) : Prop := whole t /\ starts t /\ writes_text o t /\ forall r, evaluates cvars t r <-> r = Ret (meaning vars o).
Lemma name_no_paren n : is_name n -> ~ In 40 n.
Proof. intros (A & _) X. rewrite forallb_forall in A. specialize (A _ X). discriminate. Qed.
Lemma nullptr_keyword : In (T "nullptr") keywords.
Proof. assert (E : existsb (fun k => if list_eq_dec Z.eq_dec (T "nullptr") k then true else false) keywords = true) by (vm_compute; reflexivity). apply existsb_exists in E. destruct E as (k & H & E). destruct (list_eq_dec Z.eq_dec (T "nullptr") k) as [->|]; [exact H|discriminate]. Qed.
Lemma app_last (a b : list Z) x y : a ++ [x] = b ++ [y] -> a = b.
Proof. intros E. apply app_inj_tail in E. tauto. Qed.
Lemma last_two (a b : list Z) x y z w : a ++ [x; y] = b ++ [z; w] -> a = b.
Proof. intros E. change [x; y] with ([x] ++ [y]) in E. change [z; w] with ([z] ++ [w]) in E. rewrite !app_assoc in E. apply app_last in E. exact (app_last _ _ _ _ E). Qed.
Lemma ev_cases t r : evaluates cvars t r ->
  (t = T "nullptr" /\ r = Ret None) \/ (is_name t /\ ~ In t keywords /\ r = Ret (cvars t)) \/
  (exists lit s r0, t = T "(new String(" ++ lit ++ T "))" /\ read_string cpp_ucn lit = Some (s, []) /\ String_from (s ++ [0]) 0 (-1) = Ret r0 /\ r = Ret (Some r0)) \/
  (exists body u us v vs, t = T "String::Concat(" ++ body ++ T ")" /\ arguments body = Some (u :: us) /\ (length us <= 6)%nat /\ evaluates cvars u (Ret v) /\
     Forall2 (fun t v => evaluates cvars t (Ret v)) us vs /\ r = bind (Concat_args v vs) (fun s => Ret (Some s))).
Proof. destruct 1; [left; auto|right; left; auto|right; right; left; eauto 10|right; right; right; eauto 20]. Qed.
Lemma call_evaluates t ts a l : Forall2 reads_as (a :: l) (t :: ts) -> fit_list vars 1 (a :: l) ->
  whole (call_text (t :: ts)) /\ starts (call_text (t :: ts)) /\ forall r, evaluates cvars (call_text (t :: ts)) r <-> r = Ret (Some (concat (map (fun a => or_empty (meaning vars a)) (a :: l)))).
Proof.
  intros F (L & (a0 & l0 & E & NN) & Z0). injection E as <- <-. inversion F as [|? ? ? ? R FR]; subst. destruct R as (Wt & St & _ & Rt).
  assert (WS : Forall whole ts /\ Forall starts ts). { clear - FR. induction FR as [|a t l ts (A & B & _) F (IH1 & IH2)]; split; constructor; assumption. } destruct WS as (Ws & Ss).
  assert (WM : whole (t ++ more ts) -> True) by trivial. clear WM.
  assert (ARG : arguments (t ++ more ts) = Some (t :: ts)) by (apply arguments_cut; constructor; assumption).
  assert (EV : Forall2 (fun t v => evaluates cvars t (Ret v)) ts (map (meaning vars) l)). { clear - FR. induction FR as [|a t l ts (_ & _ & _ & R) F IH]; constructor; [apply R; reflexivity|exact IH]. }
  assert (UQ : forall vs, Forall2 (fun t v => evaluates cvars t (Ret v)) ts vs -> vs = map (meaning vars) l).
  { clear - FR. induction FR as [|a t l ts (_ & _ & _ & R) F IH]; intros vs H; inversion H as [|? v ? vs' H1 H2]; subst; [reflexivity|]. cbn [map]. f_equal; [apply R in H1; congruence|apply IH; exact H2]. }
  assert (CA : bind (Concat_args (meaning vars a) (map (meaning vars) l)) (fun s => Ret (Some s)) = Ret (Some (concat (map (fun a => or_empty (meaning vars a)) (a :: l))))).
  { destruct (meaning vars a) as [s|] eqn:Ea; [|congruence]. cbn [map concat] in *. rewrite Ea in *. cbn [or_empty] in *.
    assert (PR : concat (present (map (meaning vars) l)) = concat (map (fun a => or_empty (meaning vars a)) l)).
    { clear. unfold present. induction l as [|a l IH]; [reflexivity|]. cbn [map concat]. destruct (meaning vars a); cbn [or_empty app concat] in *; rewrite IH; reflexivity. }
    rewrite C31_concat_args_partial; [|rewrite total_concat, PR; rewrite zlen_app in Z0; exact Z0]. rewrite bind_ret, PR. reflexivity. }
  assert (LEN : (length ts <= 6)%nat). { assert (length l = length ts) by (clear - FR; induction FR; cbn [length]; congruence). cbn [length] in L. lia. }
  assert (CT : call_text (t :: ts) = T "String::Concat" ++ (40 :: (t ++ more ts) ++ [41])) by reflexivity.
  assert (WB : whole (40 :: (t ++ more ts) ++ [41])).
  { intros d cur rest. cbn [app cut]. change (40 =? 34) with false. change (40 =? 40) with true. cbv iota. rewrite <- !app_assoc, Wt.
    assert (G : forall c, cut false (S d) c (more ts ++ [41] ++ rest) = cut false d (c ++ more ts ++ [41]) rest).
    { clear - Ws. induction Ws as [|u us W _ IH]; intros c; [reflexivity|]. unfold more. change (T ", ") with [44; 32]. cbn [flat_map app]. change (flat_map _ us) with (more us).
      cbn [cut app]. change (44 =? 34) with false. change (44 =? 40) with false. change (44 =? 41) with false. change (44 =? 44) with true. change (32 =? 34) with false. change (32 =? 40) with false. change (32 =? 41) with false. change (32 =? 44) with false. cbv iota.
      rewrite <- !app_assoc, W. cbn [app] in IH |- *. rewrite IH, <- !app_assoc. reflexivity. }
    rewrite G, <- !app_assoc. reflexivity. }
  split; [rewrite CT; apply whole_app; [apply whole_plain; reflexivity|exact WB]|]. split; [rewrite CT; cbn; lia|].
  intros r. split.
  - intros H. apply ev_cases in H; destruct H as [(E & ->)|[(N & K & ->)|[(lit & s & r0 & E & Rd & Sf & ->)|(body & u & us & v & vs & E & Ar & Le & Hu & Hus & ->)]]].
    + discriminate E.
    + exfalso. apply (name_no_paren _ N). rewrite CT. apply in_or_app. right. left. reflexivity.
    + discriminate E.
    + unfold call_text in E. apply app_inv_head in E. apply app_last in E. subst body. rewrite ARG in Ar. injection Ar as <- <-.
      apply Rt in Hu. injection Hu as ->. rewrite (UQ _ Hus). exact CA.
  - intros ->. rewrite <- CA. unfold call_text. eapply E_call; [exact ARG|exact LEN|apply Rt; reflexivity|exact EV].
Qed.
Lemma reads_total o : fits vars o -> exists t, reads_as o t.
Proof.
  induction o as [|s|n|l IH|l IH|a IH] using operand_induction; intros F.
  - exists (T "nullptr"). repeat split; [apply whole_plain; reflexivity|cbn; lia|apply write_null| |intros ->; constructor].
    intros H. apply ev_cases in H; destruct H as [(E & ->)|[(N & K & ->)|[(lit & s & r0 & E & Rd & Sf & ->)|(body & u & us & v & vs & E & Ar & Le & Hu & Hus & ->)]]]; [reflexivity| |discriminate E|discriminate E].
    exfalso. apply K. exact nullptr_keyword.
  - inversion F as [|? U S N0 L| | |]; subst. exists (T "(new String(" ++ lit_text s ++ T "))").
    assert (RS : read_string cpp_ucn (lit_text s) = Some (s, [])). { unfold lit_text. cbn [read_string]. rewrite (lex_string cpp_ucn s [] U), (not_surrogate_ucn s S). reflexivity. }
    split; [|split; [cbn; lia|split; [apply write_literal; exact U|]]].
    { change (T "(new String(" ++ lit_text s ++ T "))") with (40 :: (T "new String" ++ (40 :: lit_text s ++ [41; 41]))). replace (T "new String" ++ 40 :: lit_text s ++ [41; 41]) with ((T "new String" ++ (40 :: lit_text s ++ [41])) ++ [41]).
      - apply whole_parens, whole_app; [apply whole_plain; reflexivity|apply whole_parens, whole_literal, U].
      - rewrite <- app_assoc. f_equal. cbn [app]. f_equal. rewrite <- app_assoc. reflexivity. }
    intros r. split.
    + intros H. apply ev_cases in H; destruct H as [(E & ->)|[(N & K & ->)|[(lit & s1 & r0 & E & Rd & Sf & ->)|(body & u & us & v & vs & E & Ar & Le & Hu & Hus & ->)]]].
      * discriminate E.
      * exfalso. apply (name_no_paren _ N). left. reflexivity.
      * apply app_inv_head in E. apply last_two in E. subst lit. rewrite RS in Rd. injection Rd as <-. rewrite (String_from_terminated s [] N0 L) in Sf. injection Sf as <-. reflexivity.
      * discriminate E.
    + intros ->. eapply E_literal; [exact RS|]. apply (String_from_terminated s [] N0 L).
  - inversion F as [| |? N1 N2 N3| |]; subst. exists (cpp_name n). pose proof N1 as IN. destruct N1 as (A & c & n' & E & St).
    assert (ICN : is_name (cpp_name n) /\ ~ In (cpp_name n) keywords).
    { subst n. unfold cpp_name. destruct (lower_letter c) eqn:Lc.
      - split; [split; [exact A|]; exists 120, (95 :: c :: n'); split; [reflexivity|reflexivity]|].
        intros X. assert (Y : forallb (fun k => match k with 120 :: 95 :: _ => false | _ => true end) keywords = true) by (vm_compute; reflexivity). rewrite forallb_forall in Y. apply Y in X. discriminate X.
      - split; [exact IN|]. intros X. assert (Y : forallb (fun k => match k with c :: _ => lower_letter c | _ => true end) keywords = true) by (vm_compute; reflexivity). rewrite forallb_forall in Y. apply Y in X. congruence. }
    destruct ICN as (IC & NK). split; [|split; [|split; [apply write_variable; assumption|]]].
    + apply whole_plain. destruct IC as (AC & _). rewrite forallb_forall in AC |- *. intros x Hx. specialize (AC x Hx). unfold name_char, lower_letter in AC. unfold plain_char. lia.
    + destruct IC as (_ & c1 & n1 & -> & S1). cbn [starts]. unfold lower_letter in S1. lia.
    + intros r. cbn [meaning]. rewrite <- (SAME n IN). split; [|intros ->; constructor; assumption].
      intros H. apply ev_cases in H; destruct H as [(E1 & ->)|[(N & K & ->)|[(lit & s1 & r0 & E1 & Rd & Sf & ->)|(body & u & us & v & vs & E1 & Ar & Le & Hu & Hus & ->)]]].
      * exfalso. apply NK. rewrite E1. exact nullptr_keyword.
      * reflexivity.
      * exfalso. apply (name_no_paren _ IC). rewrite E1. left. reflexivity.
      * exfalso. apply (name_no_paren _ IC). rewrite E1. change (T "String::Concat(") with (T "String::Concat" ++ [40]). apply in_or_app. left. apply in_or_app. right. left. reflexivity.
  - inversion F as [| | |? FL FA|]; subst.
    assert (G : exists ts, Forall2 reads_as l ts). { clear - IH FA. induction IH as [|a l Ha _ IHl]; [exists []; constructor|]. inversion FA; subst. destruct (Ha ltac:(assumption)) as (t & R). destruct (IHl ltac:(assumption)) as (ts & Rs). exists (t :: ts). constructor; assumption. }
    destruct G as (ts & R). pose proof FL as ((LO & HI) & (a & l' & -> & _) & _). inversion R as [|? t ? ts' Ra Rl]; subst. exists (call_text (t :: ts')).
    destruct (call_evaluates t ts' a l' R) as (W & S & EV); [destruct FL as (_ & B & C); split; [lia|split; assumption]|]. split; [exact W|]. split; [exact S|]. split; [|exact EV].
    apply write_call; [apply Ra| |cbn [length] in LO; lia]. clear - Rl. induction Rl as [|b u l us Rb _ IH]; constructor; [apply Rb|exact IH].
  - inversion F as [| | | |? NO FL FA]; subst.
    assert (G : exists ts, Forall2 reads_as (stored l) ts). { clear - IH FA. induction IH as [|a s Ha _ IHl]; [exists []; constructor|]. inversion FA; subst. destruct (Ha ltac:(assumption)) as (t & R). destruct (IHl ltac:(assumption)) as (ts & Rs). exists (t :: ts). constructor; assumption. }
    destruct G as (ts & R). pose proof FL as ((LO & HI) & (a & l' & E & _) & _). rewrite E in R, FL. inversion R as [|? t ? ts' Ra Rl]; subst. exists (call_text (t :: ts')).
    destruct (call_evaluates t ts' a l' R FL) as (W & S & EV). split; [exact W|]. split; [exact S|]. split.
    + apply write_block; [exact NO|]. rewrite E. clear - Ra Rl. constructor; [apply Ra|]. induction Rl as [|b u l us Rb _ IH]; constructor; [apply Rb|exact IH].
    + assert (ME : forall l, concat (map (fun e => match e with StObj_ a => or_empty (meaning vars a) | _ => [] end) l) = concat (map (fun a => or_empty (meaning vars a)) (stored l))).
      { clear. unfold stored. induction l as [|[|a|] l IH]; cbn [map concat flat_map app]; rewrite ?IH; reflexivity. }
      cbn [meaning]. rewrite ME, E. exact EV.
  - inversion F.
Qed.
End Meaning.
End Written.

(** ** C97 *)
(** Missing: more than seven operands, a null first operand, literals with surrogates or NUL, names with letters outside
    ASCII (all but the last refuted below or in C54), and results longer than the greatest builder capacity. *)
Theorem C97_concat_partial : forall env vars cvars f o,
  (forall c, 0 <= c < 128 -> IsLower env c = lower_letter c) -> (forall n, is_name n -> cvars (cpp_name n) = vars n) -> fits vars o ->
  exists f' t, visit env f o = Ret f' /\ buffer f' = buffer f ++ t /\ forall r, evaluates cvars t r <-> r = Ret (meaning vars o).
Proof.
  intros env vars cvars f o L S F. destruct (reads_total env L vars cvars S o F) as (t & _ & _ & W & R). destruct (W f) as (f' & E & B). exists f', t. split; [exact E|]. split; [exact B|exact R].
Qed.
Print Assumptions C97_concat_partial.

(** Eight operands and more: the written call has that many arguments, and no function takes them. *)
Lemma list_reads env vars cvars l : names_ascii env -> (forall n, is_name n -> cvars (cpp_name n) = vars n) -> Forall (fits vars) l -> exists ts, Forall2 (reads_as env vars cvars) l ts.
Proof.
  intros L S. induction 1 as [|a l F _ (ts & IH)]; [exists []; constructor|]. destruct (reads_total env L vars cvars S a F) as (t & R). exists (t :: ts). constructor; assumption.
Qed.
Lemma block_text env vars cvars l : names_ascii env -> (forall n, is_name n -> cvars (cpp_name n) = vars n) -> Forall (fits vars) (stored l) -> ~ In Other_ l -> stored l <> [] ->
  exists t ts, Forall2 (reads_as env vars cvars) (stored l) (t :: ts) /\ writes_text env (ConcatBlock l) (call_text (t :: ts)) /\ arguments (t ++ more ts) = Some (t :: ts).
Proof.
  intros L S F N NE. destruct (list_reads env vars cvars _ L S F) as (ts & R). destruct ts as [|t ts]; [inversion R; subst; congruence|]. exists t, ts. split; [exact R|]. split.
  - apply write_block; [exact N|]. clear - R. induction R as [|a u l1 us Ra _ IH]; constructor; [apply Ra|exact IH].
  - apply arguments_cut; clear - R; induction R as [|a u l1 us Ra _ IH]; constructor; [apply Ra|exact IH|apply Ra|exact IH].
Qed.
Theorem C97_many_refuted : forall env vars cvars f l,
  (forall c, 0 <= c < 128 -> IsLower env c = lower_letter c) -> (forall n, is_name n -> cvars (cpp_name n) = vars n) -> Forall (fits vars) (stored l) -> ~ In Other_ l -> (8 <= length (stored l))%nat ->
  exists f' t, visit env f (ConcatBlock l) = Ret f' /\ buffer f' = buffer f ++ t /\ forall r, ~ evaluates cvars t r.
Proof.
  intros env vars cvars f l L S F N G. destruct (block_text env vars cvars l L S F N) as (t & ts & R & W & A); [intros X; rewrite X in G; cbn in G; lia|]. destruct (W f) as (f' & E & B). exists f', (call_text (t :: ts)). split; [exact E|]. split; [exact B|].
  intros r H. apply ev_cases in H. destruct H as [(X & _)|[(X & _)|[(lit & s & r0 & X & _)|(body & u & us & v & vs & X & Ar & Le & _)]]]; [discriminate X| |discriminate X|].
  - apply (name_no_paren _ X). unfold call_text. change (T "String::Concat(") with (T "String::Concat" ++ [40]). apply in_or_app. left. apply in_or_app. right. left. reflexivity.
  - unfold call_text in X. apply app_inv_head in X. apply app_last in X. subst body. rewrite A in Ar. injection Ar as <- <-. assert (length (stored l) = length (t :: ts)) by (clear - R; induction R; cbn [length]; congruence). cbn [length] in *. lia.
Qed.
(** A null first operand is the empty text in C#; here the concatenation throws. *)
Theorem C97_null_first_refuted : forall env vars cvars f l a b,
  (forall c, 0 <= c < 128 -> IsLower env c = lower_letter c) -> (forall n, is_name n -> cvars (cpp_name n) = vars n) -> Forall (fits vars) (a :: b :: l) -> (length l <= 5)%nat -> meaning vars a = None ->
  exists f' t, visit env f (ConcatCall (a :: b :: l)) = Ret f' /\ buffer f' = buffer f ++ t /\ evaluates cvars t (Exn ArgumentNullException) /\
    meaning vars (ConcatCall (a :: b :: l)) = Some (or_empty (meaning vars b) ++ concat (map (fun a => or_empty (meaning vars a)) l)).
Proof.
  intros env vars cvars f l a b L S F G M. destruct (list_reads env vars cvars _ L S F) as (ts & R). inversion R as [|? t ? ts' Ra Rl]; subst.
  assert (W : writes_text env (ConcatCall (a :: b :: l)) (call_text (t :: ts'))). { apply write_call; [apply Ra| |cbn; lia]. clear - Rl. induction Rl as [|x u l' us Rx _ IH]; constructor; [apply Rx|exact IH]. }
  destruct (W f) as (f' & E & B). exists f', (call_text (t :: ts')). split; [exact E|]. split; [exact B|]. split; [|cbn [meaning map concat]; rewrite M; reflexivity].
  change (Exn ArgumentNullException) with (bind (Concat_args None (map (meaning vars) (b :: l))) (fun s => Ret (Some s))). eapply E_call.
  - apply arguments_cut; clear - R; induction R as [|x u l' us Rx _ IH]; constructor; [apply Rx|exact IH|apply Rx|exact IH].
  - assert (length (b :: l) = length ts') by (clear - Rl; induction Rl; cbn [length]; congruence). cbn [length] in *. lia.
  - apply Ra. rewrite M. reflexivity.
  - clear - Rl. induction Rl as [|x u l' us Rx _ IH]; constructor; [apply Rx; reflexivity|exact IH].
Qed.
(** A conversion of a string that is no literal (to a span) stops the translator; that of a literal writes the bare literal. *)
Theorem C97_implicit_refuted : forall env f a, (forall s, a <> Literal s) -> visit env f (Implicit a) = Exn NullReferenceException.
Proof. intros env f a N. destruct a as [|s| | | |]; try reflexivity. exfalso. apply (N s). reflexivity. Qed.
Theorem C97_implicit_literal : forall env f s, Forall code_unit s -> Forall (fun c => surrogate c = false) s ->
  exists f' t, visit env f (Implicit (Literal s)) = Ret f' /\ buffer f' = buffer f ++ t /\ read_string cpp_ucn t = Some (s, []).
Proof. intros env f s U S. destruct (C54_string_literal_partial f s [] U S) as (f' & t & E & B & R). exists f', t. rewrite app_nil_r in R. auto. Qed.
Print Assumptions C97_many_refuted.
Print Assumptions C97_null_first_refuted.
(** `greeting + ", " + (Name + ")")` *)
Example C97_example : let vars n := if list_eq_dec Z.eq_dec n (T "greeting") then Some (T "Hello") else Some (T "Bob") in
  let o := ConcatCall [Variable_ (T "greeting"); Literal (T ", "); ConcatBlock [StLoc_; StObj_ (Variable_ (T "Name")); StObj_ Null; StObj_ (Literal (T ")"""))]] in
  fits vars o /\ meaning vars o = Some (T "Hello, Bob)""") /\
  exists f', visit (mk_dotnet [10] lower_letter) new_formatter o = Ret f' /\
    buffer f' = T "String::Concat(x_greeting, (new String(L"", "")), String::Concat(Name, nullptr, (new String(L"")\"""")))" ++ T ")".
Proof.
  cbv zeta. split; [|split; [vm_compute; reflexivity|eexists; split; vm_compute; reflexivity]].
  assert (LIT : forall s, forallb (fun c => (1 <=? c) && (c <=? 127)) s = true -> zlen s < 100 -> forall v, fits v (Literal s)).
  { intros s A Z v. rewrite forallb_forall in A. constructor; [| | |lia]; [apply Forall_forall|apply Forall_forall|]; [intros x Hx; specialize (A x Hx); unfold code_unit; lia|intros x Hx; specialize (A x Hx); unfold surrogate; lia|intros X; specialize (A 0 X); discriminate A]. }
  assert (NAME : forall n v, n <> T "this" -> n <> T "Void" -> forallb name_char n = true -> match n with c :: _ => (lower_letter c || ((65 <=? c) && (c <=? 90)) || (c =? 95)) | [] => false end = true -> fits v (Variable_ n)).
  { intros n v N1 N2 A B. constructor; [|exact N1|exact N2]. split; [exact A|]. destruct n as [|c n]; [discriminate B|]. exists c, n. split; [reflexivity|exact B]. }
  apply F_call.
  - split; [cbn; lia|]. split; [eexists; eexists; split; [reflexivity|vm_compute; discriminate]|vm_compute; discriminate].
  - constructor; [apply NAME; [discriminate|discriminate|reflexivity|reflexivity]|]. constructor; [apply LIT; reflexivity|]. constructor; [|constructor]. apply F_block.
    + intros [X|[X|[X|[X|[]]]]]; discriminate.
    + split; [cbn; lia|]. split; [eexists; eexists; split; [reflexivity|vm_compute; discriminate]|vm_compute; discriminate].
    + constructor; [apply NAME; [discriminate|discriminate|reflexivity|reflexivity]|]. constructor; [constructor|]. constructor; [apply LIT; reflexivity|constructor].
Qed.
