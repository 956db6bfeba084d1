(** * C112: the text of a method's body is read by C++ as the statements meant *)
From Coq Require Import String.
From Verif Require Import Tac Base IntModel IntProofs FormatterModel FormatterSpec FormatterProofs StatementModel ExprModel ExprSpec ExprProofs LexModel LexSpec LexProofs LexProperties ControlModel ControlSpec ControlProofs ControlProperties BodyTextModel BodyTextSpec BodyTextProofs BodyWriteProofs BodyExprProofs.
Import ListNotations.

(** ** The characters of a body *)
Section Body.
Variable env : dotnet.
Variable statement_text condition_text value_text il_text : Z -> list Z.
Variable statement_lex condition_lex value_lex : Z -> list lexeme.
Variable case_of : Z -> nat -> option Z.
Variable unwrapped : inst -> bool.
Variable branch_label : list inst -> Z.
Variable main : Z.
Hypothesis G : good_texts (nl env) statement_text condition_text value_text il_text statement_lex condition_lex value_lex case_of.
Notation as_cpp := (flat_map (meant statement_lex condition_lex value_lex il_text (fun k => T "leaveBlock" ++ print_d k) case_of)).
Notation followed bs := (labels_followed main unwrapped (fun n => match statement_text n with [] => true | _ => false end) (Container main bs)).
Notation written bs f f' := (StartMainBlock_text env statement_text condition_text value_text il_text case_of unwrapped branch_label main bs f = Ret f').
(** What is appended for a body is read as exactly one list of statements: those of ControlModel.  Partial: statements, conditions and
    labels are good pieces of text; no block or branch ends in a label (refuted below); no sub-statement spans several lines. *)
Theorem C112_body_partial bs f f' : followed bs -> written bs f f' ->
  exists t, buffer f' = buffer f ++ t /\ forall ss, read_as t ss <-> ss = as_cpp (StartMainBlock main bs).
Proof.
  intros F H. destruct (body_spec env statement_text condition_text value_text il_text statement_lex condition_lex value_lex case_of unwrapped branch_label main G bs f f' F H) as (t & ls & E & C & RR). destruct (closed_reads _ _ _ C RR) as [D K].
  exists t. split; [exact E|]. intros ss. split.
  - intros (ls' & n & D' & S'). rewrite (divided_unique _ _ _ D' D) in S'. pose proof (reads_unique ls _ _ (ex_intro _ n S') K) as X. injection X as X. exact X.
  - intros ->. destruct K as [n K]. exists ls, n. split; assumption.
Qed.
(** From the characters to the executions: the text is read as the C++ of a program that runs like the decompiled method (C77). *)
Theorem C112_runs_partial bs f f' : followed bs -> well_formed main bs -> written bs f f' ->
  exists t program, buffer f' = buffer f ++ t /\ (forall ss, read_as t ss <-> ss = as_cpp program) /\ valid_labels program /\ forall tr, tree_trace main bs tr <-> cpp_trace program tr.
Proof.
  intros F W H. destruct (C112_body_partial bs f f' F H) as (t & E & K). exists t, (StartMainBlock main bs). split; [exact E|]. split; [exact K|]. split; [apply C77_labels_partial, W|]. intros tr. apply C77_control_flow_partial, W.
Qed.
(** What is around it does not change how it is read: statements written before and after. *)
Theorem C112_context_partial bs f f' r lr ss' : followed bs -> written bs f f' -> divided r lr -> (exists n, statements n lr = Some (ss', [])) ->
  exists t, buffer f' = buffer f ++ t /\ read_as (t ++ r) (as_cpp (StartMainBlock main bs) ++ ss').
Proof.
  intros F H D [n S']. destruct (body_spec env statement_text condition_text value_text il_text statement_lex condition_lex value_lex case_of unwrapped branch_label main G bs f f' F H) as (t & ls & E & C & [_ RR]).
  exists t. split; [exact E|]. destruct (RR lr ss' [] (ex_intro _ n S') ltac:(discriminate)) as [m K]. exists (ls ++ lr), m. split; [apply C, D|exact K].
Qed.
End Body.
(** ** Labels *)
Section Labels.
Variable env : dotnet.
Variable statement_text condition_text value_text il_text : Z -> list Z.
Variable statement_lex condition_lex value_lex : Z -> list lexeme.
Variable case_of : Z -> nat -> option Z.
Variable unwrapped : inst -> bool.
Variable branch_label : list inst -> Z.
Variable main : Z.
Hypothesis G : good_texts (nl env) statement_text condition_text value_text il_text statement_lex condition_lex value_lex case_of.
(** In what C++ reads no two labels have the same name and every goto has its label (blockIndex is an int, hence the bound). *)
Theorem C112_labels_partial bs f f' : labels_followed main unwrapped (fun n => match statement_text n with [] => true | _ => false end) (Container main bs) -> well_formed main bs ->
  StartMainBlock_text env statement_text condition_text value_text il_text case_of unwrapped branch_label main bs f = Ret f' ->
  (forall a b, il_text a = il_text b -> a = b) -> (forall a k, il_text a <> T "leaveBlock" ++ print_d k) -> Forall (fun l => match l with LeaveBlock k => k < 2 ^ 31 | IL _ => True end) (labels (StartMainBlock main bs)) ->
  exists t, buffer f' = buffer f ++ t /\ forall ss, read_as t ss -> NoDup (flat_map label_names ss) /\ incl (flat_map goto_names ss) (flat_map label_names ss).
Proof.
  intros F W H Inj Other Few. destruct (C112_body_partial env statement_text condition_text value_text il_text statement_lex condition_lex value_lex case_of unwrapped branch_label main G bs f f' F H) as (t & E & K).
  exists t. split; [exact E|]. intros ss Rd. apply K in Rd. subst ss. destruct (C77_labels_partial main bs W) as [N1 N2]. rewrite labels_all, gotos_all. split.
  - apply NoDup_map_on; [|exact N1]. assert (Pos : forall k, In (LeaveBlock k) (labels (StartMainBlock main bs)) -> 0 <= k < two64).
    { intros k Hk. pose proof (good_visit main (Container main bs) [] 0 0) as (_ & G2 & _). specialize (G2 _ Hk). rewrite Forall_forall in Few. specialize (Few _ Hk). cbn in G2, Few. unfold two64. lia. }
    intros [a|a] [b|b] Ia Ib Eq; cbn [label_word] in Eq.
    + rewrite (Inj _ _ Eq). reflexivity.
    + destruct (Other _ _ Eq).
    + symmetry in Eq. destruct (Other _ _ Eq).
    + rewrite (leave_injective a b (Pos a Ia) (Pos b Ib) Eq). reflexivity.
  - intros x Hx. apply in_map_iff in Hx. destruct Hx as (l & <- & Hl). apply in_map. apply N2, Hl.
Qed.
End Labels.

(** ** Expressions as statements, conditions and values *)
Theorem C112_expression_partial local_text member_text type_text wrap_text extra contents e :
  good_names local_text member_text type_text wrap_text -> good_strings contents -> no_statement_words local_text type_text wrap_text -> separated e ->
  let lexemes bare := flat_map (of_token local_text member_text type_text wrap_text extra contents) (print bare e) in
  (forall bare, fits (LexModel.visit local_text member_text type_text wrap_text extra contents bare e) (lexemes bare) /\ in_parens (lexemes bare) /\ Forall (fun x => brace x = false /\ is_punct x ";" = false) (lexemes bare)) /\ plain_statement (lexemes false).
Proof.
  intros GN GS NK H lexemes. split; [|apply expr_plain, NK]. intros bare. split; [|split; [apply expr_in_parens|apply no_end]].
  intros c r lr C D. apply (proj1 (all_divided _ _ _ _ extra contents GN GS) e H bare); [exact D|]. cbn [In] in C. destruct C as [<-|[<-|[]]]; (apply follows_char; [reflexivity|discriminate|discriminate]).
Qed.

(** ** A loop that is left, last in a branch: its label stands before the closing brace, which C++11 does not allow *)
Definition piece (p : string) (n : Z) : list Z := T p ++ print_u n.
Definition pieces (p : string) (n : Z) : list lexeme := [Word (piece p n)].
Definition lf : dotnet := mk_dotnet [10] (fun c => (97 <=? c) && (c <=? 122)).
Definition first_default (m : Z) (k : nat) : option Z := match k with O => Some (- 1) | _ => None end.
Notation write_sample bs := (StartMainBlock_text lf (piece "S") (piece "C") (piece "V") (piece "IL_") first_default (fun _ => false) (fun _ => 0) 0 bs new_formatter).
Lemma piece_word (p : string) n : word_text (T p) -> word_text (piece p n).
Proof. intros W. apply word_app; [exact W|apply dec_word]. Qed.
Lemma piece_fits (p : string) n : word_text (T p) -> fits (piece p n) (pieces p n).
Proof. intros W c r lr C D. apply D_word; [apply piece_word, W|destruct C as [<-|[<-|[]]]; (split; [reflexivity|discriminate])|exact D]. Qed.
Lemma good_pieces : good_texts (nl lf) (piece "S") (piece "C") (piece "V") (piece "IL_") (pieces "S") (pieces "C") (pieces "V") first_default.
Proof.
  assert (W : forall c, LexSpec.letter c = true -> word_text [c]) by (intros c L; split; [exact L|constructor; [unfold word_char; rewrite L; reflexivity|constructor]]).
  split; [split; [discriminate|repeat constructor]|]. split; [|split; [|split; [|split]]].
  - intros n. right. split; [discriminate|]. split; [apply piece_fits, W; reflexivity|]. repeat constructor.
  - intros n. split; [apply piece_fits, W; reflexivity|intros r; reflexivity].
  - intros n. split; [apply piece_fits, W; reflexivity|repeat constructor].
  - intros n. split; [apply piece_word; split; [reflexivity|repeat constructor]|repeat constructor].
  - intros m k n E. destruct k; [injection E as <-; lia|discriminate].
Qed.
Definition rows (l : list (nat * string)) : list Z := flat_map (fun p => repeat 9 (fst p) ++ T (snd p) ++ [10]) l.
Definition loop_last : list block := [Block 0 0 [ControlModel.If 1 [Container 1 [Block 1 10 [Simple 2; ControlModel.If 3 [Leave 1 None] []; Branch 1]]] []; Leave 0 None]].
Theorem C112_loop_last_refuted : well_formed 0 loop_last /\ exists f', write_sample loop_last = Ret f' /\ forall ss, ~ read_as (buffer f') ss.
Proof.
  split.
  { split; [discriminate|]. split; [reflexivity|]. split; [repeat constructor; cbn; intuition discriminate|]. cbn [loop_last Every ok existsb never_ends block_code orb andb forallb removelast].
    repeat split; try discriminate; try (left; reflexivity); try (right; eexists _, _; split; [reflexivity|discriminate]); eexists; (split; [reflexivity|reflexivity]). }
  eexists. split; [vm_compute; reflexivity|]. intros ss (ls & n & D & S').
  match type of D with divided ?t _ => assert (E : exists ls', scan 200 t = Some ls') by (eexists; vm_compute; reflexivity) end. destruct E as [ls' E]. pose proof (divided_unique _ _ _ D (ex_intro _ 200%nat E)) as X. subst ls'. clear D. vm_compute in E. injection E as <-.
  pose proof (ex_intro _ n S' : reads _ _) as H. clear S'. apply block_inv in H. destruct H as (b & q & q' & y & H & _). clear q' y.
  apply label_inv in H; [|repeat constructor]. destruct H as [_ [y H]]. clear b q.
  apply if_inv in H. destruct H as (c & r' & b & q & Hd & H). vm_compute in Hd. injection Hd as _ <-.
  apply block_inv in H. destruct H as (b1 & q1 & q' & y' & H & E & H2).
  match type of H with reads ?r _ => let z := eval vm_compute in (statements 30 r) in match z with Some ?z => assert (K : reads r z) by (exists 30%nat; vm_compute; reflexivity) end end.
  pose proof (reads_unique _ _ _ H K) as X. injection X as _ ->. vm_compute in E. injection E as <-. apply label_inv in H2; [|repeat constructor]. destruct H2 as [H2 _]. discriminate H2.
Qed.
(** The hypotheses hold of the sample of C77; its text, line by line. *)
Example C112_example : good_texts (nl lf) (piece "S") (piece "C") (piece "V") (piece "IL_") (pieces "S") (pieces "C") (pieces "V") first_default /\
  labels_followed 0 (fun _ => false) (fun n => match piece "S" n with [] => true | _ => false end) (Container 0 sample) /\ well_formed 0 sample /\
  exists f', write_sample sample = Ret f' /\ buffer f' = rows
    [(0, ""); (0, "{"); (0, "IL_0:"); (1, "S1;"); (1, ""); (1, "{"); (0, "IL_10:"); (2, "if (C2)"); (2, "{"); (3, "S3;"); (3, "if (C4)"); (3, "{"); (4, "goto leaveBlock2;"); (3, "}"); (0, ""); (3, "goto IL_10;"); (2, "}"); (0, "");
     (2, "goto leaveBlock2;"); (1, "}"); (0, "leaveBlock2:"); (0, ""); (1, "switch(C5)"); (1, "{"); (2, "case -1:"); (2, "S6;"); (2, "goto IL_30;"); (0, ";"); (2, "default:"); (2, "return(V7);"); (0, ";"); (1, "}"); (0, ""); (0, "}");
     (0, "{"); (0, "IL_30:"); (1, "S8;"); (1, "return;"); (0, "}")]%string%nat.
Proof.
  split; [exact good_pieces|]. split; [cbn; repeat split; left; reflexivity|]. split; [apply C77_example|]. eexists. split; [vm_compute; reflexivity|]. vm_compute. reflexivity.
Qed.
Print Assumptions C112_body_partial.
Print Assumptions C112_runs_partial.
Print Assumptions C112_context_partial.
Print Assumptions C112_labels_partial.
Print Assumptions C112_expression_partial.
Print Assumptions C112_loop_last_refuted.
