(** * Lemmas for C114: what is written into the source file *)
From Coq Require Import String.
From Verif Require Import Tac Base MemModel IntModel IntProofs FormatterModel FormatterSpec FormatterProofs TranslatorModel MemberModel ControlModel ControlSpec ControlProofs LexSpec LexProofs BodyTextModel BodyTextSpec BodyTextProofs BodyWriteProofs HeaderTextModel HeaderTextSpec HeaderTextProofs SourceTextModel SourceTextSpec.
Import ListNotations.
Local Open Scope list_scope.

(** ** The namespace is kept *)
Definition keeps (m : formatter -> outcome formatter) : Prop := forall f g, m f = Ret g -> nameSpace g = nameSpace f.
Definition wkeeps (m : writer -> outcome writer) : Prop := forall s s', m s = Ret s' -> nameSpace (snd s') = nameSpace (snd s).
Lemma Indent_keeps : keeps Indent.
Proof. intros f g H. unfold Indent in H. apply bind_inv in H. destruct H as (t & _ & H). injection H as <-. reflexivity. Qed.
Lemma Indented_keeps d : keeps (fun f => AppendIndented f d).
Proof. intros f g H. unfold AppendIndented in H. apply bind_inv in H. destruct H as (x & H & K). injection K as <-. exact (Indent_keeps _ _ H). Qed.
Section Keeps.
Variable env : dotnet.
Lemma Open_keeps : keeps (AddOpenBrace env).
Proof.
  intros f g H. unfold AddOpenBrace in H. apply bind_inv in H. destruct H as (x & H & K). injection K as <-. unfold AppendIndentedLine in H. apply bind_inv in H. destruct H as (y & H & K). injection K as <-.
  apply Indent_keeps in H. cbn. rewrite H. destruct (onNewline f); reflexivity.
Qed.
Lemma Close_keeps b : keeps (fun f => AddCloseBrace env f b).
Proof.
  intros f g H. unfold AddCloseBrace in H. apply bind_inv in H. destruct H as (x & H & K). injection K as <-. apply Indented_keeps in H.
  destruct b; cbn; rewrite H; destruct (onNewline f); reflexivity.
Qed.
Lemma lift_keeps m : keeps m -> wkeeps (lift m).
Proof. intros K s s' H. apply lift_inv in H. destruct H as (g & H & _ & E). rewrite E. exact (K _ _ H). Qed.
Lemma bind_keeps m k : wkeeps m -> wkeeps k -> wkeeps (fun s => s <- m s ;; k s).
Proof. intros M K s s' H. apply bind_inv in H. destruct H as (x & H & H'). rewrite (K _ _ H'). apply (M _ _ H). Qed.
Lemma pure_keeps h : (forall s, nameSpace (snd (h s)) = nameSpace (snd s)) -> wkeeps (fun s => Ret (h s)).
Proof. intros E s s' H. injection H as <-. apply E. Qed.
Lemma each_keeps {A} (g : nat -> A -> writer -> outcome writer) l : (forall k a, In a l -> wkeeps (g k a)) -> forall k, wkeeps (each g k l).
Proof.
  induction l as [|a l IH]; intros H k; cbn [each]; [apply (pure_keeps (fun s => s)); reflexivity|]. apply bind_keeps; [apply H; left; reflexivity|]. apply IH. intros k' b I. apply H. right. exact I.
Qed.
Section Write.
Variable statement_text condition_text value_text il_text : Z -> text.
Variable case_of : Z -> nat -> option Z.
Variable unwrapped : inst -> bool.
Variable branch_label : list inst -> Z.
Variable main : Z.
Notation wr := (write env statement_text condition_text value_text il_text case_of unwrapped branch_label main).
Definition Kinst (i : inst) : Prop := forall e top, wkeeps (wr e top i).
Lemma code_keeps wi code : (forall i, In i code -> wkeeps (wi i)) -> wkeeps (write_code env wi code).
Proof.
  intros H. unfold write_code. apply each_keeps. intros k i I. apply bind_keeps; [|apply bind_keeps; [apply H, I|apply (pure_keeps (fun s => line env [] (if CharactersAddedToLine (snd s) then say (T ";") s else s))); intros s; destruct (CharactersAddedToLine (snd s)); reflexivity]].
  intros s s' E. destruct (onNewline (snd s)); [|injection E as <-; reflexivity]. exact (lift_keeps _ (Indented_keeps []) s s' E).
Qed.
Lemma label_keeps l code s : nameSpace (snd (AddLabelIfNeeded env il_text l code s)) = nameSpace (snd s).
Proof. unfold AddLabelIfNeeded. destruct (_ && _); reflexivity. Qed.
Lemma block_keeps wi l code : (forall i, In i code -> wkeeps (wi i)) -> wkeeps (WriteBlock env il_text wi l code).
Proof. intros H s s' E. unfold WriteBlock in E. rewrite (code_keeps wi code H _ _ E). apply label_keeps. Qed.
Lemma accept_keeps wi t : (forall i, In i t -> wkeeps (wi i)) -> wkeeps (accept env il_text unwrapped branch_label wi t).
Proof. intros H. unfold accept. destruct (is_bare unwrapped t); [apply each_keeps; auto|apply block_keeps, H]. Qed.
Lemma braces_keeps wi t : (forall i, In i t -> wkeeps (wi i)) -> wkeeps (WriteBlockWithBraces env il_text unwrapped branch_label wi t).
Proof.
  intros H. unfold WriteBlockWithBraces. apply bind_keeps; [apply lift_keeps, Open_keeps|]. apply bind_keeps; [apply lift_keeps, Indented_keeps|]. apply bind_keeps; [apply accept_keeps, H|].
  intros s s' E. rewrite (lift_keeps _ (Close_keeps false) _ _ E). destruct (is_bare unwrapped t); reflexivity.
Qed.
Lemma write_keeps i : Kinst i.
Proof.
  induction i as [m|b|c v|m t f Ht Hf|m ss Hss|c bs Hbs] using inst_ind'; intros e top s s' H.
  - injection H as <-. reflexivity.
  - injection H as <-. reflexivity.
  - cbn [write] in H. destruct (target_label c e =? 0); injection H as <-; [destruct v|]; reflexivity.
  - assert (At : forall i, In i t -> wkeeps (wr e top i)) by (intros i I; apply (proj1 (Every_in _ _) Ht i I)).
    assert (Af : forall i, In i f -> wkeeps (wr e top i)) by (intros i I; apply (proj1 (Every_in _ _) Hf i I)).
    cbn [write] in H. destruct (CharactersAddedToLine (snd s)); cbn [negb] in H.
    + apply bind_inv in H. destruct H as (s1 & H1 & H). apply bind_inv in H. destruct H as (s2 & H2 & H). injection H as <-. apply (accept_keeps _ t At) in H1. apply (accept_keeps _ f Af) in H2. cbn in *. congruence.
    + apply bind_inv in H. destruct H as (s1 & H1 & H). apply (braces_keeps _ t At) in H1. destruct f as [|i f]; [injection H as <-; exact H1|]. apply bind_inv in H. destruct H as (s2 & H2 & H).
      apply (lift_keeps _ (Indented_keeps (T "else "))) in H2. apply (braces_keeps _ _ Af) in H. cbn in *. congruence.
  - cbn [write] in H. apply bind_inv in H. destruct H as (s1 & H1 & H). apply bind_inv in H. destruct H as (s2 & H2 & H). apply (lift_keeps _ Open_keeps) in H1. apply (lift_keeps _ (Close_keeps false)) in H.
    rewrite H. transitivity (nameSpace (snd s1)); [|exact H1]. revert H2. apply each_keeps. intros k body I. apply bind_keeps.
    + intros x y E. destruct (case_of m k) as [n|]; [apply bind_inv in E; destruct E as (z & E & K); injection K as <-; exact (lift_keeps _ (Indented_keeps _) _ _ E)|exact (lift_keeps _ (Indented_keeps _) _ _ E)].
    + intros x y E. apply bind_inv in E. destruct E as (z & E & K). apply bind_inv in K. destruct K as (u & K & L). injection L as <-. apply (lift_keeps _ (Indented_keeps _)) in E. cbn. cbn in E. rewrite <- E. revert K. apply accept_keeps.
      pose proof (proj1 (Every_in _ _) Hss body I) as Hb. intros i Ii. apply (proj1 (Every_in _ _) Hb i Ii).
  - cbn [write] in H. apply bind_inv in H. destruct H as (s1 & H1 & H). transitivity (nameSpace (snd s1)); [injection H as <-; destruct (_ && _); reflexivity|]. change (nameSpace (snd s)) with (nameSpace (snd (fst s + 1, snd s))). revert H1.
    apply each_keeps. intros k [id l code] I. apply bind_keeps; [apply lift_keeps, Open_keeps|]. apply bind_keeps; [|apply lift_keeps, Close_keeps]. apply block_keeps.
    pose proof (proj1 (Every_in _ _) Hbs _ I) as Hb. cbn [block_code] in Hb. intros i Ii. apply (proj1 (Every_in _ _) Hb i Ii).
Qed.
Lemma body_keeps bs : keeps (StartMainBlock_text env statement_text condition_text value_text il_text case_of unwrapped branch_label main bs).
Proof. intros f g H. unfold StartMainBlock_text in H. apply bind_inv in H. destruct H as (s & H & K). injection K as <-. exact (write_keeps _ _ _ _ _ H). Qed.
Lemma injected_keeps t bs : keeps (StartMainBlock_injected env statement_text condition_text value_text il_text case_of unwrapped branch_label main t bs).
Proof.
  intros f g H. unfold StartMainBlock_injected in H. apply bind_inv in H. destruct H as (s & H & K). injection K as <-.
  assert (X : forall e bs seen, wkeeps (injected_blocks env statement_text condition_text value_text il_text case_of unwrapped branch_label main t seen e bs)).
  { clear. intros e. induction bs as [|[id l code] bs IH]; intros seen; cbn [injected_blocks]; [apply (pure_keeps (fun s => s)); reflexivity|]. apply bind_keeps; [apply lift_keeps, Open_keeps|]. apply bind_keeps.
    - intros x y E. rewrite (code_keeps _ _ (fun i _ => write_keeps i e 1) _ _ E). apply label_keeps.
    - apply bind_keeps; [destruct (seen || _); [apply (pure_keeps (fun s => s)); reflexivity|]|apply bind_keeps; [apply lift_keeps, Close_keeps|apply IH]].
      apply lift_keeps. intros x y E. unfold AppendIndentedLine in E. apply bind_inv in E. destruct E as (z & E & K). injection K as <-. exact (Indent_keeps _ _ E). }
  exact (X _ _ _ _ _ H).
Qed.
End Write.
End Keeps.
(** ** Bodies *)
Definition adds (f g : formatter) (t : text) : Prop := buffer g = buffer f ++ t /\ nameSpace g = nameSpace f.
Lemma adds_nil f : adds f f [].
Proof. split; [symmetry; apply app_nil_r|reflexivity]. Qed.
Lemma adds_trans f g h t u : adds f g t -> adds g h u -> adds f h (t ++ u).
Proof. intros [A B] [C D]. split; [rewrite C, A, app_assoc; reflexivity|congruence]. Qed.
Lemma adds_append f d : adds f (Append f d) d.
Proof. split; reflexivity. Qed.
Lemma adds_line env f d : adds f (AppendLine env f d) (d ++ nl env).
Proof. split; [cbn; rewrite <- app_assoc; reflexivity|reflexivity]. Qed.
Section Bodies.
Variable env : dotnet.
Variable statement_text condition_text value_text il_text : Z -> text.
Variable statement_lex condition_lex value_lex : Z -> list lexeme.
Variable case_of : Z -> nat -> option Z.
Variable unwrapped : inst -> bool.
Variable branch_label : list inst -> Z.
Variable main : Z.
Hypothesis G : good_texts (nl env) statement_text condition_text value_text il_text statement_lex condition_lex value_lex case_of.
Notation silent := (fun n : Z => match statement_text n with [] => true | _ => false end).
Notation wr := (write env statement_text condition_text value_text il_text case_of unwrapped branch_label main).
Notation mt := (BodyTextSpec.meant statement_lex condition_lex value_lex il_text leave_text case_of).
Notation followed := (labels_followed main unwrapped silent).
Notation finish := (open_end main silent).
Notation body_text := (StartMainBlock_text env statement_text condition_text value_text il_text case_of unwrapped branch_label main).
Notation injected := (StartMainBlock_injected env statement_text condition_text value_text il_text case_of unwrapped branch_label main).
Definition braced (t : text) (ss : list stmt) : Prop := exists l, closed t (Punct (T "{") :: l ++ [Punct (T "}")]) /\ R l ss false.
Lemma all_written code : Every (Pinst env statement_text condition_text value_text il_text statement_lex condition_lex value_lex case_of unwrapped branch_label main) code.
Proof. apply Every_in. intros i _. apply write_spec, G. Qed.
Lemma main_block b f g : followed (Container main [b]) -> body_text [b] f = Ret g -> exists t ss, adds f g t /\ braced t ss /\ flat_map mt (StartMainBlock main [b]) = [SBlock ss].
Proof.
  intros F H. assert (K : nameSpace g = nameSpace f) by (exact (body_keeps _ _ _ _ _ _ _ _ _ _ _ _ H)). pose proof (NLok env statement_text condition_text value_text il_text statement_lex condition_lex value_lex case_of G) as NL.
  destruct b as [id l code]. cbn [labels_followed Every] in F. destruct F as [[FE F] _].
  unfold StartMainBlock_text in H. apply bind_inv in H. destruct H as (s' & H & E). injection E as <-. unfold StartMainBlock. rewrite visit_container. cbn [write each fst snd] in H. rewrite Z.eqb_refl in *. cbn [negb andb] in *.
  apply bind_inv in H. destruct H as (s3 & H & E). injection E as <-. apply bind_inv in H. destruct H as (s4 & H & E). injection E as <-.
  apply bind_inv in H. destruct H as (s1 & H1 & H). apply bind_inv in H. destruct H as (s2 & H2 & H).
  apply lift_inv in H1. destruct H1 as (g1 & H1 & E1 & X1). apply (Open_inv env NL) in H1. destruct H1 as (t1 & C1 & B1 & O1 & _).
  apply lift_inv in H. destruct H as (g4 & H4 & E4 & X4). apply (Close_inv env NL) in H4. destruct H4 as (t4 & C4 & B4 & A4). unfold WriteBlock in H2. cbn [fst snd] in E1, B1.
  assert (Lb : exists tl ll, buffer (snd (AddLabelIfNeeded env il_text l code s1)) = buffer (snd s1) ++ tl /\ fst (AddLabelIfNeeded env il_text l code s1) = fst s1 /\ onNewline (snd (AddLabelIfNeeded env il_text l code s1)) = true /\
    closed tl ll /\ R ll (flat_map mt (if label_printed l code then [CLabel (IL l)] else [])) (labelled l code)).
  { rewrite printed. unfold AddLabelIfNeeded. rewrite X1, O1. rewrite printed. cbn [andb]. destruct (labelled l code).
    - exists (il_text l ++ T ":" ++ nl env), [Word (il_text l); Punct (T ":")]. repeat split.
      + cbn. rewrite X1. repeat rewrite <- app_assoc. reflexivity.
      + apply (closed_word (il_text l) 58); [apply G|split; [reflexivity|discriminate]|]. apply closed_colon; apply NL.
      + apply R_label, G.
    - exists [], []. rewrite app_nil_r. rewrite X1. split; [reflexivity|]. split; [reflexivity|]. split; [exact O1|]. split; [apply closed_nil|apply R_nil]. }
  destruct Lb as (tl & ll & L1 & L2 & L3 & L4 & L5). set (s1' := AddLabelIfNeeded env il_text l code s1) in *.
  destruct (code_spec env statement_text condition_text value_text il_text statement_lex condition_lex value_lex case_of unwrapped branch_label main G [(main, [Block id l code])] 1 code (all_written code) F ltac:(lia) s1' s2 ltac:(rewrite L2, E1; lia) (or_introl L3) H2) as (t2 & l2 & (Z1 & Z2 & Z3) & C2 & R2).
  specialize (R2 _ _ _ L5). rewrite L2, E1 in R2. rewrite FE in R2. cbn [thread wblock]. change (0 + 1) with 1 in *.
  destruct (thread_concat (visit main [(main, [Block id l code])] 1) code 1) as [n1 o1]. cbn [fst snd app flat_map BodyTextSpec.meant] in *. rewrite flat_map_app. exists (t1 ++ (tl ++ t2) ++ t4). eexists. split; [|split; [exists (ll ++ l2); split; [|exact R2]|reflexivity]].
  - split; [|exact K]. rewrite X4, B4, Z1, L1, X1, B1. repeat rewrite <- app_assoc. reflexivity.
  - apply (closed_app t1 [Punct (T "{")]); [exact C1|]. apply closed_app; [apply closed_app; assumption|exact C4].
Qed.
Lemma spoken_all e c ns : plain_return e c = true -> spoken e (map ControlModel.Simple ns ++ [c]) = map ControlModel.Simple ns.
Proof. intros P. induction ns as [|n ns IH]; cbn [map app spoken]; [rewrite P; reflexivity|]. rewrite IH. destruct ns; reflexivity. Qed.
Lemma simple_container ns c : holds_container c = false -> existsb holds_container (map ControlModel.Simple ns ++ [c]) = false.
Proof. intros H. induction ns as [|n ns IH]; cbn [map app existsb holds_container orb]; [rewrite H; reflexivity|exact IH]. Qed.
Lemma simple_visit e top ns n : thread_concat (visit main e top) (map ControlModel.Simple ns) n = (n, map CSimple ns).
Proof. induction ns as [|m ns IH]; [reflexivity|]. cbn [map]. rewrite thread_concat_cons. cbn [visit]. rewrite IH. reflexivity. Qed.
Lemma simple_leave e top ns c n : target_label c e =? 0 = true -> thread_concat (visit main e top) (map ControlModel.Simple ns ++ [Leave c None]) n = (n, map CSimple ns ++ [CReturn None]).
Proof. intros H. induction ns as [|m ns IH]; [cbn [map app]; rewrite thread_concat_cons; cbn [visit]; rewrite H; reflexivity|]. cbn [map app]. rewrite thread_concat_cons. cbn [visit]. rewrite IH. reflexivity. Qed.
Lemma main_injected o ns f g : injected (T "return (true);") [Block o 0 (map ControlModel.Simple ns ++ [Leave main None])] f = Ret g ->
  exists t ss, adds f g t /\ braced t (ss ++ [SReturn [Punct (T "("); Word (T "true"); Punct (T ")")]]) /\ flat_map mt (StartMainBlock main [Block o 0 (map ControlModel.Simple ns ++ [Leave main None])]) = [SBlock (ss ++ [SReturn []])].
Proof.
  set (code := map ControlModel.Simple ns ++ [Leave main None]). intros H. assert (K : nameSpace g = nameSpace f) by (eapply injected_keeps; exact H). pose proof (NLok env statement_text condition_text value_text il_text statement_lex condition_lex value_lex case_of G) as NL.
  assert (TL : forall o l, target_label main [(main, [Block o 0 l])] =? 0 = true) by (intros o' l'; cbn; rewrite Z.eqb_refl; reflexivity).
  unfold StartMainBlock_injected in H. apply bind_inv in H. destruct H as (s' & H & E). injection E as <-. cbn [injected_blocks fst snd] in H. set (e := [(main, [Block o 0 code])]) in *.
  unfold StartMainBlock. rewrite visit_container. cbn [thread wblock]. fold e. change (0 + 1) with 1. assert (VC : thread_concat (visit main e 1) code 1 = (1, map CSimple ns ++ [CReturn None])) by (apply simple_leave, TL). rewrite VC. cbn [snd]. rewrite Z.eqb_refl. cbn [negb andb app flat_map BodyTextSpec.meant]. rewrite !flat_map_app. cbn [flat_map BodyTextSpec.meant app].
  assert (SP : spoken e code = map ControlModel.Simple ns) by (apply spoken_all; cbn [plain_return]; apply TL). assert (HC : existsb holds_container code = false) by (apply simple_container; reflexivity). rewrite SP, HC in H. cbn [orb] in H.
  apply bind_inv in H. destruct H as (s1 & H1 & H). apply bind_inv in H. destruct H as (s2 & H2 & H). apply bind_inv in H. destruct H as (s5 & H5 & H). apply bind_inv in H. destruct H as (s6 & H & E). injection E as <-.
  apply lift_inv in H1. destruct H1 as (g1 & H1 & E1 & X1). apply (Open_inv env NL) in H1. destruct H1 as (t1 & C1 & B1 & O1 & _).
  apply lift_inv in H. destruct H as (g4 & H4 & E4 & X4). apply (Close_inv env NL) in H4. destruct H4 as (t4 & C4 & B4 & A4). cbn [fst snd] in E1, B1.
  apply lift_inv in H5. destruct H5 as (g5 & H5 & E5 & X5). unfold AppendIndentedLine in H5. apply bind_inv in H5. destruct H5 as (y & H5 & Y). injection Y as <-. apply Indent_inv in H5. destruct H5 as (b5 & F5 & B5 & _ & _).
  assert (Lb : exists tl ll, buffer (snd (AddLabelIfNeeded env il_text 0 code s1)) = buffer (snd s1) ++ tl /\ fst (AddLabelIfNeeded env il_text 0 code s1) = fst s1 /\ onNewline (snd (AddLabelIfNeeded env il_text 0 code s1)) = true /\
    closed tl ll /\ R ll (flat_map mt (if label_printed 0 code then [CLabel (IL 0)] else [])) (labelled 0 code)).
  { rewrite printed. unfold AddLabelIfNeeded. rewrite X1, O1. rewrite printed. cbn [andb]. destruct (labelled 0 code).
    - exists (il_text 0 ++ T ":" ++ nl env), [Word (il_text 0); Punct (T ":")]. repeat split.
      + cbn. rewrite X1. repeat rewrite <- app_assoc. reflexivity.
      + apply (closed_word (il_text 0) 58); [apply G|split; [reflexivity|discriminate]|]. apply closed_colon; apply NL.
      + apply R_label, G.
    - exists [], []. rewrite app_nil_r. rewrite X1. split; [reflexivity|]. split; [reflexivity|]. split; [exact O1|]. split; [apply closed_nil|apply R_nil]. }
  destruct Lb as (tl & ll & L1 & L2 & L3 & L4 & L5). set (s1' := AddLabelIfNeeded env il_text 0 code s1) in *.
  assert (F : Every followed (map ControlModel.Simple ns)) by (apply Every_in; intros i Hi; apply in_map_iff in Hi; destruct Hi as (n & <- & _); exact Logic.I).
  destruct (code_spec env statement_text condition_text value_text il_text statement_lex condition_lex value_lex case_of unwrapped branch_label main G e 1 (map ControlModel.Simple ns) (all_written _) F ltac:(lia) s1' s2 ltac:(rewrite L2, E1; lia) (or_introl L3) H2) as (t2 & l2 & (Z1 & Z2 & Z3) & C2 & R2).
  specialize (R2 _ _ _ L5). rewrite simple_visit in R2. cbn [fst snd] in R2. cbn in B4, B5.
  exists (t1 ++ (tl ++ t2) ++ (b5 ++ T "return (true);" ++ nl env) ++ t4). eexists. split; [|split].
  - split; [|exact K]. rewrite X4, B4, X5. cbn. rewrite B5, Z1, L1, X1, B1. repeat rewrite <- app_assoc. reflexivity.
  - exists ((ll ++ l2) ++ Word (T "return") :: [Punct (T "("); Word (T "true"); Punct (T ")")] ++ [Punct (T ";")]). split.
    + apply (closed_app t1 [Punct (T "{")]); [exact C1|]. rewrite <- (app_assoc (ll ++ l2)). apply closed_app; [apply closed_app; assumption|]. apply closed_app; [|exact C4].
      apply nil_closed_blanks; [exact F5|]. intros r lr D. rewrite <- app_assoc. apply (closed_blanks (nl env) (proj2 NL)) in D. cbn [app] in D.
      change (T "return (true);") with (T "return" ++ T " " ++ T "(" ++ T "true" ++ T ")" ++ T ";"). repeat rewrite <- app_assoc. apply (word_space (T "return")); [split; [reflexivity|repeat constructor]|]. apply D_lp. apply D_word; [split; [reflexivity|repeat constructor]|split; [reflexivity|discriminate]|]. apply D_rp. apply (closed_semi _ _ D).
    + eapply R_app; [exact R2|apply R_return|discriminate]. repeat constructor.
  - rewrite app_assoc. reflexivity.
Qed.
End Bodies.
