(** * Lemmas for C112: what is written *)
From Coq Require Import String.
From Verif Require Import Tac Base IntModel IntProofs FormatterModel FormatterSpec FormatterProofs ControlModel ControlSpec ControlProofs LexSpec LexProofs BodyTextModel BodyTextSpec BodyTextProofs.
Import ListNotations.

(** ** Texts that are divided on their own *)
Definition closed (t : list Z) (ls : list lexeme) : Prop := forall r lr, divided r lr -> divided (t ++ r) (ls ++ lr).
Lemma closed_nil : closed [] [].
Proof. intros r lr H. exact H. Qed.
Lemma closed_app a la b lb : closed a la -> closed b lb -> closed (a ++ b) (la ++ lb).
Proof. intros A B r lr H. rewrite <- !app_assoc. apply A, B, H. Qed.
Definition blanks (t : list Z) : Prop := Forall (fun c => blank c = true) t.
Lemma closed_blanks b : blanks b -> closed b [].
Proof. intros F r lr H. induction F as [|c b B _ IH]; [exact H|]. apply D_blank; [exact B|exact IH]. Qed.
Lemma closed_open : closed (T "{") [Punct (T "{")].
Proof. intros r lr H. punct. Qed.
Lemma closed_close : closed (T "}") [Punct (T "}")].
Proof. intros r lr H. punct. Qed.
Lemma closed_semi : closed (T ";") [Punct (T ";")].
Proof. intros r lr H. punct. Qed.
Lemma closed_lp : closed (T "(") [Punct (T "(")].
Proof. intros r lr H. apply D_lp, H. Qed.
Lemma closed_rp : closed (T ")") [Punct (T ")")].
Proof. intros r lr H. apply D_rp, H. Qed.
Lemma closed_word w c t ls : word_text w -> after_word c -> closed (c :: t) ls -> closed (w ++ c :: t) (Word w :: ls).
Proof. intros W A C r lr H. rewrite <- app_assoc. cbn [app]. apply D_word; [exact W|exact A|]. exact (C r lr H). Qed.
Lemma closed_fits w lw c t ls : fits w lw -> In c [41; 59] -> closed (c :: t) ls -> closed (w ++ c :: t) (lw ++ ls).
Proof. intros W A C r lr H. rewrite <- !app_assoc. cbn [app]. apply W; [exact A|]. exact (C r lr H). Qed.
Lemma blank_cases c : blank c = true -> c = 32 \/ c = 9 \/ c = 10 \/ c = 13.
Proof. unfold blank. lia. Qed.
Lemma closed_colon nl : nl <> [] -> blanks nl -> closed (T ":" ++ nl) [Punct (T ":")].
Proof.
  intros N F r lr H. destruct nl as [|c b]; [contradiction|]. inversion F as [|? ? B F']; subst. rewrite <- app_assoc. apply (closed_blanks (c :: b) F) in H. cbn [app] in *.
  destruct (blank_cases c B) as [-> | [-> | [-> | ->]]]; punct.
Qed.
Lemma tab_blanks n : blanks (repeat c_tab n).
Proof. induction n; constructor; auto. Qed.
(** ** The Formatter *)
Lemma bind_inv {A B} (m : outcome A) (k : A -> outcome B) y : bind m k = Ret y -> exists x, m = Ret x /\ k x = Ret y.
Proof. destruct m; intros H; try discriminate H. eexists. split; [reflexivity|exact H]. Qed.
Lemma Indent_inv f g : Indent f = Ret g -> exists b, blanks b /\ buffer g = buffer f ++ b /\ onNewline g = false /\ CharactersAddedToLine g = false.
Proof.
  intros H. assert (L : 0 <= indentLevel f <= 22).
  { destruct (Z_lt_ge_dec (indentLevel f) 0) as [A|A]; [rewrite Indent_out in H by lia; discriminate|]. destruct (Z_lt_ge_dec 22 (indentLevel f)) as [B|B]; [rewrite Indent_out in H by lia; discriminate|]. lia. }
  rewrite Indent_in in H by exact L. injection H as <-. eexists. split; [apply tab_blanks|]. repeat split.
Qed.
Section Env.
Variable env : dotnet.
Hypothesis NL : nl env <> [] /\ blanks (nl env).
Lemma AppendIndented_inv f d g : AppendIndented f d = Ret g -> exists b, blanks b /\ buffer g = buffer f ++ b ++ d /\ onNewline g = false /\ CharactersAddedToLine g = match d with [] => false | _ => true end.
Proof.
  unfold AppendIndented. intros H. apply bind_inv in H. destruct H as (x & H & K). apply Indent_inv in H. destruct H as (b & B & E & O & C). injection K as <-. exists b. cbn. rewrite E, C, <- app_assoc. auto.
Qed.
Lemma Newline_buffer f : buffer (Newline env f) = buffer f ++ nl env.
Proof. reflexivity. Qed.
Definition maybe (f : formatter) : formatter := if negb (onNewline f) then Newline env f else f.
Lemma maybe_inv f : exists b, blanks b /\ buffer (maybe f) = buffer f ++ b.
Proof. unfold maybe. destruct (onNewline f); cbn [negb]; [exists []; split; [constructor|rewrite app_nil_r; reflexivity]|]. exists (nl env). split; [apply NL|reflexivity]. Qed.
Lemma Open_inv f g : AddOpenBrace env f = Ret g -> exists t, closed t [Punct (T "{")] /\ buffer g = buffer f ++ t /\ onNewline g = true /\ CharactersAddedToLine g = false.
Proof.
  unfold AddOpenBrace. fold (maybe f). intros H. apply bind_inv in H. destruct H as (x & H & K). injection K as <-. unfold AppendIndentedLine in H. apply bind_inv in H. destruct H as (y & H & K). injection K as <-.
  apply Indent_inv in H. destruct H as (b & B & E & O & C). destruct (maybe_inv f) as (b0 & B0 & E0). exists (b0 ++ b ++ T "{" ++ nl env). repeat split.
  - apply (closed_app b0 [] _ [Punct (T "{")]); [apply closed_blanks, B0|]. apply (closed_app b [] _ [Punct (T "{")]); [apply closed_blanks, B|]. apply (closed_app _ [Punct (T "{")] _ []); [apply closed_open|apply closed_blanks, NL].
  - cbn. rewrite E, E0. repeat rewrite <- app_assoc. reflexivity.
Qed.
Lemma Close_inv f g : AddCloseBrace env f false = Ret g -> exists t, closed t [Punct (T "}")] /\ buffer g = buffer f ++ t /\ CharactersAddedToLine g = false.
Proof.
  unfold AddCloseBrace. fold (maybe f). intros H. apply bind_inv in H. destruct H as (x & H & K). injection K as <-. apply AppendIndented_inv in H. destruct H as (b & B & E & O & C).
  destruct (maybe_inv f) as (b0 & B0 & E0). exists (b0 ++ b ++ T "}" ++ nl env). repeat split.
  - apply (closed_app b0 [] _ [Punct (T "}")]); [apply closed_blanks, B0|]. apply (closed_app b [] _ [Punct (T "}")]); [apply closed_blanks, B|]. apply (closed_app _ [Punct (T "}")] _ []); [apply closed_close|apply closed_blanks, NL].
  - rewrite Newline_buffer, E. change (buffer (DownIndent (maybe f))) with (buffer (maybe f)). rewrite E0. repeat rewrite <- app_assoc. reflexivity.
Qed.
End Env.
Lemma lift_inv f s s' : lift f s = Ret s' -> exists g, f (snd s) = Ret g /\ fst s' = fst s /\ snd s' = g.
Proof. unfold lift. intros H. apply bind_inv in H. destruct H as (g & H & K). injection K as <-. exists g. auto. Qed.
(** ** Names *)
Lemma dec_word n : forall k, Forall (fun c => word_char c = true) (dec_digits n k).
Proof.
  induction n as [|n IH]; intros k; [constructor|]. cbn [dec_digits]. apply Forall_app. split; [destruct (k / 10 =? 0); [constructor|apply IH]|]. constructor; [|constructor].
  pose proof (Z.mod_pos_bound k 10 ltac:(lia)). unfold word_char, LexSpec.digit. generalize dependent (k mod 10). intros q Q. replace ((48 <=? 48 + q) && (48 + q <=? 57)) with true by lia. apply orb_true_r.
Qed.
Lemma leave_word k : 0 <= k -> word_text (leave_text k).
Proof. intros K. unfold leave_text. apply word_app; [split; [reflexivity|repeat constructor]|]. unfold print_d. destruct (k <? 0) eqn:E; [lia|]. apply dec_word. Qed.
Lemma leave_not k : Forall (fun s => is_word (Word (leave_text k)) s = false) statement_words.
Proof. unfold statement_words. repeat constructor. Qed.

(** ** Instructions *)
Section Main.
Variable env : dotnet.
Variable statement_text condition_text value_text il_text : Z -> text.
Variable statement_lex condition_lex value_lex : Z -> list lexeme.
Variable case_of : Z -> nat -> option Z.
Variable unwrapped : inst -> bool.
Variable branch_label : list inst -> Z.
Variable main : Z.
Hypothesis G : good_texts (nl env) statement_text condition_text value_text il_text statement_lex condition_lex value_lex case_of.
Let silent (n : Z) : bool := match statement_text n with [] => true | _ => false end.
Notation wr := (write env statement_text condition_text value_text il_text case_of unwrapped branch_label main).
Notation wc e top := (write_code env (wr e top)).
Notation mt := (meant statement_lex condition_lex value_lex il_text leave_text case_of).
Notation vs e top := (thread_concat (visit main e top)).
Notation followed := (labels_followed main unwrapped silent).
Notation finish := (open_end main silent).
Lemma NLok : nl env <> [] /\ blanks (nl env).
Proof. apply G. Qed.
Lemma il_ok o : word_text (il_text o) /\ Forall (fun s => is_word (Word (il_text o)) s = false) statement_words.
Proof. apply G. Qed.
Definition same_end (s s' : writer) (t : text) (n' : Z) : Prop := buffer (snd s') = buffer (snd s) ++ t /\ fst s' = n' /\ fst s <= fst s'.
Definition Pinst (i : inst) : Prop := forall e top s s', followed i -> 0 <= top -> 0 <= fst s -> onNewline (snd s) = false -> CharactersAddedToLine (snd s) = false ->
  wr e top i s = Ret s' -> exists t ls, same_end s s' t (fst (visit main e top i (fst s))) /\
    let ss := flat_map mt (snd (visit main e top i (fst s))) in
    ((CharactersAddedToLine (snd s') = true /\ closed (t ++ T ";") (ls ++ [Punct (T ";")]) /\ R (ls ++ [Punct (T ";")]) ss false /\ writes silent i = true /\ ends_in_label main i = false) \/
     (CharactersAddedToLine (snd s') = false /\ closed t ls /\ R ls ss (ends_in_label main i) /\ (writes silent i = true -> ls <> []) /\ (writes silent i = false -> ls = [] /\ ss = []))).
Lemma each_any {A} (g : A -> writer -> outcome writer) l : forall k s, each (fun _ => g) k l s = each (fun _ => g) 0 l s.
Proof. induction l as [|a l IH]; intros k s; [reflexivity|]. cbn [each]. destruct (g a s); try reflexivity. cbn [bind]. rewrite IH. symmetry. apply IH. Qed.
Definition one (e : scopes) (top : Z) (i : inst) (s : writer) : outcome writer :=
  s <- (if onNewline (snd s) then lift (fun f => AppendIndented f []) s else Ret s) ;; s <- wr e top i s ;; let s := if CharactersAddedToLine (snd s) then say (T ";") s else s in Ret (line env [] s).
Lemma code_cons e top i code s : wc e top (i :: code) s = bind (one e top i s) (wc e top code).
Proof. change (wc e top (i :: code) s) with (bind (one e top i s) (each (fun _ => one e top) 1 code)). destruct (one e top i s); try reflexivity. cbn [bind]. apply each_any. Qed.
(** the formatter is ready for an instruction *)
Definition ready (s : writer) : Prop := onNewline (snd s) = true \/ onNewline (snd s) = false /\ CharactersAddedToLine (snd s) = false.
Lemma nil_closed_blanks b t ls : blanks b -> closed t ls -> closed (b ++ t) ls.
Proof. intros B C. apply (closed_app b [] t ls); [apply closed_blanks, B|exact C]. Qed.
Lemma closed_nl t ls : closed t ls -> closed (t ++ nl env) ls.
Proof. intros C. rewrite <- (app_nil_r ls). apply closed_app; [exact C|apply closed_blanks, NLok]. Qed.
Lemma one_spec e top i s s' : Pinst i -> followed i -> 0 <= top -> 0 <= fst s -> ready s -> one e top i s = Ret s' ->
  ready s' /\ exists t ls, same_end s s' t (fst (visit main e top i (fst s))) /\ closed t ls /\
    let ss := flat_map mt (snd (visit main e top i (fst s))) in R ls ss (ends_in_label main i) /\ (writes silent i = true -> ls <> []) /\ (writes silent i = false -> ls = [] /\ ss = []).
Proof.
  intros HP F T0 N0 Rd H. unfold one in H. apply bind_inv in H. destruct H as (s1 & H1 & H). apply bind_inv in H. destruct H as (s2 & H2 & H). injection H as <-.
  assert (S1 : exists b, blanks b /\ buffer (snd s1) = buffer (snd s) ++ b /\ fst s1 = fst s /\ onNewline (snd s1) = false /\ CharactersAddedToLine (snd s1) = false).
  { destruct Rd as [E|[E E']]; rewrite E in H1.
    - apply lift_inv in H1. destruct H1 as (g & H1 & E1 & E2). apply AppendIndented_inv in H1. destruct H1 as (b & B & E3 & E4 & E5). exists b. rewrite E2, E3, app_nil_r. auto.
    - injection H1 as <-. exists []. rewrite app_nil_r. repeat split; auto. constructor. }
  destruct S1 as (b & B & E1 & E2 & E3 & E4). destruct (HP e top s1 s2 F T0 ltac:(lia) E3 E4 H2) as (t & ls & (Q1 & Q2 & Q3) & Q). rewrite E2 in Q2, Q3, Q. split; [left; reflexivity|].
  destruct Q as [(C & Cl & RR & W & L)|(C & Cl & RR & W1 & W2)]; rewrite C.
  - exists (b ++ (t ++ T ";") ++ nl env), (ls ++ [Punct (T ";")]). rewrite L. split; [|split; [|split; [exact RR|split; [intros _; destruct ls; discriminate|congruence]]]].
    + repeat split; [cbn; rewrite Q1, E1, app_nil_r; repeat rewrite <- app_assoc; reflexivity|exact Q2|exact Q3].
    + apply nil_closed_blanks; [exact B|]. apply closed_nl, Cl.
  - exists (b ++ t ++ nl env), ls. split; [|split; [|split; [exact RR|split; [exact W1|exact W2]]]].
    + repeat split; [cbn; rewrite Q1, E1, app_nil_r; repeat rewrite <- app_assoc; reflexivity|exact Q2|exact Q3].
    + apply nil_closed_blanks; [exact B|]. apply closed_nl, Cl.
Qed.
Lemma code_spec e top code : Every Pinst code -> Every followed code -> 0 <= top -> forall s s', 0 <= fst s -> ready s -> wc e top code s = Ret s' ->
  exists t ls, same_end s s' t (fst (vs e top code (fst s))) /\ closed t ls /\
    forall ls0 ss0 op, R ls0 ss0 op -> R (ls0 ++ ls) (ss0 ++ flat_map mt (snd (vs e top code (fst s)))) (finish op code).
Proof.
  intros HP F T0. induction code as [|i code IH]; intros s s' N0 Rd H.
  - injection H as <-. exists [], []. split; [split; [symmetry; apply app_nil_r|split; [reflexivity|lia]]|]. split; [apply closed_nil|]. intros ls0 ss0 op RR. rewrite !app_nil_r. exact RR.
  - destruct HP as [HP1 HP2]. destruct F as [F1 F2]. rewrite code_cons in H. apply bind_inv in H. destruct H as (s1 & H1 & H).
    destruct (one_spec e top i s s1 HP1 F1 T0 N0 Rd H1) as (Rd1 & t1 & l1 & (A1 & A2 & A3) & C1 & R1 & W1 & W2).
    destruct (IH HP2 F2 s1 s' ltac:(lia) Rd1 H) as (t2 & l2 & (B1 & B2 & B3) & C2 & R2).
    rewrite thread_concat_cons. rewrite A2 in B2, R2. destruct (visit main e top i (fst s)) as [n1 o1] eqn:V. cbn [fst snd] in *. destruct (thread_concat (visit main e top) code n1) as [n2 o2] eqn:V2. cbn [fst snd] in *.
    exists (t1 ++ t2), (l1 ++ l2). split; [split; [rewrite B1, A1, app_assoc; reflexivity|split; [exact B2|lia]]|]. split; [apply closed_app; assumption|].
    intros ls0 ss0 op RR. rewrite flat_map_app. rewrite (app_assoc ls0), (app_assoc ss0). cbn [open_end]. apply R2. destruct (writes silent i) eqn:W.
    + apply (R_app ls0 ss0 op); [exact RR|exact R1|]. intros E. destruct (W1 eq_refl E).
    + destruct (W2 eq_refl) as [-> ->]. rewrite !app_nil_r. exact RR.
Qed.
Lemma label_none l code s : onNewline (snd s) = false -> AddLabelIfNeeded env il_text l code s = s.
Proof. intros E. unfold AddLabelIfNeeded. rewrite E. reflexivity. Qed.
Notation acc e top := (accept env il_text unwrapped branch_label (wr e top)).
Definition start (s : writer) : Prop := onNewline (snd s) = false /\ CharactersAddedToLine (snd s) = false.
Lemma accept_block e top t s s' : is_bare unwrapped t = false -> Every Pinst t -> Every followed t -> 0 <= top -> 0 <= fst s -> start s -> acc e top t s = Ret s' ->
  exists t' ls, same_end s s' t' (fst (vs e top t (fst s))) /\ closed t' ls /\ R ls (flat_map mt (snd (vs e top t (fst s)))) (finish false t).
Proof.
  intros U HP F T0 N0 [S1 S2] H. unfold accept in H. rewrite U in H. unfold WriteBlock in H. rewrite (label_none _ _ s S1) in H.
  destruct (code_spec e top t HP F T0 s s' N0 (or_intror (conj S1 S2)) H) as (t' & ls & E & C & K). exists t', ls. split; [exact E|]. split; [exact C|]. exact (K [] [] false R_nil).
Qed.
Lemma bare_one t : is_bare unwrapped t = true -> exists i, t = [i] /\ unwrapped i = true.
Proof. destruct t as [|i [|j t]]; try discriminate. intros H. exists i. auto. Qed.
Lemma accept_semi e top t s s' : Every Pinst t -> Every followed t -> 0 <= top -> 0 <= fst s -> start s -> acc e top t s = Ret s' ->
  exists t' ls, same_end s s' t' (fst (vs e top t (fst s))) /\ closed (t' ++ T ";") (ls ++ [Punct (T ";")]) /\ R (ls ++ [Punct (T ";")]) (flat_map mt (snd (vs e top t (fst s)))) false.
Proof.
  intros HP F T0 N0 St H. destruct (is_bare unwrapped t) eqn:U.
  - destruct (bare_one t U) as (i & -> & _). unfold accept in H. rewrite U in H. cbn [each] in H. apply bind_inv in H. destruct H as (s1 & H & K). injection K as ->. destruct HP as [HP _]. destruct F as [F _]. destruct St as [S1 S2].
    destruct (HP e top s s' F T0 N0 S1 S2 H) as (t' & ls & E & Q). rewrite thread_concat_cons. destruct (visit main e top i (fst s)) as [n1 o1]. cbn [thread_concat thread concat fst snd] in *. rewrite app_nil_r. exists t', ls. split; [exact E|].
    destruct Q as [(_ & Cl & RR & _)|(_ & Cl & RR & _)]; [split; assumption|]. split; [apply closed_app; [exact Cl|apply closed_semi]|]. rewrite <- (app_nil_r (flat_map mt o1)). eapply R_app; [exact RR|apply R_semi|discriminate].
  - destruct (accept_block e top t s s' U HP F T0 N0 St H) as (t' & ls & E & Cl & RR). exists t', ls. split; [exact E|]. split; [apply closed_app; [exact Cl|apply closed_semi]|].
    rewrite <- (app_nil_r (flat_map mt _)). eapply R_app; [exact RR|apply R_semi|discriminate].
Qed.
Lemma braces_spec e top t s s' : branch_closed main unwrapped silent t -> Every Pinst t -> Every followed t -> 0 <= top -> 0 <= fst s -> WriteBlockWithBraces env il_text unwrapped branch_label (wr e top) t s = Ret s' ->
  exists t' ls, same_end s s' t' (fst (vs e top t (fst s))) /\ closed t' (Punct (T "{") :: ls ++ [Punct (T "}")]) /\ R ls (flat_map mt (snd (vs e top t (fst s)))) false /\ CharactersAddedToLine (snd s') = false.
Proof.
  intros BC HP F T0 N0 H. unfold WriteBlockWithBraces in H. apply bind_inv in H. destruct H as (s1 & H1 & H). apply bind_inv in H. destruct H as (s2 & H2 & H). apply bind_inv in H. destruct H as (s3 & H3 & H).
  apply lift_inv in H1. destruct H1 as (g1 & H1 & E1 & X1). apply (Open_inv env NLok) in H1. destruct H1 as (t1 & C1 & B1 & _ & _).
  apply lift_inv in H2. destruct H2 as (g2 & H2 & E2 & X2). apply AppendIndented_inv in H2. destruct H2 as (b2 & K2 & B2 & O2 & A2).
  apply lift_inv in H. destruct H as (g4 & H4 & E4 & X4). apply (Close_inv env NLok) in H4. destruct H4 as (t4 & C4 & B4 & A4).
  assert (St : start s2) by (split; [rewrite X2; exact O2|rewrite X2; exact A2]). assert (F2 : fst s2 = fst s) by congruence. rewrite <- F2 in N0 |- *.
  assert (Q : exists t3 l3, buffer (snd (if is_bare unwrapped t then say (T ";") s3 else s3)) = buffer (snd s2) ++ t3 /\ closed t3 l3 /\ R l3 (flat_map mt (snd (vs e top t (fst s2)))) false /\ fst s3 = fst (vs e top t (fst s2)) /\ fst s2 <= fst s3).
  { destruct (is_bare unwrapped t) eqn:U.
    - destruct (accept_semi e top t s2 s3 HP F T0 N0 St H3) as (t3 & l3 & (Z1 & Z2 & Z3) & Cl & RR). exists (t3 ++ T ";"), (l3 ++ [Punct (T ";")]). repeat split; try assumption; [|apply RR..]. cbn. rewrite Z1, app_assoc. reflexivity.
    - destruct (accept_block e top t s2 s3 U HP F T0 N0 St H3) as (t3 & l3 & (Z1 & Z2 & Z3) & Cl & RR). exists t3, l3. split; [exact Z1|]. split; [exact Cl|]. split; [|split; assumption].
      destruct BC as [BC|BC]; [rewrite BC in RR; exact RR|]. exfalso. destruct t as [|i [|j t]]; try contradiction. cbn in U. congruence. }
  destruct Q as (t3 & l3 & Z1 & Cl & RR & Z2 & Z3). exists (t1 ++ b2 ++ t3 ++ t4), l3.
  split; [|split; [|split; [exact RR|rewrite X4; exact A4]]].
  - unfold same_end. split; [|split].
    + assert (B4' : buffer g4 = buffer (snd (if is_bare unwrapped t then say (T ";") s3 else s3)) ++ t4) by exact B4. rewrite X4, B4', Z1, X2, B2, X1, B1, app_nil_r. repeat rewrite <- app_assoc. reflexivity.
    + rewrite E4. destruct (is_bare unwrapped t); exact Z2.
    + rewrite E4. destruct (is_bare unwrapped t); cbn [say fst]; lia.
  - apply (closed_app t1 [Punct (T "{")]); [exact C1|]. apply nil_closed_blanks; [exact K2|]. apply closed_app; [exact Cl|exact C4].
Qed.
Definition wblk (e : scopes) (k : Z) (b : block) (s : writer) : outcome writer :=
  let 'Block _ l code := b in s <- lift (AddOpenBrace env) s ;; s <- WriteBlock env il_text (wr e k) l code s ;; lift (fun f => AddCloseBrace env f false) s.
Lemma wblk_spec e k b s s' : Every Pinst (block_code b) -> (let 'Block _ l code := b in finish (labelled l code) code = false /\ Every followed code) -> 0 <= k -> 0 <= fst s -> wblk e k b s = Ret s' ->
  exists t ls, same_end s s' t (fst (wblock main e k b (fst s))) /\ closed t ls /\ R ls (mt (snd (wblock main e k b (fst s)))) false /\ ls <> [] /\ CharactersAddedToLine (snd s') = false.
Proof.
  destruct b as [id l code]. cbn [block_code]. intros HP [FE F] T0 N0 H. cbn [wblk] in H. apply bind_inv in H. destruct H as (s1 & H1 & H). apply bind_inv in H. destruct H as (s2 & H2 & H).
  apply lift_inv in H1. destruct H1 as (g1 & H1 & E1 & X1). apply (Open_inv env NLok) in H1. destruct H1 as (t1 & C1 & B1 & O1 & _).
  apply lift_inv in H. destruct H as (g4 & H4 & E4 & X4). apply (Close_inv env NLok) in H4. destruct H4 as (t4 & C4 & B4 & A4). unfold WriteBlock in H2.
  assert (Lb : exists tl ll, buffer (snd (AddLabelIfNeeded env il_text l code s1)) = buffer (snd s1) ++ tl /\ fst (AddLabelIfNeeded env il_text l code s1) = fst s1 /\ onNewline (snd (AddLabelIfNeeded env il_text l code s1)) = true /\
    closed tl ll /\ R ll (flat_map mt (if label_printed l code then [CLabel (IL l)] else [])) (labelled l code)).
  { rewrite printed. unfold AddLabelIfNeeded. rewrite X1, O1. rewrite printed. cbn [andb]. destruct (labelled l code).
    - exists (il_text l ++ T ":" ++ nl env), [Word (il_text l); Punct (T ":")]. repeat split.
      + cbn. rewrite X1. repeat rewrite <- app_assoc. reflexivity.
      + apply (closed_word (il_text l) 58); [apply il_ok|split; [reflexivity|discriminate]|]. apply closed_colon; apply NLok.
      + apply R_label, il_ok.
    - exists [], []. rewrite app_nil_r. rewrite X1. split; [reflexivity|]. split; [reflexivity|]. split; [exact O1|]. split; [apply closed_nil|apply R_nil]. }
  destruct Lb as (tl & ll & L1 & L2 & L3 & L4 & L5). set (s1' := AddLabelIfNeeded env il_text l code s1) in *.
  destruct (code_spec e k code HP F T0 s1' s2 ltac:(rewrite L2, E1; exact N0) (or_introl L3) H2) as (t2 & l2 & (Z1 & Z2 & Z3) & C2 & R2). specialize (R2 _ _ _ L5). rewrite L2, E1 in Z2, Z3, R2. rewrite FE in R2.
  cbn [wblock]. destruct (thread_concat (visit main e k) code (fst s)) as [n1 o1]. cbn [fst snd] in *. cbn [meant]. rewrite flat_map_app. exists (t1 ++ (tl ++ t2) ++ t4), (Punct (T "{") :: (ll ++ l2) ++ [Punct (T "}")]).
  split; [|split; [|split; [apply R_block, R2|split; [discriminate|rewrite X4; exact A4]]]].
  - split; [|split; [congruence|lia]]. rewrite X4, B4, Z1, L1, X1, B1. repeat rewrite <- app_assoc. reflexivity.
  - apply (closed_app t1 [Punct (T "{")]); [exact C1|]. apply closed_app; [apply closed_app; assumption|exact C4].
Qed.
Lemma blocks_spec e k : 0 <= k -> forall bs, Every (fun b => Every Pinst (block_code b)) bs -> Every (fun b => let 'Block _ l code := b in finish (labelled l code) code = false /\ Every followed code) bs ->
  forall s s', 0 <= fst s -> each (fun _ => wblk e k) 0 bs s = Ret s' ->
  exists t ls, same_end s s' t (fst (thread (wblock main e k) bs (fst s))) /\ closed t ls /\ R ls (flat_map mt (snd (thread (wblock main e k) bs (fst s)))) false /\
    (bs = [] -> ls = [] /\ s' = s) /\ (bs <> [] -> ls <> [] /\ CharactersAddedToLine (snd s') = false).
Proof.
  intros T0. induction bs as [|b bs IH]; intros HP F s s' N0 H.
  - injection H as <-. exists [], []. split; [split; [symmetry; apply app_nil_r|split; [reflexivity|lia]]|]. split; [apply closed_nil|]. split; [apply R_nil|]. split; [auto|]. intros X. destruct (X eq_refl).
  - destruct HP as [HP1 HP2]. destruct F as [F1 F2]. cbn [each] in H. apply bind_inv in H. destruct H as (s1 & H1 & H). rewrite each_any in H.
    destruct (wblk_spec e k b s s1 HP1 F1 T0 N0 H1) as (t1 & l1 & (A1 & A2 & A3) & C1 & R1 & N1 & K1).
    destruct (IH HP2 F2 s1 s' ltac:(lia) H) as (t2 & l2 & (B1 & B2 & B3) & C2 & R2 & E2 & K2). cbn [thread]. rewrite A2 in B2, R2.
    destruct (wblock main e k b (fst s)) as [n1 o1]. cbn [fst snd] in *. destruct (thread (wblock main e k) bs n1) as [n2 o2]. cbn [fst snd] in *. exists (t1 ++ t2), (l1 ++ l2).
    split; [split; [rewrite B1, A1, app_assoc; reflexivity|split; [exact B2|lia]]|]. split; [apply closed_app; assumption|]. split; [cbn [flat_map]; eapply R_app; [exact R1|exact R2|reflexivity]|]. split; [discriminate|]. intros _. split; [destruct l1; [contradiction|discriminate]|].
    destruct bs as [|b' bs]; [destruct (E2 eq_refl) as [_ ->]; exact K1|]. apply K2. discriminate.
Qed.
Lemma container_spec e top c bs s s' : Every (fun b => Every Pinst (block_code b)) bs -> followed (Container c bs) -> 0 <= fst s -> wr e top (Container c bs) s = Ret s' ->
  exists t ls, same_end s s' t (fst (visit main e top (Container c bs) (fst s))) /\ closed t ls /\ R ls (flat_map mt (snd (visit main e top (Container c bs) (fst s)))) (ends_in_label main (Container c bs)) /\
    (bs = [] -> ls = [] /\ flat_map mt (snd (visit main e top (Container c bs) (fst s))) = []) /\ (bs <> [] -> ls <> []) /\ (CharactersAddedToLine (snd s) = false -> CharactersAddedToLine (snd s') = false).
Proof.
  intros HP F N0 H. rewrite visit_container. set (k := fst s + 1) in *. change (wr e top (Container c bs) s) with (bind (each (fun _ => wblk ((c, bs) :: e) k) 0 bs (k, snd s)) (fun s => Ret (if negb (c =? main) && left c bs then line env (T ":") (say (leave_text k) s) else s))) in H.
  apply bind_inv in H. destruct H as (s1 & H1 & H). injection H as <-. cbn [labels_followed] in F.
  destruct (blocks_spec ((c, bs) :: e) k ltac:(unfold k; lia) bs HP F (k, snd s) s1 ltac:(cbn; unfold k; lia) H1) as (t1 & l1 & (A1 & A2 & A3) & C1 & R1 & E1 & K1). cbn [fst snd] in A1, A2, A3, R1.
  destruct (thread (wblock main ((c, bs) :: e) k) bs k) as [n1 o1]. cbn [fst snd] in *. rewrite flat_map_app. cbn [ends_in_label]. change (existsb (fun b => existsb (leaves c) (block_code b)) bs) with (left c bs).
  destruct (negb (c =? main) && left c bs) eqn:Lf.
  - exists (t1 ++ leave_text k ++ T ":" ++ nl env), (l1 ++ [Word (leave_text k); Punct (T ":")]). split; [|split; [|split; [|split; [|split]]]].
    + split; [cbn; rewrite A1; repeat rewrite <- app_assoc; reflexivity|]. cbn. split; [exact A2|unfold k in A3; lia].
    + apply closed_app; [exact C1|]. apply (closed_word (leave_text k) 58); [apply leave_word; unfold k; lia|split; [reflexivity|discriminate]|]. apply closed_colon; apply NLok.
    + eapply R_app; [exact R1|apply R_label, leave_not|discriminate].
    + intros ->. exfalso. cbn in Lf. rewrite andb_false_r in Lf. discriminate.
    + intros _. destruct l1; discriminate.
    + reflexivity.
  - exists t1, l1. cbn [flat_map]. rewrite app_nil_r. split; [split; [exact A1|split; [exact A2|unfold k in A3; lia]]|]. split; [exact C1|]. split; [exact R1|]. split; [|split].
    + intros ->. destruct (E1 eq_refl) as [-> ->]. split; [reflexivity|]. cbn [thread] in R1. destruct R1 as [_ R1]. destruct (R1 [] [] [] ltac:(exists 1%nat; reflexivity) ltac:(discriminate)) as [n E]. destruct n; [discriminate|]. cbn in E. injection E as E. rewrite app_nil_r in E. symmetry. exact E.
    + intros N. apply (K1 N).
    + intros C. destruct bs as [|b bs]; [destruct (E1 eq_refl) as [_ ->]; exact C|]. apply K1. discriminate.
Qed.
(** sections of a switch *)
Definition wsection (e : scopes) (top : Z) (m : Z) (k : nat) (body : list inst) (s : writer) : outcome writer :=
  s <- (match case_of m k with None => lift (fun f => AppendIndented f (T "default")) s | Some n => s <- lift (fun f => AppendIndented f (T "case ")) s ;; Ret (say (print_d n) s) end) ;;
  let s := line env (T ":") s in s <- lift (fun f => AppendIndented f []) s ;; s <- acc e top body s ;; Ret (line env (T ";") s).
Lemma case_spec m k s s' : (match case_of m k with None => lift (fun f => AppendIndented f (T "default")) s | Some n => s <- lift (fun f => AppendIndented f (T "case ")) s ;; Ret (say (print_d n) s) end) = Ret s' ->
  exists t, buffer (snd s') = buffer (snd s) ++ t /\ fst s' = fst s /\ closed (t ++ T ":" ++ nl env) (case_lex (case_of m k) ++ [Punct (T ":")]).
Proof.
  intros H. destruct (case_of m k) as [n|] eqn:E.
  - apply bind_inv in H. destruct H as (s1 & H & K). injection K as <-. apply lift_inv in H. destruct H as (g & H & E1 & E2). apply AppendIndented_inv in H. destruct H as (b & B & E3 & _ & _). exists (b ++ T "case " ++ print_d n).
    split; [cbn; rewrite E2, E3; repeat rewrite <- app_assoc; reflexivity|]. split; [exact E1|]. assert (N : - 2 ^ 63 <= n < 2 ^ 63) by (eapply G; exact E). repeat rewrite <- app_assoc. apply nil_closed_blanks; [exact B|].
    change (closed (T "case" ++ 32 :: print_d n ++ T ":" ++ nl env) (Word (T "case") :: (if n <? 0 then [Punct (T "-"); Number (print_u (- n))] else [Number (print_u n)]) ++ [Punct (T ":")])).
    apply closed_word; [split; [reflexivity|repeat constructor]|split; [reflexivity|discriminate]|]. apply (nil_closed_blanks [32]); [constructor; [reflexivity|constructor]|].
    intros r lr H. rewrite <- app_assoc. apply (closed_colon (nl env) (proj1 NLok) (proj2 NLok)) in H. change (2 ^ 63) with 9223372036854775808 in N. unfold print_d.
    assert (AN : head_is after_number ((T ":" ++ nl env) ++ r)) by (split; [reflexivity|discriminate]). destruct (n <? 0) eqn:Z.
    + destruct (D_number (- n) _ _ ltac:(unfold two64; lia) AN H) as [D Hd]. exact (D_minus _ _ Hd D).
    + exact (proj1 (D_number n _ _ ltac:(unfold two64; lia) AN H)).
  - apply lift_inv in H. destruct H as (g & H & E1 & E2). apply AppendIndented_inv in H. destruct H as (b & B & E3 & _ & _). exists (b ++ T "default"). split; [rewrite E2, E3; reflexivity|]. split; [exact E1|].
    rewrite <- app_assoc. apply nil_closed_blanks; [exact B|]. apply (closed_word (T "default") 58); [split; [reflexivity|repeat constructor]|split; [reflexivity|discriminate]|]. apply closed_colon; apply NLok.
Qed.
Lemma case_plain c : exists x l, case_lex c = x :: l /\ starts_case x = true /\ Forall (fun x => brace x = false /\ is_punct x ":" = false) (x :: l).
Proof. destruct c as [n|]; [|exists (Word (T "default")), []; repeat constructor]. unfold case_lex. destruct (n <? 0); eexists; eexists; (split; [reflexivity|]); repeat constructor. Qed.
Lemma sections_spec e top m : 0 <= top -> forall ss, Every (Every Pinst) ss -> Every (Every followed) ss -> forall k s s', 0 <= fst s -> each (wsection e top m) k ss s = Ret s' ->
  exists t ls, same_end s s' t (fst (thread (vs e top) ss (fst s))) /\ closed t ls /\
    RC ls (combine (map (fun k => case_lex (case_of m k)) (seq k (length (snd (thread (vs e top) ss (fst s)))))) (map (flat_map mt) (snd (thread (vs e top) ss (fst s))))).
Proof.
  intros T0. induction ss as [|body ss IH]; intros HP F k s s' N0 H.
  - injection H as <-. exists [], []. split; [split; [symmetry; apply app_nil_r|split; [reflexivity|lia]]|]. split; [apply closed_nil|apply RC_nil].
  - destruct HP as [HP1 HP2]. destruct F as [F1 F2]. cbn [each] in H. apply bind_inv in H. destruct H as (s4 & H1 & H). unfold wsection in H1.
    apply bind_inv in H1. destruct H1 as (s1 & H1 & H2). apply bind_inv in H2. destruct H2 as (s2 & H2 & H3). apply bind_inv in H3. destruct H3 as (s3 & H3 & K). injection K as <-.
    destruct (case_spec m k s s1 H1) as (t1 & B1 & X1 & C1). apply lift_inv in H2. destruct H2 as (g & H2 & X2 & E2). apply AppendIndented_inv in H2. destruct H2 as (b & B & E3 & O3 & A3). cbn [line fst] in X2.
    assert (St : start s2) by (split; [exact (eq_trans (f_equal onNewline E2) O3)|exact (eq_trans (f_equal CharactersAddedToLine E2) A3)]). assert (N2 : 0 <= fst s2) by lia.
    destruct (accept_semi e top body s2 s3 HP1 F1 T0 N2 St H3) as (t3 & l3 & (Z1 & Z2 & Z3) & C3 & R3). rewrite X2, X1 in Z2, Z3, R3.
    destruct (IH HP2 F2 (S k) (line env (T ";") s3) s' ltac:(cbn [line fst]; lia) H) as (t5 & l5 & (Y1 & Y2 & Y3) & C5 & R5). cbn [line fst] in Y2, Y3, R5. rewrite Z2 in Y2, R5. cbn [thread].
    destruct (thread_concat (visit main e top) body (fst s)) as [n1 o1]. cbn [fst snd] in *. destruct (thread (thread_concat (visit main e top)) ss n1) as [n2 o2]. cbn [fst snd] in *. cbn [length map].
    change (seq k (S (length o2))) with (k :: seq (S k) (length o2)). cbn [map combine].
    destruct (case_plain (case_of m k)) as (x & l & EC & SC & FC). rewrite EC in *.
    exists ((t1 ++ T ":" ++ nl env) ++ b ++ ((t3 ++ T ";") ++ nl env) ++ t5), (((x :: l) ++ [Punct (T ":")]) ++ (l3 ++ [Punct (T ";")]) ++ l5). split; [|split].
    + split; [|split; [exact Y2|lia]]. rewrite Y1. cbn [line say snd AppendLine Newline Append buffer]. rewrite Z1, E2, E3. cbn. rewrite B1. rewrite ?app_nil_r. repeat rewrite <- app_assoc. cbn [app]. repeat rewrite <- app_assoc. reflexivity.
    + apply closed_app; [exact C1|]. apply nil_closed_blanks; [exact B|]. apply closed_app; [apply closed_nl, C3|exact C5].
    + replace (((x :: l) ++ [Punct (T ":")]) ++ (l3 ++ [Punct (T ";")]) ++ l5) with (x :: l ++ Punct (T ":") :: (l3 ++ [Punct (T ";")]) ++ l5) by (repeat (rewrite <- app_assoc; cbn [app]); reflexivity).
      apply RC_cons; [exact SC|exact FC|exact R3|destruct l3; discriminate|exact R5].
Qed.
Lemma until_fits ls : Forall (fun x => brace x = false /\ is_punct x ";" = false) ls -> Forall (fun x => brace x = false /\ is_punct x ";" = false) (Punct (T "(") :: ls ++ [Punct (T ")")]).
Proof. intros F. constructor; [split; reflexivity|]. apply Forall_app. split; [exact F|]. constructor; [split; reflexivity|constructor]. Qed.
Lemma word_lit (w : string) : word_text (T w) -> forall t ls, closed (32 :: t) ls -> closed (T w ++ 32 :: t) (Word (T w) :: ls).
Proof. intros W t ls C. apply closed_word; [exact W|split; [reflexivity|discriminate]|exact C]. Qed.
Lemma cond_closed m t ls : closed t ls -> closed (T "(" ++ condition_text m ++ T ")" ++ t) (Punct (T "(") :: condition_lex m ++ Punct (T ")") :: ls).
Proof.
  intros C. apply (closed_app (T "(") [Punct (T "(")]); [apply closed_lp|]. destruct G as (_ & _ & GC & _). destruct (GC m) as [F _]. apply (closed_fits (condition_text m) _ 41); [exact F|left; reflexivity|].
  apply (closed_app (T ")") [Punct (T ")")]); [apply closed_rp|exact C].
Qed.
Lemma write_spec i : Pinst i.
Proof.
  induction i as [m|b|c v|m t f Ht Hf|m ss Hss|c bs Hbs] using inst_ind'; intros e top s s' F T0 N0 O C H.
  - (* Simple *) injection H as <-. cbn [visit fst snd flat_map meant]. exists (statement_text m), (statement_lex m). split; [split; [reflexivity|cbn; lia]|]. cbn zeta.
    destruct G as (_ & GS & _). destruct (GS m) as [[E1 E2]|(E1 & Fi & P)].
    + right. rewrite E1, E2. cbn. repeat split; try assumption; try apply closed_nil; try apply R_nil. unfold silent. rewrite E1. discriminate.
    + left. cbn [say snd Append CharactersAddedToLine ends_in_label writes]. assert (E3 : statement_lex m <> []) by (destruct (statement_lex m); [destruct P as [[] _]|discriminate]).
      split; [destruct (statement_text m); [contradiction|reflexivity]|]. split; [apply (closed_fits _ _ 59 []); [exact Fi|right; left; reflexivity|apply closed_semi]|]. split; [|split; [unfold silent; destruct (statement_text m); [contradiction|reflexivity]|reflexivity]].
      pose proof (R_simple (statement_lex m) P) as RR. destruct (statement_lex m) as [|x l]; [contradiction|exact RR].
  - (* Branch *) injection H as <-. cbn [visit fst snd flat_map meant label_word]. set (o := match find_block b e with Some x => block_label x | None => -1 end). exists (T "goto " ++ il_text o), [Word (T "goto"); Word (il_text o)].
    split; [split; [cbn; rewrite <- app_assoc; reflexivity|cbn; lia]|]. cbn zeta. left. split; [|split; [|split; [apply R_goto|split; reflexivity]]].
    + cbn. destruct (il_ok o) as [[W _] _]. destruct (il_text o); [contradiction|reflexivity].
    + rewrite <- app_assoc. change (closed (T "goto" ++ 32 :: il_text o ++ T ";") [Word (T "goto"); Word (il_text o); Punct (T ";")]). apply (word_lit "goto"); [split; [reflexivity|repeat constructor]|]. apply (nil_closed_blanks [32]); [repeat constructor|].
      apply (closed_word (il_text o) 59 []); [apply il_ok|split; [reflexivity|discriminate]|apply closed_semi].
  - (* Leave *) cbn [write visit] in *. destruct (target_label c e =? 0).
    + injection H as <-. destruct v as [v|]; cbn [fst snd flat_map meant].
      * exists (T "return" ++ T "(" ++ value_text v ++ T ")"), (Word (T "return") :: Punct (T "(") :: value_lex v ++ [Punct (T ")")]). destruct G as (_ & _ & _ & GV & _). destruct (GV v) as [Fi P].
        split; [split; [cbn; repeat (rewrite <- app_assoc; cbn [app]); reflexivity|cbn; lia]|]. cbn zeta. left. split; [reflexivity|]. split; [|split; [|split; reflexivity]].
        -- repeat rewrite <- app_assoc. cbn [app]. apply (closed_word (T "return") 40); [split; [reflexivity|repeat constructor]|split; [reflexivity|discriminate]|].
           apply (closed_app (T "(") [Punct (T "(")]); [apply closed_lp|]. rewrite <- app_assoc. apply (closed_fits (value_text v) _ 41); [exact Fi|left; reflexivity|]. apply (closed_app (T ")") [Punct (T ")")]); [apply closed_rp|apply closed_semi].
        -- apply (R_return (Punct (T "(") :: value_lex v ++ [Punct (T ")")])), until_fits, P.
      * exists (T "return"), [Word (T "return")]. split; [split; [reflexivity|cbn; lia]|]. cbn zeta. left. split; [reflexivity|]. split; [|split; [|split; reflexivity]].
        -- apply (closed_word (T "return") 59 []); [split; [reflexivity|repeat constructor]|split; [reflexivity|discriminate]|apply closed_semi].
        -- apply (R_return []). constructor.
    + injection H as <-. cbn [fst snd flat_map meant label_word]. exists (T "goto " ++ leave_text top), [Word (T "goto"); Word (leave_text top)].
      split; [split; [cbn; rewrite <- app_assoc; reflexivity|cbn; lia]|]. cbn zeta. left. split; [reflexivity|]. split; [|split; [apply R_goto|split; reflexivity]].
      rewrite <- app_assoc. change (closed (T "goto" ++ 32 :: leave_text top ++ T ";") [Word (T "goto"); Word (leave_text top); Punct (T ";")]). apply (word_lit "goto"); [split; [reflexivity|repeat constructor]|]. apply (nil_closed_blanks [32]); [repeat constructor|].
      apply (closed_word (leave_text top) 59 []); [apply leave_word, T0|split; [reflexivity|discriminate]|apply closed_semi].
  - (* If *) cbn [labels_followed] in F. destruct F as (BT & BF & FT & FF). cbn [write] in H. rewrite C in H. cbn [negb] in H. apply bind_inv in H. destruct H as (s1 & H1 & H).
    match type of H1 with WriteBlockWithBraces _ _ _ _ _ _ ?x = _ => set (s0 := x) in H1 end.
    destruct (braces_spec e top t s0 s1 BT Ht FT T0 N0 H1) as (t1 & l1 & (A1 & A2 & A3) & C1 & R1 & K1). change (fst s0) with (fst s) in A2, A3, R1.
    assert (B0 : buffer (snd s0) = buffer (snd s) ++ T "if " ++ T "(" ++ condition_text m ++ T ")") by (cbn; repeat (rewrite <- app_assoc; cbn [app]); reflexivity).
    assert (PC : in_parens (condition_lex m)) by (destruct G as (_ & _ & GC & _); apply GC). cbn [visit]. destruct (thread_concat (visit main e top) t (fst s)) as [n1 o1]. cbn [fst snd] in A2, R1.
    assert (W : closed (T "if " ++ T "(" ++ condition_text m ++ T ")" ++ t1) (Word (T "if") :: Punct (T "(") :: condition_lex m ++ Punct (T ")") :: Punct (T "{") :: l1 ++ [Punct (T "}")])).
    { change (closed (T "if" ++ 32 :: T "(" ++ condition_text m ++ T ")" ++ t1) (Word (T "if") :: Punct (T "(") :: condition_lex m ++ Punct (T ")") :: Punct (T "{") :: l1 ++ [Punct (T "}")])). apply (word_lit "if"); [split; [reflexivity|repeat constructor]|]. apply (nil_closed_blanks [32]); [repeat constructor|]. apply cond_closed, C1. }
    destruct f as [|x f].
    + injection H as <-. change (thread_concat (visit main e top) [] n1) with (n1, @nil cstmt). cbn [fst snd flat_map meant]. exists (T "if " ++ T "(" ++ condition_text m ++ T ")" ++ t1), (Word (T "if") :: Punct (T "(") :: condition_lex m ++ Punct (T ")") :: Punct (T "{") :: l1 ++ [Punct (T "}")]).
      split; [split; [rewrite A1, B0; repeat (rewrite <- app_assoc; cbn [app]); reflexivity|split; assumption]|]. cbn zeta. right. split; [exact K1|]. split; [exact W|]. split; [apply R_if; assumption|]. split; discriminate.
    + apply bind_inv in H. destruct H as (s2 & H2 & H3). apply lift_inv in H2. destruct H2 as (g & H2 & X2 & E2). apply AppendIndented_inv in H2. destruct H2 as (b & B & E3 & _ & _).
      destruct (braces_spec e top (x :: f) s2 s' BF Hf FF T0 ltac:(lia) H3) as (t3 & l3 & (Z1 & Z2 & Z3) & C3 & R3 & K3). rewrite X2, A2 in Z2, R3. rewrite X2 in Z3.
      destruct (thread_concat (visit main e top) (x :: f) n1) as [n2 o2]. cbn [fst snd] in Z2, R3 |- *. cbn [flat_map meant app].
      exists ((T "if " ++ T "(" ++ condition_text m ++ T ")" ++ t1) ++ b ++ T "else " ++ t3), ((Word (T "if") :: Punct (T "(") :: condition_lex m ++ Punct (T ")") :: Punct (T "{") :: l1 ++ [Punct (T "}")]) ++ Word (T "else") :: Punct (T "{") :: l3 ++ [Punct (T "}")]).
      split; [split; [rewrite Z1, E2, E3, A1, B0; repeat (rewrite <- app_assoc; cbn [app]); reflexivity|split; [exact Z2|lia]]|]. cbn zeta. right. split; [exact K3|]. split; [|split; [|split; discriminate]].
      * apply closed_app; [exact W|]. apply nil_closed_blanks; [exact B|]. change (closed (T "else" ++ 32 :: t3) (Word (T "else") :: Punct (T "{") :: l3 ++ [Punct (T "}")])). apply (word_lit "else"); [split; [reflexivity|repeat constructor]|]. apply (nil_closed_blanks [32]); [repeat constructor|exact C3].
      * pose proof (R_if_else (condition_lex m) l1 _ l3 _ PC R1 R3) as RR. replace ((Word (T "if") :: Punct (T "(") :: condition_lex m ++ Punct (T ")") :: Punct (T "{") :: l1 ++ [Punct (T "}")]) ++ Word (T "else") :: Punct (T "{") :: l3 ++ [Punct (T "}")]) with
          (Word (T "if") :: Punct (T "(") :: condition_lex m ++ Punct (T ")") :: Punct (T "{") :: l1 ++ Punct (T "}") :: Word (T "else") :: Punct (T "{") :: l3 ++ [Punct (T "}")]) by (cbn [app]; repeat (rewrite <- app_assoc; cbn [app]); reflexivity). exact RR.
  - (* Switch *) cbn [labels_followed] in F. cbn [write] in H. apply bind_inv in H. destruct H as (s1 & H1 & H). apply bind_inv in H. destruct H as (s2 & H2 & H3).
    apply lift_inv in H1. destruct H1 as (g1 & H1 & X1 & E1). apply (Open_inv env NLok) in H1. destruct H1 as (t1 & C1 & B1 & _ & _). cbn [say fst] in X1.
    apply lift_inv in H3. destruct H3 as (g3 & H3 & X3 & E3). apply (Close_inv env NLok) in H3. destruct H3 as (t3 & C3 & B3 & A3).
    change (each (wsection e top m) 0 ss s1 = Ret s2) in H2. destruct (sections_spec e top m T0 ss Hss F 0 s1 s2 ltac:(lia) H2) as (t2 & l2 & (Z1 & Z2 & Z3) & C2 & R2). rewrite X1 in Z2, Z3, R2.
    assert (PC : in_parens (condition_lex m)) by (destruct G as (_ & _ & GC & _); apply GC). cbn [visit]. destruct (thread (thread_concat (visit main e top)) ss (fst s)) as [n2 o2]. cbn [fst snd flat_map meant] in *.
    exists (T "switch" ++ T "(" ++ condition_text m ++ T ")" ++ t1 ++ t2 ++ t3), (Word (T "switch") :: Punct (T "(") :: condition_lex m ++ Punct (T ")") :: Punct (T "{") :: l2 ++ [Punct (T "}")]). split; [|cbn zeta; right; split; [|split; [|split; [|split; discriminate]]]].
    + split; [|split; [congruence|lia]]. rewrite E3, B3, Z1, E1, B1. cbn. repeat (rewrite <- app_assoc; cbn [app]). reflexivity.
    + rewrite E3. exact A3.
    + apply (closed_word (T "switch") 40); [split; [reflexivity|repeat constructor]|split; [reflexivity|discriminate]|]. apply cond_closed. apply (closed_app t1 [Punct (T "{")]); [exact C1|]. apply closed_app; assumption.
    + apply R_switch; assumption.
  - (* Container *) destruct (container_spec e top c bs s s' Hbs F N0 H) as (t & ls & E & Cl & RR & W1 & W2 & K). exists t, ls. split; [exact E|]. cbn zeta. right. split; [apply K, C|]. split; [exact Cl|]. split; [exact RR|]. cbn [writes]. destruct bs; [split; [discriminate|intros _; apply W1; reflexivity]|split; [intros _; apply W2; discriminate|discriminate]].
Qed.
Lemma body_spec bs f f' : followed (Container main bs) -> StartMainBlock_text env statement_text condition_text value_text il_text case_of unwrapped branch_label main bs f = Ret f' ->
  exists t ls, buffer f' = buffer f ++ t /\ closed t ls /\ R ls (flat_map mt (StartMainBlock main bs)) false.
Proof.
  intros F H. unfold StartMainBlock_text in H. apply bind_inv in H. destruct H as (s1 & H & K). injection K as <-.
  assert (HP : Every (fun b => Every Pinst (block_code b)) bs) by (apply Every_in; intros b _; apply Every_in; intros i _; apply write_spec).
  destruct (container_spec [] 0 main bs (0, f) s1 HP F ltac:(cbn; lia) H) as (t & ls & (A1 & _) & C & RR & _). exists t, ls. split; [exact A1|]. split; [exact C|].
  unfold StartMainBlock. cbn [ends_in_label fst] in RR. rewrite Z.eqb_refl in RR. exact RR.
Qed.
Lemma closed_reads t ls ss : closed t ls -> R ls ss false -> divided t ls /\ reads ls (ss, []).
Proof.
  intros C [_ RR]. split; [rewrite <- (app_nil_r t), <- (app_nil_r ls); apply C, D_nil|]. rewrite <- (app_nil_r ls), <- (app_nil_r ss). apply RR; [exists 1%nat; reflexivity|discriminate].
Qed.
End Main.
