(** * Lemmas for C112: expressions as pieces of statements; labels *)
From Coq Require Import String.
From Verif Require Import Tac Base IntModel IntProofs FormatterModel FormatterSpec FormatterProofs StatementModel ExprModel ExprSpec ExprProofs ExprProperties LexModel LexSpec LexProofs ControlModel ControlSpec ControlProofs BodyTextModel BodyTextSpec BodyTextProofs BodyWriteProofs.
Import ListNotations.

(** ** Parentheses and colons of tokens: the depth, and whether the last token was a closing parenthesis *)
Definition st : Type := (nat * bool)%type.
Definition tk (s : st) (t : token) : option st :=
  match t with
  | TLP => Some (S (fst s), false) | TRP => match fst s with O => None | S d => Some (d, true) end
  | TColon => if snd s then Some (fst s, false) else None | _ => Some (fst s, false)
  end.
Fixpoint go (s : st) (ts : list token) : option st := match ts with [] => Some s | t :: ts => match tk s t with Some s => go s ts | None => None end end.
Lemma go_app a b s : go s (a ++ b) = match go s a with Some s => go s b | None => None end.
Proof. revert s. induction a as [|t a IH]; intros s; [reflexivity|]. cbn [app go]. destruct (tk s t); [apply IH|reflexivity]. Qed.
Definition bal (ts : list token) : Prop := forall d p, exists p', go (d, p) ts = Some (d, p').
Lemma bal_app a b : bal a -> bal b -> bal (a ++ b).
Proof. intros A B d p. rewrite go_app. destruct (A d p) as [q ->]. apply B. Qed.
Lemma bal_paren a b : bal a -> bal b -> bal (TLP :: a ++ TRP :: b).
Proof. intros A B d p. cbn [go tk fst]. rewrite go_app. destruct (A (S d) false) as [q ->]. cbn [go tk fst]. apply B. Qed.
Lemma bal_paren_colon a b : bal a -> bal b -> bal (TLP :: a ++ TRP :: TColon :: b).
Proof. intros A B d p. cbn [go tk fst]. rewrite go_app. destruct (A (S d) false) as [q ->]. cbn [go tk fst snd]. apply B. Qed.
Lemma bal_nil : bal [].
Proof. intros d p. exists p. reflexivity. Qed.
Definition flat (t : token) : bool := match t with TLP | TRP | TColon => false | _ => true end.
Lemma bal_cons t b : flat t = true -> bal b -> bal (t :: b).
Proof. intros F B d p. destruct t; try discriminate F; cbn [go tk fst]; apply B. Qed.
Lemma bal_constant n : bal (ConvertConstants n).
Proof. unfold ConvertConstants. destruct (constantConversions n); [|destruct (n <? 0)]; repeat (apply bal_cons; [reflexivity|]); apply bal_nil. Qed.
Lemma bal_cast c : bal (cast_tokens c).
Proof. destruct c as [t|]; [|apply bal_nil]. apply (bal_paren [TType (TNamed t)] []); [apply bal_cons; [reflexivity|]|]; apply bal_nil. Qed.
(** computes through the tokens, using the facts on sub-expressions *)
Ltac walk :=
  intros d p; repeat first
    [ progress (cbn [go tk fst snd app]) | rewrite <- app_assoc | rewrite go_app
    | match goal with H : bal ?x |- context [go (?d, ?p) ?x] => let q := fresh in destruct (H d p) as [q ->] end ];
  try (eexists; reflexivity).
Ltac both := repeat match goal with H : forall bare, bal (print bare ?e) |- _ => let A := fresh "A" in let B := fresh "B" in pose proof (H true) as A; pose proof (H false) as B; clear H end.
Lemma bal_all : (forall e bare, bal (print bare e)) /\ (forall a, bal (print_args a)).
Proof.
  apply expr_args_ind.
  all: try (intros; apply bal_constant).
  all: cbn [print print_args]; intros; both; try assumption.
  all: repeat match goal with |- context [cast_tokens ?c] => lazymatch goal with H : bal (cast_tokens c) |- _ => fail | _ => pose proof (bal_cast c) end end.
  all: repeat match goal with
    | |- context [match ?o with Add => _ | _ => _ end] => destruct o
    | |- context [if ?b then _ else _] => destruct b
    | |- context [match ?o with Some _ => _ | None => _ end] => destruct o
    | |- context [match ?a with ANil => _ | _ => _ end] => destruct a
    end.
  all: try (solve [walk]).
Qed.
Section Lex.
Variable local_text member_text type_text wrap_text : Z -> list Z.
Variable extra : Z -> nat.
Variable contents : Z -> list Z.
Notation tok := (of_token local_text member_text type_text wrap_text extra contents).
Notation toks := (flat_map tok).
Definition quiet (x : lexeme) : Prop := brace x = false /\ is_punct x ";" = false /\ is_punct x "(" = false /\ is_punct x ")" = false.
Lemma quiet_word w : quiet (Word w).
Proof. repeat split. Qed.
Lemma quiet_tok t : flat t = true \/ t = TColon -> Forall quiet (tok t).
Proof.
  intros F. destruct t as [n|s| |i|t| | | | | | | | | |o|o|up]; try (destruct F as [F|F]; discriminate F); cbn [of_token].
  all: try (repeat constructor; fail).
  - destruct i; cbn [of_ident qualified]; repeat constructor.
  - destruct t; cbn [of_type]; try (repeat constructor; fail). constructor; [apply quiet_word|]. apply Forall_forall. intros x H. apply repeat_spec in H. subst x. repeat split.
  - destruct o; repeat constructor.
  - destruct o as [o|]; [destruct o; repeat constructor|repeat constructor].
  - destruct up; repeat constructor.
Qed.
Lemma no_end_tok t : Forall (fun x => brace x = false /\ is_punct x ";" = false) (tok t).
Proof.
  assert (Q : flat t = true \/ t = TColon -> Forall (fun x => brace x = false /\ is_punct x ";" = false) (tok t)) by (intros F; generalize (quiet_tok t F); apply Forall_impl; intros x (A & B & _); auto).
  destruct t; try (apply Q; left; reflexivity); try (apply Q; right; reflexivity); repeat constructor.
Qed.
Lemma no_end ts : Forall (fun x => brace x = false /\ is_punct x ";" = false) (toks ts).
Proof. induction ts as [|t ts IH]; [constructor|]. cbn [flat_map]. apply Forall_app. split; [apply no_end_tok|exact IH]. Qed.
Definition after (ls : list lexeme) (x : option (list lexeme * list lexeme)) : option (list lexeme * list lexeme) := match x with Some (a, b) => Some (ls ++ a, b) | None => None end.
Lemma after_app a b x : after (a ++ b) x = after a (after b x).
Proof. destruct x as [[u w]|]; [|reflexivity]. cbn. rewrite app_assoc. reflexivity. Qed.
Lemma parens_quiet ls d rest : Forall quiet ls -> parens d (ls ++ rest) = after ls (parens d rest).
Proof.
  intros F. revert rest. induction F as [|x ls (A & B & C & D) _ IH]; intros rest; [cbn [app]; destruct (parens d rest) as [[u w]|]; reflexivity|]. cbn [app parens]. rewrite A, C, D, IH. destruct (parens d rest) as [[u w]|]; reflexivity.
Qed.
Lemma parens_go ts : forall d p d' p' rest, go (d, p) ts = Some (d', p') -> parens d (toks ts ++ rest) = after (toks ts) (parens d' rest).
Proof.
  induction ts as [|t ts IH]; intros d p d' p' rest H; cbn [go] in H.
  - injection H as -> ->. cbn [flat_map app]. destruct (parens d' rest) as [[u w]|]; reflexivity.
  - cbn [flat_map]. destruct (tk (d, p) t) as [[d1 p1]|] eqn:E; [|discriminate]. specialize (IH d1 p1 d' p' rest H). rewrite <- app_assoc, after_app.
    assert (Q : flat t = true \/ t = TColon -> parens d (tok t ++ toks ts ++ rest) = after (tok t) (after (toks ts) (parens d' rest))).
    { intros F. rewrite parens_quiet by (apply quiet_tok, F). f_equal. assert (d1 = d) as <- by (destruct t; try (destruct F as [F|F]; discriminate F); cbn in E; try (destruct p; [|discriminate]); injection E as <- _; reflexivity). exact IH. }
    destruct t; try (apply Q; left; reflexivity); try (apply Q; right; reflexivity).
    + cbn in E. injection E as <- _. cbn [of_token app]. change (parens d (Punct (T "(") :: toks ts ++ rest)) with (match parens (S d) (toks ts ++ rest) with Some (a, b) => Some (Punct (T "(") :: a, b) | None => None end). rewrite IH. destruct (after (toks ts) (parens d' rest)) as [[u w]|]; reflexivity.
    + cbn in E. destruct d as [|d]; [discriminate|]. injection E as <- _. cbn [of_token app]. change (parens (S d) (Punct (T ")") :: toks ts ++ rest)) with (match parens d (toks ts ++ rest) with Some (a, b) => Some (Punct (T ")") :: a, b) | None => None end). rewrite IH. destruct (after (toks ts) (parens d' rest)) as [[u w]|]; reflexivity.
Qed.
Lemma expr_in_parens bare e : in_parens (toks (print bare e)).
Proof. intros r. destruct (proj1 bal_all e bare 0%nat false) as [p E]. rewrite (parens_go _ _ _ _ _ _ E). cbn. rewrite app_nil_r. reflexivity. Qed.
(** the first token *)
Definition first_ok (t : token) : bool := match t with TId (TypeTag _ | GetAs _ | Member _ | get_Length | Address) => false | _ => true end.
Definition starts (ts : list token) : Prop := match ts with t :: _ => first_ok t = true | [] => False end.
Lemma starts_app a b : starts a -> starts (a ++ b).
Proof. destruct a; [intros []|auto]. Qed.
Lemma print_starts e : forall bare, starts (print bare e).
Proof.
  assert (CC : forall n, starts (ConvertConstants n)).
  { intros n. unfold ConvertConstants. destruct (constantConversions n) eqn:E; [|destruct (n <? 0); reflexivity]. destruct (limit_ok n _ E) as [t [-> | ->]]; reflexivity. }
  revert e. fix IH 1. intros e bare. destruct e; cbn [print]; try reflexivity; try apply CC; try (apply starts_app, IH); try apply IH.
  - destruct op; try reflexivity; destruct (is_floating s); try reflexivity. destruct (is_integral s); reflexivity.
  - destruct bare; [apply starts_app, IH|reflexivity].
  - destruct wrap; [reflexivity|apply starts_app, IH].
  - destruct is_class; reflexivity.
  - destruct is_class; reflexivity.
  - destruct box; [reflexivity|apply starts_app, IH].
Qed.
Hypothesis NK : no_statement_words local_text type_text wrap_text.
Definition not_word (x : lexeme) : Prop := Forall (fun s => is_word x s = false) statement_words.
Lemma not_word_punct p : not_word (Punct p).
Proof. repeat constructor. Qed.
Lemma nk v : not_word (Word (local_text v)) /\ not_word (Word (type_text v)) /\ not_word (Word (wrap_text v)).
Proof. unfold not_word. repeat split; generalize (NK v); apply Forall_impl; intros s (A & B & C); assumption. Qed.
Lemma first_lexeme t : first_ok t = true -> match tok t with x :: _ => not_word x | [] => False end.
Proof.
  intros F. destruct t as [n|s| |i|t| | | | | | | | | |o|o|up]; cbn [of_token].
  4: destruct i; try discriminate F; cbn [of_ident qualified]; try apply nk; try (repeat constructor; fail); match goal with t : num_type |- _ => destruct t end; repeat constructor.
  4: destruct t as [t|t|t|t| | | |]; cbn [of_type]; try apply nk; try (repeat constructor; fail); destruct t; repeat constructor.
  all: try (destruct o as [o|]); try apply not_word_punct; repeat constructor.
Qed.
Lemma tok_nonempty t : tok t <> [].
Proof. destruct t as [n|s| |i|t| | | | | | | | | |o|o|up]; try discriminate; cbn [of_token]; [destruct i|destruct t|destruct o]; discriminate. Qed.
Lemma tok_colon t : match tok t with y :: _ => is_punct y ":" = true | [] => False end -> t = TColon.
Proof. destruct t as [n|s| |i|t| | | | | | | | | |o|o|up]; cbn [of_token]; try discriminate; try reflexivity; [destruct i|destruct t|destruct o|destruct o as [[]|]|destruct up]; discriminate. Qed.
Lemma plain_go ts p : starts ts -> (exists s, go (0%nat, p) ts = Some s) -> plain_statement (toks ts).
Proof.
  intros St [s H]. split; [|apply no_end]. destruct ts as [|t ts]; [contradiction|]. cbn [flat_map]. pose proof (first_lexeme t St) as FL. destruct (tok t) as [|x l] eqn:E; [contradiction|]. cbn [app]. split; [exact FL|].
  destruct x as [w|w|w|w]; try exact I. destruct l as [|y l]; cbn [app].
  - destruct ts as [|u ts]; [exact I|]. cbn [flat_map]. destruct (tok u) as [|y m] eqn:U; [destruct (tok_nonempty u U)|]. cbn [app]. destruct (is_punct y ":") eqn:Y; [|reflexivity]. assert (u = TColon) as -> by (apply tok_colon; rewrite U; exact Y).
    cbn [go] in H. exfalso. destruct t; try discriminate E; discriminate H.
  - destruct t as [n|k| |i|t| | | | | | | | | |o|o|up]; try discriminate E; cbn [of_token] in E; [destruct i; try discriminate E|destruct t; try discriminate E|destruct o; discriminate E]; cbn [of_ident of_type qualified repeat] in E; injection E; intros; subst; reflexivity.
Qed.
Lemma expr_plain bare e : plain_statement (toks (print bare e)).
Proof. apply (plain_go _ false); [apply print_starts|]. destruct (proj1 bal_all e bare 0%nat false) as [p E]. eauto. Qed.
End Lex.

(** ** Labels *)
Section Labels.
Variable statement_lex condition_lex value_lex : Z -> list lexeme.
Variable il_text leave : Z -> list Z.
Variable case_of : Z -> nat -> option Z.
Notation mt := (meant statement_lex condition_lex value_lex il_text leave case_of).
Notation lw := (label_word il_text leave).
Lemma combine_snd (ks : list (list lexeme)) : forall (ss : list (list stmt)) (f : stmt -> list (list Z)), length ks = length ss -> flat_map (fun p => flat_map f (snd p)) (combine ks ss) = flat_map (flat_map f) ss.
Proof. induction ks as [|k ks IH]; intros [|s ss] f E; try discriminate E; [reflexivity|]. cbn [combine flat_map snd]. rewrite IH by (injection E; auto). reflexivity. Qed.
Lemma names_list (f : stmt -> list (list Z)) (o : cstmt -> list label) ss : Every (fun s => flat_map f (mt s) = map lw (o s)) ss -> flat_map f (flat_map mt ss) = map lw (all_of o ss).
Proof. unfold all_of. induction ss as [|s ss IH]; intros H; [reflexivity|]. destruct H as [H1 H2]. cbn [flat_map map concat]. rewrite flat_map_app, map_app, H1, IH by exact H2. reflexivity. Qed.
Lemma names_sections (f : stmt -> list (list Z)) (o : cstmt -> list label) cs : Every (Every (fun s => flat_map f (mt s) = map lw (o s))) cs -> flat_map (flat_map f) (map (flat_map mt) cs) = map lw (concat (map (all_of o) cs)).
Proof. induction cs as [|c cs IH]; intros H; [reflexivity|]. destruct H as [H1 H2]. cbn [flat_map map concat]. rewrite map_app, IH by exact H2. f_equal. apply names_list, H1. Qed.
Lemma labels_meant s : flat_map label_names (mt s) = map lw (labels_of s).
Proof.
  induction s as [n|m|v|m|b Hb|n t f Ht Hf|n cs Hcs] using cstmt_ind'; cbn [meant labels_of flat_map label_names map]; try reflexivity.
  - destruct (statement_lex n); reflexivity.
  - rewrite app_nil_r. apply names_list, Hb.
  - rewrite app_nil_r, map_app. f_equal; apply names_list; assumption.
  - rewrite app_nil_r, combine_snd by (rewrite !map_length, seq_length; reflexivity). apply names_sections, Hcs.
Qed.
Lemma gotos_meant s : flat_map goto_names (mt s) = map lw (gotos_of s).
Proof.
  induction s as [n|m|v|m|b Hb|n t f Ht Hf|n cs Hcs] using cstmt_ind'; cbn [meant gotos_of flat_map goto_names map]; try reflexivity.
  - destruct (statement_lex n); reflexivity.
  - rewrite app_nil_r. apply names_list, Hb.
  - rewrite app_nil_r, map_app. f_equal; apply names_list; assumption.
  - rewrite app_nil_r, combine_snd by (rewrite !map_length, seq_length; reflexivity). apply names_sections, Hcs.
Qed.
Lemma labels_all ss : flat_map label_names (flat_map mt ss) = map lw (labels ss).
Proof. apply names_list, Every_in. intros s _. apply labels_meant. Qed.
Lemma gotos_all ss : flat_map goto_names (flat_map mt ss) = map lw (gotos ss).
Proof. apply names_list, Every_in. intros s _. apply gotos_meant. Qed.
End Labels.
Lemma leave_injective a b : 0 <= a < two64 -> 0 <= b < two64 -> leave_text a = leave_text b -> a = b.
Proof.
  unfold leave_text, print_d. intros A B E. apply app_inv_head in E. destruct (a <? 0) eqn:X; [lia|]. destruct (b <? 0) eqn:Y; [lia|].
  rewrite <- (proj1 (print_u_spec a A)), <- (proj1 (print_u_spec b B)), E. reflexivity.
Qed.
Lemma NoDup_map_on {A B} (f : A -> B) l : (forall x y, In x l -> In y l -> f x = f y -> x = y) -> NoDup l -> NoDup (map f l).
Proof.
  intros Inj H. induction H as [|x l N H IH]; [constructor|]. cbn. constructor.
  - intros K. apply in_map_iff in K. destruct K as (y & E & Iy). apply N. rewrite <- (Inj y x); [exact Iy|right; exact Iy|left; reflexivity|exact E].
  - apply IH. intros a b Ia Ib. apply Inj; right; assumption.
Qed.
