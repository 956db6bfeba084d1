(** * Lemmas for C112 *)
From Coq Require Import String.
From Verif Require Import Tac Base IntModel IntProofs FormatterModel FormatterSpec FormatterProofs ControlModel ControlSpec ControlProofs LexSpec LexProofs BodyTextModel BodyTextSpec.
Import ListNotations.

(** ** The reader *)
Definition pmore (n : nat) (s : stmt) (r : list lexeme) := match statements n r with Some (ss, r) => Some (s :: ss, r) | None => None end.
Definition pblock (n : nat) (r : list lexeme) := match statements n r with Some (b, r) => match expect "}" r with Some r => Some (b, r) | None => None end | None => None end.
Definition pif (n : nat) (c : list lexeme) (t : list stmt) (r : list lexeme) :=
  match r with
  | y :: r' => if is_word y "else" then match expect "{" r' with Some r' => match pblock n r' with Some (f, r') => pmore n (SIf c t f) r' | None => None end | None => None end else pmore n (SIf c t []) r
  | [] => pmore n (SIf c t []) r
  end.
Definition pstep (n : nat) (x : lexeme) (r : list lexeme) : option (list stmt * list lexeme) :=
  let simple := match until ";" (x :: r) with Some (a, r) => pmore n (SSimple a) r | None => None end in
  if is_punct x "}" || starts_case x then Some ([], x :: r)
  else if is_punct x ";" then statements n r
  else if is_punct x "{" then match pblock n r with Some (b, r) => pmore n (SBlock b) r | None => None end
  else if is_word x "if" then match header r with Some (c, r) => match pblock n r with Some (t, r) => pif n c t r | None => None end | None => None end
  else if is_word x "else" then None
  else if is_word x "switch" then
    match header r with
    | Some (v, r) => match cases n r with Some (cs, r) => match expect "}" r with Some r => pmore n (SSwitch v cs) r | None => None end | None => None end
    | None => None
    end
  else if is_word x "goto" then match r with Word l :: y :: r => if is_punct y ";" then pmore n (SGoto l) r else None | _ => None end
  else if is_word x "return" then match until ";" r with Some (a, r) => pmore n (SReturn a) r | None => None end
  else match x, r with
       | Word l, y :: r => if is_punct y ":" then if closes r then None else pmore n (SLabel l) r else simple
       | _, _ => simple
       end.
Lemma statements_step n x r : statements (S n) (x :: r) = pstep n x r.
Proof. reflexivity. Qed.
Definition grows {A B} (f g : A -> option B) : Prop := forall r y, f r = Some y -> g r = Some y.
Lemma pmore_mono n m : grows (statements n) (statements m) -> forall s, grows (pmore n s) (pmore m s).
Proof. intros M s r y H. unfold pmore in *. destruct (statements n r) as [[a b]|] eqn:E; [|discriminate]. rewrite (M _ _ E). exact H. Qed.
Lemma pblock_mono n m : grows (statements n) (statements m) -> grows (pblock n) (pblock m).
Proof. intros M r y H. unfold pblock in *. destruct (statements n r) as [[a b]|] eqn:E; [|discriminate]. rewrite (M _ _ E). exact H. Qed.
Lemma pif_mono n m : grows (statements n) (statements m) -> forall c t, grows (pif n c t) (pif m c t).
Proof.
  intros M c t r y H. unfold pif in *. destruct r as [|z r]; [apply (pmore_mono n m M); exact H|]. destruct (is_word z "else"); [|apply (pmore_mono n m M); exact H].
  destruct (expect "{" r) as [r'|]; [|discriminate]. destruct (pblock n r') as [[f r'']|] eqn:E; [|discriminate]. rewrite (pblock_mono n m M _ _ E). apply (pmore_mono n m M). exact H.
Qed.
Lemma pstep_mono n m : grows (statements n) (statements m) -> grows (cases n) (cases m) -> forall x, grows (pstep n x) (pstep m x).
Proof.
  intros M C x r y. pose proof (pmore_mono n m M) as PM. unfold pstep.
  assert (S : match until ";" (x :: r) with Some (a, r) => pmore n (SSimple a) r | None => None end = Some y -> match until ";" (x :: r) with Some (a, r) => pmore m (SSimple a) r | None => None end = Some y).
  { destruct (until ";" (x :: r)) as [[a b]|]; [apply PM|discriminate]. }
  destruct (is_punct x "}" || starts_case x); [auto|]. destruct (is_punct x ";"); [apply M|].
  destruct (is_punct x "{").
  { destruct (pblock n r) as [[b q]|] eqn:E; [|discriminate]. rewrite (pblock_mono n m M _ _ E). apply PM. }
  destruct (is_word x "if").
  { destruct (header r) as [[c q]|]; [|discriminate]. destruct (pblock n q) as [[t q']|] eqn:E; [|discriminate]. rewrite (pblock_mono n m M _ _ E). apply pif_mono, M. }
  destruct (is_word x "else"); [auto|].
  destruct (is_word x "switch").
  { destruct (header r) as [[c q]|]; [|discriminate]. destruct (cases n q) as [[cs q']|] eqn:E; [|discriminate]. rewrite (C _ _ E). destruct (expect "}" q') as [q''|]; [apply PM|discriminate]. }
  destruct (is_word x "goto").
  { destruct r as [|[l|l|l|l] [|z r]]; try discriminate. destruct (is_punct z ";"); [apply PM|discriminate]. }
  destruct (is_word x "return"). { destruct (until ";" r) as [[a b]|]; [apply PM|discriminate]. }
  destruct x as [l|l|l|l]; try exact S. destruct r as [|z r]; [exact S|]. destruct (is_punct z ":"); [|exact S]. destruct (closes r); [discriminate|apply PM].
Qed.
Lemma fuel_mono n : forall m, (n <= m)%nat -> grows (statements n) (statements m) /\ grows (cases n) (cases m).
Proof.
  induction n as [|n IH]; intros m L; [split; intros r y H; discriminate|]. destruct m as [|m]; [lia|]. destruct (IH m ltac:(lia)) as [M C]. split; intros r y H.
  - destruct r as [|x r]; [exact H|]. rewrite statements_step in *. apply (pstep_mono n m M C), H.
  - cbn [cases] in *. destruct r as [|a r]; [exact H|].
    destruct (starts_case a); [|exact H]. destruct (until ":" (a :: r)) as [[l q]|]; [|exact H]. destruct (closes q); [exact H|].
    destruct (statements n q) as [[ss q']|] eqn:E; [|discriminate]. rewrite (M _ _ E). destruct (cases n q') as [[cs q'']|] eqn:E2; [|discriminate]. rewrite (C _ _ E2). exact H.
Qed.
(** reading with enough fuel *)
Definition reads (ls : list lexeme) (x : list stmt * list lexeme) : Prop := exists n, statements n ls = Some x.
Definition reads_cases (ls : list lexeme) (x : list (list lexeme * list stmt) * list lexeme) : Prop := exists n, cases n ls = Some x.
Lemma reads_unique ls x y : reads ls x -> reads ls y -> x = y.
Proof.
  intros [n H] [m K]. destruct (fuel_mono n (Nat.max n m) (Nat.le_max_l _ _)) as [A _]. destruct (fuel_mono m (Nat.max n m) (Nat.le_max_r _ _)) as [B _].
  apply A in H. apply B in K. rewrite H in K. injection K as E. exact E.
Qed.
(** [ls] is read as [ss], and what follows as if it stood alone; [op]: [ls] ends in a label, so a statement has to follow *)
Definition R (ls : list lexeme) (ss : list stmt) (op : bool) : Prop :=
  (ls <> [] -> closes ls = false) /\ forall r ss' r', reads r (ss', r') -> (op = true -> closes r = false) -> reads (ls ++ r) (ss ++ ss', r').
Lemma R_nil : R [] [] false.
Proof. split; [intros H; contradiction H; reflexivity|]. intros r ss' r' H _. exact H. Qed.
Lemma closes_app ls r : ls <> [] -> closes (ls ++ r) = closes ls.
Proof. destruct ls; [contradiction|reflexivity]. Qed.
Lemma R_app a sa oa b sb ob : R a sa oa -> R b sb ob -> (b = [] -> ob = oa) -> R (a ++ b) (sa ++ sb) ob.
Proof.
  intros [A1 A2] [B1 B2] N. split.
  - intros H. destruct a as [|x a]; [apply B1, H|]. rewrite closes_app by discriminate. apply A1. discriminate.
  - intros r ss' r' H O. rewrite <- !app_assoc. apply A2; [apply B2; assumption|]. intros X. destruct b as [|y b]; [apply O; rewrite (N eq_refl); exact X|].
    rewrite closes_app by discriminate. apply B1. discriminate.
Qed.
Lemma more_reads n s r ss r' : statements n r = Some (ss, r') -> pmore n s r = Some (s :: ss, r').
Proof. unfold pmore. intros ->. reflexivity. Qed.
Lemma R_semi : R [Punct (T ";")] [] false.
Proof. split; [reflexivity|]. intros r ss' r' [n H] _. exists (S n). exact H. Qed.
Lemma until_plain (stop : string) ls : forall r, Forall (fun x => brace x = false /\ is_punct x stop = false) ls -> until stop (ls ++ Punct (T stop) :: r) = Some (ls, r).
Proof.
  assert (Same : forall w, same w w = true) by (induction w as [|c w IH]; [reflexivity|]; cbn; rewrite Z.eqb_refl; exact IH).
  induction ls as [|x ls IH]; intros r F; cbn [app until].
  - cbn [is_punct]. rewrite Same. reflexivity.
  - inversion F as [|? ? [A B] F']; subst. rewrite B, A, (IH r F'). reflexivity.
Qed.
Lemma R_simple ls : plain_statement ls -> R (ls ++ [Punct (T ";")]) [SSimple ls] false.
Proof.
  intros [H F]. destruct ls as [|x ls]; [contradiction|]. destruct H as [W C]. pose proof F as F0. inversion F as [|? ? [X1 X2] F']; subst.
  assert (P1 : is_punct x "}" = false /\ is_punct x "{" = false) by (unfold brace in X1; destruct (is_punct x "{"), (is_punct x "}"); auto). destruct P1 as [P1 P2].
  split; [intros _; exact P1|]. intros r ss' r' [n H] _. exists (S n). rewrite <- app_assoc. cbn [app]. rewrite statements_step.
  assert (U : until ";" ((x :: ls) ++ Punct (T ";") :: r) = Some (x :: ls, r)) by (apply until_plain, F0). cbn [app] in U. clear F F' F0.
  unfold statement_words in W. repeat match goal with H : Forall _ (_ :: _) |- _ => inversion H; clear H; subst | H : Forall _ [] |- _ => clear H end.
  unfold pstep. unfold starts_case. rewrite P1, P2, X2.
  repeat match goal with H : is_word x _ = false |- _ => rewrite H; clear H end. cbn [orb].
  destruct x as [l|l|l|l]; try (rewrite U; apply more_reads, H).
  destruct ls as [|y ls]; cbn [app] in *.
  - cbn [is_punct same]. rewrite U. apply more_reads, H.
  - rewrite C. rewrite U. apply more_reads, H.
Qed.
Lemma R_goto l : R [Word (T "goto"); Word l; Punct (T ";")] [SGoto l] false.
Proof. split; [reflexivity|]. intros r ss' r' [n H] _. exists (S n). change (pmore n (SGoto l) r = Some (SGoto l :: ss', r')). apply more_reads, H. Qed.
Lemma R_return ls : Forall (fun x => brace x = false /\ is_punct x ";" = false) ls -> R (Word (T "return") :: ls ++ [Punct (T ";")]) [SReturn ls] false.
Proof.
  intros F. split; [reflexivity|]. intros r ss' r' [n H] _. exists (S n). cbn [app]. rewrite statements_step. rewrite <- app_assoc. cbn [app].
  change (match until ";" (ls ++ Punct (T ";") :: r) with Some (a, r) => pmore n (SReturn a) r | None => None end = Some (SReturn ls :: ss', r')). rewrite until_plain by exact F. apply more_reads, H.
Qed.
Lemma R_label l : Forall (fun s => is_word (Word l) s = false) statement_words -> R [Word l; Punct (T ":")] [SLabel l] true.
Proof.
  intros W. split; [reflexivity|]. intros r ss' r' [n H] C. exists (S n). cbn [app]. rewrite statements_step.
  unfold statement_words in W. repeat match goal with H : Forall _ (_ :: _) |- _ => inversion H; clear H; subst | H : Forall _ [] |- _ => clear H end.
  unfold pstep. unfold starts_case. repeat match goal with H : is_word (Word l) _ = false |- _ => rewrite H; clear H end.
  change (is_punct (Word l) "}") with false. change (is_punct (Word l) ";") with false. change (is_punct (Word l) "{") with false. cbn [orb]. change (is_punct (Punct (T ":")) ":") with true. cbv iota. rewrite (C eq_refl). apply more_reads, H.
Qed.
(** a sequence of statements in braces *)
Lemma block_reads b ss r : R b ss false -> exists n, pblock n (b ++ Punct (T "}") :: r) = Some (ss, r).
Proof.
  intros [_ H]. destruct (H (Punct (T "}") :: r) [] (Punct (T "}") :: r)) as [n E]; [exists 1%nat; reflexivity|discriminate|]. exists n. unfold pblock. rewrite E, app_nil_r. reflexivity.
Qed.
Lemma up_s n m ls x : (n <= m)%nat -> statements n ls = Some x -> statements m ls = Some x.
Proof. intros L. apply (proj1 (fuel_mono n m L)). Qed.
Lemma up_b n m ls x : (n <= m)%nat -> pblock n ls = Some x -> pblock m ls = Some x.
Proof. intros L. apply pblock_mono. apply (proj1 (fuel_mono n m L)). Qed.
Lemma up_c n m ls x : (n <= m)%nat -> cases n ls = Some x -> cases m ls = Some x.
Proof. intros L. apply (proj2 (fuel_mono n m L)). Qed.
Lemma R_block b ss : R b ss false -> R (Punct (T "{") :: b ++ [Punct (T "}")]) [SBlock ss] false.
Proof.
  intros B. split; [reflexivity|]. intros r ss' r' [n H] _. destruct (block_reads b ss r B) as [m E]. exists (S (Nat.max n m)). cbn [app]. rewrite statements_step, <- app_assoc. cbn [app].
  change (match pblock (Nat.max n m) (b ++ Punct (T "}") :: r) with Some (b, r) => pmore (Nat.max n m) (SBlock b) r | None => None end = Some (SBlock ss :: ss', r')).
  rewrite (up_b m _ _ _ (Nat.le_max_r _ _) E). apply more_reads. apply (up_s n); [apply Nat.le_max_l|exact H].
Qed.
Lemma header_reads c r : in_parens c -> header (Punct (T "(") :: c ++ Punct (T ")") :: Punct (T "{") :: r) = Some (c, r).
Proof. intros P. unfold header. change (expect "(" (Punct (T "(") :: c ++ Punct (T ")") :: Punct (T "{") :: r)) with (Some (c ++ Punct (T ")") :: Punct (T "{") :: r)). cbv iota. rewrite P. reflexivity. Qed.
Lemma not_else r x : reads r x -> match r with y :: _ => is_word y "else" = false | [] => True end.
Proof.
  intros [[|n] H]; [discriminate|]. destruct r as [|y r]; [exact I|]. rewrite statements_step in H. destruct (is_word y "else") eqn:E; [|reflexivity].
  destruct y as [l|l|l|l]; try discriminate E. cbn [is_word] in E. assert (L : l = T "else").
  { clear H. revert E. generalize (T "else"). induction l as [|a l IH]; intros [|b t] E; try discriminate E; [reflexivity|]. cbn in E. apply andb_true_iff in E. destruct E as [E1 E2]. apply Z.eqb_eq in E1. f_equal; auto. }
  subst l. discriminate H.
Qed.
Lemma R_if c t st : in_parens c -> R t st false -> R (Word (T "if") :: Punct (T "(") :: c ++ Punct (T ")") :: Punct (T "{") :: t ++ [Punct (T "}")]) [SIf c st []] false.
Proof.
  intros P B. split; [reflexivity|]. intros r ss' r' H _. pose proof (not_else r _ H) as NE. destruct H as [n H]. destruct (block_reads t st r B) as [m E]. exists (S (Nat.max n m)).
  cbn [app]. rewrite statements_step. rewrite <- app_assoc. cbn [app]. rewrite <- app_assoc. cbn [app].
  change (match header (Punct (T "(") :: c ++ Punct (T ")") :: Punct (T "{") :: t ++ Punct (T "}") :: r) with Some (c, r) => match pblock (Nat.max n m) r with Some (t, r) => pif (Nat.max n m) c t r | None => None end | None => None end = Some (SIf c st [] :: ss', r')).
  rewrite header_reads by exact P. rewrite (up_b m _ _ _ (Nat.le_max_r _ _) E). apply (up_s n (Nat.max n m)) in H; [|apply Nat.le_max_l]. unfold pif. destruct r as [|y r]; [apply more_reads, H|]. rewrite NE. apply more_reads, H.
Qed.
Lemma R_if_else c t st f sf : in_parens c -> R t st false -> R f sf false -> R (Word (T "if") :: Punct (T "(") :: c ++ Punct (T ")") :: Punct (T "{") :: t ++ Punct (T "}") :: Word (T "else") :: Punct (T "{") :: f ++ [Punct (T "}")]) [SIf c st sf] false.
Proof.
  intros P B F. split; [reflexivity|]. intros r ss' r' [n H] _. destruct (block_reads f sf r F) as [k K]. destruct (block_reads t st (Word (T "else") :: Punct (T "{") :: f ++ Punct (T "}") :: r) B) as [m E]. set (q := Nat.max n (Nat.max m k)). exists (S q).
  cbn [app]. rewrite statements_step. repeat (rewrite <- app_assoc; cbn [app]).
  change (match header (Punct (T "(") :: c ++ Punct (T ")") :: Punct (T "{") :: t ++ Punct (T "}") :: Word (T "else") :: Punct (T "{") :: f ++ Punct (T "}") :: r) with Some (c, r) => match pblock q r with Some (t, r) => pif q c t r | None => None end | None => None end = Some (SIf c st sf :: ss', r')).
  rewrite header_reads by exact P. rewrite (up_b m q _ _ ltac:(unfold q; lia) E).
  change (match pblock q (f ++ Punct (T "}") :: r) with Some (f, r') => pmore q (SIf c st f) r' | None => None end = Some (SIf c st sf :: ss', r')). rewrite (up_b k q _ _ ltac:(unfold q; lia) K). apply more_reads. apply (up_s n); [unfold q; lia|exact H].
Qed.
(** sections *)
Definition stops (r : list lexeme) : Prop := match r with x :: _ => is_punct x "}" || starts_case x = true | [] => True end.
Lemma stops_reads r : stops r -> reads r ([], r).
Proof. intros H. exists 1%nat. destruct r as [|x r]; [reflexivity|]. rewrite statements_step. unfold pstep. cbn in H. rewrite H. reflexivity. Qed.
Definition RC (ls : list lexeme) (cs : list (list lexeme * list stmt)) : Prop := forall r, reads_cases (ls ++ Punct (T "}") :: r) (cs, Punct (T "}") :: r) /\ stops (ls ++ Punct (T "}") :: r).
Lemma RC_nil : RC [] [].
Proof. intros r. split; [exists 1%nat; reflexivity|reflexivity]. Qed.
Lemma RC_cons x l b sb ls cs : starts_case x = true -> Forall (fun x => brace x = false /\ is_punct x ":" = false) (x :: l) -> R b sb false -> b <> [] -> RC ls cs -> RC (x :: l ++ Punct (T ":") :: b ++ ls) ((x :: l, sb) :: cs).
Proof.
  intros X F B N C r. destruct (C r) as [[n H] St]. split; [|cbn; rewrite X; apply orb_true_r].
  destruct B as [B1 B2]. destruct (B2 (ls ++ Punct (T "}") :: r) [] (ls ++ Punct (T "}") :: r) (stops_reads _ St) ltac:(discriminate)) as [m E]. rewrite app_nil_r in E.
  exists (S (Nat.max n m)). cbn [app]. cbn [cases]. rewrite X.
  assert (U : until ":" ((x :: l) ++ Punct (T ":") :: b ++ ls ++ Punct (T "}") :: r) = Some (x :: l, b ++ ls ++ Punct (T "}") :: r)) by (apply until_plain, F). cbn [app] in U.
  replace ((l ++ Punct (T ":") :: b ++ ls) ++ Punct (T "}") :: r) with (l ++ Punct (T ":") :: b ++ ls ++ Punct (T "}") :: r) by (repeat (rewrite <- app_assoc; cbn [app]); reflexivity).
  rewrite U. rewrite closes_app by exact N. rewrite B1 by exact N. rewrite (up_s m _ _ _ (Nat.le_max_r _ _) E). rewrite (up_c n _ _ _ (Nat.le_max_l _ _) H). reflexivity.
Qed.
Lemma R_switch v ls cs : in_parens v -> RC ls cs -> R (Word (T "switch") :: Punct (T "(") :: v ++ Punct (T ")") :: Punct (T "{") :: ls ++ [Punct (T "}")]) [SSwitch v cs] false.
Proof.
  intros P C. split; [reflexivity|]. intros r ss' r' [n H] _. destruct (C r) as [[m E] _]. exists (S (Nat.max n m)). cbn [app]. rewrite statements_step. repeat (rewrite <- app_assoc; cbn [app]).
  change (match header (Punct (T "(") :: v ++ Punct (T ")") :: Punct (T "{") :: ls ++ Punct (T "}") :: r) with
    | Some (v, r) => match cases (Nat.max n m) r with Some (cs, r) => match expect "}" r with Some r => pmore (Nat.max n m) (SSwitch v cs) r | None => None end | None => None end
    | None => None
    end = Some (SSwitch v cs :: ss', r')).
  rewrite header_reads by exact P. rewrite (up_c m _ _ _ (Nat.le_max_r _ _) E). apply more_reads. apply (up_s n); [apply Nat.le_max_l|exact H].
Qed.
(** ** What is read begins with what was written *)
Lemma block_inv r x : reads (Punct (T "{") :: r) x -> exists b q q' y, reads r (b, q) /\ expect "}" q = Some q' /\ reads q' y.
Proof.
  intros [[|n] H]; [discriminate|]. rewrite statements_step in H. change (match pblock n r with Some (b, r) => pmore n (SBlock b) r | None => None end = Some x) in H. unfold pblock in H.
  destruct (statements n r) as [[b q]|] eqn:E; [|discriminate]. destruct (expect "}" q) as [q'|] eqn:E2; [|discriminate]. unfold pmore in H. destruct (statements n q') as [[ss q'']|] eqn:E3; [|discriminate].
  exists b, q, q', (ss, q''). repeat split; [exists n; exact E|exact E2|exists n; exact E3].
Qed.
Lemma if_inv r x : reads (Word (T "if") :: r) x -> exists c r' b q, header r = Some (c, r') /\ reads r' (b, q).
Proof.
  intros [[|n] H]; [discriminate|]. rewrite statements_step in H. change (match header r with Some (c, r) => match pblock n r with Some (t, r) => pif n c t r | None => None end | None => None end = Some x) in H.
  destruct (header r) as [[c r']|]; [|discriminate]. unfold pblock in H. destruct (statements n r') as [[b q]|] eqn:E; [|discriminate]. exists c, r', b, q. split; [reflexivity|exists n; exact E].
Qed.
Lemma label_inv l r x : Forall (fun s => is_word (Word l) s = false) statement_words -> reads (Word l :: Punct (T ":") :: r) x -> closes r = false /\ exists y, reads r y.
Proof.
  intros W [[|n] H]; [discriminate|]. rewrite statements_step in H.
  unfold statement_words in W. repeat match goal with H : Forall _ (_ :: _) |- _ => inversion H; clear H; subst | H : Forall _ [] |- _ => clear H end.
  unfold pstep, starts_case in H. repeat match goal with K : is_word (Word l) _ = false |- _ => rewrite K in H; clear K end.
  change (is_punct (Word l) "}") with false in H. change (is_punct (Word l) ";") with false in H. change (is_punct (Word l) "{") with false in H. cbn [orb] in H. change (is_punct (Punct (T ":")) ":") with true in H. cbv iota in H.
  destruct (closes r); [discriminate|]. split; [reflexivity|]. unfold pmore in H. destruct (statements n r) as [y|] eqn:E; [|discriminate]. exists y, n. exact E.
Qed.
