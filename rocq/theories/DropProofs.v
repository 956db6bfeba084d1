(** * Proofs for C108: a finite automaton that every text the grammar accepts passes *)
From Verif Require Import Base Tac StatementModel ExprModel ExprSpec ExprProofs DropModel DropSpec.
Import ListNotations.

Lemma splice_cons b c e r : exists c' e' r', splice b c e r = ACons c' e' r'.
Proof. destruct b; cbn; eauto. Qed.
Lemma print_splice b c e r : print_args (splice b c e r) = args_before b c ++ print false e ++ args_after c r.
Proof.
  induction b as [ | c' e' b IH]; cbn [splice args_before].
  - unfold args_after; destruct c, r; cbn; rewrite <- ?app_assoc, ?app_nil_r; reflexivity.
  - destruct (splice_cons b c e r) as (c2 & e2 & r2 & E). rewrite E in *.
    transitivity ((match c' with Some _ => cast_tokens c' ++ TLP :: print false e' ++ [TRP] | None => print false e' end) ++ TComma :: print_args (ACons c2 e2 r2)); [reflexivity | ].
    rewrite IH. destruct c'; cbn; rewrite <- ?app_assoc; cbn; rewrite <- ?app_assoc; reflexivity.
Qed.
Lemma print_plug b k e : print b (plug k e) = before b k ++ print (match k with FIfC _ _ => true | _ => false end) e ++ after b k.
Proof.
  destruct k; cbn [plug before after print];
    repeat match goal with
      | |- context [is_floating ?s] => destruct (is_floating s)
      | |- context [is_integral ?s] => destruct (is_integral s)
      | |- context [match ?x with Add => _ | Sub => _ | Mul => _ | Div => _ | Rem => _ | BitAnd => _ | BitOr => _ | BitXor => _ | Shl => _ | Shr => _ end] => destruct x
      | |- context [if ?x then _ else _] => is_var x; destruct x
      | |- context [match ?x with Some _ => _ | None => _ end] => is_var x; destruct x
      end;
    rewrite ?print_splice; repeat (cbn [app]; rewrite <- ?app_assoc, ?app_nil_r); try reflexivity.
Qed.
Lemma print_in_print ks : forall e, print_in ks (print (bare_at ks) e) = print false (plugs ks e).
Proof.
  induction ks as [ | k ks IH]; intros e; [reflexivity | ]. cbn [print_in plugs]. rewrite <- IH, print_plug. destruct k; reflexivity.
Qed.

(** ** The automaton *)
Inductive st : Type := SE (* an operand is expected *) | SP (* after an opening parenthesis *) | SA (* after the parenthesis of a call *)
  | SO (* after an operand *) | SM (* after an arrow *) | ST (* after a type *) | SN (* after new *) | SC (* after a parenthesis and a type *).
Definition start_step (t : token) : option st :=
  match t with
  | TNum _ | TStr _ | TNullptr | TId _ => Some SO
  | TTilde | TIncr _ | TOp OSub | TOp OMul => Some SE
  | TNew => Some SN | TLP => Some SP | TType _ => Some ST
  | _ => None
  end.
Definition step (q : st) (t : token) : option st :=
  match q with
  | SE => start_step t
  | SP => match t with TType _ => Some SC | _ => start_step t end
  | SA => match t with TRP => Some SO | _ => start_step t end
  | SO => match t with TArrow | TDot => Some SM | TLP => Some SA | TIncr _ | TRP => Some SO | TOp _ | TComma | TQ | TColon | TAssign _ => Some SE | _ => None end
  | SM => match t with TId _ => Some SO | _ => None end
  | ST => match t with TLP => Some SA | _ => None end
  | SN => match t with TType _ => Some ST | _ => None end
  | SC => match t with TRP => Some SE | TLP => Some SA | _ => None end
  end.
Fixpoint run (q : st) (ts : list token) : option st :=
  match ts with [] => Some q | t :: ts => match step q t with Some q => run q ts | None => None end end.
Lemma run_app q a : forall b, run q (a ++ b) = match run q a with Some q => run q b | None => None end.
Proof. revert q. induction a as [ | t a IH]; intros q b; [reflexivity | ]. cbn. destruct (step q t); auto. Qed.
(** Operand text: leads from each state in which an operand may start to the state after an operand. *)
Definition starts (q : st) : Prop := q = SE \/ q = SP \/ q = SA.
Definition operand (ts r : list token) : Prop := exists pre, ts = pre ++ r /\ forall q, starts q -> run q pre = Some SO.
Definition tail_ok (ts r : list token) : Prop := exists pre, ts = pre ++ r /\ run SO pre = Some SO.
Definition accepted_at (n : nat) : Prop :=
  (forall ts e r, p_assign n ts = Some (e, r) -> operand ts r) /\
  (forall p ts e r, p_binary n p ts = Some (e, r) -> operand ts r) /\
  (forall p l ts e r, p_climb n p l ts = Some (e, r) -> tail_ok ts r) /\
  (forall ts e r, p_unary n ts = Some (e, r) -> operand ts r) /\
  (forall l ts e r, p_postfix n l ts = Some (e, r) -> tail_ok ts r) /\
  (forall ts e r, p_primary n ts = Some (e, r) -> operand ts r) /\
  (forall ts a r, p_args n ts = Some (a, r) -> exists pre, ts = pre ++ r /\ run SA pre = Some SO) /\
  (forall ts a r, p_more n ts = Some (a, r) -> operand ts r).
Lemma operand_tail ts r r' : operand ts r -> tail_ok r r' -> operand ts r'.
Proof.
  intros (p & -> & P) (s & -> & Q). exists (p ++ s). rewrite app_assoc. split; [reflexivity | ]. intros q H. rewrite run_app, (P q H). exact Q.
Qed.
Lemma tail_refl r : tail_ok r r.
Proof. exists []; auto. Qed.
Lemma tail_trans a b c : tail_ok a b -> tail_ok b c -> tail_ok a c.
Proof. intros (p & -> & P) (s & -> & Q). exists (p ++ s). rewrite app_assoc, run_app, P. auto. Qed.
(** a token after an operand and then an operand *)
Lemma tail_operand t ts r : step SO t = Some SE -> operand ts r -> tail_ok (t :: ts) r.
Proof. intros H (p & -> & P). exists (t :: p). split; [reflexivity | ]. cbn [run]. rewrite H. apply P. left; reflexivity. Qed.
Lemma tail_one t r : step SO t = Some SO -> tail_ok (t :: r) r.
Proof. intros H. exists [t]. split; [reflexivity | ]. cbn [run]. rewrite H. reflexivity. Qed.
Lemma tail_cons t ts r : step SO t = Some SO -> tail_ok ts r -> tail_ok (t :: ts) r.
Proof. intros H. apply tail_trans, tail_one, H. Qed.
Lemma operand_cons t ts r : (forall q, starts q -> step q t = Some SE) -> operand ts r -> operand (t :: ts) r.
Proof. intros H (p & -> & P). exists (t :: p). split; [reflexivity | ]. intros q Q. cbn [run]. rewrite (H q Q). apply P. left; reflexivity. Qed.
Lemma operand_one t r : (forall q, starts q -> step q t = Some SO) -> operand (t :: r) r.
Proof. intros H. exists [t]. split; [reflexivity | ]. intros q Q. cbn [run]. rewrite (H q Q). reflexivity. Qed.
Ltac st_cases := let q := fresh in let H := fresh in intros q H; destruct H as [H | [H | H]]; subst q; reflexivity.
Lemma accepted n : accepted_at n.
Proof.
  induction n as [ | n (IA & IB & IC & IU & IS & IR & IG & IM)]; [repeat split; intros; discriminate | ].
  repeat split.
  - intros ts e r H. rewrite unfold_assign in H. destruct (p_binary n 1 ts) as [[l s] | ] eqn:B; [ | discriminate]. apply IB in B.
    destruct s as [ | [ ] s]; try (injection H as <- <-; exact B).
    + destruct (p_assign n s) as [[t [ | [ ] u]] | ] eqn:T; try discriminate. apply IA in T.
      destruct (p_assign n u) as [[f v] | ] eqn:F; try discriminate. apply IA in F. injection H as <- <-.
      refine (operand_tail _ _ _ B _). eapply tail_trans; [apply tail_operand; [reflexivity | exact T] | ]. apply tail_operand; [reflexivity | exact F].
    + destruct (p_assign n s) as [[v u] | ] eqn:T; try discriminate. apply IA in T. injection H as <- <-.
      refine (operand_tail _ _ _ B _). apply tail_operand; [reflexivity | exact T].
  - intros p ts e r H. rewrite unfold_binary in H. destruct (p_unary n ts) as [[l s] | ] eqn:B; [ | discriminate]. apply IU in B. apply IC in H. exact (operand_tail _ _ _ B H).
  - intros p l ts e r H. rewrite unfold_climb in H. destruct ts as [ | [ ] ts]; try (injection H as <- <-; apply tail_refl).
    destruct (prec o <? p); [injection H as <- <-; apply tail_refl | ].
    destruct (p_binary n (prec o + 1) ts) as [[x s] | ] eqn:B; [ | discriminate]. apply IB in B. apply IC in H.
    eapply tail_trans; [apply tail_operand; [reflexivity | exact B] | exact H].
  - intros ts e r H. rewrite unfold_unary in H.
    assert (Pl : match p_primary n ts with Some (e, r) => p_postfix n e r | None => None end = Some (e, r) -> operand ts r).
    { intros K. destruct (p_primary n ts) as [[x s] | ] eqn:B; [ | discriminate]. apply IR in B. apply IS in K. exact (operand_tail _ _ _ B K). }
    destruct ts as [ | t ts]; [exact (Pl H) | ].
    destruct t; try exact (Pl H).
    + (* new *) destruct ts as [ | [ ] [ | [ ] ts]]; try exact (Pl H). destruct (p_args n ts) as [[a s] | ] eqn:G; [ | discriminate]. apply IG in G. injection H as <- <-.
      destruct G as (p & -> & P). exists (TNew :: TType t :: TLP :: p). split; [reflexivity | ]. intros q Q. assert (X : run q (TNew :: TType t :: TLP :: p) = run SA p) by (destruct Q as [-> | [-> | ->]]; reflexivity). rewrite X. exact P.
    + (* cast *) destruct ts as [ | [ ] [ | [ ] ts]]; try exact (Pl H). destruct (p_unary n ts) as [[x s] | ] eqn:G; [ | discriminate]. apply IU in G. injection H as <- <-.
      destruct G as (p & -> & P). exists (TLP :: TType t :: TRP :: p). split; [reflexivity | ]. intros q Q.
      assert (X : run q (TLP :: TType t :: TRP :: p) = run SE p) by (destruct Q as [-> | [-> | ->]]; reflexivity). rewrite X. apply P. left; reflexivity.
    + destruct (p_unary n ts) as [[x s] | ] eqn:G; [ | discriminate]. apply IU in G. injection H as <- <-. apply operand_cons; [st_cases | exact G].
    + destruct o; try exact (Pl H); (destruct (p_unary n ts) as [[x s] | ] eqn:G; [ | discriminate]); apply IU in G; injection H as <- <-; (apply operand_cons; [st_cases | exact G]).
    + destruct (p_unary n ts) as [[x s] | ] eqn:G; [ | discriminate]. apply IU in G. injection H as <- <-. apply operand_cons; [st_cases | exact G].
  - intros l ts e r H. rewrite unfold_postfix in H.
    destruct ts as [ | [ ] ts]; try (injection H as <- <-; apply tail_refl).
    + destruct (p_args n ts) as [[a s] | ] eqn:G; [ | discriminate]. apply IG in G. apply IS in H. refine (tail_trans _ _ _ _ H).
      destruct G as (p & -> & P). exists (TLP :: p). split; [reflexivity | exact P].
    + destruct ts as [ | [ ] ts]; try (injection H as <- <-; apply tail_refl). apply IS in H. refine (tail_trans _ _ _ _ H). exists [TArrow; TId i]. split; reflexivity.
    + destruct ts as [ | [ ] ts]; try (injection H as <- <-; apply tail_refl). apply IS in H. refine (tail_trans _ _ _ _ H). exists [TDot; TId i]. split; reflexivity.
    + apply IS in H. apply tail_cons; [reflexivity | exact H].
  - intros ts e r H. rewrite unfold_primary in H. destruct ts as [ | t ts]; [discriminate | ].
    destruct t; try discriminate; try (injection H as <- <-; apply operand_one; st_cases).
    + destruct ts as [ | [ ] ts]; try discriminate. destruct (p_args n ts) as [[a s] | ] eqn:G; [ | discriminate]. apply IG in G. injection H as <- <-.
      destruct G as (p & -> & P). exists (TType t :: TLP :: p). split; [reflexivity | ]. intros q Q.
      assert (X : run q (TType t :: TLP :: p) = run SA p) by (destruct Q as [-> | [-> | ->]]; reflexivity). rewrite X. exact P.
    + destruct (p_assign n ts) as [[x [ | [ ] s]] | ] eqn:G; try discriminate. apply IA in G. injection H as <- <-.
      destruct G as (p & -> & P). exists (TLP :: p ++ [TRP]). split; [cbn; rewrite <- app_assoc; reflexivity | ]. intros q Q.
      assert (X : run q (TLP :: p ++ [TRP]) = run SP (p ++ [TRP])) by (destruct Q as [-> | [-> | ->]]; reflexivity). rewrite X, run_app, P by (right; left; reflexivity). reflexivity.
  - intros ts a r H. rewrite unfold_args in H.
    assert (Pl : p_more n ts = Some (a, r) -> exists pre, ts = pre ++ r /\ run SA pre = Some SO).
    { intros K. apply IM in K. destruct K as (p & E & P). exists p. split; [exact E | ]. apply P. right; right; reflexivity. }
    destruct ts as [ | [ ] ts]; try exact (Pl H). injection H as <- <-. exists [TRP]. split; reflexivity.
  - intros ts a r H. rewrite unfold_more in H. destruct (p_assign n ts) as [[x [ | [ ] s]] | ] eqn:G; try discriminate; apply IA in G.
    + injection H as <- <-. refine (operand_tail _ _ _ G _). apply tail_one; reflexivity.
    + destruct (p_more n s) as [[y u] | ] eqn:K; [ | discriminate]. apply IM in K. injection H as <- <-. refine (operand_tail _ _ _ G _). apply tail_operand; [reflexivity | exact K].
Qed.
Lemma reads_run ts t : reads ts t -> run SE ts = Some SO.
Proof.
  intros (n & H). destruct (accepted n) as (IA & _). apply IA in H. destruct H as (p & -> & P). rewrite app_nil_r. apply P. left; reflexivity.
Qed.

(** ** The translator's text passes the automaton or stops it *)
Definition walk (e : expr) : Prop := forall b q r, starts q -> run q (print b e ++ r) = None \/ run q (print b e ++ r) = run SO r.
Definition walk_args (a : args) : Prop := forall q r, starts q -> run q (print_args a ++ TRP :: r) = None \/ run q (print_args a ++ TRP :: r) = run SO r.
Lemma starts_E : starts SE. Proof. left; reflexivity. Qed.
Lemma starts_P : starts SP. Proof. right; left; reflexivity. Qed.
Lemma starts_A : starts SA. Proof. right; right; reflexivity. Qed.
Lemma run_cons q t ts : run q (t :: ts) = match step q t with Some q => run q ts | None => None end.
Proof. reflexivity. Qed.
Lemma run_LP q ts : starts q -> run q (TLP :: ts) = run SP ts.
Proof. intros [-> | [-> | ->]]; reflexivity. Qed.
Lemma run_id q i ts : starts q -> run q (TId i :: ts) = run SO ts.
Proof. intros [-> | [-> | ->]]; reflexivity. Qed.
Lemma run_new q ts : starts q -> run q (TNew :: ts) = run SN ts.
Proof. intros [-> | [-> | ->]]; reflexivity. Qed.
Lemma run_tilde q ts : starts q -> run q (TTilde :: ts) = run SE ts.
Proof. intros [-> | [-> | ->]]; reflexivity. Qed.
Lemma run_incr q u ts : starts q -> run q (TIncr u :: ts) = run SE ts.
Proof. intros [-> | [-> | ->]]; reflexivity. Qed.
Lemma run_construct q t ts : starts q -> run q (TType t :: TLP :: ts) = run SA ts.
Proof. intros [-> | [-> | ->]]; reflexivity. Qed.
Lemma run_constant n q r : starts q -> run q (ConvertConstants n ++ r) = run SO r.
Proof. intros Q. unfold ConvertConstants. destruct (constantConversions n); [apply run_id, Q | ]. destruct (n <? 0); destruct Q as [-> | [-> | ->]]; reflexivity. Qed.
Ltac norm := repeat (cbn [app]; rewrite <- ?app_assoc, ?app_nil_r).
Ltac go1 :=
  match goal with
  | |- ?x = None \/ ?x = ?x => right; reflexivity
  | |- None = None \/ _ => left; reflexivity
  | |- None = None \/ (exists _, _) => left; reflexivity
  | |- context [run (if ?b then _ else _) _] => destruct b
  | |- context [run ?q (TLP :: TType ?t :: TRP :: ?r)] => rewrite (run_LP q (TType t :: TRP :: r)) by (assumption || apply starts_E || apply starts_P || apply starts_A)
  | |- context [run ?q (TType _ :: TLP :: ?r)] => rewrite (run_construct q) by (assumption || apply starts_E || apply starts_P || apply starts_A)
  | |- context [run ?q (TLP :: ?r)] => rewrite (run_LP q r) by (assumption || apply starts_E || apply starts_P || apply starts_A)
  | |- context [run ?q (TId ?i :: ?r)] => rewrite (run_id q i r) by (assumption || apply starts_E || apply starts_P || apply starts_A)
  | |- context [run ?q (TNew :: ?r)] => rewrite (run_new q r) by (assumption || apply starts_E || apply starts_P || apply starts_A)
  | |- context [run ?q (TTilde :: ?r)] => rewrite (run_tilde q r) by (assumption || apply starts_E || apply starts_P || apply starts_A)
  | |- context [run ?q (TIncr ?u :: ?r)] => rewrite (run_incr q u r) by (assumption || apply starts_E || apply starts_P || apply starts_A)
  | W : walk ?e |- context [run ?q (print ?b ?e ++ ?r)] =>
      let X := fresh in destruct (W b q r) as [X | X]; [assumption || apply starts_E || apply starts_P || apply starts_A | rewrite X; clear X | rewrite X; clear X]
  | W : walk_args ?a |- context [run ?q (print_args ?a ++ TRP :: ?r)] =>
      let X := fresh in destruct (W q r) as [X | X]; [assumption || apply starts_E || apply starts_P || apply starts_A | rewrite X; clear X | rewrite X; clear X]
  | |- context [run SP (TType ?t :: TRP :: ?r)] => change (run SP (TType t :: TRP :: r)) with (run SE r)
  | |- context [run ?q (?t :: ?r)] => is_constructor q; change (run q (t :: r)) with (match step q t with Some q' => run q' r | None => None end); cbn [step start_step]
  | |- context [run SM ((if ?b then _ else _) :: _)] => destruct b
  end.
Lemma step_dot (b : bool) ts : run SO ((if b then TArrow else TDot) :: ts) = run SM ts.
Proof. destruct b; reflexivity. Qed.
Lemma all_walk : (forall e, walk e) /\ (forall a, walk_args a).
Proof.
  apply expr_args_ind; try (intros; intros b q r Q; cbn [print]; norm; try apply (or_intror (run_constant _ _ _ Q)); repeat go1; fail).
  - intros b q x Q. destruct Q as [-> | [-> | ->]]; right; reflexivity.
  - intros op s l WL r WR b q x Q. destruct op; cbn [print]; try destruct (is_floating s); try destruct (is_integral s); norm; repeat go1.
  - intros k l WL r WR b q x Q. cbn [print]. destruct k; norm; repeat go1.
  - intros t e W b q x Q. cbn [print]. destruct t; norm; repeat go1.
  - intros c WC t WT f WF b q x Q. cbn [print]. destruct b; norm; repeat go1.
  - intros t wrap e W b q x Q. cbn [print]. destruct wrap; norm; repeat go1.
  - intros e W arrow f b q x Q. cbn [print]. destruct arrow; norm; repeat go1.
  - intros is_class t a W b q x Q. cbn [print]. destruct is_class; norm; repeat go1.
  - intros is_class t b q x Q. cbn [print]. destruct is_class; norm; repeat go1.
  - intros e W box arrow m a WA b q x Q. cbn [print]. destruct box, arrow; norm; repeat go1.
  - intros e W c v WV b q x Q. cbn [print]. destruct c; cbn [cast_tokens]; norm; repeat go1.
  - intros q x Q. cbn [print_args app]. destruct Q as [-> | [-> | ->]]; [left | left | right]; reflexivity.
  - intros c e W rest WR q x Q. change (print_args (ACons c e rest)) with ((match c with Some _ => cast_tokens c ++ TLP :: print false e ++ [TRP] | None => print false e end) ++ match rest with ANil => [] | _ => TComma :: print_args rest end).
    destruct c; cbn [cast_tokens]; destruct rest; norm; repeat go1.
Qed.

(** ** The text around a place *)
Definition lands (q : st) (ts y : list token) : Prop := run q (ts ++ y) = None \/ exists q', starts q' /\ run q (ts ++ y) = run q' y.
Ltac walks := repeat match goal with
  | e : expr |- _ => lazymatch goal with W : walk e |- _ => fail | _ => pose proof (proj1 all_walk e) end
  | a : args |- _ => lazymatch goal with W : walk_args a |- _ => fail | _ => pose proof (proj2 all_walk a) end
  end.
Ltac land := repeat go1; try (left; reflexivity); try (right; eexists; split; [ | reflexivity]; assumption || apply starts_E || apply starts_P || apply starts_A).
Lemma open_cast_lands c q y : starts q -> lands q (open_cast c) y.
Proof. intros Q. unfold lands, open_cast. destruct c; cbn [cast_tokens]; norm; land. Qed.
Lemma args_before_lands b c : forall q y, starts q -> lands q (args_before b c) y.
Proof.
  induction b as [ | c' e' b IH]; intros q y Q; [apply open_cast_lands, Q | ].
  cbn [args_before]. unfold lands. norm. walks.
  assert (G : forall ts, run q (open_cast c' ++ print false e' ++ close_cast c' ++ TComma :: ts) = None \/ run q (open_cast c' ++ print false e' ++ close_cast c' ++ TComma :: ts) = run SE ts).
  { intros ts. destruct c'; cbn [open_cast close_cast cast_tokens]; norm; repeat go1. }
  destruct (G (args_before b c ++ y)) as [-> | ->]; [left; reflexivity | ]. apply IH, starts_E.
Qed.
Ltac land_args :=
  match goal with
  | |- context [run ?q (args_before ?b ?c ++ ?y)] => let X := fresh in let q' := fresh in let Q := fresh in
      destruct (args_before_lands b c q y) as [X | (q' & Q & X)]; [assumption || apply starts_E || apply starts_P || apply starts_A | rewrite X; left; reflexivity | rewrite X; right; exists q'; split; [exact Q | reflexivity]]
  end.
Lemma before_lands b k q y : starts q -> lands q (before b k) y.
Proof.
  intros Q. unfold lands. destruct k; walks; cbn [before];
    try (match goal with op : num_op |- _ => destruct op end); try destruct (is_floating s); try destruct (is_integral s);
    try (match goal with k : comparison_kind |- _ => destruct k end);
    try (match goal with c : option num_type |- _ => destruct c end);
    try (match goal with c : option Z |- context [match ?x with Some _ => _ | None => _ end] => is_var x; destruct x end);
    try (match goal with c : option Z |- context [cast_tokens ?x] => is_var x; destruct x; cbn [cast_tokens] end);
    try (match goal with |- context [if ?x then _ else _] => is_var x; destruct x end); norm; land; try land_args.
Qed.
Definition dead (x : list token) : Prop := forall q r, starts q -> run q (x ++ r) = None.
Definition opened (x : list token) : Prop := forall q r, starts q -> run q (x ++ r) = None \/ run q (x ++ r) = run SE r.
Definition tailish (k : frame) : bool := match k with FObj | FNot | FCast _ | FAssignV _ _ | FCompoundV _ _ | FStep _ => true | _ => false end.
Definition unary_left (k : frame) : bool := match k with FBinL op _ _ => also_unary op | _ => false end.
Lemma around_dead b k x : dead x -> dead (before b k ++ x ++ after b k).
Proof.
  intros D q r Q. rewrite <- !app_assoc. destruct (before_lands b k q (x ++ after b k ++ r) Q) as [-> | (q' & Q' & ->)]; [reflexivity | ]. apply D, Q'.
Qed.
Lemma tail_opened b k x : tailish k = true -> opened x -> opened (before b k ++ x ++ after b k).
Proof.
  intros T D q r Q. rewrite <- !app_assoc. destruct (before_lands b k q (x ++ after b k ++ r) Q) as [-> | (q' & Q' & ->)]; [left; reflexivity | ].
  destruct (D q' (after b k ++ r) Q') as [-> | ->]; [left; reflexivity | ]. destruct k; try discriminate T; right; reflexivity.
Qed.
Lemma tail_fresh b k : tailish k = true -> k <> FObj -> opened (before b k ++ after b k).
Proof.
  intros T N q r Q. destruct k; try discriminate T; try congruence; walks; cbn [before after];
    try (match goal with c : option Z |- _ => destruct c; cbn [cast_tokens] end); norm; repeat go1.
Qed.
Lemma after_E b k r : tailish k = false -> unary_left k = false -> run SE (after b k ++ r) = None.
Proof.
  intros T U. destruct k; try discriminate T; cbn [after]; try reflexivity.
  - destruct op; try discriminate U; try reflexivity; destruct (is_floating s); try reflexivity; destruct (is_integral s); reflexivity.
  - destruct arrow; reflexivity.
  - destruct c, r0; reflexivity.
  - destruct c, r0; reflexivity.
  - destruct c, r0; reflexivity.
  - destruct c, r0; reflexivity.
  - destruct box, arrow; reflexivity.
  - destruct c, r0; reflexivity.
Qed.
Lemma other_opened b k x : tailish k = false -> unary_left k = false -> opened x -> dead (before b k ++ x ++ after b k).
Proof.
  intros T U D q r Q. rewrite <- !app_assoc. destruct (before_lands b k q (x ++ after b k ++ r) Q) as [-> | (q' & Q' & ->)]; [reflexivity | ].
  destruct (D q' (after b k ++ r) Q') as [-> | ->]; [reflexivity | ]. apply after_E; assumption.
Qed.
(** arguments: the place is at the first argument, or a comma precedes it *)
Lemma args_gap b c r q y : starts q -> (match b, c, r with ANil, None, ANil => False | _, _, _ => True end) -> run q (args_before b c ++ args_after c r ++ TRP :: y) = None.
Proof.
  intros Q H. unfold args_after. destruct b as [ | c' e' b].
  - destruct c; [destruct Q as [-> | [-> | ->]]; reflexivity | ]. destruct r; [exact (False_ind _ H) | ]. destruct Q as [-> | [-> | ->]]; reflexivity.
  - clear H. enough (G : forall b q, q = SE \/ b <> ANil -> starts q -> run q (args_before b c ++ (close_cast c ++ match r with ANil => [] | _ => TComma :: print_args r end) ++ TRP :: y) = None) by (apply G; [right; discriminate | exact Q]).
    clear. induction b as [ | c' e' b IH]; intros q N Q.
    + destruct N as [-> | N]; [ | congruence]. destruct c, r; reflexivity.
    + walks. cbn [args_before].
      assert (G : forall ts, run q (open_cast c' ++ print false e' ++ close_cast c' ++ TComma :: ts) = None \/ run q (open_cast c' ++ print false e' ++ close_cast c' ++ TComma :: ts) = run SE ts).
      { intros ts. destruct c'; cbn [open_cast close_cast cast_tokens]; norm; repeat go1. }
      norm. destruct (G (args_before b c ++ (close_cast c ++ match r with ANil => [] | _ => TComma :: print_args r end ++ TRP :: y))) as [-> | ->]; [reflexivity | ].
      specialize (IH SE (or_introl eq_refl) starts_E). rewrite <- !app_assoc in IH. exact IH.
Qed.
Ltac gap := repeat (reflexivity || go1); try (match goal with Q : starts _ |- _ => destruct Q as [-> | [-> | ->]]; reflexivity end).
Lemma other_fresh b k : tailish k = false -> unary_left k = false -> lone_argument k = false -> dead (before b k ++ after b k).
Proof.
  intros T U L q r Q. rewrite <- app_assoc.
  destruct k; try discriminate T; try discriminate L; walks; cbn [before after].
  - destruct op; try discriminate U; try destruct (is_floating s); try destruct (is_integral s); norm; gap.
  - destruct op; try destruct (is_floating s); try destruct (is_integral s); norm; gap.
  - norm; gap.
  - destruct k; norm; gap.
  - destruct t; norm; gap.
  - destruct b; norm; gap.
  - destruct b; norm; gap.
  - destruct b; norm; gap.
  - destruct wrap; norm; gap.
  - norm; gap.
  - destruct arrow; norm; gap.
  - norm; gap.
  - norm; gap.
  - norm. gap. apply args_gap; [apply starts_A | ]. destruct b0, c, r0; try discriminate L; exact I.
  - norm. gap. destruct b0 as [ | ? ? ?], c as [ ? | ], r0 as [ | ? ? ?]; try reflexivity; apply args_gap; (apply starts_E || exact I).
  - destruct is_class; norm; gap; (apply args_gap; [apply starts_A | destruct b0, c, r0; try discriminate L; exact I]).
  - norm. gap. apply args_gap; [apply starts_A | destruct b0, c, r0; try discriminate L; exact I].
  - destruct box; [discriminate L | ]. destruct arrow; norm; gap.
  - destruct box, arrow; norm; gap; (apply args_gap; [apply starts_A | destruct b0, c, r0; try discriminate L; exact I]).
  - norm; gap.
  - norm; gap.
Qed.
Lemma dead_reads x : dead x -> forall ks t, ~ reads (print_in ks x) t.
Proof.
  intros D ks. revert x D. induction ks as [ | k ks IH]; intros x D t H.
  - apply reads_run in H. specialize (D SE [] starts_E). rewrite app_nil_r in D. cbn [print_in] in H. congruence.
  - cbn [print_in] in H. exact (IH _ (around_dead _ k x D) t H).
Qed.
Lemma opened_reads x ks : opened x -> operator_follows ks = false -> forall t, ~ reads (print_in ks x) t.
Proof.
  revert x. induction ks as [ | k ks IH]; intros x D F t H.
  - apply reads_run in H. destruct (D SE [] starts_E) as [E | E]; rewrite app_nil_r in E; cbn [print_in] in H; rewrite E in H; discriminate H.
  - cbn [print_in] in H. destruct (tailish k) eqn:T.
    + refine (IH _ (tail_opened _ k x T D) _ t H). destruct k; try discriminate T; exact F.
    + refine (dead_reads _ (other_opened _ k x T _ D) ks t H). destruct k; try discriminate T; try reflexivity. exact F.
Qed.
Lemma missing_reads ks : unnoticed ks = false -> forall t, ~ reads (print_in ks []) t.
Proof.
  induction ks as [ | k ks IH]; intros F t H.
  - apply reads_run in H. discriminate H.
  - cbn [print_in] in H. destruct (tailish k) eqn:T.
    + destruct k; try discriminate T; try exact (IH F t H);
        (refine (opened_reads _ ks (tail_fresh (bare_at ks) _ T _) _ t H); [discriminate | exact F]).
    + assert (X : lone_argument k = false /\ unary_left k = false).
      { destruct k; try discriminate T; cbn [unnoticed] in F; apply Bool.orb_false_iff in F; split; try apply F; reflexivity. }
      destruct X as (X & Y). exact (dead_reads _ (other_fresh _ k T Y X) ks t H).
Qed.
