(** * Lemmas for C111 *)
From Coq Require Import String.
From Verif Require Import Tac Base IntModel IntProofs FormatterModel FormatterSpec FormatterProofs FormatterProperties StatementModel ExprModel ExprProofs LexModel LexSpec.
Import ListNotations.

(** ** The scanner *)
Lemma scan_mono n : forall m l ls, (n <= m)%nat -> scan n l = Some ls -> scan m l = Some ls.
Proof.
  induction n as [|n IH]; intros m l ls L H; [discriminate|]. destruct m as [|m]; [lia|]. assert (L' : (n <= m)%nat) by lia.
  cbn [scan] in *. destruct l as [|c r]; [exact H|]. destruct (blank c); [apply IH; assumption|].
  destruct (read_string cpp_ucn (c :: r)) as [[s r']|].
  { destruct (scan n r') eqn:E; [|discriminate]. rewrite (IH _ _ _ L' E). exact H. }
  destruct (letter c).
  { destruct (span word_char (c :: r)) as [w r']. destruct (scan n r') eqn:E; [|discriminate]. rewrite (IH _ _ _ L' E). exact H. }
  destruct (starts_number (c :: r)).
  { destruct (pp_number c (c :: r)) as [w r']. destruct (scan n r') eqn:E; [|discriminate]. rewrite (IH _ _ _ L' E). exact H. }
  destruct (comment (c :: r)); [discriminate|]. destruct (first_match punctuators (c :: r)) as [[p r']|]; [|discriminate].
  destruct (scan n r') eqn:E; [|discriminate]. rewrite (IH _ _ _ L' E). exact H.
Qed.
Lemma divided_unique l a b : divided l a -> divided l b -> a = b.
Proof. intros [n H] [m K]. pose proof (scan_mono n (Nat.max n m) l a (Nat.le_max_l _ _) H) as H'. pose proof (scan_mono m (Nat.max n m) l b (Nat.le_max_r _ _) K) as K'. rewrite H' in K'. injection K' as E. exact E. Qed.
Lemma D_nil : divided [] [].
Proof. exists 1%nat. reflexivity. Qed.
Lemma D_blank c r lr : blank c = true -> divided r lr -> divided (c :: r) lr.
Proof. intros B [n H]. exists (S n). cbn [scan]. rewrite B. exact H. Qed.
Lemma D_space r lr : divided r lr -> divided (32 :: r) lr.
Proof. apply D_blank. reflexivity. Qed.
Lemma D_punct c r p r' lr : blank c = false -> letter c = false -> starts_number (c :: r) = false -> comment (c :: r) = false -> first_match punctuators (c :: r) = Some (p, r') -> divided r' lr -> divided (c :: r) (Punct p :: lr).
Proof.
  intros N L D C F [n H]. exists (S n). cbn [scan]. rewrite N.
  assert (Q : read_string cpp_ucn (c :: r) = None).
  { cbn [read_string]. destruct c as [|c|c]; try reflexivity. do 7 (destruct c as [c|c|]; try reflexivity). discriminate L. }
  rewrite Q, L, D, C, F, H. reflexivity.
Qed.
Ltac punct := eapply D_punct; [reflexivity|reflexivity|reflexivity|reflexivity|reflexivity|assumption].
Lemma D_lp r lr : divided r lr -> divided (T "(" ++ r) (Punct (T "(") :: lr).
Proof. intros H. punct. Qed.
Lemma D_rp r lr : divided r lr -> divided (T ")" ++ r) (Punct (T ")") :: lr).
Proof. intros H. punct. Qed.
Lemma D_comma r lr : divided r lr -> divided (T "," ++ r) (Punct (T ",") :: lr).
Proof. intros H. punct. Qed.
Lemma D_tilde r lr : divided r lr -> divided (T "~" ++ r) (Punct (T "~") :: lr).
Proof. intros H. punct. Qed.
Lemma D_scope r lr : divided r lr -> divided (T "::" ++ r) (Punct (T "::") :: lr).
Proof. intros H. punct. Qed.
Lemma D_incr (up : bool) r lr : divided r lr -> divided ((if up then T "++" else T "--") ++ r) (Punct (if up then T "++" else T "--") :: lr).
Proof. intros H. destruct up; punct. Qed.
Lemma D_op o r lr : divided r lr -> divided (op_punct o ++ T " " ++ r) (Punct (op_punct o) :: lr).
Proof. intros H. apply D_space in H. destruct o; punct. Qed.
Lemma D_assign r lr : divided r lr -> divided (T "=" ++ T " " ++ r) (Punct (T "=") :: lr).
Proof. intros H. apply D_space in H. punct. Qed.
Lemma D_compound op r lr : divided r lr -> divided (op_punct (operatorSymbols op) ++ T "= " ++ r) (Punct (op_punct (operatorSymbols op) ++ T "=") :: lr).
Proof. intros H. apply D_space in H. destruct op; punct. Qed.
Lemma D_query r lr : divided r lr -> divided (T "?" ++ T " " ++ r) (Punct (T "?") :: lr).
Proof. intros H. apply D_space in H. punct. Qed.
Lemma D_colon r lr : divided r lr -> divided (T ":" ++ T " " ++ r) (Punct (T ":") :: lr).
Proof. intros H. apply D_space in H. punct. Qed.
(** head of the rest *)
Definition head_is (p : Z -> Prop) (r : list Z) : Prop := match r with [] => True | c :: _ => p c end.
Lemma letter_range c : letter c = true -> 65 <= c /\ c <> 92.
Proof. unfold letter. intros H. lia. Qed.
Ltac differ k c := let E := fresh in assert (E : (k =? c) = false) by lia; cbn in E; rewrite E; clear E.
Lemma D_arrow r lr : head_is (fun c => c <> 42) r -> divided r lr -> divided (T "->" ++ r) (Punct (T "->") :: lr).
Proof. intros Hd H. eapply D_punct; [reflexivity|reflexivity|reflexivity|reflexivity| |exact H]. cbn. destruct r as [|c r]; [reflexivity|]. cbn in Hd. differ 42 c. reflexivity. Qed.
Lemma D_dot r lr : head_is (fun c => letter c = true) r -> divided r lr -> divided (T "." ++ r) (Punct (T ".") :: lr).
Proof.
  intros Hd H. eapply D_punct; [reflexivity|reflexivity| |reflexivity| |exact H].
  - cbn. destruct r as [|c r]; [reflexivity|]. cbn in Hd. apply letter_range in Hd. unfold digit. lia.
  - cbn. destruct r as [|c r]; [reflexivity|]. cbn in Hd. apply letter_range in Hd. differ 46 c. differ 42 c. reflexivity.
Qed.
Lemma D_minus r lr : head_is (fun c => digit c = true) r -> divided r lr -> divided (T "-" ++ r) (Punct (T "-") :: lr).
Proof.
  intros Hd H. eapply D_punct; [reflexivity|reflexivity|reflexivity|reflexivity| |exact H].
  cbn. destruct r as [|c r]; [reflexivity|]. cbn in Hd. unfold digit in Hd. differ 62 c. differ 45 c. differ 61 c. reflexivity.
Qed.
Lemma D_star r lr : head_is (fun c => c <> 61) r -> divided r lr -> divided (T "*" ++ r) (Punct (T "*") :: lr).
Proof.
  intros Hd H. eapply D_punct; [reflexivity|reflexivity|reflexivity|reflexivity| |exact H].
  cbn. destruct r as [|c r]; [reflexivity|]. cbn in Hd. differ 61 c. reflexivity.
Qed.
Lemma D_stars n r lr : head_is (fun c => c <> 61) r -> divided r lr -> divided (stars n ++ r) (repeat (Punct (T "*")) n ++ lr).
Proof.
  intros Hd H. induction n as [|n IH]; [exact H|]. change (divided (T "*" ++ stars n ++ r) (Punct (T "*") :: repeat (Punct (T "*")) n ++ lr)).
  apply D_star; [|exact IH]. destruct n; [exact Hd|]. cbn. discriminate.
Qed.
Definition after_word (c : Z) : Prop := word_char c = false /\ c <> 34.
Lemma span_app p w : forall r, Forall (fun c => p c = true) w -> head_is (fun c => p c = false) r -> span p (w ++ r) = (w, r).
Proof.
  induction w as [|c w IH]; intros r F Hd; cbn [app span].
  - destruct r as [|c r]; [reflexivity|]. cbn in Hd. cbn [span]. rewrite Hd. reflexivity.
  - inversion F as [|? ? A B]; subst. rewrite A, (IH r B Hd). reflexivity.
Qed.
Lemma read_not_quote c r : (c = 76 -> head_is (fun d => d <> 34) r) -> read_string cpp_ucn (c :: r) = None.
Proof.
  intros H. cbn [read_string]. destruct c as [|c|c]; try reflexivity. do 7 (destruct c as [c|c|]; try reflexivity).
  specialize (H eq_refl). destruct r as [|d r]; [reflexivity|]. cbn in H. destruct d as [|d|d]; try reflexivity. do 6 (destruct d as [d|d|]; try reflexivity). contradiction.
Qed.
Lemma D_word w r lr : word_text w -> head_is after_word r -> divided r lr -> divided (w ++ r) (Word w :: lr).
Proof.
  intros [A F] Hd [n H]. destruct w as [|c w]; [contradiction|]. exists (S n). cbn [app scan]. pose proof (letter_range c A) as R.
  replace (blank c) with false by (unfold blank; lia).
  rewrite read_not_quote.
  2:{ intros _. inversion F as [|? ? _ F']; subst. destruct w as [|d w]; cbn.
      - destruct r as [|d r]; [exact I|]. cbn in *. destruct Hd. assumption.
      - inversion F' as [|? ? X _]; subst. intros ->. discriminate X. }
  rewrite A. change (c :: w ++ r) with ((c :: w) ++ r). rewrite (span_app word_char (c :: w) r F).
  - rewrite H. reflexivity.
  - destruct r as [|d r]; [exact I|]. destruct Hd as [X _]. exact X.
Qed.
(** ** Numbers *)
Definition after_number (c : Z) : Prop := word_char c = false /\ c <> 46.
Lemma pp_digits w : forall prev r, LexSpec.digit prev = true -> Forall (fun c => LexSpec.digit c = true) w -> head_is after_number r -> pp_number prev (w ++ r) = (w, r).
Proof.
  induction w as [|c w IH]; intros prev r P F Hd; cbn [app pp_number].
  - destruct r as [|c r]; [reflexivity|]. destruct Hd as [A B]. cbn [pp_number]. rewrite A. destruct (Z.eqb_spec c 46); [contradiction|]. unfold LexSpec.digit in P.
    replace (((prev =? 101) || (prev =? 69) || (prev =? 112) || (prev =? 80))%bool) with false by lia. rewrite Bool.andb_false_r. reflexivity.
  - inversion F as [|? ? A B]; subst. unfold word_char. rewrite A, Bool.orb_true_r. cbn [orb]. rewrite (IH c r A B Hd). reflexivity.
Qed.
Lemma digit_same w : Forall IntSpec.digit w -> Forall (fun c => LexSpec.digit c = true) w.
Proof. apply Forall_impl. intros c H. unfold IntSpec.digit in H. unfold LexSpec.digit. lia. Qed.
Lemma D_number n r lr : 0 <= n < two64 -> head_is after_number r -> divided r lr -> divided (print_u n ++ r) (Number (print_u n) :: lr) /\ head_is (fun c => LexSpec.digit c = true) (print_u n ++ r).
Proof.
  intros N Hd [k H]. destruct (print_u_spec n N) as (_ & F & E). apply digit_same in F. revert F E. generalize (print_u n). intros w F E. destruct w as [|c w]; [contradiction|].
  inversion F as [|? ? A B]; subst. split; [|exact A]. exists (S k). cbn [app scan]. pose proof A as A'. unfold LexSpec.digit in A'. replace (blank c) with false by (unfold blank; lia).
  rewrite read_not_quote by lia. assert (L : letter c = false) by (unfold letter; lia). rewrite L. cbn [starts_number]. rewrite A. cbn [orb].
  change (c :: w ++ r) with ((c :: w) ++ r). rewrite (pp_digits (c :: w) c r A F Hd), H. reflexivity.
Qed.
Lemma D_literal s r lr : Forall code_unit s -> Forall (fun c => surrogate c = false) s -> divided r lr -> divided (literal_text s ++ r) (Text s :: lr).
Proof.
  intros C N [k H]. unfold literal_text. destruct (AppendStrings_spec new_formatter s C) as (f & -> & E). rewrite E. cbn [buffer new_formatter app].
  exists (S k). rewrite <- app_assoc. cbn [app scan]. change (blank 76) with false. cbn [read_string].
  rewrite (lex_string cpp_ucn s r C). rewrite (not_surrogate_ucn s N). cbn [fst snd]. rewrite H. reflexivity.
Qed.
(** ** Expressions *)
Section Names.
Variable local_text member_text type_text wrap_text : Z -> list Z.
Variable extra : Z -> nat.
Variable contents : Z -> list Z.
Hypothesis GN : good_names local_text member_text type_text wrap_text.
Hypothesis GS : good_strings contents.
Notation v := (visit local_text member_text type_text wrap_text extra contents).
Notation vs := (visit_args local_text member_text type_text wrap_text extra contents).
Notation tok := (of_token local_text member_text type_text wrap_text extra contents).
Notation toks := (flat_map tok).
Lemma local_ok x : word_text (local_text x). Proof. apply GN. Qed.
Lemma member_ok x : word_text (member_text x). Proof. apply GN. Qed.
Lemma type_ok x : word_text (type_text x). Proof. apply GN. Qed.
Lemma wrap_ok x : word_text (wrap_text x). Proof. apply GN. Qed.
Lemma word_app a b : word_text a -> Forall (fun c => word_char c = true) b -> word_text (a ++ b).
Proof. intros [A B] C. split; [destruct a; [contradiction|exact A]|]. apply Forall_app. split; assumption. Qed.
Lemma chars_of w : word_text w -> Forall (fun c => word_char c = true) w.
Proof. intros [_ A]. exact A. Qed.
Ltac word := split; [reflexivity|repeat constructor].
Lemma prim_ok t : word_text (prim_word t).
Proof. destruct t; word. Qed.
Lemma prim_same t : prim_text t = prim_word t.
Proof. destruct t; reflexivity. Qed.
Lemma head_word w r : word_text w -> head_is (fun c => letter c = true) (w ++ r).
Proof. intros [A _]. destruct w; [contradiction|exact A]. Qed.
Lemma head_arrow w r : word_text w -> head_is (fun c => c <> 42) (w ++ r).
Proof. intros [A _]. destruct w as [|c w]; [contradiction|]. cbn. intros ->. discriminate A. Qed.
(** what may follow an expression *)
Definition follows (e : expr) (r : list Z) : Prop := head_is after_word r /\ (ends_with_number e = true -> head_is (fun c => c <> 46) r).
Lemma follows_char e c r : word_char c = false -> c <> 34 -> c <> 46 -> follows e (c :: r).
Proof. intros A B C. split; [split; assumption|]. intros _. exact C. Qed.
Lemma follows_dot e r : ends_with_number e = false -> follows e (46 :: r).
Proof. intros A. split; [split; [reflexivity|discriminate]|]. rewrite A. discriminate. Qed.
Lemma follows_sub e e' r : follows e r -> ends_with_number e' = ends_with_number e -> follows e' r.
Proof. intros [A B] E. split; [exact A|]. rewrite E. exact B. Qed.
Lemma follows_none e e' r : follows e r -> ends_with_number e' = false -> follows e' r.
Proof. intros [A B] E. split; [exact A|]. rewrite E. discriminate. Qed.
Definition good (e : expr) : Prop := separated e -> forall bare r lr, divided r lr -> follows e r -> divided (v bare e ++ r) (toks (print bare e) ++ lr).
Definition good_args (a : args) : Prop := separated_args a -> forall comma, comma = T "," \/ comma = T ", " -> forall r lr, divided (41 :: r) lr -> divided (vs comma a ++ 41 :: r) (toks (print_args a) ++ lr).
Lemma limit_ok n i : constantConversions n = Some i -> exists t, i = MaxValueOf t \/ i = MinValueOf t.
Proof.
  unfold constantConversions. repeat match goal with |- context [if ?b then _ else _] => destruct b; [intros H; injection H as <-; eexists; (left; reflexivity) || (right; reflexivity)|] end. discriminate.
Qed.
Lemma D_constant n r lr : - 2 ^ 63 <= n < 2 ^ 63 -> divided r lr -> head_is after_word r -> (match constantConversions n with Some _ => False | None => True end -> head_is (fun c => c <> 46) r) ->
  divided (constant_text n ++ r) (toks (ConvertConstants n) ++ lr).
Proof.
  intros N H W P. unfold constant_text, ConvertConstants. destruct (constantConversions n) as [i|] eqn:E.
  - destruct (limit_ok n i E) as (t & [-> | ->]); cbn [limit_text flat_map of_token of_ident qualified]; rewrite prim_same; repeat (rewrite <- app_assoc; cbn [app]).
    + change (T "Value::MaxValue" ++ r) with (T "Value" ++ T "::" ++ T "MaxValue" ++ r). rewrite app_assoc. apply D_word; [apply word_app; [apply prim_ok|repeat constructor]|split; [reflexivity|discriminate]|].
      apply D_scope. apply D_word; [word|exact W|exact H].
    + change (T "Value::MinValue" ++ r) with (T "Value" ++ T "::" ++ T "MinValue" ++ r). rewrite app_assoc. apply D_word; [apply word_app; [apply prim_ok|repeat constructor]|split; [reflexivity|discriminate]|].
      apply D_scope. apply D_word; [word|exact W|exact H].
  - specialize (P I). assert (Q : head_is after_number r). { destruct r as [|c r]; [exact I|]. split; [exact (proj1 W)|exact P]. }
    unfold print_d. destruct (n <? 0) eqn:Z; cbn [flat_map of_token app op_punct].
    + assert (B : 0 <= - n < two64) by (unfold two64; lia). destruct (D_number (- n) r lr B Q H) as [X Y]. change (divided (T "-" ++ print_u (- n) ++ r) (Punct (T "-") :: Number (print_u (- n)) :: lr)). apply D_minus; [exact Y|exact X].
    + assert (B : 0 <= n < two64) by (unfold two64; lia). destruct (D_number n r lr B Q H) as [X _]. exact X.
Qed.
Ltac fch := first [apply follows_char; [reflexivity|discriminate|discriminate]].
Ltac hd := split; [reflexivity|discriminate].
Ltac norm := repeat first [rewrite flat_map_app|rewrite <- app_assoc|rewrite app_nil_r|progress (cbn [flat_map of_token of_ident of_type qualified app])].
Lemma D_cast c r lr : divided r lr -> divided (cast_text type_text c ++ r) (toks (cast_tokens c) ++ lr).
Proof. intros H. destruct c as [t|]; [|exact H]. unfold cast_text, cast_tokens. repeat rewrite <- app_assoc. change (divided (T "(" ++ type_text t ++ T ")" ++ r) (Punct (T "(") :: Word (type_text t) :: Punct (T ")") :: lr)). apply D_lp, D_word; [apply type_ok|hd|]. apply D_rp, H. Qed.
Lemma D_member arrow f r lr : head_is after_word r -> divided r lr -> divided ((if (arrow : bool) then T "->" else T ".") ++ member_text f ++ r) (Punct (if (arrow : bool) then T "->" else T ".") :: Word (member_text f) :: lr).
Proof.
  intros W H. assert (D : divided (member_text f ++ r) (Word (member_text f) :: lr)) by (apply D_word; [apply member_ok|exact W|exact H]).
  destruct arrow; [apply D_arrow; [apply head_arrow, member_ok|exact D]|apply D_dot; [apply head_word, member_ok|exact D]].
Qed.

Lemma fuse0 : T "(new String(" = T "(" ++ T "new" ++ T " " ++ T "String" ++ T "(". Proof. reflexivity. Qed.
Lemma fuse1 : T "))" = T ")" ++ T ")". Proof. reflexivity. Qed.
Lemma fuse2 : T "Math::Divide(" = T "Math" ++ T "::" ++ T "Divide" ++ T "(". Proof. reflexivity. Qed.
Lemma fuse3 : T "(Double)" = T "(" ++ T "Double" ++ T ")". Proof. reflexivity. Qed.
Lemma fuse4 : T "(Int64)" = T "(" ++ T "Int64" ++ T ")". Proof. reflexivity. Qed.
Lemma fuse5 : T "DoubleValue::Modulus(" = T "DoubleValue" ++ T "::" ++ T "Modulus" ++ T "(". Proof. reflexivity. Qed.
Lemma fuse6 : T "((" = T "(" ++ T "(". Proof. reflexivity. Qed.
Lemma fuse7 : T " ? (" = T " " ++ T "?" ++ T " " ++ T "(". Proof. reflexivity. Qed.
Lemma fuse8 : T ") : (" = T ")" ++ T " " ++ T ":" ++ T " " ++ T "(". Proof. reflexivity. Qed.
Lemma fuse9 : T "(new " = T "(" ++ T "new" ++ T " ". Proof. reflexivity. Qed.
Lemma fuse10 : T "()" = T "(" ++ T ")". Proof. reflexivity. Qed.
Lemma fuse11 : T "->get_Length()" = T "->" ++ T "get_Length" ++ T "(" ++ T ")". Proof. reflexivity. Qed.
Lemma fuse12 : T "(*((" = T "(" ++ T "*" ++ T "(" ++ T "(". Proof. reflexivity. Qed.
Lemma fuse13 : T "*)" = T "*" ++ T ")". Proof. reflexivity. Qed.
Lemma fuse14 : T "->Address(" = T "->" ++ T "Address" ++ T "(". Proof. reflexivity. Qed.
Lemma fuse15 : T ")))" = T ")" ++ T ")" ++ T ")". Proof. reflexivity. Qed.
Lemma fuse16 : T "new Array(" = T "new" ++ T " " ++ T "Array" ++ T "(". Proof. reflexivity. Qed.
Lemma fuse17 : T "Type," = T "Type" ++ T ",". Proof. reflexivity. Qed.
Lemma fuse18 : T ", " = T "," ++ T " ". Proof. reflexivity. Qed.
Lemma fuse19 : T "new " = T "new" ++ T " ". Proof. reflexivity. Qed.
Lemma fuse20 : T " = " = T " " ++ T "=" ++ T " ". Proof. reflexivity. Qed.
Ltac fuse := rewrite ?fuse0, ?fuse1, ?fuse2, ?fuse3, ?fuse4, ?fuse5, ?fuse6, ?fuse7, ?fuse8, ?fuse9, ?fuse10, ?fuse11, ?fuse12, ?fuse13, ?fuse14, ?fuse15, ?fuse16, ?fuse17, ?fuse18, ?fuse19, ?fuse20; repeat rewrite <- app_assoc.

Ltac w := apply D_word; [first [apply local_ok|apply member_ok|apply type_ok|apply wrap_ok|word]|hd|].
Ltac st := first [apply D_lp|apply D_rp|apply D_comma|apply D_tilde|apply D_scope|apply D_space|w].
Lemma all_divided : (forall e, good e) /\ (forall a, good_args a).
Proof.
  apply expr_args_ind.
  - intros n S0 bare r lr H [A B]. cbn [visit print]. apply D_constant; [exact S0|exact H|exact A|]. intros E. apply B. cbn [ends_with_number]. destruct (constantConversions n); [contradiction|reflexivity].
  - intros n S0 bare r lr H [A B]. cbn [visit print]. apply D_constant; [exact S0|exact H|exact A|]. intros E. apply B. cbn [ends_with_number]. destruct (constantConversions n); [contradiction|reflexivity].
  - intros _ bare r lr H [A B]. cbn [visit print]. norm. apply D_word; [word|exact A|exact H].
  - intros s _ bare r lr H F. cbn [visit print]. fuse. norm. st. st. st. st. st. apply D_literal; [apply GS|apply GS|]. st. st. exact H.
  - intros x _ bare r lr H [A B]. cbn [visit print]. norm. apply D_word; [apply local_ok|exact A|exact H].
  - intros t f _ bare r lr H [A B]. cbn [visit print]. fuse. norm. st. st. apply D_word; [apply member_ok|exact A|exact H].
  - intros e IH S0 bare r lr H F. apply (IH S0 false r lr H). exact F.
  - (* Binary *) intros op s l IHl x IHx [S1 S2] bare r lr H F.
    assert (Simple : divided ((T "(" ++ v false l ++ T " " ++ op_punct (operatorSymbols op) ++ T " " ++ v false x ++ T ")") ++ r) (toks (TLP :: print false l ++ TOp (operatorSymbols op) :: print false x ++ [TRP]) ++ lr)).
    { norm. st. apply IHl; [exact S1| |fch]. apply D_space, D_op. apply IHx; [exact S2| |fch]. st. exact H. }
    assert (Same : forall o, operator_text o = op_punct (operatorSymbols o)) by (intros []; reflexivity).
    cbn [visit print]. rewrite Same in *. destruct op; try exact Simple.
    + destruct (is_floating s); [|destruct (is_integral s); [|exact Simple]].
      * fuse. norm. do 7 st. apply IHl; [exact S1| |fch]. do 4 st. apply IHx; [exact S2| |fch]. st. exact H.
      * fuse. norm. do 7 st. apply IHl; [exact S1| |fch]. do 4 st. apply IHx; [exact S2| |fch]. st. exact H.
    + destruct (is_floating s); [|exact Simple]. fuse. norm. do 4 st. apply IHl; [exact S1| |fch]. st. apply IHx; [exact S2| |fch]. st. exact H.
  - (* Comp *) intros k l IHl x IHx [S1 S2] bare r lr H F. cbn [visit print]. fuse. norm. st. st. apply IHl; [exact S1| |fch]. st.
    assert (E : comparison_text k = T " " ++ op_punct (comparisonSymbols k) ++ T " ") by (destruct k; reflexivity). rewrite E. repeat rewrite <- app_assoc. apply D_space, D_op.
    apply IHx; [exact S2| |fch]. st. exact H.
  - (* ConvTo *) intros t e IH S0 bare r lr H F. cbn [visit print]. assert (X : divided (v false e ++ T ")" ++ r) (toks (print false e) ++ Punct (T ")") :: lr)) by (apply IH; [exact S0| |fch]; st; exact H).
    destruct t as [t|]; norm.
    + st. st. rewrite prim_same. apply D_word; [apply prim_ok|hd|]. st. exact X.
    + st. exact X.
  - intros e IH S0 bare r lr H F. cbn [visit print]. norm. st. apply IH; [exact S0|exact H|exact F].
  - (* If *) intros c IHc t IHt f IHf (S1 & S2 & S3) bare r lr H F.
    assert (Core : forall r lr, divided r lr -> divided ((v true c ++ T " ? (" ++ v false t ++ T ") : (" ++ v false f ++ T ")") ++ r) (toks (print true c ++ TQ :: TLP :: print false t ++ TRP :: TColon :: TLP :: print false f ++ [TRP]) ++ lr)).
    { clear r lr H F. intros r lr H. fuse. norm. apply IHc; [exact S1| |fch]. apply D_space, D_query. st. apply IHt; [exact S2| |fch]. st. apply D_space, D_colon. st. apply IHf; [exact S3| |fch]. st. exact H. }
    cbn [visit print]. destruct bare; [apply Core, H|].
    specialize (Core (T ")" ++ r) (Punct (T ")") :: lr) (D_rp _ _ H)). revert Core. norm. intros Core. st. exact Core.
  - (* CastClass *) intros t e IH S0 bare r lr H F. cbn [visit print]. fuse. norm. st. apply D_word; [apply type_ok|hd|]. apply (D_stars (S (extra t))); [discriminate|]. st. apply IH; [exact S0|exact H|exact F].
  - (* BoxTo *) intros t e IH S0 bare r lr H F. cbn [visit print]. fuse. norm. do 5 st. apply IH; [exact S0| |fch]. st. st. exact H.
  - (* UnboxAny *) intros t wrap e IH S0 bare r lr H F. cbn [visit print].
    assert (X : forall r lr, divided r lr -> divided (v false e ++ T "->get_As" ++ type_text t ++ T "()" ++ r) (toks (print false e ++ [TArrow; TId (GetAs t); TLP; TRP]) ++ lr)).
    { clear r lr H F. intros r lr H. change (T "->get_As") with (T "->" ++ T "get_As"). fuse. norm. apply IH; [exact S0| |fch]. apply D_arrow; [discriminate|]. rewrite (app_assoc (T "get_As")). apply D_word; [|hd|].
      - apply word_app; [word|]. apply chars_of, type_ok.
      - st. st. exact H. }
    destruct wrap.
    + assert (Y := X (T ")" ++ r) (Punct (T ")") :: lr) (D_rp _ _ H)). revert Y. norm. intros Y. apply D_word; [apply type_ok|hd|]. st. exact Y.
    + repeat rewrite <- app_assoc. apply X, H.
  - intros e IH S0 bare r lr H F. cbn [visit print]. norm. st. apply IH; [exact S0| |fch]. st. exact H.
  - (* LdFlda *) intros e IH arrow f [S0 S1] bare r lr H [A B]. cbn [visit print]. norm. apply IH; [exact S0| |].
    + pose proof (D_member arrow f r lr A H) as X. destruct arrow; exact X.
    + destruct arrow; [fch|]. apply follows_dot, S1. reflexivity.
  - intros e IH S0 bare r lr H F. cbn [visit print]. fuse. norm. apply IH; [exact S0| |fch]. apply D_arrow; [discriminate|]. do 3 st. exact H.
  - (* LdElema *) intros t a IHa is IHi [S1 S2] bare r lr H F. cbn [visit print]. fuse. norm. st. apply D_star; [discriminate|]. st. st. apply D_word; [apply type_ok|destruct (extra t); hd|].
    rewrite (app_assoc (stars (extra t))). change (T "*") with [42] at 1. unfold stars. rewrite <- repeat_cons. change (42 :: repeat 42 (extra t)) with (stars (S (extra t))).
    apply (D_stars (S (extra t))); [discriminate|]. st. apply IHa; [exact S1| |fch]. apply D_arrow; [discriminate|]. st. st. apply (IHi S2); [left; reflexivity|]. apply D_rp, D_rp, D_rp, H.
  - (* NewArr *) intros t is IHi S0 bare r lr H F. cbn [visit print]. fuse. norm. do 4 st. rewrite (app_assoc (type_text t)). apply D_word; [apply word_app; [apply type_ok|repeat constructor]|hd|]. st. apply (IHi S0); [left; reflexivity|]. apply D_rp, H.
  - (* NewObj *) intros is_class t a IHa S0 bare r lr H F. cbn [visit print].
    assert (X : forall r lr, divided r lr -> divided (type_text t ++ T "(" ++ vs (T ", ") a ++ T ")" ++ r) (Word (type_text t) :: Punct (T "(") :: toks (print_args a) ++ Punct (T ")") :: lr)).
    { clear r lr H F. intros r lr H. st. st. apply (IHa S0); [right; reflexivity|]. apply D_rp, H. }
    destruct is_class; fuse; norm.
    + do 3 st. apply X. st. exact H.
    + apply X, H.
  - (* DefaultValue *) intros is_class t _ bare r lr H F. cbn [visit print]. destruct is_class; fuse; norm; repeat st; exact H.
  - (* CallStatic *) intros t m a IHa S0 bare r lr H F. cbn [visit print]. norm. do 4 st. apply (IHa S0); [right; reflexivity|]. apply D_rp, H.
  - (* CallInstance *) intros e IH box arrow m a IHa (S1 & S2 & S3) bare r lr H F. cbn [visit print].
    assert (X : divided ((if arrow then T "->" else T ".") ++ member_text m ++ T "(" ++ vs (T ", ") a ++ T ")" ++ r) (toks ((if arrow then TArrow else TDot) :: TId (Member m) :: TLP :: print_args a ++ [TRP]) ++ lr)).
    { assert (Y := D_member arrow m (T "(" ++ vs (T ", ") a ++ T ")" ++ r) (Punct (T "(") :: toks (print_args a) ++ Punct (T ")") :: lr)). destruct arrow; norm; (apply Y; [hd|]; st; apply (IHa S2); [right; reflexivity|]; apply D_rp, H). }
    destruct box as [t|].
    + norm. revert X. norm. intros X. st. st. apply IH; [exact S1| |fch]. st. exact X.
    + norm. revert X. norm. intros X. apply IH; [exact S1|exact X|]. destruct arrow; [fch|]. apply follows_dot. apply S3; reflexivity.
  - (* Assign *) intros target IHt c e IHe [S1 S2] bare r lr H F. cbn [visit print]. fuse. norm. apply IHt; [exact S1| |fch]. apply D_space, D_assign. apply D_cast. apply IHe; [exact S2|exact H|exact F].
  - (* PreIncrement *) intros up x _ bare r lr H [A B]. cbn [visit print]. norm. apply D_incr, D_word; [apply local_ok|exact A|exact H].
  - (* CompoundStep *) intros e IH up S0 bare r lr H F. cbn [visit print]. norm. apply IH; [exact S0|apply D_incr, H|destruct up; fch].
  - (* Compound *) intros e IHe op x IHx [S1 S2] bare r lr H F. cbn [visit print]. assert (Same : operator_text op = op_punct (operatorSymbols op)) by (destruct op; reflexivity). rewrite Same. norm.
    apply IHe; [exact S1| |fch]. apply D_space, D_compound. apply IHx; [exact S2|exact H|exact F].
  - (* no arguments *) intros _ comma _ r lr H. exact H.
  - (* an argument *) intros c e IH rest IHr [S1 S2] comma Hc r lr H. cbn [visit_args print_args].
    assert (X : divided (match rest with ANil => [] | _ => comma ++ vs comma rest end ++ 41 :: r) (toks match rest with ANil => [] | _ => TComma :: print_args rest end ++ lr) /\ follows e (match rest with ANil => [] | _ => comma ++ vs comma rest end ++ 41 :: r)).
    { destruct rest as [|c' e' rest]; [split; [exact H|fch]|]. specialize (IHr S2 comma Hc r lr H). revert IHr. generalize (vs comma (ACons c' e' rest)), (print_args (ACons c' e' rest)). intros u ts IHr. repeat rewrite <- app_assoc. cbn [flat_map of_token app]. destruct Hc as [-> | ->]; (split; [|fch]).
      - apply D_comma, IHr.
      - apply (D_comma (32 :: u ++ 41 :: r)), D_space, IHr. }
    destruct X as [X G]. destruct c as [t|].
    + rewrite <- app_assoc. rewrite flat_map_app. rewrite flat_map_app. repeat rewrite <- app_assoc. apply D_cast. revert X. generalize (match rest with ANil => [] | _ => comma ++ vs comma rest end ++ 41 :: r), (toks match rest with ANil => [] | _ => TComma :: print_args rest end ++ lr). intros u ls X. norm. st. apply IH; [exact S1| |fch]. st. exact X.
    + rewrite flat_map_app. repeat rewrite <- app_assoc. apply IH; [exact S1|exact X|exact G].
Qed.
End Names.
