(** * C111: the text of an expression is divided by C++ into the tokens meant, and these are read as the expression meant *)
From Coq Require Import String.
From Verif Require Import Tac Base IntModel FormatterModel FormatterSpec FormatterProofs FormatterProperties StatementModel ExprModel ExprSpec ExprProofs ExprProperties LexModel LexSpec LexProofs.
Import ListNotations.

Section Names.
Variable local_text member_text type_text wrap_text : Z -> list Z.
Variable extra : Z -> nat.
Variable contents : Z -> list Z.
Notation v := (visit local_text member_text type_text wrap_text extra contents).
Notation tok := (of_token local_text member_text type_text wrap_text extra contents).
Notation spelled := (spelled local_text member_text type_text wrap_text extra contents).

(** The characters written are divided into exactly one list of tokens: those of the token model.  Partial: names have to be words,
    strings free of surrogates, no number may be followed by a period. *)
Theorem C111_divided_partial e ls : good_names local_text member_text type_text wrap_text -> good_strings contents -> separated e ->
  (divided (v false e) ls <-> ls = flat_map tok (print false e)).
Proof.
  intros GN GS H. assert (D : divided (v false e) (flat_map tok (print false e))).
  { pose proof (proj1 (all_divided _ _ _ _ extra contents GN GS) e H false [] [] D_nil) as X. rewrite !app_nil_r in X. apply X. split; [exact I|]. intros _. exact I. }
  split; [intros K; exact (divided_unique _ _ _ K D)|intros ->; exact D].
Qed.
(** From the characters to the meaning: what C++ reads in the text is the expression meant (C59). *)
Theorem C111_meaning_partial e : good_names local_text member_text type_text wrap_text -> good_strings contents -> separated e -> placed e ->
  exists ts, spelled (v false e) ts /\ (forall t, reads ts t <-> t = meant e).
Proof.
  intros GN GS H P. exists (print false e). split; [apply (C111_divided_partial e); auto|]. intros t. apply C59_groups_partial, P.
Qed.
(** Whatever follows: an operator with blanks, a comma, a semicolon, a parenthesis. *)
Theorem C111_context_partial e c r ls : good_names local_text member_text type_text wrap_text -> good_strings contents -> separated e ->
  In c [32; 40; 41; 44; 59; 63; 58; 93] -> divided (c :: r) ls -> divided (v false e ++ c :: r) (flat_map tok (print false e) ++ ls).
Proof.
  intros GN GS H C D. apply (proj1 (all_divided _ _ _ _ extra contents GN GS) e H false); [exact D|]. cbn [In] in C.
  repeat (destruct C as [<-|C]; [apply follows_char; [reflexivity|discriminate|discriminate]|]). contradiction.
Qed.
(** Two expressions with the same text consist of the same tokens; neither is read as part of the other. *)
Theorem C111_unambiguous_partial a b : good_names local_text member_text type_text wrap_text -> good_strings contents -> separated a -> separated b ->
  v false a = v false b -> flat_map tok (print false a) = flat_map tok (print false b).
Proof. intros GN GS A B E. apply (C111_divided_partial b); auto. rewrite <- E. apply (C111_divided_partial a); auto. Qed.
(** A number directly before a period: the number, the period and the name are one token. *)
Theorem C111_number_dot_refuted n f : good_names local_text member_text type_text wrap_text -> 0 <= n < 2 ^ 63 -> constantConversions n = None ->
  divided (v false (LdFlda (LdcI4' n) false f)) [Number (print_u n ++ T "." ++ member_text f)] /\ placed (LdFlda (LdcI4' n) false f).
Proof.
  intros GN N E. split; [|cbn [placed level]; rewrite E; split; [exact I|destruct (n <? 0) eqn:X; [lia|reflexivity]]].
  cbn [visit]. unfold constant_text. rewrite E. unfold print_d. replace (n <? 0) with false by lia.
  assert (B : 0 <= n < IntProofs.two64) by (unfold IntProofs.two64; lia). destruct (IntProofs.print_u_spec n B) as (_ & F & Ne). apply digit_same in F. destruct (GN f) as (_ & [A W] & _).
  revert F Ne A W. generalize (print_u n), (member_text f). intros w m F Ne A W. destruct w as [|c w]; [contradiction|]. inversion F as [|? ? D F']; subst.
  exists 2%nat. cbn [app]. cbn [scan]. pose proof D as D'. unfold digit in D'. replace (blank c) with false by (unfold blank; lia). rewrite read_not_quote by lia.
  assert (L : letter c = false) by (unfold letter; lia). rewrite L. cbn [starts_number]. rewrite D. cbn [orb].
  assert (Q : forall u prev, Forall (fun c => word_char c = true) u -> pp_number prev u = (u, [])).
  { induction u as [|x u IH]; intros prev Fu; [reflexivity|]. inversion Fu as [|? ? X Y]; subst. cbn [pp_number]. rewrite X. cbn [orb]. rewrite (IH x Y). reflexivity. }
  assert (Q2 : forall u prev, Forall (fun c => digit c = true) u -> pp_number prev (u ++ T "." ++ m) = (u ++ T "." ++ m, [])).
  { induction u as [|x u IH]; intros prev Fu; [cbn [app T pp_number]; change (word_char (Z.of_N (Ascii.N_of_ascii (Ascii.Ascii false true true true false true false false)))) with false; cbn [orb andb Z.eqb Z.of_N Ascii.N_of_ascii Ascii.N_of_digits]; rewrite (Q m _ W); reflexivity|].
    inversion Fu as [|? ? X Y]; subst. cbn [app pp_number]. unfold word_char. rewrite X, Bool.orb_true_r. cbn [orb]. rewrite (IH x Y). reflexivity. }
  specialize (Q2 (c :: w) c F). cbn [app] in Q2. rewrite Q2. reflexivity.
Qed.
End Names.

(** ** Names *)
(** [AppendName] writes a word for a C# name that is one (C55). *)
Theorem C111_names env n m : word_text n -> mangle env n = Ret m -> word_text m.
Proof.
  intros W E. destruct (mangle_cases env n m E) as [(-> & _)|[(_ & ->)|(-> & _)]]; [exact W|split; [reflexivity|repeat constructor]|].
  destruct W as [_ W]. split; [reflexivity|]. apply Forall_app. split; [repeat constructor|exact W].
Qed.
(** VisitLdsFlda writes field names as they are: the static field behind the automatic property P is called <P>k__BackingField.
    The text is divided at < and >. *)
Theorem C111_static_property_refuted env p t : word_text p -> word_text t -> IsLower env 60 = false ->
  exists m, mangle env (T "<" ++ p ++ T ">k__BackingField") = Ret m /\
    divided (visit (fun _ => []) (fun _ => m) (fun _ => t) (fun _ => t) (fun _ => O) (fun _ => []) false (LdsFlda 1 2))
      [Word t; Punct (T "::"); Punct (T "<"); Word p; Punct (T ">"); Word (T "k__BackingField")].
Proof.
  intros P W L. exists (T "<" ++ p ++ T ">k__BackingField"). split.
  - destruct (C55_total env (T "<" ++ p ++ T ">k__BackingField")) as [m E]; [discriminate|]. rewrite E. f_equal. destruct (mangle_cases env _ m E) as [(-> & _)|[(N & _)|(_ & X & _)]]; [reflexivity|discriminate N|].
    unfold lower_name in X. cbn in X. congruence.
  - cbn [visit]. apply D_word; [exact W|split; [reflexivity|discriminate]|]. apply D_scope.
    change (T ">k__BackingField") with (T ">" ++ T "k__BackingField").
    assert (K : divided (T ">" ++ T "k__BackingField") [Punct (T ">"); Word (T "k__BackingField")]) by (exists 4%nat; reflexivity).
    assert (D : divided (p ++ T ">" ++ T "k__BackingField") [Word p; Punct (T ">"); Word (T "k__BackingField")]) by (apply D_word; [exact P|split; [reflexivity|discriminate]|exact K]).
    destruct P as [A _]. destruct p as [|c p]; [contradiction|]. apply letter_range in A. eapply D_punct; [reflexivity|reflexivity|reflexivity|reflexivity| |exact D].
    cbn [app T]. cbn. differ 61 c. differ 60 c. differ 58 c. differ 37 c. reflexivity.
Qed.
Definition names (p : string) (i : Z) : list Z := T p ++ (if i =? 1 then T "A" else if i =? 2 then T "B" else T "C").
Example C111_example :
  good_names (names "x_v") (names "M") (names "K") (names "W") /\ good_strings (fun _ => T "L""a" ++ [945; 10]) /\
  let e := CallInstance (LdLoc 1) None true 2 (ACons (Some 1) (Binary Sub StackI4 (LdLoc 2) (LdcI4' (-5))) (ACons None (LdStr 1) ANil)) in
  separated e /\ placed e /\
  visit (names "x_v") (names "M") (names "K") (names "W") (fun _ => O) (fun _ => T "L""a" ++ [945; 10]) false e = T "x_vA->MB((KA)((x_vB - -5)), (new String(L""L\""a\u03b1\n"")))".
Proof.
  split; [intros i; unfold names; destruct (i =? 1), (i =? 2); repeat split; repeat constructor|]. split; [intros s; split; repeat constructor; discriminate|].
  cbv zeta. split; [cbn [separated separated_args]; lia|]. split; [cbn [placed placed_args level]; repeat split; try (right; cbn; lia); auto|]. vm_compute. reflexivity.
Qed.
Print Assumptions C111_divided_partial.
Print Assumptions C111_meaning_partial.
Print Assumptions C111_context_partial.
Print Assumptions C111_unambiguous_partial.
Print Assumptions C111_number_dot_refuted.
Print Assumptions C111_names.
Print Assumptions C111_static_property_refuted.
