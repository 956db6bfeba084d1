(** * Lemmas for C113: the declarations of a class are read *)
From Coq Require Import String.
From Verif Require Import Tac Base FormatterModel FormatterSpec MemberModel LexSpec LexProofs BodyTextSpec BodyTextProofs BodyWriteProofs HeaderTextModel HeaderTextSpec HeaderTextProofs HeaderReadProofs.
Import ListNotations.
Local Open Scope list_scope.

Definition plain (x : lexeme) : Prop := is_punct x ";" = false /\ is_punct x "{" = false /\ is_punct x "}" = false.
Definition head_ok (c : list lexeme) : Prop := match c with x :: _ => is_word x "public" = false /\ is_word x "private" = false | [] => False end.
(** braces of the lexemes match *)
Definition balanced (c : list lexeme) : Prop := forall d r, braces d (c ++ r) = match braces d r with Some (a, b) => Some (c ++ a, b) | None => None end.
Lemma balanced_nil : balanced [].
Proof. intros d r. cbn [app]. destruct (braces d r) as [[a b]|]; reflexivity. Qed.
Lemma balanced_app a b : balanced a -> balanced b -> balanced (a ++ b).
Proof. intros A B d r. rewrite <- app_assoc, A, B. destruct (braces d r) as [[x y]|]; [|reflexivity]. rewrite app_assoc. reflexivity. Qed.
Lemma balanced_one x : is_punct x "{" = false -> is_punct x "}" = false -> balanced [x].
Proof. intros A B d r. cbn [app braces]. rewrite A, B. destruct (braces d r) as [[u v]|]; reflexivity. Qed.
Lemma balanced_plain c : Forall plain c -> balanced c.
Proof. induction c as [|x c IH]; intros F; [apply balanced_nil|]. inversion F as [|? ? (_ & A & B) F']; subst. apply (balanced_app [x]); [apply balanced_one; assumption|apply IH, F']. Qed.
Lemma balanced_pair : balanced [P "{"; P "}"].
Proof. intros d r. cbn. destruct (braces d r) as [[u v]|]; reflexivity. Qed.

Section Env.
Variable env : dotnet.
Variable name_text : Z -> text.
Variable param_text : nat -> nat -> text.
Variable absent : absence.
Hypothesis GN : HeaderTextSpec.good_names name_text param_text.
Hypothesis AL : ascii_lower (IsLower env).
Notation sp := (spelled (IsLower env)).
Notation ct := (ctype_of (IsLower env) name_text).
Notation tlex := (type_lex env name_text).
Notation pslex := (params_lex env name_text param_text).
Notation mm := (meant (IsLower env) name_text).
Notation chk := (chunks env name_text param_text absent).
Definition good_chunk (w : list Z) (c : list lexeme) (ms : list cmember) : Prop := free ";" c /\ balanced c /\ head_ok c /\ member_of w Public c = Some ms.
Lemma good_plain w c ms : Forall plain c -> head_ok c -> member_of w Public c = Some ms -> good_chunk w c ms.
Proof. intros F H M. repeat split; [|apply balanced_plain, F|exact H|exact M]. eapply Forall_impl; [|exact F]. intros x Q. apply Q. Qed.
Lemma plain_simple x : simple x -> plain x.
Proof. intros H. unfold plain. rewrite !(simple_not x _ H) by discriminate. auto. Qed.
Lemma plain_type t : Forall plain (tlex t).
Proof. eapply Forall_impl; [apply plain_simple|apply type_simple]. Qed.
Ltac pl := repeat split; reflexivity.
Lemma plain_params k ps : Forall plain (pslex k ps).
Proof.
  unfold params_lex. constructor; [pl|]. apply Forall_app. split; [|constructor; [pl|constructor]]. apply list_lex_all; [pl|]. intros j p _. eapply Forall_impl; [apply plain_simple|apply param_simple].
Qed.
Lemma plain_mods l : Forall plain (mods_lex l).
Proof. induction l as [|m l IH]; [constructor|]. apply Forall_app. split; [|exact IH]. destruct (says_static m); [|destruct (says_virtual m)]; repeat constructor. Qed.
Lemma plain_names l : Forall plain (names_lex env name_text l).
Proof. apply list_lex_all; [pl|]. intros k n _. repeat constructor. Qed.
Lemma head_type mods t r : wtype t -> head_ok (mods_lex mods ++ tlex t ++ r).
Proof.
  intros W. induction mods as [|m mods IH].
  - cbn [mods_lex flat_map app type_lex]. split; eapply (type_start env name_text param_text GN AL); try exact W; reflexivity.
  - change (mods_lex (m :: mods)) with ((if says_static m then [Word (T "static")] else if says_virtual m then [Word (T "virtual")] else []) ++ mods_lex mods).
    destruct (says_static m); [split; reflexivity|]. destruct (says_virtual m); [split; reflexivity|exact IH].
Qed.
Lemma head_word w r : keyword w = false -> head_ok (Word w :: r).
Proof. intros K. split; apply not_special; (exact K || reflexivity). Qed.
Ltac pln := repeat first [apply Forall_nil | apply plain_type | apply plain_params | apply plain_mods | apply plain_names | apply Forall_app; split | apply Forall_cons; [pl|]].
Lemma wr_named k n : wtype (Named k false n). Proof. exact Logic.I. Qed.
Lemma chunks_read cls k m ds : cls <> 0 -> rmember m -> declare absent m = Ret ds ->
  exists mss, Forall2 (good_chunk (sp (name_text cls))) (chk cls k m) mss /\ concat mss = map (mm cls) ds.
Proof.
  intros C R D. pose proof (cname_keyword env name_text param_text GN AL cls C) as KC.
  destruct m as [mods r n ps body|mods ps b|mods ty n get set hidden|mods const ty names|op r ps b]; cbn [rmember] in R; cbn [chunks].
  - destruct R as (N0 & CS & CV & W & WP). cbn [declare] in D. injection D as <-. eexists. split; [constructor; [|constructor]|].
    + apply good_plain; [destruct body; pln|apply head_type, W|].
      eapply (read_function env name_text param_text GN AL); [exact CS|exact CV|exact W|apply (cname_keyword env name_text param_text GN AL), N0| |].
      * apply (read_call env name_text param_text GN AL), WP.
      * instantiate (1 := match body with None => PureVirtual | _ => Declaration end). destruct body; reflexivity.
    + cbn [concat map app]. unfold meant. cbn [is_static is_virtual what ret name params option_map form_of_declared id_text]. rewrite has_static, has_virtual. destruct body; reflexivity.
  - cbn [declare] in D. destruct (has MStatic mods).
    + injection D as <-. eexists. split; [constructor; [|constructor; [|constructor]]|].
      * apply good_plain; [pln|split; reflexivity|].
        replace [Word (T "static"); Word (T "Boolean"); Word (sp (name_text cls) ++ T "_Static"); P "("; P ")"] with (mods_lex [MStatic] ++ tlex (Named KStruct false 1) ++ Word (sp (name_text cls) ++ T "_Static") :: [P "("; P ")"]) by (unfold type_lex, type_name_text; rewrite (boolean_spelled env name_text param_text GN AL); reflexivity).
        eapply (read_function env name_text param_text GN AL); [auto|auto|exact Logic.I|apply no_suffix; reflexivity|apply call_none|reflexivity].
      * apply good_plain; [pln|split; reflexivity|].
        replace [Word (T "static"); Word (T "Boolean"); Word (sp (name_text cls) ++ T "_Initilized")] with (mods_lex [MStatic] ++ tlex (Named KStruct false 1) ++ [Word (sp (name_text cls) ++ T "_Initilized")]) by (unfold type_lex, type_name_text; rewrite (boolean_spelled env name_text param_text GN AL); reflexivity).
        apply (read_datum env name_text param_text GN AL); [auto|reflexivity|exact Logic.I|apply no_suffix; reflexivity].
      * reflexivity.
    + injection D as <-. eexists. split; [constructor; [|constructor]|].
      * apply good_plain; [pln|apply head_word, KC|]. eapply read_constructor; [exact KC|rewrite <- (app_nil_r (pslex k ps)); apply (read_call env name_text param_text GN AL), R|reflexivity].
      * reflexivity.
  - cbn [declare] in D. destruct (body_of get); try discriminate D. injection D as <-.
    assert (KH : keyword (hidden_chars name_text n) = false) by (apply no_suffix; reflexivity).
    exists ((if present absent get then [[mm cls (mk_declared false false Prototype (Some (FormatTypeDelaration ty)) (Getter n) [])]] else []) ++ (if present absent set then [[mm cls (mk_declared false false Prototype (Some void_type) (Setter n) (value_param ty))]] else []) ++ (if hidden then [[mm cls (mk_declared false false Variable_ (Some (FormatTypeDelaration ty)) (Backing n) [])]] else [])).
    split; [apply Forall2_app; [|apply Forall2_app]|].
    + destruct (present absent get); constructor; [|constructor]. apply good_plain; [pln|apply (head_type []), R|].
      eapply (read_function env name_text param_text GN AL _ [] ty); [auto|auto|exact R|apply no_prefix; reflexivity|apply call_none|reflexivity].
    + destruct (present absent set); constructor; [|constructor]. apply good_plain; [pln|split; reflexivity|].
      assert (E : member_of (sp (name_text cls)) Public (mods_lex [] ++ tlex (Named KStruct false 0) ++ Word (T "set_" ++ name_text n) :: P "(" :: tlex ty ++ [Word (T "x_value"); P ")"]) = Some [mm cls (mk_declared false false Prototype (Some void_type) (Setter n) (value_param ty))]).
      { eapply (read_function env name_text param_text GN AL _ [] (Named KStruct false 0)); [auto|auto|exact Logic.I|apply no_prefix; reflexivity| |].
        - rewrite <- (app_nil_r (tlex ty ++ [Word (T "x_value"); P ")"])). apply (read_value env name_text param_text GN AL), R.
        - reflexivity. }
      rewrite <- E. unfold type_lex at 2, type_name_text. rewrite (void_spelled env name_text param_text GN AL). reflexivity.
    + destruct hidden; constructor; [|constructor]. apply good_plain; [pln|apply (head_type []), R|].
      apply (read_datum env name_text param_text GN AL _ [] ty); [auto|reflexivity|exact R|exact KH].
    + destruct (present absent get), (present absent set), hidden; reflexivity.
  - destruct R as (N0 & W & PL). cbn [declare] in D. destruct names as [|n names]; [discriminate D|]. injection D as <-. eexists. split; [constructor; [|constructor]|].
    + assert (E : (if is_static_field mods const then [Word (T "static")] else []) = mods_lex (if is_static_field mods const then [MStatic] else [])) by (destruct (is_static_field mods const); reflexivity). rewrite E.
      apply good_plain; [pln|apply head_type, W|]. apply (read_data env name_text param_text GN AL _ (if is_static_field mods const then [MStatic] else []) ty (n :: names)); [destruct (is_static_field mods const); auto|destruct (is_static_field mods const); reflexivity|exact W|discriminate|exact N0|exact PL].
    + cbn [concat]. rewrite app_nil_r. cbn [map]. rewrite map_map. unfold is_static_field. destruct (has MStatic mods || const); reflexivity.
  - destruct R as (WP & W). destruct r as [kd w n|e|e]; try destruct W. cbn [declare VisitAstType bind] in D. destruct w; [destruct W|].
    destruct op as [| | |o]; cbn [bind Operators] in D; try discriminate D; injection D as <-; eexists; (split; [constructor; [|constructor]|]);
    try (apply good_plain; [pln|split; reflexivity|]; eapply (read_function env name_text param_text GN AL _ [MStatic] (Named KStruct false n)); [auto|auto|exact Logic.I|reflexivity|rewrite <- (app_nil_r (pslex k ps)); apply (read_call env name_text param_text GN AL), WP|reflexivity]); reflexivity.
Qed.
End Env.
