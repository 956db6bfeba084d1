(** * C117: parameters are declared and defined with the same types and names

    C113 and C114 read the types of parameters only. Here the head of a function is read with the names: what the header and the
    source write between the result type and the body. *)
From Coq Require Import String.
From Verif Require Import Tac Base IntModel FormatterModel FormatterSpec TranslatorModel MemberModel LexSpec LexProofs BodyTextSpec BodyTextProofs BodyWriteProofs HeaderTextModel HeaderTextSpec HeaderTextProofs HeaderReadProofs HeaderFileProofs HeaderTextProperties
  SourceTextModel SourceFileProofs.
Import ListNotations.
Local Open Scope list_scope.

(** ** The reader *)
(** type, pointers and references, name *)
Definition named_param (ls : list lexeme) : option (ctype * list Z) :=
  match ls with
  | x :: r => match type_word x, marks r with Some w, (m, [y]) => match name_of y with Some v => Some (mk_ctype w m, v) | None => None end | _, _ => None end
  | [] => None
  end.
Definition named_params (ls : list lexeme) : option (list (ctype * list Z)) :=
  match expect "(" ls with
  | Some r => match until ")" r with Some ([], []) => Some [] | Some (a, []) => all named_param (split "," a) | _ => None end
  | None => None
  end.
(** name ( parameters ), or class :: name ( parameters ) *)
Definition function_head (ls : list lexeme) : option (list (list Z) * list (ctype * list Z)) :=
  match ls with
  | x :: r =>
      match name_of x, expect "::" r with
      | Some c, Some (y :: r) => match name_of y, named_params r with Some w, Some ps => Some ([c; w], ps) | _, _ => None end
      | Some w, None => match named_params r with Some ps => Some ([w], ps) | None => None end
      | _, _ => None
      end
  | [] => None
  end.
Definition read_head (t : list Z) (h : list (list Z) * list (ctype * list Z)) : Prop := exists ls, divided t ls /\ function_head ls = Some h.
(** what is meant: parameter [j] of the method number [k] *)
Definition parameters_meant (lower : Z -> bool) (name_text : Z -> list Z) (param_text : nat -> nat -> list Z) (k : nat) (ps : list param) : list (ctype * list Z) :=
  combine (map (param_for lower name_text) ps) (map (fun j => spelled lower (param_text k j)) (seq 0 (length ps))).

(** ** Proofs *)
Section Env.
Variable env : dotnet.
Variable name_text : Z -> text.
Variable param_text : nat -> nat -> text.
Hypothesis GN : HeaderTextSpec.good_names name_text param_text.
Hypothesis AL : ascii_lower (IsLower env).
Notation sp := (spelled (IsLower env)).
Notation plex := (param_lex env name_text param_text).
Notation pslex := (params_lex env name_text param_text).
Lemma named_param_of ls c : param_of ls = Some c -> exists v, named_param ls = Some (c, v) /\ exists i, ls = i ++ [Word v].
Proof.
  destruct ls as [|x r]; [discriminate|]. cbn [param_of named_param]. destruct (type_word x) as [w|]; [|discriminate]. destruct (marks r) as [m [|y [|z q]]] eqn:M; try discriminate.
  destruct (name_of y) as [v|] eqn:N; [|discriminate]. intros [= <-]. exists v. split; [reflexivity|].
  assert (X : forall r m q, marks r = (m, q) -> exists i, r = i ++ q).
  { clear. induction r as [|x r IH]; intros m q H; cbn [marks] in H; [injection H as <- <-; exists []; reflexivity|].
    destruct (is_punct x "*"); [|destruct (is_punct x "&")]; [destruct (marks r) as [m' q'] eqn:E; injection H as <- <-; destruct (IH _ _ eq_refl) as [i ->]; exists (x :: i); reflexivity|destruct (marks r) as [m' q'] eqn:E; injection H as <- <-; destruct (IH _ _ eq_refl) as [i ->]; exists (x :: i); reflexivity|injection H as <- <-; exists []; reflexivity]. }
  destruct (X _ _ _ M) as [i ->]. exists (x :: i). destruct y as [u|u|u|u]; try discriminate N. unfold name_of in N. destruct (keyword u); [discriminate N|]. injection N as ->. reflexivity.
Qed.
Lemma named_one k j p : writable (p_type p) -> named_param (plex k j p) = Some (param_for (IsLower env) name_text p, sp (param_text k j)).
Proof.
  intros W. pose proof (read_param env name_text param_text GN AL k j p (wtype_of _ W)) as R. destruct (named_param_of _ _ R) as (v & E & i & L). rewrite E. f_equal. f_equal.
  - pose proof (params_same env name_text [p] (Forall_cons p W (Forall_nil _))) as Y. exact (f_equal (hd (mk_ctype [] [])) Y).
  - unfold param_lex in L. rewrite app_assoc in L. apply app_inj_tail in L. destruct L as [_ L]. injection L as <-. reflexivity.
Qed.
Lemma numbered {A} (h : nat -> A -> ctype * list Z) (c : A -> ctype) (v : nat -> list Z) : (forall j p, h j p = (c p, v j)) -> forall l k, map (fun q => h (fst q) (snd q)) (combine (seq k (length l)) l) = combine (map c l) (map v (seq k (length l))).
Proof. intros H. induction l as [|a l IH]; intros k; [reflexivity|]. cbn [length seq combine map fst snd]. rewrite H, IH. reflexivity. Qed.
Lemma named_all k ps : writable_params ps -> named_params (pslex k ps) = Some (parameters_meant (IsLower env) name_text param_text k ps).
Proof.
  intros W. unfold params_lex, named_params. cbn [app expect]. match goal with |- context [if ?b then _ else _] => change b with true end. cbv iota.
  assert (U : until ")" (list_lex (plex k) 0 true ps ++ [P ")"]) = Some (list_lex (plex k) 0 true ps, [])) by (apply until_plain; eapply Forall_impl; [|apply args_closing]; intros x H; exact H).
  rewrite U.
  destruct ps as [|p ps]; [reflexivity|]. unfold parameters_meant.
  assert (R : all named_param (split "," (list_lex (plex k) 0 true (p :: ps))) = Some (combine (map (param_for (IsLower env) name_text) (p :: ps)) (map (fun j => sp (param_text k j)) (seq 0 (length (p :: ps)))))).
  { rewrite split_list; [|intros j q _; apply simple_free; [apply param_simple|discriminate|discriminate]|discriminate].
    rewrite (all_map named_param _ (fun q => (param_for (IsLower env) name_text (snd q), sp (param_text k (fst q))))).
    - f_equal. apply (numbered (fun j q => (param_for (IsLower env) name_text q, sp (param_text k j)))). reflexivity.
    - intros [j q] H. apply named_one. exact (proj1 (Forall_forall _ _) W q (in_combine_r _ _ _ _ H)). }
  rewrite R. cbn [list_lex negb app]. unfold param_lex at 1, type_lex at 1. reflexivity.
Qed.
End Env.
Section Theorems.
Variable env : dotnet.
Variable name_text : Z -> text.
Variable param_text : nat -> nat -> text.
(** The header: the head of method number [k], named [n]. *)
Theorem C117_declared : forall k n ps f g, HeaderTextSpec.good_names name_text param_text -> ascii_lower (IsLower env) -> n <> 0 -> writable_params ps ->
  WriteMethodHeader_text env name_text param_text k (name_text n) ps f = Ret g ->
  exists t, buffer g = buffer f ++ t /\ read_head t ([spelled (IsLower env) (name_text n)], parameters_meant (IsLower env) name_text param_text k ps).
Proof.
  intros k n ps f g GN AL N W H. pose proof (wparams_of ps W) as WP.
  unfold WriteMethodHeader_text in H. destruct (says_name env (name_text n) (indentLevel f) (word_nonempty _ (name_word name_text param_text GN n)) f eq_refl) as (x & E & B & L & _). rewrite E in H. cbn [bind] in H.
  destruct (says_params env name_text param_text GN AL k ps _ WP x L) as (y & E' & B' & _). rewrite E' in H. injection H as <-.
  exists (spelled (IsLower env) (name_text n) ++ params_chars env name_text param_text k ps). split; [rewrite B', B, <- app_assoc; reflexivity|].
  exists (Word (spelled (IsLower env) (name_text n)) :: params_lex env name_text param_text k ps). split.
  - pose proof (params_closed env name_text param_text GN k ps WP [] [] (ex_intro _ 1%nat eq_refl)) as D. rewrite !app_nil_r in D. apply D_word; [apply (cname_word env name_text param_text GN)|split; [reflexivity|discriminate]|exact D].
  - cbn [function_head]. unfold name_of. rewrite (cname_keyword env name_text param_text GN AL n N). unfold params_lex at 1. cbn [expect]. match goal with |- context [if ?b then _ else _] => change b with false end. cbv iota. fold (params_lex env name_text param_text k ps).
    rewrite (named_all env name_text param_text GN AL k ps W). reflexivity.
Qed.
(** The source: the same after the scope. *)
Theorem C117_defined : forall c k n ps f g, HeaderTextSpec.good_names name_text param_text -> ascii_lower (IsLower env) -> c_name c <> 0 -> n <> 0 -> writable_params ps ->
  WriteMethodHeader_source env name_text param_text c k (name_text n) ps f = Ret g ->
  exists t, buffer g = buffer f ++ t /\ read_head t ([spelled (IsLower env) (name_text (c_name c)); spelled (IsLower env) (name_text n)], parameters_meant (IsLower env) name_text param_text k ps).
Proof.
  intros c k n ps f g GN AL C N W H. pose proof (wparams_of ps W) as WP.
  pose proof (header_adds env name_text param_text GN AL c k (name_text n) ps f g (word_nonempty _ (name_word name_text param_text GN n)) W H) as A.
  eexists. split; [apply A|].
  exists (Word (spelled (IsLower env) (name_text (c_name c))) :: P "::" :: Word (spelled (IsLower env) (name_text n)) :: params_lex env name_text param_text k ps). split.
  - pose proof (scoped env name_text param_text GN (c_name c) (spelled (IsLower env) (name_text n)) _ _ (cname_word env name_text param_text GN n) (params_start env name_text param_text k ps) (params_closed env name_text param_text GN k ps WP) [] [] (ex_intro _ 1%nat eq_refl)) as D.
    rewrite !app_nil_r in D. exact D.
  - cbn [function_head]. unfold name_of. rewrite (cname_keyword env name_text param_text GN AL _ C).
    cbn [expect]. match goal with |- context [if ?b then _ else _] => change b with true end. cbv iota. rewrite (cname_keyword env name_text param_text GN AL n N). rewrite (named_all env name_text param_text GN AL k ps W). reflexivity.
Qed.
End Theorems.
(** One text has one reading. *)
Theorem C117_one_reading : forall t a b, read_head t a -> read_head t b -> a = b.
Proof. intros t a b (la & Da & Ra) (lb & Db & Rb). pose proof (divided_unique _ _ _ Da Db). subst lb. congruence. Qed.

(** ** The theorems have cases: a reference, an array and a value *)
Definition sample_params : list param := [mk_param (ByReference (Named KStruct true 8)) PRef; mk_param (ArrayOf (Named KClass false 2)) PNone; mk_param (Named KStruct true 1) PNone].
Definition sample_meant : list (ctype * list Z) := [(mk_ctype (T "T8") [Reference], T "x_p0"); (mk_ctype (T "Array") [Pointer], T "x_p1"); (mk_ctype (T "Boolean") [], T "x_p2")].
Example C117_example : HeaderTextSpec.good_names name par /\ ascii_lower (IsLower lf) /\ writable_params sample_params /\
  (exists g, WriteMethodHeader_text lf name par 0 (name 3) sample_params new_formatter = Ret g /\ buffer g = T "x_f3(T8&  x_p0,Array* x_p1,Boolean x_p2)" /\ read_head (buffer g) ([T "x_f3"], sample_meant)) /\
  exists g, WriteMethodHeader_source lf name par (mk_class KClass 2 []) 0 (name 3) sample_params new_formatter = Ret g /\ buffer g = T "T2::x_f3(T8&  x_p0,Array* x_p1,Boolean x_p2)" /\ read_head (buffer g) ([T "T2"; T "x_f3"], sample_meant).
Proof.
  assert (W : writable_params sample_params) by (apply Forall_cons; [exact Logic.I|]; apply Forall_cons; [exact Logic.I|]; apply Forall_cons; [exact Logic.I|]; apply Forall_nil).
  split; [exact name_good|]. split; [exact (proj2 lf_good)|]. split; [exact W|]. split.
  - eexists. split; [vm_compute; reflexivity|]. split; [vm_compute; reflexivity|].
    match goal with |- read_head ?b _ => let s := eval vm_compute in (scan (S (length b)) b) in match s with Some ?ls => exists ls; split; [exists (S (length b)); vm_compute; reflexivity|vm_compute; reflexivity] end end.
  - eexists. split; [vm_compute; reflexivity|]. split; [vm_compute; reflexivity|].
    match goal with |- read_head ?b _ => let s := eval vm_compute in (scan (S (length b)) b) in match s with Some ?ls => exists ls; split; [exists (S (length b)); vm_compute; reflexivity|vm_compute; reflexivity] end end.
Qed.
Print Assumptions C117_declared.
Print Assumptions C117_defined.
Print Assumptions C117_one_reading.
Print Assumptions C117_example.
