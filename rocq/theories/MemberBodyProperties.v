(** * C91: arguments of base constructors.  C92: casts of returned values *)
From Verif Require Import Base Tac MemberModel MemberBodyModel.

(** ** C91: what the argument list means in C++ and in C# *)
Section Values.
Variable V : Type.
Variable literal : Z -> V.      (* the value of a literal, of a parameter, of null and of any other expression *)
Variable variable_ : Z -> V.
Variable null : V.
Variable other : Z -> V.
Definition token_value (t : arg_token) : option V := match t with TLiteral v => Some (literal v) | TName n => Some (variable_ n) | TNull => Some null | TComma => None end.
(** C++: one expression per argument, separated by commas *)
Inductive cpp_arguments : list arg_token -> list V -> Prop :=
  | no_arguments : cpp_arguments [] []
  | last_argument t v : token_value t = Some v -> cpp_arguments [t] [v]
  | more_arguments t v ts vs : token_value t = Some v -> ts <> [] -> cpp_arguments ts vs -> cpp_arguments (t :: TComma :: ts) (v :: vs).
Fixpoint ast_value (e : ast) : V :=
  match e with ALiteral v => literal v | AName n => variable_ n | ANull => null | ANamed _ e => ast_value e | ASilent i | AFails i => other i end.
(** C#: [ns] are the names of the constructor's parameters *)
Definition cs_arguments (ns : list Z) (args : list ast) (vs : list V) : Prop :=
  length vs = length ns /\ forall i n v, nth_error ns i = Some n -> nth_error vs i = Some v ->
    (exists e, In (ANamed n e) args /\ v = ast_value e) \/ (forall e, ~ In (ANamed n e) args) /\ exists e, nth_error args i = Some e /\ (forall m e', e <> ANamed m e') /\ v = ast_value e.
Definition simple (e : ast) : Prop := match e with ALiteral _ | AName _ | ANull => True | _ => False end.
Lemma simple_token e : simple e -> exists t, VisitExpression e = Ret [t] /\ token_value t = Some (ast_value e).
Proof. destruct e; intros []; eexists; split; reflexivity. Qed.
Lemma simple_list l : Forall simple l -> exists ts, WriteCommaSeparatedList true l = Ret ts /\ cpp_arguments ts (map ast_value l).
Proof.
  assert (X : forall l, Forall simple l -> exists ts, WriteCommaSeparatedList false l = Ret ts /\ match l with [] => ts = [] | _ => exists u, ts = TComma :: u /\ u <> [] /\ cpp_arguments u (map ast_value l) end).
  { intros m F. induction F as [|e m He F IH]; [exists []; split; reflexivity|]. destruct IH as (ts & E & R). destruct (simple_token e He) as (t & Et & Vt). cbn [WriteCommaSeparatedList]. rewrite Et, E. cbn [bind app]. eexists. split; [reflexivity|].
    exists (t :: ts). split; [reflexivity|]. split; [discriminate|]. cbn [map]. destruct m as [|e' m]; [subst ts; constructor; exact Vt|]. destruct R as (u & -> & Nu & R). constructor; assumption. }
  intros F. destruct F as [|e m He F]; [exists []; split; [reflexivity|constructor]|]. destruct (X m F) as (ts & E & R). destruct (simple_token e He) as (t & Et & Vt). cbn [WriteCommaSeparatedList]. rewrite Et, E. cbn [bind app]. eexists. split; [reflexivity|].
  cbn [map]. destruct m as [|e' m]; [subst ts; constructor; exact Vt|]. destruct R as (u & -> & Nu & R). constructor; assumption.
Qed.
Lemma nth_error_same {A} (a b : list A) : (forall i, nth_error a i = nth_error b i) -> a = b.
Proof.
  revert b. induction a as [|x a IH]; intros [|y b] H; [reflexivity|discriminate (H O)|discriminate (H O)|].
  pose proof (H O) as E. injection E as ->. f_equal. apply IH. intros i. exact (H (S i)).
Qed.
(** C91: with literals, parameters and null as arguments, the base constructor gets the values C# gives it. *)
Theorem C91_base_partial : forall t ns args vs, Forall simple args -> length args = length ns -> cs_arguments ns args vs ->
  exists ts, VisitConstructorInitializer Base t args = Ret (CallBase t, ts) /\ cpp_arguments ts vs.
Proof.
  intros t ns args vs F L (Lv & H). destruct (simple_list args F) as (ts & E & R). exists ts. unfold VisitConstructorInitializer. rewrite E. split; [reflexivity|].
  replace vs with (map ast_value args); [exact R|]. apply nth_error_same. intros i. rewrite nth_error_map.
  destruct (nth_error args i) as [e|] eqn:Ei; cbn [option_map].
  - assert (I : (i < length args)%nat) by (apply nth_error_Some; congruence). destruct (nth_error ns i) as [n|] eqn:En; [|apply nth_error_None in En; lia]. destruct (nth_error vs i) as [v|] eqn:Ev; [|apply nth_error_None in Ev; lia].
    destruct (H i n v En Ev) as [(e' & I' & _)|(_ & e' & Ee & _ & ->)]; [rewrite Forall_forall in F; destruct (F _ I')|rewrite Ei in Ee; injection Ee as <-; reflexivity].
  - apply nth_error_None in Ei. symmetry. apply nth_error_None. lia.
Qed.
End Values.
(** C91: any other argument is left out without a message - the base class's constructor without
    arguments runs, if there is one - or stops the translation. *)
Theorem C91_dropped_refuted : forall t i, VisitConstructorInitializer Base t [ASilent i] = Ret (CallBase t, []) /\ VisitConstructorInitializer Base t [AFails i] = Exn NotImplementedException.
Proof. intros. split; reflexivity. Qed.
Theorem C91_dropped_first_refuted : forall V literal variable_ null t i n vs, exists ts, VisitConstructorInitializer Base t [ASilent i; AName n] = Ret (CallBase t, ts) /\ ~ cpp_arguments V literal variable_ null ts vs.
Proof.
  intros. eexists. split; [reflexivity|]. cbn [app]. intros H. inversion H as [|? ? E|? ? ? ? E]; subst; try discriminate; try (cbn in *; discriminate).
Qed.
(** C91: named arguments are written in the order given: base(b: 1, a: 2) passes 1 as a. *)
Theorem C91_named_refuted : exists ns args ts, cs_arguments Z (fun z => z) (fun z => z) 0 (fun z => z) ns args [2; 1] /\
  VisitConstructorInitializer Base 9 args = Ret (CallBase 9, ts) /\ cpp_arguments Z (fun z => z) (fun z => z) 0 ts [1; 2].
Proof.
  exists [30; 31], [ANamed 31 (ALiteral 1); ANamed 30 (ALiteral 2)]. eexists. split; [|split; [reflexivity|constructor; [reflexivity|discriminate|constructor; reflexivity]]].
  split; [reflexivity|]. intros [|[|i]] n v E1 E2; cbn in E1, E2; try (injection E1 as <-; injection E2 as <-).
  - left. exists (ALiteral 2). split; [right; left; reflexivity|reflexivity].
  - left. exists (ALiteral 1). split; [left; reflexivity|reflexivity].
  - destruct i; discriminate.
Qed.
(** C91: a constructor that calls another one of its class is written as ": this (...)", which is not C++. *)
Theorem C91_this_refuted : forall t, VisitConstructorInitializer This t [] = Ret (CallThis, []).
Proof. reflexivity. Qed.
Example C91_example : exists ts, VisitConstructorInitializer Base 9 [AName 4; ALiteral 7; ANull] = Ret (CallBase 9, ts) /\ cs_arguments Z (fun z => z) (fun z => z + 100) 0 (fun z => z) [30; 31; 32] [AName 4; ALiteral 7; ANull] [104; 7; 0].
Proof.
  eexists. split; [reflexivity|]. split; [reflexivity|]. intros [|[|[|i]]] n v E1 E2; cbn in E1, E2; try (injection E1 as <-; injection E2 as <-); try (destruct i; discriminate);
    right; (split; [intros e [H|[H|[H|[]]]]; discriminate|]); eexists; (split; [reflexivity|]; split; [discriminate|reflexivity]).
Qed.

(** ** C92 *)
Definition own_type (i : returned) : option cs_type := GetTypeForInstruction i None.
(** The return type of the last method of a list of functions. *)
Definition last_method (l : list function) (r : cs_type) : Prop :=
  exists before f after, l = before ++ f :: after /\ f_kind f = FMethod r /\ Forall (fun g => forall q, f_kind g <> FMethod q) after.
Lemma enter_last l m : fold_left (fun m f => enter m (f_kind f)) l m = m /\ Forall (fun g => forall q, f_kind g <> FMethod q) l \/ exists r, fold_left (fun m f => enter m (f_kind f)) l m = Some r /\ last_method l r.
Proof.
  induction l as [|f l IH] using rev_ind; [left; split; [reflexivity|constructor]|]. rewrite fold_left_app. cbn [fold_left].
  destruct (f_kind f) eqn:K; cbn [enter].
  1: right; exists r; split; [reflexivity|]; exists l, f, []; split; [reflexivity|]; split; [exact K|constructor].
  all: (destruct IH as [(E & F)|(r' & E & bf & g & af & -> & Kg & F)]; [left; split; [exact E|apply Forall_app; split; [exact F|constructor; [rewrite K; discriminate|constructor]]]|]);
       right; exists r'; (split; [exact E|]); exists bf, g, (af ++ [f]); (split; [rewrite <- app_assoc; reflexivity|]); (split; [exact Kg|apply Forall_app; split; [exact F|constructor; [rewrite K; discriminate|constructor]]]).
Qed.
Lemma write_at before f after m out : write_functions m (before ++ f :: after) = Ret out -> exists o, nth_error out (length before) = Some o /\ leaves (enter (fold_left (fun m f => enter m (f_kind f)) before m) (f_kind f)) (f_returns f) = Ret o.
Proof.
  revert m out. induction before as [|g before IH]; intros m out; cbn [app write_functions fold_left length].
  - destruct (leaves (enter m (f_kind f)) (f_returns f)) as [c| |] eqn:E; cbn [bind]; try discriminate. destruct (write_functions _ after); cbn [bind]; try discriminate. intros Q. injection Q as <-. exists c. split; [reflexivity|reflexivity].
  - destruct (leaves (enter m (f_kind g)) (f_returns g)) as [c| |]; cbn [bind]; try discriminate. destruct (write_functions _ (before ++ f :: after)) as [r| |] eqn:E; cbn [bind]; try discriminate. intros Q. injection Q as <-. cbn [nth_error]. apply (IH _ _ E).
Qed.
Lemma leaves_at m l o i c : leaves m l = Ret o -> nth_error o i = Some c -> exists x, nth_error l i = Some x /\ VisitLeave m x = Ret c.
Proof.
  revert o i. induction l as [|x l IH]; intros o i; cbn [leaves]; [intros E; injection E as <-; destruct i; discriminate|].
  destruct (VisitLeave m x) as [y| |] eqn:E; cbn [bind]; try discriminate. destruct (leaves m l) as [r| |] eqn:R; cbn [bind]; try discriminate. intros Q. injection Q as <-. destruct i; cbn [nth_error]; [intros H; injection H as <-; exists x; split; [reflexivity|exact E]|apply (IH r i eq_refl)].
Qed.
(** C92: a value returned by a method, wherever it stands in the program, is cast to the type of the
    variable, field, element or object it is read from, or to the method's return type. *)
Theorem C92_method_partial : forall before f after out r i c, f_kind f = FMethod r -> write_functions None (before ++ f :: after) = Ret out ->
  (exists o, nth_error out (length before) = Some o /\ nth_error o i = Some c) ->
  exists x, nth_error (f_returns f) i = Some x /\ match own_type x with Some t => c = FormatTypeDelaration t | None => c = FormatTypeDelaration r end.
Proof.
  intros before f after out r i c K W (o & Ho & Hc). destruct (write_at before f after None out W) as (o' & Ho' & L). rewrite Ho in Ho'. injection Ho' as <-. rewrite K in L. cbn [enter] in L.
  destruct (leaves_at _ _ _ _ _ L Hc) as (x & Hx & V). exists x. split; [exact Hx|]. unfold VisitLeave in V. unfold own_type. destruct x; cbn [GetTypeForInstruction] in *; injection V as <-; reflexivity.
Qed.
(** C92: a computed value returned by a property's getter or an operator is cast to the return type of
    the last method before it, whatever its own type; without a method before it the translation stops. *)
Theorem C92_stale_refuted : forall before f after out i c, (forall r, f_kind f <> FMethod r) -> write_functions None (before ++ f :: after) = Ret out ->
  (exists o, nth_error out (length before) = Some o /\ nth_error o i = Some c) -> nth_error (f_returns f) i = Some ROther -> exists q, last_method before q /\ c = FormatTypeDelaration q.
Proof.
  intros before f after out i c K W (o & Ho & Hc) R. destruct (write_at before f after None out W) as (o' & Ho' & L). rewrite Ho in Ho'. injection Ho' as <-.
  destruct (leaves_at _ _ _ _ _ L Hc) as (x & Hx & V). rewrite R in Hx. injection Hx as <-. unfold VisitLeave in V. cbn [GetTypeForInstruction] in V.
  destruct (f_kind f) eqn:Kf; [destruct (K r eq_refl)| | | |]; cbn [enter] in V;
    (destruct (enter_last before None) as [(E & _)|(q & E & Q)]; rewrite E in V; [discriminate|injection V as <-; exists q; split; [exact Q|reflexivity]]).
Qed.
(** C92: an Int64 property after an Int32 method: its value is cut to 32 bits. *)
Theorem C92_truncated_refuted : exists l out, l = [mk_function (FMethod (Named KStruct true 5)) []; mk_function (FGetter (Named KStruct true 6)) [ROther]] /\
  write_functions None l = Ret out /\ out = [[]; [FormatTypeDelaration (Named KStruct true 5)]] /\ cast_i64 (cast_i32 4294967301) <> cast_i64 4294967301.
Proof. eexists. eexists. split; [reflexivity|]. split; [reflexivity|]. split; [reflexivity|]. vm_compute. discriminate. Qed.
Theorem C92_first_refuted : forall t after, write_functions None (mk_function (FGetter t) [ROther] :: after) = Exn NullReferenceException.
Proof. reflexivity. Qed.
Example C92_example : write_functions None [mk_function FConstructor []; mk_function (FMethod (Named KClass false 8)) [ROther; RLdLoc (Named KClass false 9)]] = Ret [[]; [mk_cpp (CName 8) [Star]; mk_cpp (CName 9) [Star]]].
Proof. reflexivity. Qed.
Print Assumptions C91_base_partial.
Print Assumptions C91_named_refuted.
Print Assumptions C92_method_partial.
Print Assumptions C92_stale_refuted.
Print Assumptions C92_truncated_refuted.
