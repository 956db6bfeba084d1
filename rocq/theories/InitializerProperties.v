(** * C94: array initialisers *)
From Verif Require Import Base Tac FormatterModel TranslatorModel InitializerModel InitializerSpec TextSpec TranslatorProperties.

(** ** Which programs are covered: the names an expression, an initialiser and a target read *)
Definition expr_vars (e : expr) : list Z := match e with Const _ => [] | Var v => [v] | FieldOf o _ => [o] | Elem a _ => [a] end.
Definition expr_fields (e : expr) : list Z := match e with FieldOf _ f => [f] | _ => [] end.
Definition target_vars (t : target) : list Z := match t with ToVar v => [v] | ToField o _ => [o] | ToElem a _ => [a] | ToStatic _ => [] end.
(** elements that are not themselves initialised arrays *)
Definition simple (r : rvalue) : Prop := match r with InitArr _ _ _ => False | _ => True end.
Definition rvalue_vars (r : rvalue) : list Z := match r with Plain e => expr_vars e | _ => [] end.
Definition rvalue_fields (r : rvalue) : list Z := match r with Plain e => expr_fields e | _ => [] end.
(** The temporary that is introduced, if any *)
Definition temps (st : statement) : list Z := match val st with InitArr tmp _ _ => [tmp] | _ => [] end.
(** [covered local st]: all variables are declared; an initialised array is assigned to a local variable its
    elements do not read or to a field of `this` that they do not read and that no local variable hides. *)
Definition covered (local : Z -> bool) (st : statement) : Prop :=
  (forall v, In v (target_vars (dest st)) -> local v = true) /\
  match val st with
  | InitArr tmp n elements =>
      (forall i r, In (i, r) elements -> simple r /\ (forall v, In v (rvalue_vars r) -> local v = true)) /\
      match dest st with
      | ToVar v => forall i r, In (i, r) elements -> ~ In v (rvalue_vars r)
      | ToField o f => o = this /\ local f = false /\ forall i r, In (i, r) elements -> ~ In f (rvalue_fields r)
      | _ => False
      end
  | r => forall v, In v (rvalue_vars r) -> local v = true
  end.

Lemma same_refl s : same s s.
Proof. repeat split. Qed.
Definition put (t : target) (s : state) (a : Z) : state :=
  match t with ToVar v => set_var s v a | ToField o f => set_field s (vars s o) f a | _ => s end.
Lemma put_same t s u a : same s u -> same (put t s a) (put t u a).
Proof.
  intros (A & B & C & D & E). destruct t; cbn [put]; repeat split; cbn; intros; unfold upd; rewrite <- ?A;
    repeat match goal with |- context [if ?b then _ else _] => destruct b end; auto.
Qed.
Lemma load_same s t a i : same s t -> load s a i = load t a i.
Proof. intros (A & B & C & D & E). unfold load. rewrite D. reflexivity. Qed.
Lemma store_same s t a i x : same s t -> match store s a i x, store t a i x with Some s, Some t => same s t | None, None => True | _, _ => False end.
Proof.
  intros (A & B & C & D & E). unfold store. rewrite <- D. destruct (heap s a) as [l|]; [|exact I]. destruct ((0 <=? i) && (i <? Z.of_nat (length l))); [|exact I].
  repeat split; cbn; auto. intros k. unfold upd. destruct (k =? a); auto.
Qed.
Lemma alloc_same s t n : same s t -> match alloc s n, alloc t n with Some (s, a), Some (t, b) => same s t /\ a = b | None, None => True | _, _ => False end.
Proof.
  intros (A & B & C & D & E). unfold alloc. destruct (n <? 0); [exact I|]. rewrite <- E. split; [|reflexivity]. repeat split; cbn; auto; try lia.
  intros k. unfold upd. destruct (k =? free s); auto.
Qed.
Lemma eval_same s t e : same s t -> eval s e = eval t e.
Proof. intros S. destruct e; cbn; [reflexivity|destruct S as (A & B & _); rewrite A; reflexivity|destruct S as (A & B & _); rewrite A, B; reflexivity|]. rewrite (load_same s t _ _ S). destruct S as (A & _). rewrite A. reflexivity. Qed.
(** An expression that does not read the target *)
Definition avoids (t : target) (r : rvalue) : Prop := match t with ToVar v => ~ In v (rvalue_vars r) | ToField _ f => ~ In f (rvalue_fields r) | _ => False end.
Lemma eval_put t s a e : avoids t (Plain e) -> eval (put t s a) e = eval s e.
Proof.
  destruct t; cbn [avoids rvalue_vars rvalue_fields]; intros H; [| |destruct H|destruct H]; destruct e; cbn in *; try reflexivity; unfold upd.
  - destruct (v0 =? v) eqn:X; [apply Z.eqb_eq in X; subst; tauto|reflexivity].
  - destruct (o =? v) eqn:X; [apply Z.eqb_eq in X; subst; tauto|reflexivity].
  - destruct (a0 =? v) eqn:X; [apply Z.eqb_eq in X; subst; tauto|reflexivity].
  - destruct (vars s o0 =? vars s o) eqn:Y; [|reflexivity]. apply Z.eqb_eq in Y. destruct (f0 =? f) eqn:X; [apply Z.eqb_eq in X; subst; tauto|]. rewrite Y. reflexivity.
Qed.
Section Scope.
Variable local : Z -> bool.
(** Translated names are never declared. *)
Definition good_tr (tr : translation) : Prop := forall n m, translated tr n = Some m -> local n = false.
Lemma VisitLdLoc_local tr n : good_tr tr -> local n = true -> VisitLdLoc tr n = n.
Proof. intros G L. unfold VisitLdLoc. destruct (translated tr n) eqn:E; [|reflexivity]. rewrite (G _ _ E) in L. discriminate. Qed.
Lemma read_local s n : local n = true -> read_name local s n = vars s n.
Proof. intros H. unfold read_name. rewrite H. reflexivity. Qed.
Lemma ceval_expr tr s e : good_tr tr -> (forall v, In v (expr_vars e) -> local v = true) ->
  ceval local s (VisitExpr tr e) = match eval s e with Some x => Done s x | None => Threw s end.
Proof. intros G L. destruct e; cbn in *; rewrite ?VisitLdLoc_local, ?read_local by auto; reflexivity. Qed.
(** One simple value, in a state [u] that agrees with [s] except for the target *)
Lemma simple_value tr t s u a r : good_tr tr -> simple r -> (forall v, In v (rvalue_vars r) -> local v = true) -> avoids t r -> same (put t s a) u ->
  exists c, (forall d, visit tr d r = (tr, [mk_cstmt (VisitTarget tr d) c])) /\
  match value s r with
  | Done s' x => exists u', ceval local u c = Done u' x /\ same (put t s' a) u'
  | Threw _ => exists u', ceval local u c = Threw u'
  end.
Proof.
  intros G Sm L Av S. destruct r as [e|n|]; [| |destruct Sm]; cbn [value visit].
  - exists (VisitExpr tr e). split; [reflexivity|]. rewrite (ceval_expr tr u e G L). rewrite <- (eval_same _ _ e S), (eval_put t s a e Av). destruct (eval s e); eauto.
  - exists (CNew n). split; [reflexivity|]. cbn [ceval]. pose proof (alloc_same _ _ n S) as Al. destruct (alloc s n) as [[s' b]|] eqn:As.
    + assert (E : alloc (put t s a) n = Some (put t s' a, b)).
      { clear - As. unfold alloc in *. destruct (n <? 0); [discriminate|]. apply (f_equal (fun o => match o with Some p => p | None => (s, 0) end)) in As.
        apply pair_equal_spec in As. destruct As as [<- <-]. destruct t; reflexivity. }
      rewrite E in Al. destruct (alloc u n) as [[u' b']|]; [|destruct Al]. destruct Al as [Su <-]. eauto.
    + assert (E : alloc (put t s a) n = None) by (clear - As; unfold alloc in *; destruct (n <? 0); [reflexivity|discriminate]).
      rewrite E in Al. destruct (alloc u n) as [[u' b']|]; [destruct Al|]. eauto.
Qed.
Lemma store_put t s a b i x : store (put t s a) b i x = match store s b i x with Some s' => Some (put t s' a) | None => None end.
Proof. unfold store. assert (H : heap (put t s a) = heap s) by (destruct t; reflexivity). rewrite H. destruct (heap s b); [|reflexivity]. destruct (_ && _); [|reflexivity]. destruct t; reflexivity. Qed.
(** All elements: [name] is what the temporary is written as, and refers to the new array. *)
Lemma elements_run tr tmp t a name l : good_tr tr -> VisitLdLoc tr tmp = name ->
  (forall s, same s s -> read_name local (put t s a) name = a) ->
  (forall u v, same u v -> read_name local u name = read_name local v name) ->
  (forall i r, In (i, r) l -> simple r /\ (forall v, In v (rvalue_vars r) -> local v = true) /\ avoids t r) ->
  exists c, InitializeElementsOfArray visit tr tmp l = (tr, c) /\ forall s u, same (put t s a) u ->
  match stores value s a l with
  | Done s' _ => exists u', crun local u c = Done u' tt /\ same (put t s' a) u'
  | Threw _ => exists u', crun local u c = Threw u'
  end.
Proof.
  intros G N R R2. induction l as [|[i r] l IH]; intros H; cbn [InitializeElementsOfArray stores].
  - exists []. split; [reflexivity|]. intros s u S. exists u. split; [reflexivity|exact S].
  - destruct (IH (fun i r X => H i r (or_intror X))) as (c & E & IHc). destruct (H i r (or_introl eq_refl)) as (Sm & L & Av).
    destruct (simple_value tr t (mk_state (fun _ => 0) (fun _ _ => 0) (fun _ => 0) (fun _ => None) 0) _ a r G Sm L Av (same_refl _)) as (c0 & V & _).
    rewrite V, E. exists (mk_cstmt (CToElem name i) c0 :: c). split; [cbn [VisitTarget app]; rewrite N; reflexivity|].
    intros s u S. destruct (simple_value tr t s u a r G Sm L Av S) as (c1 & V1 & Hv). assert (c1 = c0) by (specialize (V (ToStatic 0)); rewrite V1 in V; apply pair_equal_spec in V; destruct V as [_ V]; injection V; auto). subst c1.
    cbn [crun]. unfold cassign at 1 2. cbn [cval cdest]. destruct (value s r) as [s' x|s'].
    + destruct Hv as (u' & -> & S'). rewrite <- (R2 _ _ S'), (R s' (same_refl _)).
      pose proof (store_same _ _ a i x S') as St. rewrite store_put in St.
      destruct (store s' a i x) as [s2|], (store u' a i x) as [u2|]; try (destruct St; fail); [apply IHc; exact St|eauto].
    + destruct Hv as (u' & ->). eauto.
Qed.
Lemma stores_vars a l : forall s, (forall i r, In (i, r) l -> simple r) -> forall s', stores value s a l = Done s' tt -> vars s' = vars s.
Proof.
  induction l as [|[i r] l IH]; intros s H s' E; [injection E as <-; reflexivity|]. cbn [stores] in E.
  assert (V : forall s1 x, value s r = Done s1 x -> vars s1 = vars s).
  { pose proof (H i r (or_introl eq_refl)) as Sm. destruct r as [e|n|]; [| |destruct Sm]; cbn [value]; intros s1 x.
    - destruct (eval s e); intros X; inversion X; reflexivity.
    - unfold alloc. destruct (n <? 0); intros X; inversion X; reflexivity. }
  destruct (value s r) as [s1 x|s1]; [|discriminate]. specialize (V _ _ eq_refl). destruct (store s1 a i x) as [s2|] eqn:St; [|discriminate].
  rewrite (IH s2 (fun j q X => H j q (or_intror X)) s' E), <- V. clear - St. unfold store in St. destruct (heap s1 a); [|discriminate]. destruct (_ && _); [|discriminate]. injection St as <-. reflexivity.
Qed.
Lemma read_name_same u v n : same u v -> read_name local u n = read_name local v n.
Proof. intros (A & B & _). unfold read_name. rewrite !A, B. reflexivity. Qed.
Lemma write_name_local s v x : local v = true -> write_name local s v x = set_var s v x.
Proof. intros H. unfold write_name. rewrite H. reflexivity. Qed.
Lemma put_read t s a name : match t with ToVar v => v = name /\ local v = true | ToField o f => o = this /\ f = name /\ local f = false | _ => False end -> read_name local (put t s a) name = a.
Proof.
  destruct t; cbn; intros H; [| |destruct H|destruct H].
  - destruct H as [-> H]. unfold read_name. rewrite H. cbn. unfold upd. rewrite Z.eqb_refl. reflexivity.
  - destruct H as (-> & -> & H). unfold read_name. rewrite H. cbn. unfold upd. rewrite !Z.eqb_refl. reflexivity.
Qed.
(** One statement *)
Lemma statement_run tr st : good_tr tr -> covered local st -> (forall t, In t (temps st) -> local t = false /\ translated tr t = None) ->
  exists tr' c, visit tr (dest st) (val st) = (tr', c) /\ good_tr tr' /\ (forall n, ~ In n (temps st) -> translated tr' n = translated tr n) /\
  forall s u, same s u ->
  match assign s st with
  | Done s' _ => exists u', crun local u c = Done u' tt /\ same s' u'
  | Threw _ => exists u', crun local u c = Threw u'
  end.
Proof.
  destruct st as [d r]. unfold covered, temps. cbn [dest val]. intros G [Lt C] Tm. destruct r as [e|n|tmp n l].
  - exists tr, [mk_cstmt (VisitTarget tr d) (VisitExpr tr e)]. split; [reflexivity|]. split; [exact G|]. split; [reflexivity|]. intros s u S.
    cbn [crun]. unfold cassign. cbn [cval cdest]. rewrite (ceval_expr tr u e G C), <- (eval_same _ _ e S). unfold assign. cbn [dest val value].
    destruct (eval s e) as [x|]; destruct d as [v|o f|a i|f]; cbn [VisitTarget]; eauto.
    + rewrite write_name_local by (apply Lt; left; reflexivity). eexists. split; [reflexivity|]. apply (put_same (ToVar v) s u x S).
    + rewrite VisitLdLoc_local, read_local by (try assumption; apply Lt; left; reflexivity). eexists. split; [reflexivity|]. apply (put_same (ToField o f) s u x S).
    + rewrite VisitLdLoc_local, read_local by (try assumption; apply Lt; left; reflexivity). pose proof (store_same _ _ (vars s a) i x S) as St. destruct S as (A & _). rewrite <- A.
      destruct (store s (vars s a) i x), (store u (vars s a) i x); try (destruct St; fail); eauto.
    + eexists. split; [reflexivity|]. destruct S as (A & B & D & E & F). repeat split; cbn; auto. intros k. unfold upd. destruct (k =? f); auto.
  - exists tr, [mk_cstmt (VisitTarget tr d) (CNew n)]. split; [reflexivity|]. split; [exact G|]. split; [reflexivity|]. intros s u S.
    cbn [crun]. unfold cassign. cbn [cval cdest ceval]. unfold assign. cbn [dest val value]. pose proof (alloc_same _ _ n S) as Al.
    assert (V : forall s' x, alloc s n = Some (s', x) -> vars s' = vars s) by (intros s' x E; unfold alloc in E; destruct (n <? 0); [discriminate|]; injection E as <- _; reflexivity).
    destruct (alloc s n) as [[s' x]|], (alloc u n) as [[u' y]|]; try (destruct Al; fail); destruct d as [v|o f|a i|f]; cbn [VisitTarget]; eauto; destruct Al as [S' <-]; specialize (V _ _ eq_refl); rewrite <- ?V.
    + rewrite write_name_local by (apply Lt; left; reflexivity). eexists. split; [reflexivity|]. apply (put_same (ToVar v) s' u' x S').
    + rewrite VisitLdLoc_local, read_local by (try assumption; apply Lt; left; reflexivity). eexists. split; [reflexivity|]. apply (put_same (ToField o f) s' u' x S').
    + rewrite VisitLdLoc_local, read_local by (try assumption; apply Lt; left; reflexivity). pose proof (store_same _ _ (vars s' a) i x S') as St. destruct S' as (A & _). rewrite <- A.
      destruct (store s' (vars s' a) i x), (store u' (vars s' a) i x); try (destruct St; fail); eauto.
    + eexists. split; [reflexivity|]. destruct S' as (A & B & D & E & F). repeat split; cbn; auto. intros k. unfold upd. destruct (k =? f); auto.
  - destruct C as [El D]. destruct (Tm tmp (or_introl eq_refl)) as [Tl Tn].
    set (name := match d with ToVar v => v | ToField _ f => f | _ => 0 end).
    set (tr' := (tmp, name) :: tr).
    assert (Etr : add_target tmp d tr = tr').
    { unfold add_target, AddTranslatedName. rewrite Tn. destruct d as [v|o f| |]; try (destruct D; fail); [|reflexivity].
      destruct (v =? tmp) eqn:X; [|reflexivity]. apply Z.eqb_eq in X. subst v. rewrite (Lt tmp (or_introl eq_refl)) in Tl. discriminate. }
    assert (G' : good_tr tr').
    { intros k m. unfold tr'. cbn [translated]. destruct (tmp =? k) eqn:X; [apply Z.eqb_eq in X; subst k; intros _; exact Tl|apply G]. }
    assert (Nm : VisitLdLoc tr' tmp = name) by (unfold VisitLdLoc, tr'; cbn [translated]; rewrite Z.eqb_refl; reflexivity).
    assert (P : match d with ToVar v => v = name /\ local v = true | ToField o f => o = this /\ f = name /\ local f = false | _ => False end).
    { unfold name. destruct d as [v|o f| |]; try (destruct D; fail); [split; [reflexivity|apply Lt; left; reflexivity]|]. destruct D as (-> & D & _). auto. }
    assert (H : forall i r, In (i, r) l -> simple r /\ (forall v, In v (rvalue_vars r) -> local v = true) /\ avoids d r).
    { intros i r X. destruct (El i r X) as [A B]. split; [exact A|]. split; [exact B|]. destruct d as [v|o f| |]; try (destruct D; fail); [exact (D i r X)|]. destruct D as (_ & _ & D). exact (D i r X). }
    assert (EL : forall a, exists c, InitializeElementsOfArray visit tr' tmp l = (tr', c) /\ forall s u, same (put d s a) u ->
      match stores value s a l with
      | Done s' _ => exists u', crun local u c = Done u' tt /\ same (put d s' a) u'
      | Threw _ => exists u', crun local u c = Threw u'
      end).
    { intros a. apply (elements_run tr' tmp d a name l G' Nm); [intros s _; apply put_read; exact P|intros; apply read_name_same; assumption|exact H]. }
    destruct (EL 0) as (c & E0 & _).
    exists tr', (mk_cstmt (VisitTarget tr d) (CNew n) :: c). split; [cbn [visit]; rewrite Etr, E0; reflexivity|]. split; [exact G'|]. split.
    { intros k Hk. unfold tr'. cbn [translated]. destruct (tmp =? k) eqn:X; [apply Z.eqb_eq in X; subst k; destruct Hk; left; reflexivity|reflexivity]. }
    intros s u S. cbn [crun]. pose proof (alloc_same _ _ n S) as Al. unfold assign. cbn [dest val value].
    destruct (alloc s n) as [[s' a]|] eqn:As, (alloc u n) as [[u' b]|] eqn:Au; try (destruct Al; fail).
    2: { destruct d as [v|o f| |]; try (destruct D; fail); cbn [VisitTarget]; unfold cassign; cbn [cval cdest ceval]; rewrite Au; eauto. }
    destruct Al as [S' <-].
    destruct (EL a) as (c' & E1 & Run). assert (c' = c) by (rewrite E0 in E1; apply pair_equal_spec in E1; destruct E1; auto). subst c'.
    assert (First : exists u1, cassign local u (mk_cstmt (VisitTarget tr d) (CNew n)) = Done u1 tt /\ same (put d s' a) u1).
    { unfold cassign. cbn [cval cdest ceval]. rewrite Au. pose proof (put_same d _ _ a S') as PS. destruct d as [v|o f| |]; try (destruct D; fail); cbn [VisitTarget put] in *.
      - rewrite write_name_local by (apply Lt; left; reflexivity). eauto.
      - rewrite VisitLdLoc_local, read_local by (try assumption; apply Lt; left; reflexivity). eauto. }
    destruct First as (u1 & Ef & S1). rewrite Ef.
    assert (Vs : vars s' = vars s) by (clear - As; unfold alloc in As; destruct (n <? 0); [discriminate|]; injection As as <- _; reflexivity).
    specialize (Run s' u1 S1). pose proof (stores_vars a l s' (fun i r X => proj1 (El i r X))) as SV.
    destruct (stores value s' a l) as [s2 []|s2].
    + destruct Run as (u2 & -> & S2). specialize (SV s2 eq_refl). destruct d as [v|o f| |]; try (destruct D; fail); cbn [put] in S2; [exists u2; split; [reflexivity|exact S2]|]. rewrite SV, Vs in S2. exists u2; split; [reflexivity|exact S2].
    + destruct Run as (u2 & ->). destruct d as [v|o f| |]; try (destruct D; fail); eauto.
Qed.
Lemma nodup_tail {A} (a b : list A) : NoDup (a ++ b) -> NoDup b.
Proof. induction a as [|x a IH]; cbn [app]; intros N; [exact N|]. inversion N; subst. apply IH. assumption. Qed.
Lemma program_run l : forall tr, good_tr tr -> (forall st, In st l -> covered local st) -> (forall t, In t (flat_map temps l) -> local t = false /\ translated tr t = None) ->
  NoDup (flat_map temps l) -> forall s u, same s u -> agree (run s l) (crun local u (visit_all tr l)).
Proof.
  induction l as [|st l IH]; intros tr G C T N s u S; [exact S|]. cbn [run visit_all flat_map] in *.
  destruct (statement_run tr st G (C st (or_introl eq_refl)) (fun t X => T t (in_or_app _ _ _ (or_introl X)))) as (tr' & c & E & G' & K & Run). rewrite E.
  assert (Happ : forall c1 c2 u, crun local u (c1 ++ c2) = match crun local u c1 with Done u _ => crun local u c2 | Threw u => Threw u end).
  { intros c1 c2. induction c1 as [|x c1 IHc]; intros v; [reflexivity|]. cbn [crun app]. destruct (cassign local v x); [apply IHc|reflexivity]. }
  rewrite Happ. specialize (Run s u S). destruct (assign s st) as [s' []|s'].
  - destruct Run as (u' & -> & S'). apply (IH tr' G'); [intros x X; apply C; right; exact X| |exact (nodup_tail _ _ N)|exact S'].
    intros t X. destruct (T t (in_or_app _ _ _ (or_intror X))) as [A B]. split; [exact A|]. rewrite K; [exact B|]. intros Y.
    clear - N X Y. induction (temps st) as [|z z' IHz]; [destruct Y|]. cbn [app] in N. inversion N as [|? ? N1 N2]; subst. destruct Y as [->|Y]; [apply N1, in_or_app; right; exact X|apply IHz; assumption].
  - destruct Run as (u' & ->). exact I.
Qed.
End Scope.

(** A program all of whose array initialisers are assigned to local variables, or to fields of `this` no local
    variable hides, and whose elements are no initialised arrays and do not read the target: the C++ program
    does the same.  The decompiler's temporaries are pairwise different and not declared.
    Missing: see the refutations. *)
Theorem C94_initialisers_partial local l :
  (forall st, In st l -> covered local st) ->
  (forall t, In t (flat_map temps l) -> local t = false) -> NoDup (flat_map temps l) ->
  forall s, agree (run s l) (crun local s (translate l)).
Proof. intros C L N s. apply program_run; [intros n m H; discriminate H|exact C|intros t H; split; [apply L, H|reflexivity]|exact N|apply same_refl]. Qed.

(** ** Refutations *)
Ltac go E := repeat progress (unfold translate, AddTranslatedName, VisitLdLoc, cassign, assign, alloc, load, store, read_name, write_name, set_var, set_field, set_heap, upd in E; change (Pos.to_nat 1) with 1%nat in E; cbn in E; rewrite ?Z.eqb_refl in E).
(** The elements read the target: `v = new T[] { v[0] }`.  The C++ program reads the new array instead of the old one. *)
Theorem C94_reads_target_refuted local v tmp s x l :
  local v = true -> local tmp = false -> heap s (vars s v) = Some (x :: l) -> x <> 0 -> heap s (free s) = None ->
  ~ agree (run s [mk_stmt (ToVar v) (InitArr tmp 1 [(0, Plain (Elem v 0))])]) (crun local s (translate [mk_stmt (ToVar v) (InitArr tmp 1 [(0, Plain (Elem v 0))])])).
Proof.
  intros Lv Lt H X F. assert (N : v =? tmp = false) by (apply Z.eqb_neq; intros ->; congruence).
  assert (A : vars s v =? free s = false) by (apply Z.eqb_neq; intros E; rewrite E in H; congruence).
  intros E. go E. rewrite N in E. go E. rewrite (Z.eqb_sym tmp v), N, Lv, A, H in E. go E. destruct E as (_ & _ & _ & Hh & _). specialize (Hh (free s)). cbn in Hh. rewrite Z.eqb_refl in Hh. congruence.
Qed.
(** A parameter hides the field: `this.f = new T[] { x }` in a method that has a parameter f.  The C++ program stores into the
    array passed as argument, and the new array stays zero. *)
Theorem C94_hidden_field_refuted local f tmp s x y l :
  local this = true -> local f = true -> local tmp = false -> heap s (vars s f) = Some (y :: l) -> heap s (free s) = None ->
  exists s' t', run s [mk_stmt (ToField this f) (InitArr tmp 1 [(0, Plain (Const x))])] = Done s' tt /\
    crun local s (translate [mk_stmt (ToField this f) (InitArr tmp 1 [(0, Plain (Const x))])]) = Done t' tt /\
    heap s' (vars s f) = Some (y :: l) /\ heap t' (vars s f) = Some (x :: l) /\
    heap s' (fields s' (vars s this) f) = Some [x] /\ heap t' (fields t' (vars s this) f) = Some [0].
Proof.
  intros Lt Lf Ltm H F. assert (A : vars s f =? free s = false) by (apply Z.eqb_neq; intros E; rewrite E in H; congruence).
  set (r := run _ _). set (q := crun _ _ _). assert (Er : r = r) by reflexivity. assert (Eq : q = q) by reflexivity. unfold r at 2 in Er. unfold q at 2 in Eq. clearbody r q.
  go Er. go Eq. rewrite ?(proj2 (Z.eqb_neq tmp this)), ?Lt, ?Lf in Eq by (intros ->; congruence). go Eq. rewrite A, H in Eq. go Eq.
  eexists. eexists. split; [exact Er|]. split; [exact Eq|]. cbn. unfold upd. rewrite A, !Z.eqb_refl. rewrite (Z.eqb_sym (free s)), A. auto.
Qed.
(** Another object's field: `o.f = new T[] { x }`.  The C++ program stores into the array that this.f refers to. *)
Theorem C94_other_object_refuted local o f tmp s x y l :
  local this = true -> local o = true -> local f = false -> local tmp = false -> vars s o <> vars s this ->
  heap s (fields s (vars s this) f) = Some (y :: l) -> heap s (free s) = None ->
  exists s' t', run s [mk_stmt (ToField o f) (InitArr tmp 1 [(0, Plain (Const x))])] = Done s' tt /\
    crun local s (translate [mk_stmt (ToField o f) (InitArr tmp 1 [(0, Plain (Const x))])]) = Done t' tt /\
    heap s' (fields s (vars s this) f) = Some (y :: l) /\ heap t' (fields s (vars s this) f) = Some (x :: l) /\
    heap s' (fields s' (vars s o) f) = Some [x] /\ heap t' (fields t' (vars s o) f) = Some [0].
Proof.
  intros Lt Lo Lf Ltm O H F. assert (A : fields s (vars s this) f =? free s = false) by (apply Z.eqb_neq; intros E; rewrite E in H; congruence).
  apply Z.eqb_neq in O. assert (O' : vars s this =? vars s o = false) by (rewrite Z.eqb_sym; exact O).
  set (r := run _ _). set (q := crun _ _ _). assert (Er : r = r) by reflexivity. assert (Eq : q = q) by reflexivity. unfold r at 2 in Er. unfold q at 2 in Eq. clearbody r q.
  go Er. go Eq. rewrite ?(proj2 (Z.eqb_neq tmp o)), ?Lt, ?Lf, ?Lo in Eq by (intros ->; congruence). go Eq. rewrite ?O', ?A, ?H in Eq. go Eq.
  rewrite ?O', ?A, ?H in Eq. go Eq.
  eexists. eexists. split; [exact Er|]. split; [exact Eq|]. cbn. unfold upd. rewrite ?A, ?O, ?O', !Z.eqb_refl. rewrite (Z.eqb_sym (free s)), A. auto.
Qed.
(** An exception while the elements are computed: in C# the target keeps its value, in C++ it already refers to the new array. *)
Theorem C94_exception_refuted local v w tmp s x :
  local v = true -> local w = true -> local tmp = false -> v <> w -> vars s v <> free s -> vars s w <> free s -> heap s (vars s w) = Some [x] ->
  exists s' t', run s [mk_stmt (ToVar v) (InitArr tmp 1 [(0, Plain (Elem w 1))])] = Threw s' /\
    crun local s (translate [mk_stmt (ToVar v) (InitArr tmp 1 [(0, Plain (Elem w 1))])]) = Threw t' /\
    vars s' v = vars s v /\ vars t' v = free s.
Proof.
  intros Lv Lw Lt Nvw A B H. apply Z.eqb_neq in B. assert (N : v =? tmp = false) by (apply Z.eqb_neq; intros ->; congruence). assert (N2 : tmp =? w = false) by (apply Z.eqb_neq; intros ->; congruence).
  assert (N3 : w =? v = false) by (apply Z.eqb_neq; congruence).
  set (r := run _ _). set (q := crun _ _ _). assert (Er : r = r) by reflexivity. assert (Eq : q = q) by reflexivity. unfold r at 2 in Er. unfold q at 2 in Eq. clearbody r q.
  go Er. rewrite B, H in Er. go Er. go Eq. rewrite N in Eq. go Eq. rewrite N2, Lv, Lw in Eq. go Eq. rewrite N3, B, H in Eq. go Eq.
  eexists. eexists. split; [exact Er|]. split; [exact Eq|]. cbn. unfold upd. rewrite Z.eqb_refl. auto.
Qed.
(** Arrays in arrays (`new T[][] { new T[] { ... } }`), array elements and static fields as targets: the C++ program
    uses the temporary, which is declared nowhere. *)
Theorem C94_undeclared_refuted declared tmp n i e l t :
  ~ declared tmp -> match t with ToElem _ _ | ToStatic _ => True | _ => False end ->
  ~ well_scoped declared (translate [mk_stmt t (InitArr tmp n ((i, Plain e) :: l))]).
Proof.
  intros N T W. unfold translate in W. cbn [visit_all visit dest val] in W. replace (add_target tmp t []) with (@nil (Z * Z)) in W by (destruct t; [destruct T|destruct T|reflexivity|reflexivity]).
  cbn [InitializeElementsOfArray visit] in W. destruct (InitializeElementsOfArray visit [] tmp l) as [tr'' c]. apply N.
  apply (W (mk_cstmt (CToElem tmp i) (VisitExpr [] e)) tmp); [cbn; auto|]. unfold cnames. cbn. apply in_or_app. right. left. reflexivity.
Qed.
Theorem C94_nested_refuted declared v outer inner m n i j e l k :
  ~ declared inner -> v <> inner -> outer <> inner ->
  ~ well_scoped declared (translate [mk_stmt (ToVar v) (InitArr outer m ((i, InitArr inner n ((j, Plain e) :: l)) :: k))]).
Proof.
  intros N V O W. unfold translate in W. cbn [visit_all visit dest val] in W. set (tr := add_target outer (ToVar v) []) in W.
  assert (T : VisitLdLoc tr inner = inner).
  { unfold tr. cbn [add_target]. unfold VisitLdLoc. destruct (v =? outer); [reflexivity|]. cbn. destruct (outer =? inner) eqn:X; [apply Z.eqb_eq in X; congruence|reflexivity]. }
  cbn [InitializeElementsOfArray visit add_target VisitTarget] in W. destruct (InitializeElementsOfArray visit tr inner l) as [tr1 c1]. destruct (InitializeElementsOfArray visit tr1 outer k) as [tr2 c2]. rewrite T in W. apply N.
  apply (W (mk_cstmt (CToElem inner j) (VisitExpr tr e)) inner); [cbn; auto|]. unfold cnames. cbn. apply in_or_app. right. left. reflexivity.
Qed.
(** An automatic property: the elements are stored through the compiler's name of the backing field, which is not a C++ identifier
    (the field itself is declared and used without the brackets, C71). *)
Theorem C94_backing_field_refuted env p : IsLower env 60 = false -> exists t, mangle env (backing_field p) = Ret t /\ In 60 t.
Proof.
  intros H. exists (backing_field p). split; [|left; reflexivity]. apply mangle_upper; [discriminate|exact H|discriminate].
Qed.
(** An initialised array as an argument: a semicolon inside the parentheses of the call. *)
Fixpoint depth_at_semicolons (d : Z) (l : list token) : list Z :=
  match l with [] => [] | Open :: l => depth_at_semicolons (d + 1) l | Close :: l => depth_at_semicolons (d - 1) l | Semicolon :: l => d :: depth_at_semicolons d l | Written _ :: l => depth_at_semicolons d l end.
Theorem C94_argument_refuted tmp n elements : exists d, In d (depth_at_semicolons 0 (argument_tokens tmp n elements)) /\ 0 < d.
Proof. exists 1. split; [left; reflexivity|lia]. Qed.
(** `x = new int[] { 5, y[0], this.n }; this.f = new int[] { x[1] };` *)
Definition example : list statement :=
  [ mk_stmt (ToVar 1) (InitArr 100 3 [(0, Plain (Const 5)); (1, Plain (Elem 2 0)); (2, Plain (FieldOf this 7))]);
    mk_stmt (ToField this 8) (InitArr 101 1 [(0, Plain (Elem 1 1))]) ].
Definition example_local (n : Z) : bool := (0 <=? n) && (n <=? 2).
Definition example_state : state :=
  mk_state (upd (fun _ => 0) 2 50) (fun _ => upd (fun _ => 0) 7 9) (fun _ => 0) (upd (fun _ => None) 50 (Some [4])) 60.
Example C94_example : (forall st, In st example -> covered example_local st) /\ (forall t, In t (flat_map temps example) -> example_local t = false) /\ NoDup (flat_map temps example) /\
  match crun example_local example_state (translate example) with Done s _ => heap s (vars s 1) = Some [5; 4; 9] /\ heap s (fields s 0 8) = Some [4] | Threw _ => False end.
Proof.
  split; [|split; [|split]].
  - intros st [<-|[<-|[]]]; (split; [intros v [<-|[]]; reflexivity|]); (split; [intros i r [X|X]; cbn in X; decompose [or] X; try contradiction; match goal with H : (_, _) = _ |- _ => inversion H; subst end; (split; [exact I|cbn; intros ? Y; decompose [or] Y; subst; try contradiction; reflexivity])|]).
    + intros i r X. cbn in X. decompose [or] X; try contradiction; match goal with H : (_, _) = _ |- _ => inversion H; subst end; cbn; intros Y; decompose [or] Y; try contradiction; discriminate.
    + split; [reflexivity|split; [reflexivity|]]. intros i r X. cbn in X. decompose [or] X; try contradiction; match goal with H : (_, _) = _ |- _ => inversion H; subst end; cbn; intros Y; decompose [or] Y; contradiction.
  - intros t [<-|[<-|[]]]; reflexivity.
  - repeat constructor; cbn; intros H; decompose [or] H; try contradiction; discriminate.
  - vm_compute. auto.
Qed.
Print Assumptions C94_initialisers_partial.
