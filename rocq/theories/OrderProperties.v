(** * C95: the order of evaluation *)
From Verif Require Import Base Tac StatementModel ExprModel ExprSpec ExprProperties OrderModel OrderSpec OrderProofs.

(** Every expression that is grouped as meant (C59) and whose siblings are independent: whatever order the C++ compiler
    chooses, the evaluation ends, in the state and with the value or exception that C# gives.
    Missing: operands that are not independent; see the refutations. *)
Theorem C95_any_order_partial m e u : lawful m -> placed e -> reads (print false e) u -> orderly (nodes m (meant e)) ->
  forall s, (exists r, evaluates s (nodes m u) r) /\ forall r, evaluates s (nodes m u) r -> agree r (lr s (nodes m (meant e))).
Proof.
  intros L P R O s. apply (C59_groups_partial e u P) in R. subst u. split; [apply (ends m (S (size m (nodes m (meant e))))); lia|]. intros r. apply unique; assumption.
Qed.
(** In particular: expressions that neither act nor assign. *)
Lemma quiet_orderly m (t : term m) : acts t = false -> (forall x, assigns x t = false) -> orderly t.
Proof.
  assert (X : forall ts : list (term m), existsb acts ts = false -> (forall x, existsb (assigns x) ts = false) -> Forall (fun t => acts t = false /\ forall x, assigns x t = false) ts).
  { intros ts. induction ts as [|a ts I]; cbn; intros A B; constructor; [split; [|intros x; specialize (B x)]; rewrite orb_false_iff in *; tauto|apply I; [|intros x; specialize (B x)]; rewrite orb_false_iff in *; tauto]. }
  assert (Y : forall ts : list (term m), Forall (fun t => acts t = false /\ forall x, assigns x t = false) ts -> ForallOrdPairs independent ts).
  { induction 1 as [|a ts [A1 A2] F IH]; constructor; auto. eapply Forall_impl; [|exact F]. intros b [B1 B2]. split; (split; [congruence|intros x E; rewrite ?A2, ?B2 in E; discriminate]). }
  induction t as [v|x|l ts IH|c t f IHc IHt IHf|x t IH|x u t IH|p u ts t IH IHt] using term_induction; intros A B; try exact I; try discriminate A.
  - apply orderly_node. assert (A' : existsb acts ts = false) by (cbn in A; destruct (kind m l); congruence). specialize (X ts A' B). split; [apply Y, X|]. rewrite Forall_forall in *. intros t I. destruct (X t I). apply IH; auto.
  - cbn in A, B. rewrite !orb_false_iff in A. split; [|split]; [apply IHc|apply IHt|apply IHf]; try tauto; intros x; specialize (B x); rewrite !orb_false_iff in B; tauto.
  - cbn in B. specialize (B x). rewrite Z.eqb_refl in B. discriminate.
  - cbn in B. specialize (B x). rewrite Z.eqb_refl in B. discriminate.
Qed.
Theorem C95_quiet m e u : lawful m -> placed e -> reads (print false e) u -> acts (nodes m (meant e)) = false -> (forall x, assigns x (nodes m (meant e)) = false) ->
  forall s, (exists r, evaluates s (nodes m u) r) /\ forall r, evaluates s (nodes m u) r -> agree r (lr s (nodes m (meant e))).
Proof. intros L P R A B. apply C95_any_order_partial; auto. apply quiet_orderly; assumption. Qed.
(** A call, by name or on a local variable, whose arguments are locals, constants and calculations with them *)
Fixpoint calculation (e : expr) : Prop :=
  match e with
  | LdcI4' _ | LdcI8' _ | LdNull | LdLoc _ => True
  | Binary op s l r => op <> Div /\ op <> Rem /\ calculation l /\ calculation r
  | Comp _ l r => calculation l /\ calculation r
  | ConvTo (Some _) e | BitNot e => calculation e
  | _ => False
  end.
Fixpoint calculations (a : args) : Prop := match a with ANil => True | ACons None e rest => calculation e /\ calculations rest | ACons (Some _) _ _ => False end.
(** the nodes calculations are made of are pure *)
Definition calculates (m : meaning) : Prop :=
  (forall n, kind m (LNum n) = Pure) /\ kind m LNull = Pure /\ (forall o, kind m (LUnary o) = Pure) /\ (forall o, kind m (LBin o) = Pure) /\ (forall t, kind m (LCast t) = Pure) /\ (forall i, kind m (LStatic i) = Pure).
Lemma calculation_quiet m e : calculates m -> calculation e -> acts (nodes m (meant e)) = false /\ reads_world (nodes m (meant e)) = false /\ forall x, assigns x (nodes m (meant e)) = false.
Proof.
  intros (C1 & C2 & C3 & C4 & C5 & C6). induction e; try (intros []; fail); cbn [calculation]; intros H.
  - cbn [meant]. unfold constant. destruct (constantConversions n) as [i|] eqn:E; [|destruct (n <? 0); cbn; rewrite ?C1, ?C3; cbn; rewrite ?C1; auto].
    assert (Ni : forall x, i <> Local x) by (intros x ->; unfold constantConversions in E; repeat (destruct (n =? _); [discriminate E|]); discriminate E). destruct i; try (cbn; rewrite C6; auto; fail). destruct (Ni v eq_refl).
  - cbn [meant]. unfold constant. destruct (constantConversions n) as [i|] eqn:E; [|destruct (n <? 0); cbn; rewrite ?C1, ?C3; cbn; rewrite ?C1; auto].
    assert (Ni : forall x, i <> Local x) by (intros x ->; unfold constantConversions in E; repeat (destruct (n =? _); [discriminate E|]); discriminate E). destruct i; try (cbn; rewrite C6; auto; fail). destruct (Ni v eq_refl).
  - cbn. rewrite C2. auto.
  - cbn. auto.
  - destruct H as (N1 & N2 & H1 & H2). destruct (IHe1 H1) as (A1 & B1 & D1). destruct (IHe2 H2) as (A2 & B2 & D2).
    assert (E : nodes m (meant (Binary op s e1 e2)) = Node (LBin (operatorSymbols op)) [nodes m (meant e1); nodes m (meant e2)]) by (destruct op; try reflexivity; congruence).
    rewrite E. cbn. rewrite C4, A1, A2, B1, B2. repeat split; auto. intros x. rewrite D1, D2. reflexivity.
  - destruct H as (H1 & H2). destruct (IHe1 H1) as (A1 & B1 & D1). destruct (IHe2 H2) as (A2 & B2 & D2). cbn. rewrite C4, A1, A2, B1, B2. repeat split; auto. intros x. rewrite D1, D2. reflexivity.
  - destruct t as [t|]; [|destruct H]. destruct (IHe H) as (A & B & D). cbn. rewrite C5, A, B. repeat split; auto. intros x. rewrite D. reflexivity.
  - destruct (IHe H) as (A & B & D). cbn. rewrite C3, A, B. repeat split; auto. intros x. rewrite D. reflexivity.
Qed.
Theorem C95_simple_call m t f a u : lawful m -> calculates m -> calculations a -> placed_args a -> reads (print false (CallStatic t f a)) u ->
  forall s, (exists r, evaluates s (nodes m u) r) /\ forall r, evaluates s (nodes m u) r -> agree r (lr s (nodes m (meant (CallStatic t f a)))).
Proof.
  intros L C Ca P R. apply C95_any_order_partial; auto. cbn [meant nodes]. apply orderly_node.
  assert (F : Forall (fun t => acts t = false /\ reads_world t = false /\ forall x, assigns x t = false) (map (nodes m) (meant_args a))).
  { clear - C Ca. revert Ca. induction a as [|[c|] e a IH]; cbn; intros H; [constructor|destruct H|]. destruct H as [H1 H2]. constructor; [apply calculation_quiet; auto|apply IH, H2]. }
  split.
  - clear - F. induction F as [|x l [A B] F IH]; constructor; auto. eapply Forall_impl; [|exact F]. intros y (A' & B' & D'). destruct B as [B D]. split; (split; [congruence|intros z E; rewrite ?D, ?D' in E; discriminate]).
  - eapply Forall_impl; [|exact F]. intros x (A & _ & D). apply quiet_orderly; auto.
Qed.

(** ** Refutations *)
Lemma one_step m (s : state m) t o r : step s t o -> match o with Next s' t' => evaluates s' t' r | Throws s' x => r = Raised s' x end -> evaluates s t r.
Proof. destruct o as [s' t'|s' x]; intros S E; [econstructor; eauto|subst; apply E_throw, S]. Qed.
(** f() op g() where the order matters: the C++ program may call g first. *)
Theorem C95_operands_refuted m op t f t' g (s : state m) u w1 w2 a b v1 v2 a' b' :
  lawful m -> op <> Div -> op <> Rem -> kind m (LBin (operatorSymbols op)) = Pure ->
  act m (LStaticCall (Static t f)) [] (world s) = (w1, inl a) -> act m (LStaticCall (Static t' g)) [] w1 = (w2, inl b) ->
  act m (LStaticCall (Static t' g)) [] (world s) = (v1, inl b') -> act m (LStaticCall (Static t f)) [] v1 = (v2, inl a') -> w2 <> v2 ->
  let e := Binary op StackI4 (CallStatic t f ANil) (CallStatic t' g ANil) in
  reads (print false e) u -> exists r, evaluates s (nodes m u) r /\ ~ agree r (lr s (nodes m (meant e))).
Proof.
  intros L N1 N2 K F1 G1 G2 F2 N e R. assert (P : placed e) by (unfold e; cbn; repeat split; try (right; lia)). apply (C59_groups_partial e u P) in R. subst u.
  assert (E : nodes m (meant e) = Node (LBin (operatorSymbols op)) [Node (LStaticCall (Static t f)) []; Node (LStaticCall (Static t' g)) []]) by (unfold e; destruct op; try reflexivity; congruence). rewrite E.
  pose proof (L (LBin (operatorSymbols op)) [a'; b']) as Q. rewrite K in Q. destruct Q as [z Q]. pose proof (L (LBin (operatorSymbols op)) [a; b]) as Q'. rewrite K in Q'. destruct Q' as [z' Q'].
  exists (Done (set_world s v2) z). split.
  - eapply one_step; [apply (S_operand m s _ [Node (LStaticCall (Static t f)) []] (Node (LStaticCall (Static t' g)) []) []), (S_node m s _ [])|]. rewrite G2. cbn [finish_step within app].
    eapply one_step; [apply (S_operand m _ _ [] (Node (LStaticCall (Static t f)) []) [Val b']), (S_node m _ _ [])|]. cbn [world set_world]. rewrite F2. cbn [finish_step within app].
    eapply one_step; [apply (S_node m _ _ [a'; b'])|]. cbn [world set_world]. rewrite Q. cbn. apply E_value.
  - cbn. rewrite F1. cbn. rewrite G1. cbn. rewrite Q'. cbn. intros [[_ B] _]. cbn in B. congruence.
Qed.
(** Arguments that throw: h(f(), g()) throws g's exception, in C++, although f throws too. *)
Theorem C95_arguments_refuted m t h f g (s : state m) u w1 x v1 y :
  lawful m -> act m (LStaticCall (Static t f)) [] (world s) = (w1, inr x) -> act m (LStaticCall (Static t g)) [] (world s) = (v1, inr y) -> x <> y ->
  let e := CallStatic t h (ACons None (CallStatic t f ANil) (ACons None (CallStatic t g ANil) ANil)) in
  reads (print false e) u -> exists r, evaluates s (nodes m u) r /\ ~ agree r (lr s (nodes m (meant e))).
Proof.
  intros L F G N e R. assert (P : placed e) by (unfold e; cbn; tauto). apply (C59_groups_partial e u P) in R. subst u.
  exists (Raised (set_world s v1) y). split.
  - unfold e. cbn [meant meant_args nodes map cast]. eapply one_step; [apply (S_operand m s _ [Node (LStaticCall (Static t f)) []] (Node (LStaticCall (Static t g)) []) []), (S_node m s _ [])|]. rewrite G. reflexivity.
  - cbn. rewrite F. cbn. intros [_ B]. congruence.
Qed.
Lemma no_mid {A} (a : list A) t b : [] = a ++ t :: b -> False.
Proof. destruct a; discriminate. Qed.
Ltac nomid := match goal with H : _ ++ _ :: _ = [] |- _ => destruct (no_mid _ _ _ (eq_sym H)) | H : [] = _ ++ _ :: _ |- _ => destruct (no_mid _ _ _ H) end.
(** T.n += f(): C# adds to the value n had before the call, every C++ evaluation to the value it has afterwards. *)
Theorem C95_compound_refuted m t n f op (s : state m) u w1 v :
  let p := PStatic (Static t n) in let o := UOp (operatorSymbols op) in
  act m (LStaticCall (Static t f)) [] (world s) = (w1, inl v) ->
  ~ agree (finish (set_world s w1) (modify m p o [] (get m p [] w1) v w1)) (finish (set_world s w1) (modify m p o [] (get m p [] (world s)) v w1)) ->
  let e := Compound (LdsFlda t n) op (CallStatic t f ANil) in
  reads (print false e) u -> forall r, evaluates s (nodes m u) r -> ~ agree r (lr s (nodes m (meant e))).
Proof.
  intros p o F N e R r E. assert (P : placed e) by (unfold e; cbn; repeat split; lia). apply (C59_groups_partial e u P) in R. subst u.
  assert (T : nodes m (meant e) = Update p o [] (Node (LStaticCall (Static t f)) [])) by reflexivity. rewrite T in *.
  assert (X : r = finish (set_world s w1) (modify m p o [] (get m p [] w1) v w1)).
  { assert (S1 : forall q, step s (Update p o [] (Node (LStaticCall (Static t f)) [])) q -> q = Next (set_world s w1) (Update p o [] (Val v))).
    { intros q S. inversion S; subst; try nomid.
      match goal with H : step s (Node _ []) _ |- _ => inversion H; subst; try nomid end.
      match goal with H : map Val ?vs = [] |- _ => destruct vs; [|discriminate H] end. rewrite F. reflexivity. }
    assert (S2 : forall s q, step s (Update p o [] (Val v)) q -> q = finish_step s (modify m p o [] (get m p [] (world s)) v (world s))).
    { intros s2 q S. inversion S; subst; try nomid; [match goal with H : step _ (Val _) _ |- _ => inversion H end|].
      match goal with H : map Val ?vs = [] |- _ => destruct vs; [reflexivity|discriminate H] end. }
    inversion E as [|s0 t0 s' t' r0 S E'|s0 t0 s' x S]; subst; apply S1 in S; [|discriminate]. injection S as -> ->.
    inversion E' as [|s0 t0 s' t' r0 S E''|s0 t0 s' x S]; subst; apply S2 in S; cbn [world set_world] in S; destruct (modify m p o [] (get m p [] w1) v w1) as [w [z|z]]; try discriminate S; injection S as -> ->; [inversion E'' as [|s0 t0 s' t' r0 S E3|s0 t0 s' x S]; subst; [reflexivity|inversion S|inversion S]|reflexivity]. }
  subst r. cbn [lr each nodes meant] in *. rewrite F. cbn [finish]. exact N.
Qed.
(** a[f()] += v with a user-defined operator: the C++ program calls f twice.  The world counts the calls of f. *)
Definition counting (t f : Z) : meaning :=
  mk_meaning Z Z (fun _ => Acts) (fun l _ w => (match l with LStaticCall (Static t' f') => if (t' =? t) && (f' =? f) then w + 1 else w | _ => w end, inl 0))
    (fun _ _ _ => 0) (fun _ _ _ _ _ w => (w, inl 0)) (fun _ _ _ => (0, 0)) (fun _ => true).
Section Count.
Variables t f : Z.
Notation cm := (counting t f).
Fixpoint calls (e : term cm) : Z :=
  match e with
  | Val _ | Local_ _ => 0
  | Node l ts => (match l with LStaticCall (Static t' f') => if (t' =? t) && (f' =? f) then 1 else 0 | _ => 0 end) + fold_right Z.add 0 (map calls ts)
  | Cond c a b => calls c + calls a
  | SetLocal _ a | ChangeLocal _ _ a => calls a
  | Update _ _ ts a => fold_right Z.add 0 (map calls ts) + calls a
  end.
Lemma sum_mid' a x b : fold_right Z.add 0 (map calls (a ++ x :: b)) = fold_right Z.add 0 (map calls a) + (calls x + fold_right Z.add 0 (map calls b)).
Proof. induction a as [|y a IH]; cbn in *; [reflexivity|]. rewrite IH. lia. Qed.
Lemma sum_values vs : fold_right Z.add 0 (map calls (map Val vs)) = 0.
Proof. induction vs; cbn; auto. Qed.
Lemma count_step (s : state cm) e o : step s e o -> match o with Next s' e' => world s' + calls e' = world s + calls e | Throws _ _ => False end.
Proof.
  induction 1 as [s x|s l a e b o S IH|s l vs|s c e1 e2 o S IH|s v e1 e2|s x e o S IH|s x v|s x u e o S IH|s x u v n r E|s p u a e b v o S IH|s p u ts v o S IH|s p u vs v];
    try (destruct o as [s' e'|s' x']; [|exact IH]; cbn [within calls] in *; rewrite ?sum_mid' in *; lia); cbn; rewrite ?sum_values; try lia.
  destruct l as [| | |i| | | | | |[]| | | | | | |]; try lia. destruct ((t0 =? t) && (f0 =? f)); lia.
Qed.
Lemma count_result (s : state cm) e r : evaluates s e r -> exists s' v, r = Done s' v /\ world s' = world s + calls e.
Proof.
  induction 1 as [s v|s e s' e' r S E IH|s e s' x S]; [exists s, v; cbn; split; [reflexivity|lia]| |destruct (count_step _ _ _ S)].
  apply count_step in S. destruct IH as (s2 & v & -> & H). exists s2, v. split; [reflexivity|lia].
Qed.
End Count.
Theorem C95_target_twice_refuted t f ty a cls mth x (s : state (counting t f)) u r : f <> mth ->
  let target := LdElema ty (LdLoc a) (ACons None (CallStatic t f ANil) ANil) in
  let e := UserDefinedCompoundAssign target cls mth (LdLoc x) in
  reads (print false e) u -> evaluates s (nodes _ u) r ->
  (exists s' v, lr s (nodes (counting t f) (meant target)) = Done s' v /\ world s' = world s + 1) /\ exists s' v, r = Done s' v /\ world s' = world s + 2.
Proof.
  intros N target e R E. assert (P : placed e) by (unfold e, target, UserDefinedCompoundAssign; cbn; repeat split; try lia; auto). apply (C59_groups_partial e u P) in R. subst u. split.
  - cbn. rewrite !Z.eqb_refl. cbn. eexists _, _. split; reflexivity.
  - apply count_result in E. destruct E as (s' & v & -> & H). exists s', v. split; [reflexivity|]. rewrite H. clear H.
    cbn. rewrite !Z.eqb_refl, (proj2 (Z.eqb_neq mth f)) by congruence. cbn. rewrite ?andb_false_r. cbn. reflexivity.
Qed.

(** C95: `x += v` with a user-defined operator, x a local variable: the operator is called with the old value of x and the value
    of v, in this order, and x receives its result. *)
Theorem C95_user_compound (m : meaning) x cls mth v u (s : state m) : placed v -> reads (print false (UserDefinedCompoundAssign (LdLoc x) cls mth v)) u ->
  lr s (nodes m u) =
    match lr s (nodes m (meant v)) with
    | Raised s1 y => Raised s1 y
    | Done s1 w =>
        match act m (LStaticCall (Static cls mth)) [locals s x; w] (world s1) with
        | (w2, inl r) => Done (set_local (set_world s1 w2) x r) r
        | (w2, inr y) => Raised (set_world s1 w2) y
        end
    end.
Proof.
  intros P R. assert (Q : placed (UserDefinedCompoundAssign (LdLoc x) cls mth v)) by (unfold UserDefinedCompoundAssign; cbn; repeat split; try lia; auto). apply (C59_groups_partial _ u Q) in R. subst u.
  unfold UserDefinedCompoundAssign. cbn. destruct (lr s (nodes m (meant v))) as [s1 w|s1 y]; [|reflexivity]. cbn. destruct (act m (LStaticCall (Static cls mth)) [locals s x; w] (world s1)) as (w2 & [r|y]); reflexivity.
Qed.
Print Assumptions C95_user_compound.

(** ** A case: x.M(i + 1, f(i)) with a world that logs the calls *)
Definition logging : meaning :=
  mk_meaning Z (list Z) (fun l => match l with LNum _ | LBin _ | LNull | LUnary _ | LCast _ | LStatic _ => Pure | _ => Acts end)
    (fun l vs w => match l with
       | LNum n => (w, inl n)
       | LBin OAdd => match vs with [a; b] => (w, inl (a + b)) | _ => (w, inl 0) end
       | LNull | LUnary _ | LCast _ | LStatic _ | LBin _ => (w, inl 0)
       | LStaticCall (Static _ f) => (w ++ f :: vs, inl (100 * f + hd 0 vs))
       | LCall _ (Member f) => (w ++ f :: vs, inl f)
       | _ => (w, inr 0)
       end)
    (fun _ _ _ => 0) (fun _ _ _ _ _ w => (w, inr 0)) (fun _ _ _ => (0, 0)) (fun v => negb (v =? 0)).
Example C95_example : let e := CallInstance (LdLoc 7) None true 5 (ACons None (Binary Add StackI4 (LdLoc 1) (LdcI4' 1)) (ACons None (CallStatic 0 3 (ACons None (LdLoc 1) ANil)) ANil)) in
  lawful logging /\ calculates logging /\ placed e /\ orderly (nodes logging (meant e)) /\
  forall r, evaluates (@mk_state logging (fun x => (10 * x)%Z) []) (nodes logging (meant e)) r -> exists s, r = Done s 5 /\ world s = [3; 10; 5; 70; 11; 310].
Proof.
  cbv zeta. assert (Lw : lawful logging) by (intros l vs; cbn; destruct l as [n|s| |i|o|o|t|a i|a i|i| |t|t|a i|i| |]; cbn; try exact I; try (exists 0; reflexivity); [eexists; reflexivity|]; destruct o; try (exists 0; reflexivity); destruct vs as [|x [|y [|z vs]]]; eexists; reflexivity).
  assert (O : orderly (nodes logging (meant (CallInstance (LdLoc 7) None true 5 (ACons None (Binary Add StackI4 (LdLoc 1) (LdcI4' 1)) (ACons None (CallStatic 0 3 (ACons None (LdLoc 1) ANil)) ANil)))))).
  { cbn. unfold independent, leaves. cbn. repeat split; repeat constructor; cbn; repeat split; intros; try discriminate; auto. }
  split; [exact Lw|]. split; [unfold calculates; cbn; repeat split|]. split; [cbn; repeat split; auto; right; lia|]. split; [exact O|]. intros r E. apply unique in E; [|exact Lw|exact O].
  cbn in E. destruct r as [s v|s x]; [|destruct E]. destruct E as [[_ B] ->]. cbn in B. exists s. auto.
Qed.
(** f() + g() with logged calls; T.n += f() where the world is n and f adds 5 to it and returns 7: C# leaves 3 + 7, C++ leaves 8 + 7. *)
Example C95_operands_example : exists r, evaluates (@mk_state logging (fun _ => 0) []) (nodes logging (meant (Binary Add StackI4 (CallStatic 0 1 ANil) (CallStatic 0 2 ANil)))) r /\ exists s v, r = Done s v /\ world s = [2; 1].
Proof.
  eexists. split; [|].
  - cbn. eapply one_step; [apply (S_operand logging _ _ [Node (LStaticCall (Static 0 1)) []] (Node (LStaticCall (Static 0 2)) []) []), (S_node logging _ _ [])|]. cbn.
    eapply one_step; [apply (S_operand logging _ _ [] (Node (LStaticCall (Static 0 1)) []) [@Val logging 200]), (S_node logging _ _ [])|]. cbn.
    eapply one_step; [apply (S_node logging _ _ ([100; 200] : list (V logging)))|]. cbn. apply E_value.
  - eexists _, _. split; reflexivity.
Qed.
Definition adding : meaning :=
  mk_meaning Z Z (fun _ => Acts) (fun l _ w => match l with LStaticCall _ => (w + 5, inl 7) | _ => (w, inl 0) end)
    (fun _ _ w => w) (fun _ _ _ old v _ => (old + v, inl (old + v))) (fun _ _ _ => (0, 0)) (fun _ => true).
Example C95_compound_example r : evaluates (@mk_state adding (fun _ => 0) 3) (nodes adding (meant (Compound (LdsFlda 0 9) Add (CallStatic 0 1 ANil)))) r -> ~ agree r (lr (@mk_state adding (fun _ => 0) 3) (nodes adding (meant (Compound (LdsFlda 0 9) Add (CallStatic 0 1 ANil))))).
Proof.
  intros E. refine (C95_compound_refuted adding 0 9 1 Add (@mk_state adding (fun _ => 0) 3) _ 8 7 eq_refl _ _ r E); [|apply C59_groups_partial; [cbn; repeat split; lia|reflexivity]].
  cbn. intros [[_ H] _]. discriminate H.
Qed.
Print Assumptions C95_any_order_partial.
Print Assumptions C95_quiet.
Print Assumptions C95_simple_call.
Print Assumptions C95_operands_refuted.
Print Assumptions C95_arguments_refuted.
Print Assumptions C95_compound_refuted.
Print Assumptions C95_target_twice_refuted.
