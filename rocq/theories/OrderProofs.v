(** * C95: the result does not depend on the order when siblings are independent *)
From Verif Require Import Base Tac StatementModel ExprModel ExprSpec OrderSpec.

Section Proofs.
Variable m : meaning.
Hypothesis L : lawful m.
Notation term := (term m). Notation state := (state m).

Lemma term_induction (P : term -> Prop) :
  (forall v, P (Val v)) -> (forall x, P (Local_ x)) -> (forall l ts, Forall P ts -> P (Node l ts)) ->
  (forall c t f, P c -> P t -> P f -> P (Cond c t f)) -> (forall x t, P t -> P (SetLocal x t)) -> (forall x u t, P t -> P (ChangeLocal x u t)) ->
  (forall p u ts t, Forall P ts -> P t -> P (Update p u ts t)) -> forall t, P t.
Proof.
  intros Hv Hl Hn Hc Hs Hch Hu. fix IH 1. intros t.
  assert (A : forall ts, (fix all ts := match ts with [] => True | t :: ts => P t /\ all ts end) ts -> Forall P ts) by (induction ts as [|a ts I]; cbn; [constructor|intros [? ?]; constructor; auto]).
  destruct t as [v|x|l ts|c t f|x t|x u t|p u ts t]; [apply Hv|apply Hl| |apply Hc; apply IH|apply Hs, IH|apply Hch, IH|].
  - apply Hn, A. clear A Hn. revert ts. fix IHl 1. intros [|a ts]; [exact I|split; [apply IH|apply IHl]].
  - apply Hu; [|apply IH]. apply A. clear A Hu. revert ts. fix IHl 1. intros [|a ts]; [exact I|split; [apply IH|apply IHl]].
Qed.

(** ** Footprints *)
Lemma acts_reads (t : term) : acts t = true -> reads_world t = true.
Proof.
  induction t as [v|x|l ts IH|c t f IHc IHt IHf|x t IH|x u t IH|p u ts t IH IHt] using term_induction; cbn; intros H; try discriminate; auto.
  - destruct (kind m l); auto. rewrite existsb_exists in *. destruct H as (a & I & H). rewrite Forall_forall in IH. exists a. auto.
  - rewrite !orb_true_iff in *. tauto.
Qed.
Lemma assigns_uses x (t : term) : assigns x t = true -> uses x t = true.
Proof.
  induction t as [v|y|l ts IH|c t f IHc IHt IHf|y t IH|y u t IH|p u ts t IH IHt] using term_induction; cbn; intros H; try discriminate; auto.
  - rewrite existsb_exists in *. destruct H as (a & I & H). rewrite Forall_forall in IH. exists a. auto.
  - rewrite !orb_true_iff in *. tauto.
  - rewrite !orb_true_iff in *. tauto.
  - rewrite !orb_true_iff in *. tauto.
  - rewrite !orb_true_iff, !existsb_exists in *. rewrite Forall_forall in IH. destruct H as [(a & I & H)|H]; [left; exists a|]; auto.
Qed.

(** ** Frames *)
Definition alike (P : Z -> Prop) (Q : Prop) (s t : state) : Prop := (forall x, P x -> locals s x = locals t x) /\ (Q -> world s = world t).
Definition related {A} (P : Z -> Prop) (Q : Prop) (r q : result m A) : Prop :=
  match r, q with Done s a, Done t b => alike P Q s t /\ a = b | Raised s x, Raised t y => alike P Q s t /\ x = y | _, _ => False end.
Lemma set_local_alike P Q s t x v : alike P Q s t -> alike P Q (set_local s x v) (set_local t x v).
Proof. intros [A B]. split; cbn; [|exact B]. intros y Py. destruct (y =? x); auto. Qed.
Lemma set_world_alike P Q s t w u : alike P Q s t -> (Q -> w = u) -> alike P Q (set_world s w) (set_world t u).
Proof. intros [A B] E. split; cbn; auto. Qed.
Lemma finish_related P Q s t (f : W m -> W m * (V m + V m)) : alike P Q s t -> Q -> related P Q (finish s (f (world s))) (finish t (f (world t))).
Proof. intros A q. rewrite (proj2 A q). destruct (f (world t)) as [w [v|x]]; cbn; (split; [apply set_world_alike; auto|reflexivity]). Qed.
Lemma act_related P Q s t l vs : alike P Q s t -> (kind m l <> Pure -> Q) -> related P Q (finish s (act m l vs (world s))) (finish t (act m l vs (world t))).
Proof.
  intros A q. pose proof (L l vs) as H. destruct (kind m l) eqn:K.
  - destruct H as [v H]. rewrite !H. cbn. split; [|reflexivity]. apply set_world_alike; [exact A|apply A].
  - apply (finish_related P Q s t (act m l vs)); [exact A|apply q; discriminate].
  - apply (finish_related P Q s t (act m l vs)); [exact A|apply q; discriminate].
Qed.
Definition covers (P : Z -> Prop) (Q : Prop) (t : term) : Prop := (forall x, uses x t = true -> P x) /\ (reads_world t = true -> Q).
Definition framed (t : term) : Prop := forall P Q s q, covers P Q t -> alike P Q s q -> related P Q (lr s t) (lr q t).
Lemma each_framed ts : Forall framed ts -> forall P Q s q, Forall (covers P Q) ts -> alike P Q s q -> related P Q (each lr s ts) (each lr q ts).
Proof.
  induction 1 as [|t ts Ft _ IH]; intros P Q s q C A; [cbn; auto|]. inversion C as [|? ? Ct Cts]; subst. cbn [each]. pose proof (Ft P Q s q Ct A) as R.
  destruct (lr s t) as [s1 v|s1 x], (lr q t) as [q1 u|q1 y]; try (destruct R; fail); [|exact R]. destruct R as [A1 ->].
  pose proof (IH P Q s1 q1 Cts A1) as R. destruct (each lr s1 ts), (each lr q1 ts); try (destruct R; fail); [|exact R]. destruct R as [A2 ->]. cbn. split; [exact A2|reflexivity].
Qed.
Lemma covers_node P Q l ts : covers P Q (Node l ts) -> Forall (covers P Q) ts /\ (kind m l <> Pure -> Q).
Proof.
  intros [U R]. split.
  - apply Forall_forall. intros t I. split.
    + intros x H. apply U. cbn. apply existsb_exists. eauto.
    + intros H. apply R. cbn. destruct (kind m l); auto. apply existsb_exists. eauto.
  - intros K. apply R. cbn. destruct (kind m l); [congruence|reflexivity|reflexivity].
Qed.
Lemma covers_update P Q p u ts t : covers P Q (Update p u ts t) -> Forall (covers P Q) ts /\ covers P Q t /\ Q.
Proof.
  intros [U R]. specialize (R eq_refl). split; [|split; [split; [|intros _; exact R]|exact R]].
  - apply Forall_forall. intros a I. split; auto. intros x H. apply U. cbn. apply orb_true_iff. left. apply existsb_exists. eauto.
  - intros x H. apply U. cbn. apply orb_true_iff. auto.
Qed.
Lemma frame t : framed t.
Proof.
  induction t as [v|x|l ts IH|c t f IHc IHt IHf|x t IH|x u t IH|p u ts t IH IHt] using term_induction; intros P Q s q C A.
  - cbn. auto.
  - cbn. split; auto. apply A, C. cbn. apply Z.eqb_refl.
  - destruct (covers_node _ _ _ _ C) as [Cs K]. cbn [lr]. pose proof (each_framed ts IH P Q s q Cs A) as R.
    destruct (each lr s ts), (each lr q ts); try (destruct R; fail); [|exact R]. destruct R as [A1 ->]. apply act_related; auto.
  - destruct C as [U R]. cbn in U, R. setoid_rewrite orb_true_iff in U. setoid_rewrite orb_true_iff in U. rewrite !orb_true_iff in R. cbn [lr].
    assert (X : related P Q (lr s c) (lr q c)) by (apply IHc; [split; intros; auto|exact A]).
    destruct (lr s c), (lr q c); try (destruct X; fail); [|exact X]. destruct X as [A1 ->]. destruct (truth m a0); [apply IHt|apply IHf]; try assumption; split; intros; auto.
  - cbn [lr]. assert (X : related P Q (lr s t) (lr q t)) by (apply IH; [split; intros; apply C; cbn; auto; apply orb_true_iff; auto|exact A]).
    destruct (lr s t), (lr q t); try (destruct X; fail); [|exact X]. destruct X as [A1 ->]. cbn. split; [apply set_local_alike, A1|reflexivity].
  - cbn [lr]. assert (X : related P Q (lr s t) (lr q t)) by (apply IH; [split; intros; apply C; cbn; auto; apply orb_true_iff; auto|exact A]).
    assert (E : locals s x = locals q x) by (apply A, C; cbn; rewrite Z.eqb_refl; reflexivity). rewrite E. clear E.
    destruct (lr s t), (lr q t); try (destruct X; fail); [|exact X]. destruct X as [A1 ->]. destruct (change m u (locals q x) a0). cbn. split; [apply set_local_alike, A1|reflexivity].
  - destruct (covers_update _ _ _ _ _ _ C) as (Cs & Ct & q0). cbn [lr]. pose proof (each_framed ts IH P Q s q Cs A) as R.
    destruct (each lr s ts) as [s1 vs|], (each lr q ts) as [q1 us|]; try (destruct R; fail); [|exact R]. destruct R as [A1 ->]. rewrite (proj2 A1 q0).
    pose proof (IHt P Q s1 q1 Ct A1) as R. destruct (lr s1 t) as [s2 v|], (lr q1 t) as [q2 w|]; try (destruct R; fail); [|exact R]. destruct R as [A2 ->].
    exact (finish_related P Q s2 q2 (modify m p u us (get m p us (world q1)) w) A2 q0).
Qed.
Lemma same_alike (s t : state) : same s t <-> alike (fun _ => True) True s t.
Proof. unfold same, alike. split; intros [A B]; split; auto. Qed.
Lemma agree_related {A} (r q : result m A) : agree r q <-> related (fun _ => True) True r q.
Proof. unfold agree, related. destruct r, q; rewrite ?same_alike; tauto. Qed.
Lemma lr_same (s t : state) e : same s t -> agree (lr s e) (lr t e).
Proof. intros H. apply agree_related, frame; [split; auto|apply same_alike, H]. Qed.
Lemma each_same (s t : state) ts : same s t -> agree (each lr s ts) (each lr t ts).
Proof. intros H. apply agree_related, each_framed; [apply Forall_forall; intros; apply frame|apply Forall_forall; intros; split; auto|apply same_alike, H]. Qed.
Lemma same_refl (s : state) : same s s.
Proof. split; auto. Qed.
Lemma same_sym (s t : state) : same s t -> same t s.
Proof. intros [A B]. split; auto. Qed.
Lemma same_trans (s t u : state) : same s t -> same t u -> same s u.
Proof. intros [A B] [C D]. split; intros; congruence. Qed.
Lemma agree_refl {A} (r : result m A) : agree r r.
Proof. destruct r; cbn; auto using same_refl. Qed.
Lemma agree_sym {A} (r q : result m A) : agree r q -> agree q r.
Proof. destruct r, q; cbn; intros H; try tauto; destruct H; auto using same_sym. Qed.
Lemma agree_trans {A} (r q p : result m A) : agree r q -> agree q p -> agree r p.
Proof. destruct r, q, p; cbn; intros H G; try tauto; destruct H, G; split; try congruence; eapply same_trans; eauto. Qed.

(** ** What is not written stays *)
Definition res_state {A} (r : result m A) : state := match r with Done s _ | Raised s _ => s end.
Definition res_value {A} (r : result m A) : Prop := match r with Done _ _ => True | Raised _ _ => False end.
Definition keeps (fa : bool) (fs : Z -> bool) (s s' : state) : Prop := (forall x, fs x = false -> locals s' x = locals s x) /\ (fa = false -> world s' = world s).
Definition writes_only (t : term) : Prop := forall s, keeps (acts t) (fun x => assigns x t) s (res_state (lr s t)) /\ (acts t = false -> res_value (lr s t)).
Lemma keeps_trans fa fs ga gs ha hs s t u : keeps fa fs s t -> keeps ga gs t u -> (forall x, hs x = false -> fs x = false /\ gs x = false) -> (ha = false -> fa = false /\ ga = false) -> keeps ha hs s u.
Proof. intros [A B] [C D] E F. split; intros; [destruct (E _ H); rewrite C, A by assumption; reflexivity|destruct (F H); rewrite D, B by assumption; reflexivity]. Qed.
Lemma keeps_refl fa fs s : keeps fa fs s s.
Proof. split; auto. Qed.
Lemma keeps_weak fa fs ha hs s t : keeps fa fs s t -> (forall x, hs x = false -> fs x = false) -> (ha = false -> fa = false) -> keeps ha hs s t.
Proof. intros [A B] E F. split; auto. Qed.
Lemma each_writes ts : Forall writes_only ts -> forall s, keeps (existsb acts ts) (fun x => existsb (assigns x) ts) s (res_state (each lr s ts)) /\ (existsb acts ts = false -> res_value (each lr s ts)).
Proof.
  induction 1 as [|t ts Ft _ IH]; intros s; [cbn; split; [apply keeps_refl|auto]|]. cbn [each existsb]. destruct (Ft s) as [K V0]. destruct (lr s t) as [s1 v|s1 x]; cbn [res_state res_value] in *.
  - destruct (IH s1) as [K1 V1]. destruct (each lr s1 ts) as [s2 vs|s2 x]; cbn [res_state res_value] in *; (split; [eapply keeps_trans; [exact K|exact K1| |]; intros; apply orb_false_iff; assumption|]); auto.
    intros H. apply orb_false_iff in H. apply V1, H.
  - split; [eapply keeps_weak; [exact K| |]; cbn; intros; rewrite ?orb_false_iff in *; tauto|]. intros H. apply orb_false_iff in H. apply V0, H.
Qed.
Lemma finish_keeps s l vs fs fa : (fa = false -> kind m l <> Acts) -> keeps fa fs s (res_state (finish s (act m l vs (world s)))) /\ (fa = false -> res_value (finish s (act m l vs (world s)))).
Proof.
  intros K. split; [split|].
  - intros x _. destruct (act m l vs (world s)) as [w [v|e]]; reflexivity.
  - intros F. specialize (K F). pose proof (L l vs) as H. destruct (kind m l); [destruct H as [v H]; rewrite H; reflexivity|destruct (H (world s)) as [v E]; rewrite E; reflexivity|congruence].
  - intros F. specialize (K F). pose proof (L l vs) as H. destruct (kind m l); [destruct H as [v H]; rewrite H; exact I|destruct (H (world s)) as [v E]; rewrite E; exact I|congruence].
Qed.
Lemma writes t : writes_only t.
Proof.
  induction t as [v|x|l ts IH|c t f IHc IHt IHf|x t IH|x u t IH|p u ts t IH IHt] using term_induction; intros s.
  - cbn. split; [apply keeps_refl|auto].
  - cbn. split; [apply keeps_refl|auto].
  - cbn [lr acts]. destruct (each_writes ts IH s) as [K V0]. destruct (each lr s ts) as [s1 vs|s1 x]; cbn [res_state res_value] in *.
    + assert (NA : match kind m l with Acts => true | _ => existsb acts ts end = false -> kind m l <> Acts) by (intros H E; rewrite E in H; discriminate).
      destruct (finish_keeps s1 l vs (fun x => assigns x (Node l ts)) _ NA) as [K1 V1].
      split; [|exact V1]. eapply keeps_trans; [exact K|exact K1| |]; cbn; intros; auto. split; auto. destruct (kind m l); auto; discriminate.
    + split; [eapply keeps_weak; [exact K| |]; cbn; auto|]; intros H; [|apply V0]; destruct (kind m l); auto; discriminate.
  - cbn [lr acts]. destruct (IHc s) as [K V0]. destruct (lr s c) as [s1 v|s1 x]; cbn [res_state res_value] in *.
    + destruct (truth m v); [destruct (IHt s1) as [K1 V1]|destruct (IHf s1) as [K1 V1]]; (split; [eapply keeps_trans; [exact K|exact K1| |]; cbn; intros; rewrite !orb_false_iff in *; tauto|]); intros H; rewrite !orb_false_iff in H; apply V1; tauto.
    + split; [eapply keeps_weak; [exact K| |]; cbn; intros; rewrite !orb_false_iff in *; tauto|]. intros H. rewrite !orb_false_iff in H. apply V0. tauto.
  - cbn [lr acts]. destruct (IH s) as [K V0]. destruct (lr s t) as [s1 v|s1 y]; cbn [res_state res_value] in *.
    + split; [|auto]. split; [|apply K]. intros y H. cbn in *. apply orb_false_iff in H. destruct H as [H1 H2]. rewrite H1. apply K, H2.
    + split; [|auto]. eapply keeps_weak; [exact K| |auto]. cbn. intros z H. apply orb_false_iff in H. tauto.
  - cbn [lr acts]. destruct (IH s) as [K V0]. destruct (lr s t) as [s1 v|s1 y]; cbn [res_state res_value] in *.
    + destruct (change m u (locals s x) v). split; [|auto]. split; [|apply K]. intros y H. cbn in *. apply orb_false_iff in H. destruct H as [H1 H2]. rewrite H1. apply K, H2.
    + split; [|auto]. eapply keeps_weak; [exact K| |auto]. cbn. intros z H. apply orb_false_iff in H. tauto.
  - cbn [lr acts]. destruct (each_writes ts IH s) as [K V0]. split; [|discriminate]. split; [|discriminate]. cbn. intros x H. apply orb_false_iff in H. destruct H as [H1 H2].
    destruct (each lr s ts) as [s1 vs|s1 y]; cbn [res_state] in *; [|apply K, H1]. destruct (IHt s1) as [K1 V1]. destruct (lr s1 t) as [s2 v|s2 y]; cbn [res_state] in *; [|rewrite (proj1 K1), (proj1 K) by assumption; reflexivity].
    destruct (modify m p u vs (get m p vs (world s1)) v (world s2)) as [w [r|r]]; cbn; rewrite (proj1 K1), (proj1 K) by assumption; reflexivity.
Qed.

(** ** Steps *)
Definition out_related (P : Z -> Prop) (Q : Prop) (o p : outcome m) : Prop :=
  match o, p with Next s t, Next q u => alike P Q s q /\ t = u | Throws s x, Throws q y => alike P Q s q /\ x = y | _, _ => False end.
Lemma within_related P Q f o p : out_related P Q o p -> out_related P Q (within f o) (within f p).
Proof. destruct o, p; cbn; auto. intros [A ->]. auto. Qed.
Lemma finish_step_related P Q s t (f : W m -> W m * (V m + V m)) : alike P Q s t -> Q -> out_related P Q (finish_step s (f (world s))) (finish_step t (f (world t))).
Proof. intros A q. rewrite (proj2 A q). destruct (f (world t)) as [w [v|x]]; cbn; (split; [apply set_world_alike; auto|reflexivity]). Qed.
Lemma act_step_related P Q s t l vs : alike P Q s t -> (kind m l <> Pure -> Q) -> out_related P Q (finish_step s (act m l vs (world s))) (finish_step t (act m l vs (world t))).
Proof.
  intros A q. pose proof (L l vs) as H. destruct (kind m l) eqn:K.
  - destruct H as [v H]. rewrite !H. cbn. split; [|reflexivity]. apply set_world_alike; [exact A|apply A].
  - apply (finish_step_related P Q s t (act m l vs)); [exact A|apply q; discriminate].
  - apply (finish_step_related P Q s t (act m l vs)); [exact A|apply q; discriminate].
Qed.
Lemma step_frame (s : state) t o : step s t o -> forall P Q q, covers P Q t -> alike P Q s q -> exists p, step q t p /\ out_related P Q o p.
Proof.
  induction 1 as [s x|s l a t b o S IH|s l vs|s c t f o S IH|s v t f|s x t o S IH|s x v|s x u t o S IH|s x u v n r E|s p u a t b v o S IH|s p u ts v o S IH|s p u vs v]; intros P Q q C A.
  - eexists. split; [constructor|]. cbn. split; auto. f_equal. apply A, C. cbn. apply Z.eqb_refl.
  - apply covers_node in C. destruct C as [C _]. apply Forall_app in C. destruct C as [_ C]. inversion C as [|? ? Ct _]; subst.
    destruct (IH P Q q Ct A) as (o2 & S2 & R). eexists. split; [apply S_operand, S2|]. apply (within_related P Q (fun t => Node l (a ++ t :: b))), R.
  - apply covers_node in C. destruct C as [_ K]. eexists. split; [apply S_node|]. apply act_step_related; auto.
  - assert (Cc : covers P Q c) by (destruct C as [U R]; cbn in U, R; split; intros; [apply U|apply R]; rewrite !orb_true_iff; auto).
    destruct (IH P Q q Cc A) as (o2 & S2 & R). eexists. split; [apply S_condition, S2|]. apply (within_related P Q (fun c => Cond c t f)), R.
  - eexists. split; [apply S_branch|]. cbn. auto.
  - assert (Cc : covers P Q t) by (destruct C as [U R]; cbn in U, R; split; intros; [apply U|apply R]; rewrite ?orb_true_iff; auto).
    destruct (IH P Q q Cc A) as (o2 & S2 & R). eexists. split; [apply S_value, S2|]. apply (within_related P Q (SetLocal x)), R.
  - eexists. split; [apply S_set|]. cbn. split; auto. apply set_local_alike, A.
  - assert (Cc : covers P Q t) by (destruct C as [U R]; cbn in U, R; split; intros; [apply U|apply R]; rewrite ?orb_true_iff; auto).
    destruct (IH P Q q Cc A) as (o2 & S2 & R). eexists. split; [apply S_change_value, S2|]. apply (within_related P Q (ChangeLocal x u)), R.
  - assert (X : locals s x = locals q x) by (apply A, C; cbn; rewrite Z.eqb_refl; reflexivity). rewrite X in E. eexists. split; [apply S_change, E|]. cbn. split; auto. apply set_local_alike, A.
  - apply covers_update in C. destruct C as [C _]. apply Forall_app in C. destruct C as [_ C]. inversion C as [|? ? Ct _]; subst.
    destruct (IH P Q q Ct A) as (o2 & S2 & R). eexists. split; [apply S_update_operand, S2|]. apply (within_related P Q (fun t => Update p u (a ++ t :: b) v)), R.
  - apply covers_update in C. destruct C as (_ & Ct & _).
    destruct (IH P Q q Ct A) as (o2 & S2 & R). eexists. split; [apply S_update_value, S2|]. apply (within_related P Q (Update p u ts)), R.
  - apply covers_update in C. destruct C as (_ & _ & q0). eexists. split; [apply S_update|]. rewrite (proj2 A q0). apply (finish_step_related P Q s q (modify m p u vs (get m p vs (world q)) v)) in q0 as X; [|exact A]. rewrite (proj2 A q0) in X. exact X.
Qed.
(** What a step writes, and how footprints shrink *)
Definition smaller (t' t : term) : Prop :=
  (acts t' = true -> acts t = true) /\ (reads_world t' = true -> reads_world t = true) /\ (forall x, assigns x t' = true -> assigns x t = true) /\ (forall x, uses x t' = true -> uses x t = true).
Definition step_writes_only (t : term) (s : state) (o : outcome m) : Prop :=
  match o with
  | Next s' t' => keeps (acts t) (fun x => assigns x t) s s' /\ smaller t' t
  | Throws s' _ => acts t = true /\ forall x, locals s' x = locals s x \/ assigns x t = true
  end.
Lemma existsb_mid {A} (f : A -> bool) a t b : existsb f (a ++ t :: b) = existsb f a || (f t || existsb f b).
Proof. rewrite existsb_app. reflexivity. Qed.
Lemma step_writes (s : state) t o : step s t o -> step_writes_only t s o.
Proof.
  induction 1 as [s x|s l a t b o S IH|s l vs|s c t f o S IH|s v t f|s x t o S IH|s x v|s x u t o S IH|s x u v n r E|s p u a t b v o S IH|s p u ts v o S IH|s p u vs v]; unfold step_writes_only in *.
  - split; [apply keeps_refl|]. unfold smaller; cbn; repeat split; intros; discriminate.
  - destruct o as [s' t'|s' y]; cbn [within].
    + destruct IH as [K (S1 & S2 & S3 & S4)]. split.
      * eapply keeps_weak; [exact K| |].
        { cbn. intros x. rewrite existsb_mid, !orb_false_iff. tauto. }
        cbn. intros H. destruct (kind m l); try discriminate; rewrite existsb_mid, !orb_false_iff in H; tauto.
      * split; [|split; [|split]]; cbn; try (intros x; rewrite !existsb_mid, !orb_true_iff; specialize (S3 x); specialize (S4 x); tauto); destruct (kind m l); rewrite ?existsb_mid, ?orb_true_iff; tauto.
    + destruct IH as [Ac Lo]. split; [cbn; destruct (kind m l); rewrite ?existsb_mid, ?orb_true_iff; auto|]. intros x. destruct (Lo x); auto. right. cbn. rewrite existsb_mid, !orb_true_iff. auto.
  - destruct (act m l vs (world s)) as [w [r|r]] eqn:E; cbn [finish_step].
    + split; [split; [reflexivity|]|unfold smaller; cbn; repeat split; intros; discriminate]. cbn. intros H. pose proof (L l vs) as Lw. destruct (kind m l); [destruct Lw as [z Lw]; rewrite Lw in E; injection E as <- _; reflexivity|destruct (Lw (world s)) as [z Lz]; rewrite Lz in E; injection E as <- _; reflexivity|discriminate].
    + split; [|cbn; auto]. cbn. pose proof (L l vs) as Lw. destruct (kind m l); [destruct Lw as [z Lw]; rewrite Lw in E; discriminate|destruct (Lw (world s)) as [z Lz]; rewrite Lz in E; discriminate|reflexivity].
  - destruct o as [s' t'|s' y]; cbn [within].
    + destruct IH as [K (S1 & S2 & S3 & S4)]. split; [eapply keeps_weak; [exact K| |]; cbn; intros; rewrite !orb_false_iff in *; tauto|].
      split; [|split; [|split]]; cbn; intros; try (specialize (S3 x)); try (specialize (S4 x)); rewrite !orb_true_iff in *; tauto.
    + destruct IH as [Ac Lo]. split; [cbn; rewrite Ac; reflexivity|]. intros x. destruct (Lo x) as [?|H]; auto. right. cbn. rewrite H. reflexivity.
  - split; [apply keeps_refl|]. destruct (truth m v); (split; [|split; [|split]]); cbn; intros; rewrite !orb_true_iff; tauto.
  - destruct o as [s' t'|s' y]; cbn [within].
    + destruct IH as [K (S1 & S2 & S3 & S4)]. split; [eapply keeps_weak; [exact K| |]; cbn; intros; rewrite ?orb_false_iff in *; tauto|].
      split; [|split; [|split]]; cbn; intros; try (specialize (S3 x0)); try (specialize (S4 x0)); rewrite ?orb_true_iff in *; tauto.
    + destruct IH as [Ac Lo]. split; [cbn; rewrite Ac; reflexivity|]. intros z. destruct (Lo z) as [?|H]; auto. right. cbn. rewrite H, orb_true_r. reflexivity.
  - split; [split|]; cbn.
    + intros y H. rewrite orb_false_r in H. rewrite H. reflexivity.
    + reflexivity.
    + unfold smaller; cbn; repeat split; intros; discriminate.
  - destruct o as [s' t'|s' y]; cbn [within].
    + destruct IH as [K (S1 & S2 & S3 & S4)]. split; [eapply keeps_weak; [exact K| |]; cbn; intros; rewrite ?orb_false_iff in *; tauto|].
      split; [|split; [|split]]; cbn; intros; try (specialize (S3 x0)); try (specialize (S4 x0)); rewrite ?orb_true_iff in *; tauto.
    + destruct IH as [Ac Lo]. split; [cbn; rewrite Ac; reflexivity|]. intros z. destruct (Lo z) as [?|H]; auto. right. cbn. rewrite H, orb_true_r. reflexivity.
  - split; [split|]; cbn.
    + intros y H. rewrite orb_false_r in H. rewrite H. reflexivity.
    + reflexivity.
    + unfold smaller; cbn; repeat split; intros; discriminate.
  - destruct o as [s' t'|s' y]; cbn [within].
    + destruct IH as [K (S1 & S2 & S3 & S4)]. split.
      * eapply keeps_weak; [exact K| |]; cbn; [|discriminate]. intros x. rewrite existsb_mid, !orb_false_iff. tauto.
      * split; [|split; [|split]]; cbn; auto; intros x; rewrite !existsb_mid, !orb_true_iff; specialize (S3 x); specialize (S4 x); tauto.
    + destruct IH as [Ac Lo]. split; [reflexivity|]. intros x. destruct (Lo x); auto. right. cbn. rewrite existsb_mid, !orb_true_iff. auto.
  - destruct o as [s' t'|s' y]; cbn [within].
    + destruct IH as [K (S1 & S2 & S3 & S4)]. split.
      * eapply keeps_weak; [exact K| |]; cbn; [|discriminate]. intros x. rewrite !orb_false_iff. tauto.
      * split; [|split; [|split]]; cbn; auto; intros x; rewrite !orb_true_iff; specialize (S3 x); specialize (S4 x); tauto.
    + destruct IH as [Ac Lo]. split; [reflexivity|]. intros x. destruct (Lo x); auto. right. cbn. rewrite !orb_true_iff. auto.
  - destruct (modify m p u vs (get m p vs (world s)) v (world s)) as [w [r|r]]; cbn [finish_step].
    + split; [split; [reflexivity|discriminate]|unfold smaller; cbn; repeat split; intros; discriminate].
    + split; [reflexivity|auto].
Qed.
(** A step that throws leaves what it does not assign: for a single step no local is assigned at all. *)
Lemma throw_locals (s : state) t o : step s t o -> forall s' x, o = Throws s' x -> forall y, locals s' y = locals s y.
Proof.
  induction 1 as [s x|s l a t b o S IH|s l vs|s c t f o S IH|s v t f|s x t o S IH|s x v|s x u t o S IH|s x u v n r E|s p u a t b v o S IH|s p u ts v o S IH|s p u vs v]; intros s' e H y;
    try (destruct o; cbn in H; [discriminate|]; exact (IH _ _ H y)); try discriminate.
  - destruct (act m l vs (world s)) as [w [z|z]]; cbn in H; [discriminate|]. injection H as <- _. reflexivity.
  - destruct (modify m p u vs (get m p vs (world s)) v (world s)) as [w [z|z]]; cbn in H; [discriminate|]. injection H as <- _. reflexivity.
Qed.

(** ** An operand's step commutes with the evaluation of its siblings *)
Lemma commute h t (s s' : state) t' : independent h t -> step s t (Next s' t') ->
  match lr s h, lr s' h with
  | Done s1 v, Done s2 w => v = w /\ exists s3, step s1 t (Next s3 t') /\ same s3 s2
  | Raised s1 x, Raised s2 y => same s1 s2 /\ x = y
  | _, _ => False
  end.
Proof.
  intros [[Ha Hl] [Ta Tl]] S. pose proof (step_writes _ _ _ S) as [K Sm].
  assert (Ah : alike (fun x => uses x h = true) (reads_world h = true) s s').
  { split.
    - intros x U. symmetry. apply K. destruct (assigns x t) eqn:E; [|reflexivity]. rewrite (Tl x E) in U. discriminate.
    - intros R. symmetry. apply K. destruct (acts t) eqn:E; [|reflexivity]. destruct (Ta eq_refl) as (_ & X & _). congruence. }
  pose proof (frame h _ _ s s' (conj (fun x H => H) (fun H => H)) Ah) as R. destruct (writes h s) as [W1 V1]. destruct (writes h s') as [W2 V2].
  destruct (lr s h) as [s1 v|s1 x] eqn:E1, (lr s' h) as [s2 w|s2 y] eqn:E2; try (destruct R; fail); cbn [res_state res_value] in *.
  - destruct R as [A12 ->]. split; [reflexivity|].
    assert (At : alike (fun x => uses x t = true) (reads_world t = true) s s1).
    { split.
      - intros x U. symmetry. apply W1. destruct (assigns x h) eqn:E; [|reflexivity]. rewrite (Hl x E) in U. discriminate.
      - intros R. symmetry. apply W1. destruct (acts h) eqn:E; [|reflexivity]. destruct (Ha eq_refl) as (_ & X & _). congruence. }
    destruct (step_frame _ _ _ S _ _ s1 (conj (fun x H => H) (fun H => H)) At) as (o & S1 & R). destruct o as [s3 t3|]; [|destruct R]. destruct R as [A3 <-].
    exists s3. split; [exact S1|]. pose proof (step_writes _ _ _ S1) as [K1 _]. split.
    + intros x. destruct (assigns x h) eqn:Ex.
      * rewrite (proj1 K1) by (destruct (assigns x t) eqn:Y; [apply assigns_uses in Y; rewrite (Hl x Ex) in Y; discriminate|reflexivity]). apply (proj1 A12), assigns_uses, Ex.
      * rewrite (proj1 W2 x Ex). destruct (uses x t) eqn:Ut; [symmetry; apply (proj1 A3), Ut|].
        assert (At' : assigns x t = false) by (destruct (assigns x t) eqn:Y; [apply assigns_uses in Y; congruence|reflexivity]). rewrite (proj1 K1 x At'), (proj1 W1 x Ex), (proj1 K x At'). reflexivity.
    + destruct (acts h) eqn:Ac.
      * destruct (Ha eq_refl) as (X & _ & _). rewrite (proj2 K1 X). apply (proj2 A12), acts_reads, Ac.
      * rewrite (proj2 W2 eq_refl). destruct (reads_world t) eqn:Rt; [symmetry; apply (proj2 A3); reflexivity|].
        assert (At' : acts t = false) by (destruct (acts t) eqn:Y; [apply acts_reads in Y; congruence|reflexivity]). rewrite (proj2 K1 At'), (proj2 W1 eq_refl), (proj2 K At'). reflexivity.
  - destruct (acts h) eqn:Ac; [|destruct (V1 eq_refl)]. destruct (Ha eq_refl) as (X & _ & Y).
    assert (E : same s s') by (split; [intros z; symmetry; apply K, Y|symmetry; apply K, X]). pose proof (lr_same s s' h E) as G. rewrite E1, E2 in G. exact G.
Qed.
Lemma commute_list hs t t' : Forall (fun h => independent h t) hs -> forall s s' : state, step s t (Next s' t') ->
  match each lr s hs, each lr s' hs with
  | Done s1 v, Done s2 w => v = w /\ exists s3, step s1 t (Next s3 t') /\ same s3 s2
  | Raised s1 x, Raised s2 y => same s1 s2 /\ x = y
  | _, _ => False
  end.
Proof.
  induction 1 as [|h hs Hh _ IH]; intros s s' S; [cbn; split; [reflexivity|]; exists s'; split; [exact S|apply same_refl]|]. cbn [each]. pose proof (commute h t s s' t' Hh S) as C.
  destruct (lr s h) as [s1 v|s1 x], (lr s' h) as [s2 w|s2 y]; try (destruct C; fail); [|exact C]. destruct C as (-> & s3 & S3 & E3). specialize (IH s1 s3 S3). pose proof (each_same _ _ hs E3) as G.
  destruct (each lr s1 hs) as [s4 vs|s4 x], (each lr s3 hs) as [s5 us|s5 y]; try (destruct IH; fail); destruct (each lr s2 hs) as [s6 ws|s6 z]; try (destruct G; fail).
  - destruct IH as (-> & s7 & S7 & E7). destruct G as [E56 ->]. split; [reflexivity|]. exists s7. split; [exact S7|]. eapply same_trans; eauto.
  - destruct IH as [E45 ->]. destruct G as [E56 ->]. split; [|reflexivity]. eapply same_trans; eauto.
Qed.
Lemma each_app a b : forall s : state, each lr s (a ++ b) = match each lr s a with Raised s x => Raised s x | Done s vs => match each lr s b with Done s us => Done s (vs ++ us) | Raised s x => Raised s x end end.
Proof.
  induction a as [|t a IH]; intros s; cbn [each app]; [destruct (each lr s b); reflexivity|]. destruct (lr s t) as [s1 v|]; [|reflexivity]. rewrite IH. destruct (each lr s1 a) as [s2 vs|]; [|reflexivity]. destruct (each lr s2 b); reflexivity.
Qed.
Lemma each_values vs : forall s : state, each lr s (map Val vs) = Done s vs.
Proof. induction vs as [|v vs IH]; intros s; cbn; [reflexivity|]. rewrite IH. reflexivity. Qed.
(** ** Every step keeps the result *)
Definition preserved (t : term) : Prop := forall s o, step s t o ->
  match o with Next s' t' => agree (lr s' t') (lr s t) /\ orderly t' | Throws s' x => agree (Raised s' x) (lr s t) end.
Lemma list_next a t b (s s' : state) t' : Forall (fun h => independent h t) a -> (forall s s' t', step s t (Next s' t') -> agree (lr s' t') (lr s t)) -> step s t (Next s' t') -> agree (each lr s' (a ++ t' :: b)) (each lr s (a ++ t :: b)).
Proof.
  intros F P S. rewrite !each_app. pose proof (commute_list a t t' F s s' S) as C.
  destruct (each lr s a) as [s1 vs|s1 x], (each lr s' a) as [s2 us|s2 y]; try (destruct C; fail); [|destruct C as [E ->]; split; [apply same_sym, E|reflexivity]].
  destruct C as (-> & s3 & S3 & E). cbn [each]. assert (G : agree (lr s2 t') (lr s1 t)) by (eapply agree_trans; [apply lr_same, same_sym, E|apply P, S3]).
  destruct (lr s2 t') as [s4 v|s4 x], (lr s1 t) as [s5 w|s5 y]; try (destruct G; fail); [|exact G]. destruct G as [E45 ->]. pose proof (each_same s4 s5 b E45) as G.
  destruct (each lr s4 b), (each lr s5 b); try (destruct G; fail); [|exact G]. destruct G as [E6 ->]. cbn. auto.
Qed.
Lemma quiet_list a : Forall (fun h => acts h = false /\ forall x, assigns x h = false) a -> forall s : state, exists s1 vs, each lr s a = Done s1 vs /\ same s1 s.
Proof.
  induction 1 as [|h a [A B] _ IH]; intros s; [cbn; exists s, []; split; [reflexivity|apply same_refl]|]. cbn [each]. destruct (writes h s) as [K V0]. specialize (V0 A).
  destruct (lr s h) as [s1 v|]; [|destruct V0]. cbn in K. destruct (IH s1) as (s2 & vs & -> & E). exists s2, (v :: vs). split; [reflexivity|]. eapply same_trans; [exact E|]. split; [intros x; apply K, B|apply K, A].
Qed.
Lemma list_throw a t b (s s' : state) x : Forall (fun h => independent h t) a -> (forall s s' x, step s t (Throws s' x) -> agree (Raised s' x) (lr s t)) -> step s t (Throws s' x) -> agree (Raised s' x) (each lr s (a ++ t :: b)).
Proof.
  intros F P S. pose proof (step_writes _ _ _ S) as [Ac _].
  assert (Q : Forall (fun h => acts h = false /\ forall x, assigns x h = false) a) by (eapply Forall_impl; [|exact F]; intros h [_ [X _]]; destruct (X Ac) as (A & _ & B); auto).
  destruct (quiet_list a Q s) as (s1 & vs & E & Sm). rewrite each_app, E. cbn [each].
  destruct (step_frame _ _ _ S (fun _ => True) True s1 (conj (fun _ _ => I) (fun _ => I)) (proj1 (same_alike _ _) (same_sym _ _ Sm))) as (o & S1 & R).
  destruct o as [|s2 y]; [destruct R|]. destruct R as [A <-]. pose proof (P _ _ _ S1) as G. destruct (lr s1 t); [destruct G|]. destruct G as [G ->]. cbn. split; [|reflexivity]. eapply same_trans; [apply same_alike, A|exact G].
Qed.
Lemma node_agree l ts us (s q : state) : agree (each lr s ts) (each lr q us) -> agree (lr s (Node l ts)) (lr q (Node l us)).
Proof.
  cbn [lr]. intros G. destruct (each lr s ts) as [s1 vs|], (each lr q us) as [q1 ws|]; try (destruct G; fail); [|exact G]. destruct G as [[A B] ->]. rewrite B. destruct (act m l ws (world q1)) as [w [v|x]]; cbn; split; auto; split; auto.
Qed.
Lemma update_agree p u ts us t (s q : state) : agree (each lr s ts) (each lr q us) -> agree (lr s (Update p u ts t)) (lr q (Update p u us t)).
Proof.
  cbn [lr]. intros G. destruct (each lr s ts) as [s1 vs|], (each lr q us) as [q1 ws|]; try (destruct G; fail); [|exact G]. destruct G as [E ->]. rewrite (proj2 E). pose proof (lr_same _ _ t E) as G.
  destruct (lr s1 t) as [s2 v|], (lr q1 t) as [q2 w|]; try (destruct G; fail); [|exact G]. destruct G as [[A B] ->]. rewrite B. destruct (modify m p u ws (get m p ws (world q1)) w (world q2)) as [z [v|x]]; cbn; split; auto; split; auto.
Qed.
Lemma leaves_left (a : term) a' b : smaller a' a -> leaves a b -> leaves a' b.
Proof. intros (A & B & C & D) [X Y]. split; auto. Qed.
Lemma leaves_right (a : term) b b' : smaller b' b -> leaves a b -> leaves a b'.
Proof.
  intros (A & B & C & D) [X Y]. split.
  - intros H. destruct (X H) as (P & Q & R). split; [destruct (acts b'); auto; rewrite A in P; auto|]. split; [destruct (reads_world b'); auto; rewrite B in Q; auto|]. intros x. specialize (R x). destruct (assigns x b') eqn:E; auto. rewrite (C x E) in R. exact R.
  - intros x H. specialize (Y x H). destruct (uses x b') eqn:E; auto. rewrite (D x E) in Y. exact Y.
Qed.
Lemma independent_right (a : term) b b' : smaller b' b -> independent a b -> independent a b'.
Proof. intros S [X Y]. split; [eapply leaves_right; eauto|eapply leaves_left; eauto]. Qed.
Lemma independent_left (a : term) a' b : smaller a' a -> independent a b -> independent a' b.
Proof. intros S [X Y]. split; [eapply leaves_left; eauto|eapply leaves_right; eauto]. Qed.
Lemma pairs_mid a t t' b : smaller t' t -> ForallOrdPairs independent (a ++ t :: b) -> ForallOrdPairs independent (a ++ t' :: b).
Proof.
  intros S. induction a as [|h a IH]; cbn; intros H; inversion H as [|? ? F R]; subst; constructor; auto.
  - eapply Forall_impl; [|exact F]. intros x. apply independent_left, S.
  - apply Forall_app in F. destruct F as [F1 F2]. inversion F2; subst. apply Forall_app. split; [exact F1|]. constructor; [eapply independent_right; eauto|assumption].
Qed.
Lemma pairs_before a (t : term) b : ForallOrdPairs independent (a ++ t :: b) -> Forall (fun h => independent h t) a.
Proof.
  induction a as [|h a IH]; cbn; intros H; [constructor|]. inversion H as [|? ? F R]; subst. constructor; [|auto]. apply Forall_app in F. destruct F as [_ F]. inversion F; assumption.
Qed.
Definition all_orderly := fix all (ts : list term) : Prop := match ts with [] => True | t :: ts => orderly t /\ all ts end.
Lemma all_orderly_iff ts : all_orderly ts <-> Forall orderly ts.
Proof. induction ts as [|t ts IH]; cbn; [split; constructor|]. rewrite IH. split; [intros []; constructor; auto|inversion 1; auto]. Qed.
Lemma orderly_node l (ts : list term) : orderly (Node l ts) <-> ForallOrdPairs independent ts /\ Forall orderly ts.
Proof. rewrite <- all_orderly_iff. reflexivity. Qed.
Lemma orderly_update p u ts (t : term) : orderly (Update p u ts t) <-> ForallOrdPairs independent ts /\ Forall (fun a => independent a t) ts /\ Forall orderly ts /\ orderly t /\ acts t = false.
Proof. rewrite <- all_orderly_iff. reflexivity. Qed.
Lemma values_no_step s v o : ~ step (m := m) s (Val v) o.
Proof. intros H. inversion H. Qed.
Lemma mid_forall {P : term -> Prop} a t t' b : Forall P (a ++ t :: b) -> P t' -> Forall P (a ++ t' :: b).
Proof. rewrite !Forall_app. intros [A B] H. inversion B; subst. split; auto. Qed.
Lemma mid_in {P : term -> Prop} a t b : Forall P (a ++ t :: b) -> P t.
Proof. rewrite Forall_app. intros [A B]. inversion B; auto. Qed.
Lemma preservation t : orderly t -> preserved t.
Proof.
  induction t as [v|x|l ts IH|c t f IHc IHt IHf|x t IH|x u t IH|p u ts t IH IHt] using term_induction; intros O s o S.
  - destruct (values_no_step _ _ _ S).
  - inversion S; subst. split; [apply agree_refl|exact I].
  - apply orderly_node in O. destruct O as [Pw Al]. inversion S as [|s0 l0 a t b o0 S0|s0 l0 vs| | | | | | | | |]; subst.
    + pose proof (mid_in _ _ _ IH (mid_in _ _ _ Al)) as Pt. pose proof (pairs_before _ _ _ Pw) as F. destruct o0 as [s' t'|s' e]; cbn [within].
      * destruct (Pt s _ S0) as [_ Ot]. split.
        { apply node_agree, list_next; [exact F| |exact S0]. intros s1 s2 t2 S1. exact (proj1 (Pt _ _ S1)). }
        apply orderly_node. split; [eapply pairs_mid; [|exact Pw]; apply (step_writes _ _ _ S0)|eapply mid_forall; eauto].
      * assert (G : agree (Raised s' e) (each lr s (a ++ t :: b))) by (apply list_throw; [exact F| |exact S0]; intros s1 s2 e2 S1; exact (Pt _ _ S1)).
        cbn [lr]. destruct (each lr s (a ++ t :: b)); [destruct G|exact G].
    + cbn [lr]. rewrite each_values. destruct (act m l vs (world s)) as [w [r|r]]; cbn; [split; [|exact I]|]; split; auto using same_refl.
  - destruct O as (Oc & Ot & Of). inversion S as [| | |s0 c0 t0 f0 o0 S0|s0 v t0 f0| | | | | | |]; subst.
    + pose proof (IHc Oc s _ S0) as Pc. destruct o0 as [s' c'|s' e]; cbn [within].
      * destruct Pc as [G O']. split; [|cbn; auto]. cbn [lr]. destruct (lr s' c') as [s1 v|], (lr s c) as [s2 w|]; try (destruct G; fail); [|exact G]. destruct G as [E ->]. destruct (truth m w); apply lr_same, E.
      * cbn [lr]. destruct (lr s c); [destruct Pc|exact Pc].
    + cbn [lr]. destruct (truth m v); (split; [apply agree_refl|assumption]).
  - inversion S as [| | | | |s0 x0 t0 o0 S0|s0 x0 v| | | | |]; subst.
    + pose proof (IH O s _ S0) as Pc. destruct o0 as [s' t'|s' e]; cbn [within].
      * destruct Pc as [G O']. split; [|exact O']. cbn [lr]. destruct (lr s' t') as [s1 v|], (lr s t) as [s2 w|]; try (destruct G; fail); [|exact G]. destruct G as [[A B] ->]. split; [|reflexivity]. split; [|exact B]. intros y. cbn. destruct (y =? x); auto.
      * cbn [lr]. destruct (lr s t); [destruct Pc|exact Pc].
    + split; [apply agree_refl|exact I].
  - destruct O as [O Na]. inversion S as [| | | | | | |s0 x0 u0 t0 o0 S0|s0 x0 u0 v n r Ec| | |]; subst.
    + pose proof (IH O s _ S0) as Pc. pose proof (step_writes _ _ _ S0) as K. destruct o0 as [s' t'|s' e]; cbn [within].
      * destruct Pc as [G O']. destruct K as [K (_ & _ & Sm & _)]. split; [|split; [exact O'|destruct (assigns x t') eqn:Y; [rewrite (Sm _ Y) in Na; discriminate|reflexivity]]].
        cbn [lr]. rewrite (proj1 K x Na). destruct (lr s' t') as [s1 v|], (lr s t) as [s2 w|]; try (destruct G; fail); [|exact G]. destruct G as [[A B] ->]. destruct (change m u (locals s x) w). split; [|reflexivity]. split; [|exact B]. intros y. cbn. destruct (y =? x); auto.
      * cbn [lr]. destruct (lr s t); [destruct Pc|exact Pc].
    + cbn [lr]. rewrite Ec. split; [apply agree_refl|exact I].
  - apply orderly_update in O. destruct O as (Pw & In_ & Al & Ot & Na). inversion S as [| | | | | | | | |s0 p0 u0 a t0 b v0 o0 S0|s0 p0 u0 ts0 v0 o0 S0|s0 p0 u0 vs v]; subst.
    + pose proof (mid_in _ _ _ IH (mid_in _ _ _ Al)) as Pt. pose proof (pairs_before _ _ _ Pw) as F. destruct o0 as [s' t'|s' e]; cbn [within].
      * destruct (Pt s _ S0) as [_ Ot']. assert (Sm : smaller t' t0) by apply (step_writes _ _ _ S0). split.
        { apply update_agree, list_next; [exact F| |exact S0]. intros s1 s2 t2 S1. exact (proj1 (Pt _ _ S1)). }
        apply orderly_update. split; [eapply pairs_mid; eauto|]. split; [eapply mid_forall; [exact In_|]; eapply independent_left; [exact Sm|]; exact (mid_in _ _ _ In_)|]. split; [eapply mid_forall; eauto|]. auto.
      * assert (G : agree (Raised s' e) (each lr s (a ++ t0 :: b))) by (apply list_throw; [exact F| |exact S0]; intros s1 s2 e2 S1; exact (Pt _ _ S1)).
        cbn [lr]. destruct (each lr s (a ++ t0 :: b)); [destruct G|exact G].
    + pose proof (step_writes _ _ _ S0) as K. destruct o0 as [s' t'|s' e]; cbn [within]; [|destruct K as [K _]; congruence]. destruct (IHt Ot s _ S0) as [_ Ot']. destruct K as [_ Sm]. split.
      * cbn [lr]. pose proof (commute_list ts t t' In_ s s' S0) as C. destruct (each lr s ts) as [s1 vs|s1 x], (each lr s' ts) as [s2 us|s2 y]; try (destruct C; fail); [|destruct C as [E ->]; split; [apply same_sym, E|reflexivity]].
        destruct C as (-> & s3 & S3 & E). pose proof (step_writes _ _ _ S3) as [K3 _]. assert (Ew : world s2 = world s1) by (rewrite <- (proj2 E); apply K3, Na). rewrite Ew.
        assert (G : agree (lr s2 t') (lr s1 t)) by (eapply agree_trans; [apply lr_same, same_sym, E|apply (IHt Ot _ _ S3)]).
        destruct (lr s2 t') as [s4 v|], (lr s1 t) as [s5 w|]; try (destruct G; fail); [|exact G]. destruct G as [[A B] ->]. rewrite B. destruct (modify m p u us (get m p us (world s1)) w (world s5)) as [z [r|r]]; cbn; split; auto; split; auto.
      * apply orderly_update. split; [exact Pw|]. split; [eapply Forall_impl; [|exact In_]; intros h; apply independent_right, Sm|]. split; [exact Al|]. split; [exact Ot'|]. destruct (acts t') eqn:Y; [rewrite (proj1 Sm Y) in Na; discriminate|reflexivity].
    + cbn [lr]. rewrite each_values. destruct (modify m p u vs (get m p vs (world s)) v (world s)) as [w [r|r]]; cbn; [split; [|exact I]|]; split; auto using same_refl.
Qed.
Lemma unique (s : state) t r : orderly t -> evaluates s t r -> agree r (lr s t).
Proof.
  intros O E. revert O. induction E as [s v|s t s' t' r S E IH|s t s' x S]; intros O.
  - apply agree_refl.
  - destruct (preservation t O s _ S) as [G O']. eapply agree_trans; [apply IH, O'|exact G].
  - exact (preservation t O s _ S).
Qed.

(** ** Every evaluation ends *)
Fixpoint size (t : term) : nat :=
  match t with
  | Val _ => 0 | Local_ _ => 1
  | Node _ ts => S (list_sum (map size ts))
  | Cond c t f => S (size c + (size t + size f))
  | SetLocal _ t | ChangeLocal _ _ t => S (size t)
  | Update _ _ ts t => S (list_sum (map size ts) + size t)
  end%nat.
Lemma sum_mid a t b : list_sum (map size (a ++ t :: b)) = (list_sum (map size a) + (size t + list_sum (map size b)))%nat.
Proof. rewrite map_app, list_sum_app. reflexivity. Qed.
Lemma step_size (s : state) t o : step s t o -> match o with Next _ t' => (size t' < size t)%nat | Throws _ _ => True end.
Proof.
  induction 1 as [s x|s l a t b o S IH|s l vs|s c t f o S IH|s v t f|s x t o S IH|s x v|s x u t o S IH|s x u v n r E|s p u a t b v o S IH|s p u ts v o S IH|s p u vs v];
    try (destruct o as [s' t'|]; cbn [within size]; [|exact I]); cbn [size]; rewrite ?sum_mid; try lia.
  - destruct (act m l vs (world s)) as [w [r|r]]; cbn; [lia|exact I].
  - destruct (truth m v); lia.
  - destruct (modify m p u vs (get m p vs (world s)) v (world s)) as [w [r|r]]; cbn; [lia|exact I].
Qed.
Lemma values_or ts : (exists vs, ts = map Val vs) \/ exists a t b, ts = a ++ t :: b /\ forall v, t <> @Val m v.
Proof.
  induction ts as [|t ts [[vs ->]|(a & u & b & -> & H)]]; [left; exists []; reflexivity| |right; exists (t :: a), u, b; auto].
  destruct t as [v| | | | | |]; [left; exists (v :: vs); reflexivity|..]; right; eexists [], _, _; (split; [reflexivity|discriminate]).
Qed.
Lemma progress (t : term) : (exists v, t = Val v) \/ forall s, exists o, step s t o.
Proof.
  induction t as [v|x|l ts IH|c t f IHc IHt IHf|x t IH|x u t IH|p u ts t IH IHt] using term_induction; [left; eauto|right..].
  - intros s. eexists. constructor.
  - intros s. destruct (values_or ts) as [[vs ->]|(a & t & b & -> & H)]; [eexists; apply S_node|]. destruct (mid_in _ _ _ IH) as [[v E]|P]; [destruct (H _ E)|]. destruct (P s) as [o S]. eexists. apply S_operand, S.
  - intros s. destruct IHc as [[v ->]|P]; [eexists; apply S_branch|]. destruct (P s) as [o S]. eexists. apply S_condition, S.
  - intros s. destruct IH as [[v ->]|P]; [eexists; apply S_set|]. destruct (P s) as [o S]. eexists. apply S_value, S.
  - intros s. destruct IH as [[v ->]|P]; [destruct (change m u (locals s x) v) eqn:E; eexists; eapply S_change, E|]. destruct (P s) as [o S]. eexists. apply S_change_value, S.
  - intros s. destruct (values_or ts) as [[vs ->]|(a & t0 & b & -> & H)].
    + destruct IHt as [[v ->]|P]; [eexists; apply S_update|]. destruct (P s) as [o S]. eexists. apply S_update_value, S.
    + destruct (mid_in _ _ _ IH) as [[v E]|P]; [destruct (H _ E)|]. destruct (P s) as [o S]. eexists. apply S_update_operand, S.
Qed.
Lemma ends : forall n t, (size t < n)%nat -> forall s : state, exists r, evaluates s t r.
Proof.
  induction n as [|n IH]; intros t H s; [lia|]. destruct (progress t) as [[v ->]|P]; [eexists; constructor|]. destruct (P s) as [o S]. pose proof (step_size _ _ _ S) as Z. destruct o as [s' t'|s' x].
  - destruct (IH t' ltac:(lia) s') as [r E]. exists r. econstructor; eauto.
  - eexists. apply E_throw, S.
Qed.
End Proofs.
