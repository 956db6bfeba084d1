(** * C101, C102: initial values of static and of instance fields *)
From Coq Require Import Lia.
From Verif Require Import Base Tac FieldInitModel FieldInitSpec.

(** ** The C++ side: the storage after the definitions of the first classes *)
Section Static.
Variable main : list stmt.
Variable p : list cls.
Hypothesis good : good_program main p.

Lemma no_eval e s : snd (eval no_access e s) = s.
Proof.
  revert s; induction e; intro s; cbn; auto.
  specialize (IHe1 s). destruct (eval no_access e1 s) as [x s1]. cbn in IHe1. subst.
  specialize (IHe2 s). destruct (eval no_access e2 s) as [y s2]. cbn in *. auto.
Qed.
Definition define_all (l : list definition) (s : state) : state := fold_left (fun s d => define d s) l s.
Definition class_definitions (i : nat) (c : cls) : list definition := flat_map (VisitMember i) (decompile i c).
Fixpoint boot (k : nat) : state :=
  match k with
  | O => initial
  | S k => match nth_error p k with Some c => define_all (class_definitions k c) (boot k) | None => boot k end
  end.
Lemma emit_boot l : forall k, skipn k p = l -> define_all (emit k l) (boot k) = boot (k + length l).
Proof.
  induction l as [|c l IH]; intros k E; cbn [emit length].
  - rewrite Nat.add_0_r. reflexivity.
  - assert (N : nth_error p k = Some c).
    { pose proof (firstn_skipn k p) as X. rewrite E in X.
      assert (L : (k < length p)%nat) by (destruct (Nat.lt_ge_cases k (length p)) as [?|G]; [assumption|apply skipn_all2 in G; congruence]).
      rewrite <- X, nth_error_app2, firstn_length_le by (rewrite ?firstn_length; lia). rewrite Nat.sub_diag. reflexivity. }
    unfold define_all. rewrite fold_left_app.
    replace (k + S (length l))%nat with (S k + length l)%nat by lia. rewrite <- IH.
    + cbn [boot]. rewrite N. reflexivity.
    + clear - E. revert p E. induction k as [|k IH]; intros q E; destruct q; cbn in *; try discriminate; [injection E; auto|apply IH, E].
Qed.
Lemma start_up_boot : start_up (source_file p) = boot (length p).
Proof. exact (emit_boot p 0 eq_refl). Qed.

(** What the definitions of one class do *)
Lemma fields_only i l (g : nat * bool -> option expr) s :
  (forall f, store s i f = 0) ->
  (forall c f, store (define_all (flat_map (VisitMember i) (map (fun x : nat * bool => FieldDeclaration (fst x) (snd x) (g x)) l)) s) c f = store s c f) /\
  printed (define_all (flat_map (VisitMember i) (map (fun x : nat * bool => FieldDeclaration (fst x) (snd x) (g x)) l)) s) = printed s.
Proof.
  revert s; induction l as [|[f st] l IH]; intros s Z; cbn; auto.
  assert (E : forall c f', store (define (Define i f st) s) c f' = store s c f').
  { intros c f'; cbn. destruct st; cbn; auto. destruct (Nat.eqb_spec c i), (Nat.eqb_spec f' f); cbn; subst; auto. }
  assert (P : printed (define (Define i f st) s) = printed s) by (cbn; destruct st; reflexivity).
  destruct (IH (define (Define i f st) s)) as [A B].
  - intro f'. rewrite E. apply Z.
  - split.
    + intros c f'. exact (eq_trans (A c f') (E c f')).
    + exact (eq_trans B P).
Qed.
Lemma class_run i c s : nth_error p i = Some c -> (forall f, store s i f = 0) ->
  exists s', (forall c f, store s' c f = store s c f) /\ printed s' = printed s /\
    define_all (class_definitions i c) s = run no_access (initialisation p i) s'.
Proof.
  intros N Z. unfold class_definitions, initialisation, decompile. rewrite N. destruct (good i c N) as (G1 & _).
  destruct (s_ctor c) as [b|] eqn:C.
  - destruct (fields_only i (s_fields c) (fun _ => None) s Z) as [A B].
    exists (define_all (flat_map (VisitMember i) (map (fun x => FieldDeclaration (fst x) (snd x) None) (s_fields c))) s).
    split; [exact A|split; [exact B|]].
    rewrite flat_map_app. unfold define_all. rewrite fold_left_app. reflexivity.
  - rewrite (G1 eq_refl) in *. destruct (fields_only i (s_fields c) (fun x => initialiser_of (fst x) []) s Z) as [A B].
    eexists. split; [exact A|split; [exact B|]]. reflexivity.
Qed.
(** One statement of an initialisation, in C++ *)
Lemma body_good i a : In a (initialisation p i) -> good_stmt main i a.
Proof.
  unfold initialisation. destruct (nth_error p i) as [c|] eqn:N; [|intros []]. destruct (good i c N) as (_ & G2 & G3).
  intro H. apply in_app_or in H. destruct H as [H|H].
  - apply in_map_iff in H. destruct H as ((f, e) & <- & H). cbn. split; [reflexivity|]. eapply G2; eauto.
  - destruct (s_ctor c) as [b|]; [|destruct H]. eapply G3; eauto.
Qed.
Lemma cpp_frame i l s : (forall a, In a l -> good_stmt main i a) ->
  (forall c f, c <> i -> store (run no_access l s) c f = store s c f) /\ printed (run no_access l s) = printed s.
Proof.
  revert s; induction l as [|a l IH]; intros s G; cbn [run fold_left]; auto.
  destruct (IH (exec no_access a s)) as [A B]; [intros; apply G; right; assumption|].
  specialize (G a (or_introl eq_refl)). destruct a as [c f e|e]; [|destruct G]. destruct G as [-> _].
  unfold run in *. cbn [exec] in *. pose proof (no_eval e s) as E. destruct (eval no_access e s) as [v s1]. cbn in E. subst s1.
  split.
  - intros c f' N. rewrite A by assumption. cbn. destruct (Nat.eqb_spec c i); [contradiction|reflexivity].
  - rewrite B. reflexivity.
Qed.
Lemma boot_step k : (forall c f, c <> k -> store (boot (S k)) c f = store (boot k) c f) /\ printed (boot (S k)) = printed (boot k)
  /\ (forall c f, (k <= c)%nat -> store (boot k) c f = 0).
Proof.
  induction k as [|k IH].
  - assert (Z : forall c f, (0 <= c)%nat -> store (boot 0) c f = 0) by reflexivity.
    cbn [boot]. destruct (nth_error p 0) as [c|] eqn:N; [|auto].
    destruct (class_run 0 c initial N (fun f => eq_refl)) as (s' & A & B & E). rewrite E.
    destruct (cpp_frame 0 (initialisation p 0) s' (body_good 0)) as [X Y]. repeat split; auto.
    + intros. rewrite X by assumption. apply A.
    + rewrite Y. exact B.
  - destruct IH as (A & _ & Z).
    assert (Z' : forall c f, (S k <= c)%nat -> store (boot (S k)) c f = 0) by (intros; rewrite A by lia; apply Z; lia).
    split; [|split; [|exact Z']].
    + intros c f D. change (boot (S (S k))) with (match nth_error p (S k) with Some c => define_all (class_definitions (S k) c) (boot (S k)) | None => boot (S k) end).
      destruct (nth_error p (S k)) as [d|] eqn:N; [|reflexivity].
      destruct (class_run (S k) d (boot (S k)) N) as (s' & A' & B & E); [intro; apply Z'; lia|]. rewrite E.
      destruct (cpp_frame (S k) (initialisation p (S k)) s' (body_good (S k))) as [X Y]. rewrite X by assumption. apply A'.
    + change (boot (S (S k))) with (match nth_error p (S k) with Some c => define_all (class_definitions (S k) c) (boot (S k)) | None => boot (S k) end).
      destruct (nth_error p (S k)) as [d|] eqn:N; [|reflexivity].
      destruct (class_run (S k) d (boot (S k)) N) as (s' & A' & B & E); [intro; apply Z'; lia|]. rewrite E.
      destruct (cpp_frame (S k) (initialisation p (S k)) s' (body_good (S k))) as [X Y]. rewrite Y. exact B.
Qed.
Definition final (c f : nat) : Z := store (boot (S c)) c f.
Lemma boot_later c f k : (c < k)%nat -> store (boot k) c f = final c f.
Proof.
  induction k as [|k IH]; intro L; [lia|]. destruct (Nat.eq_dec c k) as [->|N]; [reflexivity|].
  destruct (boot_step k) as (A & _). rewrite A by assumption. apply IH. lia.
Qed.
Lemma boot_all c f : store (boot (length p)) c f = final c f.
Proof.
  destruct (Nat.lt_ge_cases c (length p)) as [L|L]; [apply boot_later; assumption|].
  unfold final. cbn [boot]. rewrite (proj2 (nth_error_None p c) L).
  destruct (boot_step (length p)) as (_ & _ & Z). rewrite Z by assumption. destruct (boot_step c) as (_ & _ & Z'). rewrite Z' by lia. reflexivity.
Qed.
Lemma boot_printed : forall k, printed (boot k) = [].
Proof. induction k as [|k IH]; [reflexivity|]. destruct (boot_step k) as (_ & B & _). rewrite B. exact IH. Qed.

(** ** The C# side *)
(** Outside the classes being initialised ([X]): initialised classes hold the final values wherever Main does not store, others are zero. *)
Definition settled (X : nat -> Prop) (s : state) : Prop :=
  forall c f, ~ X c -> (started s c = true -> ~ stored_by main c f -> store s c f = final c f) /\ (started s c = false -> store s c f = 0).
(** What an access leaves: nothing above changes, nothing printed, what was initialised stays, what is new is final. *)
Record moved (X : nat -> Prop) (i : nat) (s s' : state) : Prop := {
  mv_above : forall c f, (i < c)%nat -> store s' c f = store s c f /\ started s' c = started s c;
  mv_printed : printed s' = printed s;
  mv_started : forall c, started s c = true -> started s' c = true;
  mv_kept : forall c f, started s c = true -> store s' c f = store s c f;
  mv_new : forall c f, started s c = false -> started s' c = true -> store s' c f = final c f;
  mv_rest : forall c f, started s' c = false -> store s' c f = store s c f }.
Lemma moved_refl X i s : moved X i s s.
Proof. split; auto; congruence. Qed.
Lemma moved_trans X i s t u : moved X i s t -> moved X i t u -> moved X i s u.
Proof.
  intros A B; split.
  - intros c f L. destruct (mv_above _ _ _ _ A c f L), (mv_above _ _ _ _ B c f L). split; congruence.
  - rewrite (mv_printed _ _ _ _ B). apply (mv_printed _ _ _ _ A).
  - intros c H. apply (mv_started _ _ _ _ B), (mv_started _ _ _ _ A), H.
  - intros c f H. rewrite (mv_kept _ _ _ _ B) by (apply (mv_started _ _ _ _ A), H). apply (mv_kept _ _ _ _ A), H.
  - intros c f H K. destruct (started t c) eqn:T.
    + rewrite (mv_kept _ _ _ _ B) by assumption. apply (mv_new _ _ _ _ A); assumption.
    + apply (mv_new _ _ _ _ B); assumption.
  - intros c f H. assert (T : started t c = false) by (destruct (started t c) eqn:T; [apply (mv_started _ _ _ _ B) in T; congruence|reflexivity]).
    rewrite (mv_rest _ _ _ _ B) by assumption. apply (mv_rest _ _ _ _ A); assumption.
Qed.
Lemma moved_settled X i s s' : moved X i s s' -> settled X s -> settled X s'.
Proof.
  intros A S c f N. destruct (S c f N) as [S1 S2]. destruct (started s c) eqn:T.
  - split; intro H; [intro U; rewrite (mv_kept _ _ _ _ A) by assumption; auto|]. rewrite (mv_started _ _ _ _ A) in H by assumption. discriminate.
  - split; intro H; [intro U; apply (mv_new _ _ _ _ A); assumption|]. rewrite (mv_rest _ _ _ _ A) by assumption. auto.
Qed.
Lemma moved_up X i j s s' : (i <= j)%nat -> moved X i s s' -> moved X j s s'.
Proof. intros L A; split; try apply A. intros c f H. apply A. lia. Qed.

Definition access_ok (acc : nat -> state -> state) (i : nat) : Prop :=
  forall c X s, (c < i)%nat -> settled X s -> (forall x, X x -> (c < x)%nat) -> moved X c s (acc c s) /\ started (acc c s) c = true.

(** A class under initialisation, beside the C++ run of the same statements *)
Section Body.
Variable acc : nat -> state -> state.
Variable i : nat.
Variable X : nat -> Prop.
Hypothesis acc_ok : access_ok acc i.
Hypothesis acc_self : forall s, started s i = true -> acc i s = s.
Hypothesis X_above : forall x, X x -> (i < x)%nat.
Definition within (c : nat) : Prop := c = i \/ X c.
Definition beside (s t : state) : Prop :=
  settled within s /\ started s i = true /\ (forall f, store s i f = store t i f) /\ (forall c f, (c < i)%nat -> store t c f = final c f).
(** what the body may have changed so far: everything but this class as in [moved] *)
Definition through (s s' : state) : Prop :=
  (forall c f, (i < c)%nat -> store s' c f = store s c f /\ started s' c = started s c) /\ printed s' = printed s /\
  (forall c, started s c = true -> started s' c = true) /\
  (forall c f, c <> i -> started s c = true -> store s' c f = store s c f) /\
  (forall c f, c <> i -> started s c = false -> started s' c = true -> store s' c f = final c f) /\
  (forall c f, c <> i -> started s' c = false -> store s' c f = store s c f).
Lemma through_refl s : through s s.
Proof. unfold through. repeat split; auto; congruence. Qed.
Lemma through_trans s t u : through s t -> through t u -> through s u.
Proof.
  intros (A1 & A2 & A3 & A4 & A5 & A6) (B1 & B2 & B3 & B4 & B5 & B6). unfold through. repeat match goal with |- _ /\ _ => split end.
  - intros c f L. destruct (A1 c f L), (B1 c f L). split; congruence.
  - congruence.
  - auto.
  - intros c f N H. rewrite B4 by auto. apply A4; assumption.
  - intros c f N H K. destruct (started t c) eqn:T; [rewrite B4 by assumption; apply A5; assumption|apply B5; assumption].
  - intros c f N H. assert (T : started t c = false) by (destruct (started t c) eqn:T; [apply B3 in T; congruence|reflexivity]).
    rewrite B6 by assumption. apply A6; assumption.
Qed.
Lemma moved_through c s s' : (c < i)%nat -> moved within c s s' -> through s s'.
Proof.
  intros L A. unfold through. repeat match goal with |- _ /\ _ => split end.
  - intros d f M. apply (mv_above _ _ _ _ A). lia.
  - apply (mv_printed _ _ _ _ A).
  - apply (mv_started _ _ _ _ A).
  - intros; apply (mv_kept _ _ _ _ A); assumption.
  - intros; apply (mv_new _ _ _ _ A); assumption.
  - intros; apply (mv_rest _ _ _ _ A); assumption.
Qed.
Lemma body_eval e : good_expr main i e -> forall s t, beside s t ->
  fst (eval acc e s) = fst (eval no_access e t) /\ beside (snd (eval acc e s)) t /\ through s (snd (eval acc e s)).
Proof.
  induction e as [n|c f|a IHa b IHb]; intros G s t B; cbn [eval].
  - split; [reflexivity|split; [exact B|apply through_refl]].
  - destruct B as (B1 & B2 & B3 & B4). destruct (G c f (or_introl eq_refl)) as [->|[L N]].
    + rewrite acc_self by assumption. cbn. split; [apply B3|split; [repeat split; auto; apply B1; assumption|apply through_refl]].
    + destruct (acc_ok c within s L B1) as [M S].
      { intros x [->|H]; [assumption|]. specialize (X_above x H). lia. }
      cbn. unfold no_access. pose proof (moved_settled _ _ _ _ M B1) as B1'.
      assert (W : ~ within c) by (intros [->|H]; [lia|specialize (X_above c H); lia]).
      split; [|split].
      * rewrite (proj1 (B1' c f W)) by assumption. symmetry. apply B4. assumption.
      * split; [exact B1'|split; [apply (mv_started _ _ _ _ M); assumption|split; [|exact B4]]].
        intro f'. rewrite (proj1 (mv_above _ _ _ _ M i f' L)). apply B3.
      * apply (moved_through c); assumption.
  - assert (Ga : good_expr main i a) by (intros c f H; apply G, in_or_app; left; assumption).
    assert (Gb : good_expr main i b) by (intros c f H; apply G, in_or_app; right; assumption).
    destruct (IHa Ga s t B) as (V1 & C1 & T1). pose proof (no_eval a t) as E1.
    destruct (eval acc a s) as [x s1], (eval no_access a t) as [y t1]. cbn in *. subst t1 y.
    destruct (IHb Gb s1 t C1) as (V2 & C2 & T2).
    destruct (eval acc b s1) as [x2 s2], (eval no_access b t) as [y2 t2]. cbn in *. subst y2.
    split; [reflexivity|split; [assumption|eapply through_trans; eassumption]].
Qed.
Lemma body_run l : (forall a, In a l -> good_stmt main i a) -> forall s t, beside s t ->
  beside (run acc l s) (run no_access l t) /\ through s (run acc l s).
Proof.
  induction l as [|a l IH]; intros G s t B; [split; [exact B|apply through_refl]|].
  cbn [run fold_left]. pose proof (G a (or_introl eq_refl)) as Ga. destruct a as [c f e|e]; [|destruct Ga]. destruct Ga as [-> Ge].
  cbn [exec]. destruct (body_eval e Ge s t B) as (V & C & T). pose proof (no_eval e t) as E.
  destruct (eval acc e s) as [v s1], (eval no_access e t) as [w t1]. cbn in V, C, T, E. subst t1 w.
  destruct C as (C1 & C2 & C3 & C4). rewrite (acc_self s1 C2).
  assert (B' : beside (set s1 i f v) (set t i f v)).
  { split; [|split; [|split]].
    - intros c f' W. cbn. destruct (Nat.eqb_spec c i) as [->|N]; [exfalso; apply W; left; reflexivity|]. cbn. apply (C1 c f' W).
    - exact C2.
    - intro f'. cbn. destruct (Nat.eqb i i && Nat.eqb f' f); auto.
    - intros c f' L. cbn. destruct (Nat.eqb_spec c i) as [->|N]; [lia|]. cbn. apply C4; assumption. }
  destruct (IH (fun a H => G a (or_intror H)) _ _ B') as [R1 R2]. split; [exact R1|].
  eapply through_trans; [eapply through_trans; [exact T|]|exact R2].
  unfold through; repeat match goal with |- _ /\ _ => split end; cbn; auto; intros c f'; intros.
  all: destruct (Nat.eqb_spec c i) as [->|N]; cbn; try (split; reflexivity); try reflexivity; try congruence; try lia.
Qed.
End Body.

Lemma initialise_ok : forall n, access_ok (initialise p n) n.
Proof.
  induction n as [|n IH]; intros c X s L S A; [lia|].
  cbn [initialise]. destruct (started s c) eqn:D; [split; [apply moved_refl|exact D]|].
  assert (acc_self : forall s, started s c = true -> initialise p n c s = s).
  { intros u H. destruct n; [reflexivity|]. cbn. rewrite H. reflexivity. }
  assert (acc_ok : access_ok (initialise p n) c) by (intros d Y u M; apply IH; lia).
  assert (notX : ~ X c) by (intro H; specialize (A c H); lia).
  assert (Z : forall f, store s c f = 0) by (intro f; apply (S c f notX), D).
  assert (HB : exists t, (forall d f, store t d f = store (boot c) d f) /\ (forall f, store (run no_access (initialisation p c) t) c f = final c f)).
  { destruct (nth_error p c) as [k|] eqn:N.
    - destruct (class_run c k (boot c) N) as (t & E1 & E2 & E3); [intro f; apply (boot_step c); lia|].
      exists t. split; [assumption|]. intro f. rewrite <- E3. unfold final. cbn [boot]. rewrite N. reflexivity.
    - exists (boot c). split; [reflexivity|]. unfold initialisation, final. cbn [boot]. rewrite N. reflexivity. }
  destruct HB as (t & Et & Ef).
  assert (B : beside c X (mark c s) t).
  { split; [|split; [|split]].
    - intros d f W. assert (Nd : d <> c) by (intros ->; apply W; left; reflexivity). assert (Xd : ~ X d) by (intro H; apply W; right; exact H).
      cbn. destruct (Nat.eqb_spec d c); [contradiction|]. apply (S d f Xd).
    - cbn. rewrite Nat.eqb_refl. reflexivity.
    - intro f. cbn. rewrite Z, Et. symmetry. apply (boot_step c). lia.
    - intros d f H. rewrite Et. apply boot_later. assumption. }
  destruct (body_run (initialise p n) c X acc_ok acc_self A (initialisation p c) (body_good c) _ _ B) as [(B1 & B2 & B3 & _) (T1 & T2 & T3 & T4 & T5 & T6)].
  set (s' := run (initialise p n) (initialisation p c) (mark c s)) in *. clearbody s'.
  assert (K : forall d, d <> c -> started (mark c s) d = started s d) by (intros d N; cbn; destruct (Nat.eqb_spec d c); [contradiction|reflexivity]).
  split; [|exact B2]. split.
  - intros d f H. destruct (T1 d f H) as [U1 U2]. split; [exact U1|]. rewrite U2. apply K. lia.
  - exact T2.
  - intros d H. apply T3. destruct (Nat.eq_dec d c) as [->|N]; [congruence|]. rewrite K by assumption. exact H.
  - intros d f H. assert (N : d <> c) by congruence. rewrite T4; [reflexivity|assumption|]. rewrite K by assumption. exact H.
  - intros d f H J. destruct (Nat.eq_dec d c) as [->|N]; [rewrite B3; apply Ef|]. apply T5; try assumption. rewrite K by assumption. exact H.
  - intros d f H. assert (N : d <> c) by congruence. rewrite T6 by assumption. reflexivity.
Qed.
(** any class, also one that does not exist *)
Lemma top_access c s : settled (fun _ => False) s -> moved (fun _ => False) c s (initialise p (S (length p)) c s) /\ started (initialise p (S (length p)) c s) c = true.
Proof.
  intro Hs. destruct (Nat.lt_ge_cases c (S (length p))) as [L|L]; [apply initialise_ok; [assumption|assumption|intros x []]|].
  cbn [initialise]. destruct (started s c) eqn:D; [split; [apply moved_refl|exact D]|].
  unfold initialisation. rewrite (proj2 (nth_error_None p c)) by lia. unfold run. cbn [fold_left].
  split; [split|].
  - intros d f H. cbn. destruct (Nat.eqb_spec d c); [lia|auto].
  - reflexivity.
  - intros d H. cbn. destruct (Nat.eqb d c); auto.
  - reflexivity.
  - intros d f H J. cbn in *. destruct (Nat.eqb_spec d c) as [->|N]; [|congruence].
    rewrite (proj2 (Hs c f (fun x => x)) D). unfold final. symmetry. cbn [boot]. rewrite (proj2 (nth_error_None p c)) by lia.
    apply (boot_step c). lia.
  - reflexivity.
  - cbn. rewrite Nat.eqb_refl. reflexivity.
Qed.

(** ** Main beside main *)
Definition alike (s t : state) : Prop :=
  printed s = printed t /\ settled (fun _ => False) s /\
  (forall c f, started s c = true -> store s c f = store t c f) /\ (forall c f, started s c = false -> store t c f = final c f).
Lemma alike_access c s t : alike s t -> alike (initialise p (S (length p)) c s) t /\ started (initialise p (S (length p)) c s) c = true.
Proof.
  intros (P & Hs & A & B). destruct (top_access c s Hs) as [M D]. split; [|exact D]. split; [|split; [|split]].
  - rewrite (mv_printed _ _ _ _ M). exact P.
  - eapply moved_settled; eassumption.
  - intros d f H. destruct (started s d) eqn:T.
    + rewrite (mv_kept _ _ _ _ M) by assumption. apply A. assumption.
    + rewrite (mv_new _ _ _ _ M) by assumption. symmetry. apply B. assumption.
  - intros d f H. apply B. destruct (started s d) eqn:T; [|reflexivity]. apply (mv_started _ _ _ _ M) in T. congruence.
Qed.
Lemma main_eval e : forall s t, alike s t ->
  fst (eval (initialise p (S (length p))) e s) = fst (eval no_access e t) /\ alike (snd (eval (initialise p (S (length p))) e s)) t.
Proof.
  generalize (alike_access). intro AA. set (acc := initialise p (S (length p))) in *. clearbody acc.
  induction e as [n|c f|a IHa b IHb]; intros s t H; cbn [eval].
  - auto.
  - destruct (AA c s t H) as [K D]. cbn. split; [|exact K]. destruct K as (_ & _ & K & _). apply K. exact D.
  - destruct (IHa s t H) as [V1 C1]. pose proof (no_eval a t) as E1.
    destruct (eval acc a s) as [x s1], (eval no_access a t) as [y t1]. cbn in *. subst t1 y.
    destruct (IHb s1 t C1) as [V2 C2].
    destruct (eval acc b s1) as [x2 s2], (eval no_access b t) as [y2 t2]. cbn in *. subst y2. auto.
Qed.
Lemma main_run l : (forall a, In a l -> In a main) -> forall s t, alike s t -> alike (run (initialise p (S (length p))) l s) (run no_access l t).
Proof.
  induction l as [|a l IH]; intros L s t H; [exact H|]. cbn [run fold_left]. apply IH; [intros; apply L; right; assumption|].
  pose proof (L a (or_introl eq_refl)) as La. destruct a as [c f e|e]; cbn [exec].
  - destruct (main_eval e s t H) as [V C]. pose proof (no_eval e t) as E.
    destruct (eval (initialise p (S (length p))) e s) as [v s1], (eval no_access e t) as [w t1]. cbn [fst snd] in V, C, E. subst t1 w.
    destruct (alike_access c s1 t C) as [K D]. unfold no_access at 1. set (s2 := initialise p (S (length p)) c s1) in *. clearbody s2.
    destruct K as (P & Hs & A & B). split; [exact P|split; [|split]].
    + intros d f' _. cbn. destruct (Hs d f' (fun x => x)) as [S1 S2].
      destruct (Nat.eqb_spec d c) as [->|N], (Nat.eqb_spec f' f) as [->|N']; cbn; try (split; assumption).
      split; intro T; [intro U; exfalso; apply U; exists e; exact La|congruence].
    + intros d f' T. cbn. destruct (Nat.eqb d c && Nat.eqb f' f); auto.
    + intros d f' T. cbn in T. cbn. destruct (Nat.eqb_spec d c) as [->|N]; [congruence|]. cbn. apply B. exact T.
  - destruct (main_eval e s t H) as [V C]. pose proof (no_eval e t) as E.
    destruct (eval (initialise p (S (length p))) e s) as [v s1], (eval no_access e t) as [w t1]. cbn [fst snd] in V, C, E. subst t1 w.
    destruct C as (P & Hs & A & B). split; [cbn; congruence|split; [exact Hs|split; assumption]].
Qed.
Lemma same_output : csharp p main = cplusplus (source_file p) main.
Proof.
  unfold csharp, cplusplus. rewrite start_up_boot.
  refine (proj1 (main_run main (fun a H => H) initial (boot (length p)) _)). split; [|split; [|split]].
  - symmetry. apply boot_printed.
  - intros c f _. split; [discriminate|reflexivity].
  - discriminate.
  - intros. apply boot_all.
Qed.
End Static.

(** C101: Main sees in every static field what it would see in C#.  Missing: the programs refuted below. *)
Theorem C101_values_partial main p : good_program main p -> cplusplus (source_file p) main = csharp p main.
Proof. intro G. symmetry. apply same_output, G. Qed.
(** An initialiser of a static field is lost if the class has no static constructor. *)
Theorem C101_initialiser_refuted v : v <> 0 ->
  let p := [mk_cls [(0%nat, false)] [(0%nat, Const v)] None] in let main := [Print (Field 0 0)] in
  csharp p main = [v] /\ cplusplus (source_file p) main = [0].
Proof. intros _. split; reflexivity. Qed.
(** A static constructor that reads a class defined later reads zero. *)
Theorem C101_later_class_refuted v : v <> 0 ->
  let p := [mk_cls [(0%nat, false)] [] (Some [Store 0 0 (Field 1 0)]); mk_cls [(0%nat, false)] [] (Some [Store 1 0 (Const v)])] in let main := [Print (Field 0 0)] in
  csharp p main = [v] /\ cplusplus (source_file p) main = [0].
Proof. intros _. split; reflexivity. Qed.
(** A static constructor does not see what Main stored before the first use of its class. *)
Theorem C101_first_use_refuted v : v <> 0 ->
  let p := [mk_cls [(0%nat, false)] [] None; mk_cls [(0%nat, false)] [] (Some [Store 1 0 (Field 0 0)])] in let main := [Store 0 0 (Const v); Print (Field 1 0)] in
  csharp p main = [v] /\ cplusplus (source_file p) main = [0].
Proof. intros _. split; reflexivity. Qed.
(** The static constructor of a class that is never used runs. *)
Theorem C101_unused_class_refuted v :
  let p := [mk_cls [] [] (Some [Print (Const v)])] in csharp p [] = [] /\ cplusplus (source_file p) [] = [v].
Proof. split; reflexivity. Qed.
(** What a static constructor stores into a field of a struct type of a class defined later is lost. *)
Theorem C101_struct_refuted v : v <> 0 ->
  let p := [mk_cls [(0%nat, false)] [] (Some [Store 1 0 (Const v)]); mk_cls [(0%nat, true)] [] None] in let main := [Print (Field 0 0); Print (Field 1 0)] in
  csharp p main = [0; v] /\ cplusplus (source_file p) main = [0; 0].
Proof. intros _. split; reflexivity. Qed.
(** Three classes: a table of constants, one that computes with them, and one of a struct type; Main changes its own counter. *)
Example C101_example :
  let main := [Store 2 0 (Sum (Field 1 0) (Const 1)); Print (Field 2 0); Print (Field 0 1); Store 2 1 (Field 2 0); Print (Sum (Field 2 1) (Field 1 1))] in
  let p := [mk_cls [(0%nat, false); (1%nat, false)] [(0%nat, Const 7); (1%nat, Sum (Field 0 0) (Const 1))] (Some []);
            mk_cls [(0%nat, false); (1%nat, true)] [] (Some [Store 1 0 (Sum (Field 0 0) (Field 0 1)); Store 1 1 (Field 1 0)]);
            mk_cls [(0%nat, true); (1%nat, false)] [] None] in
  good_program main p /\ cplusplus (source_file p) main = [16; 8; 31].
Proof.
  split; [|reflexivity]. intros i c H.
  assert (Q : forall c f e l, stored_by l c f -> existsb (fun a => match a with Store c' f' _ => Nat.eqb c c' && Nat.eqb f f' | _ => e end) l = true).
  { intros c' f' e l (x & I'). apply existsb_exists. eexists. split; [exact I'|]. cbn. rewrite !Nat.eqb_refl. reflexivity. }
  destruct i as [|[|[|i]]]; cbn in H; [injection H as <-..|destruct i; discriminate].
  all: (split; [try discriminate; reflexivity|split]).
  all: intros; cbn in *; repeat (match goal with H : _ \/ _ |- _ => destruct H | H : False |- _ => destruct H | H : Some _ = Some _ |- _ => injection H as <- | H : None = Some _ |- _ => discriminate H
         | H : (_, _) = (_, _) |- _ => injection H as <- <- | H : _ = ?x |- _ => is_var x; subst x end; cbn in *).
  all: try (split; [reflexivity|]); intros c f K; cbn in K; repeat match goal with H : _ \/ _ |- _ => destruct H | H : False |- _ => destruct H | H : (_, _) = (_, _) |- _ => injection H as <- <- end; auto.
  all: right; split; [lia|]; intro J; apply (Q _ _ false) in J; discriminate.
Qed.

(** ** Instance fields *)
Definition below (k : nat) (s t : state) : Prop := printed s = printed t /\ forall c f, (c < k)%nat -> store s c f = store t c f.
Definition same (s t : state) : Prop := printed s = printed t /\ forall c f, store s c f = store t c f.
Lemma eval_below k e s t : (forall x, In x (reads_of e) -> (fst x < k)%nat) -> below k s t -> fst (eval no_access e s) = fst (eval no_access e t).
Proof.
  intros R [_ H]. induction e as [n|c f|a IHa b IHb]; cbn; [reflexivity|apply H; apply (R (c, f)); left; reflexivity|].
  assert (Ea : fst (eval no_access a s) = fst (eval no_access a t)) by (apply IHa; intros; apply R, in_or_app; left; assumption).
  assert (Eb : fst (eval no_access b s) = fst (eval no_access b t)) by (apply IHb; intros; apply R, in_or_app; right; assumption).
  pose proof (no_eval a s) as P1. pose proof (no_eval a t) as P2. pose proof (no_eval b s) as P3. pose proof (no_eval b t) as P4.
  destruct (eval no_access a s), (eval no_access a t). cbn in *. subst.
  destruct (eval no_access b s), (eval no_access b t). cbn in *. subst. reflexivity.
Qed.
Lemma exec_below k a s t : knows k a -> below (S k) s t -> below (S k) (exec no_access a s) (exec no_access a t).
Proof.
  intros K B. destruct a as [c f e|e]; cbn in K.
  - destruct K as [Kc Ke]. pose proof (eval_below (S k) e s t (fun x H => proj2 (Nat.lt_succ_r _ _) (Ke x H)) B) as E.
    cbn [exec]. pose proof (no_eval e s) as P1. pose proof (no_eval e t) as P2.
    destruct (eval no_access e s), (eval no_access e t). cbn in *. subst. destruct B as [Bp Bs]. split; [exact Bp|].
    intros c' f' L. cbn. destruct (Nat.eqb c' c && Nat.eqb f' f); auto.
  - pose proof (eval_below (S k) e s t (fun x H => proj2 (Nat.lt_succ_r _ _) (K x H)) B) as E.
    cbn [exec]. pose proof (no_eval e s) as P1. pose proof (no_eval e t) as P2.
    destruct (eval no_access e s), (eval no_access e t). cbn in *. subst. destruct B as [Bp Bs]. split; [cbn; congruence|exact Bs].
Qed.
Lemma run_below k l : (forall a, In a l -> knows k a) -> forall s t, below (S k) s t -> below (S k) (run no_access l s) (run no_access l t).
Proof. induction l as [|a l IH]; intros K s t B; [exact B|]. apply IH; [intros; apply K; right; assumption|]. apply exec_below; [apply K; left; reflexivity|exact B]. Qed.
Lemma run_above k l : (forall a, In a l -> knows k a) -> forall s c f, (k < c)%nat -> store (run no_access l s) c f = store s c f.
Proof.
  induction l as [|a l IH]; intros K s c f L; [reflexivity|]. cbn [run fold_left].
  refine (eq_trans (IH (fun a H => K a (or_intror H)) _ c f L) _). specialize (K a (or_introl eq_refl)).
  destruct a as [c' f' e|e]; cbn [exec]; pose proof (no_eval e s) as P; destruct (eval no_access e s); cbn in *; subst; [|reflexivity].
  destruct (Nat.eqb_spec c c'); [lia|reflexivity].
Qed.
Lemma same_below_run l : forall s t, same s t -> same (run no_access l s) (run no_access l t).
Proof.
  induction l as [|a l IH]; intros s t H; [exact H|]. apply IH. destruct H as [Hp Hs].
  assert (E : forall e, fst (eval no_access e s) = fst (eval no_access e t)).
  { intro e. induction e as [n|c f|x IHx y IHy]; cbn; auto.
    pose proof (no_eval x s) as P1. pose proof (no_eval x t) as P2. pose proof (no_eval y s) as P3. pose proof (no_eval y t) as P4.
    destruct (eval no_access x s), (eval no_access x t). cbn in *. subst. destruct (eval no_access y s), (eval no_access y t). cbn in *. subst. reflexivity. }
  destruct a as [c f e|e]; cbn [exec]; specialize (E e); pose proof (no_eval e s) as P1; pose proof (no_eval e t) as P2;
    destruct (eval no_access e s), (eval no_access e t); cbn in *; subst; split; cbn; auto; try congruence.
  intros c' f'. destruct (Nat.eqb c' c && Nat.eqb f' f); auto.
Qed.
Lemma inits_stores k l : forall s, fold_left (initialise_field k) l s = run no_access (istores k l) s.
Proof.
  induction l as [|[f [v|o v]] l IH]; intro s; [reflexivity|..]; cbn [fold_left istores flat_map istore snd fst app run]; exact (IH _).
Qed.
Lemma inits_run k l : (forall x, In x l -> exists v, snd x = Value v) -> forall s, let s' := run no_access (istores k l) s in
  printed s' = printed s /\ (forall c f, c <> k -> store s' c f = store s c f) /\
  (forall t, (forall f, store t k f = store s k f) -> forall f, store (run no_access (istores k l) t) k f = store s' k f).
Proof.
  induction l as [|[f0 i] l IH]; intros V s; [cbn; auto|]. destruct (V _ (or_introl eq_refl)) as (v & E). cbn in E. subst i.
  cbn [istores flat_map istore snd fst app run fold_left].
  destruct (IH (fun x H => V x (or_intror H)) (set s k f0 v)) as (A & B & C). split; [exact A|split].
  - intros c f N. refine (eq_trans (B c f N) _). cbn. destruct (Nat.eqb_spec c k); [contradiction|reflexivity].
  - intros t H f. apply (C (set t k f0 v)). intro f'. cbn. destruct (Nat.eqb k k && Nat.eqb f' f0); auto.
Qed.
Definition good_rev (rc : list icls) : Prop :=
  forall k c, nth_error rc k = Some c -> (i_ctor c = None -> i_inits c = []) /\ (forall b a, i_ctor c = Some b -> In a b -> knows (length rc - 1 - k) a) /\
    ((length rc - 1 - k)%nat = 0%nat \/ forall x, In x (i_inits c) -> exists v, snd x = Value v).
Lemma good_rev_tail c rc : good_rev (c :: rc) -> good_rev rc.
Proof. intros G k d N. destruct (G (S k) d N) as (A & B & C). cbn [length] in B, C. replace (S (length rc) - 1 - S k)%nat with (length rc - 1 - k)%nat in B, C by lia. auto. Qed.
Lemma create_local rc : good_rev rc ->
  (forall s t, below (length rc) s t -> below (length rc) (create (length rc) rc s) (create (length rc) rc t)) /\
  (forall s c f, (length rc <= c)%nat -> store (create (length rc) rc s) c f = store s c f).
Proof.
  induction rc as [|d rc IH]; intro G; [cbn; auto|]. destruct (IH (good_rev_tail _ _ G)) as [A B]. clear IH.
  destruct (G 0%nat d eq_refl) as (_ & G2 & _). cbn [length] in *. replace (S (length rc) - 1 - 0)%nat with (length rc) in G2 by lia.
  assert (K : forall a, In a (match i_ctor d with Some b => b | None => [] end) -> knows (length rc) a).
  { destruct (i_ctor d) as [b|]; [intros a H; apply (G2 b); auto|intros a []]. }
  assert (I' : forall a, In a (istores (length rc) (i_inits d)) -> knows (length rc) a).
  { intros a H. apply in_flat_map in H. destruct H as ((x & [v|o v]) & _ & H); cbn in H; repeat destruct H as [<-|H]; try destruct H; cbn; try (split; [lia|]); intros ? []. }
  cbn [create]. replace (S (length rc) - 1)%nat with (length rc) by lia. rewrite ?inits_stores. split.
  - intros s t H. rewrite !inits_stores. apply run_below; [exact K|]. pose proof (run_below _ _ I' s t H) as [P Q].
    set (s1 := run no_access (istores (length rc) (i_inits d)) s) in *. set (t1 := run no_access (istores (length rc) (i_inits d)) t) in *.
    destruct (A s1 t1) as [P' Q']; [split; [exact P|intros; apply Q; lia]|]. split; [exact P'|].
    intros c f L. destruct (Nat.eq_dec c (length rc)) as [->|N]; [|apply Q'; lia]. rewrite !B by lia. apply Q. lia.
  - intros s c f L. rewrite inits_stores. rewrite run_above with (k := length rc) by (auto; lia). rewrite B by lia. apply run_above with (k := length rc); auto; lia.
Qed.
Lemma same_trans s t u : same s t -> same t u -> same s u.
Proof. intros [A B] [C D]. split; [congruence|]. intros. rewrite B. apply D. Qed.
Lemma create_construct rc : good_rev rc -> forall s, same (create (length rc) rc s) (construct (length rc) (emitted (length rc) rc) s).
Proof.
  induction rc as [|d rc IH]; intros G s; [split; reflexivity|]. specialize (IH (good_rev_tail _ _ G)).
  destruct (create_local rc (good_rev_tail _ _ G)) as [A B]. destruct (G 0%nat d eq_refl) as (G1 & _ & G3). cbn [length] in G3. replace (S (length rc) - 1 - 0)%nat with (length rc) in G3 by lia.
  cbn [create construct emitted length]. replace (S (length rc) - 1)%nat with (length rc) by lia. rewrite ?inits_stores.
  set (k := length rc) in *.
  (* both: the initialisers, moved over the base's constructor *)
  assert (C : same (create k rc (run no_access (istores k (i_inits d)) s)) (run no_access (istores k (i_inits d)) (construct k (emitted k rc) s))).
  { eapply same_trans; [|apply same_below_run, IH].
    destruct G3 as [K0|G3]; [subst k; destruct rc; [split; reflexivity|discriminate]|].
    destruct (inits_run k (i_inits d) G3 s) as (P1 & P2 & P3). destruct (inits_run k (i_inits d) G3 (create k rc s)) as (Q1 & Q2 & Q3).
    assert (Bl : below k (run no_access (istores k (i_inits d)) s) s) by (split; [exact P1|intros; apply P2; lia]).
    destruct (A _ _ Bl) as [R1 R2]. split; [rewrite Q1; exact R1|].
    intros c f. destruct (Nat.lt_trichotomy c k) as [L|[->|L]].
    - rewrite Q2 by lia. apply R2. exact L.
    - rewrite B by lia. symmetry. apply P3. intro f'. apply B. lia.
    - rewrite Q2, B, P2, B by lia. reflexivity. }
  unfold emitted_constructor, kept_constructor. destruct (i_ctor d) as [b|].
  - unfold run in *. rewrite fold_left_app. apply same_below_run, C.
  - rewrite (G1 eq_refl) in *. exact C.
Qed.
(** C102: an object has, when it is created, the same values in all its fields, and its creation prints the same.  Missing: the classes
    refuted below. *)
Theorem C102_values_partial chain : good_chain chain ->
  printed (cpp_object chain) = printed (csharp_object chain) /\ forall k f, store (cpp_object chain) k f = store (csharp_object chain) k f.
Proof.
  intro G. assert (GR : good_rev (rev chain)).
  { intros k c N. assert (L : (k < length chain)%nat) by (rewrite <- rev_length; apply nth_error_Some; congruence).
    assert (N' : nth_error chain (length chain - 1 - k) = Some c).
    { revert N. rewrite <- (rev_involutive chain) at 2. rewrite <- (rev_length chain). rewrite <- rev_length in L. generalize (rev chain) L. clear. intros l L N.
      destruct (nth_error_split l k N) as (l1 & l2 & -> & <-). rewrite rev_app_distr. cbn [rev]. rewrite <- app_assoc. rewrite nth_error_app2; rewrite rev_length, app_length; cbn; [|lia].
      replace (length l1 + S (length l2) - 1 - length l1 - length l2)%nat with 0%nat by lia. reflexivity. }
    destruct (G _ c N') as (A & B & C). rewrite rev_length. auto. }
  pose proof (create_construct (rev chain) GR initial) as [A B]. rewrite rev_length in A, B. unfold cpp_object, csharp_object. split; [symmetry; exact A|]. intros. symmetry. apply B.
Qed.
(** An initialiser is lost if the class has no constructor of its own. *)
Theorem C102_initialiser_refuted v : v <> 0 ->
  let chain := [mk_icls [(0%nat, Value v)] None] in store (csharp_object chain) 0 0 = v /\ store (cpp_object chain) 0 0 = 0.
Proof. intros _. split; reflexivity. Qed.
(** An initialiser that prints runs before the constructor of the base class in C#, and after it in C++. *)
Theorem C102_order_refuted a b :
  let chain := [mk_icls [] (Some [Print (Const b)]); mk_icls [(0%nat, Announce a 1)] (Some [])] in printed (csharp_object chain) = [a; b] /\ printed (cpp_object chain) = [b; a].
Proof. split; reflexivity. Qed.
(** a base with an initialiser and a constructor, a class without either, one that reads its bases *)
Example C102_example :
  let chain := [mk_icls [(0%nat, Announce 8 4)] (Some [Store 0 1 (Sum (Field 0 0) (Const 1))]); mk_icls [] None; mk_icls [(0%nat, Value 9); (1%nat, Value 2)] (Some [Print (Field 0 1); Store 2 1 (Sum (Field 2 0) (Field 0 1))])] in
  good_chain chain /\ store (cpp_object chain) 2 1 = 14 /\ printed (cpp_object chain) = [8; 5].
Proof.
  split; [|split; reflexivity]. intros k c H. destruct k as [|[|[|k]]]; cbn in H; [injection H as <-..|destruct k; discriminate].
  all: (split; [try discriminate; reflexivity|split]).
  all: try (left; reflexivity).
  all: try (right; cbn; intros x K; repeat destruct K as [<-|K]; try destruct K; eexists; reflexivity).
  all: intros b a J; cbn in J; try discriminate; injection J as <-; cbn; intro K; repeat match goal with H : _ \/ _ |- _ => destruct H | H : False |- _ => destruct H end; subst; cbn.
  all: repeat split; try lia; intros x J; repeat match goal with H : _ \/ _ |- _ => destruct H | H : False |- _ => destruct H end; subst; cbn; lia.
Qed.

Print Assumptions C101_values_partial.
Print Assumptions C102_values_partial.
