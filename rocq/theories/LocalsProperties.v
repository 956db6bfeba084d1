(** * C78: every local is declared once and where it is used *)
From Coq Require Import Lia.
From Verif Require Import Base Tac LocalsModel LocalsSpec.

Section All.
Context {A : Type}.
Variable p : A -> Prop.
Fixpoint All (l : list A) : Prop := match l with [] => True | a :: l => p a /\ All l end.
End All.
Lemma node_ind' (P : node -> Prop) :
  (forall v, P (Load v)) -> (forall v, P (Address v)) -> (forall v x, P x -> P (Store v x)) -> (forall ps, All P ps -> P (Other ps)) ->
  (forall c t f, P c -> P t -> P f -> P (IfStmt c t f)) -> (forall v ss, P v -> All P ss -> P (Switch v ss)) -> (forall c, All P c -> P (Inner c)) ->
  (forall bs, All (All P) bs -> P (Container bs)) -> (forall b hs, All (All P) b -> All (fun h => All (All P) (snd h)) hs -> P (Try b hs)) -> forall n, P n.
Proof.
  intros H1 H2 H3 H4 H5 H6 H7 H8 H9. fix IH 1.
  assert (L : forall l, All P l) by (induction l as [|a l IHl]; [exact I|split; [apply IH|exact IHl]]).
  intros [v|v|v x|ps|c t f|v ss|c|bs|b hs]; [apply H1|apply H2|apply H3; apply IH|apply H4|apply H5; apply IH|apply H6; [apply IH|]|apply H7|apply H8|apply H9].
  - induction ps as [|a l IHl]; [exact I|split; [apply IH|exact IHl]].
  - induction ss as [|a l IHl]; [exact I|split; [apply IH|exact IHl]].
  - induction c as [|a l IHl]; [exact I|split; [apply IH|exact IHl]].
  - induction bs as [|b bs IHb]; [exact I|split; [|exact IHb]]. clear IHb. induction b as [|a l IHl]; [exact I|split; [apply IH|exact IHl]].
  - clear hs. induction b as [|b0 bs IHb]; [exact I|split; [|exact IHb]]. clear IHb. induction b0 as [|a l IHl]; [exact I|split; [apply IH|exact IHl]].
  - induction hs as [|[v hb] hs IHh]; [exact I|split; [|exact IHh]]. clear IHh. cbn [snd]. induction hb as [|b0 bs IHb]; [exact I|split; [|exact IHb]]. clear IHb. induction b0 as [|a l IHl]; [exact I|split; [apply IH|exact IHl]].
Qed.
Lemma known_in s v : known s v = true <-> In v s.
Proof. unfold known. rewrite existsb_exists. split; [intros (x & H & E); apply Z.eqb_eq in E; subst; exact H|intros H; exists v; split; [exact H|apply Z.eqb_refl]]. Qed.

(** ** Declarations *)
Definition declares (a : list Z) (s s' : state) (o : list event) : Prop :=
  exists ds, o = map Declare ds /\ NoDup ds /\ (forall v, In v s' <-> In v ds \/ In v s) /\ (forall v, In v ds <-> In v a /\ ~ In v s).
Lemma declares_nil s : declares [] s s [].
Proof. exists []. split; [reflexivity|]. split; [constructor|]. split; intros v; cbn; tauto. Qed.
Lemma declares_app a b s s1 s2 o1 o2 : declares a s s1 o1 -> declares b s1 s2 o2 -> declares (a ++ b) s s2 (o1 ++ o2).
Proof.
  intros (d1 & -> & N1 & S1 & A1) (d2 & -> & N2 & S2 & A2). exists (d1 ++ d2). split; [symmetry; apply map_app|]. split; [|split].
  - clear - N1 N2 A2 S1. induction d1 as [|x d1 IH]; [exact N2|]. cbn. inversion N1 as [|? ? Hx Hn]; subst. constructor.
    + rewrite in_app_iff. intros [H|H]; [exact (Hx H)|]. apply A2 in H. apply (proj2 H). apply S1. left; left; reflexivity.
    + clear IH. assert (Hd : forall y, In y d1 -> ~ In y d2) by (intros y Hy H; apply A2 in H; apply (proj2 H), S1; left; right; exact Hy). clear -Hn Hd N2.
      induction d1 as [|y d1 IH]; [exact N2|]. inversion Hn; subst. cbn. constructor; [|apply IH; auto; intros z Hz; apply Hd; right; exact Hz]. rewrite in_app_iff. intros [H|H]; [tauto|]. apply (Hd y (or_introl eq_refl) H).
  - intros v. rewrite S2, S1, in_app_iff. tauto.
  - intros v. rewrite !in_app_iff, A1, A2, S1, A1. split; [tauto|]. intros [[H|H] Hn]; [tauto|]. destruct (in_dec Z.eq_dec v a); tauto.
Qed.
Lemma declares_check v s : declares [v] s (fst (CheckVariableAddition v s)) (snd (CheckVariableAddition v s)).
Proof.
  unfold CheckVariableAddition. destruct (known s v) eqn:E; cbn.
  - apply known_in in E. exists []. split; [reflexivity|]. split; [constructor|]. split; intros x; cbn; [tauto|]. split; [tauto|]. intros [[<-|[]] H]; tauto.
  - assert (Hn : ~ In v s) by (rewrite <- known_in; congruence). exists [v]. split; [reflexivity|]. split; [repeat constructor; intros []|]. split; intros x; cbn; [tauto|]. split; [intros [<-|[]]; tauto|tauto].
Qed.
Definition declares_all (n : node) : Prop := forall s, declares (assigned n) s (fst (DeclareLocalVariables n s)) (snd (DeclareLocalVariables n s)).
Lemma declares_visits {A} (f : A -> state -> state * list event) (g : A -> list Z) l : All (fun a => forall s, declares (g a) s (fst (f a s)) (snd (f a s))) l ->
  forall s, declares (concat (map g l)) s (fst (visits f l s)) (snd (visits f l s)).
Proof.
  induction l as [|a l IH]; intros H s; [apply declares_nil|]. destruct H as [Ha H]. cbn [visits map concat]. specialize (Ha s). destruct (f a s) as [s1 o1]. specialize (IH H s1). destruct (visits f l s1) as [s2 o2]. cbn [fst snd] in *. eapply declares_app; eassumption.
Qed.
Lemma All_imp {A} (p q : A -> Prop) l : (forall x, p x -> q x) -> All p l -> All q l.
Proof. intros H. induction l as [|a l IH]; cbn; [tauto|]. intros [H1 H2]; auto. Qed.
Lemma declare_spec n : declares_all n.
Proof.
  induction n as [v|v|v x Hx|ps Hps|c t f Hc Ht Hf|v ss Hv Hss|c Hc|bs Hbs|b hs Hb Hhs] using node_ind'; intros s; cbn [DeclareLocalVariables assigned].
  - apply declares_nil.
  - apply declares_check.
  - pose proof (declares_check v s) as H1. destruct (CheckVariableAddition v s) as [s1 o1]. specialize (Hx s1). destruct (DeclareLocalVariables x s1) as [s2 o2]. exact (declares_app [v] (assigned x) _ _ _ _ _ H1 Hx).
  - apply declares_visits. revert Hps. apply All_imp. intros x Hx s'. apply Hx.
  - specialize (Hc s). destruct (DeclareLocalVariables c s) as [s1 o1]. specialize (Ht s1). destruct (DeclareLocalVariables t s1) as [s2 o2]. specialize (Hf s2). destruct (DeclareLocalVariables f s2) as [s3 o3]. eapply declares_app; [exact Hc|]. eapply declares_app; eassumption.
  - specialize (Hv s). destruct (DeclareLocalVariables v s) as [s1 o1]. assert (H : declares (concat (map assigned ss)) s1 (fst (visits DeclareLocalVariables ss s1)) (snd (visits DeclareLocalVariables ss s1))) by (apply declares_visits; revert Hss; apply All_imp; intros x Hx s'; apply Hx).
    destruct (visits DeclareLocalVariables ss s1) as [s2 o2]. eapply declares_app; eassumption.
  - apply declares_visits. revert Hc. apply All_imp. intros x Hx s'. apply Hx.
  - apply declares_visits. revert Hbs. apply All_imp. intros b Hb s'. apply declares_visits. revert Hb. apply All_imp. intros x Hx s''. apply Hx.
  - assert (H1 : declares (concat (map (fun b => concat (map assigned b)) b)) s (fst (visits (visits DeclareLocalVariables) b s)) (snd (visits (visits DeclareLocalVariables) b s))).
    { apply declares_visits. revert Hb. apply All_imp. intros b0 Hb s'. apply declares_visits. revert Hb. apply All_imp. intros x Hx s''. apply Hx. }
    destruct (visits (visits DeclareLocalVariables) b s) as [s1 o1].
    pose proof (declares_visits (fun h : Z * list (list node) => let '(_, hb) := h in visits (visits DeclareLocalVariables) hb) (fun h : Z * list (list node) => let '(_, hb) := h in concat (map (fun b => concat (map assigned b)) hb)) hs) as H2.
    assert (H3 : All (fun a => forall s, declares ((fun h : Z * list (list node) => let '(_, hb) := h in concat (map (fun b => concat (map assigned b)) hb)) a) s (fst ((fun h : Z * list (list node) => let '(_, hb) := h in visits (visits DeclareLocalVariables) hb) a s)) (snd ((fun h : Z * list (list node) => let '(_, hb) := h in visits (visits DeclareLocalVariables) hb) a s))) hs).
    { revert Hhs. apply All_imp. intros [v hb] Hh s'. cbn [snd] in Hh. apply declares_visits. revert Hh. apply All_imp. intros b0 Hb0 s''. apply declares_visits. revert Hb0. apply All_imp. intros x Hx s'''. apply Hx. }
    specialize (H2 H3 s1). destruct (visits (fun h : Z * list (list node) => let '(_, hb) := h in visits (visits DeclareLocalVariables) hb) hs s1) as [s2 o2]. eapply declares_app; eassumption.
Qed.
(** nothing is declared again *)
Lemma declare_known n : forall s, incl (assigned n) s -> DeclareLocalVariables n s = (s, []).
Proof.
  assert (Hc : forall v s, In v s -> CheckVariableAddition v s = (s, [])) by (intros v s H; unfold CheckVariableAddition; rewrite (proj2 (known_in s v) H); reflexivity).
  assert (Hv : forall {A} (f : A -> state -> state * list event) (g : A -> list Z) l, All (fun a => forall s, incl (g a) s -> f a s = (s, [])) l -> forall s, incl (concat (map g l)) s -> visits f l s = (s, [])).
  { intros A f g. induction l as [|a l IH]; intros H s Hs; [reflexivity|]. destruct H as [Ha H]. cbn [map concat] in Hs. apply incl_app_inv in Hs. destruct Hs as [Hs1 Hs2]. cbn [visits]. rewrite (Ha s Hs1), (IH H s Hs2). reflexivity. }
  induction n as [v|v|v x Hx|ps Hps|c t f Hcc Ht Hf|v ss Hvv Hss|c Hcc|bs Hbs|b hs Hb Hhs] using node_ind'; intros s Hs; cbn [DeclareLocalVariables assigned] in *.
  - reflexivity.
  - apply Hc, Hs. left; reflexivity.
  - rewrite Hc by (apply Hs; left; reflexivity). rewrite Hx by (intros y Hy; apply Hs; right; exact Hy). reflexivity.
  - apply (Hv _ _ assigned); assumption.
  - apply incl_app_inv in Hs. destruct Hs as [H1 Hs]. apply incl_app_inv in Hs. destruct Hs as [H2 H3]. rewrite (Hcc s H1), (Ht s H2), (Hf s H3). reflexivity.
  - apply incl_app_inv in Hs. destruct Hs as [H1 H2]. rewrite (Hvv s H1), (Hv _ _ assigned ss Hss s H2). reflexivity.
  - apply (Hv _ _ assigned); assumption.
  - apply (Hv _ _ (fun b => concat (map assigned b))); [|exact Hs]. revert Hbs. apply All_imp. intros b Hb. apply (Hv _ _ assigned). exact Hb.
  - apply incl_app_inv in Hs. destruct Hs as [H1 H2]. rewrite (Hv _ _ (fun b => concat (map assigned b)) b) by (try exact H1; revert Hb; apply All_imp; intros b0 Hb0; apply (Hv _ _ assigned); exact Hb0).
    rewrite (Hv _ _ (fun h : Z * list (list node) => let '(_, hb) := h in concat (map (fun b => concat (map assigned b)) hb)) hs); [reflexivity| |exact H2].
    revert Hhs. apply All_imp. intros [v hb] Hh s' Hs'. cbn [snd] in Hh. apply (Hv _ _ (fun b => concat (map assigned b))); [|exact Hs']. revert Hh. apply All_imp. intros b0 Hb0. apply (Hv _ _ assigned). exact Hb0.
Qed.
Lemma declares_known b s : incl (assigned_in b) s -> visits DeclareLocalVariables b s = (s, []).
Proof.
  revert s. induction b as [|n b IH]; intros s H; [reflexivity|]. unfold assigned_in in H. cbn [map concat] in H. apply incl_app_inv in H. destruct H as [H1 H2]. cbn [visits]. rewrite (declare_known n s H1), (IH s H2). reflexivity.
Qed.

(** ** Uses *)
Definition visible (scopes : list (list Z)) (v : Z) : bool := existsb (existsb (Z.eqb v)) scopes.
(** [o] leaves the scopes as they are and needs the names [u] *)
Definition needs (u : list Z) (o : list event) : Prop := forall scopes rest, scoped scopes (o ++ rest) = forallb (visible scopes) u && scoped scopes rest.
Lemma needs_nil : needs [] [].
Proof. intros scopes rest. reflexivity. Qed.
Lemma needs_app u u' o o' : needs u o -> needs u' o' -> needs (u ++ u') (o ++ o').
Proof. intros H H' scopes rest. rewrite <- app_assoc, H, H', forallb_app, Bool.andb_assoc. reflexivity. Qed.
Lemma needs_mention v : needs [v] [Mention v].
Proof. intros scopes rest. cbn. rewrite Bool.andb_true_r. reflexivity. Qed.
Lemma visible_empty scopes v : visible ([] :: scopes) v = visible scopes v.
Proof. reflexivity. Qed.
Lemma needs_braces u o : needs u o -> needs u ([Open] ++ o ++ [Close]).
Proof. intros H scopes rest. rewrite <- !app_assoc. cbn [app scoped]. rewrite H. cbn [app scoped tl]. reflexivity. Qed.
Lemma needs_catch v u o : needs u o -> needs (filter (fun x => negb (x =? v)) u) ([Open; Declare v] ++ o ++ [Close]).
Proof.
  intros H scopes rest. rewrite <- !app_assoc. cbn [app scoped existsb negb andb]. rewrite H. cbn [app scoped tl].
  assert (E : forallb (visible ([v] :: scopes)) u = forallb (visible scopes) (filter (fun x => negb (x =? v)) u)); [|rewrite E; reflexivity].
  clear H. induction u as [|x u IH]; [reflexivity|]. cbn [forallb filter]. rewrite IH. unfold visible at 1. cbn [existsb]. destruct (x =? v); cbn [negb orb andb forallb]; reflexivity.
Qed.
Definition visit_ok (n : node) : Prop := forall s, incl (assigned n) s -> exists o, visit n s = (s, o) /\ needs (used n) o.
Lemma visits_ok l : All visit_ok l -> forall s, incl (assigned_in l) s -> exists o, visits visit l s = (s, o) /\ needs (used_in l) o.
Proof.
  induction l as [|n l IH]; intros H s Hs; [exists []; split; [reflexivity|apply needs_nil]|]. destruct H as [Hn H]. unfold assigned_in in Hs. cbn [map concat] in Hs. apply incl_app_inv in Hs. destruct Hs as [H1 H2].
  destruct (Hn s H1) as (o1 & E1 & N1). destruct (IH H s H2) as (o2 & E2 & N2). cbn [visits]. rewrite E1, E2. exists (o1 ++ o2). split; [reflexivity|]. apply needs_app; assumption.
Qed.
Lemma visit_known n : visit_ok n.
Proof.
  induction n as [v|v|v x Hx|ps Hps|c t f Hcc Ht Hf|v ss Hvv Hss|c Hcc|bs Hbs|b hs Hb Hhs] using node_ind'; intros s Hs; cbn [visit assigned used] in *.
  - exists [Mention v]. split; [reflexivity|apply needs_mention].
  - exists [Mention v]. split; [reflexivity|apply needs_mention].
  - destruct (Hx s) as (o & E & N); [intros y Hy; apply Hs; right; exact Hy|]. rewrite E. exists (Mention v :: o). split; [reflexivity|]. apply (needs_app [v] (used x) [Mention v] o); [apply needs_mention|exact N].
  - exact (visits_ok ps Hps s Hs).
  - apply incl_app_inv in Hs. destruct Hs as [H1 Hs]. apply incl_app_inv in Hs. destruct Hs as [H2 H3]. destruct (Hcc s H1) as (o1 & E1 & N1). destruct (Ht s H2) as (o2 & E2 & N2). destruct (Hf s H3) as (o3 & E3 & N3). rewrite E1, E2.
    destruct (is_nop f) eqn:En.
    + destruct f as [| | |[|]| | | | |]; try discriminate. eexists. split; [reflexivity|]. rewrite app_nil_r. apply needs_app; [exact N1|]. cbn [used map concat]. rewrite app_nil_r. apply needs_braces, N2.
    + rewrite E3. eexists. split; [reflexivity|]. apply needs_app; [exact N1|]. pose proof (needs_app _ _ _ _ (needs_braces _ _ N2) (needs_braces _ _ N3)) as X. rewrite <- !app_assoc in X. exact X.
  - apply incl_app_inv in Hs. destruct Hs as [H1 H2]. destruct (Hvv s H1) as (o1 & E1 & N1). destruct (visits_ok ss Hss s H2) as (o2 & E2 & N2). rewrite E1, E2. eexists. split; [reflexivity|]. apply needs_app; [exact N1|]. apply needs_braces, N2.
  - change (concat (map assigned c)) with (assigned_in c) in Hs. unfold WriteBlock. rewrite (declares_known c s Hs). destruct (visits_ok c Hcc s Hs) as (o2 & E2 & N2). rewrite E2. eexists. split; [reflexivity|exact N2].
  - revert Hs. induction bs as [|b bs IH]; intros Hs; [exists []; split; [reflexivity|apply needs_nil]|]. destruct Hbs as [Hb Hbs]. cbn [map concat] in Hs. apply incl_app_inv in Hs. destruct Hs as [H1 H2].
    cbn [visits]. unfold WriteBlock at 1. rewrite (declares_known b s H1). destruct (visits_ok b Hb s H1) as (o1 & E1 & N1). rewrite E1. destruct (IH Hbs H2) as (o2 & E2 & N2). rewrite E2. eexists. split; [reflexivity|]. cbn [map concat]. apply needs_app; [|exact N2]. apply (needs_braces _ _ N1).
  - apply incl_app_inv in Hs. destruct Hs as [H1 H2]. cbv beta zeta.
    assert (W : forall b : list (list node), All (All visit_ok) b -> incl (concat (map (fun b => concat (map assigned b)) b)) s ->
      exists o, WriteFirst visit b s = (s, o) /\ needs (match b with [] => [] | b :: _ => concat (map used b) end) o).
    { intros [|b0 bs] H Hi; [exists []; split; [reflexivity|apply needs_nil]|]. destruct H as [H _]. cbn [map concat] in Hi. apply incl_app_inv in Hi. destruct Hi as [Hi _].
      unfold WriteFirst, WriteBlock. rewrite (declares_known b0 s Hi). destruct (visits_ok b0 H s Hi) as (o & E & N). rewrite E. exists o. split; [reflexivity|exact N]. }
    destruct (W b Hb H1) as (o1 & E1 & N1). rewrite E1.
    assert (X : exists o2, visits (fun h s => let '(v, hb) := h in let (s, o) := WriteFirst visit hb s in (s, [Open; Declare v] ++ o ++ [Close])) hs s = (s, o2) /\
      needs (concat (map (fun h : Z * list (list node) => let '(v, hb) := h in match hb with [] => [] | b :: _ => filter (fun x => negb (x =? v)) (concat (map used b)) end) hs)) o2).
    { clear E1 N1 H1 Hb. induction hs as [|[v hb] hs IH]; [exists []; split; [reflexivity|apply needs_nil]|]. destruct Hhs as [Hh Hhs]. cbn [snd] in Hh. cbn [map concat] in H2. apply incl_app_inv in H2. destruct H2 as [H1 H2].
      destruct (W hb Hh H1) as (o1' & E1 & N1). destruct (IH Hhs H2) as (o2 & E2 & N2). cbn [visits]. rewrite E1, E2. eexists. split; [reflexivity|]. cbn [map concat]. apply needs_app; [|exact N2]. destruct hb as [|b0 bs]; [exact (needs_catch v [] o1' N1)|exact (needs_catch v _ o1' N1)]. }
    destruct X as (o2 & E2 & N2). rewrite E2. eexists. split; [reflexivity|]. pose proof (needs_app _ _ _ _ (needs_braces _ _ N1) N2) as Y. rewrite <- !app_assoc in Y. exact Y.
Qed.

(** ** The whole method *)
Lemma scoped_declares ds rest : forall top scopes, NoDup ds -> (forall v, In v ds -> ~ In v top) -> scoped (top :: scopes) (map Declare ds ++ rest) = scoped ((rev ds ++ top) :: scopes) rest.
Proof.
  induction ds as [|d ds IH]; intros top scopes Hn Hd; [reflexivity|]. inversion Hn as [|? ? Hx Hn']; subst. cbn [map app scoped].
  assert (E : existsb (Z.eqb d) top = false) by (destruct (existsb (Z.eqb d) top) eqn:E; [|reflexivity]; exfalso; apply (Hd d (or_introl eq_refl)); apply (known_in top d); exact E).
  rewrite E. cbn [negb andb]. rewrite IH; [|exact Hn'|]; [cbn [rev]; rewrite <- app_assoc; reflexivity|]. intros v Hv [<-|H]; [tauto|]. exact (Hd v (or_intror Hv) H).
Qed.
Definition written (b : list node) (s : state) : state * list event := let (s, o) := WriteBlock visit b s in (s, [Open] ++ o ++ [Close]).
Lemma blocks_scoped params : forall bs s pre, (forall v, In v s <-> In v params \/ In v (concat (map assigned_in pre))) ->
  (scoped [params] (snd (visits written bs s)) = true <->
   forall mid b post, bs = mid ++ b :: post -> forall v, In v (used_in b) -> In v params \/ In v (assigned_in b) /\ ~ In v (concat (map assigned_in (pre ++ mid)))).
Proof.
  induction bs as [|b bs IH]; intros s pre Hs.
  - cbn. split; [|reflexivity]. intros _ mid b post E. destruct mid; discriminate.
  - cbn [visits written]. assert (Hd : declares (assigned_in b) s (fst (visits DeclareLocalVariables b s)) (snd (visits DeclareLocalVariables b s))).
    { apply declares_visits. clear. induction b as [|n b IH]; [exact I|]. split; [intros s; apply declare_spec|exact IH]. }
    unfold written at 1, WriteBlock. destruct (visits DeclareLocalVariables b s) as [s1 d]. cbn [fst snd] in Hd. destruct Hd as (ds & -> & Nd & S1 & A1).
    assert (Hk : incl (assigned_in b) s1) by (intros v Hv; apply S1; rewrite A1; destruct (in_dec Z.eq_dec v s); tauto).
    destruct (visits_ok b) with (s := s1) as (o & E & N); [clear; induction b as [|n b IH]; [exact I|split; [apply visit_known|exact IH]]|exact Hk|]. rewrite E.
    specialize (IH s1 (pre ++ [b])). destruct (visits written bs s1) as [s2 rest] eqn:E2. cbn [snd] in *.
    assert (Hs1 : forall v, In v s1 <-> In v params \/ In v (concat (map assigned_in (pre ++ [b])))).
    { intros v. rewrite S1, A1, Hs, map_app, concat_app, in_app_iff. cbn [map concat]. rewrite app_nil_r. destruct (in_dec Z.eq_dec v params), (in_dec Z.eq_dec v (concat (map assigned_in pre))); tauto. }
    specialize (IH Hs1). rewrite <- !app_assoc. cbn [app scoped]. rewrite scoped_declares by (auto; intros v _ []). rewrite app_nil_r, N. cbn [app scoped tl]. rewrite Bool.andb_true_iff, IH, forallb_forall.
    assert (Hv : forall v, visible [rev ds; params] v = true <-> In v params \/ In v (assigned_in b) /\ ~ In v (concat (map assigned_in pre))).
    { intros v. unfold visible. cbn [existsb]. rewrite Bool.orb_false_r, Bool.orb_true_iff. change (existsb (Z.eqb v) (rev ds)) with (known (rev ds) v). change (existsb (Z.eqb v) params) with (known params v). rewrite !known_in, <- in_rev, A1, Hs. destruct (in_dec Z.eq_dec v params); tauto. }
    split.
    + intros [H1 H2] mid b' post Eq v Hu. destruct mid as [|m mid]; cbn [app] in Eq; injection Eq as -> ->.
      * rewrite app_nil_r. apply Hv, H1, Hu.
      * pose proof (H2 mid b' post eq_refl v Hu) as X. rewrite <- app_assoc in X. exact X.
    + intros H. split.
      * intros v Hu. apply Hv. pose proof (H [] b bs eq_refl v Hu) as X. rewrite app_nil_r in X. exact X.
      * intros mid b' post -> v Hu. pose proof (H (b :: mid) b' post eq_refl v Hu) as X. rewrite <- app_assoc. exact X.
Qed.
(** Exactly when every name in the output is in the scope of its declaration: whatever a block of the method's
    body uses is a parameter, or assigned in that block and in no block before it. *)
Theorem C78_names_resolve params bs : names_resolve params (StartMainBlock params bs) <->
  forall before b after, bs = before ++ b :: after -> forall v, In v (used_in b) -> In v params \/ In v (assigned_in b) /\ ~ In v (concat (map assigned_in before)).
Proof. exact (blocks_scoped params bs params [] (fun v => ltac:(cbn; tauto))). Qed.
Print Assumptions C78_names_resolve.
(** Missing from the full claim: bodies of several blocks that share a local (refuted below) *)
Theorem C78_one_block_partial params b : (forall v, In v (used_in b) -> In v params \/ In v (assigned_in b)) -> names_resolve params (StartMainBlock params [b]).
Proof.
  intros H. apply C78_names_resolve. intros before b' after E v Hv. destruct before as [|x before]; [|destruct before; discriminate]. cbn in E. injection E as Eb Ea. subst b' after. destruct (H v Hv); [auto|]. right. split; [assumption|cbn; tauto].
Qed.
Theorem C78_shared_local_refuted params before b1 between b2 after v : ~ In v params -> In v (assigned_in b1) -> In v (used_in b2) -> ~ names_resolve params (StartMainBlock params (before ++ b1 :: between ++ b2 :: after)).
Proof.
  intros Hp Ha Hu H. pose proof (proj1 (C78_names_resolve params _) H (before ++ b1 :: between) b2 after) as X. assert (Eq : before ++ b1 :: between ++ b2 :: after = (before ++ b1 :: between) ++ b2 :: after) by (rewrite <- app_assoc; reflexivity). destruct (X Eq v Hu) as [?|Hn]; [tauto|]. destruct Hn as [_ Hn]. apply Hn. rewrite map_app, concat_app, in_app_iff. right. cbn [map concat]. rewrite in_app_iff. auto.
Qed.
(** No local is declared twice, nor hides a parameter (the variables of catch clauses apart) *)
Definition declared (o : list event) : list Z := concat (map (fun e => match e with Declare v => [v] | _ => [] end) o).
Fixpoint no_try (n : node) : bool :=
  match n with
  | Load _ | Address _ => true
  | Store _ x => no_try x
  | Other ps => forallb no_try ps
  | IfStmt c t f => no_try c && no_try t && no_try f
  | Switch v ss => no_try v && forallb no_try ss
  | Inner c => forallb no_try c
  | Container bs => forallb (forallb no_try) bs
  | Try _ _ => false
  end.
Lemma declared_app a b : declared (a ++ b) = declared a ++ declared b.
Proof. unfold declared. rewrite map_app, concat_app. reflexivity. Qed.
Lemma declared_map ds : declared (map Declare ds) = ds.
Proof. induction ds as [|d ds IH]; [reflexivity|]. change (d :: declared (map Declare ds) = d :: ds). rewrite IH. reflexivity. Qed.
Definition quiet_ok (n : node) : Prop := forall s, no_try n = true -> incl (assigned n) s -> declared (snd (visit n s)) = [].
Lemma quiet_list l : All quiet_ok l -> forall s, forallb no_try l = true -> incl (assigned_in l) s -> declared (snd (visits visit l s)) = [].
Proof.
  induction l as [|n l IH]; intros H s Ht Hs; [reflexivity|]. destruct H as [Hn H]. cbn [forallb] in Ht. apply andb_prop in Ht. destruct Ht as [T1 T2]. unfold assigned_in in Hs. cbn [map concat] in Hs. apply incl_app_inv in Hs. destruct Hs as [H1 H2].
  specialize (Hn s T1 H1). destruct (visit_known n s H1) as (o1 & E1 & _). specialize (IH H s T2 H2). cbn [visits]. rewrite E1 in *. destruct (visits visit l s) as [s2 o2]. cbn [snd] in *. rewrite declared_app, Hn, IH. reflexivity.
Qed.
Lemma quiet n : quiet_ok n.
Proof.
  assert (KA : forall l, All visit_ok l) by (induction l as [|n0 l IH]; [exact I|split; [apply visit_known|exact IH]]).
  induction n as [v|v|v x Hx|ps Hps|c t f Hcc Ht Hf|v ss Hvv Hss|c Hcc|bs Hbs|b hs Hb Hhs] using node_ind'; intros s Hn Hs; cbn [visit assigned no_try] in *.
  - reflexivity.
  - reflexivity.
  - assert (Hs' : incl (assigned x) s) by (intros y Hy; apply Hs; right; exact Hy). specialize (Hx s Hn Hs'). destruct (visit x s) as [s1 o]. exact Hx.
  - exact (quiet_list ps Hps s Hn Hs).
  - apply andb_prop in Hn. destruct Hn as [Hn N3]. apply andb_prop in Hn. destruct Hn as [N1 N2]. apply incl_app_inv in Hs. destruct Hs as [H1 Hs]. apply incl_app_inv in Hs. destruct Hs as [H2 H3].
    specialize (Hcc s N1 H1). specialize (Ht s N2 H2). specialize (Hf s N3 H3). destruct (visit_known c s H1) as (o1 & E1 & _). destruct (visit_known t s H2) as (o2 & E2 & _). rewrite E1, E2 in *. destruct (visit f s) as [s3 o3]. cbn [snd] in *.
    destruct (is_nop f); cbn [snd]; rewrite !declared_app, ?Hcc, ?Ht, ?Hf; reflexivity.
  - apply andb_prop in Hn. destruct Hn as [N1 N2]. apply incl_app_inv in Hs. destruct Hs as [H1 H2]. specialize (Hvv s N1 H1). destruct (visit_known v s H1) as (o1 & E1 & _). rewrite E1 in *. pose proof (quiet_list ss Hss s N2 H2) as X. destruct (visits visit ss s) as [s2 o2]. cbn [snd] in *. rewrite !declared_app, Hvv, X. reflexivity.
  - change (concat (map assigned c)) with (assigned_in c) in Hs. unfold WriteBlock. rewrite (declares_known c s Hs). pose proof (quiet_list c Hcc s Hn Hs) as X. destruct (visits visit c s) as [s2 o2]. exact X.
  - revert Hs Hn. induction bs as [|b bs IH]; intros Hs Hn; [reflexivity|]. destruct Hbs as [Hb Hbs]. cbn [map concat] in Hs. apply incl_app_inv in Hs. destruct Hs as [H1 H2]. cbn [forallb] in Hn. apply andb_prop in Hn. destruct Hn as [N1 N2].
    cbn [visits]. unfold WriteBlock at 1. rewrite (declares_known b s H1). pose proof (quiet_list b Hb s N1 H1) as X. destruct (visits_ok b (KA b) s H1) as (o1 & E1 & _). rewrite E1 in *. cbn [snd] in X. specialize (IH Hbs H2 N2). destruct (visits _ bs s) as [s2 o2]. cbn [snd] in *. rewrite !declared_app, X, IH. reflexivity.
  - discriminate.
Qed.
Lemma blocks_declared : forall bs s, forallb (forallb no_try) bs = true -> exists ds, declared (snd (visits written bs s)) = ds /\ NoDup ds /\ forall v, In v ds <-> In v (concat (map assigned_in bs)) /\ ~ In v s.
Proof.
  induction bs as [|b bs IH]; intros s Hn; [exists []; split; [reflexivity|]; split; [constructor|intros v; cbn; tauto]|]. cbn [forallb] in Hn. apply andb_prop in Hn. destruct Hn as [N1 N2].
  cbn [visits written]. unfold written at 1, WriteBlock. assert (Hd : declares (assigned_in b) s (fst (visits DeclareLocalVariables b s)) (snd (visits DeclareLocalVariables b s))).
  { apply declares_visits. clear. induction b as [|n b IH]; [exact I|]. split; [intros s; apply declare_spec|exact IH]. }
  destruct (visits DeclareLocalVariables b s) as [s1 d]. cbn [fst snd] in Hd.
  assert (Hk : incl (assigned_in b) s1) by (destruct Hd as (ds & _ & _ & S1 & A1); intros v Hv; apply S1; rewrite A1; destruct (in_dec Z.eq_dec v s); tauto).
  destruct (visits_ok b) with (s := s1) as (o & E & _); [clear; induction b as [|n b IH]; [exact I|split; [apply visit_known|exact IH]]|exact Hk|].
  assert (Q : declared (snd (visits visit b s1)) = []) by (apply quiet_list; auto; clear; induction b as [|n b IH]; [exact I|split; [apply quiet|exact IH]]). rewrite E in *. cbn [snd] in Q.
  destruct (IH s1 N2) as (ds2 & E2 & Nd2 & A2). destruct (visits written bs s1) as [s2 rest]. cbn [snd] in *. destruct Hd as (ds & -> & Nd & S1 & A1).
  exists (ds ++ ds2). split; [|split].
  - rewrite !declared_app, declared_map, Q, E2. cbn [app declared map concat]. rewrite !app_nil_r. reflexivity.
  - clear -Nd Nd2 A2 S1. assert (Hd : forall y, In y ds -> ~ In y ds2) by (intros y Hy H; apply A2 in H; apply (proj2 H), S1; auto). clear A2 S1.
    induction ds as [|y d1 IH]; [exact Nd2|]. inversion Nd; subst. cbn. constructor; [|apply IH; auto; intros z Hz; apply Hd; right; exact Hz]. rewrite in_app_iff. intros [H|H]; [tauto|]. apply (Hd y (or_introl eq_refl) H).
  - intros v. cbn [map concat]. rewrite !in_app_iff, A1, A2, S1, A1. split; [tauto|]. intros [[H|H] Hx]; [tauto|]. destruct (in_dec Z.eq_dec v (assigned_in b)); tauto.
Qed.
Theorem C78_declared_once params bs : forallb (forallb no_try) bs = true ->
  NoDup (declared (StartMainBlock params bs)) /\ forall v, In v (declared (StartMainBlock params bs)) <-> In v (concat (map assigned_in bs)) /\ ~ In v params.
Proof. intros H. destruct (blocks_declared bs params H) as (ds & E & N & A). change (declared (snd (visits written bs params))) with (declared (StartMainBlock params bs)) in E. rewrite E. auto. Qed.
Print Assumptions C78_declared_once.
(** [x = p; while (x) { y = x; } catch-less], and a second block reusing [x] *)
Example C78_example :
  let b := [Store 1 (Load 0); Container [[IfStmt (Load 1) (Inner [Store 2 (Load 1)]) (Other [])]]] in
  (forall v, In v (used_in b) -> In v [0] \/ In v (assigned_in b)) /\
  StartMainBlock [0] [b] = [Open; Declare 1; Declare 2; Mention 1; Mention 0; Open; Mention 1; Open; Mention 2; Mention 1; Close; Close; Close] /\
  names_resolve [0] (StartMainBlock [0] [b]) /\ ~ names_resolve [0] (StartMainBlock [0] [b; [Load 1]]).
Proof. cbv zeta. split; [intros v H; cbn in *; intuition|]. split; [reflexivity|]. split; [reflexivity|]. intros H. vm_compute in H. discriminate. Qed.
Example C78_catch_example : names_resolve [] (StartMainBlock [] [[Try [[Store 1 (Other [])]] [(9, [[Store 2 (Load 9)]])]]]) /\ ~ names_resolve [] (StartMainBlock [] [[Try [[]] [(9, [[]])]; Load 9]]).
Proof. split; [reflexivity|]. intros H. vm_compute in H. discriminate. Qed.
