(** * Proofs about control flow: the output does what the decompiler's tree does *)
From Coq Require Import Lia Permutation.
From Verif Require Import Base ControlModel ControlSpec.

Lemma printed l code : label_printed l code = labelled l code.
Proof. destruct code as [|[] []]; try reflexivity; destruct bs as [|[] ?]; reflexivity. Qed.
(** ** Lock step of two transition systems *)
Section Simulation.
Context {A B : Type}.
Variable stepA : A -> list event -> A -> Prop.
Variable stepB : B -> list event -> B -> Prop.
Variable R : A -> B -> Prop.
Inductive taus {T} (step : T -> list event -> T -> Prop) : T -> T -> Prop :=
  | taus_nil s : taus step s s
  | taus_cons s s' s'' : step s [] s' -> taus step s' s'' -> taus step s s''.
Definition tau_det {T} (step : T -> list event -> T -> Prop) : Prop := forall s s1 e s2, step s [] s1 -> step s e s2 -> e = [] /\ s2 = s1.
Definition can_step {T} (step : T -> list event -> T -> Prop) (s : T) : Prop := exists e s', step s e s'.
Definition progress (finalA : A -> Prop) (finalB : B -> Prop) : Prop := forall a b, R a b ->
  (finalA a /\ finalB b) \/
  (exists a1 a2 b1 b2, stepA a [] a1 /\ taus stepA a1 a2 /\ stepB b [] b1 /\ taus stepB b1 b2 /\ R a2 b2) \/
  (can_step stepA a /\ can_step stepB b /\ (forall e a', stepA a e a' -> exists b', stepB b e b' /\ R a' b') /\ (forall e b', stepB b e b' -> exists a', stepA a e a' /\ R a' b')).
Inductive runs {T} (step : T -> list event -> T -> Prop) : nat -> T -> list event -> T -> Prop :=
  | runs_nil s : runs step 0 s [] s
  | runs_cons n s e s' tr s'' : step s e s' -> runs step n s' tr s'' -> runs step (S n) s (e ++ tr) s''.
Lemma runs_run {T} (step : T -> list event -> T -> Prop) s tr s' : run step s tr s' <-> exists n, runs step n s tr s'.
Proof.
  split.
  - induction 1 as [s|s e s' tr s'' H _ [n IH]]; [exists 0%nat; constructor|exists (1 + n)%nat; econstructor; eassumption].
  - intros [n H]. induction H; econstructor; eassumption.
Qed.
Lemma taus_run {T} (step : T -> list event -> T -> Prop) s s' tr s'' : taus step s s' -> run step s' tr s'' -> run step s tr s''.
Proof. induction 1; intros H2; [assumption|]. apply (run_cons step s [] s'); auto. Qed.
Lemma taus_runs {T} (step : T -> list event -> T -> Prop) : tau_det step -> forall s s', taus step s s' -> forall n tr s'', runs step n s tr s'' ->
  (tr = [] /\ taus step s'' s') \/ exists m, (m <= n)%nat /\ runs step m s' tr s''.
Proof.
  intros Hd. induction 1 as [s|s s1 s2 H1 Ht IH]; intros n tr s'' Hr; [right; exists n; auto|].
  inversion Hr as [x|m x e x' tr' x'' Hs Hr']; subst.
  - left. split; [reflexivity|econstructor; eassumption].
  - destruct (Hd _ _ _ _ H1 Hs) as [He Hx]; subst. cbn. destruct (IH _ _ _ Hr') as [[E Tn]|[m' [Hm Hm']]]; [left; auto|right; exists m'; split; [lia|assumption]].
Qed.
Variable finalA : A -> Prop.
Variable finalB : B -> Prop.
Hypothesis final_stuck : forall a e a', finalA a -> ~ stepA a e a'.
Hypothesis HdA : tau_det stepA.
Hypothesis HR : progress finalA finalB.
Lemma forward_runs : forall n a b tr a', R a b -> runs stepA n a tr a' -> exists b', run stepB b tr b'.
Proof.
  induction n as [n IH] using (well_founded_induction Wf_nat.lt_wf). intros a b tr a' Hr Hn.
  destruct (HR _ _ Hr) as [[F _]|[(a1 & a2 & b1 & b2 & S1 & T1 & S2 & T2 & R2)|(_ & _ & Hf & _)]].
  - inversion Hn; subst; [exists b; constructor|exfalso; eapply final_stuck; eassumption].
  - destruct (taus_runs stepA HdA a a2 (taus_cons _ _ _ _ S1 T1) n tr a' Hn) as [[E _]|[m [Hm Hm']]]; [subst; exists b; constructor|].
    destruct n as [|n]; [inversion Hn; subst; exists b; constructor|].
    inversion Hn as [|n' x e x' tr' x'' Hs Hn']; subst. destruct (HdA _ _ _ _ S1 Hs) as [-> ->]. cbn in *.
    destruct (taus_runs stepA HdA a1 a2 T1 n tr' a' Hn') as [[E _]|[m' [Hm1 Hm2]]]; [subst; exists b; constructor|].
    destruct (IH m' ltac:(lia) a2 b2 tr' a' R2 Hm2) as [b' Hb]. exists b'. apply (taus_run stepB b b2); [econstructor; eassumption|assumption].
  - inversion Hn as [|n' x e x' tr' x'' Hs Hn']; subst; [exists b; constructor|]. destruct (Hf _ _ Hs) as (b1 & Sb & R1).
    destruct (IH n' ltac:(lia) x' b1 tr' a' R1 Hn') as [b' Hb]. exists b'. econstructor; eassumption.
Qed.
Lemma forward : forall a b tr a', R a b -> run stepA a tr a' -> exists b', run stepB b tr b'.
Proof. intros a b tr a' Hr H. apply runs_run in H. destruct H as [n H]. eapply forward_runs; eassumption. Qed.
Lemma not_stuck : forall n a b tr a', R a b -> runs stepA n a tr a' -> finalA a' \/ can_step stepA a'.
Proof.
  induction n as [n IH] using (well_founded_induction Wf_nat.lt_wf). intros a b tr a' Hr Hn.
  destruct (HR _ _ Hr) as [[F _]|[(a1 & a2 & b1 & b2 & S1 & T1 & S2 & T2 & R2)|(Hc & _ & Hf & _)]].
  - inversion Hn; subst; [auto|exfalso; eapply final_stuck; eassumption].
  - destruct n as [|n]; [inversion Hn; subst; right; eexists _, _; exact S1|].
    inversion Hn as [|n' x e x' tr' x'' Hs Hn']; subst. destruct (HdA _ _ _ _ S1 Hs) as [-> ->].
    destruct (taus_runs stepA HdA a1 a2 T1 n tr' a' Hn') as [[E T]|[m' [Hm1 Hm2]]].
    + inversion T as [|y y' y'' Hy Ty]; subst; [exact (IH 0%nat ltac:(lia) a2 b2 [] a2 R2 (runs_nil _ _))|right; eexists _, _; exact Hy].
    + exact (IH m' ltac:(lia) a2 b2 tr' a' R2 Hm2).
  - inversion Hn as [|n' x e x' tr' x'' Hs Hn']; subst; [auto|]. destruct (Hf _ _ Hs) as (b1 & Sb & R1). exact (IH n' ltac:(lia) x' b1 tr' a' R1 Hn').
Qed.
End Simulation.
Lemma progress_swap {A B} stepA stepB (R : A -> B -> Prop) fA fB : progress stepA stepB R fA fB -> progress stepB stepA (fun b a => R a b) fB fA.
Proof.
  intros H b a Hr. destruct (H a b Hr) as [[F G]|[(a1 & a2 & b1 & b2 & S1 & T1 & S2 & T2 & R2)|(Ca & Cb & Hf & Hb)]].
  - left; auto.
  - right; left. exists b1, b2, a1, a2. auto.
  - right; right. auto.
Qed.

(** ** Induction over trees *)
Lemma inst_ind' (P : inst -> Prop) :
  (forall n, P (Simple n)) -> (forall b, P (Branch b)) -> (forall c v, P (Leave c v)) ->
  (forall n t f, Every P t -> Every P f -> P (If n t f)) ->
  (forall n ss, Every (Every P) ss -> P (Switch n ss)) ->
  (forall c bs, Every (fun b => Every P (block_code b)) bs -> P (Container c bs)) ->
  forall i, P i.
Proof.
  intros HS HB HL HI HW HC. fix IH 1. intros i.
  assert (L : forall l, Every P l) by (induction l as [|a l IHl]; [exact I|split; [apply IH|exact IHl]]).
  destruct i as [n|b|c v|n t f|n ss|c bs].
  - apply HS.
  - apply HB.
  - apply HL.
  - apply HI; [clear f; induction t as [|a t IHt]|clear t; induction f as [|a t IHt]]; try exact I; (split; [apply IH|exact IHt]).
  - apply HW. induction ss as [|s ss IHs]; [exact I|]. split; [clear IHs; induction s as [|a s IHs]; [exact I|split; [apply IH|exact IHs]]|exact IHs].
  - apply HC. induction bs as [|[i l code] bs IHb]; [exact I|]. split; [cbn; clear IHb; induction code as [|a s IHs]; [exact I|split; [apply IH|exact IHs]]|exact IHb].
Qed.
Lemma Every_app {A} (p : A -> Prop) a b : Every p (a ++ b) <-> Every p a /\ Every p b.
Proof. induction a as [|x a IH]; cbn; [tauto|]. rewrite IH. tauto. Qed.
Lemma Every_in {A} (p : A -> Prop) l : Every p l <-> forall x, In x l -> p x.
Proof.
  induction l as [|y l IH]; cbn.
  - tauto.
  - split; [intros [H1 H2] x [E|E]; [subst; auto|apply IH; auto]|intros H; split; [apply H; auto|apply IH; intros; apply H; auto]].
Qed.
Lemma Every_imp {A} (p q : A -> Prop) l : (forall x, In x l -> p x -> q x) -> Every p l -> Every q l.
Proof. rewrite !Every_in. auto. Qed.

(** ** Labels *)
Lemma all_app f a b : all_of f (a ++ b) = all_of f a ++ all_of f b.
Proof. unfold all_of. rewrite map_app, concat_app. reflexivity. Qed.
Lemma labels_app a b : labels (a ++ b) = labels a ++ labels b.
Proof. apply all_app. Qed.
Lemma labels_cons a b : labels (a :: b) = labels_of a ++ labels b.
Proof. reflexivity. Qed.
Lemma labels_concat cs : labels (concat cs) = concat (map labels cs).
Proof. induction cs as [|c cs IH]; [reflexivity|]; cbn [map concat]. rewrite labels_app, IH. reflexivity. Qed.
Lemma label_eqb_eq a b : label_eqb a b = true <-> a = b.
Proof. destruct a, b; cbn; rewrite ?Z.eqb_eq; split; intros H; try discriminate; try (injection H as H); congruence. Qed.
Lemma cstmt_ind' (P : cstmt -> Prop) :
  (forall n, P (CSimple n)) -> (forall l, P (CGoto l)) -> (forall v, P (CReturn v)) -> (forall l, P (CLabel l)) ->
  (forall b, Every P b -> P (CBlock b)) -> (forall n t f, Every P t -> Every P f -> P (CIf n t f)) -> (forall n cs, Every (Every P) cs -> P (CSwitch n cs)) -> forall s, P s.
Proof.
  intros H1 H2 H3 H4 H5 H6 H7. fix IH 1. intros [n|l|v|l|b|n t f|n cs]; [apply H1|apply H2|apply H3|apply H4| | |].
  - apply H5. induction b as [|a b IHb]; [exact I|split; [apply IH|exact IHb]].
  - apply H6; [clear f; induction t as [|a t IHt]|clear t; induction f as [|a t IHt]]; try exact I; (split; [apply IH|exact IHt]).
  - apply H7. induction cs as [|s ss IHs]; [exact I|]. split; [clear IHs; induction s as [|a s IHs]; [exact I|split; [apply IH|exact IHs]]|exact IHs].
Qed.
Lemma label_dec (a b : label) : {a = b} + {a <> b}.
Proof. decide equality; apply Z.eq_dec. Defined.
Definition found (l : label) (s : cstmt) : Prop := forall k, (In l (labels_of s) -> exists r, find_stmt l s k = Some r) /\ (~ In l (labels_of s) -> find_stmt l s k = None).
Lemma found_list l ss : Every (found l) ss -> forall k, (In l (labels ss) -> exists r, find_label l ss k = Some r) /\ (~ In l (labels ss) -> find_label l ss k = None).
Proof.
  induction ss as [|s ss IH]; intros H k; [split; [intros []|reflexivity]|]. destruct H as [Hs H]. destruct (IH H k) as [I1 I2]. destruct (Hs (ss ++ k)) as [S1 S2].
  rewrite labels_cons. unfold find_label in *. cbn [find_list]. destruct (in_dec label_dec l (labels_of s)) as [Hi|Hi].
  - destruct (S1 Hi) as [r Hr]. rewrite Hr. cbn. split; [eauto|]. intros Hn. exfalso. apply Hn, in_app_iff; auto.
  - rewrite (S2 Hi). cbn. rewrite in_app_iff. split; [intros [?|?]; [tauto|auto]|intros Hn; apply I2; tauto].
Qed.
Lemma found_all l s : found l s.
Proof.
  induction s as [n|m|v|m|b Hb|n t f Ht Hf|n cs Hcs] using cstmt_ind'; intros k; cbn [labels_of find_stmt].
  - split; [intros []|reflexivity].
  - split; [intros []|reflexivity].
  - split; [intros []|reflexivity].
  - destruct (label_eqb l m) eqn:E.
    + split; [eauto|]. intros H. exfalso. apply H. left. symmetry. apply label_eqb_eq, E.
    + split; [|reflexivity]. intros [H|[]]. subst. rewrite (proj2 (label_eqb_eq l l) eq_refl) in E. discriminate.
  - exact (found_list l b Hb k).
  - destruct (found_list l t Ht k) as [T1 T2], (found_list l f Hf k) as [F1 F2]. unfold labels, find_label in *. rewrite in_app_iff.
    destruct (find_list (find_stmt l) t k) as [r|] eqn:E; cbn.
    + split; [eauto|]. intros Hn. apply T2. tauto.
    + split; [|intros Hn; apply F2; tauto]. intros [H|H]; [destruct (T1 H); discriminate|auto].
  - revert k. induction cs as [|c cs IH]; intros k; [split; [intros []|reflexivity]|]. destruct Hcs as [Hc Hcs]. cbn [map concat find_sections]. rewrite in_app_iff.
    destruct (found_list l c Hc (concat cs ++ k)) as [T1 T2]. destruct (IH Hcs k) as [F1 F2]. unfold labels, find_label in *.
    destruct (find_list (find_stmt l) c (concat cs ++ k)) as [r|] eqn:E; cbn.
    + split; [eauto|]. intros Hn. apply T2. tauto.
    + split; [|intros Hn; apply F2; tauto]. intros [H|H]; [destruct (T1 H); discriminate|auto].
Qed.
Lemma find_in_labels l ss k : In l (labels ss) -> exists r, find_label l ss k = Some r.
Proof. apply found_list. apply Every_in. intros; apply found_all. Qed.
Lemma find_not l ss k : ~ In l (labels ss) -> find_label l ss k = None.
Proof. apply found_list. apply Every_in. intros; apply found_all. Qed.
Lemma find_app l a b k : find_label l (a ++ b) k = or_else (find_label l a (b ++ k)) (find_label l b k).
Proof.
  unfold find_label. induction a as [|s a IH]; [reflexivity|]. cbn [app find_list]. rewrite <- app_assoc, IH. destruct (find_stmt l s (a ++ b ++ k)); reflexivity.
Qed.
Lemma NoDup_split {A} (a b : list A) : NoDup (a ++ b) <-> NoDup a /\ NoDup b /\ (forall x, In x a -> ~ In x b).
Proof.
  induction a as [|x a IH]; cbn.
  - split; [intros H; split; [constructor|tauto]|tauto].
  - rewrite !NoDup_cons_iff, IH, in_app_iff. split.
    + intros (H1 & H2 & H3 & H4). repeat split; auto. intros y [E|E]; [subst; tauto|auto].
    + intros ((H1 & H2) & H3 & H4). repeat split; auto. intros [?|?]; [tauto|]. apply (H4 x); auto.
Qed.

Section Installed.
Variable B : list cstmt.
(** [out] is a part of the program and [k] is what comes behind it *)
Definition installed (out k : list cstmt) : Prop := NoDup (labels out) /\ forall l, In l (labels out) -> find_label l B [] = find_label l out k.
Lemma installed_all : NoDup (labels B) -> installed B [].
Proof. split; auto. Qed.
Lemma installed_app a b k : installed (a ++ b) k -> installed a (b ++ k) /\ installed b k.
Proof.
  intros [H1 H2]. rewrite labels_app in H1. pose proof (proj1 (NoDup_split _ _) H1) as (Ha & Hb & Hd). split; split; auto; intros l Hl.
  - rewrite H2 by (rewrite labels_app, in_app_iff; auto). rewrite find_app. destruct (find_in_labels l a (b ++ k) Hl) as [r ->]. reflexivity.
  - rewrite H2 by (rewrite labels_app, in_app_iff; auto). rewrite find_app. rewrite (find_not l a); [reflexivity|]. intros Hx. exact (Hd _ Hx Hl).
Qed.
Lemma installed_cons a b k : installed (a :: b) k -> installed [a] (b ++ k) /\ installed b k.
Proof. exact (installed_app [a] b k). Qed.
Lemma installed_block b k : installed [CBlock b] k -> installed b k.
Proof.
  intros [H1 H2]. unfold labels, all_of in H1, H2. cbn in H1, H2. rewrite app_nil_r in H1. split; [exact H1|]. intros l Hl. rewrite H2 by (rewrite app_nil_r; exact Hl).
  unfold find_label. cbn. destruct (find_list (find_stmt l) b k); reflexivity.
Qed.
Lemma installed_if n t f k : installed [CIf n t f] k -> installed t k /\ installed f k.
Proof.
  intros [H1 H2]. unfold labels, all_of in H1, H2. cbn in H1, H2. rewrite app_nil_r in H1. pose proof (proj1 (NoDup_split _ _) H1) as (Ha & Hb & Hd). split; split; auto; intros l Hl.
  - rewrite H2 by (rewrite app_nil_r, in_app_iff; auto). unfold find_label. cbn. destruct (find_in_labels l t k Hl) as [r Hr]. unfold find_label in Hr. rewrite Hr. reflexivity.
  - rewrite H2 by (rewrite app_nil_r, in_app_iff; auto). unfold find_label. cbn. pose proof (find_not l t k (fun Hx => Hd _ Hx Hl)) as Hr. unfold find_label in Hr. rewrite Hr. cbn.
    destruct (find_list (find_stmt l) f k); reflexivity.
Qed.
Lemma installed_switch n cs k i c : nth_error cs i = Some c -> installed [CSwitch n cs] k -> installed c (concat (skipn (S i) cs) ++ k).
Proof.
  intros Hi [H1 H2]. unfold labels, all_of in H1, H2. cbn in H1, H2. rewrite app_nil_r in H1.
  assert (H3 : forall l, In l (concat (map labels cs)) -> find_label l B [] = find_sections (find_stmt l) cs k).
  { intros l Hl. rewrite H2 by (rewrite app_nil_r; exact Hl). unfold find_label. cbn. destruct (find_sections (find_stmt l) cs k); reflexivity. }
  clear H2. revert i Hi H1 H3. induction cs as [|d cs IH]; intros i Hi H1 H3; [destruct i; discriminate|].
  cbn [map concat] in H1. pose proof (proj1 (NoDup_split _ _) H1) as (Ha & Hb & Hd). destruct i as [|i].
  - injection Hi as ->. split; [exact Ha|]. intros l Hl. rewrite H3 by (cbn; apply in_app_iff; auto). cbn [find_sections skipn].
    destruct (find_in_labels l c (concat cs ++ k) Hl) as [r Hr]. unfold find_label in *. rewrite Hr. reflexivity.
  - apply (IH i Hi Hb). intros l Hl. rewrite H3 by (cbn; apply in_app_iff; auto). cbn [find_sections].
    pose proof (find_not l d (concat cs ++ k) (fun Hx => Hd _ Hx Hl)) as Hr. unfold find_label in Hr. rewrite Hr. reflexivity.
Qed.
Lemma installed_label l ss k : installed (CLabel l :: ss) k -> find_label l B [] = Some (ss ++ k).
Proof. intros [_ H]. rewrite H by (left; reflexivity). unfold find_label. cbn. rewrite (proj2 (label_eqb_eq l l) eq_refl). reflexivity. Qed.
End Installed.

(** ** The translation, unfolded *)
Definition wblock (main : Z) (e : scopes) (top : Z) (b : block) (n : Z) : Z * cstmt :=
  let 'Block _ l code := b in let (n, body) := thread_concat (visit main e top) code n in (n, CBlock ((if label_printed l code then [CLabel (IL l)] else []) ++ body)).
Lemma visit_container main e top c bs n : visit main e top (Container c bs) n =
  let (n', out) := thread (wblock main ((c, bs) :: e) (n + 1)) bs (n + 1) in (n', out ++ (if negb (c =? main) && left c bs then [CLabel (LeaveBlock (n + 1))] else [])).
Proof. reflexivity. Qed.
Lemma thread_concat_cons {A B} (f : A -> Z -> Z * list B) a l n : thread_concat f (a :: l) n = let (n1, b) := f a n in let (n2, bs) := thread_concat f l n1 in (n2, b ++ bs).
Proof. unfold thread_concat. cbn [thread]. destruct (f a n) as [n1 b]. destruct (thread f l n1) as [n2 bs]. reflexivity. Qed.

(** ** Labels are distinct *)
Definition good (n n' : Z) (offsets : list Z) (ls : list label) : Prop :=
  n <= n' /\ (forall l, In l ls -> match l with IL x => In x offsets | LeaveBlock k => n < k <= n' end) /\ (NoDup offsets -> NoDup ls).
Lemma good_nil n : good n n [] [].
Proof. split; [lia|]. split; [intros l []|constructor]. Qed.
Lemma good_app n n1 n2 o1 o2 l1 l2 : good n n1 o1 l1 -> good n1 n2 o2 l2 -> good n n2 (o1 ++ o2) (l1 ++ l2).
Proof.
  intros (H1 & H2 & H3) (G1 & G2 & G3). split; [lia|]. split.
  - intros l Hl. apply in_app_iff in Hl. destruct Hl as [Hl|Hl]; [specialize (H2 l Hl)|specialize (G2 l Hl)]; destruct l; try (apply in_app_iff; tauto); lia.
  - intros Hn. apply NoDup_split in Hn. destruct Hn as (N1 & N2 & Nd). apply NoDup_split. repeat split; auto. intros l Hl Hl'. specialize (H2 l Hl). specialize (G2 l Hl'). destruct l; [exact (Nd _ H2 G2)|lia].
Qed.
Lemma good_list {A} (f : A -> Z -> Z * list cstmt) (o : A -> list Z) l :
  Every (fun a => forall n, good n (fst (f a n)) (o a) (labels (snd (f a n)))) l ->
  forall n, good n (fst (thread_concat f l n)) (concat (map o l)) (labels (snd (thread_concat f l n))).
Proof.
  induction l as [|a l IH]; intros H n; [apply good_nil|]. destruct H as [Ha H]. rewrite thread_concat_cons. specialize (Ha n). destruct (f a n) as [n1 b]. specialize (IH H n1). destruct (thread_concat f l n1) as [n2 bs]. cbn [fst snd map concat] in *. rewrite labels_app. eapply good_app; eassumption.
Qed.
Definition good_inst main i : Prop := forall e top n, good n (fst (visit main e top i n)) (offsets_of i) (labels (snd (visit main e top i n))).
Lemma good_insts main l : Every (good_inst main) l -> forall e top n, good n (fst (thread_concat (visit main e top) l n)) (concat (map offsets_of l)) (labels (snd (thread_concat (visit main e top) l n))).
Proof. intros H e top. apply good_list. revert H. apply Every_imp. intros a _ Ha n. apply Ha. Qed.
Lemma good_visit main i : good_inst main i.
Proof.
  induction i as [m|b|c v|m t f Ht Hf|m ss Hss|c bs Hbs] using inst_ind'; intros e top n.
  - apply good_nil.
  - apply good_nil.
  - cbn. destruct (target_label c e =? 0); apply good_nil.
  - cbn [visit offsets_of].
    pose proof (good_insts main t Ht e top n) as Gt.
    destruct (thread_concat (visit main e top) t n) as [n1 ct].
    pose proof (good_insts main f Hf e top n1) as Gf.
    destruct (thread_concat (visit main e top) f n1) as [n2 cf]. cbn [fst snd] in *. rewrite labels_cons. cbn [labels_of labels all_of map concat]. rewrite app_nil_r. eapply good_app; eassumption.
  - cbn [visit offsets_of]. rewrite (surjective_pairing (thread _ ss n)). cbn [fst snd]. rewrite labels_cons. cbn [labels_of labels all_of map concat]. rewrite app_nil_r.
    revert n. induction ss as [|s ss IH]; intros n; [apply good_nil|]. destruct Hss as [Hs Hss]. cbn [thread].
    pose proof (good_insts main s Hs e top n) as Gs.
    destruct (thread_concat (visit main e top) s n) as [n1 cs]. specialize (IH Hss n1). destruct (thread (thread_concat (visit main e top)) ss n1) as [n2 css]. cbn [fst snd map concat] in *. eapply good_app; eassumption.
  - rewrite visit_container. set (e' := (c, bs) :: e). set (k := n + 1).
    assert (G : forall l, Every (fun b => Every (good_inst main) (block_code b)) l ->
      forall n, good n (fst (thread (wblock main e' k) l n)) (concat (map (fun b => let 'Block _ l code := b in (if labelled l code then [l] else []) ++ concat (map offsets_of code)) l)) (labels (snd (thread (wblock main e' k) l n)))).
    { induction l as [|[id l0 code] l IH]; intros H m; [apply good_nil|]. destruct H as [Hb H]. cbn [block_code] in Hb. cbn [thread wblock].
      pose proof (good_insts main code Hb e' k m) as Gs.
      destruct (thread_concat (visit main e' k) code m) as [n1 body]. specialize (IH H n1). destruct (thread (wblock main e' k) l n1) as [n2 bs']. cbn [fst snd map concat] in *.
      rewrite labels_cons. cbn [labels_of]. change (all_of labels_of) with labels. rewrite labels_app. eapply good_app; [|exact IH]. eapply good_app; [|exact Gs].
      rewrite printed. destruct (labelled l0 code); [|apply good_nil]. split; [lia|]. split; [|intros _; repeat constructor; intros []]. intros l' [El|[]]. subst l'. left; reflexivity. }
    specialize (G bs Hbs k). destruct (thread (wblock main e' k) bs k) as [n2 out]. cbn [fst snd offsets_of] in *. destruct G as (G1 & G2 & G3).
    assert (Hk : n < k) by (unfold k; lia).
    destruct (negb (c =? main) && left c bs); [|rewrite app_nil_r; split; [lia|]; split; [|exact G3]; intros l Hl; specialize (G2 l Hl); destruct l; [exact G2|lia]].
    rewrite labels_app. split; [lia|]. split.
    + intros l Hl. apply in_app_iff in Hl. destruct Hl as [Hl|[El|[]]]; [specialize (G2 l Hl); destruct l; [exact G2|lia]|subst l; lia].
    + intros Hn. apply NoDup_split. split; [auto|]. split; [repeat constructor; intros []|]. intros l Hl [El|[]]. subst l. specialize (G2 _ Hl). cbn in G2. lia.
Qed.

(** ** States that correspond *)
Fixpoint scopes_of (k : list item) : scopes := match k with [] => [] | End c bs :: k => (c, bs) :: scopes_of k | Do _ :: k => scopes_of k end.
Lemma scopes_do is k : scopes_of (map Do is ++ k) = scopes_of k.
Proof. induction is as [|i is IH]; [reflexivity|exact IH]. Qed.
(** a leave of the innermost container inside [i] has been counted *)
Definition inside (e : scopes) (i : inst) : Prop := match e with (c, bs) :: _ => leaves c i = true -> left c bs = true | [] => True end.
Definition ok_block (main : Z) (e : scopes) (b : block) : Prop := let 'Block _ _ code := b in existsb never_ends code = true /\ Every (ok main e) code.
Section Match.
Variable main : Z.
Variable B : list cstmt.
(** the blocks of a container around, and what comes behind them *)
Definition frame (e : scopes) (top c : Z) (bs : list block) (code : list cstmt) : Prop :=
  exists n n' out, thread (wblock main ((c, bs) :: e) top) bs n = (n', out) /\ installed B out code /\ Every (ok_block main ((c, bs) :: e)) bs.
Inductive live : list item -> Z -> list cstmt -> Prop :=
  | live_go i k top n n' out code : visit main (scopes_of k) top i n = (n', out) -> installed B out code -> ok main (scopes_of k) i -> inside (scopes_of k) i -> live k top code -> live (Do i :: k) top (out ++ code)
  | live_last i k top n n' out code : visit main (scopes_of k) top i n = (n', out) -> installed B out code -> ok main (scopes_of k) i -> inside (scopes_of k) i -> never_ends i = true -> dead k top -> live (Do i :: k) top (out ++ code)
with dead : list item -> Z -> Prop :=
  | dead_skip i k top : dead k top -> dead (Do i :: k) top
  | dead_left c bs k top top' code : c <> main -> frame (scopes_of k) top c bs (CLabel (LeaveBlock top) :: code) -> find_label (LeaveBlock top) B [] = Some code -> live k top' code -> dead (End c bs :: k) top
  | dead_stays c bs k top top' code : c <> main -> left c bs = false -> frame (scopes_of k) top c bs code -> dead k top' -> dead (End c bs :: k) top
  | dead_main bs top code : entry_label bs = 0 -> frame [] top main bs code -> dead [End main bs] top.
Scheme live_ind2 := Induction for live Sort Prop with dead_ind2 := Induction for dead Sort Prop.
Combined Scheme live_dead_ind from live_ind2, dead_ind2.

Lemma live_dead k top code : live k top code -> dead k top.
Proof. induction 1; constructor; assumption. Qed.
Lemma dead_skips is k top : dead k top -> dead (map Do is ++ k) top.
Proof. intros H. induction is as [|i is IH]; [exact H|constructor; exact IH]. Qed.
Lemma live_list is : forall k top n n' out code, thread_concat (visit main (scopes_of k) top) is n = (n', out) -> installed B out code -> Every (ok main (scopes_of k)) is -> Every (inside (scopes_of k)) is ->
  live k top code \/ existsb never_ends is = true /\ dead k top -> live (map Do is ++ k) top (out ++ code).
Proof.
  induction is as [|i is IH]; intros k top n n' out code Hv Hi Ho Hin Hk.
  - cbn in Hv. injection Hv as <- <-. cbn. destruct Hk as [Hk|[Hk _]]; [exact Hk|discriminate].
  - rewrite thread_concat_cons in Hv. destruct (visit main (scopes_of k) top i n) as [n1 o1] eqn:E1. destruct (thread_concat (visit main (scopes_of k) top) is n1) as [n2 o2] eqn:E2. injection Hv as <- <-.
    destruct Ho as [Ho Hos]. destruct Hin as [Hin Hins]. destruct (installed_app B o1 o2 code Hi) as [I1 I2]. cbn [map app]. rewrite <- app_assoc.
    destruct (never_ends i) eqn:En.
    + apply live_last with n n1; rewrite ?scopes_do; auto. apply dead_skips. destruct Hk as [Hk|[_ Hk]]; [exact (live_dead _ _ _ Hk)|exact Hk].
    + apply live_go with n n1; rewrite ?scopes_do; auto. apply IH with n1 n2; auto. destruct Hk as [Hk|[Hk Hd]]; [left; exact Hk|right]. cbn in Hk. rewrite En in Hk. auto.
Qed.
(** A block of a container around: what is written for it, and where *)
Lemma thread_in e top bs : forall n n' out code b, thread (wblock main e top) bs n = (n', out) -> installed B out code -> In b bs ->
  exists m m' s code', wblock main e top b m = (m', s) /\ installed B [s] code'.
Proof.
  induction bs as [|x bs IH]; intros n n' out code b Ht Hi Hb; [destruct Hb|]. cbn [thread] in Ht.
  destruct (wblock main e top x n) as [n1 s] eqn:E1. destruct (thread (wblock main e top) bs n1) as [n2 ss] eqn:E2. injection Ht as <- <-.
  destruct (installed_cons B s ss code Hi) as [I1 I2]. destruct Hb as [->|Hb]; [|exact (IH _ _ _ _ _ E2 I2 Hb)].
  exists n, n1, s, (ss ++ code). auto.
Qed.
Lemma inside_block c bs e b : In b bs -> Every (inside ((c, bs) :: e)) (block_code b).
Proof.
  intros Hb. apply Every_in. intros i Hi. cbn. intros Hl. unfold left. apply existsb_exists. exists b. split; [exact Hb|]. apply existsb_exists. exists i. auto.
Qed.
(** Entering a container *)
Lemma enter_container c bs k top n n' out code : visit main (scopes_of k) top (Container c bs) n = (n', out) -> installed B out code -> ok main (scopes_of k) (Container c bs) ->
  live k top code \/ never_ends (Container c bs) = true /\ dead k top -> dead (End c bs :: k) (n + 1) /\ exists rest, thread (wblock main ((c, bs) :: scopes_of k) (n + 1)) bs (n + 1) = (n', rest) /\ exists code', installed B rest code' /\ out ++ code = rest ++ code'.
Proof.
  intros Hv Hi Ho Hk. rewrite visit_container in Hv. destruct (thread (wblock main ((c, bs) :: scopes_of k) (n + 1)) bs (n + 1)) as [n2 rest] eqn:Et.
  destruct Ho as (Hc & Hne & Hb). assert (Ec : negb (c =? main) = true) by (apply Bool.negb_true_iff, Z.eqb_neq, Hc). rewrite Ec in Hv. cbn [andb] in Hv. injection Hv as <- <-.
  destruct (installed_app B _ _ _ Hi) as [I1 I2]. assert (Hb' : Every (ok_block main ((c, bs) :: scopes_of k)) bs) by exact Hb.
  split; [|exists rest; split; [reflexivity|]; eexists; split; [exact I1|rewrite <- app_assoc; reflexivity]].
  destruct (left c bs) eqn:El.
  - destruct Hk as [Hk|[Hk _]]; [|cbn in Hk; rewrite El in Hk; discriminate]. apply dead_left with top code; auto.
    + exists (n + 1), n2, rest. auto.
    + exact (installed_label B _ [] code I2).
  - apply dead_stays with top ([] ++ code); auto.
    + exists (n + 1), n2, rest. auto.
    + destruct Hk as [Hk|[_ Hk]]; [exact (live_dead _ _ _ Hk)|exact Hk].
Qed.
Notation tau := (taus (tree_step main)).
(** Entering a block through its label *)
Lemma enter_block : forall b c bs k top, In b bs -> dead (End c bs :: k) top -> ok_block main ((c, bs) :: scopes_of k) b -> targetable b = true ->
  forall m m' s code, wblock main ((c, bs) :: scopes_of k) top b m = (m', s) -> installed B [s] code ->
  exists k' top' code', tau (Some (map Do (block_code b) ++ End c bs :: k)) (Some k') /\ find_label (IL (block_label b)) B [] = Some code' /\ live k' top' code'.
Proof.
  fix IH 1. intros [id l code0] c bs k top Hin Hd Ho Ht m m' s code Hw Hi. cbn [block_code block_label]. cbn [targetable] in Ht. cbn [wblock] in Hw.
  destruct (thread_concat (visit main ((c, bs) :: scopes_of k) top) code0 m) as [m1 body] eqn:Eb. injection Hw as <- <-. apply installed_block in Hi. destruct Ho as [Hn Ho].
  pose proof (inside_block c bs (scopes_of k) _ Hin) as Hins. cbn [block_code] in Hins.
  rewrite <- printed in Ht. destruct (label_printed l code0) eqn:El.
  - cbn [app] in Hi. exists (map Do code0 ++ End c bs :: k), top, (body ++ code). split; [constructor|]. split; [exact (installed_label B _ _ _ Hi)|].
    apply (live_list code0 (End c bs :: k) top m m1 body code); auto. exact (proj2 (installed_cons B _ _ _ Hi)).
  - cbn [app orb] in Hi, Ht. destruct code0 as [|i more]; [discriminate|]. destruct i as [| | | | |c2 bs2]; try discriminate. destruct bs2 as [|b0 bs2]; [discriminate|].
    rewrite thread_concat_cons in Eb. destruct (visit main ((c, bs) :: scopes_of k) top (Container c2 (b0 :: bs2)) m) as [m2 o1] eqn:E1. destruct (thread_concat (visit main ((c, bs) :: scopes_of k) top) more m2) as [m3 o2] eqn:E2. injection Eb as <- <-.
    destruct (installed_app B _ _ _ Hi) as [I1 I2]. destruct Ho as [Ho1 Ho2]. destruct Hins as [Hin1 Hin2].
    set (K := map Do more ++ End c bs :: k).
    assert (EK : scopes_of K = (c, bs) :: scopes_of k) by (unfold K; rewrite scopes_do; reflexivity).
    assert (HK : live K top (o2 ++ code) \/ never_ends (Container c2 (b0 :: bs2)) = true /\ dead K top).
    { destruct (never_ends (Container c2 (b0 :: bs2))) eqn:En.
      - right. split; [reflexivity|]. apply dead_skips, Hd.
      - left. apply (live_list more (End c bs :: k) top m2 m3 o2 code); auto. right. split; [|exact Hd]. cbn [existsb] in Hn. rewrite En in Hn. exact Hn. }
    rewrite <- EK in E1, Ho1. destruct (enter_container c2 (b0 :: bs2) K top m m2 o1 (o2 ++ code) E1 I1 Ho1 HK) as [Hd2 (rest & Er & code' & Hir & _)].
    cbn [thread] in Er. destruct (wblock main ((c2, b0 :: bs2) :: scopes_of K) (m + 1) b0 (m + 1)) as [q s0] eqn:Ew. destruct (thread (wblock main ((c2, b0 :: bs2) :: scopes_of K) (m + 1)) bs2 q) as [q' ss] eqn:Es. injection Er as <- <-.
    destruct (installed_cons B _ _ _ Hir) as [J1 _]. destruct Ho1 as (_ & _ & [Hob _]).
    assert (Hl : block_label b0 = l) by (destruct more; cbn [label_printed] in El; apply Bool.negb_false_iff, Z.eqb_eq in El; exact El).
    destruct (IH b0 c2 (b0 :: bs2) K (m + 1) (or_introl eq_refl) Hd2 Hob Ht _ _ _ _ Ew J1) as (k' & top' & code'' & T & F & L).
    exists k', top', code''. split; [|split; [rewrite <- Hl; exact F|exact L]]. cbn [map app]. apply taus_cons with (Some (map Do (block_code b0) ++ End c2 (b0 :: bs2) :: K)); [apply T_container|exact T].
Qed.
Lemma in_find_in b bs x : find_in b bs = Some x -> In x bs.
Proof. intros H. apply find_some in H. apply H. Qed.
Lemma branch_ok b x : targetable x = true ->
  (forall k top code, live k top code -> find_block b (scopes_of k) = Some x -> exists k0 k' top' code', at_block b k = Some k0 /\ tau (Some k0) (Some k') /\ find_label (IL (block_label x)) B [] = Some code' /\ live k' top' code') /\
  (forall k top, dead k top -> find_block b (scopes_of k) = Some x -> exists k0 k' top' code', at_block b k = Some k0 /\ tau (Some k0) (Some k') /\ find_label (IL (block_label x)) B [] = Some code' /\ live k' top' code').
Proof.
  intros Ht.
  assert (E : forall c bs k top code, dead (End c bs :: k) top -> frame (scopes_of k) top c bs code ->
    (find_block b (scopes_of k) = Some x -> exists k0 k' top' code', at_block b k = Some k0 /\ tau (Some k0) (Some k') /\ find_label (IL (block_label x)) B [] = Some code' /\ live k' top' code') ->
    find_block b (scopes_of (End c bs :: k)) = Some x -> exists k0 k' top' code', at_block b (End c bs :: k) = Some k0 /\ tau (Some k0) (Some k') /\ find_label (IL (block_label x)) B [] = Some code' /\ live k' top' code').
  { intros c bs k top code Hd (n & n' & out & Hf & Hi & Ho) IH Hb. cbn [scopes_of find_block] in Hb. cbn [at_block]. destruct (find_in b bs) as [y|] eqn:Ey; [injection Hb as ->|exact (IH Hb)].
    pose proof (in_find_in _ _ _ Ey) as Hy. destruct (thread_in _ _ _ _ _ _ _ x Hf Hi Hy) as (m & m' & s & code' & Hw & Hs).
    rewrite Every_in in Ho. destruct (enter_block x c bs k top Hy Hd (Ho x Hy) Ht m m' s code' Hw Hs) as (k' & top' & c' & T & F & L). eexists _, k', top', c'. split; [reflexivity|]. auto. }
  apply live_dead_ind.
  - intros i k top n n' out code Hv Hi Ho Hin Hk IH Hb. exact (IH Hb).
  - intros i k top n n' out code Hv Hi Ho Hin Hn Hk IH Hb. exact (IH Hb).
  - intros i k top Hk IH Hb. exact (IH Hb).
  - intros c bs k top top' code Hc Hf Hl Hk IH. apply (E c bs k top (CLabel (LeaveBlock top) :: code)); auto. eapply dead_left; eassumption.
  - intros c bs k top top' code Hc Hn Hf Hk IH. apply (E c bs k top code); auto. eapply dead_stays; eassumption.
  - intros bs top code He Hf. apply (E main bs [] top code); [eapply dead_main; eassumption|exact Hf|discriminate].
Qed.
Lemma leave_ok c bs e : c <> main -> left c bs = true ->
  (forall k top code, live k top code -> scopes_of k = (c, bs) :: e -> exists k' top' code', after_end c k = Some k' /\ find_label (LeaveBlock top) B [] = Some code' /\ live k' top' code') /\
  (forall k top, dead k top -> scopes_of k = (c, bs) :: e -> exists k' top' code', after_end c k = Some k' /\ find_label (LeaveBlock top) B [] = Some code' /\ live k' top' code').
Proof.
  intros Hc Hl. apply live_dead_ind.
  - intros i k top n n' out code Hv Hi Ho Hin Hk IH Hb. exact (IH Hb).
  - intros i k top n n' out code Hv Hi Ho Hin Hn Hk IH Hb. exact (IH Hb).
  - intros i k top Hk IH Hb. exact (IH Hb).
  - intros c' bs' k top top' code Hc' Hf Hfl Hk IH Hb. cbn in Hb. injection Hb as -> -> _. cbn. rewrite Z.eqb_refl. exists k, top', code. auto.
  - intros c' bs' k top top' code Hc' Hn Hf Hk IH Hb. cbn in Hb. injection Hb as -> -> _. congruence.
  - intros bs' top code He Hf Hb. cbn in Hb. injection Hb as -> -> _. congruence.
Qed.
Lemma target_main : (forall k top code, live k top code -> target_label main (scopes_of k) = 0) /\ (forall k top, dead k top -> target_label main (scopes_of k) = 0).
Proof.
  apply live_dead_ind; try (intros; assumption).
  - intros c bs k top top' code Hc Hf Hfl Hk IH. cbn. rewrite (proj2 (Z.eqb_neq main c)) by congruence. exact IH.
  - intros c bs k top top' code Hc Hn Hf Hk IH. cbn. rewrite (proj2 (Z.eqb_neq main c)) by congruence. exact IH.
  - intros bs top code He Hf. cbn. rewrite Z.eqb_refl. exact He.
Qed.
Definition R (s : option (list item)) (c : option (list cstmt)) : Prop := match s, c with Some k, Some code => exists top, live k top code | None, None => True | _, _ => False end.
Lemma tree_det : tau_det (tree_step main).
Proof. intros s s1 e s2 H1 H2. inversion H1; subst; inversion H2; subst; split; congruence. Qed.
Lemma cpp_det : tau_det (cpp_step B).
Proof. intros s s1 e s2 H1 H2. inversion H1; subst; inversion H2; subst; split; congruence. Qed.
Lemma inside_list e is : (match e with (c, bs) :: _ => existsb (leaves c) is = true -> left c bs = true | [] => True end) -> Every (inside e) is.
Proof.
  intros H. apply Every_in. intros i Hi. destruct e as [|[c bs] e]; [exact I|]. cbn. intros Hl. apply H. apply existsb_exists. exists i. auto.
Qed.
Lemma nth_skipn {A} (l : list A) i a : nth_error l i = Some a -> skipn i l = a :: skipn (S i) l.
Proof. revert i. induction l as [|x l IH]; intros [|i] H; try discriminate; [injection H as ->; reflexivity|exact (IH i H)]. Qed.
Lemma thread_nth {A C} (f : A -> Z -> Z * C) l : forall n n' out, thread f l n = (n', out) -> length out = length l /\ forall i a, nth_error l i = Some a -> exists m m' c, f a m = (m', c) /\ nth_error out i = Some c.
Proof.
  induction l as [|a l IH]; intros n n' out H; cbn in H.
  - injection H as <- <-. split; [reflexivity|]. intros [|i] x Hx; discriminate.
  - destruct (f a n) as [n1 b] eqn:E1. destruct (thread f l n1) as [n2 bs] eqn:E2. injection H as <- <-. destruct (IH _ _ _ E2) as [L N]. split; [cbn; congruence|].
    intros [|i] x Hx; [injection Hx as ->; exists n, n1, b; auto|exact (N i x Hx)].
Qed.
Lemma match_progress : progress (tree_step main) (cpp_step B) R (fun s => s = None) (fun c => c = None).
Proof.
  intros [k|] [code|] H; try contradiction; [|left; auto]. right. destruct H as [top H].
  assert (H' : exists i k' n n' out code', k = Do i :: k' /\ code = out ++ code' /\ visit main (scopes_of k') top i n = (n', out) /\ installed B out code' /\ ok main (scopes_of k') i /\ inside (scopes_of k') i /\ (live k' top code' \/ never_ends i = true /\ dead k' top)).
  { destruct H; [exists i, k, n, n', out, code|exists i, k, n, n', out, code]; repeat (split; [reflexivity||assumption|]); auto. }
  clear H. destruct H' as (i & k' & n & n' & out & code' & -> & -> & Hv & Hi & Ho & Hin & Hk). rename k' into k, code' into code.
  assert (Hd : dead k top) by (destruct Hk as [Hk|[_ Hk]]; [exact (live_dead _ _ _ Hk)|exact Hk]).
  destruct i as [m|b|c v|m t f|m ss|c bs].
  - (* Simple *) right. cbn in Hv. injection Hv as <- <-. destruct Hk as [Hk|[Hk _]]; [|discriminate]. repeat split.
    + eexists _, _. constructor.
    + eexists _, _. constructor.
    + intros e a' Hs. inversion Hs; subst. eexists. split; [constructor|]. exists top. exact Hk.
    + intros e a' Hs. inversion Hs; subst. eexists. split; [constructor|]. exists top. exact Hk.
  - (* Branch *) left. cbn in Hv. injection Hv as <- <-. destruct Ho as (x & Hx & Ht). rewrite Hx.
    destruct (proj2 (branch_ok b x Ht) k top Hd Hx) as (k0 & k' & top' & c' & A & T & F & L).
    exists (Some k0), (Some k'), (Some c'), (Some c'). split; [constructor; exact A|]. split; [exact T|]. split; [constructor; exact F|]. split; [constructor|]. exists top'. exact L.
  - (* Leave *) cbn in Hv. injection Hv as <- <-. destruct (Z.eq_dec c main) as [->|Hc].
    + right. rewrite (proj2 target_main k top Hd). cbn. repeat split.
      * eexists _, _. apply T_return.
      * eexists _, _. constructor.
      * intros e a' Hs. inversion Hs; subst; [congruence|]. exists None. split; [constructor|exact I].
      * intros e a' Hs. inversion Hs; subst. exists None. split; [apply T_return|exact I].
    + left. destruct Ho as [Ho|(bs & e & He & Hl)]; [congruence|]. rewrite He in *. cbn [target_label]. rewrite Z.eqb_refl. rewrite (proj2 (Z.eqb_neq _ 0) Hl).
      cbn [inside leaves] in Hin. rewrite Z.eqb_refl in Hin. specialize (Hin eq_refl).
      destruct (proj2 (leave_ok c bs e Hc Hin) k top Hd He) as (k' & top' & c' & A & F & L).
      exists (Some k'), (Some k'), (Some c'), (Some c'). split; [constructor; assumption|]. split; [constructor|]. split; [constructor; exact F|]. split; [constructor|]. exists top'. exact L.
  - (* If *) right. cbn [visit] in Hv. destruct (thread_concat (visit main (scopes_of k) top) t n) as [n1 ct] eqn:Et. destruct (thread_concat (visit main (scopes_of k) top) f n1) as [n2 cf] eqn:Ef. injection Hv as <- <-.
    destruct (installed_if B _ _ _ _ Hi) as [It If_]. destruct Ho as [Ot Of].
    assert (Hbr : forall b : bool, live (map Do (if b then t else f) ++ k) top ((if b then ct else cf) ++ code)).
    { intros b. assert (Hkb : live k top code \/ existsb never_ends (if b then t else f) = true /\ dead k top).
      { destruct Hk as [Hk|[Hk _]]; [left; exact Hk|right]. cbn in Hk. apply andb_prop in Hk. destruct Hk as [K1 K2]. destruct b; auto. }
      destruct b; [apply live_list with n n1|apply live_list with n1 n2]; auto; apply inside_list; destruct (scopes_of k) as [|[c bs] e]; auto; intros Hl; apply Hin; cbn [leaves]; rewrite Hl, ?Bool.orb_true_r; reflexivity. }
    cbn [app]. repeat split.
    + eexists _, _. exact (T_if main m t f k true).
    + eexists _, _. exact (P_if B m ct cf code true).
    + intros e a' Hs. inversion Hs; subst. eexists. split; [apply P_if|]. exists top. apply Hbr.
    + intros e a' Hs. inversion Hs; subst. eexists. split; [apply T_if|]. exists top. apply Hbr.
  - (* Switch *) right. cbn [visit] in Hv. destruct (thread (thread_concat (visit main (scopes_of k) top)) ss n) as [n1 cs] eqn:Es. injection Hv as <- <-.
    destruct (thread_nth _ _ _ _ _ Es) as [Len Nth]. destruct Ho as (Hne & Hlast & Hos).
    assert (Hbr : forall i s, nth_error ss i = Some s -> live (map Do s ++ k) top (concat (skipn i cs) ++ code)).
    { intros i s Hs. destruct (Nth i s Hs) as (m1 & m2 & c & Hc & Hci). rewrite (nth_skipn _ _ _ Hci). cbn [concat]. rewrite <- app_assoc.
      pose proof (installed_switch B m cs code i c Hci Hi) as Ic.
      assert (Hsin : In s ss) by (eapply nth_error_In; eassumption).
      apply live_list with m1 m2; auto.
      - rewrite Every_in in Hos. auto.
      - apply inside_list. destruct (scopes_of k) as [|[c0 bs] e]; auto. intros Hl. apply Hin. cbn [leaves]. apply existsb_exists. exists s. auto.
      - destruct Hk as [Hk|[Hk _]].
        + assert (Hcase : i = pred (length ss) \/ (i < pred (length ss))%nat) by (pose proof (proj1 (nth_error_Some ss i) ltac:(congruence)); lia). destruct Hcase as [Hl|Hl].
          * left. rewrite skipn_all2 by (rewrite Len; destruct ss; [destruct i; discriminate|cbn in *; lia]). exact Hk.
          * right. split; [|exact (live_dead _ _ _ Hk)]. rewrite forallb_forall in Hlast. apply Hlast. rewrite (app_removelast_last [] Hne) in Hs. rewrite nth_error_app1 in Hs; [eapply nth_error_In; eassumption|].
            pose proof (f_equal (@length _) (app_removelast_last [] Hne)) as El. rewrite app_length in El. cbn in El. lia.
        + right. split; [|exact Hd]. cbn in Hk. rewrite forallb_forall in Hk. auto. }
    cbn [app]. repeat split.
    + destruct ss as [|s ss]; [congruence|]. eexists _, _. exact (T_switch main m (s :: ss) 0 s k eq_refl).
    + destruct cs as [|s cs]; [destruct ss; [congruence|discriminate]|]. eexists _, _. apply (P_switch B m (s :: cs) 0 code). cbn; lia.
    + intros e a' Hs. inversion Hs as [| | | | |n0 ss0 i s k0 Hi0|]; subst. eexists. split; [apply P_switch|exists top; apply (Hbr i s); assumption]. rewrite Len. apply nth_error_Some. congruence.
    + intros e a' Hs. inversion Hs as [| | | | | |n0 ss0 i k0 Hi0]; subst. destruct (nth_error ss i) as [s|] eqn:Ei; [|apply nth_error_None in Ei; lia]. eexists. split; [apply T_switch; exact Ei|]. exists top. apply (Hbr i s Ei).
  - (* Container *) left. destruct (enter_container c bs k top n n' out code Hv Hi Ho Hk) as [Hd' (rest & Er & code' & Hir & Ecode)].
    destruct bs as [|[id l b] bs]; [destruct Ho as (_ & Ho & _); congruence|]. rewrite Ecode. clear Ecode.
    cbn [thread wblock] in Er. destruct (thread_concat (visit main ((c, Block id l b :: bs) :: scopes_of k) (n + 1)) b (n + 1)) as [q body] eqn:Eb. destruct (thread (wblock main ((c, Block id l b :: bs) :: scopes_of k) (n + 1)) bs q) as [q' ss] eqn:Es. injection Er as <- <-.
    destruct (installed_cons B _ _ _ Hir) as [J1 J2]. apply installed_block in J1. destruct Ho as (_ & _ & [[Hn Hob] _]).
    assert (L : live (map Do b ++ End c (Block id l b :: bs) :: k) (n + 1) (body ++ ss ++ code')).
    { apply live_list with (n + 1) q; auto.
      - destruct (installed_app B _ _ _ J1) as [_ J]. exact J.
      - exact (inside_block c (Block id l b :: bs) (scopes_of k) (Block id l b) (or_introl eq_refl)). }
    eexists _, _, (Some (((if label_printed l b then [CLabel (IL l)] else []) ++ body) ++ ss ++ code')), (Some (body ++ ss ++ code')).
    split; [apply T_container|]. split; [constructor|]. split; [apply P_block|]. split; [|exists (n + 1); exact L].
    destruct (label_printed l b); cbn [app]; [|constructor]. apply taus_cons with (Some (body ++ ss ++ code')); [apply P_label|constructor].
Qed.
End Match.

(** ** Every goto has a label *)
Lemma gotos_app a b : gotos (a ++ b) = gotos a ++ gotos b.
Proof. apply all_app. Qed.
Lemma targetable_label main : forall b e top n, targetable b = true -> In (IL (block_label b)) (labels_of (snd (wblock main e top b n))).
Proof.
  fix IH 1. intros [id l code] e top n Ht. cbn [targetable] in Ht. cbn [wblock block_label]. destruct (thread_concat (visit main e top) code n) as [n1 body] eqn:Eb. cbn [snd labels_of]. change (all_of labels_of) with labels. rewrite labels_app, in_app_iff.
  rewrite <- printed in Ht. destruct (label_printed l code) eqn:El; [left; left; reflexivity|right]. destruct code as [|[| | | | |c [|b0 bs]] more]; try discriminate. cbn [orb] in Ht.
  rewrite thread_concat_cons, visit_container in Eb. cbn [thread] in Eb. pose proof (IH b0 ((c, b0 :: bs) :: e) (n + 1) (n + 1) Ht) as H.
  destruct (wblock main ((c, b0 :: bs) :: e) (n + 1) b0 (n + 1)) as [m1 s]. destruct (thread (wblock main ((c, b0 :: bs) :: e) (n + 1)) bs m1) as [m2 ss]. destruct (thread_concat (visit main e top) more m2) as [m3 o]. injection Eb as <- <-.
  assert (Hl : block_label b0 = l) by (destruct more; cbn [label_printed] in El; apply Bool.negb_false_iff, Z.eqb_eq in El; exact El). rewrite Hl in H. rewrite <- app_assoc. cbn [app]. rewrite labels_cons. apply in_app_iff. left. exact H.
Qed.
Lemma thread_labels main e top x : targetable x = true -> forall bs n, In x bs -> In (IL (block_label x)) (labels (snd (thread (wblock main e top) bs n))).
Proof.
  intros Ht. induction bs as [|z bs IH]; intros n Hx; [destruct Hx|]. cbn [thread]. pose proof (targetable_label main x e top n Ht) as X.
  destruct (wblock main e top z n) as [n1 s] eqn:E. specialize (IH n1). destruct (thread (wblock main e top) bs n1) as [n2 ss]. cbn [snd] in *. rewrite labels_cons. apply in_app_iff. destruct Hx as [->|Hx]; [left|right; auto]. rewrite E in X. exact X.
Qed.
Definition context (main : Z) (L : list label) (e : scopes) (top : Z) : Prop :=
  (forall b x, find_block b e = Some x -> targetable x = true -> In (IL (block_label x)) L) /\
  match e with (c, bs) :: _ => c <> main -> left c bs = true -> In (LeaveBlock top) L | [] => True end /\ target_label main e = 0.
Definition gotos_ok (main : Z) (i : inst) : Prop := forall L e top n, context main L e top -> ok main e i -> inside e i -> incl (labels (snd (visit main e top i n))) L -> incl (gotos (snd (visit main e top i n))) L.
Lemma gotos_list main is : Every (gotos_ok main) is -> forall L e top n, context main L e top -> Every (ok main e) is -> Every (inside e) is ->
  incl (labels (snd (thread_concat (visit main e top) is n))) L -> incl (gotos (snd (thread_concat (visit main e top) is n))) L.
Proof.
  induction is as [|i is IH]; intros H L e top n Hc Ho Hin Hl; [intros x []|]. rewrite thread_concat_cons in *. destruct H as [Hi H]. destruct Ho as [Ho Hos]. destruct Hin as [Hin Hins]. specialize (Hi L e top n Hc Ho Hin).
  destruct (visit main e top i n) as [n1 o1]. specialize (IH H L e top n1 Hc Hos Hins). destruct (thread_concat (visit main e top) is n1) as [n2 o2]. cbn [snd] in *. rewrite labels_app in Hl. rewrite gotos_app. apply incl_app_inv in Hl. destruct Hl as [H1 H2]. apply incl_app; auto.
Qed.
Lemma gotos_blocks main c bs0 e top L : context main L ((c, bs0) :: e) top -> forall bs n, incl bs bs0 -> Every (fun b => Every (gotos_ok main) (block_code b)) bs -> Every (ok_block main ((c, bs0) :: e)) bs ->
  incl (labels (snd (thread (wblock main ((c, bs0) :: e) top) bs n))) L -> incl (gotos (snd (thread (wblock main ((c, bs0) :: e) top) bs n))) L.
Proof.
  intros Hc. induction bs as [|[id l code] bs IH]; intros n Hs Hg Ho Hl; [intros x []|]. destruct Hg as [Hg Hgs]. destruct Ho as [[_ Ho] Hos]. cbn [block_code] in Hg. cbn [thread wblock] in *.
  pose proof (gotos_list main code Hg L ((c, bs0) :: e) top n Hc Ho (inside_block c bs0 e _ (Hs _ (or_introl eq_refl)))) as G.
  destruct (thread_concat (visit main ((c, bs0) :: e) top) code n) as [n1 body]. specialize (IH n1 (fun x hx => Hs x (or_intror hx)) Hgs Hos). destruct (thread (wblock main ((c, bs0) :: e) top) bs n1) as [n2 ss]. cbn [snd] in *.
  rewrite labels_cons in Hl. cbn [labels_of] in Hl. change (all_of labels_of) with labels in Hl. rewrite labels_app in Hl. apply incl_app_inv in Hl. destruct Hl as [H1 H2]. apply incl_app_inv in H1. destruct H1 as [_ H1].
  change (incl (gotos ([CBlock ((if label_printed l code then [CLabel (IL l)] else []) ++ body)] ++ ss)) L). rewrite gotos_app. apply incl_app; [|auto]. unfold gotos at 1, all_of at 1. cbn [map concat gotos_of]. change (all_of gotos_of) with gotos. rewrite app_nil_r, gotos_app. apply incl_app; [|auto]. destruct (label_printed l code); intros x [].
Qed.
Lemma gotos_visit main i : gotos_ok main i.
Proof.
  induction i as [m|b|c v|m t f Ht Hf|m ss Hss|c bs Hbs] using inst_ind'; intros L e top n Hc Ho Hin Hl.
  - intros x [].
  - cbn. destruct Hc as (Hc & _). destruct Ho as (x & Hx & Ht). rewrite Hx. intros y [<-|[]]. exact (Hc b x Hx Ht).
  - cbn. destruct Hc as (_ & Hc & Hm). destruct Ho as [->|(bs & e' & -> & Hlab)]; [rewrite Hm; intros y []|]. destruct (target_label c ((c, bs) :: e') =? 0) eqn:E; [intros y []|]. intros y [<-|[]].
    apply Hc; [|apply Hin; cbn; apply Z.eqb_refl]. intros ->. rewrite Hm in E. discriminate.
  - cbn [visit] in *. destruct Ho as [Ot Of].
    assert (It : Every (inside e) t /\ Every (inside e) f) by (split; apply inside_list; destruct e as [|[c bs] e]; auto; intros Hx; apply Hin; cbn [leaves]; rewrite Hx, ?Bool.orb_true_r; reflexivity). destruct It as [It If_].
    pose proof (gotos_list main t Ht L e top n Hc Ot It) as Gt. destruct (thread_concat (visit main e top) t n) as [n1 ct]. pose proof (gotos_list main f Hf L e top n1 Hc Of If_) as Gf. destruct (thread_concat (visit main e top) f n1) as [n2 cf]. cbn [snd] in *.
    unfold labels, gotos, all_of in Hl |- *. cbn [map concat labels_of gotos_of] in Hl |- *. rewrite app_nil_r in Hl |- *. apply incl_app_inv in Hl. destruct Hl as [H1 H2]. apply incl_app; [exact (Gt H1)|exact (Gf H2)].
  - cbn [visit] in *. destruct Ho as (_ & _ & Os). rewrite (surjective_pairing (thread _ ss n)) in *. cbn [snd] in *. unfold labels, gotos, all_of in Hl |- *. cbn [map concat labels_of gotos_of] in Hl |- *. rewrite app_nil_r in Hl |- *.
    assert (Is : Every (Every (inside e)) ss).
    { apply Every_in. intros s Hs. apply inside_list. destruct e as [|[c bs] e]; auto. intros Hx. apply Hin. cbn [leaves]. apply existsb_exists. exists s. auto. }
    clear Hin. revert n Hl. induction ss as [|s ss IH]; intros n Hl; [intros x []|]. destruct Hss as [Hs Hss]. destruct Os as [Os Oss]. destruct Is as [Is Iss]. cbn [thread] in *.
    pose proof (gotos_list main s Hs L e top n Hc Os Is) as G. destruct (thread_concat (visit main e top) s n) as [n1 cs]. specialize (IH Hss Oss Iss n1). destruct (thread (thread_concat (visit main e top)) ss n1) as [n2 css]. cbn [snd map concat] in *.
    apply incl_app_inv in Hl. destruct Hl as [H1 H2]. apply incl_app; [exact (G H1)|exact (IH H2)].
  - rewrite visit_container in *. destruct Ho as (Hm & _ & Ho). destruct Hc as (Hb & Ht & Hmain).
    destruct (thread (wblock main ((c, bs) :: e) (n + 1)) bs (n + 1)) as [n2 out] eqn:E. cbn [snd] in *. rewrite (proj2 (Z.eqb_neq c main) Hm) in *. cbn [negb andb] in *. rewrite labels_app in Hl. apply incl_app_inv in Hl. destruct Hl as [H1 H2].
    rewrite gotos_app. apply incl_app; [|destruct (left c bs); intros x []].
    assert (Hctx : context main L ((c, bs) :: e) (n + 1)).
    { split; [|split].
      - intros b x Hx Htx. cbn in Hx. destruct (find_in b bs) as [y|] eqn:Ey; [injection Hx as ->|exact (Hb b x Hx Htx)]. apply H1.
        pose proof (thread_labels main ((c, bs) :: e) (n + 1) x Htx bs (n + 1) (in_find_in _ _ _ Ey)) as X. rewrite E in X. exact X.
      - intros _ El. apply H2. rewrite El. left. reflexivity.
      - cbn. rewrite (proj2 (Z.eqb_neq main c)) by congruence. exact Hmain. }
    pose proof (gotos_blocks main c bs e (n + 1) L Hctx) as G.
    specialize (G bs (n + 1) (incl_refl _) Hbs Ho). rewrite E in G. exact (G H1).
Qed.
