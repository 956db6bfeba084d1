(** * C77: the output runs like the decompiled method

    [tree_step] is the meaning of the decompiler's tree and [cpp_step] the meaning of the C++ statements, both
    in ControlSpec.v, which does not mention the translation.  An execution is one sequence of outcomes of
    conditions and switches. *)
From Coq Require Import Lia.
From Verif Require Import Base Tac ControlModel ControlSpec ControlProofs.

Definition tree_trace (main : Z) (bs : list block) (tr : list event) : Prop := exists s, run (tree_step main) (tree_start main bs) tr s.
Definition cpp_trace (program : list cstmt) (tr : list event) : Prop := exists s, run (cpp_step program) (Some program) tr s.

Lemma start_blocks main bs : exists n out, thread (wblock main [(main, bs)] 1) bs 1 = (n, out) /\ StartMainBlock main bs = out.
Proof.
  unfold StartMainBlock. rewrite visit_container. cbn [Z.add]. destruct (thread (wblock main [(main, bs)] 1) bs 1) as [n out]. exists n, out. split; [reflexivity|]. cbn [snd]. rewrite Z.eqb_refl. cbn [negb andb]. apply app_nil_r.
Qed.
Lemma start_nodup main bs : well_formed main bs -> NoDup (labels (StartMainBlock main bs)).
Proof. intros (_ & _ & Hn & _). pose proof (good_visit main (Container main bs) [] 0 0) as (_ & _ & G). exact (G Hn). Qed.
Lemma start_match main bs B : well_formed main bs -> B = StartMainBlock main bs -> exists s c c1, tree_step main (tree_start main bs) [] s /\ cpp_step B (Some B) [] c1 /\ taus (cpp_step B) c1 c /\ R main B s c.
Proof.
  intros Hwf EB. pose proof (start_nodup main bs Hwf) as Hnd. rewrite <- EB in Hnd. destruct (start_blocks main bs) as (n & out & Et & EB'). rewrite EB' in EB. destruct Hwf as (Hne & Hl & _ & Ho). destruct bs as [|[id l b] bs']; [congruence|].
  cbn [thread wblock] in Et. destruct (thread_concat (visit main [(main, Block id l b :: bs')] 1) b 1) as [n1 body] eqn:Eb. destruct (thread (wblock main [(main, Block id l b :: bs')] 1) bs' n1) as [n2 rest] eqn:Er. injection Et as <- <-.
  pose proof (installed_all B Hnd) as Hi. rewrite EB in Hi at 2.
  assert (Hd : dead main B [End main (Block id l b :: bs')] 1).
  { apply dead_main with []; [exact Hl|]. exists 1, n2, (CBlock ((if label_printed l b then [CLabel (IL l)] else []) ++ body) :: rest). split; [cbn [thread wblock]; rewrite Eb, Er; reflexivity|]. split; [exact Hi|exact Ho]. }
  destruct (installed_cons B _ _ _ Hi) as [I1 _]. apply installed_block in I1. destruct (installed_app B _ _ _ I1) as [_ I2]. destruct Ho as [[Hn Ho] _].
  assert (L : live main B (map Do b ++ [End main (Block id l b :: bs')]) 1 (body ++ rest ++ [])).
  { apply live_list with 1 n1; auto. exact (inside_block main (Block id l b :: bs') [] (Block id l b) (or_introl eq_refl)). }
  rewrite app_nil_r in L.
  exists (Some (map Do b ++ [End main (Block id l b :: bs')])), (Some (body ++ rest)), (Some (((if label_printed l b then [CLabel (IL l)] else []) ++ body) ++ rest)).
  split; [apply T_container|]. split; [rewrite EB at 2; apply P_block|]. split; [|exists 1; exact L].
  destruct (label_printed l b); cbn [app]; [|constructor]. apply taus_cons with (Some (body ++ rest)); [apply P_label|constructor].
Qed.
Definition linked (main : Z) (bs : list block) (s : option (list item)) (c : option (list cstmt)) : Prop := R main (StartMainBlock main bs) s c \/ (s = tree_start main bs /\ c = Some (StartMainBlock main bs)).
Lemma linked_progress main bs : well_formed main bs -> progress (tree_step main) (cpp_step (StartMainBlock main bs)) (linked main bs) (fun s => s = None) (fun c => c = None).
Proof.
  intros Hwf s c [H|[-> ->]].
  - destruct (match_progress main _ s c H) as [F|[(a1 & a2 & b1 & b2 & S1 & T1 & S2 & T2 & R2)|(C1 & C2 & F1 & F2)]]; [left; exact F|right; left; exists a1, a2, b1, b2; unfold linked; auto 10|right; right].
    repeat split; auto; [intros e a' Hs; destruct (F1 e a' Hs) as (b' & X & Y)|intros e b' Hs; destruct (F2 e b' Hs) as (b'' & X & Y)]; unfold linked; eauto.
  - right; left. destruct (start_match main bs _ Hwf eq_refl) as (s & c & c1 & S1 & S2 & T & HR). exists s, s, c1, c. split; [exact S1|]. split; [constructor|]. unfold linked. auto.
Qed.
Lemma none_tree main s e s' : s = None -> ~ tree_step main s e s'.
Proof. intros -> H. inversion H. Qed.
Lemma none_cpp B s e s' : s = None -> ~ cpp_step B s e s'.
Proof. intros -> H. inversion H. Qed.

(** Whatever the conditions evaluate to, the C++ function does exactly what the method does: the same
    statements, tests and selections in the same order and the same return.
    Missing from the full claim: leaves of outer loops, loops at offset 0, branches to a block that is only a
    leave, switch sections that do not end in a jump (all refuted below), try statements. *)
Theorem C77_control_flow_partial main bs tr : well_formed main bs -> tree_trace main bs tr <-> cpp_trace (StartMainBlock main bs) tr.
Proof.
  intros Hwf. pose proof (linked_progress main bs Hwf) as P. split; intros [s H].
  - destruct (forward _ _ _ _ _ (none_tree main) (tree_det main) P _ (Some (StartMainBlock main bs)) tr s (or_intror (conj eq_refl eq_refl)) H) as [c Hc]. exists c. exact Hc.
  - destruct (forward _ _ _ _ _ (none_cpp _) (cpp_det _) (progress_swap _ _ _ _ _ P) _ (tree_start main bs) tr s (or_intror (conj eq_refl eq_refl)) H) as [c Hc]. exists c. exact Hc.
Qed.
Print Assumptions C77_control_flow_partial.
(** Neither runs off the end of a block: until it returns the C++ function can go on.  With the theorem above,
    a method that loops without doing anything observable is translated to a function that does so. *)
Theorem C77_never_stuck_partial main bs tr s : well_formed main bs -> run (cpp_step (StartMainBlock main bs)) (Some (StartMainBlock main bs)) tr s ->
  s = None \/ exists e s', cpp_step (StartMainBlock main bs) s e s'.
Proof.
  intros Hwf H. apply runs_run in H. destruct H as [n H].
  exact (not_stuck _ _ _ _ _ (none_cpp _) (cpp_det _) (progress_swap _ _ _ _ _ (linked_progress main bs Hwf)) n _ (tree_start main bs) tr s (or_intror (conj eq_refl eq_refl)) H).
Qed.
Theorem C77_tree_never_stuck_partial main bs tr s : well_formed main bs -> run (tree_step main) (tree_start main bs) tr s -> s = None \/ exists e s', tree_step main s e s'.
Proof.
  intros Hwf H. apply runs_run in H. destruct H as [n H].
  exact (not_stuck _ _ _ _ _ (none_tree main) (tree_det main) (linked_progress main bs Hwf) n _ (Some (StartMainBlock main bs)) tr s (or_intror (conj eq_refl eq_refl)) H).
Qed.
Print Assumptions C77_never_stuck_partial.
(** A compiler accepts the labels *)
Theorem C77_labels_partial main bs : well_formed main bs -> valid_labels (StartMainBlock main bs).
Proof.
  intros Hwf. split; [exact (start_nodup main bs Hwf)|]. destruct (start_blocks main bs) as (n & out & Et & EB). destruct Hwf as (_ & Hl & _ & Ho).
  rewrite EB. assert (Eo : out = snd (thread (wblock main [(main, bs)] 1) bs 1)) by (rewrite Et; reflexivity). rewrite Eo.
  apply (gotos_blocks main main bs [] 1); [|apply incl_refl| |exact Ho|apply incl_refl].
  - split; [|split; [congruence|cbn; rewrite Z.eqb_refl; exact Hl]]. intros b x Hx Ht. cbn in Hx. destruct (find_in b bs) as [y|] eqn:Ey; [injection Hx as ->|discriminate]. exact (thread_labels main [(main, bs)] 1 x Ht bs 1 (in_find_in _ _ _ Ey)).
  - apply Every_in. intros b _. apply Every_in. intros i _. apply gotos_visit.
Qed.
Print Assumptions C77_labels_partial.

(** A loop with a break and a continue, a switch, a forward branch:
    [1; while (2) { 3; if (4) break; } switch (5) { 6; goto end; default: return 7; } end: 8; return;] *)
Definition sample : list block :=
  [Block 0 0 [Simple 1;
              Container 1 [Block 1 10 [If 2 [Simple 3; If 4 [Leave 1 None] []; Branch 1] []; Leave 1 None]];
              Switch 5 [[Simple 6; Branch 2]; [Leave 0 (Some 7)]]];
   Block 2 30 [Simple 8; Leave 0 None]].
Example C77_example : well_formed 0 sample /\
  StartMainBlock 0 sample =
    [CBlock [CLabel (IL 0); CSimple 1;
             CBlock [CLabel (IL 10); CIf 2 [CSimple 3; CIf 4 [CGoto (LeaveBlock 2)] []; CGoto (IL 10)] []; CGoto (LeaveBlock 2)]; CLabel (LeaveBlock 2);
             CSwitch 5 [[CSimple 6; CGoto (IL 30)]; [CReturn (Some 7)]]];
     CBlock [CLabel (IL 30); CSimple 8; CReturn None]] /\
  tree_trace 0 sample [Did 1; Tested 2 true; Did 3; Tested 4 false; Tested 2 false; Selected 5 0; Did 6; Did 8; Returned None].
Proof.
  split; [|split; [reflexivity|]].
  - split; [discriminate|]. split; [reflexivity|]. split; [repeat constructor; cbn; intuition discriminate|]. cbn [sample Every ok existsb never_ends block_code orb andb forallb removelast].
    repeat split; try discriminate; try (left; reflexivity); try (right; eexists _, _; split; [reflexivity|discriminate]); eexists; (split; [reflexivity|reflexivity]).
  - exists None. unfold tree_start, sample.
    eapply (run_cons _ _ []); [apply T_container|]. cbn [map app block_code].
    eapply (run_cons _ _ [_]); [apply T_simple|]. eapply (run_cons _ _ []); [apply T_container|]. cbn [map app block_code].
    eapply (run_cons _ _ [_]); [apply (T_if _ _ _ _ _ true)|]. cbn [map app]. eapply (run_cons _ _ [_]); [apply T_simple|]. eapply (run_cons _ _ [_]); [apply (T_if _ _ _ _ _ false)|]. cbn [map app].
    eapply (run_cons _ _ []); [apply T_branch; reflexivity|]. cbn [map app].
    eapply (run_cons _ _ [_]); [apply (T_if _ _ _ _ _ false)|]. cbn [map app]. eapply (run_cons _ _ []); [apply T_leave; [discriminate|reflexivity]|].
    eapply (run_cons _ _ [_]); [apply (T_switch _ _ _ 0%nat); reflexivity|]. cbn [map app]. eapply (run_cons _ _ [_]); [apply T_simple|].
    eapply (run_cons _ _ []); [apply T_branch; reflexivity|]. cbn [map app]. eapply (run_cons _ _ [_]); [apply T_simple|]. eapply (run_cons _ _ [_]); [apply T_return|]. constructor.
Qed.

(** ** Where the full claim fails *)
Ltac runs := repeat match goal with
  | H : Some _ = Some _ |- _ => injection H as H; subst
  | H : None = Some _ |- _ => discriminate H
  | H : _ :: _ = _ :: _ |- _ => injection H; clear H; intros; subst
  | H : [] = _ :: _ |- _ => discriminate H
  | H : _ :: _ = [] |- _ => discriminate H
  | H : Did _ = _ |- _ => discriminate H || (injection H; clear H; intros; subst)
  | H : Tested _ _ = _ |- _ => discriminate H || (injection H; clear H; intros; subst)
  | H : Selected _ _ = _ |- _ => discriminate H || (injection H; clear H; intros; subst)
  | H : Returned _ = _ |- _ => discriminate H || (injection H; clear H; intros; subst)
  | H : cpp_step _ _ _ _ |- _ => inversion H; subst; clear H; cbn in *
  | H : run _ _ _ _ |- _ => inversion H; subst; clear H; cbn in *
  end.
Ltac labels_tac := split; [repeat constructor; cbn; intuition discriminate|intros x Hx; cbn in Hx |- *; tauto].
(** break out of two loops: the output only leaves the inner one *)
Theorem C77_outer_leave_refuted : exists bs tr, valid_labels (StartMainBlock 0 bs) /\ tree_trace 0 bs tr /\ ~ cpp_trace (StartMainBlock 0 bs) tr.
Proof.
  exists [Block 0 0 [Simple 1; Container 1 [Block 1 10 [Simple 2; Container 2 [Block 2 20 [If 9 [Leave 2 None] []; Leave 1 None]]; Simple 3; Leave 1 None]]; Leave 0 None]], [Did 1; Did 2; Tested 9 false; Returned None]. split; [labels_tac|split].
  - exists None. unfold tree_start.
    eapply (run_cons _ _ []); [apply T_container|]. cbn [map app block_code]. eapply (run_cons _ _ [_]); [apply T_simple|].
    eapply (run_cons _ _ []); [apply T_container|]. cbn [map app block_code]. eapply (run_cons _ _ [_]); [apply T_simple|]. eapply (run_cons _ _ []); [apply T_container|]. cbn [map app block_code].
    eapply (run_cons _ _ [_]); [apply (T_if _ _ _ _ _ false)|]. cbn [map app]. eapply (run_cons _ _ []); [apply T_leave; [discriminate|reflexivity]|]. eapply (run_cons _ _ [_]); [apply T_return|]. constructor.
  - intros [s H]. cbn in H. runs.
Qed.
(** a method that begins with a loop: leaving the loop returns *)
Theorem C77_entry_loop_refuted : exists bs tr, valid_labels (StartMainBlock 0 bs) /\ tree_trace 0 bs tr /\ ~ cpp_trace (StartMainBlock 0 bs) tr.
Proof.
  exists [Block 0 0 [Container 1 [Block 1 0 [If 1 [Leave 1 None] []; Branch 1]]; Simple 2; Leave 0 None]], [Tested 1 true; Did 2]. split; [labels_tac|split].
  - eexists. unfold tree_start.
    eapply (run_cons _ _ []); [apply T_container|]. cbn [map app block_code]. eapply (run_cons _ _ []); [apply T_container|]. cbn [map app block_code].
    eapply (run_cons _ _ [_]); [apply (T_if _ _ _ _ _ true)|]. cbn [map app]. eapply (run_cons _ _ []); [apply T_leave; [discriminate|reflexivity]|]. eapply (run_cons _ _ [_]); [apply T_simple|]. constructor.
  - intros [s H]. cbn in H. runs.
Qed.
(** a section that does not end in a jump runs into the next one *)
Theorem C77_fall_through_refuted : exists bs tr, valid_labels (StartMainBlock 0 bs) /\ tree_trace 0 bs tr /\ ~ cpp_trace (StartMainBlock 0 bs) tr.
Proof.
  exists [Block 0 0 [Switch 1 [[Simple 2]; [Simple 3]]; Leave 0 None]], [Selected 1 0; Did 2; Returned None]. split; [labels_tac|split].
  - eexists. unfold tree_start.
    eapply (run_cons _ _ []); [apply T_container|]. cbn [map app block_code]. eapply (run_cons _ _ [_]); [apply (T_switch _ _ _ 0%nat); reflexivity|]. cbn [map app].
    eapply (run_cons _ _ [_]); [apply T_simple|]. eapply (run_cons _ _ [_]); [apply T_return|]. constructor.
  - intros [s H]. cbn in H. runs.
Qed.
(** a branch to a block that only leaves: its label is not written *)
Theorem C77_lost_label_refuted : exists bs, In (IL 30) (gotos (StartMainBlock 0 bs)) /\ ~ In (IL 30) (labels (StartMainBlock 0 bs)).
Proof.
  exists [Block 0 0 [If 1 [Branch 2] []; Simple 2; Branch 2]; Block 2 30 [Leave 0 None]]. split; [cbn; auto|]. cbn. intuition discriminate.
Qed.
