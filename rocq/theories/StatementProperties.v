(** * C60-C62, C73-C75: compound assignments, switches, leave labels, lost statements, static constructors *)
From Coq Require Import QArith.
From Verif Require Import Tac StatementModel.
Local Open Scope Z_scope.
Import ListNotations.

(** ** C60 *)
(** The number an operand denotes: a rational.  [rnd t] is the rounding of conversions to Single and Double;
    a floating number outside the range of the integer type has no defined conversion. *)
Definition dyadic (m e : Z) : Q := if 0 <=? e then inject_Z (m * 2 ^ e) else (m # Z.to_pos (2 ^ (- e)))%Q.
Definition int_range (t : num_type) : option (Z * Z) :=
  match t with
  | tI1 => Some (-128, 127) | tI2 => Some (-32768, 32767) | tI4 => Some (-2147483648, 2147483647) | tI8 => Some (-9223372036854775808, 9223372036854775807)
  | tU1 => Some (0, 255) | tU2 => Some (0, 65535) | tU4 => Some (0, 4294967295) | tU8 => Some (0, 18446744073709551615) | tR4 | tR8 => None
  end.
Definition wrap (lo hi z : Z) : Z := lo + (z - lo) mod (hi - lo + 1).
Section Value.
Variable rnd : num_type -> Q -> Q.
Variable other : Z -> Q.
(** truncation toward zero *)
Definition trunc (q : Q) : Z := Z.quot (Qnum q) (Zpos (Qden q)).
Fixpoint value (o : operand) : Q :=
  match o with
  | LdcI4 n | LdcI8 n => inject_Z n
  | LdcF4 m e | LdcF8 m e => dyadic m e
  | Conv t o => match int_range t with Some (lo, hi) => inject_Z (wrap lo hi (trunc (value o))) | None => rnd t (value o) end
  | OtherValue i => other i
  end.
End Value.
(** Rounding keeps 1. *)
Definition keeps_one (rnd : num_type -> Q -> Q) : Prop := forall t q, (q == 1 -> rnd t q == 1)%Q.
(** No Int64 constant inside, and no floating constant strictly between 1 and 2. *)
Fixpoint plain_operand (o : operand) : Prop :=
  match o with
  | LdcI8 _ => False
  | LdcF4 m e | LdcF8 m e => ~ (1 < dyadic m e /\ dyadic m e < 2)%Q
  | Conv _ o => plain_operand o
  | _ => True
  end.
Lemma conv_one rnd other t o : keeps_one rnd -> (value rnd other o == 1)%Q -> (value rnd other (Conv t o) == 1)%Q.
Proof.
  intros K H. cbn [value]. destruct (int_range t) as [[lo hi]|] eqn:E; [|apply K, H]. assert (X : trunc (value rnd other o) = 1).
  { unfold trunc. destruct (value rnd other o) as [n d]. unfold Qeq in H. cbn in H. cbn [Qnum Qden]. replace n with (Zpos d) by lia. apply Z.quot_same. lia. }
  rewrite X. unfold wrap. destruct t; inversion E; subst; reflexivity.
Qed.
Lemma truncated_one m e : float_to_int m e = 1 -> ~ (1 < dyadic m e /\ dyadic m e < 2)%Q -> (dyadic m e == 1)%Q.
Proof.
  unfold float_to_int, truncated, dyadic. destruct (0 <=? e) eqn:E.
  - destruct (in_i32 (m * 2 ^ e)); [|discriminate]. intros -> _. reflexivity.
  - assert (P : 0 < 2 ^ (- e)) by (apply Z.pow_pos_nonneg; lia). destruct (in_i32 (Z.quot m (2 ^ (- e)))); [|discriminate]. intros H N. unfold Qlt, Qeq in *. cbn [Qnum Qden] in *. rewrite !Z2Pos.id in * by exact P.
    assert (Hm : 0 <= m). { destruct (Z.le_gt_cases 0 m); [assumption|]. exfalso. rewrite <- (Z.opp_involutive m), Z.quot_opp_l in H by lia. pose proof (Z.quot_pos (- m) (2 ^ (- e))). lia. }
    rewrite Z.quot_div_nonneg in H by lia. pose proof (Z.div_mod m (2 ^ (- e))) as D. rewrite H in D. pose proof (Z.mod_pos_bound m (2 ^ (- e)) P). lia.
Qed.
(** ++ and -- are written only for the operand 1, unless an Int64 constant or a floating constant strictly between 1 and 2 is involved. *)
Theorem C60_only_one_partial rnd other op o a : keeps_one rnd -> plain_operand o -> VisitNumericCompoundAssign op o = Ret a -> a = PostIncrement \/ a = PostDecrement ->
  (value rnd other o == 1)%Q /\ (a = PostIncrement /\ op = Add \/ a = PostDecrement /\ op = Sub).
Proof.
  intros K P E A.
  assert (X : forall o, plain_operand o -> GetAsIntConstant o = Ret 1 -> (value rnd other o == 1)%Q).
  { clear o P E. induction o as [n|n|m e|m e|t o IH|i]; cbn [GetAsIntConstant plain_operand]; intros P E.
    - injection E as ->. reflexivity.
    - destruct P.
    - apply truncated_one; [congruence|exact P].
    - apply truncated_one; [congruence|exact P].
    - apply conv_one; [exact K|]. apply IH; assumption.
    - discriminate. }
  unfold VisitNumericCompoundAssign in E. destruct op; try (injection E as <-; destruct A; discriminate); (destruct (IsConstant o); [|injection E as <-; destruct A; discriminate]);
    destruct (GetAsIntConstant o) as [n|ex|] eqn:G; cbn [bind] in E; try discriminate; injection E as <-; (destruct (n =? 1) eqn:N; [|destruct A; discriminate]); assert (n = 1) by lia; subst n; (split; [apply X; assumption|auto]).
Qed.
(** Otherwise the assignment is written with its operator and operand. *)
Theorem C60_otherwise op o a : VisitNumericCompoundAssign op o = Ret a -> a = PostIncrement \/ a = PostDecrement \/ a = OpAssign op o.
Proof.
  unfold VisitNumericCompoundAssign. intros E. destruct op; try (injection E as <-; auto); (destruct (IsConstant o); [|injection E as <-; auto]); destruct (GetAsIntConstant o) as [n|ex|]; cbn [bind] in E; try discriminate; injection E as <-; destruct (n =? 1); auto.
Qed.
(** x += v with 1 < v < 2 is written x++. *)
Theorem C60_float_refuted : exists m e, (dyadic m e == 3 # 2)%Q /\ VisitNumericCompoundAssign Add (LdcF8 m e) = Ret PostIncrement.
Proof. exists 3, (-1). split; reflexivity. Qed.
Theorem C60_every_float_refuted m e : 0 <= m -> (1 < dyadic m e /\ dyadic m e < 2)%Q -> VisitNumericCompoundAssign Sub (LdcF8 m e) = Ret PostDecrement.
Proof.
  intros Hm [H1 H2]. unfold VisitNumericCompoundAssign. cbn [IsConstant GetAsIntConstant bind]. replace (float_to_int m e) with 1; [reflexivity|]. symmetry. unfold float_to_int, truncated, dyadic in *. destruct (0 <=? e) eqn:E.
  - exfalso. unfold Qlt in *. cbn in *. lia.
  - assert (P : 0 < 2 ^ (- e)) by (apply Z.pow_pos_nonneg; lia). unfold Qlt in *. cbn [Qnum Qden] in *. rewrite !Z2Pos.id in * by exact P. replace (Z.quot m (2 ^ (- e))) with 1; [reflexivity|].
    rewrite Z.quot_div_nonneg by lia. apply (Z.div_unique m (2 ^ (- e)) 1 (m - 2 ^ (- e))); lia.
Qed.
(** Any Int64 constant makes the translator throw. *)
Theorem C60_int64_refuted n : VisitNumericCompoundAssign Add (LdcI8 n) = Exn InvalidCastException.
Proof. reflexivity. Qed.
(** The value of the emitted expression, given the target's old value [x] and the operand's value [v]: C++'s x++ is the old value, x op= v the new one. *)
Definition emitted_value (x v : Z) (apply : num_op -> Z -> Z -> Z) (a : emitted_assign) : Z :=
  match a with PostIncrement | PostDecrement => x | OpAssign op _ => apply op x v end.
(** C#'s ++x (the instruction evaluates to the new value) is written as x++: as a value it is off by one. *)
Theorem C60_prefix_value_refuted x apply : apply Add x 1 = x + 1 -> exists a, VisitNumericCompoundAssign Add (LdcI4 1) = Ret a /\ emitted_value x 1 apply a <> apply Add x 1.
Proof. intros H. exists PostIncrement. split; [reflexivity|]. cbn. lia. Qed.
(** Storing into a local: ++v / --v is written exactly for v = v + 1 and v = v - 1. *)
Theorem C60_local v b up : HandleIncrementAndDecrement v b = Some up <-> b = Some (if up then Add else Sub, Some v, LdcI4 1).
Proof.
  split.
  - destruct b as [[[op [l|]] o]|]; try discriminate; cbn [HandleIncrementAndDecrement]; destruct o; try discriminate; destruct op; try discriminate; destruct (list_eq_dec Z.eq_dec v l) as [->|N]; cbn [negb]; try discriminate; destruct (Z.eqb_spec n 1) as [->|M]; cbn [negb]; try discriminate; intros E; injection E as <-; reflexivity.
  - intros ->. cbn [HandleIncrementAndDecrement]. destruct up; (destruct (list_eq_dec Z.eq_dec v v) as [_|N]; [reflexivity|congruence]).
Qed.
Example C60_example : plain_operand (Conv tI8 (LdcI4 1)) /\ VisitNumericCompoundAssign Add (Conv tI8 (LdcI4 1)) = Ret PostIncrement /\ VisitNumericCompoundAssign Mul (LdcI4 1) = Ret (OpAssign Mul (LdcI4 1)) /\ VisitNumericCompoundAssign Sub (LdcI4 2) = Ret (OpAssign Sub (LdcI4 2)).
Proof. repeat split. Qed.

(** ** C61 *)
(** C#: the section whose label set contains the value. *)
Definition contains (s : section) (v : Z) : bool := existsb (fun '(lo, hi) => (lo <=? v) && (v <=? hi)) (labels s).
Definition selects (sections : list section) (v : Z) : option Z := match find (fun s => contains s v) sections with Some s => Some (body s) | None => None end.
(** C++: the body after the label "case v", otherwise after "default". *)
Definition cpp_selects (lines : list (case_line * Z)) (v : Z) : option Z :=
  match find (fun l => match fst l with Case n => n =? v | _ => false end) lines with
  | Some (_, b) => Some b
  | None => match find (fun l => match fst l with Default => true | _ => false end) lines with Some (_, b) => Some b | None => None end
  end.
(** Label sets are as the decompiler builds them: every Int64 is in exactly one section. *)
Definition is_long (v : Z) : Prop := -9223372036854775808 <= v <= 9223372036854775807.
Definition partition (sections : list section) : Prop :=
  Forall (fun s => Forall (fun '(lo, hi) => is_long lo /\ lo <= hi) (labels s)) sections /\
  forall v, is_long v -> exists a s b, sections = a ++ s :: b /\ contains s v = true /\ Forall (fun s => contains s v = false) a /\ Forall (fun s => contains s v = false) b.
(** A section with one label, or the default section (its set contains the least Int64, first interval first). *)
Definition one_label (s : section) : Prop := exists n, labels s = [(n, n)] /\ n <> long_min.
Definition default_section (s : section) : Prop := exists hi rest, labels s = (long_min, hi) :: rest.
Lemma find_app_none {A} (f : A -> bool) a b : Forall (fun x => f x = false) a -> find f (a ++ b) = find f b.
Proof. induction 1 as [|x a Hx _ IH]; [reflexivity|]. cbn [app find]. rewrite Hx. exact IH. Qed.
Lemma find_none_all {A} (f : A -> bool) a : Forall (fun x => f x = false) a -> find f a = None.
Proof. intros H. rewrite <- (app_nil_r a), find_app_none by exact H. reflexivity. Qed.
Lemma first_one s n : labels s = [(n, n)] -> n <> long_min -> first_label s = Case n.
Proof. intros E N. unfold first_label. rewrite E. replace (n =? long_min) with false by (symmetry; apply Z.eqb_neq, N). reflexivity. Qed.
Lemma first_default s : default_section s -> first_label s = Default.
Proof. intros (hi & rest & E). unfold first_label. rewrite E, Z.eqb_refl. reflexivity. Qed.
(** If every section other than the default one has a single label, the emitted switch selects the same section for every value.
    Missing: sections with several labels. *)
Theorem C61_single_labels_partial sections v : partition sections -> Forall (fun s => one_label s \/ default_section s) sections -> is_long v ->
  selects sections v = cpp_selects (FormatSwitchCases sections) v.
Proof.
  intros [Wf Pt] Hs Hv. destruct (Pt v Hv) as (a & s & b & E & C & Na & Nb).
  assert (S : selects sections v = Some (body s)) by (unfold selects; rewrite E, find_app_none by exact Na; cbn [find]; rewrite C; reflexivity). rewrite S.
  set (fc := fun l : case_line * Z => match fst l with Case n => n =? v | _ => false end). set (fd := fun l : case_line * Z => match fst l with Default => true | _ => false end).
  (* a section that does not contain v is not labelled "case v" *)
  assert (NC : forall x, In x sections -> contains x v = false -> fc (first_label x, body x) = false).
  { intros x Hx Cx. destruct (proj1 (Forall_forall _ _) Hs x Hx) as [(n & L & Nn)|D]; unfold fc; cbn [fst]; [|rewrite (first_default x D); reflexivity]. rewrite (first_one x n L Nn). unfold contains in Cx. rewrite L in Cx. cbn in Cx. lia. }
  assert (Ha : Forall (fun l => fc l = false) (FormatSwitchCases a)). { apply Forall_map, Forall_forall. intros x Hx. apply NC; [rewrite E, in_app_iff; auto|exact (proj1 (Forall_forall _ _) Na x Hx)]. }
  assert (Hb : Forall (fun l => fc l = false) (FormatSwitchCases b)). { apply Forall_map, Forall_forall. intros x Hx. apply NC; [rewrite E, in_app_iff; cbn; auto|exact (proj1 (Forall_forall _ _) Nb x Hx)]. }
  assert (EF : FormatSwitchCases sections = FormatSwitchCases a ++ (first_label s, body s) :: FormatSwitchCases b) by (unfold FormatSwitchCases; rewrite E, map_app; reflexivity).
  unfold cpp_selects. fold fc fd. rewrite EF, (find_app_none fc _ _ Ha).
  assert (Hin : In s sections) by (rewrite E, in_app_iff; cbn; auto). destruct (proj1 (Forall_forall _ _) Hs s Hin) as [(n & L & Nn)|D].
  - assert (F : fc (first_label s, body s) = true -> find fc ((first_label s, body s) :: FormatSwitchCases b) = Some (first_label s, body s)) by (intros F; cbn [find]; rewrite F; reflexivity). rewrite F; [reflexivity|]. unfold fc. cbn [fst]. rewrite (first_one s n L Nn). unfold contains in C. rewrite L in C. cbn in C. lia.
  - rewrite (find_none_all fc); [|constructor; [unfold fc; cbn [fst]; rewrite (first_default s D); reflexivity|exact Hb]].
    assert (Da : Forall (fun l => fd l = false) (FormatSwitchCases a)).
    { apply Forall_map, Forall_forall. intros x Hx. unfold fd. cbn [fst]. destruct (proj1 (Forall_forall _ _) Hs x) as [(n & L & Nn)|D']; [rewrite E, in_app_iff; auto|rewrite (first_one x n L Nn); reflexivity|]. exfalso.
      (* two sections containing the least Int64 *)
      destruct (Pt long_min ltac:(unfold is_long, long_min; lia)) as (a' & s' & b' & E' & C' & Na' & Nb').
      assert (Q : forall y, In y sections -> default_section y -> contains y long_min = true).
      { intros y Hy (hi & rest & Ly). pose proof (proj1 (Forall_forall _ _) Wf y Hy) as W. cbv beta in W. rewrite Ly in W. inversion W as [|? ? W1 _]; subst. unfold contains. rewrite Ly. cbn [existsb]. unfold is_long in W1. replace (long_min <=? long_min) with true by reflexivity. replace (long_min <=? hi) with true by lia. reflexivity. }
      apply in_split in Hx. destruct Hx as (a1 & a2 & ->). rewrite E' in E.
      assert (Qx : contains x long_min = true) by (apply Q; [rewrite E', E, !in_app_iff; cbn; auto|exact D']). assert (Qs : contains s long_min = true) by (apply Q; [exact Hin|exact D]).
      assert (U : forall p q : list section, p ++ s' :: q = (a1 ++ x :: a2) ++ s :: b -> Forall (fun s => contains s long_min = false) p -> Forall (fun s => contains s long_min = false) q -> False).
      { intros p q Eq Fp Fq. assert (G : (length (filter (fun s => contains s long_min) (p ++ s' :: q)) = 1)%nat).
        { rewrite filter_app. cbn [filter]. rewrite C'. assert (Z0 : forall l, Forall (fun s => contains s long_min = false) l -> filter (fun s => contains s long_min) l = []) by (induction 1 as [|y l Hy _ IH]; [reflexivity|cbn [filter]; rewrite Hy; exact IH]). rewrite (Z0 p Fp), (Z0 q Fq). reflexivity. }
        rewrite Eq, !filter_app in G. cbn [filter] in G. rewrite Qx, Qs in G. rewrite !app_length in G. cbn [length] in G. lia. }
      exact (U a' b' E Na' Nb'). }
    rewrite (find_app_none fd _ _ Da). assert (F : fd (first_label s, body s) = true) by (unfold fd; cbn [fst]; rewrite (first_default s D); reflexivity). cbn [find]. rewrite F. reflexivity.
Qed.
(** A section with several labels keeps only the least: all other values of it go to the default section. *)
Theorem C61_several_labels_refuted : exists sections v, partition sections /\ is_long v /\ selects sections v = Some 1 /\ cpp_selects (FormatSwitchCases sections) v = Some 2.
Proof.
  exists [mk_section [(1, 2)] 1; mk_section [(long_min, 0); (3, 9223372036854775807)] 2], 2. split; [|repeat split; unfold is_long; lia]. split.
  - repeat constructor; cbn; unfold is_long, long_min; lia.
  - intros v Hv. unfold is_long in Hv. destruct ((1 <=? v) && (v <=? 2)) eqn:E.
    + exists [], (mk_section [(1, 2)] 1), [mk_section [(long_min, 0); (3, 9223372036854775807)] 2]. split; [reflexivity|]. unfold contains, long_min. cbn [labels existsb]. repeat constructor; cbn [labels existsb]; lia.
    + exists [mk_section [(1, 2)] 1], (mk_section [(long_min, 0); (3, 9223372036854775807)] 2), []. split; [reflexivity|]. unfold contains, long_min. cbn [labels existsb]. repeat constructor; cbn [labels existsb]; lia.
Qed.
(** In general: the least label of a section is kept, no other. *)
Theorem C61_lost_label_refuted s rest lo hi more v : labels s = (lo, hi) :: more -> lo <> long_min -> v <> lo -> contains s v = true -> Forall (fun x => contains x v = false /\ default_section x) rest ->
  selects (s :: rest) v = Some (body s) /\ cpp_selects (FormatSwitchCases (s :: rest)) v = match rest with [] => None | d :: _ => Some (body d) end.
Proof.
  intros L N V C R. split; [unfold selects; cbn [find]; rewrite C; reflexivity|].
  assert (FL : first_label s = Case lo) by (unfold first_label; rewrite L; replace (lo =? long_min) with false by (symmetry; apply Z.eqb_neq, N); reflexivity).
  assert (F : find (fun l : case_line * Z => match fst l with Case n => n =? v | _ => false end) (FormatSwitchCases rest) = None).
  { apply find_none_all, Forall_map. eapply Forall_impl; [|exact R]. intros x [_ D]. cbv beta. cbn [fst]. rewrite (first_default x D). reflexivity. }
  unfold cpp_selects. change (FormatSwitchCases (s :: rest)) with ((first_label s, body s) :: FormatSwitchCases rest). rewrite FL. cbn [find fst]. replace (lo =? v) with false by (symmetry; apply Z.eqb_neq; lia). rewrite F.
  destruct rest as [|d rest]; [reflexivity|]. inversion R as [|? ? [_ D] _]; subst. change (FormatSwitchCases (d :: rest)) with ((first_label d, body d) :: FormatSwitchCases rest). rewrite (first_default d D). reflexivity.
Qed.
Example C61_example : let sections := [mk_section [(7, 7)] 1; mk_section [(long_min, 6); (8, 9223372036854775807)] 2] in
  partition sections /\ Forall (fun s => one_label s \/ default_section s) sections /\ cpp_selects (FormatSwitchCases sections) 7 = Some 1 /\ cpp_selects (FormatSwitchCases sections) 8 = Some 2.
Proof.
  cbv zeta. split; [|split; [|split; reflexivity]].
  - split; [repeat constructor; cbn; unfold is_long, long_min; lia|]. intros v Hv. unfold is_long in Hv. destruct (v =? 7) eqn:E.
    + exists [], (mk_section [(7, 7)] 1), [mk_section [(long_min, 6); (8, 9223372036854775807)] 2]. split; [reflexivity|]. unfold contains, long_min. cbn [labels existsb]. repeat constructor; cbn [labels existsb]; lia.
    + exists [mk_section [(7, 7)] 1], (mk_section [(long_min, 6); (8, 9223372036854775807)] 2), []. split; [reflexivity|]. unfold contains, long_min. cbn [labels existsb]. repeat constructor; cbn [labels existsb]; lia.
  - apply Forall_cons; [left; exists 7; split; [reflexivity|unfold long_min; lia]|]. apply Forall_cons; [right; eexists _, _; reflexivity|apply Forall_nil].
Qed.

(** ** C62 *)
Scheme inst_mind := Induction for inst Sort Prop with insts_mind := Induction for insts Sort Prop with blocks_mind := Induction for blocks Sort Prop with handlers_mind := Induction for handlers Sort Prop.
Combined Scheme statement_ind from inst_mind, insts_mind, blocks_mind, handlers_mind.
(** The numbers of the labels written. *)
Fixpoint label_numbers (out : list event) : list Z :=
  match out with [] => [] | Label l _ :: r => l :: label_numbers r | _ :: r => label_numbers r end.
Lemma label_numbers_app a b : label_numbers (a ++ b) = label_numbers a ++ label_numbers b.
Proof. induction a as [|e a IH]; [reflexivity|]. cbn [app]. destruct e; cbn [label_numbers]; rewrite ?IH; reflexivity. Qed.
Lemma label_numbers_in out l : In l (label_numbers out) <-> exists c, In (Label l c) out.
Proof.
  induction out as [|e out IH]; [split; [intros []|intros (c & [])]|]. destruct e; cbn [label_numbers In]; rewrite ?IH; clear IH;
    split; intros H; repeat match goal with H : _ \/ _ |- _ => destruct H | H : exists _, _ |- _ => destruct H end; subst; try discriminate; eauto 6.
  injection H as <- <-. auto.
Qed.
(** The effect of a visit on the numbering: the stack is kept, and the labels written are fresh and different. *)
Definition fresh (s : state) (r : state * list event) : Prop :=
  leaveBlocks (fst r) = leaveBlocks s /\ blockIndex s <= blockIndex (fst r) /\ NoDup (label_numbers (snd r)) /\ Forall (fun l => blockIndex s < l <= blockIndex (fst r)) (label_numbers (snd r)).
Lemma fresh_nil s : fresh s (s, []).
Proof. repeat split; cbn; try constructor; lia. Qed.
Lemma fresh_unlabelled s out : label_numbers out = [] -> fresh s (s, out).
Proof. intros E. repeat split; cbn; rewrite ?E; try constructor; lia. Qed.
Lemma NoDup_app_ranges a b p q r : NoDup a -> NoDup b -> Forall (fun l => p < l <= q) a -> Forall (fun l => q < l <= r) b -> NoDup (a ++ b).
Proof.
  intros Na Nb Fa Fb. induction a as [|x a IH]; [exact Nb|]. cbn [app]. inversion Na; subst. inversion Fa; subst. constructor; [|apply IH; assumption].
  rewrite in_app_iff. intros [H|H]; [contradiction|]. pose proof (proj1 (Forall_forall _ _) Fb x H). cbn in *. lia.
Qed.
Lemma fresh_seq s s1 o1 s2 o2 : fresh s (s1, o1) -> fresh s1 (s2, o2) -> fresh s (s2, o1 ++ o2).
Proof.
  intros (A1 & A2 & A3 & A4) (B1 & B2 & B3 & B4). cbn [fst snd] in *. repeat split; cbn [fst snd]; [congruence|lia| |]; rewrite label_numbers_app.
  - eapply NoDup_app_ranges; eassumption.
  - apply Forall_app. split; (eapply Forall_impl; [|eassumption]); cbn; intros; lia.
Qed.
Lemma fresh_current s c r : fresh (set_current s c) r -> fresh s r.
Proof. intros H. exact H. Qed.
(** one label, the first fresh number, on top of fresh ones *)
Lemma fresh_enclosed s s1 out c with_label : fresh (NewLeaveBlock s) (s1, out) -> fresh s (ExitLeaveBlock s1, out ++ if (with_label : bool) then [Label (CurrentLeaveBlock s1) c] else []).
Proof.
  intros (A1 & A2 & A3 & A4). cbn [fst snd NewLeaveBlock blockIndex leaveBlocks] in *. unfold CurrentLeaveBlock. rewrite A1. cbn [hd].
  repeat split; cbn [fst snd ExitLeaveBlock blockIndex leaveBlocks]; [rewrite A1; reflexivity|lia| |]; rewrite label_numbers_app; destruct with_label; cbn [label_numbers]; rewrite ?app_nil_r; try assumption.
  - apply NoDup_rev in A3. rewrite <- (rev_involutive (_ ++ _)). apply NoDup_rev. rewrite rev_app_distr. cbn [rev app]. constructor; [|exact A3]. rewrite <- in_rev. intros H. pose proof (proj1 (Forall_forall _ _) A4 _ H). cbn in *. lia.
  - apply Forall_app. split; [eapply Forall_impl; [|exact A4]; cbn; intros; lia|]. repeat constructor; lia.
  - eapply Forall_impl; [|exact A4]; cbn; intros; lia.
Qed.
(** unfolding *)
Section Unfold.
Variable main : Z.
Variable injection : bool.
(** the first block of a try body or handler *)
Definition visit_first (s : state) (bs : blocks) : state * list event := match bs with BNil => (s, []) | BCons b _ => visit_block main injection s b end.
Lemma visit_container s c leaves bs : visit main injection s (Container c leaves bs) = let (s, out) := visit_blocks main injection (NewLeaveBlock (set_current s c)) bs in (ExitLeaveBlock s, out ++ if negb (c =? main) && leaves then [Label (CurrentLeaveBlock s) c] else []).
Proof. reflexivity. Qed.
Lemma visit_try s c tr hs : visit main injection s (TryCatch c tr hs) = let (s, out) := visit_first (NewLeaveBlock s) tr in let (s, out2) := visit_handlers main injection s hs in (ExitLeaveBlock s, [OpenB] ++ out ++ [CloseB] ++ out2 ++ [Label (CurrentLeaveBlock s) c]).
Proof. reflexivity. Qed.
Lemma visit_block_cons s i rest : visit_block main injection s (ICons i rest) = if skipped injection i rest then visit_block main injection s rest else let (s, out) := visit main injection s i in let (s, out2) := visit_block main injection s rest in (s, out ++ out2).
Proof. reflexivity. Qed.
Lemma visit_blocks_cons s b bs : visit_blocks main injection s (BCons b bs) = let (s, out) := visit_block main injection s b in let inj := if injection && (current s =? main) then [Inject] else [] in let (s, out2) := visit_blocks main injection s bs in (s, [OpenB] ++ out ++ inj ++ [CloseB] ++ out2).
Proof. reflexivity. Qed.
Lemma visit_handlers_cons s h hs : visit_handlers main injection s (HCons h hs) = let (s, out) := visit_first s h in let (s, out2) := visit_handlers main injection s hs in (s, [OpenB] ++ out ++ [CloseB] ++ out2).
Proof. reflexivity. Qed.
End Unfold.
Section Labels.
Variable main : Z.
Variable injection : bool.
Lemma fresh_plain s s1 out a b : label_numbers a = [] -> label_numbers b = [] -> fresh s (s1, out) -> fresh s (s1, a ++ out ++ b).
Proof. intros Ha Hb (A1 & A2 & A3 & A4). cbn [fst snd] in *. unfold fresh. cbn [fst snd]. rewrite !label_numbers_app, Ha, Hb, app_nil_r. auto. Qed.
Lemma visit_fresh : (forall i s, fresh s (visit main injection s i)) /\ (forall b s, fresh s (visit_block main injection s b)) /\
  (forall bs, (forall s, fresh s (visit_blocks main injection s bs)) /\ forall s, fresh s (visit_first main injection s bs)) /\ (forall hs s, fresh s (visit_handlers main injection s hs)).
Proof.
  apply statement_ind.
  - intros n s. apply fresh_unlabelled. reflexivity.
  - intros c zero valued s. apply fresh_unlabelled. cbn. destruct zero; reflexivity.
  - intros c leaves bs [IH _] s. rewrite visit_container. specialize (IH (NewLeaveBlock (set_current s c))). destruct (visit_blocks _ _ _ bs) as [s1 out]. exact (fresh_enclosed (set_current s c) s1 out c (negb (c =? main) && leaves) IH).
  - intros c tr [_ IHt] hs IHh s. rewrite visit_try. specialize (IHt (NewLeaveBlock s)).
    destruct (visit_first main injection (NewLeaveBlock s) tr) as [s1 o1]. specialize (IHh s1). destruct (visit_handlers _ _ s1 hs) as [s2 o2].
    replace ([OpenB] ++ o1 ++ [CloseB] ++ o2 ++ [Label (CurrentLeaveBlock s2) c]) with (([OpenB] ++ o1 ++ [CloseB]) ++ o2 ++ [Label (CurrentLeaveBlock s2) c]) by (rewrite <- !app_assoc; reflexivity). rewrite app_assoc.
    apply (fresh_enclosed _ _ _ c true). eapply fresh_seq; [apply fresh_plain; [reflexivity|reflexivity|exact IHt]|exact IHh].
  - intros tr _ fin _ s. apply fresh_nil.
  - intros s. apply fresh_nil.
  - intros i IHi is IHis s. rewrite visit_block_cons. destruct (skipped injection i is); [apply IHis|]. specialize (IHi s). destruct (visit _ _ s i) as [s1 o1]. specialize (IHis s1). destruct (visit_block _ _ s1 is) as [s2 o2]. eapply fresh_seq; eassumption.
  - split; intros s; apply fresh_nil.
  - intros b IHb bs [IHbs _]. split; [|exact IHb]. intros s. rewrite visit_blocks_cons. specialize (IHb s). destruct (visit_block _ _ s b) as [s1 o1]. specialize (IHbs s1). destruct (visit_blocks _ _ s1 bs) as [s2 o2]. cbv zeta.
    set (inj := if injection && (current s1 =? main) then [Inject] else []).
    replace ([OpenB] ++ o1 ++ inj ++ [CloseB] ++ o2) with (([OpenB] ++ o1 ++ inj ++ [CloseB]) ++ o2) by (rewrite <- !app_assoc; reflexivity).
    eapply fresh_seq; [apply fresh_plain; [reflexivity|unfold inj; destruct (injection && _); reflexivity|exact IHb]|exact IHbs].
  - intros s. apply fresh_nil.
  - intros h [_ IHb] hs IHh s. rewrite visit_handlers_cons. specialize (IHb s). destruct (visit_first main injection s h) as [s1 o1]. specialize (IHh s1). destruct (visit_handlers _ _ s1 hs) as [s2 o2].
    replace ([OpenB] ++ o1 ++ [CloseB] ++ o2) with (([OpenB] ++ o1 ++ [CloseB]) ++ o2) by (rewrite <- !app_assoc; reflexivity).
    eapply fresh_seq; [apply fresh_plain; [reflexivity|reflexivity|exact IHb]|exact IHh].
Qed.
End Labels.
(** In every method, with or without an injected statement, every leaveBlock label is written at most once. *)
Theorem C62_labels_unique main injection bs : NoDup (label_numbers (StartMainBlock main injection bs)).
Proof. unfold StartMainBlock. destruct (visit_fresh main injection) as [H _]. apply (H _ (mk_state 0 [] main)). Qed.

(** A method in which every leave, other than those of IL_0000, leaves the innermost container or try around it, and
    that container has LeaveCount > 0 and is not the method's own. *)
Fixpoint leaves_innermost (main : Z) (around : option (Z * bool)) (i : inst) : Prop :=
  match i with
  | Simple _ => True
  | LeaveTo c zero _ => zero = true \/ around = Some (c, true)
  | Container c leaves bs => block_leaves_innermost main (Some (c, negb (c =? main) && leaves)) bs
  | TryCatch c tr hs => block_leaves_innermost main (Some (c, true)) tr /\ handlers_leave_innermost main (Some (c, true)) hs
  | TryFinally _ _ => True
  end
with insts_leave_innermost (main : Z) (around : option (Z * bool)) (is : insts) : Prop :=
  match is with INil => True | ICons i is => leaves_innermost main around i /\ insts_leave_innermost main around is end
with block_leaves_innermost (main : Z) (around : option (Z * bool)) (bs : blocks) : Prop :=
  match bs with BNil => True | BCons b bs => insts_leave_innermost main around b /\ block_leaves_innermost main around bs end
with handlers_leave_innermost (main : Z) (around : option (Z * bool)) (hs : handlers) : Prop :=
  match hs with HNil => True | HCons h hs => block_leaves_innermost main around h /\ handlers_leave_innermost main around hs end.
Section Gotos.
Variable main : Z.
Variable injection : bool.
(** every goto goes to a label already written for its container, or to the one of the innermost container *)
Definition resolved (s : state) (around : option (Z * bool)) (out : list event) : Prop :=
  forall l c, In (Goto l c) out -> In (Label l c) out \/ (l = CurrentLeaveBlock s /\ around = Some (c, true)).
Lemma resolved_app s around a b : resolved s around a -> resolved s around b -> resolved s around (a ++ b).
Proof. intros A B l c. rewrite !in_app_iff. intros [H|H]; [destruct (A l c H)|destruct (B l c H)]; auto. Qed.
Lemma resolved_plain s around a : (forall l c, ~ In (Goto l c) a) -> resolved s around a.
Proof. intros H l c X. destruct (H l c X). Qed.
Lemma resolved_state s s' around a : leaveBlocks s' = leaveBlocks s -> resolved s' around a -> resolved s around a.
Proof. unfold resolved, CurrentLeaveBlock. intros ->. auto. Qed.
Lemma visit_resolved :
  (forall i s around, leaves_innermost main around i -> resolved s around (snd (visit main injection s i))) /\
  (forall b s around, insts_leave_innermost main around b -> resolved s around (snd (visit_block main injection s b))) /\
  (forall bs s around, block_leaves_innermost main around bs -> resolved s around (snd (visit_blocks main injection s bs)) /\ resolved s around (snd (visit_first main injection s bs))) /\
  (forall hs s around, handlers_leave_innermost main around hs -> resolved s around (snd (visit_handlers main injection s hs))).
Proof.
  destruct (visit_fresh main injection) as (F1 & F2 & F3 & F4).
  assert (PO : forall s around, resolved s around [OpenB]) by (intros s a; apply resolved_plain; intros l c [H|[]]; discriminate).
  assert (PC : forall s around, resolved s around [CloseB]) by (intros s a; apply resolved_plain; intros l c [H|[]]; discriminate).
  assert (PN : forall s around, resolved s around []) by (intros s a l c []).
  apply statement_ind; cbn [leaves_innermost insts_leave_innermost block_leaves_innermost handlers_leave_innermost].
  - intros n s around _ l c [H|[]]. discriminate.
  - intros c zero valued s around H l c'. cbn. unfold VisitLeave. destruct zero; [intros [X|[]]; discriminate|]. intros [X|[]]. injection X as <- <-. destruct H as [H|H]; [discriminate|]. right. auto.
  - intros c leaves bs IH s around H. rewrite visit_container. specialize (IH (NewLeaveBlock (set_current s c)) _ H). pose proof (proj1 (F3 bs) (NewLeaveBlock (set_current s c))) as F. destruct (visit_blocks _ _ _ bs) as [s1 out]. destruct IH as [IH _]. destruct F as (F & _). cbn [fst snd] in *.
    intros l c' X. rewrite in_app_iff in X. destruct X as [X|X]; [|destruct (negb (c =? main) && leaves); [destruct X as [X|[]]; discriminate|destruct X]]. destruct (IH l c' X) as [Y|[-> Y]]; [left; rewrite in_app_iff; auto|]. injection Y as -> ->. left. rewrite in_app_iff. right. left. unfold CurrentLeaveBlock. rewrite F. reflexivity.
  - intros c tr IHt hs IHh s around [Ht Hh]. rewrite visit_try. specialize (IHt (NewLeaveBlock s) _ Ht). pose proof (proj2 (F3 tr) (NewLeaveBlock s)) as Ft.
    destruct (visit_first _ _ (NewLeaveBlock s) tr) as [s1 o1]. specialize (IHh s1 _ Hh). pose proof (F4 hs s1) as Fh. destruct (visit_handlers _ _ s1 hs) as [s2 o2]. destruct IHt as [_ IHt]. destruct Ft as (Ft & _). destruct Fh as (Fh & _). cbn [fst snd] in *.
    assert (R : resolved (NewLeaveBlock s) (Some (c, true)) ([OpenB] ++ o1 ++ [CloseB] ++ o2)) by (repeat apply resolved_app; auto; eapply resolved_state; [exact Ft|exact IHh]).
    intros l c' X. assert (X' : In (Goto l c') ([OpenB] ++ o1 ++ [CloseB] ++ o2)). { rewrite !in_app_iff in X; rewrite !in_app_iff. destruct X as [X|[X|[X|[X|[X|[]]]]]]; auto. discriminate. }
    left. replace ([OpenB] ++ o1 ++ [CloseB] ++ o2 ++ [Label (CurrentLeaveBlock s2) c]) with (([OpenB] ++ o1 ++ [CloseB] ++ o2) ++ [Label (CurrentLeaveBlock s2) c]) by (rewrite <- !app_assoc; reflexivity). rewrite in_app_iff.
    destruct (R l c' X') as [Y|[-> Y]]; [auto|]. injection Y as ->. right. left. unfold CurrentLeaveBlock. rewrite Fh, Ft. reflexivity.
  - intros tr _ fin _ s around _. apply PN.
  - intros s around _. apply PN.
  - intros i IHi is IHis s around [Hi His]. rewrite visit_block_cons. destruct (skipped injection i is); [apply IHis, His|]. specialize (IHi s _ Hi). pose proof (F1 i s) as F. destruct (visit _ _ s i) as [s1 o1]. specialize (IHis s1 _ His). destruct (visit_block _ _ s1 is) as [s2 o2]. destruct F as (F & _). cbn [fst snd] in *. apply resolved_app; [exact IHi|]. eapply resolved_state; eassumption.
  - intros s around _. split; apply PN.
  - intros b IHb bs IHbs s around [Hb Hbs]. split; [|apply IHb, Hb]. rewrite visit_blocks_cons. specialize (IHb s _ Hb). pose proof (F2 b s) as F. destruct (visit_block _ _ s b) as [s1 o1]. specialize (IHbs s1 _ Hbs). destruct (visit_blocks _ _ s1 bs) as [s2 o2]. destruct F as (F & _). cbn [fst snd] in *. destruct IHbs as [IHbs _].
    repeat apply resolved_app; auto; [|eapply resolved_state; eassumption]. destruct (injection && _); [apply resolved_plain; intros l c [H|[]]; discriminate|apply PN].
  - intros s around _. apply PN.
  - intros h IHb hs IHh s around [Hh Hhs]. rewrite visit_handlers_cons. specialize (IHb s _ Hh). pose proof (proj2 (F3 h) s) as F. destruct (visit_first _ _ s h) as [s1 o1]. specialize (IHh s1 _ Hhs). destruct (visit_handlers _ _ s1 hs) as [s2 o2]. destruct F as (F & _). destruct IHb as [_ IHb]. cbn [fst snd] in *.
    repeat apply resolved_app; auto. eapply resolved_state; eassumption.
Qed.
End Gotos.
(** Then every goto has its label, written once and for the container it leaves.
    Missing: leaves of a container that is not the innermost one (refuted below). *)
Theorem C62_gotos_partial main injection bs l c : block_leaves_innermost main (Some (main, false)) bs -> In (Goto l c) (StartMainBlock main injection bs) -> In (Label l c) (StartMainBlock main injection bs).
Proof.
  intros H X. unfold StartMainBlock in *. destruct (visit_resolved main injection) as (R & _). assert (L : leaves_innermost main None (Container main false bs)) by (cbn [leaves_innermost]; rewrite Z.eqb_refl; exact H).
  destruct (R _ (mk_state 0 [] main) None L l c X) as [Y|[_ Y]]; [exact Y|discriminate].
Qed.
Example C62_example : let bs := BCons (ICons (Container 1 true (BCons (ICons (Simple 10) (ICons (LeaveTo 1 false false) INil)) BNil)) (ICons (TryCatch 2 (BCons (ICons (LeaveTo 2 false false) INil) BNil) (HCons (BCons (ICons (Simple 12) (ICons (LeaveTo 2 false false) INil)) BNil) HNil)) (ICons (LeaveTo 0 true true) INil))) BNil in
  block_leaves_innermost 0 (Some (0, false)) bs /\
  StartMainBlock 0 false bs = [OpenB; OpenB; Stmt 10; Goto 2 1; CloseB; Label 2 1; OpenB; Goto 3 2; CloseB; OpenB; Stmt 12; Goto 3 2; CloseB; Label 3 2; Return; CloseB].
Proof. split; [cbn; tauto|reflexivity]. Qed.
(** A leave of an outer container goes to the label of the innermost one, and never to its own: leaving [a] from inside
    [b] continues behind [b]. *)
Theorem C62_outer_leave_refuted main a b : a <> main -> b <> main -> a <> b -> exists bs l, In (Goto l a) (StartMainBlock main false bs) /\ In (Label l b) (StartMainBlock main false bs) /\ ~ In (Label l a) (StartMainBlock main false bs).
Proof.
  intros Ha Hb Hab. exists (BCons (ICons (Container a true (BCons (ICons (Container b true (BCons (ICons (LeaveTo a false false) INil) BNil)) INil) BNil)) INil) BNil), 3.
  assert (E : StartMainBlock main false (BCons (ICons (Container a true (BCons (ICons (Container b true (BCons (ICons (LeaveTo a false false) INil) BNil)) INil) BNil)) INil) BNil) = [OpenB; OpenB; OpenB; Goto 3 a; CloseB; Label 3 b; CloseB; Label 2 a; CloseB]).
  { unfold StartMainBlock. cbn. rewrite Z.eqb_refl. replace (a =? main) with false by (symmetry; apply Z.eqb_neq, Ha). replace (b =? main) with false by (symmetry; apply Z.eqb_neq, Hb). reflexivity. }
  rewrite E. cbn. split; [auto|]. split; [auto 10|]. intros H. repeat destruct H as [H|H]; try discriminate; try contradiction. injection H as H. congruence.
Qed.
(** From a container without leaves of its own the label does not exist at all: the output does not compile. *)
Theorem C62_missing_label_refuted main a b : a <> main -> b <> main -> exists bs l, In (Goto l a) (StartMainBlock main false bs) /\ forall c, ~ In (Label l c) (StartMainBlock main false bs).
Proof.
  intros Ha Hb. exists (BCons (ICons (Container a true (BCons (ICons (Container b false (BCons (ICons (LeaveTo a false false) INil) BNil)) INil) BNil)) INil) BNil), 3.
  assert (E : StartMainBlock main false (BCons (ICons (Container a true (BCons (ICons (Container b false (BCons (ICons (LeaveTo a false false) INil) BNil)) INil) BNil)) INil) BNil) = [OpenB; OpenB; OpenB; Goto 3 a; CloseB; CloseB; Label 2 a; CloseB]).
  { unfold StartMainBlock. cbn. rewrite Z.eqb_refl. replace (a =? main) with false by (symmetry; apply Z.eqb_neq, Ha). replace (b =? main) with false by (symmetry; apply Z.eqb_neq, Hb). reflexivity. }
  rewrite E. cbn. split; [auto|]. intros c H. repeat destruct H as [H|H]; try discriminate; contradiction.
Qed.
(** Leaving a nested container that begins at IL_0000 (a loop at the start of a method) is written as a return. *)
Theorem C62_entry_loop_refuted main a valued : a <> main -> exists after, StartMainBlock main false (BCons (ICons (Container a true (BCons (ICons (LeaveTo a true valued) INil) BNil)) (ICons (Simple after) INil)) BNil) = [OpenB; OpenB; Return; CloseB; Label 2 a; Stmt after; CloseB].
Proof. intros Ha. exists 5. unfold StartMainBlock. cbn. rewrite Z.eqb_refl. replace (a =? main) with false by (symmetry; apply Z.eqb_neq, Ha). reflexivity. Qed.

(** ** C73: no statement is lost *)
(** The simple statements of a method, in order, and those of the output. *)
Fixpoint statements (i : inst) : list Z :=
  match i with
  | Simple n => [n] | LeaveTo _ _ _ => []
  | Container _ _ bs => blocks_statements bs
  | TryCatch _ tr hs => blocks_statements tr ++ handlers_statements hs
  | TryFinally tr fin => blocks_statements tr ++ blocks_statements fin
  end
with insts_statements (is : insts) : list Z := match is with INil => [] | ICons i is => statements i ++ insts_statements is end
with blocks_statements (bs : blocks) : list Z := match bs with BNil => [] | BCons b bs => insts_statements b ++ blocks_statements bs end
with handlers_statements (hs : handlers) : list Z := match hs with HNil => [] | HCons h hs => blocks_statements h ++ handlers_statements hs end.
Fixpoint written (out : list event) : list Z := match out with [] => [] | Stmt n :: r => n :: written r | _ :: r => written r end.
Lemma written_app a b : written (a ++ b) = written a ++ written b.
Proof. induction a as [|e a IH]; [reflexivity|]. cbn [app]. destruct e; cbn [written]; rewrite ?IH; reflexivity. Qed.
(** Every try body and handler is one block, and there is no try-finally. *)
Definition one_block (bs : blocks) : Prop := match bs with BCons _ BNil => True | _ => False end.
Fixpoint simple_tries (i : inst) : Prop :=
  match i with
  | Simple _ | LeaveTo _ _ _ => True
  | Container _ _ bs => blocks_simple bs
  | TryCatch _ tr hs => one_block tr /\ blocks_simple tr /\ handlers_simple hs
  | TryFinally _ _ => False
  end
with insts_simple (is : insts) : Prop := match is with INil => True | ICons i is => simple_tries i /\ insts_simple is end
with blocks_simple (bs : blocks) : Prop := match bs with BNil => True | BCons b bs => insts_simple b /\ blocks_simple bs end
with handlers_simple (hs : handlers) : Prop := match hs with HNil => True | HCons h hs => one_block h /\ blocks_simple h /\ handlers_simple hs end.
Section Lost.
Variable main : Z.
Variable injection : bool.
Lemma visit_written :
  (forall i s, simple_tries i -> written (snd (visit main injection s i)) = statements i) /\
  (forall b s, insts_simple b -> written (snd (visit_block main injection s b)) = insts_statements b) /\
  (forall bs, blocks_simple bs -> (forall s, written (snd (visit_blocks main injection s bs)) = blocks_statements bs) /\ (one_block bs -> forall s, written (snd (visit_first main injection s bs)) = blocks_statements bs)) /\
  (forall hs s, handlers_simple hs -> written (snd (visit_handlers main injection s hs)) = handlers_statements hs).
Proof.
  apply statement_ind; cbn [simple_tries insts_simple blocks_simple handlers_simple statements insts_statements blocks_statements handlers_statements].
  - reflexivity.
  - intros c zero valued s _. cbn. destruct zero; reflexivity.
  - intros c leaves bs IH s H. rewrite visit_container. destruct (IH H) as [IH' _]. specialize (IH' (NewLeaveBlock (set_current s c))). destruct (visit_blocks _ _ _ bs) as [s1 out]. cbn [snd] in *. rewrite written_app, IH'. destruct (negb (c =? main) && leaves); apply app_nil_r.
  - intros c tr IHt hs IHh s (Ho & Ht & Hh). rewrite visit_try. pose proof (proj2 (IHt Ht) Ho (NewLeaveBlock s)) as X.
    destruct (visit_first _ _ (NewLeaveBlock s) tr) as [s1 o1]. specialize (IHh s1 Hh). destruct (visit_handlers _ _ s1 hs) as [s2 o2]. cbn [snd] in *. rewrite !written_app, X, IHh. cbn [written]. rewrite app_nil_r. reflexivity.
  - intros tr _ fin _ s [].
  - reflexivity.
  - intros i IHi is IHis s [Hi His]. rewrite visit_block_cons. destruct (skipped injection i is) eqn:K.
    + destruct i; try discriminate. cbn [statements app]. apply IHis, His.
    + specialize (IHi s Hi). destruct (visit _ _ s i) as [s1 o1]. specialize (IHis s1 His). destruct (visit_block _ _ s1 is) as [s2 o2]. cbn [snd] in *. rewrite written_app, IHi, IHis. reflexivity.
  - intros _. split; reflexivity.
  - intros b IHb bs IHbs [Hb Hbs]. split.
    + intros s. rewrite visit_blocks_cons. specialize (IHb s Hb). destruct (visit_block _ _ s b) as [s1 o1]. destruct (IHbs Hbs) as [X _]. specialize (X s1). destruct (visit_blocks _ _ s1 bs) as [s2 o2]. cbn [snd] in *. rewrite !written_app, IHb, X. destruct (injection && _); reflexivity.
    + intros O s. destruct bs; [|destruct O]. cbn [visit_first blocks_statements]. rewrite app_nil_r. apply IHb, Hb.
  - reflexivity.
  - intros h IHb hs IHh s (Ho & Hh & Hhs). rewrite visit_handlers_cons. pose proof (proj2 (IHb Hh) Ho s) as X. destruct (visit_first _ _ s h) as [s1 o1]. specialize (IHh s1 Hhs). destruct (visit_handlers _ _ s1 hs) as [s2 o2]. cbn [snd] in *. rewrite !written_app, X, IHh. reflexivity.
Qed.
End Lost.
(** Every statement of the method is written exactly once and in order.
    Missing: try-finally, and try bodies or handlers of several blocks (refuted below). *)
Theorem C73_all_written_partial main injection bs : blocks_simple bs -> written (StartMainBlock main injection bs) = blocks_statements bs.
Proof. intros H. unfold StartMainBlock. exact (proj1 (visit_written main injection) (Container main false bs) (mk_state 0 [] main) H). Qed.
(** Every try-finally disappears with its body. *)
Theorem C73_finally_refuted main injection s tr fin : visit main injection s (TryFinally tr fin) = (s, []).
Proof. reflexivity. Qed.
(** A try body of several blocks (one that contains a loop or an if-else with a join, say) is cut after its first block. *)
Theorem C73_try_cut_refuted main injection s c b bs hs : simple_tries (TryCatch c (BCons b BNil) hs) -> written (snd (visit main injection s (TryCatch c (BCons b bs) hs))) = insts_statements b ++ handlers_statements hs.
Proof. intros H. pose proof (proj1 (visit_written main injection) _ s H) as X. cbn [statements blocks_statements] in X. rewrite app_nil_r in X. exact X. Qed.
Example C73_example : let bs := BCons (ICons (Simple 1) (ICons (TryCatch 2 (BCons (ICons (Simple 2) INil) BNil) (HCons (BCons (ICons (Simple 3) INil) BNil) HNil)) INil)) (BCons (ICons (Simple 4) INil) BNil) in
  blocks_simple bs /\ written (StartMainBlock 0 true bs) = [1; 2; 3; 4] /\ written (StartMainBlock 0 true (BCons (ICons (TryFinally bs bs) INil) BNil)) = [].
Proof. cbv zeta. split; [cbn; tauto|split; reflexivity]. Qed.

(** ** C74: the injected return of static constructors *)
(** A method's main block contains no nested container directly or below. *)
Fixpoint no_container (i : inst) : Prop :=
  match i with
  | Container _ _ _ => False
  | TryCatch _ tr hs => blocks_no_container tr /\ handlers_no_container hs
  | _ => True
  end
with insts_no_container (is : insts) : Prop := match is with INil => True | ICons i is => no_container i /\ insts_no_container is end
with blocks_no_container (bs : blocks) : Prop := match bs with BNil => True | BCons b bs => insts_no_container b /\ blocks_no_container bs end
with handlers_no_container (hs : handlers) : Prop := match hs with HNil => True | HCons h hs => blocks_no_container h /\ handlers_no_container hs end.
Lemma visit_current main injection :
  (forall i s, no_container i -> current (fst (visit main injection s i)) = current s) /\
  (forall b s, insts_no_container b -> current (fst (visit_block main injection s b)) = current s) /\
  (forall bs s, blocks_no_container bs -> current (fst (visit_first main injection s bs)) = current s) /\
  (forall hs s, handlers_no_container hs -> current (fst (visit_handlers main injection s hs)) = current s).
Proof.
  apply statement_ind; cbn [no_container insts_no_container blocks_no_container handlers_no_container]; try reflexivity.
  - intros c leaves bs _ s [].
  - intros c tr IHt hs IHh s [Ht Hh]. rewrite visit_try. specialize (IHt (NewLeaveBlock s) Ht).
    destruct (visit_first _ _ (NewLeaveBlock s) tr) as [s1 o1]. specialize (IHh s1 Hh). destruct (visit_handlers _ _ s1 hs) as [s2 o2]. cbn [fst ExitLeaveBlock current NewLeaveBlock] in *. congruence.
  - intros i IHi is IHis s [Hi His]. rewrite visit_block_cons. destruct (skipped injection i is); [apply IHis, His|]. specialize (IHi s Hi). destruct (visit _ _ s i) as [s1 o1]. specialize (IHis s1 His). destruct (visit_block _ _ s1 is) as [s2 o2]. cbn [fst] in *. congruence.
  - intros b IHb bs _ s [Hb _]. exact (IHb s Hb).
  - intros h IHb hs IHh s [Hh Hhs]. rewrite visit_handlers_cons. specialize (IHb s Hh). destruct (visit_first _ _ s h) as [s1 o1]. specialize (IHh s1 Hhs). destruct (visit_handlers _ _ s1 hs) as [s2 o2]. cbn [fst] in *. congruence.
Qed.
(** The output of a static constructor whose body is one block: it ends in the injected statement, if no nested container occurs.
    Missing: nested containers (refuted below). *)
Theorem C74_injected_partial main b : insts_no_container b -> exists out, StartMainBlock main true (BCons b BNil) = OpenB :: out ++ [Inject; CloseB].
Proof.
  intros H. unfold StartMainBlock. rewrite visit_container, visit_blocks_cons. pose proof (proj1 (proj2 (visit_current main true)) b (NewLeaveBlock (set_current (mk_state 0 [] main) main)) H) as C.
  destruct (visit_block _ _ _ b) as [s1 o1]. cbn [fst NewLeaveBlock set_current current] in C. exists o1. cbn [andb snd]. rewrite C, Z.eqb_refl. change (visit_blocks main true s1 BNil) with (s1, @nil event). cbn [negb andb app snd]. rewrite ?app_nil_r. reflexivity.
Qed.
(** A loop in a static constructor suppresses the injected return, and the constructor's own return is dropped as well: the output ends without either. *)
Theorem C74_loop_refuted main a leaves n : a <> main -> StartMainBlock main true (BCons (ICons (Container a leaves BNil) (ICons (Simple n) (ICons (LeaveTo main true false) INil))) BNil) = [OpenB] ++ (if leaves then [Label 2 a] else []) ++ [Stmt n; CloseB].
Proof. intros Ha. unfold StartMainBlock. cbn. rewrite Z.eqb_refl. replace (a =? main) with false by (symmetry; apply Z.eqb_neq, Ha). cbn. destruct leaves; reflexivity. Qed.
Example C74_example : insts_no_container (ICons (Simple 1) (ICons (LeaveTo 0 true false) INil)) /\ StartMainBlock 0 true (BCons (ICons (Simple 1) (ICons (LeaveTo 0 true false) INil)) BNil) = [OpenB; Stmt 1; Inject; CloseB].
Proof. split; [cbn; tauto|reflexivity]. Qed.

Print Assumptions C60_only_one_partial.
Print Assumptions C61_single_labels_partial.
Print Assumptions C62_labels_unique.
Print Assumptions C62_gotos_partial.
Print Assumptions C73_all_written_partial.
Print Assumptions C74_injected_partial.
