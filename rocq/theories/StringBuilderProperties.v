(** * C42-C45: StringBuilder.  [op], [behaves], [history] and [content] are in StringBuilderSpec.v;
    [step] and [run] in StringBuilderHistory.v dispatch to the modelled member functions. *)
From Verif Require Import Base Tac MemModel StringBuilderModel StringBuilderSpec StringBuilderProofs StringBuilderHistory.

(** A builder just constructed, holding [s]. *)
Definition constructed (b : sb) (s : list Z) : Prop :=
  (exists c mx, mx <= 2147483647 /\ SB_new c mx = Ret b /\ s = []) \/
  (exists t i n c, zlen t <= 2147483647 /\ c <= 2147483647 /\ SB_from (Some t) i n c = Ret b /\ s = part t i n).
Lemma constructed_inv b s : constructed b s -> inv b /\ content b = s /\ clean b.
Proof.
  intros [(c & mx & H1 & H2 & ->)|(t & i & n & c & H1 & H2 & H3 & ->)].
  - pose proof (SB_new_spec c mx H1) as S. rewrite H2 in S. tauto.
  - pose proof (SB_from_spec t i n c H1 H2) as S. rewrite H3 in S. tauto.
Qed.

(** C42: over every history of operations that runs without undefined behaviour, every result,
    exception and the final text are those of the same operations on a plain list of characters.
    Missing from the full claim: histories that overrun the buffer (C43_append_char_overruns_refuted),
    and [behaves] records two deviations from .NET that the code has: Insert of an empty string
    throws, and an Insert of several copies that becomes too long keeps the copies already made. *)
Theorem C42_history_partial : forall tolerant b0 s ops b results, constructed b0 s -> Forall admissible ops ->
  run tolerant b0 ops = Ret (b, results) ->
  history (maxc b0) ops s results (content b) /\ SB_ToString b = Ret (content b) /\ zlen (content b) = len b.
Proof.
  intros tol b0 s ops b rs H A R. destruct (constructed_inv b0 s H) as (I & C & _).
  destruct (run_spec tol ops b0 b rs I A R) as (I' & _ & Hh). rewrite C in Hh.
  split; [exact Hh|]. split; [apply ToString_spec; exact I'|apply len_content; exact I'].
Qed.
Print Assumptions C42_history_partial.
(** Every single operation, from any state any history can reach, either meets its list semantics or
    is undefined behaviour; exceptions never escape the description. *)
Theorem C42_step_partial : forall tolerant b0 s ops b results o, constructed b0 s -> Forall admissible ops -> admissible o ->
  run tolerant b0 ops = Ret (b, results) ->
  (exists b' r, step tolerant b o = Ret (b', r) /\ behaves (maxc b0) o (content b) r (content b')) \/ exists u, step tolerant b o = UB u.
Proof.
  intros tol b0 s ops b rs o H A Ao R. destruct (constructed_inv b0 s H) as (I & C & _).
  destruct (run_spec tol ops b0 b rs I A R) as (I' & M & Hh). pose proof (step_spec tol b o I' Ao) as S.
  destruct (step tol b o) as [[b' r]|e|u]; [left; exists b', r; rewrite <- M; tauto|contradiction|right; eexists; reflexivity].
Qed.
Print Assumptions C42_step_partial.
Example C42_example : exists b0 b, SB_default = Ret b0 /\
  run true b0 [AppendText [97; 98]; AppendChar 99 2; InsertString 1 [120; 121] 2; RemoveChars 0 1; ReplaceString [99] [122; 122; 122] 0 7; SetChar 9 0]
    = Ret (b, [None; None; None; None; None; None]) /\
  content b = [120; 121; 120; 121; 98; 122; 122; 122; 122; 0] ++ [122] /\ constructed b0 [].
Proof.
  eexists. eexists. split; [reflexivity|]. split; [|split].
  - vm_compute. reflexivity.
  - reflexivity.
  - left. exists DefaultCapacity, MaximumCapacity. split; [cbv; discriminate|]. split; reflexivity.
Qed.
(** Insert at -1, which .NET rejects, appends. *)
Theorem C42_insert_before_start_refuted : exists b b', SB_of_string (Some [97; 98]) 0 = Ret b /\
  SB_Insert b (-1) (Some [120]) 1 = Ret (b', None) /\ content b' = [97; 98; 120].
Proof. eexists. eexists. split; [reflexivity|]. split; reflexivity. Qed.
Print Assumptions C42_insert_before_start_refuted.
(** Insert at any position before -1 is undefined behaviour, in every state that has room. *)
Theorem C42_insert_negative_refuted : forall b t i, inv b -> zlen t <= 2147483647 -> len b + zlen t <= Z.min (maxc b) 2147483520 -> i < -1 -> len b <> 0 ->
  exists u, SB_Insert_value b i t = UB u.
Proof.
  intros b t i I Ht L Hi Hl. pose proof (len_bound b I) as Bl. pose proof (zlen_nonneg t) as Pt.
  unfold SB_Insert_value, Append_value, Append_at. replace (i =? -1) with false by lia. rewrite throw_if_false by lia. rewrite bind_ret.
  unfold EnsureRoomFor. rewrite i32_ret by lia. rewrite bind_ret. pose proof (EnsureCapacity_spec b (len b + zlen t) I) as S.
  destruct (EnsureCapacity b (len b + zlen t)) as [b1|e|u]; cbn [bind]; [|lia|eexists; reflexivity].
  destruct S as (_ & _ & L1 & _). rewrite L1. replace (i =? len b) with false by lia. cbn [negb]. unfold memmove_self, memread.
  replace (len b - i <? 0) with false by lia. replace (i <? 0) with true by lia. cbn [orb bind]. eexists. reflexivity.
Qed.
Print Assumptions C42_insert_negative_refuted.
(** Insert of an empty string throws instead of doing nothing. *)
Theorem C42_insert_empty_refuted : forall b i count, 0 < count -> SB_Insert b i (Some []) count = Ret (b, Some IndexOutOfRangeException).
Proof. intros b i count H. unfold SB_Insert. destruct (Z.to_nat count) eqn:E; [lia|]. reflexivity. Qed.
Print Assumptions C42_insert_empty_refuted.
(** A string constructor of the empty string throws as well. *)
Theorem C42_from_empty_refuted : forall c, 0 <= c <= 2147483520 -> SB_of_string (Some []) c = Exn IndexOutOfRangeException.
Proof.
  intros c H. change (SB_from (Some []) 0 0 c = Exn IndexOutOfRangeException). pose proof (SB_from_spec [] 0 0 c ltac:(cbv; discriminate) ltac:(lia)) as S.
  change (zlen (@nil Z)) with 0 in *. destruct (SB_from (Some []) 0 0 c) as [b|e|u]; [lia| |lia]. destruct S as [(_ & S)|(-> & _)]; [lia|reflexivity].
Qed.
Print Assumptions C42_from_empty_refuted.
(** Remove is undefined behaviour (overlapping memcpy) whenever more characters follow than are removed. *)
Theorem C42_remove_overlap_refuted : forall b i n, inv b -> 0 <= i -> 0 <= n -> i + n + n < len b -> SB_Remove false b i n = UB OverlappingCopy.
Proof.
  intros b i n I Hi Hn H. unfold SB_Remove. do 3 (rewrite throw_if_false by lia; rewrite bind_ret).
  unfold memcpy_overlap, memcpy_self. replace (len b - i - n <? 0) with false by lia.
  replace ((0 <? len b - i - n) && (i <? i + n + (len b - i - n)) && (i + n <? i + (len b - i - n))) with true by lia. reflexivity.
Qed.
Print Assumptions C42_remove_overlap_refuted.

(** C43: after any history that did not change the capacity by hand, from a builder of capacity at
    least 128: 0 <= Length <= Capacity <= MaxCapacity + 127, the text and its terminator lie inside
    the block.  Missing: Capacity <= MaxCapacity itself (refuted below), capacities set by hand or
    constructed below 128 (refuted below), and freedom from overruns, which needs C43_no_overrun_partial. *)
Theorem C43_length_within_capacity_partial : forall tolerant b0 s ops b results,
  constructed b0 s -> 128 <= cap b0 -> Forall admissible ops -> (forall n, ~ In (SetCap n) ops) ->
  run tolerant b0 ops = Ret (b, results) ->
  0 <= len b <= cap b /\ cap b + 1 = zlen (mem b) /\ (cap b = cap b0 \/ cap b <= maxc b + 127) /\ maxc b = maxc b0.
Proof.
  intros tol b0 s ops b rs H Hc A N R. destruct (constructed_inv b0 s H) as (I & _ & _).
  destruct (run_spec tol ops b0 b rs I A R) as (I' & M & _).
  assert (G : grows b0 b).
  { clear - N R. revert b0 rs N R. induction ops as [|o ops IH]; intros b0 rs N R; cbn [run] in R; [injection R as <- <-; apply grows_refl|].
    destruct (step tol b0 o) as [[b1 r]|e|u] eqn:E; cbn [bind] in R; [|discriminate|discriminate].
    destruct (run tol b1 ops) as [[b2 rs2]|e|u] eqn:E2; cbn [bind] in R; [|discriminate|discriminate]. injection R as <- <-.
    eapply grows_trans; [eapply step_grows; [|exact E]|eapply IH; [|exact E2]].
    - intros n ->. apply (N n). left. reflexivity.
    - intros n Hn. apply (N n). right. exact Hn. }
  destruct G as (G1 & G2 & G3). destruct I' as (J1 & J2 & J3 & J4 & J5 & J6 & J7). split; [destruct (internal b); lia|]. split; [destruct (internal b); lia|]. split; [lia|exact M].
Qed.
Print Assumptions C43_length_within_capacity_partial.
(** C43: no operation has undefined behaviour as long as the total stays within 2147483520 characters,
    the room for repeated characters and line ends is already there, and (where memcpy does not
    tolerate overlap) Remove moves no more characters than it removes. *)
Inductive roomy_run (tolerant : bool) : sb -> list op -> Prop :=
| rr_nil b : roomy_run tolerant b []
| rr_cons b o os : roomy tolerant b o -> (forall b' r, step tolerant b o = Ret (b', r) -> roomy_run tolerant b' os) -> roomy_run tolerant b (o :: os).
Theorem C43_no_overrun_partial : forall tolerant b0 s ops, constructed b0 s -> Forall admissible ops -> roomy_run tolerant b0 ops ->
  exists b results, run tolerant b0 ops = Ret (b, results).
Proof.
  intros tol b0 s ops H A R. destruct (constructed_inv b0 s H) as (I & _ & _). clear H. revert b0 I R.
  induction A as [|o ops Ao As IH]; intros b0 I R; [eexists; eexists; reflexivity|]. inversion R as [|? ? ? Ro Rs]; subst.
  destruct (step_progress tol b0 o I Ao Ro) as (b1 & r & E). cbn [run]. rewrite E. cbn [bind].
  pose proof (step_spec tol b0 o I Ao) as S. rewrite E in S. destruct S as (I1 & _).
  destruct (IH b1 I1 (Rs b1 r E)) as (b & rs & ->). cbn [bind]. eexists; eexists; reflexivity.
Qed.
Print Assumptions C43_no_overrun_partial.
Example C43_example : exists b0, SB_default = Ret b0 /\ constructed b0 [] /\ cap b0 = 128 /\
  roomy_run true b0 [AppendChar 97 128; AppendText [98]; RemoveChars 3 100].
Proof.
  eexists. split; [reflexivity|]. split; [left; exists DefaultCapacity, MaximumCapacity; split; [cbv; discriminate|split; reflexivity]|]. split; [reflexivity|].
  constructor; [cbv; split; discriminate|]. intros b1 r1 H1. vm_compute in H1. injection H1 as <- <-.
  constructor; [cbv; discriminate|]. intros b2 r2 H2. vm_compute in H2. injection H2 as <- <-.
  constructor; [left; reflexivity|]. intros b3 r3 _. constructor.
Qed.
(** Appending one character to a full builder always writes past the block. *)
Theorem C43_append_char_overruns_refuted : forall tolerant b0 s ops b results c,
  constructed b0 s -> 128 <= cap b0 -> Forall admissible ops -> (forall n, ~ In (SetCap n) ops) ->
  run tolerant b0 ops = Ret (b, results) -> len b = cap b -> Append_char b c 1 = UB OutOfBoundsWrite.
Proof.
  intros tol b0 s ops b rs c H Hc A N R F. destruct (C43_length_within_capacity_partial tol b0 s ops b rs H Hc A N R) as (L & Z & _).
  destruct (constructed_inv b0 s H) as (I & _ & _). destruct (run_spec tol ops b0 b rs I A R) as (I' & M & _).
  pose proof (Append_char_spec b c 1 I') as S. destruct (Append_char b c 1) as [b'|e|u] eqn:E.
  - exfalso. destruct S as (_ & I1 & _ & _ & L1 & _). destruct I1 as (_ & L2 & _).
    assert (E' : zlen (mem b') = zlen (mem b)).
    { unfold Append_char in E. change (1 <? 0) with false in E. cbn [throw_if bind] in E. unfold EnsureCapacity in E. change (1 <? 0) with false in E. cbn [throw_if bind] in E.
      assert (Hcap : 128 <= cap b). { destruct (C43_length_within_capacity_partial tol b0 s ops b rs H Hc A N R) as (_ & _ & _ & _). 
        assert (G : internal b = true -> zlen (mem b) = 129) by (destruct I' as (_ & _ & _ & J4 & _); destruct (internal b); [intros _; exact J4|discriminate]).
        destruct I' as (_ & _ & _ & J4 & _ & J6 & _). destruct (internal b); lia. }
      replace (cap b <? 1) with false in E by lia. cbn [bind append_char_loop] in E. change (Z.to_nat 1) with 1%nat in E. cbn [append_char_loop] in E.
      unfold write in E at 1. destruct ((len b <? 0) || (Z.of_nat (length (mem b)) <=? len b)) eqn:W; cbn [bind] in E; [discriminate|].
      unfold write in E. destruct ((len b + 1 <? 0) || (Z.of_nat (length (upd (mem b) (Z.to_nat (len b)) c)) <=? len b + 1)) eqn:W2; cbn [bind] in E; [discriminate|].
      injection E as <-. cbn [set_mem mem]. unfold zlen. rewrite !upd_len. reflexivity. }
    lia.
  - destruct S as (_ & S). destruct I' as (_ & _ & _ & _ & _ & _ & M'). lia.
  - destruct S as [(_ & S)|(-> & _)]; [|reflexivity]. lia.
Qed.
Print Assumptions C43_append_char_overruns_refuted.
(** In particular 129 single-character appends to a new builder. *)
Theorem C43_129_appends_refuted : exists b0, SB_default = Ret b0 /\ run true b0 (repeat (AppendChar 97 1) 129) = UB OutOfBoundsWrite.
Proof. eexists. split; [reflexivity|]. vm_compute. reflexivity. Qed.
Print Assumptions C43_129_appends_refuted.
(** A builder may be given a capacity above its maximum capacity, by its own constructor ... *)
Theorem C43_capacity_above_maximum_refuted : exists b, SB_new 200 200 = Ret b /\ cap b = 256 /\ maxc b = 200.
Proof. eexists. split; [vm_compute; reflexivity|]. split; reflexivity. Qed.
Print Assumptions C43_capacity_above_maximum_refuted.
(** ... and a capacity below its length is accepted. *)
Theorem C43_capacity_below_length_refuted : exists b b', SB_of_string (Some [97; 98; 99]) 0 = Ret b /\ set_Capacity b 1 = Ret b' /\ cap b' < len b'.
Proof. eexists. eexists. split; [reflexivity|]. split; reflexivity. Qed.
Print Assumptions C43_capacity_below_length_refuted.
(** Asking for more than 2147483520 characters overflows the rounding arithmetic. *)
Theorem C43_capacity_rounding_refuted : forall c, 2147483520 < c <= 2147483647 -> SB_capacity c = UB SignedOverflow.
Proof.
  intros c H. unfold SB_capacity, MaximumCapacity. pose proof (SB_new_spec c 2147483647 ltac:(lia)) as S. destruct (SB_new c 2147483647) as [b|e|u].
  - destruct S as (I & _ & _ & _ & _ & S & _). destruct I as (_ & _ & _ & _ & I & _). lia.
  - lia.
  - destruct S as (-> & _). reflexivity.
Qed.
Print Assumptions C43_capacity_rounding_refuted.

(** C44: setting Length keeps the first min(n, Length) characters; what is added is NUL when the
    history used no Remove, Replace(String) or hand-set capacity.  Missing: builders whose buffer holds
    erased characters (refuted below). *)
Theorem C44_length_partial : forall tolerant b0 s ops b results n, constructed b0 s -> 128 <= cap b0 -> Forall admissible ops ->
  run tolerant b0 ops = Ret (b, results) ->
  match set_Length b n with
  | Ret b' => 0 <= n <= maxc b /\ len b' = n /\ SB_ToString b' = Ret (content b') /\
      (n <= len b -> content b' = firstn (Z.to_nat n) (content b)) /\
      (len b <= n -> exists x, content b' = content b ++ x /\ zlen x = n - len b /\
         ((forall k, ~ In (SetCap k) ops) -> Forall keeps_clean ops -> Forall (fun c => c = 0) x))
  | Exn e => e = ArgumentOutOfRangeException /\ (n < 0 \/ maxc b < n)
  | UB u => u = SignedOverflow /\ 2147483520 < n
  end.
Proof.
  intros tol b0 s ops b rs n H Hc A R. destruct (constructed_inv b0 s H) as (I & _ & Cl).
  destruct (run_spec tol ops b0 b rs I A R) as (I' & M & _). pose proof (set_Length_spec b n I') as S.
  destruct (set_Length b n) as [b'|e|u]; [|exact S|].
  2:{ split; [tauto|lia]. }
  destruct S as (S0 & S1 & S2 & S3 & S4 & S5 & _). split; [exact S0|]. split; [exact S2|]. split; [apply ToString_spec; exact S1|]. split; [exact S4|].
  intros L. destruct (S5 L) as (x & E & Lx & Cx). exists x. split; [exact E|]. split; [exact Lx|]. intros N K. apply Cx.
  clear - N R Hc I Cl A K. revert b0 rs N R Hc I Cl. induction K as [|o ops Ko K IH]; intros b0 rs N R Hc I Cl; cbn [run] in R; [injection R as <- <-; exact Cl|].
  inversion A as [|? ? Ao As]; subst. destruct (step tol b0 o) as [[b1 r]|e|u] eqn:E1; cbn [bind] in R; [|discriminate|discriminate].
  destruct (run tol b1 ops) as [[b2 rs2]|e|u] eqn:E2; cbn [bind] in R; [|discriminate|discriminate]. injection R as <- <-.
  pose proof (step_spec tol b0 o I Ao) as S. rewrite E1 in S. destruct S as (I1 & _).
  assert (G : grows b0 b1) by (eapply step_grows; [|exact E1]; intros k ->; apply (N k); left; reflexivity).
  eapply (IH As b1 rs2); [intros k Hk; apply (N k); right; exact Hk|exact E2|destruct G as (_ & G & _); lia|exact I1|].
  apply (step_both tol b0 o b1 r I Ao ltac:(lia) E1); [exact Ko| |exact Cl].
  destruct I as (J1 & J2 & J3 & J4 & J5 & J6 & J7). destruct (internal b0); lia.
Qed.
Print Assumptions C44_length_partial.
Example C44_example : exists b b', SB_of_string (Some [97; 98; 99]) 0 = Ret b /\ cap b = 128 /\ set_Length b 5 = Ret b' /\ content b' = [97; 98; 99; 0; 0].
Proof. eexists. eexists. split; [reflexivity|]. split; [reflexivity|]. split; reflexivity. Qed.
(** Growing again after a Remove brings erased characters back. *)
Theorem C44_stale_characters_refuted : exists b b1 b2, SB_of_string (Some [97; 98; 99; 100; 101]) 0 = Ret b /\
  SB_Remove true b 2 3 = Ret b1 /\ set_Length b1 5 = Ret b2 /\ content b2 = [97; 98; 0; 100; 101].
Proof. eexists. eexists. eexists. split; [reflexivity|]. split; [reflexivity|]. split; reflexivity. Qed.
Print Assumptions C44_stale_characters_refuted.

(** C45: two builders with equal Capacity and MaxCapacity and NUL-free text, produced by any histories
    that never grew Length by hand, are Equal exactly when they hold the same text.  Missing: builders
    of different capacity and texts with NUL characters (both refuted below). *)
Fixpoint no_growth (tolerant : bool) (b : sb) (os : list op) : Prop :=
  match os with
  | [] => True
  | o :: os => keeps_terminated b o /\ (forall n, o <> SetCap n) /\ forall b' r, step tolerant b o = Ret (b', r) -> no_growth tolerant b' os
  end.
Lemma run_terminated tol os : forall b b' rs, inv b -> 0 < cap b -> terminated b -> Forall admissible os -> no_growth tol b os ->
  run tol b os = Ret (b', rs) -> inv b' /\ terminated b'.
Proof.
  induction os as [|o os IH]; intros b b' rs I Hc T A N R; cbn [run] in R; [injection R as <- <-; split; assumption|].
  inversion A as [|? ? Ao As]; subst. destruct N as (K & NC & N). destruct (step tol b o) as [[b1 r]|e|u] eqn:E1; cbn [bind] in R; [|discriminate|discriminate].
  destruct (run tol b1 os) as [[b2 rs2]|e|u] eqn:E2; cbn [bind] in R; [|discriminate|discriminate]. injection R as <- <-.
  pose proof (step_spec tol b o I Ao) as S. rewrite E1 in S. destruct S as (I1 & _).
  pose proof (step_grows tol b o b1 r NC E1) as (_ & G & _).
  eapply (IH b1); [exact I1|lia| |exact As|exact (N _ _ eq_refl)|exact E2].
  apply (step_both tol b o b1 r I Ao Hc E1); assumption.
Qed.
Lemma clean_terminated b : inv b -> clean b -> terminated b.
Proof.
  intros I C. destruct (inv_split b I) as (r & E & L & N & _). unfold clean, terminated in *. rewrite E in *.
  rewrite skipn_zlen in * by (unfold zlen in L; lia). destruct r; [contradiction|]. inversion C; subst. reflexivity.
Qed.
Theorem C45_equality_partial : forall tolerant b0 s0 ops0 b rs0 o0 s1 ops1 o rs1,
  constructed b0 s0 -> 0 < cap b0 -> Forall admissible ops0 -> no_growth tolerant b0 ops0 -> run tolerant b0 ops0 = Ret (b, rs0) ->
  constructed o0 s1 -> 0 < cap o0 -> Forall admissible ops1 -> no_growth tolerant o0 ops1 -> run tolerant o0 ops1 = Ret (o, rs1) ->
  cap b = cap o -> maxc b = maxc o -> Forall (fun c => c <> 0) (content b) -> Forall (fun c => c <> 0) (content o) ->
  exists r, SB_Equals b (Some o) = Ret r /\ (r = true <-> content b = content o).
Proof.
  intros tol b0 s0 ops0 b rs0 o0 s1 ops1 o rs1 H1 H2 H3 H4 H5 K1 K2 K3 K4 K5 Ec Em Fb Fo.
  destruct (constructed_inv b0 s0 H1) as (I & _ & Cl). destruct (constructed_inv o0 s1 K1) as (I' & _ & Cl').
  destruct (run_terminated tol ops0 b0 b rs0 I H2 (clean_terminated b0 I Cl) H3 H4 H5) as (Ib & Tb).
  destruct (run_terminated tol ops1 o0 o rs1 I' K2 (clean_terminated o0 I' Cl') K3 K4 K5) as (Io & To).
  apply Equals_spec; assumption.
Qed.
Print Assumptions C45_equality_partial.
Theorem C45_null_is_different : forall b, SB_Equals b None = Ret false.
Proof. reflexivity. Qed.
Print Assumptions C45_null_is_different.
Example C45_example : exists b o, SB_of_string (Some [97; 98]) 0 = Ret b /\ SB_of_string (Some [97; 99]) 0 = Ret o /\
  no_growth true b [SetChar 1 99] /\ SB_Equals b (Some o) = Ret false /\
  exists b', run true b [SetChar 1 99] = Ret (b', [None]) /\ SB_Equals b' (Some o) = Ret true.
Proof.
  eexists. eexists. split; [reflexivity|]. split; [reflexivity|]. split; [|split; [reflexivity|eexists; split; reflexivity]].
  cbn [no_growth keeps_terminated]. split; [exact I|]. split; [discriminate|]. intros; exact I.
Qed.
(** Same text, different capacity: not equal. *)
Theorem C45_capacity_refuted : exists b o, SB_capacity 10 = Ret b /\ SB_capacity 20 = Ret o /\ content b = content o /\ SB_Equals b (Some o) = Ret false.
Proof. eexists. eexists. split; [reflexivity|]. split; [reflexivity|]. split; reflexivity. Qed.
Print Assumptions C45_capacity_refuted.
(** Different text after a NUL character: equal. *)
Theorem C45_nul_refuted : exists b o, SB_of_string (Some [97; 0; 98]) 0 = Ret b /\ SB_of_string (Some [97; 0; 99]) 0 = Ret o /\ content b <> content o /\ SB_Equals b (Some o) = Ret true.
Proof. eexists. eexists. split; [reflexivity|]. split; [reflexivity|]. split; [discriminate|reflexivity]. Qed.
Print Assumptions C45_nul_refuted.
