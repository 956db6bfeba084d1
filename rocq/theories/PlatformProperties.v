(** * Theorems about the arena allocator *)
From Verif Require Import Tac MemModel MemProofs PlatformModel.

(** ** What a program does with the allocator *)
Inductive mem_op :=
| New (size : Z)        (* operator new / new[] *)
| Delete (mem : Z)
| Store (at_ byte : Z)  (* the program writes a byte of the arena *)
| Setup.                (* PlatformMemorySetup again: a new epoch *)
(** The blocks handed out in the current epoch: (address, size). *)
Definition blocks := list (Z * Z).
Definition step (s : platform * blocks) (o : mem_op) : outcome (platform * blocks) :=
  let '(p, bs) := s in
  match o with
  | New size => '(p, r) <- operator_new p size ;; Ret (p, match r with Some a => (a, size) :: bs | None => bs end)
  | Delete a => Ret (operator_delete p a, bs)
  | Store a v => m <- memwrite (p_bytes p) a [v] ;; Ret (mk_platform m (p_size p) (p_used p) (p_current p), bs)
  | Setup => Ret (PlatformMemorySetup p, [])
  end.
Fixpoint run (s : platform * blocks) (ops : list mem_op) : outcome (platform * blocks) :=
  match ops with [] => Ret s | o :: ops => s <- step s o ;; run s ops end.

(** ** Specification *)
Definition disjoint (x y : Z * Z) : Prop := fst x + snd x <= fst y \/ fst y + snd y <= fst x.
Definition well_placed (total : Z) (x : Z * Z) : Prop := fst x mod 8 = 0 /\ 0 <= fst x /\ 0 <= snd x /\ fst x + snd x <= total.
(** Rounded up to a multiple of 8. *)
Definition rounded (n : Z) : Z := (n + 7) / 8 * 8.
(** Room taken by the blocks of the epoch. *)
Definition taken (bs : blocks) : Z := fold_right (fun b t => rounded (snd b) + t) 0 bs.
(** The requests of a history, and the stores into the arena, are ordinary: sizes for which
    nothing wraps in 32 bits (4294934521 for the default arena; see C53 for larger ones). *)
Definition ordinary (total : Z) (o : mem_op) : Prop :=
  match o with New size => 0 <= size <= 4294967288 - total | Store a v => 0 <= a < total | _ => True end.
(** Contents of a block. *)
Definition contents (p : platform) (x : Z * Z) : list Z := take (snd x) (drop (fst x) (p_bytes p)).

Definition good (total : Z) (s : platform * blocks) : Prop :=
  let '(p, bs) := s in
  0 <= total <= 2147483647 /\ zlen (p_bytes p) = total /\ p_size p = total /\ p_used p = p_current p /\ p_used p = taken bs /\ 0 <= p_used p <= total /\ p_used p mod 8 = 0 /\
  Forall (fun b => well_placed total b /\ fst b + snd b <= p_used p) bs /\ ForallOrdPairs disjoint bs.

Lemma align8_spec n : 0 <= n <= 4294967288 -> Align8 (cast_u32 n) = rounded n /\ n <= rounded n < n + 8 /\ rounded n mod 8 = 0.
Proof. intros H. unfold Align8, rounded. rewrite (cast_u32_id n) by lia. rewrite (cast_u64_id (n + 7)) by lia. rewrite cast_u32_id by lia. lia. Qed.
Lemma memset_spec (m : list Z) off n : 0 <= off -> 0 <= n -> off + n <= zlen m -> memset m off 0 n = Ret (take off m ++ repeat 0 (Z.to_nat n) ++ drop (off + n) m).
Proof.
  intros Ho Hn H. unfold memset. replace (n <? 0) with false by lia. unfold memwrite. assert (E : zlen (repeat 0 (Z.to_nat n)) = n) by (unfold zlen; rewrite repeat_length; lia). rewrite E.
  replace ((off <? 0) || (zlen m <? off + n)) with false by lia. reflexivity.
Qed.
(** One allocation from a good state. *)
Lemma new_good total p bs size : good total (p, bs) -> 0 <= size <= 4294967288 - total ->
  (total < taken bs + rounded size -> operator_new p size = Ret (p, None)) /\
  (taken bs + rounded size <= total ->
    operator_new p size = Ret (mk_platform (take (taken bs) (p_bytes p) ++ repeat 0 (Z.to_nat size) ++ drop (taken bs + size) (p_bytes p)) total (taken bs + rounded size) (taken bs + rounded size), Some (taken bs))).
Proof.
  intros (TT & L & S & U & T & R & A & F & D) H. destruct (align8_spec size ltac:(lia)) as (E & B & M). unfold operator_new. rewrite E, S, <- U, T.
  rewrite cast_u32_id by lia. split; intros H1.
  - replace (total <? taken bs + rounded size) with true by lia. reflexivity.
  - replace (total <? taken bs + rounded size) with false by lia. rewrite memset_spec by lia. reflexivity.
Qed.
Lemma step_good total s o : good total s -> ordinary total o -> exists s', step s o = Ret s' /\ good total s'.
Proof.
  destruct s as (p, bs). intros G O. pose proof G as (TT & L & S & U & T & R & A & F & D). destruct o as [size|a|a v|]; cbn [ordinary] in O.
  - destruct (new_good total p bs size G O) as (N & Y). destruct (align8_spec size ltac:(lia)) as (_ & B & M). cbn [step].
    destruct (Z_lt_dec total (taken bs + rounded size)) as [H|H].
    + rewrite N by exact H. cbn [bind]. exists (p, bs). split; [reflexivity|exact G].
    + rewrite Y by lia. cbn [bind]. eexists. split; [reflexivity|]. cbn [good p_bytes p_size p_used p_current taken fold_right snd].
      split; [exact TT|]. split; [|split; [reflexivity|split; [reflexivity|split; [unfold taken; lia|split; [unfold taken in *; lia|split]]]]].
      * unfold take, drop, zlen in *. rewrite !app_length, firstn_length, repeat_length, skipn_length. lia.
      * rewrite Z.add_mod, T in * by lia. rewrite <- T, A, M in *. reflexivity.
      * split; constructor.
        -- unfold well_placed. cbn [fst snd]. rewrite <- T. lia.
        -- eapply Forall_impl; [|exact F]. cbn beta. intros b (W & Hb). split; [exact W|lia].
        -- eapply Forall_impl; [|exact F]. cbn beta. intros b (W & Hb). unfold disjoint. cbn [fst snd]. lia.
        -- exact D.
  - exists (p, bs). split; [reflexivity|exact G].
  - cbn [step]. unfold memwrite. change (zlen [v]) with 1. replace ((a <? 0) || (zlen (p_bytes p) <? a + 1)) with false by lia. rewrite bind_ret. eexists. split; [reflexivity|].
    cbn [good p_bytes p_size p_used p_current]. split; [exact TT|]. split; [|split; [exact S|split; [exact U|split; [exact T|split; [exact R|split; [exact A|split; assumption]]]]]].
    unfold take, drop, zlen in *. rewrite !app_length, firstn_length, skipn_length. cbn [length]. lia.
  - eexists. split; [reflexivity|]. cbn [good PlatformMemorySetup p_bytes p_size p_used p_current taken fold_right]. repeat split; try assumption; try lia; constructor.
Qed.
Lemma run_good total ops : forall s, good total s -> Forall (ordinary total) ops -> exists s', run s ops = Ret s' /\ good total s'.
Proof.
  induction ops as [|o ops IH]; intros s G F; [exists s; split; [reflexivity|exact G]|]. inversion F as [|? ? O F']; subst. cbn [run].
  destruct (step_good total s o G O) as (s' & -> & G'). rewrite bind_ret. apply IH; assumption.
Qed.
Lemma first_good total junk : 0 <= total <= 2147483647 -> zlen junk = total -> good total (PlatformMemorySetup_first total junk, []).
Proof. intros TT L. cbn [good PlatformMemorySetup_first p_bytes p_size p_used p_current taken fold_right]. repeat split; try assumption; try lia; constructor. Qed.

(** ** C52 *)
(** Over every history of ordinary requests, deletions, stores and new epochs: no undefined
    behaviour, and the blocks of the epoch are 8-aligned, inside the arena and pairwise disjoint. *)
Theorem C52_blocks_partial : forall total junk ops, 0 <= total <= 2147483647 -> zlen junk = total -> Forall (ordinary total) ops ->
  exists p bs, run (PlatformMemorySetup_first total junk, []) ops = Ret (p, bs) /\ Forall (well_placed total) bs /\ ForallOrdPairs disjoint bs.
Proof.
  intros total junk ops TT0 L F. destruct (run_good total ops _ (first_good total junk TT0 L) F) as ((p, bs) & E & G). exists p, bs. split; [exact E|]. destruct G as (_ & _ & _ & _ & _ & _ & _ & W & D).
  split; [|exact D]. eapply Forall_impl; [|exact W]. cbn beta. tauto.
Qed.
Print Assumptions C52_blocks_partial.
(** After every such history a request is served exactly when the rounded sizes of the epoch fit the
    arena; the new block is zero-filled, whatever was stored there before, and every other block of
    the epoch keeps its contents.  Missing in both: sizes of almost 4 GB and more, see C53. *)
Theorem C52_allocation_partial : forall total junk ops p bs size, 0 <= total <= 2147483647 -> zlen junk = total -> Forall (ordinary total) ops -> run (PlatformMemorySetup_first total junk, []) ops = Ret (p, bs) -> 0 <= size <= 4294967288 - total ->
  (total < taken bs + rounded size -> operator_new p size = Ret (p, None)) /\
  (taken bs + rounded size <= total -> exists p' a, operator_new p size = Ret (p', Some a) /\
     well_placed total (a, size) /\ contents p' (a, size) = repeat 0 (Z.to_nat size) /\ Forall (disjoint (a, size)) bs /\ forall b, In b bs -> contents p' b = contents p b).
Proof.
  intros total junk ops p bs size TT0 L F E H. destruct (run_good total ops _ (first_good total junk TT0 L) F) as (s' & E' & G). rewrite E in E'. injection E' as <-.
  destruct (new_good total p bs size G H) as (N & Y). split; [exact N|]. intros R. destruct (align8_spec size ltac:(lia)) as (_ & B & M). pose proof G as (TT & LB & S & U & T & RR & A & W & D).
  eexists _, (taken bs). split; [apply Y; exact R|]. split; [|split; [|split]].
  - unfold well_placed. cbn [fst snd]. rewrite <- T. lia.
  - unfold contents. cbn [fst snd p_bytes]. unfold take, drop. assert (LT : length (firstn (Z.to_nat (taken bs)) (p_bytes p)) = Z.to_nat (taken bs)) by (rewrite firstn_length; unfold zlen in *; lia).
    rewrite skipn_app, LT, Nat.sub_diag. rewrite skipn_all2 by lia. cbn [skipn app]. rewrite firstn_app, repeat_length, Nat.sub_diag. cbn [firstn]. rewrite app_nil_r. apply firstn_all2. rewrite repeat_length. lia.
  - eapply Forall_impl; [|exact W]. cbn beta. intros b (_ & Hb). unfold disjoint. cbn [fst snd]. lia.
  - intros b Hb. rewrite Forall_forall in W. destruct (W b Hb) as ((_ & W1 & W2 & _) & W3). unfold contents. cbn [p_bytes]. unfold take, drop.
    assert (LT : length (firstn (Z.to_nat (taken bs)) (p_bytes p)) = Z.to_nat (taken bs)) by (rewrite firstn_length; unfold zlen in *; lia).
    rewrite skipn_app. rewrite firstn_app. rewrite skipn_length, LT. replace (Z.to_nat (snd b) - (Z.to_nat (taken bs) - Z.to_nat (fst b)))%nat with O by lia. cbn [firstn]. rewrite app_nil_r.
    rewrite skipn_firstn_comm, firstn_firstn. f_equal. lia.
Qed.
Print Assumptions C52_allocation_partial.
Example C52_example : exists p bs, run (PlatformMemorySetup_first 64 (repeat 7 64), []) [New 5; New 8; Store 9 1; New 40000; Delete 0; New 1] = Ret (p, bs) /\ bs = [(16, 1); (8, 8); (0, 5)] /\
  Forall (ordinary 64) [New 5; New 8; Store 9 1; New 40000; Delete 0; New 1].
Proof. eexists _, _. split; [vm_compute; reflexivity|]. split; [reflexivity|]. repeat constructor; cbn; lia. Qed.

(** ** C53 *)
(** A request that exceeds what is left is refused and changes nothing.  Missing: the last
    bytes below 4 GB and everything above, where the size wraps (refuted below). *)
Theorem C53_refused_partial : forall total junk ops p bs size, 0 <= total <= 2147483647 -> zlen junk = total -> Forall (ordinary total) ops -> run (PlatformMemorySetup_first total junk, []) ops = Ret (p, bs) ->
  total - taken bs < size <= 4294967288 - total -> operator_new p size = Ret (p, None).
Proof.
  intros total junk ops p bs size TT0 L F E H. destruct (run_good total ops _ (first_good total junk TT0 L) F) as (s' & E' & G). rewrite E in E'. injection E' as <-.
  pose proof G as (_ & _ & _ & _ & T & R & _). assert (H' : 0 <= size <= 4294967288 - total) by lia. destruct (align8_spec size ltac:(lia)) as (_ & B & _). apply (proj1 (new_good total p bs size G H')). lia.
Qed.
Print Assumptions C53_refused_partial.
Example C53_example : exists p bs, run (PlatformMemorySetup_first 64 (repeat 7 64), []) [New 50] = Ret (p, bs) /\ taken bs = 56 /\ operator_new p 9 = Ret (p, None) /\ exists p', operator_new p 8 = Ret (p', Some 56).
Proof. eexists _, _. split; [vm_compute; reflexivity|]. split; [reflexivity|]. split; [vm_compute; reflexivity|]. eexists. vm_compute. reflexivity. Qed.
(** Larger requests wrap: 4 GB counts as nothing, and 8 bytes below 4 GB wrap the sum with what is
    used.  Both are "served" and then zero memory far beyond the arena. *)
Theorem C53_wrap_refuted : forall total p bs, good total (p, bs) ->
  operator_new p 4294967296 = UB OutOfBoundsWrite /\ (0 < taken bs -> operator_new p 4294967288 = UB OutOfBoundsWrite).
Proof.
  intros total p bs (TT & L & S & U & T & R & A & _). unfold operator_new. rewrite S, <- U, T in *.
  assert (W : forall n, 0 <= n -> total < n -> memset (p_bytes p) (taken bs) 0 n = UB OutOfBoundsWrite).
  { intros n H0 Hn. unfold memset. replace (n <? 0) with false by lia. unfold memwrite. assert (E : zlen (repeat 0 (Z.to_nat n)) = n) by (unfold zlen; rewrite repeat_length; lia). rewrite E. replace ((taken bs <? 0) || (zlen (p_bytes p) <? taken bs + n)) with true by lia. reflexivity. }
  split.
  - change (Align8 (cast_u32 4294967296)) with 0. rewrite Z.add_0_r, cast_u32_id by lia. replace (total <? taken bs) with false by lia. rewrite W by lia. reflexivity.
  - intros H. change (Align8 (cast_u32 4294967288)) with 4294967288. assert (C : cast_u32 (taken bs + 4294967288) = taken bs - 8) by (unfold cast_u32, cast_u; change (2 ^ 32) with 4294967296; lia). rewrite C.
    replace (total <? taken bs - 8) with false by lia. rewrite W by lia. reflexivity.
Qed.
Print Assumptions C53_wrap_refuted.
