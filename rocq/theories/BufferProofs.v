(** * Proofs about Buffer and BitConverter *)
From Verif Require Import Tac Base BoxModel Bytes MemModel MemProofs ArrayModel ArraySpec ArrayProofs BufferModel BufferSpec.

Lemma nth_splice {A} (l : list A) i b k d : (i + length b <= length l)%nat ->
  nth k (splice l i b) d = if (i <=? k)%nat && (k <? i + length b)%nat then nth (k - i) b d else nth k l d.
Proof.
  intros H. unfold splice.
  destruct (Nat.leb_spec i k), (Nat.ltb_spec k (i + length b)); cbn [andb]; try lia.
  - rewrite app_nth2 by (rewrite firstn_length; lia). rewrite firstn_length, Nat.min_l by lia. rewrite app_nth1 by lia. reflexivity.
  - rewrite app_nth2 by (rewrite firstn_length; lia). rewrite firstn_length, Nat.min_l by lia. rewrite app_nth2 by lia.
    transitivity (nth (i + length b + (k - i - length b)) l d); [|f_equal; lia].
    generalize (k - i - length b)%nat as m. generalize (i + length b)%nat as n. clear. intros n. revert l. induction n; intros l m; [reflexivity|].
    destruct l; [destruct m; reflexivity|]. cbn [skipn plus nth]. apply IHn.
  - rewrite app_nth1 by (rewrite firstn_length; lia). transitivity (nth k (firstn i l ++ skipn i l) d); [|rewrite firstn_skipn; reflexivity].
    rewrite app_nth1 by (rewrite firstn_length; lia). reflexivity.
Qed.
Lemma nth_slice {A} (l : list A) i n k d : (k < n)%nat -> nth k (slice l i n) d = nth (i + k) l d.
Proof.
  intros H. unfold slice. revert i l. induction i as [|i IH]; intros l; [|destruct l; [|apply IH]].
  - cbn [skipn plus]. revert k l H. induction n as [|n IH]; intros k l H; [lia|]. destruct l, k; cbn [firstn nth]; try reflexivity. apply IH. lia.
  - cbn [skipn]. rewrite firstn_nil. destruct k, i; reflexivity.
Qed.

Lemma IsPrimitiveType_spec t : IsPrimitiveType t = true <-> primitive t.
Proof. unfold primitive. destruct t; cbn; split; intros H; try discriminate; try reflexivity; try (repeat split; discriminate); destruct H as (A & B & C); contradiction. Qed.

Lemma address0 a t d : has_shape a t [d] -> 0 < d -> Address a 0 (-1) (-1) = Ret 0.
Proof.
  intros S Hd. assert (Sel : selects [d] 0 (-1) (-1) [0]). { split; [constructor; [lia|constructor]|]. cbn. lia. }
  pose proof (address a t [d] _ _ _ [0] S Sel) as A. cbv zeta in A. destruct A as (A & _). rewrite A. cbn. reflexivity.
Qed.
Lemma address0_empty a t : has_shape a t [0] -> Address a 0 (-1) (-1) = Exn IndexOutOfRangeException.
Proof.
  intros (_ & _ & _ & E1 & E2 & _ & En & _). unfold Address, ComputeIndex. rewrite En, E1. cbn. reflexivity.
Qed.

Lemma shape1 a t d : has_shape a t [d] -> dataType a = t /\ dimensionCount a = 1 /\ totalElementCount a = d /\ 0 <= d <= 2147483647 /\
  d * DataTypeSize t <= 2147483647 /\ zlen (data a) = d * DataTypeSize t /\ dimension1Size a = d.
Proof.
  intros (HL & HF & Et & E1 & E2 & E3 & En & Etot & Hsz & Htot & Hlen & _). rewrite size1 in *. apply Forall_inv in HF.
  unfold zlen. cbn in En. repeat split; auto.
Qed.

Lemma blockcopy_ok h ps pd ts td ds dd so dof n : has_shape (h ps) ts [ds] -> has_shape (h pd) td [dd] ->
  primitive ts -> primitive td -> 0 < ds -> 0 < dd -> 0 <= so -> 0 <= dof -> 0 <= n ->
  so + n <= ds * DataTypeSize ts -> dof + n <= dd * DataTypeSize td ->
  exists h', BlockCopy h (Some ps) so (Some pd) dof n = Ret h' /\ has_shape (h' pd) td [dd] /\ (forall q, q <> pd -> h' q = h q) /\
    (forall k, 0 <= k < dd * DataTypeSize td ->
       byte_at (h' pd) k = if (dof <=? k) && (k <? dof + n) then byte_at (h ps) (k - dof + so) else byte_at (h pd) k).
Proof.
  intros Ss Sd Ps Pd Hs Hd H1 H2 H3 H4 H5.
  destruct (shape1 _ _ _ Ss) as (Es & Cs & Ts & B1 & B2 & B3 & _). destruct (shape1 _ _ _ Sd) as (Ed & Cd & Td & B4 & B5 & B6 & _).
  pose proof (DataTypeSize_bound ts) as HTs. pose proof (DataTypeSize_bound td) as HTd.
  unfold BlockCopy, EnsureSingleDimension. rewrite Es, Ed, Cs, Cd, Ts, Td. cbn [negb Z.eqb Pos.eqb throw_if]. rewrite !bind_ret.
  rewrite (proj2 (IsPrimitiveType_spec ts) Ps), (proj2 (IsPrimitiveType_spec td) Pd). cbn [negb throw_if]. rewrite !bind_ret.
  rewrite throw_if_false by lia. rewrite bind_ret. rewrite throw_if_false by lia. rewrite bind_ret. rewrite throw_if_false by lia. rewrite bind_ret.
  rewrite (i32_ret (ds * _)) by nia. rewrite bind_ret. rewrite (i32_ret (dd * _)) by nia. rewrite bind_ret.
  rewrite (i32_ret (so + n)) by lia. rewrite bind_ret. replace (ds * DataTypeSize ts <? so + n) with false by lia.
  rewrite (i32_ret (dof + n)) by lia. rewrite !bind_ret. rewrite throw_if_false by lia. rewrite bind_ret.
  rewrite (address0 (h pd) td dd Sd Hd), (address0 (h ps) ts ds Ss Hs). rewrite !bind_ret. rewrite !Z.add_0_l.
  set (sl := slice (data (h ps)) (Z.to_nat so) (Z.to_nat n)).
  assert (LS : length sl = Z.to_nat n). { apply slice_length. unfold zlen in *. lia. }
  assert (R : (Z.to_nat dof + length sl <= length (data (h pd)))%nat) by (unfold zlen in *; rewrite LS; lia).
  assert (E : (if Nat.eqb ps pd then memmove_self (data (h pd)) dof so n else memcpy (data (h pd)) dof (data (h ps)) so n)
              = Ret (splice (data (h pd)) (Z.to_nat dof) sl)).
  { assert (E' : memcpy (data (h pd)) dof (data (h ps)) so n = Ret (splice (data (h pd)) (Z.to_nat dof) sl)).
    { unfold memcpy. replace (n <? 0) with false by lia. rewrite memread_ok by lia. rewrite bind_ret. fold sl.
      apply memwrite_ok; [lia|]. unfold zlen in *. lia. }
    destruct (Nat.eqb_spec ps pd) as [->|N]; [|exact E']. exact E'. }
  rewrite E. rewrite bind_ret. eexists. split; [reflexivity|]. split; [|split].
  - unfold hset. rewrite Nat.eqb_refl. apply has_shape_set_data; [exact Sd|apply splice_length; exact R|].
    apply splice_Forall; [shape Sd; exact Hbytes|apply slice_Forall; shape Ss; exact Hbytes].
  - intros q Hq. unfold hset. rewrite (proj2 (Nat.eqb_neq q pd) Hq). reflexivity.
  - intros k Hk. unfold hset, byte_at. rewrite Nat.eqb_refl. unfold set_data. cbn [data]. rewrite nth_splice by exact R. rewrite LS.
    replace ((Z.to_nat dof <=? Z.to_nat k)%nat && (Z.to_nat k <? Z.to_nat dof + Z.to_nat n)%nat) with ((dof <=? k) && (k <? dof + n)) by lia.
    destruct ((dof <=? k) && (k <? dof + n)) eqn:C; [|reflexivity].
    unfold sl. rewrite nth_slice by lia. f_equal. lia.
Qed.

Lemma blockcopy_throws h ps pd ts td ds dd so dof n : has_shape (h ps) ts [ds] -> has_shape (h pd) td [dd] ->
  primitive ts -> primitive td -> in_i32 so = true -> in_i32 dof = true -> in_i32 n = true -> so + n <= 2147483647 -> dof + n <= 2147483647 ->
  (so < 0 \/ dof < 0 \/ n < 0 -> BlockCopy h (Some ps) so (Some pd) dof n = Exn ArgumentOutOfRangeException) /\
  (0 <= so -> 0 <= dof -> 0 <= n -> ds * DataTypeSize ts < so + n \/ dd * DataTypeSize td < dof + n ->
     BlockCopy h (Some ps) so (Some pd) dof n = Exn ArgumentException).
Proof.
  intros Ss Sd Ps Pd I1 I2 I3 O1 O2. rewrite in_i32_iff in *.
  destruct (shape1 _ _ _ Ss) as (Es & Cs & Ts & B1 & B2 & B3 & _). destruct (shape1 _ _ _ Sd) as (Ed & Cd & Td & B4 & B5 & B6 & _).
  pose proof (DataTypeSize_bound ts) as HTs. pose proof (DataTypeSize_bound td) as HTd.
  unfold BlockCopy, EnsureSingleDimension. rewrite Es, Ed, Cs, Cd, Ts, Td. cbn [negb Z.eqb Pos.eqb throw_if]. rewrite !bind_ret.
  rewrite (proj2 (IsPrimitiveType_spec ts) Ps), (proj2 (IsPrimitiveType_spec td) Pd). cbn [negb throw_if]. rewrite !bind_ret.
  rewrite (i32_ret (ds * _)) by nia. rewrite (i32_ret (dd * _)) by nia.
  split.
  - intros H. destruct (so <? 0) eqn:E1; [reflexivity|]. cbn [throw_if]. rewrite bind_ret.
    destruct (dof <? 0) eqn:E2; [reflexivity|]. cbn [throw_if]. rewrite bind_ret. rewrite throw_if_true by lia. reflexivity.
  - intros H1 H2 H3 Bad. rewrite throw_if_false by lia. rewrite bind_ret. rewrite throw_if_false by lia. rewrite bind_ret.
    rewrite throw_if_false by lia. rewrite !bind_ret. rewrite (i32_ret (so + n)) by lia. rewrite bind_ret.
    destruct (ds * DataTypeSize ts <? so + n) eqn:E; [reflexivity|]. rewrite (i32_ret (dof + n)) by lia. rewrite !bind_ret.
    rewrite throw_if_true by lia. reflexivity.
Qed.

Lemma bytelength h p t d : has_shape (h p) t [d] -> primitive t -> ByteLength h (Some p) = Ret (d * DataTypeSize t).
Proof.
  intros S P. destruct (shape1 _ _ _ S) as (Es & Cs & Ts & B1 & B2 & B3 & _). pose proof (DataTypeSize_bound t).
  unfold ByteLength, EnsureSingleDimension. rewrite Es, Cs, Ts. rewrite (proj2 (IsPrimitiveType_spec t) P). cbn. apply i32_ret. nia.
Qed.

Lemma read_ok {A} (l : list A) i d : 0 <= i < zlen l -> read l i = Ret (nth (Z.to_nat i) l d).
Proof.
  intros H. unfold read. replace (i <? 0) with false by lia. unfold zlen in H.
  rewrite (nth_error_nth' l d) by lia. reflexivity.
Qed.
Lemma upd_length {A} (l : list A) : forall n a, length (upd l n a) = length l.
Proof. induction l; intros [|n] x; cbn; auto. Qed.
Lemma upd_nth {A} (l : list A) : forall n k a d, (n < length l)%nat -> nth k (upd l n a) d = if Nat.eqb k n then a else nth k l d.
Proof. induction l; intros [|n] [|k] x d H; cbn in *; try lia; try reflexivity. apply IHl. lia. Qed.
Lemma upd_Forall {A} (P : A -> Prop) (l : list A) : forall n a, Forall P l -> P a -> Forall P (upd l n a).
Proof. induction l; intros [|n] x H Hx; cbn; auto; inversion H; subst; constructor; auto. Qed.

Lemma getsetbyte h p t d : has_shape (h p) t [d] -> primitive t ->
  (forall i, 0 <= i < d * DataTypeSize t ->
     GetByte h (Some p) i = Ret (byte_at (h p) i) /\
     forall v, byte v -> exists h', SetByte h (Some p) i v = Ret h' /\ has_shape (h' p) t [d] /\ (forall q, q <> p -> h' q = h q) /\
       forall k, 0 <= k < d * DataTypeSize t -> byte_at (h' p) k = if k =? i then v else byte_at (h p) k) /\
  (forall i, d * DataTypeSize t <= i -> GetByte h (Some p) i = Exn ArgumentOutOfRangeException /\
     forall v, SetByte h (Some p) i v = Exn ArgumentOutOfRangeException).
Proof.
  intros S P. destruct (shape1 _ _ _ S) as (Es & Cs & Ts & B1 & B2 & B3 & _). pose proof (DataTypeSize_bound t).
  unfold GetByte, SetByte. rewrite (bytelength h p t d S P). split.
  - intros i Hi. assert (0 < d) by nia. rewrite (address0 _ _ _ S) by lia. rewrite !bind_ret. split.
    { rewrite throw_if_false by lia. rewrite !bind_ret. rewrite Z.add_0_l. apply read_ok; lia. }
    intros v Hv. rewrite !bind_ret. rewrite throw_if_false by lia. rewrite !bind_ret. rewrite Z.add_0_l. unfold write.
    replace (i <? 0) with false by lia. replace (Z.of_nat (length (data (h p))) <=? i) with false by (unfold zlen in *; lia). cbn [orb]. rewrite bind_ret.
    eexists. split; [reflexivity|]. split; [|split].
    + unfold hset. rewrite Nat.eqb_refl. apply has_shape_set_data; [exact S|apply upd_length|]. apply upd_Forall; [shape S; exact Hbytes|exact Hv].
    + intros q Hq. unfold hset. rewrite (proj2 (Nat.eqb_neq q p) Hq). reflexivity.
    + intros k Hk. unfold hset, byte_at. rewrite Nat.eqb_refl. cbn [set_data data]. rewrite upd_nth by (unfold zlen in *; lia).
      replace (Z.to_nat k =? Z.to_nat i)%nat with (k =? i) by lia. reflexivity.
  - intros i Hi. rewrite !bind_ret. split; [|intros v; rewrite !bind_ret]; rewrite throw_if_true by lia; reflexivity.
Qed.

(** ** BitConverter *)
Lemma le_bytes_nth n : forall v i, (i < n)%nat -> nth i (le_bytes n v) 0 = byte_of v (Z.of_nat i).
Proof.
  induction n; intros v i H; [lia|]. cbn [le_bytes]. destruct i; cbn [nth].
  - unfold byte_of. rewrite Z.mul_0_r, Z.pow_0_r, Z.div_1_r. reflexivity.
  - rewrite IHn by lia. unfold byte_of. f_equal. rewrite Z.div_div by (try lia; apply Z.pow_pos_nonneg; lia). f_equal.
    change 256 with (2 ^ 8). rewrite <- Z.pow_add_r by lia. f_equal. lia.
Qed.

Lemma getbytes bytes : bytes <> [] -> zlen bytes <= 2147483647 -> Forall byte bytes ->
  exists a, BC_GetBytes bytes = Ret a /\ has_shape a ByteType [zlen bytes] /\ data a = bytes.
Proof.
  intros N L B. assert (P : 0 < zlen bytes). { destruct bytes; [contradiction|]. unfold zlen. cbn [length]. lia. }
  unfold BC_GetBytes.
  assert (E : exists a, Array_new ByteType (zlen bytes) (-1) (-1) = Ret a).
  { unfold Array_new, InitializeData. cbn [negb Z.eqb Pos.eqb]. rewrite !bind_ret. cbv beta iota. cbn [negb Z.eqb Pos.eqb]. rewrite ?bind_ret. cbv beta iota.
    cbn [DataTypeSize]. rewrite Z.mul_1_r, i32_ret by lia. rewrite bind_ret. replace (zlen bytes <? 0) with false by lia. eexists. reflexivity. }
  destruct E as (a & E). rewrite E. rewrite bind_ret.
  destruct (new_shape ByteType [zlen bytes] a ltac:(cbn; lia) ltac:(repeat constructor; lia) ltac:(repeat constructor; lia) E) as (S & _).
  rewrite (address0 _ _ _ S P). rewrite bind_ret.
  destruct (shape1 _ _ _ S) as (_ & _ & _ & _ & _ & B3 & _). cbn [DataTypeSize] in B3. rewrite Z.mul_1_r in B3.
  unfold memcpy. replace (zlen bytes <? 0) with false by lia. rewrite memread_ok by lia. rewrite bind_ret.
  assert (F : slice bytes (Z.to_nat 0) (Z.to_nat (zlen bytes)) = bytes). { unfold slice, zlen. cbn [Z.to_nat skipn]. rewrite Nat2Z.id. apply firstn_all. }
  rewrite F. rewrite memwrite_ok by lia. rewrite bind_ret.
  assert (G : splice (data a) (Z.to_nat 0) bytes = bytes).
  { unfold splice. cbn [Z.to_nat firstn app plus]. rewrite skipn_all2 by (unfold zlen in *; lia). apply app_nil_r. }
  rewrite G. eexists. split; [reflexivity|]. split; [|reflexivity].
  apply has_shape_set_data; [exact S|unfold zlen in *; lia|exact B].
Qed.

Lemma putbytes h p t d s n : has_shape (h p) t [d] -> 1 <= n <= 8 ->
  (0 <= s -> s + n <= d -> 0 < DataTypeSize t -> PutBytes h (Some p) s n = Ret (slice (data (h p)) (Z.to_nat (s * DataTypeSize t)) (Z.to_nat n))) /\
  (s < 0 \/ d <= s -> PutBytes h (Some p) s n = Exn ArgumentOutOfRangeException) /\
  (0 <= s < d -> d < s + n -> PutBytes h (Some p) s n = Exn ArgumentException).
Proof.
  intros S Hn. destruct (shape1 _ _ _ S) as (Es & Cs & Ts & B1 & B2 & B3 & _). pose proof (DataTypeSize_bound t).
  unfold PutBytes. rewrite Ts. rewrite (i32_ret (d - 1)) by lia. rewrite (i32_ret (d - n)) by lia. rewrite bind_ret. repeat split.
  - intros H1 H2 H3. rewrite throw_if_false by lia. rewrite !bind_ret. rewrite throw_if_false by lia. rewrite bind_ret.
    assert (Sel : selects [d] s (-1) (-1) [s]). { split; [constructor; [lia|constructor]|]. cbn. lia. }
    pose proof (address (h p) t [d] _ _ _ [s] S Sel) as A. cbv zeta in A. destruct A as (A & _). rewrite A. rewrite bind_ret.
    replace (row_major [d] [s]) with s by (cbn; lia). apply memread_ok; nia.
  - intros H1. rewrite throw_if_true by lia. reflexivity.
  - intros H1 H2. rewrite throw_if_false by lia. rewrite !bind_ret. rewrite throw_if_true by lia. reflexivity.
Qed.
