(** * C23, C29, C86: CopyTo, index arrays, initialisers and ToBoolean *)
From Verif Require Import Base Tac BoxModel BoxProofs Bytes MemModel MemProofs ArrayModel ArraySpec ArrayProofs ArrayProperties BufferModel.

(** C23: CopyTo copies all elements of a one-dimensional array to the given place of another one. *)
Theorem C23_CopyTo : forall h ps pd t ds dd index, ps <> pd ->
  has_shape (h ps) t [ds] -> has_shape (h pd) t [dd] -> 0 <= index -> index + ds <= dd ->
  exists h', Array_CopyTo h ps (Some pd) index = Ret h' /\ has_shape (h' pd) t [dd] /\ (forall q, q <> pd -> h' q = h q) /\
    (forall p, 0 <= p < dd -> element (h' pd) p = if (index <=? p) && (p <? index + ds) then element (h ps) (p - index) else element (h pd) p).
Proof.
  intros h ps pd t ds dd index N S D Hi Hs.
  assert (Zs : size_of [ds] = ds) by (unfold size_of; cbn [fold_right]; lia). assert (Zd : size_of [dd] = dd) by (unfold size_of; cbn [fold_right]; lia).
  assert (Ps : 0 <= ds) by (destruct S as (_ & F & _); inversion F; assumption).
  destruct (copy_ok h ps pd t [ds] [dd] 0 index ds N S D eq_refl) as (h' & E & S' & O & El); try lia.
  exists h'. split.
  - unfold Array_CopyTo, EnsureSingleDimension, VerifyIndexWithinRangeOfArray, EnsureSingleDimension.
    destruct D as (_ & _ & _ & _ & _ & _ & Dc & _ & _ & Db & _). destruct S as (_ & _ & _ & S1 & _ & _ & _ & St & _ & Sb & _). rewrite Dc, St, S1, Zs. cbn [length Z.of_nat arg nth].
    rewrite !throw_if_false by reflexivity. cbn [bind]. rewrite i32_ret by lia. cbn [bind]. exact E.
  - split; [exact S'|]. split; [exact O|]. intros p Hp. rewrite (El p) by lia. rewrite Z.add_0_r. reflexivity.
Qed.
(** ... and refuses everything else: null, a destination or a receiver of several dimensions, a place
    where the elements do not fit, another element type.  (Int32 arguments; index + length in Int32.) *)
Theorem C23_CopyTo_throws_partial : forall h ps t dims index, has_shape (h ps) t dims -> Forall (fun d => d <= 2147483647) dims -> in_i32 index = true ->
  Array_CopyTo h ps None index = Exn ArgumentNullException /\
  forall pd td dd, has_shape (h pd) td dd ->
    ((1 < length dd)%nat -> Array_CopyTo h ps (Some pd) index = Exn RankException) /\
    (forall n, dd = [n] -> index + size_of dims <= 2147483647 -> index + arg dims 0 <= 2147483647 ->
       (index < 0 \/ size_of dims < arg dims 0 \/ n < index + arg dims 0 -> Array_CopyTo h ps (Some pd) index = Exn ArgumentException) /\
       (0 <= index -> index + arg dims 0 <= n -> arg dims 0 <= size_of dims -> (1 < length dims)%nat -> Array_CopyTo h ps (Some pd) index = Exn RankException) /\
       (0 <= index -> index + arg dims 0 <= n -> length dims = 1%nat -> t <> td -> Array_CopyTo h ps (Some pd) index = Exn NotImplementedException)).
Proof.
  intros h ps t dims index S HB Hi. split; [reflexivity|]. intros pd td dd D. apply in_i32_iff in Hi.
  assert (Sd : 0 <= arg dims 0 <= 2147483647). { destruct S as (L & F & _). destruct dims as [|d ds]; [cbn in L; lia|]. inversion F; inversion HB; subst. cbn. lia. }
  assert (Ss : 0 <= size_of dims <= 2147483647). { split; [apply size_of_nonneg; apply S|]. apply S. }
  assert (E0 : length dd = 1%nat -> index + size_of dims <= 2147483647 -> Array_CopyTo h ps (Some pd) index = Array_Copy h (Some ps) 0 (Some pd) index (arg dims 0)).
  { intros L B. unfold Array_CopyTo, VerifyIndexWithinRangeOfArray, EnsureSingleDimension. destruct D as (_ & _ & _ & _ & _ & _ & Dc & _). destruct S as (_ & _ & _ & S1 & _ & _ & _ & St & _). rewrite Dc, St, S1, L.
    rewrite !throw_if_false by reflexivity. cbn [bind]. rewrite i32_ret by lia. reflexivity. }
  split.
  - intros L. unfold Array_CopyTo, EnsureSingleDimension. destruct D as (_ & _ & _ & _ & _ & _ & Dc & _). rewrite Dc. rewrite throw_if_true by lia. reflexivity.
  - intros n -> B1 B2. rewrite (E0 eq_refl B1). assert (Zd : size_of [n] = n) by (unfold size_of; cbn [fold_right]; lia).
    destruct (copy_throws h ps pd t td dims [n] 0 index (arg dims 0) S D) as (_ & T1 & T2); try lia; try (apply in_i32_iff; lia). rewrite ?Zd in *.
    split; [|split].
    + intros H. apply T1; lia.
    + intros H1 H2 H3 H4. destruct (T2 ltac:(lia) ltac:(lia) H1 ltac:(lia) H2) as (R & _). apply R. cbn [length]. lia.
    + intros H1 H2 H3 H4. assert (size_of dims = arg dims 0). { destruct dims as [|d [|]]; try discriminate. unfold size_of. cbn. lia. }
      destruct (T2 ltac:(lia) ltac:(lia) H1 ltac:(lia) H2) as (_ & R). apply R; [cbn [length]; lia|exact H4].
Qed.
(** C86: an array of indices selects the element that the same indices select one by one. *)
Definition holds (a : arr) (idx : list Z) : Prop :=
  has_shape a Int32Type [Z.of_nat (length idx)] /\ forall k, (k < length idx)%nat -> GetValue a (Z.of_nat k) (-1) (-1) = Ret (GBox (BInt IInt32 (nth k idx 0))).
Lemma index_at_value a idx k : holds a idx -> (k < length idx)%nat -> index_at a (Z.of_nat k) = Ret (nth k idx 0).
Proof.
  intros (S & H) Hk. specialize (H k Hk). unfold GetValue in H. unfold index_at. assert (Et : dataType a = Int32Type) by apply S. rewrite Et in H. change (DataTypeSize Int32Type) with 4 in H.
  destruct (Address a (Z.of_nat k) (-1) (-1)) as [off|e|u]; cbn [bind] in *; try discriminate. destruct (memread (data a) off 4) as [b|e|u]; cbn [bind] in *; try discriminate.
  unfold decode in H. congruence.
Qed.
Lemma read_indexes_value a idx : holds a idx -> (1 <= length idx <= 3)%nat -> read_indexes a = Ret (Some (arg idx 0, arg idx 1, arg idx 2)).
Proof.
  intros H L. pose proof (fun k => index_at_value a idx k H) as A. destruct H as (S & _).
  unfold read_indexes, EnsureSingleDimension. destruct S as (_ & _ & _ & S1 & _ & _ & Sc & _). rewrite S1, Sc. cbn [arg nth length]. rewrite !throw_if_false by (cbn [Z.of_nat]; lia). cbn [bind].
  pose proof (A 0%nat ltac:(lia)) as A0. change (Z.of_nat 0) with 0 in A0. destruct idx as [|i1 [|i2 [|i3 [|]]]]; cbn [length] in *; try lia; cbn [Z.of_nat Pos.of_succ_nat Pos.succ Z.eqb Z.ltb Z.compare Pos.compare Pos.compare_cont]; rewrite A0; cbn [bind nth].
  - reflexivity.
  - pose proof (A 1%nat ltac:(lia)) as A1. change (Z.of_nat 1) with 1 in A1. rewrite A1. reflexivity.
  - pose proof (A 1%nat ltac:(lia)) as A1. change (Z.of_nat 1) with 1 in A1. rewrite A1. pose proof (A 2%nat ltac:(lia)) as A2. change (Z.of_nat 2) with 2 in A2. cbn [bind]. rewrite A2. reflexivity.
Qed.
Theorem C86_index_arrays : forall objs h self p idx v, holds (h p) idx -> (1 <= length idx <= 3)%nat ->
  GetValue_array h self (Some p) = GetValue (h self) (arg idx 0) (arg idx 1) (arg idx 2) /\
  (forall a', SetValue objs (h self) v (arg idx 0) (arg idx 1) (arg idx 2) = Ret a' ->
     exists h', SetValue_array objs h self v (Some p) = Ret h' /\ h' self = a' /\ forall q, q <> self -> h' q = h q) /\
  (forall e, SetValue objs (h self) v (arg idx 0) (arg idx 1) (arg idx 2) = Exn e -> SetValue_array objs h self v (Some p) = Exn e).
Proof.
  intros objs h self p idx v H L. unfold GetValue_array, SetValue_array. rewrite (read_indexes_value _ idx H L). cbn [bind]. split; [reflexivity|]. split.
  - intros a' ->. cbn [bind]. eexists. split; [reflexivity|]. unfold hset. split; [rewrite Nat.eqb_refl; reflexivity|]. intros q N. destruct (Nat.eqb_spec q self); [contradiction|reflexivity].
  - intros e ->. reflexivity.
Qed.
(** Index arrays that are missing, of several dimensions or of more than three elements are refused.
    Full statement: the empty one, too; it is silently accepted (GetValue gives null). *)
Theorem C86_index_arrays_refuse_partial : forall objs h self v,
  (GetValue_array h self None = Exn ArgumentNullException /\ SetValue_array objs h self v None = Exn ArgumentNullException) /\
  (forall p t dims, has_shape (h p) t dims -> (1 < length dims)%nat -> GetValue_array h self (Some p) = Exn RankException /\ SetValue_array objs h self v (Some p) = Exn RankException) /\
  (forall p t n, has_shape (h p) t [n] -> 3 < n -> GetValue_array h self (Some p) = Exn NotImplementedException /\ SetValue_array objs h self v (Some p) = Exn NotImplementedException).
Proof.
  intros. split; [split; reflexivity|]. unfold GetValue_array, SetValue_array, read_indexes, EnsureSingleDimension. split; intros p t n S L; destruct S as (_ & _ & _ & S1 & _ & _ & Sc & _); rewrite Sc, ?S1.
  - rewrite throw_if_true by lia. split; reflexivity.
  - cbn [length Z.of_nat Pos.of_succ_nat]. rewrite throw_if_false by reflexivity. cbn [bind arg nth]. rewrite throw_if_true by lia. split; reflexivity.
Qed.
Theorem C86_empty_refuted : forall objs h self v p t, has_shape (h p) t [0] -> GetValue_array h self (Some p) = Ret GNull /\ SetValue_array objs h self v (Some p) = Ret h.
Proof. intros objs h self v p t (_ & _ & _ & S1 & _ & _ & Sc & _). unfold GetValue_array, SetValue_array, read_indexes, EnsureSingleDimension. rewrite Sc, S1. split; reflexivity. Qed.
(** C86: an array initialiser: element after element, in order, from a block that is long enough. *)
Theorem C86_initialize_partial : forall a t dims src, has_shape a t dims -> Forall byte src -> size_of dims * DataTypeSize t <= zlen src ->
  exists a', Array_Initialize a src = Ret a' /\ has_shape a' t dims /\
  forall p, 0 <= p < size_of dims -> element a' p = slice src (Z.to_nat p * Z.to_nat (DataTypeSize t)) (Z.to_nat (DataTypeSize t)).
Proof.
  intros a t dims src S HB HL. pose proof (DataTypeSize_bound t) as HT. pose proof S as (_ & _ & Et & _ & _ & _ & _ & Ec & B1 & _ & Dl & _). pose proof (size_of_nonneg dims (proj1 (proj2 S))) as Hs.
  assert (P : 0 <= size_of dims * DataTypeSize t) by (apply Z.mul_nonneg_nonneg; lia).
  unfold Array_Initialize. rewrite Ec, Et. rewrite i32_ret by lia. cbn [bind]. unfold memcpy. replace (size_of dims * DataTypeSize t <? 0) with false by lia.
  set (N := size_of dims * DataTypeSize t) in *. rewrite memread_ok by lia. cbn [bind]. change (Z.to_nat 0) with 0%nat. set (b := slice src 0 (Z.to_nat N)).
  assert (Lb : length b = Z.to_nat N) by (apply slice_length; unfold zlen in HL; lia).
  rewrite memwrite_ok by (unfold zlen; lia). cbn [bind]. eexists. split; [reflexivity|]. change (Z.to_nat 0) with 0%nat. split.
  - apply has_shape_set_data; [exact S|apply splice_length; lia|]. apply splice_Forall; [apply S|]. apply slice_Forall. exact HB.
  - intros p Hp. unfold element. cbn [set_data dataType data]. rewrite Et. set (z := DataTypeSize t) in *.
    pose proof (off_before p (size_of dims) z Hp ltac:(lia)) as O. fold N in O.
    change (slice (splice (data a) 0 b) (Z.to_nat p * Z.to_nat z) (Z.to_nat z) = slice src (Z.to_nat p * Z.to_nat z) (Z.to_nat z)).
    rewrite slice_splice_inside by lia. rewrite Nat.sub_0_r. unfold b. rewrite slice_slice by lia. reflexivity.
Qed.
(** A block that is too short is read beyond its end. *)
Theorem C86_initialize_refuted : forall a t dims src, has_shape a t dims -> zlen src < size_of dims * DataTypeSize t -> Array_Initialize a src = UB OutOfBoundsRead.
Proof.
  intros a t dims src S HL. pose proof S as (_ & _ & Et & _ & _ & _ & _ & Ec & B1 & _). assert (0 <= zlen src) by (unfold zlen; lia).
  unfold Array_Initialize. rewrite Ec, Et. rewrite i32_ret by lia. cbn [bind]. unfold memcpy. replace (_ <? 0) with false by lia. unfold memread. replace (zlen src <? _) with true by lia. rewrite Bool.orb_true_r. reflexivity.
Qed.
(** C29: ToBoolean tells whether the byte at the position is not zero; other positions are refused. *)
Theorem C29_ToBoolean : forall h p d pos, has_shape (h p) ByteType [d] -> in_i32 pos = true ->
  ToBoolean h None pos = Exn ArgumentNullException /\
  (0 <= pos < d -> exists b, ToBoolean h (Some p) pos = Ret b /\ (b = true <-> nth (Z.to_nat pos) (data (h p)) 0 <> 0)) /\
  (pos < 0 \/ d <= pos -> ToBoolean h (Some p) pos = Exn ArgumentOutOfRangeException).
Proof.
  intros h p d pos S Hp. split; [reflexivity|]. assert (Pd : 0 <= d) by (destruct S as (_ & F & _); inversion F; assumption). assert (Zd : size_of [d] = d) by (unfold size_of; cbn [fold_right]; lia).
  pose proof S as (_ & _ & Et & S1 & _ & _ & Sc & Ec & _ & Bd & Dl & _). rewrite Zd in *. change (DataTypeSize ByteType) with 1 in Dl. rewrite Z.mul_1_r in Dl.
  unfold ToBoolean. rewrite Ec. rewrite i32_ret by lia. cbn [bind]. split; intros H.
  - rewrite throw_if_false by lia. cbn [bind]. assert (Sel : selects [d] pos (-1) (-1) [pos]) by (split; [repeat constructor; lia|cbn; lia]).
    pose proof (address (h p) ByteType [d] pos (-1) (-1) [pos] S Sel) as A. cbv zeta in A. destruct A as (A & _). rewrite A. cbn [bind].
    replace (row_major [d] [pos] * DataTypeSize ByteType) with pos by (cbn; lia). unfold read. exists (negb (nth (Z.to_nat pos) (data (h p)) 0 =? 0)).
    replace (pos <? 0) with false by lia. rewrite (nth_error_nth' (data (h p)) 0) by lia. split; [reflexivity|]. rewrite Bool.negb_true_iff, Z.eqb_neq. reflexivity.
  - rewrite throw_if_true by lia. reflexivity.
Qed.
Example C23_CopyTo_case : exists a b h', Array_new Int32Type 2 (-1) (-1) = Ret a /\ Array_new Int32Type 5 (-1) (-1) = Ret b /\
  Array_CopyTo (fun q => if Nat.eqb q 0 then a else b) 0 (Some 1%nat) 3 = Ret h' /\ Array_CopyTo (fun q => if Nat.eqb q 0 then a else b) 0 (Some 1%nat) 4 = Exn ArgumentException.
Proof. do 3 eexists. split; [reflexivity|]. split; [reflexivity|]. split; reflexivity. Qed.
Print Assumptions C23_CopyTo. Print Assumptions C86_index_arrays. Print Assumptions C86_initialize_partial. Print Assumptions C29_ToBoolean.
