(** * C27-C29: Buffer and BitConverter *)
From Verif Require Import Tac Base BoxModel Bytes MemModel MemProofs ArrayModel ArraySpec ArrayProofs BufferModel BufferSpec BufferProofs.

(** C27: exactly [n] bytes are moved, as they were before the call even if source and destination are
    the same array ([ps = pd]), and nothing else changes. *)
Theorem C27_blockcopy_partial : forall h ps pd ts td ds dd so dof n, has_shape (h ps) ts [ds] -> has_shape (h pd) td [dd] ->
  primitive ts -> primitive td -> 0 < ds -> 0 < dd -> 0 <= so -> 0 <= dof -> 0 <= n ->
  so + n <= ds * DataTypeSize ts -> dof + n <= dd * DataTypeSize td ->
  exists h', BlockCopy h (Some ps) so (Some pd) dof n = Ret h' /\ has_shape (h' pd) td [dd] /\ (forall q, q <> pd -> h' q = h q) /\
    (forall k, 0 <= k < dd * DataTypeSize td ->
       byte_at (h' pd) k = if (dof <=? k) && (k <? dof + n) then byte_at (h ps) (k - dof + so) else byte_at (h pd) k).
Proof. exact blockcopy_ok. Qed.
Print Assumptions C27_blockcopy_partial.
(** C27: ranges that leave their array throw (missing: offset + count beyond Int32, see below). *)
Theorem C27_blockcopy_throws_partial : forall h ps pd ts td ds dd so dof n, has_shape (h ps) ts [ds] -> has_shape (h pd) td [dd] ->
  primitive ts -> primitive td -> in_i32 so = true -> in_i32 dof = true -> in_i32 n = true -> so + n <= 2147483647 -> dof + n <= 2147483647 ->
  (so < 0 \/ dof < 0 \/ n < 0 -> BlockCopy h (Some ps) so (Some pd) dof n = Exn ArgumentOutOfRangeException) /\
  (0 <= so -> 0 <= dof -> 0 <= n -> ds * DataTypeSize ts < so + n \/ dd * DataTypeSize td < dof + n ->
     BlockCopy h (Some ps) so (Some pd) dof n = Exn ArgumentException).
Proof. exact blockcopy_throws. Qed.
Print Assumptions C27_blockcopy_throws_partial.
(** C27: null, multi-dimensional and reference arrays are refused first. *)
Theorem C27_blockcopy_arguments : forall h so dof n,
  (forall q, BlockCopy h None so q dof n = Exn ArgumentNullException /\ BlockCopy h q so None dof n = Exn ArgumentNullException) /\
  (forall ps pd ts td ds dd, has_shape (h ps) ts ds -> has_shape (h pd) td dd -> (length ds <> 1 \/ length dd <> 1)%nat ->
     BlockCopy h (Some ps) so (Some pd) dof n = Exn RankException) /\
  (forall ps pd ts td ds dd, has_shape (h ps) ts [ds] -> has_shape (h pd) td [dd] -> ~ primitive ts \/ ~ primitive td ->
     BlockCopy h (Some ps) so (Some pd) dof n = Exn ArgumentException).
Proof.
  intros h so dof n. split; [|split].
  - intros q. destruct q; split; reflexivity.
  - intros ps pd ts td ds dd Ss Sd H. assert (Cs : dimensionCount (h ps) = Z.of_nat (length ds)) by apply Ss.
    assert (Cd : dimensionCount (h pd) = Z.of_nat (length dd)) by apply Sd. unfold BlockCopy, EnsureSingleDimension. rewrite Cs, Cd.
    destruct (Z.of_nat (length ds) =? 1) eqn:E; [|reflexivity]. cbn [negb throw_if bind]. rewrite throw_if_true by lia. reflexivity.
  - intros ps pd ts td ds dd Ss Sd H. destruct (shape1 _ _ _ Ss) as (Es & Cs & _). destruct (shape1 _ _ _ Sd) as (Ed & Cd & _).
    unfold BlockCopy, EnsureSingleDimension. rewrite Es, Ed, Cs, Cd. cbn [negb Z.eqb Pos.eqb throw_if bind].
    destruct (IsPrimitiveType ts) eqn:E1; [|reflexivity]. cbn [negb throw_if bind]. destruct (IsPrimitiveType td) eqn:E2; [|reflexivity].
    apply IsPrimitiveType_spec in E1, E2. destruct H; contradiction.
Qed.
Print Assumptions C27_blockcopy_arguments.
(** The full statement fails twice: the range test overflows, and copying no bytes from or to an
    empty array throws IndexOutOfRange. *)
Theorem C27_refuted : forall h ps pd td dd, has_shape (h ps) ByteType [0] -> has_shape (h pd) td [dd] -> primitive td ->
  BlockCopy h (Some ps) 0 (Some pd) 0 0 = Exn IndexOutOfRangeException /\
  BlockCopy h (Some ps) 2147483647 (Some pd) 0 1 = UB SignedOverflow.
Proof.
  intros h ps pd td dd Ss Sd Pd. destruct (shape1 _ _ _ Ss) as (Es & Cs & Ts & _ & _ & _ & _).
  destruct (shape1 _ _ _ Sd) as (Ed & Cd & Td & B4 & B5 & B6 & _). pose proof (DataTypeSize_bound td).
  unfold BlockCopy, EnsureSingleDimension. rewrite Es, Ed, Cs, Cd, Ts, Td. rewrite (proj2 (IsPrimitiveType_spec td) Pd).
  rewrite (i32_ret (dd * _)) by nia. split.
  - cbn [negb Z.eqb Pos.eqb throw_if IsPrimitiveType dtype_eqb andb Z.ltb Z.compare bind].
    change (i32 (0 * DataTypeSize ByteType)) with (@Ret Z 0). change (i32 (0 + 0)) with (@Ret Z 0). cbn [bind Z.ltb Z.compare].
    replace (dd * DataTypeSize td <? 0) with false by (symmetry; apply Z.ltb_ge; nia). cbn [throw_if bind].
    rewrite (address0_empty _ _ Ss). destruct (Z.eq_dec dd 0) as [->|N].
    + rewrite (address0_empty _ _ Sd). reflexivity.
    + rewrite (address0 _ _ _ Sd) by lia. reflexivity.
  - reflexivity.
Qed.
Print Assumptions C27_refuted.
Example C27_example : exists a, Array_new Int32Type 2 (-1) (-1) = Ret a /\ has_shape a Int32Type [2] /\ exists h',
  BlockCopy (fun _ => set_data a [1;2;3;4;5;6;7;8]) (Some 0%nat) 0 (Some 0%nat) 1 7 = Ret h' /\ data (h' 0%nat) = [1;1;2;3;4;5;6;7].
Proof.
  eexists. split; [reflexivity|]. split.
  - apply (proj1 (new_shape Int32Type [2] _ ltac:(cbn; lia) ltac:(repeat constructor; lia) ltac:(repeat constructor; lia) eq_refl)).
  - eexists. split; reflexivity.
Qed.

(** C28: bytes inside the array are read and written, and indices from ByteLength on throw. *)
Theorem C28_byte_access_partial : forall h p t d, has_shape (h p) t [d] -> primitive t ->
  ByteLength h (Some p) = Ret (d * DataTypeSize t) /\
  (forall i, 0 <= i < d * DataTypeSize t ->
     GetByte h (Some p) i = Ret (byte_at (h p) i) /\
     forall v, byte v -> exists h', SetByte h (Some p) i v = Ret h' /\ has_shape (h' p) t [d] /\ (forall q, q <> p -> h' q = h q) /\
       forall k, 0 <= k < d * DataTypeSize t -> byte_at (h' p) k = if k =? i then v else byte_at (h p) k) /\
  (forall i, d * DataTypeSize t <= i -> GetByte h (Some p) i = Exn ArgumentOutOfRangeException /\
     forall v, SetByte h (Some p) i v = Exn ArgumentOutOfRangeException).
Proof. intros h p t d S P. split; [apply bytelength; assumption|apply getsetbyte; assumption]. Qed.
Print Assumptions C28_byte_access_partial.
(** Missing, and false: negative indices.  They access memory before the array. *)
Theorem C28_refuted : forall h p t d i v, has_shape (h p) t [d] -> primitive t -> 0 < d -> i < 0 ->
  GetByte h (Some p) i = UB OutOfBoundsRead /\ SetByte h (Some p) i v = UB OutOfBoundsWrite.
Proof.
  intros h p t d i v S P Hd Hi. pose proof (DataTypeSize_bound t). unfold GetByte, SetByte. rewrite (bytelength h p t d S P).
  rewrite (address0 _ _ _ S Hd). rewrite !bind_ret. rewrite throw_if_false by nia. rewrite !bind_ret, !Z.add_0_l.
  unfold read, write. replace (i <? 0) with true by lia. split; reflexivity.
Qed.
Print Assumptions C28_refuted.
Example C28_example : exists a, Array_new Int16Type 2 (-1) (-1) = Ret a /\ exists h',
  SetByte (fun _ => a) (Some 0%nat) 3 255 = Ret h' /\ GetByte h' (Some 0%nat) 3 = Ret 255 /\ GetByte h' (Some 0%nat) 4 = Exn ArgumentOutOfRangeException.
Proof. eexists. split; [reflexivity|]. eexists. split; [reflexivity|]. split; reflexivity. Qed.

(** C29: the values of each type.  Single and Double are all bit patterns; a Char is a .NET character,
    of which [bc_values] keeps those below 0x8000 (see the refutation). *)
Definition bc_values (t : bc_type) (v : Z) : Prop :=
  match t with
  | BcChar => 0 <= v < 2 ^ 15
  | BcInt16 => - 2 ^ 15 <= v < 2 ^ 15 | BcUInt16 => 0 <= v < 2 ^ 16
  | BcInt32 => - 2 ^ 31 <= v < 2 ^ 31 | BcUInt32 | BcSingle => 0 <= v < 2 ^ 32
  | BcInt64 => - 2 ^ 63 <= v < 2 ^ 63 | BcUInt64 | BcDouble => 0 <= v < 2 ^ 64
  end.

(** C29: GetBytes gives the little-endian bytes. *)
Theorem C29_getbytes : forall t v, exists a, GetBytes_of t v = Ret a /\ has_shape a ByteType [bc_size t] /\
  forall i, 0 <= i < bc_size t -> byte_at a i = byte_of v i.
Proof.
  intros t v. unfold GetBytes_of. destruct (getbytes (le_bytes (Z.to_nat (bc_size t)) v)) as (a & E & S & D).
  - destruct t; discriminate.
  - unfold zlen. rewrite le_bytes_length. destruct t; cbn; lia.
  - apply le_bytes_byte.
  - exists a. split; [exact E|]. unfold zlen in S. rewrite le_bytes_length in S. rewrite Z2Nat.id in S by (destruct t; cbn; lia).
    split; [exact S|]. intros i Hi. unfold byte_at. rewrite D. rewrite le_bytes_nth by lia. f_equal. lia.
Qed.
Print Assumptions C29_getbytes.

(** C29: reading at any offset of any byte array that contains those bytes there gives the value back. *)
Theorem C29_round_trip_partial : forall t v h p d pos, bc_values t v -> has_shape (h p) ByteType [d] ->
  0 <= pos -> pos + bc_size t <= d -> (forall i, 0 <= i < bc_size t -> byte_at (h p) (pos + i) = byte_of v i) ->
  To_of t h (Some p) pos = Ret v.
Proof.
  intros t v h p d pos V S H1 H2 HB. assert (Hs : 1 <= bc_size t <= 8) by (destruct t; cbn; lia).
  destruct (putbytes h p ByteType d pos (bc_size t) S Hs) as (P & _). unfold To_of. rewrite P by (cbn; lia). rewrite bind_ret. cbn [DataTypeSize]. rewrite Z.mul_1_r.
  destruct (shape1 _ _ _ S) as (_ & _ & _ & _ & _ & B3 & _). cbn [DataTypeSize] in B3. rewrite Z.mul_1_r in B3.
  assert (E : slice (data (h p)) (Z.to_nat pos) (Z.to_nat (bc_size t)) = le_bytes (Z.to_nat (bc_size t)) v).
  { apply nth_ext with (d := 0) (d' := 0).
    - rewrite le_bytes_length. apply slice_length. unfold zlen in *. lia.
    - intros n Hn. rewrite slice_length in Hn by (unfold zlen in *; lia). rewrite nth_slice by exact Hn. rewrite le_bytes_nth by exact Hn.
      rewrite <- HB by lia. unfold byte_at. f_equal. lia. }
  rewrite E. f_equal. unfold bc_read. rewrite le_value_bytes. destruct t; cbn [bc_values bc_size] in *; cbn [Z.to_nat Pos.to_nat Pos.iter_op Z.of_nat] in *;
    repeat match goal with |- context[2 ^ (8 * ?x)] => let v := eval compute in (2 ^ (8 * x)) in change (2 ^ (8 * x)) with v end;
    repeat match goal with H : context[2 ^ ?b] |- _ => let v := eval compute in (2 ^ b) in change (2 ^ b) with v in H end;
    unfold cast_i16, cast_i32, cast_i64, cast_s;
    repeat match goal with |- context[2 ^ ?b] => let v := eval compute in (2 ^ b) in change (2 ^ b) with v end; try (rewrite Z.mod_small; lia);
    rewrite Zplus_mod_idemp_l; rewrite Z.mod_small by lia; lia.
Qed.
Print Assumptions C29_round_trip_partial.
(** C29: Boolean. *)
Theorem C29_boolean_round_trip : forall b, exists a, GetBytes_bool b = Ret a /\ forall h p, h p = a -> ToBoolean h (Some p) 0 = Ret b.
Proof. intros [|]; eexists; (split; [reflexivity|]); intros h p E; unfold ToBoolean; rewrite E; reflexivity. Qed.
Print Assumptions C29_boolean_round_trip.
(** C29: the bit casts between Double and Int64 are inverse to each other. *)
Theorem C29_double_bits : (forall d, 0 <= d < 2 ^ 64 -> Int64BitsToDouble (DoubleToInt64Bits d) = d) /\
  (forall v, - 2 ^ 63 <= v < 2 ^ 63 -> DoubleToInt64Bits (Int64BitsToDouble v) = v).
Proof.
  unfold Int64BitsToDouble, DoubleToInt64Bits, cast_i64, cast_u64, cast_s, cast_u. change (2 ^ (64 - 1)) with 9223372036854775808.
  change (2 ^ 64) with 18446744073709551616. change (2 ^ 63) with 9223372036854775808. split; intros; lia.
Qed.
Print Assumptions C29_double_bits.
(** C29: reading outside throws. *)
Theorem C29_checked : forall t h p d pos, has_shape (h p) ByteType [d] ->
  (pos < 0 \/ d <= pos -> To_of t h (Some p) pos = Exn ArgumentOutOfRangeException) /\
  (0 <= pos < d -> d < pos + bc_size t -> To_of t h (Some p) pos = Exn ArgumentException) /\
  To_of t h None pos = Exn ArgumentNullException.
Proof.
  intros t h p d pos S. assert (Hs : 1 <= bc_size t <= 8) by (destruct t; cbn; lia).
  destruct (putbytes h p ByteType d pos (bc_size t) S Hs) as (_ & P1 & P2). unfold To_of. split; [|split; [|reflexivity]].
  - intros H. rewrite P1 by exact H. reflexivity.
  - intros H1 H2. rewrite P2 by lia. reflexivity.
Qed.
Print Assumptions C29_checked.
(** The full statement fails for every character from 0x8000: it comes back negative. *)
Theorem C29_refuted : forall v a h p, 2 ^ 15 <= v < 2 ^ 16 -> GetBytes_of BcChar v = Ret a -> h p = a -> To_of BcChar h (Some p) 0 = Ret (v - 2 ^ 16).
Proof.
  intros v a h p V E Hp. destruct (C29_getbytes BcChar v) as (a' & E' & S & B). rewrite E in E'. injection E' as <-. subst a.
  destruct (putbytes h p ByteType _ 0 2 S ltac:(lia)) as (P & _). unfold To_of. change (bc_size BcChar) with 2 in *. rewrite P by (cbn; lia). rewrite bind_ret. cbn [DataTypeSize].
  destruct (shape1 _ _ _ S) as (_ & _ & _ & _ & _ & B3 & _).
  assert (F : slice (data (h p)) 0 2 = le_bytes 2 v).
  { apply nth_ext with (d := 0) (d' := 0).
    - rewrite le_bytes_length. apply slice_length. unfold zlen in *. cbn [DataTypeSize] in B3. lia.
    - intros n Hn. rewrite slice_length in Hn by (unfold zlen in *; cbn [DataTypeSize] in B3; lia). rewrite nth_slice by exact Hn. rewrite le_bytes_nth by exact Hn.
      rewrite <- B by lia. unfold byte_at. f_equal. lia. }
  change (Z.to_nat (0 * 1)) with 0%nat. change (Z.to_nat 2) with 2%nat. rewrite F. f_equal. unfold bc_read. rewrite le_value_bytes. change (2 ^ (8 * Z.of_nat 2)) with 65536.
  unfold cast_i16, cast_s. change (2 ^ (16 - 1)) with 32768. change (2 ^ 16) with 65536. change (2 ^ 16) with 65536 in V. change (2 ^ 15) with 32768 in V. lia.
Qed.
Print Assumptions C29_refuted.
Example C29_example : exists a, GetBytes_of BcInt32 (-2) = Ret a /\ data a = [254; 255; 255; 255] /\ To_of BcInt32 (fun _ => a) (Some 0%nat) 0 = Ret (-2).
Proof. eexists. split; [reflexivity|]. split; reflexivity. Qed.
Example C29_example_char : exists a, GetBytes_of BcChar 40000 = Ret a /\ To_of BcChar (fun _ => a) (Some 0%nat) 0 = Ret (-25536).
Proof. eexists. split; reflexivity. Qed.
