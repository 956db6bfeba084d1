(** * C20-C26: arrays.  [has_shape a t dims] (ArraySpec.v) describes an array of element type [t] and
    dimensions [dims]; [C20_constructor] shows that the constructor establishes it. *)
From Verif Require Import Base Tac BoxModel BoxProofs BoxProperties Bytes MemModel ArrayModel ArraySpec ArrayProofs.

(** The constructor produces an array of the requested shape, all zero, whenever it returns. *)
Theorem C20_constructor : forall t dims a, (1 <= length dims <= 3)%nat ->
  Forall (fun d => 0 <= d) dims -> Forall (fun d => d <= 2147483647) dims ->
  Array_new t (arg dims 0) (arg dims 1) (arg dims 2) = Ret a ->
  has_shape a t dims /\ Forall (fun b => b = 0) (data a).
Proof. exact new_shape. Qed.
Print Assumptions C20_constructor.

(** C20: in-range tuples go to their row-major position ... *)
Theorem C20_row_major : forall a t dims idx, has_shape a t dims -> in_shape dims idx ->
  ComputeIndex a (arg idx 0) (arg idx 1) (arg idx 2) = Ret (row_major dims idx).
Proof.
  intros a t dims idx S I.
  assert (L : length dims = length idx) by (eapply Forall2_len; exact I).
  assert (Sel : selects dims (arg idx 0) (arg idx 1) (arg idx 2) idx).
  { split; [exact I|]. split; [reflexivity|].
    destruct dims as [|d1 [|d2 [|d3 [|]]]], idx as [|i1 [|i2 [|i3 [|]]]]; cbn in L; try discriminate; cbn; auto; split; reflexivity. }
  pose proof (address a t dims _ _ _ idx S Sel) as A. cbv zeta in A.
  destruct (compute_index a t dims (arg idx 0) (arg idx 1) (arg idx 2) S) as [(idx' & Sel' & E)|(N & _)]; [|elim (N _ Sel)].
  rewrite E. f_equal. pose proof (address a t dims _ _ _ idx' S Sel') as A'. cbv zeta in A'.
  f_equal. destruct Sel as (_ & B1 & B2 & B3). destruct Sel' as (I' & C1 & C2 & C3).
  assert (L' : length dims = length idx') by (eapply Forall2_len; exact I').
  destruct S as (SL & _).
  destruct dims as [|d1 [|d2 [|d3 [|]]]], idx as [|i1 [|i2 [|i3 [|]]]], idx' as [|j1 [|j2 [|j3 [|]]]]; cbn in *; try discriminate; try lia; congruence.
Qed.
Print Assumptions C20_row_major.
(** ... and that is a bijection onto 0 .. Length-1, for shapes of any rank. *)
Theorem C20_bijection : forall dims, Forall (fun d => 0 <= d) dims ->
  (forall idx, in_shape dims idx -> 0 <= row_major dims idx < size_of dims) /\
  (forall idx idx', in_shape dims idx -> in_shape dims idx' -> row_major dims idx = row_major dims idx' -> idx = idx') /\
  (forall p, 0 <= p < size_of dims -> exists idx, in_shape dims idx /\ row_major dims idx = p).
Proof.
  intros dims H. split; [apply row_major_bound|]. split; [intros idx idx'; apply row_major_inj|]. apply row_major_surj. exact H.
Qed.
Print Assumptions C20_bijection.
Example C20_example : exists a, Array_new Int32Type 2 3 4 = Ret a /\ has_shape a Int32Type [2; 3; 4] /\
  ComputeIndex a 1 2 3 = Ret 23 /\ in_shape [2; 3; 4] [1; 2; 3].
Proof.
  eexists. split; [reflexivity|]. split; [|split; [reflexivity|]].
  - apply (proj1 (new_shape Int32Type [2; 3; 4] _ ltac:(cbn; lia) ltac:(repeat constructor; lia) ltac:(repeat constructor; lia) eq_refl)).
  - repeat constructor; lia.
Qed.

(** C21: any index arguments either select an element inside the array or throw IndexOutOfRange. *)
Theorem C21_indexing_is_checked : forall a t dims i1 i2 i3, has_shape a t dims ->
  (exists idx off, selects dims i1 i2 i3 idx /\ Address a i1 i2 i3 = Ret off /\
     off = row_major dims idx * DataTypeSize t /\ 0 <= off /\ off + DataTypeSize t <= zlen (data a)) \/
  ((forall idx, ~ selects dims i1 i2 i3 idx) /\ Address a i1 i2 i3 = Exn IndexOutOfRangeException).
Proof.
  intros a t dims i1 i2 i3 S. destruct (compute_index a t dims i1 i2 i3 S) as [(idx & Sel & E)|(N & E)].
  - left. pose proof (address a t dims _ _ _ idx S Sel) as A. cbv zeta in A. destruct A as (A & B & C & D & F).
    exists idx, (row_major dims idx * DataTypeSize t). auto 10.
  - right. split; [exact N|]. unfold Address. rewrite E. reflexivity.
Qed.
Print Assumptions C21_indexing_is_checked.
(** C21: GetValue reads the selected element or throws; it has no undefined behaviour. *)
Theorem C21_GetValue : forall a t dims i1 i2 i3, has_shape a t dims ->
  (forall idx, selects dims i1 i2 i3 idx -> GetValue a i1 i2 i3 = decode t (element a (row_major dims idx))) /\
  ((forall idx, ~ selects dims i1 i2 i3 idx) -> GetValue a i1 i2 i3 = Exn IndexOutOfRangeException) /\
  no_ub (GetValue a i1 i2 i3).
Proof.
  intros a t dims i1 i2 i3 S. split; [intros; apply get_value; assumption|]. split; [apply (get_value_out a t dims); exact S|].
  destruct (compute_index a t dims i1 i2 i3 S) as [(idx & Sel & E)|(N & E)]; intros u.
  - rewrite (get_value a t dims i1 i2 i3 idx S Sel). destruct t; cbn; discriminate.
  - rewrite (get_value_out a t dims i1 i2 i3 S N). discriminate.
Qed.
Print Assumptions C21_GetValue.
Theorem C21_SetValue_out_of_range : forall objs a t dims v i1 i2 i3, has_shape a t dims ->
  (forall idx, ~ selects dims i1 i2 i3 idx) -> v <> 0 -> SetValue objs a v i1 i2 i3 = Exn IndexOutOfRangeException.
Proof. exact set_value_out. Qed.
Print Assumptions C21_SetValue_out_of_range.
Example C21_example : exists a, Array_new ByteType 2 3 (-1) = Ret a /\ GetValue a 1 2 (-1) = Ret (GBox (BInt IByte 0)) /\
  GetValue a 1 3 (-1) = Exn IndexOutOfRangeException /\ GetValue a 1 (-1) (-1) = Exn IndexOutOfRangeException.
Proof. eexists. split; [reflexivity|]. split; [reflexivity|]. split; reflexivity. Qed.

(** C22: storing a boxed integer or character in an array of any integer element type stores the C
    conversion, and nothing else changes. *)
Definition others_unchanged (a a' : arr) (dims : list Z) (idx : list Z) : Prop :=
  forall j1 j2 j3 idx', selects dims j1 j2 j3 idx' -> idx' <> idx -> GetValue a' j1 j2 j3 = GetValue a j1 j2 j3.

Lemma others a a' t dims idx : has_shape a t dims -> has_shape a' t dims -> in_shape dims idx ->
  (forall p, 0 <= p < size_of dims -> p <> row_major dims idx -> element a' p = element a p) -> others_unchanged a a' dims idx.
Proof.
  intros S S' I H j1 j2 j3 idx' Sel N. rewrite (get_value a t dims _ _ _ idx' S Sel), (get_value a' t dims _ _ _ idx' S' Sel).
  f_equal. apply H; [apply row_major_bound; apply Sel|]. intros E. apply N. apply (row_major_inj dims); [apply Sel|exact I|exact E].
Qed.

Theorem C22_store_load_integers : forall objs a it dims v t z i1 i2 i3 idx,
  has_shape a (dtype_of it) dims -> selects dims i1 i2 i3 idx -> v <> 0 -> objs v = BInt t z -> in_range t z = true ->
  exists a' w, SetValue objs a v i1 i2 i3 = Ret a' /\ has_shape a' (dtype_of it) dims /\
    GetValue a' i1 i2 i3 = Ret (GBox (BInt it w)) /\ c_conversion it z w /\ others_unchanged a a' dims idx.
Proof.
  intros objs a it dims v t z i1 i2 i3 idx S Sel Hv Ho Hz.
  destruct (encode_int it t z v Hz) as (n & En & Ec).
  destruct (set_value objs a (dtype_of it) dims v i1 i2 i3 idx n S Sel Hv) as (a' & E & S' & El & Oth); [rewrite Ho; exact En|].
  exists a', (cast_to it z). split; [exact E|]. split; [exact S'|]. split; [|split].
  - rewrite (get_value a' _ dims i1 i2 i3 idx S' Sel), El, decode_int, Ec. reflexivity.
  - destruct (cast_to_spec it z) as (A & B). split; [exact A|]. split; [exact B|]. apply cast_to_id.
  - apply (others a a' (dtype_of it)); try assumption. apply Sel.
Qed.
Print Assumptions C22_store_load_integers.

(** C22: a box of the element type itself, or any object in an array of references, is read back
    unchanged. *)
Definition fits (t : dtype) (addr : Z) (v : box) (g : gval) : Prop :=
  match t, v with
  | (ObjectType | StringType), _ => 0 <= addr < 2 ^ 64 /\ g = GRef addr
  | BooleanType, BBool b => g = GBox v
  | SingleType, BSingle b => 0 <= b < 2 ^ 32 /\ g = GBox v
  | DoubleType, BDouble b => 0 <= b < 2 ^ 64 /\ g = GBox v
  | DateTimeType, BDateTime b => 0 <= b < 2 ^ 64 /\ g = GBox v
  | TimeSpanType, BTimeSpan b => in_i64 b = true /\ g = GBox v
  | _, _ => False
  end.
Lemma ts_mod b : in_i64 b = true -> cast_i64 (b mod 2 ^ 64) = b.
Proof.
  intros H. change (cast_to IInt64 (b mod 2 ^ 64) = b). rewrite <- (cast_to_id IInt64 b) at 2 by exact H.
  apply cast_to_mod. cbn [ibits]. rewrite <- Zminus_mod_idemp_l, Z.mod_mod by (apply Z.pow_nonzero; lia).
  rewrite Zminus_mod_idemp_l, Z.sub_diag. reflexivity.
Qed.
Theorem C22_store_load_same_type : forall objs a t dims v i1 i2 i3 idx g,
  has_shape a t dims -> selects dims i1 i2 i3 idx -> v <> 0 -> fits t v (objs v) g ->
  exists a', SetValue objs a v i1 i2 i3 = Ret a' /\ has_shape a' t dims /\
    GetValue a' i1 i2 i3 = Ret g /\ others_unchanged a a' dims idx.
Proof.
  intros objs a t dims v i1 i2 i3 idx g S Sel Hv Hfit.
  assert (K : exists n, encode t v (objs v) = Ret n /\ decode t (le_bytes (Z.to_nat (DataTypeSize t)) n) = Ret g).
  { unfold decode. destruct t; cbn [fits] in Hfit; try contradiction.
    - destruct Hfit as (B & ->). exists v. split; [reflexivity|]. rewrite bytes_value. cbn [elem_bits DataTypeSize]. rewrite u_small by exact B. reflexivity.
    - destruct (objs v) as [b| | | | | | |]; try contradiction. subst g. exists (if b then 1 else 0). split; [reflexivity|]. rewrite bytes_value. destruct b; reflexivity.
    - destruct (objs v) as [| |b| | | | |]; try contradiction. destruct Hfit as (B & ->). exists b. split; [reflexivity|]. rewrite bytes_value. cbn [elem_bits DataTypeSize]. unfold elem_bits. cbn [DataTypeSize]. rewrite u_small by exact B. reflexivity.
    - destruct (objs v) as [| | |b| | | |]; try contradiction. destruct Hfit as (B & ->). exists b. split; [reflexivity|]. rewrite bytes_value. unfold elem_bits. cbn [DataTypeSize]. rewrite u_small by exact B. reflexivity.
    - destruct (objs v) as [| | | |b| | |]; try contradiction. destruct Hfit as (B & ->). exists b. split; [reflexivity|]. rewrite bytes_value. unfold elem_bits. cbn [DataTypeSize]. rewrite u_small by exact B. reflexivity.
    - destruct (objs v) as [| | | | |b| |]; try contradiction. destruct Hfit as (B & ->). exists b. split; [reflexivity|]. rewrite bytes_value. unfold elem_bits. cbn [DataTypeSize]. change (8 * 8) with 64. rewrite ts_mod by exact B. reflexivity.
    - destruct Hfit as (B & ->). exists v. split; [reflexivity|]. rewrite bytes_value. unfold elem_bits. cbn [DataTypeSize]. rewrite u_small by exact B. reflexivity. }
  destruct K as (n & En & Ed).
  destruct (set_value objs a t dims v i1 i2 i3 idx n S Sel Hv En) as (a' & E & S' & El & Oth).
  exists a'. split; [exact E|]. split; [exact S'|]. split.
  - rewrite (get_value a' t dims i1 i2 i3 idx S' Sel), El. exact Ed.
  - apply (others a a' t); try assumption. apply Sel.
Qed.
Print Assumptions C22_store_load_same_type.
(** C22: null is refused and a box of an unsuitable class throws InvalidCast. *)
Theorem C22_rejects : forall objs a i1 i2 i3,
  SetValue objs a 0 i1 i2 i3 = Exn ArgumentNullException /\
  (forall t dims idx v s, has_shape a t dims -> selects dims i1 i2 i3 idx -> t <> ObjectType -> t <> StringType ->
     v <> 0 -> objs v = BString s -> SetValue objs a v i1 i2 i3 = Exn InvalidCastException).
Proof.
  intros. split; [reflexivity|]. intros t dims idx v s S Sel N1 N2 Hv Ho.
  pose proof (address a t dims _ _ _ idx S Sel) as A. cbv zeta in A. destruct A as (A & _).
  assert (Et : dataType a = t) by apply S.
  unfold SetValue. destruct (v =? 0) eqn:E; [apply Z.eqb_eq in E; contradiction|]. cbn [throw_if bind]. rewrite A. cbn [bind].
  rewrite Et, Ho. destruct t; try contradiction; reflexivity.
Qed.
Print Assumptions C22_rejects.
Example C22_example : exists a a', Array_new Int16Type 4 (-1) (-1) = Ret a /\
  SetValue (fun _ => BInt IInt64 65537) a 1 2 (-1) (-1) = Ret a' /\ GetValue a' 2 (-1) (-1) = Ret (GBox (BInt IInt16 1)).
Proof. eexists. eexists. split; [reflexivity|]. split; reflexivity. Qed.

(** C23: Copy between distinct arrays of the same type and rank. *)
Theorem C23_copy : forall h ps pd t ds dd si di n, ps <> pd ->
  has_shape (h ps) t ds -> has_shape (h pd) t dd -> length ds = length dd ->
  0 <= si -> 0 <= di -> 0 <= n -> si + n <= size_of ds -> di + n <= size_of dd ->
  exists h', Array_Copy h (Some ps) si (Some pd) di n = Ret h' /\ has_shape (h' pd) t dd /\
    (forall q, q <> pd -> h' q = h q) /\
    (forall p, 0 <= p < size_of dd ->
       element (h' pd) p = if (di <=? p) && (p <? di + n) then element (h ps) (p - di + si) else element (h pd) p).
Proof. exact copy_ok. Qed.
Print Assumptions C23_copy.
(** C23: every other argument is refused before anything is written, as long as index + length does
    not exceed Int32 (missing from the full statement: that case, see the refutation). *)
Theorem C23_copy_throws_partial : forall h ps pd ts td ds dd si di n, has_shape (h ps) ts ds -> has_shape (h pd) td dd ->
  in_i32 si = true -> in_i32 di = true -> in_i32 n = true -> si + n <= 2147483647 -> di + n <= 2147483647 ->
  (n < 0 -> Array_Copy h (Some ps) si (Some pd) di n = Exn ArgumentOutOfRangeException) /\
  (0 <= n -> (si < 0 \/ di < 0 \/ size_of ds < si + n \/ size_of dd < di + n) -> Array_Copy h (Some ps) si (Some pd) di n = Exn ArgumentException) /\
  (0 <= n -> 0 <= si -> 0 <= di -> si + n <= size_of ds -> di + n <= size_of dd ->
     (length ds <> length dd -> Array_Copy h (Some ps) si (Some pd) di n = Exn RankException) /\
     (length ds = length dd -> ts <> td -> Array_Copy h (Some ps) si (Some pd) di n = Exn NotImplementedException)).
Proof. exact copy_throws. Qed.
Print Assumptions C23_copy_throws_partial.
(** The bounds test itself overflows: 2147483647 + 1. *)
Theorem C23_refuted : forall h ps pd, Array_Copy h (Some ps) 2147483647 (Some pd) 0 1 = UB SignedOverflow.
Proof. reflexivity. Qed.
Print Assumptions C23_refuted.
(** Shifting elements inside one array is undefined: memcpy with overlapping ranges. *)
Theorem C23_refuted_same_array : exists a, Array_new Int32Type 4 (-1) (-1) = Ret a /\
  Array_Copy (fun _ => a) (Some 0%nat) 0 (Some 0%nat) 1 3 = UB OverlappingCopy.
Proof. eexists. split; reflexivity. Qed.
Print Assumptions C23_refuted_same_array.
Example C23_example : exists a, Array_new Int32Type 4 (-1) (-1) = Ret a /\
  exists h', Array_Copy (fun _ => a) (Some 0%nat) 0 (Some 1%nat) 1 3 = Ret h'.
Proof. eexists. split; [reflexivity|]. eexists. reflexivity. Qed.

(** C24: Clear of a range inside a one-dimensional array. *)
Theorem C24_clear_partial : forall h p t d i n, has_shape (h p) t [d] -> 0 <= i -> 0 <= n -> i + n <= d ->
  exists h', Array_Clear h (Some p) i n = Ret h' /\ has_shape (h' p) t [d] /\ (forall q, q <> p -> h' q = h q) /\
    (forall k, 0 <= k < d -> element (h' p) k = if (i <=? k) && (k <? i + n) then repeat 0 (Z.to_nat (DataTypeSize t)) else element (h p) k).
Proof. exact clear_ok. Qed.
Print Assumptions C24_clear_partial.
(** The full statement fails for every range that is not inside: the exception objects are created
    but never thrown, and memory outside the array is written. *)
Theorem C24_refuted : forall h p t d i n, has_shape (h p) t [d] -> 0 < DataTypeSize t -> in_i32 (i + n) = true ->
  in_i32 (i * DataTypeSize t) = true -> in_i32 (n * DataTypeSize t) = true -> i < 0 \/ n < 0 \/ d < i + n ->
  Array_Clear h (Some p) i n = UB OutOfBoundsWrite.
Proof. exact clear_bad. Qed.
Print Assumptions C24_refuted.
Example C24_example : exists a, Array_new Int32Type 4 (-1) (-1) = Ret a /\ has_shape a Int32Type [4] /\
  Array_Clear (fun _ => a) (Some 0%nat) 3 2 = UB OutOfBoundsWrite.
Proof.
  eexists. split; [reflexivity|]. split; [|reflexivity].
  apply (proj1 (new_shape Int32Type [4] _ ltac:(cbn; lia) ltac:(repeat constructor; lia) ltac:(repeat constructor; lia) eq_refl)).
Qed.

(** C25: IndexOf returns the first match in the window, or -1.  [eq o v] is the result of the virtual
    call [o->Equals(v)] for a non-null element; a null element matches only null. *)
Theorem C25_first_match : forall equals eq h p t d value start count,
  has_shape (h p) t [d] -> t = ObjectType \/ t = StringType ->
  (forall o v, o <> 0 -> equals o v = Ret (eq o v)) -> 0 <= start <= d -> count <= d - start ->
  let n := if count <? 0 then d - start else count in
  exists r, Array_IndexOf equals h (Some p) value start count = Ret r /\
   ((r = -1 /\ forall k, start <= k < start + n -> matches eq value (ref_at (h p) k) = false) \/
    (start <= r < start + n /\ matches eq value (ref_at (h p) r) = true /\
     forall k, start <= k < r -> matches eq value (ref_at (h p) k) = false)).
Proof. exact indexof. Qed.
Print Assumptions C25_first_match.
(** C25: windows that are not inside the array throw. *)
Theorem C25_bad_window : forall equals h p t d value start count, has_shape (h p) t [d] ->
  -2147483648 < d - start <= 2147483647 -> (start < 0 \/ d < start \/ d - start < count) ->
  Array_IndexOf equals h (Some p) value start count = Exn ArgumentOutOfRangeException.
Proof.
  intros equals h p t d value start count S HB Bad.
  assert (C : dimensionCount (h p) = 1) by apply S.
  assert (T : totalElementCount (h p) = d) by (destruct S as (_ & _ & _ & _ & _ & _ & _ & T & _); rewrite T; apply size1).
  unfold Array_IndexOf. rewrite C, T. cbn [negb Z.eqb Pos.eqb throw_if bind].
  assert (N : (if count <? 0 then i32 (d - start) else Ret count) = Ret (if count <? 0 then d - start else count)).
  { destruct (count <? 0); [|reflexivity]. unfold i32, in_i32, in_signed. change (2 ^ (32 - 1)) with 2147483648.
    replace ((- (2147483648) <=? d - start) && (d - start <? 2147483648)) with true; [reflexivity|]. symmetry. apply andb_true_iff. split; lia. }
  rewrite N. cbn [bind]. unfold GetLowerBound. rewrite C. cbn [Z.ltb Z.compare throw_if bind]. rewrite Z.add_0_r.
  destruct ((start <? 0) || (d <? start)) eqn:E; [reflexivity|]. apply orb_false_iff in E. destruct E as (E1 & E2).
  cbn [throw_if bind]. rewrite Z.add_0_r. destruct (count <? 0) eqn:E3.
  - exfalso. apply Z.ltb_lt in E3. apply Z.ltb_ge in E1, E2. lia.
  - destruct (d - start <? count) eqn:E4; [rewrite orb_true_r; reflexivity|].
    exfalso. apply Z.ltb_ge in E1, E2, E4. lia.
Qed.
Print Assumptions C25_bad_window.
Example C25_example : exists a, Array_new ObjectType 3 (-1) (-1) = Ret a /\
  Array_IndexOf (fun o v => Ret (o =? v)) (fun _ => a) (Some 0%nat) 0 1 (-1) = Ret 1 /\
  Array_IndexOf (fun o v => Ret (o =? v)) (fun _ => a) (Some 0%nat) 7 0 (-1) = Ret (-1).
Proof. eexists. split; [reflexivity|]. split; reflexivity. Qed.

(** C26: shape queries for every existing dimension (dimensions are Int32 numbers).  Missing from the
    full statement: ranks that do not exist, of which only those above the rank of the array throw. *)
Theorem C26_shape_queries_partial : forall a t dims, has_shape a t dims -> Forall (fun d => d <= 2147483647) dims ->
  totalElementCount a = size_of dims /\ dimensionCount a = Z.of_nat (length dims) /\
  (forall k, (k < length dims)%nat -> GetLength a (Z.of_nat k) = Ret (nth k dims 0) /\
     GetLowerBound a (Z.of_nat k) = Ret 0 /\ GetUpperBound a (Z.of_nat k) = Ret (nth k dims 0 - 1)) /\
  (forall r, Z.of_nat (length dims) < r -> GetLength a r = Exn IndexOutOfRangeException /\
     GetLowerBound a r = Exn IndexOutOfRangeException /\ GetUpperBound a r = Exn IndexOutOfRangeException).
Proof.
  intros a t dims S BD.
  destruct S as (HL & HF & Et & E1 & E2 & E3 & En & Etot & _).
  split; [exact Etot|]. split; [exact En|]. split.
  - intros k Hk. unfold GetLength, GetLowerBound, GetUpperBound, GetLength. rewrite En, E1, E2, E3.
    assert (F : (Z.of_nat (length dims) <? Z.of_nat k) = false) by (apply Z.ltb_ge; lia). rewrite F. cbn [throw_if bind].
    assert (G : (if Z.of_nat k =? 0 then arg dims 0 else if Z.of_nat k =? 1 then arg dims 1 else if Z.of_nat k =? 2 then arg dims 2 else -1) = nth k dims 0).
    { destruct dims as [|d1 [|d2 [|d3 [|]]]]; cbn [length] in *; try lia; destruct k as [|[|[|]]]; try lia; reflexivity. }
    rewrite G. split; [reflexivity|]. split; [reflexivity|].
    assert (P : 0 <= nth k dims 0). { rewrite Forall_forall in HF. apply HF. apply nth_In. exact Hk. }
    assert (Q : nth k dims 0 <= 2147483647). { rewrite Forall_forall in BD. apply BD. apply nth_In. exact Hk. }
    apply i32_ret. lia.
  - intros r Hr. unfold GetLength, GetLowerBound, GetUpperBound. rewrite En.
    assert (F : (Z.of_nat (length dims) <? r) = true) by (apply Z.ltb_lt; lia). rewrite F. repeat split.
Qed.
Print Assumptions C26_shape_queries_partial.
(** The full statement fails for the first rank that does not exist and for negative ranks: -1 (or 0)
    is returned instead of an exception. *)
Theorem C26_refuted : forall a t d, has_shape a t [d] ->
  GetLength a 1 = Ret (-1) /\ GetLowerBound a 1 = Ret 0 /\ GetLength a (-1) = Ret (-1) /\ GetLowerBound a (-1) = Ret 0.
Proof.
  intros a t d (_ & _ & _ & _ & E2 & _ & En & _). unfold GetLength, GetLowerBound. rewrite En, E2. cbn. repeat split.
Qed.
Print Assumptions C26_refuted.
Example C26_example : exists a, Array_new Int32Type 2 3 (-1) = Ret a /\ has_shape a Int32Type [2; 3] /\ GetUpperBound a 1 = Ret 2.
Proof.
  eexists. split; [reflexivity|]. split; [|reflexivity].
  apply (proj1 (new_shape Int32Type [2; 3] _ ltac:(cbn; lia) ltac:(repeat constructor; lia) ltac:(repeat constructor; lia) eq_refl)).
Qed.
