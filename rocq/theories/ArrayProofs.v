(** * Proofs about arrays *)
From Verif Require Import Tac Bytes BoxModel BoxProofs MemModel MemProofs ArrayModel ArraySpec.

(** ** Row-major order, for shapes of any rank *)
Lemma size_of_nonneg dims : Forall (fun d => 0 <= d) dims -> 0 <= size_of dims.
Proof. induction 1; cbn [size_of fold_right] in *; [lia|]. apply Z.mul_nonneg_nonneg; assumption. Qed.

Lemma in_shape_nonneg dims idx : in_shape dims idx -> Forall (fun d => 0 <= d) dims.
Proof. induction 1; constructor; [lia|assumption]. Qed.

Lemma row_major_bound dims idx : in_shape dims idx -> 0 <= row_major dims idx < size_of dims.
Proof.
  induction 1 as [|d i ds is Hd H IH]; cbn [row_major size_of fold_right]; [lia|].
  fold (size_of ds). nia.
Qed.
Lemma row_major_inj dims : forall idx idx', in_shape dims idx -> in_shape dims idx' -> row_major dims idx = row_major dims idx' -> idx = idx'.
Proof.
  induction dims as [|d ds IH]; intros idx idx' H H' E; inversion H; inversion H'; subst; [reflexivity|].
  cbn [row_major] in E.
  pose proof (row_major_bound _ _ H4). pose proof (row_major_bound _ _ H9).
  assert (y = y0) by nia. subst. f_equal. apply IH; try assumption. lia.
Qed.
Lemma row_major_surj dims : Forall (fun d => 0 <= d) dims -> forall p, 0 <= p < size_of dims -> exists idx, in_shape dims idx /\ row_major dims idx = p.
Proof.
  induction 1 as [|d ds Hd H IH]; intros p Hp; cbn [size_of fold_right] in Hp.
  - exists []. split; [constructor|cbn; lia].
  - fold (size_of ds) in Hp. pose proof (size_of_nonneg ds H).
    assert (0 < size_of ds) by nia.
    destruct (IH (p mod size_of ds)) as (idx & Hi & E). { apply Z.mod_pos_bound. lia. }
    exists (p / size_of ds :: idx). split.
    + constructor; [|exact Hi]. split; [apply Z.div_pos; lia|apply Z.div_lt_upper_bound; nia].
    + cbn [row_major]. rewrite E. pose proof (Z.div_mod p (size_of ds)). nia.
Qed.

(** ** Shapes produced by the constructor *)
Lemma DataTypeSize_bound t : 0 <= DataTypeSize t <= 8.
Proof. destruct t; cbn; lia. Qed.

Lemma i32_inv z r : i32 z = Ret r -> r = z /\ -2147483648 <= z <= 2147483647.
Proof. unfold i32. destruct (in_i32 z) eqn:E; [|discriminate]. intros H. injection H as <-. apply in_i32_iff in E. auto. Qed.

Lemma Forall_repeat {A} (P : A -> Prop) x n : P x -> Forall P (repeat x n).
Proof. intros. induction n; constructor; assumption. Qed.

Lemma new_shape t dims a : (1 <= length dims <= 3)%nat -> Forall (fun d => 0 <= d) dims -> Forall (fun d => d <= 2147483647) dims ->
  Array_new t (arg dims 0) (arg dims 1) (arg dims 2) = Ret a -> has_shape a t dims /\ Forall (fun b => b = 0) (data a).
Proof.
  intros HL HF HB H. unfold Array_new, InitializeData in H.
  destruct dims as [|d1 [|d2 [|d3 [|]]]]; cbn [length] in HL; try lia; cbn [arg nth] in H.
  - (* rank 1 *) inversion HF; inversion HB; subst. change (-1 =? -1) with true in H. cbn [negb bind] in H.
    destruct (i32 (d1 * DataTypeSize t)) eqn:E; cbn [bind] in H; try discriminate. apply i32_inv in E. destruct E as (-> & E).
    destruct (d1 * DataTypeSize t <? 0) eqn:E0; try discriminate. injection H as <-.
    split; [|apply Forall_repeat; reflexivity].
    unfold has_shape, size_of. cbn [fold_right length data dataType dimension1Size dimension2Size dimension3Size dimensionCount totalElementCount arg nth].
    rewrite repeat_length, Z.mul_1_r. repeat split; try lia; try assumption. apply Forall_repeat. split; lia.
  - inversion HF as [|? ? P1 HF']; inversion HF' as [|? ? P2 HF'']; inversion HB as [|? ? Q1 HB']; inversion HB'; subst.
    replace (d2 =? -1) with false in H by lia. change (-1 =? -1) with true in H. cbn [negb] in H.
    destruct (i32 (d1 * d2)) eqn:E1; cbn [bind] in H; try discriminate. apply i32_inv in E1. destruct E1 as (-> & E1).
    destruct (i32 (d1 * d2 * DataTypeSize t)) eqn:E; cbn [bind] in H; try discriminate. apply i32_inv in E. destruct E as (-> & E).
    destruct (d1 * d2 * DataTypeSize t <? 0) eqn:E0; try discriminate. injection H as <-.
    split; [|apply Forall_repeat; reflexivity].
    unfold has_shape, size_of. cbn [fold_right length data dataType dimension1Size dimension2Size dimension3Size dimensionCount totalElementCount arg nth].
    rewrite repeat_length, Z.mul_1_r. repeat split; try lia; try assumption. apply Forall_repeat. split; lia.
  - inversion HF as [|? ? P1 HF']; inversion HF' as [|? ? P2 HF'']; inversion HF'' as [|? ? P3 HF3]; subst.
    replace (d2 =? -1) with false in H by lia. replace (d3 =? -1) with false in H by lia. cbn [negb] in H.
    destruct (i32 (d1 * d2)) eqn:E1; cbn [bind] in H; try discriminate. apply i32_inv in E1. destruct E1 as (-> & E1).
    destruct (i32 (d1 * d2 * d3)) eqn:E2; cbn [bind] in H; try discriminate. apply i32_inv in E2. destruct E2 as (-> & E2).
    destruct (i32 (d1 * d2 * d3 * DataTypeSize t)) eqn:E; cbn [bind] in H; try discriminate. apply i32_inv in E. destruct E as (-> & E).
    destruct (d1 * d2 * d3 * DataTypeSize t <? 0) eqn:E0; try discriminate. injection H as <-.
    split; [|apply Forall_repeat; reflexivity].
    unfold has_shape, size_of. cbn [fold_right length data dataType dimension1Size dimension2Size dimension3Size dimensionCount totalElementCount arg nth].
    rewrite repeat_length, Z.mul_1_r, Z.mul_assoc. repeat split; try lia; try assumption. apply Forall_repeat. split; lia.
Qed.

(** ** C20, C21 *)
Ltac shape H := 
  let HL := fresh "HL" in let HF := fresh "HF" in let Et := fresh "Et" in let E1 := fresh "E1" in let E2 := fresh "E2" in
  let E3 := fresh "E3" in let En := fresh "En" in let Etot := fresh "Etot" in let Hsz := fresh "Hsz" in let Htot := fresh "Htot" in
  let Hd := fresh "Hdata" in let Hb := fresh "Hbytes" in
  destruct H as (HL & HF & Et & E1 & E2 & E3 & En & Etot & Hsz & Htot & Hd & Hb).

Lemma size3 d1 d2 d3 : size_of [d1; d2; d3] = d1 * d2 * d3.
Proof. unfold size_of. cbn [fold_right]. lia. Qed.
Lemma size2 d1 d2 : size_of [d1; d2] = d1 * d2.
Proof. unfold size_of. cbn [fold_right]. lia. Qed.
Lemma size1 d1 : size_of [d1] = d1.
Proof. unfold size_of. cbn [fold_right]. lia. Qed.

Lemma compute_index a t dims i1 i2 i3 : has_shape a t dims ->
  (exists idx, selects dims i1 i2 i3 idx /\ ComputeIndex a i1 i2 i3 = Ret (row_major dims idx)) \/
  ((forall idx, ~ selects dims i1 i2 i3 idx) /\ ComputeIndex a i1 i2 i3 = Exn IndexOutOfRangeException).
Proof.
  intros S. shape S. unfold ComputeIndex. rewrite E1, E2, E3, En.
  destruct dims as [|d1 [|d2 [|d3 [|]]]]; cbn [length] in HL; try lia; cbn [arg nth length].
  - change (Z.of_nat 1 =? 1) with true. cbv zeta. cbv iota. rewrite size1 in *.
    destruct ((i1 <? 0) || (0 <=? i2) || (0 <=? i3)) eqn:C; cbn [throw_if bind].
    + right. split; [|reflexivity]. intros idx (I & A1 & A2 & A3). inversion I as [|? x ? ? B I']; inversion I'; subst. cbn in *. lia.
    + destruct (d1 <=? i1) eqn:C2; cbn [throw_if bind].
      * right. split; [|reflexivity]. intros idx (I & A1 & A2 & A3). inversion I as [|? x ? ? B I']; inversion I'; subst. cbn in *. lia.
      * left. exists [i1]. split; [|cbn [row_major]; f_equal; cbn; lia].
        split; [constructor; [lia|constructor]|]. cbn. lia.
  - change (Z.of_nat 2 =? 1) with false. change (Z.of_nat 2 =? 2) with true. cbv zeta. cbv iota. rewrite size2 in *.
    destruct ((i1 <? 0) || (i2 <? 0) || (0 <=? i3)) eqn:C; cbn [throw_if bind].
    + right. split; [|reflexivity]. intros idx (I & A1 & A2 & A3).
      inversion I as [|? x ? ? B I']; inversion I' as [|? y ? ? B' I'']; inversion I''; subst. cbn in *. lia.
    + destruct ((d1 <=? i1) || (d2 <=? i2)) eqn:C2; cbn [throw_if bind].
      * right. split; [|reflexivity]. intros idx (I & A1 & A2 & A3).
        inversion I as [|? x ? ? B I']; inversion I' as [|? y ? ? B' I'']; inversion I''; subst. cbn in *. lia.
      * left. exists [i1; i2]. split.
        -- split; [constructor; [lia|constructor; [lia|constructor]]|]. cbn. lia.
        -- assert (0 <= i1 * d2 <= 2147483647) by nia. rewrite i32_ret by lia. cbn [bind].
           assert (i1 * d2 + i2 < d1 * d2) by nia. rewrite i32_ret by lia. f_equal. cbn [row_major]. rewrite size1. cbn. lia.
  - change (Z.of_nat 3 =? 1) with false. change (Z.of_nat 3 =? 2) with false. change (Z.of_nat 3 =? 3) with true. cbv zeta. cbv iota. rewrite size3 in *.
    destruct ((i1 <? 0) || (i2 <? 0) || (i3 <? 0)) eqn:C; cbn [throw_if bind].
    + right. split; [|reflexivity]. intros idx (I & A1 & A2 & A3).
      inversion I as [|? x ? ? B I']; inversion I' as [|? y ? ? B' I'']; inversion I'' as [|? z ? ? B'' I3]; inversion I3; subst. cbn in *. lia.
    + destruct ((d1 <=? i1) || (d2 <=? i2) || (d3 <=? i3)) eqn:C2; cbn [throw_if bind].
      * right. split; [|reflexivity]. intros idx (I & A1 & A2 & A3).
        inversion I as [|? x ? ? B I']; inversion I' as [|? y ? ? B' I'']; inversion I'' as [|? z ? ? B'' I3]; inversion I3; subst. cbn in *. lia.
      * left. exists [i1; i2; i3]. split.
        -- split; [constructor; [lia|constructor; [lia|constructor; [lia|constructor]]]|]. cbn. lia.
        -- assert (P : 0 <= i1 * d2 /\ i1 * d2 + i2 + 1 <= d1 * d2) by nia.
           assert (Q : 0 <= (i1 * d2) * d3 /\ 0 <= i2 * d3 /\ (i1 * d2) * d3 + i2 * d3 + d3 <= d1 * d2 * d3) by nia.
           assert (R : i1 * d2 <= i1 * d2 * d3) by nia.
           rewrite (i32_ret (i1 * d2)) by lia. cbn [bind]. rewrite (i32_ret (i1 * d2 * d3)) by lia. cbn [bind].
           rewrite (i32_ret (i2 * d3)) by lia. cbn [bind]. rewrite (i32_ret (i1 * d2 * d3 + i2 * d3)) by lia. cbn [bind].
           rewrite i32_ret by lia. f_equal. cbn [row_major]. rewrite size2, size1. cbn. lia.
Qed.

Lemma element_slice a p : element a p = slice (data a) (Z.to_nat p * Z.to_nat (DataTypeSize (dataType a))) (Z.to_nat (DataTypeSize (dataType a))).
Proof. reflexivity. Qed.

Lemma address a t dims i1 i2 i3 idx : has_shape a t dims -> selects dims i1 i2 i3 idx ->
  let p := row_major dims idx in
  Address a i1 i2 i3 = Ret (p * DataTypeSize t) /\ 0 <= p < size_of dims /\
  0 <= p * DataTypeSize t /\ p * DataTypeSize t + DataTypeSize t <= zlen (data a) /\
  Z.to_nat (p * DataTypeSize t) = (Z.to_nat p * Z.to_nat (DataTypeSize t))%nat.
Proof.
  intros S Sel p. destruct (compute_index a t dims i1 i2 i3 S) as [(idx' & Sel' & E)|(N & _)]; [|elim (N _ Sel)].
  assert (idx' = idx).
  { shape S. destruct Sel as (I & A1 & A2 & A3). destruct Sel' as (I' & A1' & A2' & A3').
    destruct dims as [|d1 [|d2 [|d3 [|]]]]; cbn [length] in HL; try lia.
    - inversion I as [|? x ? ? B J]; inversion J; inversion I' as [|? x' ? ? B' J']; inversion J'; subst. cbn in *. congruence.
    - inversion I as [|? x ? ? B J]; inversion J as [|? y ? ? C K]; inversion K; inversion I' as [|? x' ? ? B' J']; inversion J' as [|? y' ? ? C' K']; inversion K'; subst. cbn in *. congruence.
    - inversion I as [|? x ? ? B J]; inversion J as [|? y ? ? C K]; inversion K as [|? z ? ? D L]; inversion L; 
      inversion I' as [|? x' ? ? B' J']; inversion J' as [|? y' ? ? C' K']; inversion K' as [|? z' ? ? D' L']; inversion L'; subst. cbn in *. congruence. }
  subst idx'. pose proof (row_major_bound dims idx (proj1 Sel)) as B. fold p in B, E.
  pose proof (DataTypeSize_bound t). shape S.
  assert (p * DataTypeSize t + DataTypeSize t <= size_of dims * DataTypeSize t) by nia.
  assert (0 <= p * DataTypeSize t) by nia.
  unfold Address. rewrite E, bind_ret, Et. rewrite i32_ret by lia.
  repeat split; try lia. unfold zlen. lia.
Qed.

Lemma get_value a t dims i1 i2 i3 idx : has_shape a t dims -> selects dims i1 i2 i3 idx ->
  GetValue a i1 i2 i3 = decode t (element a (row_major dims idx)).
Proof.
  intros S Sel. pose proof (address a t dims i1 i2 i3 idx S Sel) as A. cbv zeta in A. destruct A as (A & B & C & D & E).
  assert (Et : dataType a = t) by (shape S; exact Et).
  unfold GetValue. rewrite A, bind_ret, Et.
  pose proof (DataTypeSize_bound t).
  destruct t; try reflexivity; rewrite memread_ok by lia; rewrite bind_ret, element_slice, Et, E; reflexivity.
Qed.

Lemma get_value_out a t dims i1 i2 i3 : has_shape a t dims -> (forall idx, ~ selects dims i1 i2 i3 idx) ->
  GetValue a i1 i2 i3 = Exn IndexOutOfRangeException.
Proof.
  intros S N. destruct (compute_index a t dims i1 i2 i3 S) as [(idx & Sel & E)|(_ & E)]; [elim (N _ Sel)|].
  unfold GetValue, Address. rewrite E. reflexivity.
Qed.

Lemma set_value_out objs a t dims v i1 i2 i3 : has_shape a t dims -> (forall idx, ~ selects dims i1 i2 i3 idx) -> v <> 0 ->
  SetValue objs a v i1 i2 i3 = Exn IndexOutOfRangeException.
Proof.
  intros S N Hv. destruct (compute_index a t dims i1 i2 i3 S) as [(idx & Sel & E)|(_ & E)]; [elim (N _ Sel)|].
  unfold SetValue, Address. rewrite throw_if_false by lia. rewrite E. reflexivity.
Qed.

Lemma has_shape_set_data a t dims d : has_shape a t dims -> length d = length (data a) -> Forall byte d -> has_shape (set_data a d) t dims.
Proof.
  intros S HL' HB. shape S. unfold has_shape, set_data.
  cbn [data dataType dimension1Size dimension2Size dimension3Size dimensionCount totalElementCount]. rewrite HL'. repeat split; try assumption; lia.
Qed.

Lemma set_value objs a t dims v i1 i2 i3 idx z : has_shape a t dims -> selects dims i1 i2 i3 idx -> v <> 0 ->
  encode t v (objs v) = Ret z ->
  exists a', SetValue objs a v i1 i2 i3 = Ret a' /\ has_shape a' t dims /\
    element a' (row_major dims idx) = le_bytes (Z.to_nat (DataTypeSize t)) z /\
    (forall p, 0 <= p < size_of dims -> p <> row_major dims idx -> element a' p = element a p).
Proof.
  intros S Sel Hv Henc. pose proof (address a t dims i1 i2 i3 idx S Sel) as A. cbv zeta in A. destruct A as (A & B & C & D & E).
  assert (Et : dataType a = t) by (shape S; exact Et).
  unfold SetValue. rewrite throw_if_false by lia. rewrite bind_ret, A, bind_ret, Et, Henc, bind_ret.
  pose proof (DataTypeSize_bound t).
  assert (LB : length (le_bytes (Z.to_nat (DataTypeSize t)) z) = Z.to_nat (DataTypeSize t)) by apply le_bytes_length.
  rewrite memwrite_ok by (unfold zlen in *; rewrite ?LB; lia). rewrite bind_ret.
  eexists. split; [reflexivity|]. 
  set (b := le_bytes (Z.to_nat (DataTypeSize t)) z) in *.
  set (off := Z.to_nat (row_major dims idx * DataTypeSize t)) in *.
  assert (R : (off + length b <= length (data a))%nat) by (unfold off, zlen in *; lia).
  split; [|split].
  - apply has_shape_set_data; [exact S|apply splice_length; exact R|].
    apply splice_Forall; [shape S; exact Hbytes|apply le_bytes_byte].
  - rewrite element_slice. unfold set_data. cbn [data dataType]. rewrite Et, <- E. fold off. rewrite <- LB. apply slice_splice_same. exact R.
  - intros p Hp Np. rewrite !element_slice. unfold set_data. cbn [data dataType]. rewrite Et. fold off.
    set (n := Z.to_nat (DataTypeSize t)) in *. rewrite E in *. subst off.
    destruct (Z_lt_ge_dec p (row_major dims idx)) as [L|G].
    + apply slice_splice_before; [exact R|]. nia.
    + apply slice_splice_after; [exact R|]. rewrite LB. nia.
Qed.

(** Reading back a stored number. *)
Definition elem_bits (t : dtype) : Z := 8 * DataTypeSize t.
Lemma bytes_value t z : le_value (le_bytes (Z.to_nat (DataTypeSize t)) z) = z mod 2 ^ elem_bits t.
Proof. rewrite le_value_bytes. pose proof (DataTypeSize_bound t). rewrite Z2Nat.id by lia. reflexivity. Qed.

Lemma decode_int it z : decode (dtype_of it) (le_bytes (Z.to_nat (DataTypeSize (dtype_of it))) z) = Ret (GBox (BInt it (cast_to it z))).
Proof.
  unfold decode. rewrite bytes_value.
  assert (M : forall t, isigned t = true -> cast_s (ibits t) (z mod 2 ^ ibits t) = cast_to t z).
  { intros t Ht. transitivity (cast_to t (z mod 2 ^ ibits t)); [unfold cast_to; rewrite Ht; reflexivity|].
    apply cast_to_mod. destruct t; cbn [ibits];
      match goal with |- context[2 ^ ?b] => let v := eval compute in (2 ^ b) in change (2 ^ b) with v end; lia. }
  destruct it; cbn [dtype_of]; do 2 f_equal; f_equal; try reflexivity; try (apply (M ISByte); reflexivity); try (apply (M IInt16); reflexivity);
    try (apply (M IInt32); reflexivity); try (apply (M IInt64); reflexivity); try (apply (M IChar); reflexivity).
Qed.

Lemma cast_narrow a t z : (exists k, 2 ^ ibits a = k * 2 ^ ibits t) -> cast_to t (cast_to a z) = cast_to t z.
Proof.
  intros (k & Hk). apply cast_to_mod. destruct (cast_to_spec a z) as (_ & E). rewrite Hk in E.
  assert (P : 0 < 2 ^ ibits t) by (destruct t; reflexivity).
  assert (K : 0 < k). { assert (0 < 2 ^ ibits a) by (destruct a; reflexivity). nia. }
  apply Z.mod_divide in E; [|nia]. apply Z.mod_divide; [lia|]. destruct E as (q & E). exists (q * k). lia.
Qed.

Lemma encode_int it t z v : in_range t z = true ->
  exists n, encode (dtype_of it) v (BInt t z) = Ret n /\ cast_to it n = cast_to it z.
Proof.
  intros H. destruct it; cbn [dtype_of encode]; try (rewrite get_AsInt_int by exact H); try (cbn [get_AsChar]); eexists; (split; [reflexivity|]);
    apply cast_narrow; cbn [ibits]; first [exists 1; reflexivity | exists (2^16); reflexivity | exists (2^24); reflexivity].
Qed.

Lemma u_small z n : 0 <= z < 2 ^ n -> z mod 2 ^ n = z.
Proof. intros. apply Z.mod_small. lia. Qed.

(** Offsets of elements as natural numbers. *)
Lemma off_before p q z : 0 <= p < q -> 0 <= z -> (Z.to_nat p * Z.to_nat z + Z.to_nat z <= Z.to_nat (q * z))%nat.
Proof. intros. rewrite Z2Nat.inj_mul by lia. replace (Z.to_nat q) with (Z.to_nat p + 1 + Z.to_nat (q - p - 1))%nat by lia. rewrite !Nat.mul_add_distr_r.
  pose proof (Nat.le_0_l (Z.to_nat (q - p - 1) * Z.to_nat z)). lia. Qed.
Lemma off_after i n p z : 0 <= i -> 0 <= n -> i + n <= p -> 0 <= z -> (Z.to_nat (i * z) + Z.to_nat (n * z) <= Z.to_nat p * Z.to_nat z)%nat.
Proof. intros. rewrite !Z2Nat.inj_mul by lia. replace (Z.to_nat p) with (Z.to_nat i + Z.to_nat n + Z.to_nat (p - i - n))%nat by lia. rewrite !Nat.mul_add_distr_r.
  pose proof (Nat.le_0_l (Z.to_nat (p - i - n) * Z.to_nat z)). lia. Qed.
Lemma off_from i p z : 0 <= i <= p -> 0 <= z -> (Z.to_nat (i * z) <= Z.to_nat p * Z.to_nat z)%nat.
Proof. intros. rewrite !Z2Nat.inj_mul by lia. apply Nat.mul_le_mono_r. lia. Qed.
Lemma off_to i n p z : 0 <= i -> 0 <= n -> 0 <= p < i + n -> 0 <= z -> (Z.to_nat p * Z.to_nat z + Z.to_nat z <= Z.to_nat (i * z) + Z.to_nat (n * z))%nat.
Proof. intros. rewrite <- Z2Nat.inj_add by lia. rewrite <- Z.mul_add_distr_r. apply off_before; lia. Qed.
Lemma off_sub i n p z : 0 <= i <= p -> 0 <= n -> p < i + n -> 0 <= z ->
  (Z.to_nat p * Z.to_nat z - Z.to_nat (i * z) + Z.to_nat z <= Z.to_nat (n * z))%nat.
Proof. intros. pose proof (off_to i n p z). pose proof (off_from i p z). lia. Qed.

(** ** C23 *)
Lemma dtype_eqb_eq a b : dtype_eqb a b = true <-> a = b.
Proof. destruct a, b; cbn; split; intros; try reflexivity; discriminate. Qed.

Lemma copy_ok h ps pd t ds dd si di n : ps <> pd -> has_shape (h ps) t ds -> has_shape (h pd) t dd -> length ds = length dd ->
  0 <= si -> 0 <= di -> 0 <= n -> si + n <= size_of ds -> di + n <= size_of dd ->
  exists h', Array_Copy h (Some ps) si (Some pd) di n = Ret h' /\ has_shape (h' pd) t dd /\
    (forall q, q <> pd -> h' q = h q) /\
    (forall p, 0 <= p < size_of dd ->
       element (h' pd) p = if (di <=? p) && (p <? di + n) then element (h ps) (p - di + si) else element (h pd) p).
Proof.
  intros Hne Ss Sd HLL Hs Hd Hn Rs Rd. pose proof (DataTypeSize_bound t) as HT. set (z := DataTypeSize t) in *.
  assert (Es : dataType (h ps) = t) by (shape Ss; exact Et). assert (Ed : dataType (h pd) = t) by (shape Sd; exact Et).
  assert (Ts : totalElementCount (h ps) = size_of ds) by (shape Ss; exact Etot).
  assert (Td : totalElementCount (h pd) = size_of dd) by (shape Sd; exact Etot).
  assert (Cs : dimensionCount (h ps) = Z.of_nat (length ds)) by (shape Ss; exact En).
  assert (Cd : dimensionCount (h pd) = Z.of_nat (length dd)) by (shape Sd; exact En).
  assert (Bs : size_of ds <= 2147483647 /\ size_of ds * z <= 2147483647 /\ zlen (data (h ps)) = size_of ds * z) by (shape Ss; unfold zlen, z; lia).
  assert (Bd : size_of dd <= 2147483647 /\ size_of dd * z <= 2147483647 /\ zlen (data (h pd)) = size_of dd * z) by (shape Sd; unfold zlen, z; lia).
  unfold Array_Copy. rewrite Es, Ed, Ts, Td, Cs, Cd, HLL.
  rewrite throw_if_false by lia. rewrite bind_ret. rewrite throw_if_false by lia. rewrite bind_ret.
  rewrite (i32_ret (si + n)) by lia. rewrite bind_ret. replace (size_of ds <? si + n) with false by lia.
  rewrite (i32_ret (di + n)) by lia. rewrite !bind_ret. rewrite throw_if_false by lia. rewrite bind_ret.
  rewrite throw_if_false by lia. rewrite bind_ret. replace (dtype_eqb t t) with true by (symmetry; apply dtype_eqb_eq; reflexivity).
  cbn [negb throw_if]. rewrite bind_ret. fold z.
  rewrite (i32_ret (di * z)) by nia. rewrite bind_ret. rewrite (i32_ret (si * z)) by nia. rewrite bind_ret.
  rewrite (i32_ret (n * z)) by nia. rewrite bind_ret. replace (Nat.eqb ps pd) with false by (symmetry; apply Nat.eqb_neq; exact Hne).
  unfold memcpy. replace (n * z <? 0) with false by nia.
  rewrite memread_ok by nia. rewrite bind_ret.
  set (sl := slice (data (h ps)) (Z.to_nat (si * z)) (Z.to_nat (n * z))).
  assert (LS : length sl = Z.to_nat (n * z)). { apply slice_length. unfold zlen in *. nia. }
  rewrite memwrite_ok by (unfold zlen in *; rewrite ?LS; nia). rewrite bind_ret.
  eexists. split; [reflexivity|].
  assert (R : (Z.to_nat (di * z) + length sl <= length (data (h pd)))%nat) by (unfold zlen in *; rewrite LS; nia).
  split; [|split].
  - unfold hset. rewrite Nat.eqb_refl. apply has_shape_set_data; [exact Sd|apply splice_length; exact R|].
    apply splice_Forall; [shape Sd; exact Hbytes|apply slice_Forall; shape Ss; exact Hbytes].
  - intros q Hq. unfold hset. rewrite (proj2 (Nat.eqb_neq q pd) Hq). reflexivity.
  - intros p Hp. unfold hset. rewrite Nat.eqb_refl. rewrite !element_slice. unfold set_data. cbn [data dataType]. rewrite Es, Ed. fold z.
    destruct ((di <=? p) && (p <? di + n)) eqn:C.
    + rewrite slice_splice_inside; [|exact R|apply off_from; lia|rewrite LS; apply off_to; lia].
      unfold sl. rewrite slice_slice by (apply off_sub; lia). f_equal. rewrite !Z2Nat.inj_mul by lia.
      replace (Z.to_nat (p - di + si)) with (Z.to_nat p - Z.to_nat di + Z.to_nat si)%nat by lia.
      rewrite Nat.mul_add_distr_r, Nat.mul_sub_distr_r.
      assert (Z.to_nat di * Z.to_nat z <= Z.to_nat p * Z.to_nat z)%nat by (apply Nat.mul_le_mono_r; lia). lia.
    + destruct (Z_lt_ge_dec p di) as [L|G].
      * apply slice_splice_before; [exact R|apply off_before; lia].
      * apply slice_splice_after; [exact R|rewrite LS; apply off_after; lia].
Qed.

Lemma copy_throws h ps pd ts td ds dd si di n : has_shape (h ps) ts ds -> has_shape (h pd) td dd ->
  in_i32 si = true -> in_i32 di = true -> in_i32 n = true -> si + n <= 2147483647 -> di + n <= 2147483647 ->
  (n < 0 -> Array_Copy h (Some ps) si (Some pd) di n = Exn ArgumentOutOfRangeException) /\
  (0 <= n -> (si < 0 \/ di < 0 \/ size_of ds < si + n \/ size_of dd < di + n) -> Array_Copy h (Some ps) si (Some pd) di n = Exn ArgumentException) /\
  (0 <= n -> 0 <= si -> 0 <= di -> si + n <= size_of ds -> di + n <= size_of dd ->
     (length ds <> length dd -> Array_Copy h (Some ps) si (Some pd) di n = Exn RankException) /\
     (length ds = length dd -> ts <> td -> Array_Copy h (Some ps) si (Some pd) di n = Exn NotImplementedException)).
Proof.
  intros Ss Sd Hs Hd Hn B1 B2. rewrite in_i32_iff in *.
  assert (Es : dataType (h ps) = ts) by (shape Ss; exact Et). assert (Ed : dataType (h pd) = td) by (shape Sd; exact Et).
  assert (Ts : totalElementCount (h ps) = size_of ds) by (shape Ss; exact Etot).
  assert (Td : totalElementCount (h pd) = size_of dd) by (shape Sd; exact Etot).
  assert (Cs : dimensionCount (h ps) = Z.of_nat (length ds)) by (shape Ss; exact En).
  assert (Cd : dimensionCount (h pd) = Z.of_nat (length dd)) by (shape Sd; exact En).
  unfold Array_Copy. rewrite Es, Ed, Ts, Td, Cs, Cd. split; [|split].
  - intros N. rewrite throw_if_true by lia. reflexivity.
  - intros N H. rewrite throw_if_false by lia. rewrite bind_ret.
    destruct ((si <? 0) || (di <? 0)) eqn:C; [reflexivity|]. cbn [throw_if bind].
    rewrite (i32_ret (si + n)) by lia. rewrite bind_ret. destruct (size_of ds <? si + n) eqn:C2; [reflexivity|].
    rewrite (i32_ret (di + n)) by lia. rewrite !bind_ret. rewrite throw_if_true by lia. reflexivity.
  - intros N S1 D1 R1 R2. rewrite throw_if_false by lia. rewrite bind_ret.
    rewrite throw_if_false by lia. rewrite bind_ret.
    rewrite (i32_ret (si + n)) by lia. rewrite bind_ret. replace (size_of ds <? si + n) with false by lia.
    rewrite (i32_ret (di + n)) by lia. rewrite !bind_ret. rewrite throw_if_false by lia. rewrite bind_ret. split.
    + intros NL. rewrite throw_if_true by lia. reflexivity.
    + intros EL NT. rewrite throw_if_false by lia. rewrite bind_ret. rewrite throw_if_true; [reflexivity|].
      apply negb_true_iff. destruct (dtype_eqb ts td) eqn:E; [|reflexivity]. apply dtype_eqb_eq in E. contradiction.
Qed.

(** ** C24 *)
Lemma slice_repeat {A} (x : A) n i k : (i + k <= n)%nat -> slice (repeat x n) i k = repeat x k.
Proof.
  intros H. unfold slice. replace n with (i + (k + (n - i - k)))%nat by lia. rewrite !repeat_app.
  rewrite skipn_app. rewrite skipn_all2 by (rewrite repeat_length; lia). rewrite repeat_length, Nat.sub_diag. cbn [app skipn].
  rewrite firstn_app, repeat_length, Nat.sub_diag. cbn [firstn]. rewrite app_nil_r. rewrite firstn_all2 by (rewrite repeat_length; lia). reflexivity.
Qed.

Lemma clear_ok h p t d i n : has_shape (h p) t [d] -> 0 <= i -> 0 <= n -> i + n <= d ->
  exists h', Array_Clear h (Some p) i n = Ret h' /\ has_shape (h' p) t [d] /\ (forall q, q <> p -> h' q = h q) /\
    (forall k, 0 <= k < d -> element (h' p) k = if (i <=? k) && (k <? i + n) then repeat 0 (Z.to_nat (DataTypeSize t)) else element (h p) k).
Proof.
  intros S Hi Hn R. pose proof (DataTypeSize_bound t) as HT. set (z := DataTypeSize t) in *.
  assert (Et : dataType (h p) = t) by (shape S; exact Et).
  assert (C : dimensionCount (h p) = 1) by (shape S; exact En).
  assert (B : d <= 2147483647 /\ d * z <= 2147483647 /\ zlen (data (h p)) = d * z) by (shape S; rewrite size1 in *; unfold zlen, z; lia).
  unfold Array_Clear, VerifyIndexWithinRangeOfArray, EnsureSingleDimension. rewrite C, Et. cbn [negb Z.eqb Pos.eqb throw_if]. rewrite !bind_ret.
  rewrite (i32_ret (i + n)) by lia. rewrite !bind_ret. fold z. rewrite (i32_ret (i * z)) by nia. rewrite bind_ret.
  rewrite (i32_ret (n * z)) by nia. rewrite bind_ret. unfold memset. replace (n * z <? 0) with false by nia.
  set (b := repeat 0 (Z.to_nat (n * z))). assert (LB : length b = Z.to_nat (n * z)) by apply repeat_length.
  rewrite memwrite_ok by (unfold zlen in *; rewrite ?LB; nia). rewrite bind_ret.
  eexists. split; [reflexivity|].
  assert (Rb : (Z.to_nat (i * z) + length b <= length (data (h p)))%nat) by (unfold zlen in *; rewrite LB; nia).
  split; [|split].
  - unfold hset. rewrite Nat.eqb_refl. apply has_shape_set_data; [exact S|apply splice_length; exact Rb|].
    apply splice_Forall; [shape S; exact Hbytes|apply Forall_repeat; split; lia].
  - intros q Hq. unfold hset. rewrite (proj2 (Nat.eqb_neq q p) Hq). reflexivity.
  - intros k Hk. unfold hset. rewrite Nat.eqb_refl. rewrite !element_slice. unfold set_data. cbn [data dataType]. rewrite Et. fold z.
    destruct ((i <=? k) && (k <? i + n)) eqn:Ck.
    + rewrite slice_splice_inside; [|exact Rb|apply off_from; lia|rewrite LB; apply off_to; lia]. apply slice_repeat. apply off_sub; lia.
    + destruct (Z_lt_ge_dec k i) as [L|G].
      * apply slice_splice_before; [exact Rb|apply off_before; lia].
      * apply slice_splice_after; [exact Rb|rewrite LB; apply off_after; lia].
Qed.

Lemma clear_bad h p t d i n : has_shape (h p) t [d] -> 0 < DataTypeSize t -> in_i32 (i + n) = true ->
  in_i32 (i * DataTypeSize t) = true -> in_i32 (n * DataTypeSize t) = true -> i < 0 \/ n < 0 \/ d < i + n ->
  Array_Clear h (Some p) i n = UB OutOfBoundsWrite.
Proof.
  intros S HT Hin Hi Hn Bad. rewrite in_i32_iff in *.
  assert (Et : dataType (h p) = t) by (shape S; exact Et).
  assert (C : dimensionCount (h p) = 1) by (shape S; exact En).
  assert (B : zlen (data (h p)) = d * DataTypeSize t) by (shape S; rewrite size1 in *; unfold zlen; lia).
  unfold Array_Clear, VerifyIndexWithinRangeOfArray, EnsureSingleDimension. rewrite C, Et. cbn [negb Z.eqb Pos.eqb throw_if]. rewrite !bind_ret.
  rewrite (i32_ret (i + n)) by lia. rewrite !bind_ret. rewrite (i32_ret (i * _)) by lia. rewrite bind_ret.
  rewrite (i32_ret (n * _)) by lia. rewrite bind_ret. unfold memset. destruct (n * DataTypeSize t <? 0) eqn:E; [reflexivity|].
  unfold memwrite. set (b := repeat 0 _). assert (LB : zlen b = n * DataTypeSize t) by (unfold b, zlen; rewrite repeat_length; nia).
  rewrite LB, B. replace ((i * DataTypeSize t <? 0) || (d * DataTypeSize t <? i * DataTypeSize t + n * DataTypeSize t)) with true; [reflexivity|].
  symmetry. apply orb_true_iff. destruct (Z_lt_ge_dec i 0); [left; nia|right; nia].
Qed.

(** ** C25 *)

Lemma get_ref a t d i : has_shape a t [d] -> t = ObjectType \/ t = StringType -> 0 <= i < d -> GetValue a i (-1) (-1) = Ret (GRef (ref_at a i)).
Proof.
  intros S Ht Hi. rewrite (get_value a t [d] i (-1) (-1) [i] S).
  - unfold ref_at. cbn [row_major]. rewrite Z.add_0_r. change (size_of []) with 1. rewrite Z.mul_1_r.
    destruct Ht; subst; reflexivity.
  - split; [constructor; [exact Hi|constructor]|]. cbn. lia.
Qed.


Lemma indexof_loop equals eq a t d value : has_shape a t [d] -> t = ObjectType \/ t = StringType ->
  (forall o v, o <> 0 -> equals o v = Ret (eq o v)) ->
  forall n i, 0 <= i -> i + Z.of_nat n <= d ->
  exists r, IndexOf_loop equals a value i n = Ret r /\
   ((r = -1 /\ forall k, i <= k < i + Z.of_nat n -> matches eq value (ref_at a k) = false) \/
    (i <= r < i + Z.of_nat n /\ matches eq value (ref_at a r) = true /\ forall k, i <= k < r -> matches eq value (ref_at a k) = false)).
Proof.
  intros S Ht He. induction n as [|n IH]; intros i Hi Hn; cbn [IndexOf_loop].
  - exists (-1). split; [reflexivity|]. left. split; [reflexivity|]. intros; lia.
  - rewrite (get_ref a t d i) by (try assumption; lia). rewrite bind_ret.
    assert (F : (if ref_at a i =? 0 then Ret (value =? 0) else equals (ref_at a i) value) = Ret (matches eq value (ref_at a i))).
    { unfold matches. destruct (ref_at a i =? 0) eqn:E; [reflexivity|]. apply He. lia. }
    rewrite F, bind_ret. destruct (matches eq value (ref_at a i)) eqn:M.
    + exists i. split; [reflexivity|]. right. split; [lia|]. split; [exact M|]. intros; lia.
    + destruct (IH (i + 1)) as (r & E & [(-> & A)|(B & C & D)]); try lia.
      * exists (-1). split; [exact E|]. left. split; [reflexivity|]. intros k Hk. destruct (Z.eq_dec k i); [subst; exact M|apply A; lia].
      * exists r. split; [exact E|]. right. split; [lia|]. split; [exact C|]. intros k Hk. destruct (Z.eq_dec k i); [subst; exact M|apply D; lia].
Qed.

Lemma indexof equals eq h p t d value start count : has_shape (h p) t [d] -> t = ObjectType \/ t = StringType ->
  (forall o v, o <> 0 -> equals o v = Ret (eq o v)) -> 0 <= start <= d -> count <= d - start ->
  let n := if count <? 0 then d - start else count in
  exists r, Array_IndexOf equals h (Some p) value start count = Ret r /\
   ((r = -1 /\ forall k, start <= k < start + n -> matches eq value (ref_at (h p) k) = false) \/
    (start <= r < start + n /\ matches eq value (ref_at (h p) r) = true /\ forall k, start <= k < r -> matches eq value (ref_at (h p) k) = false)).
Proof.
  intros S Ht He Hs Hc n.
  assert (Et : dataType (h p) = t) by (shape S; exact Et).
  assert (C : dimensionCount (h p) = 1) by (shape S; exact En).
  assert (T : totalElementCount (h p) = d /\ d <= 2147483647) by (shape S; rewrite size1 in *; auto). destruct T as (T & BD).
  unfold Array_IndexOf. rewrite C, T, Et. cbn [negb Z.eqb Pos.eqb throw_if]. rewrite bind_ret.
  assert (N : (if count <? 0 then i32 (d - start) else Ret count) = Ret n).
  { unfold n. destruct (count <? 0) eqn:E; [apply i32_ret; lia|reflexivity]. }
  rewrite N, bind_ret. unfold GetLowerBound. rewrite C. cbn [Z.ltb Z.compare throw_if]. rewrite !bind_ret.
  assert (Bn : 0 <= n <= d - start) by (unfold n; destruct (count <? 0) eqn:E; lia).
  rewrite throw_if_false by lia. rewrite bind_ret. rewrite throw_if_false by lia. rewrite bind_ret.
  rewrite throw_if_false by (destruct Ht; subst t; reflexivity). rewrite bind_ret.
  rewrite (i32_ret (start + n)) by lia. rewrite bind_ret.
  destruct (indexof_loop equals eq (h p) t d value S Ht He (Z.to_nat n) start) as (r & E & X); try lia.
  exists r. split; [exact E|]. rewrite Z2Nat.id in X by lia. exact X.
Qed.

Lemma Forall2_len {A B} (R : A -> B -> Prop) l l' : Forall2 R l l' -> length l = length l'.
Proof. induction 1; cbn; congruence. Qed.
