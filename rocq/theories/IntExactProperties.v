(** * C15, C16: what Parse and TryParse answer for every string
    The [_partial] theorems of IntProperties cover the texts for which the code does what .NET does.
    Here the answer of each of the sixteen functions is given for every text without exception, so
    that the deviations (wrapping modulo 2^64, the lower bounds that are never tested, the missing
    sign tests) are pinned down exactly. *)
From Verif Require Import Tac Base IntModel IntSpec IntProofs.

Local Ltac casts := unfold cast_i8, cast_i16, cast_i32, cast_i64, cast_u8, cast_u16, cast_u32, cast_u64, cast_s, cast_u;
  change (2 ^ (8 - 1)) with 128; change (2 ^ 8) with 256;
  change (2 ^ (16 - 1)) with 32768; change (2 ^ 16) with 65536;
  change (2 ^ (32 - 1)) with 2147483648; change (2 ^ 32) with 4294967296;
  change (2 ^ (64 - 1)) with 9223372036854775808; change (2 ^ 64) with 18446744073709551616.

Lemma wrapped_cast_s bits z : 1 <= bits -> wrapped (- 2 ^ (bits - 1)) (2 ^ bits) z (cast_s bits z).
Proof.
  intros Hb. unfold wrapped, cast_s.
  assert (P : 2 ^ bits = 2 * 2 ^ (bits - 1)) by (rewrite <- Z.pow_succ_r by lia; f_equal; lia).
  assert (0 < 2 ^ (bits - 1)) by (apply Z.pow_pos_nonneg; lia).
  rewrite P. set (h := 2 ^ (bits - 1)) in *. pose proof (Z.mod_pos_bound (z + h) (2 * h) ltac:(lia)).
  split; [lia|]. exists (- ((z + h) / (2 * h))). rewrite (Z.mod_eq (z + h) (2 * h)) by lia. ring.
Qed.
Lemma wrapped_neg bits z y : 1 <= bits -> y = cast_s bits z * -1 ->
  wrapped (- 2 ^ (bits - 1)) (2 ^ bits) (- z) (cast_s bits y).
Proof.
  intros Hb ->. destruct (wrapped_cast_s bits z Hb) as (_ & q & E).
  destruct (wrapped_cast_s bits (cast_s bits z * -1) Hb) as (R & q' & E').
  split; [exact R|]. exists (q' - q). rewrite E' at 1. rewrite E at 1. ring.
Qed.

Section All.
Context (ws : Z -> bool) (Hws : space_ok ws).

(** Without minus sign: the digits count modulo 2^64 and the upper bound is tested (for Int64 it is
    not, the value wraps). *)
Theorem C15_plus_exact_partial : forall s ds, lax_integer_text ws s 1 ds ->
  let m := decimal_value ds mod 18446744073709551616 in
  let parsed max := if m <=? max then Ret m else Exn OverflowException in
  SByte_Parse ws (Some s) = parsed 127 /\ Byte_Parse ws (Some s) = parsed 255 /\
  Int16_Parse ws (Some s) = parsed 32767 /\ UInt16_Parse ws (Some s) = parsed 65535 /\
  Int32_Parse ws (Some s) = parsed 2147483647 /\ UInt32_Parse ws (Some s) = parsed 4294967295 /\
  UInt64_Parse ws (Some s) = Ret m /\
  (exists r, wrapped (-9223372036854775808) 18446744073709551616 m r /\
     Int64_Parse ws (Some s) = Ret r /\ Int64_TryParse ws (Some s) = Ret (true, r)) /\
  (exists r, wrapped (-128) 256 m r /\ SByte_TryParse ws (Some s) = Ret (m <=? 127, r)) /\
  (exists r, wrapped 0 256 m r /\ Byte_TryParse ws (Some s) = Ret (m <=? 255, r)) /\
  (exists r, wrapped (-32768) 65536 m r /\ Int16_TryParse ws (Some s) = Ret (m <=? 32767, r)) /\
  (exists r, wrapped 0 65536 m r /\ UInt16_TryParse ws (Some s) = Ret (m <=? 65535, r)) /\
  (exists r, wrapped (-2147483648) 4294967296 m r /\ Int32_TryParse ws (Some s) = Ret (m <=? 2147483647, r)) /\
  (exists r, wrapped 0 4294967296 m r /\ UInt32_TryParse ws (Some s) = Ret (m <=? 4294967295, r)) /\
  UInt64_TryParse ws (Some s) = Ret (true, m).
Proof.
  intros s ds Ht m parsed. pose proof (lax_accept ws Hws _ _ _ Ht) as P. change two64 with 18446744073709551616 in P. fold m in P.
  assert (Hm : 0 <= m < 18446744073709551616) by (apply Z.mod_pos_bound; lia). clearbody m.
  unfold SByte_Parse, Byte_Parse, Int16_Parse, UInt16_Parse, Int32_Parse, UInt32_Parse, UInt64_Parse, Int64_Parse,
    SByte_TryParse, Byte_TryParse, Int16_TryParse, UInt16_TryParse, Int32_TryParse, UInt32_TryParse, UInt64_TryParse, Int64_TryParse.
  rewrite P. cbn [bind]. cbv beta iota. cbn [negb]. clear P Ht.
  change (0 <? 1) with true. change (1 <? 0) with false. cbn [andb orb negb]. unfold parsed.
  assert (B8 : -128 <= cast_i8 m < 128) by (casts; lia).
  assert (B16 : -32768 <= cast_i16 m < 32768) by (casts; lia).
  assert (B32 : -2147483648 <= cast_i32 m < 2147483648) by (casts; lia).
  assert (B64 : -9223372036854775808 <= cast_i64 m < 9223372036854775808) by (casts; lia).
  assert (Flip : forall k, (k <? m) = negb (m <=? k)) by (intros k; lia).
  rewrite !Flip, !Bool.negb_involutive, !Bool.andb_true_r.
  assert (Idem : forall b z, 1 <= b -> cast_s b (cast_s b z) = cast_s b z).
  { intros b z Hb. destruct (wrapped_cast_s b z Hb) as (R & _). unfold cast_s at 1.
    assert (Q : 2 ^ b = 2 * 2 ^ (b - 1)) by (rewrite <- Z.pow_succ_r by lia; f_equal; lia).
    rewrite Z.mod_small by (rewrite Q in *; lia). ring. }
  split; [|split; [|split; [|split; [|split; [|split; [|split; [|split; [|split; [|split; [|split; [|split; [|split; [|split]]]]]]]]]]]]].
  - destruct (m <=? 127) eqn:E; cbn [negb]; [|reflexivity].
    assert (C : cast_i8 m = m) by (casts; lia). rewrite C, Z.mul_1_r, i32_ret by lia. cbn [bind]. rewrite C. reflexivity.
  - destruct (m <=? 255) eqn:E; cbn [negb]; [|reflexivity]. f_equal. casts. lia.
  - destruct (m <=? 32767) eqn:E; cbn [negb]; [|reflexivity].
    assert (C : cast_i16 m = m) by (casts; lia). rewrite C, Z.mul_1_r, i32_ret by lia. cbn [bind]. rewrite C. reflexivity.
  - destruct (m <=? 65535) eqn:E; cbn [negb]; [|reflexivity].
    assert (C : cast_u16 m = m) by (casts; lia). rewrite C, Z.mul_1_r, i32_ret by lia. cbn [bind]. rewrite C. reflexivity.
  - destruct (m <=? 2147483647) eqn:E; cbn [negb]; [|reflexivity].
    rewrite cast_i32_id, Z.mul_1_r, i32_ret by lia. reflexivity.
  - destruct (m <=? 4294967295) eqn:E; cbn [negb]; [|reflexivity].
    f_equal. casts. change (1 mod 4294967296) with 1. lia.
  - replace (m <=? 18446744073709551615) with true by lia. reflexivity.
  - exists (cast_i64 m). split; [apply (wrapped_cast_s 64); lia|]. rewrite Z.mul_1_r, i64_ret by lia. split; reflexivity.
  - exists (cast_i8 m). split; [apply (wrapped_cast_s 8); lia|]. rewrite Z.mul_1_r, i32_ret by lia. cbn [bind].
    unfold cast_i8. rewrite Idem by lia. reflexivity.
  - exists (cast_u8 m). split; [|reflexivity]. split; [casts; lia|]. exists (- (m / 256)). casts. rewrite Z.mod_eq by lia. ring.
  - exists (cast_i16 m). split; [apply (wrapped_cast_s 16); lia|]. rewrite Z.mul_1_r, i32_ret by lia. cbn [bind].
    unfold cast_i16. rewrite Idem by lia. reflexivity.
  - exists (cast_u16 m). split; [|reflexivity]. split; [casts; lia|]. exists (- (m / 65536)). casts. rewrite Z.mod_eq by lia. ring.
  - exists (cast_i32 m). split; [apply (wrapped_cast_s 32); lia|]. rewrite Z.mul_1_r, i32_ret by lia. reflexivity.
  - exists (cast_u32 m). split; [|reflexivity]. split; [casts; lia|]. exists (- (m / 4294967296)). casts. rewrite Z.mod_eq by lia. ring.
  - replace (m <=? 18446744073709551615) with true by lia. reflexivity.
Qed.

(** With minus sign: the signed types reject nothing but a band of magnitudes just below 2^64 (the
    unsigned magnitude, read as a signed number, is compared with the minimum), Int32 and Int64 have
    undefined behaviour when the wrapped magnitude is the minimum, UInt16/UInt32/UInt64 Parse accept
    the text and negate modulo the type size (UInt64 does not even negate). *)
Theorem C15_minus_exact_partial : forall s ds, lax_integer_text ws s (-1) ds ->
  let m := decimal_value ds mod 18446744073709551616 in
  let band min := (9223372036854775808 <=? m) && (m <? 18446744073709551616 + min) in
  (exists r, wrapped (-128) 256 (- m) r /\
     SByte_Parse ws (Some s) = (if band (-128) then Exn OverflowException else Ret r) /\
     SByte_TryParse ws (Some s) = Ret (negb (band (-128)), r)) /\
  (exists r, wrapped (-32768) 65536 (- m) r /\
     Int16_Parse ws (Some s) = (if band (-32768) then Exn OverflowException else Ret r) /\
     Int16_TryParse ws (Some s) = Ret (negb (band (-32768)), r)) /\
  (exists r, wrapped (-2147483648) 4294967296 (- m) r /\
     (r <> -2147483648 ->
        Int32_Parse ws (Some s) = (if band (-2147483648) then Exn OverflowException else Ret r) /\
        Int32_TryParse ws (Some s) = Ret (negb (band (-2147483648)), r)) /\
     (r = -2147483648 ->
        Int32_Parse ws (Some s) = (if band (-2147483648) then Exn OverflowException else UB SignedOverflow) /\
        Int32_TryParse ws (Some s) = UB SignedOverflow)) /\
  (exists r, wrapped (-9223372036854775808) 18446744073709551616 (- m) r /\
     (r <> -9223372036854775808 -> Int64_Parse ws (Some s) = Ret r /\ Int64_TryParse ws (Some s) = Ret (true, r)) /\
     (r = -9223372036854775808 -> Int64_Parse ws (Some s) = UB SignedOverflow /\ Int64_TryParse ws (Some s) = UB SignedOverflow)) /\
  Byte_Parse ws (Some s) = Exn OverflowException /\
  (exists r, Byte_TryParse ws (Some s) = Ret (false, r)) /\
  (exists r, wrapped 0 65536 (- m) r /\ UInt16_Parse ws (Some s) = (if 65535 <? m then Exn OverflowException else Ret r)) /\
  (exists r, UInt16_TryParse ws (Some s) = Ret (false, r)) /\
  (exists r, wrapped 0 4294967296 (- m) r /\ UInt32_Parse ws (Some s) = (if 4294967295 <? m then Exn OverflowException else Ret r)) /\
  (exists r, UInt32_TryParse ws (Some s) = Ret (false, r)) /\
  UInt64_Parse ws (Some s) = Ret m /\ UInt64_TryParse ws (Some s) = Ret (false, m).
Proof.
  intros s ds Ht m band. pose proof (lax_accept ws Hws _ _ _ Ht) as P. change two64 with 18446744073709551616 in P. fold m in P.
  assert (Hm : 0 <= m < 18446744073709551616) by (apply Z.mod_pos_bound; lia). clearbody m.
  unfold SByte_Parse, Byte_Parse, Int16_Parse, UInt16_Parse, Int32_Parse, UInt32_Parse, UInt64_Parse, Int64_Parse,
    SByte_TryParse, Byte_TryParse, Int16_TryParse, UInt16_TryParse, Int32_TryParse, UInt32_TryParse, UInt64_TryParse, Int64_TryParse.
  rewrite P. cbn [bind]. cbv beta iota. cbn [negb]. clear P Ht.
  change (0 <? -1) with false. change (-1 <? 0) with true. cbn [andb orb negb]. unfold band.
  assert (Band : forall min, -9223372036854775808 <= min <= 0 ->
    (cast_i64 m <? min) = (9223372036854775808 <=? m) && (m <? 18446744073709551616 + min)) by (intros min Hmin; casts; lia).
  rewrite !Band by lia.
  assert (B8 : -128 <= cast_i8 m < 128) by (casts; lia).
  assert (B16 : -32768 <= cast_i16 m < 32768) by (casts; lia).
  assert (B32 : -2147483648 <= cast_i32 m < 2147483648) by (casts; lia).
  assert (B64 : -9223372036854775808 <= cast_i64 m < 9223372036854775808) by (casts; lia).
  split; [|split; [|split; [|split; [|split; [|split; [|split; [|split; [|split; [|split; [|split]]]]]]]]]].
  - exists (cast_i8 (cast_i8 m * -1)). split; [apply (wrapped_neg 8); [lia|reflexivity]|].
    rewrite i32_ret by lia. cbn [bind]. split; reflexivity.
  - exists (cast_i16 (cast_i16 m * -1)). split; [apply (wrapped_neg 16); [lia|reflexivity]|].
    rewrite i32_ret by lia. cbn [bind]. split; reflexivity.
  - exists (cast_i32 (cast_i32 m * -1)). split; [apply (wrapped_neg 32); [lia|reflexivity]|].
    assert (D : cast_i32 m = -2147483648 \/ -2147483648 < cast_i32 m) by lia. destruct D as [D|D].
    + rewrite D. change (cast_i32 (-2147483648 * -1)) with (-2147483648). split; [congruence|]. intros _.
      rewrite i32_ub by lia. split; reflexivity.
    + rewrite i32_ret by lia. cbn [bind]. rewrite cast_i32_id by lia. split; [split; reflexivity|lia].
  - exists (cast_i64 (cast_i64 m * -1)). split; [apply (wrapped_neg 64); [lia|reflexivity]|].
    assert (D : cast_i64 m = -9223372036854775808 \/ -9223372036854775808 < cast_i64 m) by lia. destruct D as [D|D].
    + rewrite D. change (cast_i64 (-9223372036854775808 * -1)) with (-9223372036854775808). split; [congruence|]. intros _.
      rewrite i64_ub by lia. split; reflexivity.
    + rewrite i64_ret by lia. cbn [bind]. rewrite cast_i64_id by lia. split; [split; reflexivity|lia].
  - reflexivity.
  - eexists; reflexivity.
  - exists (cast_u16 (cast_u16 m * -1)). split.
    + split; [casts; lia|]. exists ((m / 65536) - (- (m mod 65536)) / 65536). casts.
      replace (m mod 65536 * -1) with (- (m mod 65536)) by ring.
      rewrite (Z.mod_eq (- (m mod 65536))) by lia. rewrite (Z.mod_eq m 65536) at 1 by lia. ring.
    + rewrite i32_ret by (casts; lia). reflexivity.
  - eexists; reflexivity.
  - exists (cast_u32 (cast_u32 m * cast_u32 (-1))). split; [|reflexivity].
    change (cast_u32 (-1)) with 4294967295. split; [casts; lia|]. casts.
    exists (m - (m / 4294967296) * 4294967295 - (m mod 4294967296 * 4294967295) / 4294967296).
    rewrite (Z.mod_eq (m mod 4294967296 * 4294967295)) by lia. rewrite (Z.mod_eq m 4294967296) at 1 by lia. ring.
  - eexists; reflexivity.
  - replace (18446744073709551615 <? m) with false by lia. reflexivity.
  - reflexivity.
Qed.

(** Rejected text: TryParse answers false (for Int32 and Int64 it may instead overflow on the digits
    it saw before the offending character). *)
Theorem C16_TryParse_rejects_partial : forall s : str, (forall k ds, ~ lax_integer_text ws s k ds) ->
  (exists r, SByte_TryParse ws (Some s) = Ret (false, r)) /\ (exists r, Byte_TryParse ws (Some s) = Ret (false, r)) /\
  (exists r, Int16_TryParse ws (Some s) = Ret (false, r)) /\ (exists r, UInt16_TryParse ws (Some s) = Ret (false, r)) /\
  (exists r, UInt32_TryParse ws (Some s) = Ret (false, r)) /\ (exists r, UInt64_TryParse ws (Some s) = Ret (false, r)) /\
  ((exists r, Int32_TryParse ws (Some s) = Ret (false, r)) \/ Int32_TryParse ws (Some s) = UB SignedOverflow) /\
  ((exists r, Int64_TryParse ws (Some s) = Ret (false, r)) \/ Int64_TryParse ws (Some s) = UB SignedOverflow).
Proof.
  intros s H. destruct (parse_total ws Hws s) as (ok & v & k & E & Hk & Hv & Hok).
  destruct ok. { destruct Hok as (ds & Hl & _); [reflexivity|]. exfalso. eapply H; eassumption. }
  unfold SByte_TryParse, Byte_TryParse, Int16_TryParse, UInt16_TryParse, Int32_TryParse, UInt32_TryParse, UInt64_TryParse, Int64_TryParse.
  assert (B8 : -128 <= cast_i8 v < 128) by (casts; lia).
  assert (B16 : -32768 <= cast_i16 v < 32768) by (casts; lia).
  split; [eexists; rewrite E; cbn [bind andb]; rewrite i32_ret by lia; reflexivity|].
  split; [eexists; rewrite E; reflexivity|].
  split; [eexists; rewrite E; cbn [bind andb]; rewrite i32_ret by lia; reflexivity|].
  split; [eexists; rewrite E; reflexivity|]. split; [eexists; rewrite E; reflexivity|]. split; [eexists; rewrite E; reflexivity|]. split.
  - destruct (in_i32 (cast_i32 v * k)) eqn:D; [left; eexists|right]; rewrite E; cbn [bind andb]; unfold i32; rewrite D; reflexivity.
  - destruct (in_i64 (cast_i64 v * k)) eqn:D; [left; eexists|right]; rewrite E; cbn [bind andb]; unfold i64; rewrite D; reflexivity.
Qed.

(** Null is never parsed: all sixteen functions throw ArgumentNull (so TryParse throws as well). *)
Theorem C16_null_never_parsed :
  SByte_Parse ws None = Exn ArgumentNullException /\ Byte_Parse ws None = Exn ArgumentNullException /\
  Int16_Parse ws None = Exn ArgumentNullException /\ UInt16_Parse ws None = Exn ArgumentNullException /\
  Int32_Parse ws None = Exn ArgumentNullException /\ UInt32_Parse ws None = Exn ArgumentNullException /\
  Int64_Parse ws None = Exn ArgumentNullException /\ UInt64_Parse ws None = Exn ArgumentNullException /\
  SByte_TryParse ws None = Exn ArgumentNullException /\ Byte_TryParse ws None = Exn ArgumentNullException /\
  Int16_TryParse ws None = Exn ArgumentNullException /\ UInt16_TryParse ws None = Exn ArgumentNullException /\
  Int32_TryParse ws None = Exn ArgumentNullException /\ UInt32_TryParse ws None = Exn ArgumentNullException /\
  Int64_TryParse ws None = Exn ArgumentNullException /\ UInt64_TryParse ws None = Exn ArgumentNullException.
Proof. repeat split. Qed.
End All.
Print Assumptions C15_plus_exact_partial.
Print Assumptions C15_minus_exact_partial.
Print Assumptions C16_TryParse_rejects_partial.
Print Assumptions C16_null_never_parsed.

(** Concrete texts meeting the hypotheses: " 300x" is rejected, "-300 y" is accepted by the code. *)
Example C15_exact_nonvacuous :
  lax_integer_text (fun c => c =? 32) [45; 51; 48; 48; 32; 121] (-1) [51; 48; 48] /\
  lax_integer_text (fun c => c =? 32) [32; 51; 48; 48] 1 [51; 48; 48] /\
  Int32_TryParse (fun c => c =? 32) (Some [45; 50; 49; 52; 55; 52; 56; 51; 54; 52; 56; 120]) = UB SignedOverflow.
Proof.
  split; [|split; [|vm_compute; reflexivity]].
  - exists [], [45], [32; 121]. split; [reflexivity|]. split; [constructor|]. split; [constructor|].
    split; [repeat constructor; unfold digit; lia|]. split; [discriminate|]. right. exists 32, [121]. auto.
  - exists [32], [], []. split; [reflexivity|]. split; [constructor|]. split; [repeat constructor|].
    split; [repeat constructor; unfold digit; lia|]. split; [discriminate|]. left. reflexivity.
Qed.
