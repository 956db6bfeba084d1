(** * C14-C18: integer text and comparison *)
From Verif Require Import Base IntModel IntSpec IntProofs.

(** ASCII [iswspace] of the "C" locale, used in the examples only. *)
Definition c_space (c : Z) : bool := (c =? 32) || ((9 <=? c) && (c <=? 13)).
Example c_space_ok : space_ok c_space.
Proof. unfold space_ok, c_space, digit. lia. Qed.

(** C14: Parse (ToString v) = v.  The full statement fails for Int32.MinValue and Int64.MinValue
    only (see the refutations below). *)
Theorem C14_SByte_round_trip : forall ws, space_ok ws -> forall v, -128 <= v <= 127 ->
  SByte_Parse ws (Some (ToString_signed v)) = Ret v /\ SByte_TryParse ws (Some (ToString_signed v)) = Ret (true, v).
Proof. exact c14_SByte. Qed.
Print Assumptions C14_SByte_round_trip.
Theorem C14_Int16_round_trip : forall ws, space_ok ws -> forall v, -32768 <= v <= 32767 ->
  Int16_Parse ws (Some (ToString_signed v)) = Ret v /\ Int16_TryParse ws (Some (ToString_signed v)) = Ret (true, v).
Proof. exact c14_Int16. Qed.
Print Assumptions C14_Int16_round_trip.
Theorem C14_Byte_round_trip : forall ws, space_ok ws -> forall v, 0 <= v <= 255 ->
  Byte_Parse ws (Some (ToString_unsigned v)) = Ret v /\ Byte_TryParse ws (Some (ToString_unsigned v)) = Ret (true, v).
Proof. exact c14_Byte. Qed.
Print Assumptions C14_Byte_round_trip.
Theorem C14_UInt16_round_trip : forall ws, space_ok ws -> forall v, 0 <= v <= 65535 ->
  UInt16_Parse ws (Some (ToString_unsigned v)) = Ret v /\ UInt16_TryParse ws (Some (ToString_unsigned v)) = Ret (true, v).
Proof. exact c14_UInt16. Qed.
Print Assumptions C14_UInt16_round_trip.
Theorem C14_UInt32_round_trip : forall ws, space_ok ws -> forall v, 0 <= v <= 4294967295 ->
  UInt32_Parse ws (Some (ToString_unsigned v)) = Ret v /\ UInt32_TryParse ws (Some (ToString_unsigned v)) = Ret (true, v).
Proof. exact c14_UInt32. Qed.
Print Assumptions C14_UInt32_round_trip.
Theorem C14_UInt64_round_trip : forall ws, space_ok ws -> forall v, 0 <= v <= 18446744073709551615 ->
  UInt64_Parse ws (Some (ToString_unsigned v)) = Ret v /\ UInt64_TryParse ws (Some (ToString_unsigned v)) = Ret (true, v).
Proof. exact c14_UInt64. Qed.
Print Assumptions C14_UInt64_round_trip.
Theorem C14_Int32_round_trip_partial : forall ws, space_ok ws -> forall v, -2147483648 < v <= 2147483647 ->
  Int32_Parse ws (Some (ToString_signed v)) = Ret v /\ Int32_TryParse ws (Some (ToString_signed v)) = Ret (true, v).
Proof. exact c14_Int32. Qed.
Print Assumptions C14_Int32_round_trip_partial.
Theorem C14_Int64_round_trip_partial : forall ws, space_ok ws -> forall v, -9223372036854775808 < v <= 9223372036854775807 ->
  Int64_Parse ws (Some (ToString_signed v)) = Ret v /\ Int64_TryParse ws (Some (ToString_signed v)) = Ret (true, v).
Proof. exact c14_Int64. Qed.
Print Assumptions C14_Int64_round_trip_partial.
(** The two missing values: the final multiplication by the sign overflows, undefined behaviour. *)
Theorem C14_MinValue_round_trip_refuted :
  Int32_Parse c_space (Some (ToString_signed (-2147483648))) = UB SignedOverflow /\
  Int64_Parse c_space (Some (ToString_signed (-9223372036854775808))) = UB SignedOverflow.
Proof. vm_compute. split; reflexivity. Qed.
Print Assumptions C14_MinValue_round_trip_refuted.
Example C14_nonvacuous : ToString_signed (-1234) = [45; 49; 50; 51; 52] /\ SByte_Parse c_space (Some [45; 49; 50; 56]) = Ret (-128).
Proof. vm_compute. split; reflexivity. Qed.

(** C15: proved for texts without minus sign whose magnitude is below 2^64, for Byte with a minus
    sign, and for TryParse of the unsigned types; refuted for the rest. *)
Theorem C15_nonnegative_partial : forall ws, space_ok ws -> forall s ds,
  integer_text ws s 1 ds -> decimal_value ds < 18446744073709551616 ->
  let v := decimal_value ds in
  let expect max := if v <=? max then Ret v else Exn OverflowException in
  SByte_Parse ws (Some s) = expect 127 /\ Byte_Parse ws (Some s) = expect 255 /\
  Int16_Parse ws (Some s) = expect 32767 /\ UInt16_Parse ws (Some s) = expect 65535 /\
  Int32_Parse ws (Some s) = expect 2147483647 /\ UInt32_Parse ws (Some s) = expect 4294967295 /\
  UInt64_Parse ws (Some s) = expect 18446744073709551615.
Proof. exact c15_nonneg. Qed.
Print Assumptions C15_nonnegative_partial.
Theorem C15_Byte_negative_partial : forall ws, space_ok ws -> forall s ds, integer_text ws s (-1) ds ->
  Byte_Parse ws (Some s) = Exn OverflowException /\ exists r, Byte_TryParse ws (Some s) = Ret (false, r).
Proof. exact c15_byte_negative. Qed.
Print Assumptions C15_Byte_negative_partial.
Theorem C15_TryParse_negative_partial : forall ws, space_ok ws -> forall s ds, integer_text ws s (-1) ds ->
  (exists r, UInt16_TryParse ws (Some s) = Ret (false, r)) /\ (exists r, UInt32_TryParse ws (Some s) = Ret (false, r)) /\
  (exists r, UInt64_TryParse ws (Some s) = Ret (false, r)).
Proof. exact c15_try_negative. Qed.
Print Assumptions C15_TryParse_negative_partial.
Example C15_nonvacuous : integer_text c_space [32; 43; 51; 48; 48; 32] 1 [51; 48; 48] /\ decimal_value [51; 48; 48] = 300.
Proof. split; [|reflexivity]. exists [32], [43], [32]. repeat (split; [first [reflexivity|repeat constructor; unfold digit; lia]|]). discriminate. Qed.

(** -3000000000 is accepted as an Int32, -200 as an SByte, -5 as a UInt16/UInt32/UInt64, and
    2^64 (any type) as 0. *)
Theorem C15_overflow_detected_refuted :
  (exists s ds v, integer_text c_space s (-1) ds /\ - decimal_value ds < -2147483648 /\ Int32_Parse c_space (Some s) = Ret v) /\
  (exists s ds v, integer_text c_space s (-1) ds /\ - decimal_value ds < -128 /\ SByte_Parse c_space (Some s) = Ret v) /\
  (exists s ds v w x, integer_text c_space s (-1) ds /\ - decimal_value ds < 0 /\
     UInt16_Parse c_space (Some s) = Ret v /\ UInt32_Parse c_space (Some s) = Ret w /\ UInt64_Parse c_space (Some s) = Ret x) /\
  (exists s ds, integer_text c_space s 1 ds /\ decimal_value ds = 2 ^ 64 /\ Int32_Parse c_space (Some s) = Ret 0 /\
     UInt64_Parse c_space (Some s) = Ret 0 /\ Byte_TryParse c_space (Some s) = Ret (true, 0)).
Proof.
  split; [|split; [|split]].
  - exists [45; 51; 48; 48; 48; 48; 48; 48; 48; 48; 48], [51; 48; 48; 48; 48; 48; 48; 48; 48; 48], 1294967296.
    split; [|split; [vm_compute; reflexivity|vm_compute; reflexivity]].
    exists [], [45], []. repeat (split; [first [reflexivity|repeat constructor; unfold digit; lia]|]). discriminate.
  - exists [45; 50; 48; 48], [50; 48; 48], 56.
    split; [|split; [vm_compute; reflexivity|vm_compute; reflexivity]].
    exists [], [45], []. repeat (split; [first [reflexivity|repeat constructor; unfold digit; lia]|]). discriminate.
  - exists [45; 53], [53], 65531, 4294967291, 5.
    split; [|split; [vm_compute; reflexivity|vm_compute; repeat split]].
    exists [], [45], []. repeat (split; [first [reflexivity|repeat constructor; unfold digit; lia]|]). discriminate.
  - exists [49;56;52;52;54;55;52;52;48;55;51;55;48;57;53;53;49;54;49;54], [49;56;52;52;54;55;52;52;48;55;51;55;48;57;53;53;49;54;49;54].
    split; [|split; [vm_compute; reflexivity|vm_compute; repeat split]].
    exists [], [], []. repeat (split; [first [reflexivity|repeat constructor; unfold digit; lia]|]). discriminate.
Qed.
Print Assumptions C15_overflow_detected_refuted.

(** C16: everything outside a slightly larger language (anything may follow the first trailing
    white space) is a Format error; null is ArgumentNull. *)
Theorem C16_only_integers_partial : forall ws, space_ok ws -> forall s,
  (forall k ds, ~ lax_integer_text ws s k ds) ->
  SByte_Parse ws (Some s) = Exn FormatException /\ Byte_Parse ws (Some s) = Exn FormatException /\
  Int16_Parse ws (Some s) = Exn FormatException /\ UInt16_Parse ws (Some s) = Exn FormatException /\
  Int32_Parse ws (Some s) = Exn FormatException /\ UInt32_Parse ws (Some s) = Exn FormatException /\
  Int64_Parse ws (Some s) = Exn FormatException /\ UInt64_Parse ws (Some s) = Exn FormatException.
Proof. exact c16_reject. Qed.
Print Assumptions C16_only_integers_partial.
(** ... and the parser core always returns, with the value of the digits modulo 2^64. *)
Theorem C16_parser_total : forall ws, space_ok ws -> forall s,
  exists ok v k, TryParseInternal_str ws (Some s) = Ret (ok, v, k) /\ (k = 1 \/ k = -1) /\ 0 <= v < 18446744073709551616 /\
  (ok = true -> exists ds, lax_integer_text ws s k ds /\ v = decimal_value ds mod 18446744073709551616).
Proof. exact parse_total. Qed.
Print Assumptions C16_parser_total.
Theorem C16_all_integers_accepted : forall ws, space_ok ws -> forall s k ds, integer_text ws s k ds ->
  TryParseInternal_str ws (Some s) = Ret (true, decimal_value ds mod 18446744073709551616, k).
Proof. exact (fun ws H s k ds Ht => lax_accept ws H s k ds (strict_lax ws s k ds Ht)). Qed.
Print Assumptions C16_all_integers_accepted.
Theorem C16_only_integers_refuted : exists s, (forall k ds, ~ integer_text c_space s k ds) /\ Int32_Parse c_space (Some s) = Ret 12.
Proof.
  exists [49; 50; 32; 97]. split; [|vm_compute; reflexivity].
  intros k ds (w1 & sg & w2 & E & Hsg & Hw1 & Hw2 & Hds & Hne).
  assert (In 97 (w1 ++ sg ++ ds ++ w2)) as Hin by (rewrite <- E; cbn; tauto).
  rewrite !in_app_iff in Hin. rewrite Forall_forall in Hw1, Hw2, Hds.
  destruct Hin as [H|[H|[H|H]]].
  - apply Hw1 in H. vm_compute in H. discriminate.
  - destruct Hsg; cbn in H; lia.
  - apply Hds in H. unfold digit in H. lia.
  - apply Hw2 in H. vm_compute in H. discriminate.
Qed.
Print Assumptions C16_only_integers_refuted.
Example C16_nonvacuous : forall k ds, ~ lax_integer_text c_space [97] k ds.
Proof.
  intros k ds (w1 & sg & rest & E & Hsg & Hw1 & Hds & Hne & Hr).
  destruct w1 as [|c w1]; cbn in E.
  - destruct Hsg; cbn in E; try discriminate. destruct ds as [|c ds]; [contradiction|]. cbn in E. injection E as <- E.
    inversion Hds; subst. unfold digit in *. lia.
  - injection E as <- E. inversion Hw1; subst. discriminate.
Qed.

(** C17: narrow comparisons (Byte, SByte, Int16, UInt16 and Char all lie in this range). *)
Theorem C17_narrow_CompareTo : forall a b, (-32768 <= a <= 65535) -> (-32768 <= b <= 65535) ->
  exists r, CompareTo_int a b = Ret r /\ Z.sgn r = Z.sgn (a - b) /\ (r = 0 <-> a = b).
Proof. exact c17. Qed.
Print Assumptions C17_narrow_CompareTo.
Example C17_nonvacuous : CompareTo_int (-32768) 32767 = Ret (-65535).
Proof. vm_compute. reflexivity. Qed.

(** C18: right while the difference fits in 32 bits; otherwise undefined or wrong. *)
Theorem C18_Int32_CompareTo_partial : forall a b, in_i32 a = true -> in_i32 b = true ->
  (in_i32 (a - b) = true -> exists r, Int32_CompareTo a b = Ret r /\ Z.sgn r = Z.sgn (a - b)) /\
  (in_i32 (a - b) = false -> Int32_CompareTo a b = UB SignedOverflow).
Proof. exact c18_Int32. Qed.
Print Assumptions C18_Int32_CompareTo_partial.
Theorem C18_Int64_CompareTo_partial : forall a b, in_i64 a = true -> in_i64 b = true ->
  (in_i32 (a - b) = true -> exists r, Int64_CompareTo a b = Ret r /\ Z.sgn r = Z.sgn (a - b)) /\
  (in_i64 (a - b) = false -> Int64_CompareTo a b = UB SignedOverflow).
Proof. exact c18_Int64. Qed.
Print Assumptions C18_Int64_CompareTo_partial.
Theorem C18_UInt32_CompareTo_partial : forall a b, in_u32 a = true -> in_u32 b = true -> in_i32 (a - b) = true ->
  exists r, UInt32_CompareTo a b = Ret r /\ Z.sgn r = Z.sgn (a - b).
Proof. exact c18_UInt32. Qed.
Print Assumptions C18_UInt32_CompareTo_partial.
Theorem C18_UInt64_CompareTo_partial : forall a b, in_u64 a = true -> in_u64 b = true -> in_i32 (a - b) = true ->
  exists r, UInt64_CompareTo a b = Ret r /\ Z.sgn r = Z.sgn (a - b).
Proof. exact c18_UInt64. Qed.
Print Assumptions C18_UInt64_CompareTo_partial.
Example C18_nonvacuous : in_i32 5 = true /\ in_i32 (-7) = true /\ in_i32 (5 - -7) = true /\ in_u64 18446744073709551615 = true.
Proof. vm_compute. repeat split. Qed.
(** Wrong signs: 2^32 compares equal to 0 as Int64, 3e9 below 0 as UInt32 and UInt64. *)
Theorem C18_CompareTo_refuted :
  (exists a b, in_i32 a = true /\ in_i32 b = true /\ Int32_CompareTo a b = UB SignedOverflow) /\
  (exists a b, in_i64 a = true /\ in_i64 b = true /\ a > b /\ Int64_CompareTo a b = Ret 0) /\
  (exists a b r, in_u32 a = true /\ in_u32 b = true /\ a > b /\ UInt32_CompareTo a b = Ret r /\ r < 0) /\
  (exists a b r, in_u64 a = true /\ in_u64 b = true /\ a > b /\ UInt64_CompareTo a b = Ret r /\ r < 0).
Proof.
  split; [exists 2147483647, (-1)|split; [exists 4294967296, 0|split; [exists 3000000000, 0, (-1294967296)|exists 3000000000, 0, (-1294967296)]]];
  vm_compute; repeat split.
Qed.
Print Assumptions C18_CompareTo_refuted.
