(** * C09-C13: TimeSpan.  A span is its signed 64-bit tick count. *)
From Verif Require Import Base IntModel IntSpec TimeSpanModel TimeSpanSpec TimeSpanProofs.

(** C09: the components of any span, with the sub-millisecond ticks [sub], rebuild it; each is in
    range and has the span's sign. *)
Theorem C09_components : forall v, in_i64 v = true ->
  let D := TS_get_Days v in let H := TS_get_Hours v in let M := TS_get_Minutes v in
  let S := TS_get_Seconds v in let L := TS_get_Milliseconds v in
  exists sub, v = ((((D * 24 + H) * 60 + M) * 60 + S) * 1000 + L) * 10000 + sub /\
  Z.abs H <= 23 /\ Z.abs M <= 59 /\ Z.abs S <= 59 /\ Z.abs L <= 999 /\ Z.abs sub <= 9999 /\
  (0 <= v -> 0 <= D /\ 0 <= H /\ 0 <= M /\ 0 <= S /\ 0 <= L /\ 0 <= sub) /\
  (v <= 0 -> D <= 0 /\ H <= 0 /\ M <= 0 /\ S <= 0 /\ L <= 0 /\ sub <= 0).
Proof. exact c09. Qed.
Print Assumptions C09_components.
(** C09: a span built from components is exactly their sum, or ArgumentOutOfRange when that does
    not fit. *)
Theorem C09_constructor : forall d h m s ms,
  in_i32 d = true -> in_i32 h = true -> in_i32 m = true -> in_i32 s = true -> in_i32 ms = true ->
  let total := ((((d * 24 + h) * 60 + m) * 60 + s) * 1000 + ms) * 10000 in
  TS_of_dhms d h m s ms = if in_i64 total then Ret total else Exn ArgumentOutOfRangeException.
Proof. exact c09_ctor. Qed.
Print Assumptions C09_constructor.
Theorem C09_hms_constructor : forall h m s,
  in_i32 h = true -> in_i32 m = true -> in_i32 s = true ->
  let total := ((h * 60 + m) * 60 + s) * 10000000 in
  TS_of_hms h m s = if in_i64 total then Ret total else Exn ArgumentOutOfRangeException.
Proof. exact c09_hms. Qed.
Print Assumptions C09_hms_constructor.
Example C09_example_both : TS_of_dhms 1 2 3 4 567 = Ret 937845670000 /\
  TS_of_dhms 2147483647 0 0 0 0 = Exn ArgumentOutOfRangeException /\ TS_get_Hours (-937845670000) = -2.
Proof. vm_compute. repeat split; reflexivity. Qed.

(** C10: Add returns the exact sum whenever it fits.  Full statement: and throws Overflow
    otherwise.  Missing: the overflow case, where the code computes the signed sum first, which is
    undefined behaviour, so the test that follows cannot be relied on ... *)
Theorem C10_add_exact_partial : forall a b, in_i64 a = true -> in_i64 b = true ->
  TS_Add a b = if in_i64 (a + b) then Ret (a + b) else UB SignedOverflow.
Proof. exact c10. Qed.
Print Assumptions C10_add_exact_partial.
(** ... but with a compiler that wraps signed overflow the full statement holds. *)
Theorem C10_add_wrapping_compiler : forall a b, in_i64 a = true -> in_i64 b = true ->
  TS_Add_wrapv a b = if in_i64 (a + b) then Ret (a + b) else Exn OverflowException.
Proof. exact c10_wrapv. Qed.
Print Assumptions C10_add_wrapping_compiler.
Theorem C10_refuted : exists a b, in_i64 a = true /\ in_i64 b = true /\ in_i64 (a + b) = false /\
  TS_Add a b <> Exn OverflowException.
Proof. exists 9223372036854775807, 1. vm_compute. repeat split; try reflexivity. discriminate. Qed.
Print Assumptions C10_refuted.
Example C10_example : TS_Add 5 (-7) = Ret (-2) /\ TS_Add_wrapv 9223372036854775807 1 = Exn OverflowException.
Proof. split; reflexivity. Qed.

(** C11: complete description of Subtract.  It is exact when the operands have different signs and
    the difference fits, or when the result has the operands' common sign. *)
Theorem C11_subtract_partial : forall a b, in_i64 a = true -> in_i64 b = true ->
  TS_Subtract a b =
    if in_i64 (a - b)
    then if ((0 <=? a) && (0 <=? b) && (a <? b)) || ((a <? 0) && (b <? 0) && (b <=? a))
         then Exn OverflowException else Ret (a - b)
    else UB SignedOverflow.
Proof. exact c11. Qed.
Print Assumptions C11_subtract_partial.
(** The full statement fails: one tick minus two ticks fits, yet throws Overflow. *)
Theorem C11_refuted : exists a b, in_i64 a = true /\ in_i64 b = true /\ in_i64 (a - b) = true /\
  TS_Subtract a b = Exn OverflowException.
Proof. exists 1, 2. repeat split; reflexivity. Qed.
Print Assumptions C11_refuted.
(** And it fails in the other direction even with a wrapping compiler: a difference that does not
    fit is returned wrapped. *)
Theorem C11_refuted_wrapping_compiler : exists a b r, in_i64 a = true /\ in_i64 b = true /\ in_i64 (a - b) = false /\
  TS_Subtract_wrapv a b = Ret r.
Proof. exists 9223372036854775807, (-1), (-9223372036854775808). repeat split; reflexivity. Qed.
Print Assumptions C11_refuted_wrapping_compiler.
Example C11_example : TS_Subtract 7 5 = Ret 2 /\ TS_Subtract (-3) 4 = Ret (-7).
Proof. split; reflexivity. Qed.

(** C12: Negate and Duration of every span but zero and the most negative one. *)
Theorem C12_negate_duration_partial : forall v, in_i64 v = true -> v <> 0 -> v <> -9223372036854775808 ->
  TS_Negate v = Ret (- v) /\ TS_Duration v = Ret (Z.abs v).
Proof. exact c12. Qed.
Print Assumptions C12_negate_duration_partial.
(** The full statement fails: both throw for the zero span, and neither throws for the minimum. *)
Theorem C12_refuted : TS_Negate 0 = Exn OverflowException /\ TS_Duration 0 = Exn OverflowException /\
  TS_Negate (-9223372036854775808) = UB SignedOverflow /\ TS_Duration (-9223372036854775808) = UB SignedOverflow.
Proof. repeat split; reflexivity. Qed.
Print Assumptions C12_refuted.
Example C12_example : TS_Negate 5 = Ret (-5) /\ TS_Duration (-5) = Ret 5.
Proof. split; reflexivity. Qed.

(** C13: the text of a span whose fraction of a second is zero or at least a tenth is exactly
    [-][d.]hh:mm:ss[.fffffff] ... *)
Theorem C13_text_partial : forall v, in_i64 v = true -> frac_ok v -> TS_FormatString v = Ret (span_text v).
Proof. exact c13_text. Qed.
Print Assumptions C13_text_partial.
(** ... so two such spans with the same text are equal. *)
Theorem C13_injective_partial : forall v w s, in_i64 v = true -> in_i64 w = true -> frac_ok v -> frac_ok w ->
  TS_FormatString v = Ret s -> TS_FormatString w = Ret s -> v = w.
Proof.
  intros v w s Hv Hw Fv Fw Ev Ew. rewrite c13_text in Ev, Ew by assumption. apply span_text_inj; congruence.
Qed.
Print Assumptions C13_injective_partial.
(** The text the specification asks for does identify every span. *)
Theorem C13_spec_identifies : forall v w, in_i64 v = true -> in_i64 w = true -> span_text v = span_text w -> v = w.
Proof. exact span_text_inj. Qed.
Print Assumptions C13_spec_identifies.
(** The full statement fails: one tick and one million ticks have the same text. *)
Theorem C13_refuted : exists v w s, v <> w /\ in_i64 v = true /\ in_i64 w = true /\
  TS_FormatString v = Ret s /\ TS_FormatString w = Ret s.
Proof.
  exists 1, 1000000, [48; 48; 58; 48; 48; 58; 48; 48; 46; 49; 48; 48; 48; 48; 48; 48].
  repeat split; try reflexivity. discriminate.
Qed.
Print Assumptions C13_refuted.
Example C13_example : frac_ok (-937845670000) /\ in_i64 (-937845670000) = true /\
  TS_FormatString (-937845670000) = Ret [45; 49; 46; 48; 50; 58; 48; 51; 58; 48; 52; 46; 53; 54; 55; 48; 48; 48; 48].
Proof. split; [right; vm_compute; discriminate|]. split; reflexivity. Qed.

(** C64: parsing the text of a span gives the span back, for spans of less than 100 days whose
    text is right (C13). *)
Theorem C64_parse_text_partial : forall ws, space_ok ws -> forall v, in_i64 v = true -> frac_ok v ->
  Z.abs v < 100 * 864000000000 ->
  exists s, TS_FormatString v = Ret s /\ TS_TryParse ws s = Ret v.
Proof.
  intros ws Hws v Hv Hf Hd. exists (span_text v). split; [apply c13_text; assumption|].
  apply TryParse_shape; try assumption. apply Z.div_lt_upper_bound; [reflexivity|exact Hd].
Qed.
Print Assumptions C64_parse_text_partial.
(** The full statement fails for a span of 100 days: it parses as something else. *)
Theorem C64_refuted : forall ws, exists s r,
  TS_FormatString 86400000000000 = Ret s /\ TS_TryParse ws s = Ret r /\ r <> 86400000000000.
Proof.
  intros ws. exists [49; 48; 48; 46; 48; 48; 58; 48; 48; 58; 48; 48], 1000000.
  split; [reflexivity|]. split; [|discriminate]. vm_compute. reflexivity.
Qed.
Print Assumptions C64_refuted.
(** Five numbers overflow the parser's array. *)
Theorem C64_refuted_memory : TS_TryParse (fun _ => false) [49; 58; 49; 58; 49; 58; 49; 58; 49] = UB OutOfBoundsWrite.
Proof. vm_compute. reflexivity. Qed.
Print Assumptions C64_refuted_memory.
Example C64_example : frac_ok 8553600000000 /\ Z.abs 8553600000000 < 100 * 864000000000.
Proof. split; [left; reflexivity|reflexivity]. Qed.
