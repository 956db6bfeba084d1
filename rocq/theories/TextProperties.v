(** * Theorems about Boolean, Char, CharEnumerator, FormatString and BitConverter.ToString *)
From Verif Require Import Tac BoxModel Bytes MemModel MemProofs ArrayModel ArraySpec ArrayProofs StringBuilderModel StringBuilderSpec StringBuilderProofs StringBuilderHistory StringModel StringSpec StringProofs StringBuildProofs TextModel TextSpec TextProofs.

(** ** C19: Boolean text *)
(** What the theorems assume of the C library's towlower: NUL and only NUL is lower-cased to NUL, and
    ASCII letters are lower-cased as in the "C" locale. *)
Definition sane_lower (ct : ctype) : Prop :=
  (forall c, towlower ct c = 0 <-> c = 0) /\ (forall c, 0 <= c < 128 -> towlower ct c = towlower c_locale c).
(** [s] is a case variant of [w]. *)
Definition case_variant (ct : ctype) (s w : list Z) : Prop := map (towlower ct) s = map (towlower ct) w.

Lemma sane_c_locale : sane_lower c_locale.
Proof. split; [|reflexivity]. intros c. cbn. destruct ((65 <=? c) && (c <=? 90)) eqn:E; lia. Qed.
Lemma true_text ct : sane_lower ct -> map (towlower ct) TrueString = [116; 114; 117; 101].
Proof. intros (_ & H). unfold TrueString. cbn [map]. rewrite !H by lia. reflexivity. Qed.
Lemma false_text ct : sane_lower ct -> map (towlower ct) FalseString = [102; 97; 108; 115; 101].
Proof. intros (_ & H). unfold FalseString. cbn [map]. rewrite !H by lia. reflexivity. Qed.

(** The exact language of Parse on NUL-free texts: every case variant of a PREFIX of True is true,
    of a prefix of False is false (the empty text is true), everything else throws Format. *)
Theorem C19_parse_exact : forall ct s, sane_lower ct -> no_nul s ->
  (has_prefix (map (towlower ct) TrueString) (map (towlower ct) s) -> Boolean_Parse ct (Some s) = Ret true) /\
  (has_prefix (map (towlower ct) FalseString) (map (towlower ct) s) -> s <> [] -> Boolean_Parse ct (Some s) = Ret false) /\
  (~ has_prefix (map (towlower ct) TrueString) (map (towlower ct) s) -> ~ has_prefix (map (towlower ct) FalseString) (map (towlower ct) s) ->
     Boolean_Parse ct (Some s) = Exn FormatException).
Proof.
  intros ct s SL N. pose proof SL as (HL & _). assert (HL1 : forall c, c <> 0 -> towlower ct c <> 0) by (intros c Hc E; apply (proj1 (HL c)) in E; contradiction).
  assert (HL0 : towlower ct 0 = 0) by (apply HL; reflexivity). unfold Boolean_Parse.
  destruct (Compare_word ct s TrueString HL1 HL0 N) as (r & -> & Hr). destruct (Compare_word ct s FalseString HL1 HL0 N) as (r' & -> & Hr'). rewrite !bind_ret.
  split; [|split].
  - intros H. apply Hr in H. rewrite H. reflexivity.
  - intros H NE. pose proof (proj2 Hr' H) as ->. assert (R : r <> 0).
    { intros E. apply Hr in E. destruct s as [|c s]; [contradiction|]. rewrite true_text in E by exact SL. rewrite false_text in H by exact SL. destruct E as (b & E). destruct H as (b' & H).
      apply (f_equal (hd 0)) in E. apply (f_equal (hd 0)) in H. cbn [map app hd] in E, H. lia. }
    replace (r =? 0) with false by lia. reflexivity.
  - intros H H'. replace (r =? 0) with false by (symmetry; apply Z.eqb_neq; tauto). replace (r' =? 0) with false by (symmetry; apply Z.eqb_neq; tauto). reflexivity.
Qed.
Print Assumptions C19_parse_exact.
(** Case variants of True/False parse as they should, and a text that is no case variant of a prefix
    of either throws.  Missing (and refuted below): a PROPER prefix should throw too. *)
Theorem C19_parse_partial : forall ct s, sane_lower ct -> no_nul s ->
  (case_variant ct s TrueString -> Boolean_Parse ct (Some s) = Ret true) /\
  (case_variant ct s FalseString -> Boolean_Parse ct (Some s) = Ret false) /\
  (4 <= zlen s -> ~ case_variant ct s TrueString -> ~ case_variant ct s FalseString -> ~ case_variant ct s [70; 97; 108; 115] -> Boolean_Parse ct (Some s) = Exn FormatException) /\
  Boolean_Parse ct None = Exn ArgumentException.
Proof.
  intros ct s SL N. destruct (C19_parse_exact ct s SL N) as (T & F & E). split; [|split; [|split]].
  - intros H. apply T. exists []. rewrite H, app_nil_r. reflexivity.
  - intros H. apply F; [exists []; rewrite H, app_nil_r; reflexivity|]. intros ->. discriminate.
  - intros L NT NF NP. unfold case_variant in *. assert (L' : (4 <= length (map (towlower ct) s))%nat) by (rewrite map_length; unfold zlen in L; lia).
    assert (Q : map (towlower ct) [70; 97; 108; 115] = [102; 97; 108; 115]) by (cbn [map]; rewrite !(proj2 SL) by lia; reflexivity). rewrite Q in NP.
    rewrite true_text in * by exact SL. rewrite false_text in * by exact SL. apply E; intros (b & H).
    + apply NT. destruct (map (towlower ct) s) as [|? [|? [|? [|? [|? ?]]]]]; cbn in L'; try lia; cbn [app] in H; try discriminate.
      injection H; intros; subst; reflexivity.
    + destruct (map (towlower ct) s) as [|? [|? [|? [|? [|? [|? ?]]]]]]; cbn in L'; try lia; cbn [app] in H; try discriminate.
      * injection H; intros; subst. apply NP. reflexivity.
      * injection H; intros; subst. apply NF. reflexivity.
  - reflexivity.
Qed.
Print Assumptions C19_parse_partial.
Example C19_example : Boolean_Parse c_locale (Some [116; 82; 85; 101]) = Ret true /\ Boolean_Parse c_locale (Some [70; 65; 76; 83; 69]) = Ret false /\
  Boolean_Parse c_locale (Some [116; 114; 117; 101; 120]) = Exn FormatException /\ sane_lower c_locale /\ case_variant c_locale [116; 82; 85; 101] TrueString.
Proof. split; [reflexivity|]. split; [reflexivity|]. split; [reflexivity|]. split; [exact sane_c_locale|reflexivity]. Qed.
(** The empty text, "t", "Tr" and "fAl" are accepted. *)
Theorem C19_prefix_refuted : Boolean_Parse c_locale (Some []) = Ret true /\ Boolean_Parse c_locale (Some [116]) = Ret true /\ Boolean_Parse c_locale (Some [84; 114]) = Ret true /\
  Boolean_Parse c_locale (Some [102; 65; 108]) = Ret false /\ ~ case_variant c_locale [84; 114] TrueString.
Proof. repeat split; try reflexivity. discriminate. Qed.
Print Assumptions C19_prefix_refuted.
(** Formatting and parsing are inverse. *)
Theorem C19_round_trip : forall ct v, sane_lower ct -> forall junk, zlen junk = 128 ->
  exists t, Object_ToString (Boolean_FormatString v) junk = Ret t /\ t = (if v then TrueString else FalseString) /\ Boolean_Parse ct (Some t) = Ret v.
Proof.
  intros ct v SL junk L. exists (if v then TrueString else FalseString). split; [|split; [reflexivity|]].
  - apply (Object_ToString_text _ _ _ (drop (zlen (if v then TrueString else FalseString) + 1) junk)); [destruct v; cbn; lia|]. unfold Boolean_FormatString, buffer. rewrite <- L.
    rewrite CopyChars_room by (rewrite L; destruct v; cbn; lia). reflexivity.
  - assert (N : no_nul (if v then TrueString else FalseString)) by (destruct v; repeat constructor; lia).
    destruct (C19_parse_partial ct _ SL N) as (T & F & _). destruct v; [apply T|apply F]; reflexivity.
Qed.
Print Assumptions C19_round_trip.

(** ** C30: BitConverter.ToString *)
(** For every one-dimensional array of bytes and every window inside it (length -1: to the end) the
    text is the hex dump of those bytes.  The bound is the one below which [3*length - 1] fits the
    StringBuilder; beyond it see [C30_large_refuted]. *)
Theorem C30_dump_partial : forall a n start length bytes, has_shape a ByteType [n] -> 0 <= start -> start < n ->
  let count := if length =? -1 then n - start else length in
  0 <= count -> start + count <= n -> 3 * count - 1 <= 2147483520 -> is_part (data a) start count bytes ->
  BC_ToString (Some a) start length = Ret (hex_dump bytes).
Proof.
  intros a n start length bytes HS Hs Hn count Hc Hsc Hb HP. destruct HS as (_ & _ & DT & D1 & _ & _ & DC & TE & B1 & B2 & DL & FB).
  cbn [size_of fold_right] in *. rewrite Z.mul_1_r in *. unfold arg in D1. cbn in D1, DC. unfold BC_ToString. rewrite TE.
  assert (LEN : (if length =? -1 then i32 (n - start) else Ret length) = Ret count). { unfold count. destruct (length =? -1); [apply i32_ret; lia|reflexivity]. }
  rewrite LEN, bind_ret. clearbody count. clear LEN. replace ((start <? 0) || (n <=? start)) with false by lia. rewrite throw_if_false by lia. rewrite bind_ret. rewrite throw_if_false by lia. rewrite bind_ret.
  destruct (count =? 0) eqn:E0.
  { destruct HP as (? & ? & _ & _ & HL). destruct bytes as [|? bytes]; [reflexivity|]. rewrite zlen_cons in HL. pose proof (zlen_nonneg bytes). lia. }
  rewrite i32_ret by lia. rewrite bind_ret. destruct (SB_capacity_spec (count * 3 - 1) ltac:(lia)) as (b & -> & I & C & L & M & R). rewrite !bind_ret. rewrite i32_ret by lia. rewrite bind_ret.
  replace (Z.to_nat (start + count - start)) with (Z.to_nat count) by lia.
  assert (FBB : Forall byte bytes). { destruct HP as (x & y & E & _). rewrite E in FB. apply Forall_app in FB. destruct FB as (_ & FB). apply Forall_app in FB. tauto. }
  destruct (hex_loop_spec a start bytes start (Z.to_nat count) b DC) as (b' & -> & I' & C'); try assumption; try lia.
  { rewrite DT. reflexivity. }
  { rewrite Z2Nat.id by lia. exact HP. }
  { rewrite Z.ltb_irrefl. lia. }
  rewrite Z.ltb_irrefl, C in C'. cbn [app] in C'. rewrite bind_ret.
  rewrite ToString_spec by exact I'. rewrite C'. reflexivity.
Qed.
Print Assumptions C30_dump_partial.
Example C30_example : exists a, has_shape a ByteType [3] /\ is_part (data a) 0 3 [0; 171; 255] /\ BC_ToString (Some a) 0 (-1) = Ret [48; 48; 45; 65; 66; 45; 70; 70] /\
  BC_ToString (Some a) 1 1 = Ret [65; 66].
Proof.
  exists (mk_arr ByteType 3 (-1) (-1) 1 3 [0; 171; 255]). split; [|split; [exists [], []; repeat split|split; vm_compute; reflexivity]].
  unfold has_shape. cbn. repeat split; try reflexivity; try lia; repeat constructor; unfold byte; lia.
Qed.
(** The dump decodes back to the bytes and is one character shorter than three per byte. *)
Theorem C30_decodes : forall bytes, bytes <> [] -> Forall byte bytes -> read_dump (hex_dump bytes) = Some bytes /\ zlen (hex_dump bytes) = 3 * zlen bytes - 1.
Proof.
  assert (V : forall v, 0 <= v < 16 -> digit_value (hex_digit v) = Some v).
  { intros v Hv. assert (S : sweep 16 (fun v => match digit_value (hex_digit v) with Some w => w =? v | None => false end) = true) by (vm_compute; reflexivity).
    pose proof (sweep_spec 16 _ S v ltac:(lia)) as H. cbv beta in H. destruct (digit_value (hex_digit v)); [apply Z.eqb_eq in H; congruence|discriminate]. }
  intros [|b bytes] NE HB; [contradiction|]. clear NE. split.
  - revert b HB. induction bytes as [|c bytes IH]; intros b HB; inversion HB as [|? ? Hb HB']; subst; unfold byte in Hb.
    + unfold hex_dump. cbn [map joined hex_byte read_dump]. rewrite !V by lia. f_equal. f_equal. lia.
    + change (hex_dump (b :: c :: bytes)) with (hex_digit (b / 16) :: hex_digit (b mod 16) :: 45 :: hex_dump (c :: bytes)). cbn [read_dump]. rewrite !V by lia.
      change (45 =? 45) with true. cbn iota. rewrite (IH c HB'). f_equal. f_equal. lia.
  - unfold hex_dump. rewrite joined_dashed, zlen_app, dashed_len, (zlen_cons b bytes). change (zlen (hex_byte b)) with 2. lia.
Qed.
Print Assumptions C30_decodes.
(** Windows outside the array throw; an empty array gives the empty text. *)
Theorem C30_range : forall a n start length, has_shape a ByteType [n] -> -2147483648 < start <= 2147483647 -> -2147483648 <= length <= 2147483647 -> n - start <= 2147483647 ->
  BC_ToString None start length = Exn ArgumentNullException /\
  (start < 0 \/ n <= start -> ~ (start = 0 /\ n = 0) -> BC_ToString (Some a) start length = Exn ArgumentOutOfRangeException) /\
  (n = 0 -> BC_ToString (Some a) 0 length = Ret []) /\
  (0 <= start < n -> length < -1 -> BC_ToString (Some a) start length = Exn ArgumentOutOfRangeException) /\
  (0 <= start < n -> 0 <= length -> n < start + length -> BC_ToString (Some a) start length = Exn ArgumentException).
Proof.
  intros a n start length HS Hs Hl Hn. destruct HS as (_ & FD & DT & D1 & _ & _ & DC & TE & B1 & B2 & DL & FB). inversion FD as [|? ? Hn0 _]; subst.
  cbn [size_of fold_right] in *. rewrite Z.mul_1_r in *. unfold BC_ToString. rewrite TE. split; [reflexivity|].
  assert (LEN : forall s, -2147483648 < s <= 2147483647 -> n - s <= 2147483647 -> exists l, (if length =? -1 then i32 (n - s) else Ret length) = Ret l /\ (length <> -1 -> l = length)).
  { intros s ? ?. destruct (length =? -1) eqn:E; [exists (n - s); split; [apply i32_ret; lia|lia]|exists length; auto]. }
  destruct (LEN start Hs Hn) as (l & LEN1 & Ll). rewrite LEN1. destruct (LEN 0 ltac:(lia) ltac:(lia)) as (l0 & LEN0 & _). rewrite LEN0, !bind_ret. clear LEN LEN1 LEN0. split; [|split; [|split]].
  - intros H1 H2. replace ((start <? 0) || (n <=? start)) with true by lia. replace ((start =? 0) && (n =? 0)) with false by lia. reflexivity.
  - intros ->. reflexivity.
  - intros H1 H2. rewrite Ll by lia. replace ((start <? 0) || (n <=? start)) with false by lia. rewrite throw_if_true by lia. reflexivity.
  - intros H1 H2 H3. rewrite Ll by lia. replace ((start <? 0) || (n <=? start)) with false by lia. rewrite throw_if_false by lia. rewrite bind_ret. rewrite throw_if_true by lia. reflexivity.
Qed.
Print Assumptions C30_range.
(** Beyond the bound the capacity computation overflows: 3*length, or its rounding up to 128s. *)
Theorem C30_large_refuted : forall a n, has_shape a ByteType [n] -> 2147483520 < 3 * n - 1 -> BC_ToString (Some a) 0 (-1) = UB SignedOverflow.
Proof.
  intros a n HS H. destruct HS as (_ & FD & DT & D1 & _ & _ & DC & TE & B1 & B2 & DL & FB).
  cbn [size_of fold_right] in *. rewrite Z.mul_1_r in *. unfold BC_ToString. rewrite TE. change (-1 =? -1) with true. cbn iota. rewrite i32_ret by lia. rewrite bind_ret.
  replace ((0 <? 0) || (n <=? 0)) with false by lia. rewrite throw_if_false by lia. rewrite bind_ret. rewrite throw_if_false by lia. rewrite bind_ret. replace (n - 0 =? 0) with false by lia.
  destruct (Z_le_dec ((n - 0) * 3) 2147483647) as [Hs|Hs]; [|rewrite i32_ub by lia; reflexivity].
  rewrite i32_ret by lia. rewrite bind_ret. unfold SB_capacity, SB_new, MaximumCapacity. rewrite throw_if_false by lia. rewrite bind_ret. rewrite throw_if_false by lia. rewrite bind_ret. rewrite throw_if_false by lia. rewrite bind_ret.
  replace ((n - 0) * 3 - 1 =? 0) with false by lia. unfold set_Capacity. cbn [maxc internal cap len Initialize negb andb]. rewrite throw_if_false by lia. rewrite bind_ret. rewrite throw_if_false by lia. rewrite bind_ret. rewrite throw_if_false by reflexivity. rewrite bind_ret.
  unfold DefaultCapacity. replace ((n - 0) * 3 - 1 <=? 128) with false by lia. replace (128 <? (n - 0) * 3 - 1) with true by lia.
  set (c := (n - 0) * 3 - 1) in *. assert (Hc : 2147483520 < c <= 2147483646) by lia. clearbody c. rewrite Z.rem_mod_nonneg, Z.quot_div_nonneg by lia. replace (0 <? c mod 128) with true by lia. rewrite i32_ub by lia. reflexivity.
Qed.
Print Assumptions C30_large_refuted.

(** ** C46: CharEnumerator *)
Inductive enum_op := MoveNext | Current | Reset.
(** Running the operations on the enumerator: their results in order. *)
Fixpoint run_enum (e : enumerator) (ops : list enum_op) : list (outcome Z) :=
  match ops with
  | [] => []
  | MoveNext :: ops =>
    match Enum_MoveNext e with
    | Ret (e', r) => Ret (if r then 1 else 0) :: run_enum e' ops
    | Exn x => [Exn x]
    | UB u => [UB u]
    end
  | Current :: ops => Enum_get_Current e :: run_enum e ops
  | Reset :: ops => Ret 0 :: run_enum (Enum_Reset e) ops
  end.
(** What they must be, from the position alone: MoveNext advances and says whether it is on a
    character, Current is the character at the position and throws elsewhere. *)
Fixpoint expected (s : list Z) (p : position) (ops : list enum_op) : list (outcome Z) :=
  match ops with
  | [] => []
  | MoveNext :: ops => Ret (match next s p with On _ => 1 | _ => 0 end) :: expected s (next s p) ops
  | Current :: ops => match p with On i => Ret (nth (Z.to_nat i) s 0) | _ => Exn InvalidOperationException end :: expected s p ops
  | Reset :: ops => Ret 0 :: expected s Before ops
  end.
Definition at_position (s : list Z) (e : enumerator) (p : position) : Prop :=
  e_string e = s /\ match p with
  | Before => e_index e = -1
  | On i => e_index e = i /\ 0 <= i < zlen s /\ e_current e = nth (Z.to_nat i) s 0
  | After => e_index e = zlen s
  end.
Lemma run_expected s ops : a_string s -> forall e p, at_position s e p -> run_enum e ops = expected s p ops.
Proof.
  intros A. pose proof (zlen_nonneg s) as P0. unfold a_string in A.
  assert (GC : forall i, 0 <= i < zlen s -> String_get_Chars s i = Ret (nth (Z.to_nat i) s 0)).
  { intros i Hi. destruct (get_Chars_in s i Hi) as (c & E & (x & y & E2 & L)). rewrite E. f_equal. rewrite E2, <- L. unfold zlen. rewrite Nat2Z.id. rewrite app_nth2 by lia. rewrite Nat.sub_diag. reflexivity. }
  induction ops as [|[] ops IH]; intros e p (E & HP); [reflexivity| | |].
  - cbn [run_enum expected]. unfold Enum_MoveNext. rewrite E. rewrite i32_ret by lia. rewrite bind_ret. destruct p as [|i|]; cbn [next].
    + rewrite HP. destruct (0 <? zlen s) eqn:Z0.
      * replace (-1 <? zlen s - 1) with true by lia. rewrite GC by lia. cbn [bind]. f_equal. apply IH. split; [reflexivity|]. cbn [e_index e_current]. split; [reflexivity|]. split; [lia|reflexivity].
      * replace (-1 <? zlen s - 1) with false by lia. f_equal. apply IH. split; reflexivity.
    + destruct HP as (HI & HR & HC). rewrite HI. destruct (i + 1 <? zlen s) eqn:Z0.
      * replace (i <? zlen s - 1) with true by lia. rewrite GC by lia. cbn [bind]. f_equal. apply IH. split; [reflexivity|]. cbn [e_index e_current]. split; [reflexivity|]. split; [lia|reflexivity].
      * replace (i <? zlen s - 1) with false by lia. f_equal. apply IH. split; reflexivity.
    + rewrite HP. replace (zlen s <? zlen s - 1) with false by lia. f_equal. apply IH. split; reflexivity.
  - cbn [run_enum expected]. f_equal; [|apply IH; split; assumption]. unfold Enum_get_Current. rewrite E. destruct p as [|i|].
    + rewrite HP. reflexivity.
    + destruct HP as (HI & HR & HC). rewrite HI. rewrite throw_if_false by lia. rewrite bind_ret. rewrite throw_if_false by lia. rewrite bind_ret. rewrite HC. reflexivity.
    + rewrite HP. rewrite throw_if_false by lia. rewrite bind_ret. rewrite throw_if_true by lia. reflexivity.
  - cbn [run_enum expected]. f_equal. apply IH. split; [exact E|reflexivity].
Qed.
(** Every history of MoveNext, Current and Reset on every string. *)
Theorem C46_history : forall s ops, a_string s -> run_enum (Enum_new s) ops = expected s Before ops.
Proof. intros s ops A. apply run_expected; [exact A|]. split; reflexivity. Qed.
Print Assumptions C46_history.
(** The loop [while (MoveNext()) use(Current)] delivers exactly the characters of the string, in
    order, and then MoveNext stays false, from a fresh enumerator and after a Reset alike. *)
Fixpoint walk (n : nat) : list enum_op := match n with O => [] | S n => MoveNext :: Current :: walk n end.
Theorem C46_walk : forall s before k, a_string s -> exists used,
  run_enum (Enum_new s) (before ++ Reset :: walk (length s) ++ repeat MoveNext k) =
  used ++ Ret 0 :: flat_map (fun c => [Ret 1; Ret c]) s ++ repeat (Ret 0) k.
Proof.
  intros s before k A. rewrite C46_history by exact A.
  assert (S1 : forall x y p, exists used p', expected s p (x ++ y) = used ++ expected s p' y).
  { intros x y. induction x as [|[] x IH]; intros p; cbn [app expected].
    - exists [], p. reflexivity.
    - destruct (IH (next s p)) as (u & p' & ->). eexists (_ :: u), p'. reflexivity.
    - destruct (IH p) as (u & p' & ->). eexists (_ :: u), p'. reflexivity.
    - destruct (IH Before) as (u & p' & ->). eexists (_ :: u), p'. reflexivity. }
  destruct (S1 before (Reset :: walk (length s) ++ repeat MoveNext k) Before) as (u & p' & ->). exists u. f_equal. cbn [expected]. f_equal. clear S1 u p' before.
  assert (T : forall p, (match next s p with On _ => False | _ => True end) -> expected s p (repeat MoveNext k) = repeat (Ret 0) k).
  { clear. induction k as [|k IH]; intros p H; [reflexivity|]. cbn [repeat expected]. destruct (next s p) eqn:E; try contradiction.
    - f_equal. apply IH. destruct p; cbn in E; repeat (destruct (_ <? _) in E); try discriminate.
    - f_equal. apply IH. exact I. }
  assert (W : forall b a p, s = a ++ b -> next s p = (match b with [] => After | _ => On (zlen a) end) ->
     expected s p (walk (length b) ++ repeat MoveNext k) = flat_map (fun c => [Ret 1; Ret c]) b ++ repeat (Ret 0) k).
  { induction b as [|c b IH]; intros a p E HN; cbn [length walk app flat_map].
    - apply T. rewrite HN. exact I.
    - cbn [expected]. rewrite HN. f_equal. f_equal.
      + f_equal. rewrite E. unfold zlen. rewrite Nat2Z.id. rewrite app_nth2 by lia. rewrite Nat.sub_diag. reflexivity.
      + apply (IH (a ++ [c])); [rewrite <- app_assoc; exact E|]. cbn [next]. rewrite E, !zlen_app, zlen_cons. pose proof (@zlen_nil Z) as Z1. pose proof (zlen_nonneg b).
        destruct b as [|d b]; [rewrite Z1; replace (zlen a + 1 <? zlen a + (0 + 1)) with false by lia; reflexivity|].
        rewrite zlen_cons in *. pose proof (zlen_nonneg b). replace (zlen a + 1 <? zlen a + (zlen b + 1 + 1)) with true by lia. rewrite zlen_cons, Z1. f_equal. }
  apply (W s [] Before); [reflexivity|]. cbn [next]. destruct s as [|c s]; [reflexivity|]. rewrite zlen_cons. pose proof (zlen_nonneg s). replace (0 <? zlen s + 1) with true by lia. reflexivity.
Qed.
Print Assumptions C46_walk.
Example C46_example : run_enum (Enum_new [97; 98]) [Current; MoveNext; Current; MoveNext; Current; MoveNext; Current; MoveNext; Reset; MoveNext; Current] =
  [Exn InvalidOperationException; Ret 1; Ret 97; Ret 1; Ret 98; Ret 0; Exn InvalidOperationException; Ret 0; Ret 0; Ret 1; Ret 97].
Proof. reflexivity. Qed.
