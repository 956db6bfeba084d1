(** * Theorems about the remaining String and Char functions and about FormatString buffers *)
From Verif Require Import Tac MemModel MemProofs StringBuilderModel StringBuilderSpec StringBuilderProofs StringBuilderHistory StringModel StringSpec StringProofs StringBuildProofs TextModel TextSpec TextProofs.

(** ** C66: case mapping, character arrays, repeated characters *)
Theorem C66_case : forall ct s, zlen s < 2147483647 -> ToLower ct s = Ret (map (towlower ct) s) /\ ToUpper ct s = Ret (map (towupper ct) s).
Proof.
  assert (G : forall (f : Z -> Z) (s : list Z), zlen s < 2147483647 -> fresh_string (fun i => c <- read (buffer s) i ;; Ret (f c)) (zlen s) = Ret (map f s)).
  { intros f s L. replace (zlen s) with (zlen (map f s)) by (unfold zlen; rewrite map_length; reflexivity). apply fresh_string_spec; [unfold zlen in *; rewrite map_length; exact L|].
    intros k Hk. unfold zlen in Hk. rewrite map_length in Hk. unfold buffer. rewrite read_nth by exact Hk. rewrite bind_ret. f_equal. rewrite (nth_indep (map f s) 0 (f 0)) by (rewrite map_length; lia). symmetry. apply map_nth. }
  intros ct s L. split; apply G; exact L.
Qed.
Print Assumptions C66_case.
(** For a case map that is idempotent and inverse up to case, so are the string functions: e.g. lower
    casing twice changes nothing more. *)
Theorem C66_case_idempotent : forall ct s r, zlen s < 2147483647 -> (forall c, towlower ct (towlower ct c) = towlower ct c) -> ToLower ct s = Ret r -> ToLower ct r = Ret r /\ zlen r = zlen s.
Proof.
  intros ct s r L H E. rewrite (proj1 (C66_case ct s L)) in E. injection E as <-. assert (L' : zlen (map (towlower ct) s) = zlen s) by (unfold zlen; rewrite map_length; reflexivity).
  split; [|exact L']. rewrite (proj1 (C66_case ct _ ltac:(rewrite L'; exact L))). f_equal. rewrite map_map. apply map_ext. exact H.
Qed.
Print Assumptions C66_case_idempotent.
Theorem C66_repeat : forall c n, n < 2147483647 -> String_repeat c n = if n <? 0 then Exn ArgumentOutOfRangeException else Ret (repeat c (Z.to_nat n)).
Proof.
  intros c n H. unfold String_repeat. destruct (n <? 0) eqn:E; [reflexivity|]. cbn [throw_if]. rewrite bind_ret. destruct (c =? 0) eqn:C.
  - rewrite i32_ret by lia. rewrite bind_ret. apply Z.eqb_eq in C. rewrite C. reflexivity.
  - replace n with (zlen (repeat c (Z.to_nat n))) at 1 by (unfold zlen; rewrite repeat_length; lia). apply fresh_string_spec; unfold zlen; rewrite repeat_length; [lia|].
    intros k Hk. f_equal. symmetry. apply (repeat_spec (Z.to_nat n) c). apply nth_In. rewrite repeat_length. lia.
Qed.
Print Assumptions C66_repeat.
(** ToCharArray: exactly the selected characters, or ArgumentOutOfRange. *)
Theorem C66_tochararray : forall s start count, a_string s -> start <= 2147483647 -> -2147483648 <= count <= 2147483647 ->
  let n := if count <? 0 then zlen s - start else count in
  (0 <= start -> start + n <= zlen s -> 0 <= n -> exists r, ToCharArray s start count = Ret r /\ is_part s start n r) /\
  (start < 0 \/ 0 <= count /\ zlen s < start + count -> ToCharArray s start count = Exn ArgumentOutOfRangeException).
Proof.
  intros s start count A Hs Hc n. unfold a_string in A. pose proof (zlen_nonneg s) as P0. unfold ToCharArray. split.
  - intros H0 H1 H2. rewrite throw_if_false by lia. rewrite bind_ret. assert (E : (if count <? 0 then i32 (zlen s - start) else Ret count) = Ret n) by (unfold n; destruct (count <? 0); [apply i32_ret; lia|reflexivity]).
    rewrite E, bind_ret. clear E. clearbody n. rewrite i32_ret by lia. rewrite bind_ret. rewrite throw_if_false by lia. rewrite bind_ret. replace (n <? 0) with false by lia.
    assert (G : forall k i, 0 <= i -> i + Z.of_nat k <= zlen s -> exists r, chars_loop s i k = Ret r /\ is_part s i (Z.of_nat k) r).
    { induction k as [|k IH]; intros i Hi Hk; cbn [chars_loop].
      - exists []. split; [reflexivity|]. exists (firstn (Z.to_nat i) s), (skipn (Z.to_nat i) s). cbn [app]. rewrite firstn_skipn. split; [reflexivity|]. unfold zlen in *. rewrite firstn_length. cbn [length]. lia.
      - destruct (get_Chars_in s i ltac:(lia)) as (c & -> & (a & b & E & L)). rewrite bind_ret. destruct (IH (i + 1) ltac:(lia) ltac:(lia)) as (r & -> & (a' & b' & E' & L1 & L2)). rewrite bind_ret.
        exists (c :: r). split; [reflexivity|]. exists a, b'. assert (Q : a ++ [c] = a' /\ b = r ++ b').
        { assert (EE : (a ++ [c]) ++ b = a' ++ r ++ b') by (rewrite <- app_assoc; cbn [app]; congruence).
          assert (LL : length (a ++ [c]) = length a') by (rewrite app_length; unfold zlen in *; cbn [length]; lia).
          exact (app_cut _ _ _ _ LL EE). }
        destruct Q as (Q1 & Q2). split; [rewrite E, Q2; reflexivity|]. split; [exact L|]. rewrite zlen_cons. lia. }
    destruct (G (Z.to_nat n) start H0 ltac:(lia)) as (r & Er & HP). exists r. split; [exact Er|]. rewrite Z2Nat.id in HP by lia. exact HP.
  - intros H. destruct (start <? 0) eqn:Es; [reflexivity|]. cbn [throw_if]. rewrite bind_ret. replace (count <? 0) with false by lia. rewrite bind_ret. rewrite i32_ret by lia. rewrite bind_ret. rewrite throw_if_true by lia. reflexivity.
Qed.
Print Assumptions C66_tochararray.
(** A String made of an array's characters; from a positive start index the length must be given. *)
Theorem C66_of_array_partial : forall v start count, zlen v < 2147483647 -> 0 <= start -> 0 <= count -> start + count <= zlen v ->
  exists r, String_of_array (Some v) start count = Ret r /\ is_part v start count r.
Proof.
  intros v start count L Hs Hc H. exists (part v start count). split; [|apply part_is_part; lia]. unfold String_of_array. replace (count <? 0) with false by lia. rewrite bind_ret.
  destruct (count =? 0) eqn:E0. { unfold part. replace count with 0 by lia. reflexivity. }
  replace (start <? 0) with false by lia. rewrite throw_if_false by lia. rewrite bind_ret.
  assert (LP : zlen (part v start count) = count) by (unfold part, zlen in *; rewrite firstn_length, skipn_length; lia). rewrite <- LP at 1. apply fresh_string_spec; [lia|].
  intros k Hk. rewrite LP in Hk. rewrite i32_ret by lia. rewrite bind_ret. unfold String_Address. rewrite throw_if_false by lia. rewrite !bind_ret. pose proof (read_nth v [] (k + start) ltac:(lia)) as R. rewrite app_nil_r in R. rewrite R. f_equal.
  unfold part. rewrite <- (firstn_skipn (Z.to_nat start) v) at 1. rewrite app_nth2 by (rewrite firstn_length; unfold zlen in *; lia). rewrite firstn_length. unfold zlen in *.
  rewrite Nat.min_l by lia. replace (Z.to_nat (k + start) - Z.to_nat start)%nat with (Z.to_nat k) by lia.
  rewrite <- (firstn_skipn (Z.to_nat count) (skipn (Z.to_nat start) v)) at 1. rewrite app_nth1; [reflexivity|]. rewrite firstn_length, skipn_length. lia.
Qed.
Print Assumptions C66_of_array_partial.
(** A string survives the trip through a character array. *)
Theorem C66_round_trip : forall s, zlen s < 2147483647 -> exists v, ToCharArray s 0 (-1) = Ret v /\ String_of_array (Some v) 0 (-1) = Ret s.
Proof.
  intros s L. pose proof (zlen_nonneg s) as P0. destruct (C66_tochararray s 0 (-1) ltac:(unfold a_string; lia) ltac:(lia) ltac:(lia)) as (H & _). change (-1 <? 0) with true in H. cbn iota zeta in H.
  destruct (H ltac:(lia) ltac:(lia) ltac:(lia)) as (v & E & HP). exists v. split; [exact E|]. destruct HP as (a & b & E1 & L1 & L2).
  assert (a = []) by (destruct a; [reflexivity|rewrite zlen_cons in L1; pose proof (zlen_nonneg a); lia]). subst a. cbn [app] in E1.
  assert (b = []). { destruct b as [|x b]; [reflexivity|]. exfalso. apply (f_equal (@zlen Z)) in E1. rewrite zlen_app, zlen_cons in E1. pose proof (zlen_nonneg b). lia. } subst b. rewrite app_nil_r in E1. subst v.
  destruct (C66_of_array_partial s 0 (zlen s) L ltac:(lia) ltac:(lia) ltac:(lia)) as (r & Er & HP).
  assert (r = s) as -> by (apply (is_part_fun s 0 (zlen s)); [exact HP|exists [], []; rewrite app_nil_r; auto]).
  transitivity (String_of_array (Some s) 0 (zlen s)); [|exact Er]. unfold String_of_array. change (-1 <? 0) with true. replace (zlen s <? 0) with false by lia. cbn iota. rewrite !bind_ret. reflexivity.
Qed.
Print Assumptions C66_round_trip.
(** With the default length a start index other than 0 always throws, and a null array is
    dereferenced. *)
Theorem C66_of_array_refuted : (forall v start, v <> [] -> 0 < start -> String_of_array (Some v) start (-1) = Exn ArgumentOutOfRangeException) /\
  (forall start, String_of_array None start (-1) = UB NullDereference).
Proof.
  split; [|reflexivity]. intros v start NE H. unfold String_of_array. change (-1 <? 0) with true. cbn iota. rewrite bind_ret. destruct v as [|x v]; [contradiction|]. rewrite zlen_cons. pose proof (zlen_nonneg v).
  replace (zlen v + 1 =? 0) with false by lia. replace (start <? 0) with false by lia. rewrite throw_if_true by lia. reflexivity.
Qed.
Print Assumptions C66_of_array_refuted.
(** CopyTo: the selected characters land in the selected place, everything else is kept. *)
Theorem C66_copyto_partial : forall a x b d y e, x <> [] -> zlen x = zlen y -> CopyTo (a ++ x ++ b) (zlen a) (Some (d ++ y ++ e)) (zlen d) (zlen x) = Ret (d ++ x ++ e).
Proof.
  intros a x b d y e NE L. assert (1 <= zlen x) by (destruct x as [|c x]; [contradiction|rewrite zlen_cons; pose proof (zlen_nonneg x); lia]).
  pose proof (zlen_nonneg a). pose proof (zlen_nonneg b). pose proof (zlen_nonneg d). pose proof (zlen_nonneg e). unfold CopyTo.
  rewrite throw_if_false by lia. rewrite bind_ret. rewrite throw_if_false by lia. rewrite bind_ret. rewrite throw_if_false by (rewrite !zlen_app; lia). rewrite bind_ret. rewrite throw_if_false by (rewrite !zlen_app; lia). rewrite bind_ret.
  unfold String_Address. rewrite throw_if_false by (rewrite !zlen_app; lia). rewrite !bind_ret. rewrite throw_if_false by (rewrite !zlen_app; lia). rewrite !bind_ret.
  unfold buffer. rewrite memread_part by (rewrite ?zlen_app; lia). rewrite bind_ret.
  assert (P : part (a ++ x ++ b) (zlen a) (zlen x) = x). { apply (is_part_fun (a ++ x ++ b) (zlen a) (zlen x)); [apply part_is_part; rewrite ?zlen_app; lia|exists a, b; auto]. }
  rewrite P. unfold memwrite. replace ((zlen d <? 0) || (zlen (d ++ y ++ e) <? zlen d + zlen x)) with false by (rewrite !zlen_app; lia). f_equal. unfold take, drop.
  replace (Z.to_nat (zlen d)) with (length d) by (unfold zlen; lia). rewrite firstn_app, Nat.sub_diag, firstn_all. cbn [firstn]. rewrite app_nil_r. f_equal. f_equal.
  replace (Z.to_nat (zlen d + zlen x)) with (length (d ++ y)) by (rewrite app_length; unfold zlen in *; lia). rewrite app_assoc, skipn_app, Nat.sub_diag, skipn_all. reflexivity.
Qed.
Print Assumptions C66_copyto_partial.
(** Every window that leaves the string or the array throws (the code's choice is ArgumentNull). *)
Theorem C66_copyto_range : forall s si v di n, n < 0 \/ si < 0 \/ zlen s < si + n \/ di < 0 \/ zlen v < di + n -> CopyTo s si (Some v) di n = Exn ArgumentNullException.
Proof.
  intros s si v di n H. unfold CopyTo. destruct (n <? 0) eqn:E1; [reflexivity|]. destruct (si <? 0) eqn:E2; [reflexivity|]. destruct (zlen s - si <? n) eqn:E3; [reflexivity|].
  cbn [throw_if]. rewrite !bind_ret. rewrite throw_if_true by lia. reflexivity.
Qed.
Print Assumptions C66_copyto_range.
(** Copying nothing at the end of the string, or to the end of the array, throws. *)
Theorem C66_copyto_empty_refuted : forall s v, CopyTo s (zlen s) (Some v) 0 0 = Exn IndexOutOfRangeException /\ (s <> [] -> CopyTo s 0 (Some v) (zlen v) 0 = Exn IndexOutOfRangeException).
Proof.
  intros s v. pose proof (zlen_nonneg s). pose proof (zlen_nonneg v). split; [|intros NE; assert (1 <= zlen s) by (destruct s as [|c s]; [contradiction|rewrite zlen_cons; pose proof (zlen_nonneg s); lia])]; unfold CopyTo, String_Address.
  - rewrite throw_if_false by lia. rewrite bind_ret. rewrite throw_if_false by lia. rewrite bind_ret. rewrite throw_if_false by lia. rewrite bind_ret. rewrite throw_if_false by lia. rewrite bind_ret. rewrite throw_if_true by lia. reflexivity.
  - rewrite throw_if_false by lia. rewrite bind_ret. rewrite throw_if_false by lia. rewrite bind_ret. rewrite throw_if_false by lia. rewrite bind_ret. rewrite throw_if_false by lia. rewrite bind_ret. rewrite !bind_ret. rewrite throw_if_true by lia. reflexivity.
Qed.
Print Assumptions C66_copyto_empty_refuted.
Theorem C66_blank : forall ct s, (IsNullOrEmpty s = true <-> s = None \/ s = Some []) /\
  IsNullOrWhiteSpace ct s = Ret (match s with None => true | Some s => forallb (iswspace ct) s end).
Proof.
  intros ct [s|]; [|split; [split; auto|reflexivity]]. split.
  - unfold IsNullOrEmpty. split; [intros H; right; destruct s as [|c s]; [reflexivity|]; rewrite zlen_cons in H; pose proof (zlen_nonneg s); lia|intros [H|H]; [discriminate|injection H as ->; reflexivity]].
  - unfold IsNullOrWhiteSpace, IsNullOrEmpty. destruct (zlen s =? 0) eqn:E; [|apply space_loop_spec]. destruct s as [|c s]; [reflexivity|]. rewrite zlen_cons in E. pose proof (zlen_nonneg s). lia.
Qed.
Print Assumptions C66_blank.
Example C66_example : ToUpper c_locale [97; 49; 98] = Ret [65; 49; 66] /\ ToCharArray [97; 98; 99] 1 (-1) = Ret [98; 99] /\ CopyTo [97; 98; 99] 1 (Some [1; 2; 3; 4]) 2 2 = Ret [1; 2; 98; 99] /\
  String_repeat 97 3 = Ret [97; 97; 97] /\ IsNullOrWhiteSpace c_locale (Some [32; 9]) = Ret true.
Proof. repeat split; vm_compute; reflexivity. Qed.

(** ** C67: Char text and the (String, index) forms *)
(** ToString then Parse or TryParse gives the character back, for every character (also NUL) and
    whatever the stack held. *)
Theorem C67_round_trip : forall c junk, zlen junk = 128 -> Object_ToString (Char_FormatString c) junk = Ret [c] /\ Char_Parse (Some [c]) = Ret c /\ Char_TryParse (Some [c]) = Ret (true, c).
Proof.
  intros c junk L. split; [|split; reflexivity]. destruct junk as [|x [|y junk]]; [discriminate|discriminate|].
  unfold Object_ToString, Char_FormatString. rewrite throw_if_false by lia. rewrite bind_ret. pose proof (write_same [] (y :: junk) x c) as W0. change (zlen []) with 0 in W0. cbn [app] in W0. rewrite W0, !bind_ret.
  pose proof (write_same [c] junk y 0) as W. change (zlen [c]) with 1 in W. cbn [app] in W. rewrite W, bind_ret. apply (String_from_text [c] junk). cbn. lia.
Qed.
Print Assumptions C67_round_trip.
(** Parse accepts exactly the one-character texts; TryParse accepts the same and gives 0 otherwise. *)
Theorem C67_parse : forall s, (forall c, Char_Parse (Some s) = Ret c <-> s = [c]) /\ ((forall c, s <> [c]) -> Char_Parse (Some s) = Exn FormatException /\ Char_TryParse (Some s) = Ret (false, 0)) /\
  Char_Parse None = Exn ArgumentNullException /\ Char_TryParse None = Ret (false, 0).
Proof.
  intros s. assert (D : (exists c, s = [c]) \/ (zlen s =? 1) = false).
  { destruct s as [|c [|d s]]; [right; reflexivity|left; exists c; reflexivity|right; rewrite !zlen_cons; pose proof (zlen_nonneg s); lia]. }
  split; [|split; [|split; reflexivity]].
  - intros c. split; [|intros ->; reflexivity]. destruct D as [(d & ->)|D]; [intros H; cbn in H; congruence|]. unfold Char_Parse. rewrite D. discriminate.
  - intros N. destruct D as [(d & ->)|D]; [exfalso; apply (N d); reflexivity|]. unfold Char_Parse, Char_TryParse. rewrite D. split; reflexivity.
Qed.
Print Assumptions C67_parse.
(** Every predicate [f] asked about (s, i) answers as for character i of s.
    Missing: a negative index should throw ArgumentOutOfRange, see below. *)
Theorem C67_indexed_partial : forall A (f : Z -> A) s i,
  (forall c, char_at s i c -> Char_at f (Some s) i = Ret (f c)) /\ (zlen s <= i -> Char_at f (Some s) i = Exn ArgumentOutOfRangeException) /\ Char_at f None i = Exn ArgumentNullException.
Proof.
  intros A f s i. split; [|split; [|reflexivity]].
  - intros c H. pose proof (char_at_range s i c H) as R. unfold Char_at. rewrite throw_if_false by lia. rewrite bind_ret. destruct (get_Chars_in s i R) as (c' & -> & H'). rewrite bind_ret. rewrite (char_at_fun s i c c' H H'). reflexivity.
  - intros H. unfold Char_at. rewrite throw_if_true by lia. reflexivity.
Qed.
Print Assumptions C67_indexed_partial.
Theorem C67_negative_refuted : forall A (f : Z -> A) s i, i < 0 -> Char_at f (Some s) i = Exn IndexOutOfRangeException.
Proof.
  intros A f s i H. unfold Char_at. pose proof (zlen_nonneg s). rewrite throw_if_false by lia. rewrite bind_ret. unfold String_get_Chars, String_Address. rewrite throw_if_true by lia. reflexivity.
Qed.
Print Assumptions C67_negative_refuted.
(** The numeric value of a digit is its position among the digits, -1 for everything else. *)
Theorem C67_numeric : forall c, (forall d, 0 <= d <= 9 -> GetNumericValue c = d <-> c = 48 + d) /\ (GetNumericValue c = -1 <-> IsDigit c = false) /\ (IsDigit c = true <-> 48 <= c <= 57).
Proof. intros c. unfold GetNumericValue, IsDigit. destruct ((48 <=? c) && (c <=? 57)) eqn:E; cbn [negb]; repeat split; intros; try lia; try discriminate. Qed.
Print Assumptions C67_numeric.
(** CompareTo orders characters by number; the difference always fits for the characters C# has. *)
Theorem C67_compare : forall a b, 0 <= a <= 65535 -> 0 <= b <= 65535 -> exists r, Char_CompareTo a b = Ret r /\ (r < 0 <-> a < b) /\ (r = 0 <-> a = b) /\ (0 < r <-> b < a).
Proof. intros a b Ha Hb. exists (a - b). unfold Char_CompareTo. rewrite i32_ret by lia. repeat split; lia. Qed.
Print Assumptions C67_compare.
Example C67_example : Char_Parse (Some [65]) = Ret 65 /\ Char_Parse (Some [65; 66]) = Exn FormatException /\ Char_at IsDigit (Some [65; 51]) 1 = Ret true /\ char_at [65; 51] 1 51.
Proof. repeat split. exists [65], []. split; reflexivity. Qed.

(** ** C68: FormatString stays inside the caller's buffer *)
(** With more room than characters: the text, a NUL, the rest of the buffer untouched, and the number
    of characters as the result.  Missing: a buffer of exactly the length (see below), and for Boolean
    and Object a smaller one. *)
Theorem C68_format_partial : forall s m : list Z, zlen s < zlen m ->
  String_FormatString s m (zlen m) = Ret (s ++ 0 :: drop (zlen s + 1) m, zlen s) /\
  (forall v : bool, s = (if v then TrueString else FalseString) -> Boolean_FormatString v m (zlen m) = Ret (s ++ 0 :: drop (zlen s + 1) m, zlen s)) /\
  (s = ObjectString -> Object_FormatString m (zlen m) = Ret (s ++ 0 :: drop (zlen s + 1) m, zlen s)) /\
  (forall b, inv b -> content b = s -> SB_FormatString b m (zlen m) = Ret (s ++ 0 :: drop (zlen s + 1) m, zlen s)).
Proof.
  intros s m H. split; [|split; [|split]].
  - unfold String_FormatString. rewrite throw_if_false by lia. rewrite bind_ret. unfold buffer. rewrite CopyChars_room by exact H. reflexivity.
  - intros v ->. unfold Boolean_FormatString, buffer. rewrite CopyChars_room by exact H. reflexivity.
  - intros ->. unfold Object_FormatString, buffer. change 6 with (zlen ObjectString) at 1. rewrite CopyChars_room by exact H. reflexivity.
  - intros b I C. destruct (inv_split b I) as (r & E & L & _). unfold SB_FormatString. rewrite <- L, C in *. rewrite throw_if_false by lia. rewrite bind_ret. rewrite E. rewrite CopyChars_room by exact H. reflexivity.
Qed.
Print Assumptions C68_format_partial.
(** Too small by more than nothing: String and StringBuilder throw and write nothing. *)
Theorem C68_short : forall (s : str) m n, n < zlen s -> String_FormatString s m n = Exn IndexOutOfRangeException.
Proof. intros s m n H. unfold String_FormatString. rewrite throw_if_true by lia. reflexivity. Qed.
Print Assumptions C68_short.
(** A buffer of exactly the length of the text: the terminating NUL is written behind it. *)
Theorem C68_exact_refuted : forall s m : list Z, zlen m = zlen s -> String_FormatString s m (zlen m) = UB OutOfBoundsWrite.
Proof.
  intros s m H. pose proof (zlen_nonneg s). unfold String_FormatString. rewrite throw_if_false by lia. rewrite bind_ret. unfold CopyChars. replace (zlen m <? zlen s) with false by lia.
  unfold memcpy. replace (zlen s <? 0) with false by lia. unfold buffer. rewrite memread_part by lia. rewrite bind_ret, part_all. unfold memwrite. replace ((0 <? 0) || (zlen m <? 0 + zlen s)) with false by lia. rewrite bind_ret.
  unfold take. cbn [Z.to_nat firstn app]. unfold write. change (Z.of_nat (length (s ++ drop (0 + zlen s) m))) with (zlen (s ++ drop (0 + zlen s) m)). rewrite zlen_app.
  assert (zlen (drop (0 + zlen s) m) = 0) as -> by (unfold drop, zlen in *; rewrite skipn_length; lia). replace ((zlen s <? 0) || (zlen s + 0 <=? zlen s)) with true by lia. reflexivity.
Qed.
Print Assumptions C68_exact_refuted.
(** A Boolean formatted into three characters reports four although two were written. *)
Theorem C68_boolean_refuted : Boolean_FormatString true [9; 9; 9] 3 = Ret ([84; 114; 0], 4).
Proof. reflexivity. Qed.
Print Assumptions C68_boolean_refuted.
Example C68_example : String_FormatString [97; 98] [1; 2; 3; 4] 4 = Ret ([97; 98; 0; 4], 2).
Proof. reflexivity. Qed.
(** C68: a Char refuses a buffer without room for it and a terminator; otherwise it writes itself in
    front, leaves the rest - so no terminator is written - and reports one character. *)
Theorem C68_char : forall v m n, n <= zlen m ->
  (n < 2 -> Char_FormatString v m n = Exn IndexOutOfRangeException) /\
  (2 <= n -> exists x rest, m = x :: rest /\ Char_FormatString v m n = Ret (v :: rest, 1)).
Proof.
  intros v m n Hn. unfold Char_FormatString. split; intros H.
  - rewrite throw_if_true by lia. reflexivity.
  - rewrite throw_if_false by lia. destruct m as [|x rest]; [cbn in Hn; lia|]. exists x, rest. split; [reflexivity|].
    pose proof (write_same [] rest x v) as W. change (zlen []) with 0 in W. cbn [app] in W. rewrite bind_ret, W, bind_ret. reflexivity.
Qed.
Print Assumptions C68_char.
