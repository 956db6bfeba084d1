(** * C31 (Substring), C32-C34, C36, C37: String functions that work on the characters directly.
    [char_at], [occurs_at], [first_index], [trimmed], ... are in StringSpec.v. *)
From Verif Require Import Tac Base MemModel MemProofs StringBuilderModel StringBuilderSpec StringBuilderProofs StringBuilderHistory StringModel StringSpec StringProofs.

(** ** C31: Substring *)
(** Substring(start, count): the characters named, for every in-range pair, when no NUL comes before
    [start].  A negative [count] means "to the end".  Missing: strings with an embedded NUL
    (C31_substring_nul_refuted). *)
Theorem C31_substring_partial : forall s start count, a_string s -> 0 <= start ->
  let n := if count <? 0 then zlen s - start else count in
  0 <= n -> start + n <= zlen s -> no_nul (firstn (Z.to_nat start) s) ->
  exists r, Substring s start count = Ret r /\ is_part s start n r.
Proof.
  intros s start count Hs Hi n Hn H Hz. assert (Hs' := Hs). unfold a_string in Hs'. pose proof (zlen_nonneg s) as Ps. unfold Substring. rewrite throw_if_false by lia. rewrite bind_ret. rewrite throw_if_false by lia. rewrite bind_ret.
  cbv zeta. fold n. rewrite throw_if_false by lia. rewrite bind_ret. destruct (n =? 0) eqn:E0.
  - exists []. split; [reflexivity|]. destruct (split_at s start) as (a & b & -> & L); [lia|]. exists a, b. split; [reflexivity|]. split; [exact L|rewrite zlen_nil; lia].
  - destruct ((start =? 0) && (n =? zlen s)) eqn:E1.
    + exists s. split; [reflexivity|]. exists [], []. rewrite app_nil_r. rewrite zlen_nil. split; [reflexivity|lia].
    + exists (part s start n). split; [|apply part_is_part; lia]. apply String_from_part; try assumption; lia.
Qed.
Print Assumptions C31_substring_partial.
Example C31_substring_example : Substring [72; 101; 108; 108; 111] 1 3 = Ret [101; 108; 108] /\ Substring [72; 101; 108] 1 (-1) = Ret [101; 108].
Proof. split; reflexivity. Qed.
(** Every other window throws ArgumentOutOfRange; nothing is ever read outside the string, whatever
    it contains. *)
Theorem C31_substring_range : forall s start count, a_string s ->
  (start < 0 \/ zlen s < start + (if count <? 0 then 0 else count) -> Substring s start count = Exn ArgumentOutOfRangeException) /\
  no_ub (Substring s start count).
Proof.
  intros s start count Hs. unfold a_string in Hs. pose proof (zlen_nonneg s) as Ps. split.
  - intros H. unfold Substring. destruct (start <? 0) eqn:E1; [reflexivity|]. cbn [throw_if bind]. destruct (zlen s <? start) eqn:E2; [reflexivity|]. cbn [throw_if bind].
    destruct (count <? 0) eqn:E3; [lia|]. rewrite throw_if_true by lia. reflexivity.
  - unfold Substring. destruct (start <? 0) eqn:E1; [discriminate|]. cbn [throw_if bind]. destruct (zlen s <? start) eqn:E2; [discriminate|]. cbn [throw_if bind].
    set (n := if count <? 0 then zlen s - start else count). destruct (zlen s - n <? start) eqn:E3; [discriminate|]. cbn [throw_if bind].
    assert (Pn : 0 <= n) by (unfold n; destruct (count <? 0) eqn:E; lia).
    destruct (n =? 0); [discriminate|]. destruct ((start =? 0) && (n =? zlen s)) eqn:E4; [discriminate|]. unfold String_from.
    replace (n <? 0) with false by lia. rewrite bind_ret. destruct (wcslen_some (buffer s)) as (k & -> & Hk).
    { unfold buffer. rewrite last_app by discriminate. reflexivity. }
    rewrite bind_ret. destruct ((start <? 0) || (k <? start)); [discriminate|]. cbn [throw_if bind]. rewrite i32_ret by lia. rewrite bind_ret.
    unfold buffer. rewrite memread_part by lia. discriminate.
Qed.
Print Assumptions C31_substring_range.
(** An embedded NUL makes Substring throw for every later start: "a\0b".Substring(2). *)
Theorem C31_substring_nul_refuted : forall a b start, no_nul a -> a_string (a ++ 0 :: b) -> zlen a < start < zlen (a ++ 0 :: b) ->
  Substring (a ++ 0 :: b) start (-1) = Exn ArgumentOutOfRangeException.
Proof.
  intros a b start Ha Hs Hi. pose proof (zlen_nonneg a) as Pa. unfold Substring. rewrite throw_if_false by lia. rewrite bind_ret. rewrite throw_if_false by lia. rewrite bind_ret.
  cbn [Z.ltb]. cbv zeta. change (-1 <? 0) with true. cbn iota. rewrite throw_if_false by lia. rewrite bind_ret. replace (_ =? 0) with false by lia.
  replace (start =? 0) with false by lia. cbn [andb]. unfold String_from. replace (_ <? 0) with false by lia. rewrite bind_ret. unfold buffer. rewrite <- app_assoc.
  cbn [app]. rewrite wcslen_text by exact Ha. rewrite bind_ret. rewrite throw_if_true by lia. reflexivity.
Qed.
Print Assumptions C31_substring_nul_refuted.
(** String.Copy returns an equal string. *)
Theorem C31_copy : forall s, zlen s < 2147483647 -> String_Copy (Some s) = Ret s.
Proof.
  intros s Hs. pose proof (zlen_nonneg s). unfold String_Copy. rewrite (String_from_part s 0 (zlen s)); try lia; [|unfold a_string; lia|constructor].
  unfold part. cbn [Z.to_nat skipn]. unfold zlen. rewrite Nat2Z.id. rewrite firstn_all. reflexivity.
Qed.
Print Assumptions C31_copy.

(** ** C32: searching for characters *)
(** IndexOf(c, start, count), for every window inside the string.  Missing from the full claim:
    windows outside the string do not always throw (C32_window_refuted). *)
Theorem C32_indexof_partial : forall s value start count, a_string s -> 0 <= start -> 0 <= count -> start + count <= zlen s ->
  exists r, IndexOf_char s value start count = Ret r /\
            first_index (fun i => start <= i < start + count /\ char_at s i value) r.
Proof.
  intros s v i n Hs Hi Hn H. unfold a_string in Hs. unfold IndexOf_char. rewrite i32_ret by lia. rewrite bind_ret. rewrite throw_if_false by lia. rewrite bind_ret.
  rewrite i32_ret by lia. rewrite bind_ret. replace (i + n - i) with n by lia.
  destruct (scan_up_first s (Z.eqb v) (fun c => c = v) i n) as (r & -> & F); [intros c; rewrite Z.eqb_eq; split; congruence|assumption..|].
  rewrite bind_ret. eexists. split; [reflexivity|]. eapply first_index_ext; [|exact F]. intros j. unfold in_window. split.
  - intros (W & c & Hc & ->). split; assumption.
  - intros (W & Hc). split; [exact W|exists v; auto].
Qed.
Print Assumptions C32_indexof_partial.
Theorem C32_indexof_all : forall s value, a_string s ->
  exists r, IndexOf_char_all s value = Ret r /\ first_index (fun i => char_at s i value) r.
Proof.
  intros s v Hs. destruct (C32_indexof_partial s v 0 (zlen s)) as (r & E & F); [assumption|pose proof (zlen_nonneg s); lia..|]. exists r. split; [exact E|].
  eapply first_index_ext; [|exact F]. intros j. split; [tauto|]. intros H. split; [|exact H]. apply char_at_range in H. lia.
Qed.
Print Assumptions C32_indexof_all.
(** A non-empty window that leaves the string throws, and no window makes the code read outside. *)
Theorem C32_indexof_range_partial : forall s value start count, a_string s ->
  zlen s - 2147483647 <= start <= 2147483647 -> -2147483648 <= start + count ->
  (0 < count -> start < 0 \/ zlen s < start + count -> exists e, IndexOf_char s value start count = Exn e) /\
  no_ub (IndexOf_char s value start count).
Proof.
  intros s v i n Hs Hi Hn. unfold a_string in Hs. pose proof (zlen_nonneg s). unfold IndexOf_char. rewrite i32_ret by lia. rewrite bind_ret.
  destruct (zlen s - i <? n) eqn:E; cbn [throw_if bind]; [split; [intros _ _; eexists; reflexivity|discriminate]|].
  rewrite i32_ret by lia. rewrite bind_ret. split.
  - intros Pn [L|G]; [|lia]. rewrite scan_up_out by lia. eexists. reflexivity.
  - destruct (scan_up_safe s (Z.eqb v) (Z.to_nat (i + n - i)) i) as [(r & ->)| ->]; cbn [bind]; discriminate.
Qed.
Print Assumptions C32_indexof_range_partial.
(** A negative count is not rejected, a negative start only when the loop runs; and for a start near
    Int32.MinValue the length computation overflows. *)
Theorem C32_window_refuted :
  IndexOf_char [97; 98] 97 1 (-1) = Ret (-1) /\ IndexOf_char [97; 98] 97 (-1) 0 = Ret (-1) /\
  (forall s value count, 1 <= zlen s -> IndexOf_char s value (-2147483648) count = UB SignedOverflow).
Proof.
  split; [reflexivity|]. split; [reflexivity|]. intros s v n H. unfold IndexOf_char. rewrite i32_ub by lia. reflexivity.
Qed.
Print Assumptions C32_window_refuted.
(** IndexOfAny: complete, including the windows that throw. *)
Theorem C32_indexofany : forall s arr start count, a_string s ->
  (0 <= start /\ 0 <= count /\ start + count <= zlen s ->
     exists r, IndexOfAny s (Some arr) start count = Ret r /\
               first_index (fun i => start <= i < start + count /\ exists c, char_at s i c /\ In c arr) r) /\
  (start < 0 \/ count < 0 \/ zlen s < start + count -> IndexOfAny s (Some arr) start count = Exn ArgumentNullException).
Proof.
  intros s arr i n Hs. split.
  - intros (Hi & Hn & H). unfold IndexOfAny. rewrite throw_if_false by lia. rewrite bind_ret. rewrite throw_if_false by lia. rewrite bind_ret.
    destruct arr as [|x arr].
    + exists (-1). split; [reflexivity|]. right. split; [reflexivity|]. intros j (_ & c & _ & []).
    + destruct (scan_up_first s (fun c => existsb (Z.eqb c) (x :: arr)) (fun c => In c (x :: arr)) i n) as (r & -> & F); [intros c; apply existsb_in|assumption..|].
      rewrite bind_ret. eexists. split; [reflexivity|]. exact F.
  - intros H. unfold IndexOfAny. destruct ((i <? 0) || (n <? 0)) eqn:E; [reflexivity|]. cbn [throw_if bind]. rewrite throw_if_true by lia. reflexivity.
Qed.
Print Assumptions C32_indexofany.
(** LastIndexOf(c, start, count): the window is (start - count, start]; a negative start means the
    last character, a negative count everything down to index 0. *)
Definition last_start (s : list Z) (start : Z) : Z := if start <? 0 then zlen s - 1 else start.
Definition last_count (s : list Z) (start count : Z) : Z := if count <? 0 then last_start s start + 1 else count.
Theorem C32_lastindexof_partial : forall s value start count, a_string s ->
  last_start s start < zlen s -> last_count s start count <= last_start s start + 1 ->
  exists r, LastIndexOf_char s value start count = Ret r /\
            last_index (fun i => last_start s start - last_count s start count < i <= last_start s start /\ char_at s i value) r.
Proof.
  intros s v start count Hs H1 H2. pose proof (zlen_nonneg s) as Ps. unfold a_string in Hs. unfold LastIndexOf_char. cbv zeta. fold (last_start s start).
  unfold last_count in *. set (i := last_start s start) in *. assert (Hi : -1 <= i) by (unfold i, last_start; destruct (start <? 0) eqn:E; lia).
  assert (En : (if count <? 0 then i32 (i + 1) else Ret count) = Ret (if count <? 0 then i + 1 else count)). { destruct (count <? 0); [apply i32_ret; lia|reflexivity]. }
  rewrite En, bind_ret. set (n := if count <? 0 then i + 1 else count) in *. assert (Hn : 0 <= n) by (unfold n; destruct (count <? 0) eqn:E; lia).
  rewrite i32_ret by lia. rewrite bind_ret. replace (i - (i - n)) with n by lia.
  destruct (scan_down_last s (Z.eqb v) (fun c => c = v) i n) as (r & -> & F); [intros c; rewrite Z.eqb_eq; split; congruence|assumption..|].
  rewrite bind_ret. eexists. split; [reflexivity|]. eapply last_index_ext; [|exact F]. intros j. split.
  - intros (W & c & Hc & ->). split; assumption.
  - intros (W & Hc). split; [exact W|exists v; auto].
Qed.
Print Assumptions C32_lastindexof_partial.
Theorem C32_lastindexofany_partial : forall s arr start count, a_string s ->
  last_start s start < zlen s -> last_count s start count <= last_start s start + 1 ->
  exists r, LastIndexOfAny s (Some arr) start count = Ret r /\
            last_index (fun i => last_start s start - last_count s start count < i <= last_start s start /\ exists c, char_at s i c /\ In c arr) r.
Proof.
  intros s arr start count Hs H1 H2. pose proof (zlen_nonneg s) as Ps. unfold a_string in Hs. unfold LastIndexOfAny. cbv zeta. fold (last_start s start).
  unfold last_count in *. set (i := last_start s start) in *. assert (Hi : -1 <= i) by (unfold i, last_start; destruct (start <? 0) eqn:E; lia).
  assert (En : (if count <? 0 then i32 (i + 1) else Ret count) = Ret (if count <? 0 then i + 1 else count)). { destruct (count <? 0); [apply i32_ret; lia|reflexivity]. }
  rewrite En, bind_ret. set (n := if count <? 0 then i + 1 else count) in *. assert (Hn : 0 <= n) by (unfold n; destruct (count <? 0) eqn:E; lia).
  rewrite i32_ret by lia. rewrite bind_ret. replace (i - (i - n)) with n by lia. destruct arr as [|x arr].
  - exists (-1). split; [reflexivity|]. right. split; [reflexivity|]. intros j (_ & c & _ & []).
  - destruct (scan_down_last s (fun c => existsb (Z.eqb c) (x :: arr)) (fun c => In c (x :: arr)) i n) as (r & -> & F); [intros c; apply existsb_in|assumption..|].
    rewrite bind_ret. eexists. split; [reflexivity|]. exact F.
Qed.
Print Assumptions C32_lastindexofany_partial.
(** A start at or after the end with a non-empty window throws; the code never reads outside. *)
Theorem C32_lastindexof_range : forall s value start count, a_string s -> start <= 2147483646 -> count <= 2147483647 ->
  (zlen s <= start -> count <> 0 -> LastIndexOf_char s value start count = Exn IndexOutOfRangeException) /\
  no_ub (LastIndexOf_char s value start count).
Proof.
  intros s v start count Hs H1 H2. pose proof (zlen_nonneg s) as Ps. unfold a_string in Hs. unfold LastIndexOf_char. cbv zeta.
  set (i := if start <? 0 then zlen s - 1 else start). assert (Hi : -1 <= i <= 2147483646) by (unfold i; destruct (start <? 0) eqn:E; lia).
  assert (En : (if count <? 0 then i32 (i + 1) else Ret count) = Ret (if count <? 0 then i + 1 else count)). { destruct (count <? 0); [apply i32_ret; lia|reflexivity]. }
  rewrite En, bind_ret. set (n := if count <? 0 then i + 1 else count) in *. assert (Hn : 0 <= n <= 2147483647) by (unfold n; destruct (count <? 0) eqn:E; lia).
  rewrite i32_ret by lia. rewrite bind_ret. replace (i - (i - n)) with n by lia. split.
  - intros H3 H4. assert (zlen s <= i) by (unfold i; destruct (start <? 0) eqn:E; lia). assert (0 < n) by (unfold n; destruct (count <? 0) eqn:E; lia).
    rewrite scan_down_out by lia. reflexivity.
  - destruct (scan_down_safe s (Z.eqb v) (Z.to_nat n) i) as [(r & ->)| ->]; cbn [bind]; discriminate.
Qed.
Print Assumptions C32_lastindexof_range.
(** A count that runs past the front is only noticed if the character is not found before: "ab". *)
Theorem C32_last_window_refuted : LastIndexOf_char [97; 98] 97 1 5 = Ret 0 /\ LastIndexOf_char [97; 98] 99 1 5 = Exn IndexOutOfRangeException.
Proof. split; reflexivity. Qed.
Print Assumptions C32_last_window_refuted.
Example C32_example : IndexOf_char [97; 98; 97; 98] 98 2 2 = Ret 3 /\ LastIndexOf_char [97; 98; 97; 98] 97 (-1) (-1) = Ret 2 /\
  IndexOfAny [97; 98; 97; 98] (Some [120; 98]) 0 4 = Ret 1 /\ last_start [97; 98; 97; 98] (-1) = 3 /\ last_count [97; 98; 97; 98] (-1) (-1) = 4.
Proof. repeat split; reflexivity. Qed.

(** ** C33: searching for strings *)
(** IndexOf(sub) and IndexOf(sub, start) on strings without NUL.  Missing: the window of the
    three-argument overload and embedded NULs, see the refutations below. *)
Theorem C33_indexof_partial : forall s sub start, a_string s -> no_nul s -> no_nul sub -> 0 <= start <= zlen s ->
  exists r, IndexOf_string_from s (Some sub) start = Ret r /\ first_index (fun i => start <= i /\ occurs_at s sub i) r.
Proof.
  intros s p i Hs Ns Np Hi. unfold a_string in Hs. unfold IndexOf_string_from. rewrite i32_ret by lia. rewrite bind_ret. unfold IndexOf_string.
  rewrite throw_if_false by lia. rewrite bind_ret. rewrite throw_if_false by lia. rewrite bind_ret.
  destruct (wcsstr_spec s p i Ns Np Hi) as (r & -> & Hr). rewrite bind_ret. destruct r as [off|].
  - destruct Hr as (P & O & F). replace (i + (zlen s - i) <? i + off) with false.
    + eexists. split; [reflexivity|]. left. split; [split; [lia|exact O]|]. intros j (A & B). apply F; assumption.
    + destruct O as (a & b & -> & L). rewrite !zlen_app. pose proof (zlen_nonneg p). pose proof (zlen_nonneg b). lia.
  - eexists. split; [reflexivity|]. right. split; [reflexivity|]. intros j (A & B). exact (Hr j A B).
Qed.
Print Assumptions C33_indexof_partial.
Theorem C33_indexof_all_partial : forall s sub, a_string s -> no_nul s -> no_nul sub ->
  exists r, IndexOf_string_all s (Some sub) = Ret r /\ first_index (occurs_at s sub) r.
Proof.
  intros s p Hs Ns Np. pose proof (zlen_nonneg s). destruct (C33_indexof_partial s p 0 Hs Ns Np) as (r & E & F); [lia|]. exists r. split.
  - unfold IndexOf_string_from in E. unfold a_string in Hs. rewrite i32_ret in E by lia. rewrite bind_ret, Z.sub_0_r in E. exact E.
  - eapply first_index_ext; [|exact F]. intros j. split; [tauto|]. intros H1. split; [|exact H1]. destruct H1 as (a & b & _ & <-). apply zlen_nonneg.
Qed.
Print Assumptions C33_indexof_all_partial.
Example C33_example : IndexOf_string_all [97; 98; 99; 98; 99] (Some [98; 99]) = Ret 1 /\ IndexOf_string_from [97; 98; 99; 98; 99] (Some [98; 99]) 2 = Ret 3 /\
  IndexOf_string_all [97; 98] (Some [98; 99]) = Ret (-1).
Proof. repeat split; reflexivity. Qed.
(** Windows outside the string and null throw. *)
Theorem C33_indexof_range : forall s sub start count,
  (start < 0 \/ count < 0 \/ zlen s < start + count -> IndexOf_string s (Some sub) start count = Exn ArgumentNullException) /\
  IndexOf_string s None start count = Exn ArgumentNullException.
Proof.
  intros s p i n. split; [|reflexivity]. intros H. unfold IndexOf_string. destruct ((i <? 0) || (n <? 0)) eqn:E; [reflexivity|]. cbn [throw_if bind]. rewrite throw_if_true by lia. reflexivity.
Qed.
Print Assumptions C33_indexof_range.
(** IndexOf(sub, start, count) reports occurrences that start at or run past the end of the window:
    "abc".IndexOf("c", 0, 2) is 2; .NET returns -1. *)
Theorem C33_window_refuted : IndexOf_string [97; 98; 99] (Some [99]) 0 2 = Ret 2 /\ IndexOf_string [97; 98; 99] (Some [98; 99]) 0 2 = Ret 1.
Proof. split; reflexivity. Qed.
Print Assumptions C33_window_refuted.
(** Nothing after an embedded NUL is found, and a pattern is cut at its first NUL. *)
Theorem C33_nul_refuted : IndexOf_string_all [97; 0; 98] (Some [98]) = Ret (-1) /\ occurs_at [97; 0; 98] [98] 2 /\
  IndexOf_string_all [97; 98] (Some [97; 0; 120]) = Ret 0.
Proof. repeat split; try reflexivity. exists [97; 0], []. split; reflexivity. Qed.
Print Assumptions C33_nul_refuted.

(** LastIndexOf(sub, start, count): the greatest index in (start - count, start] at which it occurs. *)
Lemma last_sub_spec s p start : no_nul s -> no_nul p -> start <= zlen s -> forall n i, i <= start -> -1 <= i - Z.of_nat n ->
  (forall j, i < j <= start -> ~ occurs_at s p j) ->
  exists r, last_sub_loop s p start i n = Ret r /\ last_index (fun j => i - Z.of_nat n < j <= start /\ occurs_at s p j) r.
Proof.
  intros Ns Np Hs. induction n as [|n IH]; intros i Hi Hn Hno; cbn [last_sub_loop].
  - exists (-1). split; [reflexivity|]. right. split; [reflexivity|]. intros j (A & B). apply (Hno j); [lia|exact B].
  - replace ((i <? 0) || (zlen s <? i)) with false by lia. destruct (wcsstr_spec s p i Ns Np) as (r & -> & Hr); [lia|]. rewrite bind_ret.
    assert (Go : ~ occurs_at s p i -> exists r, last_sub_loop s p start (i - 1) n = Ret r /\ last_index (fun j => i - Z.of_nat (S n) < j <= start /\ occurs_at s p j) r).
    { intros No. destruct (IH (i - 1)) as (r0 & E & F); [lia|lia| |].
      - intros j Hj. destruct (Z.eq_dec j i); [subst; exact No|apply Hno; lia].
      - exists r0. split; [exact E|]. eapply last_index_ext; [|exact F]. intros j. split; intros (A & B); (split; [lia|exact B]). }
    destruct r as [off|].
    + destruct Hr as (P & O & F). destruct (i + off <=? start) eqn:E.
      * assert (off = 0). { destruct (Z.eq_dec off 0); [assumption|]. exfalso. apply (Hno (i + off)); [lia|exact O]. }
        subst off. rewrite Z.add_0_r in *. exists i. split; [reflexivity|]. left. split; [split; [lia|exact O]|].
        intros j (A & B). destruct (Z_lt_dec i j) as [L|L]; [|lia]. exfalso. apply (Hno j); [lia|exact B].
      * apply Go. intros O'. apply (F i) in O'; lia.
    + apply Go. apply Hr. lia.
Qed.
Theorem C33_lastindexof_partial : forall s sub start count, a_string s -> no_nul s -> no_nul sub ->
  last_start s start <= zlen s -> last_start s start < 2147483647 -> last_count s start count <= last_start s start + 1 ->
  exists r, LastIndexOf_string s (Some sub) start count = Ret r /\
            last_index (fun i => last_start s start - last_count s start count < i <= last_start s start /\ occurs_at s sub i) r.
Proof.
  intros s p start count Hs Ns Np H1 H1' H2. pose proof (zlen_nonneg s) as Ps. unfold a_string in Hs. unfold LastIndexOf_string. cbv zeta. fold (last_start s start).
  unfold last_count in *. set (i := last_start s start) in *. assert (Hi : -1 <= i) by (unfold i, last_start; destruct (start <? 0) eqn:E; lia).
  assert (En : (if count <? 0 then i32 (i + 1) else Ret count) = Ret (if count <? 0 then i + 1 else count)). { destruct (count <? 0); [apply i32_ret; lia|reflexivity]. }
  rewrite En, bind_ret. set (n := if count <? 0 then i + 1 else count) in *. assert (Hn : 0 <= n) by (unfold n; destruct (count <? 0) eqn:E; lia).
  rewrite i32_ret by lia. rewrite bind_ret. replace (i - (i - n)) with n by lia.
  destruct (last_sub_spec s p i Ns Np H1 (Z.to_nat n) i) as (r & E & F); [lia|lia|intros j Hj; lia|]. exists r. split; [exact E|].
  eapply last_index_ext; [|exact F]. intros j. split; intros (A & B); (split; [lia|exact B]).
Qed.
Print Assumptions C33_lastindexof_partial.
Example C33_last_example : LastIndexOf_string [97; 98; 97; 98] (Some [97; 98]) (-1) (-1) = Ret 2 /\ LastIndexOf_string [97; 98; 97; 98] (Some [97; 98]) 1 (-1) = Ret 0.
Proof. split; reflexivity. Qed.
(** A start beyond the string, or a count that reaches below index 0, reads outside the buffer. *)
Theorem C33_lastindexof_range_refuted : LastIndexOf_string [97] (Some [98]) 2 (-1) = UB OutOfBoundsRead /\ LastIndexOf_string [97] (Some [98]) 0 3 = UB OutOfBoundsRead.
Proof. split; reflexivity. Qed.
Print Assumptions C33_lastindexof_range_refuted.

(** ** C34: Trim *)
Lemma scan_all_up s hit : (forall c, In c s -> hit c = false) -> forall n i, 0 <= i -> i + Z.of_nat n <= zlen s -> scan_up s hit i n = Ret None.
Proof.
  intros H n i Hi Hn. destruct (scan_up_spec s hit n i Hi Hn) as (r & -> & Hr). destruct r as [k|]; [|reflexivity].
  destruct Hr as (_ & (c & (a & b & -> & _) & E) & _). rewrite H in E; [discriminate|]. apply in_or_app. right. left. reflexivity.
Qed.
Lemma all_chars (P : Z -> Prop) a b : (forall j c, zlen a <= j -> char_at (a ++ b) j c -> P c) -> Forall P b.
Proof.
  intros H. apply Forall_forall. intros c Hc. apply in_split in Hc. destruct Hc as (x & y & ->). apply (H (zlen (a ++ x))).
  - rewrite zlen_app. pose proof (zlen_nonneg x). lia.
  - exists (a ++ x), y. split; [|reflexivity]. rewrite <- app_assoc. reflexivity.
Qed.
Lemma char_at_part a r b j c : char_at r j c -> char_at (a ++ r ++ b) (zlen a + j) c.
Proof. intros (x & y & -> & <-). exists (a ++ x), (y ++ b). split; [rewrite <- !app_assoc; reflexivity|apply zlen_app]. Qed.
Lemma trim_spec s seps front back : a_string s -> zlen s < 2147483647 -> ~ (In 0 s /\ In 0 seps) ->
  exists r, TrimHelper s seps front back = Ret r /\ trimmed seps front back s r.
Proof.
  intros Hs Hs2 Hz. pose proof (zlen_nonneg s) as Ps. unfold TrimHelper. set (hit := fun c => negb (IsWhiteSpace c seps)).
  assert (Hh : forall c, hit c = true <-> ~ In c seps). { intros c. unfold hit, IsWhiteSpace. rewrite <- existsb_in. destruct (existsb (Z.eqb c) seps); cbn [negb]; split; congruence. }
  assert (Hh' : forall c, hit c = false <-> In c seps). { intros c. unfold hit, IsWhiteSpace. rewrite <- existsb_in. destruct (existsb (Z.eqb c) seps); cbn [negb]; split; congruence. }
  assert (S1 : exists pre mid, s = pre ++ mid /\ Forall (fun c => In c seps) pre /\ (front = false -> pre = []) /\ (front = true -> forall c t, mid = c :: t -> ~ In c seps) /\
     (if front then r <- scan_up s hit 0 (length s) ;; Ret match r with Some i => i | None => zlen s end else Ret 0) = Ret (zlen pre)).
  { destruct front.
    - destruct (scan_up_spec s hit (length s) 0) as (r & -> & Hr); [lia|unfold zlen; lia|]. rewrite bind_ret. destruct r as [k|].
      + destruct Hr as (A & (c & (pre & t & -> & <-) & B) & C). exists pre, (c :: t). split; [reflexivity|].
        split; [|split; [discriminate|split; [intros _ d u E; injection E as <- <-; apply Hh; exact B|reflexivity]]].
        apply Forall_forall. intros d Hd. apply in_split in Hd. destruct Hd as (x & y & ->). apply Hh'. apply (C (zlen x)).
        * rewrite zlen_app, zlen_cons. pose proof (zlen_nonneg x). pose proof (zlen_nonneg y). lia.
        * exists x, (y ++ c :: t). rewrite <- app_assoc. split; reflexivity.
      + exists s, []. rewrite app_nil_r. split; [reflexivity|]. split; [|split; [discriminate|split; [discriminate|reflexivity]]].
        apply (all_chars _ [] s). intros j c Hj Hc. apply Hh'. apply (Hr j c); [|exact Hc]. apply char_at_range in Hc. cbn [app] in Hc. unfold zlen in Hc. lia.
    - exists [], s. split; [reflexivity|]. split; [constructor|]. split; [reflexivity|]. split; [discriminate|reflexivity]. }
  destruct S1 as (pre & mid & -> & P1 & P2 & P3 & ->). rewrite bind_ret. rewrite zlen_app in *.
  pose proof (zlen_nonneg pre) as Pp. pose proof (zlen_nonneg mid) as Pm.
  assert (S2 : exists r post, mid = r ++ post /\ Forall (fun c => In c seps) post /\ (back = false -> post = []) /\ (back = true -> forall c t, r = t ++ [c] -> ~ In c seps) /\
     (if back then r <- scan_down (pre ++ mid) hit (zlen pre + zlen mid - 1) (Z.to_nat (zlen pre + zlen mid - zlen pre)) ;; Ret match r with Some i => i | None => zlen pre - 1 end
      else Ret (zlen pre + zlen mid - 1)) = Ret (zlen pre + zlen r - 1)).
  { destruct back.
    - destruct (scan_down_spec (pre ++ mid) hit (Z.to_nat (zlen pre + zlen mid - zlen pre)) (zlen pre + zlen mid - 1)) as (k & -> & Hk); [rewrite zlen_app; lia|lia|].
      rewrite bind_ret. destruct k as [k|].
      + destruct Hk as (A & (c & Hc & B) & C). destruct (split_at mid (k - zlen pre)) as (x & y & -> & Lx); [lia|]. rewrite zlen_app in *.
        destruct y as [|d y]; [rewrite zlen_nil in A; lia|].
        assert (c = d). { apply (char_at_fun (pre ++ x ++ d :: y) k); [exact Hc|]. exists (pre ++ x), y. rewrite <- app_assoc. split; [reflexivity|]. rewrite zlen_app. lia. }
        subst d. exists (x ++ [c]), y. split; [rewrite <- app_assoc; reflexivity|].
        split; [|split; [discriminate|split; [intros _ d u E; apply app_inj_tail in E; destruct E as (_ & <-); apply Hh; exact B|rewrite zlen_app, zlen_cons, zlen_nil; f_equal; lia]]].
        apply (all_chars _ (pre ++ x ++ [c]) y). intros j d Hj Hd. replace ((pre ++ x ++ [c]) ++ y) with (pre ++ x ++ c :: y) in Hd by (rewrite <- !app_assoc; reflexivity). apply Hh'. apply (C j d); [|exact Hd]. apply char_at_range in Hd.
        rewrite !zlen_app, !zlen_cons in *. rewrite zlen_nil in Hj. lia.
      + exists [], mid. split; [reflexivity|]. split; [|split; [discriminate|split; [intros _ c t E; destruct t; discriminate|rewrite zlen_nil; f_equal; lia]]].
        apply (all_chars _ pre mid). intros j c Hj Hc. apply Hh'. apply (Hk j c); [|exact Hc]. apply char_at_range in Hc. rewrite zlen_app in Hc. lia.
    - exists mid, []. rewrite app_nil_r. split; [reflexivity|]. split; [constructor|]. split; [reflexivity|]. split; [discriminate|reflexivity]. }
  destruct S2 as (r & post & -> & Q1 & Q2 & Q3 & ->). rewrite bind_ret. rewrite zlen_app in *. replace (zlen pre + zlen r - 1 - zlen pre + 1) with (zlen r) by lia.
  pose proof (zlen_nonneg r). pose proof (zlen_nonneg post). exists r. split.
  - rewrite String_from_part; [|assumption|lia|lia|rewrite !zlen_app; lia|lia|].
    + f_equal. apply (is_part_fun (pre ++ r ++ post) (zlen pre) (zlen r)); [apply part_is_part; try lia; rewrite !zlen_app; lia|]. exists pre, post. auto.
    + rewrite firstn_zlen by (unfold zlen; lia). apply Forall_forall. intros c Hc ->. apply Hz. split; [apply in_or_app; left; exact Hc|].
      rewrite Forall_forall in P1. apply P1. exact Hc.
  - exists pre, post. split; [reflexivity|]. split; [exact P1|]. split; [exact Q1|]. split; [exact P2|]. split; [exact Q2|]. split; [|exact Q3].
    intros Hf c t ->. apply (P3 Hf c (t ++ post)). reflexivity.
Qed.
(** The trimmed string is determined. *)
Theorem C34_trim_unique : forall seps front back s r r', trimmed seps front back s r -> trimmed seps front back s r' -> r = r'.
Proof.
  assert (PRE : forall seps front x y x' y' : list Z, Forall (fun c => In c seps) x -> Forall (fun c => In c seps) x' ->
     (forall c t, y = c :: t -> ~ In c seps) -> (forall c t, y' = c :: t -> ~ In c seps) -> x ++ y = x' ++ y' -> x = x' /\ y = y').
  { intros seps _. induction x as [|c x IH]; intros y x' y' Hx Hx' Hy Hy' E.
    - destruct x' as [|d x']; [split; [reflexivity|exact E]|]. cbn [app] in E. exfalso. apply (Hy d (x' ++ y') E). inversion Hx'; assumption.
    - destruct x' as [|d x'].
      + cbn [app] in E. exfalso. apply (Hy' c (x ++ y)); [symmetry; exact E|]. inversion Hx; assumption.
      + cbn [app] in E. injection E as <- E. inversion Hx; inversion Hx'; subst. destruct (IH y x' y') as (-> & ->); try assumption. split; reflexivity. }
  assert (POST : forall seps x y x' y' : list Z, Forall (fun c => In c seps) x -> Forall (fun c => In c seps) x' ->
     (forall c t, y = t ++ [c] -> ~ In c seps) -> (forall c t, y' = t ++ [c] -> ~ In c seps) -> y ++ x = y' ++ x' -> y = y').
  { intros seps x y x' y' Hx Hx' Hy Hy' E. assert (R : forall l : list Z, Forall (fun c => In c seps) l -> Forall (fun c => In c seps) (rev l)) by (intros l; apply Forall_rev).
    apply (f_equal (@rev Z)) in E. rewrite !rev_app_distr in E. destruct (PRE seps [] (rev x) (rev y) (rev x') (rev y')) as (_ & E'); auto.
    - intros c t H. apply (Hy c (rev t)). rewrite <- (rev_involutive y), H. reflexivity.
    - intros c t H. apply (Hy' c (rev t)). rewrite <- (rev_involutive y'), H. reflexivity.
    - rewrite <- (rev_involutive y), E', rev_involutive. reflexivity. }
  intros seps front back s r r' (pre & post & -> & A & B & C & D & F & G) (pre' & post' & E & A' & B' & C' & D' & F' & G').
  assert (POST' : forall x y, r ++ x = r' ++ y -> x = post -> y = post' -> r = r').
  { intros x y H -> ->. destruct back; [exact (POST seps post r post' r' B B' (G eq_refl) (G' eq_refl) H)|]. rewrite D, D', !app_nil_r in H by reflexivity. exact H. }
  destruct front.
  2: { rewrite C, C' in E by reflexivity. cbn [app] in E. exact (POST' _ _ E eq_refl eq_refl). }
  (* the front is determined unless everything is trimmed *)
  destruct back.
  2: { rewrite D, D', !app_nil_r in E by reflexivity. destruct (PRE seps [] pre r pre' r' A A' (F eq_refl) (F' eq_refl) E) as (_ & ->). reflexivity. }
  destruct r as [|c r]; destruct r' as [|c' r'].
  - reflexivity.
  - exfalso. cbn [app] in E. apply (F' eq_refl c' r' eq_refl). assert (I : In c' (pre ++ post)). { rewrite E. apply in_or_app. right. left. reflexivity. }
    rewrite Forall_forall in A, B. apply in_app_or in I. destruct I as [I|I]; [apply A|apply B]; exact I.
  - exfalso. cbn [app] in E. apply (F eq_refl c r eq_refl). assert (I : In c (pre' ++ post')). { rewrite <- E. apply in_or_app. right. left. reflexivity. }
    rewrite Forall_forall in A', B'. apply in_app_or in I. destruct I as [I|I]; [apply A'|apply B']; exact I.
  - destruct (PRE seps [] pre ((c :: r) ++ post) pre' ((c' :: r') ++ post')) as (_ & E'); auto.
    + intros d t H. injection H as <- _. exact (F eq_refl c r eq_refl).
    + intros d t H. injection H as <- _. exact (F' eq_refl c' r' eq_refl).
    + exact (POST' _ _ E' eq_refl eq_refl).
Qed.
Print Assumptions C34_trim_unique.
(** Trim, TrimStart and TrimEnd, for every string and separator array that do not both contain NUL
    (white space does not contain it).  Missing: that case, refuted below. *)
Theorem C34_trim_partial : forall s arr, zlen s < 2147483647 -> ~ (In 0 s /\ In 0 (separators arr)) ->
  (exists r, Trim s arr = Ret r /\ trimmed (separators arr) true true s r) /\
  (exists r, TrimStart s arr = Ret r /\ trimmed (separators arr) true false s r) /\
  (exists r, TrimEnd s arr = Ret r /\ trimmed (separators arr) false true s r).
Proof. intros s arr Hs Hz. assert (a_string s) by (unfold a_string; lia). split; [|split]; apply trim_spec; assumption. Qed.
Print Assumptions C34_trim_partial.
(** No or an empty array means white space, which NUL is not: Trim() is right on every string. *)
Theorem C34_trim_whitespace : forall s, zlen s < 2147483647 -> exists r, Trim s None = Ret r /\ trimmed WhiteSpaceChars true true s r.
Proof.
  intros s Hs. apply trim_spec; [unfold a_string; lia|exact Hs|]. intros (_ & H). cbn in H. repeat (destruct H as [H|H]; [discriminate|]). exact H.
Qed.
Print Assumptions C34_trim_whitespace.
Theorem C34_idempotent_partial : forall s arr r, zlen s < 2147483647 -> ~ (In 0 s /\ In 0 (separators arr)) -> Trim s arr = Ret r -> Trim r arr = Ret r.
Proof.
  intros s arr r Hs Hz E. assert (As : a_string s) by (unfold a_string; lia). destruct (trim_spec s (separators arr) true true As Hs Hz) as (r' & E' & T).
  unfold Trim in E. rewrite E in E'. injection E' as <-. destruct T as (pre & post & -> & A & B & C & D & F & G).
  assert (Lr : zlen r < 2147483647). { rewrite !zlen_app in Hs. pose proof (zlen_nonneg pre). pose proof (zlen_nonneg post). lia. }
  destruct (trim_spec r (separators arr) true true) as (q & Eq & T); [unfold a_string; lia|exact Lr| |].
  { intros (I & J). apply Hz. split; [|exact J]. apply in_or_app. right. apply in_or_app. left. exact I. }
  unfold Trim. rewrite Eq. f_equal. apply (C34_trim_unique (separators arr) true true r); [exact T|].
  exists [], []. rewrite app_nil_r. split; [reflexivity|]. split; [constructor|]. split; [constructor|]. auto.
Qed.
Print Assumptions C34_idempotent_partial.
Example C34_example : Trim [32; 97; 32; 98; 9] None = Ret [97; 32; 98] /\ TrimStart [120; 120; 97; 120] (Some [120]) = Ret [97; 120] /\ TrimEnd [32; 32] None = Ret [].
Proof. repeat split; reflexivity. Qed.
(** Trimming NULs throws as soon as there is a leading one that is followed by more: "\0\0a". *)
Theorem C34_nul_refuted : Trim [0; 0; 97] (Some [0]) = Exn ArgumentOutOfRangeException.
Proof. reflexivity. Qed.
Print Assumptions C34_nul_refuted.

(** ** C36: equality *)
Lemma wcscmp_refl s : exists z, wcscmp_eq (buffer s) (buffer s) = Ret z /\ z = true.
Proof.
  exists true. split; [|reflexivity]. unfold buffer. induction s as [|c s IH]; [reflexivity|]. cbn [app wcscmp_eq]. rewrite Z.eqb_refl. cbn [negb]. destruct (c =? 0); [reflexivity|exact IH].
Qed.
(** Equals and operator== on strings without NUL, operator!= being the negation; null equals only
    null.  [same] may only be set for one and the same string. *)
Definition aliased (same : bool) (a b : option str) : Prop := same = true -> a = b.
Theorem C36_equality_partial : forall same a b, aliased same a b ->
  (forall s, a = Some s \/ b = Some s -> no_nul s) ->
  exists r, op_Inequality same a b = Ret r /\ (r = false <-> a = b) /\ String_Equals same a b = Ret (negb r).
Proof.
  intros same a b Al Hn. assert (X : exists r, op_Inequality same a b = Ret r /\ (r = false <-> a = b)).
  { unfold op_Inequality. destruct same; [exists false; split; [reflexivity|split; [intros _; apply Al; reflexivity|reflexivity]]|].
    destruct a as [a|], b as [b|]; [|eexists; split; [reflexivity|split; discriminate]..|eexists; split; [reflexivity|tauto]].
    destruct (zlen a =? zlen b) eqn:E; cbn [negb].
    - unfold buffer. destruct (wcscmp_texts a b [] []) as (r & -> & Hr); [apply Hn; auto..|]. exists (negb r). split; [reflexivity|].
      split; [intros H; apply f_equal; apply Hr; destruct r; [reflexivity|discriminate]|intros H; injection H as H; apply Hr in H; rewrite H; reflexivity].
    - exists true. split; [reflexivity|]. split; [discriminate|]. intros H. injection H as <-. lia. }
  destruct X as (r & E & H). exists r. split; [exact E|]. split; [exact H|]. unfold String_Equals. rewrite E. reflexivity.
Qed.
Print Assumptions C36_equality_partial.
(** For all strings: equality is never reported between strings of different lengths, is reflexive,
    and never undefined. *)
Theorem C36_equality_bounds : forall a b,
  (exists r, op_Inequality false (Some a) (Some b) = Ret r /\ (zlen a <> zlen b -> r = true) /\ (a = b -> r = false)).
Proof.
  intros a b. unfold op_Inequality. destruct (zlen a =? zlen b) eqn:E; cbn [negb]; [|exists true; split; [reflexivity|split; [reflexivity|intros ->; lia]]].
  assert (T : forall x y z1 z2, length x = length y -> exists r, wcscmp_eq (x ++ 0 :: z1) (y ++ 0 :: z2) = Ret r /\ (x = y -> r = true)).
  { clear. induction x as [|c x IH]; intros [|d y] z1 z2 L; try discriminate; cbn [app wcscmp_eq]; [exists true; split; reflexivity|].
    destruct (c =? d) eqn:E; cbn [negb]; [|exists false; split; [reflexivity|intros H; injection H as <- <-; lia]].
    destruct (c =? 0); [exists true; split; reflexivity|]. destruct (IH y z1 z2) as (r & -> & Hr); [cbn in L; lia|]. exists r. split; [reflexivity|]. intros H. injection H as <- <-. apply Hr. reflexivity. }
  destruct (T a b [] []) as (r & Er & Hr); [unfold zlen in E; lia|]. unfold buffer. rewrite Er, bind_ret. exists (negb r). split; [reflexivity|]. split; [lia|]. intros H. rewrite (Hr H). reflexivity.
Qed.
Print Assumptions C36_equality_bounds.
(** Strings that agree up to an embedded NUL and have the same length compare equal. *)
Theorem C36_nul_refuted : forall p x y, no_nul p -> zlen x = zlen y -> op_Inequality false (Some (p ++ 0 :: x)) (Some (p ++ 0 :: y)) = Ret false.
Proof.
  intros p x y Hp L. unfold op_Inequality. replace (zlen (p ++ 0 :: x) =? zlen (p ++ 0 :: y)) with true by (rewrite !zlen_app, !zlen_cons; lia). cbn [negb].
  unfold buffer. rewrite <- !app_assoc. cbn [app]. destruct (wcscmp_texts p p (x ++ [0]) (y ++ [0]) Hp Hp) as (r & -> & Hr). rewrite bind_ret.
  replace r with true; [reflexivity|]. symmetry. apply Hr. reflexivity.
Qed.
Print Assumptions C36_nul_refuted.
Example C36_example : String_Equals false (Some [97; 98]) (Some [97; 98]) = Ret true /\ String_Equals false (Some [97; 98]) (Some [97; 99]) = Ret false /\
  op_Inequality false (Some [97; 0; 98]) (Some [97; 0; 99]) = Ret false /\ aliased false (Some [97]) (Some [98]).
Proof. repeat split; try reflexivity. discriminate. Qed.

(** ** C37: comparison *)
Definition text (s : list Z) : Prop := Forall (fun c => 0 < c) s.
Lemma text_no_nul s : text s -> no_nul s.
Proof. apply Forall_impl. intros c H. lia. Qed.
(** CompareOrdinal is the lexicographic comparison unless the first string is a prefix of the second;
    then it is 0, since only the first length counts. *)
Theorem C37_ordinal_partial : forall ct a b, text a ->
  exists r, CompareOrdinal ct (Some a) (Some b) = Ret r /\ ((has_prefix b a /\ r = 0) \/ (~ has_prefix b a /\ lexicographic a b r)).
Proof.
  intros ct a b Ha. destruct (ordinal_loop ct a b (text_no_nul a Ha) Ha) as (r & E & H). exists r. split; [|exact H].
  unfold CompareOrdinal, Compare_chars. rewrite andb_false_r. unfold drop, zlen. rewrite Nat2Z.id. exact E.
Qed.
Print Assumptions C37_ordinal_partial.
(** Hence it is a total order on the strings of any one length. *)
Lemma ordinal_same_length ct a b : text a -> zlen a = zlen b -> exists r, CompareOrdinal ct (Some a) (Some b) = Ret r /\ lexicographic a b r.
Proof.
  intros Ha L. destruct (C37_ordinal_partial ct a b Ha) as (r & E & [((t & ->) & ->)|(_ & H)]); exists r || exists 0; (split; [exact E|]); [|exact H].
  rewrite zlen_app in L. destruct t; [|rewrite zlen_cons in L; pose proof (zlen_nonneg t); lia]. rewrite app_nil_r. apply lex_zero. reflexivity.
Qed.
Theorem C37_ordinal_order_partial : forall ct a b c, text a -> text b -> text c -> zlen a = zlen b -> zlen b = zlen c ->
  exists ab ba bc ac, CompareOrdinal ct (Some a) (Some b) = Ret ab /\ CompareOrdinal ct (Some b) (Some a) = Ret ba /\
    CompareOrdinal ct (Some b) (Some c) = Ret bc /\ CompareOrdinal ct (Some a) (Some c) = Ret ac /\
    ba = - ab /\ (ab = 0 <-> a = b) /\ (ab <= 0 -> bc <= 0 -> ac <= 0).
Proof.
  intros ct a b c Ha Hb Hc L1 L2. destruct (ordinal_same_length ct a b Ha L1) as (ab & E1 & X1). destruct (ordinal_same_length ct b a Hb) as (ba & E2 & X2); [lia|].
  destruct (ordinal_same_length ct b c Hb L2) as (bc & E3 & X3). destruct (ordinal_same_length ct a c Ha) as (ac & E4 & X4); [lia|].
  exists ab, ba, bc, ac. do 4 (split; [assumption|]). split; [apply lex_opp in X1; exact (lex_fun _ _ _ X2 _ X1)|].
  split; [split; [intros ->; apply lex_zero; exact X1|intros ->; exact (lex_fun _ _ _ X1 _ (proj2 (lex_zero b b) eq_refl))]|].
  intros H1 H2. eapply lex_trans; [exact X1|exact X3|exact H1|exact H2|exact X4].
Qed.
Print Assumptions C37_ordinal_order_partial.
Example C37_example : CompareOrdinal c_locale (Some [97; 98]) (Some [97; 99]) = Ret (-1) /\ CompareOrdinal c_locale (Some [97; 100]) (Some [97; 99]) = Ret 1 /\ text [97; 98].
Proof. split; [reflexivity|]. split; [reflexivity|]. repeat constructor. Qed.
(** Compare (case sensitive or not) on strings of one length: antisymmetric, and 0 exactly for equal
    strings (equal after lower-casing), for every locale in which no letter is upper and lower case
    and no character lower-cases to NUL.  Missing: transitivity and different lengths, refuted below. *)
Theorem C37_compare_partial : forall ct ignoreCase a b, (forall c, iswupper ct c && iswlower ct c = false) -> (forall c, c <> 0 -> towlower ct c <> 0) ->
  no_nul a -> no_nul b -> zlen a = zlen b ->
  exists r, Compare ct (Some a) (Some b) ignoreCase = Ret r /\ Compare ct (Some b) (Some a) ignoreCase = Ret (- r) /\
    (r = 0 <-> fold_case ct ignoreCase a = fold_case ct ignoreCase b).
Proof.
  intros ct ic a b Hd Hl Ha Hb L. unfold Compare, Compare_chars. rewrite !andb_false_r. unfold drop. cbn [Z.to_nat skipn]. rewrite <- L. unfold zlen in *. rewrite !Nat2Z.id.
  assert (L' : length a = length b) by lia. clear L.
  assert (G : forall z1 z2, exists r, compare_loop ct ic false (a ++ z1) (b ++ z2) (length a) = Ret r /\ compare_loop ct ic false (b ++ z2) (a ++ z1) (length a) = Ret (- r) /\
     (r = 0 <-> fold_case ct ic a = fold_case ct ic b)).
  { intros z1 z2. revert b Hb L'. induction a as [|x a IH]; intros [|y b] Hb L'; try discriminate; [exists 0; split; [reflexivity|]; split; [reflexivity|tauto]|].
    inversion Ha as [|? ? Hx Ha']; subst. inversion Hb as [|? ? Hy Hb']; subst. cbn [app length compare_loop].
    set (c1 := if ic then towlower ct x else x). set (c2 := if ic then towlower ct y else y).
    assert (N1 : c1 <> 0) by (unfold c1; destruct ic; auto). assert (N2 : c2 <> 0) by (unfold c2; destruct ic; auto).
    assert (EQ : fold_case ct ic (x :: a) = c1 :: fold_case ct ic a) by (unfold fold_case, c1; destruct ic; reflexivity).
    assert (EQ' : fold_case ct ic (y :: b) = c2 :: fold_case ct ic b) by (unfold fold_case, c2; destruct ic; reflexivity).
    assert (U : forall u v, negb ic && negb false && iswupper ct u && iswlower ct v = negb ic && (iswupper ct u && iswlower ct v)) by (intros; destruct ic; cbn [negb andb]; reflexivity).
    rewrite !U, EQ, EQ'. replace (c1 =? 0) with false by lia. replace (c2 =? 0) with false by lia. cbn [orb].
    destruct (Z.eq_dec c1 c2) as [E|N].
    - rewrite <- E. rewrite Hd, andb_false_r. rewrite Z.eqb_refl. cbn [negb]. destruct (IH Ha' b Hb') as (r & -> & -> & Hr); [cbn in L'; lia|].
      exists r. split; [reflexivity|]. split; [reflexivity|]. rewrite Hr. split; [intros ->; reflexivity|intros H; apply (f_equal (@tl Z)) in H; exact H].
    - assert (NE : c1 :: fold_case ct ic a <> c2 :: fold_case ct ic b) by (intros H; apply (f_equal (hd 0)) in H; contradiction).
      replace (c1 =? c2) with false by lia. replace (c2 =? c1) with false by lia. cbn [negb].
      destruct (negb ic && (iswupper ct c1 && iswlower ct c2)) eqn:E1; destruct (negb ic && (iswupper ct c2 && iswlower ct c1)) eqn:E2.
      + exfalso. pose proof (Hd c1). pose proof (Hd c2). destruct ic, (iswupper ct c1), (iswlower ct c1), (iswupper ct c2), (iswlower ct c2); discriminate.
      + exists 1. repeat split; try reflexivity; [discriminate|intros H; contradiction].
      + exists (-1). repeat split; try reflexivity; [discriminate|intros H; contradiction].
      + exists (if c2 <? c1 then 1 else -1). destruct (Z_lt_dec c1 c2).
        * replace (c2 <? c1) with false by lia. replace (c1 <? c2) with true by lia. repeat split; try reflexivity; [discriminate|intros H; contradiction].
        * replace (c2 <? c1) with true by lia. replace (c1 <? c2) with false by lia. repeat split; try reflexivity; [discriminate|intros H; contradiction]. }
  destruct (G [0] [0]) as (r & E1 & E2 & H). exists r. unfold buffer. auto.
Qed.
Print Assumptions C37_compare_partial.
(** A prefix compares equal to the longer string, the longer one greater than its prefix; in every
    locale as above. *)
Theorem C37_prefix_refuted : forall ct a t, (forall c, iswupper ct c && iswlower ct c = false) -> no_nul a ->
  Compare ct (Some a) (Some (a ++ t)) false = Ret 0.
Proof.
  intros ct a t Hd Ha. unfold Compare, Compare_chars. rewrite andb_false_r. unfold drop, buffer, zlen. cbn [Z.to_nat skipn]. rewrite Nat2Z.id. rewrite <- app_assoc.
  rewrite <- (Nat.add_0_r (length a)). rewrite compare_loop_prefix; [reflexivity| |intros c _; apply Hd].
  intros c Hc. unfold no_nul in Ha. rewrite Forall_forall in Ha. apply Ha. exact Hc.
Qed.
Print Assumptions C37_prefix_refuted.
Theorem C37_antisymmetry_refuted : Compare c_locale (Some [97]) (Some [97; 98]) false = Ret 0 /\ Compare c_locale (Some [97; 98]) (Some [97]) false = Ret 1 /\
  Compare c_locale (Some []) (Some [97]) false = Ret 0.
Proof. repeat split; reflexivity. Qed.
Print Assumptions C37_antisymmetry_refuted.
(** "Z" < "[" and "[" < "a", but "Z" > "a". *)
Theorem C37_transitivity_refuted : Compare c_locale (Some [90]) (Some [91]) false = Ret (-1) /\ Compare c_locale (Some [91]) (Some [97]) false = Ret (-1) /\
  Compare c_locale (Some [90]) (Some [97]) false = Ret 1.
Proof. repeat split; reflexivity. Qed.
Print Assumptions C37_transitivity_refuted.
(** CompareTo(Object) says that all strings are equal. *)
Theorem C37_compareto_refuted : forall ct a b, (exists r, CompareTo_string ct a (Some b) = Ret r) -> CompareTo_object ct a (AString b) = Ret 0.
Proof. intros ct a b (r & H). unfold CompareTo_object. rewrite H. reflexivity. Qed.
Print Assumptions C37_compareto_refuted.
(** A window that leaves one of the strings is read anyway. *)
Theorem C37_window_refuted : Compare_part c_locale [97; 98] (-1) [97] 0 1 false = UB OutOfBoundsRead /\ Compare_part c_locale [97; 98] 5 [97] 0 1 false = UB OutOfBoundsRead.
Proof. split; reflexivity. Qed.
Print Assumptions C37_window_refuted.
