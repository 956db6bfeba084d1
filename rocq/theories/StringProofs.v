(** * Proofs about String *)
From Verif Require Import Tac Base MemModel MemProofs StringBuilderModel StringBuilderSpec StringBuilderProofs StringBuilderHistory StringModel StringSpec.

(** ** Characters and windows *)
Lemma char_at_range s i c : char_at s i c -> 0 <= i < zlen s.
Proof. intros (a & b & -> & <-). rewrite zlen_app, zlen_cons. pose proof (zlen_nonneg a). pose proof (zlen_nonneg b). lia. Qed.
Lemma char_at_fun s i c d : char_at s i c -> char_at s i d -> c = d.
Proof.
  intros (a & b & -> & <-) (a' & b' & E & L). assert (La : length a' = length a) by (unfold zlen in L; lia).
  apply (f_equal (skipn (length a))) in E. rewrite skipn_app, skipn_all, Nat.sub_diag in E. rewrite <- La, skipn_app, skipn_all, Nat.sub_diag in E.
  cbn [app skipn] in E. injection E as -> _. reflexivity.
Qed.
Lemma get_Chars_in s i : 0 <= i < zlen s -> exists c, String_get_Chars s i = Ret c /\ char_at s i c.
Proof.
  intros H. destruct (split_at s i) as (a & b & -> & L); [lia|]. destruct b as [|c b]; [rewrite app_nil_r in H; lia|].
  exists c. split; [|exists a, b; split; [reflexivity|exact L]]. unfold String_get_Chars, String_Address. rewrite throw_if_false by lia.
  rewrite !bind_ret. unfold buffer. rewrite <- app_assoc. apply read_app. lia.
Qed.
Lemma get_Chars_out s i : i < 0 \/ zlen s <= i -> String_get_Chars s i = Exn IndexOutOfRangeException.
Proof. intros H. unfold String_get_Chars, String_Address. rewrite throw_if_true by lia. reflexivity. Qed.

Lemma scan_up_spec s hit n : forall i, 0 <= i -> i + Z.of_nat n <= zlen s ->
  exists r, scan_up s hit i n = Ret r /\
  match r with
  | Some k => i <= k < i + Z.of_nat n /\ (exists c, char_at s k c /\ hit c = true) /\ forall j c, i <= j < k -> char_at s j c -> hit c = false
  | None => forall j c, i <= j < i + Z.of_nat n -> char_at s j c -> hit c = false
  end.
Proof.
  induction n as [|n IH]; intros i Hi Hn; cbn [scan_up].
  - exists None. split; [reflexivity|]. intros j c Hj. lia.
  - destruct (get_Chars_in s i) as (c & -> & Hc); [lia|]. rewrite bind_ret. destruct (hit c) eqn:E.
    + exists (Some i). split; [reflexivity|]. split; [lia|]. split; [exists c; auto|]. intros j d Hj. lia.
    + destruct (IH (i + 1)) as (r & -> & Hr); [lia|lia|]. exists r. split; [reflexivity|].
      assert (K : forall j d, j = i -> char_at s j d -> hit d = false). { intros j d -> Hd. rewrite (char_at_fun s i d c Hd Hc). exact E. }
      destruct r as [k|].
      * destruct Hr as (A & B & C). split; [lia|]. split; [exact B|]. intros j d Hj. destruct (Z.eq_dec j i); [apply K; assumption|apply C; lia].
      * intros j d Hj. destruct (Z.eq_dec j i); [apply K; assumption|apply Hr; lia].
Qed.
Lemma scan_down_spec s hit n : forall i, i < zlen s -> -1 <= i - Z.of_nat n ->
  exists r, scan_down s hit i n = Ret r /\
  match r with
  | Some k => i - Z.of_nat n < k <= i /\ (exists c, char_at s k c /\ hit c = true) /\ forall j c, k < j <= i -> char_at s j c -> hit c = false
  | None => forall j c, i - Z.of_nat n < j <= i -> char_at s j c -> hit c = false
  end.
Proof.
  induction n as [|n IH]; intros i Hi Hn; cbn [scan_down].
  - exists None. split; [reflexivity|]. intros j c Hj. lia.
  - destruct (get_Chars_in s i) as (c & -> & Hc); [lia|]. rewrite bind_ret. destruct (hit c) eqn:E.
    + exists (Some i). split; [reflexivity|]. split; [lia|]. split; [exists c; auto|]. intros j d Hj. lia.
    + destruct (IH (i - 1)) as (r & -> & Hr); [lia|lia|]. exists r. split; [reflexivity|].
      assert (K : forall j d, j = i -> char_at s j d -> hit d = false). { intros j d -> Hd. rewrite (char_at_fun s i d c Hd Hc). exact E. }
      destruct r as [k|].
      * destruct Hr as (A & B & C). split; [lia|]. split; [exact B|]. intros j d Hj. destruct (Z.eq_dec j i); [apply K; assumption|apply C; lia].
      * intros j d Hj. destruct (Z.eq_dec j i); [apply K; assumption|apply Hr; lia].
Qed.
(** A scan whose first character is outside the string throws. *)
Lemma scan_up_out s hit i n : i < 0 \/ zlen s <= i -> (0 < n)%nat -> scan_up s hit i n = Exn IndexOutOfRangeException.
Proof. intros H Hn. destruct n; [lia|]. cbn [scan_up]. rewrite get_Chars_out by exact H. reflexivity. Qed.
Lemma scan_down_out s hit i n : i < 0 \/ zlen s <= i -> (0 < n)%nat -> scan_down s hit i n = Exn IndexOutOfRangeException.
Proof. intros H Hn. destruct n; [lia|]. cbn [scan_down]. rewrite get_Chars_out by exact H. reflexivity. Qed.
(** A scan never leaves the string: it returns or throws IndexOutOfRange. *)
Lemma scan_down_safe s hit n : forall i, (exists r, scan_down s hit i n = Ret r) \/ scan_down s hit i n = Exn IndexOutOfRangeException.
Proof.
  induction n as [|n IH]; intros i; cbn [scan_down]; [left; eexists; reflexivity|].
  destruct (Z_lt_dec i 0) as [L|L]; [rewrite get_Chars_out by lia; right; reflexivity|].
  destruct (Z_lt_dec i (zlen s)) as [G|G]; [|rewrite get_Chars_out by lia; right; reflexivity].
  destruct (get_Chars_in s i) as (c & -> & _); [lia|]. rewrite bind_ret. destruct (hit c); [left; eexists; reflexivity|apply IH].
Qed.
Lemma scan_up_safe s hit n : forall i, (exists r, scan_up s hit i n = Ret r) \/ scan_up s hit i n = Exn IndexOutOfRangeException.
Proof.
  induction n as [|n IH]; intros i; cbn [scan_up]; [left; eexists; reflexivity|].
  destruct (Z_lt_dec i 0) as [L|L]; [rewrite get_Chars_out by lia; right; reflexivity|].
  destruct (Z_lt_dec i (zlen s)) as [G|G]; [|rewrite get_Chars_out by lia; right; reflexivity].
  destruct (get_Chars_in s i) as (c & -> & _); [lia|]. rewrite bind_ret. destruct (hit c); [left; eexists; reflexivity|apply IH].
Qed.

Definition in_window (i n j : Z) : Prop := i <= j < i + n.
Lemma scan_up_first s hit (P : Z -> Prop) i n : (forall c, hit c = true <-> P c) -> 0 <= i -> 0 <= n -> i + n <= zlen s ->
  exists r, scan_up s hit i (Z.to_nat n) = Ret r /\ first_index (fun j => in_window i n j /\ exists c, char_at s j c /\ P c) (or_minus_one r).
Proof.
  intros Hp Hi Hn Hl. destruct (scan_up_spec s hit (Z.to_nat n) i) as (r & -> & H); [lia|lia|]. exists r. split; [reflexivity|].
  assert (K : forall c, hit c = false -> ~ P c). { intros c E Pc. apply Hp in Pc. congruence. }
  destruct r as [k|]; cbn [or_minus_one].
  - left. destruct H as (A & (c & B & C) & D). split; [split; [unfold in_window; lia|exists c; split; [exact B|apply Hp; exact C]]|].
    intros j (W & d & Hd & Pd). destruct (Z_lt_dec j k) as [L|L]; [|lia]. unfold in_window in W. exfalso. exact (K d (D j d ltac:(lia) Hd) Pd).
  - right. split; [reflexivity|]. intros j (W & d & Hd & Pd). unfold in_window in W. exact (K d (H j d ltac:(lia) Hd) Pd).
Qed.
Lemma scan_down_last s hit (P : Z -> Prop) i n : (forall c, hit c = true <-> P c) -> i < zlen s -> 0 <= n -> n <= i + 1 ->
  exists r, scan_down s hit i (Z.to_nat n) = Ret r /\ last_index (fun j => i - n < j <= i /\ exists c, char_at s j c /\ P c) (or_minus_one r).
Proof.
  intros Hp Hi Hn Hl. destruct (scan_down_spec s hit (Z.to_nat n) i) as (r & -> & H); [lia|lia|]. exists r. split; [reflexivity|].
  assert (K : forall c, hit c = false -> ~ P c). { intros c E Pc. apply Hp in Pc. congruence. }
  destruct r as [k|]; cbn [or_minus_one].
  - left. destruct H as (A & (c & B & C) & D). split; [split; [lia|exists c; split; [exact B|apply Hp; exact C]]|].
    intros j (W & d & Hd & Pd). destruct (Z_lt_dec k j) as [L|L]; [|lia]. exfalso. exact (K d (D j d ltac:(lia) Hd) Pd).
  - right. split; [reflexivity|]. intros j (W & d & Hd & Pd). exact (K d (H j d ltac:(lia) Hd) Pd).
Qed.
Lemma existsb_in c l : existsb (Z.eqb c) l = true <-> In c l.
Proof.
  rewrite existsb_exists. split.
  - intros (x & Hx & E). apply Z.eqb_eq in E. subst. exact Hx.
  - intros H. exists c. split; [exact H|apply Z.eqb_refl].
Qed.
Lemma first_index_ext (P Q : Z -> Prop) r : (forall j, P j <-> Q j) -> first_index P r -> first_index Q r.
Proof. intros E [(A & B)|(A & B)]; [left|right]; (split; [|intros j; specialize (B j); specialize (E j); tauto]); [apply E; exact A|exact A]. Qed.
Lemma last_index_ext (P Q : Z -> Prop) r : (forall j, P j <-> Q j) -> last_index P r -> last_index Q r.
Proof. intros E [(A & B)|(A & B)]; [left|right]; (split; [|intros j; specialize (B j); specialize (E j); tauto]); [apply E; exact A|exact A]. Qed.

(** ** C strings and wcsstr *)
Lemma cstr_text s z : no_nul s -> cstr (s ++ 0 :: z) = Ret s.
Proof.
  intros H. induction H as [|c s Hc H IH]; [reflexivity|]. cbn [app cstr]. replace (c =? 0) with false by lia. rewrite IH. reflexivity.
Qed.
Lemma is_prefix_iff p : forall s, is_prefix p s = true <-> has_prefix s p.
Proof.
  induction p as [|x p IH]; intros s; cbn [is_prefix].
  - split; [intros _; exists s; reflexivity|reflexivity].
  - destruct s as [|y s]; [split; [discriminate|intros (b & E); discriminate]|]. rewrite andb_true_iff, Z.eqb_eq, IH. split.
    + intros (-> & b & ->). exists b. reflexivity.
    + intros (b & E). injection E as <- ->. split; [reflexivity|exists b; reflexivity].
Qed.
Lemma find_sub_spec p : forall s,
  match find_sub s p with
  | Some i => occurs_at s p i /\ forall j, occurs_at s p j -> i <= j
  | None => forall j, ~ occurs_at s p j
  end.
Proof.
  assert (K : forall s j, occurs_at s p j -> 0 <= j). { intros s j (a & b & _ & <-). apply zlen_nonneg. }
  assert (T : forall c t j, occurs_at (c :: t) p j -> has_prefix (c :: t) p \/ occurs_at t p (j - 1)).
  { intros c t j (a & b & E & L). destruct a as [|x a]; [left; exists b; exact E|right]. injection E as -> ->. exists a, b. split; [reflexivity|]. rewrite zlen_cons in L. lia. }
  induction s as [|c t IH]; cbn [find_sub]; destruct (is_prefix p _) eqn:E.
  1,3: apply is_prefix_iff in E; destruct E as (b & ->); split; [exists [], b; split; reflexivity|intros j Hj; apply K in Hj; exact Hj].
  - intros j (a & b & Hs & L). assert (a = []) by (destruct a; [reflexivity|discriminate]). subst a.
    assert (Hp : has_prefix [] p) by (exists b; exact Hs). apply is_prefix_iff in Hp. congruence.
  - destruct (find_sub t p) as [i|].
    + destruct IH as ((a & b & -> & L) & IH). split.
      * exists (c :: a), b. split; [reflexivity|]. rewrite zlen_cons. lia.
      * intros j Hj. destruct (T _ _ _ Hj) as [Hp|Ht]; [apply is_prefix_iff in Hp; congruence|]. apply IH in Ht. lia.
    + intros j Hj. destruct (T _ _ _ Hj) as [Hp|Ht]; [apply is_prefix_iff in Hp; congruence|]. exact (IH _ Ht).
Qed.
Lemma drop_text (s z : list Z) i : 0 <= i <= zlen s -> exists a t, s = a ++ t /\ zlen a = i /\ drop i (s ++ z) = t ++ z.
Proof.
  intros H. destruct (split_at s i H) as (a & t & -> & L). exists a, t. split; [reflexivity|]. split; [exact L|].
  unfold drop. rewrite <- app_assoc. apply skipn_zlen. unfold zlen in L. lia.
Qed.
Lemma no_nul_app a b : no_nul (a ++ b) <-> no_nul a /\ no_nul b.
Proof. apply Forall_app. Qed.
Lemma occurs_after a t p j : occurs_at t p j -> occurs_at (a ++ t) p (zlen a + j).
Proof. intros (x & y & -> & <-). exists (a ++ x), y. rewrite <- app_assoc. split; [reflexivity|apply zlen_app]. Qed.
Lemma occurs_inside a t p j : occurs_at (a ++ t) p j -> zlen a <= j -> occurs_at t p (j - zlen a).
Proof.
  intros (x & y & E & <-) L. destruct (split_at x (zlen a)) as (x1 & x2 & -> & L1); [pose proof (zlen_nonneg a); lia|].
  exists x2, y. rewrite <- !app_assoc in E. apply (f_equal (skipn (Z.to_nat (zlen a)))) in E. rewrite !skipn_zlen in E by (unfold zlen in *; lia).
  split; [exact E|]. rewrite zlen_app. lia.
Qed.
(** wcsstr at an index of a NUL-free string *)
Lemma wcsstr_spec s p i : no_nul s -> no_nul p -> 0 <= i <= zlen s ->
  exists r, wcsstr (drop i (buffer s)) (buffer p) = Ret r /\
  match r with
  | Some off => 0 <= off /\ occurs_at s p (i + off) /\ forall j, i <= j -> occurs_at s p j -> i + off <= j
  | None => forall j, i <= j -> ~ occurs_at s p j
  end.
Proof.
  intros Hs Hp Hi. destruct (drop_text s [0] i Hi) as (a & t & -> & <- & E). apply no_nul_app in Hs. unfold buffer, wcsstr. rewrite E.
  change [0] with (0 :: @nil Z). rewrite cstr_text by apply Hs. rewrite bind_ret. rewrite cstr_text by exact Hp. rewrite bind_ret.
  exists (find_sub t p). split; [reflexivity|]. pose proof (find_sub_spec p t) as F. destruct (find_sub t p) as [off|].
  - destruct F as (F1 & F2). split; [destruct F1 as (x & y & _ & <-); apply zlen_nonneg|]. split; [apply occurs_after; exact F1|].
    intros j Hj Ho. apply occurs_inside in Ho; [|exact Hj]. apply F2 in Ho. lia.
  - intros j Hj Ho. apply occurs_inside in Ho; [|exact Hj]. exact (F _ Ho).
Qed.

(** ** Substrings *)
Lemma wcslen_text s z : no_nul s -> wcslen (s ++ 0 :: z) = Ret (zlen s).
Proof.
  intros H. induction H as [|c s Hc H IH]; [reflexivity|]. cbn [app wcslen]. replace (c =? 0) with false by lia. rewrite IH, bind_ret, zlen_cons. reflexivity.
Qed.
Lemma wcslen_prefix a z : no_nul a -> last z 1 = 0 -> exists n, wcslen (a ++ z) = Ret n /\ zlen a <= n.
Proof.
  intros H. induction H as [|c s Hc H IH]; intros Hz.
  - cbn [app]. destruct (wcslen_some z Hz) as (n & -> & Hn). exists n. split; [reflexivity|]. rewrite zlen_nil. lia.
  - cbn [app wcslen]. replace (c =? 0) with false by lia. destruct (IH Hz) as (n & -> & Hn). exists (n + 1). rewrite zlen_cons. split; [reflexivity|lia].
Qed.
Lemma part_is_part s i n : 0 <= i -> 0 <= n -> i + n <= zlen s -> is_part s i n (part s i n).
Proof.
  intros Hi Hn H. destruct (split_at s i) as (a & t & -> & La); [lia|]. rewrite zlen_app in H.
  destruct (split_at t n) as (x & y & -> & Lx); [lia|]. exists a, y. unfold part. rewrite skipn_zlen by (unfold zlen in *; lia).
  rewrite firstn_zlen by (unfold zlen in *; lia). auto.
Qed.
Lemma is_part_fun s i n r r' : is_part s i n r -> is_part s i n r' -> r = r'.
Proof.
  intros (a & b & -> & La & Lr) (a' & b' & E & La' & Lr'). apply (f_equal (skipn (Z.to_nat i))) in E.
  rewrite !skipn_zlen in E by (unfold zlen in *; lia). apply (f_equal (firstn (Z.to_nat n))) in E. rewrite !firstn_zlen in E by (unfold zlen in *; lia). exact E.
Qed.
(** The copying constructor, when no NUL comes before the start. *)
Lemma String_from_part s i n : a_string s -> 0 <= i -> 0 <= n -> i + n <= zlen s -> n < 2147483647 -> no_nul (firstn (Z.to_nat i) s) ->
  String_from (buffer s) i n = Ret (part s i n).
Proof.
  intros Hs Hi Hn H Hn2 Hz. unfold a_string in Hs. unfold String_from. replace (n <? 0) with false by lia. rewrite bind_ret. unfold buffer.
  destruct (wcslen_prefix (firstn (Z.to_nat i) s) (skipn (Z.to_nat i) s ++ [0]) Hz) as (m & Em & Lm).
  { rewrite last_app by discriminate. reflexivity. }
  rewrite app_assoc, firstn_skipn in Em. rewrite Em, bind_ret. assert (zlen (firstn (Z.to_nat i) s) = i) by (unfold zlen in *; rewrite firstn_length; lia).
  rewrite throw_if_false by lia. rewrite bind_ret. rewrite i32_ret by lia. rewrite bind_ret. apply memread_part; assumption.
Qed.

(** ** Comparison *)
Definition fold_case (ct : ctype) (ic : bool) (s : list Z) : list Z := if ic then map (towlower ct) s else s.
(** One step of the character comparison. *)
Definition differ (ct : ctype) (ic ord : bool) (x1 x2 : Z) : option Z :=
  let c1 := if ic then towlower ct x1 else x1 in
  let c2 := if ic then towlower ct x2 else x2 in
  if negb ic && negb ord && iswupper ct c1 && iswlower ct c2 then Some 1
  else if negb ic && negb ord && iswupper ct c2 && iswlower ct c1 then Some (-1)
  else if c1 =? c2 then None else Some (if c2 <? c1 then 1 else -1).
(** Skipping a common prefix. *)
Lemma compare_loop_prefix ct (ic ord : bool) (p : list Z) : (forall c, In c p -> (if ic then towlower ct c else c) <> 0) -> (forall c, In c p -> iswupper ct c && iswlower ct c = false) ->
  forall a b n, compare_loop ct ic ord (p ++ a) (p ++ b) (length p + n) = compare_loop ct ic ord a b n.
Proof.
  intros H D. induction p as [|x p IH]; intros a b n; [reflexivity|]. cbn [app length Nat.add compare_loop].
  assert (Nz := H x (or_introl eq_refl)). assert (Dx := D x (or_introl eq_refl)). set (c := if ic then towlower ct x else x) in *.
  assert (T : negb ic && negb ord && iswupper ct c && iswlower ct c = false).
  { unfold c. destruct ic; [reflexivity|]. rewrite <- andb_assoc, Dx. apply andb_false_r. }
  rewrite T. rewrite Z.eqb_refl. replace (c =? 0) with false by lia. cbn [orb negb]. apply IH; intros d Hd; [apply H|apply D]; right; exact Hd.
Qed.

Lemma compare_loop_differ ct ic ord x y a b n r : differ ct ic ord x y = Some r -> compare_loop ct ic ord (x :: a) (y :: b) (S n) = Ret r.
Proof.
  unfold differ. cbn [compare_loop]. cbv zeta. set (c1 := if ic then _ else _). set (c2 := if ic then towlower ct y else y).
  destruct (negb ic && negb ord && iswupper ct c1 && iswlower ct c2); [intros H; injection H as <-; reflexivity|].
  destruct (negb ic && negb ord && iswupper ct c2 && iswlower ct c1); [intros H; injection H as <-; reflexivity|].
  destruct (c1 =? c2) eqn:E; [discriminate|]. intros H. injection H as <-. rewrite orb_true_r. destruct (c2 <? c1) eqn:L; [reflexivity|].
  replace (c1 <? c2) with true by lia. reflexivity.
Qed.
(** Two lists of one length are equal or have a first difference. *)
Lemma first_difference (f : Z -> Z) : forall a b : list Z, length a = length b ->
  map f a = map f b \/ exists p q x y a' b', a = p ++ x :: a' /\ b = q ++ y :: b' /\ map f p = map f q /\ f x <> f y /\ length p = length q /\ length a' = length b'.
Proof.
  induction a as [|x a IH]; intros [|y b] L; cbn [length] in L; try discriminate; [left; reflexivity|].
  destruct (Z.eq_dec (f x) (f y)) as [E|N].
  - destruct (IH b) as [E'|(p & q & x' & y' & a' & b' & -> & -> & A & B & C & D)]; [lia|left; cbn [map]; congruence|].
    right. exists (x :: p), (y :: q), x', y', a', b'. cbn [map length app]. repeat split; try assumption; congruence.
  - right. exists [], [], x, y, a, b. repeat split; try assumption. lia.
Qed.

(** Ordinal comparison: only the length of the first string counts. *)
Lemma ordinal_loop ct a : forall b, no_nul a -> Forall (fun c => 0 < c) a ->
  exists r, compare_loop ct false true (buffer a) (buffer b) (length a) = Ret r /\ ((has_prefix b a /\ r = 0) \/ (~ has_prefix b a /\ lexicographic a b r)).
Proof.
  induction a as [|x a IH]; intros b Hn Hp; [exists 0; split; [reflexivity|left; split; [exists b; reflexivity|reflexivity]]|].
  assert (Hx : 0 < x) by (inversion Hp; assumption). cbn [length]. change (buffer (x :: a)) with (x :: buffer a).
  destruct b as [|y b].
  - exists 1. split; [|right; split; [intros (t & E); discriminate|constructor]]. change (buffer []) with [0]. cbn [compare_loop negb andb].
    replace (x =? 0) with false by lia. cbn [orb negb]. replace (0 <? x) with true by lia. reflexivity.
  - change (buffer (y :: b)) with (y :: buffer b). cbn [compare_loop negb andb]. replace (x =? 0) with false by lia. cbn [orb].
    assert (NP : x <> y -> ~ has_prefix (y :: b) (x :: a)). { intros N (t & E). injection E as -> _. contradiction. }
    destruct (x =? y) eqn:E; cbn [negb].
    + assert (x = y) by lia. subst y. destruct (IH b) as (r & -> & Hr); [inversion Hn; assumption|inversion Hp; assumption|]. exists r. split; [reflexivity|].
      destruct Hr as [((t & ->) & ->)|(N & L)]; [left; split; [exists t; reflexivity|reflexivity]|right]. split; [|constructor; exact L].
      intros (t & T). apply N. injection T as ->. exists t. reflexivity.
    + destruct (y <? x) eqn:G; [exists 1|exists (-1)]; (split; [try reflexivity|]).
      * right. split; [apply NP; lia|apply lex_greater; lia].
      * replace (x <? y) with true by lia. reflexivity.
      * right. split; [apply NP; lia|apply lex_less; lia].
Qed.

(** lexicographic comparison is a total order. *)
Lemma lex_total a : forall b, exists r, lexicographic a b r.
Proof.
  induction a as [|x a IH]; intros [|y b]; [eexists; constructor..|]. destruct (Z.lt_trichotomy x y) as [H|[H|H]].
  - exists (-1). constructor. exact H.
  - subst y. destruct (IH b) as (r & H). exists r. constructor. exact H.
  - exists 1. constructor. exact H.
Qed.
Lemma lex_fun a b r : lexicographic a b r -> forall r', lexicographic a b r' -> r = r'.
Proof. induction 1; intros r' H'; inversion H'; subst; try reflexivity; try lia; auto. Qed.
Lemma lex_opp a b r : lexicographic a b r -> lexicographic b a (- r).
Proof. induction 1; try (constructor; assumption); constructor. Qed.
Lemma lex_zero a b : lexicographic a b 0 <-> a = b.
Proof.
  split.
  - intros H. remember 0 as r. induction H; try discriminate; try reflexivity. f_equal. apply IHlexicographic. assumption.
  - intros ->. induction b; constructor. assumption.
Qed.
Lemma lex_sign a b r : lexicographic a b r -> r = -1 \/ r = 0 \/ r = 1.
Proof. induction 1; tauto. Qed.
Lemma lex_trans a b r : lexicographic a b r -> forall c q, lexicographic b c q -> r <= 0 -> q <= 0 -> forall t, lexicographic a c t -> t <= 0.
Proof.
  induction 1; intros c q Hq R Q t Ht; try (exfalso; lia).
  - inversion Hq; subst; inversion Ht; subst; lia.
  - inversion Hq; subst; inversion Ht; subst; lia.
  - inversion Hq; subst; inversion Ht; subst; try lia.
  - inversion Hq; subst; inversion Ht; subst; try lia. eapply IHlexicographic; eassumption.
Qed.
