(** * C31 (Insert, Remove, Concat), C35, C38-C41: String functions that go through a StringBuilder.
    A builder holds at most 2147483520 characters (its capacity is rounded up to a multiple of 128), so
    longer results are out of reach; the theorems say so. *)
From Verif Require Import Tac Base MemModel MemProofs StringBuilderModel StringBuilderSpec StringBuilderProofs StringBuilderHistory StringModel StringSpec StringProofs StringBuildProofs.

(** ** C31: Insert, Remove, Concat *)
(** Missing from the full claim: empty receivers and empty values, which throw (refuted below). *)
Theorem C31_insert_partial : forall a b value, a ++ b <> [] -> value <> [] -> zlen (a ++ value ++ b) <= 2147483520 ->
  Insert (a ++ b) (zlen a) (Some value) = Ret (a ++ value ++ b).
Proof.
  intros a z v N Nv L. rewrite !zlen_app in L. pose proof (zlen_nonneg a). pose proof (zlen_nonneg v). pose proof (zlen_nonneg z).
  unfold Insert. rewrite zlen_app. rewrite throw_if_false by lia. rewrite bind_ret.
  destruct (builder_of_spec (a ++ z) N) as (b & -> & I & C & Lb & M & _); [rewrite zlen_app; lia|]. rewrite bind_ret. rewrite zlen_app in Lb.
  pose proof (insert_loop_spec v (zlen a) 1 ltac:(lia) ltac:(lia) Nv b 0 (a ++ z) I) as S. cbn [SB_Insert]. change (Z.to_nat 1) with 1%nat.
  rewrite zlen_app in S. cbn [copies repeat concat] in S. rewrite put_in_nil in S. specialize (S C ltac:(lia)).
  destruct (insert_loop b (zlen a) v 1) as [[b' [e|]]|e|u].
  - destruct S as (I' & _ & _ & -> & j & Hj & C' & Hlong). assert (j = O) by lia. subst j. cbn [Nat.add copies repeat concat] in C'. rewrite put_in_nil in C'.
    apply (f_equal zlen) in C'. rewrite (len_content b' I'), zlen_app in C'. lia.
  - destruct S as (I' & _ & C' & _). rewrite bind_ret. rewrite ToString_spec by exact I'. rewrite C'. unfold put_in, copies. cbn [Nat.add repeat concat]. rewrite app_nil_r.
    rewrite (firstn_zlen a z), (skipn_zlen a z) by (unfold zlen; lia). reflexivity.
  - contradiction.
  - destruct S as (_ & j & Hj & S). assert (j = O) by lia. subst j. cbn [Nat.add copies repeat concat] in S. rewrite put_in_nil, zlen_app in S. lia.
Qed.
Print Assumptions C31_insert_partial.
Theorem C31_insert_range : forall s start value, start < 0 \/ zlen s < start -> Insert s start (Some value) = Exn ArgumentOutOfRangeException.
Proof. intros s i v H. unfold Insert. rewrite throw_if_true by lia. reflexivity. Qed.
Print Assumptions C31_insert_range.
(** Inserting the empty string, or inserting into the empty string, throws. *)
Theorem C31_insert_empty_refuted : (forall s, s <> [] -> zlen s <= 2147483520 -> Insert s 0 (Some []) = Exn IndexOutOfRangeException) /\
  (forall value, Insert [] 0 (Some value) = Exn IndexOutOfRangeException).
Proof.
  split; [|reflexivity]. intros s N L. pose proof (zlen_nonneg s). unfold Insert. rewrite throw_if_false by lia. rewrite bind_ret.
  destruct (builder_of_spec s N L) as (b & -> & _). reflexivity.
Qed.
Print Assumptions C31_insert_empty_refuted.

(** Remove(start, count): [tolerant] says that memcpy copies overlapping ranges correctly; without it
    the claim needs the removed part to be at least as long as what follows. *)
Theorem C31_remove_partial : forall tolerant a x b, a ++ x ++ b <> [] -> zlen (a ++ x ++ b) <= 2147483520 -> tolerant = true \/ zlen b <= zlen x ->
  Remove tolerant (a ++ x ++ b) (zlen a) (zlen x) = Ret (a ++ b).
Proof.
  intros tol a x z N L T. assert (L' := L). rewrite !zlen_app in L'. pose proof (zlen_nonneg a). pose proof (zlen_nonneg x). pose proof (zlen_nonneg z).
  unfold Remove. destruct (builder_of_spec (a ++ x ++ z) N L) as (b & -> & I & C & Lb & _). rewrite bind_ret. rewrite !zlen_app in Lb. replace (zlen x <? 0) with false by lia. rewrite bind_ret.
  pose proof (SB_Remove_spec tol b (zlen a) (zlen x) I) as S. destruct (SB_Remove tol b (zlen a) (zlen x)) as [b'|e|u].
  - destruct S as (_ & _ & _ & I' & C' & _). rewrite bind_ret, ToString_spec by exact I'. rewrite C', C. rewrite (firstn_zlen a) by (unfold zlen; lia).
    rewrite app_assoc. rewrite skipn_zlen by (rewrite app_length; unfold zlen; lia). reflexivity.
  - destruct S as (_ & S). lia.
  - destruct S as (-> & _ & S). destruct T as [T|T]; [discriminate|lia].
Qed.
Print Assumptions C31_remove_partial.
Theorem C31_remove_rest : forall tolerant a x, a ++ x <> [] -> zlen (a ++ x) <= 2147483520 -> Remove tolerant (a ++ x) (zlen a) (-1) = Ret a.
Proof.
  intros tol a x N L. assert (L' := L). rewrite zlen_app in L'. pose proof (zlen_nonneg a). pose proof (zlen_nonneg x).
  pose proof (C31_remove_partial tol a x []) as H1. rewrite !app_nil_r in H1. specialize (H1 N L ltac:(right; rewrite zlen_nil; lia)). rewrite <- H1. unfold Remove.
  destruct (builder_of (a ++ x)) as [b| |]; cbn [bind]; try reflexivity. change (-1 <? 0) with true. cbn iota. replace (zlen x <? 0) with false by lia.
  rewrite zlen_app. rewrite i32_ret by lia. rewrite !bind_ret. replace (zlen a + zlen x - zlen a) with (zlen x) by lia. reflexivity.
Qed.
Print Assumptions C31_remove_rest.
Theorem C31_remove_range : forall tolerant s start count, s <> [] -> zlen s <= 2147483520 -> 0 <= count -> start < 0 \/ zlen s < start + count ->
  Remove tolerant s start count = Exn ArgumentOutOfRangeException.
Proof.
  intros tol s i n N L Hn H. unfold Remove. destruct (builder_of_spec s N L) as (b & -> & I & C & Lb & _). rewrite bind_ret. replace (n <? 0) with false by lia. rewrite bind_ret.
  pose proof (SB_Remove_spec tol b i n I) as S. destruct (SB_Remove tol b i n) as [b'|e|u] eqn:E; [lia|destruct S as (-> & _); reflexivity|].
  exfalso. unfold SB_Remove in E. destruct (n <? 0); [discriminate|]. cbn [throw_if bind] in E. destruct (i <? 0) eqn:Ei; [discriminate|]. cbn [throw_if bind] in E. lia.
Qed.
Print Assumptions C31_remove_range.
Theorem C31_remove_empty_refuted : forall tolerant start count, Remove tolerant [] start count = Exn IndexOutOfRangeException.
Proof. reflexivity. Qed.
Print Assumptions C31_remove_empty_refuted.

(** Concat of an array and of arguments: the texts in order.  A null argument after the first is left
    out.  Missing: a null first argument, or any null in an array, see below. *)
Theorem C31_concat_partial : forall vs : list str, total vs <= 2147483520 -> Concat_array (Some (map Some vs)) = Ret (concat vs).
Proof.
  intros vs L. unfold Concat_array. destruct SB_default_spec as (b & -> & I & C & Lb & M & _). rewrite bind_ret.
  destruct (append_objects_spec vs b I M) as (b' & -> & I' & C'); [lia|]. rewrite bind_ret, ToString_spec by exact I'. rewrite C', C. reflexivity.
Qed.
Print Assumptions C31_concat_partial.
(** The texts that are present among optional ones. *)
Definition present (os : list (option str)) : list str := concat (map (fun o => match o with None => [] | Some s => [s] end) os).
Theorem C31_concat_args_partial : forall (s : str) rest, zlen s + total (present rest) <= 2147483520 -> Concat_args (Some s) rest = Ret (s ++ concat (present rest)).
Proof.
  intros s rest L. unfold Concat_args. destruct SB_default_spec as (b & -> & I & C & Lb & M & _). rewrite bind_ret.
  replace (filter _ rest) with (map (@Some str) (present rest)). 2: { clear. unfold present. induction rest as [|[t|] rest IH]; [reflexivity| |exact IH]. cbn [map filter concat app]. f_equal. exact IH. }
  destruct (append_objects_spec (s :: present rest) b I M) as (b' & E & I' & C'); [cbn [total]; lia|]. cbn [map] in E. rewrite E.
  rewrite bind_ret, ToString_spec by exact I'. rewrite C', C. reflexivity.
Qed.
Print Assumptions C31_concat_args_partial.
(** .NET treats null as the empty string everywhere; here a null first argument throws and a null in an
    array is dereferenced. *)
Theorem C31_concat_null_refuted : (forall rest, Concat_args None rest = Exn ArgumentNullException) /\
  (forall (vs : list str) rest, total vs <= 2147483520 -> Concat_array (Some (map Some vs ++ None :: rest)) = UB NullDereference).
Proof.
  split; [reflexivity|]. intros vs rest L. unfold Concat_array. destruct SB_default_spec as (b & -> & I & C & Lb & M & _). rewrite bind_ret.
  assert (G : forall vs b, inv b -> maxc b = 2147483647 -> len b + total vs <= 2147483520 -> append_objects b (map (@Some str) vs ++ None :: rest) = UB NullDereference).
  { clear. induction vs as [|v vs IH]; intros b I M L; cbn [map append_objects app total] in *; [reflexivity|].
    assert (Pt : 0 <= total vs) by (rewrite total_concat; apply zlen_nonneg). cbn [Append_object]. destruct (Append_whole b v I M) as (b1 & -> & I1 & C1 & M1 & L1 & _); [lia|]. rewrite bind_ret. apply IH; try assumption. lia. }
  rewrite G; [reflexivity|assumption..|lia].
Qed.
Print Assumptions C31_concat_null_refuted.
Example C31_example : Insert [97; 98] 1 (Some [120; 121]) = Ret [97; 120; 121; 98] /\ Remove true [97; 98; 99] 0 1 = Ret [98; 99] /\
  Concat_args (Some [97]) [None; Some [98; 99]] = Ret [97; 98; 99].
Proof. vm_compute. repeat split; reflexivity. Qed.

(** ** C35: padding *)
Definition padding (width : Z) (s : list Z) (c : Z) : list Z := repeat c (Z.to_nat (width - zlen s)).
(** Missing: strings and widths whose sum exceeds the greatest builder capacity (refuted below). *)
Theorem C35_pad_partial : forall (s : str) width c, 0 <= width -> zlen s + width <= 2147483520 ->
  PadLeft s width c = Ret (padding width s c ++ s) /\ PadRight s width c = Ret (s ++ padding width s c).
Proof.
  intros s w c Hw L. pose proof (zlen_nonneg s) as P. unfold PadLeft, PadRight, padding. rewrite !throw_if_false by lia. rewrite !bind_ret.
  destruct (w - zlen s <=? 0) eqn:E.
  - replace (Z.to_nat (w - zlen s)) with O by lia. cbn [repeat app]. rewrite app_nil_r. split; reflexivity.
  - rewrite i32_ret by lia. rewrite !bind_ret. destruct (SB_capacity_spec (zlen s + w)) as (b & -> & I & C & Lb & M & K); [lia|]. rewrite !bind_ret.
    assert (Kb : cap b <= 2147483520) by (destruct I as (_ & _ & _ & _ & I & _); lia). split.
    + destruct (Append_char_room b c (w - zlen s) I) as (b1 & -> & I1 & C1 & M1 & L1 & K1); [lia|lia|]. rewrite bind_ret.
      destruct (Append_whole b1 s I1) as (b2 & -> & I2 & C2 & _); [congruence|lia|]. rewrite bind_ret, ToString_spec by exact I2. rewrite C2, C1, C. reflexivity.
    + destruct (Append_whole b s I M) as (b1 & -> & I1 & C1 & M1 & L1 & K1 & _); [lia|]. rewrite bind_ret.
      destruct (Append_char_room b1 c (w - zlen s) I1) as (b2 & -> & I2 & C2 & _); [lia|lia|]. rewrite bind_ret, ToString_spec by exact I2. rewrite C2, C1, C. reflexivity.
Qed.
Print Assumptions C35_pad_partial.
Theorem C35_length : forall s width c, 0 <= width -> zlen (padding width s c ++ s) = Z.max (zlen s) width /\ zlen (s ++ padding width s c) = Z.max (zlen s) width.
Proof. intros s w c H. unfold padding. rewrite !zlen_app, zlen_repeat. pose proof (zlen_nonneg s). lia. Qed.
Print Assumptions C35_length.
Theorem C35_negative : forall s width c, width < 0 -> PadLeft s width c = Exn ArgumentOutOfRangeException /\ PadRight s width c = Exn ArgumentOutOfRangeException.
Proof. intros s w c H. unfold PadLeft, PadRight. rewrite !throw_if_true by lia. split; reflexivity. Qed.
Print Assumptions C35_negative.
(** The capacity asked for is length + width, not max(length, width): it overflows although the result
    would fit, e.g. for a string and a width of half of Int32. *)
Theorem C35_overflow_refuted : forall s width c, zlen s < width -> 2147483647 < zlen s + width -> PadLeft s width c = UB SignedOverflow /\ PadRight s width c = UB SignedOverflow.
Proof.
  intros s w c H L. pose proof (zlen_nonneg s). unfold PadLeft, PadRight. rewrite !throw_if_false by lia. rewrite !bind_ret. replace (w - zlen s <=? 0) with false by lia.
  rewrite i32_ub by lia. split; reflexivity.
Qed.
Print Assumptions C35_overflow_refuted.
Example C35_example : PadLeft [97; 98] 5 46 = Ret [46; 46; 46; 97; 98] /\ PadRight [97; 98] 3 46 = Ret [97; 98; 46] /\ PadLeft [97; 98] 1 46 = Ret [97; 98].
Proof. vm_compute. repeat split; reflexivity. Qed.

(** ** C38: StartsWith and EndsWith *)
Lemma occurs_same s p j : zlen p = zlen s -> occurs_at s p j -> s = p.
Proof.
  intros L (a & b & -> & _). rewrite !zlen_app in L. destruct a; [|rewrite zlen_cons in L; pose proof (zlen_nonneg a); pose proof (zlen_nonneg b); lia].
  destruct b; [|rewrite zlen_cons in L; pose proof (zlen_nonneg b); rewrite zlen_nil in L; lia]. rewrite app_nil_r. reflexivity.
Qed.
(** For a pattern that is not longer than the string.  Missing: longer patterns and the empty
    receiver, refuted below. *)
Theorem C38_prefix_suffix_partial : forall s p : str, zlen s <= 2147483520 -> zlen p <= zlen s -> s <> [] ->
  (exists r, StartsWith false s (Some p) = Ret r /\ (r = true <-> has_prefix s p)) /\
  (exists r, EndsWith false s (Some p) = Ret r /\ (r = true <-> has_suffix s p)).
Proof.
  intros s p L Lp N. pose proof (zlen_nonneg p) as Pp. unfold StartsWith, EndsWith. destruct (zlen p =? 0) eqn:E0.
  - assert (p = []) by (destruct p; [reflexivity|rewrite zlen_cons in E0; pose proof (zlen_nonneg p); lia]). subst p.
    split; exists true; (split; [reflexivity|split; [intros _|reflexivity]]); exists s; [reflexivity|rewrite app_nil_r; reflexivity].
  - destruct (builder_of_spec s N L) as (b & -> & I & C & Lb & _). rewrite !bind_ret.
    assert (Np : p <> []) by (intros ->; rewrite zlen_nil in E0; lia). split.
    + destruct (count_window b p 0 (zlen p) I Np) as (k & -> & Hk); [lia..|]. rewrite bind_ret. exists (negb (k =? 0)). split; [reflexivity|]. rewrite C in Hk.
      assert (Lw : zlen (part s 0 (zlen p)) = zlen p) by (apply zlen_part; lia). unfold part in *. cbn [Z.to_nat skipn] in *. split.
      * intros T. assert (k <> 0) by (destruct (k =? 0) eqn:Ek; [discriminate|lia]).
        destruct (list_eqb (firstn (Z.to_nat (zlen p)) s) p) eqn:El.
        -- apply list_eqb_eq in El. exists (skipn (Z.to_nat (zlen p)) s). rewrite <- El at 1. symmetry. apply firstn_skipn.
        -- exfalso. apply H. apply Hk. intros j O. apply occurs_same in O; [|lia]. apply list_eqb_eq in O. congruence.
      * intros (t & ->). destruct (k =? 0) eqn:Ek; [|reflexivity]. exfalso. assert (k = 0) by lia. apply (proj1 Hk H 0).
        rewrite firstn_zlen by (unfold zlen; lia). exists [], []. rewrite app_nil_r. split; reflexivity.
    + destruct (count_window b p (zlen s - zlen p) (zlen p) I Np) as (k & -> & Hk); [lia..|]. rewrite bind_ret. exists (negb (k =? 0)). split; [reflexivity|]. rewrite C in Hk.
      assert (Lw : zlen (part s (zlen s - zlen p) (zlen p)) = zlen p) by (apply zlen_part; lia).
      destruct (split_at s (zlen s - zlen p)) as (a & w & Es & La); [lia|].
      assert (Ew : part s (zlen s - zlen p) (zlen p) = w).
      { assert (Lw' : zlen w = zlen p) by (apply (f_equal zlen) in Es; rewrite zlen_app in Es; lia). unfold part. rewrite Es at 2. rewrite skipn_zlen by (unfold zlen in *; lia). apply firstn_all2. unfold zlen in *; lia. }
      rewrite Ew in Hk, Lw. clear Ew. split.
      * intros T. assert (k <> 0) by (destruct (k =? 0) eqn:Ek; [discriminate|lia]).
        destruct (list_eqb w p) eqn:El.
        -- apply list_eqb_eq in El. subst w. exists a. exact Es.
        -- exfalso. apply H. apply Hk. intros j O. apply occurs_same in O; [|lia]. apply list_eqb_eq in O. congruence.
      * intros (t & Et). destruct (k =? 0) eqn:Ek; [|reflexivity]. exfalso. assert (k = 0) by lia. apply (proj1 Hk H 0).
        assert (w = p). { rewrite Et in Es. assert (zlen t = zlen a). { rewrite Et, zlen_app in La. lia. } apply (f_equal (skipn (length t))) in Es.
          rewrite skipn_app, skipn_all, Nat.sub_diag in Es. replace (length t) with (length a) in Es by (unfold zlen in *; lia). rewrite skipn_app, skipn_all, Nat.sub_diag in Es. symmetry. exact Es. }
        subst w. exists [], []. rewrite app_nil_r. split; reflexivity.
Qed.
Print Assumptions C38_prefix_suffix_partial.
(** A longer pattern that still fits the builder's block is compared with the block's content after the
    text; the answer is right when the pattern does not end in NUL. *)
Theorem C38_startswith_longer_partial : forall (s p : str) c, s <> [] -> zlen s < zlen (p ++ [c]) <= 129 -> c <> 0 -> StartsWith false s (Some (p ++ [c])) = Ret false.
Proof.
  intros s p c N L Hc. unfold StartsWith. pose proof (zlen_nonneg p) as Pp. assert (Lpc : zlen (p ++ [c]) = zlen p + 1) by (rewrite zlen_app, zlen_cons, zlen_nil; lia).
  replace (zlen (p ++ [c]) =? 0) with false by lia. destruct (builder_of_spec s N) as (b & -> & I & C & Lb & _ & K & K' & Cl); [lia|]. rewrite bind_ret.
  destruct (inv_split b I) as (r & Em & El & _). pose proof (room b I) as Rm. unfold CountSubStrings. rewrite i32_ret by lia. rewrite bind_ret. rewrite i32_ret by lia. rewrite bind_ret.
  rewrite i32_ret by lia. rewrite bind_ret. replace (0 + 1 + zlen (p ++ [c]) - zlen (p ++ [c])) with 1 by lia. change (Z.to_nat (1 - 0)) with 1%nat. cbn [count_loop].
  change (0 <? 1) with true. cbn iota.
  destruct (memcmp_hit (mem b) [] (mem b) [] (p ++ [c]) 0) as (h & -> & Hh); [cbn [app]; rewrite app_nil_r; reflexivity|reflexivity|lia|]. rewrite bind_ret.
  assert (h = false).
  { destruct h; [|reflexivity]. exfalso. destruct (proj1 Hh eq_refl) as (t & Et). unfold clean in Cl. rewrite Et in Cl.
    pose proof (len_bound b I) as Bl. destruct (split_at p (len b)) as (p1 & p2 & -> & L1); [lia|]. rewrite <- !app_assoc in Cl. rewrite skipn_zlen in Cl by (unfold zlen in *; lia).
    rewrite Forall_forall in Cl. apply Hc. apply Cl. apply in_or_app. right. left. reflexivity. }
  subst h. reflexivity.
Qed.
Print Assumptions C38_startswith_longer_partial.
(** EndsWith with a longer pattern reads before the buffer; StartsWith with a pattern longer than the
    builder's block reads behind it; both throw on the empty string. *)
Theorem C38_endswith_longer_refuted : forall s p : str, s <> [] -> zlen s < zlen p -> zlen p <= 2147483520 -> EndsWith false s (Some p) = UB OutOfBoundsRead.
Proof.
  intros s p N L Lp. pose proof (zlen_nonneg s). unfold EndsWith. replace (zlen p =? 0) with false by lia.
  destruct (builder_of_spec s N) as (b & -> & _); [lia|]. rewrite bind_ret. unfold CountSubStrings. rewrite i32_ret by lia. rewrite bind_ret. rewrite i32_ret by lia. rewrite bind_ret.
  rewrite i32_ret by lia. rewrite bind_ret. replace (Z.to_nat (_ - _)) with 1%nat by lia. cbn [count_loop]. replace (_ <? _) with true by lia.
  unfold memcmp_eq, memread. replace (zlen s - zlen p <? 0) with true by lia. reflexivity.
Qed.
Print Assumptions C38_endswith_longer_refuted.
Theorem C38_startswith_longer_refuted : forall s p : str, s <> [] -> zlen s <= 128 -> 129 < zlen p <= 2147483520 -> StartsWith false s (Some p) = UB OutOfBoundsRead.
Proof.
  intros s p N L Lp. unfold StartsWith. replace (zlen p =? 0) with false by lia. unfold builder_of, SB_of_string, SB_from, DefaultCapacity. pose proof (zlen_nonneg s).
  assert (P1 : 1 <= zlen s). { destruct s; [contradiction|]. rewrite zlen_cons. pose proof (zlen_nonneg s). lia. }
  rewrite !throw_if_false by lia. rewrite !bind_ret. change (128 =? 0) with false. cbn iota. rewrite Z.max_l by lia. change (set_Capacity Initialize 128) with (Ret Initialize). rewrite bind_ret.
  unfold String_Address. rewrite throw_if_false by lia. rewrite !bind_ret. unfold memcpy. replace (zlen s <? 0) with false by lia. unfold buffer. rewrite memread_part by lia. rewrite bind_ret, part_all.
  change (mem Initialize) with (repeat 0 129). destruct (split_at (repeat 0 129) (zlen s)) as (a & t & E & La); [rewrite zlen_repeat; lia|].
  rewrite E. pose proof (memwrite_app [] a t s 0 eq_refl La) as W. cbn [app] in W. rewrite W, !bind_ret. clear W.
  assert (Lm : zlen (s ++ t) = 129). { apply (f_equal zlen) in E. rewrite zlen_app, zlen_repeat in *. lia. }
  unfold CountSubStrings. rewrite i32_ret by lia. rewrite bind_ret. rewrite i32_ret by lia. rewrite bind_ret. rewrite i32_ret by lia. rewrite bind_ret.
  replace (Z.to_nat (_ - 0)) with 1%nat by lia. cbn [count_loop]. replace (0 <? _) with true by lia. cbn [set_mem mem]. unfold memcmp_eq, memread. rewrite Lm. replace (129 <? 0 + zlen p) with true by lia.
  rewrite orb_true_r. reflexivity.
Qed.
Print Assumptions C38_startswith_longer_refuted.
Theorem C38_empty_refuted : forall p, p <> [] -> StartsWith false [] (Some p) = Exn IndexOutOfRangeException /\ EndsWith false [] (Some p) = Exn IndexOutOfRangeException.
Proof.
  intros p N. assert (P : zlen p =? 0 = false). { destruct p; [contradiction|]. rewrite zlen_cons. pose proof (zlen_nonneg p). lia. }
  unfold StartsWith, EndsWith. rewrite P. split; reflexivity.
Qed.
Print Assumptions C38_empty_refuted.
(** EndsWith(Char) is right on every string. *)
Theorem C38_endswith_char : forall s c, exists r, EndsWith_char s c = Ret r /\ (r = true <-> has_suffix s [c]).
Proof.
  intros s c. unfold EndsWith_char. destruct s as [|x s] using rev_ind.
  - exists false. split; [reflexivity|]. split; [discriminate|]. intros (a & E). destruct a; discriminate.
  - clear IHs. rewrite zlen_app, zlen_cons, zlen_nil. pose proof (zlen_nonneg s). replace (_ <? 0) with false by lia. unfold buffer. rewrite <- app_assoc. cbn [app].
    rewrite (read_app s x [0]) by lia. rewrite bind_ret. exists (x =? c). split; [reflexivity|]. rewrite Z.eqb_eq. split.
    + intros ->. exists s. reflexivity.
    + intros (a & E). apply app_inj_tail in E. destruct E. assumption.
Qed.
Print Assumptions C38_endswith_char.
Example C38_example : StartsWith false [97; 98; 99] (Some [97; 98]) = Ret true /\ EndsWith false [97; 98; 99] (Some [98; 99]) = Ret true /\ EndsWith false [97; 98; 99] (Some [97; 98]) = Ret false.
Proof. vm_compute. repeat split; reflexivity. Qed.

(** ** C39: Replace.  [substituted old new s r]: [r] is [s] with the non-overlapping occurrences of
    [old], found from the left, replaced (StringBuilderSpec.v); it is a function of [s]. *)
Theorem C39_replace_partial : forall s old new : str, s <> [] -> old <> [] -> zlen s <= 2147483520 -> a_string old -> a_string new ->
  exists r, substituted old new s r /\ (forall r', substituted old new s r' -> r' = r) /\
    (zlen r <= 2147483520 -> Replace s (Some old) (Some new) = Ret r).
Proof.
  unfold str. intros s old new N No L Lo Ln. unfold Replace, str in *. destruct (builder_of_spec s N L) as (b & -> & I & C & Lb & M & K & _). rewrite bind_ret. unfold a_string in *.
  destruct (SB_Replace_spec b old new 0 (len b) I No Lo Ln) as (S & _). destruct S as (r & Sr & S); [lia|pose proof (len_bound b I); lia|lia|].
  rewrite C, Lb, part_all in Sr. exists r. split; [exact Sr|]. split; [intros r' H; exact (substituted_fun _ _ _ _ No H _ Sr)|]. intros Lr.
  destruct (SB_Replace b (Some old) (Some new) 0 (len b)) as [b'|e|u].
  - destruct S as (I' & C' & _). rewrite bind_ret, ToString_spec by exact I'. rewrite C', Z.add_0_l. cbn [Z.to_nat firstn app]. rewrite skipn_all2, app_nil_r; [reflexivity|]. rewrite C, Lb. unfold zlen. lia.
  - destruct S as (_ & S & _). lia.
  - destruct S as (_ & S). lia.
Qed.
Print Assumptions C39_replace_partial.
Theorem C39_replace_char_partial : forall (s : str) old new, s <> [] -> zlen s <= 2147483520 -> Replace_char s old new = Ret (map (fun c => if c =? old then new else c) s).
Proof.
  intros s old new N L. unfold Replace_char. destruct (builder_of_spec s N L) as (b & -> & I & C & Lb & M & K & _). rewrite bind_ret.
  pose proof (Replace_char_spec b old new 0 (len b) I) as S. pose proof (len_bound b I) as B. destruct (SB_Replace_char b old new 0 (len b)) as [b'|e|u].
  - destruct S as (_ & _ & _ & I' & C' & _). rewrite bind_ret, ToString_spec by exact I'. rewrite C', Z.add_0_l. rewrite C, Lb, part_all. cbn [Z.to_nat firstn app]. rewrite skipn_all2, app_nil_r; [reflexivity|]. unfold zlen. lia.
  - destruct S as (_ & S). lia.
  - contradiction.
Qed.
Print Assumptions C39_replace_char_partial.
(** The empty string and the empty pattern throw. *)
Theorem C39_empty_refuted : (forall old new, Replace [] old new = Exn IndexOutOfRangeException) /\ (forall old new, Replace_char [] old new = Exn IndexOutOfRangeException).
Proof. split; reflexivity. Qed.
Print Assumptions C39_empty_refuted.
Theorem C39_empty_pattern : forall s new, s <> [] -> zlen s <= 2147483520 -> Replace s (Some []) new = Exn ArgumentOutOfRangeException /\ Replace s None new = Exn ArgumentOutOfRangeException.
Proof.
  intros s new N L. unfold Replace. destruct (builder_of_spec s N L) as (b & -> & I & C & Lb & _). rewrite !bind_ret. pose proof (zlen_nonneg s).
  unfold SB_Replace. rewrite !throw_if_false by lia. rewrite !bind_ret. split; reflexivity.
Qed.
Print Assumptions C39_empty_pattern.
Example C39_example : Replace [97; 97; 97; 98] (Some [97; 97]) (Some [120]) = Ret [120; 97; 98] /\ Replace [97; 98; 97] (Some [97]) (Some [98; 98]) = Ret [98; 98; 98; 98; 98].
Proof. vm_compute. repeat split; reflexivity. Qed.

(** ** C40: Join *)
(** Join with a String separator: complete for values without null. *)
Theorem C40_join_string_partial : forall (sep : str) (vs : list str) start count, 0 <= start -> let n := if count <? 0 then zlen vs - start else count in
  0 <= n -> start + n <= zlen vs ->
  let chosen := firstn (Z.to_nat n) (skipn (Z.to_nat start) vs) in
  zlen (joined sep chosen) <= 2147483520 ->
  Join_string (Some sep) (Some (map Some vs)) start count = Ret (joined sep chosen).
Proof.
  intros sep vs start count Hs n Hn H chosen L. unfold Join_string, join_with. assert (Lm : zlen (map (@Some str) vs) = zlen vs) by (unfold zlen; rewrite map_length; reflexivity). rewrite Lm.
  destruct (zlen vs =? 0) eqn:E0.
  - unfold chosen. destruct vs; [|rewrite zlen_cons in E0; pose proof (zlen_nonneg vs); lia]. rewrite skipn_nil, firstn_nil. reflexivity.
  - rewrite throw_if_false by lia. rewrite bind_ret. cbv zeta. fold n. rewrite throw_if_false by lia. rewrite bind_ret. destruct SB_default_spec as (b & -> & I & C & Lb & M & _). rewrite bind_ret.
    rewrite skipn_map, firstn_map. fold chosen. destruct chosen as [|v rest]; [cbn [map join_loop]; rewrite bind_ret, ToString_spec by exact I; rewrite C; reflexivity|].
    rewrite joined_cons in *. rewrite zlen_app in L. pose proof (zlen_nonneg (joined_rest sep rest)) as Pr. cbn [map join_loop Append_object]. rewrite bind_ret.
    destruct (Append_whole b v I M) as (b1 & -> & I1 & C1 & M1 & L1 & _); [lia|]. rewrite bind_ret.
    destruct (join_rest_string sep rest b1 I1 M1) as (b' & -> & I' & C'); [lia|]. rewrite bind_ret, ToString_spec by exact I'. rewrite C', C1, C. reflexivity.
Qed.
Print Assumptions C40_join_string_partial.
(** Join with a Char separator, for results of at most 128 characters.  Missing: longer results, which
    can overrun the builder (C40_join_char_refuted). *)
Theorem C40_join_char_partial : forall sep (vs : list str) start count, 0 <= start -> let n := if count <? 0 then zlen vs - start else count in
  0 <= n -> start + n <= zlen vs ->
  let chosen := firstn (Z.to_nat n) (skipn (Z.to_nat start) vs) in
  zlen (joined [sep] chosen) <= 128 ->
  Join_char sep (Some (map Some vs)) start count = Ret (joined [sep] chosen).
Proof.
  intros sep vs start count Hs n Hn H chosen L. unfold Join_char, join_with. assert (Lm : zlen (map (@Some str) vs) = zlen vs) by (unfold zlen; rewrite map_length; reflexivity). rewrite Lm.
  destruct (zlen vs =? 0) eqn:E0.
  - unfold chosen. destruct vs; [|rewrite zlen_cons in E0; pose proof (zlen_nonneg vs); lia]. rewrite skipn_nil, firstn_nil. reflexivity.
  - rewrite throw_if_false by lia. rewrite bind_ret. cbv zeta. fold n. rewrite throw_if_false by lia. rewrite bind_ret. destruct SB_default_spec as (b & -> & I & C & Lb & M & K). rewrite bind_ret.
    rewrite skipn_map, firstn_map. fold chosen. destruct chosen as [|v rest]; [cbn [map join_loop]; rewrite bind_ret, ToString_spec by exact I; rewrite C; reflexivity|].
    rewrite joined_cons in *. rewrite zlen_app in L. pose proof (zlen_nonneg (joined_rest [sep] rest)) as Pr. cbn [map join_loop Append_object]. rewrite bind_ret.
    destruct (Append_whole b v I M) as (b1 & -> & I1 & C1 & M1 & L1 & K1 & _); [lia|]. rewrite bind_ret.
    destruct (join_rest_char sep rest b1 I1 M1) as (b' & -> & I' & C'); [lia|]. rewrite bind_ret, ToString_spec by exact I'. rewrite C', C1, C. reflexivity.
Qed.
Print Assumptions C40_join_char_partial.
(** Any value of 128 characters followed by another one: the separator is written behind the block. *)
Theorem C40_join_char_refuted : forall sep (v w : str), zlen v = 128 -> Join_char sep (Some [Some v; Some w]) 0 (-1) = UB OutOfBoundsWrite.
Proof.
  intros sep v w L. unfold Join_char, join_with. change (zlen [Some v; Some w]) with 2. change (2 =? 0) with false. cbn iota. rewrite throw_if_false by lia. rewrite bind_ret.
  change (-1 <? 0) with true. cbn iota. cbv zeta. rewrite throw_if_false by lia. rewrite bind_ret. change (Z.to_nat (2 - 0)) with 2%nat. change (Z.to_nat 0) with 0%nat. cbn [firstn skipn join_loop].
  change SB_default with (Ret Initialize). rewrite !bind_ret. cbn [Append_object]. unfold Append_string. change (-1 <? 0) with true. cbn iota. rewrite throw_if_false by lia. rewrite bind_ret.
  rewrite throw_if_false by lia. rewrite bind_ret. unfold buffer. rewrite memread_part by lia. rewrite bind_ret, part_all. unfold Append_at. change (-1 =? -1) with true. cbn iota. change (len Initialize) with 0.
  rewrite throw_if_false by lia. rewrite bind_ret. unfold EnsureRoomFor, EnsureCapacity. change (len Initialize) with 0. rewrite i32_ret by lia. rewrite bind_ret. rewrite throw_if_false by lia. rewrite bind_ret.
  change (cap Initialize) with 128. replace (128 <? 0 + zlen v) with false by lia. rewrite bind_ret. change (len Initialize) with 0. change (negb (0 =? 0)) with false. cbn iota. rewrite bind_ret.
  change (mem Initialize) with (repeat 0 128 ++ [0]). pose proof (memwrite_app [] (repeat 0 128) [0] v 0 eq_refl) as W. cbn [app] in W. rewrite W by (rewrite zlen_repeat; lia). clear W. rewrite bind_ret.
  rewrite (write_app v 0 []) by lia. rewrite bind_ret. rewrite bind_ret. unfold Append_char. rewrite throw_if_false by lia. rewrite bind_ret. unfold EnsureCapacity. rewrite throw_if_false by lia. rewrite bind_ret.
  cbn [set_mem cap len mem]. change (cap Initialize <? 1) with false. cbn iota. rewrite bind_ret. cbn [set_mem cap len mem]. change (Z.to_nat 1) with 1%nat. cbn [append_char_loop]. rewrite (write_app v 0 []) by lia. rewrite !bind_ret.
  unfold write. rewrite app_length. cbn [length]. replace ((0 + zlen v + 1 <? 0) || (Z.of_nat (length v + 1) <=? 0 + zlen v + 1)) with true by (unfold zlen; lia). reflexivity.
Qed.
Print Assumptions C40_join_char_refuted.
(** Windows outside the array throw. *)
Theorem C40_join_range : forall sep vs start count, vs <> [] -> start < 0 \/ 0 <= count /\ zlen vs < start + count ->
  Join_string sep (Some vs) start count = Exn ArgumentNullException.
Proof.
  intros sep vs start count N H. unfold Join_string, join_with. assert (P : zlen vs =? 0 = false). { destruct vs; [contradiction|]. rewrite zlen_cons. pose proof (zlen_nonneg vs). lia. }
  rewrite P. destruct (start <? 0) eqn:E; [reflexivity|]. cbn [throw_if bind]. replace (count <? 0) with false by lia. rewrite throw_if_true by lia. reflexivity.
Qed.
Print Assumptions C40_join_range.
Example C40_example : Join_string (Some [44; 32]) (Some [Some [97]; Some [98; 99]; Some []]) 0 (-1) = Ret [97; 44; 32; 98; 99; 44; 32] /\
  Join_char 44 (Some [Some [97]; Some [98]; Some [99]]) 1 2 = Ret [98; 44; 99].
Proof. vm_compute. repeat split; reflexivity. Qed.

(** ** C41: Contains, and termination *)
(** For a non-empty string and pattern, Contains returns, and its answer is right. *)
Theorem C41_contains_partial : forall s sub : str, s <> [] -> sub <> [] -> zlen s <= 2147483520 -> zlen sub <= 2147483520 ->
  exists r, Contains s (Some sub) = Ret r /\ (r = true <-> exists i, occurs_at s sub i).
Proof.
  intros s p N Np L Lp. unfold Contains. destruct (builder_of_spec s N L) as (b & -> & I & C & Lb & _). rewrite bind_ret. pose proof (zlen_nonneg s).
  destruct (count_window b p 0 (zlen s) I Np) as (k & -> & Hk); [lia..|]. rewrite bind_ret. rewrite C, part_all in Hk. exists (negb (k =? 0)). split; [reflexivity|]. split.
  - intros T. assert (Nk : k <> 0) by (destruct (k =? 0) eqn:Ek; [discriminate|lia]).
    pose proof (find_sub_spec p s) as F. destruct (find_sub s p) as [i|]; [exists i; apply F|]. exfalso. apply Nk. apply Hk. exact F.
  - intros (i & O). destruct (k =? 0) eqn:Ek; [|reflexivity]. exfalso. assert (k = 0) by lia. exact (proj1 Hk H0 i O).
Qed.
Print Assumptions C41_contains_partial.
(** The empty pattern makes Contains loop for ever on every non-empty string; .NET returns true. *)
Theorem C41_contains_empty_refuted : forall s, s <> [] -> zlen s <= 2147483520 -> Contains s (Some []) = UB NonTermination.
Proof.
  intros s N L. unfold Contains. destruct (builder_of_spec s N L) as (b & -> & I & C & Lb & _). rewrite bind_ret. pose proof (zlen_nonneg s). pose proof (len_bound b I).
  unfold CountSubStrings. rewrite i32_ret by lia. rewrite bind_ret. rewrite i32_ret by lia. rewrite bind_ret. pose proof (@zlen_nil Z) as Z0. rewrite i32_ret by lia. rewrite bind_ret.
  rewrite count_loop_empty; [reflexivity| |lia]. destruct I as (_ & I & _). lia.
Qed.
Print Assumptions C41_contains_empty_refuted.
(** The claim about fuel is about the loop itself: with any number of iterations allowed it does not end. *)
Theorem C41_contains_empty_loop_refuted : forall fuel m i e amount, 0 <= i <= zlen m -> i < e -> count_loop fuel m [] i e amount = UB NonTermination.
Proof. exact count_loop_empty. Qed.
Print Assumptions C41_contains_empty_loop_refuted.
(** The empty receiver throws instead of answering. *)
Theorem C41_contains_receiver_refuted : forall sub, Contains [] (Some sub) = Exn IndexOutOfRangeException.
Proof. reflexivity. Qed.
Print Assumptions C41_contains_receiver_refuted.
(** IndexOf, LastIndexOf and Replace end on every pair of strings: the model's fuel never runs out. *)
Theorem C41_terminates_partial : forall (s p q : str) start count, s <> [] -> zlen s <= 2147483520 -> a_string q -> p <> [] -> a_string p ->
  Replace s (Some p) (Some q) <> UB NonTermination /\ IndexOf_string s (Some p) start count <> UB NonTermination /\ Contains s (Some p) <> UB NonTermination.
Proof.
  intros s p q i n N L Hq Np Hp. unfold a_string in *. split; [|split].
  - unfold Replace, str in *. destruct (builder_of_spec s N L) as (b & -> & I & C & Lb & M & K & _). rewrite bind_ret.
    destruct (SB_Replace_spec b p q 0 (len b) I Np Hp Hq) as (S & _). destruct S as (r & Sr & S); [lia|pose proof (len_bound b I); lia|lia|].
    destruct (SB_Replace b (Some p) (Some q) 0 (len b)) as [b'|e|u]; cbn [bind]; [|discriminate|destruct S as (-> & _); discriminate].
    destruct S as (I' & _). rewrite ToString_spec by exact I'. discriminate.
  - unfold IndexOf_string. destruct ((i <? 0) || (n <? 0)); [discriminate|]. cbn [throw_if bind]. destruct (zlen s - i <? n); [discriminate|]. cbn [throw_if bind]. unfold wcsstr.
    assert (G : forall m, cstr m <> UB NonTermination). { clear. induction m as [|c m IH]; cbn [cstr]; [discriminate|]. destruct (c =? 0); [discriminate|]. destruct (cstr m); cbn [bind]; congruence. }
    destruct (cstr (drop i (buffer s))) as [h|e|u] eqn:E1; cbn [bind]; [|discriminate|intros H; injection H as ->; exact (G _ E1)].
    destruct (cstr (buffer p)) as [h'|e|u] eqn:E2; cbn [bind]; [|discriminate|intros H; injection H as ->; exact (G _ E2)]. destruct (find_sub h h'); discriminate.
  - destruct (Z_le_gt_dec (zlen p) 2147483520) as [Lp|G].
    + destruct (C41_contains_partial s p N Np L Lp) as (r & -> & _). discriminate.
    + unfold Contains. destruct (builder_of_spec s N L) as (b & -> & I & C & Lb & _). rewrite bind_ret. pose proof (zlen_nonneg s). unfold CountSubStrings.
      rewrite i32_ret by lia. rewrite bind_ret. rewrite i32_ret by lia. rewrite bind_ret. rewrite i32_ret by lia. rewrite bind_ret.
      replace (Z.to_nat (_ - 0)) with 0%nat by lia. cbn [count_loop]. replace (0 <? _) with false by lia. discriminate.
Qed.
Print Assumptions C41_terminates_partial.
Example C41_example : Contains [97; 98; 97; 98; 99] (Some [97; 98; 99]) = Ret true /\ Contains [97; 98] (Some [98; 97]) = Ret false.
Proof. vm_compute. repeat split; reflexivity. Qed.
