(** * StringBuilder operations as one step function, and proofs that every history keeps the invariant *)
From Verif Require Import Tac Base MemModel MemProofs StringBuilderModel StringBuilderSpec StringBuilderProofs.

(** What a catching program sees of a C++ member function that throws before it changes the builder. *)
Definition caught (b : sb) (m : outcome sb) : outcome (sb * option exn) :=
  match m with Ret b' => Ret (b', None) | Exn e => Ret (b, Some e) | UB u => UB u end.

(** One operation: dispatches to the modelled member functions (StringBuilder.cpp as cited there).
    AppendLine's and AppendLine(String)'s later parts never throw (AppendLine_never_throws), so
    [caught] is exact for them too; Insert of several copies reports its own partial state. *)
Definition step (tolerant : bool) (b : sb) (o : op) : outcome (sb * option exn) :=
  match o with
  | AppendText t => caught b (Append_value b t (-1))
  | AppendString t i n => caught b (Append_string b (Some t) i n)
  | AppendArray t i n => caught b (Append_array b (Some t) i n)
  | AppendChar c n => caught b (Append_char b c n)
  | AppendNewLine => caught b (AppendLine b)
  | AppendStringLine t => caught b (AppendLine_string b (Some t))
  | InsertString i t n => SB_Insert b i (Some t) n
  | InsertText i t => caught b (SB_Insert_value b i t)
  | InsertArray i t j n => caught b (SB_Insert_array b i (Some t) j n)
  | RemoveChars i n => caught b (SB_Remove tolerant b i n)
  | ClearAll => caught b (Clear b)
  | SetChar i c => caught b (SB_set_Chars b i c)
  | ReplaceChar o c i n => caught b (SB_Replace_char b o c i n)
  | ReplaceString o c i n => caught b (SB_Replace b (Some o) (Some c) i n)
  | EnsureCap n => caught b (EnsureCapacity b n)
  | SetCap n => caught b (set_Capacity b n)
  | SetLen n => caught b (set_Length b n)
  end.
Fixpoint run (tolerant : bool) (b : sb) (os : list op) : outcome (sb * list (option exn)) :=
  match os with
  | [] => Ret (b, [])
  | o :: os => '(b1, r) <- step tolerant b o ;; '(b2, rs) <- run tolerant b1 os ;; Ret (b2, r :: rs)
  end.

Lemma upd_len {A} (l : list A) : forall n a, length (upd l n a) = length l.
Proof. induction l as [|x l IH]; intros [|n] a; cbn; [reflexivity|reflexivity|reflexivity|]. f_equal. apply IH. Qed.
Lemma len_content b : inv b -> zlen (content b) = len b.
Proof. intros I. destruct (inv_split b I) as (r & _ & H & _). exact H. Qed.
Lemma len_bound b : inv b -> 0 <= len b <= 2147483520.
Proof. intros (H1 & H2 & H3 & H4 & H5 & H6 & H7). destruct (internal b); lia. Qed.

(** ** The remaining members *)
Lemma clean_build b m l c' r : inv b -> mem b = content b ++ r -> m = c' ++ r -> l = zlen c' -> clean b -> clean (set_mem b m l).
Proof.
  intros I Em -> -> C. unfold clean, set_mem in *. cbn [len mem]. rewrite Em in C. pose proof (len_content b I) as L.
  rewrite skipn_zlen in C by (unfold zlen in L; lia). rewrite skipn_zlen by (unfold zlen; lia). exact C.
Qed.
Lemma set_Chars_spec b i c : inv b ->
  match SB_set_Chars b i c with
  | Ret b' => exists a x z, content b = a ++ x :: z /\ i = zlen a /\ content b' = a ++ c :: z /\ inv b' /\ maxc b' = maxc b /\ cap b' = cap b /\ len b' = len b /\ (clean b -> clean b') /\ (terminated b -> terminated b')
  | Exn e => e = IndexOutOfRangeException /\ (i < 0 \/ len b <= i)
  | UB u => False
  end.
Proof.
  intros I. unfold SB_set_Chars, SB_Address. destruct ((i <? 0) || (len b <=? i)) eqn:E; cbn [throw_if bind]; [split; [reflexivity|lia]|].
  destruct (inv_split b I) as (r & Em & El & Nr & Lr). destruct (split_at (content b) i) as (a & t & Ec & La); [lia|].
  destruct t as [|x z]. { rewrite Ec, app_nil_r in El. lia. }
  assert (W : write (mem b) i c = Ret ((a ++ c :: z) ++ r)).
  { rewrite Em, Ec, <- !app_assoc. cbn [app]. apply write_app. lia. }
  rewrite W, bind_ret. destruct (inv_build b ((a ++ c :: z) ++ r) (len b) (a ++ c :: z) r I eq_refl) as (I2 & C2).
  - rewrite Em, Ec, !zlen_app, !zlen_cons. lia.
  - rewrite Ec, !zlen_app, !zlen_cons in *. lia.
  - exact Lr.
  - exists a, x, z. do 4 (split; [first [assumption | lia]|]). do 3 (split; [reflexivity|]). split.
    + apply clean_build with (c' := a ++ c :: z) (r := r); [exact I|exact Em|reflexivity|]. rewrite Ec, !zlen_app, !zlen_cons in *. lia.
    + intros T. eapply terminated_build; [reflexivity| |eapply terminated_split; [exact I|exact Em|exact T]]. rewrite Ec, !zlen_app, !zlen_cons in *. lia.
Qed.

Lemma replace_char_loop_spec old new w : forall a z i, i = zlen a ->
  replace_char_loop (a ++ w ++ z) old new i (length w) = Ret (a ++ map (fun x => if x =? old then new else x) w ++ z).
Proof.
  induction w as [|x w IH]; intros a z i ->; [reflexivity|]. cbn [replace_char_loop length map app].
  rewrite read_app by reflexivity. rewrite bind_ret.
  assert (E : (if x =? old then write (a ++ x :: w ++ z) (zlen a) new else Ret (a ++ x :: w ++ z)) = Ret ((a ++ [if x =? old then new else x]) ++ w ++ z)).
  { destruct (x =? old); [rewrite write_app by reflexivity|]; rewrite <- app_assoc; reflexivity. }
  rewrite E, bind_ret. rewrite IH by (rewrite zlen_app, zlen_cons, zlen_nil; lia). rewrite <- app_assoc. reflexivity.
Qed.
Lemma Replace_char_spec b old new i n : inv b ->
  match SB_Replace_char b old new i n with
  | Ret b' => 0 <= i /\ 0 <= n /\ i + n <= len b /\ inv b' /\
       content b' = firstn (Z.to_nat i) (content b) ++ map (fun x => if x =? old then new else x) (part (content b) i n) ++ skipn (Z.to_nat (i + n)) (content b) /\
       maxc b' = maxc b /\ cap b' = cap b /\ len b' = len b /\ (clean b -> clean b') /\ (terminated b -> terminated b')
  | Exn e => e = ArgumentOutOfRangeException /\ (i < 0 \/ n < 0 \/ len b < i + n)
  | UB u => False
  end.
Proof.
  intros I. pose proof (len_bound b I) as Bl. unfold SB_Replace_char.
  destruct ((i <? 0) || (len b <? i)) eqn:E1; cbn [throw_if bind].
  { split; [reflexivity|]. destruct (Z_lt_ge_dec n 0); lia. }
  destruct ((n <? 0) || (len b - n <? i)) eqn:E2; cbn [throw_if bind]; [split; [reflexivity|lia]|].
  destruct (inv_split b I) as (r & Em & El & Nr & Lr).
  destruct (split_at (content b) i) as (a & c' & Ec & La); [lia|].
  destruct (split_at c' n) as (w & z & Ec' & Lw). { apply (f_equal zlen) in Ec. rewrite zlen_app in Ec. lia. }
  assert (R : replace_char_loop (mem b) old new i (Z.to_nat n) = Ret (a ++ map (fun x => if x =? old then new else x) w ++ z ++ r)).
  { rewrite Em, Ec, Ec', <- !app_assoc. replace (Z.to_nat n) with (length w) by (unfold zlen in *; lia). apply replace_char_loop_spec. lia. }
  rewrite R, bind_ret. set (w' := map (fun x => if x =? old then new else x) w) in *.
  assert (Lw' : zlen w' = zlen w) by (unfold zlen, w'; rewrite map_length; reflexivity).
  destruct (inv_build b (a ++ w' ++ z ++ r) (len b) (a ++ w' ++ z) r I) as (I2 & C2).
  - rewrite <- !app_assoc. reflexivity.
  - rewrite Em, Ec, Ec', !zlen_app. lia.
  - rewrite Ec, Ec', !zlen_app in *. lia.
  - exact Lr.
  - do 3 (split; [lia|]). split; [exact I2|]. split; [|do 3 (split; [reflexivity|]); split].
    2:{ apply clean_build with (c' := a ++ w' ++ z) (r := r); [exact I|exact Em|rewrite <- !app_assoc; reflexivity|]. rewrite Ec, Ec', !zlen_app in *. lia. }
    2:{ intros T. eapply terminated_build with (c := a ++ w' ++ z); [rewrite <- !app_assoc; reflexivity| |eapply terminated_split; [exact I|exact Em|exact T]]. rewrite Ec, Ec', !zlen_app in *. lia. }
    rewrite C2, Ec, Ec'. unfold part. rewrite firstn_zlen, skipn_zlen by (unfold zlen in *; lia). rewrite firstn_zlen by (unfold zlen in *; lia).
    rewrite app_assoc with (l := a) (m := w). rewrite skipn_zlen by (rewrite app_length; unfold zlen in *; lia). reflexivity.
Qed.

Lemma memread_part (t : list Z) z i n : 0 <= i -> 0 <= n -> i + n <= zlen t -> memread (t ++ z) i n = Ret (part t i n).
Proof.
  intros Hi Hn H. destruct (split_at t i) as (a & t' & -> & La); [lia|]. rewrite zlen_app in H.
  destruct (split_at t' n) as (x & y & -> & Lx); [lia|]. rewrite <- !app_assoc. rewrite memread_app by lia.
  unfold part. rewrite skipn_zlen by (unfold zlen in *; lia). rewrite firstn_zlen by (unfold zlen in *; lia). reflexivity.
Qed.
Lemma memread_part0 (t : list Z) i n : 0 <= i -> 0 <= n -> i + n <= zlen t -> memread t i n = Ret (part t i n).
Proof. intros A B C. pose proof (memread_part t [] i n A B C) as H. rewrite app_nil_r in H. exact H. Qed.
Lemma zlen_part (t : list Z) i n : 0 <= i -> 0 <= n -> i + n <= zlen t -> zlen (part t i n) = n.
Proof. intros. unfold part, zlen in *. rewrite firstn_length, skipn_length. lia. Qed.

(** Appending at the end. *)
Definition grown (b : sb) (k : Z) (b' : sb) : Prop :=
  inv b' /\ maxc b' = maxc b /\ len b' = len b + k /\ cap b <= cap b' /\ (clean b -> clean b') /\ terminated b'.
Lemma Append_end_spec b vs i : inv b -> zlen vs <= 2147483647 -> i = -1 \/ i = len b ->
  match Append_at b vs i with
  | Ret b' => grown b (zlen vs) b' /\ content b' = content b ++ vs /\ len b' <= cap b'
  | Exn e => e = ArgumentOutOfRangeException /\ maxc b < len b + zlen vs
  | UB u => u = SignedOverflow /\ 2147483520 < len b + zlen vs
  end.
Proof.
  intros I Hv Hi. pose proof (len_bound b I) as Bl. pose proof (Append_at_spec b vs i I Hv ltac:(lia)) as S. cbv zeta in S.
  replace (if i =? -1 then len b else i) with (len b) in S by (destruct (i =? -1) eqn:E; lia).
  destruct (Append_at b vs i) as [b'|e|u].
  - destruct S as (_ & A & B & C & D & E & F & _ & G & T). split; [unfold grown; auto 10|]. split; [|exact E].
    rewrite B. pose proof (len_content b I) as L. rewrite firstn_all2, skipn_all2 by (unfold zlen in L; lia). rewrite app_nil_r. reflexivity.
  - destruct S as [(_ & S)|S]; [lia|]. destruct S as (-> & S). split; [reflexivity|lia].
  - exact S.
Qed.
Lemma AppendLine_never_throws b : inv b ->
  match AppendLine b with
  | Ret b' => grown b 2 b' /\ content b' = content b ++ [13; 10]
  | Exn e => False
  | UB u => u = OutOfBoundsWrite /\ cap b < len b + 2
  end.
Proof.
  intros I. unfold AppendLine. pose proof (Append_char_spec b 13 1 I) as S.
  assert (M : 1 <= maxc b <= 2147483647) by (destruct I as (_ & _ & _ & _ & _ & _ & M); exact M).
  destruct (Append_char b 13 1) as [b1|e|u]; cbn [bind].
  - destruct S as (_ & A & B & C & D & E & F & _). pose proof (Append_char_spec b1 10 1 A) as S.
    destruct (Append_char b1 10 1) as [b2|e|u].
    + destruct S as (_ & A' & B' & C' & D' & E' & F' & T'). split; [split; [exact A'|]; do 3 (split; [lia|]); split; [auto|exact T']|].
      rewrite B', B, <- app_assoc. reflexivity.
    + destruct S as (_ & S). lia.
    + destruct S as [(_ & S)|(-> & S)]; [lia|]. split; [reflexivity|lia].
  - destruct S as (_ & S). lia.
  - destruct S as [(_ & S)|(-> & S)]; [lia|]. split; [reflexivity|lia].
Qed.

Lemma put_in_nil s i : put_in i [] s = s.
Proof. unfold put_in. cbn [app]. apply firstn_skipn. Qed.
Lemma put_in_put_in s i t k : 0 <= i <= zlen s -> put_in i t (put_in i (copies k t) s) = put_in i (copies (S k) t) s.
Proof.
  intros H. unfold put_in, copies. destruct (split_at s i) as (a & z & -> & L); [exact H|].
  assert (E : Z.to_nat i = length a) by (clear H; unfold zlen in L; lia).
  rewrite (firstn_zlen a z), (skipn_zlen a z) by exact E. rewrite (firstn_zlen a), (skipn_zlen a) by exact E.
  cbn [repeat concat]. rewrite <- !app_assoc. reflexivity.
Qed.
Lemma zlen_put_in s i t : zlen (put_in i t s) = zlen s + zlen t.
Proof. unfold put_in. rewrite <- (firstn_skipn (Z.to_nat i) s) at 3. rewrite !zlen_app. lia. Qed.

Lemma insert_loop_spec t i n : zlen t <= 2147483647 -> 0 <= i -> t <> [] -> forall b k s, inv b -> content b = put_in i (copies k t) s -> i <= zlen s ->
  match insert_loop b i t n with
  | Ret (b', None) => inv b' /\ maxc b' = maxc b /\ content b' = put_in i (copies (n + k) t) s /\ cap b <= cap b'
  | Ret (b', Some e) => inv b' /\ maxc b' = maxc b /\ cap b <= cap b' /\ e = ArgumentOutOfRangeException /\
       exists j, (j < n)%nat /\ content b' = put_in i (copies (j + k) t) s /\ maxc b < len b' + zlen t
  | Exn e => False
  | UB u => u = SignedOverflow /\ exists j, (j < n)%nat /\ 2147483520 < zlen (put_in i (copies (j + k) t) s) + zlen t
  end.
Proof.
  intros Ht Hi Nt. induction n as [|n IH]; intros b k s I C Hs; cbn [insert_loop].
  - split; [exact I|]. split; [reflexivity|]. split; [exact C|lia].
  - unfold String_Address. assert (Pt : 1 <= zlen t). { destruct t; [contradiction|]. rewrite zlen_cons. pose proof (zlen_nonneg t). lia. }
    rewrite throw_if_false by lia. rewrite !bind_ret.
    pose proof (Append_at_spec b t i I Ht ltac:(lia)) as S. cbv zeta in S. replace (i =? -1) with false in S by lia.
    assert (Ls : zlen s <= len b). { rewrite <- (len_content b I), C, zlen_put_in. pose proof (zlen_nonneg (copies k t)). lia. }
    destruct (Append_at b t i) as [b1|e|u].
    + destruct S as (_ & A & B & M & D & _ & F & _). fold (put_in i t (content b)) in B. rewrite C in B. rewrite put_in_put_in in B by lia.
      specialize (IH b1 (S k) s A B Hs). destruct (insert_loop b1 i t n) as [[b' [e|]]|e|u].
      * destruct IH as (I1 & I2 & I3 & I4 & j & J1 & J2 & J3). rewrite M in *. do 2 (split; [assumption|]). split; [lia|]. split; [assumption|].
        exists (S j). split; [lia|]. replace (S j + k)%nat with (j + S k)%nat by lia. split; assumption.
      * destruct IH as (I1 & I2 & I3 & I4). replace (S n + k)%nat with (n + S k)%nat by lia. split; [exact I1|]. split; [congruence|]. split; [exact I3|lia].
      * exact IH.
      * destruct IH as (I1 & j & J1 & J2). split; [exact I1|]. exists (S j). split; [lia|]. replace (S j + k)%nat with (j + S k)%nat by lia. exact J2.
    + destruct S as [(_ & S)|(-> & _ & S & _)]; [lia|]. do 2 (split; [first [assumption|reflexivity]|]). split; [lia|]. split; [reflexivity|].
      exists 0%nat. split; [lia|]. split; [exact C|exact S].
    + destruct S as (-> & S). split; [reflexivity|]. exists 0%nat. split; [lia|]. cbn [plus]. rewrite <- C, (len_content b I). exact S.
Qed.
Lemma zlen_copies k t : zlen (copies k t) = Z.of_nat k * zlen t.
Proof.
  unfold copies. induction k as [|k IH]; [reflexivity|]. cbn [repeat concat]. rewrite zlen_app, IH. lia.
Qed.

(** ** One step *)
Theorem step_spec tol b o : inv b -> admissible o ->
  match step tol b o with
  | Ret (b', r) => inv b' /\ maxc b' = maxc b /\ behaves (maxc b) o (content b) r (content b')
  | Exn e => False
  | UB u => True
  end.
Proof.
  intros I A. pose proof (len_content b I) as Lc. pose proof (len_bound b I) as Bl. destruct o; cbn [admissible] in A; cbn [step].
  - (* AppendText *)
    unfold Append_value. pose proof (Append_end_spec b t (-1) I A ltac:(lia)) as S. destruct (Append_at b t (-1)) as [b'|e|u]; cbn [caught]; [| |trivial].
    + destruct S as ((S1 & S2 & _) & -> & _). repeat (split; [assumption|]). constructor.
    + destruct S as (-> & S). split; [exact I|]. split; [reflexivity|]. constructor. lia.
  - (* AppendString *)
    unfold Append_string. fold (window_count t count). set (n := window_count t count). assert (Hn : 0 <= n). { unfold n, window_count. pose proof (zlen_nonneg t). destruct (count <? 0) eqn:E; lia. }
    destruct (start <? 0) eqn:E1; cbn [throw_if bind caught]. { split; [exact I|]. split; [reflexivity|]. constructor. lia. }
    destruct (zlen t - n <? start) eqn:E2; cbn [throw_if bind caught]. { split; [exact I|]. split; [reflexivity|]. constructor. lia. }
    unfold buffer. rewrite memread_part by lia. rewrite bind_ret. assert (Lp : zlen (part t start n) = n) by (apply zlen_part; lia).
    pose proof (Append_end_spec b (part t start n) (-1) I ltac:(lia) ltac:(lia)) as S. destruct (Append_at b (part t start n) (-1)) as [b'|e|u]; cbn [caught]; [| |trivial].
    + destruct S as ((S1 & S2 & _) & -> & _). repeat (split; [assumption|]). constructor; fold n; lia.
    + destruct S as (-> & S). split; [exact I|]. split; [reflexivity|]. constructor. fold n. lia.
  - (* AppendArray *)
    unfold Append_array. fold (window_count t count). set (n := window_count t count). assert (Hn : 0 <= n). { unfold n, window_count. pose proof (zlen_nonneg t). destruct (count <? 0) eqn:E; lia. }
    replace (if start <? 0 then 0 else start) with (window_start start) by (unfold window_start; destruct (start <? 0) eqn:E; lia).
    assert (Hs : 0 <= window_start start) by (unfold window_start; lia). set (j := window_start start) in *.
    destruct (n =? 0) eqn:E0; cbn [caught].
    { split; [exact I|]. split; [reflexivity|]. pose proof (b_array (maxc b) t start count (content b)) as H. fold n j in H. replace n with 0 in H by lia.
      unfold part in H. cbn [Z.to_nat firstn] in H. rewrite app_nil_r in H. apply H. lia. }
    destruct (zlen t - j <? n) eqn:E1; cbn [throw_if bind caught]. { split; [exact I|]. split; [reflexivity|]. apply b_array_bad. fold n j. lia. }
    rewrite memread_part0 by lia. rewrite bind_ret. assert (Lp : zlen (part t j n) = n) by (apply zlen_part; lia).
    pose proof (Append_end_spec b (part t j n) (len b) I ltac:(lia) ltac:(lia)) as S. destruct (Append_at b (part t j n) (len b)) as [b'|e|u]; cbn [caught]; [| |trivial].
    + destruct S as ((S1 & S2 & _) & -> & _). repeat (split; [assumption|]). apply b_array. fold n j. lia.
    + destruct S as (-> & S). split; [exact I|]. split; [reflexivity|]. apply b_array_bad. fold n j. lia.
  - (* AppendChar *)
    pose proof (Append_char_spec b c n I) as S. destruct (Append_char b c n) as [b'|e|u]; cbn [caught]; [| |trivial].
    + destruct S as (S0 & S1 & S2 & S3 & _). rewrite S2. repeat (split; [assumption|]). constructor. exact S0.
    + destruct S as (-> & S). split; [exact I|]. split; [reflexivity|]. constructor. lia.
  - (* AppendLine *)
    pose proof (AppendLine_never_throws b I) as S. destruct (AppendLine b) as [b'|e|u]; cbn [caught]; [|contradiction|trivial].
    destruct S as ((S1 & S2 & _) & ->). repeat (split; [assumption|]). constructor.
  - (* AppendLine(String) *)
    unfold AppendLine_string, Append_string. change (if -1 <? 0 then zlen t else -1) with (zlen t). rewrite throw_if_false by reflexivity. rewrite bind_ret.
    rewrite throw_if_false by lia. rewrite bind_ret. pose proof (zlen_nonneg t) as Pt. unfold buffer. rewrite memread_part by lia. rewrite bind_ret.
    assert (P : part t 0 (zlen t) = t). { unfold part. cbn [Z.to_nat skipn]. apply firstn_all2. unfold zlen. lia. } rewrite P.
    pose proof (Append_end_spec b t (-1) I A ltac:(lia)) as S. destruct (Append_at b t (-1)) as [b1|e|u]; cbn [caught bind]; [| |trivial].
    + destruct S as ((S1 & S2 & _) & S3 & _). pose proof (AppendLine_never_throws b1 S1) as S. destruct (AppendLine b1) as [b'|e|u]; cbn [caught]; [|contradiction|trivial].
      destruct S as ((S1' & S2' & _) & ->). split; [exact S1'|]. split; [congruence|]. rewrite S3, <- app_assoc. constructor.
    + destruct S as (-> & S). split; [exact I|]. split; [reflexivity|]. constructor. lia.
  - (* Insert(String, count) *)
    destruct A as (Hi & A). unfold SB_Insert. destruct (Z_le_gt_dec count 0) as [L|G].
    { replace (Z.to_nat count) with 0%nat by lia. cbn [insert_loop]. split; [exact I|]. split; [reflexivity|]. constructor. exact L. }
    destruct t as [|c t].
    { replace (Z.to_nat count) with (S (Z.to_nat (count - 1))) by lia. cbn [insert_loop]. unfold String_Address. rewrite throw_if_true by reflexivity. cbn [bind].
      split; [exact I|]. split; [reflexivity|]. apply b_insert_bad; [lia|right; reflexivity]. }
    destruct (Z_le_gt_dec i (zlen (content b))) as [Li|Gi].
    + pose proof (insert_loop_spec (c :: t) i (Z.to_nat count) A Hi ltac:(discriminate) b 0 (content b) I) as S.
      specialize (S (eq_sym (put_in_nil (content b) i)) Li). destruct (insert_loop b i (c :: t) (Z.to_nat count)) as [[b' [e|]]|e|u]; [| |exact S|trivial].
      * destruct S as (S1 & S2 & S3 & -> & j & J1 & J2 & J3). rewrite Nat.add_0_r in J2. split; [exact S1|]. split; [exact S2|]. rewrite J2.
        apply b_insert_long; [exact J1|lia|discriminate|]. rewrite <- (len_content b' S1), J2, zlen_put_in, zlen_copies in J3. lia.
      * destruct S as (S1 & S2 & S3 & S4). rewrite Nat.add_0_r in S3. split; [exact S1|]. split; [exact S2|]. rewrite S3. apply b_insert; [lia|lia|discriminate].
    + replace (Z.to_nat count) with (S (Z.to_nat (count - 1))) by lia. cbn [insert_loop]. unfold String_Address.
      rewrite throw_if_false by (rewrite zlen_cons; pose proof (zlen_nonneg t); lia). rewrite !bind_ret.
      pose proof (Append_at_spec b (c :: t) i I A ltac:(lia)) as S. cbv zeta in S. replace (i =? -1) with false in S by lia.
      destruct (Append_at b (c :: t) i) as [b1|e|u]; [destruct S; lia| |trivial]. destruct S as [(-> & S)|(_ & S & _)]; [|lia].
      split; [exact I|]. split; [reflexivity|]. apply b_insert_bad; [lia|left; lia].
  - (* Insert(value) *)
    destruct A as (Hi & A). unfold SB_Insert_value, Append_value. pose proof (Append_at_spec b t i I A ltac:(lia)) as S. cbv zeta in S. replace (i =? -1) with false in S by lia.
    destruct (Append_at b t i) as [b'|e|u]; cbn [caught]; [| |trivial].
    + destruct S as (S0 & S1 & S2 & S3 & _). rewrite S2. repeat (split; [assumption|]). apply b_insert_text. lia.
    + destruct S as [(-> & S)|(-> & S1 & S2 & _)]; (split; [exact I|]); (split; [reflexivity|]); constructor; lia.
  - (* Insert(Array) *)
    destruct A as (Hi & A). unfold SB_Insert_array. fold (window_count t count). set (n := window_count t count). assert (Hn : 0 <= n). { unfold n, window_count. pose proof (zlen_nonneg t). destruct (count <? 0) eqn:E; lia. }
    replace (if start <? 0 then 0 else start) with (window_start start) by (unfold window_start; destruct (start <? 0) eqn:E; lia).
    assert (Hs : 0 <= window_start start) by (unfold window_start; lia). set (j := window_start start) in *.
    destruct (n =? 0) eqn:E0; cbn [caught]. { split; [exact I|]. split; [reflexivity|]. apply b_insert_array_none. fold n. lia. }
    destruct (zlen t - j <? n) eqn:E1; cbn [throw_if bind caught]. { split; [exact I|]. split; [reflexivity|]. apply b_insert_array_long. fold n j. lia. }
    rewrite memread_part0 by lia. rewrite bind_ret. assert (Lp : zlen (part t j n) = n) by (apply zlen_part; lia).
    pose proof (Append_at_spec b (part t j n) i I ltac:(lia) ltac:(lia)) as S. cbv zeta in S. replace (i =? -1) with false in S by lia.
    destruct (Append_at b (part t j n) i) as [b'|e|u]; cbn [caught]; [| |trivial].
    + destruct S as (S0 & S1 & S2 & S3 & _). rewrite S2. repeat (split; [assumption|]). apply b_insert_array; fold n j; lia.
    + destruct S as [(-> & S)|(-> & S1 & S2 & _)]; (split; [exact I|]); (split; [reflexivity|]).
      * apply b_insert_array_bad; fold n j; lia.
      * apply b_insert_array_long. fold n j. lia.
  - (* Remove *)
    pose proof (SB_Remove_spec tol b i n I) as S. destruct (SB_Remove tol b i n) as [b'|e|u]; cbn [caught]; [| |trivial].
    + destruct S as (A1 & A2 & A3 & S1 & S2 & S3 & _). rewrite S2. repeat (split; [assumption|]). constructor; lia.
    + destruct S as (-> & S). split; [exact I|]. split; [reflexivity|]. constructor. lia.
  - (* Clear *)
    unfold Clear. pose proof (set_Length_spec b 0 I) as S. destruct (set_Length b 0) as [b'|e|u]; cbn [caught]; [| |trivial].
    + destruct S as (_ & S1 & _ & S3 & S4 & _). rewrite S4 by lia. repeat (split; [assumption|]). constructor.
    + destruct S as (_ & S). destruct I as (_ & _ & _ & _ & _ & _ & M). lia.
  - (* set_Chars *)
    pose proof (set_Chars_spec b i c I) as S. destruct (SB_set_Chars b i c) as [b'|e|u]; cbn [caught]; [| |trivial].
    + destruct S as (a & x & z & E1 & E2 & E3 & S1 & S2 & _). rewrite E1, E3. repeat (split; [assumption|]). constructor. exact E2.
    + destruct S as (-> & S). split; [exact I|]. split; [reflexivity|]. constructor. lia.
  - (* Replace(Char) *)
    pose proof (Replace_char_spec b old new i n I) as S. destruct (SB_Replace_char b old new i n) as [b'|e|u]; cbn [caught]; [| |trivial].
    + destruct S as (A1 & A2 & A3 & S1 & S2 & S3 & _). rewrite S2. repeat (split; [assumption|]). constructor; lia.
    + destruct S as (-> & S). split; [exact I|]. split; [reflexivity|]. constructor. lia.
  - (* Replace(String) *)
    destruct A as (Ao & An). destruct old as [|c old].
    { assert (E : SB_Replace b (Some []) (Some new) i n = Exn ArgumentOutOfRangeException).
      { unfold SB_Replace. destruct ((i <? 0) || (len b <? i)); [reflexivity|]. cbn [throw_if bind]. destruct ((n <? 0) || (len b - n <? i)); reflexivity. }
      rewrite E. cbn [caught]. split; [exact I|]. split; [reflexivity|]. apply b_replace_bad. left. reflexivity. }
    destruct (SB_Replace_spec b (c :: old) new i n I ltac:(discriminate) Ao An) as (G & B).
    destruct (Z_lt_ge_dec i 0) as [X|X]. { rewrite B by lia. cbn [caught]. split; [exact I|]. split; [reflexivity|]. apply b_replace_bad. lia. }
    destruct (Z_lt_ge_dec n 0) as [Y|Y]. { rewrite B by lia. cbn [caught]. split; [exact I|]. split; [reflexivity|]. apply b_replace_bad. lia. }
    destruct (Z_lt_ge_dec (len b) (i + n)) as [W|W]. { rewrite B by lia. cbn [caught]. split; [exact I|]. split; [reflexivity|]. apply b_replace_bad. lia. }
    destruct (G ltac:(lia) ltac:(lia) ltac:(lia)) as (res & Hs & S). destruct (SB_Replace b (Some (c :: old)) (Some new) i n) as [b'|e|u]; cbn [caught]; [| |trivial].
    + destruct S as (S1 & S2 & S3 & _). rewrite S2. repeat (split; [assumption|]). apply b_replace; [discriminate|lia|lia|lia|exact Hs].
    + destruct S as (-> & S & _). split; [exact I|]. split; [reflexivity|]. eapply b_replace_long; [exact Hs|lia].
  - (* EnsureCapacity *)
    pose proof (EnsureCapacity_spec b n I) as S. destruct (EnsureCapacity b n) as [b'|e|u]; cbn [caught]; [| |trivial].
    + destruct S as (S1 & S2 & _ & S3 & S4 & _). rewrite S2. repeat (split; [assumption|]). constructor. lia.
    + destruct S as (-> & S). split; [exact I|]. split; [reflexivity|]. constructor. lia.
  - (* set_Capacity *)
    pose proof (set_Capacity_spec b n I) as S. destruct (set_Capacity b n) as [b'|e|u]; cbn [caught]; [| |trivial].
    + destruct S as (S1 & S2 & _ & S3 & S4 & S5 & _). rewrite S2. repeat (split; [assumption|]). constructor. lia.
    + destruct S as (-> & S). split; [exact I|]. split; [reflexivity|]. constructor.
  - (* set_Length *)
    pose proof (set_Length_spec b n I) as S. destruct (set_Length b n) as [b'|e|u]; cbn [caught]; [| |trivial].
    + destruct S as (S0 & S1 & S2 & S3 & S4 & S5 & _). split; [exact S1|]. split; [exact S3|]. destruct (Z_le_gt_dec n (len b)) as [L|G].
      * rewrite S4 by lia. apply b_len_cut. lia.
      * destruct (S5 ltac:(lia)) as (x & -> & Lx & _). apply b_len_grow; lia.
    + destruct S as (-> & S). split; [exact I|]. split; [reflexivity|]. constructor. lia.
Qed.

Lemma run_spec tol os : forall b b' rs, inv b -> Forall admissible os -> run tol b os = Ret (b', rs) ->
  inv b' /\ maxc b' = maxc b /\ history (maxc b) os (content b) rs (content b').
Proof.
  induction os as [|o os IH]; intros b b' rs I A H; cbn [run] in H.
  - injection H as <- <-. split; [exact I|]. split; [reflexivity|constructor].
  - inversion A as [|? ? Ao As]; subst. pose proof (step_spec tol b o I Ao) as S. destruct (step tol b o) as [[b1 r]|e|u]; cbn [bind] in H; [|contradiction|discriminate].
    destruct S as (I1 & M1 & B1). destruct (run tol b1 os) as [[b2 rs2]|e|u] eqn:E; cbn [bind] in H; [|discriminate|discriminate]. injection H as <- <-.
    destruct (IH _ _ _ I1 As E) as (I2 & M2 & H2). split; [exact I2|]. split; [congruence|]. rewrite M1 in H2. econstructor; eassumption.
Qed.

(** ** Construction and ToString *)
Lemma wcslen_some (m : list Z) : last m 1 = 0 -> exists n, wcslen m = Ret n /\ 0 <= n < zlen m.
Proof.
  induction m as [|c m IH]; intros H; [cbn in H; discriminate|]. cbn [wcslen]. rewrite zlen_cons. pose proof (zlen_nonneg m).
  destruct (c =? 0) eqn:E; [exists 0; split; [reflexivity|lia]|]. destruct m as [|d m]; [cbn in H; lia|]. cbn [last] in H.
  destruct (IH H) as (n & -> & Hn). exists (n + 1). split; [reflexivity|lia].
Qed.
Lemma ToString_spec b : inv b -> SB_ToString b = Ret (content b).
Proof.
  intros I. destruct (inv_split b I) as (r & Em & El & _). pose proof (len_bound b I) as Bl. destruct I as (H1 & H2 & H3 & _).
  unfold SB_ToString, String_from. replace (len b <? 0) with false by lia. rewrite bind_ret. destruct (wcslen_some _ H3) as (n & -> & Hn). rewrite bind_ret.
  rewrite throw_if_false by lia. rewrite bind_ret. rewrite i32_ret by lia. rewrite bind_ret. rewrite Em. apply (memread_app []); [reflexivity|lia].
Qed.
Lemma SB_new_spec c mx : mx <= 2147483647 ->
  match SB_new c mx with
  | Ret b => inv b /\ content b = [] /\ maxc b = mx /\ len b = 0 /\ clean b /\ c <= cap b /\ 0 <= c <= mx /\ 1 <= mx
  | Exn e => e = ArgumentOutOfRangeException /\ (c < 0 \/ mx < c \/ mx < 1)
  | UB u => u = SignedOverflow /\ 2147483520 < c
  end.
Proof.
  intros Hm. unfold SB_new. destruct (mx <? c) eqn:E1; cbn [throw_if bind]; [split; [reflexivity|lia]|].
  destruct (mx <? 1) eqn:E2; cbn [throw_if bind]; [split; [reflexivity|lia]|]. destruct (c <? 0) eqn:E3; cbn [throw_if bind]; [split; [reflexivity|lia]|].
  set (b0 := mk_sb (internal Initialize) (mem Initialize) (cap Initialize) (len Initialize) mx).
  assert (I0 : inv b0). { pose proof inv_Initialize as (H1 & H2 & H3 & H4 & H5 & H6 & H7). unfold inv, b0. cbn [len mem cap maxc internal] in *. repeat split; try assumption; try lia. }
  set (c' := if c =? 0 then Z.min DefaultCapacity mx else c). assert (Hc : 0 <= c <= c' /\ c' <= mx /\ (c' = c \/ c' <= 128)). { unfold c', DefaultCapacity. destruct (c =? 0) eqn:E; lia. }
  pose proof (set_Capacity_spec b0 c' I0) as S. assert (L0 : len b0 = 0) by reflexivity. assert (K0 : content b0 = []) by reflexivity. assert (X0 : maxc b0 = mx) by reflexivity.
  assert (N0 : internal b0 = true) by reflexivity. assert (Z0 : Forall (fun z => z = 0) (mem b0)) by (apply Forall_forall; intros z Hz; apply (repeat_spec 129) in Hz; exact Hz).
  destruct (set_Capacity b0 c') as [b|e|u].
  - destruct S as (A & B & C & D & E & F & G & k & K1 & K2). rewrite K0 in *. split; [exact A|]. split; [exact B|]. split; [exact D|]. split; [lia|]. split; [|lia].
    unfold clean. rewrite C, L0. cbn [Z.to_nat skipn]. cbn [app] in K1. destruct K2 as [(_ & ->)|(_ & K2)]; [exact Z0|]. rewrite K1. exact K2.
  - destruct S as (-> & S). split; [reflexivity|]. rewrite X0, N0 in S. destruct S as [S|[S|(S & _)]]; [lia|lia|discriminate].
  - destruct S as (-> & S). split; [reflexivity|]. rewrite X0 in S. lia.
Qed.
Lemma SB_from_spec s i n c : zlen s <= 2147483647 -> c <= 2147483647 ->
  match SB_from (Some s) i n c with
  | Ret b => inv b /\ 0 <= i < zlen s /\ 0 <= n /\ i + n <= zlen s /\ content b = part s i n /\ maxc b = 2147483647 /\ len b <= cap b /\ clean b /\ c <= cap b
  | Exn e => e = ArgumentOutOfRangeException /\ (c < 0 \/ n < 0 \/ i < 0 \/ zlen s < i + n) \/ e = IndexOutOfRangeException /\ i = zlen s /\ n = 0
  | UB u => u = SignedOverflow /\ 2147483520 < Z.max c n
  end.
Proof.
  intros Hs Hc0. unfold SB_from. destruct (c <? 0) eqn:E1; cbn [throw_if bind]; [left; split; [reflexivity|lia]|].
  destruct (n <? 0) eqn:E2; cbn [throw_if bind]; [left; split; [reflexivity|lia]|]. destruct (i <? 0) eqn:E3; cbn [throw_if bind]; [left; split; [reflexivity|lia]|].
  destruct (zlen s - n <? i) eqn:E4; cbn [throw_if bind]; [left; split; [reflexivity|lia]|].
  set (c' := if c =? 0 then DefaultCapacity else c). pose proof (set_Capacity_spec Initialize (Z.max c' n) inv_Initialize) as S.
  assert (Hc : 0 <= c <= c' /\ (c' = c \/ c' = 128)). { unfold c', DefaultCapacity. destruct (c =? 0) eqn:E; lia. }
  destruct (set_Capacity Initialize (Z.max c' n)) as [b|e|u]; cbn [bind].
  - destruct S as (A & B & C & D & E & F & G & k & K1 & K2). change (content Initialize) with (@nil Z) in *. change (len Initialize) with 0 in *.
    unfold String_Address. destruct ((i <? 0) || (zlen s <=? i)) eqn:E5; cbn [throw_if bind]; [right; split; [reflexivity|lia]|].
    pose proof (room b A) as Rm. unfold memcpy. rewrite E2. unfold buffer. rewrite memread_part by lia. rewrite bind_ret.
    assert (Lp : zlen (part s i n) = n) by (apply zlen_part; lia).
    destruct (split_at (mem b) n) as (x & y & Em & Lx); [lia|].
    rewrite Em. rewrite (memwrite_app [] x y (part s i n)) by (try reflexivity; lia). rewrite bind_ret. cbn [app].
    assert (Ny : y <> []). { intros ->. rewrite app_nil_r in Em. rewrite Em in Rm. lia. }
    destruct (inv_build b (part s i n ++ y) n (part s i n) y A eq_refl) as (I2 & C2).
    + rewrite Em, !zlen_app. lia.
    + lia.
    + destruct A as (_ & _ & A & _). rewrite <- A, Em. rewrite last_app by exact Ny. reflexivity.
    + split; [exact I2|]. do 3 (split; [lia|]). split; [exact C2|]. split; [exact D|]. split; [cbn [set_mem len cap]; lia|]. split; [|cbn [set_mem cap]; lia].
      assert (Z0 : Forall (fun z => z = 0) (mem b)).
      { destruct K2 as [(_ & ->)|(_ & K2)]; [|rewrite K1; exact K2]. apply Forall_forall. intros z Hz. apply (repeat_spec 129) in Hz. exact Hz. }
      rewrite Em in Z0. apply Forall_app in Z0. unfold clean, set_mem. cbn [len mem]. rewrite skipn_zlen by (clear - Lp E2; unfold zlen in *; lia). apply Z0.
  - destruct S as (-> & S). exfalso. change (maxc Initialize) with 2147483647 in S. change (internal Initialize) with true in S.
    destruct S as [S|[S|(S & _)]]; [lia|lia|discriminate].
  - destruct S as (-> & S). split; [reflexivity|]. lia.
Qed.

(** ** When an operation is free of undefined behaviour *)
Definition roomy (tol : bool) (b : sb) (o : op) : Prop :=
  match o with
  | AppendText t | AppendString t _ _ | AppendArray t _ _ | InsertText _ t | InsertArray _ t _ _ => len b + zlen t <= 2147483520
  | AppendChar _ n => n <= 2147483520 /\ len b + n <= cap b
  | AppendNewLine => len b + 2 <= cap b
  | AppendStringLine t => len b + zlen t + 2 <= cap b
  | InsertString _ t n => len b + n * zlen t <= 2147483520
  | RemoveChars i n => tol = true \/ len b - i - n <= n
  | ReplaceString o c i n => forall r, substituted o c (part (content b) i n) r -> len b - n + zlen r <= 2147483520
  | EnsureCap n | SetCap n | SetLen n => n <= 2147483520
  | ClearAll | SetChar _ _ | ReplaceChar _ _ _ _ => True
  end.

Theorem step_progress tol b o : inv b -> admissible o -> roomy tol b o -> exists b' r, step tol b o = Ret (b', r).
Proof.
  intros I A R. pose proof (len_content b I) as Lc. pose proof (len_bound b I) as Bl.
  assert (Bc : cap b <= 2147483520) by (destruct I as (_ & _ & _ & _ & H & _); lia).
  assert (C : forall m, (forall u, m <> UB u) -> exists b' r, caught b m = Ret (b', r)).
  { intros m H. destruct m; cbn [caught]; [eexists; eexists; reflexivity|eexists; eexists; reflexivity|elim (H u); reflexivity]. }
  assert (AE : forall vs i, zlen vs <= 2147483647 -> i = -1 \/ i = len b -> len b + zlen vs <= 2147483520 -> forall u, Append_at b vs i <> UB u).
  { intros vs i Hv Hi Hl u E. pose proof (Append_end_spec b vs i I Hv Hi) as S. rewrite E in S. lia. }
  assert (AI : forall vs i, zlen vs <= 2147483647 -> 0 <= i -> len b + zlen vs <= 2147483520 -> forall u, Append_at b vs i <> UB u).
  { intros vs i Hv Hi Hl u E. pose proof (Append_at_spec b vs i I Hv ltac:(lia)) as S. cbv zeta in S. rewrite E in S. lia. }
  destruct o; cbn [admissible roomy] in *; cbn [step]; try apply C.
  - apply AE; lia.
  - intros u. unfold Append_string. fold (window_count t count). set (n := window_count t count). assert (Hn : 0 <= n). { unfold n, window_count. pose proof (zlen_nonneg t). destruct (count <? 0) eqn:E; lia. }
    destruct (start <? 0) eqn:E1; cbn [throw_if bind]; [discriminate|]. destruct (zlen t - n <? start) eqn:E2; cbn [throw_if bind]; [discriminate|].
    unfold buffer. rewrite memread_part by lia. rewrite bind_ret. apply AE; rewrite ?zlen_part by lia; lia.
  - intros u. unfold Append_array. fold (window_count t count). set (n := window_count t count). assert (Hn : 0 <= n). { unfold n, window_count. pose proof (zlen_nonneg t). destruct (count <? 0) eqn:E; lia. }
    assert (Hs : 0 <= (if start <? 0 then 0 else start)) by (destruct (start <? 0) eqn:E; lia). set (j := if start <? 0 then 0 else start) in *.
    destruct (n =? 0) eqn:E0; [discriminate|]. destruct (zlen t - j <? n) eqn:E2; cbn [throw_if bind]; [discriminate|].
    rewrite memread_part0 by lia. rewrite bind_ret. apply AE; rewrite ?zlen_part by lia; lia.
  - intros u E. pose proof (Append_char_spec b c n I) as S. rewrite E in S. lia.
  - intros u E. pose proof (AppendLine_never_throws b I) as S. rewrite E in S. lia.
  - intros u. unfold AppendLine_string, Append_string. change (if -1 <? 0 then zlen t else -1) with (zlen t). rewrite throw_if_false by reflexivity. rewrite bind_ret.
    rewrite throw_if_false by lia. rewrite bind_ret. pose proof (zlen_nonneg t) as Pt. unfold buffer. rewrite memread_part by lia. rewrite bind_ret.
    assert (P : part t 0 (zlen t) = t). { unfold part. cbn [Z.to_nat skipn]. apply firstn_all2. unfold zlen. lia. } rewrite P.
    pose proof (Append_end_spec b t (-1) I A ltac:(lia)) as S. destruct (Append_at b t (-1)) as [b1|e|u1]; cbn [bind]; [|discriminate|lia].
    destruct S as ((S1 & S2 & S3 & S4 & _) & _). intros E. pose proof (AppendLine_never_throws b1 S1) as S. rewrite E in S. lia.
  - destruct A as (Hi & A). unfold SB_Insert. destruct t as [|c t].
    { destruct (Z.to_nat count); cbn [insert_loop]; eexists; eexists; reflexivity. }
    assert (Pt : 1 <= zlen (c :: t)) by (rewrite zlen_cons; pose proof (zlen_nonneg t); lia).
    destruct (Z_le_gt_dec i (zlen (content b))) as [Li|Gi].
    + pose proof (insert_loop_spec (c :: t) i (Z.to_nat count) A Hi ltac:(discriminate) b 0 (content b) I (eq_sym (put_in_nil (content b) i)) Li) as S.
      destruct (insert_loop b i (c :: t) (Z.to_nat count)) as [[b' r]|e|u]; [eexists; eexists; reflexivity|contradiction|].
      destruct S as (_ & j & J1 & J2). rewrite Nat.add_0_r, zlen_put_in, zlen_copies in J2. exfalso. set (q := zlen (c :: t)) in *.
      assert ((Z.of_nat j + 1) * q <= count * q) by (apply Z.mul_le_mono_nonneg_r; lia). lia.
    + destruct (Z.to_nat count) as [|k] eqn:Ek; cbn [insert_loop]; [eexists; eexists; reflexivity|].
      unfold String_Address. rewrite throw_if_false by lia. rewrite !bind_ret.
      assert (E : Append_at b (c :: t) i = Exn IndexOutOfRangeException).
      { unfold Append_at. replace (i =? -1) with false by lia. rewrite throw_if_true by lia. reflexivity. }
      rewrite E. eexists; eexists; reflexivity.
  - unfold SB_Insert_value, Append_value. apply AI; lia.
  - intros u. unfold SB_Insert_array. fold (window_count t count). set (n := window_count t count). assert (Hn : 0 <= n). { unfold n, window_count. pose proof (zlen_nonneg t). destruct (count <? 0) eqn:E; lia. }
    assert (Hs : 0 <= (if start <? 0 then 0 else start)) by (destruct (start <? 0) eqn:E; lia). set (j := if start <? 0 then 0 else start) in *.
    destruct (n =? 0) eqn:E0; [discriminate|]. destruct (zlen t - j <? n) eqn:E2; cbn [throw_if bind]; [discriminate|].
    rewrite memread_part0 by lia. rewrite bind_ret. apply AI; rewrite ?zlen_part by lia; lia.
  - intros u E. pose proof (SB_Remove_spec tol b i n I) as S. rewrite E in S. destruct S as (S1 & S2 & S3). destruct R as [R|R]; [congruence|lia].
  - intros u E. unfold Clear in E. pose proof (set_Length_spec b 0 I) as S. rewrite E in S. lia.
  - intros u E. pose proof (set_Chars_spec b i c I) as S. rewrite E in S. exact S.
  - intros u E. pose proof (Replace_char_spec b old new i n I) as S. rewrite E in S. exact S.
  - intros u E. destruct A as (Ao & An). destruct old as [|c old].
    { unfold SB_Replace in E. destruct ((i <? 0) || (len b <? i)); [discriminate|]. cbn [throw_if bind] in E. destruct ((n <? 0) || (len b - n <? i)); discriminate. }
    destruct (SB_Replace_spec b (c :: old) new i n I ltac:(discriminate) Ao An) as (G & B).
    destruct (Z_lt_ge_dec i 0) as [X|X]; [rewrite B in E by lia; discriminate|].
    destruct (Z_lt_ge_dec n 0) as [Y|Y]; [rewrite B in E by lia; discriminate|].
    destruct (Z_lt_ge_dec (len b) (i + n)) as [W|W]; [rewrite B in E by lia; discriminate|].
    destruct (G ltac:(lia) ltac:(lia) ltac:(lia)) as (res & Hs & S). rewrite E in S. specialize (R res Hs). lia.
  - intros u E. pose proof (EnsureCapacity_spec b n I) as S. rewrite E in S. lia.
  - intros u E. pose proof (set_Capacity_spec b n I) as S. rewrite E in S. lia.
  - intros u E. pose proof (set_Length_spec b n I) as S. rewrite E in S. lia.
Qed.

(** ** Capacity only grows, except through set_Capacity *)
Definition grows (b b' : sb) : Prop := maxc b' = maxc b /\ cap b <= cap b' /\ (cap b' = cap b \/ cap b' <= maxc b + 127).
Lemma grows_refl b : grows b b.
Proof. unfold grows. lia. Qed.
Lemma grows_trans b1 b2 b3 : grows b1 b2 -> grows b2 b3 -> grows b1 b3.
Proof. unfold grows. lia. Qed.
Lemma grows_mem b b' m l : grows b b' -> grows b (set_mem b' m l).
Proof. intros H. exact H. Qed.
Lemma set_Capacity_grows b c b' : cap b < c -> set_Capacity b c = Ret b' -> grows b b'.
Proof.
  intros L. unfold set_Capacity. destruct (c <? 0) eqn:E1; cbn [throw_if bind]; [discriminate|].
  destruct (maxc b <? c) eqn:E2; cbn [throw_if bind]; [discriminate|].
  destruct (negb (internal b) && (c <? cap b)) eqn:E3; cbn [throw_if bind]; [discriminate|].
  replace (c <=? cap b) with false by lia. unfold DefaultCapacity. destruct (128 <? c) eqn:E4.
  - rewrite Z.quot_div_nonneg, Z.rem_mod_nonneg by lia. destruct (0 <? c mod 128) eqn:E5.
    + unfold i32. destruct (in_i32 (c / 128 * 128 + 128)); cbn [bind]; [|discriminate]. destruct (in_i32 (c / 128 * 128 + 128 + 1)); cbn [bind]; [|discriminate].
      destruct (memcpy _ _ _ _ _); cbn [bind]; [|discriminate|discriminate]. intros H. injection H as <-. unfold grows. cbn [cap maxc]. lia.
    + cbn [bind]. unfold i32. destruct (in_i32 (c / 128 * 128 + 1)); cbn [bind]; [|discriminate].
      destruct (memcpy _ _ _ _ _); cbn [bind]; [|discriminate|discriminate]. intros H. injection H as <-. unfold grows. cbn [cap maxc]. lia.
  - intros H. injection H as <-. unfold grows. cbn [cap maxc]. lia.
Qed.
Lemma EnsureCapacity_grows b c b' : EnsureCapacity b c = Ret b' -> grows b b'.
Proof.
  unfold EnsureCapacity. destruct (c <? 0); cbn [throw_if bind]; [discriminate|]. destruct (cap b <? c) eqn:E.
  - apply set_Capacity_grows. lia.
  - intros H. injection H as <-. apply grows_refl.
Qed.
Lemma EnsureRoomFor_grows b n b' : EnsureRoomFor b n = Ret b' -> grows b b'.
Proof. unfold EnsureRoomFor, i32. destruct (in_i32 (len b + n)); cbn [bind]; [|discriminate]. apply EnsureCapacity_grows. Qed.

(** Decompose [m = Ret x] where [m] is a chain of binds. *)
Ltac run_inv H :=
  repeat first
    [ discriminate H
    | match type of H with
      | bind ?m _ = Ret _ => let E := fresh "E" in destruct m eqn:E; cbn [bind] in H; [|discriminate H|discriminate H]
      | (if ?c then _ else _) = Ret _ => let E := fresh "C" in destruct c eqn:E
      | (let '(_, _) := ?p in _) = Ret _ => destruct p
      end ];
  try injection H as <-.
Lemma Append_at_grows b vs i b' : Append_at b vs i = Ret b' -> grows b b'.
Proof.
  unfold Append_at. intros H. run_inv H. apply grows_mem. eapply EnsureRoomFor_grows. eassumption.
Qed.
Lemma Append_char_grows b c n b' : Append_char b c n = Ret b' -> grows b b'.
Proof.
  unfold Append_char. intros H. run_inv H. apply grows_mem. eapply EnsureCapacity_grows. eassumption.
Qed.
Lemma Append_string_grows b s i n b' : Append_string b s i n = Ret b' -> grows b b'.
Proof. unfold Append_string. destruct s; intros H; run_inv H; eapply Append_at_grows; eassumption. Qed.
Lemma AppendLine_grows b b' : AppendLine b = Ret b' -> grows b b'.
Proof. unfold AppendLine. intros H. run_inv H. eapply grows_trans; eapply Append_char_grows; eassumption. Qed.
Lemma insert_loop_grows i s n : forall b b' r, insert_loop b i s n = Ret (b', r) -> grows b b'.
Proof.
  induction n as [|n IH]; intros b b' r H; cbn [insert_loop] in H; [injection H as <- <-; apply grows_refl|].
  destruct (String_Address s 0) as [a|e|u]; cbn [bind] in H.
  - destruct (Append_at b s i) as [b1|e|u] eqn:E; [|injection H as <- <-; apply grows_refl|discriminate].
    eapply grows_trans; [eapply Append_at_grows; exact E|eapply IH; exact H].
  - injection H as <- <-. apply grows_refl.
  - discriminate.
Qed.
Lemma step_grows tol b o b' r : (forall n, o <> SetCap n) -> step tol b o = Ret (b', r) -> grows b b'.
Proof.
  intros N. assert (C : forall m, (forall b', m = Ret b' -> grows b b') -> caught b m = Ret (b', r) -> grows b b').
  { intros m Hm H. destruct m; cbn [caught] in H; [|injection H as <- <-; apply grows_refl|discriminate]. injection H as <- <-. apply Hm. reflexivity. }
  destruct o; cbn [step]; try apply C; clear C.
  - intros b0 H. unfold SB_Insert_value, Append_value in H. eapply Append_at_grows; exact H.
  - intros b0 H. eapply Append_string_grows; exact H.
  - intros b0 H. unfold Append_array in H. cbv zeta in H. run_inv H; first [apply grows_refl | eapply Append_at_grows; eassumption].
  - intros b0 H. eapply Append_char_grows; exact H.
  - intros b0 H. eapply AppendLine_grows; exact H.
  - intros b0 H. unfold AppendLine_string in H. run_inv H. eapply grows_trans; [eapply Append_string_grows; eassumption|eapply AppendLine_grows; eassumption].
  - intros H. eapply insert_loop_grows. exact H.
  - intros b0 H. unfold SB_Insert_value, Append_value in H. eapply Append_at_grows; exact H.
  - intros b0 H. unfold SB_Insert_array in H. cbv zeta in H. run_inv H; first [apply grows_refl | eapply Append_at_grows; eassumption].
  - intros b0 H. unfold SB_Remove in H. cbv zeta in H. run_inv H. apply grows_mem, grows_refl.
  - intros b0 H. unfold Clear, set_Length in H. change (0 =? 0) with true in H. run_inv H. apply grows_mem, grows_refl.
  - intros b0 H. unfold SB_set_Chars in H. run_inv H. apply grows_mem, grows_refl.
  - intros b0 H. unfold SB_Replace_char in H. run_inv H. apply grows_mem, grows_refl.
  - intros b0 H. unfold SB_Replace, ReplaceSubString in H. run_inv H; try apply grows_refl.
    apply grows_mem. match goal with E : _ = Ret ?x |- grows b ?x => run_inv E end; first [apply grows_refl | eapply EnsureRoomFor_grows; eassumption].
  - intros b0 H. eapply EnsureCapacity_grows; exact H.
  - elim (N n). reflexivity.
  - intros b0 H. unfold set_Length in H. run_inv H; try (apply grows_mem); first [apply grows_refl | eapply EnsureCapacity_grows; eassumption].
Qed.

(** ** Terminator and zero fill over histories *)
Definition keeps_terminated (b : sb) (o : op) : Prop := match o with SetLen n => n <= len b | _ => True end.
Definition keeps_clean (o : op) : Prop := match o with RemoveChars _ _ | ReplaceString _ _ _ _ => False | _ => True end.

Lemma Append_at_both b vs i b' : inv b -> zlen vs <= 2147483647 -> -1 <= i -> Append_at b vs i = Ret b' -> inv b' /\ (clean b -> clean b') /\ terminated b'.
Proof. intros I Hv Hi E. pose proof (Append_at_spec b vs i I Hv Hi) as S. cbv zeta in S. rewrite E in S. tauto. Qed.
Lemma Append_tail b vs i b' : inv b -> zlen vs <= 2147483647 -> -1 <= i -> Append_at b vs i = Ret b' -> (clean b -> clean b') /\ terminated b'.
Proof. intros I Hv Hi E. apply (Append_at_both b vs i b' I Hv Hi E). Qed.
Lemma insert_loop_both t i n : zlen t <= 2147483647 -> 0 <= i -> forall b b' r, inv b -> insert_loop b i t n = Ret (b', r) -> (clean b -> clean b') /\ (terminated b -> terminated b').
Proof.
  intros Ht Hi. induction n as [|n IH]; intros b b' r I H; cbn [insert_loop] in H; [injection H as <- <-; auto|].
  destruct (String_Address t 0) as [a|e|u]; cbn [bind] in H; [|injection H as <- <-; auto|discriminate].
  destruct (Append_at b t i) as [b1|e|u] eqn:E; [|injection H as <- <-; auto|discriminate].
  destruct (Append_at_both b t i b1 I Ht ltac:(lia) E) as (I1 & C1 & T1). destruct (IH b1 b' r I1 H) as (C2 & T2). auto.
Qed.
Lemma same_tail b b' : inv b -> inv b' -> content b' = content b -> len b' = len b ->
  (exists k, mem b' = content b ++ k /\ (internal b' = internal b /\ mem b' = mem b \/ internal b' = false /\ Forall (fun z => z = 0) k)) ->
  (clean b -> clean b') /\ (terminated b -> terminated b').
Proof.
  intros I I' C L (k & Ek & [(_ & E)|(_ & F)]); unfold clean, terminated; rewrite L.
  - rewrite E. auto.
  - pose proof (len_content b I) as Lc. rewrite Ek. rewrite skipn_zlen by (unfold zlen in Lc; lia). split; [auto|]. intros _.
    destruct (inv_split b' I') as (r & Er & _ & Nr & _). rewrite C, Ek in Er. apply app_inv_head in Er. subst r. destruct k; [contradiction|]. inversion F; subst. reflexivity.
Qed.
Lemma step_both tol b o b' r : inv b -> admissible o -> 0 < cap b -> step tol b o = Ret (b', r) ->
  (keeps_terminated b o -> terminated b -> terminated b') /\ (keeps_clean o -> len b <= cap b -> clean b -> clean b').
Proof.
  intros I A Hc. pose proof (len_bound b I) as Bl.
  assert (C : forall m, (forall b1, m = Ret b1 -> (keeps_terminated b o -> terminated b -> terminated b1) /\ (keeps_clean o -> len b <= cap b -> clean b -> clean b1)) ->
     caught b m = Ret (b', r) -> (keeps_terminated b o -> terminated b -> terminated b') /\ (keeps_clean o -> len b <= cap b -> clean b -> clean b')).
  { intros m Hm H. destruct m; cbn [caught] in H; [|injection H as <- <-; tauto|discriminate]. injection H as <- <-. apply Hm. reflexivity. }
  assert (W : forall b1, (clean b -> clean b1) /\ terminated b1 -> (keeps_terminated b o -> terminated b -> terminated b1) /\ (keeps_clean o -> len b <= cap b -> clean b -> clean b1)) by (intros; tauto).
  assert (W2 : forall b1, (clean b -> clean b1) /\ (terminated b -> terminated b1) -> (keeps_terminated b o -> terminated b -> terminated b1) /\ (keeps_clean o -> len b <= cap b -> clean b -> clean b1)) by (intros; tauto).
  destruct o; cbn [admissible] in A; cbn [step]; try apply C; clear C.
  - intros b0 H. apply W. unfold Append_value in H. eapply Append_tail; [exact I|exact A| |exact H]. lia.
  - intros b0 H. unfold Append_string in H. fold (window_count t count) in H. cbv zeta in H.
    assert (Hn : 0 <= window_count t count). { unfold window_count. pose proof (zlen_nonneg t). destruct (count <? 0) eqn:E; lia. } set (n := window_count t count) in *. clearbody n.
    destruct (start <? 0) eqn:E1; cbn [throw_if bind] in H; [discriminate|]. destruct (zlen t - n <? start) eqn:E2; cbn [throw_if bind] in H; [discriminate|].
    unfold buffer in H. rewrite memread_part in H by lia. rewrite bind_ret in H. apply W. eapply Append_tail; [exact I| | |exact H]; [rewrite zlen_part by lia|]; lia.
  - intros b0 H. unfold Append_array in H. fold (window_count t count) in H. cbv zeta in H.
    assert (Hn : 0 <= window_count t count). { unfold window_count. pose proof (zlen_nonneg t). destruct (count <? 0) eqn:E; lia. } set (n := window_count t count) in *. clearbody n.
    assert (Hs : 0 <= (if start <? 0 then 0 else start)) by (destruct (start <? 0) eqn:E; lia). set (j := if start <? 0 then 0 else start) in *. clearbody j.
    destruct (n =? 0) eqn:E0; [injection H as <-; apply W2; tauto|]. destruct (zlen t - j <? n) eqn:E2; cbn [throw_if bind] in H; [discriminate|].
    rewrite memread_part0 in H by lia. rewrite bind_ret in H. apply W. eapply Append_tail; [exact I| | |exact H]; [rewrite zlen_part by lia|]; lia.
  - intros b0 H. apply W. pose proof (Append_char_spec b c n I) as S. rewrite H in S. tauto.
  - intros b0 H. apply W. pose proof (AppendLine_never_throws b I) as S. rewrite H in S. unfold grown in S. tauto.
  - intros b0 H. unfold AppendLine_string in H. destruct (Append_string b (Some t) 0 (-1)) as [b1|e|u] eqn:E; cbn [bind] in H; [|discriminate|discriminate].
    unfold Append_string in E. change (if -1 <? 0 then zlen t else -1) with (zlen t) in E. rewrite throw_if_false, bind_ret in E by reflexivity.
    rewrite throw_if_false, bind_ret in E by lia. pose proof (zlen_nonneg t) as Pt. unfold buffer in E. rewrite memread_part in E by lia. rewrite bind_ret in E.
    assert (Lp : zlen (part t 0 (zlen t)) <= 2147483647) by (rewrite zlen_part by lia; lia).
    destruct (Append_at_both b (part t 0 (zlen t)) (-1) b1 I Lp ltac:(lia) E) as (I1 & C1 & T1).
    pose proof (AppendLine_never_throws b1 I1) as S. rewrite H in S. unfold grown in S. apply W. tauto.
  - intros H. apply W2. unfold SB_Insert in H. eapply insert_loop_both; [| |exact I|exact H]; lia.
  - intros b0 H. apply W. unfold SB_Insert_value, Append_value in H. eapply Append_tail; [exact I| | |exact H]; lia.
  - intros b0 H. unfold SB_Insert_array in H. fold (window_count t count) in H. cbv zeta in H.
    assert (Hn : 0 <= window_count t count). { unfold window_count. pose proof (zlen_nonneg t). destruct (count <? 0) eqn:E; lia. } set (n := window_count t count) in *. clearbody n.
    assert (Hs : 0 <= (if start <? 0 then 0 else start)) by (destruct (start <? 0) eqn:E; lia). set (j := if start <? 0 then 0 else start) in *. clearbody j.
    destruct (n =? 0) eqn:E0; [injection H as <-; apply W2; tauto|]. destruct (zlen t - j <? n) eqn:E2; cbn [throw_if bind] in H; [discriminate|].
    rewrite memread_part0 in H by lia. rewrite bind_ret in H. apply W. eapply Append_tail; [exact I| | |exact H]; [rewrite zlen_part by lia|]; lia.
  - intros b0 H. pose proof (SB_Remove_spec tol b i n I) as S. rewrite H in S. split; [tauto|intros []].
  - intros b0 H. unfold Clear in H. pose proof (set_Length_spec b 0 I) as S. rewrite H in S. destruct S as (_ & _ & _ & _ & _ & _ & S1 & S2). split; [intros _ T; apply S2; [lia|exact T|exact Hc]|tauto].
  - intros b0 H. pose proof (set_Chars_spec b i c I) as S. rewrite H in S. destruct S as (a & x & z & S). apply W2. tauto.
  - intros b0 H. pose proof (Replace_char_spec b old new i n I) as S. rewrite H in S. apply W2. tauto.
  - intros b0 H. split; [|intros []]. intros _ T. destruct A as (Ao & An). destruct old as [|c old].
    { unfold SB_Replace in H. destruct ((i <? 0) || (len b <? i)); [discriminate|]. cbn [throw_if bind] in H. destruct ((n <? 0) || (len b - n <? i)); discriminate. }
    destruct (SB_Replace_spec b (c :: old) new i n I ltac:(discriminate) Ao An) as (G & B).
    destruct (Z_lt_ge_dec i 0) as [X|X]; [rewrite B in H by lia; discriminate|].
    destruct (Z_lt_ge_dec n 0) as [Y|Y]; [rewrite B in H by lia; discriminate|].
    destruct (Z_lt_ge_dec (len b) (i + n)) as [Q|Q]; [rewrite B in H by lia; discriminate|].
    destruct (G ltac:(lia) ltac:(lia) ltac:(lia)) as (res & Hs & S). rewrite H in S. tauto.
  - intros b0 H. pose proof (EnsureCapacity_spec b n I) as S. rewrite H in S. destruct S as (S1 & S2 & S3 & S4 & _ & _ & _ & _ & K). apply W2. apply same_tail; assumption.
  - intros b0 H. pose proof (set_Capacity_spec b n I) as S. rewrite H in S. destruct S as (S1 & S2 & S3 & S4 & _ & _ & _ & K). apply W2. apply same_tail; assumption.
  - intros b0 H. pose proof (set_Length_spec b n I) as S. rewrite H in S. destruct S as (_ & _ & _ & _ & _ & _ & S1 & S2). cbn [keeps_terminated]. split; [intros L T; apply S2; [exact L|exact T|exact Hc]|intros _ L Cl; apply S1; assumption].
Qed.

(** wcscmp on terminated texts without NUL characters. *)
Lemma wcscmp_texts s1 s2 z1 z2 : Forall (fun c => c <> 0) s1 -> Forall (fun c => c <> 0) s2 ->
  exists r, wcscmp_eq (s1 ++ 0 :: z1) (s2 ++ 0 :: z2) = Ret r /\ (r = true <-> s1 = s2).
Proof.
  intros H1. revert s2. induction H1 as [|c s1 Hc _ IH]; intros s2 H2; destruct H2 as [|d s2 Hd H2]; cbn [app wcscmp_eq].
  - exists true. split; [reflexivity|tauto].
  - replace (0 =? d) with false by lia. cbn [negb]. exists false. split; [reflexivity|split; [discriminate|discriminate]].
  - replace (c =? 0) with false by lia. cbn [negb]. exists false. split; [reflexivity|split; [discriminate|discriminate]].
  - destruct (c =? d) eqn:E; cbn [negb].
    + replace (c =? 0) with false by lia. destruct (IH s2 H2) as (r & -> & Hr). exists r. split; [reflexivity|]. rewrite Hr. assert (c = d) by lia. subst d. split; [intros ->; reflexivity|intros H; injection H as <-; reflexivity].
    + exists false. split; [reflexivity|]. split; [discriminate|]. intros H. injection H as -> ->. lia.
Qed.
Lemma Equals_spec b o : inv b -> inv o -> terminated b -> terminated o -> cap b = cap o -> maxc b = maxc o ->
  Forall (fun c => c <> 0) (content b) -> Forall (fun c => c <> 0) (content o) ->
  exists r, SB_Equals b (Some o) = Ret r /\ (r = true <-> content b = content o).
Proof.
  intros Ib Io Tb To Ec Em Fb Fo. unfold SB_Equals. rewrite Ec, Em, !Z.eqb_refl. cbn [negb orb].
  destruct (inv_split b Ib) as (r & Er & _ & Nr & _). destruct (inv_split o Io) as (r' & Er' & _ & Nr' & _).
  pose proof (terminated_split b r Ib Er Tb) as H. pose proof (terminated_split o r' Io Er' To) as H'.
  destruct r as [|z r]; [contradiction|]. destruct r' as [|z' r']; [contradiction|]. cbn [hd] in H, H'. subst z z'. rewrite Er, Er'.
  destruct (wcscmp_texts (content o) (content b) r' r Fo Fb) as (x & -> & Hx). exists x. split; [reflexivity|]. rewrite Hx. split; intros ->; reflexivity.
Qed.
