(** * Proofs about the String functions that go through a StringBuilder *)
From Verif Require Import Tac Base MemModel MemProofs StringBuilderModel StringBuilderSpec StringBuilderProofs StringBuilderHistory StringModel StringSpec StringProofs.

Lemma part_all (s : list Z) : part s 0 (zlen s) = s.
Proof. unfold part. cbn [Z.to_nat skipn]. unfold zlen. rewrite Nat2Z.id. apply firstn_all. Qed.
(** [StringBuilder sb(this)] *)
Lemma builder_of_spec (s : str) : s <> [] -> zlen s <= 2147483520 ->
  exists b, builder_of s = Ret b /\ inv b /\ content b = s /\ len b = zlen s /\ maxc b = 2147483647 /\ len b <= cap b /\ 128 <= cap b /\ clean b.
Proof.
  intros N L. assert (P1 : 1 <= zlen s). { destruct s; [contradiction|]. rewrite zlen_cons. pose proof (zlen_nonneg s). lia. }
  unfold builder_of, SB_of_string, str in *. pose proof (SB_from_spec s 0 (zlen s) DefaultCapacity ltac:(lia) ltac:(unfold DefaultCapacity; lia)) as S. unfold DefaultCapacity in *.
  destruct (SB_from (Some s) 0 (zlen s) 128) as [b|e|u].
  - destruct S as (I & _ & _ & _ & C & M & R & K & Q). rewrite part_all in C. exists b. split; [reflexivity|]. split; [exact I|]. split; [exact C|].
    split; [rewrite <- (len_content b I), C; reflexivity|]. auto.
  - destruct S as [(_ & S)|(_ & S & _)]; lia.
  - destruct S as (_ & S). lia.
Qed.
Lemma builder_of_empty : builder_of [] = Exn IndexOutOfRangeException.
Proof. reflexivity. Qed.
(** [StringBuilder sb;] *)
Lemma SB_default_spec : exists b, SB_default = Ret b /\ inv b /\ content b = [] /\ len b = 0 /\ maxc b = 2147483647 /\ 128 <= cap b.
Proof.
  unfold SB_default. pose proof (SB_new_spec DefaultCapacity MaximumCapacity ltac:(unfold MaximumCapacity; lia)) as S. unfold DefaultCapacity, MaximumCapacity in *.
  destruct (SB_new 128 2147483647) as [b|e|u]; [|destruct S as (_ & S); lia..]. exists b. split; [reflexivity|]. tauto.
Qed.
Lemma SB_capacity_spec c : 0 <= c <= 2147483520 -> exists b, SB_capacity c = Ret b /\ inv b /\ content b = [] /\ len b = 0 /\ maxc b = 2147483647 /\ c <= cap b.
Proof.
  intros Hc. unfold SB_capacity. pose proof (SB_new_spec c MaximumCapacity ltac:(unfold MaximumCapacity; lia)) as S. unfold MaximumCapacity in *.
  destruct (SB_new c 2147483647) as [b|e|u]; [|destruct S as (_ & S); lia..]. exists b. split; [reflexivity|]. tauto.
Qed.
(** [sb.Append(String)] *)
Lemma Append_whole b (s : str) : inv b -> maxc b = 2147483647 -> len b + zlen s <= 2147483520 ->
  exists b', Append_string b (Some s) 0 (-1) = Ret b' /\ inv b' /\ content b' = content b ++ s /\ maxc b' = 2147483647 /\ len b' = len b + zlen s /\ cap b <= cap b' /\ len b' <= cap b'.
Proof.
  intros I M L. pose proof (zlen_nonneg s) as P. pose proof (len_bound b I) as B. unfold Append_string. change (-1 <? 0) with true. cbn iota. rewrite throw_if_false by lia. rewrite bind_ret.
  rewrite throw_if_false by lia. rewrite bind_ret. unfold buffer. rewrite memread_part by lia. rewrite bind_ret, part_all.
  pose proof (Append_end_spec b s (-1) I ltac:(lia) ltac:(lia)) as S. destruct (Append_at b s (-1)) as [b'|e|u]; [|destruct S as (_ & S); lia..].
  destruct S as ((I' & M' & L' & C' & _) & C & R). exists b'. split; [reflexivity|]. split; [exact I'|]. split; [exact C|]. split; [lia|]. auto.
Qed.
(** [sb.Append(Char, n)] when the block has room *)
Lemma Append_char_room b c n : inv b -> 0 <= n -> len b + n <= cap b ->
  exists b', Append_char b c n = Ret b' /\ inv b' /\ content b' = content b ++ repeat c (Z.to_nat n) /\ maxc b' = maxc b /\ len b' = len b + n /\ cap b <= cap b'.
Proof.
  intros I Hn H. pose proof (len_bound b I) as B. pose proof (Append_char_spec b c n I) as S. assert (K : cap b <= 2147483520) by (destruct I as (_ & _ & _ & _ & I & _); lia).
  destruct (Append_char b c n) as [b'|e|u].
  - destruct S as (_ & I' & C & M & L & Q & _). exists b'. auto 10.
  - destruct S as (_ & S). lia.
  - destruct S as [(_ & S)|(_ & S)]; lia.
Qed.

Fixpoint total (vs : list (list Z)) : Z := match vs with [] => 0 | v :: vs => zlen v + total vs end.
Lemma total_concat vs : total vs = zlen (concat vs).
Proof. induction vs as [|v vs IH]; [reflexivity|]. cbn [total concat]. rewrite zlen_app, IH. reflexivity. Qed.
Lemma append_objects_spec vs : forall b, inv b -> maxc b = 2147483647 -> len b + total vs <= 2147483520 ->
  exists b', append_objects b (map (@Some str) vs) = Ret b' /\ inv b' /\ content b' = content b ++ concat vs.
Proof.
  induction vs as [|v vs IH]; intros b I M L; cbn [map append_objects concat total] in *.
  - exists b. rewrite app_nil_r. auto.
  - assert (Pt : 0 <= total vs) by (rewrite total_concat; apply zlen_nonneg). cbn [Append_object]. destruct (Append_whole b v I M) as (b1 & -> & I1 & C1 & M1 & L1 & _); [lia|]. rewrite bind_ret.
    destruct (IH b1 I1 M1) as (b' & -> & I' & C'); [lia|]. exists b'. split; [reflexivity|]. split; [exact I'|]. rewrite C', C1, app_assoc. reflexivity.
Qed.

(** ** Join *)
Fixpoint joined_rest (sep : list Z) (vs : list (list Z)) : list Z := match vs with [] => [] | v :: vs => sep ++ v ++ joined_rest sep vs end.
Lemma joined_cons sep v vs : joined sep (v :: vs) = v ++ joined_rest sep vs.
Proof. revert v. induction vs as [|w vs IH]; intros v; [cbn; rewrite app_nil_r; reflexivity|]. cbn [joined joined_rest] in *. rewrite IH. reflexivity. Qed.
Lemma join_rest_string (sep : str) vs : forall b, inv b -> maxc b = 2147483647 -> len b + zlen (joined_rest sep vs) <= 2147483520 ->
  exists b', join_loop (fun b => Append_string b (Some sep) 0 (-1)) false b (map (@Some str) vs) = Ret b' /\ inv b' /\ content b' = content b ++ joined_rest sep vs.
Proof.
  induction vs as [|v vs IH]; intros b I M L; cbn [map join_loop joined_rest] in *.
  - exists b. rewrite app_nil_r. auto.
  - rewrite !zlen_app in L. pose proof (zlen_nonneg (joined_rest sep vs)). pose proof (zlen_nonneg v).
    destruct (Append_whole b sep I M) as (b1 & -> & I1 & C1 & M1 & L1 & _); [lia|]. rewrite bind_ret. cbn [Append_object].
    destruct (Append_whole b1 v I1 M1) as (b2 & -> & I2 & C2 & M2 & L2 & _); [lia|]. rewrite bind_ret.
    destruct (IH b2 I2 M2) as (b' & -> & I' & C'); [lia|]. exists b'. split; [reflexivity|]. split; [exact I'|]. rewrite C', C2, C1, <- !app_assoc. reflexivity.
Qed.
Lemma join_rest_char sep vs : forall b, inv b -> maxc b = 2147483647 -> len b + zlen (joined_rest [sep] vs) <= cap b ->
  exists b', join_loop (fun b => Append_char b sep 1) false b (map (@Some str) vs) = Ret b' /\ inv b' /\ content b' = content b ++ joined_rest [sep] vs.
Proof.
  induction vs as [|v vs IH]; intros b I M L; cbn [map join_loop joined_rest] in *.
  - exists b. rewrite app_nil_r. auto.
  - rewrite !zlen_app, zlen_cons, zlen_nil in L. pose proof (zlen_nonneg (joined_rest [sep] vs)). pose proof (zlen_nonneg v). pose proof (len_bound b I).
    destruct (Append_char_room b sep 1 I) as (b1 & -> & I1 & C1 & M1 & L1 & K1); [lia|lia|]. rewrite bind_ret. cbn [Append_object].
    assert (cap b <= 2147483520) by (destruct I as (_ & _ & _ & _ & I & _); lia).
    destruct (Append_whole b1 v I1) as (b2 & -> & I2 & C2 & M2 & L2 & K2 & _); [congruence|lia|]. rewrite bind_ret.
    destruct (IH b2 I2 M2) as (b' & -> & I' & C'); [lia|]. exists b'. split; [reflexivity|]. split; [exact I'|]. rewrite C', C2, C1, <- !app_assoc. reflexivity.
Qed.

(** ** Contains *)
Lemma subst_occurs old new s r k : old <> [] -> subst_n old new s r k -> (k = 0 <-> forall i, ~ occurs_at s old i).
Proof.
  intros N H. induction H as [|s r k H IH|c s r k D H IH].
  - split; [|reflexivity]. intros _ i (a & b & E & _). symmetry in E. apply app_eq_nil in E. destruct E as (_ & E). apply app_eq_nil in E. destruct E. contradiction.
  - apply subst_n_count in H. split; [lia|]. intros F. exfalso. apply (F 0). exists [], s. split; reflexivity.
  - rewrite IH. split; intros F i.
    + intros (a & b & E & L). destruct a as [|x a]; [apply D; exists b; exact E|]. injection E as -> ->. apply (F (zlen a)). exists a, b. split; reflexivity.
    + intros (a & b & -> & L). apply (F (i + 1)). exists (c :: a), b. split; [reflexivity|]. rewrite zlen_cons. lia.
Qed.
Lemma starts_prefix p s : starts_with p s <-> has_prefix s p.
Proof. reflexivity. Qed.
(** CountSubStrings on a window of the text at least as long as the pattern *)
Lemma count_window b sub i n : inv b -> sub <> [] -> 0 <= i -> 0 <= n -> i + n <= len b -> zlen sub <= 2147483520 ->
  exists k, CountSubStrings b sub i n = Ret k /\ (k = 0 <-> forall j, ~ occurs_at (part (content b) i n) sub j).
Proof.
  intros I N Hi Hn H Hsub. pose proof (len_bound b I) as B. destruct (inv_split b I) as (r & Em & El & _). pose proof (zlen_nonneg sub) as Ps.
  destruct (split_at (content b) i) as (a & t & Ec & La); [lia|]. destruct (split_at t n) as (w & z & Et & Lw).
  { apply (f_equal zlen) in Ec. rewrite zlen_app in Ec. lia. }
  assert (Ew : part (content b) i n = w). { unfold part. rewrite Ec, Et. rewrite skipn_zlen by (unfold zlen in La; lia). apply firstn_zlen. unfold zlen in Lw. lia. }
  destruct (subst_n_total sub [] N (length w) w (le_n _)) as (res & k & S). exists k. rewrite Ew. split; [|exact (subst_occurs _ _ _ _ _ N S)].
  unfold CountSubStrings. rewrite i32_ret by lia. rewrite bind_ret. rewrite i32_ret by lia. rewrite bind_ret. rewrite i32_ret by lia. rewrite bind_ret.
  rewrite (count_loop_spec sub [] w res k N S _ (mem b) a (z ++ r)); [f_equal; lia| |lia|lia|lia]. rewrite Em, Ec, Et, <- !app_assoc. reflexivity.
Qed.
