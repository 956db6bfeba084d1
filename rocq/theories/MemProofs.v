(** * Proofs about byte memory *)
From Verif Require Import Tac MemModel.

Definition slice {A} (l : list A) (i n : nat) : list A := firstn n (skipn i l).
Definition splice {A} (l : list A) (i : nat) (b : list A) : list A := firstn i l ++ b ++ skipn (i + length b) l.

Lemma splice_length {A} (l : list A) i b : (i + length b <= length l)%nat -> length (splice l i b) = length l.
Proof. intros H. unfold splice. rewrite !app_length, firstn_length, skipn_length. lia. Qed.
Lemma slice_length {A} (l : list A) i n : (i + n <= length l)%nat -> length (slice l i n) = n.
Proof. intros H. unfold slice. rewrite firstn_length, skipn_length. lia. Qed.
Lemma slice_splice_same {A} (l : list A) i b : (i + length b <= length l)%nat -> slice (splice l i b) i (length b) = b.
Proof.
  intros H. unfold slice, splice. rewrite skipn_app, firstn_length, Nat.min_l by lia. rewrite Nat.sub_diag.
  rewrite skipn_all2 by (rewrite firstn_length; lia). cbn [app skipn].
  rewrite firstn_app, Nat.sub_diag, firstn_all. cbn [firstn]. apply app_nil_r.
Qed.
Lemma slice_splice_before {A} (l : list A) i b j n : (i + length b <= length l)%nat -> (j + n <= i)%nat -> slice (splice l i b) j n = slice l j n.
Proof.
  intros H Hj. unfold slice, splice. rewrite skipn_app. rewrite firstn_length, Nat.min_l by lia.
  rewrite firstn_app. rewrite skipn_length, firstn_length, Nat.min_l by lia.
  replace (n - (i - j))%nat with 0%nat by lia. cbn [firstn]. rewrite app_nil_r.
  rewrite skipn_firstn_comm. rewrite firstn_firstn. rewrite Nat.min_l by lia. reflexivity.
Qed.
Lemma skipn_skipn' {A} (l : list A) : forall a b, skipn a (skipn b l) = skipn (b + a) l.
Proof.
  intros a b. revert l. induction b as [|b IH]; intros l; [reflexivity|].
  destruct l; cbn [skipn plus]; [destruct a; reflexivity|apply IH].
Qed.
Lemma slice_splice_after {A} (l : list A) i b j n : (i + length b <= length l)%nat -> (i + length b <= j)%nat -> slice (splice l i b) j n = slice l j n.
Proof.
  intros H Hj. unfold slice, splice. f_equal. rewrite app_assoc, skipn_app.
  rewrite skipn_all2 by (rewrite app_length, firstn_length; lia). cbn [app].
  rewrite app_length, firstn_length, Nat.min_l by lia. rewrite skipn_skipn'. f_equal. lia.
Qed.
Lemma slice_splice_inside {A} (l : list A) i b j n : (i + length b <= length l)%nat -> (i <= j)%nat -> (j + n <= i + length b)%nat ->
  slice (splice l i b) j n = slice b (j - i) n.
Proof.
  intros H Hi Hj. unfold slice, splice. rewrite skipn_app. rewrite skipn_all2 by (rewrite firstn_length; lia).
  rewrite firstn_length, Nat.min_l by lia. cbn [app]. rewrite skipn_app, firstn_app.
  rewrite skipn_length. replace (n - (length b - (j - i)))%nat with 0%nat by lia. cbn [firstn]. apply app_nil_r.
Qed.
Lemma slice_slice {A} (l : list A) i n j m : (j + m <= n)%nat -> slice (slice l i n) j m = slice l (i + j) m.
Proof.
  intros H. unfold slice. rewrite skipn_firstn_comm, firstn_firstn, Nat.min_l by lia. rewrite skipn_skipn'. reflexivity.
Qed.
Lemma splice_Forall {A} (P : A -> Prop) (l : list A) i b : Forall P l -> Forall P b -> Forall P (splice l i b).
Proof.
  intros Hl Hb. unfold splice. apply Forall_app. split; [|apply Forall_app; split; [exact Hb|]].
  - rewrite <- (firstn_skipn i l) in Hl. apply Forall_app in Hl. apply Hl.
  - rewrite <- (firstn_skipn (i + length b) l) in Hl. apply Forall_app in Hl. apply Hl.
Qed.
Lemma slice_Forall {A} (P : A -> Prop) (l : list A) i n : Forall P l -> Forall P (slice l i n).
Proof.
  intros Hl. unfold slice. rewrite <- (firstn_skipn i l) in Hl. apply Forall_app in Hl. destruct Hl as [_ Hl].
  rewrite <- (firstn_skipn n (skipn i l)) in Hl. apply Forall_app in Hl. apply Hl.
Qed.

Lemma memread_ok {A} (l : list A) i n : 0 <= i -> 0 <= n -> i + n <= zlen l -> memread l i n = Ret (slice l (Z.to_nat i) (Z.to_nat n)).
Proof.
  intros. unfold memread. replace (i <? 0) with false by lia. replace (n <? 0) with false by lia.
  replace (zlen l <? i + n) with false by lia. reflexivity.
Qed.
Lemma memwrite_ok {A} (l : list A) i b : 0 <= i -> i + zlen b <= zlen l -> memwrite l i b = Ret (splice l (Z.to_nat i) b).
Proof.
  intros. unfold memwrite. replace (i <? 0) with false by lia. replace (zlen l <? i + zlen b) with false by lia.
  cbn [orb]. unfold take, drop, splice. do 3 f_equal. f_equal. unfold zlen. lia.
Qed.
