(** * Proofs about StringBuilder *)
From Verif Require Import Tac Base MemModel MemProofs StringBuilderModel StringBuilderSpec.

(** ** List memory *)
Lemma zlen_app {A} (a b : list A) : zlen (a ++ b) = zlen a + zlen b.
Proof. unfold zlen. rewrite app_length. lia. Qed.
Lemma zlen_cons {A} (x : A) b : zlen (x :: b) = zlen b + 1.
Proof. unfold zlen. cbn [length]. lia. Qed.
Lemma zlen_nil {A} : zlen (@nil A) = 0.
Proof. reflexivity. Qed.
Lemma zlen_nonneg {A} (l : list A) : 0 <= zlen l.
Proof. unfold zlen. lia. Qed.
Lemma zlen_repeat {A} (x : A) n : zlen (repeat x n) = Z.of_nat n.
Proof. unfold zlen. rewrite repeat_length. reflexivity. Qed.
Lemma split_at {A} (l : list A) n : 0 <= n <= zlen l -> exists a b, l = a ++ b /\ zlen a = n.
Proof.
  intros H. exists (firstn (Z.to_nat n) l), (skipn (Z.to_nat n) l). split; [symmetry; apply firstn_skipn|].
  unfold zlen in *. rewrite firstn_length. lia.
Qed.
Lemma firstn_zlen {A} (a b : list A) n : Z.to_nat n = length a -> firstn (Z.to_nat n) (a ++ b) = a.
Proof. intros ->. rewrite firstn_app, Nat.sub_diag, firstn_all. cbn [firstn]. apply app_nil_r. Qed.
Lemma skipn_zlen {A} (a b : list A) n : Z.to_nat n = length a -> skipn (Z.to_nat n) (a ++ b) = b.
Proof. intros ->. rewrite skipn_app, Nat.sub_diag, skipn_all. reflexivity. Qed.

Lemma memread_app {A} (a x b : list A) i n : i = zlen a -> n = zlen x -> memread (a ++ x ++ b) i n = Ret x.
Proof.
  intros -> ->. pose proof (zlen_nonneg a). pose proof (zlen_nonneg x). pose proof (zlen_nonneg b).
  unfold memread. rewrite !zlen_app.
  replace ((zlen a <? 0) || (zlen x <? 0) || (zlen a + (zlen x + zlen b) <? zlen a + zlen x)) with false by lia.
  unfold take, drop. rewrite skipn_zlen by (unfold zlen; lia). rewrite firstn_zlen by (unfold zlen; lia). reflexivity.
Qed.
Lemma memwrite_app {A} (a x b y : list A) i : i = zlen a -> zlen x = zlen y -> memwrite (a ++ x ++ b) i y = Ret (a ++ y ++ b).
Proof.
  intros -> E. pose proof (zlen_nonneg a). pose proof (zlen_nonneg x). pose proof (zlen_nonneg b).
  unfold memwrite. rewrite !zlen_app. replace ((zlen a <? 0) || (zlen a + (zlen x + zlen b) <? zlen a + zlen y)) with false by lia.
  unfold take, drop. rewrite firstn_zlen by (unfold zlen; lia). rewrite (app_assoc a x b). rewrite skipn_zlen; [reflexivity|].
  rewrite app_length. unfold zlen in *. lia.
Qed.
Lemma upd_app {A} (a : list A) c b v : upd (a ++ c :: b) (length a) v = a ++ v :: b.
Proof. induction a; cbn; [reflexivity|]. f_equal. exact IHa. Qed.
Lemma write_app {A} (a : list A) c b v i : i = zlen a -> write (a ++ c :: b) i v = Ret (a ++ v :: b).
Proof.
  intros ->. unfold write. rewrite app_length. cbn [length]. unfold zlen.
  replace ((Z.of_nat (length a) <? 0) || (Z.of_nat (length a + S (length b)) <=? Z.of_nat (length a))) with false by lia.
  rewrite Nat2Z.id, upd_app. reflexivity.
Qed.
Lemma read_app {A} (a : list A) c b i : i = zlen a -> read (a ++ c :: b) i = Ret c.
Proof.
  intros ->. unfold read, zlen. replace (Z.of_nat (length a) <? 0) with false by lia. rewrite Nat2Z.id.
  rewrite nth_error_app2 by lia. rewrite Nat.sub_diag. reflexivity.
Qed.
Lemma last_app {A} (a b : list A) d : b <> [] -> last (a ++ b) d = last b d.
Proof.
  intros N. induction a as [|x a IH]; [reflexivity|]. cbn [app last]. destruct (a ++ b) eqn:E; [|exact IH].
  apply app_eq_nil in E. destruct E. contradiction.
Qed.
Lemma last_nonnil (l : list Z) : last l 1 = 0 -> l <> [].
Proof. intros H ->. cbn in H. discriminate. Qed.

(** ** The invariant *)
Definition inv (b : sb) : Prop :=
  0 <= len b /\ len b + 1 <= zlen (mem b) /\ last (mem b) 1 = 0 /\
  zlen (mem b) = (if internal b then 129 else cap b + 1) /\
  0 <= cap b <= 2147483520 /\ (if internal b then cap b <= 128 else 128 < cap b) /\ 1 <= maxc b <= 2147483647.

Lemma inv_split b : inv b -> exists r, mem b = content b ++ r /\ zlen (content b) = len b /\ r <> [] /\ last r 1 = 0.
Proof.
  intros (H1 & H2 & H3 & _). exists (skipn (Z.to_nat (len b)) (mem b)). unfold content.
  assert (N : skipn (Z.to_nat (len b)) (mem b) <> []).
  { intros E. apply (f_equal (@length Z)) in E. rewrite skipn_length in E. cbn in E. unfold zlen in H2. lia. }
  split; [symmetry; apply firstn_skipn|]. split; [unfold zlen in *; rewrite firstn_length; lia|]. split; [exact N|].
  rewrite <- (firstn_skipn (Z.to_nat (len b)) (mem b)) in H3. rewrite last_app in H3 by exact N. exact H3.
Qed.
Lemma inv_build b m l c r : inv b -> m = c ++ r -> zlen m = zlen (mem b) -> l = zlen c -> last r 1 = 0 ->
  inv (set_mem b m l) /\ content (set_mem b m l) = c.
Proof.
  intros (H1 & H2 & H3 & H4 & H5 & H6 & H7) -> L -> R. pose proof (last_nonnil r R) as N.
  assert (P : 0 < zlen r). { destruct r; [contradiction|]. rewrite zlen_cons. pose proof (zlen_nonneg r). lia. }
  unfold inv, set_mem, content. cbn [len mem internal cap maxc]. split.
  - pose proof (zlen_nonneg c). rewrite zlen_app in *. rewrite last_app by exact N. rewrite <- H4. repeat split; try assumption; try apply H5; try apply H7; lia.
  - apply firstn_zlen. unfold zlen. lia.
Qed.

(** The character after the text is 0, as in a C string. *)
Definition terminated (b : sb) : Prop := hd 1 (skipn (Z.to_nat (len b)) (mem b)) = 0.
Lemma terminated_build b m l c r : m = c ++ r -> l = zlen c -> hd 1 r = 0 -> terminated (set_mem b m l).
Proof. intros -> -> H. unfold terminated, set_mem. cbn [len mem]. rewrite skipn_zlen by (unfold zlen; lia). exact H. Qed.
Lemma terminated_split b r : inv b -> mem b = content b ++ r -> terminated b -> hd 1 r = 0.
Proof.
  intros I E H. destruct (inv_split b I) as (r' & E' & L & _). unfold terminated in H. rewrite E in H.
  rewrite skipn_zlen in H by (unfold zlen in L; lia). exact H.
Qed.

Lemma inv_Initialize : inv Initialize.
Proof. unfold inv, Initialize. cbn [len mem cap maxc internal]. unfold DefaultCapacity, MaximumCapacity. split; [lia|]. split; [rewrite zlen_repeat; lia|].
  split; [reflexivity|]. rewrite zlen_repeat. lia. Qed.

(** ** Capacity *)
Lemma set_Capacity_spec b c : inv b ->
  match set_Capacity b c with
  | Ret b' => inv b' /\ content b' = content b /\ len b' = len b /\ maxc b' = maxc b /\ 0 <= c <= cap b' /\ c <= maxc b /\ cap b' < c + 128 /\
              exists k, mem b' = content b ++ k /\ (internal b' = internal b /\ mem b' = mem b \/ internal b' = false /\ Forall (fun z => z = 0) k)
  | Exn e => e = ArgumentOutOfRangeException /\ (c < 0 \/ maxc b < c \/ internal b = false /\ c < cap b)
  | UB u => u = SignedOverflow /\ 2147483520 < c <= maxc b
  end.
Proof.
  intros I. destruct (inv_split b I) as (r & Em & El & Nr & Lr). assert (I' := I). destruct I' as (H1 & H2 & H3 & H4 & H5 & H6 & H7). unfold set_Capacity.
  destruct (c <? 0) eqn:E1; cbn [throw_if bind]; [split; [reflexivity|left; lia]|].
  destruct (maxc b <? c) eqn:E2; cbn [throw_if bind]; [split; [reflexivity|right; left; lia]|].
  destruct (negb (internal b) && (c <? cap b)) eqn:E3; cbn [throw_if bind]; [split; [reflexivity|right; right; destruct (internal b); [discriminate|split; [reflexivity|lia]]]|].
  assert (K : forall i', i' = internal b -> c <= 128 \/ c = cap b -> let b' := mk_sb i' (mem b) c (len b) (maxc b) in
     inv b' /\ content b' = content b /\ len b' = len b /\ maxc b' = maxc b /\ 0 <= c <= cap b' /\ c <= maxc b /\ cap b' < c + 128 /\
              exists k, mem b' = content b ++ k /\ (internal b' = internal b /\ mem b' = mem b \/ internal b' = false /\ Forall (fun z => z = 0) k)).
  { intros i' -> HC. cbv zeta. unfold inv. cbn [len mem cap maxc internal]. split; [|split; [reflexivity|repeat split; try lia; exists r; split; [exact Em|left; split; reflexivity]]].
    repeat split; try assumption; try lia; destruct (internal b); try lia. }
  destruct (c <=? cap b) eqn:E4.
  - apply K; [reflexivity|]. destruct (internal b); cbn in E3; lia.
  - unfold DefaultCapacity in *. destruct (128 <? c) eqn:E5.
    + rewrite Z.quot_div_nonneg, Z.rem_mod_nonneg by lia.
      set (c' := if 0 <? c mod 128 then c / 128 * 128 + 128 else c / 128 * 128).
      assert (Hc : c <= c' < c + 128 /\ c' mod 128 = 0). { unfold c'. destruct (0 <? c mod 128) eqn:E; lia. }
      destruct (Z_le_gt_dec c 2147483520) as [L|G].
      * assert (Ec : (if 0 <? c mod 128 then i32 (c / 128 * 128 + 128) else Ret (c / 128 * 128)) = Ret c').
        { unfold c'. destruct (0 <? c mod 128) eqn:E; [|reflexivity]. apply i32_ret. lia. }
        rewrite Ec, bind_ret. assert (c' <= 2147483520) by lia. rewrite i32_ret by lia. rewrite bind_ret.
        destruct (split_at (repeat 0 (Z.to_nat (c' + 1))) (len b)) as (a & t & Er & La).
        { rewrite zlen_repeat. destruct (internal b); lia. }
        assert (Fz : Forall (fun z => z = 0) (a ++ t)). { rewrite <- Er. clear. induction (Z.to_nat (c' + 1)); constructor; auto. }
        apply Forall_app in Fz. destruct Fz as (_ & Ft).
        assert (Lt : zlen t = c' + 1 - len b). { apply (f_equal zlen) in Er. rewrite zlen_app, zlen_repeat in Er. lia. }
        unfold memcpy. replace (len b <? 0) with false by lia.
        assert (R0 : memread (mem b) 0 (len b) = Ret (content b)). { rewrite Em. apply (memread_app []); [reflexivity|lia]. }
        rewrite R0, bind_ret, Er. rewrite (memwrite_app [] a t (content b)) by (try reflexivity; lia). rewrite bind_ret. cbn [app].
        assert (Ltz : last t 1 = 0).
        { destruct t as [|z t] using rev_ind; [rewrite zlen_nil in Lt; destruct (internal b); lia|].
          rewrite last_last. apply Forall_app in Ft. destruct Ft as (_ & Ft). inversion Ft; assumption. }
        cbn [len mem cap maxc internal]. split; [|split; [|split; [reflexivity|split; [reflexivity|split; [lia|split; [lia|split; [lia|]]]]]]].
        -- unfold inv. cbn [len mem cap maxc internal]. rewrite zlen_app. rewrite last_app by (apply last_nonnil; exact Ltz).
           repeat split; try assumption; try lia; destruct (internal b); lia.
        -- unfold content at 1. cbn [len mem]. apply firstn_zlen. unfold zlen in *. lia.
        -- exists t. split; [reflexivity|]. right. split; [reflexivity|exact Ft].
      * assert (Ec : exists q, (if 0 <? c mod 128 then i32 (c / 128 * 128 + 128) else Ret (c / 128 * 128)) = q /\ (q = UB SignedOverflow)).
        { destruct (0 <? c mod 128) eqn:E; eexists; (split; [reflexivity|]). { apply i32_ub. lia. } lia. }
        destruct Ec as (q & -> & ->). cbn [bind]. split; [reflexivity|lia].
    + apply K; [|lia]. destruct (internal b); [reflexivity|]. lia.
Qed.

Lemma EnsureCapacity_spec b c : inv b ->
  match EnsureCapacity b c with
  | Ret b' => inv b' /\ content b' = content b /\ len b' = len b /\ maxc b' = maxc b /\ 0 <= c <= cap b' /\ cap b <= cap b' /\ (c <= maxc b \/ b' = b) /\
              (cap b' = cap b \/ cap b' < c + 128) /\
              exists k, mem b' = content b ++ k /\ (internal b' = internal b /\ mem b' = mem b \/ internal b' = false /\ Forall (fun z => z = 0) k)
  | Exn e => e = ArgumentOutOfRangeException /\ (c < 0 \/ maxc b < c /\ cap b < c)
  | UB u => u = SignedOverflow /\ 2147483520 < c <= maxc b
  end.
Proof.
  intros I. unfold EnsureCapacity. destruct (c <? 0) eqn:E; cbn [throw_if bind]; [split; [reflexivity|lia]|].
  destruct (cap b <? c) eqn:E2.
  - pose proof (set_Capacity_spec b c I) as S. destruct (set_Capacity b c) as [b'|e|u].
    + destruct S as (A & B & C & D & F & G & G' & H). repeat (split; [first [assumption | lia | (left; lia) | (right; lia)]|]). exact H.
    + destruct S as (-> & S). split; [reflexivity|]. lia.
    + exact S.
  - destruct (inv_split b I) as (r & Em & _). repeat (split; [first [assumption | reflexivity | lia | (left; lia) | (right; lia) | (right; reflexivity)]|]).
    exists r. split; [exact Em|left; split; reflexivity].
Qed.

(** ** Append and Insert of characters *)
Lemma room b : inv b -> cap b + 1 <= zlen (mem b).
Proof. intros (_ & _ & _ & H & _ & H' & _). destruct (internal b); lia. Qed.

Definition clean (b : sb) : Prop := Forall (fun z => z = 0) (skipn (Z.to_nat (len b)) (mem b)).

Lemma Append_at_spec b vs i : inv b -> zlen vs <= 2147483647 -> -1 <= i ->
  let w := if i =? -1 then len b else i in
  match Append_at b vs i with
  | Ret b' => w <= len b /\ inv b' /\ content b' = firstn (Z.to_nat w) (content b) ++ vs ++ skipn (Z.to_nat w) (content b) /\
              maxc b' = maxc b /\ len b' = len b + zlen vs /\ len b' <= cap b' /\ cap b <= cap b' /\ (cap b' = cap b \/ cap b' < len b' + 128) /\
              (clean b -> clean b') /\ terminated b'
  | Exn e => (e = IndexOutOfRangeException /\ len b < w) \/
             (e = ArgumentOutOfRangeException /\ w <= len b /\ maxc b < len b + zlen vs /\ cap b < len b + zlen vs)
  | UB u => u = SignedOverflow /\ 2147483520 < len b + zlen vs
  end.
Proof.
  intros I Hv Hi w. unfold Append_at. fold w. assert (Hw : 0 <= w). { unfold w. destruct I as (H1 & _). destruct (i =? -1) eqn:E; lia. }
  destruct (len b <? w) eqn:E1; cbn [throw_if bind]; [left; split; [reflexivity|lia]|].
  pose proof (zlen_nonneg vs) as Pv. unfold EnsureRoomFor.
  destruct (Z_le_gt_dec (len b + zlen vs) 2147483647) as [L|G].
  2:{ rewrite i32_ub by lia. cbn [bind]. split; [reflexivity|lia]. }
  rewrite i32_ret by (destruct I as (H1 & _); lia). rewrite bind_ret.
  pose proof (EnsureCapacity_spec b (len b + zlen vs) I) as S. destruct (EnsureCapacity b (len b + zlen vs)) as [b1|e|u]; cbn [bind].
  2:{ destruct S as (-> & S). right. split; [reflexivity|]. destruct I as (H1 & _). lia. }
  2:{ destruct S as (-> & S). split; [reflexivity|lia]. }
  destruct S as (I1 & C1 & L1 & M1 & R1 & Q1 & _ & Q2 & Kk). pose proof (room b1 I1) as Rm.
  destruct (inv_split b1 I1) as (r & Em & El & Nr & Lr). rewrite C1 in Em, El. rewrite L1 in *.
  destruct (split_at (content b) w) as (c1 & c2 & Ec & Lc1); [rewrite El; lia|].
  assert (Lc2 : zlen c2 = len b - w). { apply (f_equal zlen) in Ec. rewrite zlen_app in Ec. lia. }
  assert (Lr' : zlen vs + 1 <= zlen r). { apply (f_equal zlen) in Em. rewrite zlen_app in Em. lia. }
  destruct (split_at (c2 ++ r) (zlen vs)) as (g & t & Eg & Lg); [rewrite zlen_app; pose proof (zlen_nonneg c2); lia|].
  assert (Lt : zlen t = zlen c2 + zlen r - zlen vs). { apply (f_equal zlen) in Eg. rewrite !zlen_app in Eg. lia. }
  destruct (split_at t (zlen c2)) as (x & y & Ex & Lx); [pose proof (zlen_nonneg c2); lia|].
  assert (Ly : zlen y = zlen r - zlen vs). { apply (f_equal zlen) in Ex. rewrite zlen_app in Ex. lia. }
  assert (My : mem b1 = c1 ++ g ++ x ++ y). { rewrite Em, Ec, <- app_assoc, Eg, Ex. reflexivity. }
  assert (Ny : last y 1 = 0 /\ y <> []).
  { assert (N : y <> []). { intros ->. rewrite zlen_nil in Ly. lia. } split; [|exact N].
    assert (H : last (mem b1) 1 = 0) by (destruct I1 as (_ & _ & H & _); exact H). rewrite My, !app_assoc, last_app in H by exact N. exact H. }
  destruct Ny as (Ly0 & Ny).
  assert (Step : (if negb (w =? len b) then memmove_self (mem b1) (w + zlen vs) w (len b - w) else Ret (mem b1)) = Ret (c1 ++ g ++ c2 ++ y)).
  { destruct (w =? len b) eqn:Ew; cbn [negb].
    - rewrite My. do 4 f_equal. assert (c2 = []) by (destruct c2; [reflexivity|rewrite zlen_cons in Lc2; pose proof (zlen_nonneg c2); lia]).
      assert (x = []) by (destruct x; [reflexivity|rewrite zlen_cons in Lx; pose proof (zlen_nonneg x); subst c2; rewrite zlen_nil in *; lia]). congruence.
    - unfold memmove_self. replace (len b - w <? 0) with false by lia.
      assert (E : memread (mem b1) w (len b - w) = Ret c2). { rewrite Em, Ec, <- app_assoc. apply memread_app; lia. }
      rewrite E, bind_ret, My, app_assoc. rewrite memwrite_app; [rewrite <- app_assoc; reflexivity|rewrite zlen_app; lia|lia]. }
  rewrite Step, bind_ret. rewrite (memwrite_app c1 g (c2 ++ y) vs) by lia. rewrite bind_ret.
  destruct y as [|y0 y']; [contradiction|].
  assert (Wr : write (c1 ++ vs ++ c2 ++ y0 :: y') (len b + zlen vs) 0 = Ret ((c1 ++ vs ++ c2) ++ 0 :: y')).
  { replace (c1 ++ vs ++ c2 ++ y0 :: y') with ((c1 ++ vs ++ c2) ++ y0 :: y') by (rewrite <- !app_assoc; reflexivity).
    apply write_app. rewrite !zlen_app. lia. }
  rewrite Wr, bind_ret. split; [lia|].
  destruct (inv_build b1 ((c1 ++ vs ++ c2) ++ 0 :: y') (len b + zlen vs) (c1 ++ vs ++ c2) (0 :: y') I1 eq_refl) as (I2 & C2).
  - rewrite My. rewrite !zlen_app, !zlen_cons in *. lia.
  - rewrite !zlen_app. lia.
  - destruct y' as [|y1 y']; [reflexivity|]. exact Ly0.
  - split; [exact I2|]. split; [|split; [exact M1|split; [reflexivity|split; [exact (proj2 R1)|split; [exact Q1|split; [exact Q2|split; [|eapply terminated_build; [reflexivity|rewrite !zlen_app; lia|reflexivity]]]]]]]].
    { rewrite C2, Ec. rewrite firstn_zlen, skipn_zlen by (unfold zlen in *; lia). reflexivity. }
    intros Cl. assert (Fr : Forall (fun z => z = 0) r).
    { destruct Kk as (k & Ek & Hk). rewrite Em in Ek. apply app_inv_head in Ek. subst k. destruct Hk as [(_ & Hk)|(_ & Hk)]; [|exact Hk].
      unfold clean in Cl. rewrite <- Hk, Em in Cl. rewrite skipn_zlen in Cl by (unfold zlen in *; lia). exact Cl. }
    assert (Fy : Forall (fun z => z = 0) (y0 :: y')).
    { destruct (split_at r (zlen vs)) as (r1 & r2 & Er & Lr1); [lia|].
      assert (E : (c2 ++ r1) ++ r2 = (g ++ x) ++ y0 :: y'). { rewrite <- !app_assoc, <- Er, <- Ex. exact Eg. }
      assert (r2 = y0 :: y').
      { apply (f_equal (skipn (Z.to_nat (zlen c2 + zlen vs)))) in E. rewrite !skipn_zlen in E; [exact E| |]; rewrite app_length; unfold zlen in *; lia. }
      subst r2. rewrite Er in Fr. apply Forall_app in Fr. apply Fr. }
    unfold clean, set_mem. cbn [len mem]. rewrite skipn_zlen by (unfold zlen in *; rewrite !app_length; lia).
    inversion Fy; constructor; [reflexivity|assumption].
Qed.

(** ** Append(Char, n) *)
Lemma append_char_loop_spec v n : forall c r, 
  (Z.of_nat n <= zlen r -> append_char_loop (c ++ r) (zlen c) v n = Ret (c ++ repeat v n ++ skipn n r, zlen c + Z.of_nat n)) /\
  (zlen r < Z.of_nat n -> append_char_loop (c ++ r) (zlen c) v n = UB OutOfBoundsWrite).
Proof.
  induction n as [|n IH]; intros c r; split; intros H.
  - cbn [append_char_loop repeat app skipn]. rewrite Z.add_0_r. reflexivity.
  - pose proof (zlen_nonneg r). lia.
  - destruct r as [|z r]; [rewrite zlen_nil in H; lia|]. cbn [append_char_loop]. rewrite write_app by reflexivity. rewrite bind_ret.
    destruct (IH (c ++ [v]) r) as (A & _). rewrite zlen_app, zlen_cons, zlen_nil in A. rewrite zlen_cons in H.
    rewrite <- app_assoc in A. cbn [app] in A. rewrite Z.add_0_l in A. rewrite A by lia. f_equal. rewrite <- app_assoc. cbn [app repeat skipn].
    f_equal. lia.
  - cbn [append_char_loop]. destruct r as [|z r].
    + unfold write. rewrite app_nil_r. replace ((zlen c <? 0) || (Z.of_nat (length c) <=? zlen c)) with true by (unfold zlen; lia). reflexivity.
    + rewrite write_app by reflexivity. rewrite bind_ret. destruct (IH (c ++ [v]) r) as (_ & B). rewrite zlen_app, zlen_cons, zlen_nil in B. rewrite zlen_cons in H.
      rewrite <- app_assoc in B. cbn [app] in B. rewrite Z.add_0_l in B. apply B. lia.
Qed.

Lemma Append_char_spec b v n : inv b ->
  match Append_char b v n with
  | Ret b' => 0 <= n /\ inv b' /\ content b' = content b ++ repeat v (Z.to_nat n) /\ maxc b' = maxc b /\ len b' = len b + n /\ cap b <= cap b' /\ (clean b -> clean b') /\ terminated b'
  | Exn e => e = ArgumentOutOfRangeException /\ (n < 0 \/ maxc b < n /\ cap b < n)
  | UB u => u = SignedOverflow /\ 2147483520 < n <= maxc b \/ u = OutOfBoundsWrite /\ 0 <= n /\ cap b < len b + n
  end.
Proof.
  intros I. unfold Append_char. destruct (n <? 0) eqn:E; cbn [throw_if bind]; [split; [reflexivity|lia]|].
  pose proof (EnsureCapacity_spec b n I) as S. destruct (EnsureCapacity b n) as [b1|e|u]; cbn [bind].
  2:{ destruct S as (-> & S). split; [reflexivity|lia]. }
  2:{ left. exact S. }
  destruct S as (I1 & C1 & L1 & M1 & R1 & Q1 & _ & Q2 & Kk). pose proof (room b1 I1) as Rm.
  destruct (inv_split b1 I1) as (r & Em & El & Nr & Lr). rewrite C1 in Em, El. rewrite L1 in El. rewrite Em, L1, <- El.
  destruct (append_char_loop_spec v (Z.to_nat n) (content b) r) as (A & B). rewrite Z2Nat.id in A, B by lia.
  assert (Lm : zlen (mem b1) = len b + zlen r) by (rewrite Em, zlen_app; lia).
  destruct (Z_le_gt_dec n (zlen r)) as [L|G].
  2:{ rewrite B by lia. cbn [bind]. right. split; [reflexivity|]. lia. }
  rewrite A by exact L. cbn [bind].
  destruct (skipn (Z.to_nat n) r) as [|y y'] eqn:Es.
  { unfold write. rewrite app_nil_r, app_length, repeat_length.
    replace ((zlen (content b) + n <? 0) || (Z.of_nat (length (content b) + Z.to_nat n) <=? zlen (content b) + n)) with true by (unfold zlen; lia).
    cbn [bind]. right. split; [reflexivity|]. apply (f_equal (@length Z)) in Es. rewrite skipn_length in Es. cbn in Es. unfold zlen in *. lia. }
  assert (Hlr : last (y :: y') 1 = 0). { rewrite <- Lr. rewrite <- (firstn_skipn (Z.to_nat n) r). rewrite Es. rewrite last_app by discriminate. reflexivity. }
  assert (Len : n + zlen (y :: y') = zlen r). { rewrite <- Es. unfold zlen in *. rewrite skipn_length. lia. }
  replace (content b ++ repeat v (Z.to_nat n) ++ y :: y') with ((content b ++ repeat v (Z.to_nat n)) ++ y :: y') by (rewrite <- app_assoc; reflexivity).
  rewrite write_app by (rewrite zlen_app, zlen_repeat; lia). cbn [bind].
  destruct (inv_build b1 ((content b ++ repeat v (Z.to_nat n)) ++ 0 :: y') (zlen (content b) + n) (content b ++ repeat v (Z.to_nat n)) (0 :: y') I1 eq_refl) as (I2 & C2).
  - rewrite Lm, !zlen_app, zlen_repeat, !zlen_cons in *. lia.
  - rewrite zlen_app, zlen_repeat. lia.
  - destruct y'; [reflexivity|exact Hlr].
  - split; [lia|]. split; [exact I2|]. split; [exact C2|]. split; [exact M1|]. split; [cbn [set_mem len]; lia|]. split; [exact Q1|]. split; [|eapply terminated_build; [reflexivity|rewrite zlen_app, zlen_repeat; lia|reflexivity]].
    intros Cl. assert (Fr : Forall (fun z => z = 0) r).
    { destruct Kk as (k & Ek & Hk). rewrite Em in Ek. apply app_inv_head in Ek. subst k. destruct Hk as [(_ & Hk)|(_ & Hk)]; [|exact Hk].
      unfold clean in Cl. rewrite <- Hk, Em in Cl. rewrite skipn_zlen in Cl by (unfold zlen in *; lia). exact Cl. }
    rewrite <- (firstn_skipn (Z.to_nat n) r), Es in Fr. apply Forall_app in Fr. destruct Fr as (_ & Fr).
    unfold clean, set_mem. cbn [len mem]. rewrite skipn_zlen by (unfold zlen in *; rewrite !app_length, repeat_length; lia).
    inversion Fr; constructor; [reflexivity|assumption].
Qed.

(** ** Remove *)
Lemma SB_Remove_spec tol b i n : inv b ->
  match SB_Remove tol b i n with
  | Ret b' => 0 <= i /\ 0 <= n /\ i + n <= len b /\ inv b' /\
              content b' = firstn (Z.to_nat i) (content b) ++ skipn (Z.to_nat (i + n)) (content b) /\
              maxc b' = maxc b /\ len b' = len b - n /\ cap b' = cap b /\ terminated b'
  | Exn e => e = ArgumentOutOfRangeException /\ (n < 0 \/ i < 0 \/ len b < i + n)
  | UB u => tol = false /\ u = OverlappingCopy /\ 0 <= n < len b - i - n
  end.
Proof.
  intros I. assert (I' := I). destruct I' as (H1 & H2 & _). unfold SB_Remove.
  destruct (n <? 0) eqn:E1; cbn [throw_if bind]; [split; [reflexivity|lia]|].
  destruct (i <? 0) eqn:E2; cbn [throw_if bind]; [split; [reflexivity|lia]|].
  destruct (len b - i <? n) eqn:E3; cbn [throw_if bind]; [split; [reflexivity|lia]|].
  set (h := len b - i - n). destruct (inv_split b I) as (r & Em & El & Nr & Lr).
  destruct (split_at (content b) i) as (c1 & c' & Ec & L1); [lia|].
  destruct (split_at c' n) as (c2 & c3 & Ec' & L2). { apply (f_equal zlen) in Ec. rewrite zlen_app in Ec. lia. }
  assert (L3 : zlen c3 = h). { apply (f_equal zlen) in Ec, Ec'. rewrite zlen_app in *. unfold h. lia. }
  assert (Mv : memmove_self (mem b) i (i + n) h = Ret (c1 ++ c3 ++ skipn (Z.to_nat h) (c2 ++ c3 ++ r))).
  { unfold memmove_self. replace (h <? 0) with false by lia.
    assert (R : memread (mem b) (i + n) h = Ret c3). { rewrite Em, Ec, Ec', <- !app_assoc, (app_assoc c1 c2). apply memread_app; [rewrite zlen_app; lia|lia]. }
    rewrite R, bind_ret. rewrite Em, Ec, Ec', <- !app_assoc.
    destruct (split_at (c2 ++ c3 ++ r) h) as (x & y & Ex & Lx). { rewrite !zlen_app. pose proof (zlen_nonneg c2). pose proof (zlen_nonneg r). lia. }
    rewrite Ex. rewrite memwrite_app by lia. rewrite skipn_zlen by (unfold zlen in *; lia). reflexivity. }
  destruct (tol || negb (n <? h)) eqn:T.
  - assert (E : memcpy_overlap tol (mem b) i (i + n) h = Ret (c1 ++ c3 ++ skipn (Z.to_nat h) (c2 ++ c3 ++ r))).
    { unfold memcpy_overlap. destruct tol; [exact Mv|]. cbn [orb] in T. unfold memcpy_self. rewrite <- Mv. unfold memmove_self.
      destruct (h <? 0); [reflexivity|]. replace ((0 <? h) && (i <? i + n + h) && (i + n <? i + h)) with false by lia. reflexivity. }
    rewrite E, bind_ret. set (y := skipn (Z.to_nat h) (c2 ++ c3 ++ r)).
    assert (Ly : zlen y = n + zlen r). { unfold y, zlen. rewrite skipn_length, !app_length. unfold zlen in *. lia. }
    assert (Ny : y <> []). { intros Ey. rewrite Ey, zlen_nil in Ly. destruct r; [contradiction|]. rewrite zlen_cons in Ly. pose proof (zlen_nonneg r). lia. }
    assert (Hy : last y 1 = 0).
    { rewrite <- Lr. rewrite <- (last_app (c2 ++ c3) r) by exact Nr. rewrite <- app_assoc. rewrite <- (firstn_skipn (Z.to_nat h) (c2 ++ c3 ++ r)).
      fold y. rewrite last_app by exact Ny. reflexivity. }
    clearbody y. destruct y as [|y0 y]; [contradiction|]. replace (c1 ++ c3 ++ y0 :: y) with ((c1 ++ c3) ++ y0 :: y) by (rewrite <- app_assoc; reflexivity).
    rewrite write_app by (rewrite zlen_app; unfold h in *; lia). rewrite bind_ret.
    destruct (inv_build b ((c1 ++ c3) ++ 0 :: y) (len b - n) (c1 ++ c3) (0 :: y) I eq_refl) as (I2 & C2).
    + rewrite Em, Ec, Ec', !zlen_app, !zlen_cons in *. lia.
    + rewrite zlen_app. unfold h in *. lia.
    + destruct y; [reflexivity|exact Hy].
    + do 4 (split; [first [lia | exact I2]|]). split; [|do 3 (split; [reflexivity|]); eapply terminated_build; [reflexivity|rewrite zlen_app; unfold h in *; lia|reflexivity]].
      rewrite C2, Ec, Ec'. rewrite firstn_zlen by (unfold zlen in *; lia). rewrite app_assoc, skipn_zlen; [reflexivity|].
      rewrite app_length. unfold zlen in *. lia.
  - apply orb_false_iff in T. destruct T as (-> & T). unfold memcpy_overlap, memcpy_self. replace (h <? 0) with false by lia.
    replace ((0 <? h) && (i <? i + n + h) && (i + n <? i + h)) with true by lia. cbn [bind]. split; [reflexivity|]. split; [reflexivity|]. fold h. lia.
Qed.

(** ** Length *)
Lemma set_Length_spec b n : inv b ->
  match set_Length b n with
  | Ret b' => 0 <= n <= maxc b /\ inv b' /\ len b' = n /\ maxc b' = maxc b /\
              (n <= len b -> content b' = firstn (Z.to_nat n) (content b)) /\
              (len b <= n -> exists x, content b' = content b ++ x /\ zlen x = n - len b /\ (clean b -> Forall (fun z => z = 0) x)) /\
              (clean b -> len b <= cap b -> clean b') /\ (n <= len b -> terminated b -> 0 < cap b -> terminated b')
  | Exn e => e = ArgumentOutOfRangeException /\ (n < 0 \/ maxc b < n)
  | UB u => u = SignedOverflow /\ 2147483520 < n <= maxc b
  end.
Proof.
  intros I. assert (I' := I). destruct I' as (H1 & H2 & H3 & H4 & H5 & H6 & H7). unfold set_Length.
  destruct (n <? 0) eqn:E1; cbn [throw_if bind]; [split; [reflexivity|lia]|].
  destruct (maxc b <? n) eqn:E2; cbn [throw_if bind]; [split; [reflexivity|lia]|].
  destruct (n =? 0) eqn:E0.
  - pose proof (room b I) as Rm. destruct (split_at (mem b) (cap b)) as (a & t & Em & La); [lia|].
    unfold memset. replace (cap b <? 0) with false by lia.
    assert (W : memwrite (mem b) 0 (repeat 0 (Z.to_nat (cap b))) = Ret (repeat 0 (Z.to_nat (cap b)) ++ t)).
    { rewrite Em. apply (memwrite_app []); [reflexivity|]. rewrite zlen_repeat. lia. }
    rewrite W. cbn [bind].
    assert (Nt : t <> []). { intros ->. rewrite app_nil_r in Em. rewrite Em in Rm. lia. }
    assert (Ht : last t 1 = 0). { rewrite <- H3, Em. rewrite last_app by exact Nt. reflexivity. }
    destruct (inv_build b (repeat 0 (Z.to_nat (cap b)) ++ t) 0 [] (repeat 0 (Z.to_nat (cap b)) ++ t) I eq_refl) as (I2 & C2).
    + rewrite Em, !zlen_app, zlen_repeat. lia.
    + reflexivity.
    + rewrite last_app by exact Nt. exact Ht.
    + assert (n = 0) by lia. subst n. do 4 (split; [first [lia | assumption | reflexivity]|]). split; [intros _; rewrite C2; reflexivity|]. split.
      * intros L. exists []. rewrite C2. split; [|split; [rewrite zlen_nil; lia|constructor]]. unfold content. replace (len b) with 0 by lia. reflexivity.
      * split; [|intros _ _ Hc; unfold terminated, set_mem; cbn [len mem skipn Z.to_nat]; destruct (Z.to_nat (cap b)) eqn:Ec; [lia|reflexivity]].
        intros Cl L. unfold clean, set_mem. cbn [len mem skipn Z.to_nat]. apply Forall_app. split; [clear; induction (Z.to_nat (cap b)); constructor; auto|].
        unfold clean in Cl. rewrite Em in Cl.
        rewrite skipn_app in Cl. apply Forall_app in Cl. destruct Cl as (_ & Cl). replace (Z.to_nat (len b) - length a)%nat with 0%nat in Cl by (unfold zlen in *; lia). exact Cl.
  - pose proof (EnsureCapacity_spec b n I) as S. destruct (EnsureCapacity b n) as [b1|e|u]; cbn [bind].
    2:{ destruct S as (-> & S). split; [reflexivity|lia]. }
    2:{ exact S. }
    destruct S as (I1 & C1 & L1 & M1 & R1 & Q1 & _ & Q2 & Kk). pose proof (room b1 I1) as Rm.
    destruct (inv_split b1 I1) as (r & Em & El & Nr & Lr). rewrite C1 in Em, El. rewrite L1 in *.
    assert (Fr : clean b -> Forall (fun z => z = 0) r).
    { intros Cl. destruct Kk as (k & Ek & Hk). rewrite Em in Ek. apply app_inv_head in Ek. subst k. destruct Hk as [(_ & Hk)|(_ & Hk)]; [|exact Hk].
      unfold clean in Cl. rewrite <- Hk, Em in Cl. rewrite skipn_zlen in Cl by (unfold zlen in *; lia). exact Cl. }
    assert (Tr : terminated b -> hd 1 r = 0).
    { intros Tm. destruct Kk as (k & Ek & Hk). rewrite Em in Ek. apply app_inv_head in Ek. subst k. destruct Hk as [(_ & Hk)|(_ & Hk)].
      - eapply terminated_split; [exact I| |exact Tm]. rewrite <- Hk. exact Em.
      - destruct r; [contradiction|]. inversion Hk; subst. reflexivity. }
    assert (Lm : zlen (mem b1) = len b + zlen r) by (rewrite Em, zlen_app; lia).
    rewrite i32_ret by (destruct (internal b); lia). rewrite bind_ret. destruct (n - len b =? 0) eqn:E3.
    + assert (n = len b) by lia. subst n. split; [lia|]. split; [exact I1|]. split; [exact L1|]. split; [exact M1|]. rewrite C1. split; [|split].
      * intros _. rewrite firstn_all2 by (unfold zlen in *; lia). reflexivity.
      * intros _. exists []. rewrite app_nil_r. split; [reflexivity|]. split; [rewrite zlen_nil; lia|constructor].
      * split; [intros Cl _; unfold clean; rewrite L1, Em; rewrite skipn_zlen by (unfold zlen in *; lia); apply Fr; exact Cl|].
        intros _ T _. unfold terminated. rewrite L1, Em. rewrite skipn_zlen by (unfold zlen in *; lia). apply Tr. exact T.
    + destruct (n - len b <? 0) eqn:E4.
      * destruct (split_at (content b) n) as (c1 & c2 & Ec & Lc); [lia|].
        assert (Lc2 : zlen c2 = len b - n). { apply (f_equal zlen) in Ec. rewrite zlen_app in Ec. lia. }
        unfold memset. replace (- (n - len b) <? 0) with false by lia.
        assert (W : memwrite (mem b1) (len b + (n - len b)) (repeat 0 (Z.to_nat (- (n - len b)))) = Ret (c1 ++ repeat 0 (Z.to_nat (- (n - len b))) ++ r)).
        { rewrite Em, Ec, <- app_assoc. apply memwrite_app; [lia|]. rewrite zlen_repeat. lia. }
        rewrite W, bind_ret.
        destruct (inv_build b1 (c1 ++ repeat 0 (Z.to_nat (- (n - len b))) ++ r) n c1 (repeat 0 (Z.to_nat (- (n - len b))) ++ r) I1 eq_refl) as (I2 & C2).
        -- rewrite Lm, !zlen_app, zlen_repeat. lia.
        -- lia.
        -- rewrite last_app by exact Nr. exact Lr.
        -- split; [lia|]. split; [exact I2|]. split; [reflexivity|]. split; [exact M1|]. rewrite C2. split; [|split].
           ++ intros _. rewrite Ec. rewrite firstn_zlen by (unfold zlen in *; lia). reflexivity.
           ++ intros L. lia.
           ++ split.
              ** intros Cl _. unfold clean, set_mem. cbn [len mem]. rewrite skipn_zlen by (unfold zlen in *; lia). apply Forall_app. split; [|apply Fr; exact Cl].
                 clear. induction (Z.to_nat (- (n - len b))); constructor; auto.
              ** intros _ _ _. eapply terminated_build; [reflexivity|lia|]. destruct (Z.to_nat (- (n - len b))) eqn:En; [lia|reflexivity].
      * rewrite bind_ret. destruct (split_at r (n - len b)) as (x & y & Er & Lx); [lia|].
        assert (Ly : zlen y = zlen r - (n - len b)). { apply (f_equal zlen) in Er. rewrite zlen_app in Er. lia. }
        assert (Ny : y <> []). { intros ->. rewrite zlen_nil in Ly. lia. }
        destruct (inv_build b1 (mem b1) n (content b ++ x) y I1) as (I2 & C2).
        -- rewrite Em, Er, <- app_assoc. reflexivity.
        -- reflexivity.
        -- rewrite zlen_app. lia.
        -- rewrite <- Lr, Er. rewrite last_app by exact Ny. reflexivity.
        -- split; [lia|]. split; [exact I2|]. split; [reflexivity|]. split; [exact M1|]. rewrite C2. split; [intros; lia|]. split.
           ++ intros _. exists x. split; [reflexivity|]. split; [exact Lx|]. intros Cl. specialize (Fr Cl). rewrite Er in Fr. apply Forall_app in Fr. apply Fr.
           ++ split; [|intros; lia]. intros Cl _. specialize (Fr Cl). rewrite Er in Fr. apply Forall_app in Fr. destruct Fr as (_ & Fr).
              unfold clean, set_mem. cbn [len mem]. rewrite Em, Er, app_assoc. rewrite skipn_zlen; [exact Fr|]. rewrite app_length. unfold zlen in *. lia.
Qed.

(** ** Replace *)
Lemma list_eqb_eq a : forall b, list_eqb a b = true <-> a = b.
Proof.
  induction a as [|x a IH]; intros [|y b]; cbn [list_eqb]; split; intros H; try reflexivity; try discriminate.
  - apply andb_true_iff in H. destruct H as (H1 & H2). f_equal; [lia|apply IH; exact H2].
  - injection H as -> ->. apply andb_true_iff. split; [lia|apply IH; reflexivity].
Qed.

(** [substituted] with the number of hits. *)
Inductive subst_n (old new : list Z) : list Z -> list Z -> Z -> Prop :=
| sn_end : subst_n old new [] [] 0
| sn_hit s r k : subst_n old new s r k -> subst_n old new (old ++ s) (new ++ r) (k + 1)
| sn_skip c s r k : ~ starts_with old (c :: s) -> subst_n old new s r k -> subst_n old new (c :: s) (c :: r) k.

Lemma subst_n_substituted old new s r k : subst_n old new s r k -> substituted old new s r.
Proof. induction 1; constructor; assumption. Qed.
Lemma subst_n_count old new s r k : subst_n old new s r k -> 0 <= k /\ zlen r = zlen s + k * (zlen new - zlen old).
Proof. induction 1 as [|s r k _ IH|c s r k _ _ IH]; rewrite ?zlen_app, ?zlen_cons, ?zlen_nil in *; lia. Qed.
Lemma subst_n_short old new s r k : old <> [] -> zlen s < zlen old -> subst_n old new s r k -> r = s /\ k = 0.
Proof.
  intros N L H. induction H as [|s r k _ IH|c s r k _ _ IH].
  - split; reflexivity.
  - rewrite zlen_app in L. pose proof (zlen_nonneg s). lia.
  - rewrite zlen_cons in L. destruct IH as (-> & ->); [lia|]. split; reflexivity.
Qed.
Lemma starts_dec old : forall s, starts_with old s \/ ~ starts_with old s.
Proof.
  intros s. destruct (list_eqb (firstn (length old) s) old) eqn:E.
  - left. apply list_eqb_eq in E. exists (skipn (length old) s). rewrite <- E at 1. symmetry. apply firstn_skipn.
  - right. intros (t & ->). rewrite firstn_app, Nat.sub_diag, firstn_all in E. cbn [firstn] in E. rewrite app_nil_r in E.
    rewrite (proj2 (list_eqb_eq old old) eq_refl) in E. discriminate.
Qed.
Lemma subst_n_total old new : old <> [] -> forall n s, (length s <= n)%nat -> exists r k, subst_n old new s r k.
Proof.
  intros N n. induction n as [|n IH]; intros s L.
  - destruct s; [|cbn in L; lia]. exists [], 0. constructor.
  - destruct s as [|c s]; [exists [], 0; constructor|]. destruct (starts_dec old (c :: s)) as [(t & E)|D].
    + rewrite E in *. destruct (IH t) as (r & k & H).
      { rewrite app_length in L. destruct old; [contradiction|]. cbn in L. lia. }
      exists (new ++ r), (k + 1). constructor. exact H.
    + destruct (IH s) as (r & k & H); [cbn in L; lia|]. exists (c :: r), k. constructor; assumption.
Qed.
Lemma substituted_fun old new s r : old <> [] -> substituted old new s r -> forall r', substituted old new s r' -> r = r'.
Proof.
  intros N H. induction H as [|s r _ IH|c s r D _ IH]; intros r' H'.
  - inversion H' as [|s0 r0 H0 E|]; [reflexivity|]. apply app_eq_nil in E. destruct E. contradiction.
  - inversion H' as [E|s0 r0 H0 E|c s0 r0 D H0 E]; subst.
    + symmetry in E. apply app_eq_nil in E. destruct E. contradiction.
    + apply app_inv_head in E. subst s0. f_equal. apply IH. exact H0.
    + exfalso. apply D. exists s. exact E.
  - inversion H' as [|s0 r0 H0 E|c0 s0 r0 D' H0]; subst.
    + exfalso. apply D. exists s0. symmetry. exact E.
    + f_equal. apply IH. exact H0.
Qed.

Lemma memcmp_hit m a w z sub i : m = a ++ w ++ z -> i = zlen a -> zlen sub <= zlen w ->
  exists h, memcmp_eq m i sub = Ret h /\ (h = true <-> starts_with sub w).
Proof.
  intros -> -> L. destruct (split_at w (zlen sub)) as (x & y & -> & Lx); [pose proof (zlen_nonneg sub); lia|].
  unfold memcmp_eq. rewrite <- app_assoc. rewrite memread_app by lia. rewrite bind_ret. exists (list_eqb x sub). split; [reflexivity|].
  rewrite list_eqb_eq. split.
  - intros ->. exists y. reflexivity.
  - intros (t & E). apply (f_equal (firstn (Z.to_nat (zlen sub)))) in E. rewrite !firstn_zlen in E by (unfold zlen in *; lia). exact E.
Qed.

Lemma count_loop_spec old new w r k : old <> [] -> subst_n old new w r k -> forall fuel m a z i e amount,
  m = a ++ w ++ z -> i = zlen a -> e = i + zlen w + 1 - zlen old -> e - i <= Z.of_nat fuel ->
  count_loop fuel m old i e amount = Ret (amount + k).
Proof.
  intros N H. assert (P : 1 <= zlen old). { destruct old; [contradiction|]. rewrite zlen_cons. pose proof (zlen_nonneg old). lia. }
  induction H as [|s r k H IH|c s r k D H IH]; intros fuel m a z i e amount Em Ei Ee Ef.
  - rewrite zlen_nil in Ee. destruct fuel; cbn [count_loop]; replace (i <? e) with false by lia; rewrite Z.add_0_r; reflexivity.
  - rewrite zlen_app in Ee. pose proof (zlen_nonneg s). destruct fuel as [|fuel]; [lia|]. cbn [count_loop]. replace (i <? e) with true by lia.
    destruct (memcmp_hit m a (old ++ s) z old i Em Ei) as (h & Eh & Hh); [rewrite zlen_app; lia|]. rewrite Eh, bind_ret.
    rewrite (proj2 Hh) by (exists s; reflexivity). rewrite (IH fuel m (a ++ old) z); [f_equal; lia| | | |].
    + rewrite Em, <- !app_assoc. reflexivity.
    + rewrite zlen_app. lia.
    + lia.
    + lia.
  - destruct (i <? e) eqn:E.
    + destruct fuel as [|fuel]; [lia|]. cbn [count_loop]. rewrite E.
      destruct (memcmp_hit m a (c :: s) z old i Em Ei) as (h & Eh & Hh); [lia|]. rewrite Eh, bind_ret.
      destruct h; [exfalso; apply D; apply Hh; reflexivity|]. rewrite zlen_cons in Ee. apply (IH fuel m (a ++ [c]) z).
      * rewrite Em, <- app_assoc. reflexivity.
      * rewrite zlen_app, zlen_cons, zlen_nil. lia.
      * lia.
      * lia.
    + assert (K : k = 0). { rewrite zlen_cons in Ee. apply (subst_n_short old new s r k N); [lia|exact H]. }
      destruct fuel; cbn [count_loop]; rewrite E, K, Z.add_0_r; reflexivity.
Qed.

(** An empty pattern never lets the loop end, whatever the number of iterations allowed. *)
Lemma count_loop_empty fuel : forall m i e amount, 0 <= i <= zlen m -> i < e -> count_loop fuel m [] i e amount = UB NonTermination.
Proof.
  induction fuel as [|fuel IH]; intros m i e amount Hi He; cbn [count_loop]; replace (i <? e) with true by lia; [reflexivity|].
  unfold memcmp_eq. rewrite zlen_nil. unfold memread. replace ((i <? 0) || (0 <? 0) || (zlen m <? i + 0)) with false by lia.
  cbn [bind take firstn Z.to_nat list_eqb]. rewrite Z.add_0_r. apply IH; lia.
Qed.

Lemma replace_loop_spec old new w res k : old <> [] -> subst_n old new w res k -> forall fuel m a z r i e l,
  m = a ++ w ++ z ++ r -> i = zlen a -> e = i + zlen w + 1 - zlen old -> l = zlen a + zlen w + zlen z ->
  1 <= zlen r -> 1 + k * (zlen new - zlen old) <= zlen r -> last r 1 = 0 -> e - i <= Z.of_nat fuel ->
  exists r', replace_loop fuel m l old new i e = Ret (a ++ res ++ z ++ r', zlen a + zlen res + zlen z) /\
    last r' 1 = 0 /\ zlen (a ++ res ++ z ++ r') = zlen m /\ (hd 1 r = 0 -> hd 1 r' = 0).
Proof.
  intros N H. assert (P : 1 <= zlen old). { destruct old; [contradiction|]. rewrite zlen_cons. pose proof (zlen_nonneg old). lia. }
  induction H as [|s res k H IH|c s res k D H IH]; intros fuel m a z r i e l Em Ei Ee El R1 R2 Lr Ef.
  - exists r. rewrite zlen_nil in *. destruct fuel; cbn [replace_loop]; replace (i <? e) with false by lia; rewrite Em, El; (split; [do 2 f_equal; lia|split; [exact Lr|split; [reflexivity|exact (fun H => H)]]]).
  - rewrite zlen_app in Ee, El. pose proof (zlen_nonneg s). destruct fuel as [|fuel]; [lia|]. cbn [replace_loop]. replace (i <? e) with true by lia.
    destruct (memcmp_hit m a (old ++ s) (z ++ r) old i Em Ei) as (h & Eh & Hh); [rewrite zlen_app; lia|]. rewrite Eh, bind_ret.
    rewrite (proj2 Hh) by (exists s; reflexivity). set (delta := zlen new - zlen old) in *.
    pose proof (subst_n_count _ _ _ _ _ H) as (Kp & _). pose proof (zlen_nonneg new) as Pn. pose proof (zlen_nonneg z) as Pz.
    assert (Rd : 1 + delta <= zlen r) by (unfold delta in *; nia).
    assert (Em' : m = a ++ old ++ (s ++ z) ++ r). { rewrite Em, <- !app_assoc. reflexivity. }
    destruct (split_at (old ++ (s ++ z) ++ r) (zlen new)) as (g & t & Eg & Lg). { rewrite !zlen_app. unfold delta in *. lia. }
    assert (Lt : zlen t = zlen old + zlen s + zlen z + zlen r - zlen new). { apply (f_equal zlen) in Eg. rewrite !zlen_app in Eg. lia. }
    destruct (split_at t (zlen s + zlen z)) as (x & y & Ex & Lx); [unfold delta in *; lia|].
    assert (Ly : zlen y = zlen r - delta). { apply (f_equal zlen) in Ex. rewrite zlen_app in Ex. unfold delta. lia. }
    assert (Mv : memmove_self m (i + zlen new) (i + zlen old) (l - i - zlen old) = Ret (a ++ g ++ (s ++ z) ++ y)).
    { unfold memmove_self. replace (l - i - zlen old) with (zlen (s ++ z)) by (rewrite zlen_app; lia).
      replace (zlen (s ++ z) <? 0) with false by (pose proof (zlen_nonneg (s ++ z)); lia).
      assert (R : memread m (i + zlen old) (zlen (s ++ z)) = Ret (s ++ z)). { rewrite Em', app_assoc. apply memread_app; [rewrite zlen_app; lia|reflexivity]. }
      rewrite R, bind_ret. rewrite Em', Eg, Ex, app_assoc. rewrite memwrite_app; [rewrite <- app_assoc; reflexivity| |].
      - rewrite zlen_app. lia.
      - rewrite zlen_app. lia. }
    rewrite Mv, bind_ret.
    assert (Ny : y <> []). { intros ->. rewrite zlen_nil in Ly. lia. }
    assert (Hy : last y 1 = 0).
    { assert (E : last m 1 = last r 1). { rewrite Em'. rewrite !app_assoc. apply last_app. apply last_nonnil. exact Lr. }
      rewrite Em', Eg, Ex in E. rewrite !app_assoc in E. rewrite last_app in E by exact Ny. rewrite E. exact Lr. }
    destruct y as [|y0 y]; [contradiction|].
    assert (Wr : write (a ++ g ++ (s ++ z) ++ y0 :: y) (l + delta) 0 = Ret (a ++ g ++ (s ++ z) ++ 0 :: y)).
    { replace (a ++ g ++ (s ++ z) ++ y0 :: y) with ((a ++ g ++ (s ++ z)) ++ y0 :: y) by (rewrite <- !app_assoc; reflexivity).
      rewrite write_app; [rewrite <- !app_assoc; reflexivity|]. rewrite !zlen_app. unfold delta. lia. }
    rewrite Wr, bind_ret. rewrite memwrite_app by lia. rewrite bind_ret.
    destruct (IH fuel (a ++ new ++ (s ++ z) ++ 0 :: y) (a ++ new) z (0 :: y) (i + zlen new) (e + delta) (l + delta)) as (r' & E & L' & T' & HD).
    + rewrite <- !app_assoc. reflexivity.
    + rewrite zlen_app. lia.
    + unfold delta. lia.
    + rewrite zlen_app. unfold delta. lia.
    + rewrite zlen_cons. pose proof (zlen_nonneg y). lia.
    + rewrite zlen_cons in *. fold delta. lia.
    + destruct y; [reflexivity|exact Hy].
    + unfold delta. lia.
    + exists r'. rewrite E. rewrite <- !app_assoc in *. split; [do 2 f_equal; rewrite !zlen_app; lia|]. split; [exact L'|]. split; [|intros _; apply HD; reflexivity].
      rewrite T'. rewrite Em'. rewrite !zlen_app, !zlen_cons in *. unfold delta in *. lia.
  - destruct (i <? e) eqn:E.
    + destruct fuel as [|fuel]; [lia|]. cbn [replace_loop]. rewrite E.
      destruct (memcmp_hit m a (c :: s) (z ++ r) old i Em Ei) as (h & Eh & Hh); [lia|]. rewrite Eh, bind_ret.
      destruct h; [exfalso; apply D; apply Hh; reflexivity|]. rewrite zlen_cons in Ee, El.
      destruct (IH fuel m (a ++ [c]) z r (i + 1) e l) as (r' & E' & L' & T' & HD); try assumption; try lia.
      * rewrite Em, <- app_assoc. reflexivity.
      * rewrite zlen_app, zlen_cons, zlen_nil. lia.
      * rewrite zlen_app, zlen_cons, zlen_nil. lia.
      * exists r'. rewrite E'. rewrite <- !app_assoc in *. cbn [app] in *. split; [do 2 f_equal; rewrite !zlen_app, !zlen_cons, !zlen_nil; lia|]. split; [assumption|]. split; assumption.
    + assert (K : res = s /\ k = 0). { rewrite zlen_cons in Ee. apply (subst_n_short old new s res k N); [lia|exact H]. } destruct K as (-> & ->).
      exists r. destruct fuel; cbn [replace_loop]; rewrite E; rewrite Em, El; (split; [reflexivity|split; [exact Lr|split; [reflexivity|exact (fun H => H)]]]).
Qed.

Lemma SB_Replace_spec b old new i n : inv b -> old <> [] -> zlen old <= 2147483647 -> zlen new <= 2147483647 ->
  (0 <= i -> 0 <= n -> i + n <= len b ->
     exists res, substituted old new (part (content b) i n) res /\
     match SB_Replace b (Some old) (Some new) i n with
     | Ret b' => inv b' /\ content b' = firstn (Z.to_nat i) (content b) ++ res ++ skipn (Z.to_nat (i + n)) (content b) /\ maxc b' = maxc b /\
                 len b' = len b - n + zlen res /\ (terminated b -> terminated b')
     | Exn e => e = ArgumentOutOfRangeException /\ maxc b < len b - n + zlen res /\ cap b < len b - n + zlen res
     | UB u => u = SignedOverflow /\ 2147483520 < len b - n + zlen res
     end) /\
  (i < 0 \/ n < 0 \/ len b < i + n -> SB_Replace b (Some old) (Some new) i n = Exn ArgumentOutOfRangeException).
Proof.
  intros I N Bo Bn. assert (I' := I). destruct I' as (H1 & H2 & H3 & H4 & H5 & H6 & H7).
  assert (Bl : len b <= 2147483520) by (destruct (internal b); lia).
  assert (Po : 1 <= zlen old). { destruct old; [contradiction|]. rewrite zlen_cons. pose proof (zlen_nonneg old). lia. }
  unfold SB_Replace. split.
  - intros Hi Hn Hin. destruct (inv_split b I) as (r & Em & El & Nr & Lr).
    destruct (split_at (content b) i) as (a & c' & Ec & La); [lia|].
    destruct (split_at c' n) as (w & z & Ec' & Lw). { apply (f_equal zlen) in Ec. rewrite zlen_app in Ec. lia. }
    assert (Lz : zlen z = len b - i - n). { apply (f_equal zlen) in Ec, Ec'. rewrite zlen_app in *. lia. }
    assert (Pw : part (content b) i n = w).
    { unfold part. rewrite Ec, Ec'. rewrite skipn_zlen by (unfold zlen in *; lia). apply firstn_zlen. unfold zlen in *. lia. }
    destruct (subst_n_total old new N (length w) w) as (res & k & SN); [lia|].
    exists res. rewrite Pw. split; [eapply subst_n_substituted; exact SN|].
    pose proof (subst_n_count _ _ _ _ _ SN) as (Kp & Lres).
    rewrite throw_if_false by lia. rewrite bind_ret. rewrite throw_if_false by lia. rewrite bind_ret. rewrite throw_if_false by lia. rewrite bind_ret.
    assert (Mem : mem b = a ++ w ++ z ++ r). { rewrite Em, Ec, Ec', <- !app_assoc. reflexivity. }
    assert (CS : CountSubStrings b old i n = Ret k).
    { unfold CountSubStrings. rewrite i32_ret by lia. rewrite bind_ret. rewrite i32_ret by lia. rewrite bind_ret. rewrite i32_ret by lia. rewrite bind_ret.
      rewrite (count_loop_spec old new w res k N SN _ _ a (z ++ r)); [f_equal; lia|exact Mem|lia|lia|lia]. }
    rewrite CS, bind_ret.
    assert (Fin : firstn (Z.to_nat i) (content b) = a /\ skipn (Z.to_nat (i + n)) (content b) = z).
    { rewrite Ec, Ec'. split; [apply firstn_zlen; unfold zlen in *; lia|]. rewrite app_assoc. apply skipn_zlen. rewrite app_length. unfold zlen in *. lia. }
    destruct Fin as (-> & ->).
    destruct (k =? 0) eqn:Ek.
    { assert (k = 0) by lia. subst k. split; [exact I|]. split; [|split; [reflexivity|split; [lia|exact (fun H => H)]]].
      (* no hit: nothing changes *)
      assert (E : res = w). { clear -SN N. remember 0 as k eqn:Ek. revert Ek. induction SN as [|s r k H IH|c s r k D H IH]; intros Ek; [reflexivity| |].
        - pose proof (subst_n_count _ _ _ _ _ H). lia.
        - f_equal. apply IH. exact Ek. }
      rewrite E, Ec, Ec'. reflexivity. }
    set (delta := zlen new - zlen old) in *.
    assert (RS : forall b1 r1, inv b1 -> mem b1 = content b ++ r1 -> len b1 = len b -> maxc b1 = maxc b -> last r1 1 = 0 -> 1 <= zlen r1 -> 1 + k * delta <= zlen r1 ->
      exists b', ReplaceSubString b1 old new i n = Ret b' /\ inv b' /\ content b' = a ++ res ++ z /\ maxc b' = maxc b /\ len b' = len b - n + zlen res /\ (hd 1 r1 = 0 -> terminated b')).
    { intros b1 r1 I1 M1 L1 X1 La1 P1 P2. unfold ReplaceSubString. rewrite i32_ret by lia. rewrite bind_ret. rewrite i32_ret by lia. rewrite bind_ret. rewrite i32_ret by lia. rewrite bind_ret.
      destruct (replace_loop_spec old new w res k N SN (Z.to_nat (i + 1 + n - zlen old - i)) (mem b1) a z r1 i (i + 1 + n - zlen old) (len b1)) as (r' & E & L' & T' & HD); try assumption; try lia.
      - rewrite M1, Ec, Ec', <- !app_assoc. reflexivity.
      - rewrite E, bind_ret. eexists. split; [reflexivity|].
        destruct (inv_build b1 (a ++ res ++ z ++ r') (zlen a + zlen res + zlen z) (a ++ res ++ z) r' I1) as (I2 & C2).
        + rewrite <- !app_assoc. reflexivity.
        + exact T'.
        + rewrite !zlen_app. lia.
        + exact L'.
        + split; [exact I2|]. split; [exact C2|]. split; [exact X1|]. split; [cbn [set_mem len]; lia|].
          intros H. eapply terminated_build with (c := a ++ res ++ z); [rewrite <- !app_assoc; reflexivity|rewrite !zlen_app; lia|apply HD; exact H]. }
    assert (Pr : 1 <= zlen r). { destruct r; [contradiction|]. rewrite zlen_cons. pose proof (zlen_nonneg r). lia. }
    destruct (0 <? delta) eqn:Ed.
    + destruct (Z_le_gt_dec (delta * k) 2147483647) as [Ld|Gd].
      2:{ rewrite i32_ub by lia. cbn [bind]. split; [reflexivity|]. lia. }
      rewrite i32_ret by nia. rewrite bind_ret. unfold EnsureRoomFor.
      destruct (Z_le_gt_dec (len b + delta * k) 2147483647) as [Ls|Gs].
      2:{ rewrite i32_ub by lia. cbn [bind]. split; [reflexivity|]. lia. }
      rewrite i32_ret by nia. rewrite bind_ret.
      pose proof (EnsureCapacity_spec b (len b + delta * k) I) as S. destruct (EnsureCapacity b (len b + delta * k)) as [b1|e|u]; cbn [bind].
      2:{ destruct S as (-> & S). split; [reflexivity|]. assert (0 <= delta * k) by nia. lia. }
      2:{ destruct S as (-> & S). split; [reflexivity|]. lia. }
      destruct S as (I1 & C1 & L1 & M1 & R1 & Q1 & _ & Q2 & Kk). pose proof (room b1 I1) as Rm.
      destruct (inv_split b1 I1) as (r1 & Em1 & El1 & Nr1 & Lr1). rewrite C1 in Em1, El1. rewrite L1 in *.
      assert (Lr1' : zlen (mem b1) = len b + zlen r1) by (rewrite Em1, zlen_app; lia).
      destruct (RS b1 r1 I1 Em1 L1 M1 Lr1) as (b' & -> & A & B & C & D & T); [assert (0 <= delta * k) by nia; lia|lia|]. do 4 (split; [assumption|]).
      intros Tm. apply T. destruct Kk as (kk & Ekk & Hk). rewrite Em1 in Ekk. apply app_inv_head in Ekk. subst kk. destruct Hk as [(_ & Hk)|(_ & Hk)].
      * eapply terminated_split; [exact I| |exact Tm]. rewrite <- Hk. exact Em1.
      * destruct r1; [contradiction|]. inversion Hk; subst. reflexivity.
    + destruct (RS b r I Em eq_refl eq_refl Lr) as (b' & E & A & B & C & D & T); [lia|nia|]. cbn [bind]. rewrite E. do 4 (split; [assumption|]).
      intros Tm. apply T. eapply terminated_split; [exact I|exact Em|exact Tm].
  - intros Bad. destruct ((i <? 0) || (len b <? i)) eqn:E1; [reflexivity|]. cbn [throw_if bind]. rewrite throw_if_true by lia. reflexivity.
Qed.
