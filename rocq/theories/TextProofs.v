From Verif Require Import Tac BoxModel Bytes MemModel MemProofs ArrayModel ArraySpec ArrayProofs StringBuilderModel StringBuilderSpec StringBuilderProofs StringBuilderHistory StringModel StringSpec StringProofs StringBuildProofs TextModel TextSpec.

(** ** Boolean.Parse *)
Lemma no_nul_fold ct s : (forall c, c <> 0 -> towlower ct c <> 0) -> no_nul s -> no_nul (map (towlower ct) s).
Proof. intros H N. unfold no_nul in *. rewrite Forall_map. eapply Forall_impl; [|exact N]. auto. Qed.
(** The comparison with a word of the language, ignoring case: 0 exactly on prefixes. *)
Lemma compare_word ct (s w z : list Z) : (forall c, c <> 0 -> towlower ct c <> 0) -> towlower ct 0 = 0 -> no_nul s ->
  exists r, compare_loop ct true false (s ++ z) (w ++ [0]) (length s) = Ret r /\ (r = 0 <-> has_prefix (map (towlower ct) w) (map (towlower ct) s)).
Proof.
  intros Hl H0 N. revert w. induction s as [|x s IH]; intros w; [exists 0; split; [reflexivity|]; split; [intros _; exists (map (towlower ct) w); reflexivity|reflexivity]|].
  inversion N as [|? ? Hx N']; subst. specialize (IH N'). cbn [app length]. destruct w as [|y w]; cbn [app compare_loop negb andb map].
  - exists (if towlower ct 0 <? towlower ct x then 1 else if towlower ct x <? towlower ct 0 then -1 else 0). pose proof (Hl x Hx) as Hx'. rewrite H0.
    replace (towlower ct x =? 0) with false by lia. cbn [orb negb]. split; [reflexivity|]. split.
    + intros H. exfalso. destruct (0 <? towlower ct x) eqn:?; [discriminate|]. destruct (towlower ct x <? 0) eqn:?; [discriminate|lia].
    + intros (b & H). discriminate.
  - pose proof (Hl x Hx) as Hx'. replace (towlower ct x =? 0) with false by lia. cbn [orb].
    destruct (towlower ct x =? towlower ct y) eqn:E; cbn [negb].
    + destruct (IH w) as (r & -> & Hr). exists r. split; [reflexivity|]. rewrite Hr. apply Z.eqb_eq in E. rewrite E. split.
      * intros (b & H). exists b. cbn [app]. f_equal. exact H.
      * intros (b & H). exists b. apply (f_equal (@tl Z)) in H. exact H.
    + exists (if towlower ct y <? towlower ct x then 1 else if towlower ct x <? towlower ct y then -1 else 0). split; [reflexivity|]. split.
      * intros H. exfalso. destruct (towlower ct y <? towlower ct x) eqn:?; [discriminate|]. destruct (towlower ct x <? towlower ct y) eqn:?; [discriminate|lia].
      * intros (b & H). apply (f_equal (hd 0)) in H. cbn [hd app] in H. lia.
Qed.
Lemma Compare_word ct (s w : str) : (forall c, c <> 0 -> towlower ct c <> 0) -> towlower ct 0 = 0 -> no_nul s ->
  exists r, Compare ct (Some s) (Some w) true = Ret r /\ (r = 0 <-> has_prefix (map (towlower ct) w) (map (towlower ct) s)).
Proof.
  intros Hl H0 N. unfold Compare, Compare_chars. rewrite andb_false_r. unfold drop, buffer, zlen. cbn [Z.to_nat skipn]. rewrite Nat2Z.id.
  apply compare_word; assumption.
Qed.
Lemma has_prefix_dec (w s : list Z) : has_prefix w s \/ ~ has_prefix w s.
Proof.
  revert w. induction s as [|x s IH]; intros w; [left; exists w; reflexivity|]. destruct w as [|y w]; [right; intros (b & H); discriminate|].
  destruct (Z.eq_dec x y) as [->|N].
  - destruct (IH w) as [(b & ->)|H]; [left; exists b; reflexivity|right; intros (b & H'); apply H; exists b; apply (f_equal (@tl Z)) in H'; exact H'].
  - right. intros (b & H). apply (f_equal (hd 0)) in H. cbn [hd app] in H. lia.
Qed.

(** ** CopyChars *)
Lemma CopyChars_room (m s t : list Z) : zlen s < zlen m -> CopyChars m (zlen m) (s ++ t) (zlen s) = Ret (s ++ 0 :: drop (zlen s + 1) m).
Proof.
  intros H. pose proof (zlen_nonneg s). unfold CopyChars. replace (zlen m <? zlen s) with false by lia. unfold memcpy. replace (zlen s <? 0) with false by lia.
  rewrite memread_part by lia. rewrite bind_ret, part_all.
  unfold memwrite. replace ((0 <? 0) || (zlen m <? 0 + zlen s)) with false by lia. rewrite bind_ret. unfold take, drop. cbn [Z.to_nat firstn app].
  unfold write. assert (D : zlen (skipn (Z.to_nat (0 + zlen s)) m) = zlen m - zlen s). { unfold zlen in *. rewrite skipn_length. lia. }
  replace ((zlen s <? 0) || (Z.of_nat (length (s ++ skipn (Z.to_nat (0 + zlen s)) m)) <=? zlen s)) with false.
  2: { change (Z.of_nat (length (s ++ skipn (Z.to_nat (0 + zlen s)) m))) with (zlen (s ++ skipn (Z.to_nat (0 + zlen s)) m)). rewrite zlen_app, D. lia. }
  f_equal. assert (U : forall (a b : list Z) x y, upd (a ++ x :: b) (length a) y = a ++ y :: b). { intros a. induction a as [|z a IH]; intros; cbn [app length upd]; [reflexivity|]. f_equal. apply IH. }
  assert (S : exists x, skipn (Z.to_nat (0 + zlen s)) m = x :: skipn (Z.to_nat (zlen s + 1)) m).
  { replace (Z.to_nat (zlen s + 1)) with (S (Z.to_nat (0 + zlen s))) by lia. assert (L : (Z.to_nat (0 + zlen s) < length m)%nat) by (unfold zlen in *; lia).
    revert L. generalize (Z.to_nat (0 + zlen s)). clear. intros n. revert m. induction n as [|n IH]; intros [|x m] L; cbn in *; try lia; [exists x; reflexivity|]. apply IH. lia. }
  destruct S as (x & ->). replace (Z.to_nat (zlen s)) with (length s) by (unfold zlen; lia). apply U.
Qed.

Lemma wcslen_exists (s z : list Z) : exists n, wcslen (s ++ 0 :: z) = Ret n /\ 0 <= n.
Proof.
  induction s as [|c s (n & IH & Hn)]; [exists 0; split; [reflexivity|lia]|]. cbn [app wcslen]. destruct (c =? 0); [exists 0; split; [reflexivity|lia]|].
  rewrite IH. exists (n + 1). split; [reflexivity|lia].
Qed.
Lemma String_from_text (s z : list Z) : zlen s < 2147483647 -> String_from (s ++ 0 :: z) 0 (zlen s) = Ret s.
Proof.
  intros H. pose proof (zlen_nonneg s). unfold String_from. replace (zlen s <? 0) with false by lia. rewrite bind_ret. destruct (wcslen_exists s z) as (n & -> & Hn). rewrite bind_ret.
  rewrite throw_if_false by lia. rewrite bind_ret. rewrite i32_ret by lia. rewrite bind_ret. rewrite memread_part by lia. rewrite part_all. reflexivity.
Qed.
Lemma write_same (s z : list Z) x y : write (s ++ x :: z) (zlen s) y = Ret (s ++ y :: z).
Proof.
  pose proof (zlen_nonneg s). pose proof (zlen_nonneg z). unfold write. change (Z.of_nat (length (s ++ x :: z))) with (zlen (s ++ x :: z)). rewrite zlen_app, zlen_cons.
  replace ((zlen s <? 0) || (zlen s + (zlen z + 1) <=? zlen s)) with false by lia. f_equal. replace (Z.to_nat (zlen s)) with (length s) by (unfold zlen; lia).
  clear. induction s as [|c s IH]; cbn [app length upd]; [reflexivity|]. f_equal. exact IH.
Qed.
(** Object.ToString for a FormatString that writes [s] and a NUL. *)
Lemma Object_ToString_text format junk s z : zlen s < 2147483647 -> format junk 128 = Ret (s ++ 0 :: z, zlen s) -> Object_ToString format junk = Ret s.
Proof. intros L E. unfold Object_ToString. rewrite E, bind_ret, write_same, bind_ret. apply String_from_text. exact L. Qed.

(** ** hex dumps *)
Lemma hex_char_spec v : 0 <= v < 16 -> hex_char v = hex_digit v.
Proof.
  intros H. assert (S : sweep 16 (fun v => hex_char v =? hex_digit v) = true) by (vm_compute; reflexivity).
  apply Z.eqb_eq. apply (sweep_spec 16 (fun v => hex_char v =? hex_digit v) S). lia.
Qed.
Lemma high_nibble b : byte b -> Z.land (Z.shiftr b 4) 15 = b / 16.
Proof. intros H. unfold byte in H. rewrite Z.shiftr_div_pow2 by lia. change 15 with (Z.ones 4). rewrite Z.land_ones by lia. change (2 ^ 4) with 16. apply Z.mod_small. lia. Qed.
Lemma low_nibble b : Z.land b 15 = b mod 16.
Proof. change 15 with (Z.ones 4). rewrite Z.land_ones by lia. reflexivity. Qed.

(** Every byte preceded by its separator. *)
Definition dashed (bs : list Z) : list Z := concat (map (fun b => 45 :: hex_byte b) bs).
Lemma joined_dashed b bs : joined [45] (map hex_byte (b :: bs)) = hex_byte b ++ dashed bs.
Proof.
  revert b. induction bs as [|c bs IH]; intros b; [cbn [map joined dashed concat]; rewrite app_nil_r; reflexivity|].
  change (joined [45] (map hex_byte (b :: c :: bs))) with (hex_byte b ++ [45] ++ joined [45] (map hex_byte (c :: bs))). rewrite IH. reflexivity.
Qed.
Lemma dashed_len bs : zlen (dashed bs) = 3 * zlen bs.
Proof. induction bs as [|b bs IH]; [reflexivity|]. change (dashed (b :: bs)) with ([45; hex_digit (b / 16); hex_digit (b mod 16)] ++ dashed bs). rewrite zlen_app, IH, (zlen_cons b bs). change (zlen [45; hex_digit (b / 16); hex_digit (b mod 16)]) with 3. lia. Qed.

Lemma hex_loop_spec (a : arr) s bs : forall i n b, dimensionCount a = 1 -> DataTypeSize (dataType a) = 1 -> 0 <= s <= i -> i + Z.of_nat n <= dimension1Size a <= 2147483647 ->
  Forall byte bs -> is_part (data a) i (Z.of_nat n) bs -> inv b -> len b + (3 * Z.of_nat n - (if s <? i then 0 else 1)) <= cap b ->
  exists b', hex_loop a s i n b = Ret b' /\ inv b' /\ content b' = content b ++ (if s <? i then dashed bs else hex_dump bs).
Proof.
  induction bs as [|x bs IH]; intros i n b D1 DS Hi Hn HB HP I R.
  - destruct n as [|n]. 2: { destruct HP as (? & ? & _ & _ & HP). pose proof (@zlen_nil Z). lia. }
    exists b. split; [reflexivity|]. split; [exact I|]. destruct (s <? i); cbn; rewrite app_nil_r; reflexivity.
  - destruct HP as (l & r & E & L1 & L2). rewrite zlen_cons in L2. pose proof (zlen_nonneg bs). destruct n as [|n]; [lia|]. cbn [hex_loop].
    inversion HB as [|? ? Hx HB']; subst.
    assert (SEP : exists b1, (if s <? zlen l then Append_char b 45 1 else Ret b) = Ret b1 /\ inv b1 /\ content b1 = content b ++ (if s <? zlen l then [45] else []) /\ len b1 + (3 * Z.of_nat n + 2) <= cap b1).
    { destruct (s <? zlen l) eqn:Es.
      - destruct (Append_char_room b 45 1 I ltac:(lia) ltac:(lia)) as (b1 & A1 & A2 & A3 & A4 & A5 & A6). exists b1. split; [exact A1|]. split; [exact A2|]. split; [exact A3|]. lia.
      - exists b. split; [reflexivity|]. split; [exact I|]. split; [rewrite app_nil_r; reflexivity|]. lia. }
    destruct SEP as (b1 & -> & I1 & C1 & R1). rewrite bind_ret. unfold Address, ComputeIndex. rewrite D1. change (1 =? 1) with true. cbn iota.
    rewrite throw_if_false by lia. rewrite bind_ret. rewrite throw_if_false by lia. rewrite !bind_ret. rewrite DS, Z.mul_1_r, i32_ret by lia. rewrite bind_ret.
    assert (RD : read (data a) (zlen l) = Ret x). { unfold read. replace (zlen l <? 0) with false by lia. rewrite E. unfold zlen. rewrite Nat2Z.id. rewrite nth_error_app2 by lia. rewrite Nat.sub_diag. reflexivity. }
    rewrite RD, bind_ret.
    destruct (Append_char_room b1 (hex_char (Z.land (Z.shiftr x 4) 15)) 1 I1 ltac:(lia) ltac:(lia)) as (b2 & -> & I2 & C2 & M2 & L2' & K2). rewrite bind_ret.
    destruct (Append_char_room b2 (hex_char (Z.land x 15)) 1 I2 ltac:(lia) ltac:(lia)) as (b3 & -> & I3 & C3 & M3 & L3 & K3). rewrite bind_ret.
    rewrite high_nibble, hex_char_spec in C2 by (try exact Hx; unfold byte in Hx; lia). rewrite low_nibble, hex_char_spec in C3 by lia.
    change (repeat (hex_digit (x / 16)) (Z.to_nat 1)) with [hex_digit (x / 16)] in C2. change (repeat (hex_digit (x mod 16)) (Z.to_nat 1)) with [hex_digit (x mod 16)] in C3.
    destruct (IH (zlen l + 1) n b3 D1 DS) as (b' & E' & I' & C'); try lia; try assumption.
    { exists (l ++ [x]), r. split; [rewrite E, <- app_assoc; reflexivity|]. split; [rewrite zlen_app; reflexivity|lia]. }
    { replace (s <? zlen l + 1) with true by lia. lia. }
    exists b'. split; [exact E'|]. split; [exact I'|]. rewrite C'. replace (s <? zlen l + 1) with true by lia. rewrite C3, C2, C1. rewrite <- !app_assoc. f_equal.
    destruct (s <? zlen l); [reflexivity|]. unfold hex_dump. rewrite joined_dashed. reflexivity.
Qed.

(** ** Filling fresh blocks *)
Lemma fill_loop_spec f : forall vs a z i, zlen a = i -> (length vs <= length z)%nat -> (forall k, (k < length vs)%nat -> f (i + Z.of_nat k) = Ret (nth k vs 0)) ->
  fill_loop f (a ++ z) i (length vs) = Ret (a ++ vs ++ skipn (length vs) z).
Proof.
  induction vs as [|v vs IH]; intros a z i L Z F; [reflexivity|]. destruct z as [|x z]; [cbn in Z; lia|]. cbn [length] in *. cbn [fill_loop].
  pose proof (F O ltac:(lia)) as F0. cbn [nth] in F0. rewrite Z.add_0_r in F0. rewrite F0, bind_ret, <- L, write_same, bind_ret.
  replace (a ++ v :: z) with ((a ++ [v]) ++ z) by (rewrite <- app_assoc; reflexivity). rewrite IH.
  - rewrite <- app_assoc. reflexivity.
  - rewrite zlen_app. change (zlen [v]) with 1. lia.
  - lia.
  - intros k Hk. specialize (F (S k) ltac:(lia)). cbn [nth] in F. rewrite <- F. f_equal. lia.
Qed.
Lemma fresh_string_spec f vs : zlen vs < 2147483647 -> (forall k, 0 <= k < zlen vs -> f k = Ret (nth (Z.to_nat k) vs 0)) -> fresh_string f (zlen vs) = Ret vs.
Proof.
  intros L F. pose proof (zlen_nonneg vs). unfold fresh_string. rewrite i32_ret by lia. rewrite bind_ret. replace (Z.to_nat (zlen vs)) with (length vs) by (unfold zlen; lia).
  replace (Z.to_nat (zlen vs + 1)) with (length vs + 1)%nat by (unfold zlen; lia).
  pose proof (fill_loop_spec f vs [] (repeat 0 (length vs + 1)) 0 eq_refl) as S. cbn [app] in S. rewrite S.
  - rewrite bind_ret. assert (E : skipn (length vs) (repeat 0 (length vs + 1)) = [0]). { rewrite repeat_app. rewrite skipn_app, repeat_length, Nat.sub_diag. rewrite skipn_all2 by (rewrite repeat_length; lia). reflexivity. }
    rewrite E, write_same, bind_ret. f_equal. unfold take. unfold zlen. rewrite Nat2Z.id. rewrite firstn_app, Nat.sub_diag, firstn_all. apply app_nil_r.
  - rewrite repeat_length. lia.
  - intros k Hk. rewrite F by (unfold zlen; lia). f_equal. f_equal. lia.
Qed.
Lemma read_nth (s z : list Z) i : 0 <= i < zlen s -> read (s ++ z) i = Ret (nth (Z.to_nat i) s 0).
Proof.
  intros H. unfold read. replace (i <? 0) with false by lia. unfold zlen in H. rewrite nth_error_app1 by lia. rewrite (nth_error_nth' s 0) by lia. reflexivity.
Qed.
Lemma fresh_string_overflow f n : 2147483647 <= n -> fresh_string f n = UB SignedOverflow.
Proof. intros H. unfold fresh_string. rewrite i32_ub by lia. reflexivity. Qed.
Lemma space_loop_spec ct s z : space_loop ct (s ++ z) (length s) = Ret (forallb (iswspace ct) s).
Proof. induction s as [|c s IH]; [reflexivity|]. cbn [app length space_loop forallb]. destruct (iswspace ct c); cbn [negb andb]; [exact IH|reflexivity]. Qed.
Lemma app_cut {A} (a a' b b' : list A) : length a = length a' -> a ++ b = a' ++ b' -> a = a' /\ b = b'.
Proof.
  revert a'. induction a as [|x a IH]; intros [|y a'] L E; try discriminate; [auto|]. cbn [app] in E. injection E as -> E. destruct (IH a' ltac:(cbn in L; lia) E) as (-> & ->). auto.
Qed.
