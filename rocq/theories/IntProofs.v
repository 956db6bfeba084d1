(** * Proofs about integer text *)
From Verif Require Import Tac IntModel IntSpec.

Lemma zlen_cons {A} (a : A) l : zlen (a :: l) = 1 + zlen l.
Proof. unfold zlen. cbn [length]. lia. Qed.
Lemma zlen_app {A} (l l' : list A) : zlen (l ++ l') = zlen l + zlen l'.
Proof. unfold zlen. rewrite app_length. lia. Qed.
Lemma zlen_nonneg {A} (l : list A) : 0 <= zlen l.
Proof. unfold zlen. lia. Qed.

Definition two64 : Z := 18446744073709551616.
Lemma cast_u64_mod z : cast_u64 z = z mod two64.
Proof. reflexivity. Qed.

Lemma IsDigit_iff c : IsDigit c = true <-> digit c.
Proof. unfold IsDigit, digit. lia. Qed.
Lemma IsDigit_false c : IsDigit c = false <-> ~ digit c.
Proof. unfold IsDigit, digit. lia. Qed.

(** ** Digit values *)
Definition dval_from (a : Z) (ds : list Z) : Z := fold_left (fun a c => 10 * a + (c - 48)) ds a.

Lemma dval_nonneg ds : forall a, 0 <= a -> Forall digit ds -> 0 <= dval_from a ds.
Proof.
  induction ds as [|c ds IH]; intros a Ha Hd; [exact Ha|].
  inversion Hd as [|? ? Hc Hds]; subst. cbn [dval_from fold_left]. apply IH; [|exact Hds].
  unfold digit in Hc. lia.
Qed.

Lemma decimal_value_nonneg ds : Forall digit ds -> 0 <= decimal_value ds.
Proof. apply dval_nonneg. lia. Qed.

Lemma dval_app a l l' : dval_from a (l ++ l') = dval_from (dval_from a l) l'.
Proof. unfold dval_from. apply fold_left_app. Qed.

Lemma dval_mod ds : forall a b, a mod two64 = b mod two64 ->
  dval_from a ds mod two64 = dval_from b ds mod two64.
Proof.
  induction ds as [|c ds IH]; intros a b H; [exact H|].
  cbn [dval_from fold_left]. apply IH.
  rewrite (Z.add_mod (10 * a)), (Z.add_mod (10 * b)) by (unfold two64; lia).
  rewrite (Z.mul_mod 10 a), (Z.mul_mod 10 b) by (unfold two64; lia). rewrite H. reflexivity.
Qed.

Section WS.
Variable ws : Z -> bool.
Hypothesis Hws : space_ok ws.

Lemma ws_nul : ws 0 = false.
Proof. destruct (ws 0) eqn:E; [|reflexivity]. apply Hws in E. lia. Qed.

(** ** The three loops on a string followed by its terminator *)
Lemma skip_ws_app w r n : Forall (fun c => ws c = true) w ->
  (r = [] \/ exists c t, r = c :: t /\ ws c = false) -> n = zlen w + zlen r ->
  skip_ws ws (w ++ r ++ [0]) n = Ret (r ++ [0], zlen r).
Proof.
  revert n. induction w as [|c w IH]; intros n Hw Hr Hn.
  - cbn [app]. destruct Hr as [->|(c & t & -> & Hc)].
    + cbn. f_equal. f_equal. change (zlen (@nil Z)) with 0 in *. lia.
    + cbn [app skip_ws]. destruct (negb (c =? 0) && (0 <? n)).
      * rewrite Hc. cbn [negb]. f_equal. f_equal. change (zlen (@nil Z)) with 0 in *. lia.
      * f_equal. f_equal. change (zlen (@nil Z)) with 0 in *. lia.
  - inversion Hw as [|? ? Hc Hw']; subst. cbn [app skip_ws].
    assert (c <> 0) by (intros ->; rewrite ws_nul in Hc; discriminate).
    rewrite zlen_cons. pose proof (zlen_nonneg w). pose proof (zlen_nonneg r).
    replace (negb (c =? 0) && (0 <? 1 + zlen w + zlen r)) with true by lia.
    rewrite Hc. cbn [negb]. apply IH; auto. lia.
Qed.

Lemma read_sign_app sg k r : sign_text sg k ->
  (sg = [] -> r = [] \/ exists c t, r = c :: t /\ c <> 43 /\ c <> 45) ->
  read_sign (sg ++ r ++ [0]) (zlen sg + zlen r) = Ret (r ++ [0], zlen r, k).
Proof.
  intros Hs Hr. pose proof (zlen_nonneg r). destruct Hs.
  - cbn [app]. change (zlen (@nil Z)) with 0. rewrite Z.add_0_l.
    destruct (Hr eq_refl) as [->|(c & t & -> & H1 & H2)].
    + reflexivity.
    + cbn [app read_sign]. destruct (negb (c =? 0) && (0 <? zlen (c :: t))); [|reflexivity].
      replace (c =? 45) with false by lia. replace (c =? 43) with false by lia. reflexivity.
  - cbn [app read_sign]. rewrite zlen_cons. change (zlen (@nil Z)) with 0.
    replace (negb (43 =? 0) && (0 <? 1 + 0 + zlen r)) with true by lia. cbn [Z.eqb Pos.eqb].
    f_equal. f_equal. f_equal. lia.
  - cbn [app read_sign]. rewrite zlen_cons. change (zlen (@nil Z)) with 0.
    replace (negb (45 =? 0) && (0 <? 1 + 0 + zlen r)) with true by lia. cbn [Z.eqb Pos.eqb].
    f_equal. f_equal. f_equal. lia.
Qed.

Lemma read_digits_app ds : forall r a got, Forall digit ds ->
  (r = [] \/ exists c t, r = c :: t /\ ~ digit c) ->
  read_digits (ds ++ r ++ [0]) (zlen ds + zlen r) (a mod two64) got =
    Ret (r ++ [0], zlen r, dval_from a ds mod two64, got || negb (Nat.eqb (length ds) 0)).
Proof.
  induction ds as [|c ds IH]; intros r a got Hd Hr; pose proof (zlen_nonneg r).
  - cbn [app length Nat.eqb negb]. rewrite orb_false_r. change (zlen (@nil Z)) with 0. rewrite Z.add_0_l.
    destruct Hr as [->|(c & t & -> & Hc)]; [reflexivity|].
    cbn [app read_digits]. destruct (negb (c =? 0) && (0 <? zlen (c :: t))); [|reflexivity].
    apply IsDigit_false in Hc. rewrite Hc. reflexivity.
  - inversion Hd as [|? ? Hc Hd']; subst. cbn [app read_digits]. rewrite zlen_cons.
    pose proof (zlen_nonneg ds). unfold digit in Hc.
    replace (negb (c =? 0) && (0 <? 1 + zlen ds + zlen r)) with true by lia.
    replace (IsDigit c) with true by (unfold IsDigit; lia). cbn [negb].
    replace (1 + zlen ds + zlen r - 1) with (zlen ds + zlen r) by lia.
    rewrite cast_u64_mod.
    replace ((10 * (a mod two64) + c - 48) mod two64) with ((10 * a + (c - 48)) mod two64).
    + rewrite IH by assumption. cbn [dval_from fold_left length Nat.eqb negb].
      rewrite orb_true_r. reflexivity.
    + replace (10 * (a mod two64) + c - 48) with (10 * (a mod two64) + (c - 48)) by lia.
      rewrite (Z.add_mod (10 * a)), (Z.add_mod (10 * (a mod two64))) by (unfold two64; lia).
      rewrite (Z.mul_mod 10 a), (Z.mul_mod 10 (a mod two64)) by (unfold two64; lia).
      rewrite Z.mod_mod by (unfold two64; lia). reflexivity.
Qed.

(** The generic run of the parser on a decomposed string. *)
Lemma parse_run w1 sg k ds rest :
  Forall (fun c => ws c = true) w1 -> sign_text sg k -> Forall digit ds ->
  (rest = [] \/ exists c t, rest = c :: t /\ ~ digit c) ->
  (w1 ++ sg ++ ds ++ rest = w1 \/ exists c t, sg ++ ds ++ rest = c :: t /\ ws c = false) ->
  (sg = [] -> ds ++ rest = [] \/ exists c t, ds ++ rest = c :: t /\ c <> 43 /\ c <> 45) ->
  TryParseInternal_str ws (Some (w1 ++ sg ++ ds ++ rest)) =
    Ret (match rest with [] => true | c :: _ => ws c end && negb (Nat.eqb (length ds) 0),
         decimal_value ds mod two64, k).
Proof.
  intros Hw Hsg Hds Hrest Hhead Hsgn.
  unfold TryParseInternal_str, TryParseInternal.
  rewrite <- app_assoc. change [NUL] with [0].
  rewrite (skip_ws_app w1 (sg ++ ds ++ rest)); [|exact Hw| |rewrite !zlen_app; reflexivity].
  2:{ destruct Hhead as [H|H]; [left|right; exact H].
      rewrite <- (app_nil_r w1) in H at 2. apply app_inv_head in H. exact H. }
  cbn [bind]. cbv beta iota. rewrite <- !app_assoc.
  rewrite (zlen_app sg).
  replace ((sg ++ ds ++ rest ++ [0])) with (sg ++ (ds ++ rest) ++ [0]) by (rewrite <- app_assoc; reflexivity).
  rewrite (read_sign_app sg k (ds ++ rest)) by assumption.
  cbn [bind]. cbv beta iota. rewrite zlen_app.
  rewrite <- !app_assoc.
  change 0 with (0 mod two64) at 2.
  rewrite read_digits_app by assumption. cbn [bind]. cbv beta iota. cbn [orb].
  change (dval_from 0 ds) with (decimal_value ds).
  destruct rest as [|c t].
  - change (zlen (@nil Z)) with 0. change (0 <? 0) with false. cbn [andb]. reflexivity.
  - rewrite zlen_cons. pose proof (zlen_nonneg t). replace (0 <? 1 + zlen t) with true by lia.
    cbn. destruct (ws c); reflexivity.
Qed.

Lemma digits_head ds : Forall digit ds -> ds <> [] -> exists c t, ds = c :: t /\ digit c.
Proof. destruct ds as [|c t]; [contradiction|]. intros H _. inversion H; subst. eauto. Qed.

Lemma ws_digit c : digit c -> ws c = false.
Proof. intros H. destruct (ws c) eqn:E; [|reflexivity]. apply Hws in E. tauto. Qed.

Lemma lax_accept s k ds : lax_integer_text ws s k ds ->
  TryParseInternal_str ws (Some s) = Ret (true, decimal_value ds mod two64, k).
Proof.
  intros (w1 & sg & rest & -> & Hsg & Hw & Hds & Hne & Hrest).
  destruct (digits_head ds Hds Hne) as (d & t & -> & Hd).
  rewrite (parse_run w1 sg k (d :: t) rest); auto.
  - f_equal. f_equal. f_equal. cbn [length Nat.eqb negb]. rewrite andb_true_r.
    destruct Hrest as [->|(c & t' & -> & Hc)]; [reflexivity|exact Hc].
  - destruct Hrest as [->|(c & t' & -> & Hc)]; [left; reflexivity|right].
    exists c, t'. split; [reflexivity|]. apply Hws in Hc. tauto.
  - right. destruct Hsg; cbn [app]; eexists; eexists; (split; [reflexivity|]).
    + apply ws_digit; exact Hd.
    + destruct (ws 43) eqn:E; [apply Hws in E; lia|reflexivity].
    + destruct (ws 45) eqn:E; [apply Hws in E; lia|reflexivity].
  - intros _. right. cbn [app]. eexists; eexists; split; [reflexivity|]. unfold digit in Hd. lia.
Qed.

(** Splitting any string the way the loops do. *)
Lemma split_ws s : exists w r, s = w ++ r /\ Forall (fun c => ws c = true) w /\
  (r = [] \/ exists c t, r = c :: t /\ ws c = false).
Proof.
  induction s as [|c s IH]; [exists [], []; auto|].
  destruct (ws c) eqn:E.
  - destruct IH as (w & r & -> & Hw & Hr). exists (c :: w), r. auto.
  - exists [], (c :: s). split; [reflexivity|]. split; [constructor|]. right. eauto.
Qed.
Lemma split_digits s : exists w r, s = w ++ r /\ Forall digit w /\
  (r = [] \/ exists c t, r = c :: t /\ ~ digit c).
Proof.
  induction s as [|c s IH]; [exists [], []; auto|].
  destruct (IsDigit c) eqn:E.
  - apply IsDigit_iff in E. destruct IH as (w & r & -> & Hw & Hr). exists (c :: w), r. auto.
  - apply IsDigit_false in E. exists [], (c :: s). split; [reflexivity|]. split; [constructor|]. right. eauto.
Qed.
Lemma split_sign s : exists sg k r, s = sg ++ r /\ sign_text sg k /\
  (sg = [] -> r = [] \/ exists c t, r = c :: t /\ c <> 43 /\ c <> 45).
Proof.
  destruct s as [|c s]; [exists [], 1, []; split; [reflexivity|split; [constructor|auto]]|].
  destruct (Z.eq_dec c 43) as [->|]; [exists [43], 1, s; split; [reflexivity|split; [constructor|discriminate]]|].
  destruct (Z.eq_dec c 45) as [->|]; [exists [45], (-1), s; split; [reflexivity|split; [constructor|discriminate]]|].
  exists [], 1, (c :: s). split; [reflexivity|]. split; [constructor|]. intros _. right. eauto.
Qed.

Lemma parse_total s : exists ok v k, TryParseInternal_str ws (Some s) = Ret (ok, v, k) /\
  (k = 1 \/ k = -1) /\ 0 <= v < two64 /\
  (ok = true -> exists ds, lax_integer_text ws s k ds /\ v = decimal_value ds mod two64).
Proof.
  destruct (split_ws s) as (w & r & -> & Hw & Hr).
  destruct (split_sign r) as (sg & k & r' & -> & Hsg & Hsg0).
  destruct (split_digits r') as (ds & rest & -> & Hds & Hrest).
  do 3 eexists. split.
  { apply parse_run; try eassumption.
    destruct Hr as [E|Hr]; [left; rewrite E; apply app_nil_r|right; exact Hr]. }
  split; [destruct Hsg; auto|]. split; [apply Z.mod_pos_bound; unfold two64; lia|].
  intros Hok. exists ds. split; [|reflexivity].
  exists w, sg, rest. split; [reflexivity|]. split; [exact Hsg|]. split; [exact Hw|]. split; [exact Hds|].
  apply andb_true_iff in Hok. destruct Hok as [H1 H2]. split.
  - intros ->. discriminate.
  - destruct rest as [|c t]; [auto|]. right. eauto.
Qed.

Lemma strict_lax s k ds : integer_text ws s k ds -> lax_integer_text ws s k ds.
Proof.
  intros (w1 & sg & w2 & -> & Hsg & Hw1 & Hw2 & Hds & Hne).
  exists w1, sg, w2. repeat (split; [first [reflexivity|assumption]|]).
  destruct w2 as [|c t]; [auto|]. right. inversion Hw2; subst. eauto.
Qed.

End WS.

(** ** Printing *)
Lemma dec_digits_value fuel : forall n, 0 <= n < 10 ^ Z.of_nat fuel -> (0 < fuel)%nat ->
  decimal_value (dec_digits fuel n) = n /\ Forall digit (dec_digits fuel n) /\ dec_digits fuel n <> [].
Proof.
  induction fuel as [|f IH]; intros n Hn Hf; [lia|].
  cbn [dec_digits]. assert (Hd : digit (48 + n mod 10)) by (unfold digit; lia).
  destruct (n / 10 =? 0) eqn:E.
  - cbn [app]. split; [unfold decimal_value; cbn [fold_left]; lia|]. split; [constructor; [exact Hd|constructor]|discriminate].
  - rewrite Nat2Z.inj_succ, Z.pow_succ_r in Hn by lia.
    assert (Hf' : (0 < f)%nat).
    { destruct f; [|lia]. change (10 ^ Z.of_nat 0) with 1 in Hn. lia. }
    destruct (IH (n / 10)) as (IH1 & IH2 & IH3); [lia|exact Hf'|].
    split.
    + unfold decimal_value in *. rewrite fold_left_app, IH1. cbn [fold_left]. lia.
    + split; [apply Forall_app; split; [exact IH2|constructor; [exact Hd|constructor]]|].
      intros K. apply app_eq_nil in K. destruct K as [_ K]. discriminate.
Qed.

Lemma print_u_spec n : 0 <= n < two64 ->
  decimal_value (print_u n) = n /\ Forall digit (print_u n) /\ print_u n <> [].
Proof.
  intros H. apply dec_digits_value; [|lia]. unfold two64 in H.
  change (10 ^ Z.of_nat 20) with 100000000000000000000. lia.
Qed.

Lemma print_u_text ws n : 0 <= n < two64 -> integer_text ws (print_u n) 1 (print_u n).
Proof.
  intros H. destruct (print_u_spec n H) as (_ & H2 & H3).
  exists [], [], []. rewrite app_nil_r. repeat (split; [first [reflexivity|constructor|assumption]|]). exact H3.
Qed.
Lemma print_neg_text ws n : 0 <= n < two64 -> integer_text ws (45 :: print_u n) (-1) (print_u n).
Proof.
  intros H. destruct (print_u_spec n H) as (_ & H2 & H3).
  exists [], [45], []. rewrite app_nil_r. repeat (split; [first [reflexivity|constructor|assumption]|]). exact H3.
Qed.

(** ** C14 *)
Section RT.
Variable ws : Z -> bool.
Hypothesis Hws : space_ok ws.

Lemma parse_printed_u n : 0 <= n < two64 ->
  TryParseInternal_str ws (Some (print_u n)) = Ret (true, n, 1).
Proof.
  intros H. rewrite (lax_accept ws Hws _ 1 (print_u n)) by (apply strict_lax, print_u_text; exact H).
  destruct (print_u_spec n H) as (H1 & _ & _). rewrite H1. rewrite Z.mod_small by exact H. reflexivity.
Qed.
Lemma parse_printed_neg n : 0 <= n < two64 ->
  TryParseInternal_str ws (Some (45 :: print_u n)) = Ret (true, n, -1).
Proof.
  intros H. rewrite (lax_accept ws Hws _ (-1) (print_u n)) by (apply strict_lax, print_neg_text; exact H).
  destruct (print_u_spec n H) as (H1 & _ & _). rewrite H1. rewrite Z.mod_small by exact H. reflexivity.
Qed.
Lemma parse_printed_d n : - two64 < n < two64 ->
  TryParseInternal_str ws (Some (print_d n)) = Ret (true, Z.abs n, if n <? 0 then -1 else 1).
Proof.
  intros H. unfold print_d. destruct (n <? 0) eqn:E.
  - rewrite parse_printed_neg by lia. f_equal. f_equal. f_equal. lia.
  - rewrite parse_printed_u by lia. f_equal. f_equal. f_equal. lia.
Qed.

Ltac casts := unfold cast_i8, cast_i16, cast_i32, cast_i64, cast_u8, cast_u16, cast_u32, cast_u64, cast_s, cast_u;
  change (2 ^ (8 - 1)) with 128; change (2 ^ 8) with 256;
  change (2 ^ (16 - 1)) with 32768; change (2 ^ 16) with 65536;
  change (2 ^ (32 - 1)) with 2147483648; change (2 ^ 32) with 4294967296;
  change (2 ^ (64 - 1)) with 9223372036854775808; change (2 ^ 64) with 18446744073709551616.

Lemma c14_SByte v : -128 <= v <= 127 ->
  SByte_Parse ws (Some (ToString_signed v)) = Ret v /\ SByte_TryParse ws (Some (ToString_signed v)) = Ret (true, v).
Proof.
  intros H. unfold SByte_Parse, SByte_TryParse, ToString_signed. rewrite parse_printed_d by (unfold two64; lia).
  cbn [bind]. cbv beta iota. cbn [negb andb].
  assert (C : cast_i8 (cast_i8 (Z.abs v) * (if v <? 0 then -1 else 1)) = v) by (casts; destruct (v <? 0) eqn:E; lia).
  assert (R : -128 <= cast_i8 (Z.abs v) <= 127) by (casts; lia).
  assert (E64 : cast_i64 (Z.abs v) = Z.abs v) by (apply cast_i64_id; lia). rewrite E64.
  assert (P1 : ((0 <? (if v <? 0 then -1 else 1)) && (127 <? Z.abs v)) = false) by (destruct (v <? 0) eqn:E; lia).
  assert (P2 : (((if v <? 0 then -1 else 1) <? 0) && (Z.abs v <? -128)) = false) by lia.
  rewrite P1, P2. rewrite i32_ret by (destruct (v <? 0); lia). cbn [bind negb]. rewrite C. split; reflexivity.
Qed.

Lemma c14_Int16 v : -32768 <= v <= 32767 ->
  Int16_Parse ws (Some (ToString_signed v)) = Ret v /\ Int16_TryParse ws (Some (ToString_signed v)) = Ret (true, v).
Proof.
  intros H. unfold Int16_Parse, Int16_TryParse, ToString_signed. rewrite parse_printed_d by (unfold two64; lia).
  cbn [bind]. cbv beta iota. cbn [negb andb].
  assert (C : cast_i16 (cast_i16 (Z.abs v) * (if v <? 0 then -1 else 1)) = v) by (casts; destruct (v <? 0) eqn:E; lia).
  assert (R : -32768 <= cast_i16 (Z.abs v) <= 32767) by (casts; lia).
  assert (E64 : cast_i64 (Z.abs v) = Z.abs v) by (apply cast_i64_id; lia). rewrite E64.
  assert (P1 : ((0 <? (if v <? 0 then -1 else 1)) && (32767 <? Z.abs v)) = false) by (destruct (v <? 0) eqn:E; lia).
  assert (P2 : (((if v <? 0 then -1 else 1) <? 0) && (Z.abs v <? -32768)) = false) by lia.
  rewrite P1, P2. rewrite i32_ret by (destruct (v <? 0); lia). cbn [bind negb]. rewrite C. split; reflexivity.
Qed.

Lemma c14_Int32 v : -2147483648 < v <= 2147483647 ->
  Int32_Parse ws (Some (ToString_signed v)) = Ret v /\ Int32_TryParse ws (Some (ToString_signed v)) = Ret (true, v).
Proof.
  intros H. unfold Int32_Parse, Int32_TryParse, ToString_signed. rewrite parse_printed_d by (unfold two64; lia).
  cbn [bind]. cbv beta iota. cbn [negb andb].
  rewrite cast_i32_id by lia. rewrite cast_i64_id by lia.
  assert (C : Z.abs v * (if v <? 0 then -1 else 1) = v) by (destruct (v <? 0) eqn:E; lia).
  assert (P1 : ((0 <? (if v <? 0 then -1 else 1)) && (2147483647 <? Z.abs v)) = false) by (destruct (v <? 0) eqn:E; lia).
  assert (P2 : (((if v <? 0 then -1 else 1) <? 0) && (Z.abs v <? -2147483648)) = false) by lia.
  rewrite P1, P2, C. rewrite i32_ret by lia. cbn [bind negb]. split; reflexivity.
Qed.

Lemma c14_Int64 v : -9223372036854775808 < v <= 9223372036854775807 ->
  Int64_Parse ws (Some (ToString_signed v)) = Ret v /\ Int64_TryParse ws (Some (ToString_signed v)) = Ret (true, v).
Proof.
  intros H. unfold Int64_Parse, Int64_TryParse, ToString_signed. rewrite parse_printed_d by (unfold two64; lia).
  cbn [bind]. cbv beta iota. cbn [negb andb].
  rewrite cast_i64_id by lia.
  assert (C : Z.abs v * (if v <? 0 then -1 else 1) = v) by (destruct (v <? 0) eqn:E; lia).
  rewrite C. rewrite i64_ret by lia. cbn [bind negb]. split; reflexivity.
Qed.

Lemma c14_Byte v : 0 <= v <= 255 ->
  Byte_Parse ws (Some (ToString_unsigned v)) = Ret v /\ Byte_TryParse ws (Some (ToString_unsigned v)) = Ret (true, v).
Proof.
  intros H. unfold Byte_Parse, Byte_TryParse, ToString_unsigned. rewrite parse_printed_u by (unfold two64; lia).
  cbn [bind]. cbv beta iota. cbn [negb andb].
  replace ((1 <? 0) || (255 <? v)) with false by lia.
  assert (C : cast_u8 v = v) by (casts; lia). rewrite C. split; reflexivity.
Qed.
Lemma c14_UInt16 v : 0 <= v <= 65535 ->
  UInt16_Parse ws (Some (ToString_unsigned v)) = Ret v /\ UInt16_TryParse ws (Some (ToString_unsigned v)) = Ret (true, v).
Proof.
  intros H. unfold UInt16_Parse, UInt16_TryParse, ToString_unsigned. rewrite parse_printed_u by (unfold two64; lia).
  cbn [bind]. cbv beta iota. cbn [negb andb].
  replace ((1 <? 0) || (65535 <? v)) with false by lia. replace (65535 <? v) with false by lia.
  assert (C : cast_u16 v = v) by (casts; lia). rewrite !C. rewrite i32_ret by lia. rewrite Z.mul_1_r.
  cbn [bind negb]. rewrite C. split; reflexivity.
Qed.
Lemma c14_UInt32 v : 0 <= v <= 4294967295 ->
  UInt32_Parse ws (Some (ToString_unsigned v)) = Ret v /\ UInt32_TryParse ws (Some (ToString_unsigned v)) = Ret (true, v).
Proof.
  intros H. unfold UInt32_Parse, UInt32_TryParse, ToString_unsigned. rewrite parse_printed_u by (unfold two64; lia).
  cbn [bind]. cbv beta iota. cbn [negb andb].
  replace ((1 <? 0) || (4294967295 <? v)) with false by lia. replace (4294967295 <? v) with false by lia.
  assert (C : cast_u32 v = v) by (casts; lia). rewrite C. change (cast_u32 1) with 1. rewrite Z.mul_1_r, C. split; reflexivity.
Qed.
Lemma c14_UInt64 v : 0 <= v <= 18446744073709551615 ->
  UInt64_Parse ws (Some (ToString_unsigned v)) = Ret v /\ UInt64_TryParse ws (Some (ToString_unsigned v)) = Ret (true, v).
Proof.
  intros H. unfold UInt64_Parse, UInt64_TryParse, ToString_unsigned. rewrite parse_printed_u by (unfold two64; lia).
  cbn [bind]. cbv beta iota. cbn [negb andb].
  replace ((1 <? 0) || (18446744073709551615 <? v)) with false by lia.
  replace (18446744073709551615 <? v) with false by lia. split; reflexivity.
Qed.

(** ** C15: non-negative texts below 2^64 are accepted exactly when in range. *)
Lemma c15_nonneg s ds : integer_text ws s 1 ds -> decimal_value ds < two64 ->
  let v := decimal_value ds in
  let expect max := if v <=? max then Ret v else Exn OverflowException in
  SByte_Parse ws (Some s) = expect 127 /\ Byte_Parse ws (Some s) = expect 255 /\
  Int16_Parse ws (Some s) = expect 32767 /\ UInt16_Parse ws (Some s) = expect 65535 /\
  Int32_Parse ws (Some s) = expect 2147483647 /\ UInt32_Parse ws (Some s) = expect 4294967295 /\
  UInt64_Parse ws (Some s) = expect 18446744073709551615.
Proof.
  intros Ht Hlt v expect.
  assert (Hds : Forall digit ds) by (destruct Ht as (? & ? & ? & ? & ? & ? & ? & ? & ?); assumption).
  pose proof (decimal_value_nonneg ds Hds) as Hnn. fold v in Hnn, Hlt.
  pose proof (lax_accept ws Hws _ _ _ (strict_lax ws _ _ _ Ht)) as P. fold v in P.
  rewrite Z.mod_small in P by lia.
  unfold SByte_Parse, Byte_Parse, Int16_Parse, UInt16_Parse, Int32_Parse, UInt32_Parse, UInt64_Parse.
  rewrite P. cbn [bind]. cbv beta iota. cbn [negb]. clearbody v. unfold two64 in Hlt. clear P.
  change (0 <? 1) with true. change (1 <? 0) with false. cbn [andb orb]. unfold expect.
  repeat split.
  - replace (127 <? v) with (negb (v <=? 127)) by lia. destruct (v <=? 127) eqn:E; cbn [negb]; [|reflexivity].
    assert (C : cast_i8 v = v) by (casts; lia). rewrite C, Z.mul_1_r, i32_ret by lia. cbn [bind]. rewrite C. reflexivity.
  - replace (255 <? v) with (negb (v <=? 255)) by lia. destruct (v <=? 255) eqn:E; cbn [negb]; [|reflexivity].
    f_equal. casts. lia.
  - replace (32767 <? v) with (negb (v <=? 32767)) by lia. destruct (v <=? 32767) eqn:E; cbn [negb]; [|reflexivity].
    assert (C : cast_i16 v = v) by (casts; lia). rewrite C, Z.mul_1_r, i32_ret by lia. cbn [bind]. rewrite C. reflexivity.
  - replace (65535 <? v) with (negb (v <=? 65535)) by lia. destruct (v <=? 65535) eqn:E; cbn [negb]; [|reflexivity].
    assert (C : cast_u16 v = v) by (casts; lia). rewrite C, Z.mul_1_r, i32_ret by lia. cbn [bind]. rewrite C. reflexivity.
  - replace (2147483647 <? v) with (negb (v <=? 2147483647)) by lia. destruct (v <=? 2147483647) eqn:E; cbn [negb]; [|reflexivity].
    rewrite cast_i32_id, Z.mul_1_r, i32_ret by lia. reflexivity.
  - replace (4294967295 <? v) with (negb (v <=? 4294967295)) by lia. destruct (v <=? 4294967295) eqn:E; cbn [negb]; [|reflexivity].
    f_equal. casts. change (1 mod 4294967296) with 1. lia.
  - replace (18446744073709551615 <? v) with false by lia. replace (v <=? 18446744073709551615) with true by lia. reflexivity.
Qed.

(** Byte also rejects every negative text; no parser has undefined behaviour on null. *)
Lemma c15_byte_negative s ds : integer_text ws s (-1) ds -> Byte_Parse ws (Some s) = Exn OverflowException /\
  exists r, Byte_TryParse ws (Some s) = Ret (false, r).
Proof.
  intros Ht. pose proof (lax_accept ws Hws _ _ _ (strict_lax ws _ _ _ Ht)) as P.
  unfold Byte_Parse, Byte_TryParse. rewrite P. cbn [bind]. cbv beta iota. cbn [negb].
  change (-1 <? 0) with true. cbn [orb negb andb]. split; [reflexivity|eexists; reflexivity].
Qed.

(** TryParse of the unsigned types rejects every negative text. *)
Lemma c15_try_negative s ds : integer_text ws s (-1) ds ->
  (exists r, UInt16_TryParse ws (Some s) = Ret (false, r)) /\ (exists r, UInt32_TryParse ws (Some s) = Ret (false, r)) /\
  (exists r, UInt64_TryParse ws (Some s) = Ret (false, r)).
Proof.
  intros Ht. pose proof (lax_accept ws Hws _ _ _ (strict_lax ws _ _ _ Ht)) as P.
  unfold UInt16_TryParse, UInt32_TryParse, UInt64_TryParse. rewrite P. cbn [bind]. cbv beta iota.
  change (-1 <? 0) with true. cbn [orb negb andb]. repeat split; eexists; reflexivity.
Qed.

(** ** C16 *)
Lemma c16_aux s :
  (forall k ds, ~ lax_integer_text ws s k ds) ->
  exists v k, TryParseInternal_str ws (Some s) = Ret (false, v, k).
Proof.
  intros H. destruct (parse_total ws Hws s) as (ok & v & k & E & _ & _ & Hok).
  destruct ok; [|eauto]. destruct Hok as (ds & Hl & _); [reflexivity|]. exfalso. eapply H; eassumption.
Qed.

Lemma c16_reject s : (forall k ds, ~ lax_integer_text ws s k ds) ->
  SByte_Parse ws (Some s) = Exn FormatException /\ Byte_Parse ws (Some s) = Exn FormatException /\
  Int16_Parse ws (Some s) = Exn FormatException /\ UInt16_Parse ws (Some s) = Exn FormatException /\
  Int32_Parse ws (Some s) = Exn FormatException /\ UInt32_Parse ws (Some s) = Exn FormatException /\
  Int64_Parse ws (Some s) = Exn FormatException /\ UInt64_Parse ws (Some s) = Exn FormatException.
Proof.
  intros H. destruct (c16_aux s H) as (v & k & E).
  unfold SByte_Parse, Byte_Parse, Int16_Parse, UInt16_Parse, Int32_Parse, UInt32_Parse, Int64_Parse, UInt64_Parse.
  rewrite E. cbn. repeat split.
Qed.
End RT.

(** ** C17/C18 *)
Lemma c17 a b : (-32768 <= a <= 65535) -> (-32768 <= b <= 65535) ->
  exists r, CompareTo_int a b = Ret r /\ Z.sgn r = Z.sgn (a - b) /\ (r = 0 <-> a = b).
Proof. intros Ha Hb. exists (a - b). unfold CompareTo_int. rewrite i32_ret by lia. repeat split; lia. Qed.

Lemma c18_Int32 a b : in_i32 a = true -> in_i32 b = true ->
  (in_i32 (a - b) = true -> exists r, Int32_CompareTo a b = Ret r /\ Z.sgn r = Z.sgn (a - b)) /\
  (in_i32 (a - b) = false -> Int32_CompareTo a b = UB SignedOverflow).
Proof.
  intros _ _. unfold Int32_CompareTo, i32. split; intros H; rewrite H; [exists (a - b); auto|reflexivity].
Qed.

Lemma c18_Int64 a b : in_i64 a = true -> in_i64 b = true ->
  (in_i32 (a - b) = true -> exists r, Int64_CompareTo a b = Ret r /\ Z.sgn r = Z.sgn (a - b)) /\
  (in_i64 (a - b) = false -> Int64_CompareTo a b = UB SignedOverflow).
Proof.
  intros _ _. unfold Int64_CompareTo. split; intros H.
  - apply in_i32_iff in H. rewrite i64_ret by lia. cbn [bind]. rewrite cast_i32_id by lia. exists (a - b); auto.
  - unfold i64. rewrite H. reflexivity.
Qed.

Lemma c18_UInt32 a b : in_u32 a = true -> in_u32 b = true -> in_i32 (a - b) = true ->
  exists r, UInt32_CompareTo a b = Ret r /\ Z.sgn r = Z.sgn (a - b).
Proof.
  intros _ _ H. apply in_i32_iff in H. exists (a - b). split; [|reflexivity]. unfold UInt32_CompareTo. f_equal.
  unfold cast_i32, cast_u32, cast_s, cast_u. change (2 ^ (32 - 1)) with 2147483648. change (2 ^ 32) with 4294967296. lia.
Qed.
Lemma c18_UInt64 a b : in_u64 a = true -> in_u64 b = true -> in_i32 (a - b) = true ->
  exists r, UInt64_CompareTo a b = Ret r /\ Z.sgn r = Z.sgn (a - b).
Proof.
  intros _ _ H. apply in_i32_iff in H. exists (a - b). split; [|reflexivity]. unfold UInt64_CompareTo. f_equal.
  unfold cast_i32, cast_u64, cast_s, cast_u. change (2 ^ (32 - 1)) with 2147483648. change (2 ^ 32) with 4294967296.
  change (2 ^ 64) with 18446744073709551616. lia.
Qed.
