(** * Lemmas about ConstantModel.v and ConstantSpec.v *)
From Verif Require Import Tac IntModel IntProofs IntSpec IeeeModel MathModel MathProofs MathSpec FloatSpec FloatProofs FloatTextModel FloatTextSpec FloatTextProofs FloatTextProperties BoxCompareProperties ConstantModel ConstantSpec.

(** ** The nearest Double that happens to be a Single is the nearest Single *)
Notation dbl := double_fmt.
Notation sgl := single_fmt.
Lemma short_representable s t : 0 <= s <= 2 ^ 30 -> 52 <= t <= 1500 -> exists K, 0 <= K <= exp_mask dbl /\ mag_value dbl K = s * 2 ^ t.
Proof.
  intros Hs Ht. destruct (Z.eq_dec s 0) as [->|N].
  - exists 0. split; [unfold double_fmt; cbn [exp_mask]; lia|]. rewrite (mag_value_zero dbl double_good). lia.
  - pose proof (Z.log2_spec s ltac:(lia)) as L. pose proof (Z.log2_nonneg s) as L0. set (l := Z.log2 s) in *.
    assert (Ll : l <= 30) by (apply (Z.pow_le_mono_r_iff 2); lia).
    assert (Pp : 0 < 2 ^ (52 - l)) by (apply Z.pow_pos_nonneg; lia).
    assert (Q1 : 2 ^ 52 = 2 ^ l * 2 ^ (52 - l)) by (rewrite <- Z.pow_add_r by lia; f_equal; lia).
    assert (Q2 : 2 * 2 ^ 52 = 2 ^ Z.succ l * 2 ^ (52 - l)) by (rewrite Z.pow_succ_r, Q1 by lia; ring).
    assert (K : 2 ^ 52 <= s * 2 ^ (52 - l) < 2 * 2 ^ 52) by (split; [rewrite Q1; apply Z.mul_le_mono_nonneg_r; lia|rewrite Q2; apply Z.mul_lt_mono_pos_r; lia]).
    exists ((t - (52 - l)) * 2 ^ 52 + s * 2 ^ (52 - l)). split.
    + change (exp_mask dbl) with (2047 * 2 ^ 52). assert (2 ^ 52 = 4503599627370496) by reflexivity. lia.
    + rewrite (mag_value_shape dbl double_good) by (try (left; cbn [mbits double_fmt]); lia). rewrite <- !Z.mul_assoc, <- !Z.pow_add_r by lia. f_equal. f_equal. lia.
Qed.
Lemma step_single k : 0 <= k <= exp_mask sgl -> exists s e, mag_value sgl k = s * 2 ^ e /\ mag_value sgl (k + 1) = (s + 1) * 2 ^ e /\ 0 <= s <= 16777216 /\ 0 <= e <= 254.
Proof.
  intros H. change (exp_mask sgl) with (255 * 8388608) in H. set (e := Z.max 0 (k / 8388608 - 1)). exists (k - e * 8388608), e.
  pose proof (Z.div_mod k 8388608 ltac:(lia)) as D. pose proof (Z.mod_pos_bound k 8388608 ltac:(lia)) as R.
  assert (B : 0 <= k / 8388608 <= 255) by lia.
  assert (S1 : 8388608 <= k - e * 8388608 < 2 * 8388608 \/ e = 0 /\ 0 <= k - e * 8388608 < 2 * 8388608) by lia.
  pose proof (mag_value_shape sgl single_good e (k - e * 8388608)) as A. pose proof (mag_value_shape sgl single_good e (k - e * 8388608 + 1)) as A'.
  cbn [mbits single_fmt] in A, A'. change (2 ^ 23) with 8388608 in A, A'.
  replace (e * 8388608 + (k - e * 8388608)) with k in A by ring. replace (e * 8388608 + (k - e * 8388608 + 1)) with (k + 1) in A' by ring.
  split; [apply A; lia|]. split; [apply A'; lia|]. lia.
Qed.
Notation scale := (2 ^ 925).
Lemma embed k : 0 <= k <= exp_mask sgl -> exists K, 0 <= K <= exp_mask dbl /\ mag_value dbl K = mag_value sgl k * scale.
Proof.
  intros H. destruct (step_single k H) as (s & e & E & _ & Hs & He). destruct (short_representable s (e + 925)) as (K & R & V); [split; [lia|change (2 ^ 30) with 1073741824; lia]|lia|].
  exists K. split; [exact R|]. rewrite V, E, Z.pow_add_r by lia. ring.
Qed.
Lemma middle k : 0 <= k <= exp_mask sgl -> exists K, 0 <= K <= exp_mask dbl /\ 2 * mag_value dbl K = (mag_value sgl k + mag_value sgl (k + 1)) * scale.
Proof.
  intros H. destruct (step_single k H) as (s & e & E & E' & Hs & He). destruct (short_representable (2 * s + 1) (e + 924)) as (K & R & V); [split; [lia|change (2 ^ 30) with 1073741824; lia]|lia|].
  exists K. split; [exact R|]. rewrite V, E, E'. replace (e + 924) with (e + 924) by ring. replace scale with (2 * 2 ^ 924) by (rewrite <- Z.pow_succ_r by lia; reflexivity). rewrite (Z.pow_add_r 2 e) by lia. ring.
Qed.
(** Between two equally near numbers there is a nearer one unless ... *)
Lemma tie_core V K T n : Z.abs (K - n) = Z.abs (V - n) -> K <> V -> Z.abs (V - n) <= Z.abs (T - n) -> (V <= T <= K \/ K <= T <= V) -> T = V \/ T = K.
Proof. lia. Qed.
Lemma tie_mid V K T n : Z.abs (K - n) = Z.abs (V - n) -> K <> V -> Z.abs (V - n) <= Z.abs (T - n) -> 2 * T = V + K -> False.
Proof. lia. Qed.
Lemma narrow_nearest n d M m : 0 < d -> 0 <= m <= exp_mask sgl -> mag_value dbl M = mag_value sgl m * scale -> nearest dbl (n * scale) d M -> nearest sgl n d m.
Proof.
  intros Hd Hm E (HM & H). assert (P : 0 < scale) by (apply Z.pow_pos_nonneg; lia). pose proof embed as embed. pose proof middle as middle. set (r := scale) in *. clearbody r.
  assert (Q : forall x, Z.abs (x * r * d - n * r) = Z.abs (x * d - n) * r) by (intros x; replace (x * r * d - n * r) with ((x * d - n) * r) by ring; rewrite Z.abs_mul, (Z.abs_eq r); lia).
  assert (N : forall T, (exists K, 0 <= K <= exp_mask dbl /\ mag_value dbl K = T * r) -> Z.abs (mag_value sgl m * d - n) <= Z.abs (T * d - n)).
  { intros T (K & HK & EK). pose proof (proj1 (H K HK)) as X. rewrite E, EK in X. rewrite !Q in X. apply Z.mul_le_mono_pos_r in X; assumption. }
  split; [exact Hm|]. intros k Hk. split; [apply N; apply embed; exact Hk|]. intros D Tie. exfalso.
  assert (Ne : mag_value sgl k * d <> mag_value sgl m * d).
  { intros X. apply Z.mul_reg_r in X; [|lia]. apply (proj2 (mag_value_iff sgl single_good k m ltac:(lia) ltac:(lia))) in X. contradiction. }
  (* the neighbour of m in the direction of k *)
  destruct (Z_lt_dec k m) as [L|L].
  - pose proof (mag_value_le sgl single_good k (m - 1) ltac:(lia)) as A. pose proof (mag_value_le sgl single_good (m - 1) m ltac:(lia)) as B.
    apply (Z.mul_le_mono_nonneg_r _ _ d) in A; [|lia]. apply (Z.mul_le_mono_nonneg_r _ _ d) in B; [|lia].
    pose proof (N (mag_value sgl (m - 1)) (embed (m - 1) ltac:(lia))) as Nn.
    destruct (tie_core _ _ _ _ Tie Ne Nn ltac:(lia)) as [X|X]; (apply Z.mul_reg_r in X; [|lia]); [apply (proj2 (mag_value_iff sgl single_good (m - 1) m ltac:(lia) ltac:(lia))) in X; lia|].
    destruct (middle (m - 1) ltac:(lia)) as (K & HK & EK). replace (m - 1 + 1) with m in EK by ring. rewrite X in EK.
    pose proof (proj1 (H K HK)) as Y. rewrite E in Y.
    apply (tie_mid (mag_value sgl m * r * d) (mag_value sgl k * r * d) (mag_value dbl K * d) (n * r)).
    + rewrite !Q, Tie. reflexivity.
    + intros Z0. apply Ne. apply (Z.mul_reg_r _ _ r); [lia|]. replace (mag_value sgl k * d * r) with (mag_value sgl k * r * d) by ring. rewrite Z0. ring.
    + exact Y.
    + replace (2 * (mag_value dbl K * d)) with (2 * mag_value dbl K * d) by ring. rewrite EK. ring.
  - pose proof (mag_value_le sgl single_good (m + 1) k ltac:(lia)) as A. pose proof (mag_value_le sgl single_good m (m + 1) ltac:(lia)) as B.
    apply (Z.mul_le_mono_nonneg_r _ _ d) in A; [|lia]. apply (Z.mul_le_mono_nonneg_r _ _ d) in B; [|lia].
    pose proof (N (mag_value sgl (m + 1)) (embed (m + 1) ltac:(lia))) as Nn.
    destruct (tie_core _ _ _ _ Tie Ne Nn ltac:(lia)) as [X|X]; (apply Z.mul_reg_r in X; [|lia]); [apply (proj2 (mag_value_iff sgl single_good (m + 1) m ltac:(lia) ltac:(lia))) in X; lia|].
    destruct (middle m ltac:(lia)) as (K & HK & EK). rewrite X in EK.
    pose proof (proj1 (H K HK)) as Y. rewrite E in Y.
    apply (tie_mid (mag_value sgl m * r * d) (mag_value sgl k * r * d) (mag_value dbl K * d) (n * r)).
    + rewrite !Q, Tie. reflexivity.
    + intros Z0. apply Ne. apply (Z.mul_reg_r _ _ r); [lia|]. replace (mag_value sgl k * d * r) with (mag_value sgl k * r * d) by ring. rewrite Z0. ring.
    + exact Y.
    + replace (2 * (mag_value dbl K * d)) with (2 * mag_value dbl K * d) by ring. rewrite EK. ring.
Qed.

(** ** Texts *)
Lemma decimal_unique s sgn m k sgn' m' k' : decimal_text s sgn m k -> decimal_text s sgn' m' k' -> sgn = sgn' /\ m = m' /\ k = k'.
Proof.
  intros T T'. destruct (signed_unsigned _ _ _ _ T) as (sg & u & E & Sg & U). destruct (signed_unsigned _ _ _ _ T') as (sg' & u' & E' & Sg' & U').
  destruct (unsigned_head u m k U) as (c & t & Hu & Hc). destruct (unsigned_head u' m' k' U') as (c' & t' & Hu' & Hc').
  assert (X : sgn = sgn' /\ u = u').
  { rewrite E in E'. clear T T' U U' E. unfold digit in *. destruct Sg, Sg'; cbn [app] in E'; rewrite ?Hu, ?Hu' in E'; rewrite ?Hu, ?Hu';
      first [solve [split; [reflexivity|congruence]] | discriminate | exfalso; injection E'; intros; lia]. }
  destruct X as (-> & ->). split; [reflexivity|]. pose proof (scan_unsigned u' m k [] U I) as A. pose proof (scan_unsigned u' m' k' [] U' I) as B. rewrite A in B. injection B as -> ->. split; reflexivity.
Qed.
Lemma decimal_plain s sgn m k : decimal_text s sgn m k -> Forall plain s.
Proof.
  intros (sg & ip & pt & fp & ex & e & -> & Sg & Fi & Ff & _ & Hp & Ex & _). repeat (apply Forall_app; split); [eapply sign_plain; exact Sg|apply digit_plain; exact Fi| |apply digit_plain; exact Ff|eapply exponent_plain; exact Ex].
  destruct Hp as [-> |(-> & _)]; repeat constructor; left; lia.
Qed.
Lemma decimal_sign s sgn m k : decimal_text s sgn m k -> sgn = 1 \/ sgn = -1.
Proof. intros (sg & ip & pt & fp & ex & e & _ & [] & _); tauto. Qed.
Lemma numeral_decimal s neg m k : numeral s neg m k -> decimal_text s (if neg then -1 else 1) m k.
Proof.
  intros (ip & fp & ex & e & -> & Fi & Ni & _ & Ff & Ex & _ & _ & Em & Ek). exists (if neg then [45] else []), ip, (match fp with [] => [] | _ => [46] end), fp, ex, e.
  split; [destruct fp; reflexivity|]. split; [destruct neg; constructor|]. split; [exact Fi|]. split; [exact Ff|]. split; [destruct ip; [contradiction|discriminate]|].
  split; [destruct fp; [right; split; reflexivity|left; reflexivity]|]. split; [exact Ex|]. split; assumption.
Qed.
Lemma reads_unique f sgn m k b b' : float_format f -> reads f sgn m k b -> reads f sgn m k b' -> b = b'.
Proof.
  intros F (P & _ & N & S) (P' & _ & N' & S'). pose proof (ff_good f F) as G. pose proof (nearest_unique f G _ _ _ _ (denom_pos k) N N') as E.
  rewrite <- (with_sign_self f b G P), <- (with_sign_self f b' G P'), E, S, S'. reflexivity.
Qed.
Lemma reads_exists f sgn m k : float_format f -> 0 <= m -> reads f sgn m k (read_as f sgn m k).
Proof.
  intros F Hm. pose proof (ff_good f F) as G. unfold read_as, reads. rewrite (ff_one f F). pose proof (unit_pos f G) as U. pose proof (numer_nonneg m k Hm) as Nn. pose proof (denom_pos k) as D.
  assert (H : 0 <= numer m k * unit_of f) by (apply Z.mul_nonneg_nonneg; lia).
  destruct (with_sign_fields f G (sgn <? 0) (round_mag f (numer m k * unit_of f) (denom k)) (round_mag_range f G _ _ H D)) as (W1 & W2 & W3 & W4).
  split; [exact W1|]. split; [exact W4|]. split; [rewrite W3; apply (round_mag_nearest f G); assumption|exact W2].
Qed.
Lemma not_F s : ~ Forall plain (s ++ [70]).
Proof. intros H. apply Forall_app in H. destruct H as (_ & H). pose proof (Forall_inv H) as X. unfold plain in X. lia. Qed.
Lemma integer_decimal sg sgn ds : sign_text sg sgn -> Forall digit ds -> ds <> [] -> decimal_text (sg ++ ds) sgn (decimal_value ds) 0.
Proof.
  intros S F N. exists sg, ds, [], [], [], 0. rewrite !app_nil_r. cbn [app]. split; [reflexivity|]. split; [exact S|]. split; [exact F|]. split; [constructor|]. split; [exact N|]. split; [right; split; reflexivity|]. split; [constructor|]. split; reflexivity.
Qed.
Lemma integer_not_floating sg sgn ds : sign_text sg sgn -> Forall digit ds -> ~ floating (sg ++ ds).
Proof.
  intros S F H. assert (X : forall c, In c (sg ++ ds) -> c <> 46 /\ c <> 69 /\ c <> 101).
  { intros c I. apply in_app_iff in I. destruct I as [I|I]; [destruct S; cbn in I; lia|]. rewrite Forall_forall in F. specialize (F c I). unfold digit in F. lia. }
  destruct H as [H|[H|H]]; apply X in H; lia.
Qed.
Lemma literal_double s sgn m k v : decimal_text s sgn m k -> floating s -> literal s v -> exists b, v = VDouble b /\ reads dbl sgn m k b.
Proof.
  intros T Fl L. inversion L as [s' sgn' m' k' b T' Fl' R E1 E2|s' sgn' m' k' b T' Fl' R E1 E2|sg sgn' ds S F N H B E1 E2]; subst.
  - destruct (decimal_unique _ _ _ _ _ _ _ T T') as (<- & <- & <-). exists b. split; [reflexivity|exact R].
  - exfalso. exact (not_F _ (decimal_plain _ _ _ _ T)).
  - exfalso. exact (integer_not_floating _ _ _ S F Fl).
Qed.
Lemma literal_single s sgn m k v : decimal_text s sgn m k -> floating s -> literal (s ++ [70]) v -> exists b, v = VSingle b /\ reads sgl sgn m k b.
Proof.
  intros T Fl L. inversion L as [s' sgn' m' k' b T' Fl' R E1 E2|s' sgn' m' k' b T' Fl' R E1 E2|sg sgn' ds S F N H B E1 E2]; subst.
  - exfalso. exact (not_F _ (decimal_plain _ _ _ _ T')).
  - apply app_inj_tail in E1. destruct E1 as (-> & _). destruct (decimal_unique _ _ _ _ _ _ _ T T') as (<- & <- & <-). exists b. split; [reflexivity|exact R].
  - exfalso. apply (not_F s). rewrite <- E1. exact (decimal_plain _ _ _ _ (integer_decimal _ _ _ S F N)).
Qed.
Lemma literal_integer s sgn m v : decimal_text s sgn m 0 -> ~ floating s -> literal s v -> v = VInteger (sgn * m).
Proof.
  intros T Fl L. inversion L as [s' sgn' m' k' b T' Fl' R E1 E2|s' sgn' m' k' b T' Fl' R E1 E2|sg sgn' ds S F N H B E1 E2]; subst.
  - contradiction.
  - exfalso. exact (not_F _ (decimal_plain _ _ _ _ T)).
  - destruct (decimal_unique _ _ _ _ _ _ _ T (integer_decimal _ _ _ S F N)) as (-> & -> & _). reflexivity.
Qed.
Lemma double_exists s sgn m k : decimal_text s sgn m k -> floating s -> literal s (VDouble (read_as dbl sgn m k)).
Proof. intros T Fl. apply (double_literal s sgn m k); [exact T|exact Fl|apply reads_exists; [left; reflexivity|eapply decimal_nonneg; exact T]]. Qed.
Lemma single_exists s sgn m k : decimal_text s sgn m k -> floating s -> literal (s ++ [70]) (VSingle (read_as sgl sgn m k)).
Proof. intros T Fl. apply (single_literal s sgn m k); [exact T|exact Fl|apply reads_exists; [right; reflexivity|eapply decimal_nonneg; exact T]]. Qed.

(** ** Numerals *)
Lemma numeral_last s neg m k : numeral s neg m k -> digit (last s 0) /\ s <> [].
Proof.
  intros (ip & fp & ex & e & -> & Fi & Ni & _ & Ff & Ex & _). split; [|destruct ip; [contradiction|destruct neg; discriminate]].
  assert (X : forall (l : list Z) x, l <> [] -> Forall digit l -> digit (last (x ++ l) 0)).
  { intros l x Hl Fl. destruct (exists_last Hl) as (l' & c & ->). rewrite app_assoc, last_last. apply Forall_app in Fl. exact (Forall_inv (proj2 Fl)). }
  destruct Ex as [|c sg k' ds Hc Sg Fd Nd].
  - rewrite app_nil_r. destruct fp as [|d fp]; [rewrite app_nil_r; apply X; assumption|]. rewrite app_assoc. change (46 :: d :: fp) with ([46] ++ d :: fp). rewrite app_assoc. apply X; [discriminate|exact Ff].
  - change (c :: sg ++ ds) with ((c :: sg) ++ ds). rewrite !app_assoc. apply X; assumption.
Qed.
Lemma numeral_digit s neg m k : numeral s neg m k -> exists c, In c s /\ digit c.
Proof. intros H. destruct (numeral_last s neg m k H) as (D & N). exists (last s 0). split; [|exact D]. destruct (exists_last N) as (l & c & ->). rewrite last_last. apply in_app_iff. right. left. reflexivity. Qed.
Lemma contains_in c s : contains c s = true <-> In c s.
Proof. unfold contains. rewrite existsb_exists. split; [intros (x & I & E); apply Z.eqb_eq in E; subst; exact I|intros I; exists c; split; [exact I|apply Z.eqb_refl]]. Qed.
Lemma exponent_E ex e : exponent_part ex e -> ~ In 101 ex -> ex = [] \/ In 69 ex.
Proof. intros [|c sg k ds [-> | ->] Sg F N]; [left; reflexivity|right; left; reflexivity|intros H; exfalso; apply H; left; reflexivity]. Qed.
(** Without point and exponent: an integer of at most 15 digits. *)
Lemma numeral_integer s neg m k : numeral s neg m k -> ~ In 46 s -> ~ In 69 s ->
  k = 0 /\ 0 <= m < 1000000000000000 /\ ~ floating s /\ literal s (VInteger ((if neg then -1 else 1) * m)).
Proof.
  intros (ip & fp & ex & e & -> & Fi & Ni & Hz & Ff & Ex & N101 & Len & -> & ->) H46 H69.
  assert (fp = []) as ->. { destruct fp; [reflexivity|]. exfalso. apply H46. rewrite !in_app_iff. right. right. left. left. reflexivity. }
  assert (ex = []) as ->. { destruct (exponent_E ex e Ex N101) as [-> |I]; [reflexivity|]. exfalso. apply H69. rewrite !in_app_iff. tauto. }
  inversion Ex; subst. rewrite !app_nil_r in *. cbn [length]. specialize (Len eq_refl eq_refl).
  assert (B : 0 <= decimal_value ip < 10 ^ Z.of_nat (length ip)).
  { clear - Fi. induction ip as [|c ip IH] using rev_ind; [cbn; lia|]. apply Forall_app in Fi. destruct Fi as (Fi & Fc). specialize (IH Fi). pose proof (Forall_inv Fc) as Hc. unfold digit in Hc.
    rewrite dec_value_app, app_length. cbn [length]. change (10 ^ Z.of_nat 1) with 10. replace (Z.of_nat (length ip + 1)) with (Z.succ (Z.of_nat (length ip))) by lia. rewrite Z.pow_succ_r by lia. replace (decimal_value [c]) with (c - 48) by (cbn; lia). lia. }
  assert (B' : 10 ^ Z.of_nat (length ip) <= 10 ^ 15) by (apply Z.pow_le_mono_r; lia). change (10 ^ 15) with 1000000000000000 in B'.
  assert (Sg : sign_text (if neg then [45] else []) (if neg then -1 else 1)) by (destruct neg; constructor).
  split; [reflexivity|]. split; [lia|]. split; [apply (integer_not_floating _ _ _ Sg Fi)|]. apply integer_literal; try assumption. lia.
Qed.
Lemma numeral_floating s neg m k : numeral s neg m k -> In 46 s \/ In 69 s -> floating s.
Proof. unfold floating. tauto. Qed.
(** With ".0" behind it, it still stands for the same number. *)
Lemma point_zero s neg m k : numeral s neg m k -> ~ In 46 s -> ~ In 69 s -> decimal_text (s ++ [46; 48]) (if neg then -1 else 1) (10 * m) (-1) /\ k = 0.
Proof.
  intros (ip & fp & ex & e & -> & Fi & Ni & Hz & Ff & Ex & N101 & Len & -> & ->) H46 H69.
  assert (fp = []) as ->. { destruct fp; [reflexivity|]. exfalso. apply H46. rewrite !in_app_iff. right. right. left. left. reflexivity. }
  assert (ex = []) as ->. { destruct (exponent_E ex e Ex N101) as [-> |I]; [reflexivity|]. exfalso. apply H69. rewrite !in_app_iff. tauto. }
  inversion Ex; subst. split; [|reflexivity]. rewrite !app_nil_r. exists (if neg then [45] else []), ip, [46], [48], [], 0.
  split; [rewrite app_nil_r, <- app_assoc; reflexivity|]. split; [destruct neg; constructor|]. split; [exact Fi|]. split; [repeat constructor; unfold digit; lia|]. split; [destruct ip; [contradiction|discriminate]|].
  split; [left; reflexivity|]. split; [constructor|]. split; [rewrite dec_value_app; change (10 ^ Z.of_nat (length [48])) with 10; change (decimal_value [48]) with 0; lia|reflexivity].
Qed.
Lemma nearest_tenth f m M u : good_format f -> nearest f (numer m 0 * u) (denom 0) M <-> nearest f (numer (10 * m) (-1) * u) (denom (-1)) M.
Proof.
  intros G. assert (E1 : numer m 0 = m) by (unfold numer; change (Z.max 0 0) with 0; rewrite Z.pow_0_r; lia). assert (E2 : numer (10 * m) (-1) = 10 * m) by (unfold numer; change (Z.max (-1) 0) with 0; rewrite Z.pow_0_r; lia).
  rewrite E1, E2. change (denom 0) with 1. change (denom (-1)) with (1 * 10). replace (10 * m * u) with (m * u * 10) by ring. symmetry. apply (nearest_cancel f). lia.
Qed.
