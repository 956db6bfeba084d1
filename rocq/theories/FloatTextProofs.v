(** * Lemmas about floating point text *)
From Verif Require Import Base Tac IntModel IntSpec IntProofs MathModel MathProofs MathSpec FloatSpec FloatProofs IeeeModel FloatTextModel FloatTextSpec.
From Coq Require Import ZifyBool.

(** ** Powers of ten *)
Lemma p10 k : 0 <= k -> 0 < 10 ^ k.
Proof. intros. apply Z.pow_pos_nonneg; lia. Qed.
Lemma p10_add a b : 0 <= a -> 0 <= b -> 10 ^ (a + b) = 10 ^ a * 10 ^ b.
Proof. intros. apply Z.pow_add_r; assumption. Qed.
Lemma denom_pos k : 0 < denom k.
Proof. apply p10. lia. Qed.
Lemma numer_scale m k N : 0 <= N -> 0 <= N + k -> numer m k * 10 ^ N = m * 10 ^ (N + k) * denom k.
Proof. intros. unfold numer, denom. rewrite <- !Z.mul_assoc, <- !p10_add by lia. do 2 f_equal. lia. Qed.
Lemma abs_scale a c : 0 <= c -> Z.abs a * c = Z.abs (a * c).
Proof. intros. rewrite Z.abs_mul, (Z.abs_eq c) by lia. reflexivity. Qed.
Lemma near_scale v u m k m' k' N : 0 <= N -> 0 <= N + k -> 0 <= N + k' ->
  (as_near v u m k m' k' <-> Z.abs (v * 10 ^ N - m * 10 ^ (N + k) * u) <= Z.abs (v * 10 ^ N - m' * 10 ^ (N + k') * u)).
Proof.
  intros H0 H1 H2. unfold as_near. pose proof (denom_pos k) as D. pose proof (denom_pos k') as D'. pose proof (p10 N H0) as P.
  assert (E : forall m k, 0 <= N + k -> Z.abs (v * denom k - numer m k * u) * 10 ^ N = Z.abs (v * 10 ^ N - m * 10 ^ (N + k) * u) * denom k).
  { intros a b Hb. pose proof (denom_pos b) as Db. rewrite !abs_scale by lia. f_equal.
    rewrite !Z.mul_sub_distr_r. f_equal; [ring|]. replace (numer a b * u * 10 ^ N) with (numer a b * 10 ^ N * u) by ring. rewrite numer_scale by lia. ring. }
  rewrite (Z.mul_le_mono_pos_r _ _ (10 ^ N) P).
  replace (Z.abs (v * denom k - numer m k * u) * denom k' * 10 ^ N) with (Z.abs (v * denom k - numer m k * u) * 10 ^ N * denom k') by ring.
  replace (Z.abs (v * denom k' - numer m' k' * u) * denom k * 10 ^ N) with (Z.abs (v * denom k' - numer m' k' * u) * 10 ^ N * denom k) by ring.
  rewrite !E by assumption. rewrite <- !Z.mul_assoc, (Z.mul_comm (denom k') (denom k)). symmetry. apply Z.mul_le_mono_pos_r. apply Z.mul_pos_pos; assumption.
Qed.

(** ** Normalisation and six digits *)
Lemma normalise_spec fuel : forall n d e, 0 < n -> 0 < d -> d <= n * 10 ^ Z.of_nat fuel -> n < d * 10 ^ (Z.of_nat fuel + 1) ->
  exists i j, 0 <= i /\ 0 <= j /\ i + j <= Z.of_nat fuel /\ normalise fuel n d e = (n * 10 ^ i, d * 10 ^ j, e + j - i) /\ d * 10 ^ j <= n * 10 ^ i < 10 * (d * 10 ^ j).
Proof.
  induction fuel as [|k IH]; intros n d e Hn Hd H1 H2; cbn [normalise].
  - exists 0, 0. change (10 ^ 0) with 1. change (Z.of_nat 0) with 0 in *. change (10 ^ 0) with 1 in *. change (10 ^ (0 + 1)) with 10 in *. rewrite !Z.mul_1_r. split; [lia|]. split; [lia|]. split; [lia|]. split; [f_equal; lia|lia].
  - assert (P : 0 < 10 ^ Z.of_nat k) by (apply p10; lia).
    assert (E1 : 10 ^ Z.of_nat (S k) = 10 * 10 ^ Z.of_nat k) by (rewrite Nat2Z.inj_succ, Z.pow_succ_r by lia; reflexivity).
    assert (E2 : 10 ^ (Z.of_nat k + 1) = 10 * 10 ^ Z.of_nat k) by (rewrite Z.pow_add_r by lia; change (10 ^ 1) with 10; ring).
    assert (E3 : 10 ^ (Z.of_nat (S k) + 1) = 100 * 10 ^ Z.of_nat k) by (rewrite Z.pow_add_r by lia; rewrite E1; change (10 ^ 1) with 10; ring).
    rewrite E1 in H1. rewrite E3 in H2. set (T := 10 ^ Z.of_nat k) in *.
    destruct (Z.ltb_spec n d) as [L|L].
    + destruct (IH (10 * n) d (e - 1)) as (i & j & Hi & Hj & Hk & -> & B); [lia|lia|fold T; replace (10 * n * T) with (n * (10 * T)) by ring; exact H1|rewrite E2; assert (d * 1 <= d * T) by (apply Z.mul_le_mono_nonneg_l; lia); replace (d * (10 * T)) with (10 * (d * T)) by ring; lia|].
      exists (i + 1), j. rewrite Z.pow_add_r by lia. change (10 ^ 1) with 10. replace (10 * n * 10 ^ i) with (n * (10 ^ i * 10)) in * by ring. split; [lia|]. split; [lia|]. split; [lia|]. split; [f_equal; lia|exact B].
    + destruct (Z.leb_spec (10 * d) n) as [M|M].
      * destruct (IH n (10 * d) (e + 1)) as (i & j & Hi & Hj & Hk & -> & B); [lia|lia|fold T; assert (n * 1 <= n * T) by (apply Z.mul_le_mono_nonneg_l; lia); lia|rewrite E2; replace (10 * d * (10 * T)) with (d * (100 * T)) by ring; exact H2|].
        exists i, (j + 1). rewrite Z.pow_add_r by lia. change (10 ^ 1) with 10. replace (10 * d * 10 ^ j) with (d * (10 ^ j * 10)) in * by ring. split; [lia|]. split; [lia|]. split; [lia|]. split; [f_equal; lia|exact B].
      * exists 0, 0. change (10 ^ 0) with 1. rewrite !Z.mul_1_r. split; [lia|]. split; [lia|]. split; [lia|]. split; [f_equal; lia|lia].
Qed.
Lemma round_even_spec n d : 0 <= n -> 0 < d -> 2 * Z.abs (n - round_even n d * d) <= d /\ (2 * Z.abs (n - round_even n d * d) = d -> Z.even (round_even n d) = true).
Proof.
  intros Hn Hd. unfold round_even. pose proof (Z.div_mod n d ltac:(lia)) as E. pose proof (Z.mod_pos_bound n d Hd) as B. rewrite (Z.mul_comm d) in E. set (q := n / d) in *. set (r := n mod d) in *. clearbody q r.
  replace (n - q * d) with r by lia. assert (X : n - (q + 1) * d = r - d) by lia.
  destruct (Z.ltb_spec (2 * r) d); [replace (n - q * d) with r by lia; lia|]. destruct (Z.ltb_spec d (2 * r)); [rewrite X; lia|].
  destruct (Z.even q) eqn:V; [replace (n - q * d) with r by lia; split; [lia|auto]|]. rewrite X. split; [lia|]. intros _. rewrite Z.even_add, V. reflexivity.
Qed.
Lemma round_even_nearest n d w : 0 <= n -> 0 < d -> Z.abs (n - round_even n d * d) <= Z.abs (n - w * d).
Proof.
  intros Hn Hd. destruct (round_even_spec n d Hn Hd) as (A & _). set (m := round_even n d) in *. clearbody m.
  destruct (Z.eq_dec w m) as [->|N]; [lia|]. destruct (Z.lt_ge_cases w m) as [L|L].
  - assert (w * d <= (m - 1) * d) by (apply Z.mul_le_mono_nonneg_r; lia). lia.
  - assert ((m + 1) * d <= w * d) by (apply Z.mul_le_mono_nonneg_r; lia). lia.
Qed.
(** The six digits: nearest in the grid of six digit numbers of the size of [n / d]. *)
Lemma six_core n d i j m e : 0 < n -> 0 < d -> 0 <= i -> 0 <= j -> d * 10 ^ j <= n * 10 ^ i < 10 * (d * 10 ^ j) ->
  (let m := round_even (n * 10 ^ i * 100000) (d * 10 ^ j) in if m =? 1000000 then (100000, j - i + 1) else (m, j - i)) = (m, e) ->
  100000 <= m < 1000000 /\
  exists m0, (let D := d * 10 ^ j in let X := n * 10 ^ (i + 5) in
    100000 * D <= X < 1000000 * D /\ (forall w, Z.abs (X - m0 * D) <= Z.abs (X - w * D)) /\ 100000 <= m0 <= 1000000) /\
    (m0 = m /\ e = j - i \/ m0 = 10 * m /\ e = j - i + 1).
Proof.
  intros Hn Hd Hi Hj B S. cbv zeta in *.
  pose proof (p10 i Hi) as Pi. pose proof (p10 j Hj) as Pj.
  assert (X5 : n * 10 ^ (i + 5) = n * 10 ^ i * 100000) by (rewrite p10_add by lia; change (10 ^ 5) with 100000; ring). rewrite X5. clear X5.
  assert (Hn' : 0 < n * 10 ^ i) by (apply Z.mul_pos_pos; lia). assert (Hd' : 0 < d * 10 ^ j) by (apply Z.mul_pos_pos; lia).
  generalize dependent (n * 10 ^ i). generalize dependent (d * 10 ^ j). clear n d Hn Hd Pi Pj. intros d' Hd' n' B S Hn'.
  assert (N0 : forall w, Z.abs (n' * 100000 - round_even (n' * 100000) d' * d') <= Z.abs (n' * 100000 - w * d')) by (intros w; apply round_even_nearest; lia).
  destruct (round_even_spec (n' * 100000) d' ltac:(lia) Hd') as (A & _).
  generalize dependent (round_even (n' * 100000) d'). intros m0 S N0 A.
  assert (M : 100000 <= m0 <= 1000000).
  { split.
    - destruct (Z.le_gt_cases 100000 m0) as [L|L]; [exact L|exfalso]. assert (m0 * d' <= 99999 * d') by (apply Z.mul_le_mono_nonneg_r; lia). lia.
    - destruct (Z.le_gt_cases m0 1000000) as [L|L]; [exact L|exfalso]. assert (1000001 * d' <= m0 * d') by (apply Z.mul_le_mono_nonneg_r; lia). lia. }
  assert (R : 100000 * d' <= n' * 100000 < 1000000 * d') by lia.
  destruct (Z.eqb_spec m0 1000000) as [Q|Q]; injection S as <- <-.
  - split; [lia|]. exists m0. split; [split; [exact R|split; [exact N0|exact M]]|right; lia].
  - split; [lia|]. exists m0. split; [split; [exact R|split; [exact N0|exact M]]|left; lia].
Qed.
Definition steps : nat := 400.
Lemma six_digits_eq n d : six_digits n d = let '(n, d, e) := normalise steps n d 0 in let m := round_even (n * 100000) d in if m =? 1000000 then (100000, e + 1) else (m, e).
Proof. reflexivity. Qed.
Lemma steps_Z : Z.of_nat steps = 400.
Proof. reflexivity. Qed.
Global Opaque steps.
Lemma six_digits_spec n d m e : 0 < n -> 0 < d -> d <= n * 10 ^ 400 -> n < d * 10 ^ 401 -> six_digits n d = (m, e) ->
  100000 <= m < 1000000 /\
  exists i j m0, 0 <= i /\ 0 <= j /\ i + j <= 400 /\ (let D := d * 10 ^ j in let X := n * 10 ^ (i + 5) in
    100000 * D <= X < 1000000 * D /\ (forall w, Z.abs (X - m0 * D) <= Z.abs (X - w * D)) /\ 100000 <= m0 <= 1000000) /\
    (m0 = m /\ e = j - i \/ m0 = 10 * m /\ e = j - i + 1).
Proof.
  intros Hn Hd H1 H2 S. rewrite six_digits_eq in S. pose proof (normalise_spec steps n d 0 Hn Hd) as NS. rewrite steps_Z in NS.
  destruct (NS H1 H2) as (i & j & Hi & Hj & Hk & E & B). rewrite E in S. cbv zeta in S. replace (0 + j - i) with (j - i) in S by lia.
  destruct (six_core n d i j m e Hn Hd Hi Hj B S) as (M & m0 & C). split; [exact M|]. exists i, j, m0. split; [exact Hi|]. split; [exact Hj|]. split; [exact Hk|exact C].
Qed.
(** The grid number [m0 * D], scaled by [S], is as near to [X] as every decimal of six digits. *)
Lemma grid_nearest X D m0 S Q : 0 < D -> 0 < S -> 100000 * D <= X -> (forall w, Z.abs (X - m0 * D) <= Z.abs (X - w * D)) ->
  (exists w, Q = w * D * S) \/ Q < 100000 * D * S -> Z.abs (X * S - m0 * D * S) <= Z.abs (X * S - Q).
Proof.
  intros HD HS HX N H. rewrite <- Z.mul_sub_distr_r, <- abs_scale by lia. destruct H as [(w & ->)|H].
  - rewrite <- Z.mul_sub_distr_r, <- abs_scale by lia. apply Z.mul_le_mono_nonneg_r; [lia|apply N].
  - assert (Z.abs (X - m0 * D) * S <= Z.abs (X - 100000 * D) * S) by (apply Z.mul_le_mono_nonneg_r; [lia|apply N]).
    rewrite (abs_scale (X - 100000 * D)) in H0 by lia. rewrite (Z.mul_sub_distr_r X) in H0. assert (0 <= X * S - 100000 * D * S) by (rewrite <- Z.mul_sub_distr_r; apply Z.mul_nonneg_nonneg; lia). lia.
Qed.
(** Where a decimal of six digits lies with respect to the grid. *)
Lemma decimal_in_grid d i j m' k' : 0 < d -> 0 <= i -> 0 <= j -> Z.abs m' < 1000000 -> let t := Z.abs k' in let Q := m' * 10 ^ (i + 5 + t + k') * d in let D := d * 10 ^ j in
  (exists w, Q = w * D * 10 ^ t) \/ Q < 100000 * D * 10 ^ t.
Proof.
  intros Hd Hi Hj Hm t Q D. unfold Q, D. destruct (Z.le_gt_cases (j + t) (i + 5 + t + k')) as [L|L].
  - left. exists (m' * 10 ^ (i + 5 + k' - j)). replace (i + 5 + t + k') with (i + 5 + k' - j + j + t) by lia. rewrite !p10_add by (subst t; lia). ring.
  - right. assert (P : 0 < 10 ^ (i + 5 + t + k')) by (apply p10; subst t; lia).
    replace (100000 * (d * 10 ^ j) * 10 ^ t) with (100000 * 10 ^ (j + t) * d) by (rewrite p10_add by (subst t; lia); ring).
    apply Z.mul_lt_mono_pos_r; [exact Hd|].
    assert (E : 10 ^ (j + t) = 10 ^ (i + 5 + t + k') * 10 ^ (j - i - 5 - k')) by (rewrite <- p10_add by (subst t; lia); f_equal; lia).
    assert (T : 10 ^ 1 <= 10 ^ (j - i - 5 - k')) by (apply Z.pow_le_mono_r; lia). change (10 ^ 1) with 10 in T. rewrite E.
    set (p := 10 ^ (i + 5 + t + k')) in *. set (r := 10 ^ (j - i - 5 - k')) in *. clearbody p r.
    assert (m' * p <= 999999 * p) by (apply Z.mul_le_mono_nonneg_r; lia). assert (p * 10 <= p * r) by (apply Z.mul_le_mono_nonneg_l; lia). lia.
Qed.
Lemma six_nearest n d m e m' k' : 0 < n -> 0 < d -> d <= n * 10 ^ 400 -> n < d * 10 ^ 401 -> six_digits n d = (m, e) -> Z.abs m' < 1000000 -> as_near n d m (e - 5) m' k'.
Proof.
  intros Hn Hd H1 H2 S Hm. destruct (six_digits_spec n d m e Hn Hd H1 H2 S) as (_ & i & j & m0 & Hi & Hj & _ & (R & N & M) & C).
  set (t := Z.abs k'). assert (Pt : 0 < 10 ^ t) by (apply p10; subst t; lia). assert (Pj : 0 < 10 ^ j) by (apply p10; lia).
  apply (near_scale n d m (e - 5) m' k' (i + 5 + t)); [subst t; lia|lia|subst t; lia|].
  replace (m * 10 ^ (i + 5 + t + (e - 5)) * d) with (m0 * (d * 10 ^ j) * 10 ^ t).
  2: { destruct C as [(-> & ->)|(-> & ->)]; [replace (i + 5 + t + (j - i - 5)) with (j + t) by lia; rewrite p10_add by lia; ring|].
       replace (i + 5 + t + (j - i + 1 - 5)) with (j + t + 1) by lia. rewrite !p10_add by lia. change (10 ^ 1) with 10. ring. }
  replace (n * 10 ^ (i + 5 + t)) with (n * 10 ^ (i + 5) * 10 ^ t) by (rewrite (p10_add (i + 5) t) by lia; ring).
  apply grid_nearest; [apply Z.mul_pos_pos; lia|exact Pt|lia|exact N|].
  apply (decimal_in_grid d i j m' k' Hd Hi Hj Hm).
Qed.

(** ** The digits as text *)
Lemma dec_value_acc s : forall a, fold_left (fun a c => 10 * a + (c - 48)) s a = a * 10 ^ Z.of_nat (length s) + decimal_value s.
Proof.
  induction s as [|c t IH]; intros a; [cbn; lia|]. unfold decimal_value. cbn [fold_left length]. rewrite !IH. rewrite Nat2Z.inj_succ, Z.pow_succ_r by lia. ring.
Qed.
Lemma dec_value_app a b : decimal_value (a ++ b) = decimal_value a * 10 ^ Z.of_nat (length b) + decimal_value b.
Proof. unfold decimal_value at 1. rewrite fold_left_app. apply dec_value_acc. Qed.
Lemma dec_value_zeros n : decimal_value (repeat 48 n) = 0.
Proof. induction n as [|n IH]; [reflexivity|]. change (decimal_value ([48] ++ repeat 48 n) = 0). rewrite dec_value_app, IH. change (decimal_value [48]) with 0. lia. Qed.
Lemma number_of_value s : forall a, number_of a s = fold_left (fun a c => 10 * a + (c - 48)) s a.
Proof. induction s as [|c t IH]; intros a; [reflexivity|]. cbn [number_of fold_left]. apply IH. Qed.
Lemma dec_length fuel : forall n k, 0 <= n < 10 ^ k -> 1 <= k -> (length (dec_digits fuel n) <= Z.to_nat k)%nat.
Proof.
  induction fuel as [|g IH]; intros n k Hn Hk; [cbn; lia|]. cbn [dec_digits]. destruct (n / 10 =? 0) eqn:E; [cbn; lia|].
  rewrite app_length. cbn [length]. assert (10 <= n) by (destruct (Z.lt_ge_cases n 10) as [L|L]; [rewrite Z.div_small in E by lia; discriminate|lia]).
  destruct (Z.eq_dec k 1) as [->|K]; [change (10 ^ 1) with 10 in Hn; lia|].
  specialize (IH (n / 10) (k - 1)). assert (n / 10 < 10 ^ (k - 1)) by (apply Z.div_lt_upper_bound; [lia|]; replace (10 * 10 ^ (k - 1)) with (10 ^ k) by (rewrite <- Z.pow_succ_r by lia; f_equal; lia); lia).
  assert (0 <= n / 10) by (apply Z.div_pos; lia). lia.
Qed.
Lemma dec_length_ge fuel : forall n k, 10 ^ k <= n -> 0 <= k -> (Z.to_nat k < fuel)%nat -> (Z.to_nat k < length (dec_digits fuel n))%nat.
Proof.
  induction fuel as [|g IH]; intros n k Hn Hk Hf; [lia|]. cbn [dec_digits]. rewrite app_length. cbn [length]. destruct (Z.eq_dec k 0) as [->|K]; [cbn; lia|].
  assert (E : 10 ^ k = 10 * 10 ^ (k - 1)) by (rewrite <- Z.pow_succ_r by lia; f_equal; lia). assert (P : 0 < 10 ^ (k - 1)) by (apply p10; lia).
  assert (L : 10 ^ (k - 1) <= n / 10) by (apply Z.div_le_lower_bound; lia). replace (n / 10 =? 0) with false by lia. specialize (IH (n / 10) (k - 1) L ltac:(lia)). lia.
Qed.
Lemma six_text m : 100000 <= m < 1000000 -> length (print_u m) = 6%nat /\ Forall digit (print_u m) /\ decimal_value (print_u m) = m.
Proof.
  intros H. destruct (print_u_spec m ltac:(unfold two64; lia)) as (V & F & _). split; [|split; assumption].
  pose proof (dec_length 20 m 6 ltac:(change (10 ^ 6) with 1000000; lia) ltac:(lia)). pose proof (dec_length_ge 20 m 5 ltac:(change (10 ^ 5) with 100000; lia) ltac:(lia) ltac:(lia)). unfold print_u. lia.
Qed.
Lemma strip_spec s : exists z, s = strip s ++ repeat 48 z.
Proof.
  induction s as [|c t (z & E)]; [exists 0%nat; reflexivity|]. cbn [strip]. destruct (strip t) as [|a u] eqn:St.
  - destruct (Z.eqb_spec c 48) as [->|N].
    + exists (S z). cbn [repeat app]. rewrite E at 1. reflexivity.
    + exists z. rewrite E at 1. reflexivity.
  - exists z. rewrite E at 1. reflexivity.
Qed.
Definition unsigned_text (s : list Z) (m k : Z) : Prop :=
  exists ip pt fp ex e, s = ip ++ pt ++ fp ++ ex /\ Forall digit ip /\ Forall digit fp /\ ip ++ fp <> [] /\
    (pt = [46] \/ pt = [] /\ fp = []) /\ exponent_part ex e /\ m = decimal_value (ip ++ fp) /\ k = e - Z.of_nat (length fp).
(** An integer part and a fraction with its zeros removed. *)
Lemma fraction_text ip r ex x : Forall digit ip -> Forall digit r -> ip <> [] -> exponent_part ex x ->
  exists m k z, 0 <= z /\ unsigned_text (ip ++ fraction r ++ ex) m k /\ decimal_value (ip ++ r) = m * 10 ^ z /\ k = x - Z.of_nat (length r) + z /\ (length (fraction r) <= S (length r))%nat.
Proof.
  intros Fi Fr Ne X. destruct (strip_spec r) as (z & E). set (u := strip r) in *.
  assert (Fu : Forall digit u) by (rewrite E in Fr; apply Forall_app in Fr; apply Fr).
  assert (Er : length r = (length u + z)%nat) by (rewrite E at 1; rewrite app_length, repeat_length; reflexivity).
  assert (Ev : decimal_value (ip ++ r) = decimal_value (ip ++ u) * 10 ^ Z.of_nat z) by (rewrite E, app_assoc, (dec_value_app (ip ++ u)), dec_value_zeros, repeat_length; lia).
  exists (decimal_value (ip ++ u)), (x - Z.of_nat (length u)), (Z.of_nat z). split; [lia|]. split; [|split; [exact Ev|split; [lia|]]].
  - unfold fraction. fold u. exists ip, (match u with [] => [] | _ => [46] end), u, ex, x. split; [destruct u; reflexivity|]. split; [exact Fi|]. split; [exact Fu|]. split; [destruct ip; [contradiction|discriminate]|].
    split; [destruct u; [right; split; reflexivity|left; reflexivity]|]. split; [exact X|]. split; reflexivity.
  - unfold fraction. fold u. rewrite Er. clearbody u. destruct u; cbn [length]; lia.
Qed.
Lemma exponent_spec e : -1000 < e < 1000 -> exponent_part (69 :: exponent_text e) e /\ (length (exponent_text e) <= 5)%nat.
Proof.
  intros H. unfold exponent_text. set (a := Z.abs e). destruct (print_u_spec a ltac:(unfold two64, a; lia)) as (V & F & Ne).
  pose proof (dec_length 20 a 3 ltac:(change (10 ^ 3) with 1000; unfold a; lia) ltac:(lia)) as L. fold (print_u a) in L.
  set (ds := (if a <? 10 then [48] else []) ++ print_u a).
  assert (Fd : Forall digit ds) by (unfold ds; destruct (a <? 10); [constructor; [unfold digit; lia|exact F]|exact F]).
  assert (Vd : decimal_value ds = a) by (unfold ds; rewrite dec_value_app, V; destruct (a <? 10); cbn [length decimal_value fold_left]; lia).
  assert (Nd : ds <> []) by (unfold ds; destruct (print_u a); [contradiction|destruct (a <? 10); discriminate]).
  split; [|unfold ds; cbn [length]; rewrite app_length; destruct (a <? 10); cbn [length]; lia].
  destruct (Z.ltb_spec e 0) as [Hs|Hs].
  - assert (X : exponent_part (69 :: [45] ++ ds) (-1 * decimal_value ds)) by (constructor; [left; reflexivity|constructor|exact Fd|exact Nd]). replace (-1 * decimal_value ds) with e in X by (rewrite Vd; unfold a; lia). exact X.
  - assert (X : exponent_part (69 :: [43] ++ ds) (1 * decimal_value ds)) by (constructor; [left; reflexivity|constructor|exact Fd|exact Nd]). replace (1 * decimal_value ds) with e in X by (rewrite Vd; unfold a; lia). exact X.
Qed.
Lemma print_digits_text m e : 100000 <= m < 1000000 -> -1000 < e < 1000 ->
  exists mt k z, 0 <= z /\ unsigned_text (print_digits m e) mt k /\ m = mt * 10 ^ z /\ k = e - 5 + z /\ (length (print_digits m e) <= 20)%nat.
Proof.
  intros Hm He. destruct (six_text m Hm) as (L & F & V). unfold print_digits. set (ds := print_u m) in *. clearbody ds.
  assert (SP : forall n, decimal_value (firstn n ds ++ skipn n ds) = m /\ Forall digit (firstn n ds) /\ Forall digit (skipn n ds)).
  { intros n. rewrite firstn_skipn. split; [exact V|]. rewrite <- (firstn_skipn n ds) in F. apply Forall_app in F. exact F. }
  assert (NE : forall n, (0 < n)%nat -> firstn n ds <> []) by (intros n Hn C; apply (f_equal (@length Z)) in C; rewrite firstn_length, L in C; cbn in C; lia).
  destruct ((-4 <=? e) && (e <? 6)) eqn:Rg.
  - destruct (Z.leb_spec 0 e) as [P|P].
    + set (n := Z.to_nat (e + 1)). destruct (SP n) as (V' & F1 & F2). destruct (fraction_text (firstn n ds) (skipn n ds) [] 0 F1 F2 (NE n ltac:(unfold n; lia)) no_exponent) as (mt & k & z & Hz & T & E & Ek & Lf).
      rewrite app_nil_r in T. rewrite skipn_length, L in *. exists mt, k, z. split; [exact Hz|]. split; [exact T|]. split; [lia|]. split; [rewrite Ek; unfold n; lia|]. rewrite app_length, firstn_length, L. unfold n in *. lia.
    + destruct (strip_spec ds) as (z & E). generalize dependent (strip ds). intros u E. assert (Fu : Forall digit u) by (rewrite E in F; apply Forall_app in F; apply F).
      assert (Lu : (length u + z = 6)%nat) by (rewrite <- L, E, app_length, repeat_length; reflexivity).
      exists (decimal_value u), (- Z.of_nat (Z.to_nat (- e - 1) + length u)), (Z.of_nat z). split; [lia|]. split; [|split; [|split]].
      * exists [48], [46], (zeros (- e - 1) ++ u), [], 0. rewrite app_nil_r. split; [reflexivity|]. split; [repeat constructor; unfold digit; lia|].
        split; [apply Forall_app; split; [apply Forall_forall; intros c Hc; apply repeat_spec in Hc; subst; unfold digit; lia|exact Fu]|]. split; [discriminate|]. split; [left; reflexivity|]. split; [constructor|].
        split; [|rewrite app_length; unfold zeros; rewrite repeat_length; lia].
        rewrite app_assoc. change ([48] ++ zeros (- e - 1)) with (repeat 48 (S (Z.to_nat (- e - 1)))). rewrite dec_value_app, dec_value_zeros. lia.
      * rewrite <- V, E, dec_value_app, dec_value_zeros, repeat_length. lia.
      * lia.
      * cbn [length]. rewrite app_length. unfold zeros. rewrite repeat_length. lia.
  - destruct (SP 1%nat) as (V' & F1 & F2). destruct (exponent_spec e He) as (X & Lx).
    destruct (fraction_text (firstn 1 ds) (skipn 1 ds) (69 :: exponent_text e) e F1 F2 (NE 1%nat ltac:(lia)) X) as (mt & k & z & Hz & T & E & Ek & Lf).
    rewrite skipn_length, L in *. exists mt, k, z. split; [exact Hz|]. split; [exact T|]. split; [lia|]. split; [lia|]. rewrite !app_length, firstn_length, L. cbn [length]. lia.
Qed.

(** ** Scanning *)
Lemma IsDigit_digit c : IsDigit c = true <-> digit c.
Proof. unfold IsDigit, digit. lia. Qed.
Lemma take_digits_app ds rest : Forall digit ds -> match rest with [] => True | c :: _ => ~ digit c end -> take_digits (ds ++ rest) = (ds, rest).
Proof.
  intros F R. induction F as [|c t Hc F IH].
  - cbn [app]. destruct rest as [|c t]; [reflexivity|]. cbn [take_digits]. destruct (IsDigit c) eqn:E; [apply IsDigit_digit in E; contradiction|reflexivity].
  - cbn [app take_digits]. rewrite (proj2 (IsDigit_digit c) Hc), IH. reflexivity.
Qed.
Lemma exponent_head ex e : exponent_part ex e -> ex = [] /\ e = 0 \/ exists c t, ex = c :: t /\ (c = 69 \/ c = 101).
Proof. intros [|c sg k ds Hc _ _ _]; [left; split; reflexivity|right; exists c, (sg ++ ds); split; [reflexivity|exact Hc]]. Qed.
Lemma scan_exponent_spec ex e rest : exponent_part ex e -> stops rest -> scan_exponent (ex ++ rest) = e.
Proof.
  intros X R. assert (R' : match rest with [] => True | c :: _ => ~ digit c end) by (destruct rest; [exact I|apply R]).
  destruct X as [|c sg k ds Hc Sg F Ne].
  - cbn [app]. destruct rest as [|c t]; [reflexivity|]. cbn [scan_exponent]. destruct R as (_ & _ & R1 & R2 & _). replace (upper c =? 69) with false by (unfold upper; destruct ((97 <=? c) && (c <=? 122)) eqn:E; lia). reflexivity.
  - cbn [app scan_exponent]. replace (upper c =? 69) with true by (destruct Hc as [-> | ->]; reflexivity).
    destruct ds as [|d ds]; [contradiction|]. destruct Sg; cbn [app].
    + pose proof (Forall_inv F) as Hd. unfold digit in Hd. replace (d =? 45) with false by lia. replace (d =? 43) with false by lia.
      change (d :: ds ++ rest) with ((d :: ds) ++ rest). rewrite take_digits_app by assumption. cbn [fst]. rewrite number_of_value. unfold decimal_value. lia.
    + cbn [Z.eqb Pos.eqb]. change (d :: ds ++ rest) with ((d :: ds) ++ rest). rewrite take_digits_app by assumption. cbn [fst]. rewrite number_of_value. unfold decimal_value. lia.
    + cbn [Z.eqb Pos.eqb]. change (d :: ds ++ rest) with ((d :: ds) ++ rest). rewrite take_digits_app by assumption. cbn [fst]. rewrite number_of_value. unfold decimal_value. lia.
Qed.
Definition plain (c : Z) : Prop := c < 65 \/ c = 69 \/ c = 101.
Lemma sign_plain sg k : sign_text sg k -> Forall plain sg.
Proof. intros []; repeat constructor; left; lia. Qed.
Lemma digit_plain s : Forall digit s -> Forall plain s.
Proof. apply Forall_impl. intros c H. left. unfold digit in H. lia. Qed.
Lemma exponent_plain ex e : exponent_part ex e -> Forall plain ex.
Proof. intros [|c sg k ds Hc Sg F Ne]; [constructor|]. constructor; [right; exact Hc|]. apply Forall_app. split; [eapply sign_plain; exact Sg|apply digit_plain; exact F]. Qed.
Lemma starts_false c t : (digit c \/ c = 46) -> starts [78; 65; 78] (c :: t) = false /\ starts [73; 78; 70; 73; 78; 73; 84; 89] (c :: t) = false /\ starts [73; 78; 70; 73] (c :: t) = false /\ starts [73; 78; 70] (c :: t) = false.
Proof.
  intros H. assert (U : upper c = c) by (unfold upper, digit in *; replace ((97 <=? c) && (c <=? 122)) with false by lia; reflexivity).
  cbn [starts]. rewrite U. unfold digit in H. replace (78 =? c) with false by lia. replace (73 =? c) with false by lia. repeat split.
Qed.
Lemma not_hex s rest : Forall plain s -> stops rest -> s <> [] -> starts [48; 88] (s ++ rest) = false.
Proof.
  intros F R N. destruct s as [|a s]; [contradiction|]. cbn [app starts]. inversion F as [|? ? _ F']; subst.
  assert (Q : forall x, plain x -> (88 =? upper x) = false) by (intros x [H|[-> | ->]]; [unfold upper; destruct ((97 <=? x) && (x <=? 122)) eqn:E; lia|reflexivity|reflexivity]).
  destruct s as [|b s].
  - cbn [app]. destruct rest as [|c t]; [destruct (48 =? upper a); reflexivity|]. destruct R as (_ & _ & _ & _ & R1 & R2). replace (88 =? upper c) with false by (unfold upper; destruct ((97 <=? c) && (c <=? 122)) eqn:E; lia). destruct (48 =? upper a); reflexivity.
  - cbn [app]. rewrite (Q b (Forall_inv F')). destruct (48 =? upper a); reflexivity.
Qed.
Lemma unsigned_head s m k : unsigned_text s m k -> exists c t, s = c :: t /\ (digit c \/ c = 46).
Proof.
  intros (ip & pt & fp & ex & e & -> & Fi & Ff & Ne & Pt & X & _). destruct ip as [|c ip]; [|exists c; eexists; split; [reflexivity|left; exact (Forall_inv Fi)]].
  destruct Pt as [-> | (-> & ->)]; [|contradiction]. eexists. eexists. split; [reflexivity|right; reflexivity].
Qed.
Lemma scan_unsigned s m k rest : unsigned_text s m k -> stops rest -> scan_magnitude (s ++ rest) = Decimal m k.
Proof.
  intros T R. destruct (unsigned_head s m k T) as (c & t & Es & Hc). destruct (starts_false c (t ++ rest) Hc) as (S1 & S2 & S3 & S4).
  replace (c :: t ++ rest) with (s ++ rest) in * by (rewrite Es; reflexivity). unfold scan_magnitude. rewrite S1, S2, S3, S4. clear S1 S2 S3 S4.
  destruct T as (ip & pt & fp & ex & e & E & Fi & Ff & Ne & Pt & X & -> & ->).
  rewrite not_hex; [|rewrite E; repeat (apply Forall_app; split); [apply digit_plain; exact Fi|destruct Pt as [-> | (-> & _)]; repeat constructor; left; lia|apply digit_plain; exact Ff|eapply exponent_plain; exact X]|exact R|rewrite Es; discriminate].
  clear c t Es Hc. subst s. rewrite <- !app_assoc.
  assert (Nx : match ex ++ rest with [] => True | c :: _ => ~ digit c /\ c <> 46 end).
  { destruct (exponent_head ex e X) as [(-> & _)|(c & t & -> & Hc)]; [cbn [app]; destruct rest; [exact I|split; apply R]|cbn [app]; unfold digit; lia]. }
  assert (Q : forall ds, ds <> [] -> match ds with [] => NoMatch | z :: l => Decimal (number_of 0 (z :: l)) (scan_exponent (ex ++ rest) - Z.of_nat (length fp)) end = Decimal (decimal_value ds) (e - Z.of_nat (length fp))).
  { intros ds Nd. destruct ds; [contradiction|]. rewrite (scan_exponent_spec ex e rest X R), number_of_value. reflexivity. }
  destruct Pt as [-> | (-> & ->)].
  - rewrite take_digits_app; [|exact Fi|cbn; unfold digit; lia]. cbn [app]. cbn [Z.eqb Pos.eqb]. rewrite take_digits_app; [|exact Ff|destruct (ex ++ rest); [exact I|apply Nx]]. apply Q. exact Ne.
  - cbn [app] in *. rewrite take_digits_app; [|exact Fi|destruct (ex ++ rest); [exact I|apply Nx]].
    destruct (ex ++ rest) as [|c t] eqn:Er; [apply Q; exact Ne|]. replace (c =? 46) with false by lia. apply Q. exact Ne.
Qed.

(** ** Rounding decimals *)
Section Rounding.
Variable f : format.
Hypothesis G : good_format f.
Let m2 := 2 ^ mbits f.
Lemma nearest_exact M T : 0 < T -> 0 <= M <= exp_mask f -> nearest f (mag_value f M * T) T M.
Proof. intros HT HM. rewrite <- (round_mag_exact f G M T HM HT) at 2. apply (round_mag_nearest f G); [apply Z.mul_nonneg_nonneg; [apply (mag_value_nonneg f G); lia|lia]|exact HT]. Qed.
Lemma nearest_between Q Y T M : 0 < T -> 0 <= M <= exp_mask f -> 0 <= Q -> nearest f Q T M -> Q <= Y <= mag_value f M * T \/ mag_value f M * T <= Y <= Q -> nearest f Y T M.
Proof.
  intros HT HM HQ N B. pose proof (nearest_exact M T HT HM) as E. assert (P : 0 <= mag_value f M * T) by (apply Z.mul_nonneg_nonneg; [apply (mag_value_nonneg f G); lia|lia]).
  pose proof (round_mag_nearest f G Y T ltac:(lia) HT) as R. set (r := round_mag f Y T) in *. clearbody r.
  assert (r = M); [|subst; exact R].
  destruct B as [(B1 & B2)|(B1 & B2)]; apply Z.le_antisymm.
  - apply (nearest_mono f G _ _ _ _ _ _ HT HT (Z.mul_le_mono_nonneg_r _ _ T ltac:(lia) B2) R E).
  - apply (nearest_mono f G _ _ _ _ _ _ HT HT (Z.mul_le_mono_nonneg_r _ _ T ltac:(lia) B1) N R).
  - apply (nearest_mono f G _ _ _ _ _ _ HT HT (Z.mul_le_mono_nonneg_r _ _ T ltac:(lia) B2) R N).
  - apply (nearest_mono f G _ _ _ _ _ _ HT HT (Z.mul_le_mono_nonneg_r _ _ T ltac:(lia) B1) E R).
Qed.
Lemma nearest_error Q T M : 0 < T -> 0 <= M < exp_mask f -> 0 <= Q -> nearest f Q T M ->
  2 * Z.abs (mag_value f M * T - Q) <= T \/ 2 * m2 * Z.abs (mag_value f M * T - Q) <= Q.
Proof.
  intros HT HM HQ N. destruct (with_sign_fields f G false M ltac:(lia)) as (W1 & W2 & W3 & W4). pose proof (value_with_sign f G false M ltac:(lia)) as V.
  pose proof (rounded_error f G Q T (with_sign f false M) HT) as RE. rewrite V, (Z.abs_eq Q) in RE by lia. apply RE.
  - unfold rounded. rewrite W2, W3, W4, (Z.abs_eq Q) by lia. split; [exact W1|]. split; [reflexivity|]. split; [exact N|]. split; [reflexivity|lia].
  - unfold finite. rewrite W3. lia.
Qed.
(** Below the least normal number rounding only looks at the distance. *)
Lemma nearest_small Q Y T M : 0 < T -> 0 <= M < exp_mask f -> 0 <= Q -> mag_value f M < m2 -> nearest f Q T M ->
  Z.abs (mag_value f M * T - Y) <= Z.abs (mag_value f M * T - Q) -> nearest f Y T M.
Proof.
  intros HT HM HQ Sm (R & N) C. pose proof (mag_value_nonneg f G M ltac:(lia)) as Mp. pose proof (m2_pos f G) as P2. fold m2 in P2.
  assert (Up : mag_value f (M + 1) = mag_value f M + 1).
  { pose proof (mag_value_lt f G M (M + 1) ltac:(lia)) as L. destruct (gap_bound f G M ltac:(lia)) as [(A & _)|A]; [lia|]. fold m2 in A.
    assert (1 * m2 <= (mag_value f (M + 1) - mag_value f M) * m2) by (apply Z.mul_le_mono_nonneg_r; lia). lia. }
  assert (Dn : 0 < M -> mag_value f (M - 1) = mag_value f M - 1).
  { intros Hp. pose proof (mag_value_lt f G (M - 1) M ltac:(lia)) as L. destruct (gap_bound f G (M - 1) ltac:(lia)) as [(A & _)|A]; [replace (M - 1 + 1) with M in A by lia; lia|]. fold m2 in A. replace (M - 1 + 1) with M in A by lia.
    assert (1 * m2 <= (mag_value f M - mag_value f (M - 1)) * m2) by (apply Z.mul_le_mono_nonneg_r; lia). lia. }
  assert (Hf : 2 * Z.abs (mag_value f M * T - Q) <= T /\ (2 * Z.abs (mag_value f M * T - Q) = T -> Z.even M = true)).
  { destruct (Z.le_gt_cases (mag_value f M * T) Q) as [L|L].
    - destruct (N (M + 1) ltac:(lia)) as (A & B). rewrite Up, Z.mul_add_distr_r in *. split; [lia|]. intros E. apply B; lia.
    - assert (0 < M). { destruct (Z.eq_dec M 0) as [->|]; [rewrite (mag_value_zero f G) in L; lia|lia]. }
      destruct (N (M - 1) ltac:(lia)) as (A & B). rewrite (Dn H), Z.mul_sub_distr_r in *. split; [lia|]. intros E. apply B; lia. }
  destruct Hf as (Hf & He). split; [exact R|]. intros k Hk. destruct (Z.eq_dec k M) as [->|Nk]; [split; [lia|intros X; contradiction]|].
  assert (D : T <= Z.abs (mag_value f k * T - mag_value f M * T)).
  { rewrite <- Z.mul_sub_distr_r, Z.abs_mul, (Z.abs_eq T) by lia. assert (1 <= Z.abs (mag_value f k - mag_value f M)) by (destruct (Z.lt_ge_cases k M); [pose proof (mag_value_lt f G k M ltac:(lia))|pose proof (mag_value_lt f G M k ltac:(lia))]; lia).
    rewrite <- (Z.mul_1_l T) at 1. apply Z.mul_le_mono_nonneg_r; lia. }
  split; [lia|]. intros _ E. apply He. lia.
Qed.
Lemma grid_round M T X D m0 Q : 8388608 <= m2 -> 0 < T -> 0 < D -> 0 <= M < exp_mask f -> 0 <= Q -> X = mag_value f M * T -> 100000 * D <= X < 1000000 * D ->
  (forall w, Z.abs (X - m0 * D) <= Z.abs (X - w * D)) -> nearest f Q T M -> (exists w, Q = w * D) \/ Q < 100000 * D -> nearest f (m0 * D) T M.
Proof.
  intros H2 HT HD HM HQ EX HX Best NQ Gr.
  assert (Q0 : exists w, 0 <= w * D /\ nearest f (w * D) T M).
  { destruct Gr as [(w & ->)|L]; [exists w; split; assumption|]. exists 100000. split; [lia|]. apply (nearest_between Q); try assumption; lia. }
  clear Q HQ NQ Gr. destruct Q0 as (w & Hw & Nw). specialize (Best w). set (Y := m0 * D) in *. set (Q := w * D) in *.
  destruct (Z.le_gt_cases m2 (mag_value f M)) as [Big|Small].
  2: { apply (nearest_small Q Y T M HT HM Hw Small Nw). rewrite <- EX. exact Best. }
  destruct (Z.eq_dec m0 w) as [E|E]; [unfold Y; rewrite E; exact Nw|].
  assert (Sep : D <= Z.abs (Y - Q)).
  { unfold Y, Q. rewrite <- Z.mul_sub_distr_r, Z.abs_mul, (Z.abs_eq D) by lia. rewrite <- (Z.mul_1_l D) at 1. apply Z.mul_le_mono_nonneg_r; lia. }
  assert (XT : m2 * T <= X) by (rewrite EX; apply Z.mul_le_mono_nonneg_r; lia).
  pose proof (nearest_error Q T M HT HM Hw Nw) as Er. rewrite <- EX in Er.
  destruct (Z.eq_dec (Z.abs (X - Q)) 0) as [Z0|Z0]; [exfalso; lia|].
  assert (M1 : 8388608 * Z.abs (X - Q) <= m2 * Z.abs (X - Q)) by (apply Z.mul_le_mono_nonneg_r; lia).
  exfalso. destruct Er as [Er|Er].
  - assert (m2 * (2 * Z.abs (X - Q)) <= m2 * T) by (apply Z.mul_le_mono_nonneg_l; lia). lia.
  - lia.
Qed.
Lemma scale_nearest m k u N M : 0 <= N -> 0 <= N + k -> (nearest f (numer m k * u) (denom k) M <-> nearest f (m * 10 ^ (N + k) * u) (10 ^ N) M).
Proof.
  intros H0 H1. assert (Hc : 0 < 10 ^ (N - Z.max (- k) 0)) by (apply p10; lia).
  rewrite <- (nearest_cancel f (numer m k * u) (denom k) (10 ^ (N - Z.max (- k) 0)) M Hc).
  replace (numer m k * u * 10 ^ (N - Z.max (- k) 0)) with (m * 10 ^ (N + k) * u).
  2: { unfold numer. replace (N + k) with (Z.max k 0 + (N - Z.max (- k) 0)) by lia. rewrite p10_add by lia. ring. }
  replace (denom k * 10 ^ (N - Z.max (- k) 0)) with (10 ^ N); [reflexivity|]. unfold denom. rewrite <- p10_add by lia. f_equal. lia.
Qed.
(** If a number is the rounding of some decimal of six digits, it is that of its own six digits. *)
Lemma six_rounds M m e mt k z m' k' : 8388608 <= m2 -> 0 <= M < exp_mask f -> let n := mag_value f M in let u := unit_of f in
  0 < n -> u <= n * 10 ^ 400 -> n < u * 10 ^ 401 -> six_digits n u = (m, e) -> m = mt * 10 ^ z -> 0 <= z -> k = e - 5 + z ->
  Z.abs m' < 1000000 -> nearest f (numer (Z.abs m') k' * u) (denom k') M -> nearest f (numer mt k * u) (denom k) M.
Proof.
  intros H2 HM n u Hn H1 H3 S Em Hz Ek Hm NQ. pose proof (unit_pos f G) as Hu. fold u in Hu.
  destruct (six_digits_spec n u m e Hn Hu H1 H3 S) as (_ & i & j & m0 & Hi & Hj & _ & (R & N & Mr) & C). clear H1 H3 S.
  set (t := Z.abs k') in *. assert (Pt : 0 < 10 ^ t) by (apply p10; subst t; lia). assert (Pj : 0 < 10 ^ j) by (apply p10; lia).
  assert (Ht : 0 <= t /\ 0 <= t + k') by (subst t; lia).
  apply (scale_nearest (Z.abs m') k' u (i + 5 + t) M) in NQ; [|lia|lia]. apply (scale_nearest mt k u (i + 5 + t) M); [lia|lia|].
  replace (mt * 10 ^ (i + 5 + t + k) * u) with (m0 * (u * 10 ^ j * 10 ^ t)).
  2: { replace (mt * 10 ^ (i + 5 + t + k)) with (mt * 10 ^ z * 10 ^ (i + 5 + t + e - 5)) by (rewrite <- Z.mul_assoc, <- p10_add by lia; do 2 f_equal; lia). rewrite <- Em.
       destruct C as [(-> & ->)|(-> & ->)]; [replace (i + 5 + t + (j - i) - 5) with (j + t) by lia; rewrite p10_add by lia; ring|].
       replace (i + 5 + t + (j - i + 1) - 5) with (j + t + 1) by lia. rewrite !p10_add by lia. change (10 ^ 1) with 10. ring. }
  assert (D0 : 0 < u * 10 ^ j * 10 ^ t) by (repeat apply Z.mul_pos_pos; lia).
  assert (TE : 10 ^ (i + 5 + t) = 10 ^ (i + 5) * 10 ^ t) by (rewrite (p10_add (i + 5) t) by lia; reflexivity).
  apply (grid_round M (10 ^ (i + 5 + t)) (n * 10 ^ (i + 5) * 10 ^ t) _ m0 (Z.abs m' * 10 ^ (i + 5 + t + k') * u) H2); [apply p10; lia|exact D0|exact HM|apply Z.mul_nonneg_nonneg; [apply Z.mul_nonneg_nonneg; [lia|apply Z.lt_le_incl, p10; lia]|lia]|fold n; rewrite TE; ring| | |exact NQ|].
  - clear N NQ C. rewrite !Z.mul_assoc. split; [apply Z.mul_le_mono_nonneg_r; lia|apply Z.mul_lt_mono_pos_r; lia].
  - intros w. rewrite !(Z.mul_assoc _ (u * 10 ^ j)), <- !Z.mul_sub_distr_r, <- !abs_scale by lia. apply Z.mul_le_mono_nonneg_r; [lia|apply N].
  - destruct (decimal_in_grid u i j (Z.abs m') k' Hu Hi Hj ltac:(lia)) as [(w & E)|E]; fold t in E; [left; exists w; rewrite E; ring|right; rewrite Z.mul_assoc; exact E].
Qed.
End Rounding.
