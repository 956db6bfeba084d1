(** * C87, C88: the text of Double and Single *)
From Verif Require Import Base Tac IntModel IntSpec IntProofs MathModel MathProofs MathSpec FloatSpec FloatProofs IeeeModel FloatTextModel FloatTextSpec FloatTextProofs.
From Coq Require Import ZifyBool.

Definition float_format (f : format) : Prop := f = double_fmt \/ f = single_fmt.
Definition sign_factor (f : format) (b : Z) : Z := if negative f b then -1 else 1.

Lemma ff_good f : float_format f -> good_format f.
Proof. intros [-> | ->]; [exact double_good|exact single_good]. Qed.
Lemma ff_bits f : float_format f -> 8388608 <= 2 ^ mbits f.
Proof. intros [-> | ->]; vm_compute; discriminate. Qed.
Lemma ff_unit f : float_format f -> unit_of f <= 10 ^ 400.
Proof. intros [-> | ->]; vm_compute; discriminate. Qed.
Lemma ff_max f : float_format f -> mag_value f (exp_mask f) <= unit_of f * 10 ^ 401.
Proof. intros [-> | ->]; vm_compute; discriminate. Qed.
Lemma ff_one f : float_format f -> one_of f = unit_of f.
Proof. intros [-> | ->]; reflexivity. Qed.
Lemma ff_bounds f M : float_format f -> 0 <= M < exp_mask f -> 0 < mag_value f M -> unit_of f <= mag_value f M * 10 ^ 400 /\ mag_value f M < unit_of f * 10 ^ 401.
Proof.
  intros F HM P. pose proof (ff_unit f F) as U. pose proof (ff_max f F) as Mx. pose proof (mag_value_lt f (ff_good f F) M (exp_mask f) HM) as L.
  pose proof (p10 400 ltac:(lia)) as T. generalize dependent (10 ^ 400). generalize dependent (10 ^ 401). intros t' Mx t U T. split; [|lia].
  assert (1 * t <= mag_value f M * t) by (apply Z.mul_le_mono_nonneg_r; lia). lia.
Qed.

(** ** The shape of the text *)
Lemma near_neg v u m k m' k' : as_near v u m k (- m') k' -> as_near (- v) u (- m) k m' k'.
Proof.
  unfold as_near, numer. intros H.
  replace (- v * denom k - - m * 10 ^ Z.max k 0 * u) with (- (v * denom k - m * 10 ^ Z.max k 0 * u)) by ring.
  replace (- v * denom k' - m' * 10 ^ Z.max k' 0 * u) with (- (v * denom k' - - m' * 10 ^ Z.max k' 0 * u)) by ring. rewrite !Z.abs_opp. exact H.
Qed.
Lemma near_shift v u m k mt z m' k' : 0 <= z -> m = mt * 10 ^ z -> as_near v u m k m' k' -> as_near v u mt (k + z) m' k'.
Proof.
  intros Hz -> H. set (N := Z.abs k + Z.abs k'). apply (near_scale v u _ k m' k' N) in H; [|subst N; lia|subst N; lia|subst N; lia].
  apply (near_scale v u mt (k + z) m' k' N); [subst N; lia|subst N; lia|subst N; lia|].
  replace (mt * 10 ^ (N + (k + z))) with (mt * 10 ^ z * 10 ^ (N + k)); [exact H|]. rewrite <- Z.mul_assoc, <- p10_add by (subst N; lia). do 2 f_equal. lia.
Qed.
(** The text of a finite number: sign, then an unsigned numeral for its six digits. *)
Lemma finite_text f b : float_format f -> pattern f b -> finite f b -> exists s mt k,
  Float_ToString f b = Ret ((if negative f b then [45] else []) ++ s) /\ unsigned_text s mt k /\ 0 <= mt < 1000000 /\
  (forall m' k', Z.abs m' < 1000000 -> as_near (mag f b) (unit_of f) mt k m' k') /\
  (forall m' k', Z.abs m' < 1000000 -> nearest f (numer (Z.abs m') k' * unit_of f) (denom k') (magnitude f b) -> nearest f (numer mt k * unit_of f) (denom k) (magnitude f b)).
Proof.
  intros F Pb Fb. pose proof (ff_good f F) as G. destruct (finite_class f b Fb) as (Nn & Ni). unfold finite in Fb.
  pose proof (mag_range f G b) as MR. pose proof (mag_value_nonneg f G (magnitude f b) ltac:(lia)) as Mp.
  unfold Float_ToString, FormatString, format_G. rewrite Nn, Ni.
  destruct (Z.eqb_spec (mag f b) 0) as [Z0|Z0].
  - exists [48], 0, 0. split; [destruct (negative f b); reflexivity|]. split.
    { exists [48], [], [], [], 0. split; [reflexivity|]. split; [repeat constructor; unfold digit; lia|]. split; [constructor|]. split; [discriminate|]. split; [right; split; reflexivity|]. split; [constructor|]. split; reflexivity. }
    split; [lia|]. split.
    + intros m' k' _. rewrite Z0. unfold as_near, numer, denom. cbn [Z.opp Z.max Z.compare]. pose proof (Z.abs_nonneg (0 * 10 ^ Z.max (- k') 0 - m' * 10 ^ Z.max k' 0 * unit_of f)). change (Z.abs (0 * 10 ^ 0 - 0 * 10 ^ 0 * unit_of f)) with 0. change (10 ^ 0) with 1. lia.
    + intros m' k' _ _. unfold mag in Z0. assert (magnitude f b = 0) as ->.
      { destruct (Z.eq_dec (magnitude f b) 0) as [E|E]; [exact E|]. pose proof (mag_value_lt f G 0 (magnitude f b) ltac:(lia)). rewrite (mag_value_zero f G) in H. lia. }
      pose proof (nearest_exact f G 0 1 ltac:(lia) ltac:(lia)) as E. rewrite (mag_value_zero f G) in E. exact E.
  - destruct (six_digits (mag f b) (unit_of f)) as (m, e) eqn:S.
    destruct (ff_bounds f (magnitude f b) F ltac:(lia) ltac:(unfold mag in Z0; lia)) as (B1 & B2). pose proof (unit_pos f G) as Up.
    assert (Np : 0 < mag f b) by (unfold mag in *; lia). fold (mag f b) in B1, B2.
    destruct (six_digits_spec (mag f b) (unit_of f) m e Np Up B1 B2 S) as (Hm & i & j & m0 & Hi & Hj & Hij & _ & C).
    assert (He : -1000 < e < 1000) by (clear - Hi Hj Hij C; lia).
    destruct (print_digits_text m e Hm He) as (mt & k & z & Hz & T & Em & Ek & L).
    assert (Hmt : 0 <= mt < 1000000). { clear - Hm Em Hz. pose proof (p10 z Hz). generalize dependent (10 ^ z). intros p Em Hp. split; [destruct (Z.lt_ge_cases mt 0); [|lia]; assert (mt * p <= 0) by (apply Z.mul_nonpos_nonneg; lia); lia|]. destruct (Z.lt_ge_cases mt 1000000); [lia|]. assert (1000000 * 1 <= mt * p) by (apply Z.mul_le_mono_nonneg; lia). lia. }
    exists (print_digits m e), mt, k. split; [|split; [exact T|split; [exact Hmt|split]]].
    + replace (Z.of_nat (length ((if negative f b then [45] else []) ++ print_digits m e)) <? 128) with true; [reflexivity|]. clear - L. rewrite app_length. destruct (negative f b); cbn [length]; lia.
    + intros m' k' Hm'. rewrite Ek. apply (near_shift _ _ m (e - 5) mt z); [exact Hz|exact Em|]. apply six_nearest; assumption.
    + intros m' k' Hm' N. apply (six_rounds f G (magnitude f b) m e mt k z m' k' (ff_bits f F) ltac:(lia) Np B1 B2 S Em Hz Ek Hm' N).
Qed.
Lemma unsigned_signed f b s m k : unsigned_text s m k -> decimal_text ((if negative f b then [45] else []) ++ s) (sign_factor f b) m k.
Proof.
  intros (ip & pt & fp & ex & e & E & R). exists (if negative f b then [45] else []), ip, pt, fp, ex, e. split; [rewrite E; reflexivity|]. split; [unfold sign_factor; destruct (negative f b); constructor|exact R].
Qed.
(** C87: the text of a finite number is a numeral, and no decimal number of at most six significant
    digits is nearer to the number than the one the text stands for. *)
Theorem C87_ToString f b : float_format f -> pattern f b -> finite f b -> exists s m k,
  Float_ToString f b = Ret s /\ decimal_text s (sign_factor f b) m k /\ 0 <= m < 1000000 /\
  forall m' k', Z.abs m' < 1000000 -> as_near (value f b) (one_of f) (sign_factor f b * m) k m' k'.
Proof.
  intros F Pb Fb. destruct (finite_text f b F Pb Fb) as (s & m & k & E & T & Hm & N & _). eexists. exists m, k. split; [exact E|]. split; [apply unsigned_signed; exact T|]. split; [exact Hm|].
  intros m' k' Hm'. rewrite (ff_one f F). unfold sign_factor, value. fold (mag f b). destruct (negative f b).
  - replace (-1 * m) with (- m) by lia. apply near_neg, N. lia.
  - replace (1 * m) with m by lia. apply N. exact Hm'.
Qed.

(** ** Reading *)
Lemma signed_unsigned s sgn m k : decimal_text s sgn m k -> exists sg u, s = sg ++ u /\ sign_text sg sgn /\ unsigned_text u m k.
Proof. intros (sg & ip & pt & fp & ex & e & E & Sg & R). exists sg, (ip ++ pt ++ fp ++ ex). split; [exact E|]. split; [exact Sg|]. exists ip, pt, fp, ex, e. split; [reflexivity|exact R]. Qed.
Lemma head_of s sgn m k : decimal_text s sgn m k -> exists c t, s = c :: t /\ (digit c \/ c = 46 \/ c = 43 \/ c = 45).
Proof.
  intros T. destruct (signed_unsigned s sgn m k T) as (sg & u & -> & Sg & U). destruct Sg; cbn [app].
  - destruct (unsigned_head u m k U) as (c & t & -> & H). exists c, t. split; [reflexivity|tauto].
  - exists 43, u. split; [reflexivity|lia].
  - exists 45, u. split; [reflexivity|lia].
Qed.
Lemma head_not_space ws s sgn m k : text_space ws -> decimal_text s sgn m k -> exists c t, s = c :: t /\ ws c = false.
Proof.
  intros (Sp & Pt & _) T. destruct (head_of s sgn m k T) as (c & t & E & H). exists c, t. split; [exact E|]. destruct (ws c) eqn:W; [|reflexivity]. exfalso. destruct (Sp c W) as (A & B & C & _).
  destruct H as [H|[H|[H|H]]]; [contradiction|subst; congruence|contradiction|contradiction].
Qed.
Lemma skip_space_app ws w s : Forall (fun c => ws c = true) w -> (s = [] \/ exists c t, s = c :: t /\ ws c = false) -> skip_space ws (w ++ s) = s.
Proof.
  intros F H. induction F as [|c t Hc F IH]; cbn [app].
  - destruct H as [-> |(c & t & -> & E)]; [reflexivity|]. cbn [skip_space]. rewrite E. reflexivity.
  - cbn [skip_space]. rewrite Hc. exact IH.
Qed.
Definition read_as (f : format) (sgn m k : Z) : Z := with_sign f (sgn <? 0) (round_mag f (numer m k * unit_of f) (denom k)).
Lemma scan_text ws hex f w s sgn m k rest : text_space ws -> Forall (fun c => ws c = true) w -> decimal_text s sgn m k -> stops rest -> swscanf_G ws hex f (w ++ s ++ rest) = Some (read_as f sgn m k).
Proof.
  intros W Fw T R. destruct (head_not_space ws s sgn m k W T) as (c & t & Ec & Wc).
  unfold swscanf_G. rewrite skip_space_app; [|exact Fw|right; exists c, (t ++ rest); rewrite Ec; split; [reflexivity|exact Wc]].
  destruct (signed_unsigned s sgn m k T) as (sg & u & E & Sg & U).
  assert (X : scan_sign (s ++ rest) = (sgn <? 0, u ++ rest)).
  { rewrite E. destruct Sg; cbn [app]; [|reflexivity|reflexivity]. destruct (unsigned_head u m k U) as (a & v & -> & Ha). cbn [app scan_sign]. unfold digit in Ha. replace (a =? 45) with false by lia. replace (a =? 43) with false by lia. reflexivity. }
  rewrite X, (scan_unsigned u m k rest U R). reflexivity.
Qed.
Lemma stops_end rest : stops rest -> stops (rest ++ [NUL]).
Proof. destruct rest; [intros _; cbn; unfold digit, NUL; lia|intros H; exact H]. Qed.
Lemma parse_text ws hex f w s sgn m k rest : text_space ws -> Forall (fun c => ws c = true) w -> decimal_text s sgn m k -> stops rest ->
  Float_Parse ws hex f (Some (w ++ s ++ rest)) = Ret (read_as f sgn m k) /\ Float_TryParse ws hex f (Some (w ++ s ++ rest)) = Ret (true, Some (read_as f sgn m k)).
Proof.
  intros W Fw T R. pose proof (stops_end rest R) as R'. destruct (head_not_space ws s sgn m k W T) as (c & t & Ec & Wc). split.
  - unfold Float_Parse. rewrite <- !app_assoc, (scan_text ws hex f w s sgn m k (rest ++ [NUL]) W Fw T R'). reflexivity.
  - unfold Float_TryParse, Float_TryParseInternal. rewrite <- (app_assoc w). change NUL with 0.
    rewrite (skip_ws_app ws (proj1 W) w (s ++ rest) (Z.of_nat (length (w ++ s ++ rest))) Fw); [|right; exists c, (t ++ rest); rewrite Ec; split; [reflexivity|exact Wc]|unfold zlen; rewrite app_length; lia].
    cbn [bind]. rewrite <- app_assoc. pose proof (scan_text ws hex f [] s sgn m k (rest ++ [NUL]) W (Forall_nil _) T R') as Q. cbn [app] in Q. change NUL with 0 in Q. rewrite Q. reflexivity.
Qed.
Lemma decimal_nonneg s sgn m k : decimal_text s sgn m k -> 0 <= m.
Proof. intros (sg & ip & pt & fp & ex & e & _ & _ & Fi & Ff & _ & _ & _ & -> & _). apply decimal_value_nonneg. apply Forall_app. split; assumption. Qed.
Lemma numer_nonneg m k : 0 <= m -> 0 <= numer m k.
Proof. intros. apply Z.mul_nonneg_nonneg; [assumption|apply Z.lt_le_incl, p10; lia]. Qed.
Lemma read_as_rounded f sgn m k : float_format f -> (sgn = 1 \/ sgn = -1) -> 0 <= m -> rounded f (sgn * numer m k * one_of f) (denom k) (read_as f sgn m k) /\ negative f (read_as f sgn m k) = (sgn <? 0).
Proof.
  intros F Sg Hm. pose proof (ff_good f F) as G. rewrite (ff_one f F). pose proof (denom_pos k) as D. pose proof (unit_pos f G) as U. pose proof (numer_nonneg m k Hm) as Nn.
  assert (P : 0 <= numer m k * unit_of f) by (apply Z.mul_nonneg_nonneg; lia).
  assert (A : Z.abs (sgn * numer m k * unit_of f) = numer m k * unit_of f) by (destruct Sg as [-> | ->]; lia).
  unfold read_as. split.
  - rewrite <- A. apply (rounded_with_sign f G); [exact D| |]; intros H; destruct Sg as [-> | ->]; try reflexivity; exfalso; lia.
  - apply (with_sign_fields f G). apply (round_mag_range f G); assumption.
Qed.
(** C88: text in the form of a number, after white space, is read as the nearest number with the
    sign of the text. *)
Theorem C88_reads_partial ws hex f w s sgn m k : float_format f -> text_space ws -> Forall (fun c => ws c = true) w -> decimal_text s sgn m k ->
  exists b, Float_Parse ws hex f (Some (w ++ s)) = Ret b /\ Float_TryParse ws hex f (Some (w ++ s)) = Ret (true, Some b) /\
    rounded f (sgn * numer m k * one_of f) (denom k) b /\ (negative f b = true <-> sgn = -1).
Proof.
  intros F W Fw T. exists (read_as f sgn m k). destruct (parse_text ws hex f w s sgn m k [] W Fw T I) as (A & B). rewrite app_nil_r in A, B. split; [exact A|]. split; [exact B|].
  assert (Sg : sgn = 1 \/ sgn = -1) by (destruct T as (sg & ip & pt & fp & ex & e & _ & S & _); destruct S; [left|left|right]; reflexivity).
  destruct (read_as_rounded f sgn m k F Sg (decimal_nonneg s sgn m k T)) as (R & N). split; [exact R|]. rewrite N. lia.
Qed.
Lemma with_sign_self f b : good_format f -> pattern f b -> with_sign f (negative f b) (magnitude f b) = b.
Proof. intros G P. symmetry. apply (sign_split f G b P). Qed.
(** C87: the text is read back as the same number exactly if the number is the nearest one to some
    decimal number of at most six significant digits. *)
Theorem C87_round_trip_partial ws hex f b : float_format f -> text_space ws -> pattern f b -> finite f b -> exists s, Float_ToString f b = Ret s /\
  (Float_Parse ws hex f (Some s) = Ret b <-> exists m k, Z.abs m < 1000000 /\ rounded f (numer m k * one_of f) (denom k) b) /\
  (Float_TryParse ws hex f (Some s) = Ret (true, Some b) <-> exists m k, Z.abs m < 1000000 /\ rounded f (numer m k * one_of f) (denom k) b).
Proof.
  intros F W Pb Fb. pose proof (ff_good f F) as G. destruct (finite_text f b F Pb Fb) as (s & m & k & E & T & Hm & _ & N).
  pose proof (unsigned_signed f b s m k T) as T'. remember ((if negative f b then [45] else []) ++ s) as txt eqn:Etxt. exists txt. split; [exact E|]. clear Etxt.
  destruct (parse_text ws hex f [] txt (sign_factor f b) m k [] W (Forall_nil _) T' I) as (A & B). cbn [app] in A, B. rewrite app_nil_r in A, B.
  assert (Main : read_as f (sign_factor f b) m k = b <-> exists m k, Z.abs m < 1000000 /\ rounded f (numer m k * one_of f) (denom k) b).
  { split.
    - intros Q. exists (sign_factor f b * m), k. split; [unfold sign_factor; destruct (negative f b); lia|].
      assert (Sg : sign_factor f b = 1 \/ sign_factor f b = -1) by (unfold sign_factor; destruct (negative f b); [right|left]; reflexivity).
      destruct (read_as_rounded f (sign_factor f b) m k F Sg (proj1 Hm)) as (R & _). rewrite Q in R. replace (numer (sign_factor f b * m) k) with (sign_factor f b * numer m k) by (unfold numer; ring). exact R.
    - intros (m' & k' & Hm' & (_ & _ & R & _)). rewrite (ff_one f F) in R. pose proof (unit_pos f G) as U.
      assert (Ab : Z.abs (numer m' k' * unit_of f) = numer (Z.abs m') k' * unit_of f).
      { unfold numer. rewrite !Z.abs_mul, (Z.abs_eq (unit_of f)), (Z.abs_eq (10 ^ _)); [reflexivity|apply Z.lt_le_incl, p10; lia|lia]. }
      rewrite Ab in R. specialize (N m' k' Hm' R). unfold read_as.
      pose proof (denom_pos k) as D. pose proof (numer_nonneg m k (proj1 Hm)) as Nn.
      assert (P : 0 <= numer m k * unit_of f) by (apply Z.mul_nonneg_nonneg; lia).
      rewrite (nearest_unique f G _ _ _ _ D (round_mag_nearest f G _ _ P D) N).
      replace (sign_factor f b <? 0) with (negative f b) by (unfold sign_factor; destruct (negative f b); reflexivity). apply with_sign_self; assumption. }
  rewrite <- Main. split; split; intros Q.
  - pose proof (eq_trans (eq_sym A) Q) as X. injection X as X. exact X.
  - rewrite Q in A. exact A.
  - pose proof (eq_trans (eq_sym B) Q) as X. injection X as X. exact X.
  - rewrite Q in B. exact B.
Qed.
Lemma plain_parse ws hex f (c : Z) (t : str) v : space_ok ws -> ws c = false -> swscanf_G ws hex f (c :: t ++ [NUL]) = Some v ->
  Float_Parse ws hex f (Some (c :: t)) = Ret v /\ Float_TryParse ws hex f (Some (c :: t)) = Ret (true, Some v).
Proof.
  intros W C E. split; [unfold Float_Parse; cbn [app]; rewrite E; reflexivity|].
  unfold Float_TryParse, Float_TryParseInternal. pose proof (skip_ws_app ws W [] (c :: t) (Z.of_nat (length (c :: t))) (Forall_nil _) (or_intror (ex_intro _ c (ex_intro _ t (conj eq_refl C)))) ltac:(unfold zlen; cbn [length]; lia)) as K.
  cbn [app] in K. cbn [app]. change NUL with 0 in *. rewrite K. cbn [bind app]. rewrite E. reflexivity.
Qed.
(** C87: infinities come back, a NaN comes back as a NaN. *)
Theorem C87_special ws hex f b : float_format f -> text_space ws -> pattern f b -> ~ finite f b -> exists s b', Float_ToString f b = Ret s /\
  Float_Parse ws hex f (Some s) = Ret b' /\ Float_TryParse ws hex f (Some s) = Ret (true, Some b') /\ (nan f b = true -> nan f b' = true) /\ (infinite f b -> b' = b).
Proof.
  intros F (W & _ & Wl) Pb NF. pose proof (ff_good f F) as G. unfold finite in NF.
  assert (W45 : ws 45 = false) by (destruct (ws 45) eqn:E; [destruct (W 45 E) as (_ & _ & C & _); congruence|reflexivity]).
  unfold Float_ToString, FormatString, format_G, is_inf, infinite. destruct (nan f b) eqn:NB; pose proof NB as L; unfold nan in L; [apply Z.ltb_lt in L|apply Z.ltb_ge in L].
  - exists ((if negative f b then [45] else []) ++ [78; 65; 78]), (with_sign f (negative f b) (quiet_nan f)). split; [destruct (negative f b); reflexivity|].
    assert (Q : Float_Parse ws hex f (Some ((if negative f b then [45] else []) ++ [78; 65; 78])) = Ret (with_sign f (negative f b) (quiet_nan f)) /\ Float_TryParse ws hex f (Some ((if negative f b then [45] else []) ++ [78; 65; 78])) = Ret (true, Some (with_sign f (negative f b) (quiet_nan f)))).
    { destruct (negative f b); cbn [app]; (apply plain_parse; [exact W|first [exact W45|apply Wl; lia]|]); unfold swscanf_G; cbn [app skip_space]; [rewrite W45|rewrite (Wl 78) by lia]; reflexivity. }
    destruct Q as (Q1 & Q2). split; [exact Q1|]. split; [exact Q2|]. split; [intros _; destruct F as [-> | ->]; destruct (negative _ b); reflexivity|intros H; lia].
  - assert (E : magnitude f b = exp_mask f) by lia. replace (magnitude f b =? exp_mask f) with true by lia.
    exists ((if negative f b then [45] else []) ++ [73; 78; 70]), b. split; [destruct (negative f b); reflexivity|].
    assert (X : with_sign f (negative f b) (exp_mask f) = b) by (rewrite <- E; apply with_sign_self; assumption).
    assert (Q : Float_Parse ws hex f (Some ((if negative f b then [45] else []) ++ [73; 78; 70])) = Ret b /\ Float_TryParse ws hex f (Some ((if negative f b then [45] else []) ++ [73; 78; 70])) = Ret (true, Some b)).
    { rewrite <- X at 2 4. destruct (negative f b); cbn [app]; (apply plain_parse; [exact W|first [exact W45|apply Wl; lia]|]); unfold swscanf_G; cbn [app skip_space]; [rewrite W45|rewrite (Wl 73) by lia]; reflexivity. }
    destruct Q as (Q1 & Q2). split; [exact Q1|]. split; [exact Q2|]. split; [discriminate|intros _; reflexivity].
Qed.
(** C87 does not hold for all numbers: 0.1234567 becomes 0.123457, which is another number. *)
Theorem C87_refuted : exists b s b', pattern double_fmt b /\ finite double_fmt b /\ Float_ToString double_fmt b = Ret s /\
  forall ws hex, text_space ws -> Float_Parse ws hex double_fmt (Some s) = Ret b' /\ b' <> b.
Proof.
  exists 4593560413433027186, [48; 46; 49; 50; 51; 52; 53; 55], 4593560435050305397. split; [vm_compute; split; [discriminate|reflexivity]|]. split; [vm_compute; reflexivity|]. split; [vm_compute; reflexivity|].
  intros ws hex (W & P & L). split; [|discriminate]. apply plain_parse; [exact W|destruct (ws 48) eqn:E; [destruct (W 48 E) as (D & _); exfalso; apply D; unfold digit; lia|reflexivity]|].
  unfold swscanf_G. cbn [app skip_space]. replace (ws 48) with false; [vm_compute; reflexivity|]. destruct (ws 48) eqn:E; [destruct (W 48 E) as (D & _); exfalso; apply D; unfold digit; lia|reflexivity].
Qed.
Example C87_example_text : Float_ToString double_fmt 4638387438405602509 = Ret [49; 50; 51; 46; 52; 53].  (* 123.45 *)
Proof. vm_compute. reflexivity. Qed.
Example C87_example_exponent : Float_ToString double_fmt 13731694030708141453 = Ret [45; 50; 46; 53; 69; 45; 48; 55].  (* -2.5E-07 *)
Proof. vm_compute. reflexivity. Qed.
(** The hypothesis of [C87_round_trip_partial] is met by 123.45. *)
Example C87_example_six : exists m k, Z.abs m < 1000000 /\ rounded double_fmt (numer m k * one_of double_fmt) (denom k) 4638387438405602509.
Proof.
  exists 12345, (-2). split; [lia|].
  pose proof (read_as_rounded double_fmt 1 12345 (-2) (or_introl eq_refl) (or_introl eq_refl) ltac:(lia)) as (R & _).
  replace (read_as double_fmt 1 12345 (-2)) with 4638387438405602509 in R by (vm_compute; reflexivity).
  replace (1 * numer 12345 (-2)) with (numer 12345 (-2)) in R by lia. exact R.
Qed.

(** ** What a user of C# would expect of other text *)
(** C88: text after the number is accepted and ignored (C#: FormatException, false). *)
Theorem C88_trailing_refuted ws hex f w s sgn m k rest : float_format f -> text_space ws -> Forall (fun c => ws c = true) w -> decimal_text s sgn m k -> rest <> [] -> stops rest ->
  exists b, Float_Parse ws hex f (Some (w ++ s ++ rest)) = Ret b /\ Float_TryParse ws hex f (Some (w ++ s ++ rest)) = Ret (true, Some b) /\ rounded f (sgn * numer m k * one_of f) (denom k) b.
Proof.
  intros F W Fw T _ R. exists (read_as f sgn m k). destruct (parse_text ws hex f w s sgn m k rest W Fw T R) as (A & B). split; [exact A|]. split; [exact B|].
  assert (Sg : sgn = 1 \/ sgn = -1) by (destruct T as (sg & ip & pt & fp & ex & e & _ & S & _); destruct S; [left|left|right]; reflexivity).
  apply (read_as_rounded f sgn m k F Sg (decimal_nonneg s sgn m k T)).
Qed.
Example C88_example_trailing : decimal_text [49; 50] 1 12 0 /\ stops [32; 97; 112; 112; 108; 101; 115].   (* 12 apples *)
Proof.
  split; [|cbn; unfold digit; lia]. exists [], [49; 50], [], [], [], 0. split; [reflexivity|]. split; [constructor|]. split; [repeat constructor; unfold digit; lia|]. split; [constructor|]. split; [discriminate|].
  split; [right; split; reflexivity|]. split; [constructor|]. split; reflexivity.
Qed.
Lemma no_number c t : ~ digit c -> c <> 46 -> c <> 73 -> c <> 105 -> c <> 78 -> c <> 110 -> scan_magnitude (c :: t) = NoMatch.
Proof.
  intros D P A B C E. unfold digit in D.
  assert (U : upper c <> 73 /\ upper c <> 78 /\ upper c <> 48) by (unfold upper; destruct ((97 <=? c) && (c <=? 122)) eqn:H; lia).
  unfold scan_magnitude. cbn [starts]. replace (78 =? upper c) with false by lia. replace (73 =? upper c) with false by lia. replace (48 =? upper c) with false by lia. cbn [andb].
  cbn [take_digits]. unfold IsDigit. replace ((48 <=? c) && (c <=? 57)) with false by lia. replace (c =? 46) with false by lia. reflexivity.
Qed.
(** C88: text with no number - empty, white space only, or starting with any other character - is not
    reported by an exception or [false]: a variable that was never set is read. *)
Theorem C88_no_number_refuted ws hex f w rest : text_space ws -> Forall (fun c => ws c = true) w ->
  (rest = [] \/ exists c t, rest = c :: t /\ ws c = false /\ ~ digit c /\ c <> 46 /\ c <> 43 /\ c <> 45 /\ c <> 73 /\ c <> 105 /\ c <> 78 /\ c <> 110) ->
  Float_Parse ws hex f (Some (w ++ rest)) = UB UninitialisedRead /\ Float_TryParse ws hex f (Some (w ++ rest)) = UB UninitialisedRead.
Proof.
  intros (W & _) Fw H.
  assert (W0 : ws 0 = false) by (destruct (ws 0) eqn:E; [destruct (W 0 E) as (_ & _ & _ & X); congruence|reflexivity]).
  assert (Hd : rest = [] \/ exists c t, rest = c :: t /\ ws c = false) by (destruct H as [H|(c & t & H & Hc & _)]; [left; exact H|right; exists c, t; split; assumption]).
  assert (N : swscanf_G ws hex f (rest ++ [NUL]) = None).
  { unfold swscanf_G. destruct H as [-> |(c & t & -> & Hc & D & P & S1 & S2 & A & B & C & E)]; cbn [app skip_space].
    - unfold NUL. rewrite W0. reflexivity.
    - rewrite Hc. cbn [scan_sign]. replace (c =? 45) with false by lia. replace (c =? 43) with false by lia. rewrite no_number by assumption. reflexivity. }
  assert (M : swscanf_G ws hex f ((w ++ rest) ++ [NUL]) = None).
  { rewrite <- app_assoc. clear Hd H. unfold swscanf_G in *. replace (skip_space ws (w ++ rest ++ [NUL])) with (skip_space ws (rest ++ [NUL])); [exact N|]. clear N. induction Fw as [|c t Hc Fw IH]; [reflexivity|]. cbn [app skip_space]. rewrite Hc. exact IH. }
  split; [unfold Float_Parse; rewrite M; reflexivity|].
  unfold Float_TryParse, Float_TryParseInternal. pose proof (skip_ws_app ws W w rest (Z.of_nat (length (w ++ rest))) Fw Hd ltac:(unfold zlen; rewrite app_length; lia)) as K.
  rewrite <- (app_assoc w). change NUL with 0 in *. rewrite K. cbn [bind]. rewrite N. reflexivity.
Qed.
(** C88: [TryParse] answers [false] for no text at all. *)
Theorem C88_never_false_refuted ws hex f s v : Float_TryParse ws hex f (Some s) <> Ret (false, v).
Proof.
  unfold Float_TryParse, Float_TryParseInternal. destruct (skip_ws ws (s ++ [NUL]) (Z.of_nat (length s))) as [(src & n)| |]; cbn [bind]; try discriminate.
  destruct (swscanf_G ws hex f src); cbn [bind]; discriminate.
Qed.
(** C88: without a text, [TryParse] is [false] and [Parse] dereferences a null pointer. *)
Theorem C88_null ws hex f : Float_TryParse ws hex f None = Ret (false, None) /\ Float_Parse ws hex f None = UB NullDereference.
Proof. split; reflexivity. Qed.
Example C88_example_spaces : text_space (fun c => c =? 32).
Proof. split; [intros c H; unfold digit; lia|]. split; [reflexivity|intros; lia]. Qed.

Print Assumptions C87_ToString.
Print Assumptions C87_round_trip_partial.
Print Assumptions C87_special.
Print Assumptions C87_refuted.
Print Assumptions C88_reads_partial.
Print Assumptions C88_trailing_refuted.
Print Assumptions C88_no_number_refuted.
Print Assumptions C88_never_false_refuted.
