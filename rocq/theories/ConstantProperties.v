(** * C93: floating constants *)
From Verif Require Import Tac IntModel IntProofs IntSpec IeeeModel MathModel MathProofs MathSpec FloatSpec FloatProofs FloatTextModel FloatTextSpec FloatTextProofs FloatTextProperties BoxCompareProperties ConstantModel ConstantSpec ConstantProofs.

Definition text_reads (f : format) (s : list Z) (b : Z) : Prop := exists sgn m k, decimal_text s sgn m k /\ reads f sgn m k b.
Lemma text_reads_unique f s b b' : float_format f -> text_reads f s b -> text_reads f s b' -> b = b'.
Proof. intros F (sgn & m & k & T & R) (sgn' & m' & k' & T' & R'). destruct (decimal_unique _ _ _ _ _ _ _ T T') as (<- & <- & <-). exact (reads_unique f _ _ _ _ _ F R R'). Qed.
Lemma dbl_format : float_format dbl. Proof. left; reflexivity. Qed.
Lemma sgl_format : float_format sgl. Proof. right; reflexivity. Qed.

(** The keys of the table *)
Lemma decimal_ok n : Z.abs n < two64 -> exists sg, decimal n = sg ++ print_u (Z.abs n) /\ sign_text sg (if n <? 0 then -1 else 1) /\ Forall digit (print_u (Z.abs n)) /\ print_u (Z.abs n) <> [] /\ decimal_value (print_u (Z.abs n)) = Z.abs n.
Proof.
  intros H. destruct (print_u_spec (Z.abs n) ltac:(lia)) as (V & F & N). exists (if n <? 0 then [45] else []). unfold decimal. split; [reflexivity|]. split; [destruct (n <? 0); constructor|]. split; [exact F|]. split; [exact N|exact V].
Qed.
Lemma decimal_key n : Z.abs n < two64 -> decimal_text (decimal n) (if n <? 0 then -1 else 1) (Z.abs n) 0 /\ ~ floating (decimal n) /\ (exists c, In c (decimal n) /\ digit c).
Proof.
  intros H. destruct (decimal_ok n H) as (sg & -> & S & F & N & V). split; [rewrite <- V at 2; apply integer_decimal; assumption|]. split; [exact (integer_not_floating _ _ _ S F)|].
  destruct (print_u (Z.abs n)) as [|c l]; [contradiction|]. exists c. split; [apply in_app_iff; right; left; reflexivity|exact (Forall_inv F)].
Qed.
Lemma lookup_in t s c : lookup t s = Some c -> In (s, c) t.
Proof.
  induction t as [|(k, d) t IH]; cbn [lookup]; [discriminate|]. unfold text_eqb. destruct (list_eq_dec Z.eq_dec k s) as [->|]; [intros E; injection E as ->; left; reflexivity|intros E; right; exact (IH E)].
Qed.
Lemma lookup_none t s k c : lookup t s = None -> In (k, c) t -> k <> s.
Proof.
  induction t as [|(k', d) t IH]; cbn [lookup]; [intros _ []|]. unfold text_eqb. destruct (list_eq_dec Z.eq_dec k' s) as [->|N]; [discriminate|]. intros E [H|H]; [injection H as -> ->; exact N|exact (IH E H)].
Qed.
Definition integer_constant (c : constant) (n : Z) : Prop := exists t, c = IntegerMax t n \/ c = IntegerMin t n.
Lemma keys showD showS s c : In (s, c) (constantConversions showD showS) ->
  (exists n, integer_constant c n /\ s = decimal n /\ Z.abs n < two64) \/
  (exists neg, s = showS (with_sign sgl neg single_max) /\ c = if neg : bool then SingleMin else SingleMax) \/
  (exists neg, s = showD (with_sign dbl neg double_max) /\ c = if neg : bool then DoubleMin else DoubleMax) \/
  s = [78; 97; 78] /\ c = DoubleNaN \/
  (exists neg, s = showD (with_sign dbl neg (exp_mask dbl)) /\ c = if neg : bool then DoubleNegativeInfinity else DoublePositiveInfinity) \/
  s = showD 1 /\ c = DoubleEpsilon \/ s = showS 1 /\ c = SingleEpsilon.
Proof.
  assert (A : forall n t, Z.abs n < two64 -> exists n', integer_constant (IntegerMax t n) n' /\ decimal n = decimal n' /\ Z.abs n' < two64) by (intros n t H; exists n; split; [exists t; left; reflexivity|split; [reflexivity|exact H]]).
  assert (B : forall n t, Z.abs n < two64 -> exists n', integer_constant (IntegerMin t n) n' /\ decimal n = decimal n' /\ Z.abs n' < two64) by (intros n t H; exists n; split; [exists t; right; reflexivity|split; [reflexivity|exact H]]).
  unfold two64 in *. unfold constantConversions. cbn [In]. intros H.
  destruct H as [H|H]; [apply pair_equal_spec in H; destruct H as (<- & <-); left; apply A; reflexivity|].
  destruct H as [H|H]; [apply pair_equal_spec in H; destruct H as (<- & <-); left; apply A; reflexivity|].
  destruct H as [H|H]; [apply pair_equal_spec in H; destruct H as (<- & <-); left; apply A; reflexivity|].
  destruct H as [H|H]; [apply pair_equal_spec in H; destruct H as (<- & <-); left; apply A; reflexivity|].
  destruct H as [H|H]; [apply pair_equal_spec in H; destruct H as (<- & <-); left; apply A; reflexivity|].
  destruct H as [H|H]; [apply pair_equal_spec in H; destruct H as (<- & <-); left; apply A; reflexivity|].
  destruct H as [H|H]; [apply pair_equal_spec in H; destruct H as (<- & <-); left; apply A; reflexivity|].
  destruct H as [H|H]; [apply pair_equal_spec in H; destruct H as (<- & <-); left; apply A; reflexivity|].
  destruct H as [H|H]; [apply pair_equal_spec in H; destruct H as (<- & <-); right; left; exists false; split; reflexivity|].
  destruct H as [H|H]; [apply pair_equal_spec in H; destruct H as (<- & <-); right; right; left; exists false; split; reflexivity|].
  destruct H as [H|H]; [apply pair_equal_spec in H; destruct H as (<- & <-); left; apply B; reflexivity|].
  destruct H as [H|H]; [apply pair_equal_spec in H; destruct H as (<- & <-); left; apply B; reflexivity|].
  destruct H as [H|H]; [apply pair_equal_spec in H; destruct H as (<- & <-); left; apply B; reflexivity|].
  destruct H as [H|H]; [apply pair_equal_spec in H; destruct H as (<- & <-); left; apply B; reflexivity|].
  destruct H as [H|H]; [apply pair_equal_spec in H; destruct H as (<- & <-); right; left; exists true; split; reflexivity|].
  destruct H as [H|H]; [apply pair_equal_spec in H; destruct H as (<- & <-); right; right; left; exists true; split; reflexivity|].
  destruct H as [H|H]; [apply pair_equal_spec in H; destruct H as (<- & <-); right; right; right; left; split; reflexivity|].
  destruct H as [H|H]; [apply pair_equal_spec in H; destruct H as (<- & <-); right; right; right; right; left; exists false; split; reflexivity|].
  destruct H as [H|H]; [apply pair_equal_spec in H; destruct H as (<- & <-); right; right; right; right; left; exists true; split; reflexivity|].
  destruct H as [H|H]; [apply pair_equal_spec in H; destruct H as (<- & <-); right; right; right; right; right; left; split; reflexivity|].
  destruct H as [H|H]; [apply pair_equal_spec in H; destruct H as (<- & <-); right; right; right; right; right; right; split; reflexivity|].
  destruct H.
Qed.

(** Numbers read from the fixed texts *)
Ltac decimal_pieces sg ip pt fp ex e := exists sg, ip, pt, fp, ex, e; split; [reflexivity|]; split; [constructor|]; split; [repeat constructor; unfold digit; lia|]; split; [repeat constructor; unfold digit; lia|]; split; [discriminate|]; split; [first [left; reflexivity|right; split; reflexivity]|].
Lemma exponent_plus ds : Forall digit ds -> ds <> [] -> exponent_part (69 :: 43 :: ds) (1 * decimal_value ds).
Proof. intros. apply (exponent 69 [43] 1 ds); [left; reflexivity|constructor|assumption|assumption]. Qed.
Lemma exponent_minus ds : Forall digit ds -> ds <> [] -> exponent_part (69 :: 45 :: ds) (-1 * decimal_value ds).
Proof. intros. apply (exponent 69 [45] (-1) ds); [left; reflexivity|constructor|assumption|assumption]. Qed.
Definition short_smax : list Z := [51; 46; 52; 48; 50; 56; 50; 51; 53; 69; 43; 51; 56].
Lemma short_smax_text (neg : bool) : decimal_text ((if neg then [45] else []) ++ short_smax) (if neg then -1 else 1) 34028235 31.
Proof.
  exists (if neg then [45] else []), [51], [46], [52; 48; 50; 56; 50; 51; 53], [69; 43; 51; 56], 38. split; [destruct neg; reflexivity|]. split; [destruct neg; constructor|]. split; [repeat constructor; unfold digit; lia|].
  split; [repeat constructor; unfold digit; lia|]. split; [discriminate|]. split; [left; reflexivity|]. split; [apply (exponent_plus [51; 56]); [repeat constructor; unfold digit; lia|discriminate]|]. split; reflexivity.
Qed.
Lemma seps_short : decimal_text [49; 69; 45; 52; 53] 1 1 (-45).
Proof.
  exists [], [49], [], [], [69; 45; 52; 53], (-45). split; [reflexivity|]. split; [constructor|]. split; [repeat constructor; unfold digit; lia|]. split; [constructor|]. split; [discriminate|]. split; [right; split; reflexivity|].
  split; [apply (exponent_minus [52; 53]); [repeat constructor; unfold digit; lia|discriminate]|]. split; reflexivity.
Qed.
Lemma dmax_decimal (neg : bool) : decimal_text ((if neg then [45] else []) ++ dmax_text) (if neg then -1 else 1) 1797693134862315 293.
Proof.
  exists (if neg then [45] else []), [49], [46], [55; 57; 55; 54; 57; 51; 49; 51; 52; 56; 54; 50; 51; 49; 53], [69; 43; 51; 48; 56], 308. split; [destruct neg; reflexivity|]. split; [destruct neg; constructor|]. split; [repeat constructor; unfold digit; lia|].
  split; [repeat constructor; unfold digit; lia|]. split; [discriminate|]. split; [left; reflexivity|]. split; [apply (exponent_plus [51; 48; 56]); [repeat constructor; unfold digit; lia|discriminate]|]. split; reflexivity.
Qed.
Lemma smax_decimal (neg : bool) : decimal_text ((if neg then [45] else []) ++ smax_text) (if neg then -1 else 1) 340282346638528859 21.
Proof.
  exists (if neg then [45] else []), [51], [46], [52; 48; 50; 56; 50; 51; 52; 54; 54; 51; 56; 53; 50; 56; 56; 53; 57], [101; 43; 51; 56], 38. split; [destruct neg; reflexivity|]. split; [destruct neg; constructor|]. split; [repeat constructor; unfold digit; lia|].
  split; [repeat constructor; unfold digit; lia|]. split; [discriminate|]. split; [left; reflexivity|]. split; [apply (exponent 101 [43] 1 [51; 56]); [right; reflexivity|constructor|repeat constructor; unfold digit; lia|discriminate]|]. split; reflexivity.
Qed.
Lemma deps_decimal : decimal_text deps_text 1 494065645841247 (-338).
Proof.
  exists [], [52], [46], [57; 52; 48; 54; 53; 54; 52; 53; 56; 52; 49; 50; 52; 55], [69; 45; 51; 50; 52], (-324). split; [reflexivity|]. split; [constructor|]. split; [repeat constructor; unfold digit; lia|].
  split; [repeat constructor; unfold digit; lia|]. split; [discriminate|]. split; [left; reflexivity|]. split; [apply (exponent_minus [51; 50; 52]); [repeat constructor; unfold digit; lia|discriminate]|]. split; reflexivity.
Qed.
Definition seps_body : list Z := [49; 46; 52; 48; 49; 50; 57; 56; 69; 45; 52; 53].
Lemma seps_decimal : decimal_text seps_body 1 1401298 (-51).
Proof.
  exists [], [49], [46], [52; 48; 49; 50; 57; 56], [69; 45; 52; 53], (-45). split; [reflexivity|]. split; [constructor|]. split; [repeat constructor; unfold digit; lia|].
  split; [repeat constructor; unfold digit; lia|]. split; [discriminate|]. split; [left; reflexivity|]. split; [apply (exponent_minus [52; 53]); [repeat constructor; unfold digit; lia|discriminate]|]. split; reflexivity.
Qed.
Lemma reads_value f sgn m k b : float_format f -> 0 <= m -> reads f sgn m k b -> b = read_as f sgn m k.
Proof. intros F Hm R. exact (reads_unique f _ _ _ _ _ F R (reads_exists f sgn m k F Hm)). Qed.
(** What the library's constants are. *)
Lemma lib_deps_value v : library DoubleEpsilon v <-> v = VDouble 1.
Proof.
  assert (Fl : floating deps_text) by (left; vm_compute; tauto).
  assert (E : read_as dbl 1 494065645841247 (-338) = 1) by (vm_compute; reflexivity). split.
  - intros L. inversion L as [| | | |v' Hl| | | | | |]; subst. destruct (literal_double _ _ _ _ _ deps_decimal Fl Hl) as (b & -> & R). apply reads_value in R; [|apply dbl_format|lia]. rewrite R, E. reflexivity.
  - intros ->. pose proof (double_exists _ _ _ _ deps_decimal Fl) as L. rewrite E in L. apply (lib_deps _ L).
Qed.
Lemma lib_smax_value (neg : bool) v : library (if neg then SingleMin else SingleMax) v <-> v = VSingle (with_sign sgl neg single_max).
Proof.
  assert (Fl : forall b : bool, floating ((if b then [45] else []) ++ smax_text)) by (intros []; left; vm_compute; tauto).
  assert (E : convert sgl (VDouble (read_as dbl (if neg then -1 else 1) 340282346638528859 21)) = with_sign sgl neg single_max) by (destruct neg; vm_compute; reflexivity). split.
  - intros L. destruct neg.
    + inversion L as [| | | | | |v' Hl| | | |]; subst. destruct (literal_double _ _ _ _ _ (smax_decimal true) (Fl true) Hl) as (b & -> & R). apply reads_value in R; [|apply dbl_format|lia]. rewrite R, E. reflexivity.
    + inversion L as [| | | | |v' Hl| | | | |]; subst. destruct (literal_double _ _ _ _ _ (smax_decimal false) (Fl false) Hl) as (b & -> & R). apply reads_value in R; [|apply dbl_format|lia]. rewrite R, E. reflexivity.
  - intros ->. rewrite <- E. pose proof (double_exists _ _ _ _ (smax_decimal neg) (Fl neg)) as L. destruct neg; [apply lib_smin|apply lib_smax]; exact L.
Qed.
Lemma lib_seps_value v : library SingleEpsilon v <-> v = VSingle 1.
Proof.
  assert (Fl : floating seps_body) by (left; vm_compute; tauto). assert (Et : seps_text = seps_body ++ [70]) by reflexivity.
  assert (E : read_as sgl 1 1401298 (-51) = 1) by (vm_compute; reflexivity). split.
  - intros L. inversion L as [| | | | | | |v' Hl| | |]; subst. rewrite Et in Hl. destruct (literal_single _ _ _ _ _ seps_decimal Fl Hl) as (b & -> & R). apply reads_value in R; [|apply sgl_format|lia]. rewrite R, E. reflexivity.
  - intros ->. pose proof (single_exists _ _ _ _ seps_decimal Fl) as L. rewrite E, <- Et in L. apply (lib_seps _ L).
Qed.

Lemma int_key_length showD showS s c n : In (s, c) (constantConversions showD showS) -> integer_constant c n -> (3 <= length s)%nat.
Proof.
  intros L (t & Hc). unfold constantConversions in L. cbn [In] in L.
  repeat (destruct L as [L|L]; [apply pair_equal_spec in L; destruct L as (<- & <-); first [destruct Hc as [Hc|Hc]; discriminate Hc | apply Nat.leb_le; vm_compute; reflexivity]|]). destruct L.
Qed.

Section Runtime.
Variables showD showS : Z -> list Z.
Hypothesis D : dotnet showD showS.

Lemma sgn_of f b : (if negative f b then -1 else 1) <? 0 = negative f b.
Proof. destruct (negative f b); reflexivity. Qed.
Lemma trip_reads f show b : round_trip f show -> pattern f b -> finite f b -> exists m k, numeral (show b) (negative f b) m k /\ reads f (if negative f b then -1 else 1) m k b.
Proof.
  intros R P F. destruct (R b P F) as (m & k & N & Ne). exists m, k. split; [exact N|]. split; [exact P|]. split; [unfold nan, finite in *; lia|]. split; [exact Ne|]. symmetry. apply sgn_of.
Qed.
Lemma trip_text f show b : round_trip f show -> pattern f b -> finite f b -> text_reads f (show b) b.
Proof. intros R P F. destruct (trip_reads f show b R P F) as (m & k & N & Rd). exists (if negative f b then -1 else 1), m, k. split; [apply numeral_decimal; exact N|exact Rd]. Qed.
Lemma trip_digit f show b : round_trip f show -> pattern f b -> finite f b -> exists c, In c (show b) /\ digit c.
Proof. intros R P F. destruct (trip_reads f show b R P F) as (m & k & N & _). exact (numeral_digit _ _ _ _ N). Qed.
Lemma max_ok neg : pattern dbl (with_sign dbl neg double_max) /\ finite dbl (with_sign dbl neg double_max).
Proof. destruct neg; split; vm_compute; try split; try reflexivity; discriminate. Qed.
Lemma one_ok : pattern dbl 1 /\ finite dbl 1. Proof. split; vm_compute; try split; try reflexivity; discriminate. Qed.
Lemma one_ok_s : pattern sgl 1 /\ finite sgl 1. Proof. split; vm_compute; try split; try reflexivity; discriminate. Qed.
Lemma smax_ok neg : pattern sgl (with_sign sgl neg single_max) /\ finite sgl (with_sign sgl neg single_max).
Proof. destruct neg; split; vm_compute; try split; try reflexivity; discriminate. Qed.
Lemma nan_no_digit : ~ exists c, In c [78; 97; 78] /\ digit c.
Proof. intros (c & [<-|[<-|[<-|[]]]] & H); unfold digit in H; lia. Qed.
Lemma not_finite_classes f b : good_format f -> pattern f b -> ~ finite f b -> nan f b = true \/ b = with_sign f (negative f b) (exp_mask f).
Proof.
  intros G P F. unfold finite in F. destruct (nan f b) eqn:N; [left; reflexivity|right]. unfold nan in N. assert (E : magnitude f b = exp_mask f) by lia. rewrite <- E. symmetry. apply with_sign_self; assumption.
Qed.

(** The text of a number that is not finite: the constant it becomes. *)
Lemma special b : pattern dbl b -> ~ finite dbl b -> exists c, snd (ConvertConstants showD showS (showD b)) = Library c /\ fst (ConvertConstants showD showS (showD b)) = true /\
  (c = DoubleNaN /\ nan dbl b = true \/ exists neg : bool, b = with_sign dbl neg (exp_mask dbl) /\ c = if neg then DoubleNegativeInfinity else DoublePositiveInfinity).
Proof.
  intros P F. unfold ConvertConstants. destruct (lookup (constantConversions showD showS) (showD b)) as [c|] eqn:L.
  - exists c. split; [reflexivity|]. split; [reflexivity|]. apply lookup_in in L.
    assert (ND : ~ exists x, In x (showD b) /\ digit x).
    { destruct (not_finite_classes dbl b double_good P F) as [N|E]; [rewrite (text_nan _ _ D b N); exact nan_no_digit|rewrite E; apply (text_inf _ _ D)]. }
    destruct (keys _ _ _ _ L) as [(n & _ & E & Hn)|[(neg & E & _)|[(neg & E & _)|[(E & ->)|[(neg & E & ->)|[(E & _)|(E & _)]]]]]].
    + exfalso. apply ND. rewrite E. apply decimal_key. exact Hn.
    + exfalso. apply ND. rewrite E, (text_single_max _ _ D neg). exists 51. split; [apply in_app_iff; right; left; reflexivity|unfold digit; lia].
    + exfalso. apply ND. rewrite E. destruct (max_ok neg). apply (trip_digit dbl showD); [apply D|assumption|assumption].
    + left. split; [reflexivity|]. destruct (not_finite_classes dbl b double_good P F) as [N|X]; [exact N|]. exfalso. apply (proj2 (text_inf _ _ D (negative dbl b))). rewrite <- X. exact E.
    + right. exists neg. split; [|reflexivity]. destruct (not_finite_classes dbl b double_good P F) as [N|X].
      * exfalso. apply (proj2 (text_inf _ _ D neg)). rewrite <- E. apply (text_nan _ _ D b N).
      * rewrite X in E |- *. destruct (negative dbl b), neg; try reflexivity; exfalso; [apply (text_inf_sign _ _ D); exact E|apply (text_inf_sign _ _ D); symmetry; exact E].
    + exfalso. apply ND. rewrite E. destruct one_ok. apply (trip_digit dbl showD); [apply D|assumption|assumption].
    + exfalso. apply ND. rewrite E, (text_single_eps _ _ D). exists 49. split; [left; reflexivity|unfold digit; lia].
  - exfalso. destruct (not_finite_classes dbl b double_good P F) as [N|X].
    + apply (lookup_none _ _ [78; 97; 78] DoubleNaN L); [unfold constantConversions; do 16 right; left; reflexivity|symmetry; apply (text_nan _ _ D b N)].
    + apply (lookup_none _ _ (showD b) (if negative dbl b then DoubleNegativeInfinity else DoublePositiveInfinity) L); [|reflexivity].
      rewrite X at 1. unfold constantConversions. destruct (negative dbl b); [do 18 right; left; reflexivity|do 17 right; left; reflexivity].
Qed.
Lemma special_means c v b : c = DoubleNaN /\ nan dbl b = true \/ (exists neg : bool, b = with_sign dbl neg (exp_mask dbl) /\ c = if neg then DoubleNegativeInfinity else DoublePositiveInfinity) ->
  (library c v <-> v = VDouble (if nan dbl b then quiet_nan dbl else b)).
Proof.
  intros [(-> & N)|(neg & -> & ->)].
  - rewrite N. split; [intros L; inversion L; reflexivity|intros ->; constructor].
  - replace (nan dbl (with_sign dbl neg (exp_mask dbl))) with false by (destruct neg; reflexivity). destruct neg; (split; [intros L; inversion L; reflexivity|intros ->; constructor]).
Qed.

(** C93: a Double constant of the C# program, except the two extreme numbers and the numbers whose text
    is also that of an extreme Single, becomes an expression of type Double with its value. *)
Theorem C93_double_partial : forall b, pattern dbl b -> b <> with_sign dbl false double_max -> b <> with_sign dbl true double_max ->
  (forall neg, showD b <> showS (with_sign sgl neg single_max)) -> showD b <> showS 1 ->
  (exists v, means (VisitLdcF8 showD showS b) v) /\ forall v, means (VisitLdcF8 showD showS b) v -> exists b', v = VDouble b' /\ same dbl b' b.
Proof.
  intros b P Nmax Nmin Ns Ne. destruct (Z_lt_dec (magnitude dbl b) (exp_mask dbl)) as [F|F].
  - destruct (trip_reads dbl showD b (trip_double _ _ D) P F) as (m & k & N & R). destruct (numeral_last _ _ _ _ N) as (Ld & _).
    unfold VisitLdcF8. replace (IsDigit (last (showD b) 0)) with true by (unfold IsDigit, digit in *; lia).
    (* the text in the end: floating, and read as b *)
    set (s := if true && negb (contains 46 (showD b)) && negb (contains 69 (showD b)) then showD b ++ [46; 48] else showD b).
    assert (X : exists m' k', decimal_text s (if negative dbl b then -1 else 1) m' k' /\ reads dbl (if negative dbl b then -1 else 1) m' k' b /\ floating s /\ (s = showD b \/ exists t, s = t ++ [46; 48])).
    { unfold s. destruct (contains 46 (showD b)) eqn:C1; [|destruct (contains 69 (showD b)) eqn:C2]; cbn [negb andb].
      - exists m, k. split; [apply numeral_decimal; exact N|]. split; [exact R|]. split; [left; apply contains_in; exact C1|left; reflexivity].
      - exists m, k. split; [apply numeral_decimal; exact N|]. split; [exact R|]. split; [right; left; apply contains_in; exact C2|left; reflexivity].
      - assert (H46 : ~ In 46 (showD b)) by (intros H; apply contains_in in H; congruence). assert (H69 : ~ In 69 (showD b)) by (intros H; apply contains_in in H; congruence).
        destruct (point_zero _ _ _ _ N H46 H69) as (T & ->). exists (10 * m), (-1). split; [exact T|]. split; [|split; [left; apply in_app_iff; right; left; reflexivity|right; eexists; reflexivity]].
        destruct R as (R1 & R2 & R3 & R4). split; [exact R1|]. split; [exact R2|]. split; [apply (nearest_tenth dbl m _ _ double_good); exact R3|exact R4]. }
    clearbody s. destruct X as (m' & k' & T & R' & Fl & Or). assert (TR : text_reads dbl s b) by (eexists; eexists; eexists; split; [exact T|exact R']).
    assert (Dg : exists c, In c s /\ digit c).
    { destruct (head_of _ _ _ _ T) as (c0 & t & E & _). destruct T as (sg & ip & pt & fp & ex & e & -> & _ & Fi & Ff & Nn & _). destruct ip as [|c ip]; [destruct fp as [|c fp]; [contradiction|]|].
      - exists c. split; [rewrite !in_app_iff; right; right; right; left; left; reflexivity|exact (Forall_inv Ff)].
      - exists c. split; [rewrite !in_app_iff; right; left; left; reflexivity|exact (Forall_inv Fi)]. }
    assert (Fin : forall v, literal s v -> exists b', v = VDouble b' /\ same dbl b' b).
    { intros v L. destruct (literal_double _ _ _ _ _ T Fl L) as (b' & -> & R2). exists b'. split; [reflexivity|left]. exact (reads_unique dbl _ _ _ _ _ dbl_format R2 R'). }
    unfold ConvertConstants. destruct (lookup (constantConversions showD showS) s) as [c|] eqn:L; cbn [snd].
    + apply lookup_in in L.
      assert (C : c = DoubleEpsilon /\ b = 1).
      { destruct (keys _ _ _ _ L) as [(n & _ & E & Hn)|[(neg & E & _)|[(neg & E & _)|[(E & _)|[(neg & E & _)|[(E & ->)|(E & _)]]]]]].
        - exfalso. apply (proj1 (proj2 (decimal_key n Hn))). rewrite <- E. exact Fl.
        - exfalso. destruct Or as [Or|(t & Or)]; [apply (Ns neg); congruence|]. rewrite (text_single_max _ _ D neg) in E. rewrite Or in E.
          apply (f_equal (fun l => last l 0)) in E. change [46; 48] with ([46] ++ [48]) in E. rewrite app_assoc, last_last in E. destruct neg; vm_compute in E; discriminate.
        - exfalso. destruct (max_ok neg) as (Pm & Fm). pose proof (trip_text dbl showD _ (trip_double _ _ D) Pm Fm) as X. rewrite <- E in X. pose proof (text_reads_unique _ _ _ _ dbl_format TR X) as Q. destruct neg; contradiction.
        - exfalso. apply nan_no_digit. rewrite <- E. exact Dg.
        - exfalso. apply (proj1 (text_inf _ _ D neg)). rewrite <- E. exact Dg.
        - split; [reflexivity|]. destruct one_ok as (Pm & Fm). pose proof (trip_text dbl showD _ (trip_double _ _ D) Pm Fm) as X. rewrite <- E in X. exact (text_reads_unique _ _ _ _ dbl_format TR X).
        - exfalso. destruct Or as [Or|(t & Or)]; [congruence|]. rewrite (text_single_eps _ _ D) in E. rewrite Or in E.
          apply (f_equal (fun l => last l 0)) in E. change [46; 48] with ([46] ++ [48]) in E. rewrite app_assoc, last_last in E. vm_compute in E; discriminate. }
      destruct C as (-> & ->). split; [exists (VDouble 1); constructor; apply lib_deps_value; reflexivity|]. intros v M. inversion M as [c v' Lb|]; subst. apply lib_deps_value in Lb. subst v. exists 1. split; [reflexivity|left; reflexivity].
    + split; [eexists; constructor; exact (double_exists _ _ _ _ T Fl)|]. intros v M. inversion M as [|s' v' Lt]; subst. exact (Fin v Lt).
  - destruct (special b P F) as (c & E & _ & K).
    assert (ND : IsDigit (last (showD b) 0) = false).
    { assert (X : ~ exists x, In x (showD b) /\ digit x) by (destruct (not_finite_classes dbl b double_good P F) as [N|Eb]; [rewrite (text_nan _ _ D b N); exact nan_no_digit|rewrite Eb; apply (text_inf _ _ D)]).
      destruct (IsDigit (last (showD b) 0)) eqn:I; [|reflexivity]. exfalso. apply X. exists (last (showD b) 0). split; [|apply IsDigit_digit; exact I].
      destruct (showD b) as [|x l] eqn:Es; [discriminate|]. rewrite <- Es in *. assert (Nn : showD b <> []) by congruence. destruct (exists_last Nn) as (l' & y & El). rewrite El, last_last. apply in_app_iff. right. left. reflexivity. }
    unfold VisitLdcF8. rewrite ND. cbn [andb]. rewrite E. split.
    + eexists. constructor. apply (special_means _ _ _ K). reflexivity.
    + intros v M. inversion M as [c' v' Lb|]; subst. apply (special_means _ _ _ K) in Lb. subst v. eexists. split; [reflexivity|]. destruct (nan dbl b) eqn:N; [right; split; [reflexivity|exact N]|left; reflexivity].
Qed.

Lemma widen_facts b : pattern sgl b -> finite sgl b -> exists w, w = fl_convert sgl dbl b /\ pattern dbl w /\ finite dbl w /\
  mag_value dbl (magnitude dbl w) = mag_value sgl (magnitude sgl b) * 2 ^ 925 /\ negative dbl w = negative sgl b /\ fl_convert dbl sgl w = b.
Proof.
  intros P F. exists (fl_convert sgl dbl b). split; [reflexivity|]. pose proof (mag_range sgl single_good b) as Mr. destruct (finite_class sgl b F) as (N & I).
  assert (Hm : 0 <= magnitude sgl b <= exp_mask sgl) by (unfold finite in F; lia). destruct (embed _ Hm) as (K & HK & VK).
  assert (Ud : unit_of dbl = 2 ^ 925 * unit_of sgl) by (change (unit_of dbl) with (2 ^ (925 + 149)); change (unit_of sgl) with (2 ^ 149); apply Z.pow_add_r; lia).
  pose proof (unit_pos sgl single_good) as Us. assert (Pr : 0 < 2 ^ 925) by (apply Z.pow_pos_nonneg; lia).
  assert (E : fl_convert sgl dbl b = with_sign dbl (negative sgl b) K).
  { unfold fl_convert. rewrite N, I. f_equal. unfold mag. rewrite Ud. replace (mag_value sgl (magnitude sgl b) * (2 ^ 925 * unit_of sgl)) with (mag_value dbl K * unit_of sgl) by (rewrite VK; ring). apply (round_mag_exact dbl double_good); assumption. }
  destruct (with_sign_fields dbl double_good (negative sgl b) K HK) as (W1 & W2 & W3 & W4). rewrite E. split; [exact W1|].
  assert (Fk : K < exp_mask dbl).
  { destruct (widen b P F) as (c & Pc & Fc & _ & Vc). pose proof (value_mag dbl double_good c) as A. rewrite Vc, Z.abs_mul, (Z.abs_eq (2 ^ 925)), (value_mag sgl single_good b), <- VK in A by lia.
    pose proof (mag_range dbl double_good c) as Rc. apply (proj2 (mag_value_iff dbl double_good K (magnitude dbl c) ltac:(lia) ltac:(lia))) in A. unfold finite in Fc. lia. }
  split; [unfold finite; rewrite W3; exact Fk|]. split; [rewrite W3; exact VK|]. split; [exact W2|].
  unfold fl_convert. rewrite W4. unfold is_inf, mag. rewrite W3, W2. replace (K =? exp_mask dbl) with false by lia. rewrite VK, Ud.
  replace (mag_value sgl (magnitude sgl b) * 2 ^ 925 * unit_of sgl) with (mag_value sgl (magnitude sgl b) * (2 ^ 925 * unit_of sgl)) by ring. rewrite (round_mag_exact sgl single_good _ _ Hm) by (apply Z.mul_pos_pos; lia). apply (with_sign_self sgl b single_good P).
Qed.
Lemma value_pattern f a b : good_format f -> pattern f a -> pattern f b -> value f a = value f b -> value f a <> 0 -> a = b.
Proof.
  intros G Pa Pb E N. pose proof (value_mag f G a) as A. pose proof (value_mag f G b) as B. rewrite E, B in A.
  apply (proj2 (mag_value_iff f G _ _ (proj1 (mag_range f G b)) (proj1 (mag_range f G a)))) in A.
  assert (S : negative f a = negative f b). { destruct (Z_lt_dec (value f a) 0) as [L|L]; [rewrite (proj1 (negative_value f G a) L), (proj1 (negative_value f G b) ltac:(lia)); reflexivity|rewrite (proj2 (negative_value f G a) ltac:(lia)), (proj2 (negative_value f G b) ltac:(lia)); reflexivity]. }
  rewrite <- (with_sign_self f a G Pa), <- (with_sign_self f b G Pb), A, S. reflexivity.
Qed.
Lemma feq_special b c : pattern sgl b -> pattern sgl c -> value sgl c <> 0 -> feq sgl b c = true -> b = c.
Proof.
  intros P Pc V E. unfold feq in E. destruct (nan sgl b); [discriminate|]. destruct (nan sgl c); [discriminate|]. cbn [negb andb] in E. apply Z.eqb_eq in E. apply (value_pattern sgl b c single_good P Pc E). congruence.
Qed.
Lemma short_max_differs (neg : bool) : fl_convert sgl dbl (fl_convert dbl sgl (read_as dbl (if neg then -1 else 1) 34028235 31)) <> read_as dbl (if neg then -1 else 1) 34028235 31.
Proof. apply Z.eqb_neq. destruct neg; vm_compute; reflexivity. Qed.
Lemma short_eps_differs : fl_convert sgl dbl (fl_convert dbl sgl (read_as dbl 1 1 (-45))) <> read_as dbl 1 1 (-45).
Proof. apply Z.eqb_neq. vm_compute; reflexivity. Qed.
Lemma max_not_single (neg : bool) : ~ magnitude sgl (fl_convert dbl sgl (with_sign dbl neg double_max)) < exp_mask sgl.
Proof. apply Z.nlt_ge, Z.leb_le. destruct neg; vm_compute; reflexivity. Qed.
Lemma one_not_single : 1 <> fl_convert sgl dbl (fl_convert dbl sgl 1).
Proof. apply Z.eqb_neq. vm_compute; reflexivity. Qed.
Lemma eps_not_one : read_as dbl 1 1 (-45) <> 1.
Proof. apply Z.eqb_neq. vm_compute; reflexivity. Qed.
(** The text of an extreme Single is not that of a Single seen as a Double. *)
Lemma not_short neg b m k : pattern sgl b -> finite sgl b -> numeral (showD (fl_convert sgl dbl b)) (negative sgl b) m k -> reads dbl (if negative sgl b then -1 else 1) m k (fl_convert sgl dbl b) ->
  showD (fl_convert sgl dbl b) <> showS (with_sign sgl neg single_max).
Proof.
  intros P F N R E. destruct (widen_facts b P F) as (w & Ew & _ & _ & _ & _ & Back). rewrite <- Ew in *. rewrite (text_single_max _ _ D neg) in E. pose proof (short_smax_text neg) as T. unfold short_smax in T. rewrite <- E in T.
  destruct (decimal_unique _ _ _ _ _ _ _ (numeral_decimal _ _ _ _ N) T) as (Es & -> & ->). rewrite Es in R. apply reads_value in R; [|apply dbl_format|lia].
  assert (X : fl_convert sgl dbl (fl_convert dbl sgl w) = w) by (rewrite Back; symmetry; exact Ew). rewrite R in X. exact (short_max_differs neg X).
Qed.
Lemma not_eps b m k : pattern sgl b -> finite sgl b -> numeral (showD (fl_convert sgl dbl b)) (negative sgl b) m k -> reads dbl (if negative sgl b then -1 else 1) m k (fl_convert sgl dbl b) ->
  showD (fl_convert sgl dbl b) <> showS 1.
Proof.
  intros P F N R E. destruct (widen_facts b P F) as (w & Ew & _ & _ & _ & _ & Back). rewrite <- Ew in *. rewrite (text_single_eps _ _ D) in E. pose proof seps_short as T. rewrite <- E in T.
  destruct (decimal_unique _ _ _ _ _ _ _ (numeral_decimal _ _ _ _ N) T) as (Es & -> & ->). rewrite Es in R. apply reads_value in R; [|apply dbl_format|lia].
  assert (X : fl_convert sgl dbl (fl_convert dbl sgl w) = w) by (rewrite Back; symmetry; exact Ew). rewrite R in X. exact (short_eps_differs X).
Qed.
(** An integer that is the text of a Single seen as a Double is that Single, unless it is zero. *)
Lemma integer_back b sgn m : pattern sgl b -> finite sgl b -> 0 <= m < 1000000000000000 -> sgn = (if negative sgl b then -1 else 1) -> reads dbl sgn m 0 (fl_convert sgl dbl b) ->
  b <> with_sign sgl true 0 -> fl_of_Z sgl (sgn * m) = b.
Proof.
  intros P F Hm Es R Nz. destruct (widen_facts b P F) as (w & Ew & Pw & Fw & Vw & Sw & _). rewrite <- Ew in *. destruct R as (_ & _ & R & _).
  assert (Hb : mbits dbl < 2 ^ (ebits dbl - 1) - 1) by reflexivity.
  destruct (integer_representable dbl double_good m ltac:(change (2 * 2 ^ mbits dbl) with 9007199254740992; lia) Hb) as (c & Pc & Nc & Fc & Vc).
  assert (A : magnitude dbl w = magnitude dbl c).
  { assert (H : nearest dbl (numer m 0 * one_of dbl) (denom 0) (magnitude dbl c)).
    { replace (numer m 0) with m by (unfold numer; change (Z.max 0 0) with 0; rewrite Z.pow_0_r; lia). change (denom 0) with 1. change (one_of dbl) with (unit_of dbl).
      pose proof (unit_pos dbl double_good) as Up. pose proof (value_mag dbl double_good c) as Vm. rewrite Vc, Z.abs_eq in Vm by (apply Z.mul_nonneg_nonneg; lia). rewrite Vm. rewrite <- (Z.mul_1_r (mag_value dbl (magnitude dbl c))).
      apply (nearest_exact dbl double_good); [lia|]. pose proof (mag_range dbl double_good c). unfold finite in Fc. lia. }
    exact (nearest_unique dbl double_good _ _ _ _ (denom_pos 0) R H). }
  pose proof (value_mag dbl double_good c) as Vm. pose proof (unit_pos dbl double_good) as Up. rewrite Vc, Z.abs_eq in Vm by (apply Z.mul_nonneg_nonneg; lia). rewrite <- A, Vw in Vm.
  assert (Ud : unit_of dbl = 2 ^ 925 * unit_of sgl) by (change (unit_of dbl) with (2 ^ (925 + 149)); change (unit_of sgl) with (2 ^ 149); apply Z.pow_add_r; lia).
  assert (Pr : 0 < 2 ^ 925) by (apply Z.pow_pos_nonneg; lia). pose proof (unit_pos sgl single_good) as Us.
  assert (Q : mag_value sgl (magnitude sgl b) = m * unit_of sgl). { apply (Z.mul_reg_r _ _ (2 ^ 925)); [lia|]. rewrite <- Vm, Ud. ring. }
  assert (V : value sgl b = sgn * m * unit_of sgl) by (unfold value; rewrite Q, Es; destruct (negative sgl b); ring).
  destruct (Z.eq_dec m 0) as [->|Nm].
  - replace (sgn * 0) with 0 by ring. assert (M0 : magnitude sgl b = 0). { apply (proj2 (mag_value_iff sgl single_good _ 0 (proj1 (mag_range sgl single_good b)) ltac:(lia))). rewrite Q, (mag_value_zero sgl single_good). ring. }
    rewrite <- (with_sign_self sgl b single_good P) in Nz |- *. rewrite M0 in *. destruct (negative sgl b); [contradiction|]. vm_compute. reflexivity.
  - pose proof (fl_of_Z_rounded sgl single_good (sgn * m)) as Rd. assert (Nb : nan sgl b = false) by apply (finite_class sgl b F).
    assert (Ve : value sgl (fl_of_Z sgl (sgn * m)) = value sgl b) by (apply (rounded_exact sgl single_good _ _ _ _ Z.lt_0_1 Rd Nb); rewrite V; ring).
    apply (value_pattern sgl _ _ single_good (proj1 Rd) P Ve). rewrite Ve, V. intros X. apply Z.mul_eq_0 in X. destruct X as [X|X]; [|lia]. apply Z.mul_eq_0 in X. destruct (negative sgl b); lia.
Qed.
(** C93: a Single constant of the C# program, except minus zero, becomes an expression whose value,
    converted to Single, is the constant.  (Its type need not be Single: see below.) *)
Theorem C93_single_partial : forall b, pattern sgl b -> b <> with_sign sgl true 0 ->
  (exists v, means (VisitLdcF4 showD showS b) v) /\ forall v, means (VisitLdcF4 showD showS b) v -> same sgl (convert sgl v) b.
Proof.
  intros b P Nz. unfold VisitLdcF4. destruct (feq sgl b 1 || feq sgl b single_max || feq sgl b (sign_bit sgl + single_max)) eqn:Sp.
  - (* the extreme numbers *)
    assert (B : b = 1 \/ exists neg, b = with_sign sgl neg single_max).
    { apply orb_true_iff in Sp. destruct Sp as [Sp|Sp]; [apply orb_true_iff in Sp; destruct Sp as [Sp|Sp]|].
      - left. apply (feq_special b 1 P); [apply one_ok_s|vm_compute; discriminate|exact Sp].
      - right. exists false. apply (feq_special b _ P); [apply (smax_ok false)|vm_compute; discriminate|exact Sp].
      - right. exists true. apply (feq_special b _ P); [apply (smax_ok true)|vm_compute; discriminate|exact Sp]. }
    assert (Fb : finite sgl b) by (destruct B as [-> |(neg & ->)]; [apply one_ok_s|apply smax_ok]).
    assert (T : exists sgn m k, decimal_text (showS b) sgn m k /\ floating (showS b) /\ 0 <= m /\ read_as dbl sgn m k <> 1 /\ forall neg, read_as dbl sgn m k <> with_sign dbl neg double_max).
    { destruct B as [-> |(neg & ->)].
      - exists 1, 1, (-45). rewrite (text_single_eps _ _ D). split; [exact seps_short|]. split; [right; left; vm_compute; tauto|]. split; [lia|]. split; [vm_compute; discriminate|intros []; vm_compute; discriminate].
      - exists (if neg then -1 else 1), 34028235, 31. rewrite (text_single_max _ _ D neg). split; [exact (short_smax_text neg)|]. split; [destruct neg; right; left; vm_compute; tauto|]. split; [lia|]. split; [destruct neg; vm_compute; discriminate|intros []; destruct neg; vm_compute; discriminate]. }
    destruct T as (sgn & m & k & T & Fl & Hm & T1 & T2).
    assert (TR : text_reads dbl (showS b) (read_as dbl sgn m k)) by (eexists; eexists; eexists; split; [exact T|apply reads_exists; [apply dbl_format|exact Hm]]).
    pose proof (trip_text sgl showS b (trip_single _ _ D) P Fb) as TS. pose proof (trip_digit sgl showS b (trip_single _ _ D) P Fb) as Dg.
    assert (C : exists c, lookup (constantConversions showD showS) (showS b) = Some c /\ forall v, library c v <-> v = VSingle b).
    { destruct (lookup (constantConversions showD showS) (showS b)) as [c|] eqn:L.
      - exists c. split; [reflexivity|]. apply lookup_in in L. destruct (keys _ _ _ _ L) as [(n & _ & E & Hn)|[(neg & E & ->)|[(neg & E & _)|[(E & _)|[(neg & E & _)|[(E & _)|(E & ->)]]]]]].
        + exfalso. apply (proj1 (proj2 (decimal_key n Hn))). rewrite <- E. exact Fl.
        + destruct (smax_ok neg) as (Pm & Fm). pose proof (trip_text sgl showS _ (trip_single _ _ D) Pm Fm) as X. rewrite <- E in X. rewrite (text_reads_unique _ _ _ _ sgl_format TS X). apply lib_smax_value.
        + exfalso. destruct (max_ok neg) as (Pm & Fm). pose proof (trip_text dbl showD _ (trip_double _ _ D) Pm Fm) as X. rewrite <- E in X. exact (T2 neg (text_reads_unique _ _ _ _ dbl_format TR X)).
        + exfalso. apply nan_no_digit. rewrite <- E. exact Dg.
        + exfalso. apply (proj1 (text_inf _ _ D neg)). rewrite <- E. exact Dg.
        + exfalso. destruct one_ok as (Pm & Fm). pose proof (trip_text dbl showD _ (trip_double _ _ D) Pm Fm) as X. rewrite <- E in X. exact (T1 (text_reads_unique _ _ _ _ dbl_format TR X)).
        + destruct one_ok_s as (Pm & Fm). pose proof (trip_text sgl showS _ (trip_single _ _ D) Pm Fm) as X. rewrite <- E in X. rewrite (text_reads_unique _ _ _ _ sgl_format TS X). apply lib_seps_value.
      - exfalso. destruct B as [-> |(neg & ->)].
        + apply (lookup_none _ _ (showS 1) SingleEpsilon L); [unfold constantConversions; do 20 right; left; reflexivity|reflexivity].
        + destruct neg.
          * apply (lookup_none _ _ (showS (with_sign sgl true single_max)) SingleMin L); [unfold constantConversions; do 14 right; left; reflexivity|reflexivity].
          * apply (lookup_none _ _ (showS (with_sign sgl false single_max)) SingleMax L); [unfold constantConversions; do 8 right; left; reflexivity|reflexivity]. }
    destruct C as (c & L & V). unfold ConvertConstants. rewrite L. split; [exists (VSingle b); constructor; apply V; reflexivity|].
    intros v M. inversion M as [c' v' Lb|]; subst. apply V in Lb. subst v. left. reflexivity.
  - clear Sp. destruct (Z_lt_dec (magnitude sgl b) (exp_mask sgl)) as [F|F].
    + destruct (widen_facts b P F) as (w & Ew & Pw & Fw & Vw & Sw & Back). destruct (trip_reads dbl showD w (trip_double _ _ D) Pw Fw) as (m & k & N & R). rewrite Sw in N, R.
      pose proof (trip_text dbl showD w (trip_double _ _ D) Pw Fw) as TR. pose proof (numeral_digit _ _ _ _ N) as Dg. pose proof (numeral_decimal _ _ _ _ N) as T.
      rewrite <- Ew. set (sgn := if negative sgl b then -1 else 1) in *.
      assert (Hint : ~ In 46 (showD w) -> ~ In 69 (showD w) -> k = 0 /\ 0 <= m < 1000000000000000 /\ ~ floating (showD w) /\ literal (showD w) (VInteger (sgn * m)) /\ fl_of_Z sgl (sgn * m) = b).
      { intros H46 H69. destruct (numeral_integer _ _ _ _ N H46 H69) as (-> & Hm & Nf & Lt). split; [reflexivity|]. split; [exact Hm|]. split; [exact Nf|]. split; [exact Lt|]. apply integer_back; try assumption; [reflexivity|rewrite <- Ew; exact R]. }
      unfold ConvertConstants. destruct (lookup (constantConversions showD showS) (showD w)) as [c|] eqn:L.
      * apply lookup_in in L. destruct (keys _ _ _ _ L) as [(n & Hc & E & Hn)|[(neg & E & _)|[(neg & E & _)|[(E & _)|[(neg & E & _)|[(E & _)|(E & _)]]]]]].
        -- destruct (decimal_key n Hn) as (Td & Nf & _). rewrite <- E in Td, Nf. destruct (decimal_unique _ _ _ _ _ _ _ T Td) as (Es & Em & Ek).
           assert (En : sgn * m = n) by (rewrite Es, Em; destruct (n <? 0) eqn:Q; lia).
           destruct (Hint (fun H => Nf (or_introl H)) (fun H => Nf (or_intror (or_introl H)))) as (_ & _ & _ & _ & Hb). rewrite En in Hb.
           assert (V : forall v, library c v <-> v = VInteger n) by (intros v; destruct Hc as (t & [-> | ->]); (split; [intros Lb; inversion Lb; reflexivity|intros ->; constructor])).
           split; [eexists; constructor; apply V; reflexivity|]. intros v M. assert (Lb : library c v) by (inversion M; assumption). apply V in Lb. rewrite Lb. left. cbn [convert]. exact Hb.
        -- exfalso. subst w. exact (not_short neg b m k P F N R E).
        -- exfalso. destruct (max_ok neg) as (Pm & Fm). pose proof (trip_text dbl showD _ (trip_double _ _ D) Pm Fm) as X. rewrite <- E in X. rewrite (text_reads_unique _ _ _ _ dbl_format TR X) in Back.
           rewrite <- Back in F. exact (max_not_single neg F).
        -- exfalso. apply nan_no_digit. rewrite <- E. exact Dg.
        -- exfalso. apply (proj1 (text_inf _ _ D neg)). rewrite <- E. exact Dg.
        -- exfalso. destruct one_ok as (Pm & Fm). pose proof (trip_text dbl showD _ (trip_double _ _ D) Pm Fm) as X. rewrite <- E in X. pose proof (text_reads_unique _ _ _ _ dbl_format TR X) as W1. rewrite W1 in Back, Ew. rewrite <- Back in Ew. exact (one_not_single Ew).
        -- exfalso. subst w. exact (not_eps b m k P F N R E).
      * clear L. destruct (contains 46 (showD w)) eqn:C1.
        -- assert (Fl : floating (showD w)) by (left; apply contains_in; exact C1). split; [eexists; constructor; exact (single_exists _ _ _ _ T Fl)|].
           intros v M. inversion M as [|s' v' Lt]; subst. destruct (literal_single _ _ _ _ _ T Fl Lt) as (b' & -> & R'). cbn [convert]. cbn [mbits single_fmt Z.eqb Pos.eqb]. left.
           apply (reads_unique sgl _ _ _ _ _ sgl_format R'). split; [exact P|]. split; [apply (finite_class sgl b F)|]. split; [|unfold sgn; symmetry; apply sgn_of].
           destruct R as (_ & _ & R & _). pose proof (mag_range sgl single_good b) as Mr. apply (narrow_nearest _ _ (magnitude dbl (fl_convert sgl dbl b)) _ (denom_pos k)); [lia|exact Vw|].
           replace (numer m k * one_of sgl * 2 ^ 925) with (numer m k * one_of dbl); [exact R|]. rewrite <- Z.mul_assoc. apply f_equal. reflexivity.
        -- assert (H46 : ~ In 46 (showD w)) by (intros H; apply contains_in in H; congruence). destruct (contains 69 (showD w)) eqn:C2.
           ++ assert (Fl : floating (showD w)) by (right; left; apply contains_in; exact C2). split; [eexists; constructor; exact (double_exists _ _ _ _ T Fl)|].
              intros v M. inversion M as [|s' v' Lt]; subst. destruct (literal_double _ _ _ _ _ T Fl Lt) as (b' & -> & R'). rewrite (reads_unique dbl _ _ _ _ _ dbl_format R' R). left. cbn [convert mbits single_fmt Z.eqb Pos.eqb]. exact Back.
           ++ assert (H69 : ~ In 69 (showD w)) by (intros H; apply contains_in in H; congruence). destruct (Hint H46 H69) as (-> & Hm & Nf & Lt & Hb).
              split; [eexists; constructor; exact Lt|]. intros v M. assert (Lt' : literal (showD w) v) by (inversion M; assumption). rewrite (literal_integer _ _ _ _ T Nf Lt'). left. exact Hb.
    + (* not finite *)
      assert (X : exists w, w = fl_convert sgl dbl b /\ pattern dbl w /\ ~ finite dbl w /\ same sgl (fl_convert dbl sgl (if nan dbl w then quiet_nan dbl else w)) b).
      { eexists. split; [reflexivity|]. destruct (not_finite_classes sgl b single_good P F) as [N| ->].
        - unfold fl_convert at 1 2 3 4. rewrite N. split; [vm_compute; split; [discriminate|reflexivity]|]. split; [vm_compute; discriminate|]. right. split; [vm_compute; reflexivity|exact N].
        - destruct (negative sgl b); (split; [vm_compute; split; [discriminate|reflexivity]|]; split; [vm_compute; discriminate|]; left; vm_compute; reflexivity). }
      destruct X as (w & <- & Pw & Fw & Sm). destruct (special w Pw Fw) as (c & E2 & E1 & K). destruct (ConvertConstants showD showS (showD w)) as (x, y). cbn [fst snd] in E1, E2. subst x y.
      split; [eexists; constructor; apply (special_means _ _ _ K); reflexivity|]. intros v M. inversion M as [c' v' Lb|]; subst. apply (special_means _ _ _ K) in Lb. subst v. exact Sm.
Qed.

(** C93: the extreme Doubles become DoubleValue::MaxValue and MinValue, which are smaller numbers. *)
Theorem C93_extreme_refuted : forall neg v, means (VisitLdcF8 showD showS (with_sign dbl neg double_max)) v ->
  exists b', v = VDouble b' /\ nan dbl b' = false /\ Z.abs (value dbl b') < Z.abs (value dbl (with_sign dbl neg double_max)).
Proof.
  intros neg v. assert (E : VisitLdcF8 showD showS (with_sign dbl neg double_max) = Library (if neg then DoubleMin else DoubleMax)).
  { unfold VisitLdcF8. set (x := showD (with_sign dbl neg double_max)). assert (Ex : x = showD (with_sign dbl neg double_max)) by reflexivity. rewrite (text_double_max _ _ D neg) in Ex.
    replace (IsDigit (last x 0) && negb (contains 46 x) && negb (contains 69 x)) with false by (rewrite Ex; destruct neg; vm_compute; reflexivity). unfold ConvertConstants.
    destruct (max_ok neg) as (Pm & Fm). pose proof (trip_text dbl showD _ (trip_double _ _ D) Pm Fm) as TR. fold x in TR.
    assert (Fl : floating x) by (rewrite Ex; left; destruct neg; vm_compute; tauto). assert (Dg : exists c, In c x /\ digit c) by (apply (trip_digit dbl showD); [apply D|exact Pm|exact Fm]).
    destruct (lookup (constantConversions showD showS) x) as [c|] eqn:L.
    - apply lookup_in in L. cbn [snd]. f_equal. destruct (keys _ _ _ _ L) as [(n & _ & E & Hn)|[(neg' & E & _)|[(neg' & E & ->)|[(E & _)|[(neg' & E & _)|[(E & _)|(E & _)]]]]]].
      + exfalso. apply (proj1 (proj2 (decimal_key n Hn))). rewrite <- E. exact Fl.
      + exfalso. rewrite (text_single_max _ _ D neg'), Ex in E. destruct neg, neg'; vm_compute in E; discriminate.
      + destruct (max_ok neg') as (Pm' & Fm'). pose proof (trip_text dbl showD _ (trip_double _ _ D) Pm' Fm') as X. rewrite <- E in X. pose proof (text_reads_unique _ _ _ _ dbl_format TR X) as Q. destruct neg, neg'; try reflexivity; discriminate Q.
      + exfalso. apply nan_no_digit. rewrite <- E. exact Dg.
      + exfalso. apply (proj1 (text_inf _ _ D neg')). rewrite <- E. exact Dg.
      + exfalso. destruct one_ok as (Pm' & Fm'). pose proof (trip_text dbl showD _ (trip_double _ _ D) Pm' Fm') as X. rewrite <- E in X. pose proof (text_reads_unique _ _ _ _ dbl_format TR X) as Q. destruct neg; discriminate Q.
      + exfalso. rewrite (text_single_eps _ _ D), Ex in E. destruct neg; vm_compute in E; discriminate.
    - exfalso. apply (lookup_none _ _ x (if neg then DoubleMin else DoubleMax) L); [|reflexivity]. unfold constantConversions, x. destruct neg; [do 15 right; left; reflexivity|do 9 right; left; reflexivity]. }
  rewrite E. intros M. assert (Lb : library (if neg then DoubleMin else DoubleMax) v) by (inversion M; assumption).
  assert (Fl : forall b : bool, floating ((if b then [45] else []) ++ dmax_text)) by (intros []; left; vm_compute; tauto).
  assert (V : v = VDouble (read_as dbl (if neg then -1 else 1) 1797693134862315 293)).
  { destruct neg.
    - inversion Lb as [| | |v' Hl| | | | | | |]; subst. destruct (literal_double _ _ _ _ _ (dmax_decimal true) (Fl true) Hl) as (b & -> & R). apply reads_value in R; [|apply dbl_format|lia]. rewrite R. reflexivity.
    - inversion Lb as [| |v' Hl| | | | | | | |]; subst. destruct (literal_double _ _ _ _ _ (dmax_decimal false) (Fl false) Hl) as (b & -> & R). apply reads_value in R; [|apply dbl_format|lia]. rewrite R. reflexivity. }
  subst v. eexists. split; [reflexivity|]. split; [destruct neg; vm_compute; reflexivity|]. apply Z.ltb_lt. destruct neg; vm_compute; reflexivity.
Qed.
(** C93: a Double whose text is that of the least Single becomes that Single. *)
Theorem C93_collision_refuted : forall b v, pattern dbl b -> finite dbl b -> showD b = showS 1 -> means (VisitLdcF8 showD showS b) v ->
  v = VSingle 1 /\ value dbl (convert dbl v) <> value dbl b.
Proof.
  intros b v P F Eb. pose proof (trip_text dbl showD b (trip_double _ _ D) P F) as TR.
  assert (Bv : b = read_as dbl 1 1 (-45)).
  { destruct TR as (sgn & m & k & T & R). rewrite Eb, (text_single_eps _ _ D) in T. destruct (decimal_unique _ _ _ _ _ _ _ T seps_short) as (-> & -> & ->). apply reads_value in R; [exact R|apply dbl_format|lia]. }
  assert (E : VisitLdcF8 showD showS b = Library SingleEpsilon).
  { unfold VisitLdcF8. set (x := showD b) in *. pose proof Eb as Ex. rewrite (text_single_eps _ _ D) in Ex.
    replace (IsDigit (last x 0) && negb (contains 46 x) && negb (contains 69 x)) with false by (rewrite Ex; vm_compute; reflexivity). unfold ConvertConstants.
    assert (Fl : floating x) by (rewrite Ex; right; left; vm_compute; tauto). assert (Dg : exists c, In c x /\ digit c) by (rewrite Ex; exists 49; split; [left; reflexivity|unfold digit; lia]).
    destruct (lookup (constantConversions showD showS) x) as [c|] eqn:L.
    - apply lookup_in in L. cbn [snd]. f_equal. destruct (keys _ _ _ _ L) as [(n & _ & E & Hn)|[(neg' & E & _)|[(neg' & E & _)|[(E & _)|[(neg' & E & _)|[(E & _)|(E & ->)]]]]]].
      + exfalso. apply (proj1 (proj2 (decimal_key n Hn))). rewrite <- E. exact Fl.
      + exfalso. rewrite (text_single_max _ _ D neg'), Ex in E. destruct neg'; vm_compute in E; discriminate.
      + exfalso. rewrite (text_double_max _ _ D neg'), Ex in E. destruct neg'; vm_compute in E; discriminate.
      + exfalso. apply nan_no_digit. rewrite <- E. exact Dg.
      + exfalso. apply (proj1 (text_inf _ _ D neg')). rewrite <- E. exact Dg.
      + exfalso. destruct one_ok as (Pm' & Fm'). pose proof (trip_text dbl showD _ (trip_double _ _ D) Pm' Fm') as X. rewrite <- E in X. pose proof (text_reads_unique _ _ _ _ dbl_format TR X) as Q. rewrite Bv in Q. exact (eps_not_one Q).
      + reflexivity.
    - exfalso. apply (lookup_none _ _ (showS 1) SingleEpsilon L); [unfold constantConversions; do 20 right; left; reflexivity|symmetry; exact Eb]. }
  rewrite E. intros M. assert (Lb : library SingleEpsilon v) by (inversion M; assumption). apply lib_seps_value in Lb. split; [exact Lb|]. rewrite Lb, Bv. apply Z.eqb_neq. vm_compute. reflexivity.
Qed.
(** C93: minus zero, written as -0, is the integer zero. *)
Theorem C93_minus_zero_refuted : forall v, showD (with_sign dbl true 0) = [45; 48] -> means (VisitLdcF4 showD showS (with_sign sgl true 0)) v ->
  v = VInteger 0 /\ convert sgl v <> with_sign sgl true 0.
Proof.
  intros v E M. assert (W : VisitLdcF4 showD showS (with_sign sgl true 0) = Literal [45; 48]).
  { unfold VisitLdcF4. replace (feq sgl (with_sign sgl true 0) 1 || feq sgl (with_sign sgl true 0) single_max || feq sgl (with_sign sgl true 0) (sign_bit sgl + single_max)) with false by (vm_compute; reflexivity).
    replace (fl_convert sgl dbl (with_sign sgl true 0)) with (with_sign dbl true 0) by (vm_compute; reflexivity). rewrite E. unfold ConvertConstants.
    destruct (lookup (constantConversions showD showS) [45; 48]) as [c|] eqn:L; [|reflexivity]. exfalso. apply lookup_in in L.
    destruct (keys _ _ _ _ L) as [(n & Hc & E' & Hn)|[(neg' & E' & _)|[(neg' & E' & _)|[(E' & _)|[(neg' & E' & _)|[(E' & _)|(E' & _)]]]]]].
    - pose proof (int_key_length _ _ _ _ _ L Hc) as X. cbn in X. lia.
    - rewrite (text_single_max _ _ D neg') in E'. destruct neg'; discriminate.
    - rewrite (text_double_max _ _ D neg') in E'. destruct neg'; discriminate.
    - discriminate.
    - apply (proj1 (text_inf _ _ D neg')). rewrite <- E'. exists 48. split; [right; left; reflexivity|unfold digit; lia].
    - destruct one_ok as (Pm & Fm). destruct (trip_reads dbl showD 1 (trip_double _ _ D) Pm Fm) as (m & k & N & _). rewrite <- E' in N. destruct N as (ip & fp & ex & e & N & Fi & Ni & _).
      change (negative dbl 1) with false in N. cbn [app] in N. destruct ip as [|c0 ip]; [contradiction|]. injection N as <- _. pose proof (Forall_inv Fi) as X. unfold digit in X. lia.
    - rewrite (text_single_eps _ _ D) in E'. discriminate. }
  rewrite W in M. assert (Lt : literal [45; 48] v) by (inversion M; assumption).
  assert (T : decimal_text [45; 48] (-1) 0 0) by (apply (integer_decimal [45] (-1) [48]); [constructor|repeat constructor; unfold digit; lia|discriminate]).
  assert (Nf : ~ floating [45; 48]) by (intros [H|[H|H]]; cbn in H; lia). rewrite (literal_integer _ _ _ _ T Nf Lt). split; [reflexivity|]. apply Z.eqb_neq. vm_compute. reflexivity.
Qed.
(** C93: a Single constant without a fraction is written as an integer: the quotient of two of them,
    such as (c ? 1f : 2f) / 4f, is an integer division. *)
Theorem C93_integer_type_refuted : forall b, pattern sgl b -> finite sgl b -> feq sgl b 1 || feq sgl b single_max || feq sgl b (sign_bit sgl + single_max) = false ->
  ~ In 46 (showD (fl_convert sgl dbl b)) -> ~ In 69 (showD (fl_convert sgl dbl b)) -> forall v, means (VisitLdcF4 showD showS b) v -> exists z, v = VInteger z.
Proof.
  intros b P F Sp H46 H69 v M. destruct (widen_facts b P F) as (w & Ew & Pw & Fw & Vw & Sw & Back). destruct (trip_reads dbl showD w (trip_double _ _ D) Pw Fw) as (m & k & N & R).
  rewrite <- Ew in *. destruct (numeral_integer _ _ _ _ N H46 H69) as (-> & Hm & Nf & Lt). pose proof (numeral_digit _ _ _ _ N) as Dg. pose proof (trip_text dbl showD w (trip_double _ _ D) Pw Fw) as TR.
  assert (Q : VisitLdcF4 showD showS b = Literal (showD w) \/ exists c n, VisitLdcF4 showD showS b = Library c /\ integer_constant c n).
  { unfold VisitLdcF4. rewrite Sp, <- Ew. unfold ConvertConstants. destruct (lookup (constantConversions showD showS) (showD w)) as [c|] eqn:L.
    - right. apply lookup_in in L. destruct (keys _ _ _ _ L) as [(n & Hc & E' & Hn)|[(neg' & E' & _)|[(neg' & E' & _)|[(E' & _)|[(neg' & E' & _)|[(E' & _)|(E' & _)]]]]]].
      + exists c, n. split; [reflexivity|exact Hc].
      + exfalso. apply H46. rewrite E', (text_single_max _ _ D neg'). apply in_app_iff. right. right. left. reflexivity.
      + exfalso. apply H46. rewrite E', (text_double_max _ _ D neg'). apply in_app_iff. right. right. left. reflexivity.
      + exfalso. apply nan_no_digit. rewrite <- E'. exact Dg.
      + exfalso. apply (proj1 (text_inf _ _ D neg')). rewrite <- E'. exact Dg.
      + exfalso. destruct one_ok as (Pm' & Fm'). pose proof (trip_text dbl showD _ (trip_double _ _ D) Pm' Fm') as X. rewrite <- E' in X. pose proof (text_reads_unique _ _ _ _ dbl_format TR X) as W1. rewrite W1 in Back, Ew. rewrite <- Back in Ew. exact (one_not_single Ew).
      + exfalso. apply H69. rewrite E', (text_single_eps _ _ D). right. left. reflexivity.
    - left. destruct (contains 46 (showD w)) eqn:C; [|reflexivity]. exfalso. apply H46. apply contains_in. exact C. }
  destruct Q as [Q|(c & n & Q & Hc)]; rewrite Q in M.
  - assert (Lt' : literal (showD w) v) by (inversion M; assumption). pose proof (numeral_decimal _ _ _ _ N) as T. rewrite (literal_integer _ _ _ _ T Nf Lt'). eexists. reflexivity.
  - assert (Lb : library c v) by (inversion M; assumption). destruct Hc as (t & [-> | ->]); inversion Lb; eexists; reflexivity.
Qed.
End Runtime.
(** Constants of one digit *)
Lemma one_digit showD showS b w z : dotnet showD showS -> pattern sgl b -> finite sgl b -> w = fl_convert sgl dbl b -> feq sgl b 1 || feq sgl b single_max || feq sgl b (sign_bit sgl + single_max) = false ->
  showD w = [48 + z] -> 1 <= z <= 9 -> means (VisitLdcF4 showD showS b) (VInteger z).
Proof.
  intros D P F Ew Sp Es Hz. destruct (widen_facts b P F) as (w' & Ew' & Pw & Fw & _ & _ & Back). assert (w' = w) as -> by congruence.
  pose proof (trip_text dbl showD w (trip_double _ _ D) Pw Fw) as TR.
  unfold VisitLdcF4. rewrite Sp, <- Ew. unfold ConvertConstants. destruct (lookup (constantConversions showD showS) (showD w)) as [c|] eqn:L.
  - exfalso. apply lookup_in in L. destruct (keys _ _ _ _ L) as [(n & Hc & _)|[(neg' & E' & _)|[(neg' & E' & _)|[(E' & _)|[(neg' & E' & _)|[(E' & _)|(E' & _)]]]]]].
    + pose proof (int_key_length _ _ _ _ _ L Hc) as X. rewrite Es in X. cbn in X. lia.
    + rewrite Es, (text_single_max _ _ D neg') in E'. destruct neg'; discriminate.
    + rewrite Es, (text_double_max _ _ D neg') in E'. destruct neg'; discriminate.
    + rewrite Es in E'. discriminate.
    + apply (proj1 (text_inf _ _ D neg')). rewrite <- E', Es. exists (48 + z). split; [left; reflexivity|unfold digit; lia].
    + destruct one_ok as (Pm' & Fm'). pose proof (trip_text dbl showD _ (trip_double _ _ D) Pm' Fm') as X1. rewrite <- E' in X1.
      pose proof (text_reads_unique _ _ _ _ dbl_format TR X1) as W1. rewrite W1 in Back, Ew'. rewrite <- Back in Ew'. exact (one_not_single Ew').
    + rewrite Es, (text_single_eps _ _ D) in E'. discriminate.
  - rewrite Es. unfold contains. cbn [existsb]. replace (46 =? 48 + z) with false by lia. cbn [orb].
    constructor. assert (V : decimal_value [48 + z] = z) by (unfold decimal_value; cbn [fold_left]; lia). replace (VInteger z) with (VInteger (1 * decimal_value [48 + z])) by (f_equal; lia).
    apply (integer_literal [] 1 [48 + z]); [constructor|repeat constructor; unfold digit; lia|discriminate|right; cbn [hd]; lia|lia].
Qed.
Theorem C93_division_refuted : forall showD showS, dotnet showD showS -> showD 4607182418800017408 = [49] -> showD 4616189618054758400 = [52] ->
  means (VisitLdcF4 showD showS 1065353216) (VInteger 1) /\ means (VisitLdcF4 showD showS 1082130432) (VInteger 4) /\
  fl_of_Z single_fmt (Z.quot 1 4) <> fl_div single_fmt 1065353216 1082130432.
Proof.
  intros showD showS D E1 E2. split; [|split].
  - apply (one_digit showD showS _ 4607182418800017408 1 D); [unfold pattern; vm_compute; split; [discriminate|reflexivity]|vm_compute; reflexivity|vm_compute; reflexivity|vm_compute; reflexivity|exact E1|lia].
  - apply (one_digit showD showS _ 4616189618054758400 4 D); [unfold pattern; vm_compute; split; [discriminate|reflexivity]|vm_compute; reflexivity|vm_compute; reflexivity|vm_compute; reflexivity|exact E2|lia].
  - apply Z.eqb_neq. vm_compute. reflexivity.
Qed.

(** ** A runtime that meets the assumptions *)
Lemma dec_digits_head fuel : forall n, 0 <= n < 10 ^ Z.of_nat fuel -> (0 < fuel)%nat -> dec_digits fuel n = [48] \/ hd 0 (dec_digits fuel n) <> 48.
Proof.
  induction fuel as [|f IH]; intros n Hn Hf; [lia|]. cbn [dec_digits]. rewrite Nat2Z.inj_succ, Z.pow_succ_r in Hn by lia. destruct (n / 10 =? 0) eqn:E.
  - cbn [app hd]. destruct (Z.eq_dec (n mod 10) 0) as [-> |N]; [left; reflexivity|right; lia].
  - assert (Hf' : (0 < f)%nat) by (destruct f; [change (10 ^ Z.of_nat 0) with 1 in Hn; lia|lia]).
    assert (Hn' : 0 <= n / 10 < 10 ^ Z.of_nat f) by (split; [lia|apply Z.div_lt_upper_bound; lia]). right. destruct (dec_digits_value f (n / 10) Hn' Hf') as (V & _ & Ne).
    destruct (IH (n / 10) Hn' Hf') as [X|X]; [exfalso; rewrite X in V; cbn in V; lia|]. destruct (dec_digits f (n / 10)); [contradiction|]. cbn [app hd] in *. exact X.
Qed.
Definition many : nat := Z.to_nat 1500.
Definition signed (f : format) (b : Z) (t : list Z) : list Z := (if negative f b then [45] else []) ++ t.
(** Whole numbers below 10^15 as integers, other numbers exactly: M * 5^t E-t stands for M / 2^t. *)
Definition exact_text (f : format) (t : Z) (b : Z) : list Z :=
  if nan f b then [78; 97; 78] else if is_inf f b then signed f b [8734]
  else if (mag f b mod unit_of f =? 0) && (mag f b / unit_of f <? 1000000000000000) then signed f b (dec_digits 20 (mag f b / unit_of f))
  else signed f b (dec_digits many (mag f b * 5 ^ t) ++ 69 :: 45 :: dec_digits 20 t).
Fixpoint overriding (l : list (Z * list Z)) (show : Z -> list Z) (b : Z) : list Z :=
  match l with [] => show b | (c, t) :: l => if b =? c then t else overriding l show b end.
Lemma finite_zero f b : good_format f -> finite f b -> nan f b = false /\ is_inf f b = false.
Proof. intros G F. apply finite_class; assumption. Qed.
Lemma exact_trip f t : float_format f -> unit_of f = 2 ^ t -> 0 <= t <= 1074 -> round_trip f (exact_text f t).
Proof.
  intros Ff U Ht b P F. pose proof (ff_good f Ff) as G. destruct (finite_zero f b G F) as (N & I). pose proof (unit_pos f G) as Up. pose proof (mag_range f G b) as Mr.
  unfold exact_text. rewrite N, I. rewrite (ff_one f Ff). pose proof (mag_value_nonneg f G (magnitude f b) ltac:(lia)) as Vn.
  assert (Hm : 0 <= magnitude f b <= exp_mask f) by (unfold finite in F; lia).
  destruct ((mag f b mod unit_of f =? 0) && (mag f b / unit_of f <? 1000000000000000)) eqn:Q.
  - apply andb_prop in Q. destruct Q as (Q1 & Q2). unfold mag in *. set (q := mag_value f (magnitude f b) / unit_of f) in *. assert (Hq : 0 <= q) by (apply Z.div_pos; lia).
    assert (Eq : mag_value f (magnitude f b) = q * unit_of f) by (pose proof (Z.div_mod (mag_value f (magnitude f b)) (unit_of f) ltac:(lia)); fold q in H; lia).
    assert (B : 0 <= q < 10 ^ Z.of_nat 20) by (change (10 ^ Z.of_nat 20) with 100000000000000000000; lia). destruct (dec_digits_value 20 q B ltac:(lia)) as (V & Fd & Ne).
    exists q, 0. split.
    + exists (dec_digits 20 q), [], [], 0. unfold signed. rewrite !app_nil_r. split; [reflexivity|]. split; [exact Fd|]. split; [exact Ne|]. split; [apply dec_digits_head; [exact B|lia]|]. split; [constructor|]. split; [constructor|]. split; [intros []|].
      split; [intros _ _; apply (dec_length 20 q 15); lia|]. split; [symmetry; exact V|reflexivity].
    + replace (numer q 0) with q by (unfold numer; change (Z.max 0 0) with 0; rewrite Z.pow_0_r; lia). change (denom 0) with 1. rewrite <- Eq. rewrite <- (Z.mul_1_r (mag_value f (magnitude f b))). apply (nearest_exact f G); [lia|exact Hm].
  - unfold mag in *. clear Q. set (M := mag_value f (magnitude f b)) in *. assert (P5 : 0 < 5 ^ t) by (apply Z.pow_pos_nonneg; lia). assert (P10 : 0 < 10 ^ t) by (apply Z.pow_pos_nonneg; lia).
    assert (E10 : 5 ^ t * unit_of f = 10 ^ t) by (rewrite U, <- Z.pow_mul_l; reflexivity).
    assert (Up2 : M <= unit_of f * 10 ^ 401) by (apply Z.le_trans with (mag_value f (exp_mask f)); [apply (mag_value_le f G); exact Hm|apply ff_max; exact Ff]).
    assert (B : 0 <= M * 5 ^ t < 10 ^ Z.of_nat many).
    { split; [apply Z.mul_nonneg_nonneg; lia|]. apply Z.le_lt_trans with (10 ^ (t + 401)).
      - rewrite Z.pow_add_r by lia. rewrite <- E10. replace (5 ^ t * unit_of f * 10 ^ 401) with (unit_of f * 10 ^ 401 * 5 ^ t) by ring. apply Z.mul_le_mono_nonneg_r; lia.
      - replace (Z.of_nat many) with 1500 by reflexivity. apply Z.pow_lt_mono_r; lia. }
    assert (Hmany : (0 < many)%nat) by (apply Nat.ltb_lt; reflexivity).
    destruct (dec_digits_value many (M * 5 ^ t) B Hmany) as (V & Fd & Ne).
    assert (Bt : 0 <= t < 10 ^ Z.of_nat 20) by (change (10 ^ Z.of_nat 20) with 100000000000000000000; lia). destruct (dec_digits_value 20 t Bt ltac:(lia)) as (Vt & Ft & Nt).
    pose proof (dec_digits_head many (M * 5 ^ t) B Hmany) as Hd.
    exists (M * 5 ^ t), (- t). split.
    + exists (dec_digits many (M * 5 ^ t)), [], (69 :: 45 :: dec_digits 20 t), (- t). unfold signed. cbn [app]. split; [reflexivity|]. split; [exact Fd|]. split; [exact Ne|]. split; [exact Hd|]. split; [constructor|].
      split; [rewrite <- Vt at 2; replace (- decimal_value (dec_digits 20 t)) with (-1 * decimal_value (dec_digits 20 t)) by ring; apply exponent_minus; assumption|].
      split; [intros [X|[X|X]]; try lia; rewrite Forall_forall in Ft; specialize (Ft _ X); unfold digit in Ft; lia|]. split; [intros _ X; discriminate|]. rewrite app_nil_r. split; [symmetry; exact V|cbn [length]; lia].
    + replace (numer (M * 5 ^ t) (- t)) with (M * 5 ^ t) by (unfold numer; replace (Z.max (- t) 0) with 0 by lia; rewrite Z.pow_0_r; lia). unfold denom. replace (Z.max (- - t) 0) with t by lia.
      replace (M * 5 ^ t * unit_of f) with (M * 10 ^ t) by (rewrite <- E10; ring). apply (nearest_exact f G); [exact P10|exact Hm].
Qed.
Lemma overriding_trip f show l : round_trip f show -> (forall b t, In (b, t) l -> exists m k, numeral t (negative f b) m k /\ nearest f (numer m k * one_of f) (denom k) (magnitude f b)) -> round_trip f (overriding l show).
Proof.
  intros R H b P F. induction l as [|(c, t) l IH]; cbn [overriding]; [exact (R b P F)|]. destruct (Z.eqb_spec b c) as [->|N]; [apply H; left; reflexivity|]. apply IH. intros b' t' I'. apply H. right. exact I'.
Qed.
Lemma override_ok f b t neg m k : float_format f -> pattern f b -> numeral t neg m k -> 0 <= m -> read_as f (if neg then -1 else 1) m k = b -> exists m k, numeral t (negative f b) m k /\ nearest f (numer m k * one_of f) (denom k) (magnitude f b).
Proof.
  intros Ff P N Hm E. destruct (reads_exists f (if neg : bool then -1 else 1) m k Ff Hm) as (_ & _ & R & S). rewrite E in R, S. exists m, k. split; [|exact R]. rewrite S. destruct neg; exact N.
Qed.
Definition max_text (neg : bool) : list Z := (if neg then [45] else []) ++ [49; 46; 55; 57; 55; 54; 57; 51; 49; 51; 52; 56; 54; 50; 51; 49; 53; 55; 69; 43; 51; 48; 56].
Definition smax_short (neg : bool) : list Z := (if neg then [45] else []) ++ short_smax.
Definition eps_short : list Z := [49; 69; 45; 52; 53].
Definition demo_double : Z -> list Z := overriding [(with_sign dbl false double_max, max_text false); (with_sign dbl true double_max, max_text true); (3933566627244108473, eps_short)] (exact_text dbl 1074).
Definition demo_single : Z -> list Z := overriding [(with_sign sgl false single_max, smax_short false); (with_sign sgl true single_max, smax_short true); (1, eps_short)] (exact_text sgl 149).
Lemma max_numeral neg : numeral (max_text neg) neg 17976931348623157 292.
Proof.
  exists [49], [55; 57; 55; 54; 57; 51; 49; 51; 52; 56; 54; 50; 51; 49; 53; 55], [69; 43; 51; 48; 56], 308. split; [destruct neg; reflexivity|]. split; [repeat constructor; unfold digit; lia|]. split; [discriminate|]. split; [right; cbn; lia|].
  split; [repeat constructor; unfold digit; lia|]. split; [apply (exponent_plus [51; 48; 56]); [repeat constructor; unfold digit; lia|discriminate]|]. split; [cbn; lia|]. split; [discriminate|]. split; reflexivity.
Qed.
Lemma smax_numeral neg : numeral (smax_short neg) neg 34028235 31.
Proof.
  exists [51], [52; 48; 50; 56; 50; 51; 53], [69; 43; 51; 56], 38. split; [destruct neg; reflexivity|]. split; [repeat constructor; unfold digit; lia|]. split; [discriminate|]. split; [right; cbn; lia|].
  split; [repeat constructor; unfold digit; lia|]. split; [apply (exponent_plus [51; 56]); [repeat constructor; unfold digit; lia|discriminate]|]. split; [cbn; lia|]. split; [discriminate|]. split; reflexivity.
Qed.
Lemma eps_numeral : numeral eps_short false 1 (-45).
Proof.
  exists [49], [], [69; 45; 52; 53], (-45). split; [reflexivity|]. split; [repeat constructor; unfold digit; lia|]. split; [discriminate|]. split; [right; cbn; lia|].
  split; [constructor|]. split; [apply (exponent_minus [52; 53]); [repeat constructor; unfold digit; lia|discriminate]|]. split; [cbn; lia|]. split; [discriminate|]. split; reflexivity.
Qed.
Example C93_runtime : dotnet demo_double demo_single /\ demo_double (with_sign dbl true 0) = [45; 48] /\ demo_double 4607182418800017408 = [49] /\ demo_double 4616189618054758400 = [52] /\ demo_double 3933566627244108473 = demo_single 1.
Proof.
  split; [|repeat split; vm_compute; reflexivity]. constructor.
  - apply overriding_trip; [apply exact_trip; [apply dbl_format|reflexivity|lia]|]. intros b t [H|[H|[H|[]]]]; injection H as <- <-.
    + apply (override_ok dbl _ _ false 17976931348623157 292 dbl_format); [apply (max_ok false)|apply (max_numeral false)|lia|vm_compute; reflexivity].
    + apply (override_ok dbl _ _ true 17976931348623157 292 dbl_format); [apply (max_ok true)|apply (max_numeral true)|lia|vm_compute; reflexivity].
    + apply (override_ok dbl _ _ false 1 (-45) dbl_format); [vm_compute; split; [discriminate|reflexivity]|apply eps_numeral|lia|vm_compute; reflexivity].
  - apply overriding_trip; [apply exact_trip; [apply sgl_format|reflexivity|lia]|]. intros b t [H|[H|[H|[]]]]; injection H as <- <-.
    + apply (override_ok sgl _ _ false 34028235 31 sgl_format); [apply (smax_ok false)|apply (smax_numeral false)|lia|vm_compute; reflexivity].
    + apply (override_ok sgl _ _ true 34028235 31 sgl_format); [apply (smax_ok true)|apply (smax_numeral true)|lia|vm_compute; reflexivity].
    + apply (override_ok sgl _ _ false 1 (-45) sgl_format); [apply one_ok_s|apply eps_numeral|lia|vm_compute; reflexivity].
  - intros b N. unfold demo_double. cbn [overriding]. destruct (Z.eqb_spec b (with_sign dbl false double_max)) as [->|_]; [discriminate N|]. destruct (Z.eqb_spec b (with_sign dbl true double_max)) as [->|_]; [discriminate N|]. destruct (Z.eqb_spec b 3933566627244108473) as [->|_]; [discriminate N|].
    unfold exact_text. rewrite N. reflexivity.
  - intros neg. destruct neg; (split; [|discriminate]); intros (c & I & Hd); vm_compute in I; unfold digit in Hd; lia.
  - discriminate.
  - intros []; reflexivity.
  - intros []; reflexivity.
  - reflexivity.
Qed.
Example C93_example : means (VisitLdcF8 demo_double demo_single 4613937818241073152) (VDouble 4613937818241073152).
Proof.
  destruct C93_runtime as (D & _).
  assert (P : pattern dbl 4613937818241073152) by (unfold pattern; vm_compute; split; [discriminate|reflexivity]).
  assert (E : demo_double 4613937818241073152 = [51]) by (vm_compute; reflexivity).
  destruct (C93_double_partial _ _ D 4613937818241073152 P) as ((v & M) & H); [discriminate|discriminate|intros neg; rewrite E; destruct neg; discriminate|rewrite E; discriminate|].
  destruct (H v M) as (b' & -> & [-> |(_ & X)]); [exact M|discriminate X].
Qed.
Print Assumptions C93_double_partial.
Print Assumptions C93_single_partial.
Print Assumptions C93_extreme_refuted.
Print Assumptions C93_collision_refuted.
Print Assumptions C93_minus_zero_refuted.
Print Assumptions C93_integer_type_refuted.
Print Assumptions C93_division_refuted.
