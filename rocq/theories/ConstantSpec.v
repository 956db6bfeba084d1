(** * What floating constants mean: .NET's texts and C++ literals *)
From Verif Require Import Base IntSpec FloatTextSpec IntModel IeeeModel MathModel MathProofs MathSpec FloatSpec ConstantModel.

(** ** .NET (Core 3.0 and later, invariant numerals)
    An optional minus, digits without needless zeros in front, an optional fraction, an optional
    exponent; without fraction and exponent at most 15 digits.  It stands for [m * 10^k]. *)
Definition numeral (s : list Z) (neg : bool) (m k : Z) : Prop :=
  exists ip fp ex e, s = (if neg then [45] else []) ++ ip ++ (match fp with [] => [] | _ => 46 :: fp end) ++ ex /\
    Forall digit ip /\ ip <> [] /\ (ip = [48] \/ hd 0 ip <> 48) /\ Forall digit fp /\ exponent_part ex e /\ ~ In 101 ex /\
    (fp = [] -> ex = [] -> (length ip <= 15)%nat) /\ m = decimal_value (ip ++ fp) /\ k = e - Z.of_nat (length fp).
(** The text of a finite number has its sign and reads back as the number itself. *)
Definition round_trip (f : format) (show : Z -> list Z) : Prop :=
  forall b, pattern f b -> finite f b -> exists m k, numeral (show b) (negative f b) m k /\ nearest f (numer m k * one_of f) (denom k) (magnitude f b).
Record dotnet (showD showS : Z -> list Z) := mk_dotnet {
  trip_double : round_trip double_fmt showD;
  trip_single : round_trip single_fmt showS;
  text_nan : forall b, nan double_fmt b = true -> showD b = [78; 97; 78];                                          (* NaN *)
  text_inf : forall neg, ~ (exists c, In c (showD (with_sign double_fmt neg (exp_mask double_fmt))) /\ digit c) /\     (* Infinity, or the symbol, and -Infinity *)
                         showD (with_sign double_fmt neg (exp_mask double_fmt)) <> [78; 97; 78];
  text_inf_sign : showD (with_sign double_fmt true (exp_mask double_fmt)) <> showD (with_sign double_fmt false (exp_mask double_fmt));
  text_double_max : forall neg, showD (with_sign double_fmt neg double_max) = (if neg then [45] else []) ++ [49; 46; 55; 57; 55; 54; 57; 51; 49; 51; 52; 56; 54; 50; 51; 49; 53; 55; 69; 43; 51; 48; 56];   (* 1.7976931348623157E+308 *)
  text_single_max : forall neg, showS (with_sign single_fmt neg single_max) = (if neg then [45] else []) ++ [51; 46; 52; 48; 50; 56; 50; 51; 53; 69; 43; 51; 56];   (* 3.4028235E+38 *)
  text_single_eps : showS 1 = [49; 69; 45; 52; 53]                                                                 (* 1E-45 *)
}.

(** ** C++: the type and value of an expression made of one literal, with a minus sign or not *)
Inductive cpp_value := VDouble (b : Z) | VSingle (b : Z) | VInteger (z : Z).
(** [b] is the number of format [f] a decimal numeral stands for. *)
Definition reads (f : format) (sgn m k b : Z) : Prop :=
  pattern f b /\ nan f b = false /\ nearest f (numer m k * one_of f) (denom k) (magnitude f b) /\ negative f b = (sgn <? 0).
Definition floating (s : list Z) : Prop := In 46 s \/ In 69 s \/ In 101 s.
Inductive literal : list Z -> cpp_value -> Prop :=
  | double_literal s sgn m k b : decimal_text s sgn m k -> floating s -> reads double_fmt sgn m k b -> literal s (VDouble b)
  | single_literal s sgn m k b : decimal_text s sgn m k -> floating s -> reads single_fmt sgn m k b -> literal (s ++ [70]) (VSingle b)
  | integer_literal sg sgn ds : sign_text sg sgn -> Forall digit ds -> ds <> [] -> (ds = [48] \/ hd 0 ds <> 48) -> decimal_value ds <= 9223372036854775807 ->
      literal (sg ++ ds) (VInteger (sgn * decimal_value ds)).
(** The constants of the library: type and initialiser.  DoubleValue.cpp 25-30, SingleValue.cpp 25-27 *)
Definition convert (f : format) (v : cpp_value) : Z :=
  match v with
  | VDouble b => if mbits f =? 52 then b else fl_convert double_fmt f b
  | VSingle b => if mbits f =? 23 then b else fl_convert single_fmt f b
  | VInteger z => fl_of_Z f z
  end.
Definition dmax_text : list Z := [49; 46; 55; 57; 55; 54; 57; 51; 49; 51; 52; 56; 54; 50; 51; 49; 53; 69; 43; 51; 48; 56].   (* 1.797693134862315E+308 *)
Definition smax_text : list Z := [51; 46; 52; 48; 50; 56; 50; 51; 52; 54; 54; 51; 56; 53; 50; 56; 56; 53; 57; 101; 43; 51; 56].   (* 3.40282346638528859e+38 *)
Definition deps_text : list Z := [52; 46; 57; 52; 48; 54; 53; 54; 52; 53; 56; 52; 49; 50; 52; 55; 69; 45; 51; 50; 52].   (* 4.94065645841247E-324 *)
Definition seps_text : list Z := [49; 46; 52; 48; 49; 50; 57; 56; 69; 45; 52; 53; 70].   (* 1.401298E-45F *)
Inductive library : constant -> cpp_value -> Prop :=
  | lib_max n v : library (IntegerMax n v) (VInteger v)
  | lib_min n v : library (IntegerMin n v) (VInteger v)
  | lib_dmax v : literal dmax_text v -> library DoubleMax (VDouble (convert double_fmt v))
  | lib_dmin v : literal (45 :: dmax_text) v -> library DoubleMin (VDouble (convert double_fmt v))
  | lib_deps v : literal deps_text v -> library DoubleEpsilon (VDouble (convert double_fmt v))
  | lib_smax v : literal smax_text v -> library SingleMax (VSingle (convert single_fmt v))
  | lib_smin v : literal (45 :: smax_text) v -> library SingleMin (VSingle (convert single_fmt v))
  | lib_seps v : literal seps_text v -> library SingleEpsilon (VSingle (convert single_fmt v))
  | lib_nan : library DoubleNaN (VDouble (quiet_nan double_fmt))
  | lib_inf : library DoublePositiveInfinity (VDouble (exp_mask double_fmt))
  | lib_ninf : library DoubleNegativeInfinity (VDouble (with_sign double_fmt true (exp_mask double_fmt))).
Inductive means : written -> cpp_value -> Prop :=
  | means_library c v : library c v -> means (Library c) v
  | means_literal s v : literal s v -> means (Literal s) v.
(** The same number: the same bits, or both NaN. *)
Definition same (f : format) (a b : Z) : Prop := a = b \/ nan f a = true /\ nan f b = true.
