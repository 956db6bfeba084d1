(** * What decimal text of floating point numbers means *)
From Verif Require Import Base IntSpec.

(** The decimal number [m * 10^k] as a fraction. *)
Definition numer (m k : Z) : Z := m * 10 ^ Z.max k 0.
Definition denom (k : Z) : Z := 10 ^ Z.max (- k) 0.

Inductive exponent_part : list Z -> Z -> Prop :=
| no_exponent : exponent_part [] 0
| exponent c sg k ds : c = 69 \/ c = 101 (* E, e *) -> sign_text sg k -> Forall digit ds -> ds <> [] ->
    exponent_part (c :: sg ++ ds) (k * decimal_value ds).
(** [s] is an optional sign, digits with an optional point (at least one digit) and an optional
    exponent; it stands for [sgn * m * 10^k]. *)
Definition decimal_text (s : list Z) (sgn m k : Z) : Prop :=
  exists sg ip pt fp ex e, s = sg ++ ip ++ pt ++ fp ++ ex /\ sign_text sg sgn /\ Forall digit ip /\ Forall digit fp /\ ip ++ fp <> [] /\
    (pt = [46] \/ pt = [] /\ fp = []) /\ exponent_part ex e /\ m = decimal_value (ip ++ fp) /\ k = e - Z.of_nat (length fp).

(** [m * 10^k] is at least as near to [v / u] as [m' * 10^k'] is. *)
Definition as_near (v u m k m' k' : Z) : Prop :=
  Z.abs (v * denom k - numer m k * u) * denom k' <= Z.abs (v * denom k' - numer m' k' * u) * denom k.

(** What is assumed of iswspace: false on digits, signs, the point, letters and NUL. *)
Definition text_space (ws : Z -> bool) : Prop :=
  space_ok ws /\ ws 46 = false /\ forall c, 65 <= c <= 90 \/ 97 <= c <= 122 -> ws c = false.
(** No character that could continue a number follows. *)
Definition stops (rest : list Z) : Prop :=
  match rest with [] => True | c :: _ => ~ digit c /\ c <> 46 /\ c <> 69 /\ c <> 101 /\ c <> 88 /\ c <> 120 end.
