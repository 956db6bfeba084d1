(** * Specification of time span text, independent of the formatter and the parser *)
From Coq Require Import ZArith List Bool.
From Verif Require Import IntModel.
Import ListNotations.
Open Scope Z_scope.

(** What the text of a span should be: sign, days if any, hh:mm:ss, and the fraction of a second
    with seven digits if it is not zero. *)
Definition two_digits (n : Z) : list Z := [48 + n / 10; 48 + n mod 10].
Definition seven_digits (n : Z) : list Z :=
  [48 + n / 1000000; 48 + n / 100000 mod 10; 48 + n / 10000 mod 10; 48 + n / 1000 mod 10;
   48 + n / 100 mod 10; 48 + n / 10 mod 10; 48 + n mod 10].
Definition span_text (v : Z) : list Z :=
  let a := Z.abs v in
  let f := a mod 10000000 in
  (if v <? 0 then [45] else []) ++
  (if a / 864000000000 =? 0 then [] else print_u (a / 864000000000) ++ [46]) ++
  two_digits (a / 36000000000 mod 24) ++ [58] ++ two_digits (a / 600000000 mod 60) ++ [58] ++
  two_digits (a / 10000000 mod 60) ++
  (if f =? 0 then [] else [46] ++ seven_digits f).

(** The fraction of a second is zero or has seven significant digits (it is at least 0.1 s). *)
Definition frac_ok (v : Z) : Prop := Z.abs v mod 10000000 = 0 \/ 1000000 <= Z.abs v mod 10000000.

