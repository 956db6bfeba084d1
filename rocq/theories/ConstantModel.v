(** * Model of the floating constants of translated code: MyIlInstructionVisitor.cs 64-109, 817-864

    [showD] and [showS] are Double.ToString and Single.ToString of the .NET runtime the translator runs
    on (external; ConstantSpec.v says what is assumed of them). *)
From Verif Require Import Base IntModel IeeeModel.

Inductive constant :=
  | IntegerMax (name : Z) (v : Z) | IntegerMin (name : Z) (v : Z)   (* ByteValue::MaxValue ..., with the values the library gives them *)
  | SingleMax | SingleMin | SingleEpsilon
  | DoubleMax | DoubleMin | DoubleEpsilon | DoubleNaN | DoublePositiveInfinity | DoubleNegativeInfinity.
Definition decimal (n : Z) : str := (if n <? 0 then [45] else []) ++ print_u (Z.abs n).
Definition text_eqb (a b : str) : bool := if list_eq_dec Z.eq_dec a b then true else false.
Definition contains (c : Z) (s : str) : bool := existsb (Z.eqb c) s.
Definition double_max : Z := 9218868437227405311.
Definition single_max : Z := 2139095039.

Section WithRuntime.
Variables showD showS : Z -> str.
(** MyIlInstructionVisitor.cs 87-108 with the values of the *Value.cpp files; integer names are the
    bits and the sign of the type. *)
Definition constantConversions : list (str * constant) :=
  [ (decimal 255, IntegerMax 8 255); (decimal 127, IntegerMax (-8) 127); (decimal 32767, IntegerMax (-16) 32767);
    (decimal 2147483647, IntegerMax (-32) 2147483647); (decimal 9223372036854775807, IntegerMax (-64) 9223372036854775807);
    (decimal 65535, IntegerMax 16 65535); (decimal 4294967295, IntegerMax 32 4294967295); (decimal 18446744073709551615, IntegerMax 64 18446744073709551615);
    (showS single_max, SingleMax); (showD double_max, DoubleMax);
    (decimal (-128), IntegerMin (-8) (-128)); (decimal (-32768), IntegerMin (-16) (-32768)); (decimal (-2147483648), IntegerMin (-32) (-2147483648));
    (decimal (-9223372036854775808), IntegerMin (-64) (-9223372036854775808));
    (showS (sign_bit single_fmt + single_max), SingleMin); (showD (sign_bit double_fmt + double_max), DoubleMin);
    ([78; 97; 78], DoubleNaN);
    (showD (exp_mask double_fmt), DoublePositiveInfinity); (showD (sign_bit double_fmt + exp_mask double_fmt), DoubleNegativeInfinity);
    (showD 1, DoubleEpsilon); (showS 1, SingleEpsilon) ].
Fixpoint lookup (t : list (str * constant)) (s : str) : option constant :=
  match t with [] => None | (k, c) :: t => if text_eqb k s then Some c else lookup t s end.
Inductive written := Library (c : constant) | Literal (s : str).
(** 855-864; the first component is what it returns *)
Definition ConvertConstants (v : str) : bool * written :=
  match lookup constantConversions v with Some c => (true, Library c) | None => (false, Literal v) end.
(** 839-848 *)
Definition VisitLdcF8 (b : Z) : written :=
  let s := showD b in
  let s := if IsDigit (last s 0) && negb (contains 46 s) && negb (contains 69 s) then s ++ [46; 48] else s in
  snd (ConvertConstants s).
(** 817-837 *)
Definition VisitLdcF4 (b : Z) : written :=
  let value := if feq single_fmt b 1 || feq single_fmt b single_max || feq single_fmt b (sign_bit single_fmt + single_max) then showS b
               else showD (fl_convert single_fmt double_fmt b) in
  match ConvertConstants value with
  | (false, Literal s) => Literal (if contains 46 value then s ++ [70] else s)
  | (_, w) => w
  end.
End WithRuntime.
