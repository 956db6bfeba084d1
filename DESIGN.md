# Formal model of lambertlb/CppTranslator in Rocq (Coq 8.16.1)

The repository has two halves: `CppTranslator/` (C#: turns the decompiler's trees of a .NET assembly
into C++ text) and `DotNetLibrary/` (C++: the runtime library the emitted code is linked with). Both
are modelled.

## Method
The code is read as text; every definition of the model carries a comment with the file and lines it
models and names its simplifications. Layers per component `X` in `rocq/theories`:

* `XModel.v` – executable Gallina transcription of the C++/C# functions; no proofs.
* `XSpec.v`  – a small independent specification (mathematical meaning of patterns, grammars, step
  semantics, list semantics of histories) that mentions none of the model's helpers. Where the
  statement needs only ordinary mathematics (Z, lists) there is no such file.
* `XProofs.v`  – lemmas; `X*Properties.v` – the theorems `Cnn_…`, `Print Assumptions` and the
  `Example`s showing that concrete states meet the hypotheses.

`Base.v` has the shared vocabulary: machine integers as `Z` with explicit wrap/range functions and

    outcome A := Ret a | Exn e | UB reason

C++ undefined behaviour (signed overflow, out-of-bounds access, overlapping `memcpy`, null
dereference, division by zero, out-of-range float-to-integer conversion) is the separate outcome
`UB`; it is never assumed away. A property the code violates is stated as `…_refuted` with a witness
(often a whole class of witnesses), next to the strongest true version, which carries the suffix
`_partial` when it is weaker than the English property; the comment above it gives the full statement
and what is missing. `_refuted` theorems are findings about the code, listed at the end.

Theorems are tested against wrong programs: `seeded/LOG.jsonl` has one line per seeded bug (definition
edited, edit, claim broken, theorems that stopped proving, theorems added or tightened because of it).

## Trusted base
* Coq's kernel, including `vm_compute`'s virtual machine; the finite sweeps are small enough for
  `coqchk`, which re-checks everything without the VM.
* **Print Assumptions**: every theorem `Cnn_…` prints "Closed under the global context": no axiom, not
  even of the standard library. (The gate's `coqchk` also lists the ssreflect axioms of modules that
  standard-library `ssreflect` support merely loads; no theorem depends on them.) No `Axiom`,
  `Parameter`, section-less `Variable`/`Hypothesis`, functor, module type or switched-off check is used.
* The reading of the sources recorded in the comments of the model files.
* Platform: Linux x86-64, LP64 little-endian, `Char` = `wchar_t` 32 bit signed, `Int32` = `int`, `Int64` =
  `long long`, narrowing conversions modular (C++20 and every compiler), `float`/`double` = IEEE
  binary32/binary64 with round-to-nearest-even and no extended precision.
* External functions as models: `memcpy/memmove/memset`, `wcslen/wmemcpy/wcsncpy`, `towlower/towupper/
  isw…` (arbitrary tables; hypotheses name what is assumed), `swprintf` for `%d`-like conversions,
  `wcstod` is not modelled; IEEE arithmetic (`IeeeModel.v`: add, multiply, divide, conversions, `modf`,
  `floor`, `ceil`, `fabs`) as exact-then-round on bit patterns, NaN payloads collapsed to one NaN.
* Allocation never fails and gives zeroed blocks (PlatformSupport's arena itself is modelled in
  PlatformModel.v, where it can fail). No reclaiming of memory is modelled elsewhere (the library has
  none).
* .NET side: culture-sensitive operations of the C# code are ordinal; `Char.IsLower` etc. are
  arbitrary tables satisfying the stated hypotheses; the decompiler (ILSpy) is not modelled, its trees are
  the inputs, universally quantified. Exception: C101 and C102 start from the C# class and state in
  FieldInitModel.v (`decompile`, `kept_constructor`) what ILSpy 7.2 does with field initialisers and generated constructors.
* C76's CIL and C++ integer semantics, C77's step semantics and C59's C++ expression grammar are
  specifications written from the standards for the fragment that is emitted.

## Plan per property
| id | property | modelled in | proof | status |
|----|----|----|----|----|
| C01 | Calendar date round trip | DateTimeModel.v (DateTimeValue.cpp, DateTimeData) | 400-year period lemma, finite sweep of one period by `vm_compute`, lifted by division; linear arithmetic; histories by induction | proved: every valid date |
| C02 | Tick decomposition is lossless | DateTimeModel.v (DateTimeValue.cpp, DateTimeData) | 400-year period lemma, finite sweep of one period by `vm_compute`, lifted by division; linear arithmetic; histories by induction | proved: every tick count in range |
| C03 | Invalid dates and times are rejected | DateTimeModel.v (DateTimeValue.cpp, DateTimeData) | 400-year period lemma, finite sweep of one period by `vm_compute`, lifted by division; linear arithmetic; histories by induction | partial: full statement refuted (negative hour ignored, millisecond 1000 accepted); exact elsewhere |
| C04 | AddMonths clamps the day and never leaves the calendar | DateTimeModel.v (DateTimeValue.cpp, DateTimeData) | 400-year period lemma, finite sweep of one period by `vm_compute`, lifted by division; linear arithmetic; histories by induction | proved: complete result-or-exception description of AddMonths and AddYears |
| C05 | Chronological order and weekdays | DateTimeModel.v (DateTimeValue.cpp, DateTimeData) | 400-year period lemma, finite sweep of one period by `vm_compute`, lifted by division; linear arithmetic; histories by induction | proved: all comparison operators, successor day, weekday |
| C06 | Leap year and month length agree with the Gregorian rule | DateTimeModel.v (DateTimeValue.cpp, DateTimeData) | 400-year period lemma, finite sweep of one period by `vm_compute`, lifted by division; linear arithmetic; histories by induction | proved:  |
| C07 | DateTime arithmetic stays in range and is invertible | DateTimeModel.v (DateTimeValue.cpp, DateTimeData) | 400-year period lemma, finite sweep of one period by `vm_compute`, lifted by division; linear arithmetic; histories by induction | proved: TimeSpan addition/subtraction and DateTime difference; the Double-valued AddDays family is not part of it |
| C08 | Every constructible DateTime is inside MinValue..MaxValue | DateTimeModel.v (DateTimeValue.cpp, DateTimeData) | 400-year period lemma, finite sweep of one period by `vm_compute`, lifted by division; linear arithmetic; histories by induction | partial: full statement refuted by 9999-12-31 23:59:59.1000; proved that this is the only escaping tuple |
| C09 | TimeSpan components reconstruct the span | TimeSpanModel.v (TimeSpanValue.cpp) | linear arithmetic over quot/rem; printing/parsing by induction on digits; witnesses for the refutations | proved: components, both integer constructors |
| C10 | TimeSpan.Add is exact or throws | TimeSpanModel.v (TimeSpanValue.cpp) | linear arithmetic over quot/rem; printing/parsing by induction on digits; witnesses for the refutations | partial: exact when the sum fits; the overflow case is undefined behaviour in C++ (proved to throw on a wrapping compiler) |
| C11 | TimeSpan.Subtract is exact or throws | TimeSpanModel.v (TimeSpanValue.cpp) | linear arithmetic over quot/rem; printing/parsing by induction on digits; witnesses for the refutations | partial: full statement refuted: the overflow test is the one for addition, 1-2 throws and real overflows are missed; exact description proved |
| C12 | TimeSpan.Negate and Duration | TimeSpanModel.v (TimeSpanValue.cpp) | linear arithmetic over quot/rem; printing/parsing by induction on digits; witnesses for the refutations | partial: full statement refuted: MinValue/MaxValue are built from UInt64 limits so zero is the span that throws; proved for all other values |
| C13 | TimeSpan text identifies the span | TimeSpanModel.v (TimeSpanValue.cpp) | linear arithmetic over quot/rem; printing/parsing by induction on digits; witnesses for the refutations | partial: full statement refuted for fractions below 0.1 s (zeros appended instead of prepended); proved for the rest |
| C14 | Integer text round trip | IntModel.v (UInt64Value::TryParseInternal, the eight Parse/TryParse/ToString) | induction over digit strings for every string; IntSpec.v is the grammar | partial: proved for six types and for all values but MinValue of Int32/Int64, where parsing the text is signed overflow |
| C15 | Out-of-range integers are rejected | IntModel.v (UInt64Value::TryParseInternal, the eight Parse/TryParse/ToString) | induction over digit strings for every string; IntSpec.v is the grammar | partial: full statement refuted (wrap-around of the accumulator, -129 as SByte, sign ignored for unsigned); positive ranges proved |
| C16 | Only integer text is accepted | IntModel.v (UInt64Value::TryParseInternal, the eight Parse/TryParse/ToString) | induction over digit strings for every string; IntSpec.v is the grammar | partial: full statement refuted: anything may follow the first white space after the digits; exact accepted language proved |
| C17 | CompareTo of narrow integers is a total order | BoxModel.v (XxxValue::CompareTo) | linear arithmetic; witnesses | proved:  |
| C18 | CompareTo of wide integers is a total order | BoxModel.v (XxxValue::CompareTo) | linear arithmetic; witnesses | partial: full statement refuted (difference truncated to Int32); proved when the difference fits |
| C19 | Boolean text | TextModel.v (BooleanValue.cpp over String::Compare) | induction over the text, for every locale table that treats ASCII as usual | partial: Exact language proved for every locale that treats ASCII letters as usual; refuted: every proper prefix (also the empty text) is accepted. |
| C20 | Array index mapping is a bijection | ArrayModel.v (Array.cpp over byte blocks of MemModel.v) | induction over dimension lists, slice/splice algebra (MemProofs.v) | proved: all shapes of rank 1 to 3; the bijection for every rank |
| C21 | Array indexing never escapes the array | ArrayModel.v (Array.cpp over byte blocks of MemModel.v) | induction over dimension lists, slice/splice algebra (MemProofs.v) | proved: Address, GetValue, SetValue for any index arguments |
| C22 | Array store/load law | ArrayModel.v (Array.cpp over byte blocks of MemModel.v) | induction over dimension lists, slice/splice algebra (MemProofs.v) | proved: integer/character boxes into every integer element type with C conversion; same-type boxes for the others; null and unsuitable boxes rejected |
| C23 | Array.Copy semantics | ArrayModel.v (Array.cpp over byte blocks of MemModel.v) | induction over dimension lists, slice/splice algebra (MemProofs.v) | partial: proved for distinct arrays when index+length fits Int32; refuted: that sum overflows, and shifting inside one array is memcpy on overlapping memory |
| C24 | Array.Clear stays inside the array | ArrayModel.v (Array.cpp over byte blocks of MemModel.v) | induction over dimension lists, slice/splice algebra (MemProofs.v) | partial: proved for ranges inside the array; refuted outside: exceptions are constructed but not thrown and memory outside is written |
| C25 | Array.IndexOf finds the first match | ArrayModel.v (Array.cpp over byte blocks of MemModel.v) | induction over dimension lists, slice/splice algebra (MemProofs.v) | proved:  |
| C26 | Array shape queries | ArrayModel.v (Array.cpp over byte blocks of MemModel.v) | induction over dimension lists, slice/splice algebra (MemProofs.v) | partial: existing dimensions proved; refuted for rank = number of dimensions and negative ranks |
| C27 | Buffer.BlockCopy copies bytes as if through a temporary | BufferModel.v (Buffer.cpp) | slice/splice algebra, memmove through a temporary | partial: proved for all non-empty arrays, overlapping or not; refuted: offset+count overflows Int32, and empty arrays throw |
| C28 | Buffer byte access is bounds checked | BufferModel.v (Buffer.cpp) | slice/splice algebra, memmove through a temporary | partial: proved for non-negative indices; refuted: negative indices read and write before the array |
| C29 | BitConverter round trip | BufferModel.v (BitConverter.cpp) | little-endian arithmetic (Bytes.v), induction over the dump | partial: all types at every offset; refuted only for characters from 0x8000, which come back negative |
| C30 | BitConverter.ToString is a faithful hex dump | BufferModel.v (BitConverter.cpp) | little-endian arithmetic (Bytes.v), induction over the dump | partial: Dump, decodability, length and exceptions proved for every array and window up to 715827840 bytes; refuted beyond (capacity computation overflows). |
| C31 | Substring, Insert, Remove and Concat algebra | StringModel.v (StringDotNet.cpp on a block of characters, NUL terminated where the code relies on it) | induction over texts and search loops; StringSpec.v is the list semantics | partial: Copy, Substring on NUL-free text, Insert/Remove/Concat of non-empty strings proved for every length; refuted: Substring behind an embedded NUL, every Insert/Remove on or of an empty string throws IndexOutOfRange, Concat(null,...) throws. |
| C32 | IndexOf/LastIndexOf of a character | StringModel.v (StringDotNet.cpp on a block of characters, NUL terminated where the code relies on it) | induction over texts and search loops; StringSpec.v is the list semantics | partial: First/last index and the exception cases proved for windows inside the string; refuted: windows reaching past the end are accepted (LastIndexOf clips or throws the wrong exception). |
| C33 | IndexOf of a string | StringModel.v (StringDotNet.cpp on a block of characters, NUL terminated where the code relies on it) | induction over texts and search loops; StringSpec.v is the list semantics | partial: Least/greatest occurrence proved for NUL-free texts; refuted: IndexOf ignores the end of the window, NULs cut both strings, LastIndexOf reads outside the block for bad windows. |
| C34 | Trim removes exactly the surrounding trim characters | StringModel.v (StringDotNet.cpp on a block of characters, NUL terminated where the code relies on it) | induction over texts and search loops; StringSpec.v is the list semantics | partial: Trim/TrimStart/TrimEnd equal the unique maximal trimming and are idempotent for every string unless NUL is both a trim character and in the string (refuted there). |
| C35 | Padding | StringModel.v (StringDotNet.cpp on a block of characters, NUL terminated where the code relies on it) | induction over texts and search loops; StringSpec.v is the list semantics | partial: Both paddings, length law and exception cases proved while length+width stays within builder limits; refuted beyond Int32 (signed overflow). |
| C36 | String equality is character equality | StringModel.v (StringDotNet.cpp on a block of characters, NUL terminated where the code relies on it) | induction over texts and search loops; StringSpec.v is the list semantics | partial: ==, !=, Equals agree with equality of text for NUL-free texts; refuted after a NUL for != . |
| C37 | String.Compare is a total order | StringModel.v (StringDotNet.cpp on a block of characters, NUL terminated where the code relies on it) | induction over texts and search loops; StringSpec.v is the list semantics | partial: Ordinal comparison is the lexicographic total order on equal-length texts; the case-aware comparison decided by the first difference; refuted: a proper prefix compares equal one way and greater the other, no antisymmetry/transitivity, CompareTo(object) always 0, windows unchecked. |
| C38 | StartsWith/EndsWith | StringModel.v (StringDotNet.cpp on a block of characters, NUL terminated where the code relies on it) | induction over texts and search loops; StringSpec.v is the list semantics | partial: Proved when the probe is not longer than the string (and for StartsWith up to 129 characters); refuted: longer probes read out of bounds, empty receivers throw. |
| C39 | Replace replaces every non-overlapping occurrence | StringModel.v (StringDotNet.cpp on a block of characters, NUL terminated where the code relies on it) | induction over texts and search loops; StringSpec.v is the list semantics | partial: Left-to-right replacement of all occurrences proved for non-empty receiver and pattern; refuted for the empty receiver. |
| C40 | Join | StringModel.v (StringDotNet.cpp on a block of characters, NUL terminated where the code relies on it) | induction over texts and search loops; StringSpec.v is the list semantics | partial: Join with string separators proved for every array, window and count; Join with a character separator proved with room in the builder and refuted (overrun) when full. |
| C41 | Search and case functions terminate on every input | StringModel.v (StringDotNet.cpp on a block of characters, NUL terminated where the code relies on it) | induction over texts and search loops; StringSpec.v is the list semantics | partial: Contains decides occurrence for non-empty strings, Replace terminates; refuted: Contains("") never returns, an empty receiver throws. |
| C42 | StringBuilder behaves like a character list under every history | StringBuilderModel.v (StringBuilder.cpp: block, length, capacity, maximum) | refinement to character lists by an invariant, induction over histories of operations | partial: Proved for every history (any length, 17 kinds of operation, exceptions included) that runs without undefined behaviour: results and text are those of the list semantics in StringBuilderSpec.v. The unrestricted claim is false of the code: Insert at -1 appends, before -1 is undefined behaviour, Insert/constructor of an empty string throws, Remove uses overlapping memcpy (refutation theorems); the overrun of Append(Char) is under C43. |
| C43 | StringBuilder never overruns its buffer | StringBuilderModel.v (StringBuilder.cpp: block, length, capacity, maximum) | refinement to character lists by an invariant, induction over histories of operations | partial: Length <= Capacity, block size and Capacity <= MaxCapacity+127 proved for every history from capacity >= 128 without hand-set capacity; absence of undefined behaviour proved for every history that keeps the stated room. The unrestricted claim is refuted: Append(Char) on a full builder overruns, Capacity may exceed MaxCapacity or drop below Length, rounding overflows. |
| C44 | StringBuilder.Length assignment | StringBuilderModel.v (StringBuilder.cpp: block, length, capacity, maximum) | refinement to character lists by an invariant, induction over histories of operations | partial: Truncation, kept prefix and exceptions proved for every reachable builder and every n; NUL fill proved for histories without Remove/Replace(String)/hand-set capacity; refuted otherwise (erased characters reappear). |
| C45 | StringBuilder equality is content equality | StringBuilderModel.v (StringBuilder.cpp: block, length, capacity, maximum) | refinement to character lists by an invariant, induction over histories of operations | partial: Proved for builders of equal capacities holding NUL-free text, over all histories that do not grow Length by hand; refuted for different capacities and for texts with NUL. |
| C46 | CharEnumerator enumerates exactly the string | TextModel.v (CharEnumerator.cpp) | state machine invariant over histories | proved: every history of MoveNext/Current/Reset on every string |
| C47 | Integer Abs, Sign, Max, Min, Clamp | MathModel.v (DotNetMath.cpp, DoubleValue.cpp, SingleValue.cpp on bit patterns) | order isomorphism between patterns and values; case analysis; bit lemmas | partial: proved except the least Int32/Int64 of Abs and Sign (undefined behaviour) and Abs(Int64) beyond 2^53, which is rounded to a Double (refutations); floating Max, Min, Clamp, Sign, CompareTo, Equals, MaxMagnitude, MinMagnitude proved for all patterns |
| C48 | DivRem and BigMul | MathModel.v (DotNetMath.cpp, DoubleValue.cpp, SingleValue.cpp on bit patterns) | order isomorphism between patterns and values; case analysis; bit lemmas | partial: proved for Int32 (MIN/-1 is undefined behaviour) and for Int64 when the quotient fits 32 bits; refuted otherwise: DivRem(Int64) keeps its quotient in an Int32 |
| C49 | Math.Round rounds to the nearest integer, ties to even | MathModel.v (DotNetMath.cpp, DoubleValue.cpp, SingleValue.cpp on bit patterns) | order isomorphism between patterns and values; case analysis; bit lemmas | proved: for all 2^64 patterns, with uniqueness of the specified integer |
| C50 | BitIncrement/BitDecrement give the neighbouring double | MathModel.v (DotNetMath.cpp, DoubleValue.cpp, SingleValue.cpp on bit patterns) | order isomorphism between patterns and values; case analysis; bit lemmas | partial: proved for every finite double and NaN; refuted next to the infinities (MaxValue/MinValue constants are not the extreme doubles) |
| C51 | CopySign, IsNaN, IsInfinity, IsNegative, IsNormal, IsSubnormal classify bits correctly | MathModel.v (DotNetMath.cpp, DoubleValue.cpp, SingleValue.cpp on bit patterns) | order isomorphism between patterns and values; case analysis; bit lemmas | partial: classification proved for all patterns of both formats; CopySign proved unless the second argument is a positive NaN, for which it is refuted |
| C52 | Arena allocation hands out disjoint aligned zeroed blocks | PlatformModel.v (PlatformSupport.cpp arena) | invariant over histories of requests, stores and re-setups | partial: proved for every history of requests (below about 4 GB each), deletions, stores and re-setups and for every arena size; larger requests wrap and are the refutation under C53 |
| C53 | Oversized allocation requests are refused | PlatformModel.v (PlatformSupport.cpp arena) | invariant over histories of requests, stores and re-setups | partial: proved for requests up to 2^32-8-arena size; refuted for 4 GB and for 8 bytes less (32-bit wrap-around, then memory outside the arena is zeroed) |
| C54 | String and character literals survive translation | FormatterModel.v (Formatter.cs) | induction over strings and call sequences; C++ literal grammar in FormatterSpec.v | partial: proved for every string without surrogates (and, as a String object, without NUL); refuted for every string with a surrogate (ill-formed literal) and for embedded NUL (cut) |
| C55 | Name mangling is injective and avoids C++ keywords | FormatterModel.v (Formatter.cs) | induction over strings and call sequences; C++ literal grammar in FormatterSpec.v | proved: assuming only that Char.IsLower holds for ASCII lower case letters; the empty name aborts the translator (refuted separately) |
| C56 | Emitted braces and namespaces are balanced | FormatterModel.v (Formatter.cs) | induction over strings and call sequences; C++ literal grammar in FormatterSpec.v | partial: proved for every sequence of calls nested at most 22 deep; deeper nesting aborts the translation (C57) |
| C57 | Indentation never aborts translation | FormatterModel.v (Formatter.cs) | induction over strings and call sequences; C++ literal grammar in FormatterSpec.v | partial: exactly the nestings up to 22 are indented correctly; refuted beyond: the translation aborts |
| C58 | Every illegal type is reported exactly once | TranslatorModel.v (CppTypeVisitor.cs: table of valid types, report) | induction over the history of requests | proved: for every table without duplicate rows and every history of uses and calls; with a duplicate row refuted (the rest of the table is silently dropped) |
| C59 | Emitted expressions keep the tree structure | ExprModel.v (MyIlInstructionVisitor.cs expressions to tokens) | C++ grammar as relations in ExprSpec.v; mutual induction: derivation exists and is unique | partial: unique reading by the C++ grammar proved for every expression in which no cast/new-array/complement is a member's receiver, no assignment is an operand and no conditional is another's condition; each of these exceptions refuted in general; arithmetic without exception |
| C60 | Increment shorthand preserves meaning | StatementModel.v (MyIlInstructionVisitor.cs statements) | induction over trees and sections | partial: proved for all operands except Int64 constants (the translator throws) and floating constants strictly between 1 and 2 (written as ++/--): both refuted, as is the value of a prefix increment |
| C61 | Switch translation keeps every case | StatementModel.v (MyIlInstructionVisitor.cs statements) | induction over trees and sections | partial: proved for switches whose sections have one label each besides default; refuted for several labels: only the least is kept |
| C62 | Generated labels are unique | StatementModel.v (MyIlInstructionVisitor.cs statements) | induction over trees and sections | partial: uniqueness proved for every method; every goto has its label when leaves target the innermost container (otherwise refuted: wrong or missing label; IL_0000 containers become returns) |
| C63 | Boxed numeric conversions | BoxModel.v, BoxCompareModel.v (get_AsX) | case analysis; rounding lemmas of FloatProofs.v | partial: integer and boolean conversions, same-type unboxing; integer and floating boxes to the nearest Single/Double; floating sources are truncated where C defines the conversion; outside the target range C leaves the conversion undefined |
| C64 | TimeSpan text round trip | TimeSpanModel.v (TryParse number table) | induction over digits | partial: proved below 100 days for texts C13 covers; refuted beyond, and the number table overflows on five numbers |
| C65 | Comparing boxed values | BoxModel.v, BoxCompareModel.v (CompareTo, Equals of all boxes, Object::Equals) | case analysis, order of patterns | partial: CompareTo, Equals(object) and Object.Equals proved for every class of boxes (integers, Boolean, character, Single, Double); refuted: Equals(null) on a boxed integer dereferences null |
| C66 | String case mapping, character arrays, repetition and emptiness tests | TextModel.v, StringModel.v (case mapping, ToCharArray, Char predicates, FormatString) | induction | partial: proved for every string, window and locale; refuted: String(array, start>0) with default length throws, null array is dereferenced, copying 0 characters at the end throws |
| C67 | Char text and indexed predicates | TextModel.v, StringModel.v (case mapping, ToCharArray, Char predicates, FormatString) | induction | partial: all proved except that a negative index throws IndexOutOfRange instead of ArgumentOutOfRange (refutation) |
| C68 | FormatString stays inside the caller's buffer | TextModel.v, StringModel.v (case mapping, ToCharArray, Char predicates, FormatString) | induction | partial: proved when the buffer is larger than the text; refuted: size equal to the length writes one character behind the buffer, and a short Boolean buffer reports more than it wrote |
| C69 | Types are defined before they are needed | TranslatorModel.v (type ordering, enumerators, names, namespaces) | induction over the type graph and name texts | partial: each type exactly once: proved; bases first: proved if no type follows both a base and a derived type of its own; refuted in general and for struct fields |
| C70 | Enumerators are unique | TranslatorModel.v (type ordering, enumerators, names, namespaces) | induction over the type graph and name texts | partial: proved within one enum, and across enums whose names have no underscore; refuted in general |
| C71 | Declarations and uses agree on names | TranslatorModel.v (type ordering, enumerators, names, namespaces) | induction over the type graph and name texts | partial: proved for property accessors and fields, and for methods, classes and backing fields not starting with a lower case letter; refuted for all the others |
| C72 | Namespace names are C++ identifiers | TranslatorModel.v (type ordering, enumerators, names, namespaces) | induction over the type graph and name texts | partial: proved for one-part namespaces and the empty one, injective for all; refuted for every dotted namespace |
| C73 | No statement is lost | StatementModel.v (try, static constructors) | tree induction | partial: proved without try-finally and with one-block try bodies and handlers; refuted otherwise (the code is dropped) |
| C74 | Static constructors end in the injected return | StatementModel.v (try, static constructors) | tree induction | partial: proved when no nested container occurs; refuted with a loop: no return is written at all |
| C75 | If statements test their condition | ExprModel.v (if conditions) | tree induction | partial: proved for conditions that are not themselves conditional; refuted for every && and // (only the first operand is tested) |
| C76 | Integer expressions keep their value | ExprModel.v; CIL and C++ integer semantics in ExprValueSpec.v | mutual induction over expressions: value of the emitted tokens' parse = value of the tree | partial: proved for all expressions whose operations are done in C++ types of the right width and sign and that do not overflow signed/checked or take a remainder by zero; refuted: wraparound, checked arithmetic, unsigned compare/shift/division on signed-typed locals, zero extension, remainder by zero, 64-bit constants |
| C77 | Control flow is preserved | ControlModel.v (containers, blocks, branches, switches, labels); step semantics in ControlSpec.v | simulation for every oracle of condition outcomes, both directions, no step bound | partial: executions of the output are exactly those of the decompiled method, for every sequence of outcomes of its conditions, its labels are accepted and it never gets stuck - for every tree without try statements whose leaves go out of the innermost container, whose branches do not go to a bare leave, whose loops are not at offset 0 and whose switch sections end in a jump; each exception refuted by an execution |
| C78 | Every local is declared where it is used | LocalsModel.v (declaration of locals) | induction over blocks; exact characterisation | partial: exact characterization proved; refuted when two blocks of the method's body share a local |
| C79 | Time spans are ordered by their length | TimeSpanModel.v, BoxCompareModel.v | linear arithmetic | proved:  |
| C80 | TimeSpan.FromDays ... FromMilliseconds | FloatModel.v over IeeeModel.v (FromX, Multiply, Divide, TotalX, AddX of Doubles) | rounding relation `rounded` of FloatSpec.v; error and monotonicity lemmas in FloatProofs.v | partial: every argument except products of exactly 2^63 ticks, whose conversion is undefined (refuted) |
| C81 | TimeSpan multiplied or divided by a number | FloatModel.v over IeeeModel.v (FromX, Multiply, Divide, TotalX, AddX of Doubles) | rounding relation `rounded` of FloatSpec.v; error and monotonicity lemmas in FloatProofs.v | partial: every argument except results of exactly 2^63 ticks and Multiply of a zero span by an infinity, whose conversion is undefined (refuted) |
| C82 | TimeSpan totals | FloatModel.v over IeeeModel.v (FromX, Multiply, Divide, TotalX, AddX of Doubles) | rounding relation `rounded` of FloatSpec.v; error and monotonicity lemmas in FloatProofs.v | partial: one rounding for spans of up to 2^53 ticks, two roundings beyond (one rounding refuted) |
| C83 | DateTime.AddDays ... AddMilliseconds with fractions | FloatModel.v over IeeeModel.v (FromX, Multiply, Divide, TotalX, AddX of Doubles) | rounding relation `rounded` of FloatSpec.v; error and monotonicity lemmas in FloatProofs.v | partial: every number except NaN (refuted: undefined conversion); the nearest millisecond is refuted just below one half, within 3/4 ms (see C83_accuracy) proved |
| C84 | Math.Round with digits and mode | FloatModel.v (Round with digits and mode, Divide, FusedMultiplyAdd) | rounding relation, selection of integers, exactness lemmas | proved: C84_limits records that directed modes and the rounded product can differ from decimal expectation, as in .NET |
| C85 | Floating division and multiply-add | FloatModel.v (Round with digits and mode, Divide, FusedMultiplyAdd) | rounding relation, selection of integers, exactness lemmas | partial: Divide proved except for zero divisors with a negative or NaN dividend or a divisor -0 (refuted); FusedMultiplyAdd rounds twice: proved when the product is exact, refuted in general |
| C86 | Index arrays and array initialisers | ArrayModel.v (index arrays, Initialize) | slice/splice algebra | partial: index arrays proved for one to three indexes; refuted: an empty index array is accepted silently; initialisers proved when the block is long enough; refuted: a shorter block is read past its end |
| C87 | Text of Double and Single | FloatTextModel.v (FormatString, Parse, TryParse over swprintf/swscanf written from the C standard) | decimal grammar in FloatTextSpec.v; digit generation by scaling invariants, separation of six-digit decimals from rounding intervals | partial: nearest six digits proved for all numbers; the round trip is proved to hold exactly for the numbers nearest to a decimal of at most six digits, and refuted for others (0.1234567); missing: the full round trip .NET gives, which the six digits of %G cannot. swprintf and swscanf are modelled from the C standard |
| C88 | Double and Single Parse and TryParse | FloatTextModel.v (FormatString, Parse, TryParse over swprintf/swscanf written from the C standard) | decimal grammar in FloatTextSpec.v; digit generation by scaling invariants, separation of six-digit decimals from rounding intervals | partial: numerals proved; refuted: text after the number is accepted, text without a number reads an uninitialised variable, TryParse never answers false for a text. Hexadecimal numerals, which swscanf accepts, are a parameter of the model |
| C89 | Declarations and definitions of members agree | MemberModel.v (header and source visitors over the members of a class) | member-wise correspondence by induction on the member list; C++ and C# call resolution in MemberSpec.v, last-override argument over the chain | partial: Proved for classes of supported members (ordinary methods, constructors, properties with a getter whose missing setter the library tolerates, fields, the operators + - &): declarations and definitions agree one for one; every definition has the body of its member (for all members); method modifiers are exact; structs without a static constructor are default constructible; overloads without array, in or reference parameters stay different. Refuted: static properties are not declared static; a property without a getter, or an operator other than + - & or with a keyword result, stops or spoils the output; constants are declared and never defined; a struct with a static constructor and parameters has no default constructor; external methods are pure but not virtual; overloads that differ in an array's element type collide. |
| C90 | Calls reach the same class's member | MemberModel.v (header and source visitors over the members of a class) | member-wise correspondence by induction on the member list; C++ and C# call resolution in MemberSpec.v, last-override argument over the chain | partial: Proved for methods that are only overridden and whose name no class on the way declares with other parameters only. Refuted: accessors of properties are never virtual; a new method of the same signature overrides in C++; a class that declares the name with other parameters hides the inherited method. |
| C91 | Arguments of base constructors | MemberBodyModel.v (constructor initialisers, return casts with the visitor's state) | meaning of argument lists as relations; invariant of the remembered return type over the list of functions | partial: Proved for literals, parameters and null. Refuted: other expressions are dropped silently or stop the translation; named arguments are passed in the written order; a call of another constructor of the class is not C++. |
| C92 | Returned values keep their type | MemberBodyModel.v (constructor initialisers, return casts with the visitor's state) | meaning of argument lists as relations; invariant of the remembered return type over the list of functions | partial: Proved for methods, wherever they stand in the program. Refuted for accessors and operators: a computed value is cast to the return type of the last method translated before (cutting an Int64 to 32 bits), or the translation stops if there is none. |
| C93 | Floating constants keep their value and type | ConstantModel.v (LdcF4, LdcF8, table of named constants) over any .NET ToString | literals and library constants in ConstantSpec.v; a nearest Double that is a Single is the nearest Single (midpoint argument); unique reading of numerals; a runtime that meets the assumptions is built | partial: For every runtime whose Double and Single texts read back (.NET Core 3.0 and later), proved for every Double except the two extreme ones and those whose text is that of an extreme Single, and for the value (not the type) of every Single except minus zero. Refuted: Double.MaxValue and MinValue become smaller numbers; the Double 1E-45 becomes SingleValue::Epsilon; -0f becomes integer 0; Single constants without a fraction are integers, so that (c ? 1f : 2f) / 4f is an integer division. |
| C94 | Array initialisers | InitializerModel.v (blocks of kind ArrayInitializer, the table of translated names) | state semantics of C# and of the written C++ in InitializerSpec.v; simulation by induction on the program, with the table as invariant | partial: Proved for every program whose initialised arrays are assigned to local variables, or to fields of this that no local variable hides, and whose elements are no initialised arrays and do not read the target. Refuted: elements that read the target; a parameter of the field's name; another object's field; an exception in an element; array elements and static fields as targets and arrays of arrays (undeclared temporaries); automatic properties; an initialised array as an argument. |
| C95 | Order of evaluation | ExprModel.v, OrderModel.v | left-to-right evaluation and small-step evaluation in any order in OrderSpec.v, for arbitrary meanings of the nodes; every step of independent siblings commutes with the left-to-right evaluation (frame lemmas), size decreases | partial: Proved, for every meaning of the nodes and every (even interleaved) C++ order, for expressions whose sibling operands are independent; in particular expressions without effects and calls whose arguments are calculations with locals and constants. Refuted: two operands or arguments with effects (the C++ program may run them in the other order or throw the other exception); T.n += f() uses n as f leaves it; a compound assignment with a user-defined operator evaluates its target twice. |
| C96 | Arguments passed by value and by reference | ArgumentModel.v over MemberModel.v (arguments, parameter types, uses of parameters) | binding rules and assignments of both languages in ArgumentSpec.v; simulation between frames with aliases | partial: Proved for value, ref, params and (while the argument does not change) in parameters of all types, with any aliasing. Refuted: calls and bodies of methods with out parameters do not compile; an in parameter is a copy; ref locals are copies; methods called on primitive ref parameters do not compile. |
| C97 | Concatenation of strings yields the concatenated text | ConcatModel.v (HandleStringConcat and its operands) with StringModel.v's String::Concat | C# meaning and a reader of C++ calls (arguments cut at top-level commas outside literals) in ConcatSpec.v; induction over nested operands, unique reading, and the library's concatenation (C31) | partial: Proved for every nesting of concatenations of at most seven operands whose first operand is not null, with literals of any characters but surrogates and NUL: the written text has exactly one C++ value, the C# one. Refuted: with eight operands or more no function takes the call; a null first operand throws ArgumentNullException instead of counting as empty; a string converted to a span stops the translator unless it is a literal. Operands of other kinds (boxed values, other calls) are not modelled. |
| C98 | A run leaves the files of one translation | RunModel.v (Main, GetPathToAssembly, ProcessModules, opening and closing of the output files, the log) over FormatterModel.v; the visitors are arbitrary | RunSpec.v: selected types, the calls of a pass up to the first exception; the run equals one flat sequence of calls per file, by induction over types and modules; the open file is an invariant of all calls | partial: Proved for every program, every behaviour of the visitors and every disk: a successful run (with a type to translate) leaves exactly the three files of this program after any history of runs and changes nothing else; the exact state a failure in each pass leaves, with the exception in the log; usage errors and unreadable programs change no output; the selection of types; the path for directories without mixed separators. Refuted: a failure in the second or third pass leaves files of two translations, one of them empty; a program without types keeps the old output; two programs in one directory share their output files; the log is never cleared; a/b\c.dll is translated into a/generated. Failures of the disk and of creating the directory are not modelled. |
| C99 | Types in the header and their bases | HeaderModel.v (the header as lines: namespaces, first lines of types with their bases, directives) over TranslatorModel.v's order | reader of base lists, scopes and unqualified name lookup of C++ in HeaderSpec.v; the lines as one recursive emission, permutation and C69 lifted to full names | partial: Proved for every program in the supported style (ordinary names, bases by plain name in the same namespace or the library, only enums nested, an order without a type between its base and its derived type): each class and struct is defined exactly once inside its namespace, each base is found, is the intended complete type, and the first base is public; for every program: each namespace with a class or struct gets exactly one using directive, after all definitions. Refuted: a base in another namespace is never found (directives come last); the second base of a class is private; a qualified base is written as its qualifier; an interface of the program is named but declared nowhere; any nested class or struct aborts the header pass; a namespace with only enums is never used. |
| C100 | Enum members keep their values | EnumModel.v on FormatterModel.v (the actual text with indentation) | C# values, C++ tokens and enumerator values in EnumSpec.v; induction over the members with the exact text added | partial: Proved for every enum whose initialisers are literals between -(2^63-1) and 2^63-1, at every indentation, with the text produced by the Formatter and read back by an independent C++ reader. Refuted: ulong values from 2^63 on and long.MinValue have no decimal literal in C++; the underlying type is dropped; other initialisers abort the translation, disappear, or name a member without its suffix. |
| C101 | Static fields have their values when they are used | FieldInitModel.v (definitions of static storage, emitted constructors; what the decompiler does with initialisers is stated there) | lazy C# initialisation and C++ start-up in FieldInitSpec.v; simulation with the set of classes under initialisation, nested to any depth; initialisers commute with the constructors of the bases | partial: Proved for every program whose classes with static initialisers have static constructors, which print nothing, store to their own class and read only their own and earlier classes' fields that Main does not change: every output of Main is the C# one. Refuted: an initialiser in a class without static constructor is dropped (the field is zero); classes initialised later read as zero; Main's earlier stores are not seen; unused classes are initialised; fields of struct types are reset. |
| C102 | New objects have their initial values | FieldInitModel.v (definitions of static storage, emitted constructors; what the decompiler does with initialisers is stated there) | lazy C# initialisation and C++ start-up in FieldInitSpec.v; simulation with the set of classes under initialisation, nested to any depth; initialisers commute with the constructors of the bases | partial: Proved for every inheritance chain whose classes with initialisers have a constructor and whose initialisers print nothing (except in a class without base). Refuted: the initialisers of a class without constructor are dropped; an initialiser that prints does so after the base constructor. |
| C103 | Exceptions reach the same handler | TryModel.v (VisitTryCatch, VisitThrow, VisitRethrow, VisitLeave with the label stack; Exception.h hierarchy and members) | C# exception semantics, the emitted C++ subset (goto/labels/catch by pointer) and both class hierarchies in TrySpec.v; simulation by mutual induction over statements, blocks and handlers | partial: C103_handlers_partial: same trace and same final exception class for every method whose throws and handlers are in the domain plain_all (new exceptions or variables holding exactly their declared class, rethrow, handlers without condition and not for ArgumentException/ArithmeticException, leave of one level, no try at offset 0). Missing because false: handlers for ArgumentException/ArithmeticException (flat library hierarchy), throw of a variable or of the caught object (static type), catch-when, try as first statement, leave of two levels, throw null: each refuted for all instances. |
| C104 | Exception objects keep their message and their cause | TryModel.v (VisitTryCatch, VisitThrow, VisitRethrow, VisitLeave with the label stack; Exception.h hierarchy and members) | C# exception semantics, the emitted C++ subset (goto/labels/catch by pointer) and both class hierarchies in TrySpec.v; simulation by mutual induction over statements, blocks and handlers | partial: InnerException always; Message when one was given; GetBaseException for chains of exactly two. The rest is refuted (default messages are null, GetBaseException answers the direct cause). |
| C105 | Text of a DateTime | DateTextModel.v on DateTimeModel.v and TimeSpanModel.v; the C library's broken-down times are inputs constrained by DateTextSpec.denotes | text format and meaning of struct tm in DateTextSpec.v; reuses the calendar results of C01/C02/C07 | partial: C105_text_partial: the .NET text from year 1000 on outside of the hours 0 and 12; C105_text_refuted: for every other DateTime the text differs (midnight is written 0:.., noon as AM, years below 1000 are not padded). C105_identifies and C105_total hold for every DateTime. |
| C106 | Clock and time zone | DateTextModel.v on DateTimeModel.v and TimeSpanModel.v; the C library's broken-down times are inputs constrained by DateTextSpec.denotes | text format and meaning of struct tm in DateTextSpec.v; reuses the calendar results of C01/C02/C07 | partial: Now and Today exact (to the millisecond) for every instant of the years 1-9999 (POSIX branch); the zone is right exactly when the offset is a whole number of hours and it is the same day in UTC (C106_zone_partial is an equivalence, C106_zone_refuted the other side); conversions exact under that condition and always inverse. The zone used is the one of the moment of the call, not the one in force at the converted time; DateTimeKind does not exist in the library. IsDaylightSavingTime (reads an uninitialised tm_isdst) is not modelled. |
| C107 | Casts, boxing and unboxing | CastModel.v (the visitor node by node; getters from BoxModel.v) | C# and C++ evaluators in CastSpec.v; induction over expressions with the invariant that values are in range | partial: C107_values_partial: whatever succeeds in C# gives the same value in C++ (library value types, no default(C)); C107_refused: unboxing an object that is no boxed value throws InvalidCastException in both. Missing because false: failing casts and unboxing to another type are not noticed, null is undefined behaviour, default(C) of a class is a new object, the program's own structures and enumerations cannot be boxed: each refuted for all instances. |
| C108 | What cannot be translated is not silently replaced | DropModel.v: the text before and after an operand at each place of ExprModel, and the instructions whose visit writes nothing | a finite automaton that every text accepted by the grammar of ExprSpec.v passes (induction over the parser); the text around a missing operand stops it | partial: Rejected wherever the missing operand stands, for every surrounding expression, except at two kinds of places, which are refuted: as the only argument of a call, constructor or boxing (f(x as C) is emitted as f()), and as the left operand of an operator that C++ also has as a unary one ((x ?? y) - a is emitted as (- a)). The C++ grammar is that of ExprSpec; + and & count as unnoticed although the specification's grammar has no unary + and &. |
| C109 | Floating point expressions keep their value | FloatExprModel.v (DoubleValue::Modulus) with ExprModel.v (the visitor) and FloatModel.v (Math::Divide) | CIL and C++ evaluators of floating expressions in FloatExprSpec.v; FloatNarrowProofs.v: rounding a Double quotient of Singles to Single is Single division (a quotient is never close to a midpoint without being one); induction over expressions, integer parts by C76 | partial: For every expression whose operands have the same type in C++ as on the CIL stack and whose divisions by zero have a dividend zero or of the divisor's sign, every reading of the printed text has the same bits (or rounds to them when stored); division and remainder of Singles through Double proved innocuous for all operands. Missing and refuted: a quotient of Singles used as an operand, compared, widened or truncated (last-bit and integer differences), division by zero of a negative number. |
| C110 | The floating point remainder is exact | FloatExprModel.v (DoubleValue::Modulus) with ExprModel.v (the visitor) and FloatModel.v (Math::Divide) | CIL and C++ evaluators of floating expressions in FloatExprSpec.v; FloatNarrowProofs.v: rounding a Double quotient of Singles to Single is Single division (a quotient is never close to a midpoint without being one); induction over expressions, integer parts by C76 | proved: Exactness, sign and size for all finite operands, all special cases, and Singles computed with Doubles. C fmod is external (given by its C17 specification with a rounding step that is proved to do nothing). |
| C111 | The text of an expression is divided by C++ into the tokens meant | LexModel.v: the characters of every expression form (blanks included) on top of FormatterModel.v | a longest-match C++ lexer in LexSpec.v; one lemma per kind of token about what may follow it, then induction over expressions and argument lists; uniqueness by monotonicity in the fuel | partial: Proved for every expression in which no number is directly followed by a period, for names that are words (AppendName keeps words words: C111_names) and strings without surrogates. Refuted without these: a number as receiver of '.' (5.Name is one preprocessing number) and the backing field of a static automatic property, whose name VisitLdsFlda writes with its angle brackets. Keywords as names are C55, the grammar is C59. |
| C112 | The text of a method's body is read by C++ as the statements meant | BodyTextModel.v: the characters of every statement form with the Formatter's flags (FormatterModel.v), on ControlModel.v | a recursive descent reader of C++11 statements on the lexemes of C111 in BodyTextSpec.v; readings are unique (monotone in the fuel) and compose; induction over instruction trees relates text, lexemes and ControlModel's statements | partial: Proved for every body whose blocks and branches do not end in a label, with statements of one line. Refuted without the first: a loop that is left, last in the branch of an if, puts its label directly before the closing brace, which C++11 (the CMake build's standard) rejects. Also proved: the text runs like the decompiled method under C77's hypotheses, label names stay distinct and defined, expressions (C111) are good pieces of statements, conditions and values. Missing: try statements, array initialisers, injected statements. |
| C113 | The text of the header is read by C++ as the classes meant | HeaderTextModel.v: the characters of the header (HeaderTypeVisitor.cs) on FormatterModel.v, with MemberModel.v's types and members | a recursive descent reader of C++ class definitions on the lexemes of C111 in HeaderTextSpec.v, independent of MemberModel's declarations; text and lexemes member by member, chunks between semicolons, balanced braces, namespaces as a state machine (HeaderReadProofs, HeaderMemberProofs, HeaderClassProofs, HeaderFileProofs) | partial: Proved for every list of types whose members are readable: values of class, struct, enum and array types, references to classes and structs, single-name fields or fields of value types, properties with both accessors, operators on structs. Refuted for the others: interface types are declared as objects, a reference to an enum is a reference to a pointer, only the first of several names is a pointer, a class operator returns an object, a property without setter gets one and one without getter stops the translation, static properties lose static, a static constructor suppresses a struct's default constructor, dotted namespaces and arrays by reference give text that is no C++. Missing: nested types, qualified and generic bases, names clashing in C++. |
| C114 | The text of the source file is read by C++ as the definitions of the members | SourceTextModel.v: the characters of the source file (CppVisitorBase.cs) from HeaderTextModel.v's heads and BodyTextModel.v's bodies | a recursive descent reader of C++ namespaces with definitions of functions and variables on the lexemes of C111 in SourceTextSpec.v, using BodyTextSpec's reader of statements; the text of one definition is text that may follow any other (state machine of blocks and namespaces: SourceWriteProofs, SourceReadProofs, SourceFileProofs); a bijection with the declarations meant by C113 | partial: Proved for every list of types whose members are definable: bodies of one block (C112), static constructors of straight code, base initialisers whose class is not named in lower case, single-name static fields of value or capitalised types, operators of the class's own type. C114_matches: what is defined is what C113's header declares, except constants. Refuted for the others: bodies of several blocks have two pairs of braces, 'this' initialisers name no class, operators of another result type are defined in that type, a static field of a type named in lower case has another type than the header's, the second of several names becomes a variable of the namespace, a constant is declared and never defined. Missing: nested types, static constructors with loops or exceptions. |
| C115 | The text of the prototypes is read by C++ as the declarations meant | ProtoTextModel.v: the characters of the prototypes (ProtoTypeVisitor.cs) with EnumModel.v's members, over the types of HeaderTextModel.v | a reader of C++ forward declarations and enums on the lexemes of C111 in ProtoTextSpec.v; the state machine of namespaces as for C113; C115_header relates whatever the two files are read as | partial: Proved for every list of types in undotted namespaces whose enum members have no initialiser or a literal within long long; C115_header relates whatever the two files are read as; C115_distinct_partial: enumerators are distinct if no enum's name has an underscore. Refuted for the others: the members A_F of T2 and A of F_T2 are one name, an initialiser naming another member names nothing, values beyond long long have no literal, dotted namespaces are no C++. Missing: nested types. |
| C116 | The generated source defines what the generated header declares | SourceTextModel.v and HeaderTextModel.v: the texts of the two files, for the same types | C113 and C114 give the unique readings of the texts; the needed and the given entities of one class agree member by member, and the order of the classes (structs first in the header) is a permutation | partial: Proved for all readings of the two texts (C116_linked_partial, a permutation of the declared and the defined entities). Missing: constants (declared and never defined: C116_constant_refuted), interfaces, nested types, and the inputs that C113 and C114 exclude. |
| C117 | Parameters are declared and defined with the same types and names | HeaderTextModel.v: WriteMethodHeader_text; SourceTextModel.v: WriteMethodHeader_source | a reader of function heads that keeps the names of parameters, on the lexemes of C111; the lists are read item by item (HeaderReadProofs.v) | proved: C117_declared: the head in the header; C117_defined: the head in the source, whenever they are written (the Formatter throws nothing: C117_example shows both written). C117_one_reading: no other reading. |

## Not modelled
* `CppTranslator`: project file handling, console messages, the decompiler's own transforms (except as
  said above for C101, C102); the generated
  `ValidTypes.cs` wrapper (its rows are the table of C58). Threads: neither half has any.
* `DotNetLibrary`: reading the OS clock (`DateTime.Now`, time zones) and the console, hexadecimal
  floating numerals (a parameter of C88), the transcendental functions, which are direct calls
  of the C library. `swprintf`/`swscanf` with `%G` are external and written from the C standard.
* Performance, memory exhaustion, and anything the C++ compiler does with undefined behaviour after it
  happened: a history stops at the first `UB`.

## Findings
Every `_refuted` theorem is a counterexample traced through the sources; the notes in the table above
and in MANIFEST.json say in words what goes wrong. The most serious ones: undefined behaviour on
ordinary inputs (C10, C12, C14, C24, C28, C33, C38, C43, C53, C68, C83, C86), silent wrong results (C11, C13,
C15, C18, C37, C48, C64, C105, C106), and wrong output of the translator (C54, C59, C61, C62, C70-C75, C77, C78, C89-C104, C107-C109, C111-C116).
