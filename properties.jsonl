{"id": "C01", "title": "Calendar date round trip", "statement": "Constructing a DateTime from any valid Gregorian year/month/day (years 1..9999) and reading Year, Month, Day and DayOfYear back returns exactly that date, and its Ticks lie in [MinValue.Ticks, MaxValue.Ticks].", "quantifier": "every valid year/month/day of the 9999-year calendar", "why_tests_cant": "3.65 million dates through two independent 400/100/4/1-year division cascades; tests sample a handful, off-by-one errors live at the cycle ends (day 365, 1460, 36524, 146096)", "anchors": ["DotNetLibrary/src/DateTimeValue.cpp: DateToTicks, GetDatePart, get_Year/get_Month/get_Day/get_DayOfYear", "DotNetLibrary/include/DateTimeValue.h: constants"]}
{"id": "C02", "title": "Tick decomposition is lossless", "statement": "For every tick count in the supported range, Year/Month/Day/Hour/Minute/Second/Millisecond each lie in their calendar range, and rebuilding a DateTime from those seven parts gives back the original instant truncated to the millisecond; Date plus TimeOfDay equals the instant.", "quantifier": "every Int64 tick count between MinValue and MaxValue", "why_tests_cant": "3.1e18 tick values cannot be enumerated", "anchors": ["DotNetLibrary/src/DateTimeValue.cpp: GetDatePart, get_Date, get_TimeOfDay, get_Hour, get_Minute, get_Second, get_Millisecond, DateTimeValue(Int32,...)"]}
{"id": "C03", "title": "Invalid dates and times are rejected", "statement": "The component constructor succeeds on exactly the valid dates and times (month 1..12, day 1..length of that month, hour 0..23, minute and second 0..59, millisecond 0..999) and throws ArgumentOutOfRange on every other combination.", "quantifier": "every 7-tuple of Int32 arguments", "why_tests_cant": "2^224 argument tuples", "anchors": ["DotNetLibrary/src/DateTimeValue.cpp: DateTimeValue(Int32 year,...), DateToTicks, TimePartsToTicks, TimeToTicks"]}
{"id": "C04", "title": "AddMonths clamps the day and never leaves the calendar", "statement": "AddMonths(m) yields the date whose year*12+month advanced by m, whose day is min(original day, length of target month) and whose time of day is unchanged; it throws exactly when |m|>120000 or the target year is outside 1..9999.", "quantifier": "every instant in range and every Int32 month count", "why_tests_cant": "product of 3.1e18 instants and 240001 month counts, plus negative-modulo arithmetic", "anchors": ["DotNetLibrary/src/DateTimeValue.cpp: AddMonths, AddYears, DaysInMonth"]}
{"id": "C05", "title": "Chronological order and weekdays", "statement": "DateTime order coincides with lexicographic (year, month, day, time) order, consecutive calendar days are exactly one day of ticks apart, and DayOfWeek advances by one modulo 7 per day with 0001-01-01 a Monday.", "quantifier": "every pair of valid dates", "why_tests_cant": "order on pairs of 3.65 million dates", "anchors": ["DotNetLibrary/src/DateTimeValue.cpp: Compare, get_DayOfWeek, operator<, operator=="]}
{"id": "C06", "title": "Leap year and month length agree with the Gregorian rule", "statement": "IsLeapYear and DaysInMonth return the Gregorian answer for every year 1..9999 and month 1..12 and throw ArgumentOutOfRange for every other argument.", "quantifier": "every Int32 year and month", "why_tests_cant": "2^64 argument pairs", "anchors": ["DotNetLibrary/src/DateTimeValue.cpp: IsLeapYear, DaysInMonth"]}
{"id": "C07", "title": "DateTime arithmetic stays in range and is invertible", "statement": "AddTicks/AddDays style addition of a span either throws ArgumentOutOfRange or returns the exact sum inside the supported range; subtracting the span again returns the original instant, and the difference of two instants added to the second gives the first.", "quantifier": "every instant in range and every Int64 span", "why_tests_cant": "Int64 overflow boundaries over 2^64 spans", "anchors": ["DotNetLibrary/src/DateTimeValue.cpp: AddTicks, AddDays, AddHours, Subtract, operator+, operator-"]}
{"id": "C08", "title": "Every constructible DateTime is inside MinValue..MaxValue", "statement": "No constructor accepts arguments that yield an instant outside MinValue..MaxValue.", "quantifier": "every constructor argument tuple", "why_tests_cant": "a single boundary tuple breaks it", "anchors": ["DotNetLibrary/src/DateTimeValue.cpp: DateTimeValue(Int32,...), DateTimeValue(Int64)"]}
{"id": "C09", "title": "TimeSpan components reconstruct the span", "statement": "For every span, Days, Hours, Minutes, Seconds, Milliseconds plus the sub-millisecond ticks reconstruct Ticks exactly, each component is in range and all carry the sign of the span; building a span from days/hours/minutes/seconds/milliseconds gives exactly the sum or throws.", "quantifier": "every Int64 tick count and every component tuple", "why_tests_cant": "2^64 spans; truncation direction on negative values", "anchors": ["DotNetLibrary/src/TimeSpanValue.cpp: get_Days..get_Milliseconds, TimeSpanValue ctors, TimeToTicks"]}
{"id": "C10", "title": "TimeSpan.Add is exact or throws", "statement": "TimeSpan.Add returns the exact sum when it fits in 64 bits and throws Overflow otherwise.", "quantifier": "every pair of Int64 spans", "why_tests_cant": "2^128 pairs", "anchors": ["DotNetLibrary/src/TimeSpanValue.cpp: Add"]}
{"id": "C11", "title": "TimeSpan.Subtract is exact or throws", "statement": "TimeSpan.Subtract returns the exact difference when it fits in 64 bits and throws Overflow otherwise.", "quantifier": "every pair of Int64 spans", "why_tests_cant": "2^128 pairs", "anchors": ["DotNetLibrary/src/TimeSpanValue.cpp: Subtract"]}
{"id": "C12", "title": "TimeSpan.Negate and Duration", "statement": "Negate returns the additive inverse and Duration the absolute value of every span except the minimum, for which they throw Overflow.", "quantifier": "every Int64 span", "why_tests_cant": "single bad values in 2^64", "anchors": ["DotNetLibrary/src/TimeSpanValue.cpp: Negate, Duration, MinValue, MaxValue"]}
{"id": "C13", "title": "TimeSpan text identifies the span", "statement": "Different time spans format to different text, and the fraction printed is the decimal fraction of a second that the span contains.", "quantifier": "every pair of Int64 spans", "why_tests_cant": "pairs of 2^64 values", "anchors": ["DotNetLibrary/src/TimeSpanValue.cpp: FormatString"]}
{"id": "C14", "title": "Integer text round trip", "statement": "Parse(ToString(v)) = v for every value of SByte, Byte, Int16, UInt16, Int32, UInt32, Int64 and UInt64.", "quantifier": "every value of the eight integer types", "why_tests_cant": "2^64 values, the failing ones are the extreme ones", "anchors": ["DotNetLibrary/src/UInt64Value.cpp: TryParseInternal", "DotNetLibrary/src/Int32Value.cpp, Int64Value.cpp, SByteValue.cpp, ByteValue.cpp, Int16Value.cpp, UInt16Value.cpp, UInt32Value.cpp: Parse, TryParse, FormatString"]}
{"id": "C15", "title": "Out-of-range integers are rejected", "statement": "Parse throws Overflow (and TryParse returns false) for every decimal text denoting an integer outside the target type.", "quantifier": "every decimal digit string with optional sign", "why_tests_cant": "unbounded set of digit strings", "anchors": ["DotNetLibrary/src/UInt64Value.cpp: TryParseInternal", "DotNetLibrary/src/*Value.cpp: Parse, TryParse"]}
{"id": "C16", "title": "Only integer text is accepted", "statement": "Parse accepts a text only if it is optional white space, an optional sign, at least one digit and optional white space; everything else is a Format error.", "quantifier": "every string", "why_tests_cant": "unbounded set of strings", "anchors": ["DotNetLibrary/src/UInt64Value.cpp: TryParseInternal"]}
{"id": "C17", "title": "CompareTo of narrow integers is a total order", "statement": "For Byte, SByte, Int16, UInt16 the sign of a.CompareTo(b) is the sign of a-b.", "quantifier": "every pair of values", "why_tests_cant": "pairs; small for bytes but the claim ranges over all four types and transitivity over triples", "anchors": ["DotNetLibrary/src/ByteValue.cpp, SByteValue.cpp, Int16Value.cpp, UInt16Value.cpp: CompareTo"]}
{"id": "C18", "title": "CompareTo of wide integers is a total order", "statement": "For Int32, UInt32, Int64 and UInt64 the sign of a.CompareTo(b) is the sign of a-b for every pair.", "quantifier": "every pair of 32/64-bit values", "why_tests_cant": "2^128 pairs", "anchors": ["DotNetLibrary/src/Int32Value.cpp, UInt32Value.cpp, Int64Value.cpp, UInt64Value.cpp: CompareTo"]}
{"id": "C19", "title": "Boolean text", "statement": "Boolean.Parse returns true exactly for case variants of True, false exactly for case variants of False and throws Format for everything else.", "quantifier": "every string", "why_tests_cant": "unbounded set of strings", "anchors": ["DotNetLibrary/src/BooleanValue.cpp: Parse, TryParse", "DotNetLibrary/src/StringDotNet.cpp: Compare"]}
{"id": "C20", "title": "Array index mapping is a bijection", "statement": "For every shape, multi-dimensional indexing maps in-range index tuples one-to-one onto the element positions 0..Length-1 in row-major order.", "quantifier": "every rank and every dimension vector, every index tuple", "why_tests_cant": "unbounded ranks and sizes", "anchors": ["DotNetLibrary/src/Array.cpp: ComputeIndex, InitializeData"]}
{"id": "C21", "title": "Array indexing never escapes the array", "statement": "Address/GetValue/SetValue with any index tuple either accesses an element inside the array or throws; a wrong number of indices or an index outside its dimension throws IndexOutOfRange.", "quantifier": "every array, every index tuple (including negative)", "why_tests_cant": "unbounded shapes and 2^32 indices each", "anchors": ["DotNetLibrary/src/Array.cpp: ComputeIndex, Address, GetValue, SetValue, GetSingleElementAddress"]}
{"id": "C22", "title": "Array store/load law", "statement": "After SetValue(v, i) the array returns the converted v at i, and every other element is unchanged, for every element type.", "quantifier": "every array, element type, value and index pair", "why_tests_cant": "all pairs of indices in all arrays", "anchors": ["DotNetLibrary/src/Array.cpp: GetValue, SetValue, DataTypeSize"]}
{"id": "C23", "title": "Array.Copy semantics", "statement": "Array.Copy between distinct arrays of the same type copies exactly the requested elements, leaves every other element alone and throws before writing when either range is out of bounds.", "quantifier": "every pair of arrays and every offset/length triple", "why_tests_cant": "unbounded sizes; all Int32 triples", "anchors": ["DotNetLibrary/src/Array.cpp: Copy, CopyTo"]}
{"id": "C24", "title": "Array.Clear stays inside the array", "statement": "Array.Clear(array, index, length) zeroes exactly the elements index..index+length-1 and throws IndexOutOfRange without touching memory for any range that is not inside the array.", "quantifier": "every array and every Int32 range", "why_tests_cant": "all ranges", "anchors": ["DotNetLibrary/src/Array.cpp: Clear, VerifyIndexWithinRangeOfArray"]}
{"id": "C25", "title": "Array.IndexOf finds the first match", "statement": "IndexOf(array, value, start, count) returns the smallest index in the window whose element equals the value and -1 (or lower bound minus one) iff there is none.", "quantifier": "every array, value and window", "why_tests_cant": "unbounded array contents", "anchors": ["DotNetLibrary/src/Array.cpp: IndexOf"]}
{"id": "C26", "title": "Array shape queries", "statement": "Length is the product of the dimensions; GetLength(d) returns dimension d and throws for every d that is not a dimension; GetUpperBound is GetLength-1 and GetLowerBound is 0.", "quantifier": "every shape and every Int32 dimension number", "why_tests_cant": "all Int32 arguments", "anchors": ["DotNetLibrary/src/Array.cpp: GetLength, GetLowerBound, GetUpperBound, InitializeData"]}
{"id": "C27", "title": "Buffer.BlockCopy copies bytes as if through a temporary", "statement": "BlockCopy moves exactly count bytes, also between overlapping ranges of the same array, changes no other byte, and throws when a range leaves its array.", "quantifier": "every pair of arrays, offsets and counts", "why_tests_cant": "overlap geometries are unbounded", "anchors": ["DotNetLibrary/src/Buffer.cpp: BlockCopy, ByteLength"]}
{"id": "C28", "title": "Buffer byte access is bounds checked", "statement": "GetByte/SetByte access byte index of the array iff 0 <= index < ByteLength and throw ArgumentOutOfRange otherwise.", "quantifier": "every array and every Int32 index", "why_tests_cant": "all Int32 indices", "anchors": ["DotNetLibrary/src/Buffer.cpp: GetByte, SetByte"]}
{"id": "C29", "title": "BitConverter round trip", "statement": "ToX(GetBytes(v)) = v for every value and every numeric type, at every offset of a larger byte array, with the bytes little-endian.", "quantifier": "every value of every type and every offset", "why_tests_cant": "2^64 values times offsets", "anchors": ["DotNetLibrary/src/BitConverter.cpp: GetBytes, PutBytes, ToInt16..ToUInt64, ToChar"]}
{"id": "C30", "title": "BitConverter.ToString is a faithful hex dump", "statement": "The text is two upper-case hex digits per byte joined with '-', decodes back to the bytes and always fits the buffer reserved for it.", "quantifier": "every byte array and sub-range", "why_tests_cant": "unbounded arrays", "anchors": ["DotNetLibrary/src/BitConverter.cpp: ToString", "DotNetLibrary/src/StringBuilder.cpp: Append"]}
{"id": "C31", "title": "Substring, Insert, Remove and Concat algebra", "statement": "For every in-range position the results of Substring, Insert, Remove and Concat are exactly the corresponding character sequences; out-of-range positions throw and never read outside the string.", "quantifier": "every string and every Int32 position/length", "why_tests_cant": "unbounded strings; all Int32 arguments", "anchors": ["DotNetLibrary/src/StringDotNet.cpp: Substring, Insert, Remove, Concat"]}
{"id": "C32", "title": "IndexOf/LastIndexOf of a character", "statement": "IndexOf(c, start, count) returns the least index in the window holding c, LastIndexOf the greatest, and -1 iff there is none; windows outside the string throw.", "quantifier": "every string, character and Int32 window", "why_tests_cant": "unbounded strings", "anchors": ["DotNetLibrary/src/StringDotNet.cpp: IndexOf, LastIndexOf, IndexOfAny, LastIndexOfAny"]}
{"id": "C33", "title": "IndexOf of a string", "statement": "IndexOf(sub) returns the least index at which sub occurs and -1 iff it does not occur.", "quantifier": "every pair of strings", "why_tests_cant": "pairs of unbounded strings", "anchors": ["DotNetLibrary/src/StringDotNet.cpp: IndexOf(String*,Int32,Int32), Contains"]}
{"id": "C34", "title": "Trim removes exactly the surrounding trim characters", "statement": "Trim/TrimStart/TrimEnd return the unique substring obtained by dropping the maximal prefix/suffix of trim characters and are idempotent.", "quantifier": "every string and every trim set", "why_tests_cant": "unbounded strings; all-trimmed and empty strings", "anchors": ["DotNetLibrary/src/StringDotNet.cpp: Trim, TrimStart, TrimEnd"]}
{"id": "C35", "title": "Padding", "statement": "PadLeft/PadRight return a string of length max(Length, width) that is the original with only pad characters added on the named side; a negative width throws.", "quantifier": "every string, width and pad character", "why_tests_cant": "unbounded", "anchors": ["DotNetLibrary/src/StringDotNet.cpp: PadLeft, PadRight"]}
{"id": "C36", "title": "String equality is character equality", "statement": "Equals/operator== hold iff both strings have the same characters; operator!= is its negation.", "quantifier": "every pair of strings, including ones with embedded NUL", "why_tests_cant": "pairs of unbounded strings", "anchors": ["DotNetLibrary/src/StringDotNet.cpp: Equals, op_Equality, op_Inequality"]}
{"id": "C37", "title": "String.Compare is a total order", "statement": "Compare is antisymmetric, zero only for equal strings and transitive.", "quantifier": "every pair/triple of strings", "why_tests_cant": "triples of unbounded strings", "anchors": ["DotNetLibrary/src/StringDotNet.cpp: Compare, CompareOrdinal, CompareTo"]}
{"id": "C38", "title": "StartsWith/EndsWith", "statement": "StartsWith(p) holds iff the string has p as prefix and EndsWith(p) iff it has p as suffix, without reading outside either string.", "quantifier": "every pair of strings", "why_tests_cant": "pairs of unbounded strings", "anchors": ["DotNetLibrary/src/StringDotNet.cpp: StartsWith, EndsWith"]}
{"id": "C39", "title": "Replace replaces every non-overlapping occurrence", "statement": "Replace(old,new) equals the left-to-right non-overlapping substitution; characters outside occurrences are kept in order; Replace of a character maps exactly that character.", "quantifier": "every string and old/new pair", "why_tests_cant": "unbounded strings", "anchors": ["DotNetLibrary/src/StringDotNet.cpp: Replace", "DotNetLibrary/src/StringBuilder.cpp: Replace, CountSubStrings, ReplaceSubString"]}
{"id": "C40", "title": "Join", "statement": "Join(separator, values) is the values in order with the separator between neighbours, and never overruns the builder's buffer.", "quantifier": "every list of strings and separator", "why_tests_cant": "unbounded lists", "anchors": ["DotNetLibrary/src/StringDotNet.cpp: Join"]}
{"id": "C41", "title": "Search and case functions terminate on every input", "statement": "Contains/IndexOf/Replace return for every pair of strings, including empty ones.", "quantifier": "every pair of strings", "why_tests_cant": "non-termination cannot be observed by a finite test", "anchors": ["DotNetLibrary/src/StringDotNet.cpp: Contains, IndexOf", "DotNetLibrary/src/StringBuilder.cpp: CountSubStrings, Replace"]}
{"id": "C42", "title": "StringBuilder behaves like a character list under every history", "statement": "After any sequence of Append/Insert/Remove/Clear/set_Chars/Replace/EnsureCapacity operations ToString returns what the same operations give on a plain list of characters.", "quantifier": "every finite history of operations", "why_tests_cant": "unbounded histories", "anchors": ["DotNetLibrary/src/StringBuilder.cpp: Append, Insert, Remove, Clear, set_Chars, Replace, EnsureCapacity, ToString"]}
{"id": "C43", "title": "StringBuilder never overruns its buffer", "statement": "After any history 0 <= Length <= Capacity <= MaxCapacity, and no operation writes outside the buffer.", "quantifier": "every finite history of operations", "why_tests_cant": "unbounded histories; the failing schedule depends on the accumulated length", "anchors": ["DotNetLibrary/src/StringBuilder.cpp: EnsureRoomFor, EnsureCapacity, set_Capacity, Append(Char,Int32)"]}
{"id": "C44", "title": "StringBuilder.Length assignment", "statement": "Setting Length to n truncates or extends with NUL characters, keeping the first min(n, Length) characters.", "quantifier": "every builder state and Int32 n", "why_tests_cant": "depends on previously erased contents", "anchors": ["DotNetLibrary/src/StringBuilder.cpp: set_Length"]}
{"id": "C45", "title": "StringBuilder equality is content equality", "statement": "Equals is true iff both builders hold the same characters.", "quantifier": "every pair of builders", "why_tests_cant": "pairs of histories", "anchors": ["DotNetLibrary/src/StringBuilder.cpp: Equals"]}
{"id": "C46", "title": "CharEnumerator enumerates exactly the string", "statement": "MoveNext/Current walk the characters in order, exactly Length of them, MoveNext stays false at the end until Reset, and Current outside the sequence throws.", "quantifier": "every string and every MoveNext/Current/Reset history", "why_tests_cant": "unbounded histories", "anchors": ["DotNetLibrary/src/CharEnumerator.cpp: MoveNext, Reset, get_Current"]}
{"id": "C47", "title": "Integer Abs, Sign, Max, Min, Clamp", "statement": "Abs, Sign, Max, Min and Clamp return the mathematical result for every argument of their integer type.", "quantifier": "every argument tuple of each integer type", "why_tests_cant": "2^64 and more", "anchors": ["DotNetLibrary/src/DotNetMath.cpp: Abs, Sign, Max, Min, Clamp"]}
{"id": "C48", "title": "DivRem and BigMul", "statement": "DivRem(a,b) returns quotient and remainder with a = q*b + r, |r|<|b| and r carrying the sign of a; BigMul is the exact product.", "quantifier": "every pair of integers, b not 0", "why_tests_cant": "2^128 pairs", "anchors": ["DotNetLibrary/src/DotNetMath.cpp: DivRem, BigMul, Divide"]}
{"id": "C49", "title": "Math.Round rounds to the nearest integer, ties to even", "statement": "For every finite double Round returns the nearest integer, the even one on ties; NaN and infinities are returned unchanged.", "quantifier": "every 64-bit floating-point value", "why_tests_cant": "2^64 bit patterns", "anchors": ["DotNetLibrary/src/DotNetMath.cpp: Round(Double)"]}
{"id": "C50", "title": "BitIncrement/BitDecrement give the neighbouring double", "statement": "BitIncrement returns the least double greater than x and BitDecrement the greatest double less than x, and they are inverse to each other.", "quantifier": "every double", "why_tests_cant": "2^64 bit patterns, including zeros, infinities and NaN", "anchors": ["DotNetLibrary/src/DotNetMath.cpp: BitIncrement, BitDecrement"]}
{"id": "C51", "title": "CopySign, IsNaN, IsInfinity, IsNegative, IsNormal, IsSubnormal classify bits correctly", "statement": "The classification predicates partition all bit patterns and CopySign takes magnitude from the first and sign from the second argument.", "quantifier": "every 64-bit and 32-bit pattern", "why_tests_cant": "2^128 pairs", "anchors": ["DotNetLibrary/src/DoubleValue.cpp, SingleValue.cpp: Is*", "DotNetLibrary/src/DotNetMath.cpp: CopySign"]}
{"id": "C52", "title": "Arena allocation hands out disjoint aligned zeroed blocks", "statement": "In arena mode, over every allocation history, returned blocks are 8-aligned, zero-filled, inside the arena and pairwise disjoint, and exhaustion is reported.", "quantifier": "every finite sequence of allocation sizes", "why_tests_cant": "unbounded histories", "anchors": ["PlatformSupport/PlatformSupport.cpp: PlatformAllocateMemory, Align", "PlatformSupport/PlatformSupport.h"]}
{"id": "C53", "title": "Oversized allocation requests are refused", "statement": "A request larger than the remaining arena never succeeds.", "quantifier": "every size_t request in every arena state", "why_tests_cant": "2^64 sizes", "anchors": ["PlatformSupport/PlatformSupport.cpp: PlatformAllocateMemory"]}
{"id": "C54", "title": "String and character literals survive translation", "statement": "The emitted literal, read back by the C++ lexer, denotes exactly the original characters.", "quantifier": "every UTF-16 string", "why_tests_cant": "unbounded strings; every code unit in every context", "anchors": ["CppTranslator/Formatter.cs: AppendStringsWithControl, AppendCharWithControls"]}
{"id": "C55", "title": "Name mangling is injective and avoids C++ keywords", "statement": "Distinct source names are emitted as distinct C++ identifiers and no emitted name is a C++ keyword except this and void.", "quantifier": "every identifier pair", "why_tests_cant": "unbounded identifiers", "anchors": ["CppTranslator/Formatter.cs: PrefixName, AppendName"]}
{"id": "C56", "title": "Emitted braces and namespaces are balanced", "statement": "After any sequence of formatter calls that opens and closes blocks in nested fashion, every opening brace emitted is closed and each SetNamespace closes the previous namespace.", "quantifier": "every sequence of formatter operations", "why_tests_cant": "unbounded operation sequences", "anchors": ["CppTranslator/Formatter.cs: SetNamespace, AddOpenBrace, AddCloseBrace, Close"]}
{"id": "C57", "title": "Indentation never aborts translation", "statement": "Indentation matches the current nesting depth for every nesting depth.", "quantifier": "every nesting depth", "why_tests_cant": "unbounded depth", "anchors": ["CppTranslator/Formatter.cs: Indent, Newline"]}
{"id": "C58", "title": "Every illegal type is reported exactly once", "statement": "Over any translation run, every referenced type in the System namespace that the runtime library does not support is reported exactly once, and no other type is reported.", "quantifier": "every sequence of referenced type names", "why_tests_cant": "unbounded sequences", "anchors": ["CppTranslator/CppTypeVisitor.cs: ValidateType, IllegalType", "CppTranslator/ValidTypes.cs"]}
{"id": "C59", "title": "Emitted expressions keep the tree structure", "statement": "The printed arithmetic/comparison expression, parsed with C++ precedence, has the operator tree of the source expression.", "quantifier": "every expression tree", "why_tests_cant": "unbounded trees and precedence interactions", "anchors": ["CppTranslator/MyIlInstructionVisitor.cs: VisitBinaryNumericInstruction, Comp, Conv, NumericCompoundAssign"]}
{"id": "C60", "title": "Increment shorthand preserves meaning", "statement": "A compound assignment is emitted as ++/-- only when the right operand is the constant 1.", "quantifier": "every constant operand of every type", "why_tests_cant": "all constants of all types", "anchors": ["CppTranslator/MyIlInstructionVisitor.cs: NumericCompoundAssign, HandleIncrementAndDecrement, IsConstant, GetAsIntConstant"]}
{"id": "C61", "title": "Switch translation keeps every case", "statement": "For every switch value the emitted C++ switch selects the same section as the source switch.", "quantifier": "every set of sections with any number of labels", "why_tests_cant": "unbounded switches", "anchors": ["CppTranslator/MyIlInstructionVisitor.cs: FormatSwitchCases"]}
{"id": "C62", "title": "Generated labels are unique", "statement": "Within one method every block receives a label different from all others and every leave targets the label of its block.", "quantifier": "every nesting of blocks", "why_tests_cant": "unbounded nesting", "anchors": ["CppTranslator/MyIlInstructionVisitor.cs: leaveBlock handling"]}
{"id": "C63", "title": "Boxed numeric conversions", "statement": "Converting a boxed number with AsX gives the C conversion of its value to X; boxing then unboxing to the same type is the identity.", "quantifier": "every value of every type pair", "why_tests_cant": "2^64 values x 10 x 10 type pairs", "anchors": ["DotNetLibrary/src/*Value.cpp: get_AsX, constructors"]}
{"id": "C64", "title": "TimeSpan text round trip", "statement": "TryParse of the text of a span gives the span back, and TryParse of any text never touches memory outside its local table.", "quantifier": "every Int64 span; every string", "why_tests_cant": "2^64 spans, unbounded strings", "anchors": ["DotNetLibrary/src/TimeSpanValue.cpp: FormatString, TryParse"]}
{"id": "C65", "title": "Comparing boxed values", "statement": "CompareTo of a boxed value with null returns 1 and with a box of another class throws ArgumentException; Equals is true iff class and value agree and never fails, also for null.", "quantifier": "every pair of boxed values, and null", "why_tests_cant": "2^64 values of 17 classes on each side", "anchors": ["DotNetLibrary/src/BooleanValue.cpp: CompareTo, Equals", "DotNetLibrary/src/Int32Value.cpp: CompareTo, Equals", "DotNetLibrary/src/CharValue.cpp"]}
{"id": "C66", "title": "String case mapping, character arrays, repetition and emptiness tests", "statement": "ToLower/ToUpper map every character and keep the length; ToCharArray, CopyTo and the String(array) constructor transfer exactly the selected characters or throw; new String(c,n) is n copies; IsNullOrEmpty/IsNullOrWhiteSpace answer what their names say; a string survives ToCharArray followed by the constructor.", "quantifier": "all strings, arrays, windows, locales", "why_tests_cant": "the values range over all strings and windows", "anchors": ["DotNetLibrary/src/StringDotNet.cpp: String::ToLower, ToUpper, ToCharArray, CopyTo, IsNullOrWhiteSpace, String(Array*), String(Char,Int32)"]}
{"id": "C67", "title": "Char text and indexed predicates", "statement": "Char.Parse(c.ToString()) is c; Parse/TryParse accept exactly one-character texts; Char.IsX(s,i) equals Char.IsX(s[i]) and throws ArgumentOutOfRange when i is outside s; GetNumericValue and CompareTo follow the character number.", "quantifier": "all characters, strings and indices", "why_tests_cant": "all characters and all indices of all strings", "anchors": ["DotNetLibrary/src/CharValue.cpp"]}
{"id": "C68", "title": "FormatString stays inside the caller's buffer", "statement": "FormatString(where,size) writes the text and a terminator inside the size characters it was given and returns the number of characters written, or throws.", "quantifier": "all texts, buffers and sizes", "why_tests_cant": "the off-by-one sizes are exactly the ones a test misses; must hold for every length", "anchors": ["DotNetLibrary/src/StringDotNet.cpp: CopyChars, String::FormatString", "DotNetLibrary/src/StringBuilder.cpp: FormatString", "DotNetLibrary/src/BooleanValue.cpp: FormatString", "DotNetLibrary/src/Object.cpp: ToString, FormatString"]}
{"id": "C69", "title": "Types are defined before they are needed", "statement": "In the generated header every struct and class is defined exactly once, after its base types and after the struct types of its fields.", "quantifier": "every set of types in every order", "why_tests_cant": "the order of the types in an assembly is arbitrary; the failing orders need three levels of inheritance", "anchors": ["CppTranslator/HeaderTypeVisitor.cs: VisitTypeDeclaration, IsParentOf, CreateHeaders"]}
{"id": "C70", "title": "Enumerators are unique", "statement": "Different members of the same or of different enums of a namespace are emitted as different C++ enumerators.", "quantifier": "every pair of enum members", "why_tests_cant": "unbounded names; the clash needs underscores in the right places", "anchors": ["CppTranslator/ProtoTypeVisitor.cs: VisitEnumMemberDeclaration"]}
{"id": "C71", "title": "Declarations and uses agree on names", "statement": "A method, class, property or field is called, created or accessed under exactly the C++ name it is declared with.", "quantifier": "every name", "why_tests_cant": "unbounded names; the library's own tests only use names starting with a capital", "anchors": ["CppTranslator/CppTypeVisitor.cs: FormatMethodAccessType", "CppTranslator/MyIlInstructionVisitor.cs: VisitNewObj, VisitLdFlda", "CppTranslator/HeaderTypeVisitor.cs: WriteMethodHeader, VisitPropertyDeclaration"]}
{"id": "C72", "title": "Namespace names are C++ identifiers", "statement": "Each namespace is emitted under a C++ identifier of its own.", "quantifier": "every namespace name", "why_tests_cant": "unbounded names", "anchors": ["CppTranslator/Formatter.cs: NameSpace"]}
{"id": "C73", "title": "No statement is lost", "statement": "Every statement of a method body appears exactly once, and in order, in the emitted C++ body.", "quantifier": "every method body: any nesting of blocks, containers, try statements", "why_tests_cant": "unbounded nesting", "anchors": ["CppTranslator/MyIlInstructionVisitor.cs: VisitBlockContainer, WriteBlock, VisitTryCatch, VisitTryFinally"]}
{"id": "C74", "title": "Static constructors end in the injected return", "statement": "Translating a static constructor writes the injected return statement at the end of its body, whatever the body contains.", "quantifier": "every static constructor body", "why_tests_cant": "unbounded bodies", "anchors": ["CppTranslator/MyIlInstructionVisitor.cs: StartMainBlock, VisitBlockContainer, WriteBlock"]}
{"id": "C75", "title": "If statements test their condition", "statement": "The condition of an emitted if statement is the condition of the source statement, for every condition.", "quantifier": "every condition expression", "why_tests_cant": "all conditions, including nested && and ||", "anchors": ["CppTranslator/MyIlInstructionVisitor.cs: VisitIfInstruction, BuildCondition"]}
{"id": "C76", "title": "Integer expressions keep their value", "statement": "For integer locals, constants, + - * / % & | ^ << >>, comparisons, conversions and ~, at 32 and 64 bits: the C++ expression the translator writes evaluates to the number the .NET expression has (modulo 2^width of the evaluation stack) or throws the same exception; in particular a variable assigned from it holds the same number and a condition has the same truth value.", "quantifier": "all integer expressions of any depth, all integer types of locals, all values of the locals", "why_tests_cant": "unit tests compare a handful of outputs on compilers where signed overflow happens to wrap; sign, width and overflow errors need particular combinations of types and values", "anchors": ["CppTranslator/MyIlInstructionVisitor.cs: VisitBinaryNumericInstruction, VisitComp, VisitConv, VisitLdcI4, VisitLdcI8, VisitBitNot", "DotNetLibrary/src/DotNetMath.cpp: Divide"]}
{"id": "C77", "title": "Control flow is preserved", "statement": "The C++ function written for a method performs, for every outcome of the conditions and switch values, the same statements, tests and returns in the same order as the method's IL tree: blocks, loops, branches, leaves, if and switch statements; its labels are unique and every goto has one.", "quantifier": "every method body (any nesting of containers and blocks) and every finite execution prefix", "why_tests_cant": "executions are unbounded and the tree shapes are unbounded; a test compiles and runs a few methods", "anchors": ["CppTranslator/MyIlInstructionVisitor.cs: VisitBlockContainer, WriteBlock, AddLabelIfNeeded, VisitBranch, VisitLeave, VisitIfInstruction, VisitSwitchInstruction"]}
{"id": "C78", "title": "Every local is declared where it is used", "statement": "Each local variable of a method is declared exactly once in the output, in a scope that encloses all its uses; parameters and catch variables are not declared again.", "quantifier": "every method body and every set of parameters", "why_tests_cant": "depends on how uses are distributed over arbitrarily many blocks", "anchors": ["CppTranslator/MyIlInstructionVisitor.cs: DeclareLocalVariables, CheckVariableAddition, DeclareVariableIfNeeded, InitilizeLocalVariableNames, WriteBlock"]}
{"id": "C79", "title": "Time spans are ordered by their length", "statement": "TimeSpan.Compare, CompareTo, Equals and the operators == != < <= > >= agree with the order of the tick counts, and adding a span, negating and taking the day count respect that order.", "quantifier": "all pairs and triples of time spans", "why_tests_cant": "2^128 pairs of tick counts; a comparison by a truncated difference is wrong only for far apart values", "anchors": ["DotNetLibrary/src/TimeSpanValue.cpp: Compare, Equals, op_LessThan, Add, Negate"]}
{"id": "C80", "title": "TimeSpan.FromDays ... FromMilliseconds", "statement": "A NaN is refused with ArgumentException, a number of units whose tick count is outside the range of TimeSpan overflows, and every other number gives the integral part of the product rounded to a Double: exact for whole units up to 2^53 ticks, monotone, and within one tick and a relative error of 2^-53 otherwise.", "quantifier": "all Double values, all five units", "why_tests_cant": "2^64 arguments with rounding and range boundaries", "anchors": ["DotNetLibrary/src/TimeSpanValue.cpp: FromDays, FromHours, FromMinutes, FromSeconds, FromMilliseconds, Interval"]}
{"id": "C81", "title": "TimeSpan multiplied or divided by a number", "statement": "Multiply and Divide give the span whose tick count is the product (quotient) in Double arithmetic rounded to the nearest integer; NaN is refused, results out of range and division by zero overflow; whole factors and exact quotients of spans of up to 2^53 ticks are exact.", "quantifier": "all spans and all Double values", "why_tests_cant": "2^128 argument pairs; range test at 2^63 after two roundings", "anchors": ["DotNetLibrary/src/TimeSpanValue.cpp: Multiply, Divide"]}
{"id": "C82", "title": "TimeSpan totals", "statement": "TotalDays ... TotalMilliseconds and the quotient of two spans are the nearest Double to the exact ratio for spans of up to 2^53 ticks; totals are monotone and TotalMilliseconds stays in its documented range.", "quantifier": "all spans, all five units", "why_tests_cant": "every tick count and rounding boundary", "anchors": ["DotNetLibrary/src/TimeSpanValue.cpp: get_TotalDays, get_TotalHours, get_TotalMilliseconds, get_TotalMinutes, get_TotalSeconds, Divide"]}
{"id": "C83", "title": "DateTime.AddDays ... AddMilliseconds with fractions", "statement": "The date moves by the given number of units rounded to milliseconds; whole units move it exactly; a result outside years 1-9999 or an argument beyond the range throws ArgumentOutOfRangeException; larger arguments never give earlier dates.", "quantifier": "all dates and all Double values", "why_tests_cant": "2^64 arguments times all dates; rounding just below half a millisecond", "anchors": ["DotNetLibrary/src/DateTimeValue.cpp: Add, AddDays, AddHours, AddMinutes, AddSeconds, AddMilliseconds"]}
{"id": "C84", "title": "Math.Round with digits and mode", "statement": "Digits outside 0..15 and unknown modes are refused; NaN and numbers from 1e16 are returned unchanged; otherwise the number times 10^digits is rounded to an integer as the mode says (to even, away from zero, to zero, down, up) and divided back with one rounding each.  With no digits the result is exactly that integer; rounding is monotone; numbers with at most 15 significant digits that already have the digits are kept by the nearest modes.", "quantifier": "all Double values, all digits, all modes", "why_tests_cant": "2^64 values x 16 x 5; wrong results appear only at particular bit patterns", "anchors": ["DotNetLibrary/src/DotNetMath.cpp: Round"]}
{"id": "C85", "title": "Floating division and multiply-add", "statement": "Math.Divide on Doubles, which the translator writes for every floating division, is the IEEE quotient, including infinities, NaN and signed zeros; FusedMultiplyAdd rounds x*y+z once.", "quantifier": "all pairs (triples) of Double values", "why_tests_cant": "special values and single-rounding errors need particular bit patterns", "anchors": ["DotNetLibrary/src/DotNetMath.cpp: Divide, FusedMultiplyAdd", "CppTranslator/MyIlInstructionVisitor.cs: HandleDivideByZero"]}
{"id": "C86", "title": "Index arrays and array initialisers", "statement": "GetValue and SetValue with an Int32 array of one to three indexes act exactly as with the indexes given one by one and touch no other array; a missing, multidimensional, empty or too long index array is refused.  Initialising an array from a block of constants gives every element, in order, its bytes of the block and keeps the shape.", "quantifier": "every array, element type, index array, value and constant block", "why_tests_cant": "every combination of shapes, index arrays and blocks has to be covered, and the missing bounds check on the block only shows as memory corruption", "anchors": ["DotNetLibrary/src/Array.cpp: GetValue, SetValue, Initialize"]}
{"id": "C87", "title": "Text of Double and Single", "statement": "ToString gives a numeral that stands for the nearest decimal number of six significant digits (NAN, INF and -INF for the others), and Parse and TryParse give the same number back exactly if the number is the nearest one to a decimal number of at most six digits; infinities come back, a NaN comes back as a NaN.", "quantifier": "every Double and every Single", "why_tests_cant": "2^64 + 2^32 bit patterns; the digits are wrong only at particular patterns", "anchors": ["DotNetLibrary/src/DoubleValue.cpp: FormatString, ToString, Parse, TryParse", "DotNetLibrary/src/SingleValue.cpp: FormatString, Parse, TryParse"]}
{"id": "C88", "title": "Double and Single Parse and TryParse", "statement": "Text made of white space, an optional sign, digits with an optional point and an optional exponent is read as the nearest number, with the sign of the text; any other text is refused: Parse throws, TryParse gives false.", "quantifier": "every text", "why_tests_cant": "unboundedly many texts, and every rounding boundary between neighbouring numbers", "anchors": ["DotNetLibrary/src/DoubleValue.cpp: Parse, TryParse, TryParseInternal", "DotNetLibrary/src/SingleValue.cpp: Parse, TryParse, TryParseInternal"]}
{"id": "C89", "title": "Declarations and definitions of members agree", "statement": "Every function, accessor, operator, constructor and static variable the header of a translated class declares and does not declare pure is defined exactly once in the source file, in that class, with the same name, parameter types and type and with the body of the C# member it stands for, and nothing else is defined; a method is declared static, virtual or pure exactly if C# says so; a struct can be created without arguments; overloads stay different functions.", "quantifier": "every class or struct and every list of members", "why_tests_cant": "the number of combinations of member kinds, modifiers, parameter lists and accessors is unbounded, and a mismatch only shows when the translated program is linked", "anchors": ["CppTranslator/HeaderTypeVisitor.cs: VisitTypeDeclaration, VisitMethodDeclaration, VisitPropertyDeclaration, VisitFieldDeclaration, VisitOperatorDeclaration", "CppTranslator/CppVisitorBase.cs: VisitMethodDeclaration, VisitPropertyDeclaration, VisitConstructorDeclaration, VisitFieldDeclaration, VisitOperatorDeclaration", "CppTranslator/CppTypeVisitor.cs: FormatTypeDelaration, FormatType, IsPointerType"]}
{"id": "C90", "title": "Calls reach the same class's member", "statement": "A call of a method or of a property accessor on an object runs, in the translated program, the function of the same class of the inheritance chain as in C#.", "quantifier": "every chain of classes, every expression class and object class, every name and parameter list", "why_tests_cant": "chains of any length with every pattern of virtual, override, new and overloaded members", "anchors": ["CppTranslator/HeaderTypeVisitor.cs: VisitMethodDeclaration, VisitPropertyDeclaration", "CppTranslator/CppVisitorBase.cs: WriteModifiers"]}
{"id": "C91", "title": "Arguments of base constructors", "statement": "A constructor's initialiser passes to the base class's constructor, or to the other constructor of its class, the values C# passes: one per parameter, in the order of the parameters.", "quantifier": "every argument list and every parameter list", "why_tests_cant": "every list of argument expressions, named or not", "anchors": ["CppTranslator/CppVisitorBase.cs: VisitConstructorInitializer, WriteCommaSeparatedList, VisitNamedArgumentExpression, VisitPrimitiveExpression"]}
{"id": "C92", "title": "Returned values keep their type", "statement": "The cast the translator writes around a returned value is to the type of the value or to the return type of the function that returns it, so that no value is cut or reinterpreted.", "quantifier": "every program: every sequence of methods, accessors, operators and constructors with any returned values", "why_tests_cant": "depends on the whole history of functions translated before, not on the function alone", "anchors": ["CppTranslator/MyIlInstructionVisitor.cs: VisitLeave", "CppTranslator/CppTypeVisitor.cs: GetTypeForInstruction", "CppTranslator/CppVisitorBase.cs: VisitMethodDeclaration, VisitPropertyDeclaration, VisitOperatorDeclaration"]}
{"id": "C93", "title": "Floating constants keep their value and type", "statement": "A Double or Single constant of the C# program becomes a C++ expression of the same type and value: the same number, infinity or minus zero, a NaN for a NaN.", "quantifier": "every Double and every Single bit pattern, and every runtime whose ToString reads back", "why_tests_cant": "2^64 + 2^32 constants; the failures are single bit patterns and texts that happen to be keys of the table of named constants", "anchors": ["CppTranslator/MyIlInstructionVisitor.cs: VisitLdcF4, VisitLdcF8, ConvertConstants, constantConversions", "DotNetLibrary/src/DoubleValue.cpp: MaxValue, MinValue, Epsilon", "DotNetLibrary/src/SingleValue.cpp: MaxValue, MinValue, Epsilon"]}
{"id": "C94", "title": "Array initialisers", "statement": "An assignment of an array with initialisers (new T[] { e0, e1, ... }) leaves the same state, in C++ as in C#: the target refers to a new array with the given elements, and no other array changes.", "quantifier": "every list of assignments, with any number of elements and any element expressions without side effects, and every state", "why_tests_cant": "any number of initialisers share one table of names; the failures need targets, scopes and aliases to meet", "anchors": ["CppTranslator/MyIlInstructionVisitor.cs: VisitLdLoc, VisitStLoc, VisitStObj, InitializeElementsOfArray, AddTranslatedName, VisitBlock"]}
{"id": "C95", "title": "Order of evaluation", "statement": "The operands of operators, calls and assignments of a translated expression are evaluated once each, and with the effects and results of C#'s order, from left to right, whatever order the C++ compiler chooses.", "quantifier": "every expression, every meaning of its nodes, every state and every order the C++ standard allows", "why_tests_cant": "the C++ order is unspecified: a test sees one compiler's choice, and the evaluations interleave", "anchors": ["CppTranslator/MyIlInstructionVisitor.cs: VisitBinaryNumericInstruction, AddCallParameters, FormatCall, VisitStObj, VisitNumericCompoundAssign, VisitUserDefinedCompoundAssign"]}
{"id": "C96", "title": "Arguments passed by value and by reference", "statement": "A call of a translated method with value, ref, in, out and params parameters is accepted by the C++ compiler and leaves the variables of the caller as in C#.", "quantifier": "every list of parameters of any types, every arguments (aliased or not) and every body of assignments", "why_tests_cant": "any number of parameters and any aliasing between arguments and statics", "anchors": ["CppTranslator/MyIlInstructionVisitor.cs: AddCallParameters, VisitLdLoca, VisitLdObj, VisitStObj, FormatCallInstance, IsPrimative, DeclareVariableIfNeeded", "CppTranslator/CppVisitorBase.cs: VisitParameterDeclaration, AddParameterModifiers", "CppTranslator/CppTypeVisitor.cs: FormatTypeDelaration, IsPointerType"]}
{"id": "C97", "title": "Concatenation of strings yields the concatenated text", "statement": "The C++ text written for a concatenation of string variables, literals, null and nested concatenations, read as C++, is a call whose arguments are the operands in order, and evaluates to the text C# yields: the operands' texts one after the other, null counting as the empty text.", "quantifier": "every nesting of concatenations, every literal, every variable name and value", "why_tests_cant": "literals may contain commas, quotes and parentheses, nestings are unbounded and the number of operands and the place of a null operand decide the result", "anchors": ["CppTranslator/MyIlInstructionVisitor.cs: HandleStringConcat, HandleConcatBlock, HandleStringImplicit, VisitLdStr, VisitLdLoc, VisitLdNull", "DotNetLibrary/src/StringDotNet.cpp: String::Concat", "DotNetLibrary/include/StringDotNet.h: String::Concat"]}
{"id": "C98", "title": "A run leaves the files of one translation", "statement": "A successful run leaves exactly the three output files of the translated program, in the directory generated beside it, with texts that depend only on the program, not on files or runs before; a failed run is reported in the log and leaves the output of one translation, old or new, not a mixture; the log reports the problems of the last run; runs for different programs do not disturb each other.", "quantifier": "every program, every sequence of runs, every point at which a run fails", "why_tests_cant": "the state of the disk after a failure depends on the pass and type at which it happens and on all runs before", "anchors": ["CppTranslator/Program.cs: Main, GetPathToAssembly, ProcessModules", "CppTranslator/Formatter.cs: OutputName, NewOutputFile, Flush, Close", "CppTranslator/CppTraceListener.cs: AddListener, WriteLine"]}
{"id": "C99", "title": "Types in the header and their bases", "statement": "For every C# program within the supported style, the generated header defines every class and struct exactly once, inside a properly opened and closed namespace of its own name; every base class named there is found by C++ name lookup, is the type the C# program names, is complete at that point, and is a public base; afterwards every namespace is made available by exactly one using directive.", "quantifier": "every list of types, their namespaces, bases and nested types, visited in any order; every content of the run-time library", "why_tests_cant": "Whether a name is found depends on the whole program: which namespaces its types live in, the order of the definitions and the names of the library; tests translate a handful of programs that live in one namespace.", "anchors": ["CppTranslator/HeaderTypeVisitor.cs: CreateHeaders, HeaderTypeDeclaration, OutputParentage, WriteBaseClasses, WriteUsingNamespaces", "CppTranslator/CppVisitorBase.cs: VisitSimpleType, VisitMemberType", "CppTranslator/ProtoTypeVisitor.cs: VisitTypeDeclaration", "CppTranslator/Formatter.cs: SetNamespace, CloseNamespace"]}
{"id": "C100", "title": "Enum members keep their values", "statement": "The C++ enum generated for a C# enum, read by a C++ compiler, has the same members in the same order, each with the value the C# enum gives it (its own value, or its predecessor's plus one).", "quantifier": "every enum: any number of members, any names, any combination of explicit and implicit values; every indentation level and line separator", "why_tests_cant": "The value of a member without initialiser depends on all members before it, and the text on the nesting of the output; tests translate one small enum.", "anchors": ["CppTranslator/ProtoTypeVisitor.cs: VisitTypeDeclaration, OutputEnumValues, VisitEnumMemberDeclaration", "CppTranslator/CppVisitorBase.cs: VisitPrimitiveExpression", "CppTranslator/Formatter.cs: AddOpenBrace, AddCloseBrace, AppendIndentedName"]}
{"id": "C101", "title": "Static fields have their values when they are used", "statement": "In the translated program every static field holds, whenever Main or code it calls reads it, the value it holds in C#: the effect of its initialiser and of its class's static constructor, as if these had run at the first use of the class.", "quantifier": "every program of classes with static fields, initialisers and static constructors, every body of Main", "why_tests_cant": "initialisers may depend on other classes in any order; the order of initialisation is a property of whole programs", "anchors": ["CppTranslator/CppVisitorBase.cs: WriteStaticConstructor, FormatStaticFieldDeclaration, VisitVariableInitializer, VisitConstructorDeclaration", "CppTranslator/HeaderTypeVisitor.cs: VisitConstructorDeclaration, VisitFieldDeclaration"]}
{"id": "C102", "title": "New objects have their initial values", "statement": "After an object is created, every field of its class and of its base classes holds in the translated program the value it holds in C#, and the creation has printed the same.", "quantifier": "every chain of classes with field initialisers and constructors", "why_tests_cant": "values depend on the interleaving of initialisers and constructors over inheritance chains of any length", "anchors": ["CppTranslator/CppVisitorBase.cs: VisitConstructorDeclaration, VisitVariableInitializer, WriteMethodBody", "CppTranslator/HeaderTypeVisitor.cs: VisitFieldDeclaration, VisitConstructorDeclaration"]}
{"id": "C103", "title": "Exceptions reach the same handler", "statement": "A translated method executes the same statements, enters the same exception handlers in the same order and is left by an exception of the same class (or by none) as the C# method.", "quantifier": "every method built of actions, conditionals, try/catch statements nested to any depth, throw, rethrow, return and leave; every outcome of the conditions; every class hierarchy the program derives from the library's exceptions", "why_tests_cant": "The number of nestings, handlers and classes is unbounded; which handler runs depends on the whole stack of enclosing try statements and on the dynamic class of the exception.", "anchors": ["CppTranslator/MyIlInstructionVisitor.cs: VisitTryCatch, HandleTryBlock, VisitThrow, VisitRethrow, VisitLeave", "DotNetLibrary/include/Exception.h: Exception and its subclasses"]}
{"id": "C104", "title": "Exception objects keep their message and their cause", "statement": "For every exception object, Message is the message it was made with (the default message of its class if none was given), InnerException the exception given as its cause, and GetBaseException the innermost exception of the chain of causes.", "quantifier": "every chain of exceptions of any length, built with any of the constructors", "why_tests_cant": "The chain of causes has unbounded length; tests look at chains of length one.", "anchors": ["DotNetLibrary/include/Exception.h: Exception", "DotNetLibrary/src/Exception.cpp: Exception, get_Message, get_InnerException, GetBaseException"]}
{"id": "C105", "title": "Text of a DateTime", "statement": "DateTime.ToString gives month/day/year hour:minute:second on a twelve hour clock with AM or PM (M/d/yyyy h:mm:ss tt), and two DateTimes with the same text lie in the same second.", "quantifier": "every DateTime between MinValue and MaxValue", "why_tests_cant": "3 * 10^18 values; the wrong hours are the ones nobody tests.", "anchors": ["DotNetLibrary/src/DateTimeValue.cpp: FormatString", "DotNetLibrary/src/Object.cpp: ToString"]}
{"id": "C106", "title": "Clock and time zone", "statement": "DateTime.Now is the local wall clock time, Today its date; ToLocalTime adds the offset of the local zone to a UTC time, ToUniversalTime subtracts it, and the two are inverse to each other.", "quantifier": "every instant the clock can show, every time zone offset, every DateTime", "why_tests_cant": "Depends on the machine's zone and on the hour of the day at which the test is run.", "anchors": ["DotNetLibrary/src/DateTimeValue.cpp: GetTimeZone, ToLocalTime, ToUniversalTime, get_Now, get_Today"]}
{"id": "C107", "title": "Casts, boxing and unboxing", "statement": "A translated expression built of boxing, unboxing, casts to classes, default values, comparisons with null and calls has the same value as in C#, and where C# throws (InvalidCastException, NullReferenceException) so does C++.", "quantifier": "every expression of any depth, every class hierarchy, every value of every value type", "why_tests_cant": "Nesting, classes and values are unbounded; a wrong cast goes unnoticed until a member of the wrong class is used.", "anchors": ["CppTranslator/MyIlInstructionVisitor.cs: VisitBox, VisitUnboxAny, VisitCastClass, VisitDefaultValue, VisitNewObj, WrapTypeIfNeeded", "DotNetLibrary/src/Object.cpp: get_AsBoolean ... get_AsDateTime"]}
{"id": "C108", "title": "What cannot be translated is not silently replaced", "statement": "If an expression contains a construct the translator cannot write (is, as, await, ??, sizeof, typeof, a decimal constant, a delegate, a dynamic operation), the emitted C++ is rejected by the compiler; it is never accepted as another expression.", "quantifier": "every expression around the construct, every place of an operand at any depth, every such construct", "why_tests_cant": "the places of an operand in an expression are unbounded; that a text is rejected is a statement about every derivation of the grammar", "anchors": ["CppTranslator/MyIlInstructionVisitor.cs: Default, VisitIsInst, VisitAwait, VisitNullCoalescingInstruction, VisitLdcDecimal, VisitSizeOf, VisitLdTypeToken, VisitLdFtn, VisitDynamicInvokeInstruction, VisitUnbox, AddCallParameters, VisitBox, VisitBinaryNumericInstruction"]}
{"id": "C109", "title": "Floating point expressions keep their value", "statement": "A C# expression of Single and Double variables, converted integers, + - * / %, conversions between Single, Double and integers and comparisons is worth exactly the same bits in the generated C++; a Single variable that is assigned a quotient or a remainder of Singles gets exactly what .NET puts there although the generated code computes in Double.", "quantifier": "every floating expression tree, every value of its variables including NaN, infinities, signed zeros and subnormal numbers", "why_tests_cant": "the agreement is about rounding: the wrong expressions differ in the last bit for a few of 2^64 or more operand combinations, and a double rounding that is harmless must be shown harmless for all quotients", "anchors": ["CppTranslator/MyIlInstructionVisitor.cs: VisitBinaryNumericInstruction, HandleDivideByZero, HandleSpecialModulusWithFLoatingNumbers, VisitConv, VisitComp", "DotNetLibrary/src/DotNetMath.cpp: Math::Divide", "DotNetLibrary/src/DoubleValue.cpp: DoubleValue::Modulus"]}
{"id": "C110", "title": "The floating point remainder is exact", "statement": "a % b of Doubles (and of Singles, computed with Doubles) is exactly the remainder of the truncated division, with the sign of a, smaller than b; NaN for NaN operands, an infinite a or a zero b; a itself for an infinite b.", "quantifier": "all pairs of Doubles and of Singles", "why_tests_cant": "2^128 pairs; exactness is a statement about all exponents and mantissas", "anchors": ["DotNetLibrary/src/DoubleValue.cpp: DoubleValue::Modulus", "CppTranslator/MyIlInstructionVisitor.cs: HandleSpecialModulusWithFLoatingNumbers"]}
{"id": "C111", "title": "The text of an expression is divided by C++ into the tokens meant", "statement": "The characters the translator writes for an expression, with the blanks it writes and those it leaves out, are divided by a C++ compiler (longest match, digraphs, preprocessing numbers, literals) into exactly the tokens of the expression meant: no two adjacent pieces run together and none is split, whatever stands before and after. Together with the grammar (C59) the text is read as the expression meant.", "quantifier": "all expressions of the translator's instruction forms, of any depth; all names that are words, all strings without surrogates, all 64 bit constants", "why_tests_cant": "adjacency of pieces depends on every pair of forms that can meet at any depth, and on the characters of names and literals", "anchors": ["CppTranslator/MyIlInstructionVisitor.cs: every Visit method writing an expression, ConvertConstants, AddCallParameters, WriteCommaSeparatedList, VisitLdsFlda, operatorSymbols, comparisonSymbols", "CppTranslator/Formatter.cs: AppendName, AppendStringsWithControl", "CppTranslator/CppTypeVisitor.cs: FormatType, FormatTypeDelaration"]}
{"id": "C112", "title": "The text of a method's body is read by C++ as the statements meant", "statement": "The characters written for the body of a method - line ends, indentation, braces, labels, gotos, semicolons and the places where none is written - are read by a C++11 compiler as exactly one list of statements: the blocks, ifs, switches, labels, gotos and returns meant, nested as meant, whatever is written before and after. Together with the executions of those statements (C77) the text does what the decompiled method does.", "quantifier": "all bodies (trees of instructions of any size and depth) the translator gets through; all line ends made of white space; all texts of statements, conditions, values and labels that C++ divides into tokens on their own", "why_tests_cant": "whether a semicolon, an indentation or a label is written depends on two flags of the Formatter that every nesting of constructs changes; a test shows single nestings", "anchors": ["CppTranslator/MyIlInstructionVisitor.cs: WriteBlock, AddLabelIfNeeded, VisitBlockContainer, VisitBranch, VisitLeave, VisitIfInstruction, WriteBlockWithBraces, VisitSwitchInstruction, FormatSwitchCases", "CppTranslator/Formatter.cs: Append, AppendLine, AppendIndented, AddOpenBrace, AddCloseBrace, Newline"]}
{"id": "C113", "title": "The text of the header is read by C++ as the classes meant", "statement": "The characters of the generated header - the preprocessor's directives, namespaces, class heads with their bases, every member declaration, blanks, braces, line ends and indentation - are read by a C++ compiler in exactly one way: the structs and then the classes of the C# program, each in its namespace, with the bases and the members meant (access, static, virtual, pure, type with its pointers and references, name, parameter types), and then one using directive for every namespace.", "quantifier": "all lists of declared types, any number of namespaces, bases, members, fields in one declaration and parameters; all names that are C# identifiers; all line ends made of white space", "why_tests_cant": "whether two pieces of text run together, which brace closes which namespace and what a comma or an access label governs depends on every combination and order of types and members", "anchors": ["CppTranslator/HeaderTypeVisitor.cs: AddHeaders, CreateHeaders, WriteUsingNamespaces, HeaderTypeDeclaration, CreateDefaultConstructor, OutputParentage, OutputEntityType, WriteBaseClasses, VisitConstructorDeclaration, VisitMethodDeclaration, VisitFieldDeclaration, VisitPropertyDeclaration, VisitOperatorDeclaration", "CppTranslator/CppVisitorBase.cs: WriteModifiers, AddParameterModifiers, VisitParameterDeclaration, WriteCommaSeparatedList", "CppTranslator/CppTypeVisitor.cs: FormatType, FormatTypeDelaration, IsPointerType", "CppTranslator/Formatter.cs: SetNamespace, CloseNamespace, AddOpenBrace, AddCloseBrace, AppendName"]}
{"id": "C114", "title": "The text of the source file is read by C++ as the definitions of the members", "statement": "The characters of the generated source file - the #include, namespaces, the heads of the definitions, initialisers, bodies, braces, line ends and indentation - are read by a C++ compiler in exactly one way: in order of declaration, in its namespace, one definition for every method with a body, accessor, constructor, operator and static field, and a flag for every static constructor, each with its class, name, types of result and parameters, base initialiser and the statements of its body; what is defined is what the header declares as needing a definition.", "quantifier": "all lists of declared types, any number of members, parameters, arguments and statements; all names that are C# identifiers; all line ends made of white space", "why_tests_cant": "where a definition ends, what a qualified name governs and which brace closes which body depends on every combination and order of members and bodies", "anchors": ["CppTranslator/CppVisitorBase.cs: AddHeaders, CreateHeaders, HeaderTypeDeclaration, WriteMethodHeader, WriteMethod, WriteMethodBody, VisitConstructorDeclaration, WriteStaticConstructor, VisitConstructorInitializer, VisitMethodDeclaration, VisitFieldDeclaration, FormatStaticFieldDeclaration, VisitPropertyDeclaration, VisitOperatorDeclaration, VisitTypeDeclaration, VisitParameterDeclaration, WriteCommaSeparatedList", "CppTranslator/MyIlInstructionVisitor.cs: VisitBlockContainer, VisitBlock", "CppTranslator/Formatter.cs: SetNamespace, CloseNamespace, AddOpenBrace, AddCloseBrace, AppendName"]}
{"id": "C115", "title": "The text of the prototypes is read by C++ as the declarations meant", "statement": "The characters of the generated prototypes - directives, namespaces, forward declarations, enums with their members and values, blanks, braces and line ends - are read by a C++ compiler in exactly one way: the using directives of the library, then in order every type of the C# program in its namespace, classes and interfaces as classes, structs as structs, enums with their members and the values they have in C#. Every class the header defines is declared there before, in the same namespace and with the same key; no two enumerators of a namespace have one name.", "quantifier": "all lists of declared types, any number of namespaces and enum members; all names that are C# identifiers; all explicit and implicit values; all line ends made of white space", "why_tests_cant": "which brace closes which namespace, what an enumerator's implicit value is and whether two enumerators collide depends on every combination and order of types and members", "anchors": ["CppTranslator/ProtoTypeVisitor.cs: AddHeaders, VisitTypeDeclaration, OutputEnumValues, VisitEnumMemberDeclaration", "CppTranslator/Formatter.cs: SetNamespace, CloseNamespace, AddOpenBrace, AddCloseBrace, AppendIndentedName", "CppTranslator/HeaderTypeVisitor.cs: HeaderTypeDeclaration, OutputEntityType"]}
{"id": "C116", "title": "The generated source defines what the generated header declares", "statement": "Take the header and the source file generated for the same types. Read both as C++. The functions and static data that the source defines are exactly those that the header declares and leaves to be defined (not pure, no body in the class): each as often as it is declared, with the same namespace, class, result type, name and parameter types. So a program that includes the header and is linked with the source has no unresolved and no duplicate symbol among them.", "quantifier": "all lists of types that are no interfaces, all members other than constants, names, bodies and newline strings of the readable form, all readings of the two texts", "why_tests_cant": "it relates two long texts written by different visitors, for every program", "anchors": ["CppTranslator/HeaderTypeVisitor.cs: AddHeaders, CreateHeaders, HeaderTypeDeclaration, VisitMethodDeclaration, VisitFieldDeclaration, VisitPropertyDeclaration, VisitConstructorDeclaration, VisitOperatorDeclaration", "CppTranslator/CppVisitorBase.cs: AddHeaders, CreateHeaders, WriteMethodHeader, AddParameterModifiers, VisitParameterDeclaration", "CppTranslator/Formatter.cs: SetNamespace, CloseNamespace, AppendName"]}
{"id": "C117", "title": "Parameters are declared and defined with the same types and names", "statement": "The name and the parameter list of a method, operator or constructor are written twice: in the header and, after the class and ::, in the source. Both are read by C++ as the same list: parameter by parameter, in order, the type with its pointers and references and the translated name.", "quantifier": "all names, numbers of parameters, parameter types (values, classes, arrays, references; not interfaces) and modifiers; all starting buffers; not the value parameter of setters", "why_tests_cant": "two visitors write the two lists, and a wrong comma, blank or name shows only for some parameter", "anchors": ["CppTranslator/CppVisitorBase.cs: WriteMethodHeader, WriteCommaSeparatedListInParenthesis, AddParameterModifiers, VisitParameterDeclaration", "CppTranslator/HeaderTypeVisitor.cs: VisitMethodDeclaration", "CppTranslator/CppTypeVisitor.cs: FormatTypeDelaration"]}
