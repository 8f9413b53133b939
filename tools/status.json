{
 "C02": {
  "status": "proved",
  "note": "All code points 1..0x10FFFF; code point 0 gives an empty Char (C02_zero_is_empty)."
 },
 "C04": {
  "status": "partial",
  "note": "Full statement refuted: overlong forms, surrogates and values above 0x10FFFF are accepted. Proved: every well-formed unit is accepted; exact condition for an accepted Char to be well-formed."
 },
 "C06": {
  "status": "partial",
  "note": "Full statement refuted: Char(byte) with byte 0xE0..0xF7 followed by GetCodePoint reads out of range. Proved: that is the only way."
 },
 "C10": {
  "status": "partial",
  "note": "Full statement refuted: every code point >= 0x1FEC (CJK, emoji...) is shifted by 8. Proved below 0x1FEC."
 },
 "C11": {
  "status": "partial",
  "note": "IsDigit exactly characterised; ToDigit only knows ASCII, so the agreement is refuted for the other 35 blocks."
 },
 "C97": {
  "status": "partial",
  "note": "Full round trip refuted; exact set of letters for which it holds is proved."
 },
 "C98": {
  "status": "partial",
  "note": "Refuted for 0x139..0x148 (parity swapped for every pair); proved for the other Latin Extended-A pairs."
 },
 "C14": {
  "status": "partial",
  "note": "Exact trichotomy proved: success iff concatenation of units, over-read iff a lead byte announces more than the rest plus terminator, otherwise an exception. The claim 'never a read past the terminator' is refuted."
 },
 "C16": {
  "status": "partial",
  "note": "Proved for every pair of distinct Strings; appending or inserting a String into itself is undefined behaviour (refuted); repeating an own element is characterised by capacity."
 },
 "C19": {
  "status": "partial",
  "note": "Proved unless both Strings are empty; refuted for empty in empty."
 },
 "C20": {
  "status": "partial",
  "note": "Proved for non-empty needles and start positions up to size(); refuted for the empty needle at the end and for start positions past the end (undefined behaviour)."
 },
 "C21": {
  "status": "partial",
  "note": "The result is the index of the last character of the last occurrence; right for one-character needles, refuted for longer ones."
 },
 "C26": {
  "status": "partial",
  "note": "Proved for non-empty patterns; the empty pattern is characterised exactly and can read out of bounds (refuted)."
 },
 "C28": {
  "status": "partial",
  "note": "Proved for n >= 1; Repeat(s,0) returns s (refuted)."
 },
 "C29": {
  "status": "partial",
  "note": "What EscapeString does to every text is proved exactly (lib_escaped: every escape, including escapes u whose four characters are not four digits, and the exception). The claim itself holds for texts whose u-escapes denote ASCII; it is refuted for other u-escapes (low byte only, may read out of bounds) and for unknown escapes (character doubled)."
 },
 "C30": {
  "status": "partial",
  "note": "FindFirstNonSpace and IsNumber fully proved; FindLastNonSpace never examines index 0 and is undefined on the empty String (refuted, exact behaviour proved)."
 },
 "C91": {
  "status": "partial",
  "note": "A copy has the same text, but appending to it overwrites from the start (refuted; exact behaviour proved). Moving is fine."
 },
 "C33": {
  "status": "partial",
  "note": "Proved for at least one argument, every numeral, in any context; with no arguments the bound size()-1 wraps and {0} is undefined behaviour (refuted)."
 },
 "C35": {
  "status": "partial",
  "note": "Precision >= 1 proved; precision 0 or none keeps the dot (refuted, exact behaviour proved)."
 },
 "C37": {
  "status": "partial",
  "note": "Refuted: {:} , more {} than arguments, {0} or {:5} without arguments, {0:5} after the last {}. Exactly which templates are carried out, throw, or have undefined behaviour is proved for every template and argument list (C37_undefined_exactly, C37_returns_exactly, C37_throws_exactly)."
 },
 "C38": {
  "status": "partial",
  "note": "Right with a single argument; with more arguments {:spec} always formats argument 0 and {i:spec} the next automatic one (refuted, exact behaviour proved)."
 },
 "C39": {
  "status": "proved",
  "note": "int_numeral is the spec of optionally signed ASCII numerals; also for the integer constructors and for every BigInteger obtainable through the API."
 },
 "C40": {
  "status": "partial",
  "note": "Exact except when x < 0, y >= 0 with positive sign and x + y < 0, where the result is -(x + y): -5 + 3 is 2 (refuted; exact behaviour proved)."
 },
 "C41": {
  "status": "partial",
  "note": "Exact for non-negative operands, a zero operand and x = y; every case with a negative operand is wrong otherwise (refuted; exact behaviour proved)."
 },
 "C42": {
  "status": "proved",
  "note": ""
 },
 "C43": {
  "status": "proved",
  "note": ""
 },
 "C44": {
  "status": "proved",
  "note": "The remainder of a negative multiple is the second zero of C48; a == (a/b)*b + a%b holds nevertheless."
 },
 "C45": {
  "status": "proved",
  "note": ""
 },
 "C46": {
  "status": "partial",
  "note": "Proved, with a termination bound, for every non-negative integer except the negative zero of C48, for which Sqrt throws (refuted)."
 },
 "C47": {
  "status": "partial",
  "note": "Two negative integers are ordered by magnitude (refuted; exact behaviour proved). It is a strict total order nevertheless."
 },
 "C48": {
  "status": "partial",
  "note": "3 + (-3) and (-4) % 2 are a negative zero, not Equal to zero (refuted). Proved for all values that read back from their own text, and that every other result does."
 },
 "C49": {
  "status": "partial",
  "note": "A lone sign and non-ASCII decimal digits are accepted (refuted). Exact set of accepted texts proved."
 },
 "C50": {
  "status": "partial",
  "note": "Dividing by the negative zero of C48 returns a value that prints no number (refuted). Throws exactly when the divisor is Equal to zero."
 },
 "C51": {
  "status": "partial",
  "note": "Full statement refuted: fraction digits are stored as an integer, so 1.05 and 1.5 coincide, and -0.5 loses its sign. Proved: what every decimal becomes, exactly which ones keep their value, and print/parse round trip for all BigFloats."
 },
 "C52": {
  "status": "partial",
  "note": "Refuted: Add and Subtract loop for ever when exactly one fraction is zero (1.5 + 2). Proved: they return in every other case."
 },
 "C53": {
  "status": "partial",
  "note": "Refuted for a carry out of two or more fraction digits. Proved: whole numbers, no carry, one-digit fractions; exact result in every terminating non-negative case."
 },
 "C54": {
  "status": "partial",
  "note": "Refuted: whole factors make the product 10 or 100 times too large. Proved: right product when both fractions are non-zero and none of the product's fraction zeros is lost; exact result in every case."
 },
 "C55": {
  "status": "partial",
  "note": "Refuted: a divisor with more fraction digits throws length_error, 1.5 / 2 is 0. Proved: whole numbers, and fractions with at most as many digits in the divisor; division by zero throws."
 },
 "C56": {
  "status": "partial",
  "note": "Refuted: fractions are compared as integers. Proved: right for equal fraction length or a whole operand, non-negative; strict total order consistent with Equal."
 },
 "C57": {
  "status": "partial",
  "note": "Refuted: Pow of x is (100x)^e and Sqrt of n is sqrt(n/100) because Multiply is wrong on whole numbers; proved as such for all whole numbers."
 },
 "C83": {
  "status": "proved",
  "note": "cmp_eq and cmp_less; the other four comparison templates cannot be instantiated."
 },
 "C84": {
  "status": "partial",
  "note": "Proved for printable messages (0 exactly when all tests ran and returned, unconditionally); refuted: an unprintable message makes RunAll throw."
 },
 "C85": {
  "status": "partial",
  "note": "Proved for every reachable registry when the messages are printable; otherwise a prefix of the order (see C87)."
 },
 "C86": {
  "status": "proved",
  "note": "Whenever RunAll returns, in any state, including repeated runs."
 },
 "C87": {
  "status": "partial",
  "note": "Refuted: the exception message is converted to String inside the handler, which throws or reads out of bounds. Proved: nothing else stops a run."
 },
 "C88": {
  "status": "partial",
  "note": "Refuted: counters are never reset, a failure in an earlier run makes all later runs return 1. Exact rule proved for every history."
 },
 "C89": {
  "status": "proved",
  "note": ""
 },
 "C95": {
  "status": "proved",
  "note": "For any sequence of pairs, and for std::map after any history of writes and erasures."
 },
 "C92": {
  "status": "partial",
  "note": "Proved for every text and ASCII delimiter, and for every content up to the conversion of each piece; refuted for NUL bytes (line cut short) and lines ending inside a character (undefined behaviour)."
 },
 "C93": {
  "status": "partial",
  "note": "Refuted: after reading to the end, or after a second Open, writes are silently lost. Exact effect of a write in every state proved; histories without visible trouble proved."
 },
 "C94": {
  "status": "partial",
  "note": "Refuted for every file: the buffer has no terminator, Read is undefined behaviour for every text and never returns the whole content."
 },
 "C99": {
  "status": "partial",
  "note": "Refuted: the position survives Close and Erase, and after the end was reached every ReadLine after Close throws. Exact behaviour proved."
 },
 "C72": {
  "status": "proved",
  "note": ""
 },
 "C73": {
  "status": "proved",
  "note": "AndThen, Then and OrElse keep the value type (as in the code); MapError keeps the error type, the only instantiable case. Filter and UnwrapOrDefault cannot be instantiated."
 },
 "C74": {
  "status": "proved",
  "note": "Every history, including throwing constructors; assignments that throw are C75."
 },
 "C75": {
  "status": "partial",
  "note": "Refuted: a throwing copy in assignment leaves a dead object that is destroyed again. Exact characterisation proved: a complete history is undefined exactly when an assignment between different variables throws."
 },
 "C76": {
  "status": "proved",
  "note": "operator=(Pointer) and Release cannot be instantiated and are not modelled."
 },
 "C77": {
  "status": "proved",
  "note": "Every history and interleaving of race-free calls, for as long as it is defined (only the copy of a null pointer is not, C80). Atomics sequentially consistent, counter not overflowing."
 },
 "C78": {
  "status": "partial",
  "note": "Refuted: fetch_sub's old value is compared with 0 instead of 1; in every history nothing is ever deleted."
 },
 "C79": {
  "status": "proved",
  "note": "Holds because nothing is ever deleted (C78)."
 },
 "C80": {
  "status": "partial",
  "note": "Refuted for every null pointer: the copy constructors dereference the null counter. Assignment of a null pointer proved to work."
 },
 "C81": {
  "status": "partial",
  "note": "Refuted: a WeakPtr holds a SharedPtr and counts as an owner. Proved: expired depends only on the WeakPtr itself. What lock does is proved in every history (C81_lock)."
 },
 "C82": {
  "status": "proved",
  "note": "UniquePtr, Ptr, SharedPtr and WeakPtr."
 },
 "C66": {
  "status": "proved",
  "note": "Every sequence of AddMember, operator[], writes through the reference and RemoveMember."
 },
 "C67": {
  "status": "partial",
  "note": "Append, const At and writes inside the array proved. Refuted: operator[] at or beyond the end constructs an object at a null pointer."
 },
 "C68": {
  "status": "partial",
  "note": "Refuted for every value of another kind: const access is undefined behaviour, non-const access replaces the value. Getters and GetData proved."
 },
 "C69": {
  "status": "partial",
  "note": "Proved for nodes apart and for self assignment. Refuted for every source inside the target (use after delete); exact result when the target is inside the source."
 },
 "C70": {
  "status": "partial",
  "note": "Refuted: MakeIntegral, MakeFloating and MakeBoolean build strings. Make, MakeNull, MakeObject, MakeArray, MakeString proved."
 },
 "C71": {
  "status": "partial",
  "note": "Refuted by InvalidEscapeSequence and OutOfRangeError; all other pairs proved distinct."
 },
 "C100": {
  "status": "partial",
  "note": "Proved for nodes apart and for documents. Refuted when one node is inside the other."
 },
 "C58": {
  "status": "partial",
  "note": "Proved for every tree with an object at the root whose strings and keys have no quotation mark or backslash, whose text before every literal is ASCII and whose floats print with an exponent, both modes, every indent. C58_reload_partial says what comes back of strings with escapes, repeated keys and floats printed plainly. Refuted in general: quotation marks are printed raw (the text can parse to other members), literals after multi-byte text are not read back, floats without exponent come back as integers."
 },
 "C59": {
  "status": "proved",
  "note": ""
 },
 "C60": {
  "status": "partial",
  "note": "Proved: exactly one of error with Null root / NoError with an Object root. Refuted: a rejected text need not be reported, because garbage after the object and characters lost in strings go unnoticed."
 },
 "C61": {
  "status": "partial",
  "note": "Refuted: blank texts, unclosed objects and an escape before the closing quote read out of bounds. Proved: no undefined behaviour for accepted grammar texts, for texts without object, and no exception without a u escape."
 },
 "C62": {
  "status": "partial",
  "note": "Proved: the accepted texts are exactly those of the library's grammar. Refuted: anything may follow the object, and the grammar is wider than JSON (leading zeros, plus signs, u escapes, ...)."
 },
 "C63": {
  "status": "partial",
  "note": "Proved after any ASCII text; exact law: the bytes at the offset equal to the character position decide. Refuted after multi-byte characters, where a literal is rejected or even read as another one."
 },
 "C64": {
  "status": "partial",
  "note": "Proved for integers in and out of 64-bit range and for literals with exponent (as stod converts them). Refuted for a decimal point without exponent: the fraction is dropped."
 },
 "C65": {
  "status": "partial",
  "note": "Proved without backslash. Refuted for every escape: the character after it is lost; u escapes give one byte only."
 },
 "C101": {
  "status": "partial",
  "note": "Refuted: InvalidValue, InvalidNumber, OutOfRangeError, UnterminatedObject, UnterminatedArray, ExpectedStringKey and NumberConversionError are never reported by Parse, whatever the text. The other codes are reachable (witnesses)."
 },
 "C102": {
  "status": "partial",
  "note": "Proved for void, nullptr, bool, arrays, pointers and lvalue references, and for arithmetic types without qualifiers. Refuted: IsIntegral<const int> is false; the constraint IsRValueReference asks for lvalue references."
 },
 "C103": {
  "status": "partial",
  "note": "Proved for all adding traits and RemoveCV; RemoveConst and RemoveVolatile exactly when the other qualifier is absent. Refuted: RemoveConst also drops volatile (and conversely)."
 },
 "C104": {
  "status": "partial",
  "note": "Proved for AddRValueReference and the removing traits; exact conditions for the others. Refuted: AddPointer<int&> is int& and AddLValueReference<int&&> is int&&."
 },
 "C106": {
  "status": "partial",
  "note": "Exact: right iff the number is at most 1. Refuted otherwise, the answers are converted to bool."
 },
 "C107": {
  "status": "partial",
  "note": "Proved for every operator but two. Refuted: the test for | asks for &, the test for [] indexes a value by itself."
 },
 "C108": {
  "status": "partial",
  "note": "Proved for integers, booleans and strings. Refuted for characters: 'a' is shown as 97."
 },
 "C109": {
  "status": "partial",
  "note": "Proved for well-formed text before the end of the input. Refuted: the end cannot be told from empty lines, and some malformed input is undefined behaviour."
 },
 "C110": {
  "status": "partial",
  "note": "Proved: the first character of the line is returned. Refuted: the rest of the line is dropped and an empty line is undefined behaviour."
 },
 "C113": {
  "status": "partial",
  "note": "Proved for passing assertions and for ASSERT_TRUE and ASSERT_FALSE. Refuted for failing relation assertions, which evaluate the operands again for the message."
 },
 "C114": {
  "status": "partial",
  "note": "Proved where no else follows. Refuted: an else after the macro belongs to the if inside the macro."
 },
 "C115": {
  "status": "partial",
  "note": "Proved for FAIL, PASS, a single FAIL_MESSAGE piece and the condition of ASSERT_STREQ. Refuted: a failing ASSERT_STREQ aborts the process; pieces after the first are lost; FAIL_MESSAGE() without piece does not fail."
 },
 "C116": {
  "status": "partial",
  "note": "Proved for programs without copies of a Ptr and without Reset to its own pointer; deletion only on Reset and Destroy for all programs. Refuted with copies and with Reset(p.Get())."
 },
 "C117": {
  "status": "partial",
  "note": "Proved for positions that are accepted, in every state of an open File. Refuted for refused ones: the position is kept, so reading fails (negative) or starts there (closed File)."
 },
 "C118": {
  "status": "proved",
  "note": "Memory model with addresses refines the value model for every program; undefined behaviour on one side iff on the other."
 },
 "C119": {
  "status": "partial",
  "note": "Proved for every program: no double delete, one owner, nothing reachable is deleted. No leak is proved without RemoveMember and without a move into a part of what is moved; both are refuted in general form. Strings inside a JsonData never have their destructor run (refuted)."
 },
 "C120": {
  "status": "partial",
  "note": "Proved for all Strings without a NUL character. Refuted: what follows a NUL character is lost on reading back."
 },
 "C121": {
  "status": "partial",
  "note": "Proved for start positions up to the size. Refuted beyond: undefined behaviour."
 },
 "C122": {
  "status": "partial",
  "note": "Proved for bools, floating values, Int64 integers and accepted texts. Refuted: larger unsigned integers wrap around; a refused text destroys the previous value."
 },
 "C123": {
  "status": "partial",
  "note": "One call is proved for all inputs; the loop for texts that end with a line feed. Refuted: on any text that does not, the loop never ends."
 },
 "C124": {
  "status": "partial",
  "note": "Size, construction and Abs of non-negative numbers proved. Refuted: Abs leaves every negative number negative."
 },
 "C125": {
  "status": "partial",
  "note": "Exact result for every finite double; whole numbers are kept; exactly which fractions are kept. Refuted: 1.05 becomes 1.5, -0.5 becomes 0.5."
 },
 "C126": {
  "status": "proved",
  "note": "Exponents are ints; refinement of the member functions to an ideal machine over the integers."
 },
 "C127": {
  "status": "partial",
  "note": "Proved for all programs that never append a String to itself with +=. Refuted: doing so is undefined."
 },
 "C128": {
  "status": "partial",
  "note": "The log, the times of passed tests, of suites and of the run are proved. Refuted: a failed test shows the time of the test before it."
 },
 "C129": {
  "status": "partial",
  "note": "Proved for names without underscores where no two fixtures share a test name. Refuted: TEST_F(A, t) and TEST_F(B, t); TEST(a_b, c) and TEST(a, b_c); TEST(a, b) and TEST_F(F, a_b). What is registered, and under which names, is proved for all names (C129_registered)."
 },
 "C130": {
  "status": "partial",
  "note": "Range and uniformity proved; the words follow the recurrence of the standard. Missing: that some word of the engine is accepted, for ranges whose size is no power of two (for these fewer than half of all words are passed over). Refuted: min > max is undefined."
 },
 "C131": {
  "status": "partial",
  "note": "Proved for all doubles but NaN. Refuted: a NaN passes the check and the call is undefined."
 },
 "C132": {
  "status": "partial",
  "note": "Proved for the integer types, and MaxValue for the floating types. Refuted: MinValue of a floating type is positive."
 },
 "C133": {
  "status": "proved",
  "note": ""
 },
 "C134": {
  "status": "partial",
  "note": "Proved for histories in which no call meets the end of the file or a stream error. Refuted: a File that has met the end never sees what another one writes later."
 },
 "C135": {
  "status": "partial",
  "note": "Proved for expressions in which every + - % meets operands it is right on; the condition is exact (C135_exact_partial) and holds whenever all intermediate values are non-negative. Refuted: (3 - 8) + 2 shows 3."
 },
 "C136": {
  "status": "partial",
  "note": "Proved for the documents of C58 (and, with what comes back of them, for those of C58_reload_partial), loading with ReadLine up to a NUL or by parsing the stream. Refuted: loading with Read is undefined for every document."
 },
 "C137": {
  "status": "partial",
  "note": "The text is proved for every float. Saving and loading is proved for all finite floats, subnormal ones included: a number written with exponent comes back as a float within rounding, any other as an integer (refuted: the fraction is lost); the second time changes nothing. Refuted for infinities and NaN (the text does not parse)."
 },
 "C138": {
  "status": "proved",
  "note": "Comparisons are counted in a copy of the model that is proved to compute the same. The count itself is bounded from below as well (C138_at_least)."
 },
 "C139": {
  "status": "partial",
  "note": "Range, type and position proved for finite arguments; a zero in the result is never negative (C139_sign). Refuted: the maximum itself can come out (the standard says below it); without arguments only positive numbers come out; min > max, infinities and NaN are undefined."
 },
 "C140": {
  "status": "proved",
  "note": "Hexadecimal numbers, inf and nan do not occur in what ParseNumber hands over. Also shown: because of the two roundings the float is not always the one nearest to the number written."
 },
 "C141": {
  "status": "proved",
  "note": "Comparing a Ptr whose object has been deleted is undefined in the model (implementation-defined in C++)."
 },
 "C142": {
  "status": "partial",
  "note": "False as stated: every product of numbers other than zero is wrong (C142_multiply_refuted). The value and comparison theorems ask for operands of + and - that are not negative and products with a zero; complements without condition."
 },
 "C143": {
  "status": "partial",
  "note": "False as stated: for a type of 2^61 bytes or more the number of bits wraps (C143_bits_refuted); C143_bits_partial asks for fewer. The other parts hold as stated; the call SizeOf<MemoryFormat>(f) is left out."
 },
 "C144": {
  "status": "partial",
  "note": "False as stated: a member with a reference qualifier is not found (C144_variable_refuted), Int8 and Byte are ambiguous (C144_bytes_refuted), so are classes with two of the members, and a member that is not const is found but cannot be used (C144_members_refuted). C144_class says for every class what happens; the queries are exact for references."
 },
 "C145": {
  "status": "partial",
  "note": "Forwarding holds as stated (C145_forward, C145_exact). MakeMovable does not take rvalues unless they are const (C145_move_refuted); C145_move_partial is about lvalues. Conversions between different types are left out."
 },
 "C146": {
  "status": "proved",
  "note": "Format returns r exactly when the rules give r, for every template (C146_text); C146_specification is the same for a single specification. When Format throws or is undefined: C37."
 },
 "C147": {
  "status": "partial",
  "note": "C147_exactly says when an operator of the library can be used, at any site of any program; C147_in_code, C147_in_std, C147_in_messages and C147_in_errors work this out for ordinary code, templates of the standard library, FAIL() << value and the comparison of errors. The claim that they can always be used is refuted (C147_refuted): a BigInteger is no key of a std::map, and in a namespace that has a + of its own two BigIntegers cannot be added. Not modelled: conversions of the operands, using-declarations and using-directives, friends, base classes."
 },
 "C148": {
  "status": "partial",
  "note": "Any order, nothing missing and nothing repeated: C148_any_order, for file systems without difference of case. Refuted where case matters (C148_case_refuted, for every header for users) and for programs of several source files (C148_refuted); C148_builds_exactly says exactly which programs can be built, C148_repaired that with one path and two definitions put right all could. Not modelled: the headers of the standard library, macros other than include guards, and whether the texts themselves compile."
 },
 "C149": {
  "status": "partial",
  "note": "Refuted (C149_refuted); C149_numbers says exactly, for every list of headers for users, when the operators of the big numbers are known, C149_members that those of the classes always are. For Char, String, Unexpected and JsonDocument the exact order is only computed for examples. Not modelled: value categories (a test asks with rvalues, so operator>> into a JsonDocument is left out) and implicit conversions."
 }
}