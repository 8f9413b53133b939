{"id": "C01", "title": "Code point round trip", "statement": "Char built from a code point gives that code point back with GetCodePoint, for every code point below 0x200000 (so for every Unicode scalar value), and for no code point at or above 0x200000.", "quantifier": "every 32-bit code point", "why_tests_cant": "2^32 code points; a unit test samples a handful and misses the boundaries between encoding lengths", "anchors": ["include/Caitlyn/__Core/Char/Char.h: Char(CodePoint), FromCodePoint, CalculateLength, GetCodePoint"]}
{"id": "C02", "title": "Code points are encoded as standard UTF-8", "statement": "The bytes of a Char built from a code point are exactly the UTF-8 encoding (RFC 3629 table) of it, for every code point from 1 to 0x10FFFF.", "quantifier": "every code point 1..0x10FFFF", "why_tests_cant": "needs agreement with the RFC table at each of a million points including all length boundaries", "anchors": ["include/Caitlyn/__Core/Char/Char.h: FromCodePoint, CalculateLength"]}
{"id": "C03", "title": "Byte-sequence constructor accepts exactly one structurally well-formed UTF-8 unit", "statement": "Building a Char from bytes succeeds, keeping the bytes unchanged, exactly when they are one lead byte followed by the number of continuation bytes it announces; otherwise std::invalid_argument is thrown.", "quantifier": "every byte string", "why_tests_cant": "infinitely many byte strings; the acceptance set is what matters, not samples of it", "anchors": ["include/Caitlyn/__Core/Char/Char.h: Char(const char*), Char(const DataType&), IsValidUtf8Char, IsContinuationByte"]}
{"id": "C04", "title": "Only real UTF-8 is accepted as a Char", "statement": "A Char built from bytes holds well-formed UTF-8: overlong forms, surrogates and values above 0x10FFFF are rejected, and distinct Chars denote distinct code points.", "quantifier": "every byte string", "why_tests_cant": "tests cannot enumerate all malformed sequences; a missing class of rejects is invisible until exploited", "anchors": ["include/Caitlyn/__Core/Char/Char.h: IsValidUtf8Char, GetCodePoint"]}
{"id": "C05", "title": "Char order is code point order", "statement": "Comparing two Chars built from code points with <, <=, >, >=, ==, != gives the same answer as comparing the code points.", "quantifier": "every pair of code points up to 0x10FFFF", "why_tests_cant": "10^12 pairs; ordering bugs hide at length-class boundaries", "anchors": ["include/Caitlyn/__Core/Char/Char.h: operator<, operator==, operator<=, operator>, operator>=, operator!="]}
{"id": "C06", "title": "Reading a Char's code point is memory safe", "statement": "GetCodePoint never reads outside the Char's bytes, whatever way the Char was obtained.", "quantifier": "every Char value obtainable from any constructor", "why_tests_cant": "out-of-range reads do not fail a unit test reliably, they are silent undefined behaviour", "anchors": ["include/Caitlyn/__Core/Char/Char.h: Char(StdChar), GetCodePoint"]}
{"id": "C07", "title": "White space classification", "statement": "IsSpace answers true exactly for the 25 code points with the Unicode White_Space property.", "quantifier": "every 32-bit code point", "why_tests_cant": "absence of false positives ranges over 2^32 values", "anchors": ["include/Caitlyn/__Core/Char/Utility.h: IsSpace"]}
{"id": "C08", "title": "ASCII case mapping", "statement": "On ASCII, ToUppercase and ToLowercase map letters to each other, leave everything else alone, and IsUppercase/IsLowercase/IsLetter agree with the mapping.", "quantifier": "every ASCII code point, and their images", "why_tests_cant": "the agreement between five functions must hold at every point", "anchors": ["include/Caitlyn/__Core/Char/Utility.h: ToUppercase, ToLowercase, IsUppercase, IsLowercase, IsLetter"]}
{"id": "C09", "title": "Upper-casing twice is upper-casing once", "statement": "ToUppercase(ToUppercase(c)) == ToUppercase(c) for every code point, and ToUppercase leaves every code point above 0x1FFF unchanged.", "quantifier": "every 32-bit code point", "why_tests_cant": "a universally quantified algebraic law over 2^32 values", "anchors": ["include/Caitlyn/__Core/Char/Utility.h: ToUppercase"]}
{"id": "C10", "title": "Lower-casing leaves caseless characters alone and is idempotent", "statement": "ToLowercase does not change characters that have no case (digits, CJK, emoji...), and ToLowercase(ToLowercase(c)) == ToLowercase(c).", "quantifier": "every 32-bit code point", "why_tests_cant": "a law over all code points; only whole-range reasoning shows where it stops holding", "anchors": ["include/Caitlyn/__Core/Char/Utility.h: ToLowercase"]}
{"id": "C11", "title": "Digit classification agrees with digit value", "statement": "IsDigit(c) holds exactly on the listed blocks of ten decimal digits, and every c with IsDigit(c) has a value 0..9 from ToDigit.", "quantifier": "every 32-bit code point", "why_tests_cant": "needs every one of 36 ranges checked against the value function", "anchors": ["include/Caitlyn/__Core/Char/Utility.h: IsDigit, ToDigit"]}
{"id": "C12", "title": "No code point is both upper and lower case", "statement": "IsUppercase(c) and IsLowercase(c) are never both true, and IsLetter(c) holds exactly when one of them does.", "quantifier": "every 32-bit code point", "why_tests_cant": "disjointness is a statement about all code points", "anchors": ["include/Caitlyn/__Core/Char/Utility.h: IsUppercase, IsLowercase, IsLetter"]}
{"id": "C13", "title": "Bytes in, bytes out", "statement": "If a String can be built from a NUL-free byte sequence, str() returns that byte sequence; each element is one structurally well-formed UTF-8 unit, and a byte sequence with an embedded NUL yields the String of the part before it.", "quantifier": "every byte string", "why_tests_cant": "round trips are quantified over all byte strings", "anchors": ["include/Caitlyn/__Core/String/String.h: String(const char*), String(const BasicString&), DecodeUtf8Char, str"]}
{"id": "C14", "title": "Building a String from bytes: when it works, throws or misbehaves", "statement": "Construction from a NUL-free byte sequence succeeds exactly on concatenations of structurally well-formed UTF-8 units; every other input ends in an exception and never in a read past the terminator.", "quantifier": "every NUL-free byte string", "why_tests_cant": "malformed inputs are infinite and over-reads pass silently in tests", "anchors": ["include/Caitlyn/__Core/String/String.h: DecodeUtf8Char, String(const char*)"]}
{"id": "C15", "title": "Length counts characters, ByteCount counts bytes", "statement": "For a String built from code points c1..cn, size() is n and ByteCount() is the number of bytes of str(); indexing i returns ci.", "quantifier": "every sequence of non-zero code points", "why_tests_cant": "holds over all sequences and all mixes of encoding lengths", "anchors": ["include/Caitlyn/__Core/String/String.h: size, length, ByteCount, operator[], At"]}
{"id": "C16", "title": "Concatenation and appending", "statement": "s + t, s += t, Append, PushBack produce exactly the characters of s followed by those appended, str() of a concatenation is the concatenation of the str()s, and the right operand may be the String itself.", "quantifier": "every pair of Strings including aliased ones", "why_tests_cant": "aliasing (s += s) is undefined behaviour a test may pass by luck; the law is over all Strings", "anchors": ["include/Caitlyn/__Core/String/String.h: operator+, operator+=, Append, PushBack"]}
{"id": "C17", "title": "Substring and Insert", "statement": "Substring(pos,count) is the characters pos..pos+count clipped to the end and throws std::out_of_range exactly when pos > size(); splitting at any position and concatenating gives the String back; Insert at a position in range followed by Substring finds the inserted text and leaves the rest in place.", "quantifier": "every String, position and count", "why_tests_cant": "all boundary combinations of pos, count and size", "anchors": ["include/Caitlyn/__Core/String/String.h: Substring, Insert"]}
{"id": "C18", "title": "Prefix and suffix tests", "statement": "StartsWith(p) holds exactly when the String is p followed by something, EndsWith(p) exactly when it is something followed by p.", "quantifier": "every pair of Strings", "why_tests_cant": "an if-and-only-if over all pairs", "anchors": ["include/Caitlyn/__Core/String/String.h: StartsWith, EndsWith"]}
{"id": "C19", "title": "Contains means occurs", "statement": "Contains(t) holds exactly when t occurs as a contiguous run of characters.", "quantifier": "every pair of Strings (including empty ones)", "why_tests_cant": "an if-and-only-if over all pairs", "anchors": ["include/Caitlyn/__Core/String/String.h: Contains"]}
{"id": "C20", "title": "Find returns the first occurrence", "statement": "Find(t,pos) returns the least index at or after pos at which t occurs and NPosition exactly when there is none.", "quantifier": "every String, needle and start position", "why_tests_cant": "minimality is a statement about all smaller indices", "anchors": ["include/Caitlyn/__Core/String/String.h: Find"]}
{"id": "C21", "title": "ReverseFind returns the last occurrence", "statement": "ReverseFind(t,pos) returns the largest index at which an occurrence of t starts (not after pos), and NPosition exactly when there is none.", "quantifier": "every String, needle and start position", "why_tests_cant": "maximality is a statement about all larger indices", "anchors": ["include/Caitlyn/__Core/String/String.h: ReverseFind"]}
{"id": "C22", "title": "String order", "statement": "operator< on Strings is a strict total order, agrees with comparing str() byte by byte, and for Strings of code points agrees with comparing the code point sequences lexicographically; ==, !=, <=, >, >= are consistent with it.", "quantifier": "every pair and triple of Strings", "why_tests_cant": "transitivity and agreement between encodings are laws over all triples", "anchors": ["include/Caitlyn/__Core/String/String.h: operator<, operator==, operator>, operator<=, operator>=, operator!="]}
{"id": "C23", "title": "Case conversion of a String is character-wise", "statement": "ToUppercase/ToLowercase on a String changes each character independently, never changes the number of characters, and on ASCII text matches the usual conversion.", "quantifier": "every String of code points", "why_tests_cant": "all Strings", "anchors": ["include/Caitlyn/__Core/String/String.h: ToUppercase, ToLowercase"]}
{"id": "C24", "title": "Bounds-checked access", "statement": "At(i) returns the i-th character when i < size() and throws std::out_of_range otherwise; it never reads out of bounds.", "quantifier": "every String and index", "why_tests_cant": "all indices", "anchors": ["include/Caitlyn/__Core/String/String.h: At"]}
{"id": "C25", "title": "KMP search is substring search", "statement": "kmp(pattern,text) returns true exactly when the pattern occurs in the text, for every non-empty pattern.", "quantifier": "every non-empty pattern and every text", "why_tests_cant": "correctness of a failure function is an inductive invariant over arbitrary self-overlaps; sample patterns do not exercise it", "anchors": ["include/Caitlyn/__Core/String/Algorithms/Kmp.h: kmp, get_kmp_failure_vec"]}
{"id": "C26", "title": "KMP terminates and stays in bounds", "statement": "kmp terminates and never reads outside pattern, text or failure table.", "quantifier": "every pattern and text (including empty)", "why_tests_cant": "termination and bounds for every input", "anchors": ["include/Caitlyn/__Core/String/Algorithms/Kmp.h: kmp, get_kmp_failure_vec"]}
{"id": "C27", "title": "Split and join", "statement": "Split(text,d) returns pieces without d whose join with d is the text (less one trailing delimiter if the text ends with one); the empty text gives no pieces.", "quantifier": "every byte string and delimiter", "why_tests_cant": "a round-trip law over all texts", "anchors": ["include/Caitlyn/__Core/String/Utility.h: Split"]}
{"id": "C28", "title": "Repeat", "statement": "Repeat(s,n) is n copies of s one after the other.", "quantifier": "every String and count", "why_tests_cant": "all counts including 0 and 1", "anchors": ["include/Caitlyn/__Core/String/Utility.h: Repeat"]}
{"id": "C29", "title": "Escape processing", "statement": "EscapeString replaces every recognised backslash escape by the character it denotes and copies everything else unchanged.", "quantifier": "every String", "why_tests_cant": "escapes can appear in any combination and position", "anchors": ["include/Caitlyn/__Core/String/Utility.h: EscapeString"]}
{"id": "C30", "title": "First and last non-space", "statement": "FindFirstNonSpace and FindLastNonSpace return the index of the first/last character that is not white space, and size() when there is none; IsNumber holds exactly for Strings of digits.", "quantifier": "every String", "why_tests_cant": "minimality/maximality over all Strings", "anchors": ["include/Caitlyn/__Core/String/Utility.h: FindFirstNonSpace, FindLastNonSpace, IsNumber"]}
{"id": "C31", "title": "Format: braces can be escaped", "statement": "For every text, formatting the text with each brace doubled returns the text itself, whatever the arguments.", "quantifier": "every text and argument list", "why_tests_cant": "every placement of braces in every text", "anchors": ["include/Caitlyn/__Core/String/String.h: Format"]}
{"id": "C32", "title": "Format: automatic placeholders are filled in order", "statement": "With n >= 2 arguments, a template with n placeholders {} separated by brace-free text is replaced by the arguments in order; argument text is never re-interpreted, even when it contains braces.", "quantifier": "every template of that shape and every argument list", "why_tests_cant": "all templates and argument contents", "anchors": ["include/Caitlyn/__Core/String/String.h: Format"]}
{"id": "C33", "title": "Format: positional placeholders", "statement": "A placeholder {i} is replaced by argument i (counting from 0) and an index out of range raises FormatError.", "quantifier": "every index and argument list", "why_tests_cant": "all indices, argument counts including zero", "anchors": ["include/Caitlyn/__Core/String/String.h: Format"]}
{"id": "C34", "title": "Format: width, fill and alignment", "statement": "Applying a width w to a value gives a text of exactly max(w, length) characters containing the value unchanged, padded with the fill on the right (<), left (>) or both sides with the extra one on the right (^).", "quantifier": "every value, width, fill and alignment", "why_tests_cant": "all widths, parities and value lengths", "anchors": ["include/Caitlyn/__Core/String/String.h: ProcessAlignment, MakeSpacifier, ParseAlignment, ParseWidth"]}
{"id": "C35", "title": "Format: precision of decimals", "statement": "A precision p > 0 with type f keeps the integer part and dot and exactly p decimals, truncating or zero-padding; precision 0 removes the decimals and the dot.", "quantifier": "every decimal text and precision", "why_tests_cant": "all lengths versus all precisions", "anchors": ["include/Caitlyn/__Core/String/String.h: ProcessFloating, ParsePrecision"]}
{"id": "C36", "title": "Format: unbalanced braces are errors", "statement": "A template that formats up to an opening brace that is never closed or a lone closing brace makes Format throw FormatError there, and Format never returns for an unbalanced template.", "quantifier": "every template and argument list", "why_tests_cant": "all positions of the offending brace", "anchors": ["include/Caitlyn/__Core/String/String.h: Format"]}
{"id": "C37", "title": "Format: never undefined behaviour", "statement": "Whatever the template and arguments, Format either returns or throws; it never reads outside the argument list or the template.", "quantifier": "every template and argument list", "why_tests_cant": "fuzzing cannot exhaust templates; out-of-range reads can go unnoticed", "anchors": ["include/Caitlyn/__Core/String/String.h: Format, ParseAlignment"]}
{"id": "C38", "title": "Format: a specification applies to the argument named", "statement": "In {i:spec} the specification applies to argument i, and successive {:spec} placeholders consume successive arguments.", "quantifier": "every index, specification and argument list", "why_tests_cant": "all argument counts and orders", "anchors": ["include/Caitlyn/__Core/String/String.h: Format, MakeSpacifier"]}
{"id": "C39", "title": "BigInteger text round trip", "statement": "A BigInteger built from an optionally signed ASCII decimal numeral denotes that number; ToString returns its canonical decimal numeral, and building from ToString gives an equal BigInteger.", "quantifier": "every decimal numeral of any length", "why_tests_cant": "numerals of unbounded length", "anchors": ["include/Caitlyn/__Numeric/Types/BigInteger.h: BigInteger(const String&), ToString, RemoveLeadingZeros"]}
{"id": "C40", "title": "BigInteger addition", "statement": "Add returns the exact sum.", "quantifier": "every pair of integers of any size and sign", "why_tests_cant": "unbounded integers, carry chains of any length, all sign combinations", "anchors": ["include/Caitlyn/__Numeric/Types/BigInteger.h: Add, operator+"]}
{"id": "C41", "title": "BigInteger subtraction", "statement": "Subtract returns the exact difference.", "quantifier": "every pair of integers of any size and sign", "why_tests_cant": "unbounded integers, borrow chains of any length, all sign combinations", "anchors": ["include/Caitlyn/__Numeric/Types/BigInteger.h: Subtract, operator-"]}
{"id": "C42", "title": "BigInteger multiplication", "statement": "Multiply returns the exact product in canonical form, never writing outside the result digits.", "quantifier": "every pair of integers of any size and sign", "why_tests_cant": "unbounded integers", "anchors": ["include/Caitlyn/__Numeric/Types/BigInteger.h: Multiply, operator*, Sqr"]}
{"id": "C43", "title": "BigInteger division", "statement": "Divide by a non-zero integer returns the quotient truncated towards zero in canonical form; dividing by zero throws.", "quantifier": "every pair of integers of any size and sign", "why_tests_cant": "unbounded integers; quotient digit selection must be right at every step", "anchors": ["include/Caitlyn/__Numeric/Types/BigInteger.h: Divide, operator/"]}
{"id": "C44", "title": "BigInteger remainder", "statement": "Modulo returns the remainder of truncated division (sign of the dividend), so a == (a / b) * b + a % b.", "quantifier": "every pair of integers, divisor non-zero", "why_tests_cant": "unbounded integers", "anchors": ["include/Caitlyn/__Numeric/Types/BigInteger.h: Modulo, operator%"]}
{"id": "C45", "title": "BigInteger power and absolute value", "statement": "Pow(n) returns the exact n-th power for n >= 0 and throws for n < 0; Sqr is the square; Abs the absolute value.", "quantifier": "every integer and every int exponent", "why_tests_cant": "unbounded bases and exponents", "anchors": ["include/Caitlyn/__Numeric/Types/BigInteger.h: Pow, Sqr, Abs"]}
{"id": "C46", "title": "BigInteger square root", "statement": "Sqrt of a non-negative integer terminates and returns the floor of the square root; of a negative one throws.", "quantifier": "every integer", "why_tests_cant": "unbounded integers; binary search termination", "anchors": ["include/Caitlyn/__Numeric/Types/BigInteger.h: Sqrt"]}
{"id": "C47", "title": "BigInteger order", "statement": "LessThan and GreaterThan agree with the numerical order (a strict total order).", "quantifier": "every pair of integers", "why_tests_cant": "all sign combinations and lengths", "anchors": ["include/Caitlyn/__Numeric/Types/BigInteger.h: LessThan, GreaterThan, operator<, operator>, operator<=, operator>="]}
{"id": "C48", "title": "BigInteger equality is numerical equality", "statement": "Two BigIntegers that denote the same number compare Equal, whatever operations produced them (in particular there is one zero).", "quantifier": "every BigInteger obtainable through the public operations", "why_tests_cant": "ranges over all operation histories", "anchors": ["include/Caitlyn/__Numeric/Types/BigInteger.h: Equal, operator==, Add, Modulo"]}
{"id": "C49", "title": "BigInteger construction rejects non-numerals", "statement": "Construction throws unless the text is an optional sign followed by at least one ASCII decimal digit.", "quantifier": "every String", "why_tests_cant": "all malformed numerals", "anchors": ["include/Caitlyn/__Numeric/Types/BigInteger.h: BigInteger(const String&)"]}
{"id": "C50", "title": "Dividing by zero always throws", "statement": "Divide throws whenever the divisor denotes zero, however the divisor was computed.", "quantifier": "every dividend and every zero-valued BigInteger obtainable through the public operations", "why_tests_cant": "ranges over operation histories", "anchors": ["include/Caitlyn/__Numeric/Types/BigInteger.h: Divide, Add, Modulo"]}
{"id": "C51", "title": "BigFloat keeps the decimal it was given", "statement": "A BigFloat built from a decimal numeral prints that decimal back and different decimals stay different.", "quantifier": "every decimal numeral", "why_tests_cant": "all numerals, in particular fractions with leading zeros and small negatives", "anchors": ["include/Caitlyn/__Numeric/Types/BigFloat.h: BigFloat(const String&), ToString, Equal"]}
{"id": "C52", "title": "BigFloat addition and subtraction terminate", "statement": "Add and Subtract return for every pair of operands.", "quantifier": "every pair of BigFloats", "why_tests_cant": "non-termination cannot be tested for", "anchors": ["include/Caitlyn/__Numeric/Types/BigFloat.h: Add, Subtract"]}
{"id": "C53", "title": "BigFloat addition", "statement": "Add returns the exact sum of two non-negative decimals.", "quantifier": "every pair of non-negative decimals", "why_tests_cant": "unbounded digits, all carries", "anchors": ["include/Caitlyn/__Numeric/Types/BigFloat.h: Add"]}
{"id": "C54", "title": "BigFloat multiplication", "statement": "Multiply returns the exact product.", "quantifier": "every pair of decimals", "why_tests_cant": "unbounded digits", "anchors": ["include/Caitlyn/__Numeric/Types/BigFloat.h: Multiply"]}
{"id": "C55", "title": "BigFloat division", "statement": "Divide by a non-zero decimal returns the quotient to the precision kept, and terminates.", "quantifier": "every pair of decimals, divisor non-zero", "why_tests_cant": "all combinations of fraction lengths", "anchors": ["include/Caitlyn/__Numeric/Types/BigFloat.h: Divide"]}
{"id": "C56", "title": "BigFloat order", "statement": "LessThan and Equal agree with the numerical order of the decimals.", "quantifier": "every pair of decimals", "why_tests_cant": "all fraction lengths", "anchors": ["include/Caitlyn/__Numeric/Types/BigFloat.h: LessThan, Equal, GreaterThan"]}
{"id": "C57", "title": "BigFloat square root and power of whole numbers", "statement": "Sqrt of a whole number terminates with the floor of its square root and Pow gives the exact power.", "quantifier": "every non-negative whole number, every exponent", "why_tests_cant": "unbounded", "anchors": ["include/Caitlyn/__Numeric/Types/BigFloat.h: Sqrt, Pow, Sqr"]}
{"id": "C58", "title": "JSON print/parse round trip", "statement": "Printing a document and parsing the text gives back an equal document, in compact and pretty mode with any indent.", "quantifier": "every JSON tree (any depth, width, content) and every indent", "why_tests_cant": "trees are unbounded; round trip is a universally quantified law", "anchors": ["include/Caitlyn/__Serializing/Json/Types/JsonData.h: ToString, MakeOutput", "include/Caitlyn/__Serializing/Json/Types/JsonParser.h: Parse, ParseValue"]}
{"id": "C59", "title": "JSON parsing terminates", "statement": "Parse terminates on every input, and never nests deeper than the input is long.", "quantifier": "every String", "why_tests_cant": "termination on all inputs", "anchors": ["include/Caitlyn/__Serializing/Json/Types/JsonParser.h: Parse, ParseValue, ParseObject, ParseArray, ParseString, ParseNumber, SkipSpace"]}
{"id": "C60", "title": "A parse failure is reported", "statement": "Once any part of the input is rejected the overall Parse reports an error, the document becomes Null and HasError is true; a document without error reports NoError and an Object root.", "quantifier": "every String", "why_tests_cant": "errors can occur at any depth and be followed by anything", "anchors": ["include/Caitlyn/__Serializing/Json/Types/JsonParser.h: Parse, HasError", "include/Caitlyn/__Serializing/Json/Types/Json.h: JsonDocument::Parse, HasError"]}
{"id": "C61", "title": "JSON parsing is memory safe", "statement": "Parse never reads outside the input and only signals problems through GetError.", "quantifier": "every String", "why_tests_cant": "out-of-range reads are silent; inputs infinite", "anchors": ["include/Caitlyn/__Serializing/Json/Types/JsonParser.h: Parse, ParseObject, ParseArray, ParseString", "include/Caitlyn/__Core/String/Utility.h: FindFirstNonSpace, FindLastNonSpace"]}
{"id": "C62", "title": "Only JSON texts are accepted", "statement": "A text accepted without error is a JSON object followed by nothing but white space.", "quantifier": "every String", "why_tests_cant": "all non-JSON texts", "anchors": ["include/Caitlyn/__Serializing/Json/Types/JsonParser.h: Parse, ParseObject"]}
{"id": "C63", "title": "Literals are recognised wherever they stand", "statement": "true, false and null are recognised at every position of the text whatever characters come before.", "quantifier": "every document, every text before the literal", "why_tests_cant": "all prefixes, including multi-byte ones", "anchors": ["include/Caitlyn/__Serializing/Json/Types/JsonParser.h: ParseBoolean, ParseNull"]}
{"id": "C64", "title": "JSON numbers keep their value", "statement": "An integer literal within 64-bit range parses to that integer, one outside the range is reported, and a literal with a decimal point parses to that decimal.", "quantifier": "every number literal", "why_tests_cant": "all literals", "anchors": ["include/Caitlyn/__Serializing/Json/Types/JsonParser.h: ParseNumber"]}
{"id": "C65", "title": "JSON string values keep their characters", "statement": "A string value without backslash is parsed to exactly its characters; an escape sequence stands for one character and the characters after it are kept.", "quantifier": "every string literal", "why_tests_cant": "all strings and escape placements", "anchors": ["include/Caitlyn/__Serializing/Json/Types/JsonParser.h: ParseString"]}
{"id": "C66", "title": "A JSON object is an insertion-ordered map", "statement": "Reading a key returns the last value stored under it, storing one key does not affect other keys or their order, new keys go last, removal removes exactly that key, Size counts keys, and keys stay unique through every sequence of operations.", "quantifier": "every sequence of object operations", "why_tests_cant": "ranges over all operation histories", "anchors": ["include/Caitlyn/__Serializing/Json/Types/JsonData.h: operator[](const StringType&), HasMember, Size, At, Insert", "include/Caitlyn/__Serializing/Json/Types/Json.h: AddMember, RemoveMember, HasMember, Size"]}
{"id": "C67", "title": "JSON arrays", "statement": "Append adds exactly the given values at the end, indexing within the size returns them in order, At throws std::out_of_range outside, and writing through operator[] beyond the end extends the array with nulls.", "quantifier": "every array and index", "why_tests_cant": "all indices", "anchors": ["include/Caitlyn/__Serializing/Json/Types/JsonData.h: Append, operator[](SizeType), At, Size"]}
{"id": "C68", "title": "Access to JSON values of the wrong kind is defined", "statement": "Reading a member or element of a value that is not an object/array throws and never misbehaves.", "quantifier": "every value and key or index", "why_tests_cant": "all kinds of values", "anchors": ["include/Caitlyn/__Serializing/Json/Types/JsonData.h: At", "include/Caitlyn/__Serializing/Json/Types/Json.h: operator[] const"]}
{"id": "C69", "title": "Assigning a JSON value from inside itself", "statement": "a = a[\"k\"] replaces a by a copy of its member, as it does for any other source.", "quantifier": "every tree and pair of paths into it", "why_tests_cant": "aliasing between source and target, all pairs of paths", "anchors": ["include/Caitlyn/__Serializing/Json/Types/JsonData.h: operator=(const JsonData&), DestroyUnion, CopyUnion"]}
{"id": "C70", "title": "JSON factory functions build the kind they name", "statement": "MakeIntegral, MakeFloating, MakeBoolean, MakeString, MakeNull, MakeArray, MakeObject return a value of that kind holding the given content.", "quantifier": "every argument", "why_tests_cant": "all arguments", "anchors": ["include/Caitlyn/__Serializing/Json/Types/JsonData.h: MakeIntegral, MakeFloating, MakeBoolean, MakeString, MakeNull, MakeArray, MakeObject"]}
{"id": "C71", "title": "Every JSON error has its own message", "statement": "GetErrorString maps different errors to different messages.", "quantifier": "every pair of errors", "why_tests_cant": "a completeness property of a table", "anchors": ["include/Caitlyn/__Serializing/Json/Utility.h: GetErrorString"]}
{"id": "C72", "title": "Expected: accessors follow the state", "statement": "Get returns the value exactly when one is held and throws otherwise; GetError the converse; UnwrapOr/UnwrapOrElse return the value or the fallback; HasValue tells which.", "quantifier": "every value, error and fallback", "why_tests_cant": "laws over arbitrary types and values", "anchors": ["include/Caitlyn/__Core/Error/Expected.h: Get, GetError, UnwrapOr, UnwrapOrElse, HasValue, Expect, ExpectError"]}
{"id": "C73", "title": "Expected: functor and monad laws", "statement": "Map and AndThen satisfy the functor and monad laws, leave errors untouched, and never call the function on an error; OrElse is the dual on errors.", "quantifier": "every Expected and every pair of functions", "why_tests_cant": "laws over all functions", "anchors": ["include/Caitlyn/__Core/Error/Expected.h: Map, AndThen, Then, OrElse, CatchError, Fold, MapError, Inspect"]}
{"id": "C74", "title": "Expected: every held object is destroyed exactly once", "statement": "Through every sequence of construction, assignment and destruction, each value or error object ever constructed inside an Expected is destroyed exactly once, and never used after destruction.", "quantifier": "every history of construct/assign/destroy operations on any number of Expecteds", "why_tests_cant": "object lifetimes range over all histories", "anchors": ["include/Caitlyn/__Core/Error/Expected.h: Expected(const Expected&), operator=, ~Expected, DestroyUnion"]}
{"id": "C75", "title": "Expected: assignment is safe when copying throws", "statement": "If copying the value throws during assignment the target is still destroyed exactly once.", "quantifier": "every history with copy failures at any point", "why_tests_cant": "every crash point of every history", "anchors": ["include/Caitlyn/__Core/Error/Expected.h: operator=(const Expected&)"]}
{"id": "C76", "title": "UniquePtr: exactly-once deletion", "statement": "Through every sequence of create, move, reset and destroy, an owned object is deleted exactly once, when its owner lets go of it, never twice, never while owned, and is not leaked.", "quantifier": "every history of operations on any number of UniquePtrs", "why_tests_cant": "all histories", "anchors": ["include/Caitlyn/__Core/Memory/Types/UniquePointer.h: UniquePtr, operator=, Reset, ~UniquePtr"]}
{"id": "C77", "title": "SharedPtr: the count is the number of owners", "statement": "In every history, under every interleaving of threads, the reference count of an object equals the number of SharedPtrs that own it.", "quantifier": "every history and schedule", "why_tests_cant": "all interleavings of atomic steps", "anchors": ["include/Caitlyn/__Core/Memory/Types/SharedPointer.h: SharedPtr, operator=, Reset, Release, ~SharedPtr"]}
{"id": "C78", "title": "SharedPtr: the object is deleted when the last owner goes", "statement": "When the last SharedPtr owning an object is destroyed or reset, the object is deleted.", "quantifier": "every history and schedule", "why_tests_cant": "leaks are invisible to unit tests", "anchors": ["include/Caitlyn/__Core/Memory/Types/SharedPointer.h: Release"]}
{"id": "C79", "title": "SharedPtr: never used after deletion, never deleted twice", "statement": "In every history no object is deleted twice or accessed after deletion through a SharedPtr.", "quantifier": "every history and schedule", "why_tests_cant": "use-after-free depends on the schedule", "anchors": ["include/Caitlyn/__Core/Memory/Types/SharedPointer.h: Release, operator*, operator->"]}
{"id": "C80", "title": "SharedPtr and WeakPtr: null pointers can be copied", "statement": "Copying a null SharedPtr (or a WeakPtr without target) is defined and gives a null one.", "quantifier": "every null pointer state", "why_tests_cant": "null dereference in a copy is undefined behaviour", "anchors": ["include/Caitlyn/__Core/Memory/Types/SharedPointer.h: SharedPtr(const SharedPtr&)", "include/Caitlyn/__Core/Memory/Types/WeakPointer.h: WeakPtr(const WeakPtr&), WeakPtr(const Resource&)"]}
{"id": "C81", "title": "WeakPtr does not keep its target alive", "statement": "A WeakPtr does not count as an owner: after the last SharedPtr is gone it is expired.", "quantifier": "every history", "why_tests_cant": "all histories of owners and observers", "anchors": ["include/Caitlyn/__Core/Memory/Types/WeakPointer.h: WeakPtr, expired, lock"]}
{"id": "C82", "title": "Dereferencing a null smart pointer throws", "statement": "operator* and operator-> of a null UniquePtr, Ptr or SharedPtr throw instead of misbehaving.", "quantifier": "every pointer state", "why_tests_cant": "all states", "anchors": ["include/Caitlyn/__Core/Memory/Types/UniquePointer.h: operator*, operator->", "include/Caitlyn/__Core/Memory/Types/RawPointer.h: operator*, operator->", "include/Caitlyn/__Core/Memory/Types/SharedPointer.h: operator*, operator->"]}
{"id": "C83", "title": "Safe integer comparison", "statement": "cmp_eq and cmp_less give the mathematical answer for every pair of integer types (any width, any signedness) and every pair of values.", "quantifier": "every pair of integer types of width 8, 16, 32, 64 and all their values", "why_tests_cant": "2^128 value pairs per type pair; conversions are subtle", "anchors": ["include/Caitlyn/__Core/Utility/Comparators.h: cmp_eq, cmp_less"]}
{"id": "C84", "title": "Test runner exit code", "statement": "RunAll returns 0 exactly when every registered test ran without throwing, and 1 otherwise.", "quantifier": "every set of registered tests and outcomes", "why_tests_cant": "all registries", "anchors": ["include/Caitlyn/__Testing/Types/TestRegistry.h: RunAll"]}
{"id": "C85", "title": "Test runner runs each test exactly once, in order", "statement": "RunAll runs every registered test exactly once, suites in name order, tests of a suite in registration order, and passed + failed equals the number of tests.", "quantifier": "every registry and outcome assignment", "why_tests_cant": "all registries", "anchors": ["include/Caitlyn/__Testing/Types/TestRegistry.h: AddTest, RunAll"]}
{"id": "C86", "title": "Test summary lists exactly the failures", "statement": "The summary names exactly the tests that failed.", "quantifier": "every registry and outcome assignment", "why_tests_cant": "all registries", "anchors": ["include/Caitlyn/__Testing/Types/TestRegistry.h: RunAll, LogSummary"]}
{"id": "C87", "title": "A failing test does not stop the run", "statement": "Whatever exception a test throws, the remaining tests still run.", "quantifier": "every registry and every thrown exception and message", "why_tests_cant": "all messages, including non-UTF-8 ones", "anchors": ["include/Caitlyn/__Testing/Types/TestRegistry.h: RunAll, LogTestFailure"]}
{"id": "C88", "title": "Running the tests twice", "statement": "A second RunAll reports the results of the second run.", "quantifier": "every registry and pair of outcome assignments", "why_tests_cant": "all histories of runs", "anchors": ["include/Caitlyn/__Testing/Types/TestRegistry.h: RunAll"]}
{"id": "C89", "title": "Application initialises once", "statement": "The first Initialise/Initialize succeeds and records the arguments; any later one throws and changes nothing.", "quantifier": "every sequence of initialisation calls", "why_tests_cant": "all histories", "anchors": ["include/Caitlyn/__Caitlyn/Application.h: Initialise, Initialize, GetArgs"]}
{"id": "C90", "title": "StringBuilder accumulates", "statement": "str() after any sequence of Append/AppendLine is the concatenation of the appended texts in order.", "quantifier": "every sequence of appends", "why_tests_cant": "all histories", "anchors": ["include/Caitlyn/__Core/String/StringBuilder.h: Append, AppendLine, str"]}
{"id": "C91", "title": "A copied StringBuilder continues where the original was", "statement": "Appending to a copy of a StringBuilder adds after the copied text.", "quantifier": "every history of copies and appends", "why_tests_cant": "all histories", "anchors": ["include/Caitlyn/__Core/String/StringBuilder.h: StringBuilder(const StringBuilder&), operator="]}
{"id": "C92", "title": "Reading a file line by line", "statement": "Successive ReadLine calls return the lines of the file in order, nothing lost or repeated, until the end is reached.", "quantifier": "every file content and delimiter", "why_tests_cant": "all contents", "anchors": ["include/Caitlyn/__Core/File/File.h: ReadLine"]}
{"id": "C93", "title": "Written data reaches the file", "statement": "Data passed to Write/WriteLine/Append/AppendLine is in the file afterwards, at the end, whatever was read before.", "quantifier": "every history of reads and writes on a File", "why_tests_cant": "all histories of stream states", "anchors": ["include/Caitlyn/__Core/File/File.h: Write, WriteLine, Append, AppendLine"]}
{"id": "C94", "title": "Reading a whole file", "statement": "Read returns the content of the file.", "quantifier": "every file content", "why_tests_cant": "all contents; over-reads are silent", "anchors": ["include/Caitlyn/__Core/File/File.h: Read"]}
{"id": "C95", "title": "Map keys and values", "statement": "GetMapKeys and GetMapValues return the keys/values of every entry in map order, pairwise matching.", "quantifier": "every map", "why_tests_cant": "all maps", "anchors": ["include/Caitlyn/__Core/Collections/Utility/MapUtility.h: GetMapKeys, GetMapValues"]}
{"id": "C96", "title": "Case of the basic Latin, Cyrillic and Greek letters", "statement": "For the small letters a-z, а-я, α-ω (without final sigma) ToUppercase gives the capital 0x20 below, ToLowercase gives it back, both are fixed by the conversion in their own direction, and IsLowercase/IsUppercase classify them.", "quantifier": "every letter of the three alphabets", "why_tests_cant": "agreement of four functions at every letter", "anchors": ["include/Caitlyn/__Core/Char/Utility.h: ToUppercase, ToLowercase, IsUppercase, IsLowercase"]}
{"id": "C97", "title": "Case conversion of a letter can be undone", "statement": "For every c that IsLowercase accepts, ToLowercase(ToUppercase(c)) == c; for every c that IsUppercase accepts, ToUppercase(ToLowercase(c)) == c.", "quantifier": "every 32-bit code point", "why_tests_cant": "a law over all letters, including the extended Greek ranges", "anchors": ["include/Caitlyn/__Core/Char/Utility.h: ToUppercase, ToLowercase, IsUppercase, IsLowercase"]}
{"id": "C98", "title": "Latin Extended-A letters pair up", "statement": "For each capital/small pair of Latin Extended-A handled by the library, ToUppercase of the small letter is the capital and ToLowercase of the capital is the small letter.", "quantifier": "every pair in 0x100-0x12F, 0x132-0x137, 0x139-0x148, 0x14A-0x177", "why_tests_cant": "parity conventions change inside the block", "anchors": ["include/Caitlyn/__Core/Char/Utility.h: ToUppercase, ToLowercase"]}
{"id": "C99", "title": "Reading again after Close or Erase", "statement": "After Close or Erase, the next ReadLine works and reads from the beginning of the file.", "quantifier": "every file, position and history", "why_tests_cant": "all positions and contents; the remembered position survives silently", "anchors": ["include/Caitlyn/__Core/File/File.h: Close, Erase, ReadLine"]}
{"id": "C100", "title": "Moving a JSON value", "statement": "Moving one JSON value into another transfers the value, leaves null behind and affects nothing else, wherever the two values are; a moved-from document is Null without error.", "quantifier": "every tree and pair of nodes, every document", "why_tests_cant": "The pairs of nodes that go wrong are those where one contains the other; tests only move between unrelated values.", "anchors": ["include/Caitlyn/__Serializing/Json/Types/JsonData.h:111-120", "include/Caitlyn/__Serializing/Json/Types/JsonData.h:507-560", "include/Caitlyn/__Serializing/Json/Types/Json.h:52-56"]}
{"id": "C101", "title": "The reported error names the cause", "statement": "When Parse rejects a text, GetError names what is wrong with it: a misspelt literal is InvalidValue, a bad number InvalidNumber or OutOfRangeError, an object or array that is not closed UnterminatedObject or UnterminatedArray.", "quantifier": "every rejected String", "why_tests_cant": "That a code is never reported is a statement about every text.", "anchors": ["include/Caitlyn/__Serializing/Json/Types/JsonParser.h: SetError, ParseObject, ParseArray", "include/Caitlyn/__Serializing/Json/Types/JsonError.h"]}
{"id": "C102", "title": "Type category traits", "statement": "IsVoid, IsNullptr, IsBoolean, IsIntegral, IsFloatingPoint, IsArray, IsPointer, IsLValueReference, IsRValueReference and the concepts over them give the categories of the C++ standard.", "quantifier": "every type built from the fundamental types, classes, pointers, references, arrays and qualifiers", "why_tests_cant": "There are infinitely many types; tests use unqualified ints.", "anchors": ["include/Caitlyn/__Core/Traits/Types/Primary.h", "include/Caitlyn/__Core/Traits/Constraints/Primary.h"]}
{"id": "C103", "title": "Adding and removing const and volatile", "statement": "AddConst, AddVolatile, AddCV, RemoveConst, RemoveVolatile and RemoveCV change exactly the qualifiers they name at the top level of the type.", "quantifier": "every well-formed type", "why_tests_cant": "The combinations of both qualifiers, references and nested types are open-ended.", "anchors": ["include/Caitlyn/__Core/Traits/Types/Specifiers.h"]}
{"id": "C104", "title": "Adding and removing references and pointers", "statement": "AddLValueReference, AddRValueReference, RemoveReference, AddPointer and RemovePointer give the types of the standard traits, with reference collapsing and without pointers to references.", "quantifier": "every well-formed type", "why_tests_cant": "Arguments that are themselves references or functions are rarely tried.", "anchors": ["include/Caitlyn/__Core/Traits/Types/References.h", "include/Caitlyn/__Core/Traits/Types/Pointers.h"]}
{"id": "C105", "title": "Signed and unsigned counterparts", "statement": "MakeSigned and MakeUnsigned give the integer type of the same width and the named signedness, exactly for integer types; IsSigned and IsUnsigned agree with the values of the type.", "quantifier": "every fundamental type with every qualification", "why_tests_cant": "The table must hold for all integer types.", "anchors": ["include/Caitlyn/__Core/Traits/Types/SignModifiers.h", "include/Caitlyn/__Core/Traits/Constraints/Properties.h"]}
{"id": "C106", "title": "Numeric type queries", "statement": "Rank is the number of dimensions of an array type, Extent the size of the first, AlignmentOf the alignment.", "quantifier": "every type", "why_tests_cant": "One-dimensional cases hide that the answers are converted to bool.", "anchors": ["include/Caitlyn/__Core/Traits/Constraints/PropertyQueries.h", "include/Caitlyn/__Core/Traits/Types/Properties.h"]}
{"id": "C107", "title": "Operator detection", "statement": "Each HasOperator constraint holds exactly for the types whose values can be combined with that operator.", "quantifier": "every type and every table of available operators", "why_tests_cant": "A type supporting one operator but not a related one is needed for each pair.", "anchors": ["include/Caitlyn/__Core/Traits/Types/Operators.h", "include/Caitlyn/__Core/Traits/Constraints/Operations.h"]}
{"id": "C108", "title": "Values as Format arguments", "statement": "Format shows integers as decimal numerals, booleans as true and false, characters as themselves and strings as their text, in the places the template names.", "quantifier": "every template and every list of values", "why_tests_cant": "All lists of values of mixed types.", "anchors": ["include/Caitlyn/__Core/String/String.h:546-567", "include/Caitlyn/__Core/String/String.h:711-757"]}
{"id": "C109", "title": "Reading the console by lines", "statement": "Successive calls of ReadLine return the lines of the input in order, without their terminators, and the end of the input can be told from an empty line.", "quantifier": "every input and every number of calls", "why_tests_cant": "All inputs, including ends without newline and malformed UTF-8.", "anchors": ["include/Caitlyn/__Core/IO/Stream.h: ReadLine"]}
{"id": "C110", "title": "Reading the console by characters", "statement": "Successive calls of ReadChar return the characters of the input in order.", "quantifier": "every input", "why_tests_cant": "All inputs; the loss shows only with several characters in a line or with empty lines.", "anchors": ["include/Caitlyn/__Core/IO/Stream.h: ReadChar"]}
{"id": "C111", "title": "Console output in order", "statement": "The output and error channels receive exactly the bytes of the written Strings, in order, with a newline after each WriteLine; a write to one does not affect the other.", "quantifier": "every sequence of calls", "why_tests_cant": "All interleavings of calls.", "anchors": ["include/Caitlyn/__Core/IO/Stream.h: Write, WriteLine, Error, ErrorLine"]}
{"id": "C112", "title": "Relation assertions", "statement": "ASSERT_EQ, NE, LT, LE, GT and GE pass exactly when the named relation holds of the values; otherwise they throw a message with both expressions and values.", "quantifier": "all operands, values and evaluation orders", "why_tests_cant": "All pairs of values for six macros.", "anchors": ["include/Caitlyn/__Testing/Macro/Assert.h"]}
{"id": "C113", "title": "Assertion operands are evaluated once", "statement": "Each assertion macro evaluates each of its operands exactly once.", "quantifier": "all operands with any effects", "why_tests_cant": "Effects in operands are invisible in tests with pure operands.", "anchors": ["include/Caitlyn/__Testing/Macro/Assert.h"]}
{"id": "C114", "title": "Assertions are statements", "statement": "An assertion macro followed by a semicolon behaves as one statement wherever a statement may stand.", "quantifier": "every condition, assertion and else branch", "why_tests_cant": "A syntactic capture shows only in one context.", "anchors": ["include/Caitlyn/__Testing/Macro/Assert.h: ASSERT_TRUE, ASSERT_FALSE"]}
{"id": "C115", "title": "Failures are reported to the runner", "statement": "FAIL, FAIL_MESSAGE and a failing ASSERT_STREQ throw a std::exception that carries the whole message; PASS and a passing ASSERT_STREQ return.", "quantifier": "all strings, files, lines and message pieces", "why_tests_cant": "All messages; an ending process cannot be observed from inside the test run.", "anchors": ["include/Caitlyn/__Testing/Macro/Assert.h: ASSERT_STREQ, FAIL, PASS", "include/Caitlyn/__Testing/Types/TestFailMessage.h"]}
{"id": "C116", "title": "Raw pointers Ptr", "statement": "A Ptr deletes only on Reset or Destroy and is null afterwards; dereferencing null throws; no object is deleted twice and no deleted object is used.", "quantifier": "every sequence of operations on any number of Ptrs", "why_tests_cant": "All histories; the faulty ones involve several Ptrs to one object.", "anchors": ["include/Caitlyn/__Core/Memory/Types/RawPointer.h"]}
{"id": "C117", "title": "Positioning in a file", "statement": "After SetPosition(p) ReadLine returns the text from byte p to the next delimiter, GetPosition reports the place reached, and a refused SetPosition changes nothing.", "quantifier": "every file content, state and position", "why_tests_cant": "all states and positions; the refused call silently keeps the position", "anchors": ["include/Caitlyn/__Core/File/File.h: SetPosition, GetPosition, ReadLine"]}
{"id": "C118", "title": "JsonData is a value type", "statement": "A JsonData variable denotes one value; a copy denotes the same value, and changing, moving or destroying one variable is never seen through another, although every element is a separate heap object reached through a pointer.", "quantifier": "every program of constructions, copies, moves, assignments, indexing, appends, removals and scope ends on any number of variables", "why_tests_cant": "all interleavings of operations and all nestings and aliasings of references", "anchors": ["include/Caitlyn/__Serializing/Json/Types/JsonData.h: constructors, operator=, operator[], Append, CopyUnion, MoveUnion, DestroyUnion, SetType", "include/Caitlyn/__Serializing/Json/Types/Json.h:134"]}
{"id": "C119", "title": "JsonData owns its elements", "statement": "Every element is owned by one JsonData, deleted exactly once, never used after deletion, and deleted at the latest when the variable that owns it leaves its scope, with the strings in it.", "quantifier": "every program of constructions, copies, moves, assignments, indexing, appends, removals and scope ends on any number of variables", "why_tests_cant": "leaks and double deletes depend on the history and on aliasing; leaks are invisible to tests", "anchors": ["include/Caitlyn/__Serializing/Json/Types/JsonData.h: ~JsonData, DestroyUnion, CopyUnion, MoveUnion, SetType", "include/Caitlyn/__Serializing/Json/Types/Json.h:134"]}
{"id": "C120", "title": "Filling, emptying and streaming Strings", "statement": "String(n, c) has n elements equal to c, and refuses a char that is no character; Clear and Empty give a String without characters; a String written with operator<< and read back as a line is the same String.", "quantifier": "every count, character and String", "why_tests_cant": "all lengths and all bytes", "anchors": ["include/Caitlyn/__Core/String/String.h:83-97", "include/Caitlyn/__Core/String/String.h:300-303", "include/Caitlyn/__Core/String/String.h:458-466", "include/Caitlyn/__Core/String/String.h:540-543", "include/Caitlyn/__Core/String/String.h:1011-1026"]}
{"id": "C121", "title": "FindIf and FindIfNot", "statement": "FindIf (FindIfNot) returns the first index from the given position on whose character satisfies (does not satisfy) the predicate, NPosition if there is none, and never leaves the String.", "quantifier": "every String, predicate and start position", "why_tests_cant": "all predicates", "anchors": ["include/Caitlyn/__Core/String/String.h:442-455"]}
{"id": "C122", "title": "Assigning C++ values to JsonData", "statement": "After assigning a bool, an integer, a floating value or a text, whatever the JsonData held before, its type and getter give that value; a refused text leaves the JsonData as it was; IsX() holds for exactly the type X.", "quantifier": "every previous value and every assigned value", "why_tests_cant": "all previous values; integers beyond Int64; texts that are refused", "anchors": ["include/Caitlyn/__Serializing/Json/Types/JsonData.h:64-153", "include/Caitlyn/__Serializing/Json/Types/JsonData.h:271-339", "include/Caitlyn/__Serializing/Json/Types/Json.h:159-177"]}
{"id": "C123", "title": "Reading Strings with operator>>", "statement": "is >> s takes the next line; the usual loop while (is >> s) goes through the lines of the input and ends at its end.", "quantifier": "every input text and every previous content", "why_tests_cant": "inputs with and without a final line feed, a loop that never ends", "anchors": ["include/Caitlyn/__Core/String/String.h:1011-1020"]}
{"id": "C124", "title": "Abs, Size and construction of BigFloat", "statement": "Abs() is the absolute value, Size() the number of digits, BigFloat() is zero, and a C string gives the same number as the String of its text.", "quantifier": "every BigFloat obtained by the public operations", "why_tests_cant": "all numbers", "anchors": ["include/Caitlyn/__Numeric/Types/BigFloat.h:31-39", "include/Caitlyn/__Numeric/Types/BigFloat.h:236-241", "include/Caitlyn/__Numeric/Types/BigFloat.h:304-307"]}
{"id": "C125", "title": "BigFloat from a double", "statement": "BigFloat(d) is the number d to six decimal places; infinities and NaNs are refused.", "quantifier": "every double", "why_tests_cant": "all values of a double; values with zeros after the decimal point", "anchors": ["include/Caitlyn/__Numeric/Types/BigFloat.h:33-35"]}
{"id": "C126", "title": "Programs over BigInteger variables", "statement": "A program that declares BigIntegers, copies, moves and swaps them (also onto themselves) and multiplies, divides, takes absolute values and powers computes the integers it stands for; a BigInteger that was moved from is 0; the program ends with invalid_argument exactly when it divides by zero or uses a negative exponent.", "quantifier": "every program, any number of variables and statements", "why_tests_cant": "all sequences of copies and moves; aliasing of the operands", "anchors": ["include/Caitlyn/__Numeric/Types/BigInteger.h:83-110", "include/Caitlyn/__Numeric/Types/BigInteger.h:37-81"]}
{"id": "C127", "title": "Programs over String and BigFloat variables", "statement": "A program that declares Strings, copies, moves, swaps and appends them ends with the texts it stands for, a String that was moved from being empty; likewise BigFloats, 0 when moved from.", "quantifier": "every program, any number of variables and statements", "why_tests_cant": "all sequences of copies and moves; aliasing", "anchors": ["include/Caitlyn/__Core/String/String.h:111-141", "include/Caitlyn/__Numeric/Types/BigFloat.h:70-105"]}
{"id": "C128", "title": "The log of the test runner and its times", "statement": "Whenever RunAll returns, its log lists suite by suite every test that was called and how it ended with the message of the failure; a test shows its own duration, a suite the sum over its tests, the last line that of the whole run.", "quantifier": "every set of tests, every behaviour of them, every sequence of clock readings", "why_tests_cant": "all clocks and all mixes of passing and failing tests", "anchors": ["include/Caitlyn/__Testing/Types/TestRegistry.h:50-194"]}
{"id": "C129", "title": "Which tests can stand in one file", "statement": "Tests defined with TEST and TEST_F that have different names of suite and test can be defined in one file.", "quantifier": "every set of macro uses and every choice of names", "why_tests_cant": "all names", "anchors": ["include/Caitlyn/__Testing/Macro/Test.h:22-37", "include/Caitlyn/__Testing/Macro/TestFixture.h:22-40"]}
{"id": "C130", "title": "Random integers", "statement": "Random<T>(min, max) returns a number from min to max, and every such number is given by equally many words of the random engine.", "quantifier": "every integer type, every min <= max, every reading of the clock", "why_tests_cant": "2^64 engine words and all ranges cannot be enumerated; a skew of one word in 2^64 is invisible to tests", "anchors": ["include/Caitlyn/__Core/Utility/Random.h:31-73"]}
{"id": "C131", "title": "RandomBoolean", "statement": "RandomBoolean(p) refuses p < 0 and p > 1 with invalid_argument and otherwise is true with probability p up to 2^-53; never for p = 0, always for p = 1.", "quantifier": "every double p and every reading of the clock", "why_tests_cant": "all doubles, NaN included, and all words of the engine", "anchors": ["include/Caitlyn/__Core/Utility/Random.h:96-104"]}
{"id": "C132", "title": "MinValue, MaxValue and ValueRange", "statement": "For every arithmetic type MaxValue is the greatest and MinValue the least finite value, and ValueRange is the pair of them.", "quantifier": "every arithmetic type and all its values", "why_tests_cant": "all values of a type", "anchors": ["include/Caitlyn/__Core/Numeric/Utility/Limits.h:28-44"]}
{"id": "C133", "title": "File objects are independent", "statement": "What a File returns and writes does not depend on other Files, copies of it included, as long as no other one writes to or erases the same file. A copy behaves as a File freshly opened on the same name and leaves the original as it was.", "quantifier": "all histories of constructions, copies, destructions and calls on any number of Files", "why_tests_cant": "unboundedly many interleavings of calls", "anchors": ["include/Caitlyn/__Core/File/File.h:29-54", "include/Caitlyn/__Core/File/File.h:56-175"]}
{"id": "C134", "title": "Files that share a file", "statement": "What several Files write to one file stands in it in the order of the calls, and a File that reads on gets the lines that another one writes.", "quantifier": "all histories of calls on any number of Files of one file", "why_tests_cant": "unboundedly many interleavings of calls and contents", "anchors": ["include/Caitlyn/__Core/File/File.h:56-175", "include/Caitlyn/__Core/File/File.h:176-442"]}
{"id": "C135", "title": "BigInteger expressions", "statement": "An arithmetic expression over BigIntegers shows the integer that it denotes, compares as that integer, and throws invalid_argument exactly where the arithmetic is undefined (division by zero, root of a negative number, negative exponent).", "quantifier": "all expressions built from texts, 64-bit integers, + - * / %, Abs, Sqr, Sqrt and Pow", "why_tests_cant": "infinitely many expressions of any depth and numbers of any size", "anchors": ["include/Caitlyn/__Numeric/Types/BigInteger.h:36-81", "include/Caitlyn/__Numeric/Types/BigInteger.h:112-335", "include/Caitlyn/__Numeric/Types/BigInteger.h:441-464"]}
{"id": "C136", "title": "Saving and loading a JSON document", "statement": "A JSON document that is written to a File (Erase, then WriteLine of its text, compact or pretty) is the same document after loading it from the file, whatever the file held before; other files keep their content.", "quantifier": "all documents, both print modes and every indent, every previous content of the file system", "why_tests_cant": "unboundedly many documents and previous contents", "anchors": ["include/Caitlyn/__Core/File/File.h:57-175", "include/Caitlyn/__Serializing/Json/Types/Json.h:107-127"]}
{"id": "C137", "title": "Floating-point numbers in JSON documents", "statement": "A document with floating-point numbers prints each as the nearest number with six significant digits; saving and loading it gives the same document up to that rounding, and doing so once more changes nothing.", "quantifier": "all documents and all floats, both print modes, every indent", "why_tests_cant": "4 billion floats times unboundedly many documents; rounding is subtle at ties and changes of the notation", "anchors": ["include/Caitlyn/__Serializing/Json/Types/JsonData.h:44", "include/Caitlyn/__Serializing/Json/Types/JsonData.h:139-145", "include/Caitlyn/__Serializing/Json/Types/JsonData.h:452-454", "include/Caitlyn/__Serializing/Json/Types/JsonParser.h:364-403", "include/Caitlyn/__Caitlyn/Types.h:114"]}
{"id": "C138", "title": "Pattern search takes linear time", "statement": "Searching a pattern in a text with kmp makes at most twice as many comparisons of characters as pattern and text have characters together, whatever they are; computing the failure table makes at most twice as many as the pattern has.", "quantifier": "all non-empty patterns and all texts", "why_tests_cant": "the worst case depends on the self-overlaps of the pattern; samples do not show that none is quadratic", "anchors": ["include/Caitlyn/__Core/String/Algorithms/Kmp.h:29-66"]}
{"id": "C139", "title": "Random real numbers", "statement": "Random<T>(min, max) for Float, Double and Decimal returns a number of the type from min to max, which lies where the word of the engine lies from 0 to 2^64, up to rounding.", "quantifier": "every floating type, every finite min <= max whose difference does not overflow, every reading of the clock", "why_tests_cant": "rounding can leave the range for single pairs of arguments among 2^128 and words among 2^64", "anchors": ["include/Caitlyn/__Core/Utility/Random.h:75-94", "include/Caitlyn/__Caitlyn/Types.h:114-116"]}
{"id": "C140", "title": "Floating-point numbers in a JSON text", "statement": "A document text with numbers that have an exponent or a plus sign is accepted exactly if each of them starts with a decimal number in the range of double; the value read is the float nearest to the double nearest to that number (ties to even), or infinite beyond the floats. Out of the range of double is told apart from no number.", "quantifier": "all texts, all positions and spellings of numbers, all values", "why_tests_cant": "correct rounding of every decimal text cannot be sampled; ties and subnormal numbers are rare", "anchors": ["include/Caitlyn/__Serializing/Json/Types/JsonParser.h:364-403", "include/Caitlyn/__Serializing/Json/Types/JsonData.h:139-145"]}
{"id": "C141", "title": "Comparing pointers", "statement": "Two UniquePtrs are equal only if both are null. Two SharedPtrs or WeakPtrs are equal exactly if both give the same object or both throw; a new one differs from all others, a copy equals its source, and both stay so until a call writes one of them. Ptrs are equal exactly if they hold the same address. != is the negation, == nullptr holds exactly if dereferencing throws.", "quantifier": "all histories of calls, for SharedPtr with every interleaving", "why_tests_cant": "infinitely many histories and schedules", "anchors": ["include/Caitlyn/__Core/Memory/Types/UniquePointer.h:97-115", "include/Caitlyn/__Core/Memory/Types/SharedPointer.h:121-139", "include/Caitlyn/__Core/Memory/Types/WeakPointer.h:90-108", "include/Caitlyn/__Core/Memory/Types/RawPointer.h:85-103"]}
{"id": "C142", "title": "BigFloat expressions over whole numbers", "statement": "An expression built from whole numbers with the operators of BigFloat shows the number that it denotes, compares as that number, and throws invalid_argument exactly at a division by zero; <=, >= and != are the complements of >, < and == on all BigFloats.", "quantifier": "all expressions of any depth, numbers of any size; all pairs of BigFloats", "why_tests_cant": "infinitely many expressions and numbers", "anchors": ["include/Caitlyn/__Numeric/Types/BigFloat.h:363-422", "include/Caitlyn/__Numeric/Types/BigFloat.h:105-234"]}
{"id": "C143", "title": "SizeOf and the widths of the number types", "statement": "SizeOf<T>(Bit) is eight times SizeOf<T>(); an integer type other than bool has 2 to the power of its bits many values; Int8 to UInt64 (and SByte, Byte, Char16, Char32, CodePoint) hold exactly the integers of the width in their name; an array has the bytes of all elements, a reference those of what it refers to, SizeOf(value) is SizeOf of its type.", "quantifier": "all types built from the fundamental types, classes and enumerations of any size, arrays of any length", "why_tests_cant": "infinitely many types", "anchors": ["include/Caitlyn/__Core/Memory/Utility/SizeCalculation.h:25-35", "include/Caitlyn/__Core/Memory/Types/MemoryFormat.h:25-29", "include/Caitlyn/__Caitlyn/Types.h:25-121"]}
{"id": "C144", "title": "Which values Format and File take", "statement": "HasToString<T>, HasStr<T>, HasCStr<T> and ConvertibleToString<T> tell whether the member can be called on a variable of type T. Format takes a value of every arithmetic type; Format, Write, WriteLine and Append take every object with a member to_string, str or ToString and use that member.", "quantifier": "all classes with any overloads of the members (qualifiers, access, deleted, default arguments), all arithmetic types", "why_tests_cant": "infinitely many classes; tests that do not compile cannot be run", "anchors": ["include/Caitlyn/__Core/Traits/Constraints/String.h:26-90", "include/Caitlyn/__Core/String/String.h:711-758", "include/Caitlyn/__Core/File/File.h:196-228"]}
{"id": "C145", "title": "Forward and MakeMovable", "statement": "Forward<A>(a) of a parameter declared A&& gives the argument with its type and value category; Forward<T> compiles exactly where it would not turn an rvalue into an lvalue or drop a qualifier. MakeMovable gives an rvalue of the same type.", "quantifier": "all types and value categories", "why_tests_cant": "infinitely many types; rejected programs cannot be run", "anchors": ["include/Caitlyn/__Core/Traits.h:26-43"]}
{"id": "C146", "title": "Format: the text for every template", "statement": "Format returns the template with every brace pair {{ and }} made one brace and every field replaced by what it writes: the only argument or the next one for a field without index and colon; argument 0 shown as the specification says for {:spec}; argument i for {i}; the next argument, which is not counted, for {i:spec}; nothing for an index followed by anything else. A specification is read as fill and alignment, width, precision and type, what follows is ignored; type f keeps the given number of decimals after the first dot, adding zeros, and drops the rest.", "quantifier": "all templates and all lists of arguments, also those that do not follow the documented syntax", "why_tests_cant": "infinitely many templates; tests check a few well-formed ones", "anchors": ["include/Caitlyn/__Core/String/String.h:562-663", "include/Caitlyn/__Core/String/String.h:765-973"]}
{"id": "C147", "title": "The operators can be used wherever their operands can", "statement": "An expression a @ b on values of the library finds the operator the library declares for them, wherever it is written: in any namespace, in templates of the standard library (std::map keys, std::less, std::accumulate), in the failure messages of the tests and in the comparison of two errors. This holds for the members of Char, String and the pointers; it is false for the operators of BigInteger, BigFloat, JsonDocument, Unexpected and for << and >> of Char and String, which are functions of the global namespace: they are found exactly when declared before the code and not hidden by an operator of the same name in a namespace around it.", "quantifier": "all programs around the library: all sites, all other declarations, all orders of headers", "why_tests_cant": "whether an expression compiles depends on all the code around it; a test that does not compile is not a test, and tests are written in the global namespace, where nothing is hidden", "anchors": ["include/Caitlyn/__Numeric/Types/BigInteger.h:411-470", "include/Caitlyn/__Numeric/Types/BigFloat.h:363-417", "include/Caitlyn/__Core/String/String.h:242-363", "include/Caitlyn/__Core/String/String.h:1011-1026", "include/Caitlyn/__Core/Char/Char.h:134-162", "include/Caitlyn/__Core/Error/Unexpected.h:60-71", "include/Caitlyn/__Serializing/Json/Types/Json.h:219-231", "include/Caitlyn/__Testing/Types/TestFailMessage.h:35-41"]}
{"id": "C148", "title": "Headers in any order, programs of several source files", "statement": "A source file may include any of the headers, in any order and any number of times: all includes are found and terminate, every header follows those it includes, and none with an include guard is repeated. A program may consist of any number of source files that include headers of the library: no definition is there twice. The first part holds where upper and lower case in file names do not matter; where they do, no header for users can be included, because __Caitlyn.h names caitlyn/__caitlyn/application.h. The second part is false: the static members of Application are defined in the header, so exactly the programs in which at most one source file includes anything can be built.", "quantifier": "all selections and orders of headers, all programs of any number of source files, both kinds of file systems", "why_tests_cant": "selections and orders of 110 headers cannot be enumerated; a program that is not built is not a test, and the tests of the repository are single source files on one file system", "anchors": ["include/Caitlyn/__Caitlyn.h:21", "include/Caitlyn/__Caitlyn/Application.h:116-130", "include/Caitlyn/Caitlyn:18-36", "include/Caitlyn/Testing:18-20"]}
{"id": "C149", "title": "The tests for operators and the order of includes", "statement": "A test for an operator (HasLessOperatorType to HasOStreamOperatorType) says yes for types of the library whenever the expression can be written in the source file, whatever headers for users it includes and in whatever order. It holds for operators that are members. It is false for the global ones: those of BigInteger and BigFloat are known exactly when Caitlyn/Numeric is included before every header that brings the tests, so never with Caitlyn/Caitlyn first; with Caitlyn/Testing first a String is not printable, and ASSERT_EQ_PRINTABLE rejects it.", "quantifier": "all lists of headers for users, in any order and with repetitions; all operators of the big numbers", "why_tests_cant": "the answer is given at compile time and changes with the order of the includes; a test is one order", "anchors": ["include/Caitlyn/__Core/Traits/Types/Operators.h:26-215", "include/Caitlyn/__Testing/Macro/Assert.h:80-91", "include/Caitlyn/__Numeric/Types/BigInteger.h", "include/Caitlyn/Caitlyn:18-36"]}
