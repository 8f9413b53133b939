# Formal model of Caitlyn in Rocq — design

Source: `/repo` (szawrowski/caitlyn, header-only C++). Every definition of the model carries a comment
with the file and lines it models; paths are relative to `/repo/include/Caitlyn`.

## 1. Method

* **Outcome.** C++ computations return `outcome A` (`theories/Outcome.v`): `Ok a`, `Throw e` (an exception of
  class `e`; the message text is not modelled), `UB` (undefined behaviour: out-of-range `vector`/`string`
  index, null dereference, signed overflow, use of a dead object), `NoFuel` (the model's recursion budget ran
  out). Loops that are not structurally recursive take `fuel`; theorems either show that `NoFuel` does not
  occur for an explicit amount of fuel or (non-termination) that it occurs for every amount.
* **Data.** A byte is an `N` (hypothesis `< 256` where it matters), a `Char` is its list of bytes, a `String` a
  list of Chars, a std::string a list of bytes. `SizeType` is 64-bit; sizes of real containers are `nat`
  (a container of 2^63 elements is not representable on the platform), but where the code does wrapping
  arithmetic on sizes the wrap is modelled explicitly in `N`.
* **Specifications** live in separate `Spec*.v` files and never mention the model. They are small:
  the RFC 3629 table, "occurs in", decimal value of a numeral, a JSON grammar-free tree with its canonical
  text, ordered association lists, and so on.
* **Layout.** `theories/X.v` model, `SpecX.v` specification, `XProofs.v` proofs, `XProps.v` the theorems named in
  `MANIFEST.json` (closed by `exact`), each followed by `Print Assumptions` and by an `Example` showing a concrete,
  non-trivial instance of its hypotheses.
* **False properties.** Where the faithful model violates the English property the full statement is refuted
  (`…_refuted`, with a concrete witness computed by the kernel) and the strongest true part is proved
  (`…_partial`), whenever feasible as an exact characterisation of when the code is right.

## 2. Trusted base

* The Rocq/Coq 8.16.1 kernel and `vm_compute`.
* Axioms: none. `Print Assumptions` after every theorem says "Closed under the global context". Loading `Lia`
  loads `Coq.ssr.ssrunder`, whose seven `Under_rel` parameters therefore appear when all axioms of the loaded
  libraries are listed (`coqchk -o`); no theorem uses them.
* The reading of the C++ text into Gallina (checked only by review, by seeded faults in `seeded/LOG.jsonl`, and by
  `RepoTests.v`, which runs the repository's own tests on the model: tests of the model, not proofs).
* The C++ library as summarised in the model: `vector`, `string`, `ostringstream` (append/overwrite
  position), `std::search`, `stoul/stoi/stoll` (exact, C locale), `stod` and float printing (abstract
  parameters; for C137 `FloatText.v`: %g with precision 6, exact, ties to even; stod to nearest even in the C locale, texts in
  hexadecimal and of infinities left out; narrowing to float by IEEE 754),
  `std::map` (sorted association list under the comparator), `fstream` (see below), atomics (sequentially
  consistent steps).
* Platform: LP64 Linux (`int` 32, `long`/`size_t` 64 bits, signed `char`), libstdc++.

## 3. What is modelled / not modelled

Modelled: `__Core/Char/{Char,Utility,Defs}.h`, `__Core/String/{String,Utility,StringBuilder}.h`,
`__Core/String/Algorithms/Kmp.h`, `__Numeric/Types/{BigInteger,BigFloat}.h`,
`__Serializing/Json/**`, `__Core/Error/Expected.h`, `__Core/Memory/Types/*.h`,
`__Core/Utility/Comparators.h` (`cmp_eq`, `cmp_less`), `__Core/Collections/Utility/MapUtility.h`,
`__Testing/Types/{TestRegistry,TestFailMessage}.h`, `__Testing/Macro/Assert.h`, `__Caitlyn/Application.h`,
`__Core/File/File.h`, `__Core/IO/Stream.h`, `__Core/Traits/**`, `__Core/Utility/Random.h`,
`__Core/Numeric/Utility/Limits.h`, `__Core/Memory/Utility/SizeCalculation.h`, `__Caitlyn/Types.h`, `__Testing/Macro/{Test,TestFixture}.h` (the names they define).

Not modelled: the enumerations Radix, Sign and DataSize (used nowhere), memory exhaustion, stack depth.
Templates that cannot be instantiated because they name something that does not exist are not modelled:
`String(InputIt,InputIt)`, `cmp_ne/cmp_greater/cmp_less_equal/cmp_greater_equal`, `Expected::Filter`,
`Expected::UnwrapOrDefault`, `SharedPtr::operator=(Pointer)`, `UniquePtr::Release`.

Simplifications, also stated at the definitions concerned:

* *Sizes.* Containers are lists; capacity is modelled only where it decides (appending an own element, C16).
* *File.* One File per file on disk (any number of Files in `FileShare.v`), no failing writes, badbit never set. `open` in mode in|out|app|binary creates a
  missing file and all writes go to the end; whether the system lets the program open the file is a flag.
  State bits as in libstdc++ (open on an open stream sets failbit, a successful open clears the bits, `seekg`
  clears eof and does nothing after a failure, `<<` writes only in a good state). The read position of the stream is
  no state since each reading function seeks first.
* *Test registry.* A test function takes the world to a new one and returns, throws a std::exception or
  throws something else; the output is the list of events, to which `TestTimes.v` adds the times. Tests that never return, are
  undefined themselves or register tests while running are left out.
* *Application.* The singleton is one cell; `argv` is memory that may lack a terminator or be null.
* *Expected.* Two models: values (laws) and an object-lifetime machine in which construction of the payload may
  throw and every construction/destruction of each storage cell is recorded.
* *SharedPtr.* One identity stands for the pair `data_`/`ref_count_` (they always change together). A call is a
  list of atomic instructions, any number of calls interleave arbitrarily under sequential consistency (the code
  uses relaxed ordering in places); the counter does not overflow but wraps below 0; each raw pointer is handed over once.
* *JSON.* Nodes are trees; in C69/C100 source and target are paths into one tree and reading a destroyed node is
  `UB`. That trees are a faithful account of the pointers is itself proved (C118): `JsonHeap.v` has the objects at
  addresses with `new` and `delete`. There the storage of deque, vector and String is not tracked, and references are
  paths from a variable in scope. The float type is any type
  with a zero, `stod` and the printing of floats are arbitrary functions. Indents are natural numbers without
  wrap. `errorPosition_` is left out (no observer reports it).
* *Traits.* A type is a tree of fundamental types, classes, pointers, references and arrays with qualifiers
  (`CxxTypes.v`); function and member pointer types are left out. Which operators a class has is an arbitrary table.
* *Console.* The standard input is a byte list with the state bits of `cin`; no failing writes.
* *Assertions.* An expression takes the world to a value or an exception and a new world; the order in which a
  binary operator evaluates its operands is a parameter. ASSERT_STREQ ends the process: that is an outcome.
* *Ptr.* Objects are numbered in order of creation; deleting or using a deleted object is `UB`.

## 4. Per property: what is modelled and how it is proved

| id | model | theorem and method |
|----|-------|--------------------|
| C01 | `CharModel.from_code_point`, `get_code_point` | equality for all code points; bit operations reduced to div/mod (`BitsLib.v`) |
| C02 | same | equality with the RFC 3629 table (`SpecUtf8.v`) in div/mod form |
| C03 | `char_of_bytes` | iff with inductive "lead + continuations" |
| C04 | same | completeness w.r.t. RFC well-formedness; soundness refuted (overlong, surrogate, > 10FFFF), exact condition |
| C05 | `char_lt` … | comparison = comparison of code points, by length classes |
| C06 | `get_code_point` returns `UB` | safe for validated/code-point Chars, exact set of unsafe raw bytes; refuted in full |
| C07–C12, C96–C98 | `CharUtil.v` | interval reasoning with `lia`; C10, C11, C97, C98 refuted + exact part |
| C13, C14 | `StrModel.v` decoding over memory with terminator | induction on bytes; exact trichotomy Ok/Throw/UB; C14 full safety refuted |
| C15–C24 | `StrModel.v`, list model of `String` | refinement to list operations (`SpecStr.v`); aliasing (C16), empty needle (C19, C20), multi-char ReverseFind (C21) refuted + partial |
| C25, C26 | `Kmp.v` with UB on index error and fuel | loop invariants "longest border", for all patterns; empty pattern refuted |
| C27–C30 | `StrUtil.v` | induction; C28 (n=0), C29, C30 (index 0) refuted + partial; `HexProofs.v`: the C library's numbers in base 16 as a relation (`c_hex`), and EscapeString exactly on every text (`lib_escaped`) |
| C31–C38 | `Format.v` | induction on the template; C33 (no arguments), C35 (precision 0), C37, C38 refuted + partial; C37 exactly: `SpecFormatUb.v` describes how the fields are read one after the other, `FormatUbProofs.v` shows the three outcomes cover every template |
| C39–C50 | `Dec.v`, `BigInt.v` | digit-list value function in Z; exact value of every operation, for every state reachable by public operations (`BigIntStates.v`); C40, C41, C46–C50 refuted + partial |
| C51–C57 | `BigFloat.v` | exact behaviour for every reachable state (`BigFloatStates.v`), divergence for every fuel; refuted + partial |
| C58 | `JsonData.to_string`, `JsonParse.v` | `JsonPrintProofs.v`: the printed text of any tree (induction) is derivable in the grammar read by the parser, hence parsed to the tree; refutations by computation |
| C59 | `JsonParse.v` with fuel and nesting depth | progress lemma for every function; fuel `length s` is enough (`JsonParseProofs.v`) |
| C60, C62 | same | `JsonGrammar.v`: soundness and completeness of the parser for an inductive grammar (`SpecJsonText.v`) |
| C61 | same, out-of-range index is `UB` | `JsonParseSafe.v`, `JsonCalm.v`: no UB / no exception on the stated texts; refuted for blank texts, unclosed objects, escape at the end |
| C63–C65 | same | `JsonDocProofs.v`: value of `{"k":t}` for every key and every literal, numeral, string; refuted parts are general laws (e.g. every fraction is dropped) |
| C101 | same | invariant over parse functions: seven codes never leave Parse |
| C66–C71, C100 | `JsonData.v` | refinement to ordered maps, operation histories; paths for aliasing; C67–C71, C100 refuted + partial |
| C72–C75 | `Expected.v`, `ExpectedLife.v` | laws by cases; object-lifetime machine with invariants over histories; C75 refuted |
| C76, C82 | `UniquePtr.v` | heap machine, invariant over all histories |
| C77–C81 | `SharedPtr.v` | interleaving machine, invariants over all schedules; C78, C80, C81 refuted |
| C83 | `Comparators.v` | usual arithmetic conversions modelled; `lia` |
| C84–C88 | `TestRegistry.v` | induction over registry; C87, C88 refuted + partial |
| C89 | `Application.v` | induction over call sequences |
| C90, C91 | `StrUtil.v` (StringBuilder) | ostringstream with write position; C91 refuted |
| C92–C94, C99, C117 | `File.v` | stream-state machine over histories; refuted + partial |
| C95 | `StdMap.v` | list lemmas on sorted association lists |
| C102–C107 | `CxxTypes.v`, `Traits.v` | structural case analysis/induction on types against an independent spec (`SpecTraits.v`); C102–C104, C106, C107 refuted + exact parts |
| C108 | `Values.v` over `Format.v` | reduction to the template theorems; character arguments refuted |
| C109–C111 | `Stream.v` | induction over lines and call sequences; C109, C110 refuted + partial |
| C112–C115 | `Asserts.v` | expressions as state transformers; C113–C115 refuted + partial |
| C116 | `RawPtr.v` | invariant over all histories; copies refuted |
| C118, C119 | `JsonHeap.v` (objects at addresses, `new`/`delete`, dangling = `UB`) | `JsonHeapProofs.v`–`JsonHeapRuns.v`: the memory is always a tree of owned objects plus leaked ones, every address counted once; step-by-step simulation of `JsonData.v`; RemoveMember, move into itself and strings refuted |
| C120, C121 | `StrModel.v` | induction; first-index characterisation of the searches; NUL characters and start beyond the end refuted |
| C122 | `JsonData.v` | by cases on the previous value; wrap-around of integers, loss of the value on a refused text refuted |
| C123 | `Stream.read_into`, `Stream.read_while` (the caller's loop, with fuel) | induction over the lines; divergence for every fuel refutes termination |
| C124, C125 | `BigFloat.v`, `Double.v` (`std::to_string(double)`: sign, significand, exponent, rounding to six places) | reduction to the decimals of C51; exact criterion for which doubles are kept |
| C126, C127 | `Vars.v` (a store of variables; the special member functions as the headers define them), `SpecVars.v` (the ideal machine) | refinement, statement by statement, generic in the class; self-append refuted |
| C128 | `TestRegistry.v`, `TestTimes.v` (clock as a sequence of readings) | induction over suites and tests; the time of a failed test refuted |
| C129 | `TestTimes.v` (names the macros define, per scope) | injectivity of the names; clashes refuted for all names of the given forms |
| C130, C131 | `Random.v` (`mt19937_64`, libstdc++'s `uniform_int_distribution` and `bernoulli_distribution`) | bits of the engine words; counting multiples in an interval; rounding of a word to double; order of the bounds and NaN refuted |
| C132 | `Limits.v`, `CxxTypes.v` | by cases on the type, against the values that conversion gives; MinValue of the floating types refuted |
| C133, C134 | `FileShare.v` over `File.v` | simulation of the File alone; invariant over all Files of one name, induction over the history; following a growing file refuted |
| C135 | `IntExpr.v` over `BigInt.v` | induction over expressions with canonical intermediate results; exactness of the conditions by cases on the signs |
| C136 | `FileShare.v`, `JsonParse.v` | C58 composed with the steps of the history; white space after an accepted text by the grammar of C62; Read refuted |
| C137 | `FloatText.v` (ostream << float with six digits, stod and the narrowing to float, all on exact binary numbers), `JsonData.v`, `JsonParse.v` | best approximation and uniqueness of six digits over Q; the shape of the text gives the reading; error bound 5e-6 < 2^-17 makes the second text equal; for subnormal floats no six digits lie halfway between floats, as 2^-149 is no multiple of a power of ten that is large enough (`FloatSmall.v`); induction over documents with `reload` of C58 |
| C138 | `KmpCost.v` (the model of Kmp.h with a counter; erasing the counter gives `Kmp.v`) | amortised: every comparison but the last of a round moves back along the failure table, which the rounds can only have advanced by one each |
| C139 | `RandomReal.v` (generate_canonical and uniform_real_distribution on exact binary numbers with rounding to nearest even after each operation) | monotony of rounding and that it keeps numbers of the type; the quotient is at most 1 - 2^-digits, which makes up for the rounding of max - min, so the rounded sum does not pass max; error bounds of the four roundings over Q; refutations by computation; `RandomSign.v` adds the sign bit, shown to change no number and to be set exactly for negative results |
| C130 (engine) | `Random.v` (blocks of 312 words) | `EngineProps.v`: the words of the blocks, numbered through, meet the recurrence of the standard, which has one solution per seed |
| C140 | `FloatText.v` (`stod_float`), `JsonParse.v`; spec `SpecFloatRead.v` (decimal numbers of the C library, rounding over Q) | the model's rounding is nearest among all normal forms, and that is unique; the scanner takes the longest digits, point and exponent; replaced in the grammar of C62 by induction over documents |
| C141 | `PtrCompare.v` over the machines of C76, C77 and C116 | the ownership invariants of those machines (an object has one UniquePtr, numbers of new objects are fresh), frame property of calls |
| C142 | `FloatExpr.v`; spec: integers in `FloatExprProps.v` | induction over expressions from C53-C56; the order of C56 is total |
| C143 | `SizeOf.v` over the types of `CxxTypes.v`; spec: ranges of integers in `SizeOfProps.v` | induction over types; arithmetic modulo powers of two |
| C144 | `Members.v` (overload resolution of a call without arguments); spec: the rules as relations in `MembersProps.v` | induction over the candidates, the preference is asymmetric; case analysis over the detected members |
| C145 | `Forward.v` (reference collapsing and binding) | case analysis over types, reflexivity of type equality by induction |
| C146 | `Format.v`; spec: `SpecFormatText.v` (rules for reading fields and specifications) | the rules imply the result of the model by induction over the template; they apply to every template that is carried out (C37), hence equivalence |
| C147 | `Lookup.v` (C++ lookup of operator functions; table of the operators of the library); spec: `SpecLookup.v` (enclosing namespaces, hiding) | the lookup finds the innermost namespace with the name: induction over the namespaces; then for every entry of the table, by its place; refutations with witnesses |
| C148 | `Headers.v` (preprocessor with include guards and file systems; table of the 110 headers, their guards, includes and definitions); spec: `SpecHeaders.v` | depth-first search by induction over the nesting, with the invariant that every guard of lower rank that is defined has its text; the table is checked by computation; building by counting definitions |
| C149 | `HeaderOrder.v` (the operators each header declares; those declared before the tests), with `Lookup.v` and `Headers.v`; spec: `SpecHeaderOrder.v` | the list of includes is cut at the first header that decides; sets of headers closed under includes (checked by computation) show what cannot have come, chains of includes what must have |
