# A Rocq model of apint

`/repo` is a Rust crate of arbitrary-precision, fixed-width integers. This directory holds a
model of it in Rocq (Coq 8.16.1, `rocq/theories`, logical name `Verif`) and machine-checked
proofs of the properties in `properties.jsonl`. `MANIFEST.json` maps properties to theorems.
`seeded/LOG.jsonl` records how the theorems fared against edited, wrong models.

## 1. Files

| files | content |
|---|---|
| `M*.v` | the model, function by function; every definition cites the lines of `/repo` it models; no proofs |
| `Spec*.v` | the words in which properties are stated: values of digit lists, numerals, data trees, the abstract machine, ownership, data races |
| `L*.v` | lemmas |
| `TestsRepo.v` | the unit tests of `/repo` run on the model by evaluation (tests of the model, not proofs) |
| `P*.v` | the property theorems only (`Cnn_...`), each closed by one lemma, followed by `Print Assumptions` and an `Example` in which a concrete, non-trivial case meets its hypotheses |

| model file | models |
|---|---|
| `MBase.v` | outcomes, errors, machine integers, slices, the `ApInt` record (`errors.rs`, `apint/mod.rs`) |
| `MDigit.v` | `digit.rs`, `bitwidth.rs`, `bitpos.rs`, `storage.rs`, `shift.rs` argument checks |
| `MUtils.v` | `apint/utils.rs`, `utils.rs` (digit access, zipped access, predicates) |
| `MCasting.v`, `MBitwise.v`, `MRelational.v`, `MShift.v`, `MConstructors.v` | the files of these names in `src/apint` |
| `MArith.v`, `MDiv.v` | `apint/arithmetic.rs`; `MDiv.v` is the division algorithm with all its branches |
| `MPrim.v`, `MSerial.v`, `MSerde.v`, `MRand.v` | `to_primitive.rs`, `serialization.rs` and `radix.rs`, `serde_impl.rs`, `rand_impl.rs` |
| `MInt.v`, `MOps.v` | `uint.rs`, `int.rs`; the operator traits and `std_ops` macros |
| `MMachine.v` | programs: sequences of public calls over variables |
| `MHeap.v` | the same programs over a heap: union, allocation, copy, drop, reuse of buffers |
| `MUnwind.v` | the same over the heap with panics that unwind and are caught |
| `MText.v` | `Debug` output, formatter options, messages and annotations of errors (`errors.rs`) |
| `MTyped.v` | programs: sequences of public calls over variables of type `UInt` and `Int` |
| `MHeapTyped.v` | the same programs over the heap of `MHeap.v` |
| `MUnwindTyped.v` | the same with panics that unwind and are caught |
| `MSmall.v` | `BitWidth`, `BitPos`, `ShiftAmount`, `Radix` as types of their own (the other files use the numbers) |
| `MForeign.v` | random generation with generators that panic, and deserialization, over the heap |
| `MForeignTyped.v` | random generation of `UInt` and `Int` with generators that panic |
| `MParse.v` | parsing with vectors that have a capacity, and the list of the buffers it asks for |
| `MError.v` | errors as values: getters, clone, equality, what is hashed, the text over several lines |
| `MSink.v` | formatting into sinks that may refuse a piece, serializing into serializers that may refuse a call |
| `MUsize.v` | the sums and products of sizes, on a machine whose `usize` has `M` values: making, casting, counting, multiplying, dividing, parsing, deserializing |
| `MUsizeSigned.v` | signed division on such a machine |
| `MRandSystem.v` | random generation from the entropy of the system, an unknown input |
| `MRounds.v` | division with a limit on the rounds of its loop |
| `MThreads.v` | threads that run such programs, interleaved at every access to the heap |
| `MThreadsUnwind.v` | threads whose calls panic: some panics are caught, the others end the thread and drop what it owns |
| `MThreadsTyped.v` | the same for threads on `UInt` and `Int` |
| `MThreadsDigits.v` | both kinds of threads, interleaved at every digit read or written |
| `MThreadsBuffers.v` | the same on a machine that delays writes: every thread has a store buffer |
| `MThreadsViews.v` | the same on a machine whose reads may return old values: the memory keeps all that was written, every thread has a view |
| `MThreadsScratch.v` | the same with calls that use the buffers they are going to overwrite as scratch space |

## 2. How the code is modelled

**Digits.** `Digit` (a `u64`) is a `Z`; `DoubleDigit` (a `u128`) is a `Z`. Every machine operation
is written with its wrap (`mod 2^64`, `mod 2^128`) or its overflow check. Operations that panic in a
debug build and go on in a release build (`<<`/`>>` by at least the bit size, subtraction, addition or
multiplication overflow where it is conceivable, `debug_assert!`) end in `Trap`; panics of every build
(indexing, `assert!`, `unwrap`, division by zero) end in `Panic`. C67 proves that no call ends in `Trap`, so
both builds take the same steps and all theorems hold for both. Sums and products of lengths (`usize`) that are
bounded by the size of an allocated slice are written without a check; `MUsize.v` has the functions that compute them
once more with every such sum and product checked against the bound of a `usize`, and C84 says where that matters
(the debug build of multiplication, parsing and deserialization near the limit).

**Integers.** `ApInt` is a record of `width` and a little-endian list of digits. The union of an
inline digit and a heap pointer is modelled twice: in the value model the storage class is
recomputed from the width, as the code does (`Storage::from(width)`), and the digits are the list
behind it; in `MHeap.v` the union, the pointers, allocation and deallocation are explicit.

**Effects.** `outcome A := Val a | Panic | Trap | OutOfFuel`, `result A := Ok a | Err e`. A function
`fn(&self) -> Result<T>` is `apint -> outcome (result T)`; a function `fn(&mut self) -> Result<()>`
is `apint -> outcome (apint * result unit)`, so that the state after an error is observable and
"nothing changes on error" is a theorem, not a modelling assumption. Error values carry the payload
of `ErrorKind`; their messages and annotations are added in `MText.v`, where erasing them is proved to
give back the functions of the other files (C61).

**Loops** over iterators are structural recursions or folds over the list; index loops are
recursions over the index range with bounds-checked reads and writes; `loop {}` in division is
recursion on fuel, and exhaustion is a distinct outcome that every theorem excludes.

**Well-formedness.** `wf a`: width positive, `ceil(width/64)` digits, each in `[0,2^64)`, and the
number they denote is below `2^width` (unused bits zero). It is proved of every constructor and
preserved by every operation (C13), so it is exactly a property of reachable values.

**The heap.** A computation is a tree of accesses (allocate, free, read, write) and `exec` runs it
over a memory. Freeing twice, freeing with a wrong size, and touching freed memory or memory beyond
a buffer end the run with `MUndefined`. Buffer numbers are never reused, so a use after free cannot
hide. How much `SmallVec` allocates beyond what is needed is an arbitrary function `slack`. Copies
of integers carried by errors are allocated and dropped. Simplifications: temporary vectors inside a
computation (products, quotients) are values, not buffers (`MTemp.v` has them, see below); an operation that changes digits in place
reads the buffer, computes with the value model, and writes it back. In `MHeap.v` a panic ends the
run; in `MUnwind.v` and `MUnwindTyped.v` a client catches it and goes on: the calls that can panic (C45) return their
`&mut` operands as the panic found them, after their locals have been dropped.

**Code of others.** `MForeign.v` adds a random number generator, a function from its state to a word or a
panic and a new state, and documents. A call whose generator panics drops what it has built
(`random_with_width_using`) or keeps the digits written so far (`randomize_using`). The documents are
those of `MSerde.v`; the vector that serde itself builds is not a buffer of the model.

**Temporary vectors.** `MTemp.v` has multiplication and division once more, with vectors that have a
capacity, that move to a larger buffer when a push finds no room, and with the list of all buffers asked
for. Its results are proved to be those of the other files (C71). Rust's rule for growing (double, at
least 4) is modelled; C72 shows that it never applies. `MParse.v` does the same for parsing (C80).

**Threads.** `interleave schedule` lets the threads take turns, one access to the heap per turn, over
one memory. The main thread has run a program, lends some variables to all threads and moves others
to one thread each; that threads do not change what is lent to them is what the compiler enforces
and is a hypothesis (`respects`). Memory is sequentially consistent except in `MThreadsBuffers.v`, where each
thread has a store buffer (C86), and in `MThreadsViews.v`, where reads may return old values (C89); a race is defined as two
threads being about to use the same buffer, one of them to write or free. In `MThreadsUnwind.v` a call
that panics inside `catch_unwind` leaves its thread running; any other panic ends the thread, which
drops its own variables, last to first, each access of which is a turn as well. In `MThreadsDigits.v` a
turn is one digit, and a new buffer holds anything until its digits are written; there two threads race
if each is about to use the buffer or in the middle of that. There a call reads a
buffer as a whole before it writes to it, digit after digit and each once, while some loops of the code
read and write in turn, write digits several times or from the top down. `MThreadsScratch.v` adds this: at
any moment a thread may also write anything to a digit that its call overwrites before it reads it (C90).
What remains simplified: the values that the loops leave there in between are arbitrary in the model, and
a loop's own reads of such values are not accesses in it.
C88 lists all accesses of an execution: no two threads ever use the same buffer unless both only read
it, so there is no race either in the sense of the memory model of C++ and Rust, which knows an order of
happening instead of moments.

**Specifications** are small and independent of the model's helpers. `Spec.v`: the unsigned value
of a digit list, the signed value, two's complement wrapping. `SpecStr.v`: numerals and characters.
`SpecMachine.v`: the abstract machine on pairs (width, number). Theorems about results are stated
as integer equations on those.

## 3. Property by property

| id | modelled | proof |
|---|---|---|
| C01-C03 | digit loops with carry/borrow, inc/dec/neg early exits | induction on the digit list, value of the list modulo 2^(64n), then mask lemma |
| C04 | `wrapping_mul_assign`, all branches, index-checked | loop invariants on partial products modulo 2^(64n) |
| C05 | `aarons_algorithm_divrem`, all branches, index-checked, fuelled | invariant `lhs = quo*rhs + duo`, strict decrease of `duo` bounds fuel, quotient-estimate lemmas |
| C06 | signed division family on top of C05 | sign case analysis |
| C07, C08 | error paths of all operations with state | case analysis on the guard |
| C09 | signed division with unequal widths | refuted by witness; exact behaviour proved (partial) |
| C10, C11 | comparison loops | induction from the most significant digit |
| C12, C13 | equality, hash feed, op language over registers | injectivity of digit lists; induction over histories |
| C14-C17 | bitwise loops, bit access, counting | `Z.testbit` of a digit list; induction |
| C18 | `is_one`, `is_all_set` | refuted in general, proved where true, exact behaviour proved (partial) |
| C19-C22 | shifts, all branches | value of shifted lists, carry-loop invariants |
| C23-C27 | casting, assign, clone | value of prefixes and of padded lists |
| C28, C29 | constructors | evaluation and list value lemmas |
| C30-C32 | to_primitive | case analysis; C31 refuted in general, exact behaviour proved (partial) |
| C33-C37 | parser and formatters over byte lists | induction over characters; C34 and C37 refuted in general, exact behaviour proved (partial) |
| C38, C39 | serde at the level of the data tree exchanged with the format | case analysis over trees; C39 no-panic refuted for one input shape (partial) |
| C40 | generator as a stream of words | induction on the number of draws |
| C41-C44 | `UInt`, `Int`, operator traits as the forwards they are | corollaries |
| C45 | register machine over all operations, abstract machine on (width, Z) | forward simulation by induction over programs |
| C46 | heap model | a small separation logic on access trees; the heap program refines the value program; induction over programs |
| C47-C49 | compositions of modelled calls | integer algebra on the value theorems |
| C50 | bitwidth.rs, storage.rs, bitpos.rs | arithmetic |
| C51 | threads | one turn preserves "every thread is safe with what it owns and what is lent"; induction over schedules |
| C52 | heap model | calls on integers of at most 64 bits touch no memory; the abstract machine (C45) bounds the widths |
| C53 (partial) | heap model | in-place calls only read and write; false for signed division, which copies its divisor |
| C54 | as C01-C04, C14, C19, C23 | both orders denote the same number modulo 2^t; canonical integers with equal width and value are equal |
| C55 | as C24, C25, C01-C04, C19 | the exact result fits the wider width, so reducing it modulo 2^n changes nothing |
| C56 | as C05, C10, C11, C14, C20, C21, C24, C25 | both orders denote the same unsigned (or signed) number |
| C57 | as C01-C03, C10-C12, C16 | case analysis on the ranges of sum and difference |
| C58 | heap model with unwinding (MUnwind.v): a panicking call drops its locals and what it consumed, and returns its `&mut` operands as the panic found them | refinement of the abstract machine with `after_panic`, ownership logic of C46 |
| C59 (partial) | as C58 | false: signed division negates before it panics; the exact effect is proved |
| C60 | Debug as Rust's formatter lays out nested structures, on one line and with `#` | numerals end at the first non-digit, so the text can be read back; induction on the digits |
| C61 | `Error` with message and annotation (MText.v) | texts are literals and Debug texts: compared piece by piece; parsing by induction on the string |
| C62 (partial) | as C61 | false: wrong short names, no position; what is there instead is in C61 |
| C63 (partial) | formatter options as a record that the code does not read | false; exact condition by comparing lengths with the specification of Rust's padding |
| C65 | derived `Debug` of `Error` and `ErrorKind`, which `Display` forwards to (MText.v) | escapes are a prefix code, so each quoted string and hence the whole text can be read back |
| C66 (partial) | as C65 | false: annotations with line breaks are escaped; exact for visible characters |
| C67 | panics marked by the builds that have them (MBase.v) | corollary of the simulations C45, C64 and of the exact results of operators, serde and random generation |
| C64 | programs over variables of type `UInt` and `Int` (MTyped.v) against a machine on type, width and integer (SpecTyped.v) | simulation per call from the facts on the wrappers, then induction on the program |
| C68 | the programs of C64 over the heap (MHeapTyped.v), with the accesses of C46 | each call of the two types is a call of `ApInt` (LHeapTyped1.v), refinement of the list model per call with a frame, then induction on the program |
| C69 | heap model of C68 with unwinding (MUnwindTyped.v): operators unwrap after the method, signed divisions unwind from within (MUnwind.v) | refinement of the abstract machine with `after_tpanic`, per call with a frame, then induction on the program |
| C70 (partial) | as C69 | false: division of an `Int` loses the sign before it panics; the exact effect of every call that panics is proved |
| C71 (partial) | multiplication and division with counted vectors (MTemp.v) | results equal those of the other model by simulation; a cost logic for the buffers; significant digits related to the numbers of bits; false for quotient one and for the calls on `UInt` |
| C72 | as C71 | bounds on the lists of C71; no push finds a full vector |
| C73 | heap model of C58 with generators that may panic at any draw and documents of any content (MForeign.v) | each step refines the abstract machine `arun_foreign` (SpecForeign.v); canonicity and absence of leaks follow |
| C74 | as C73 | the digits that came replace the low digits; corollary of C73 on two runs |
| C75 | the newtypes as records (MSmall.v) | case analysis |
| C76 | threads and unwinding together (MThreadsUnwind.v) | the simulation of C58 for variables that may be lent, then the invariant of C51; a dying thread drops its variables last to first |
| C77 | threads on `UInt` and `Int` with unwinding (MThreadsTyped.v) | the simulation of C69 for variables that may be lent (`tcatch_step_g`), then the invariant of C51 on the integers inside |
| C78 | division with a limit on the rounds of its loop (MRounds.v) | a round leaves at most 66 bits above its window of 128, so it removes at least 62; the loop with a limit is the loop or gives up |
| C79 | threads that take turns before every digit (MThreadsDigits.v) | a pool of threads amid accesses, seen as threads about to make them, satisfies the invariant of C51 over the same memory; since nobody else writes to a buffer in use, what was read of it stays right |
| C80 | parsing with counted vectors (MParse.v), with the size estimate and its table | simulation of `from_str_radix`; each table entry checked by repeated squaring with directed rounding; the estimate is at least the number of bits of the value by induction on the digits, so no push finds a full vector |
| C81 (partial) | the two crate-private additions that report overflow (MArith.v) | loop invariant on a prefix of the digits and a case for the highest digit; the unsigned one is false unless the width is a multiple of 32 |
| C82 | getters, derived `Clone`, `PartialEq`, `Hash` and pretty `Debug` of errors (MError.v) | case analysis; the hash feed is split from the left variant by variant; induction on debug trees: a reader that drops line ends and indentation turns the pretty text of any tree into its one-line text, as no leaf contains a line end |
| C83 | the `?` behind each `write!` and each call of a serializer, over an arbitrary sink (a state and a function that accepts or refuses); `pieces`, how std cuts a number's text, is any function whose pieces make up the text (MSink.v) | both are shown equal to handing over a list of items until one is refused, by induction on the digits; the text of C36 and the document of C38 are those lists; induction on the pieces for sinks that keep what they accept |
| C84 | the functions that compute sizes, with each `usize` sum, product and cast written out for a machine of `M = 2^p` values, both builds (MUsize.v, MUsizeSigned.v); an integer has at most `M - 64` bits, as the theorem about making them shows; texts are shorter than `M / 2` | each loop is shown to stay below `M` by the length of its slice, so that it equals the unchecked one; where it does not, the exact bound is computed |
| C85 | random generation (MRand.v, MInt.v) on the generator that gives a list of words; `exactly k P` says that there is a list of `k` different things with `P` and no others (SpecUniform.v) | the lists of words with a given remainder modulo 2^w are put in bijection with the numbers below 2^(64n-w); lists for several integers are pairs of lists, by induction |
| C86 | threads with store buffers (MThreadsBuffers.v): a write is seen by its thread only until it reaches the memory, at any moment and in any order except to the same digit | the machine lags behind the one of C79: the threads are at the same points, a digit with a write under way holds the newest one there and any other digit is the same in both memories; nobody else has writes under way to what a thread owns or is lent |
| C87 | schedules that go on forever, as functions from moments to turns (SpecFair.v), over the machines of C79 and C86 | a thread that is given turns, and whose writes arrive, comes closer to its end with each, by induction on the rest of its program and on the number of its writes under way; what others do in between leaves it where it is; a common bound for all threads; then C79 and C86 say what they end with |
| C88 | the accesses of an execution of the machine of C79, as a list (SpecTrace.v) | the buffers that a thread may use are those it owns, those that are lent and those allocated later; a buffer that is given back is never allocated again, so what one thread owns at one moment no other owns at a later one; induction on the schedule; by cases, that a turn changes and reads only what is listed |
| C89 | a memory that keeps every value written with a time, and threads with views, the times of what they have seen (MThreadsViews.v), the latest values and joined views (SpecThreadsViews.v) | a thread has seen the latest value of each digit that it may use: nobody else writes to its buffers, and those lent are not written to; so a read has no choice and a write comes last, and the memory of latest values goes through the steps of C79; for joining, every value was seen by the thread that wrote it |
| C90 | threads that also write anything to digits whose values are not needed any more, which is computed by looking ahead in the program (MThreadsScratch.v); all accesses of such an execution (SpecThreadsScratch.v) | a program that overwrites a digit before it reads it is safe with any value there, and owns the buffer, so nobody else is using it; the invariant of C79 is kept with that value in it, and the argument of C88 goes through |
| C91 | heap model of C69 with the two random calls of `UInt` and `Int` (MForeignTyped.v); they have no serialization, because the attribute asks for a configuration that is never set | each step refines the abstract machine `tarun_foreign` (SpecForeignTyped.v), by the lemmas of C73 about the `ApInt` inside; floor division by a power of 2^64 commutes with reading two's complement |
| C92 | the heap programs of C46, C68, C73 and C91 on a flat memory of words with regions, and a `world` that places regions, refuses, writes where nothing is allocated and kills the process (MFlat.v) | the program logic of C46 quantifies over all addresses that are not in use; an invariant relates its buffers to disjoint regions, and each access of the flat machine keeps it |
| C93 | the threads of C76 and C77 on the flat memory of C92: a turn is one access, an honest allocator places buffers anywhere, a refusal ends all threads (MThreadsFlat.v) | the owned cells of every thread are disjoint regions of one flat memory; a block memory with the same cells exists, so the facts of C76 and C77 about ownership apply; two regions share no word, hence no race on a word |
| C94 | the fuzz test of the crate as a program that calls the model; what it draws are its arguments (MFuzz.v) | the facts of C01-C29 give the value of every intermediate result; each assertion is then an identity of integers, the hardest being that the masked product plus a remainder fits the width and that rounding a truncated quotient down gives the arithmetic shift |
| C95 | the schedules of C87 over the machines of C93 and C90 | each turn brings a thread nearer to its end, by induction on the rest of its program; turns of others and scribbles leave it where it is; a common bound for all threads; then C93 and C90 say what they end with |
| C96 | the arithmetic of MShift.v, MArith.v and MDiv.v again, each definition with a counter of its steps (MTime.v); what is done with one digit and the setting up of a call are not counted | dropping the counter gives the definitions of the model, one lemma for each (LTime.v); each loop costs its rounds times its body (LTimeCost.v); the rounds of the long division are those of C78: each gains 62 bits (LTimeDiv.v) |
| C97 | comparing, bit operations, resizing, parsing and printing again, each definition with a counter of its steps (MTimeLinear.v); a vector that is collected is charged four steps for each digit (writing, moving while it grows, fitting it to its length) | dropping the counter gives the definitions of the model (LTimeLinear.v); induction on the lists passed over (LTimeLinearCost.v); in a radix that is no power of two the vector of digits never gets longer than two, because the code that would fill it is commented out |
| C98 | `{:?}` with all formatter options: `Formatter::pad_integral` and the two forms of Debug output with any way to show numbers (MDebugOpt.v) | the number text is that of Rust's own integers (SpecText.v) by cases; the layout by computation; the run of letters and digits of a number can be found again, so that texts identify (LDebugOpt.v) |
| C99 | the calls of MText.v that return whole errors, and the conversions of MPrim.v, each definition with a counter (MTimeText.v): a character of a message or an annotation is a step, also of one that is replaced; panics and their messages are not counted | dropping the counter gives the definitions repeated; the texts are measured part by part: a numeral has at most as many characters as its number has bits, a digit at most 20 (LTimeText.v) |
| C100 | reading and writing documents, hashing and random integers again, with a counter (MTimeDoc.v); what the format, the hasher and the generator do themselves is not counted, a vector that grows is charged three more steps for each element | dropping the counter gives the definitions repeated; induction on the elements and entries of a document, whose size is defined in SpecTimeDoc.v (LTimeDoc.v); the length check stands before anything is built |
| C101 | the programs of C51 again, with a counter (MTimeProgram.v: constructors, conversions, queries and the interpreter itself; the operations are those of C97 to C100) | dropping the counter gives the interpreter of C51; the size of the integers a program holds is an invariant of its run, and each call is bounded by it (LTimeProgram.v); the bounds are in SpecTimeProgram.v |
| C102 | the calls again, each with the list of what can be watched of it (MWatch.v): the digits read and written, the branches taken, the sizes allocated. What is done with one digit (also by instructions whose time may depend on their operand), the freeing of memory and the texts of errors are not listed; multiplication is watched in C103, division in C105, printing and parsing are not | dropping the list gives the definitions repeated (LWatch.v); two runs on integers of equal widths are related step by step (LWatchSame.v, LWatchProgram.v); for calls that stop early the lists are compared at the first digit where the runs part, in both directions (LWatchLeak.v, LWatchLeak2.v) |
| C103 | multiplication and signed comparison, again each with the list of what can be watched of it (MWatchMul.v), as for C102. The vector that collects a product is a place of its own, a push is a write behind its last digit | dropping the list gives the definitions repeated (LWatchMul.v); the lists of two products are compared at the first search step, branch or allocation where they part, and the number of bits that is compared is turned into logarithms of the values (LWatchMul2.v, LWatchMul3.v, words in SpecWatchMul.v) |
| C104 | nothing new: the digits read, written and allocated are counted in the lists of C102 and C103 (words in SpecWork.v). Every access counts, also a further one to the same digit; freeing memory is not counted | the numbers of two steps add up; if a call returns, its steps were these; each loop keeps the number of digits and does the same in every round, or what a closed formula says (LWork.v to LWork5.v); the calls return by C01 to C27 (LWork6.v, LWork7.v, LWork8.v) |
| C105 | division, unsigned and signed, again with the list of what can be watched of it (MWatchDiv.v), as for C102. The two vectors that a long division allocates, for the quotient and for the multiple that is subtracted, are places of their own, as is the copy of the divisor that is made for a quotient or remainder alone | dropping the list gives the definitions of MDiv.v (LWatchDiv.v); the searches for the digits needed part first, then the branch on the half digit (`aarons_reveal`, LWatchDiv2.v); a short division has loops of fixed length (`same_aarons`); the numbers of digits are turned into numbers (LWatchDiv3.v); a signed division tells the signs by its branches before it divides (LWatchDiv4.v). For a long division the exact set of what is revealed is not characterised: C105_reveals is one direction and C105_long_refuted shows that its converse fails |
| C106 | the lists of accesses of C102, C103 and C105 (MWatch.v, MWatchMul.v, MWatchDiv.v) | two executions are related digit by digit (`cell`, LTouch.v): a digit is the same in both, or was not read and is the old one in both, and is the old one if it was not written. Rules for each step of a call (`dep_bind`, `dep_idx`, `dep_upd`, `dep_see`, …), then loop by loop and call by call (LTouch2.v, LTouch3.v, LTouch4.v). At the end the set of digits read and written is read off the list itself (`touch_intro`, LTouch5.v). Division: the same rules for the loops, the long division and the calls (LTouchDiv.v to LTouchDiv5.v), with the vectors `quo` and `sub` equal in both executions; words for calls that change both operands in SpecTouchDiv.v |
| C107 | nothing new: the accesses are those listed in MWatchDiv.v (C105), counted as for C104, the steps those of MTime.v (C96); words in SpecTraffic.v | the two versions of each definition run in step, and a balance is kept: two accesses for each step that was counted, less the accesses made (`paid`, LTraffic.v). Where one version counts a whole loop at once the balance of the loop is computed by induction. Allocations are added up call by call (`al`, LTraffic2.v, LTraffic3.v); a division by zero is found before anything else is allocated (`divrem_zero`). The bounds then follow from C96, and the calls return by C05 to C08 (LTraffic4.v) |

"Partial" means that the claim as a user would state it is false of this code. The `_refuted`
theorem gives a witness, the `_exact` theorem says for every input what the code does instead, and the
`_partial` theorem covers the inputs on which the claim is true.

## 4. Defects of the code that the proofs brought up

* `is_one` is wrong above 64 bits (it compares the most significant digit with 1, so it is false of 1 and
  true of 2^64 at width 128); `is_all_set` does not look at the most significant digit when the width is
  a multiple of 64, so it is true of every 64-bit integer (C18).
* Signed division of different widths panics instead of returning the error, after possibly
  negating an operand (C09); a client that catches the panic finds the operand changed (C59, C70).
* Parsing in a radix that is no power of two is wrong beyond one 64-bit block (C34).
* `try_to_i8` ... `try_to_i64` of wider integers reject negative values and accept some that do not
  fit (C31).
* `to_string_radix` and `{:o}` panic (C37).
* Deserializing an empty sequence in a compact format panics (C39).
* The errors of `checked_ule`, `checked_ugt`, `checked_sle`, `checked_sgt` carry the widths swapped (C08).
* `Int::is_positive` holds of zero (C42); `Int` and `UInt` never get their serde attributes, because
  the `cfg_attr` names a feature that does not exist.
* Signed division of `Int` is documented not to allocate but copies its divisor (C53).
* Division of `UInt` is documented not to allocate but copies its divisor above 64 bits, and divisions with
  quotient one may allocate although documented not to (C71).
* `from_str_radix` never reports the position of a bad character in the kind of its error (C35, C62).
* The annotations of `checked_ult`, `checked_uge`, `checked_sle`, `checked_sgt`, `checked_sge` name another
  comparison (C62); the one of `strict_assign` has target and source exchanged (C61).
* `Display` of an error prints its `Debug` form, so annotations with line breaks are escaped (C66).
* The crate-private `overflowing_uadd_assign` masks the highest digit with `64 - e` bits instead of `e` (C81).
* Formatting ignores `#`, `+`, width, fill and alignment (C63).

## 5. Trusted base

* Coq's kernel (8.16.1) and the standard library. `Print Assumptions` prints "Closed under the
  global context" for every theorem in `P*.v`: no axiom is used. `coqchk` lists seven fields of a
  module type of the standard library, `Coq.ssr.ssrunder.Under_rel.*`, which come with `lia`'s
  imports; no theorem rests on them.
* The reading of the code: each definition cites the lines it models, and simplifications are
  stated there. `TestsRepo.v` evaluates the model on the inputs of the unit tests of `/repo` and compares with
  the values those tests expect, including their seeded random numbers, serde tokens and error texts.
* The definitions in `Spec*.v`.

**Modelled:** all public functions of `ApInt`, `UInt`, `Int`, `BitWidth`, `BitPos`, `ShiftAmount`,
`Radix`, the operator traits, parsing, formatting, serde, random generation, allocation and drop.

**Not modelled:**

* the Unicode tables that tell which
  characters beyond code point 255 are printable (C65 holds for every such table);
* trivial accessors of digits (`repr`, `width`); `DoubleDigit` operations that nothing calls (`digit.rs` 99, 125, 157-187);
* `digit_seq.rs`: iterators, modelled as the lists they run over;
* where `SmallRng` takes its seed from and which words it gives (any function of an unknown input, C85);
* the text layer of a serde format (the data tree is modelled); hash functions (the data fed to the
  hasher is modelled);
* the vectors that multiplication and division use while they compute, as parts of the memory of C92 and C93 (their sizes are C71 and C72; failing to allocate one kills the process at that access, which C92 and C93 allow at every access);
* `usize` overflow outside the functions of `MUsize.v` and `MUsizeSigned.v` (positions, shift amounts and lengths elsewhere are
  bounded by the width or by the length of a slice);
* reads that return what has not been written yet (C86 delays writes, C89 lets reads return old values and threads disagree about the order of writes); double panics (a panic in a destructor of another type; the destructor of integers does not panic, C46 and C58);
* tests (except the fuzz test, C94; the unit tests are run on the model in TestsRepo.v) and benchmarks.

## 6. Testing the theorems

`seeded/LOG.jsonl`: each line is one edit of one model definition, as a realistic bug would make
it, in a scratch copy. The copy is rebuilt; files that fail are repaired only by leaving out what does not check,
so that every property theorem is tried. The line names the claim the edit breaks, an input that
shows the difference, and the theorems that no longer check. When none fails, the theorem is tightened.
