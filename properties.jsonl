{"id": "C01", "title": "UTF-8 encode/decode round trip", "statement": "Writing any 32-bit character with UTF8Put and reading it back with UTF8Get, whatever bytes follow in memory, yields the same character and consumes exactly the bytes written - for every character except the 257 replacement codes (0x800000xx and UCS4_NONE), which stand for a single raw byte.", "quantifier": "every 32-bit character value and every continuation of the buffer", "why_tests_cant": "2^32 characters times arbitrary trailing bytes", "anchors": ["include/char_encoding.h:UTF8Put", "include/char_encoding.h:UTF8Get", "include/char_encoding.h:UCS4IsIllegal"]}
{"id": "C02", "title": "UTF-8 length agrees with the encoder and is minimal", "statement": "UTF8Len(ch) is exactly the number of bytes UTF8Put(ch) writes, lies in 1..6, and is minimal for the 1/2/3/4/5/6-byte forms; the first byte alone determines that length through UTF8CorrectLen and all later bytes are continuation bytes (self-synchronisation).", "quantifier": "every 32-bit character value", "why_tests_cant": "2^32 characters", "anchors": ["include/char_encoding.h:UTF8Len", "include/char_encoding.h:UTF8Put", "include/char_encoding.h:UTF8CorrectLen"]}
{"id": "C03", "title": "Decoding always makes progress and the pointer length predicts it", "statement": "At every position of every byte sequence UTF8Get advances by between 1 and 6 bytes, never into bytes that are not continuation bytes of the lead byte, and UTF8Len(pointer) reports exactly that advance.", "quantifier": "every memory content and position", "why_tests_cant": "unbounded set of byte sequences, including every malformed one", "anchors": ["include/char_encoding.h:UTF8Get", "include/char_encoding.h:UTF8Len"]}
{"id": "C04", "title": "Naive programs pass any data through unchanged", "statement": "Decoding a whole byte string with UTF8Get and re-encoding every character with UTF8Put reproduces the bytes exactly, for every byte string - including illegal UTF-8 - that contains no over-long form and no six-byte spelling of a replacement code.", "quantifier": "every finite byte string", "why_tests_cant": "all byte strings, legal or not", "anchors": ["include/char_encoding.h:UTF8Get", "include/char_encoding.h:UTF8Put", "include/char_encoding.h:UTF8EncodeIllegal"]}
{"id": "C05", "title": "Decoding never reads past the NUL terminator", "statement": "On a NUL-terminated buffer no decoding primitive (UTF8Get, UTF8Len of a pointer) reads a byte after the terminator.", "quantifier": "every NUL-terminated buffer and every position in it", "why_tests_cant": "over-reads are silent; every truncated sequence has to be considered", "anchors": ["include/char_encoding.h:UTF8Get", "include/char_encoding.h:UTF8Len"]}
{"id": "C06", "title": "Stepping back undoes stepping forward", "statement": "For every text, UTF8Backup from the position reached after a character returns to the position where UTF8Get started that character.", "quantifier": "every byte string and every character boundary in it", "why_tests_cant": "all texts and all positions; the malformed ones are the interesting ones", "anchors": ["include/char_encoding.h:UTF8Backup", "include/char_encoding.h:UTF8Get"]}
{"id": "C07", "title": "Padded zero is one NUL character of the requested length", "statement": "UTF8PutPaddedZero(cp,n) writes exactly max(n,1) bytes which UTF8Get reads back as a single character 0.", "quantifier": "every n in 0..6", "why_tests_cant": "shows as silent corruption only for particular lengths", "anchors": ["include/char_encoding.h:UTF8PutPaddedZero"]}
{"id": "C08", "title": "UTF-16 round trip", "statement": "UTF16Put followed by UTF16Get with the same byte order returns the same character, advancing by UTF16Len(ch) units, for every Unicode scalar value, with or without byte swapping; UTF16Len of the stored pointer agrees.", "quantifier": "every Unicode scalar value, both byte orders, every trailing memory", "why_tests_cant": "1.1 million values in two orders", "anchors": ["include/char_encoding.h:UTF16Put", "include/char_encoding.h:UTF16Get", "include/char_encoding.h:UTF16Len"]}
{"id": "C09", "title": "UTF-16 decoding accepts any input", "statement": "UTF16Get on any sequence of code units returns a character (the replacement character for unpaired surrogates) and never terminates the program.", "quantifier": "every sequence of UTF-16 code units", "why_tests_cant": "all malformed sequences", "anchors": ["include/char_encoding.h:UTF16Get"]}
{"id": "C10", "title": "Case conversion is a function of the character only", "statement": "UCS4ToUpper and UCS4ToLower return the same value for the same character whatever sequence of calls came before (they keep a hidden last-used-entry memo), and that value is the one the case tables define.", "quantifier": "every character and every history of previous calls", "why_tests_cant": "hidden state: histories are unbounded", "anchors": ["src/char_encoding.cpp:UCS4ToUpper", "src/char_encoding.cpp:UCS4ToLower", "src/case_conversions.c"]}
{"id": "C11", "title": "Decimal digit values", "statement": "UCS4Digit(ch) depends only on ch (not on earlier calls), is in 0..9 or -1, and is the digit value exactly for the characters of the decimal digit ranges listed in the source, including the listed Han number characters.", "quantifier": "every character and every history of previous calls", "why_tests_cant": "2^32 inputs and hidden state", "anchors": ["src/char_encoding.cpp:UCS4Digit", "src/char_encoding.cpp:UCS4HexDigit"]}
{"id": "C12", "title": "Alphabetic classification and title case", "statement": "UCS4IsAlphabetic is true exactly for characters with a case mapping or inside a listed caseless letter range; UCS4ToTitle is the listed exception or the upper case; both for every 32-bit input, with no table access outside the table.", "quantifier": "every 32-bit character", "why_tests_cant": "2^32 inputs; binary search boundaries", "anchors": ["src/char_encoding.cpp:UCS4IsAlphabetic", "src/char_encoding.cpp:UCS4ToTitle", "src/case_conversions.c"]}
{"id": "C13", "title": "Error numbers keep set and message apart", "statement": "ErrNum(set,msg) returns the set and message it was built from, is never zero, is negative (sign bit set), and two different (set,msg) pairs never compare equal; a zero code stays zero.", "quantifier": "every 16-bit set and 14-bit message", "why_tests_cant": "2^30 pairs", "anchors": ["include/error.h:ErrNum"]}
{"id": "C14", "title": "Reference counting frees exactly once, under any interleaving", "statement": "With any number of threads copying, assigning and dropping their own Ref handles in any interleaving of the atomic steps, the object is deleted exactly once, only after the last handle is gone, never used after deletion, and the count equals the number of live handles whenever no operation is in flight.", "quantifier": "every number of threads, every program of handle operations and every interleaving", "why_tests_cant": "schedules are unbounded", "anchors": ["include/refcount.h:RefCounted::AddRef", "include/refcount.h:RefCounted::Release", "include/refcount.h:Ref"]}
{"id": "C15", "title": "Arrays are values: mutation never shows through another handle", "statement": "After any history of array operations, an operation on one Array never changes the contents seen through any other Array variable, even when they share a body; a shared body is never written.", "quantifier": "every history of operations over any number of array variables", "why_tests_cant": "sharing histories are unbounded", "anchors": ["include/array.h:Array", "include/array.h:Array::Unshare"]}
{"id": "C16", "title": "Array operations compute the list operations they name", "statement": "append, insert, remove, slice, push, pop, shift, set, concatenation: the resulting contents equal the list operation applied to the old contents, for every element values, positions and growth history.", "quantifier": "every array state reachable by any history, every argument", "why_tests_cant": "capacities, offsets and sharing combine without bound", "anchors": ["include/array.h:Array", "include/array.h:ArrayBody"]}
{"id": "C17", "title": "Array searches and comparison agree with the contents", "statement": "find/rfind return the first/last matching index or -1, comparison is a total lexicographic order, bsearch and the functional helpers only touch elements of the array.", "quantifier": "every array contents and every probe", "why_tests_cant": "unbounded contents; out-of-bounds reads are silent", "anchors": ["include/array.h:Array::find", "include/array.h:Array::rfind", "include/array.h:Array::compare", "include/array.h:Array::bsearch"]}
{"id": "C18", "title": "Copy-on-write maps are values", "statement": "After any history of put/insert/remove/clear/copy, an operation on one map never changes the contents seen through another copy.", "quantifier": "every history of operations over any number of map variables", "why_tests_cant": "sharing histories are unbounded", "anchors": ["include/cowmap.h:CowMap"]}
{"id": "C19", "title": "Map operations implement a finite map", "statement": "put overwrites, insert keeps an existing value, remove deletes, lookups return the last value put, size counts keys - for the variable operated on.", "quantifier": "every history", "why_tests_cant": "unbounded histories", "anchors": ["include/cowmap.h:CowMap"]}
{"id": "C20", "title": "Strings are values: editing one never changes another", "statement": "After any history of string operations, editing one string never changes the text seen through any other string that shares its body.", "quantifier": "every history of operations over any number of string variables", "why_tests_cant": "sharing histories are unbounded", "anchors": ["include/strval.h:StrVal", "include/strval.h:StrVal::Unshare"]}
{"id": "C21", "title": "Character indexing returns the n-th character", "statement": "operator[] and substr locate the n-th character whatever mixture of multi-byte characters, whatever index/edits were performed before (the body caches a bookmark and a character count).", "quantifier": "every text, every index and every history of earlier calls", "why_tests_cant": "hidden bookmark state and unbounded texts", "anchors": ["include/strval.h:StrBody::nthChar", "include/strval.h:StrVal::nthChar"]}
{"id": "C22", "title": "String edits compute the text operation they name", "statement": "insert, append, prepend, remove, substr, head, tail, shorter, +, *: the resulting text is the corresponding character-list operation on the old text.", "quantifier": "every text state reachable by any history, every argument", "why_tests_cant": "slices, sharing and growth combine without bound", "anchors": ["include/strval.h:StrVal", "include/strval.h:StrBody"]}
{"id": "C23", "title": "String comparison is a total order consistent with equality", "statement": "compare is antisymmetric, transitive and 0 exactly for equal texts, so strings can key ordered maps; equality depends only on the text.", "quantifier": "all pairs and triples of strings, including slices", "why_tests_cant": "a single inconsistent pair corrupts a map", "anchors": ["include/strval.h:StrVal::compare", "include/strval.h:StrVal::operator=="]}
{"id": "C24", "title": "String search returns the first/last occurrence inside the string", "statement": "find/rfind return the least/greatest position at which the needle occurs entirely inside the string, or -1, and never look at text outside the string.", "quantifier": "every haystack, needle and starting position", "why_tests_cant": "unbounded texts and slices", "anchors": ["include/strval.h:StrVal::find", "include/strval.h:StrVal::rfind", "include/strval.h:StrVal::findAny", "include/strval.h:StrVal::findNot"]}
{"id": "C25", "title": "Substring clamping", "statement": "substr(at,len), head and tail return the characters at positions at..at+len clipped to the string for every argument, without reading outside the string.", "quantifier": "every string and every 16/32-bit argument", "why_tests_cant": "boundary arithmetic on unsigned values", "anchors": ["include/strval.h:StrVal::substr", "include/strval.h:StrVal::head", "include/strval.h:StrVal::tail", "include/strval.h:StrVal::shorter"]}
{"id": "C26", "title": "Integer parsing", "statement": "asInt32 returns the value of the numeral for every radix from 0 (by prefix, as in C) to 36 and reports an error for everything that is not a numeral in range: no numeral outside the int32 range is reported as success.", "quantifier": "every string and radix", "why_tests_cant": "unbounded strings; overflow edges", "anchors": ["include/strval.h:StrVal::asInt32"]}
{"id": "C27", "title": "JSON escaping is valid and reversible", "statement": "toJSON produces, for every string, valid JSON string contents that decode to the same characters.", "quantifier": "every string", "why_tests_cant": "every code point in every context", "anchors": ["include/strval.h:StrVal::toJSON"]}
{"id": "C28", "title": "Variants copy by value", "statement": "Copying or assigning a variant yields the same type and value and leaves the source unchanged; destroying one never affects the other.", "quantifier": "every variant value and history of assignments", "why_tests_cant": "ownership bookkeeping over histories", "anchors": ["include/variant.h:Variant"]}
{"id": "C29", "title": "Variant coercion keeps type and value consistent", "statement": "After a successful coerce(t) the variant's type is t and its value is the conversion of the old value; an impossible coercion is reported.", "quantifier": "every variant value and target type", "why_tests_cant": "all type pairs and all values", "anchors": ["include/variant.h:Variant::coerce"]}
{"id": "C30", "title": "Pegexp matches exactly the PEG language", "statement": "For every expression built from the documented operators, matching its text against any input gives the outcome (success/failure, amount consumed) of the PEG semantics of the expression.", "quantifier": "every expression and every input", "why_tests_cant": "both unbounded", "anchors": ["include/pegexp.h:Pegexp::match_sequence", "include/pegexp.h:Pegexp::match_atom", "include/pegexp.h:Pegexp::skip_atom"]}
{"id": "C31", "title": "Failed matches and lookahead consume nothing", "statement": "A failing atom restores the source position; & and ! never consume input whatever their operand does.", "quantifier": "every expression and input", "why_tests_cant": "both unbounded", "anchors": ["include/pegexp.h:Pegexp::match_atom"]}
{"id": "C32", "title": "Matching terminates and stays inside the pattern", "statement": "For every expression and finite input the matcher terminates and never reads the pattern beyond its terminator, including for a repetition whose operand matches the empty string.", "quantifier": "every pattern text and every input", "why_tests_cant": "non-termination and over-reads can hide in any pattern", "anchors": ["include/pegexp.h:Pegexp::match_atom", "include/pegexp.h:Pegexp::literal_char"]}
{"id": "C33", "title": "Source positions count lines and columns", "statement": "After advancing over any text the source reports the line and column of the current position.", "quantifier": "every text", "why_tests_cant": "unbounded texts", "anchors": ["include/pegexp.h:PegexpPointerSource"]}
{"id": "C34", "title": "Every grammar rule can be found by its name", "statement": "In a grammar with distinct rule names, calling <name> finds exactly the rule of that name, for every set of names and any order of the rules.", "quantifier": "every set of rule names", "why_tests_cant": "order of names is data dependent", "anchors": ["include/peg.h:Peg::lookup", "include/peg.h:Peg::Peg"]}
{"id": "C35", "title": "Left recursion is detected, so parsing terminates", "statement": "A parse of any grammar whose rules call each other recursively never recurses twice into the same rule at the same position: recursion depth is bounded by rules times positions.", "quantifier": "every grammar and every input", "why_tests_cant": "unbounded grammars and inputs", "anchors": ["include/peg.h:Peg::recurse"]}
{"id": "C36", "title": "Captures are only what was matched", "statement": "A rule's captures after a parse are those of the alternatives that succeeded; failed alternatives leave none behind.", "quantifier": "every sequence of captures and rollbacks", "why_tests_cant": "backtracking histories are unbounded", "anchors": ["include/peg_ast.h:PegContext", "include/peg.h:PegContext"]}
{"id": "C37", "title": "joinAny waits for a thread and never loses one", "statement": "joinAny returns an ended thread when some thread has been created and not joined, returns nothing only if there is none, and does not spin forever.", "quantifier": "every interleaving of create, exit and join", "why_tests_cant": "schedules are unbounded", "anchors": ["include/thread.h:Thread", "src/thread.cpp:Thread::joinAny"]}
{"id": "C38", "title": "A latch is held by at most one thread", "statement": "In every interleaving at most one thread is inside a latch, and releasing lets another in.", "quantifier": "every number of threads and every interleaving", "why_tests_cant": "schedules are unbounded", "anchors": ["include/lockfree.h:Latch"]}
{"id": "C39", "title": "Compiled numbers survive encoding", "statement": "Every signed offset encoded in a compiled regular expression decodes to itself, for every 32-bit value.", "quantifier": "every 32-bit offset", "why_tests_cant": "2^32 values", "anchors": ["rx/strregex.h:zigzag", "rx/rxcompile.cpp"]}
{"id": "C40", "title": "The regex matcher finds a match exactly when the expression matches", "statement": "For every compiled regular expression and every subject, the matcher reports a match at an offset iff the language of the expression contains a substring there, and reports the leftmost longest one.", "quantifier": "every expression and every subject", "why_tests_cant": "both unbounded", "anchors": ["rx/rxmatch.cpp:RxMatch", "rx/rxmatch.cpp:addthread"]}
{"id": "C41", "title": "Regex compilation is total", "statement": "Compiling any text either yields a program or an error message; no input terminates the program.", "quantifier": "every pattern text", "why_tests_cant": "nesting depth and repetition are unbounded", "anchors": ["rx/rxcompile.cpp:RxCompiler"]}
{"id": "C42", "title": "Guarded pointers stay inside their text", "statement": "No sequence of increments, decrements and offsets moves a guarded pointer before the start or past the terminating NUL.", "quantifier": "every text and every sequence of pointer operations", "why_tests_cant": "unbounded operation sequences", "anchors": ["include/char_ptr.h:NulGuardedCharPtr", "include/char_ptr.h:GuardedCharPtr", "include/utf8_ptr.h:GuardedUTF8Ptr"]}
{"id": "C43", "title": "Joining strings", "statement": "StringArray join returns the elements in order with exactly one separator between neighbours.", "quantifier": "every array of strings and separator", "why_tests_cant": "unbounded arrays", "anchors": ["include/strval.h:StringArray::join"]}
{"id": "C44", "title": "White space and ASCII predicates", "statement": "The character predicates (IsWhite, IsASCII, IsLatin1, IsUTF16, ...) hold exactly on the documented ranges and the ASCII case/digit functions agree with the Unicode ones on ASCII.", "quantifier": "every 32-bit character", "why_tests_cant": "2^32 inputs", "anchors": ["include/char_encoding.h"]}
{"id": "C45", "title": "Case conversion is idempotent", "statement": "Upper-casing an upper-cased character, or lower-casing a lower-cased one, changes nothing, for every 32-bit character and whatever calls came before.", "quantifier": "every character and every memo state", "why_tests_cant": "2^32 inputs and hidden state", "anchors": ["src/char_encoding.cpp:UCS4ToUpper", "src/char_encoding.cpp:UCS4ToLower"]}
{"id": "C46", "title": "Unshare gives exclusive access", "statement": "When Unshare sees a count of at most one, the handle is and stays the only handle on its object whatever other threads do; when it sees more, it ends with a private copy no other handle refers to.", "quantifier": "every number of threads, every interleaving", "why_tests_cant": "schedules are unbounded; the count is read without a lock", "anchors": ["include/refcount.h:Ref::Unshare", "include/refcount.h:RefCounted"]}
{"id": "C47", "title": "as_json yields JSON of the value", "statement": "Variant::as_json yields, in every style (compact, spaced, indented), a JSON text (RFC 8259) of the value the variant holds, laid out in that style; so variants with the same JSON have the same value.", "quantifier": "every variant any history of construction, copying and assignment can build, and every style", "why_tests_cant": "values nest without bound and the text depends on every part", "anchors": ["include/variant.h:Variant::as_json"]}
{"id": "C48", "title": "format puts the arguments in place of the conversions", "statement": "StrVal::format returns the format with each conversion replaced by its argument (%s by the string or the decimal notation of the number, the others by the JSON of the value), honouring sizes, precisions, argument numbers and %%; it stops when an argument is missing or cannot be converted, leaks nothing and changes no variable.", "quantifier": "every format and every array of arguments any history can build", "why_tests_cant": "formats and arguments are unbounded", "anchors": ["include/strformat.h:StrValI::format", "include/variant.h:Variant::as_strval", "include/variant.h:Variant::as_json"]}
{"id": "C49", "title": "Waiting on a condition", "statement": "A thread inside a latch that waits on a condition gives up the latch and falls asleep in one step; it sleeps until the condition is signalled or broadcast (or the system wakes it spuriously), no broadcast made after it fell asleep is lost on it, a signal wakes at least one of the sleepers, and when its wait returns it is the only thread inside the latch. A wait with a time limit of ms milliseconds lasts until it is signalled or that long.", "quantifier": "all numbers of threads, all schedules of latch, wait, signal and broadcast calls and of spurious wakeups and clock ticks, debug and release builds", "why_tests_cant": "a test runs a few schedules; lost wakeups and entry by two threads depend on the interleaving", "anchors": ["include/condition.h:Condition", "src/condition.cpp:Condition::wait, signal, broadcast", "include/lockfree.h:Latch"]}
{"id": "C50", "title": "A parse reports how far it got and what it was looking for", "statement": "The Match that Peg::parse returns with a PegContext tells the furthest place of the text that the parse reached, and every literal or class that was tried there outside of lookaheads and did not match, each once, with its text and with the names of the rules through which it was reached from TOP. Collecting this changes nothing about the outcome of the parse.", "quantifier": "every grammar and every text", "why_tests_cant": "grammars and texts are unbounded; the report depends on every attempt of the matcher", "anchors": ["include/peg_ast.h:PegContext::record_failure, match_result, match_failure", "include/peg_ast.h:PegMatch, PegFailure", "include/pegexp.h:Pegexp::match_atom"]}
{"id": "C51", "title": "Matching a regular expression stays in the program and the text", "statement": "matchAt and matchAfter with any pattern that compiled, on any text and from any offset, read only the compiled program and the text, and end. A match they report begins at the offset asked for (matchAt) or at or after it (matchAfter), and ends neither before its beginning nor after the end of the text.", "quantifier": "every pattern, feature set, text and offset", "why_tests_cant": "the matcher follows relative offsets inside bytes that the compiler wrote; a wrong one shows only for the pattern that has it", "anchors": ["rx/rxmatch.cpp:RxProgram::decode, RxMatch::addthread, RxMatch::matchFrom", "rx/rxcompile.cpp:RxCompiler::compile", "rx/strregex.h:RxProgram, RxMatch, RxResult"]}
{"id": "C52", "title": "The listing of a compiled regular expression", "statement": "dump prints, for the program of any pattern that compiled, the header (the two entry points, the numbers of stations and captures, the names of the groups), then one line for each instruction that the matcher can come to, at its position, with the operands, destination and group name that the matcher finds there, and the final NUL. It reads only the program, and no line reports an error.", "quantifier": "every pattern and feature set", "why_tests_cant": "the listing walks byte by byte through code whose operands have varying length; one wrong length shows only for the patterns that have it", "anchors": ["rx/rxdump.cpp:RxCompiler::dump, dumpInstruction", "rx/rxcompile.cpp:RxCompiler::compile", "rx/rxmatch.cpp:RxProgram::decode"]}
{"id": "C53", "title": "transform with any callback", "statement": "transform(callback, after) keeps the first after+1 characters (all of them if after is below -1), then calls the callback at each position it has reached, puts the string it returns in place of the characters it moved over (a character it moved into counts), and goes on behind them; once the callback moves over nothing its string is put there and the rest of the text is kept. The result is a proper string of that text and length, no other string changes, and the callback is called exactly so often.", "quantifier": "every string a program can build, every callback (with any state of its own) that stays within the text and returns a string, every value of after", "why_tests_cant": "the callback is an arbitrary program: which lengths it consumes and returns, and when it stops, cannot be enumerated", "anchors": ["include/strval.h:StrValI::transform, StrBodyI::transform, getChar, putChar", "include/array.h:ArrayBody::insert, resize"]}
{"id": "C54", "title": "copies of a string in different threads", "statement": "Copies of a string may be used by different threads without locks, each variable by one thread at a time: every variable behaves as a value of its own. Whatever the interleaving, what a thread reads from its variable is what its own history gives, appending to one copy never shows in another, not even half done, no character is written while another thread reads or writes it, storage is freed only when nobody uses it, and the number of characters a thread is told is that of its text.", "quantifier": "every number of threads and variables, every sequence of making, copying, dropping, handing over, editing, reading and counting by each thread, every interleaving of the accesses to counts and bytes", "why_tests_cant": "the sharing is decided by a reference count read at one moment and acted on later; which of the astronomically many interleavings breaks it is up to the scheduler", "anchors": ["include/strval.h:StrValI::Unshare, copyBody, StrBodyI::isShared, numChars, countChars, insertBytes", "include/refcount.h:Ref::operator=, AddRef, Release", "doc/strval.md"]}
{"id": "C55", "title": "copies of an array or map in different threads", "statement": "Copies and slices of an array, and copies of a map, may be used by different threads without locks, each variable by one thread at a time: every variable behaves as a value of its own. Whatever the interleaving, what a thread reads from its variable is what its own history gives; setting, inserting, removing or putting in one copy never shows in another, not even half done; no element is written while another thread reads or writes it; and storage is freed only when nobody uses it.", "quantifier": "every element type, every number of threads and variables, every sequence of making, copying, slicing, trimming, joining, dropping, handing over, editing, putting and reading by each thread, every interleaving of the accesses to counts and elements", "why_tests_cant": "the sharing is decided by a reference count read at one moment and acted on later; which of the astronomically many interleavings breaks it is up to the scheduler", "anchors": ["include/array.h:ArrayR::Unshare, operator=, slice, remove, insert, set", "include/cowmap.h:CowMap::Unshare, put, insert, remove", "include/refcount.h:Ref::operator=, AddRef, Release"]}
{"id": "C56", "title": "results of a match are values", "statement": "A result of a regular expression match is a value: copying one and then changing either (setting a capture, pushing, incrementing or popping a counter, clearing) never changes what the other shows; every reading (offset, length, success, captures, number and values of counters, comparison of counters) shows what the calls made on that variable put there, captures never set reading 0; storage is shared between copies, freed exactly when no result refers to it, and access to captures or counters outside the range is ignored.", "quantifier": "every number of result variables, every sequence of constructing, copying, clearing, setting captures and pushing, incrementing and popping counters, every index read", "why_tests_cant": "copies share storage that is allocated late and copied on write; which sequence of copies and changes shows through is unbounded", "anchors": ["rx/strregex.h:RxResult", "rx/rxmatch.cpp:RxCaptures, RxResult::Unshare, captureSet, counterPushZero, counterIncr, counterPop, countersSame", "include/refcount.h:Ref::operator="]}
{"id": "C57", "title": "latches constructed in several threads", "statement": "A latch may be constructed in any thread at any time: every latch constructed is error-checking, so that it can be entered, left and asked about as documented; the attributes that latches share are initialised once, before they are used, and no thread changes them while another uses them.", "quantifier": "every number of threads, every number of latches constructed by each, every interleaving of the reads and writes of the shared flag and attributes", "why_tests_cant": "the defect needs two threads inside the first construction at the same moment; only an enumeration of all interleavings can settle it", "anchors": ["include/lockfree.h:Latch::Latch, Latch::enter, Latch::leave", "src/lockfree.cpp:Latch::attr, Latch::initialised"]}
{"id": "C58", "title": "references to array elements", "statement": "A reference from elem_mut or last_mut, or a pointer from asElements, names that element of that array until the array is changed (set and other references aside) or, for a writable one, shared: reading through it gives the element's present value, writing through it sets that element and changes no other array. Passing such a reference to push or set of any array does what passing a copy of the element does. Taking a reference changes no contents.", "quantifier": "every element type, every program of array operations and uses of references on any number of arrays and references", "why_tests_cant": "whether a reference is good depends on the sharing and growth history of all arrays; a stale one may seem to work in a test", "anchors": ["include/array.h:Array::elem_mut, last_mut, asElements, push, operator+=, set, Unshare", "include/array.h:ArrayBody::insert, resize"]}
{"id": "C59", "title": "arrays of variants edited in place", "statement": "A VariantArray whose elements are arrays again is a value: pushing, setting (set, elem_mut(i) = y, elem_mut(i).as_int() = z), inserting, removing, pulling, slicing and taking elements change the named array as a list of values and nothing else, however its parts are shared with other arrays, its own elements or arrays that contain it. Nothing is freed while it can be reached, nothing has undefined behaviour, values stay finite, and when the last variable is gone all storage is freed.", "quantifier": "every program of these operations on any number of variables, every nesting, size and sharing", "why_tests_cant": "which storage an edit touches, copies or frees depends on the reference counts that the whole history left at every level", "anchors": ["include/array.h:Array::push, set, elem_mut, insert, remove, pull, slice, Unshare", "include/array.h:ArrayBody::insert, remove, resize", "include/variant.h:Variant(const Variant&), operator=, ~Variant, as_int"]}
{"id": "C60", "title": "threads are told apart when the system gives thread ids again", "statement": "Whatever ids the system gives to threads (an id may be given again once its thread has been joined), every thread that was started and has not been joined, collected or destroyed stays known: current() in it returns its own object, join() waits for the thread of its own object, joinAny returns it once it has ended and never spins; joining, collecting and destroying a thread does not affect any other, and gives back what the system holds for it.", "quantifier": "every interleaving of construction, resume, running, ending, join, joinAny and destruction of any number of threads, every choice of ids POSIX allows", "why_tests_cant": "ids are chosen by the system; whether an id comes back, and between which steps of join() or before which destructor, depends on the schedule", "anchors": ["include/thread.h:Thread::resume, remove_ended, ~Thread, current, find", "src/thread.cpp:Thread::join, joinAny, ThreadProc"]}
{"id": "C61", "title": "Thread::yield sleeps as long as it was asked to, signals or not", "statement": "Thread::yield(ms) does not return before ms milliseconds have passed, however many signals interrupt the sleep; if the system is never late it sleeps exactly ms milliseconds, and it returns from the first sleep that no signal interrupts.", "quantifier": "every ms of type unsigned long; every sequence of interrupted and completed sleeps the system may answer with", "why_tests_cant": "A test sleeps a few times for a few durations; the number of signals and the moments they arrive are not under its control and unbounded.", "anchors": ["include/thread.h:Thread::yield"]}
{"id": "C62", "title": "errorOffset() of a regular expression that does not compile points at the error", "statement": "When RxCompiler::compile fails, errorOffset() is an offset of the pattern (0 to its length) and tells where the construct that caused errorMessage() is: a construct that is refused (a repeated repetition, a count above 254, a group too deep, a duplicate name, a closing parenthesis too many) ends at that offset and everything before it was accepted; the same goes for errors in how the pattern is written. When it succeeds, errorOffset() is 0.", "quantifier": "every pattern (list of characters), every set of enabled and rejected features", "why_tests_cant": "Patterns are unbounded, and the offset depends on everything that follows the error; tests look at the message of a few patterns.", "anchors": ["rx/rxcompile.cpp:RxCompiler::scanRegex", "rx/rxcompile.cpp:RxCompiler::compile", "rx/strregex.h:RxCompiler::errorOffset"]}
{"id": "C63", "title": "compile() accepts exactly the regular expressions that keep the rules, and errorMessage() names the rule broken", "statement": "RxCompiler::compile succeeds exactly when the pattern is written without mistakes, no construct of it is refused and every group is closed. A construct is refused, in the order of the pattern, when it repeats something that cannot be repeated, has a count above 254, is a group inside 11 open groups, is a named group whose name was used before or comes after 254 names, or closes a group that is not open; errorMessage() then names that rule for the first construct that is refused, and otherwise a mistake of the pattern, or the group that was not closed.", "quantifier": "every pattern (list of characters), every set of enabled and rejected features", "why_tests_cant": "Which message is given depends on everything before the construct (open groups, names, what was read last); tests compile a fixed list of patterns.", "anchors": ["rx/rxcompile.cpp:RxCompiler::scanRegex", "rx/rxcompile.cpp:RxCompiler::compile", "rx/strregex.h:RxCompiler::errorMessage"]}
{"id": "C64", "title": "The latch without pthreads lets one thread in at a time", "statement": "Where pthreads are not used, a Latch is held by at most one thread at any moment, whether it was gained with probe() or enter(); probe() gains it exactly when nobody holds it, holding() says whether the calling thread holds it, without waiting, and leave() by the holder frees it.", "quantifier": "any number of threads, every interleaving of their calls and of the steps inside them", "why_tests_cant": "Mutual exclusion is about interleavings, and the branch is compiled only for a system the tests do not run on.", "anchors": ["include/lockfree.h:Latch::probe", "include/lockfree.h:Latch::enter", "include/lockfree.h:Latch::latch", "include/lockfree.h:Latch::unlatch", "include/lockfree.h:Latch::holding"]}
{"id": "C65", "title": "The condition variable for Windows wakes those who wait, and only when signalled", "statement": "In the MSW implementation of Condition, a thread in wait() without a time limit returns only after a signal() or broadcast() that came after its call; a broadcast lets every waiting thread out, and a signal at least one, whatever other threads do.", "quantifier": "any number of threads, every interleaving of waits (with and without time limit), signals, broadcasts and the steps inside them", "why_tests_cant": "Lost wake-ups show only in rare interleavings.", "anchors": ["src/condition.cpp:Condition::wait", "src/condition.cpp:Condition::signal", "src/condition.cpp:Condition::broadcast"]}
{"id": "C66", "title": "Writing through a variant's number references", "statement": "x.as_int() = z, x.as_long() = z and x.as_longlong() = z give the variant the number z: reading it back gives z, whatever number type (or numeral string) it had before, and no other variable changes.", "quantifier": "every history of operations on variants, every variant in it, every accessor and every number of its type", "why_tests_cant": "The result depends on the type tag and on the half of the union the accessor leaves alone; a test that writes a small positive number to a small positive number sees nothing.", "anchors": ["include/variant.h:as_int", "include/variant.h:as_long", "include/variant.h:as_longlong", "include/variant.h:coerce"]}
{"id": "C67", "title": "Errors are values", "statement": "An Error says the number, the text and the parameters of the construction or copy that last set it (the number with the error marks, or zero for no error), however it was copied, given to other threads and dropped; what another thread does with its copies never shows, and the shared storage is deleted once, after the last copy has gone, and not kept longer.", "quantifier": "every number of threads and variables, every history of constructions, copies, drops and hand-overs, and every interleaving of their atomic steps", "why_tests_cant": "Copies share one body; whether a copy made or dropped on another thread between two steps changes what is read depends on the schedule.", "anchors": ["include/error.h:Error", "include/error.h:ErrNum", "include/refcount.h:Ref"]}
{"id": "C68", "title": "Binary strings are lists of bytes", "statement": "Strings of binary data (StrRawBinary) act as lists of bytes: after any program of literals, assignments, copies, substrings, insertions, appends and C-string accesses, every string's length and byte count are the list's length, operator[] gives its bytes, == is equality of the lists, find gives the first place, asUTF8() points at the bytes followed by a NUL, and no other string changes.", "quantifier": "every number of variables, every program of these operations, every content, position and length", "why_tests_cant": "The raw body carries no character count, is shared and copied by the code written for UTF-8, and each operation has to treat it as raw again; whether it does depends on what was shared before.", "anchors": ["include/strval.h:StrValI", "include/strval.h:StrBodyI", "include/strval.h:StrRawBinary"]}
