{"id": "C01", "title": "Base64 decode inverts encode", "statement": "For every byte string s of at most 1610612733 bytes, decoding encode(s) returns exactly s (that is the largest length whose encoding still has a length fitting an int). Beyond 2^32 bytes the round trip fails: a string of exactly 2^32 bytes comes back empty.", "quantifier": "every byte string up to the bound (all 256 byte values, embedded NULs included); existence of a failing one beyond it", "why_tests_cant": "there are infinitely many byte strings, the tail and padding handling depends on the length modulo three, and nobody tests gigabyte inputs", "anchors": ["include/SSVUtils/Encoding/Src/Base64.cpp: Base64Encode, Base64Decode"]}
{"id": "C02", "title": "Base64 output is well-formed RFC 4648 text", "statement": "For every s shorter than 2^32 bytes encode(s) is the RFC 4648 encoding: each 6-bit group of the big-endian bit string of s, zero padded, mapped through the alphabet; its length is 4*ceil(|s|/3); it ends in 0, 1 or 2 '=' according to |s| mod 3 and has no other character outside the alphabet. For longer s it is the encoding of the first |s| mod 2^32 bytes only.", "quantifier": "every byte string", "why_tests_cant": "the set of inputs is infinite; a wrong shift or mask can hide in a rarely used byte combination", "anchors": ["include/SSVUtils/Encoding/Src/Base64.cpp: Base64Encode"]}
{"id": "C03", "title": "Base64 decode never depends on what follows the first non-alphabet character", "statement": "decode(a ++ [c] ++ b) = decode(a) whenever a consists only of alphabet characters and c is '=' or any character outside the alphabet, for every b; and decoding any text whose length fits an int is free of undefined behaviour.", "quantifier": "every prefix, every stop character, every suffix", "why_tests_cant": "ranges over all strings", "anchors": ["include/SSVUtils/Encoding/Src/Base64.cpp: Base64Decode"]}
{"id": "C04", "title": "MD5 digest is independent of how the message is chunked", "statement": "Feeding a message in any sequence of update calls and finalising gives the RFC 1321 digest of the concatenation, whatever the uninitialised context buffer held, if every chunk has at most 2^32-64 bytes. A last chunk that together with the bytes already buffered reaches 2^32 bytes reads out of bounds; one that does not is fine.", "quantifier": "every message and every partition of it into chunks (including empty chunks and chunks crossing 64-byte block boundaries)", "why_tests_cant": "the number of partitions is exponential in the length and the buffer fill level interacts with every chunk size", "anchors": ["include/SSVUtils/Encoding/Src/MD5.cpp: MD5Update, MD5Final"]}
{"id": "C05", "title": "MD5 digest equals RFC 1321", "statement": "The digest text computed for a message is the hexadecimal rendering of the RFC 1321 function: pad with 0x80, zeros and the 64-bit little-endian bit length, then fold the 64-step compression function over the 16-word little-endian blocks. The 64 additive constants are the integer parts of 2^32 |sin i|.", "quantifier": "every message shorter than 2^32 bytes", "why_tests_cant": "the function is unstructured: agreement on any finite set of messages says nothing about the others", "anchors": ["include/SSVUtils/Encoding/Src/MD5.cpp: MD5Init, MD5Update, MD5Final, MD5Transform, Encode, Decode"]}
{"id": "C06", "title": "MD5 hex digest rendering", "statement": "Rendering bytes as text gives two lower-case hexadecimal digits per byte in order, and different byte strings have different renderings; the text of a message digest always has 32 characters.", "quantifier": "every byte string and every message shorter than 2^32 bytes", "why_tests_cant": "2^128 digests", "anchors": ["include/SSVUtils/Encoding/Src/MD5.cpp: hex digest rendering"]}
{"id": "C07", "title": "Integer to string is the decimal numeral exactly when it fits the scratch buffer", "statement": "For each integer width there is an open interval (written out in the specification) such that toStr(n) is the canonical decimal numeral of n (no leading zeros, '-' for negatives), whatever the buffer held before, for n inside it; for every other n of the type it writes outside its buffer (undefined behaviour).", "quantifier": "every value of short, unsigned short, int, unsigned int, long, unsigned long", "why_tests_cant": "2^64 values per type and the overrun is invisible to a test that happens to read back the overrun bytes", "anchors": ["include/SSVUtils/Core/String/Internal/FastIntToStr.hpp: toStr, getConvBuffer", "include/SSVUtils/Core/String/ToStr.hpp: toStr"]}
{"id": "C08", "title": "toStr of every integer is memory safe (expected, refuted)", "statement": "The expectation that toStr stays in its buffer for every value is false for each of the six types: every one of them has values (for instance INT_MAX) whose conversion writes out of bounds.", "quantifier": "existence of a value for each type", "why_tests_cant": "a test reading the bytes back sees the right text even though the write was out of bounds", "anchors": ["include/SSVUtils/Core/String/Internal/FastIntToStr.hpp: toStr, getConvBuffer"]}
{"id": "C09", "title": "Obfuscated value returns what was stored", "statement": "After any sequence of set, +=, -=, *=, /= and similar operations on an obfuscated integer, the values read are those of a plain variable of the same type, as long as the plain history has no undefined behaviour and every value lies in the printable interval of C07; storing any other value of the type is undefined behaviour. The plain operators give the exact result (quotients towards zero) brought into the type by a multiple of the number of its values, and are undefined exactly for division by zero, for results of int and long outside the type and for results of short and unsigned short outside int.", "quantifier": "every integer type, initial value and history of operations", "why_tests_cant": "histories are unbounded", "anchors": ["include/SSVUtils/Encoding/Inc/ObfuscatedValue.hpp: ObfuscatedValue", "include/SSVUtils/Encoding/Src/Base64.cpp: Base64Encode, Base64Decode"]}
{"id": "C10", "title": "Levenshtein distance is the minimum edit count", "statement": "getDistLevenshtein(a,b) stays inside its table and is the least number of single-character insertions, deletions and substitutions that turn a into b: some edit script of that length exists and none is shorter.", "quantifier": "every pair of strings", "why_tests_cant": "minimality over all edit scripts cannot be tested by examples", "anchors": ["include/SSVUtils/Core/String/Utils.hpp: getDistLevenshtein"]}
{"id": "C11", "title": "Levenshtein distance is a metric", "statement": "getDistLevenshtein is zero exactly on equal strings, symmetric, and satisfies the triangle inequality; it is at most max(|a|,|b|) and at least the length difference.", "quantifier": "every pair / triple of strings", "why_tests_cant": "universally quantified laws over infinite domains", "anchors": ["include/SSVUtils/Core/String/Utils.hpp: getDistLevenshtein"]}
{"id": "C12", "title": "replace changes only the first occurrence", "statement": "replace(s, from, to) leaves s unchanged if from does not occur in s; otherwise s = p ++ from ++ q with p the shortest such prefix and the result is p ++ to ++ q.", "quantifier": "every s, from, to", "why_tests_cant": "infinitely many strings; overlaps make the first-occurrence claim subtle", "anchors": ["include/SSVUtils/Core/String/Utils.hpp: replace, getReplaced"]}
{"id": "C13", "title": "replaceAll removes every occurrence when it returns", "statement": "Whenever replaceAll(s, from, to) returns, the result has no occurrence of from. It returns for every s when to is shorter than from; for a one-character from not in to it substitutes each such character; and if from and a non-empty to have no character in common it returns the left-to-right replacement of the non-overlapping occurrences.", "quantifier": "every s, from, to", "why_tests_cant": "loop termination and absence of occurrences for all strings", "anchors": ["include/SSVUtils/Core/String/Utils.hpp: replaceAll, getReplacedAll"]}
{"id": "C14", "title": "replaceAll diverges when the replacement contains the pattern", "statement": "If from occurs in s and from occurs in to (in particular if from is empty), replaceAll(s, from, to) never returns.", "quantifier": "every s, from, to with from occurring in both", "why_tests_cant": "non-termination cannot be observed by a terminating test", "anchors": ["include/SSVUtils/Core/String/Utils.hpp: replaceAll", "include/SSVUtils/Core/FileSystem/Utils.hpp: expandUserPath"]}
{"id": "C15", "title": "Splitting on a separator yields exactly the separator-free pieces", "statement": "split (normal mode, non-empty separator) returns the non-empty ones, in order, of the pieces of s between successive leftmost occurrences of the separator; no piece contains the separator and joining all pieces with it gives s. With an empty separator splitting never returns.", "quantifier": "every string and every separator", "why_tests_cant": "all strings, all separators, including overlapping occurrences", "anchors": ["include/SSVUtils/Core/String/Internal/SplitHelper.hpp: SplitHelperImpl::split", "include/SSVUtils/Core/String/Split.hpp"]}
{"id": "C16", "title": "Splitting with several separators", "statement": "With a list of non-empty separators, the cuts are, from left to right, the earliest occurrence of any separator (the first listed wins a tie); pieces and separators concatenate back to s and no piece contains any separator. The three modes return the non-empty ones of, respectively, the pieces, the pieces with their separators attached, and the pieces and separators alternating.", "quantifier": "every string and every list of non-empty separators, all three modes", "why_tests_cant": "all strings and separator lists", "anchors": ["include/SSVUtils/Core/String/Internal/SplitHelper.hpp: findFirstOf, split (vector version)"]}
{"id": "C17", "title": "Trailing-separator splitting loses nothing", "statement": "In trailing-separator mode with one non-empty separator the tokens are each piece with its separator, plus the last piece if it is not empty; concatenating the tokens gives exactly the original string.", "quantifier": "every string and non-empty separator", "why_tests_cant": "all strings", "anchors": ["include/SSVUtils/Core/String/Internal/SplitHelper.hpp: split"]}
{"id": "C18", "title": "Separator tokens in tokenize mode with one separator (refuted)", "statement": "The separator tokens of tokenize mode should be the separator itself. With a single separator a separator at the start of the string makes the call throw out_of_range, and elsewhere the token is the text one character further left: the last character of the piece followed by the separator without its last character.", "quantifier": "every string and separator", "why_tests_cant": "the shipped tests never look at the separator tokens of the single separator overloads", "anchors": ["include/SSVUtils/Core/String/Internal/SplitHelper.hpp: split"]}
{"id": "C19", "title": "beginsWith and endsWith decide prefix and suffix", "statement": "beginsWith(s,x) is true iff s = x ++ t for some t; endsWith(s,x) is true iff s = t ++ x for some t; the character overloads agree with one-character strings; neither reads outside s.", "quantifier": "every pair of strings", "why_tests_cant": "all strings incl. empty and longer needles", "anchors": ["include/SSVUtils/Core/String/Utils.hpp: beginsWith, endsWith"]}
{"id": "C20", "title": "Trimming removes exactly the matching margin", "statement": "trimL / trimR / trimLR remove the longest prefix / suffix / both whose elements satisfy the predicate and keep the rest in order; trimming is idempotent.", "quantifier": "every container and predicate", "why_tests_cant": "all containers and predicates", "anchors": ["include/SSVUtils/Core/Utils/Containers.hpp: trimL, trimR, trimLR", "include/SSVUtils/Core/String/Trim.hpp"]}
{"id": "C21", "title": "Container searches and removals agree with their set-theoretic meaning", "statement": "idxOf returns the position of the first equal element or the size; contains / containsAnyOf / containsAllOf / containsAnyIf decide membership; eraseRemoveIf and eraseRemove keep exactly the elements not satisfying the predicate (not equal to the value), in order; getKeys gives the key of every entry of a map, in order of iteration.", "quantifier": "every container, value and predicate", "why_tests_cant": "all containers", "anchors": ["include/SSVUtils/Core/Utils/Containers.hpp: idxOf, contains, containsAnyOf, containsAllOf, containsAnyIf, eraseRemoveIf, eraseRemove, getKeys"]}
{"id": "C22", "title": "getMod is the mathematical modulo", "statement": "For v and ub > 0 of one signed type, getMod(v, ub) is v modulo ub exactly when v % ub + ub fits the type and undefined behaviour otherwise; for one unsigned type it is right exactly when that sum does not wrap. The three-argument form returns the r in [lb, ub) congruent to v modulo ub-lb when the intermediate values fit.", "quantifier": "every v, lb, ub of int, unsigned, long, unsigned long", "why_tests_cant": "2^64 combinations of signs and magnitudes", "anchors": ["include/SSVUtils/Core/Utils/Math.hpp: getMod"]}
{"id": "C23", "title": "Cyclic container indexing with a negative index", "statement": "getByModIdx(c, i) with a signed index returns the element at i mod size for every non-negative i. For negative i it returns some element of the container, the right one exactly when the size divides 2^64.", "quantifier": "every non-empty container and every index", "why_tests_cant": "the wrong answers depend on the residue of 2^64 modulo the size", "anchors": ["include/SSVUtils/Core/Utils/Containers.hpp: getByModIdx", "include/SSVUtils/Core/Utils/Math.hpp: getMod"]}
{"id": "C24", "title": "2D index conversion round trips", "statement": "get2DIdxFrom1D and get1DIdxFrom2D are mutually inverse for cols > 0, 0 <= x < cols, y >= 0 and a positive 1D index that fits the type; index 0 (the origin) violates the assertion of get2DIdxFrom1D for every cols.", "quantifier": "every x, y, cols of every integer type", "why_tests_cant": "all dimensions", "anchors": ["include/SSVUtils/Core/Utils/Math.hpp: get1DIdxFrom2D, get2DIdxFrom1D"]}
{"id": "C25", "title": "3D index conversion round trips (refuted)", "statement": "get1DIdxFrom3D computes x + y*cols + z*cols*rows, which is injective on the box; get3DIdxFrom1D should invert it, but recovers only y and z and returns y + z*rows in place of x.", "quantifier": "every x, y, z, cols, rows in the box", "why_tests_cant": "all dimensions; the failure is invisible where x happens to equal y + z*rows", "anchors": ["include/SSVUtils/Core/Utils/Math.hpp: get1DIdxFrom3D, get3DIdxFrom1D"]}
{"id": "C26", "title": "Clamping", "statement": "getClamped(x,lo,hi) with lo <= hi returns the element of [lo,hi] nearest to x; clamp, and clampMin followed by clampMax, agree with it; clamping again changes nothing; hi < lo violates an assertion. The one-sided forms are maximum and minimum; getSign is -1, 0 or 1 as the value is negative, zero or positive, for signed and unsigned types. With mixed signedness the comparison happens in the common type: a negative int clamped to an unsigned range yields the upper bound.", "quantifier": "every x, lo, hi of every integer type", "why_tests_cant": "all values", "anchors": ["include/SSVUtils/Core/Utils/Math.hpp: clamp, clampMin, clampMax, getClamped, getClampedMin, getClampedMax"]}
{"id": "C27", "title": "Value cycling and angle wrapping stay in range", "statement": "Over exact arithmetic getCycledValue(x,lo,hi) with lo < hi returns the unique value in [lo,hi) that differs from x by a multiple of hi-lo; getWrapDeg returns the representative in [0,360); getDistDeg is the least distance over all turns, symmetric, in [0,180], zero exactly for angles equal modulo 360; getRotatedDeg lands on the target when it is within the speed and otherwise moves by exactly the speed, getting closer by exactly that; toRad and toDeg undo each other. In single precision the range is not kept: a tiny negative angle wraps to 360.", "quantifier": "every rational x, lo, hi, angle and non-negative speed", "why_tests_cant": "all values", "anchors": ["include/SSVUtils/Core/Utils/Math.hpp: getCycledValue, getWrapDeg, getDistDeg, getRotatedDeg"]}
{"id": "C28", "title": "VecMap behaves as a finite map", "statement": "After any history of operator[] assignments, bracket reads and clear, a VecMap is strictly sorted by key and holds exactly the last assigned value (or the default, if only read) of every key used since the last clear; has, count, at, atOrDefault and the iterator lookup agree with that map and at throws exactly for absent keys; two maps compare equal exactly when they mean the same map; the bracket operator adds at most the entry of its key and leaves the others alone.", "quantifier": "every history of operations over every totally ordered key type", "why_tests_cant": "histories are unbounded", "anchors": ["include/SSVUtils/Container/Inc/VecMap.hpp: VecMap", "include/SSVUtils/Container/Inc/VecMapBase.hpp"]}
{"id": "C29", "title": "VecMap initializer list with duplicate keys (refuted)", "statement": "A VecMap built from an initializer list with distinct keys is the map of its entries. Duplicate keys are never merged: every entry stays, so size and iteration disagree with count, and assigning to the key leaves another entry behind.", "quantifier": "every initializer list; existence of a failing list", "why_tests_cant": "all lists", "anchors": ["include/SSVUtils/Container/Inc/VecMap.hpp: initializer list constructor"]}
{"id": "C30", "title": "VecSorted stays sorted and loses nothing", "statement": "After any sequence of inserts a VecSorted is sorted by its comparator and is a permutation of everything inserted; a new element lands before its equals, at the position returned, and the others keep their order.", "quantifier": "every history of inserts and every strict weak order", "why_tests_cant": "histories are unbounded", "anchors": ["include/SSVUtils/Container/Inc/VecSorted.hpp: VecSorted"]}
{"id": "C31", "title": "Bimap is a bijection", "statement": "After any history of emplace (of absent keys), erase by either side (of present keys) and clear, a Bimap holds exactly the pairs of the history, in insertion order, one-to-one: at, has, count and size answer accordingly on both sides, and at throws exactly for absent keys. A duplicate emplace or the erase of an absent key violates an assertion.", "quantifier": "every history", "why_tests_cant": "histories are unbounded", "anchors": ["include/SSVUtils/Bimap/Inc/Bimap.hpp: Bimap::emplace, eraseImpl, at, has, clear"]}
{"id": "C32", "title": "Bimap element access by bracket may break the bijection (refuted)", "statement": "Reading a present key with operator[] changes nothing; an absent key is inserted with the default partner, which is fine if that is not paired yet. If it is, the assertion fails, or without assertions the two directions disagree afterwards. Assigning through the returned reference leaves the other index unsorted, so pairs that are there are no longer found.", "quantifier": "every state; existence of failing histories", "why_tests_cant": "needs reasoning about states the tests never reach", "anchors": ["include/SSVUtils/Bimap/Inc/Bimap.hpp: operator[], get"]}
{"id": "C33", "title": "Growing an array preserves its elements", "statement": "GrowableArray::grow(old,new) with old <= new and old < 2^32 keeps the elements at indices below old and value-initialises the others; new < old violates an assertion; from 2^32 elements on the call never returns.", "quantifier": "every contents and every old, new", "why_tests_cant": "all sizes", "anchors": ["include/SSVUtils/GrowableArray/GrowableArray.hpp: GrowableArray::grow"]}
{"id": "C34", "title": "Refresh keeps exactly the live items", "statement": "The refresh used by managers and handle systems: afterwards the live region contains exactly the items that were alive, its size is their count, every dead item has been destroyed exactly once and no live one, everything beyond the region is untouched, and an alive item whose place is below the new size has not moved.", "quantifier": "every alive/dead pattern of every length", "why_tests_cant": "2^n patterns for every n; a double destroy on a rare pattern is not visible in small tests", "anchors": ["include/SSVUtils/Internal/SharedFuncs.hpp: refreshImplLoop, refreshImpl"]}
{"id": "C35", "title": "Managed items live from creation until refreshed dead", "statement": "Over any history of create, del, refresh, clear and reserve on a manager creating fewer than 2^32 objects: iteration sees exactly the items that survived the last refresh, an item created later is not visible until the next one, references stay valid, an item is destroyed exactly once - at the first refresh after its del, at clear, or with the manager - and every block is freed exactly once.", "quantifier": "every history", "why_tests_cant": "histories are unbounded", "anchors": ["include/SSVUtils/MemoryManager/Internal/ManagerImpl.hpp: BaseManager"]}
{"id": "C36", "title": "Recycler never hands out memory in use", "statement": "Over any history of creates and drops through a recycler, each live object has its own block, destroyed blocks are reused most-recent-first before any new allocation, each object is destroyed exactly once, destroying the storage frees every block exactly once, and with objects of one size the number of allocations is the largest number of objects alive at once. A constructor that throws leaks its block.", "quantifier": "every history; existence of the leak", "why_tests_cant": "histories are unbounded; aliasing needs a global invariant", "anchors": ["include/SSVUtils/MemoryManager/Internal/StorageImpl.hpp: PtrChain, Chunk", "include/SSVUtils/MemoryManager/Internal/RecyclerImpl.hpp"]}
{"id": "C37", "title": "Polymorphic storage serves every type from a block of its own size", "statement": "Over any history of creates and drops of objects of many types with the alignment of the base type, an object is always placed in a block allocated for exactly its layout. With the alive flag, a type of the same size but larger alignment can be constructed in a recycled block that is too small for it.", "quantifier": "every history over any set of types; existence of a failing one", "why_tests_cant": "histories are unbounded", "anchors": ["include/SSVUtils/MemoryManager/Internal/StorageImpl.hpp: PolyStorage, PolyFixedStorage"]}
{"id": "C38", "title": "Finding the alive flag of a derived object (refuted in general)", "statement": "The alive flag of an object reached through a base pointer is the one written at creation exactly when the derived type has the alignment of the base type; with an over-aligned derived type the flag is looked up at the wrong address.", "quantifier": "every pair of base and derived types", "why_tests_cant": "depends on layouts no test instantiates", "anchors": ["include/SSVUtils/MemoryManager/Internal/LayoutImpl.hpp: LBool, getLayout, construct, setBool, getBool"]}
{"id": "C39", "title": "Ticker ticks exactly when accumulated time reaches the target", "statement": "A running looping ticker ticks exactly on the updates where the time accumulated since its last tick reaches the target; tick count (modulo 2^64), total and accumulated time follow. With a constant frame time dt it has ticked n / ceil(target/dt) times after n updates (excess time is not carried over). A non-looping ticker with a positive target stops at its tick. The total is the sum of the frame times of the updates made while running, over any history not resetting it. All of this holds in single precision for every sequence of finite, non-negative frame times.", "quantifier": "every sequence of frame times and control calls, in exact or rounded arithmetic", "why_tests_cant": "sequences are unbounded", "anchors": ["include/SSVUtils/Ticker/Src/Ticker.cpp: Ticker::update"]}
{"id": "C40", "title": "A paused ticker does not advance (tick refuted)", "statement": "Updating a paused ticker never moves its times and changes nothing at all unless the accumulated time had already reached the target; pausing short of the target and resuming changes nothing; a stopped ticker with a positive target forgets its accumulated time only and stays silent; a restarted one ticks as a new one. But if the target was reached it ticks, and a looping one runs again: lowering the target of a paused ticker does that. A stopped non-looping ticker with a target that is not positive ticks on every update.", "quantifier": "every state; existence of failing histories", "why_tests_cant": "needs the quantifier over all control histories", "anchors": ["include/SSVUtils/Ticker/Src/Ticker.cpp: Ticker::update, pause, restart, setters"]}
{"id": "C41", "title": "Timeline runs its commands in order", "statement": "A timeline of waits, predicate waits and actions behaves over any updates as the straight list of steps: same actions in the same frames, in order, none skipped, none twice, finished when it should be; a wait of t completes on the first update bringing its time to t or more, and what follows starts on the next update; resetting replays everything. Any history of appending (also later, and after the end), updating, starting, stopping, resetting and clearing does what the straight list would. Refuted for actions calling back: one that resets its timeline skips the first command, one that jumps to i resumes at i+1.", "quantifier": "every list of commands and every sequence of frame times", "why_tests_cant": "unbounded", "anchors": ["include/SSVUtils/Timeline/Src/Timeline.cpp: Timeline::update, next, reset", "include/SSVUtils/Timeline/Src/Wait.cpp", "include/SSVUtils/Timeline/Src/Do.cpp"]}
{"id": "C42", "title": "Timeline wait overshoot (refuted)", "statement": "The frame time by which a wait overshoots is never carried over: after a frame completing a wait, whatever the excess, the timeline goes on as one made of the remaining commands only.", "quantifier": "every wait, frame time and rest of the timeline", "why_tests_cant": "the carried remainder is overwritten before use on every path", "anchors": ["include/SSVUtils/Timeline/Src/Timeline.cpp: Timeline::update", "include/SSVUtils/Timeline/Src/Wait.cpp: Wait::update"]}
{"id": "C43", "title": "Timeline loops run the requested number of times", "statement": "A jump back with count n after a block makes the block run n+1 times (n may be the default 2^64-1), also after a reset; any program of waits, actions and jumps that unrolls to a straight list behaves as that list. Refuted for nested loops: the inner counter is not restored for later passes of the outer loop.", "quantifier": "every block of commands, every count, every sequence of frame times", "why_tests_cant": "unbounded counts", "anchors": ["include/SSVUtils/Timeline/Inc/Go.hpp: Go::update, reset"]}
{"id": "C44", "title": "Timeline index stays valid", "statement": "Over any history of calls with indices in range (inserting within bounds, jumping to an existing command or the end, updating only when every jump target exists) nothing is accessed out of range and the current index is that of an existing command, or 0 when there is none. Indices are not checked: a jump outside the list followed by an update is undefined. Inserting before the current command makes an executed action run again.", "quantifier": "every history; existence of failing ones", "why_tests_cant": "histories are unbounded", "anchors": ["include/SSVUtils/Timeline/Src/Timeline.cpp", "include/SSVUtils/Timeline/Inc/Timeline.hpp"]}
{"id": "C45", "title": "Timeline manager lifetime", "statement": "Each manager update first destroys the timelines that finished during the previous one, then updates every remaining timeline exactly once; references to timelines present stay valid and each is destroyed at most once. A timeline that finished and was then reset is destroyed at the next update all the same; using a destroyed timeline is undefined.", "quantifier": "every history of creations, updates, clears and calls on timelines", "why_tests_cant": "histories are unbounded", "anchors": ["include/SSVUtils/Timeline/Src/TimelineManager.cpp: TimelineManager::update"]}
{"id": "C46", "title": "Command line dispatch", "statement": "The command that runs is the first registered command having the first token as one of its names, or the main command when there are no tokens or the first starts with '-'; at most the selected command changes and its action runs exactly on success; an unknown name changes nothing and the error suggests a registered name at minimal edit distance.", "quantifier": "every set of commands and every token list", "why_tests_cant": "all command sets and inputs", "anchors": ["include/SSVUtils/CmdLine/Ctx.inl: findCmd, process"]}
{"id": "C47", "title": "Command line arguments reach the right parameters", "statement": "A call succeeds exactly when the selected command accepts the tokens: the non-flag tokens in order fill the required arguments, then the optional ones, then the packs, each pack getting between its minimum and maximum number, nothing dropped, duplicated or reordered; the state afterwards is exactly that, an optional argument without a token giving its default, or what it was set to before. Otherwise it fails without running the action and the error reported is true of the tokens. An argument starting with '-' never reaches a parameter, and an argument that is no integer terminates the process.", "quantifier": "every command signature and every token list", "why_tests_cant": "all signatures and inputs", "anchors": ["include/SSVUtils/CmdLine/Ctx.inl: process"]}
{"id": "C48", "title": "Flags given are exactly the flags active", "statement": "After successful processing a flag is active iff it was before or a token is a name of it and of no earlier flag; every flag token names some flag and there are at most as many tokens as flags; an unknown flag name makes the call fail. Giving the same flag twice can be rejected as too many flags.", "quantifier": "every command signature and token list", "why_tests_cant": "all signatures and inputs", "anchors": ["include/SSVUtils/CmdLine/Ctx.inl: process", "include/SSVUtils/CmdLine/Cmd.hpp: activateFlag, findFlag"]}
{"id": "C49", "title": "Flag values are bound to the flag that was named (refuted)", "statement": "Flag values are assigned by position: the i-th token name=value sets the i-th value flag whatever the name (without optional value flags), so in declaration order each flag gets its own value, in another order flags get each other's, and a name that belongs to no value flag is accepted.", "quantifier": "every order of value flags; existence of failing inputs", "why_tests_cant": "all permutations", "anchors": ["include/SSVUtils/CmdLine/Ctx.inl: process"]}
{"id": "C50", "title": "Failed command processing may leave values behind (refuted)", "statement": "Processing is not atomic: an unknown flag name is detected only after arguments and packs were stored, and packs accumulate over successive calls beyond their maximum. What does hold of every failed call: no action runs and no other command changes.", "quantifier": "every failed call; existence of histories", "why_tests_cant": "needs state before and after a failing call", "anchors": ["include/SSVUtils/CmdLine/Ctx.inl: process", "include/SSVUtils/CmdLine/Elements/Bases/BaseArgPack.hpp"]}
{"id": "C51", "title": "JSON write then read returns the same value", "statement": "Every value whose strings and keys contain no quote or backslash, whose keys are distinct and whose numbers are ones the writer renders exactly is written, minified or pretty, and the text is read back as an equal value.", "quantifier": "every such value of every nesting depth, both writer modes", "why_tests_cant": "values are unbounded trees", "anchors": ["include/SSVUtils/Json/Io/Reader.hpp: Reader", "include/SSVUtils/Json/Io/Writer.hpp: Writer"]}
{"id": "C52", "title": "JSON string escaping on write (refuted)", "statement": "A string containing a quote or a backslash is never read back as itself: it is written unescaped. Different values get the same text, and reading it can fail or run off the text.", "quantifier": "every string with a quote or backslash", "why_tests_cant": "a test must pick the right character", "anchors": ["include/SSVUtils/Json/Io/Writer.hpp: wStr and keys"]}
{"id": "C53", "title": "Whitespace and comments do not change what is read", "statement": "Outside strings, blanks and line comments (even inside tokens) do not influence the value read, for a text that can be read without them and whose top-level value is not a number. The condition that it can be read without them is needed: leftovers of the purge pass may complete a broken text.", "quantifier": "every text and every placement of blanks and comments", "why_tests_cant": "unbounded placements", "anchors": ["include/SSVUtils/Json/Io/Reader.hpp: purgeSource"]}
{"id": "C54", "title": "Leading blanks before a top-level number (refuted)", "statement": "k blanks before a top-level number of at least k digits append its last k digits to it (' 12' reads as 122).", "quantifier": "every digit string and every k, as long as the result is at most 2^53", "why_tests_cant": "the stale tail is normally hidden by closing brackets", "anchors": ["include/SSVUtils/Json/Io/Reader.hpp: purgeSource, parseNum"]}
{"id": "C55", "title": "Reader memory safety on arbitrary text (refuted)", "statement": "Every read ends. A non-empty text without blanks outside strings whose strings are terminated and whose numbers fit is read to a value or a read error. Undefined behaviour results from an unterminated string, a string ending in an escaped backslash, a comment without newline, the escape \\u, a number beyond the range of long, an empty text, and certain broken texts after comments.", "quantifier": "every text", "why_tests_cant": "all texts", "anchors": ["include/SSVUtils/Json/Io/Reader.hpp: purgeSource, readStr, getC, throwError"]}
{"id": "C56", "title": "JSON number comparison is not symmetric (refuted)", "statement": "Num equality converts the right operand to the representation of the left one, so it is neither symmetric nor transitive across representations and undefined for some pairs; among numbers of the same representation (NaN apart) it is an equivalence, and it decides equality of integers up to 2^53 in all representations, except comparing an unsigned number with a negative real.", "quantifier": "every pair / triple of numbers", "why_tests_cant": "all representations and values", "anchors": ["include/SSVUtils/Json/Num/Num.hpp: operator=="]}
{"id": "C57", "title": "C++ values survive conversion to JSON and back", "statement": "For every supported type built from booleans, integers, reals, strings, enums, bitsets, pairs, tuples, vectors, maps and macro-defined classes, an archived value passes the type check and is extracted as itself, and extraction replaces what the target held. The check passes exactly the JSON values of the type's shape; the strict check for long, unsigned long and reals also asks for the kind of number. Exceptions: maps are merged into the target, the check for map types accepts everything, and the check for character arrays is off by one, while a shorter string in a character array makes extraction read out of bounds.", "quantifier": "every type expression and every value of it", "why_tests_cant": "types and values are unbounded", "anchors": ["include/SSVUtils/Json/Val/Internal/Cnv.hpp: Cnv", "include/SSVUtils/Json/Val/Internal/Chk.hpp: Chk", "include/SSVUtils/Json/Val/Internal/AsHelper.hpp"]}
{"id": "C58", "title": "JSON value slots are constructed and destroyed in pairs", "statement": "Over any history of copies, moves, assignments, insertions and scope exits without undefined behaviour each object constructed is alive once or was destroyed once, tags match contents, and at the end everything has been destroyed exactly once. Copies and moves between places neither of which contains the other always work and change nothing else. Assigning a non-null value to itself or one of its elements to it uses destroyed storage; assigning a map, bitset, enumerator or macro class onto a non-null value destroys the old content twice.", "quantifier": "every history of assignments", "why_tests_cant": "histories are unbounded", "anchors": ["include/SSVUtils/Json/Val/Val.hpp: deinitCurrent, init, set"]}
{"id": "C59", "title": "JSON object lookups after parsing use the last duplicate", "statement": "Reading an object text yields one entry per distinct key, holding the last value given for it; texts that list the same distinct keys in different orders are read as the same value.", "quantifier": "every object text", "why_tests_cant": "all texts", "anchors": ["include/SSVUtils/Json/Io/Reader.hpp: parseObj", "include/SSVUtils/Container/Inc/VecMap.hpp: operator[]"]}
{"id": "C60", "title": "A failed JSON parse leaves the target untouched", "statement": "Reading a standard text reports success and replaces the target whatever it was; every defined outcome is a success independent of the target's old value or a failure that leaves it unchanged. The convenience constructor hides failures: broken text gives null.", "quantifier": "every text and every previous value", "why_tests_cant": "all texts", "anchors": ["include/SSVUtils/Json/Val/Val.hpp: fromStr", "include/SSVUtils/Json/Val/Val.inl: readFromStr", "include/SSVUtils/Json/Io/Io.hpp"]}
{"id": "C61", "title": "Template expansion substitutes keys from the innermost dictionary", "statement": "Expanding a well-formed template with dictionaries whose texts are literal replaces each {{key}} by the value in the innermost enclosing dictionary that has it, repeats each section once per sub-dictionary with separators between (not after) repetitions, drops (or, by setting, keeps) unknown keys and sections, and leaves all other text unchanged. Setting a key again replaces its text; dictionaries added to a section stand in the order of adding. Refuted: keys inside replacement texts are looked up in the outermost dictionary, whether the content of an unknown section is expanded in only-contents mode depends on the rest of the text, an escaped brace at the end comes out twice, and an end tag that starts with the section's name trips an assertion.", "quantifier": "every template tree and every dictionary tree", "why_tests_cant": "unbounded trees", "anchors": ["include/SSVUtils/TemplateSystem/Internal/Dictionary.hpp: getExpanded", "include/SSVUtils/TemplateSystem/Internal/Expander.inl"]}
{"id": "C62", "title": "Template expansion may never finish (refuted)", "statement": "If the replacement texts of some keys lead back to themselves, expanding any template that uses one of them never ends. A pass itself always ends. If texts mention only keys of smaller rank, expansion ends after at most two passes more than there are ranks.", "quantifier": "every dictionary and template", "why_tests_cant": "non-termination is not testable", "anchors": ["include/SSVUtils/TemplateSystem/Internal/Dictionary.hpp: getExpanded"]}
{"id": "C63", "title": "Path normalisation", "statement": "The path text returned has no backslash and no two adjacent slashes, the same steps, beginning and end as the original, and a slash added exactly for an existing folder not already ending in one; those facts determine it; asking again changes nothing. Appending and adding give the normalised path of the joined texts; the existence tests ask about that text. But looking at a path changes it: appending to an existing folder before or after a call to a const getter gives different paths.", "quantifier": "every string without NUL and every filesystem", "why_tests_cant": "all strings", "anchors": ["include/SSVUtils/Core/FileSystem/Path.hpp: Path::normalize, getStr"]}
{"id": "C64", "title": "Path components", "statement": "Every text is a folder part (empty or ending in '/') and a name without slashes: getFileName is the name; getParent is the folder part when longer than one character; getExtension is the part of the name from its last dot unless that begins it; getAllExtensions from the first dot that does not begin it; the name without extensions loses the part from its last dot; getFolderName is the last folder of a folder path that has something before it; hasExtension compares the end ignoring case.", "quantifier": "every path string", "why_tests_cant": "all strings", "anchors": ["include/SSVUtils/Core/FileSystem/Path.hpp: getParent, getFileName, getExtension, getAllExtensions, getFileNameNoExtensions, getFolderName, hasExtension"]}
{"id": "C65", "title": "Path edge cases (refuted)", "statement": "getFolderName of a single relative folder loses its first character; getFolderName of '/' and getParent of the empty path index out of bounds; getParent of '/x' is empty instead of '/', and of a folder is the folder itself; 'without extensions' removes only the last one; comparing two paths for equality never returns.", "quantifier": "every input of the kinds named", "why_tests_cant": "needs a model of out-of-bounds reads and of unbounded recursion", "anchors": ["include/SSVUtils/Core/FileSystem/Path.hpp: getFolderName, getParent, getFileNameNoExtensions, operator=="]}
{"id": "C66", "title": "Directory scan", "statement": "A non-recursive scan adds, for each entry of the folder in the order listed, its full path if it is of the requested type and, for files, passes the name filter; folders are never filtered by name and are skipped when their name ends in a dot; with sorting the whole target, what it held before included, is put in order. A missing folder throws.", "quantifier": "every folder content, mode, filter and target", "why_tests_cant": "all filesystems", "anchors": ["include/SSVUtils/Core/FileSystem/Internal/ScanHelper.hpp: scan"]}
{"id": "C67", "title": "Recursive directory scan loses the folder prefix (refuted)", "statement": "A recursive scan passes its scratch path by reference to itself: entries below the first level are reported without their folder and looked up in the working folder; a recursive scan of e never returns when the working folder holds e/e/e.", "quantifier": "every directory tree with one level of subfolders; every such name e", "why_tests_cant": "the aliasing is invisible for flat directories", "anchors": ["include/SSVUtils/Core/FileSystem/Internal/ScanHelper.hpp: scan"]}
{"id": "C68", "title": "Easing curves follow their shapes", "statement": "For Linear, Quad, Cubic, Quart, Quint, Back and Bounce in exact arithmetic, when the compiler evaluates operands left to right: in / out / inOut follow the standard shapes, start at the start value and end at start plus change, out is the point reflection of in and inOut of itself, the power curves never go back, Bounce stays inside and makes no jump, Back undershoots; a zero duration violates an assertion. Exceptions: Cubic inOut ends at start plus 2 whatever the change; and with the other order of evaluation (both are allowed) the values differ, while Circ's inOut needs that other order.", "quantifier": "every start, change, non-zero duration and time", "why_tests_cant": "all parameters", "anchors": ["include/SSVUtils/Easing/Inc/Easing.hpp: Linear, Quad, Cubic, Quart, Quint, Back, Bounce"]}
{"id": "C69", "title": "Eased mapping of a shifted input range (refuted)", "statement": "getMapEased follows the curve over the input range if that starts at 0. Otherwise the time passed is input plus minimum instead of input minus minimum: the linear map sends the lower end to the lower end only if the input range starts at 0 or the output range is a point, and every curve goes wrong on 1..2.", "quantifier": "every family and all ranges", "why_tests_cant": "all ranges", "anchors": ["include/SSVUtils/Easing/Inc/Easing.hpp: Dispatcher::getMap"]}
{"id": "C70", "title": "Type list operations obey list laws", "statement": "At, Head, Tail, Append, Prepend, Reverse, Insert, Remove, Pop, Slice, Unique, Filter, FilterIdx, has, getIdxOf, getCountOf, IdxsOf, IdxsOfSeq, getCountOfSeq, hasSeq and the size maximum on type lists agree with the mathematical list operations, and refuse (do not compile) exactly the invalid arguments; Unique keeps first occurrences; inserting then removing at the same index is the identity. Exceptions: the empty list accepts every insertion index, and negative slice indices become the length instead of 0.", "quantifier": "every type list and every index", "why_tests_cant": "all lists", "anchors": ["include/SSVUtils/Core/MPL/Impl/*.hpp"]}
{"id": "C71", "title": "Type sequence replacement", "statement": "ReplaceAllOfSeq replaces every occurrence of the sub-sequence if the occurrences do not overlap, and does not compile if some do; a single type is always replaced everywhere; an empty pattern changes nothing. all<> is true iff the list is non-empty and all elements satisfy the predicate (false for the empty list), any<> iff some element does.", "quantifier": "every list, pattern and replacement", "why_tests_cant": "all lists", "anchors": ["include/SSVUtils/Core/MPL/Impl/IdxsOfSeq.hpp: ReplaceAllOfSeq", "include/SSVUtils/Core/MPL/Impl/List.hpp: all, any"]}
{"id": "C72", "title": "Argument grouping and tuple iteration preserve order", "statement": "forArgs<N> calls its function on the consecutive groups of N arguments in order and refuses other argument counts; tplFor visits the positions all tuples have, in order; explode calls the function once with the elements in order; type index, repetition and mkVector agree with the list meaning; a map made from keys and values keeps the first value of each key. Exceptions: tplFor over an empty tuple does not compile; tplFor is noexcept by its first call alone and explode always, so some exceptions end the program.", "quantifier": "every argument list, group size, tuple list and function", "why_tests_cant": "all arities", "anchors": ["include/SSVUtils/Core/Utils/ForArgs.hpp", "include/SSVUtils/Core/Tuple/TplFor.hpp", "include/SSVUtils/Core/Tuple/Internal/Exploder.hpp", "include/SSVUtils/Core/Utils/Containers.hpp: mkUnorderedMap, mkVector"]}
{"id": "C73", "title": "Delegates call all callbacks in order", "statement": "A delegate holds the functions added since the last clear; calling it calls each exactly once, in insertion order, with the call's arguments, and returns their results in that order; the first exception ends the call. A function that adds to or clears the delegate it is called by makes the call undefined.", "quantifier": "every history of additions, clears and calls", "why_tests_cant": "histories are unbounded", "anchors": ["include/SSVUtils/Delegate/Inc/Delegate.hpp"]}
{"id": "C74", "title": "Stringified values", "statement": "The visible text of a value is its numeral, its characters, '{' + elements joined by ', ' + '}' ('{ EMPTY }' when empty), with ' -> ' in maps, for forward and bidirectional iterators; toStr gives the same text; for types built from integers the text determines the value (not with strings). Exceptions: unformatted output of non-empty containers contains escape sequences on Unix; null pointers show an address; a class whose operator<< calls toStr loses its text in toStr; forward ranges beyond INT_MAX elements overflow.", "quantifier": "every value of every supported type, both consoles, with and without formatting", "why_tests_cant": "all containers", "anchors": ["include/SSVUtils/Core/Stringifier/Stringifier.hpp", "include/SSVUtils/Core/String/StringifierBase.hpp", "include/SSVUtils/Core/String/ToStr.hpp", "include/SSVUtils/Bimap/Inc/Stringifier.hpp"]}
{"id": "C75", "title": "Benchmark stack and groups", "statement": "Ending a benchmark gives the most recently started unfinished one; nested benchmarks are reported inner first with their own depth marks and times; durations below 8589934592000000 ns are written exactly; a group's time is the sum of its resume-pause intervals since the last reset when these alternate. Exceptions: inner benchmarks ended without report leave an extra empty line to a later one, nested scopes of one group count the inner interval twice and the outer lead-in not at all, pausing a fresh group counts from the clock's zero.", "quantifier": "every history and all clock readings", "why_tests_cant": "histories are unbounded", "anchors": ["include/SSVUtils/Benchmark/Src/ImplEnabled.cpp", "include/SSVUtils/Benchmark/Src/DataGroup.cpp"]}
{"id": "C76", "title": "Log atomicity, titles and suppression under concurrency", "statement": "However threads setting titles, inserting values and newlines and switching suppression interleave, the outcome is that of a run in which every insertion happens at once; there is no deadlock; values appear whole in an order respecting every thread; a message is the title in brackets padded to 38 columns, then the values. While suppressed, titles and values have no effect. Exceptions: newlines are written while suppressed, a title set before a suppression can appear with a later message, a title can appear on another thread's message, formatting is written without the lock, colours repeat after five titles.", "quantifier": "every set of threads, every program and every schedule", "why_tests_cant": "schedules", "anchors": ["include/SSVUtils/Core/Log/Internal/LogImplEnabled.hpp", "include/SSVUtils/Core/Log/Log.hpp: setLogSuppressed"]}
{"id": "C77", "title": "Tagged union discipline", "statement": "Used as meant, in both builds, a union or Maybe makes and destroys its objects one after the other, each exactly once, and every access sees the value given last; with the checks every other use stops at a failed check as long as no constructor throws; the storage fits and is aligned for every type; the unchecked union reads the value stored last. Exceptions: after a throwing constructor the union counts as holding an object, and without checks constructing over an object leaks it.", "quantifier": "every history", "why_tests_cant": "histories are unbounded", "anchors": ["include/SSVUtils/Union/Inc/Union.hpp", "include/SSVUtils/Union/Inc/UnionBase.hpp", "include/SSVUtils/Union/Inc/UnionPOD.hpp", "include/SSVUtils/Union/Inc/Maybe.hpp"]}
{"id": "C78", "title": "Enum names round trip", "statement": "The enum definitions that compile are those with at least one element, distinct names and distinct values in the range of the underlying type; elements are counted and listed in order and names and values are converted into each other exactly as defined; any other value or name fails the assertion, or in release builds ends the program.", "quantifier": "every enum definition, value and name", "why_tests_cant": "all definitions", "anchors": ["include/SSVUtils/FatEnum/FatEnum.hpp"]}
{"id": "C79", "title": "Random engine fast-forward", "statement": "For state types of 8, 32, 64 and 128 bits: advancing the engine by n equals n single steps, stepping back undoes it, the states repeat exactly at multiples of the period, the distance between two states of a stream is the number of steps between them; wrapped() is true at exactly one place of the period; what is written is read back. Exceptions: 16-bit states overflow int; reading accepts states outside the sequence of a multiplicative engine, whose distance then never comes out.", "quantifier": "every state, every n, every multiplier and increment of the required residues", "why_tests_cant": "2^64 states and jump lengths", "anchors": ["include/SSVUtils/Internal/PCG/pcg_random.hpp: engine::advance, distance, bump, operator<<, operator>>"]}
{"id": "C80", "title": "Random integers stay in the half-open range", "statement": "For a common type that is signed or a lower bound that is not negative, getRndI(min,max) with min < max draws from exactly min..max-1; other bounds fail an assertion; getRndSign gives 1 or -1. Exceptions: a negative lower bound with an unsigned upper one fails or gives another range, bounds of one type narrower than int do not compile, the sign of an unsigned type is never -1.", "quantifier": "every min, max, types, and every distribution that honours its closed range", "why_tests_cant": "all states", "anchors": ["include/SSVUtils/Core/Utils/Rnd.hpp: getRndI, getRndSign"]}
{"id": "C81", "title": "Case conversion and character counts", "statement": "Lower- and upper-casing are idempotent, undo each other up to case, and keep the length; getCharCount is the number of occurrences, one less than the number of pieces splitting at that character gives.", "quantifier": "every string and character", "why_tests_cant": "all strings", "anchors": ["include/SSVUtils/Core/String/Utils.hpp: toLower, toUpper, getCharCount"]}
{"id": "C82", "title": "Erasing by a container's own element (refuted)", "statement": "eraseRemove(c, c[k]) should remove every element equal to c[k]; it can leave equal elements behind, because the value is re-read through a reference into the array being shifted.", "quantifier": "existence of a container and index", "why_tests_cant": "tests pass temporaries", "anchors": ["include/SSVUtils/Core/Utils/Containers.hpp: eraseRemove"]}
{"id": "C83", "title": "Rotation in radians (refuted)", "statement": "getRotatedRad should return an angle in radians at most the speed away from the start; it returns degrees, computed with an unconverted speed.", "quantifier": "existence of angles less than one radian apart", "why_tests_cant": "the function is never called in tests", "anchors": ["include/SSVUtils/Core/Utils/Math.hpp: getRotatedRad"]}
{"id": "C84", "title": "Distances, range mapping and interpolation", "statement": "Manhattan, Chebyshev and squared Euclidean distances at one signed type are exact when they fit the type and undefined behaviour otherwise; the first two are metrics. getMap maps range ends to range ends, keeps order, and over integers rounds the exact image down; getLerp is the convex combination for weights in [0,1] and violates an assertion otherwise.", "quantifier": "all coordinates, ranges and weights", "why_tests_cant": "all values", "anchors": ["include/SSVUtils/Core/Utils/Math.hpp: getDistManhattan, getDistChebyshev, getDistSquaredEuclidean, getMap, getLerp"]}
{"id": "C85", "title": "The JSON reader returns the value a standard text stands for", "statement": "Every standard JSON text (RFC 8259 grammar, without \\u escapes and with numbers that fit), with blanks and comments anywhere outside strings unless the top-level value is a number, is read as exactly the value the grammar assigns to it.", "quantifier": "every text derivable in the grammar", "why_tests_cant": "all texts", "anchors": ["include/SSVUtils/Json/Io/Reader.hpp: Reader"]}
{"id": "C86", "title": "C++ values survive a JSON text", "statement": "Archiving a value of a type without reals, writing it (minified or pretty), reading the text and extracting gives the same value, if its strings have no quotes or backslashes and its numbers are written exactly.", "quantifier": "every type expression, value and writer mode", "why_tests_cant": "types, values and texts are unbounded", "anchors": ["include/SSVUtils/Json/Val/Internal/CnvFuncs.hpp: getArch, getExtr", "include/SSVUtils/Json/Io/Writer.hpp", "include/SSVUtils/Json/Io/Reader.hpp"]}
{"id": "C87", "title": "Expanding the user folder (refuted)", "statement": "expandUserPath replaces every '~' of the path by the user folder, not only a leading one, and never returns when the user folder itself contains a '~' and the path does.", "quantifier": "every path and every user folder", "why_tests_cant": "all strings and environments", "anchors": ["include/SSVUtils/Core/FileSystem/Utils.hpp: expandUserPath"]}
{"id": "C88", "title": "Random outputs are uniform", "statement": "Over one period from any state the library's 32-bit engine gives every 32-bit number exactly 2^30 times, and the output is the published function of the state (xorshift, then a shift chosen by the top bits); seeding with two 32-bit numbers gives a state of that period. A number below a bound is the first output not below 2^32 mod bound, reduced modulo the bound: one always comes, and the accepted outputs give each number equally often.", "quantifier": "every state and every bound", "why_tests_cant": "2^62 states", "anchors": ["include/SSVUtils/Internal/PCG/pcg_random.hpp: xsh_rs_mixin, engine", "include/SSVUtils/Internal/PCG/pcg_extras.hpp: bounded_rand"]}
{"id": "C89", "title": "Shuffling is an unbiased permutation", "statement": "shuffle draws numbers below n, n-1, ..., 2 and arranges the elements accordingly; the result is a permutation, with the library's engine it always ends, and of different elements every order comes from exactly one sequence of draws. Exception: exactly 2^32 elements divide by zero.", "quantifier": "every list, engine and state", "why_tests_cant": "n! orders", "anchors": ["include/SSVUtils/Internal/PCG/pcg_extras.hpp: shuffle, bounded_rand"]}
{"id": "C90", "title": "Range loops visit every element in order", "statement": "A loop over asRange, asRangeReverse or makeRange visits exactly the elements of the range, each once, in order (reversed for reverse ranges), converted by the adaptor; random-access adaptors move and compare by place. Looping over a JSON array or object as T visits every element (member) as its value of type T, and nothing if the value is of another kind. Exceptions: the adaptors' postfix increment shows the next element, so the usual *i++ loop skips the first element and reads past the last for every non-empty container; pointer-casting ranges give wrong addresses unless the base class lies at the beginning of the object; a throwing conversion ends the program.", "quantifier": "every container, adaptor, loop body, pair of places, JSON value and target type", "why_tests_cant": "all containers and bodies; the shipped tests only use range-based for, which never uses postfix increment", "anchors": ["include/SSVUtils/Range/Internal/Base/Adaptor.hpp", "include/SSVUtils/Range/Internal/Base/Range.hpp: makeRange, asRange", "include/SSVUtils/Range/Internal/Reverse/Reverse.hpp: asRangeReverse", "include/SSVUtils/Range/Internal/Cast/Cast.hpp: asRangeCastPtr", "include/SSVUtils/Json/Val/Internal/ItrHelper.hpp", "include/SSVUtils/Json/Val/Val.hpp: forArrAs, forObjAs"]}
{"id": "C91", "title": "Reaching into JSON values", "statement": "Subscripts by keys and indices lead to the element that is there; on a constant value an absent last key reads as null and an index beyond the end throws. Assignment to an existing element or to a new last key puts the value there and leaves everything off the way unchanged; looking at an absent key of a value that is not constant inserts null; emplace appends to an array. has tells whether there is something and getIfHas converts it or answers with the default. Sizes count elements and keys. An object made of keys and values keeps the last value of each key. Everything else - the wrong kind, an index beyond the end of a value that is not constant, subscripts after an absent key - is undefined: nested objects are not made on the way.", "quantifier": "every JSON value whose objects have ordered keys (all values read from texts or built by the API), every path and every value assigned", "why_tests_cant": "values and paths are unbounded", "anchors": ["include/SSVUtils/Json/Val/Val.hpp: operator[], has, getIfHas, emplace, mkObj, mkArr"]}
{"id": "C92", "title": "Equality of JSON values is equality of data", "statement": "Two values whose numbers are whole and at most 2^53 compare equal exactly when they have the same kinds, equal strings and numbers, arrays equal position by position and objects equal key by key, whatever the order in which the objects were filled and however the numbers are stored. Exception: a value with unsigned numbers compared with one with negative reals is undefined.", "quantifier": "every pair of such values", "why_tests_cant": "unbounded nesting, three representations of each number", "anchors": ["include/SSVUtils/Json/Val/Val.hpp: operator==", "include/SSVUtils/Json/Num/Num.hpp: operator=="]}
{"id": "C93", "title": "The 128-bit integer computes exactly", "statement": "On compilers without a 128-bit integer, the supplied one behaves as the integers modulo 2^128: +, -, unary -, *, comparisons, bit operations, / and %, shifts by less than 128, base-2 logarithms rounded down and up, and trailing zeros give the mathematically right value for all operands, as do the table-driven logarithms and zero counts on 32 and 64 bits. Division by zero and the logarithm of zero abort. Exceptions: a negative integer is converted without extending its sign to the upper 64 bits, and shifting right by 160 or more writes outside the object (shifting left gives 0).", "quantifier": "all 128-bit operands and all shift counts", "why_tests_cant": "2^256 operand pairs", "anchors": ["include/SSVUtils/Internal/PCG/pcg_uint128.hpp: uint_x4, divmod, flog2, trailingzeros, clog2"]}
{"id": "C94", "title": "The output functions spread results evenly", "statement": "The functions that turn a generator's state into a number are the published ones: xorshift with random shift or rotation (8, 16, 32, 64-bit results from states of twice the size), combined halves with rotation, full-size permutations. Every result comes from exactly the same number of states, with or without an increment, so that over one period every number is given exactly equally often from any starting state on - exactly once for the full-size functions. The full-size function of multiplication and shifts is undone by the supplied inverse, in both directions, for 8, 32, 64 and 128 bits, and the inverse of the xorshift is exact for every size and shift. Exception: for 16 bits the function overflows an int - undefined - exactly when the mixed state times 62169 exceeds INT_MAX.", "quantifier": "all states and results of all sizes, all constants of full period, every starting state", "why_tests_cant": "2^128 states; counting needs a bijection", "anchors": ["include/SSVUtils/Internal/PCG/pcg_random.hpp: xsh_rs_mixin, xsh_rr_mixin, xsl_rr_mixin, xsl_rr_rr_mixin, rxs_m_xs_mixin, rxs_m_mixin, xsh_mixin, xsl_mixin", "include/SSVUtils/Internal/PCG/pcg_extras.hpp: unxorshift, rotr"]}
{"id": "C95", "title": "Easing with waves, roots and powers", "statement": "The sine, circle, elastic and exponential easing curves start exactly at the start value and end exactly at start plus change; the out kind is the point reflection of the in kind and the in-out kind is its own reflection and passes through the middle as two half-size copies; sine, circle and exponential never go back and never leave the range; elastic stays within a distance of the nearer end that halves with every tenth of the duration, and does leave the range. The circle has no value outside its duration; a zero duration is a violated assertion. Exceptions: the exponential curve jumps by 1/1024 of the change at its slow end, and no order of evaluating the compiler may choose gives all three kinds of circle: left to right, the in-out kind jumps above its end at half time.", "quantifier": "all times, starts, changes and durations (exact arithmetic)", "why_tests_cant": "real numbers; monotonicity and symmetry are about all of them", "anchors": ["include/SSVUtils/Easing/Inc/Easing.hpp: Sine, Circ, Elastic, Expo"]}
{"id": "C96", "title": "Converting numbers, reading numbers, frame times", "statement": "Converting an integer to another integer type keeps it when it fits and otherwise gives the one value of the type that differs by a multiple of 2^width, so a wider type and back loses nothing; converting from floating point drops the fraction and is undefined exactly when the rest does not fit; converting to float gives a nearest float, so that the number comes back exactly when it has at most 24 significant bits, and through double it comes back up to 2^53. Reading an int or a size gives exactly the number at the start of the text (blanks, sign, digits), in particular whatever toStr printed; otherwise the process is terminated. Whole frame times: seconds are frames divided by 60 up to 16777258 frames, frames are 60 times the seconds up to 1118482 seconds, frames per second are 60 divided by any frame time but 0. Exceptions: a negative text read as a size wraps around, sizes above 2^63-1 terminate the process although they fit; the largest int converted to float and back is undefined; the bounds for frame times are exact; for floats neither order of converting seconds and frames gives back the value.", "quantifier": "all texts, all values of all integer types, all floats", "why_tests_cant": "2^64 values and unbounded texts; rounding needs a proof about all of them", "anchors": ["include/SSVUtils/Core/Common/Casts.hpp: toNum, toInt, toFloat, toDouble, toSizeT, sToInt, sToSizeT", "include/SSVUtils/Core/Common/Frametime.hpp: getFTToSeconds, getSecondsToFT, getFTToFPS"]}
{"id": "C97", "title": "Extended generators: numbers, period, jumps", "statement": "An extended generator draws the number of its base combined with one entry of its table; the named generators have as many entries as their names say, except pcg32_k2, which has 64, and the published multipliers and increments; the table turns like a counter whose digits are the entries, each going through its own full sequence. For the k-dimensionally equidistributed kind: whatever the base's state, every run of as many numbers as the table has entries is produced by exactly one table. The generator comes back to where it was after exactly the multiples of its period, from every state: 2^base times the number of tables for bases below 64 bits, as period_pow2 says; for all named generators the period is shorter than period_pow2 and the comments say (e.g. 2^2064 for pcg32_k64, and only 2^128 for pcg64_k32_oneseq, whose table never turns). advance(n) equals n draws if no table entry is 0; backstep(n) takes n draws back if moreover neither end is a state at which the table turns, or n is a multiple of the turning distance; set(x) and one step back make x the next number and change one table entry only. Exceptions: with an entry 0 advance differs from draws; backstep(1) right after or right before a turn does not restore the table; for small bases advance(0) at state 0 turns the table; the table made from a seed depends on the compiler's order of evaluation.", "quantifier": "all named extended generators with any odd increment and any table, and all sound constants; all states, distances and runs", "why_tests_cant": "tables of 2048 to 524288 bits; periods of 2^2064 and more", "anchors": ["include/SSVUtils/Internal/PCG/pcg_random.hpp: extended, inside_out, named extended generators"]}
{"id": "C98", "title": "Numbers in JSON texts are correctly rounded", "statement": "A number text denotes an exact decimal number. Reading it gives the double nearest to that number (ties to the even one), stored as an integer when it is whole; outside the range of long the conversion is undefined. Writing a number that is not stored as an integer gives the decimal of six significant digits nearest to it, in plain notation from 10^-4 to below 10^6 and with an exponent of at least two digits elsewhere, without superfluous zeros. Hence a fractional number comes back from its text exactly when it is the double nearest to some decimal of six digits; in particular every number given with at most six significant digits (below 10^16) survives reading, writing and reading again. Exception: further digits are lost.", "quantifier": "all number texts, all doubles", "why_tests_cant": "2^64 doubles and unbounded texts; rounding needs a proof about all of them", "anchors": ["include/SSVUtils/Json/Io/Reader.hpp: parseNum", "include/SSVUtils/Json/Io/Writer.hpp: write(const Num&)", "include/SSVUtils/Json/Num/Num.hpp"]}
{"id": "C99", "title": "Random generators survive being written and read", "statement": "Writing a generator to a stream appends its multiplier, increment and state (then, for an extended generator, its table) in decimal, separated by single spaces, whatever the stream's flags, which are kept; reading such a text back into a generator of the same kind gives the same increment, state and table, and leaves the stream right behind the text. Exactly those texts are read that begin with three numbers in range with the right multiplier and, if it cannot be chosen, the right increment; otherwise reading fails, and then the generator is unchanged. 128-bit numbers are printed in hexadecimal without leading zeros. Exceptions: a generator of 128 bits that ends the text is never read back; 128-bit numbers that are too large may be read as other numbers; a stream width with a fill that is no blank spoils the text; 8-bit generators are written as characters, and states that are codes of blanks are lost; in hexadecimal, left adjustment gives another number, small numbers miss the base and the width is not always met.", "quantifier": "every generator, state, table, stream, width, fill and text", "why_tests_cant": "all texts and 2^256 generators; shipped tests have none", "anchors": ["include/SSVUtils/Internal/PCG/pcg_random.hpp: operator<<, operator>>", "include/SSVUtils/Internal/PCG/pcg_extras.hpp: operator<<, operator>>"]}
{"id": "C100", "title": "Seeding generators from a source of words", "statement": "Seeding from a seed sequence asks it for the fewest 32-bit words that hold the number wanted and takes their bytes in order, low word first, whatever the size of the numbers (8 to 128 bits, single or tables). A generator with a fixed increment is then the one seeded with the words joined into one number, so that every state of 32 to 128 bits is reached from exactly one list of words, and without an increment from exactly four. With a settable increment the source is asked twice for two numbers; an extended generator seeds its base, then its table. A wrapped random device is asked once per word, in order; the library's own engine takes two numbers of the device. Exception: with a settable increment and a source that gives fresh words the code does not say which generator is made, as the compiler chooses the order of the two questions.", "quantifier": "every seed sequence and its state, all sizes, constants and states", "why_tests_cant": "seed sequences are a template parameter; 2^128 states; the order of evaluation is the compiler's", "anchors": ["include/SSVUtils/Internal/PCG/pcg_extras.hpp: uneven_copy, generate_to, generate_one, seed_seq_from", "include/SSVUtils/Internal/PCG/pcg_random.hpp: engine(SeedSeq&&), extended(SeedSeq&&)", "include/SSVUtils/Core/Utils/Rnd.hpp"]}
{"id": "C101", "title": "Generators compare equal exactly when they give the same numbers for ever", "statement": "Two generators with the same constants and output function (64 or 128 bits of state) compare equal exactly when they give the same numbers for ever; != is the opposite of ==. Extended generators compare equal exactly when base and table are. Exception: != of two extended generators calls itself and never returns.", "quantifier": "all states, sound constants, eight output functions, both orders of stepping and output", "why_tests_cant": "equality for ever is a claim about unbounded runs; 2^256 pairs of states", "anchors": ["include/SSVUtils/Internal/PCG/pcg_random.hpp: operator==, operator!="]}
{"id": "C102", "title": "Timelines whose actions add commands to their own timeline", "statement": "An action may append commands to the timeline running it, or insert them behind its own place. The timeline then works off the list of steps still to do, to which each action adds: an update returns exactly when that comes to a wait or to the end, with exactly that history, and at any time the commands present, in their order, are those that have run followed by those still to do, so that none is lost, skipped or run twice. Exceptions: an action that inserts a command at or before its own place runs again at once, and for ever if it always does; an action that appends itself without a wait makes the update never return; clearing the timeline from its own action is undefined.", "quantifier": "all programs, all actions adding any steps depending on everything that happened, all frame times and predicates", "why_tests_cant": "the commands are made while running; runs and programs are unbounded; a run that does not return cannot be observed by a test", "anchors": ["include/SSVUtils/Timeline/Inc/Timeline.hpp: append, insert", "include/SSVUtils/Timeline/Src/Do.cpp: update", "include/SSVUtils/Timeline/Src/Timeline.cpp: update, next, clear"]}
{"id": "C103", "title": "Floating-point numbers as text", "statement": "sToFloat and sToDouble give, for a text that starts (after blanks and a sign) with a decimal number of any length (or a hexadecimal one such as 0x1.8p3), the float or double nearest to the exact number, ties to even, with the sign of the text, and ignore what follows; toStr writes the nearest decimal of six digits without superfluous zeros. So a number given with at most six digits comes back from sToFloat and toStr unchanged, and a normal float or double is read back from its own text exactly when it is the one nearest to some decimal of six digits. Exceptions: a seventh digit is lost; a text without a number, from half a step above the greatest number on, or of a number that is too small for full precision and not exact (1e-40 as a float) ends the process, also where a command line argument is promised to be reported with an exception.", "quantifier": "every text that starts with a decimal or hexadecimal number, every float and double", "why_tests_cant": "unbounded texts, 2^32 floats and 2^64 doubles; correct rounding is a claim about exact numbers no test computes", "anchors": ["include/SSVUtils/Core/Common/Casts.hpp: sToFloat, sToDouble", "include/SSVUtils/Core/String/ToStr.hpp", "include/SSVUtils/Core/Stringifier/Stringifier.hpp", "include/SSVUtils/CmdLine/Internal/Parser.hpp: Parser<float>"]}
{"id": "C104", "title": "Files written, read, removed and digested", "statement": "Saving the log or a JSON value to a file that can be written or made leaves exactly that text in the file, replacing what it held, and changes nothing else; every path of that file, however its separators are spelt, then reads exactly the text back, whatever the caller's buffer held, and a JSON value is read back equal; reading a JSON value from any readable file does what reading its text does, and keeps the old value when that fails. createFolder makes a folder where nothing is. The MD5 digest of a file of less than 2^31 bytes is that of its contents. Exceptions: when the file or folder cannot be written or made, nothing happens and nobody is told; asking for the contents of what is no readable file is undefined; removeFile answers false when the file is gone and true when it is not; a path without a trailing slash that made a folder keeps a text that differs from a new path's; longer files throw or have the digest of their first bytes only (a file of 2^32 bytes that of an empty one); a digest of a failed stream is empty while the object keeps the old one.", "quantifier": "every store of files, permission, naming of entries, path, log, JSON value, buffer and contents", "why_tests_cant": "all file systems and permissions; unbounded contents; files of 2 GB and more", "anchors": ["include/SSVUtils/Core/FileSystem/Path.hpp: getContentsAsStr", "include/SSVUtils/Core/FileSystem/Utils.hpp: createFolder, removeFile", "include/SSVUtils/Json/Val/Val.hpp: writeToFile, readFromFile, fromFile", "include/SSVUtils/Core/Log/Log.inl: saveLogToFile", "include/SSVUtils/Encoding/Src/MD5.cpp: MD5::Calculate(std::ifstream&)"]}
{"id": "C105", "title": "Help texts and messages of the command line", "statement": "The help of a command lists every element exactly once, section by section in a fixed order and in order of creation in each, shows titles of non-empty sections only, and all names and descriptions; the names shown for a flag are exactly the ones it answers to. A usage text tells the kind of an element, its numbers and flag names (or its name); if every element has a name and both descriptions, equal help means equal elements and description. The names text tells a command's names, and messages about one command tell what went wrong and with what. Exceptions: a pack with a limit of 10^18 or more makes help, usage and the message about it undefined; an empty name or description makes help ambiguous; flag names with blanks or '=', no name at all and names with '|' make texts ambiguous.", "quantifier": "all commands, elements, texts without line breaks, numbers", "why_tests_cant": "all lists of elements and texts; that texts are unambiguous compares all pairs of commands", "anchors": ["include/SSVUtils/CmdLine/Cmd.hpp: getHelpStr, getNamesStr, buildCmdStr", "include/SSVUtils/CmdLine/Elements: getUsageStr", "include/SSVUtils/CmdLine/Elements/Bases/BaseElement.hpp: getHelpStr", "include/SSVUtils/CmdLine/Internal/Exceptions.hpp"]}
{"id": "C106", "title": "Angles, ranges and interpolation in single precision", "statement": "With float arguments every step is rounded, and: getWrapDeg gives the float nearest to the angle in [0,360) of the same direction, exactly that angle for arguments not below 0, and 360 itself exactly for angles within 2^-16 below 360; getDistDeg is in [0,180], symmetric, 0 for whole turns and within 3*2^-17 of the true angle for arguments up to 512 degrees apart (NaN when the difference overflows); getRotatedDeg goes one step the short way or to the target itself, judging the difference to 2^-13 degrees; getCycledValue is not below its range, and not above it where the length of the range is a float; getLerp and getMap are monotone, start exactly at the first value and never go below it; toDeg(toRad(x)) is within a part in 2^22 of x. Exceptions: getCycledValue may exceed its range and may change values inside it; a small speed leaves getRotatedDeg where it is for ever; getLerp with weight 1 may exceed the second value; getMap may miss the output maximum; 15 degrees become 15.000001.", "quantifier": "every finite float in stated ranges (2^100, for getMap 2^40), all other arguments arbitrary", "why_tests_cant": "2^32 floats per argument, up to 2^192 combinations; correct rounding and monotony relate all pairs of floats", "anchors": ["include/SSVUtils/Core/Utils/Math.hpp: getCycledValue, toRad, toDeg, getWrapDeg, getRotatedDeg, getDistDeg, getMap, getLerp"]}
{"id": "C107", "title": "Tickers and timelines counting frame times in single precision", "statement": "Frame times, targets and waits are floats. If all are whole multiples of one power of two, a ticker whose frame times add up to at most 2^24 units, and a timeline whose waits and frame times are at most 2^24 units each, return and leave exactly what exact arithmetic would, over any history of calls. In general, while everything fits into 2^24 units, the total after n updates is within n half units of the exact sum and every tick comes when it should up to that error. Exceptions: with frame times of at most B the total never exceeds 2^25*B (counting single units, it stops at 2^24), a ticker with a greater target never ticks, and a wait of 2^26*B or more never ends, however many updates are made.", "quantifier": "every history of calls, every finite float, every number of updates, all actions and predicates", "why_tests_cant": "unbounded histories; what never happens cannot be observed; rounding accumulates over millions of updates", "anchors": ["include/SSVUtils/Core/Common/Frametime.hpp: FT", "include/SSVUtils/Ticker/Src/Ticker.cpp: update", "include/SSVUtils/Timeline/Src/Wait.cpp: update", "include/SSVUtils/Timeline/Src/Timeline.cpp: update"]}
{"id": "C108", "title": "Obfuscated floats", "statement": "An ObfuscatedValue<float> stores its value as Base64 of six decimal digits. What is read back is the float nearest to the six-digit decimal nearest to what was stored, with its sign (zeros unchanged, 0 for infinities and NaN), and no other float; it is what was stored exactly if that is a zero or nearest to some decimal of six digits, which all whole numbers up to a million are; storing it again changes nothing more; of normal numbers at most 5.1 millionths are lost. Over any history of assignments and compound assignments each value is what is left of the operation on the value before, and the same as of a plain float as long as that takes six-digit values only; division by zero violates the assertion. Not true: that a counter counts (incremented by 1 it stops at 1000000 for ever), that 16777216 is read back, and that a value grown too large stays large (infinity reads as 0).", "quantifier": "every float, every history of operations and operands, every number of increments", "why_tests_cant": "2^32 floats, unbounded histories; nearest decimals are a claim about exact numbers no test computes", "anchors": ["include/SSVUtils/Encoding/Inc/ObfuscatedValue.hpp", "include/SSVUtils/Core/String/ToStr.hpp"]}
{"id": "C109", "title": "Recycled vectors, moved and destroyed", "statement": "Any history of constructing, filling (create, createAt), resetting, clearing, move-constructing and destroying any number of recycled vectors (MonoRecVector, PolyRecVector, PolyFixedRecVector), and of moving pointers between them, is defined exactly when every object goes away before the recycler that made it: the vectors then contain what plain lists would, nothing is destroyed or freed twice, and once all vectors are destroyed every object was destroyed once and every block freed once. A PolyRecVector may be moved in any way, and vectors that are not moved are always safe: only absent vectors and indices are undefined. Exceptions: a MonoRecVector or PolyFixedRecVector holding an object that is moved from and destroyed before the vector it was moved to makes destroying the latter undefined; assigning to a recycler leaks the blocks it kept for reuse.", "quantifier": "every history, number of vectors, object type, base type and storage", "why_tests_cant": "all interleavings of unboundedly many vectors; use of a destroyed chunk usually goes unnoticed in a test", "anchors": ["include/SSVUtils/MemoryManager/Internal/ManagerImpl.hpp: BaseRecVector", "include/SSVUtils/MemoryManager/Internal/RecyclerImpl.hpp: getCreateEmplace, getCreateEmplaceAt", "include/SSVUtils/MemoryManager/Internal/StorageImpl.hpp: PtrChain, Chunk, ChunkDeleter, MonoStorage, PolyStorage, PolyFixedStorage"]}
{"id": "C110", "title": "Timelines that are moved", "statement": "A Timeline can be move-constructed (for example by a std::vector<Timeline> that grows), but its commands go on acting on the timeline they were added to. Whatever history of calls on the new timeline comes back is exactly that of a timeline never moved, with the old one untouched; but an update during which a moved command is current never comes back: it is undefined if the old timeline is gone or the command is an action, and runs for ever on an unmet condition. Moving a timeline that is finished or has no current command is harmless, and a moved timeline that is cleared works as if new even when the old one is gone. The old timeline has no commands but keeps its current index: updating it is undefined until it is cleared or reset, after which it is an empty timeline.", "quantifier": "every timeline state, history of calls, frame time, time type and predicate", "why_tests_cant": "non-termination and undefined behaviour cannot be observed by a test, and they depend on the state at the time of the move", "anchors": ["include/SSVUtils/Timeline/Inc/Timeline.hpp: Timeline, insertImpl", "include/SSVUtils/Timeline/Inc/Command.hpp: Command::timeline", "include/SSVUtils/Timeline/Src/Timeline.cpp: update, next", "include/SSVUtils/Timeline/Src/Wait.cpp, Timeline/Src/Do.cpp, Timeline/Inc/Wait.hpp, Timeline/Inc/Go.hpp: update"]}
{"id": "C111", "title": "Radians in single precision", "statement": "With float arguments: getWrapRad gives the float nearest to the angle in [0,tau) that differs from its argument by whole multiples of the float tau, exactly that angle for arguments not below 0, and tau itself exactly for angles less than 2^-22 below it; against the true full turn the result is off by up to 2^-22 plus 1.75e-7 for every turn taken off. getDistRad is in [0,pi], symmetric, 0 for whole turns of the float tau, within 5*2^-23 of the true angle for arguments up to 8 radians apart, and NaN when the difference overflows. Exceptions: getWrapRad of large angles changes the direction (2^26 is turned by more than a radian), and getRotatedRad answers in degrees, so an angle that has already reached its target is multiplied by more than 57.", "quantifier": "every finite float, every number between the bounds of 2 pi as full turn", "why_tests_cant": "2^32 floats per argument; nearest and accuracy are statements about real numbers", "anchors": ["include/SSVUtils/Core/Utils/Math.hpp: pi, tau, getWrapRad, getDistRad, getRotatedRad"]}
{"id": "C112", "title": "Power curves in single precision", "statement": "With float arguments, a time from 0 to the duration, a duration and a change of at least 2^-100, and a change and start of at most 2^100: Quad::in, Quad::inOut, Cubic::in, Cubic::out and all curves of Quart and Quint are exactly the start at time 0, never go back as time goes on, never pass the float nearest to start + change and are exactly that at the end of the duration. These, Quad::out and (for moderate numbers) Linear are always within 2^-19 of the change plus 2^-24 of the start from the exact curve. Linear starts at the start and never goes back, and Quad::out starts and ends where it should. A negated start and change give the negated value, whatever the arguments, and exactly the duration 0 violates the assertion. Not true: that Linear ends at its end (from 0 by 0.1f in 0.1f it ends above 0.1f), that Quad::out never goes back (it does just before the end), and that it never passes its end.", "quantifier": "every pair of times, every start, change and duration in range, every float for the mirror image", "why_tests_cant": "2^128 arguments; monotony and accuracy are statements about all pairs of them and about exact numbers", "anchors": ["include/SSVUtils/Easing/Inc/Easing.hpp: Linear, Quad, Cubic, Quart, Quint"]}
{"id": "C113", "title": "Managers whose objects use them", "statement": "Objects in a MonoManager, PolyManager or PolyFixedManager may call create and del of their manager from their constructors and destructors. Whatever they do, as long as the behaviour is defined: every call ends, no object is destroyed twice, shown twice or shown after its destruction; refresh destroys every object deleted before it and of the others only ones deleted, directly or in a chain, by destructors it runs, one of these that it leaves stays deleted, and in a debug build none is left; clear destroys all objects in their order and then those created meanwhile. Constructors that create are always fine and put the new objects in order behind the others. If destructors only delete, each object having at most one owner and being in use as long as its owner is, then as many refreshes as there are objects destroy exactly the objects owned, directly or not, by deleted ones; and clear is defined exactly when no owner comes after what it owns. Not true: that deleting an owner together with what it owns is safe (undefined if the owner was created first), that clear and destruction stay safe after a refresh (it reorders), that one refresh leaves no deleted object (it may, and violates the assertion of a debug build), and that destructors may create: during a refresh the new object is lost for ever, neither shown nor destroyed, with full slots the behaviour is undefined, and if every destructor creates no manager holding an object can be emptied or destroyed.", "quantifier": "every history of calls, every assignment of actions to constructors and destructors", "why_tests_cant": "all interleavings of destruction order and nested calls; the failures are writes into freed memory and leaks, which a test does not see", "anchors": ["include/SSVUtils/MemoryManager/Internal/ManagerImpl.hpp: BaseManager", "include/SSVUtils/Internal/SharedFuncs.hpp: refreshImpl", "include/SSVUtils/GrowableArray/GrowableArray.hpp: initAt, deinitAt, grow", "include/SSVUtils/MemoryManager/Internal/LayoutImpl.hpp"]}
{"id": "C114", "title": "Loops over a manager that use it; updating timelines", "statement": "A loop for(auto& t : manager) over a MonoManager, PolyManager or PolyFixedManager whose body creates objects, deletes existing ones and uses t runs exactly once for every object that was shown before it, in order, and t is that object at every use; created objects are listed behind the others but not shown or visited, deleted ones are still shown, and nothing is destroyed, until the next refresh. The behaviour is defined exactly if at every use of t the objects created since t was bound had room in the slots there were then (25, 75, 225, ...); so it always is if bodies use t only before they create. TimelineManager::update destroys the timelines finished before, updates each of the others exactly once, deletes exactly those now finished and leaves timelines created by actions meanwhile for the next round, whatever actions create and whenever timelines finish. Not true: that actions may always create timelines in the manager that updates them (undefined if the slots are then used up: with 25 timelines, one that creates another), nor that a loop body may refresh or clear the manager (undefined).", "quantifier": "every reachable state of a manager, every loop body by object, every history of timeline creations, updates and clears, every behaviour of the timelines", "why_tests_cant": "all histories and bodies; the failure is a read through a reference into a freed array, which appears only when the slots are used up and often goes unnoticed", "anchors": ["include/SSVUtils/MemoryManager/Internal/ManagerImpl.hpp: BaseManager, its iterators", "include/SSVUtils/GrowableArray/GrowableArray.hpp: grow", "include/SSVUtils/Timeline/Src/TimelineManager.cpp: TimelineManager::update"]}
{"id": "C115", "title": "Reading JSON in a debug build", "statement": "For every text, a debug build (assertions of the reader on) either stops at an assertion, or runs into what is undefined in a release build, or does exactly what a release build does. A text accepted by the release build gives the same value in the debug build unless its last character is a slash, and then the debug build stops. If the text ends in a blank (space, tab, carriage return, line feed) both builds do the same, including every reported error. Standard texts (with blanks and comments) are read as the value they stand for. A standard text other than a number that lacks any part of its end is never accepted by the release build (false, target unchanged, or undefined), and stops the debug build if it is not cut in front of a letter, a digit, a sign or a point. Not true: that a debug build reports texts that are cut short (it stops at '[[],true' where the release build returns false), nor that it accepts what the release build accepts ('true/').", "quantifier": "every text, every previous value of the target, every place where a standard text can be cut", "why_tests_cant": "texts are unbounded and the two builds are different programs: a test runs in one of them, and an assertion ends the test instead of failing a check", "anchors": ["include/SSVUtils/Json/Io/Reader.hpp: Reader (getC, purgeSource, readStr, parse*)", "include/SSVUtils/Json/Io/Io.hpp: readFromStr"]}
{"id": "C116", "title": "Console formatting on a terminal", "statement": "Whatever a program does with setStyle, setColorFG, setColorBG, resetFmt, clear, texts without ESC and setw, on however many streams, an ECMA-48 terminal attached to a stream shows exactly the program's texts: in the colours chosen last before the last format string sent to that stream (the terminal's own if none was chosen since the last resetFmt), plain after resetFmt, and in exactly the one style chosen since the last resetFmt, if only one was, however the colours change. The null console writes exactly the texts. Not true: that a second style replaces the first, that ResetBold takes bold away, that a format string kept for later keeps its meaning, that streams are independent, that widths survive the null console and clear(), that colorCount counts the colours, that a valid console size is defined when the system refused to give one.", "quantifier": "every history of calls, sends, texts, widths and clears on any number of streams, every style and colour", "why_tests_cant": "13*17*17 formats and unbounded histories; tests see bytes, while the property is about what a terminal makes of all of them together", "anchors": ["include/SSVUtils/Core/ConsoleFmt/ConsoleFmt.hpp", "include/SSVUtils/Core/ConsoleFmt/Internal/ConsoleFmtImplUnix.hpp", "include/SSVUtils/Core/ConsoleFmt/Internal/ConsoleFmtImplNull.hpp", "include/SSVUtils/Core/String/IgnoreManip.hpp: operator<<"]}
{"id": "C117", "title": "Stringified values on a terminal", "statement": "On a Unix terminal, a value stringified between two resetFmt() is shown behind whatever was there with every character in its place, style and colours: brackets and separators bold, integers bold bright blue, reals bold bright red (both with the letters of their type), strings bright yellow, addresses underlined cyan between bold blue brackets, at every depth; without formatting everything is plain; the terminal is plain afterwards. Formatted containers and pointers look the same without the resets, behind any style and colour. The characters are those of the plain text. Not true: that printing leaves later texts alone (a number leaves its style and colour on, an unformatted container resets the colours set before) and that a formatted number ignores the style that is on.", "quantifier": "every printable value at every depth, every previous content, style and colour of the terminal", "why_tests_cant": "values nest without bound; a test compares bytes for single values, not what a terminal makes of them", "anchors": ["include/SSVUtils/Core/Stringifier/Stringifier.hpp: printFmt, printBold, Stringifier", "include/SSVUtils/Core/String/StringifierBase.hpp: stringify, callStringifyImpl", "include/SSVUtils/Core/ConsoleFmt/Internal/ConsoleFmtImplUnix.hpp"]}
{"id": "C118", "title": "Moving bimaps, references into them, erasing by their own keys", "statement": "Programs that construct bimaps from lists, move-construct and move-assign them (also to themselves), destroy them and call emplace, erase and clear, where the key given to erase may be a reference to a half of a pair in some bimap: every bimap holds exactly the pairs it should, in the order of insertion, one to one, and at/has/size answer accordingly; a moved-from bimap is empty and usable; a reference to a pair keeps reading that pair's value however often its bimap is moved, until the pair is erased. With assertions every violated precondition stops the program, and a program that runs with assertions does the very same without. Assigning through the reference returned by a lookup is harmless if the new value compares with the halves of all other pairs as the old one did: then and after any further operations the bimap is one with the pair replaced. Not true: that the builds agree on erasing by a key that is part of the bimap (b.erase(b.at(x))): the assertion at the end reads the destroyed key, unless the pair was the only one.", "quantifier": "every program over any number of bimaps, every pair of totally ordered key types, both builds, every order-preserving write and every continuation", "why_tests_cant": "histories and aliasing patterns are unbounded, and reading a destroyed key usually goes unnoticed in a test", "anchors": ["include/SSVUtils/Bimap/Inc/Bimap.hpp: Bimap, eraseImpl, emplace, the implicit move operations, operator[]", "include/SSVUtils/Bimap/Inc/Internal.hpp: PtrSet"]}
{"id": "C119", "title": "Timelines whose predicates change them", "statement": "A WaitWhile or WaitUntil whose predicate appends commands to its own timeline, or inserts them behind its own place, works off a list of steps to which they are added behind the wait, whether the wait stays or not: updates return exactly when working off the list comes to a wait or an end, with the same actions, answers and order. A predicate that calls stop() ends the timeline, its answer still moving it on or not, and later updates do nothing. After jumpTo(j) in a predicate the timeline is at j if the wait goes on, else one behind j (the command at j is skipped). Exceptions: after start() or reset() in a predicate the wait does not end the update: the predicate is asked again, or what follows runs, in the same update, for ever if it always keeps waiting; reset() in a predicate that lets the timeline go on restarts it at the second command; inserting at or before the wait itself has a wait that is over asked again, and a wait that goes on left for the new command or for the command before it, which runs again; clear() in a predicate is undefined.", "quantifier": "every arithmetic of times, every behaviour of actions and predicates given the history, every list of commands and frame times", "why_tests_cant": "predicates are arbitrary functions of everything that happened; the claims are about all histories, and some about updates that never return", "anchors": ["include/SSVUtils/Timeline/Inc/Wait.hpp: WaitLoop::update", "include/SSVUtils/Timeline/Src/Timeline.cpp: update, next, start, stop, reset, clear, jumpTo", "include/SSVUtils/Timeline/Inc/Timeline.hpp: append, insert"]}
{"id": "C120", "title": "Reading C++ values from JSON of any shape", "statement": "Extracting a type from a constant JSON value of whatever shape. A build with assertions gives what a release build gives, or is stopped by an assertion. Which values are read is exactly: scalars from their kind (integers from reals only if their whole part fits 64 bits of that signedness), bitsets from strings whose first n characters are 0 or 1, pairs/tuples/positional classes from arrays that are long enough, vectors from arrays, maps from arrays of pairs or, leaving the target alone, from anything else, classes from objects; with assertions inner values must also have exactly the shape of their type and no member may be missing. Archived values are read back in both builds, replacing what the target held, except that maps are merged. C arrays are read like tuples; character arrays from strings of at least their length, counting the terminator. In release builds surplus elements change nothing and a missing member is read as null. Arrays that are too short give std::out_of_range for pairs (both builds), tuples and positional classes (release). Not true: that a too short element of a map throws (it ends the process, being read in a noexcept function), and that both builds accept the same documents.", "quantifier": "every type built from the convertible ones, every JSON value, every previous value of the target, both builds", "why_tests_cant": "types and documents nest without bound; undefined behaviour on unexpected shapes is not seen by tests of expected ones", "anchors": ["include/SSVUtils/Json/Val/Internal/Cnv.hpp", "include/SSVUtils/Json/Val/Internal/CnvFuncs.hpp: hExtrArr, hExtrObj, getExtr", "include/SSVUtils/Json/Val/Internal/ItrHelper.hpp: ImplAsArr", "include/SSVUtils/Json/Val/Val.inl: as", "include/SSVUtils/Json/Val/Val.hpp: operator[] const, forArrAs"]}
{"id": "C121", "title": "Reading C++ values from JSON values that are not constant", "statement": "From a JSON value that is not constant, a type whose classes have converters made by the library's macros is extracted exactly when it is from the same value as a constant, with the same result, and the source stays as it is; what is thrown is what the constant throws, and reading such a class itself throws whatever the constant throws. For classes whose converters give the value on to extrArr or extrObj as it came (and direct calls of these), with distinct member names: extraction succeeds exactly if reading the same value as a constant does, with the same result; a build with assertions leaves the source alone and gives what a release build gives or is stopped; a release build adds null members to objects of the source, at any depth, exactly for the members classes name and the objects lack, and changes nothing else; reading the source again gives the same value. Archived values are read back in both builds and stay as they are. Not true: that reading with such converters leaves the source unchanged in every build, and that arrays too short for a pair, tuple or positional class throw, as they do for constants (they are read out of bounds).", "quantifier": "every type with distinct member names, every JSON value, every previous value of the target, both builds", "why_tests_cant": "types and documents nest without bound; tests do not look at the source after reading from it", "anchors": ["include/SSVUtils/Json/Val/Val.hpp: operator[], forArrAs", "include/SSVUtils/Json/Val/Internal/Cnv.hpp", "include/SSVUtils/Json/Val/Internal/CnvFuncs.hpp: hExtrArr, hExtrObj"]}
{"id": "C122", "title": "Programs over several VecMaps", "statement": "Programs that create VecMaps, copy, move and assign them (also to themselves), end their lives, write, touch and clear entries and assign entries of one map to entries of another or the same: every map holds exactly the entries it would as a finite map, ordered by key, and count/at/atOrDefault answer accordingly; copies are independent, moved-from maps are empty and usable. m[a] = m[b] within one map gives a the value of b, default-constructed if missing, exactly when the subscript evaluated second adds no key, or adds it behind the other one without reallocating; otherwise the behaviour is undefined. So giving a new key the value of an existing one is undefined, if the right side is evaluated first, exactly when the vector is reallocated or the new key comes first (with std::map it is always defined).", "quantifier": "every program over any number of maps, every totally ordered key type, every value type, either order of evaluation, any choice of when vectors are reallocated", "why_tests_cant": "histories and aliasing patterns are unbounded, and a stale reference into a vector usually reads something plausible", "anchors": ["include/SSVUtils/Container/Inc/VecMap.hpp: VecMap, copy and move operations, operator[], count, at, atOrDefault"]}
{"id": "C123", "title": "Emplacing owned objects in containers of pointers", "statement": "Programs that call getEmplaceUPtr and getEmplaceUPtrMap on a vector and a map of owning pointers, where constructors may make such calls themselves, nested to any depth, and throw: afterwards every existing object has exactly one owner and everything else begun is destroyed; the vector holds the pushed objects in the order in which they were completed, the map the object first completed for each key; a call returns exactly if its object and all that its constructor emplaced was completed. References, places and entries outlast every later call, also one that throws. getEmplaceUPtr returns the new object, which is the last one; getEmplaceUPtrMap returns what the map holds for the key, so for a key in use the old object, the new one being destroyed (against its documentation), and is undefined if that is not of the class asked for. Programs that use every key with one class are defined.", "quantifier": "every program, every nesting of constructors, every pattern of exceptions, every key type and class hierarchy", "why_tests_cant": "constructors are arbitrary programs and nest without bound; leaks, double owners and wrong casts usually go unnoticed in a test", "anchors": ["include/SSVUtils/Core/Utils/Containers.hpp: getEmplaceUPtr, getEmplaceUPtrMap", "include/SSVUtils/Core/Common/Casts.hpp: castUp", "include/SSVUtils/Core/Common/SmartPointers.hpp: MakerUPtr"]}
