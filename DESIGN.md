# Formal model of SSVUtils

The library source is read as text at the pinned commit in `/repo`. Nothing is compiled or run.
All paths below are relative to `/repo/include/SSVUtils/`.

## Layout

For every module `X`:

- `XModel.v`: executable Gallina model, one definition per C++ function, each with file and line citation.
- `XSpec.v` (when the specification needs definitions): short, independent of the model's helpers.
- `XProofs.v`: lemmas.
- `XProps.v`: only property theorems, each closed by `exact lemma`, with `Print Assumptions` and a
  concrete non-trivial example beneath it.

## Modelling conventions

- Byte strings are `list ascii` (8 bits, every value). Machine integers are `Z`/`N` with explicit wrap-around.
- Undefined behaviour (out-of-bounds access, signed overflow, violated `SSVU_ASSERT`, use after destroy)
  is a separate outcome, not an ordinary value. A theorem that says "no UB" says the outcome is not that one.
- Loops that may not terminate take fuel and return a distinct `OutOfFuel`-like outcome. Termination theorems
  give a fuel bound that suffices; divergence theorems say every fuel runs out.
- C++ exceptions are a separate outcome.
- Floating point: time quantities (`float`) are modelled over exact rationals/integers unless stated; each such
  place is listed in the trusted base below.

## Plan per property

| id | model | proof |
|----|-------|-------|
| C01 | Base64 encode/decode, byte level, staged 3/4-byte arrays as in the code | 3-byte step induction; finite facts about sextets by exhaustive `vm_compute` |
| C02 | same; spec = RFC 4648 over bit strings | same induction |
| C03 | same; decode loop with guard order as written | prefix induction |
| C04 | MD5 context (state, bit count, 64-byte buffer), update with the partial-block logic | refinement: context represents (blocks folded, pending tail) |
| C05 | MD5 transform with 64 explicit steps; spec = RFC 1321 loop over i | symbolic evaluation of the 64 steps against the table; the table against partial sums of the sine series with a bound for the rest |
| C06 | sprintf("%02x") loop | injectivity by bytewise inversion |
| C07 | scratch buffer with bounds-checked writes, two digits at a time | strong induction on n; exact threshold |
| C08 | same | witnesses by computation |
| C09 | ObfuscatedValue = base64 of decimal numeral | uses C01 and C07 |
| C10 | single-row DP loop as written | row invariant = distance of prefixes; distance = min over edit scripts |
| C11 | same | via recursive characterisation |
| C12 | find + erase/insert model | leftmost occurrence lemma |
| C13, C14 | fuelled loop | length measure; invariant "from occurs" |
| C15-C18 | fuelled split loop for all modes, single and vector separators | loop invariant over remaining suffix |
| C19 | index loops | induction |
| C20, C21 | list models of the STL calls | induction |
| C22-C26 | Z arithmetic with explicit C++ truncation and conversion | lia / nia |
| C27 | exact rationals (Q), fmod as exact | Q lemmas |
| C28-C30 | vector + lower_bound binary search | sortedness invariant, refinement to a map |
| C31, C32 | storage + two pointer sets ordered by pointee | invariant over histories |
| C33 | array of cells | direct |
| C34 | two-index loop as written, with trace of destroy events and bounds checks | loop invariant |
| C35 | manager state machine | invariant over histories, refinement to per-item life cycle |
| C36, C37 | free list + heap of block ids | invariant over histories |
| C38 | offsets computed from sizes and alignments | arithmetic, witness |
| C39, C40 | state machine over Z/Q time | induction over operation sequences |
| C41-C45 | command interpreter as written | small-step invariant, fuel only where Go can loop |
| C46-C50 | process as written, with exceptions | list lemmas |
| C51-C60 | purge pass, parser, writer, value tree, slots | structural induction over values |
| C61, C62 | multi-pass text replacement | refinement to a template AST |
| C63-C67 | string functions, abstract filesystem | induction |
| C68, C69 | rational functions | field / ring over Q |
| C70-C72 | list-level model of template metaprograms | induction |
| C73-C78 | state machines | induction over histories |
| C79 | LCG over Z mod 2^64 | modular arithmetic |
| C80 | range arithmetic with oracle distribution | lia |
| C81 | case conversion and counting as written | induction; uses the split theorems |
| C82 | std::remove with the value read through a reference into the array | witness |
| C83, C84 | exact rationals and typed integers | field, lia, witnesses |
| C85, C86 | reader against an independent grammar; writer and reader composed with the converters | induction over derivations and over type expressions |
| C87 | replaceAll on the path text | uses C13, C14 |
| C88, C89 | output function, rejection loop, Fisher-Yates loop | explicit bijections, full period, induction |
| C90 | iterators as places in a list | induction over the list |
| C91, C92 | subscripts as paths into the value tree | frame lemma by induction over the path; structural induction |
| C93 | four 32-bit words with explicit carries | refinement to Z modulo 2^128; loop invariant for the division |
| C94 | output functions by size | published formulas; explicit bijections between states and (result, place); composition with the full period |
| C95 | curves over Coq's real numbers, evaluation order explicit | trigonometric identities, monotonicity of cos, sqrt, exp |
| C96 | integers of given width, `SpecFloat` with 24 bits, texts as in C47 | congruence; rounding to nearest from remainders; sweeps where bounds are exact |
| C97 | constants as a record, state and table; `turned` relation for the table; powers of two | orbit of a mixed-radix counter with carries; counting of turns; inverses |
| C98 | exact decimals and doubles as rationals; nearest element of a grid with ties to even | remainders give nearest; uniqueness of the nearest; six digits fit in 53 bits |
| C99 | streams as texts with flags, width and fill; the 128-bit loops as written | invariants of the digit loops; inversion of the reader over all texts |
| C100 | seed sequences as arbitrary functions of their state; words as bytes | invariants of the copying loops over bytes; inverses modulo 2^w |
| C101 | generators as multiplier, increment, state; runs of numbers | half the period flips the top bit; every shift has a multiple that is half the period |
| C102 | actions as functions from the history to calls; queue of steps as a relation | refinement in both directions between the index and the queue; monotonicity in fuel |
| C103 | decimal and hexadecimal texts as exact rationals; floats as rationals m * 2^e | C98's argument for 24 and 53 bits with the exact overflow and underflow bounds; six-digit gap |
| C104 | a store of entries with arbitrary naming and permissions; "entry k becomes e, all others stay" | direct; reading back through C51 and C63, digest through C05 |
| C105 | lines of a text and their marks; usage texts as a relation; equal texts mean equal elements | help as a list of lines; first and last separators |
| C106 | floats as rationals; nearest float; directions up to whole turns | SpecFloat's operations proved correctly rounded (add, sub, mul, div, compare); exact remainder; exact differences of near floats; monotone rounding |
| C107 | floats counted in units of a power of two; exact sums | simulation of the float ticker and timeline by the exact ones; gaps around powers of two; error per addition |
| C108 | the float nearest to the nearest six-digit decimal | uses C01 and C103; six-digit decimals are unique and in range; histories by induction |
| C109 | plain lists of objects with homes | simulation with several tables over one heap; every block and object counted once; homes stay with their vectors |
| C110 | the timeline of C41 not moved | invariant of the update loop while a moved command is current; equality otherwise |
| C111 | rationals, directions up to a given full turn | as C106; drift bounded by the distance of the float tau from any number in an enclosure of 2 pi (the enclosure itself is not proved) |
| C112 | rationals, nearest floats, the exact curves of EaseSpec | pairs of times carried through every rounded step (rounding is monotone); error bounds added up step by step; mirrored arguments by the sign symmetry of the operations |
| C113 | the list of objects in the manager, flags, and the least set of objects deleted by deleted ones | invariant of the refresh loop with passed, remaining and destroyed objects; actions of constructors and destructors by induction on their nesting; histories by induction |
| C114 | the objects shown, visited once each; slots as 25 * 3^k; rooms for the objects created | effect of one body on slots, flags and counters composed over the loop; histories of timeline managers by induction |
| C115 | the texts of C85 (`denotes`, `spaced`), cut; the last character | debug outcome is UB or the release outcome, function by function; index bounds when the last character is a blank; monotone in the text |
| C116 | an ECMA-48 terminal reading bytes (SGR, cursor home, erase); what a stream shows over the history of calls, sends, texts, widths and clears | invariant: cache and format string against the history, terminal state against the view; per-code reading lemmas |
| C117 | cells with pens by recursion over the value (`look`), on the terminal of C116 | every action draws its cells from any or from a fresh format; induction over values as for C74 |
| C118 | lists of numbered pairs per variable (`w_spec`), a table of what references read | the invariant of C31 per variable, numbers in one variable only; simulation of every step in both builds |
| C119 | predicates as functions from the history to an answer and calls; C102's queue with a clause for them | C102's refinement with the calls made inside the wait; histories only grow |
| C120 | shapes by recursion on the type, with JsonCnvSpec's `fits` for what assertions add | nested induction on types; outcomes of the two builds related by "equal or stopped" |
| C121 | C120's model for constants; an inductive relation for sources with added null members | nested induction on types, source and value together; for macro converters a relation to the constant reading |
| C122 | vectors by name, references as positions; finite maps by name | forward simulation in both outcomes, splitting ordered vectors at the keys |
| C123 | objects as a heap with lives, constructors as trees of calls; completed calls listed from the tree | nested induction on constructors; the heap before a call is a prefix of the one after it |

## Trusted base

1. Coq 8.16.1: the kernel, its conversion (including `vm_compute`), and the standard library as compiled with it.
   No axiom is declared in this development. `Print Assumptions` stands beneath every property theorem. For all
   theorems but those of C95 it answers "Closed under the global context". The theorems of C95 speak of Coq's real
   numbers and list at most these axioms of the standard library: `ClassicalDedekindReals.sig_forall_dec`,
   `ClassicalDedekindReals.sig_not_dec`, `FunctionalExtensionality.functional_extensionality_dep` and
   `Classical_Prop.classic`. (`coqchk` further lists seven constants of Coq's own `ssrunder`, opaque by a signature,
   because a library file loads that module; no theorem depends on them.)
   `coqchk` is run over the compiled files by the gate.
2. The reading of the C++ text. Every model definition cites the lines it renders. Nothing was compiled or run,
   so agreement of model and program rests on that reading. The target assumed is x86-64 with the LP64 data model:
   8-bit bytes, 32-bit `int`, 64-bit `long` and `size_t`, two's complement, IEEE binary64 `double`.
3. What C++ and its standard library do where the code calls them. Rendered by their documented meaning:
   `std::string` (find, erase, insert, substr, append), `std::vector`, `std::set`, `std::map`, binary search,
   `std::remove`, sort, `strtod`, `sprintf("%02x")`, streams with default formatting, mutexes.
   Sorting is any function that returns a sorted permutation.
4. Parameters the theorems quantify over instead of axioms: what `stat` and `readdir` answer, the user folder,
   clock readings, frame times and their arithmetic, user callbacks and predicates, comparators (assumed strict
   weak orders where stated), random distributions (assumed to stay in the closed range asked for), thread
   schedules, uninitialised buffer contents, the compiler's choice of evaluation order in the easing curves.

### Modelled

| files | model | not modelled, or simplified |
|-------|-------|------------------------------|
| Encoding/Src/Base64.cpp | Base64Model | - |
| Encoding/Src/MD5.cpp | MD5Model, FilesModel (digest of a file) | opening the file |
| Core/String/Internal/FastIntToStr.hpp | IntToStrModel | - |
| Encoding/Inc/ObfuscatedValue.hpp | ObfModel (integers), ObfFloatModel (`float`; `istream >> float` of libstdc++ in the "C" locale is written out in the model) | `double`; the dummy copy |
| Core/String/Utils.hpp, Split, Trim, SplitHelper | StrModel, LevModel, ContModel | locale-dependent case conversion (ASCII only) |
| Core/Utils/Containers.hpp 53-317, 433-476 | ContModel, TupModel, EmplModel (getEmplaceUPtr, getEmplaceUPtrMap) | destructors that use the containers, failing memory requests (EmplModel) |
| Core/Utils/Math.hpp | CInt, MathModel (exact), AngleModel, RadModel (single precision) | rounding of `double` and of mixed types, fused or wider intermediate results; `getPolarFromVec` and other calls of `atan2`, `sqrt` |
| Container/Inc | VecModel; VmWorldModel (several VecMaps, copied, moved and assigned to each other, and `m[a] = m[b]`) | `VecSorted::is`; moving and copying VecSorted; capacities (whether an insertion reallocates is universally quantified); moved-from vectors are taken to be empty |
| Bimap/Inc/Bimap.hpp | BimapModel, BmWorldModel (several bimaps, moves, initializer lists, both builds, keys by reference; moved-from and self-moved standard containers are empty as in libstdc++) | iterators |
| GrowableArray, Internal/SharedFuncs.hpp, MemoryManager/Internal | MemModel; RecVecModel (recycled vectors, several at once, moved and destroyed); ReMgrModel (managers used by their objects' constructors and destructors); IterModel (loops over managers whose bodies use them) | object contents; constructors and destructors that use recycled vectors, or other functions of a manager than `create` and `del`; the nodes of a moved `unordered_map` keep their addresses and the source is left empty, as the standard library does |
| Ticker | TickerModel, ClockModel (single precision) | - (any arithmetic of times) |
| Timeline | TimelineModel, TimelineMgrModel, GrowModel (actions that add commands), PollModel (predicates that change their timeline), ClockModel (single precision), TlMoveModel (moved timelines), IterModel (actions that create timelines in the manager updating them) | the 2^31 limit of indices |
| CmdLine | CmdModel, FltModel (floating-point arguments), HelpModel (usage, help and exception texts) | titles of exceptions |
| Json (all of Io, Num, Val) | JsonModel (release build), JsonDbgModel (the reader with its assertions), JsonNumModel, JsonCnvModel, JsonShapeModel (extraction in both builds, from constant values), JsonMutModel (from values that are not constant: macro converters, or converters forwarding to `extrArr`/`extrObj`, not both in one type), JsonSlotModel | debug assertions of `Val` and `Num` elsewhere, extraction from temporaries (parts are moved), stack exhaustion, `float`; user-written converters |
| Json/Val/Val.hpp: subscripts, has, getIfHas, makers, == | JsonAccModel | assigning a part of the value to itself is in JsonSlotModel |
| Range, Json/Val/Internal/ItrHelper.hpp | RangeModel | iterator categories other than forward, bidirectional, random access |
| TemplateSystem | TplModel | - |
| Core/FileSystem | PathModel, FilesModel | the calls of the system themselves: a store with arbitrary naming and permissions stands for it, nothing else changes it during a call, writes do not fail half-way, no text-mode translation |
| Easing | EaseModel, EaseRModel (sin, cos, sqrt, pow), EaseFModel (power curves in single precision) | rounding of `Back`, `Bounce`, `Cubic::inOut`, the curves in EaseRModel and of `double`; `ssvu::pi` is exact; `getMapEased` of the curves in EaseRModel |
| Core/Common/Casts.hpp, Frametime.hpp | CastModel, FltModel (`sToFloat`, `sToDouble`) | `bool`, casts between classes, enums and storages (checked by the compiler); double-precision frame times |
| Core/MPL | MplModel | the compiler's own limits |
| Core/Tuple, Core/Utils/ForArgs.hpp, Delegate | TupModel | value categories (copies against moves) |
| Core/Stringifier, Core/String/ToStr.hpp, Core/ConsoleFmt | StrfModel, ConModel (all of the Unix and null consoles), FltModel (text of floats and doubles) | the Windows console; flags set on the shared stream |
| Core/Log | LogModel, FilesModel (saveLogToFile) | console width |
| Benchmark | BenchModel | several threads (all its state is per thread) |
| Union | UnionModel | over-aligned new; types with throwing destructors |
| FatEnum | EnumModel | values that are expressions |
| Internal/PCG/pcg_random.hpp, pcg_extras.hpp | PcgModel, PermModel, ExtModel, PcgIoModel (text input and output in the "C" locale), SeedModel, EqModel | streams of other characters; failing memory requests while seeding; seeds made from addresses and the time of compilation; compiler-specific rotate instructions (the portable form is modelled) |
| Internal/PCG/pcg_uint128.hpp | U128Model | big-endian layout; compiler intrinsics (the fallbacks are modelled); compound assignments (each is its operator, then an assignment) |
| Core/Utils/Rnd.hpp | RndModel | real numbers (the standard distributions alone) |

Not modelled at all: aliases and casts between classes of Core/Common, Core/Detection, macros of Core/Utils/Macros.hpp,
Core/Utils/FnTraits.hpp, the Windows parts.

## How the theorems were tested

`seeded/LOG.jsonl` holds one line per deliberate bug: the model definition edited, the edit, the claim it breaks, the
theorems that no longer prove. The edit is made in a scratch copy, everything depending on it is rebuilt, and
every proof that fails is replaced by an admission there so that later files still load; a property theorem counts
as failed when its own proof or a lemma it depends on fails.

## Findings

Places where the expected statement is false of the code as it is. Each is proved as a `_refuted` theorem or is part
of the exact statement of the theorem named, unless marked (read).

Encoding and strings

- Base64 lengths are 32-bit: 2^32 bytes encode as nothing (C01, C02).
- MD5: a chunk that with the buffered bytes reaches 2^32 bytes is read out of bounds (C04).
- Integer to string conversion overruns its buffer for large values of every type, e.g. INT_MAX (C07, C08); storing such
  a value in an obfuscated integer is undefined (C09).
- replaceAll never returns when the replacement contains the pattern, or the pattern is empty (C14);
  expandUserPath inherits that (C87). Splitting at an empty separator never returns (C15).
- Tokenising with one separator returns the wrong separator token, or throws (C18).
- eraseRemove with a reference into the container leaves equal elements (C82).

Math

- getMod with unsigned operands wraps (C22); the example in its comment, getMod(-2,0,12) == 9, should say 10 (read).
- getByModIdx with a negative index is right only if the size divides 2^64 (C23).
- get2DIdxFrom1D refuses the origin (C24). get3DIdxFrom1D returns a wrong x (C25).
- Mixed-sign clamping uses the common type (C26). Single-precision wrapping can give 360 (C27).
- getRotatedRad returns degrees and does not convert the speed (C83).
- Expo jumps by a 1024th of the change at one end; no order of evaluation gives all kinds of Circ (C95).
- `sToInt`, `sToSizeT` (and `sToFloat`, `sToDouble`) are `noexcept` around throwing functions: a text that is not a
  number terminates the process. `sToSizeT` reads a `long`: negative texts wrap, sizes above 2^63-1 terminate (C96).
- Frame times of integer types go through float: 16777259 frames are one second too many, 1118483 seconds are 4 frames
  off; frames per second of frame time 0 is undefined (C96).
- Extended generators (C97): `period_pow2()` and the comments on periods are wrong for every named generator (`may_tock` is
  false for 64-bit bases, so that the table does not go on at 0); `advance` with a table entry 0 carries once too often;
  `backstep` miscounts the turns when it starts from or ends at a state where the table turns; for bases below 64 bits `advance`
  turns the table when it lands on 0, and again when drawing from there; `selfinit` subtracts two numbers drawn in unspecified order.
  Equidistribution is over all tables, not within one cycle. Read in the text only, not modelled: `operator!=` of two extended generators
  calls itself for ever; `operator>>` and `advance` do not compile for the kinds that are not k-dimensionally
  equidistributed; `pcg32_k2` has 64 table entries although its comment says 2; the names `pcg32_k64_oneseq` and `pcg32_k64_fast`
  are exchanged (the first has no increment).
- Texts of generators (C99): reading a 128-bit number at the end of the text sets the failure flag, so that such a generator is never read
  back; the overflow check misses some numbers; the fill of the stream is not reset before writing; 8-bit numbers are written as
  characters, and codes of blanks are lost; hexadecimal 128-bit numbers come out wrong with left adjustment, base or width. An extended
  generator is read through a new object, which for streams chosen by address has another increment, so that reading fails. Read in
  the text only: with built-in 128-bit integers these functions do not compile.
- Seeding (C100): a generator with a settable increment draws its two seed numbers in an order the language leaves open, so that with a
  source of fresh words the generator made depends on the compiler (`C100_order_refuted`). Read, not modelled: `generate_to` does not check
  the result of its memory request.
- Comparison (C101): `!=` of extended generators calls itself without end (`C101_extended_unequal_refuted`).
- Timelines changed by their own actions (C102): inserting at or before the running command makes it run again, for ever if it always
  inserts; clearing from inside an action destroys the action being run.
- Floating-point texts (C103): `toStr` keeps six digits, so floats with seven do not come back; `sToFloat` ends the process
  not only for texts without a number but also for inexact numbers below the least normal float ("1e-40", and the text of
  the least float itself). `Parser<float>` promises an exception that cannot be thrown. That glibc reports such results as
  range errors, and that libstdc++ turns every range error into an exception, is part of the trusted model (FltModel).
- Files (C104): `removeFile` returns the result of `std::remove` as a `bool`, so it answers true exactly when the file could
  not be removed; `writeToFile`, `saveLogToFile` and `createFolder` say nothing when they fail; the digest of a file takes
  its length as an `int`, so files of 2^31 bytes and more throw or are digested in part (2^32 bytes: as the empty file); a
  failed stream gives an empty digest but keeps the old one in the object.
- Help (C105): the texts of a pack print its limits with the unsafe integer conversion (C08), so a pack "up to the greatest
  number" makes `getHelpStr` undefined. A missing name cannot be told from a missing description. Messages about wrong numbers have
  two blanks before "for command" and before the dash (the phrase brings its own blank).
- Single precision (C106): `getCycledValue` can exceed its range (1.6598238 in [1.6598239, 13.399220] gives 13.399221) and
  change values inside it (-0.8 in [-2, -0.7)); `getWrapDeg` can give 360; `getRotatedDeg` never arrives when the speed is
  below half a step of the angle (300 degrees, 10^-6); `getLerp(1, -1.9, 0.1)` exceeds 0.1; `getMap(0.2, 0.1, 0.2, 0, 0.1)`
  exceeds 0.1.
- Frame times in single precision (C107): the sum of frame times stops growing: at one unit per frame `getTotal()` stays at
  2^24 for ever (77 hours at 60 frames per second); with frame times up to B it never exceeds 2^25 B, a ticker with a target
  beyond that never ticks, and a `Wait` of 2^26 B or more never ends.  Counting in whole frames (or any fixed power of two)
  and below 2^24 units everything is exact.
- Obfuscated floats (C108): six decimal digits are kept. A counter incremented by 1 stops at 1000000; 16777216 reads as
  16777200; a third times 3 gives 0.999999; a value that overflows reads as 0 afterwards (the stream does not read "inf").
- Recycled vectors (C109): the deleters of the items point at the chunk that made them. In `MonoRecVector` and
  `PolyFixedRecVector` the chunks are members, so after a move they still point into the source; destroying the source first
  (a `std::vector` of such vectors growing, a vector returned through a moved local) makes destroying the items undefined.
  `PtrChain::operator=(PtrChain&&)` overwrites its chain without freeing it, so assigning recyclers leaks.
- Moved timelines (C110): `Timeline` is implicitly movable, but every `Command` keeps a reference to the timeline it was
  created in. After a move `ready` and the current index of the new timeline are never changed by the moved commands, so
  `update` cannot end, and the old one steps past its (now empty) command vector.
- Radians (C111): `getWrapRad` takes off multiples of the float `tau`, 1.75e-7 too large, so large angles come out in another
  direction; `getRotatedRad` returns degrees (C83 for exact numbers), and takes its speed in degrees.
- Power curves in float (C112): `Linear` may end above its end, `Quad::out` goes back by one unit just before the end and may
  pass its end; the other curves do neither (`Cubic::inOut` is wrong already in exact arithmetic, see above, and not repeated).
- Managers used by their objects (C113): deleting an owner and what its destructor deletes is undefined if the owner was created
  first; `refresh` reorders, so `clear` and destruction may become undefined; a destructor that deletes an object already passed
  violates the debug assertion of `refreshImpl`; an object created by a destructor during `refresh` is lost, and with full slots
  the growth frees the slot being destroyed.
- Loops over a manager (C114): `TimelineManager::update` holds a reference into the manager's array while a timeline's actions run;
  an action that creates a timeline when the slots are used up (25, 75, 225, ...) frees that array, and the loop reads from it.
- JSON in debug builds (C115): `getC` asserts an index below the size, but the parser looks at the terminating zero of a text that
  ends too early. So a file that is cut short stops a debug build instead of being reported (`[[],true`), unless it ends in a line
  break; and `true/` is read by a release build and stops a debug build (the look-ahead for a comment).
- Console formatting (C116): a second style is added to the first (`setStyle(Underline)` after `setStyle(Bold)` gives both; only
  `None` and `resetFmt()` take styles away). `ResetBold` sends 21, which underlines twice on ECMA-48 terminals and leaves bold on
  (22 would take it away). All functions return a reference to one string, so a format kept for later shows what the last call
  asked for; the remembered format is shared by all streams. `setw` before a format string pads the next text on Unix but the
  empty format string on the null console; `clear()` always eats it. `colorCount` is 16 although there are 17 colours.
  `isInfoValid()` is true even if the `ioctl` failed, and then the sizes are read uninitialised; they are asked for only once.
- Stringified values on a terminal (C117): `stringify<true>` of a number or string takes over the style that is on and leaves its
  own style and colour on; `stringify<false>` of a container resets the program's colours behind its first bracket.
- Bimaps (C118): `erase` with a reference to a key in the bimap itself (`b.erase(b.at(x))`) removes the pair in a release build, but
  the trailing assertion of a debug build reads the destroyed key (unless the pair was the only one). `operator[] const` calls the
  non-const `get` and does not compile (read from the source, not a theorem).
- Timelines changed by their own predicates (C119): start() and reset() undo the pause of the wait that asked, so the update goes on, for
  ever if the predicate always answers the same; reset() before an answer that lets the timeline go on skips the first command; inserting at
  or before the wait loses the place; clear() destroys the predicate being run.
- JSON of unexpected shape (C120): release builds read documents that stop debug builds (surplus elements, missing members, which read as null,
  so a map member silently keeps its entries); a map element with fewer than two entries ends the process, because
  `ImplAsArr::get` is noexcept while `Val::operator[] const` throws `std::out_of_range`; a wrong kind is undefined in release builds.
- Reading from JSON values that are not constant (C121): release builds add missing members to the source as null (through `extrObj`
  and converters that forward the value to it; macro converters take the value as a constant and leave it alone); arrays that are too short
  are read out of bounds, where constants throw.
- VecMap in place of std::map (C122): `m[a] = m[b]` within one map is undefined when the subscript evaluated second adds a key, unless the
  vector is not reallocated and the key is added behind the other one; the reference obtained first is stale (C122_link_refuted).
- `getEmplaceUPtrMap` with a key in use returns the old object, not "the newly allocated" one, and destroys the new one; if the old one is of
  another class the cast is undefined (C123). It does not compile with a temporary as the key, which it passes on as an lvalue (read).
- Classes with `SSVJ_CNV` converters can be neither archived from nor extracted from temporaries: `CnvImplSimple` gives `impl` an lvalue where
  it asked for an rvalue reference (read, Json/Val/Internal/Cnv.hpp:294-313).
- `SSVU_UNIQUE_NAME` pastes the undefined word `__LINE` (for `__LINE__`): all names are the same, so that it can be used
  once per scope only (read, Core/Utils/Macros.hpp:264).

Containers and memory

- VecMap initialiser lists keep duplicates (C29). VecSorted::is compares an iterator with a value, and its base class
  ignores the comparator (read).
- Bimap operator[] breaks the one-to-one relation (C32). erase(bm.at(k)) reads a dangling key in a debug assertion (read).
- GrowableArray::grow, and clearing a manager, never end from 2^32 elements on (C33, C35).
- A throwing constructor leaks the recycler's block (C36). Over-aligned derived types get a too small block (C37)
  and a wrong flag address (C38).
- Moving a MonoRecVector leaves its deleters pointing into the old recycler (read). PtrChain's move assignment leaks (read).

Time

- A paused ticker ticks, and may start running, when its time has already reached the target; a stopped one with a
  target that is not positive ticks on every update (C40).
- Timeline: overshoot of waits is lost (C42); counters of nested loops are not restored (C43); indices are unchecked, inserting
  before the current command repeats one (C44); an action calling reset or jumpTo skips a command (C41).
- A finished timeline that was restarted is destroyed by its manager all the same (C45).

Command line

- Values of value flags are bound by position, unknown names accepted (C49). Failure is not atomic and packs
  accumulate (C50). Negative numbers are taken as flags; a malformed integer ends the process (C47).
  Repeating a flag can be too many flags (C48). FlagValueOpt cannot be instantiated (read).

JSON

- Strings are written unescaped (C52). Leading blanks repeat the last digits of a top-level number (C54). Stale text after the
  purge pass can complete broken text; comments can be read as content (C53, C55). Blanks inside tokens are ignored (C53).
- Undefined behaviour on unterminated strings, strings ending in an escaped backslash, comments without newline, \u, large
  numbers, empty text (C55). "-" alone is read as 0, hexadecimal numbers are accepted (read).
- Number equality is neither symmetric nor transitive (C56). Integers above 2^53 are rounded on reading; those of 10^18 and more
  overrun a buffer on writing; reals are written with six digits (excluded in C51 by its hypotheses; C98 tells which numbers survive).
- Character arrays: check off by one, short strings over-read (C57). Maps are merged on extraction and their
  type check accepts everything (C57). `as` of arrays returns a dangling reference (read).
- Assigning a value to its own element or the reverse, and assigning maps, bitsets, enumerators or macro classes onto a
  non-null value, destroy objects twice (C58). fromStr hides errors (C60).
- Assigning below an absent key, v["a"]["b"] = x, is undefined: no object is made (C91). Looking at an absent key of a value that is not
  constant inserts null (C91). getIfHas of a string with a default given in place returns a dangling reference (read).

Templates, paths, scans

- Templates: keys in replacement texts see the outermost dictionary only; unknown sections in only-contents mode depend on the
  rest of the text; an escaped brace at the end is doubled; an end tag beginning with the section's name trips an
  assertion (C61); self-referring texts never end (C62).
- Path: const getters change what a later += does (C63); getFolderName and getParent edge cases, == never returns,
  only one extension removed (C65). removeFile reports success on failure (read).
- Scan: name filter not applied to folders, folders ending in a dot skipped, old elements sorted too (C66); recursion loses the
  prefix and may not end (C67).

Ranges

- Postfix ++ and -- of the adaptors return the moved iterator; ranges that cast pointers are wrong unless the base class lies at offset 0;
  conversions that throw inside the noexcept iterators end the program (C90).

Easing

- Cubic inOut ends at start + 2; values depend on the unspecified order of evaluation (C68). Shifted input ranges (C69).

Templates of types, tuples, delegates

- List<>::Insert ignores its index; negative slice indices (C70); overlapping occurrences do not compile, all<> of nothing is false (C71).
- tplFor over empty tuples does not compile; noexcept by the first position only; explode always noexcept; duplicate keys keep
  the first value (C72). A callback changing its delegate is undefined (C73).

Output

- Escape sequences in unformatted container output, null pointers print an address, nested toStr loses text, int counter (C74).
- Benchmarks: extra line, nested group scopes, pause first (C75). Log: newlines while suppressed, stale and stolen titles,
  unlocked formatting, repeated colours (C76).

Unions, enums, random numbers

- A throwing constructor leaves a union marked as full (C77). Its two-argument assert does not compile in debug builds with the
  standard macro (read). Duplicate enum values do not compile; unknown values end the program (C78).
- The 16-bit full-size output function multiplies promoted ints: undefined for large mixed states (C94).
- 16-bit engines overflow; states read in may make the distance endless (C79). Mixed-sign bounds, narrow types, unsigned
  signs (C80). Shuffling 2^32 elements divides by zero (C89).
- The 128-bit integer: negative integers are not sign-extended, right shifts by 160 and more write outside the object (C93); on
  big-endian machines flog2 and trailingzeros count the words from the wrong end (read).
