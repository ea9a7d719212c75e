# SuRF in Rocq: design

The subject is the SuRF succinct range filter (headers in /repo/include) and its
benchmark program with the Bloom filter baseline (/repo/bench), read as text. Coq 8.16.1, standard library
only. Sources are in rocq/theories; build with `coq_makefile -f _CoqProject -o
Makefile && make -j4` in rocq.

## 1. What is modelled

The model follows the code function by function; each definition cites its file
and lines and says where it simplifies.

| model file | source |
|---|---|
| Res.v | outcomes: `Ok v` or `Fail fault`; checked array accesses; `env` |
| Word.v | 64-bit words, popcount.h, constants of config.hpp |
| Broadword.v | popcount.h: select64_broadword (never called) |
| Config.v | config.hpp: align, sizeAlign, uint64ToString, stringToUint64 |
| Hash.v | hash.hpp: suffixHash |
| Bitvector.v, Rank.v, Select.v | bitvector.hpp, rank.hpp, select.hpp |
| LabelVector.v | label_vector.hpp, all three search variants |
| Suffix.v | suffix.hpp |
| Builder.v | surf_builder.hpp |
| Dense.v, Sparse.v | louds_dense.hpp, louds_sparse.hpp with their iterators |
| Surf.v | surf.hpp: create, lookups, seeks, iterators, ranges, approxCount |
| Serialize.v | serialize, deSerialize, serializedSize, getMemoryUsage of every class |
| Heap.v | which arrays each class allocates with new[] and what destroy() deletes |
| Threads.v | several threads on one filter, interleaved |
| Bloom.v | bench/bloom.hpp, bench/filter_bloom.hpp |
| Murmur.v | bench/MurmurHash3.h: MurmurHash3_x86_128, and BloomHash |
| Bench.v | bench: filter classes, factory, bench.hpp, main of workload.cpp |
| Load.v | loadKeysFromFile on the contents of a file, and main with it |
| Arf.v | bench/workload_arf.cpp with the loader and selection for integers |
| Gen.v | bench/workload_gen/gen_load.py and gen_txn.py (Python exceptions are outcomes) |
| Multi.v | workload_multi_thread.cpp, with the steps of Threads.v |
| Demo.v | simple_example.cpp and the two short constructors of SuRF |

Machine model.
* A key is a `list nat` with every byte below 256; a word array is a list of `N`
  below 2^64; positions (`uint32_t`) are `nat`, and building a vector that does
  not fit 32 bits is the fault `PosOverflow`. Sums that the code lets wrap
  (`alloc_bytes`, counts, sizes) wrap in the model.
* Undefined behaviour is an outcome, not an assumption. Faults: `OutOfBounds`,
  `WideShift`, `AssertFail`, `NoFuel`, `PosOverflow`, `Thrown` (std::string
  functions that throw), `BadValue` (deSerialize reads a value no enum has).
* `env` says what C++ leaves open: `asserts` (assert() active or NDEBUG),
  `strict_shift` (a shift by 64 or more is a fault; otherwise the count is taken
  modulo 64), `strict_mem` (every stray read is a fault; otherwise the one word
  behind a word array and the 80 bytes behind a label array can be read),
  `junk` and `junkb` (what those words and bytes hold). Every other stray access
  is a fault in every environment.
* `machine e` means `strict_shift` and `strict_mem` are off, i.e. x86-64 with
  readable memory behind arrays; asserts and junk are arbitrary. Most theorems
  assume it. That the assumption is needed is itself proved
  (`C28_label_overread_refuted`, `C28_shift_refuted`). `quiet e` says that the bytes
  behind label arrays read as zero.
* Loops whose termination is not structural take fuel; running out is the fault
  `NoFuel`, so every theorem that concludes `Ok` includes termination.

Not modelled: allocation failure; opening files (a file is its contents or missing),
console output (but for simple_example), atoi, timing, the floating
point rates of bench; YCSB, which the workload generators start (its output is a parameter); a negative number of threads;
the ARF library of workload_arf.cpp (not in the repository; parameters of the model); random_shuffle (any permutation);
alignment of the 4-byte reads of MurmurHash3; C++ object lifetimes (a filter is a value);
the 32-bit and x64 variants of MurmurHash3 (never called); data races inside one step of Threads.v.

## 2. Specification vocabulary

Property theorems are stated with the small files Spec.v, SpecApi.v, SpecBits.v,
SpecTrie.v, SpecIter.v, SpecRange.v, SpecFilter.v, SpecSession.v, SpecBloom.v, SpecMurmur.v,
SpecCount.v, SpecFixed.v, SpecBench.v, SpecLoad.v, SpecMulti.v, SpecBare.v, SpecExact.v, SpecDepend.v, SpecSpace.v, SpecHash.v,
SpecAlone.v, SpecDAlone.v, SpecCountAlone.v, SpecParts.v, SpecArf.v, SpecMerge.v, SpecGen.v. Of the model they use the public calls and `env` only.

* `good_keys`: non-empty sorted list of non-empty byte strings (duplicates allowed).
* `settings`: include_dense, ratio at least 1, at most 64 suffix bits, and a length
  of at least 1 for the chosen suffix type. `bare_settings`: include_dense = false
  and no suffix. `any_settings`: either.
* `small`: the distinguishing prefixes of the keys have at most 524,286 bytes
  together (`told_apart`). Beyond that LabelVector's alloc_bytes can wrap
  (finding 19); theorems that need it say so.
* `lone_ff`: all keys equal and starting with byte 0xFF (finding 1).
* `dist_len`, `matches`, `admits`: distinguishing prefix of a key and which
  strings its stored suffix accepts.
* `filter_of e c keys f`: `f` came out of create, or out of any number of
  serialize/deSerialize round trips since. `padded`: it is fresh from create, or
  memory behind its labels is zero. `restored e f g`: `g` was read back from what
  `f` wrote, both at 8-byte aligned addresses.
* `answers e f cs`: the answers of a program, a list of public calls holding any
  number of iterators. `sound_call`: arguments are byte strings, seeks are for
  non-empty keys if asserts are on, and the call is not approxCount.
* `plain_top`, `last_level_prefix`, `reaches`, `room`: the shapes of key lists for
  which approxCount counts right and stays inside its arrays.
* `tally P l n`: exactly n members of l have P. `queries`, `right`, `upper`: the
  queries of a benchmark run and their right answers. `taken`: which keys of the
  load file are inserted.
* `trap`: bounds for which a seek can go wrong, each with a refutation beside the
  theorem that excludes it. `stray`: those of them that have nothing to do with
  suffixes.
* `leveldb_hash`: the string hash in plain arithmetic.
* `seek_at`, `less_at`, `flagged`, `cmp_exact`: the exact place, flag and code of
  seeks and comparisons.

## 3. Structure of the proofs

1. Words to lists of booleans: WordFacts, Swar, BitFacts, BitvectorFacts,
   RankSelectFacts, LabelFacts, SuffixFacts, StoreFacts.
2. The trie of a key list as predicates on (level, key index): KeyFacts, Trie,
   NodeFacts; the builder produces it: BuilderFacts, DenseBuild, Cutoff, StructFacts.
   `dense_ok`, `sparse_ok` tie the constructed objects to it.
3. Navigation: SparseFacts, DenseFacts, LookupFacts (point lookups), IterTrie,
   IterDense, IterDMove, IterSparse, IterFacts, IterKey (iteration), SeekOrder,
   SeekDense, SeekSparse, SeekFacts, SuffixOrder, CompareFacts, IterSim (seeks).
4. Absence of faults: SafeBits, SafeDense, SafeSparse, SafeApi. The invariant is
   weaker than standing at a key, so that it survives traps.
5. Counts: CountBits, CountTrie (nodes and labels counted in the trie),
   CountSparse, CountDense, CountDLoop, CountSeek, CountIt, CountApi, CountAlone, CountBack, BackApi, CountExact, CountFault; FixedApi (keys of one length).
6. Serialization: SerialFacts, TrimFacts, FilterFacts, SerialApi, PartApi.
7. Translation to the vocabulary: PointFacts, IterApi, RangeApi, BareFacts, AloneFacts, DAloneFacts, LoneFacts, TrieApi, SizeFacts, BitsApi,
   SuffixApi, WordApi, IntKeys, BloomFacts, HashApi, ThreadFacts,
   MurmurFacts, MurmurInj, BenchFacts, BenchApi, LoadFacts, MultiFacts, DemoFacts, BroadFacts, StrictFacts, ExactFacts, DependFacts, SpaceFacts, ExactAlone, HashFacts, TruncFacts, FitFacts, StepFacts, ArfFacts, MergeFacts, GenFacts.
8. Property theorems, examples and refutations, nothing else: PropPoint,
   PropBits, PropTrie, PropSize, PropIter, PropRange, PropBare, PropAlone, PropDAlone, PropLone, PropBloom, PropMurmur, PropSerial, PropParts, PropSafe,
   PropThreads, PropCount, PropCountAlone, PropBack, PropFixed, PropBench, PropLoad, PropMulti, PropDemo, PropBroad, PropStrict, PropExact, PropDepend, PropSpace, PropExactAlone, PropHash, PropCountExact, PropCountFault, PropTrunc, PropFit, PropStep, PropArf, PropMerge, PropGen. Samples*.v hold the data of the examples. RepoTests.v runs
   ports of the repository's own tests (test_surf.cpp with less data, and the three small tests) on the model,
   as a check that the model answers what its authors expect; no proof uses it.

Policy. A property that is false as first written is restated in its true form
with every exception spelled out; the exceptions get `_refuted` theorems with
concrete witnesses, evaluated by the kernel.

## 4. Findings in the code

1. A filter of one distinct key that starts with 0xFF loses it: the dense root
   bitmap is compared with a sentinel 0xFF label (C01, C06, C23, C28). Its iterators
   show a key "\0" instead, or read past the bitmap (C49).
2. include_dense = false: every lookup is true, iteration from the ends sees
   nothing, approxCount and steps off the ends read element -1 of an empty
   vector, moveToKeyLessThan ends one key too low; with suffixes construction
   reads outside a vector (C01, C06, C29, C45).
3. lookupRange misses a stored key when the left bound leaves the trie right
   after a prefix that is a stored key (C04).
4. distanceToNextSetBit overshoots at the last node of the trie (C04, C18).
5. Dense moveToKeyGreaterThan goes wrong when the bound ends inside the dense
   levels; the empty bound fails an assertion (C04, C08, C28).
6. Real suffixes of more than 8 bits misorder keys that end inside them (C04, C11).
7. Backward iteration never returns to keys starting with byte 0 (C07, C10).
8. moveToKeyLessThan ignores `inclusive`, can step twice, and can stand above the
   bound (C09).
9. Iter::compare is wrong at prefix keys, and a length difference of 2018 collides
   with the code kCouldBePositive (C11, C37).
10. extractRealSuffix loses 64-bit suffixes (C12).
11. A filter without suffixes can accept strings with a zero byte, depending on
    the dense/sparse split (C02, C03).
12. An empty key in the key list fails an assertion in the builder.
13. serialize and deSerialize round the absolute address, so misaligned buffers
    overrun or fail (C14, C15). Padding bytes are left as they were.
14. lookupRange and approxCount on keys share the member iter_, so two threads
    that look ranges up disturb each other; bench/workload_multi_thread.cpp does
    exactly that (C25).
15. getMemoryUsage omits level_cuts_ and the spare room of the labels, and
    LoudsSparse counts the size of a pointer instead of the object (C33).
16. destroy never releases level_cuts_ of the dense part (C34).
17. position_t is 32 bits and sizes are not checked against it.
18. select(1) answers 0 even if the first bit is 0 (C17).
19. LabelVector allocates n * (n / 64 + 1) bytes for n labels: quadratic, and the
    product wraps 32 bits, after which the constructor writes past the array
    (C29_create_exact says when; two keys that share 741,618 bytes suffice).
20. approxCount asks select for nodes that do not exist (out of bounds) whenever
    nothing behind the interval is as deep as the interval; its 32-bit subtotals
    wrap, so counts can be near 2^32 when the left end is not stored, the left
    iterator comes from moveToFirst or ++, or the last dense node has a prefix key; bytes 0 and 255 make it miss or add one (C26, C28).
    The repository's approxCountWordTest and approxCountIntTest read out of bounds for this
    reason: the builder adds an empty last level behind keys of greatest depth (RepoTests.v). From a key of the greatest depth to a later one that
    reaches the sparse levels it never returns, if zeros follow the arrays (C26_deepest_faults, C48_sparse_deepest_faults).
21. Dense getNextPos at the last position reads one word past the bitmap (C19).
22. A restored label array has no spare room, so the 16-byte loads read whatever
    follows; lookups of absent keys can change their answer and assertions can
    fail (C13, C28).
23. Even a fresh label array is over-read by 16-byte loads when there are fewer
    than 63 labels (C20, C28).
24. Every build without suffixes shifts a word by 64, and so do suffix reads across
    words (C21, C28).
25. Bloom CreateFilter appends to its destination, but KeyMayMatch on the whole
    destination loses keys (C36).
26. Sparse moveToLeftInNextSubtrie searches one label past its node.
27. computeDenseMem adds the label and child bitmaps in bits, everything else in
    bytes, so a dense level counts eight times its size and fewer levels are dense
    than the ratio asks for.
28. FilterSuRF::approxCount in bench returns bool, so counts become 0 or 1.
29. Hash suffixes of 58 to 64 bits shift by a negative count; on x86 they keep only
    1 to 7 bits of the hash (C31). suffixHash has 32 bits of which 7 are skipped, so
    suffixes longer than 25 bits only add zeros.
30. workload.cpp:43-44 tests the workload type the wrong way round: the documented
    alterByte is rejected, any other string is accepted and ignored (C41).
31. workload accepts 0 percent and then builds a SuRF from no keys, which fails an
    assertion; SuRFMixed with a suffix length above 32 asks for more than 64 suffix
    bits and fails one too (C39).
32. workload asserts false_positives >= 0, which fails whenever the filter has a
    false negative: every Bloom filter under range queries, and SuRF for the traps
    of C04 (C40). It also counts ranges without, but asks for them with, the upper end.
33. The filter type ARF of workload silently builds a SuRF with real suffixes (C41).
34. loadKeysFromFile tests the stream before reading: a file that ends with a newline
    gives its last word twice, a file of integers gives an uninitialised variable as
    its last key, an empty file gives one empty key (C42).
35. workload_multi_thread does not execute the queries left over by the division by
    the number of threads but counts their true positives, so its assertion can fail;
    0 threads divide by zero (C43).
36. workload_multi_thread counts true positives of ranges with upper_bound, so a range
    that holds only its start counts as a false positive; it reports as true negatives
    all queries that are not true positives, false positives included (C43).
37. Range queries of several threads race on iter_ of the one filter (C43, C25).
38. simple_example itself shifts a word by 64. With the keys far, fara, farb, farc, farf
    it would print "Correct: No key exists" about a range that holds farf (C44).
39. A longer real suffix can accept strings that a shorter one rejects: a key that ends
    inside its suffix stores zero, which accepts everything (C53).
40. The answer of lookupRange can depend on the ratio: for a stored key k that is a
    prefix of other keys, (k, k] is empty if k ends in the sparse levels and not empty
    if it ends in the dense ones. Hash suffixes have no effect on ranges at all (C55).
41. A larger range can be found empty where a smaller one is not: with real suffixes of
    two bytes the stored "cat" is found in ["cat", "cat"] but not in ["cat", "cb"],
    because "cb" ends inside the suffix and counts as zero; and a key that is a prefix of
    others counts as below every longer right end (C60).
42. deSerialize checks nothing: bytes with one changed label are read as another
    filter, a block size of 0 is divided by (C59).
43. ++ and -- keep the flag of the seek: getFpFlag can be true at a key that was only
    stepped to (C61). clear() keeps it too.
44. workload_arf divides the false positives by true negatives + false positives,
    but its true negatives are all queries without a key: the false positives are
    counted twice, and the rate never exceeds 1/2 for a filter without false
    negatives (C62). With fewer than 10000000 queries in the file, or without the
    files, it reads beyond the end of its vectors.
45. A filter of all keys is not always at least as good as filters of parts of
    them: with more than 8 real suffix bits a key that ends inside its suffix
    bits stores zero, which admits everything, and more keys can bring that about
    (C63_real_refuted). In sparse levels a range can be taken as non-empty because of
    a key above it that another key extends (C63_range_refuted).
46. gen_load.py cuts off the last character of an address in a last line without
    newline, and keeps the newline of a line without "@", so that the key file gets
    an empty line (C64). It takes the list to have 27549660 addresses: with a shorter
    one it ends with an IndexError.
47. Strings longer than one block can be made to collide in the Bloom filter: a
    second block that undoes the change of the first is found by running one round
    backwards (C65_two_blocks_refuted). Within one block the hash confuses nothing.

## 5. Trusted base

The Coq 8.16.1 kernel (including vm_compute), and that the model above is what
the code does. `Print Assumptions` stands under every property theorem; each
prints "Closed under the global context": no axiom is used, of the standard
library or otherwise. There are no section-less Variables, no Admitted proofs and no
disabled checks. Refutations are about the model in the named environment.

## 6. Tests of the theorems

seeded/LOG.jsonl records wrong variants of the model, one line per attempt, with
the definition, the edit and the claim it should break. They were judged in two
ways, outside this directory:

* By proof: the tree is rebuilt with the edit. `theorems_failed` are the property
  theorems that no longer follow, `first_failing_lemmas` where the build stops.
* By instances: the edited model is extracted to OCaml and the property statements,
  written as deciders, are run on many small key lists and queries.
  `false_on_instances` are those that came out false. This is stronger than a
  failing proof for the edits it finds, and says nothing about the others.

Ids starting with `auto` are edits generated at every comparison, constant,
operator and condition of a definition; they are judged by instances only. No
deciders exist for the integer encoding, Hash and the loaders, so edits there
show up with nothing false; the theorems that fix those functions (C36, C38, C58)
are tested by the hand-written edits. The benchmark programs (Arf, Load, Multi,
Demo) are tested by generated edits with all proofs rebuilt (`leaf…`). Many of the others left over are
equivalent (`= 0` against `<= 0`, fuel that is never used up, assertions that always
hold, thresholds between two search routines that give the same answer).
`theorems_tightened` names theorems added or strengthened because an edit went
unnoticed.
