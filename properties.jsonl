{"id": "C01", "title": "No false negatives for point lookups", "statement": "A filter built with dense levels from a sorted list of non-empty byte strings answers true to lookupKey for every string in that list, whatever the suffix type, suffix lengths and sparse/dense ratio, unless the only distinct key starts with byte 0xFF; in that case the key is always answered false. Built without dense levels, a filter answers true to every lookup.", "quantifier": "every sorted list of non-empty byte strings (duplicates allowed), every stored key of it, every suffix configuration the class documents, every include_dense flag and every ratio", "why_tests_cant": "The key sets are unbounded in number, length and branching; a unit test can only sample word lists and integers. A missed key needs a particular trie shape, word alignment or byte value.", "anchors": ["include/surf.hpp: SuRF::create, SuRF::lookupKey", "include/surf_builder.hpp: SuRFBuilder::build", "include/louds_dense.hpp: LoudsDense::lookupKey", "include/louds_sparse.hpp: LoudsSparse::lookupKey"]}
{"id": "C02", "title": "Point lookups answer true only for strings that match a stored prefix and suffix", "statement": "lookupKey(q) is true exactly if some stored key k agrees with q on k's distinguishing prefix (the shortest prefix of k no other stored key has) and the stored suffix bits of k accept q; every other string is rejected, except that a filter without suffixes may accept a string containing a zero byte.", "quantifier": "every key list, every query string, every suffix configuration", "why_tests_cant": "The set of absent strings is infinite; tests mutate a few bytes of stored words.", "anchors": ["include/surf.hpp: SuRF::lookupKey", "include/suffix.hpp: BitvectorSuffix::checkEquality"]}
{"id": "C03", "title": "The dense/sparse split is invisible to point lookups", "statement": "For the same keys and suffix configuration lookupKey gives the same answer whatever sparse_dense_ratio was used to build the filter. It can differ only without suffixes on a query containing a zero byte, and with include_dense = false, where every lookup is true.", "quantifier": "every key list, every query, every pair of (include_dense, ratio) settings", "why_tests_cant": "Tests fix one ratio per key set; equality over all cut-off levels and all queries cannot be enumerated.", "anchors": ["include/surf_builder.hpp: determineCutoffLevel, buildDense", "include/surf.hpp: SuRF::lookupKey"]}
{"id": "C04", "title": "No false negatives for range lookups", "statement": "If a stored key lies in the interval from l to r (bounds included or excluded as li, ri say), lookupRange(l, li, r, ri) answers true, whatever calls came before, unless l is a trap, or r is not stored, extends the distinguishing prefix of a smaller stored key whose real suffix is not zero, and ends inside that suffix (only with more than 8 real suffix bits), or the only distinct key starts with byte 0xFF. Each exception is a false negative for some keys. A bound q is called a trap if (1) q is empty (with assertions on) or ends in the dense levels, is not stored, and the next stored key extends it and shares its first getSparseStartLevel bytes with another; (2) q leaves the trie, in the sparse levels, right after a prefix that is itself a stored key, and fewer than two different larger bytes follow that prefix; (3) q leaves the trie at its very last node, which has at least three branches (keys of more than 64 bytes in all); or (4) q is not stored, extends the distinguishing prefix of a larger stored key that ends inside its own real suffix, and goes on there with bits that are not all zero (only with more than 8 real suffix bits).", "quantifier": "every key list, every pair of bounds, all four inclusivity settings, every suffix configuration", "why_tests_cant": "Tests use adjacent stored words or consecutive integers as bounds; a wrong skip needs a bound that falls between siblings in a node of a particular size or alignment.", "anchors": ["include/surf.hpp: SuRF::lookupRange", "include/louds_sparse.hpp: LoudsSparse::moveToKeyGreaterThan, moveToLeftInNextSubtrie", "include/label_vector.hpp: searchGreaterThan"]}
{"id": "C05", "title": "Range lookups between stored keys are always positive", "statement": "For stored keys l <= r, lookupRange(l, true, r, ri) answers true for both values of ri, also when l = r, whatever calls came before (dense levels enabled; not for a lone key starting with byte 0xFF).", "quantifier": "every key list and every pair of stored keys l <= r", "why_tests_cant": "Quantifies over all pairs of stored keys of all key sets.", "anchors": ["include/surf.hpp: SuRF::lookupRange", "include/suffix.hpp: BitvectorSuffix::compare"]}
{"id": "C06", "title": "Forward iteration enumerates the stored keys in order", "statement": "With dense levels, starting from moveToFirst and applying ++ until the iterator is invalid visits every distinct stored key exactly once, in lexicographic order, and getKey returns at each step the distinguishing prefix of that key, unless the only distinct key starts with byte 0xFF. Without dense levels nothing is visited.", "quantifier": "every key list, every number of steps", "why_tests_cant": "The traversal length and trie shape are unbounded; tests traverse two fixed key sets.", "anchors": ["include/surf.hpp: SuRF::moveToFirst, SuRF::Iter::operator++, getKey", "include/louds_dense.hpp: LoudsDense::Iter", "include/louds_sparse.hpp: LoudsSparse::Iter"]}
{"id": "C07", "title": "Backward iteration enumerates the stored keys in reverse order", "statement": "With dense levels, starting from moveToLast and applying -- until the iterator is invalid visits every distinct stored key exactly once, in descending order, if no key starts with byte 0. If some but not all keys start with byte 0, exactly those are left out; if all do, only the one-byte key \"\\0\" is left out, and only when the dense part has more than one level. (The lone key starting with 0xFF is excepted.)", "quantifier": "every key list, every number of steps", "why_tests_cant": "Same as forward iteration; the boundary cases (first byte zero, keys that are prefixes of others at the dense/sparse boundary) are not in the test data.", "anchors": ["include/surf.hpp: SuRF::moveToLast, SuRF::Iter::operator--", "include/louds_dense.hpp: getPrevPos, LoudsDense::Iter::operator--"]}
{"id": "C08", "title": "moveToKeyGreaterThan lands on the first key not below the bound", "statement": "If q is not a trap (see C04), moveToKeyGreaterThan(q, inclusive) returns an iterator that no later ++, -- or read can tell from one standing at the following place in the sorted distinct keys: no key above q (at or above, if inclusive) comes before it; with getFpFlag off its key is above q (or q, if inclusive); with it on, q extends the distinguishing prefix of its key and the stored real suffix is not below that of q, or q is a proper prefix of its key ending in the dense levels; it is invalid only if no key is above q. Trap bounds can lead to wrong or cut keys, and the flag stays on for an exclusive seek to a stored key. A seek for a stored key with inclusive set stands at that key.", "quantifier": "every key list, every bound q, both inclusivity flags", "why_tests_cant": "All bounds, including ones that are not stored keys and end in the middle of the trie.", "anchors": ["include/surf.hpp: SuRF::moveToKeyGreaterThan", "include/louds_dense.hpp: LoudsDense::moveToKeyGreaterThan", "include/louds_sparse.hpp: LoudsSparse::moveToKeyGreaterThan"]}
{"id": "C09", "title": "moveToKeyLessThan lands on the last key not above the bound", "statement": "If q is not a trap (see C04), moveToKeyLessThan(q, inclusive), whatever inclusive is, returns the place of moveToKeyGreaterThan(q, false) if its flag is on; with the flag off it is one step back from there, and two if lookupKey(q) is true; the last key if no key is above q. So with the flag off and lookupKey(q) false it stands at the greatest stored key below q, or is invalid if there is none or -- is stuck (C07). With the flag on the key can be above q; after two steps a key below q can be missed.", "quantifier": "every key list, every bound q, both flags", "why_tests_cant": "All bounds; tests only use stored words of one list with mixed suffixes.", "anchors": ["include/surf.hpp: SuRF::moveToKeyLessThan"]}
{"id": "C10", "title": "Increment and decrement are inverse", "statement": "From either end, any sequence of ++ and -- leads to the key (or off the end) that stepping through the sorted distinct keys leads to. On every iterator obtained by moveToFirst, moveToLast, seeks that are not traps (1) to (3) of C04 and steps, ++ followed by -- gives an iterator no later call can tell from the original, and so does -- followed by ++, except that -- does not find the way back to a key starting with byte 0 from one that does not, nor to \"\\0\" if all keys start with byte 0 and the dense part has several levels.", "quantifier": "every key list and every valid iterator reached by first, last, seeks and steps", "why_tests_cant": "Reachable iterator states are unbounded and carry stale fields from earlier moves.", "anchors": ["include/surf.hpp: SuRF::Iter::operator++, operator--, passToSparse"]}
{"id": "C11", "title": "Iterator compare agrees with string order", "statement": "For a valid iterator on stored key k, obtained by moveToFirst, moveToLast or a seek to a bound that is not a trap (1) to (3) of C04 and any ++ and --, compare(q) is never 0; it is negative only if k < q, or k is a proper prefix of another stored key and shorter than q, or q follows k, which ends inside its own real suffix; positive other than 2018 only if k > q or q ends inside the real suffix of k; and 2018 only if q follows the distinguishing prefix of k or q < k.", "quantifier": "every key list, every valid iterator, every string q", "why_tests_cant": "All strings q of any length, including ones shorter or longer than the stored prefix by any amount.", "anchors": ["include/surf.hpp: SuRF::Iter::compare", "include/louds_dense.hpp: LoudsDense::Iter::compare", "include/louds_sparse.hpp: LoudsSparse::Iter::compare"]}
{"id": "C12", "title": "getSuffix and getKeyWithSuffix return the stored key's real bytes", "statement": "On a valid iterator on key k of a filter with real or mixed suffixes of up to 63 real bits, getSuffix returns the first real_suffix_len bits of k after its distinguishing prefix (0 if k is too short), and getKeyWithSuffix returns the distinguishing prefix extended with those bits, padded to a byte (nothing is added if they are all zero). With 64 bits getSuffix returns 0 and getKeyWithSuffix adds nothing.", "quantifier": "every key list, every valid iterator reached by first, last, seeks and steps, every real suffix length from 1 to 64", "why_tests_cant": "64 lengths times all word alignments times all key sets; tests use six lengths up to 26.", "anchors": ["include/louds_dense.hpp: getSuffix, getKeyWithSuffix", "include/louds_sparse.hpp: getSuffix, getKeyWithSuffix", "include/suffix.hpp: extractRealSuffix, read"]}
{"id": "C13", "title": "Serialization round trip preserves the filter", "statement": "Reading back what serialize wrote gives a filter that finds every stored key (not for a lone key starting with byte 0xFF) and has the same getHeight, getSparseStartLevel, serializedSize and getMemoryUsage; serializing it again into the same memory gives the same bytes. If the memory behind its label array reads as zero, every sequence of lookups, range lookups, seeks, steps, comparisons and reads of keys runs without fault on both filters and gets the same answers; with approxCount included, or without dense levels, a sequence that runs without fault on the restored filter gets the same answers from the original. If that memory is not zero, lookups of keys that were not stored can change their answer, because the restored label array lacks the zeroed spare room of the original.", "quantifier": "every filter built by create or restored before, every address of the two buffers, every sequence of calls on any number of iterators", "why_tests_cant": "Every size of every vector changes the layout; tests round-trip one word list.", "anchors": ["include/surf.hpp: serialize, deSerialize", "include/rank.hpp, include/select.hpp, include/suffix.hpp, include/label_vector.hpp: serialize, deSerialize"]}
{"id": "C14", "title": "serializedSize is exact", "statement": "Into 8-byte aligned memory of serializedSize() bytes, serialize writes without leaving it and ends exactly at its end; deSerialize of those bytes at any aligned address consumes exactly serializedSize() bytes and never reads beyond. Into memory that is not 8-byte aligned serialize can write past the end.", "quantifier": "every filter built by create or restored, every aligned address", "why_tests_cant": "Depends on all vector lengths modulo 8 and 64; a mismatch is a heap overflow at some size.", "anchors": ["include/surf.hpp: serializedSize, serialize", "include/config.hpp: align, sizeAlign"]}
{"id": "C15", "title": "A serialized filter can be read back from any address", "statement": "deSerialize gives the same filter whatever the 8-byte aligned address of the buffer that holds the serialized bytes and whatever follows them. At addresses that are not 8-byte aligned it fails or reads past the end, for some filters at every such address.", "quantifier": "every filter, every aligned buffer address; misaligned addresses as counterexamples", "why_tests_cant": "Tests always use buffers straight from new char[].", "anchors": ["include/config.hpp: align", "include/surf.hpp: deSerialize"]}
{"id": "C16", "title": "rank counts the ones up to and including a position", "statement": "For every bit vector assembled from per-level vectors and every position inside it, rank(pos) is the number of 1 bits at positions 0..pos.", "quantifier": "every list of per-level bit vectors, every position", "why_tests_cant": "Word and block boundaries at every length; tests use a fixed vector built from a word list.", "anchors": ["include/rank.hpp: BitvectorRank::rank, initRankLut", "include/popcount.h: popcountLinear"]}
{"id": "C17", "title": "select finds the position of the r-th one", "statement": "For every bit vector whose first bit is 1, every sampling interval and every r between 1 and the number of ones, select(r) is the position of the r-th 1 bit. If the first bit is 0, select(1) answers 0.", "quantifier": "every list of per-level bit vectors starting with 1, every r", "why_tests_cant": "The sampling table, the in-word search and the word crossings have data-dependent paths.", "anchors": ["include/select.hpp: BitvectorSelect::select, initSelectLut", "include/popcount.h: select64_popcount_search"]}
{"id": "C18", "title": "Next and previous set bit", "statement": "distanceToNextSetBit(pos) is the distance from pos to the next 1 bit; if there is none it is the distance to the end of the vector, rounded up to a whole word when the search leaves the word of pos + 1. distanceToPrevSetBit(pos) is the distance to the previous 1 bit, and pos + 1 if there is none (0 at position 0).", "quantifier": "every bit vector, every position", "why_tests_cant": "The end-of-vector and word-boundary cases depend on the length modulo 64.", "anchors": ["include/bitvector.hpp: distanceToNextSetBit, distanceToPrevSetBit"]}
{"id": "C19", "title": "Concatenating per-level vectors preserves every bit", "statement": "The bit vector built from per-level vectors is their bit-for-bit concatenation, restricted to the selected levels and to each level's declared length, provided the unused tail bits of each level are zero; stray tail bits corrupt the next level.", "quantifier": "every list of per-level vectors and lengths, every start and end level", "why_tests_cant": "Every combination of lengths modulo 64.", "anchors": ["include/bitvector.hpp: concatenateBitvectors, totalNumBits"]}
{"id": "C20", "title": "Label search finds a label exactly when the node has it", "statement": "search(c, pos, len) over a node's sorted labels succeeds exactly if c is one of them (skipping the terminator) and then sets pos to its index; the linear, binary and SIMD variants agree; searchGreaterThan finds the first label greater than c. From 63 labels on no byte outside the label array is read; below that the SIMD variant can read past it.", "quantifier": "every label array, every node size from 1 to 257, every target byte", "why_tests_cant": "Three algorithms chosen by length, with 16-lane leftovers; the tests use a few lengths.", "anchors": ["include/label_vector.hpp: search, linearSearch, binarySearch, simdSearch, searchGreaterThan"]}
{"id": "C21", "title": "Stored suffixes read back unchanged", "statement": "The suffix word recorded for the i-th leaf while building is the word read back at index i after the per-level vectors are concatenated, for every suffix length from 1 to 64 and every order of stores over the levels. Reading a suffix that straddles two words shifts by more than 63, so this holds on machines that take the count modulo 64.", "quantifier": "every number of suffixes per level, every length, every index", "why_tests_cant": "Suffixes straddle words at data-dependent offsets.", "anchors": ["include/surf_builder.hpp: storeSuffix", "include/suffix.hpp: read"]}
{"id": "C22", "title": "Duplicate keys do not change the filter", "statement": "Building from a sorted list with repeated keys gives exactly the same filter as building from the list with duplicates removed.", "quantifier": "every sorted key list", "why_tests_cant": "All placements and multiplicities of duplicates.", "anchors": ["include/surf_builder.hpp: buildSparse, isSameKey"]}
{"id": "C23", "title": "The builder emits the level-order encoding of the key trie", "statement": "After building, level l of the trie vectors holds, in key order, one label for every distinct (l+1)-symbol prefix that is needed to tell the keys apart (the end of a key counts as a symbol, written as the terminator label), with the child bit set exactly if two or more keys share that prefix and the start-of-node bit set exactly on the first label of each node; there are no such prefixes below the last level. The dense bitmaps hold the same labels and child bits, 256 per node, and a prefix bit exactly for nodes with a terminator, unless the only distinct key starts with byte 0xFF.", "quantifier": "every sorted key list", "why_tests_cant": "The whole state of the incremental single-scan construction for unbounded inputs.", "anchors": ["include/surf_builder.hpp: skipCommonPrefix, insertKeyBytesToTrieUntilUnique, insertKeyByte"]}
{"id": "C24", "title": "lookupRange does not depend on earlier calls", "statement": "The answer of lookupRange is the one a filter fresh from construction gives, whatever lookupRange and approxCount calls came before on the same object, and for every filter object.", "quantifier": "every history of calls on one filter object", "why_tests_cant": "Histories are unbounded and the member iterator is only partly reset between calls.", "anchors": ["include/surf.hpp: SuRF::lookupRange, SuRF::Iter::clear"]}
{"id": "C25", "title": "Concurrent use of one filter", "statement": "Any number of threads may look keys up, seek, and step, compare and read iterators of their own at the same time, and one of them may also call lookupRange and approxCount: under every interleaving of their steps each thread gets the answers it would get alone. Two threads must not call lookupRange (or approxCount on keys) at the same time: they share the member iter_, and then a lookup of a range that holds a stored key can return false or fail an assertion.", "quantifier": "every filter, every number of threads, every program of each thread, every interleaving", "why_tests_cant": "Interleavings cannot be enumerated by tests; bench/workload_multi_thread.cpp runs exactly this workload.", "anchors": ["include/surf.hpp: SuRF::lookupKey, SuRF::lookupRange, iter_", "bench/workload_multi_thread.cpp"]}
{"id": "C26", "title": "What approxCount counts", "statement": "If l is stored, r is not below l and not a trap (C04), no key has a byte 0 or 255 inside its distinguishing prefix in the dense levels, and either a key from r on (or the last key) reaches the last dense level or no stored key ends there as a prefix of another: whatever approxCount(l, r) returns is at most the number of stored keys in [l, r] and at least that number minus 2, and if r is stored too it is exactly the number of stored keys strictly between l and r. More exactly, for a stored l and any r, below l or not, that is no trap (1) to (3) of C04, approxCount(l, r) is the number of stored keys strictly between l and the key to which moveToKeyGreaterThan(r, true) leads by C54 (the last key if it goes past all), 0 if that key is below l. It is 0 if one of the iterators is at the end, and if l is no trap, behind all keys and extends no distinguishing prefix. The same holds for approxCount on two iterators if the left one comes from a seek for a stored key, wherever the right one comes from. It returns without fault if no key goes deeper than the dense levels, or if some key after r goes deeper than all keys from l up to it. If the memory behind the arrays is zero, it never returns from a stored key with the longest distinguishing prefix of all to any later stored key that reaches the sparse levels, also for two iterators there, wherever they come from. Not true without these conditions, each with a witness: l not stored (an answer of 2^32 + 2 for 8 keys), a left iterator from moveToFirst or ++ (2^32 between the first and third of 8 keys), no dense levels or nothing deeper behind r (access out of bounds), a prefix key in the last dense level (an answer of 2^32 - 1 for neighbours), bytes 0 and 255 in the dense levels (off by one).", "quantifier": "every key list, every configuration with dense levels, every stored l, every r", "why_tests_cant": "All pairs of positions in all tries.", "anchors": ["include/surf.hpp: SuRF::approxCount", "include/louds_dense.hpp: approxCount", "include/louds_sparse.hpp: approxCount"]}
{"id": "C27", "title": "Integer keys sort as integers and round-trip", "statement": "uint64ToString maps 64-bit integers to 8-byte strings whose lexicographic order is the integer order; stringToUint64 inverts it, and every 8-byte string is the image of one integer. Of a longer string stringToUint64 reads the first eight bytes, highest first, of one with seven bytes also its end, as 0; strings under seven bytes are read past their end.", "quantifier": "every pair of 64-bit integers", "why_tests_cant": "2^64 values; the unit test tries a million.", "anchors": ["include/config.hpp: uint64ToString, stringToUint64"]}
{"id": "C28", "title": "Memory safety of queries", "statement": "Every sequence of lookups, range lookups, seeks, steps in both directions, comparisons and reads of keys and suffixes, on any number of iterators, runs to its end on a filter that create built: no failed assertion, no index outside a vector, no use of a node or suffix that does not exist, no read further than one word behind a bit array or 80 bytes behind the label array. The same holds for a restored filter if the memory behind its label array reads as zero, and without assertions a lookup never faults even if it does not. Exceptions, each with a witness: a lone key starting with byte 0xFF; seeks to the empty key with assertions on; approxCount. Not true: that no byte outside an array is read (16-byte loads of labels), nor that no word is shifted by 64 (every build without suffixes, lookups with long suffixes).", "quantifier": "every key list whose distinguishing prefixes have at most 524,286 bytes together, every flag setting that create supports, every sequence of calls", "why_tests_cant": "A stray access needs a particular length modulo 64 or label count and usually does not change the answer a test sees.", "anchors": ["include/bitvector.hpp", "include/label_vector.hpp: simdSearch", "include/suffix.hpp: read", "include/surf_builder.hpp: storeSuffix"]}
{"id": "C29", "title": "Construction succeeds and every operation terminates", "statement": "create terminates without fault on every non-empty sorted list of non-empty keys whose distinguishing prefixes have at most 524,286 bytes together (repeated keys counted once, however long the keys are), with every suffix setting, dense part included and ratio at least 1; every sequence of later calls other than approxCount terminates, on key lists other than a lone key starting with byte 0xFF. Up to 8,388,607 bytes, create succeeds exactly if n <= (n+1)*((n+1)/64+1) mod 2^32 for the number n of labels below the cut-off: beyond that the label array is too small and is written past its end, for example with two keys that share a prefix of 741,618 bytes. Suffixes without the dense part, and ratio 0, make create read outside a vector.", "quantifier": "every key list, every flag combination, every sequence of calls", "why_tests_cant": "Termination and absence of faults over unbounded inputs.", "anchors": ["include/surf.hpp: SuRF::create", "include/louds_dense.hpp: LoudsDense::LoudsDense", "include/bitvector.hpp: Bitvector::Bitvector"]}
{"id": "C30", "title": "Trie height and cut-off level", "statement": "getHeight is one more than the length of the longest distinguishing prefix; with dense levels enabled getSparseStartLevel is at least 1 and below getHeight, and it is the first level at which the computed size of the dense levels times the ratio reaches the size of the remaining sparse levels, where a dense level counts 512 bytes for each of its nodes, 1 more than an eighth of the nodes of the level above (if there is one) and its leaves times the suffix length over 8, a sparse level 1 more than its labels and a quarter of them and its leaves times the suffix length over 8, all rounded down, for up to 8388607 distinguishing bytes (so the dense levels exceed the configured fraction by their last level). Without dense levels it is 0.", "quantifier": "every key list, every ratio", "why_tests_cant": "The cut-off loop depends on all level sizes.", "anchors": ["include/surf_builder.hpp: determineCutoffLevel, computeDenseMem, computeSparseMem", "include/surf.hpp: getHeight, getSparseStartLevel"]}
{"id": "C31", "title": "Hash suffixes reject strings with a different hash", "statement": "With hash suffixes lookupKey(q) is true exactly if q extends the distinguishing prefix of a stored key k and the selected bits of the hash of q equal those of k. For a suffix of n bits the selected bits are bits 7 to n+6 of the hash if n is at most 57; from 58 on the shift count turns negative (undefined in C++), and on x86 only the lowest n-57 bits are compared, so that a 58-bit suffix tells strings apart worse than a 57-bit one, with a witness. The hash has 32 bits, so all filters with hash suffixes of 25 to 57 bits give the same answers.", "quantifier": "every key list, every query, every hash length from 1 to 64", "why_tests_cant": "All queries; all word alignments of the stored hash bits.", "anchors": ["include/suffix.hpp: constructHashSuffix, checkEquality", "include/hash.hpp: Hash"]}
{"id": "C32", "title": "Real suffixes reject strings with different next bits", "statement": "With real suffixes lookupKey(q) is true exactly if q extends the distinguishing prefix of a stored key k and either k's stored bits are zero or q continues with the same real_suffix_len bits as k.", "quantifier": "every key list, every query, every real length from 1 to 64", "why_tests_cant": "All queries and alignments.", "anchors": ["include/suffix.hpp: constructRealSuffix, checkEquality"]}
{"id": "C33", "title": "What the memory report covers", "statement": "getMemoryUsage is the total size of the arrays the filter holds, plus sizeof(SuRF) and 296 bytes for the objects, minus the two level_cuts_ arrays (4 bytes per dense level and 4 per level) and minus the spare room behind the labels, which is n*(n/64) bytes for n label bytes in a built filter and nothing in a restored one. So for large built filters it reports far less than is allocated.", "quantifier": "every filter", "why_tests_cant": "Depends on every vector's size.", "anchors": ["include/surf.hpp: getMemoryUsage", "include/louds_sparse.hpp: getMemoryUsage", "include/louds_dense.hpp: getMemoryUsage"]}
{"id": "C34", "title": "destroy releases every array", "statement": "destroy() releases every array allocated by create or deSerialize for the filter exactly once and no array of anything else, except level_cuts_ of the dense part, 4 bytes per dense level, which it never releases.", "quantifier": "every filter, every heap", "why_tests_cant": "Leaks do not change answers; tests do not observe them.", "anchors": ["include/surf.hpp: destroy", "include/louds_dense.hpp: destroy", "include/louds_sparse.hpp: destroy"]}
{"id": "C35", "title": "Population count and in-word select helpers agree with their definition", "statement": "suxpopcount(x) is the number of 1 bits of x; select64_naive, select64_popcount_search and select64 return the index (from the most significant bit) of the k-th 1 bit of x; popcountLinear, select512 and selectLinear do the same over word arrays. select64_naive and select512 return -1, and selectLinear from word 0 its value for none, if there are fewer ones than asked for. selectLinear started past word 0 reads outside the array if too few ones are left.", "quantifier": "every 64-bit word and every k from 1 to its number of ones", "why_tests_cant": "2^64 words.", "anchors": ["include/popcount.h: suxpopcount, select64_naive, select64_popcount_search, select64, select512, selectLinear"]}
{"id": "C36", "title": "The baseline Bloom filter has no false negatives", "statement": "KeyMayMatch(key, filter) is true for every key the filter was created from, whatever the hash function returns, where filter is the part CreateFilter appended to its destination; it is true exactly for the keys all of whose probe positions are probe positions of stored keys. Passing the whole destination when it was not empty before loses keys. The hash in use, MurmurHash3_x86_128, reads inside its input for every length and returns four 32-bit values, so the benchmark's FilterBloom answers every lookup, true for every key it was built from and otherwise exactly if its 6 probes all hit; it takes 10 bits per key, at least 64, in whole bytes, and one byte more. Integers are hashed as their 8 bytes, low byte first.", "quantifier": "every key list, every bits-per-key setting, every hash function", "why_tests_cant": "All key sets and hash values.", "anchors": ["bench/bloom.hpp: BloomFilter::CreateFilter, KeyMayMatch"]}
{"id": "C37", "title": "A positive range answer has a cause", "statement": "If lookupRange(l, li, r, ri) answers true and l is not a trap (C04), there is a stored key k, with no stored key strictly between l and k, such that l < k or l extends the distinguishing prefix of k, and k < r, or r extends that prefix, or k is a proper prefix of another stored key and shorter than r, or r is a prefix of k and the distinguishing prefix of k is at least 2018 bytes longer. The last case happens: a length difference of 2018 is read as the code for \"could be positive\".", "quantifier": "every key list, every configuration, every pair of bounds, every history of calls", "why_tests_cant": "All intervals without a stored key, for all key sets; the accidental answers need a length difference of 2018.", "anchors": ["include/surf.hpp: SuRF::lookupRange, SuRF::Iter::compare", "include/louds_sparse.hpp: LoudsSparse::Iter::compare", "include/config.hpp: kCouldBePositive"]}
{"id": "C38", "title": "Integer and fixed-length keys", "statement": "Build a filter from 64-bit integers encoded by uint64ToString. lookupKey answers true for each of them, and lookupRange(a, true, b, true) answers true whenever one of them lies in [a, b], whatever calls came before, unless a leaves the trie at its very last node (trap (3) of C04) or the only distinct integer has top byte 255; both exceptions are real: with the integers 2, 4, ..., 200, lookupRange(199, true, 200, true) answers false. More generally, for keys and bounds of one length the other traps of C04, the exception for the right bound and the prefix condition of C26 never occur, so range lookups, seeks and counts between stored keys are right under the remaining conditions.", "quantifier": "every list of 64-bit integers (or of keys of one length), every configuration, every pair of bounds of that length, every history of calls", "why_tests_cant": "Integer workloads are the usual test, with random values; the one remaining exception needs a bound that leaves the trie at its very last node.", "anchors": ["include/config.hpp:49-58", "include/surf.hpp:223-249", "include/louds_sparse.hpp:251-300", "include/label_vector.hpp:122-180"]}
{"id": "C39", "title": "The point benchmark reports what it claims to measure", "statement": "workload with query type point: the inserted keys are the first (number of keys) * percent / 100 of the shuffled load file, sorted. If at least one key is inserted (or the filter is Bloom), the keys are not empty, within the size of C29 and not a lone key starting with 0xFF, and SuRFMixed has suffix length at most 32, the program ends with a report in which true positives is the number of queries that were inserted, positives the number of queries the filter accepts, false positives the number of accepted queries that were not inserted, true negatives the number of rejected queries; and the filter accepts every inserted key. Each exception makes the program fail an assertion, with a witness: a lone 0xFF key, SuRFMixed with length 40, and 0 percent, which the argument check accepts.", "quantifier": "every filter type, suffix length, percentage, key files and shuffle", "why_tests_cant": "The benchmark needs gigabytes of workload files and its numbers are never compared with an independent count; a wrong tally looks like a plausible false positive rate.", "anchors": ["bench/workload.cpp:96-237", "bench/bench.hpp:88-99", "bench/filter_factory.hpp:12-27", "bench/filter_surf.hpp:14-42", "bench/filter_bloom.hpp:13-39"]}
{"id": "C40", "title": "The range benchmark and its assertion on false positives", "statement": "workload with query type range or mix asks for the range from the query to an upper end: the last byte plus 128 modulo 256 for email keys, the integer plus 92233697311 modulo 2^64 otherwise. Under the conditions of C39, a run with well-formed queries ends with a report, or fails the assertion that false positives are not negative; it fails exactly if asserts are on and the filter accepts fewer queries than have an inserted key from the query up to but not including the upper end. If every such query avoids the exceptions of C04 (for integers: the query does not leave the trie at its last node), the filter accepts all of them and the report counts true positives, positives, false positives and true negatives correctly. Both exceptions occur, with witnesses: keys 2, 4, ..., 200 with query 199 under SuRFReal, and every Bloom filter, which answers no range query. The upper end of an email query can lie below the query, so that even a stored query has no key in its range.", "quantifier": "every filter type, suffix length, percentage, key files, shuffle, and query type range or mix", "why_tests_cant": "The assertion fires only for particular queries against particular key sets; random 64-bit workloads rarely have one.", "anchors": ["bench/workload.cpp:122-237", "bench/bench.hpp:125-135", "bench/filter_surf.hpp:31-34", "bench/filter_bloom.hpp:27-30"]}
{"id": "C41", "title": "Arguments and counting of the benchmark", "statement": "workload returns -1 without a report exactly if the filter type, key type, query type or distribution is not one of its names, the suffix length is 0 or above 64, the percentage is above 100, or the workload type is alterByte; so the documented alterByte is rejected and every other string accepted as workload type. The workload type and byte position have no influence on an accepted run. ARF builds the same filter as SuRFReal. With count-long (count-short) the count printed is not a number of keys but the number of intervals between consecutive queries (from each query to its upper end) whose approximate count is not 0, and all queries are reported as true negatives. Count runs can read outside an array, with a witness. The function behind alterByte, which no run calls, sets the byte at the given position from the end, or the first byte of a key that is too short, to \"+\".", "quantifier": "every argument list, key files and shuffle", "why_tests_cant": "Argument checks and the unit of a count are not compared with anything in the test suite.", "anchors": ["bench/workload.cpp:27-75", "bench/workload.cpp:99-114", "bench/workload.cpp:153-165", "bench/filter_surf.hpp:36-38", "bench/filter_factory.hpp:12-27"]}
{"id": "C42", "title": "What the benchmark reads from a key file", "statement": "loadKeysFromFile for strings gives the words of the file separated by white space, in order, and once more the last word (or one empty key, if there is none) if the file does not end with a word, cut off at 25,000,000. For integers it gives their 8-byte encodings, and one more key that is whatever an uninitialised variable held if the file does not end with a number, cut off at 100,000,000; numbers may have a sign (a minus negates modulo 2^64); reading stops at anything that is no number, which gives the key 0, and at a number of 2^64 or more, which gives 2^64-1, so that the keys of every file are described. A missing file gives no keys. workload is its main part on these lists: with point queries its true positives and positives count the words or numbers read. Witnesses: a query counted twice, an empty load file that fails an assertion, a key that depends on uninitialised memory.", "quantifier": "every file contents, every value of an uninitialised variable, every argument list", "why_tests_cant": "The loader is never tested, and one wrong key among millions does not show in a rate.", "anchors": ["bench/bench.hpp:54-74", "bench/workload.cpp:78-97"]}
{"id": "C43", "title": "The benchmark with several threads", "statement": "workload_multi_thread returns -1 exactly for the arguments workload rejects, SuRFMixed, and query types other than point and range. With t threads and n queries it executes the first (n / t) * t of them. For inserted keys as in C39: for point queries, whatever the schedule: positives is the number of executed queries the filter accepts, true positives the number of all queries that were inserted; the assertion that positives are not fewer fails, with asserts on, exactly if they are fewer, and never if t divides n; otherwise there is a report. With one thread, or a Bloom filter, the same holds for range queries, with true positives the queries that have an inserted key above the query and below the upper end, and the assertion does not fail with one thread if these queries avoid the exceptions of C40. Reported as true negatives are all queries that are no true positives. Witnesses: three stored queries in two threads fail the assertion, 0 threads divide by zero, a correctly accepted range is reported as a false positive, positives and true negatives do not add up to the number of queries, and two threads with range queries report different numbers under different schedules or fail an assertion.", "quantifier": "every filter type, number of threads from 1, key files, shuffle, and every schedule that gives each thread enough steps", "why_tests_cant": "The program is not run by the tests, and its assertion depends on the remainder of a division and on the schedule.", "anchors": ["bench/workload_multi_thread.cpp:19-45", "bench/workload_multi_thread.cpp:72-116", "bench/workload_multi_thread.cpp:144-254"]}
{"id": "C44", "title": "What the example program prints", "statement": "simple_example prints the same eleven lines with assertions on or off and whatever a read just past an array yields: \"fase\" is found in the basic filter and not in the other three; a key in [fare, fase) is reported by the basic and the hash filter and not by the other two. With any other keys (not empty, within the size of C29, not a lone key starting with 0xFF) it would end after eleven lines, would say of a stored \"fase\" four times that it is found, and of the range four times that it holds a key if both its ends are stored. With the keys far, fara, farb, farc, farf it would print \"Correct: No key exists within range [fare, fase)\" four times although farf is stored. The program shifts a 64-bit word by 64, which C++ leaves undefined.", "quantifier": "every value of stray reads, assertions on or off; for the second part every key list", "why_tests_cant": "The example is never compared with anything, and its words \"Correct\" and \"False Positive\" depend on the keys and on reads past the label array.", "anchors": ["simple_example.cpp:8-94", "include/surf.hpp:59-73"]}
{"id": "C45", "title": "Filters without dense levels", "statement": "With include_dense = false and any suffix type other than none, construction never succeeds. Without suffix it succeeds, for keys within 8,388,607 bytes in distinguishing prefixes, exactly if the label array computed in 32 bits can hold the labels of all levels. For such a filter with at least two different keys: moveToFirst and moveToLast give an iterator that is not valid. moveToKeyGreaterThan, for a key that is no exception of C04, leads to the place C08 describes, from which any steps that stay on the keys lead to the right keys and views; if there is no place, and on the first step off either end, it is a fault (a failed assertion, or an access to element -1 of an empty array). moveToKeyLessThan leads to the second key below the next larger one, or to a fault if there are not two; so it misses the largest smaller key, with a witness. lookupRange after any earlier calls finds a stored key in the interval, an answer true has a cause, and it answers or is that fault, which it always is if all keys are clearly below the interval. approxCount never succeeds. The same holds after serializing and restoring the filter any number of times (C13 to C15, C33, C34 and C56 cover these filters too), and every lookup is answered true.", "quantifier": "every key list, query and history of earlier queries, with include_dense = false", "why_tests_cant": "No test builds a SuRF object without dense levels; the constructor accepts the argument.", "anchors": ["include/surf.hpp:130-274", "include/surf.hpp:304-410", "include/louds_dense.hpp:116-144", "include/surf_builder.hpp:170-190"]}
{"id": "C46", "title": "LoudsSparse alone over all levels", "statement": "A LoudsSparse made from a SuRFBuilder with include_dense = false, the way its unit tests do it, works with every suffix type, although a SuRF with these settings does not (C45). It can be built (what follows holds as well for one that was serialized and deserialized since, C51), for keys within 8,388,607 bytes in distinguishing prefixes, exactly if the label array computed in 32 bits can hold the labels of all levels. With at least two different keys: lookupKey(k, 0) is true for every stored key; for a string that extends the distinguishing prefix of a stored key it is true exactly if the stored suffix admits it; for any other string it is false, except without suffixes for a string with a zero byte (a new one with keys within the size of C29, or zeros in memory behind the labels). moveToKeyGreaterThan, for a key that is no trap of C04, leads to the place C08 describes, and setToFirstLabelInRoot with moveToLeftMostKey (setToLastLabelInRoot with moveToRightMostKey) to the first (last) key; from there any steps lead to the right keys, with the right getKey, getSuffix and getKeyWithSuffix, and compare is sound there (C11); a step off either end, or a seek without a place, leaves an iterator that is not valid. Witnesses: a single key starting with 0xFF makes the empty string found, a string with a zero byte is found, a trap misses a stored key.", "quantifier": "every key list with at least two different keys, every suffix type and length, every query, every sequence of steps", "why_tests_cant": "Its unit tests use two word lists and one suffix length per type; traps and wrap-around need particular keys or half a million labels.", "anchors": ["include/louds_sparse.hpp:179-294", "include/louds_sparse.hpp:421-683", "include/surf_builder.hpp:180-196", "test/unitTest/test_louds_sparse.cpp:66-82"]}
{"id": "C47", "title": "LoudsDense alone over all levels", "statement": "A LoudsDense made from a SuRFBuilder with sparse_dense_ratio = 0, the way its unit tests do it, can be built with every suffix type for keys within 8,388,607 bytes in distinguishing prefixes, although a SuRF with these settings cannot (C29). It has one level more than the longest distinguishing prefix has bytes. If the keys are not one single key starting with 0xFF: lookupKey is true for every stored key; for a string that extends the distinguishing prefix of a stored key it is true exactly if the stored suffix admits it; for any other string it is false; it never leaves a node to go on from. moveToKeyGreaterThan leads to the place C08 describes, except for the empty string with assertions on and for seeks that meet a key which ends inside its own suffix (C04); setToFirstLabelInRoot with moveToLeftMostKey (setToLastLabelInRoot with moveToRightMostKey) leads to the first (last) key. From there any steps lead to the right keys, with the right getKey, getSuffix and getKeyWithSuffix, and compare is sound there (C11); a step off either end, a step back where -- is stuck (C07), or a seek without a place, leaves an iterator that is not valid. Witnesses: a single key starting with 0xFF is not found, the empty string fails an assertion, a seek that meets a short key passes it, a stuck step back misses a stored key.", "quantifier": "every key list, every suffix type and length, every query, every sequence of steps", "why_tests_cant": "Its unit tests use two lists and one suffix length per type; the exceptions need particular keys.", "anchors": ["include/louds_dense.hpp:170-270", "include/louds_dense.hpp:414-660", "include/surf_builder.hpp:319-351", "test/unitTest/test_louds_dense.cpp:60-80"]}
{"id": "C48", "title": "approxCount of LoudsSparse or LoudsDense alone", "statement": "For a LoudsSparse over all levels (C46, at least two different keys) and a LoudsDense over all levels (C47, not one single key starting with 0xFF), new or serialized and deserialized since (C51): moveToKeyGreaterThan(k, true) for a stored k shows k. For iterators a and b that show stored keys, b the same key or a later one, and that were got by a seek (no trap (1) to (3) of C04), from either end, or by steps from there: LoudsSparse approxCount(a, b, 0, 0) is exactly the number of stored keys strictly between, if it does not fault, and it does not fault if a key after the right one goes deeper than the keys from the left one on up to some key from the right one on; if the memory behind the arrays is zero and the left key has the longest distinguishing prefix of all, it never returns for any later right one. LoudsDense approxCount does not fault, is exact, and sets both node numbers to the largest position, if no byte 0 or 255 occurs in the distinguishing prefixes and either no key with one byte less than the longest prefix is a prefix of another key, or a key from the right one on, or the last key, has the longest prefix. So, unlike in a whole filter (C26), the left iterator need not come from a seek. Witnesses: up to the last key LoudsSparse reads out of bounds (its unit tests count up to the last key); a byte 255 makes LoudsDense count a key that is not between, a byte 0 and a prefix key make it miss one.", "quantifier": "every key list, every suffix type and length, every two iterators that show keys, however they got there", "why_tests_cant": "The unit tests count on one word list and one list of integers; the exceptions need other keys, and a read past an array goes unnoticed.", "anchors": ["include/louds_sparse.hpp:296-401", "include/louds_dense.hpp:268-360", "test/unitTest/test_louds_sparse.cpp:395-445", "test/unitTest/test_louds_dense.cpp:376-430"]}
{"id": "C49", "title": "What a filter of one key starting with 0xFF answers", "statement": "A filter with dense levels built from copies of one key that starts with byte 0xFF (or restored from such a filter), which the other properties except: it has height 2 and sparse start level 1; lookupKey is false for every non-empty string, the stored key included, and for the empty string it is true exactly if the stored suffix admits it; lookupRange with a non-empty left end is false; approxCount from a non-empty left end is 0; moveToKeyGreaterThan of a non-empty string gives an iterator that is not valid; moveToLast, and moveToKeyLessThan of a non-empty string, give a valid iterator with getKey the single byte 0, which is not stored, and one step in either direction makes it invalid; moveToFirst gives, if it succeeds with a valid iterator, a getKey that starts with byte 0. Whether it succeeds depends on the word behind a bitmap, with witnesses for an answer and for an access out of bounds.", "quantifier": "every list of copies of one key that starts with byte 0xFF, every setting, every query, every contents of memory behind the arrays", "why_tests_cant": "No test builds a filter from such a key; the answer of moveToFirst depends on memory behind an array.", "anchors": ["include/surf_builder.hpp:319-351", "include/louds_dense.hpp:204-269", "include/louds_dense.hpp:516-532", "include/surf.hpp:143-274"]}
{"id": "C50", "title": "approxCount from right to left counts nothing", "statement": "If no key has a byte 0 or 255 inside its distinguishing prefix in the dense levels, and the keys are not one single key starting with 0xFF: approxCount(a, b) of two valid iterators of the filter, b at the key of a or at an earlier one, returns 0 if it returns at all, wherever the iterators come from (a seek that is no trap (1) to (3) of C04, either end, steps), in contrast to C26, where the left one has to come from a seek; it returns if no key goes deeper than the dense levels, or if some key after that of a goes deeper than all keys from that of b up to it. The same holds for approxCount(l, r) of two strings that are no traps (C04), stored or not, if a stored key k has r <= k <= l; it returns if there is such a deeper key after l, counted from some stored key not above r on. Not true without these conditions, each with a witness: nothing deeper behind (access out of bounds), r a trap (an answer of 1).", "quantifier": "every key list, every setting with dense levels, every two iterators in the wrong order however they got there, every two strings in the wrong order with a stored key between them", "why_tests_cant": "Tests call approxCount with the smaller key first; an unsigned difference that wraps would show only the other way round.", "anchors": ["include/surf.hpp:250-274", "include/louds_dense.hpp:271-363", "include/louds_sparse.hpp:296-398"]}
{"id": "C51", "title": "LoudsSparse and LoudsDense alone survive a round trip", "statement": "A LoudsSparse over all levels (C46) or a LoudsDense over all levels (C47) that was built from sorted keys, or read back any number of times since, writes exactly serializedSize() bytes into a buffer of that size at any 8-byte aligned address, without fault, and deSerialize of these bytes, at any 8-byte aligned address and whatever follows them, succeeds, uses exactly these bytes and gives an object for which C46, C47 and C48 hold (keys within the size of C29; or within 4,000,000,000 bytes in distinguishing prefixes if the memory behind arrays reads as zero). The LoudsDense read back is equal in every field. The LoudsSparse read back has the same height, start level, serializedSize and getMemoryUsage and writes the same bytes; and whatever it answers to a sequence of calls (lookupKey, iterators from either end or a seek, steps, getKey, getSuffix, getKeyWithSuffix, compare, approxCount), the first one answers the same, if memory behind its arrays reads as zero. Witness: without that, a lookup in the LoudsSparse read back can be true although it was false before, because the label array has lost the zeroed room behind the last label.", "quantifier": "every key list small enough to be written, every suffix type and length, every buffer address, every sequence of calls on the copy", "why_tests_cant": "The unit tests write one word list once, to a buffer of their own, and look up its words; alignment, sizes and what lies behind the buffer depend on the keys and on memory.", "anchors": ["include/louds_sparse.hpp:84-127", "include/louds_dense.hpp:103-131", "include/louds_sparse.hpp:400-419", "include/louds_dense.hpp:362-383", "test/unitTest/test_louds_sparse.cpp:110-122", "test/unitTest/test_louds_dense.cpp:110-122"]}
{"id": "C52", "title": "select64_broadword selects from the other end", "statement": "For every 64-bit word x and every k smaller than the number of its 1 bits, select64_broadword(x, k) returns the index, counted from the least significant bit, of the 1 bit that has exactly k 1 bits below it; that is 63 - select64(x, n - k), where n is the number of 1 bits of x. So it cannot replace select64, which counts from the most significant bit and from one (witness where the two differ). If k is at least n (and below 128), it shifts by 64, which is undefined.", "quantifier": "every 64-bit word, every k below 128", "why_tests_cant": "No test and no caller runs it; it is branch-free arithmetic on eight bytes at once, where a borrow between bytes shows for few words only.", "anchors": ["include/popcount.h:121-145", "include/popcount.h:21-41"]}
{"id": "C53", "title": "More suffix bits, fewer false positives", "statement": "Take two filters over the same keys (dense levels on, small enough for C02, not one single key starting with 0xFF). Every string that lookupKey of the filter with suffixes accepts is accepted by the filter without suffixes; every string a hash or mixed suffix with up to 57 hash bits accepts is accepted by a hash suffix with at most as many bits; every string a mixed suffix accepts is accepted by a real suffix of the same number of real bits; and every string a real suffix accepts is accepted by a shorter real suffix, if every key has all bits of the longer suffix after its distinguishing prefix. Without that condition the last is false, with a witness: a key too short for the suffix stores zero and accepts everything, so a longer real suffix can accept strings a shorter one rejects.", "quantifier": "every two filters over the same keys with different suffix settings (dense ratios may differ too), every query string", "why_tests_cant": "Tests compare a filter with its keys, never two filters with each other, and the exception needs a key that ends inside its suffix.", "anchors": ["include/suffix.hpp:34-105", "include/suffix.hpp:205-228", "include/surf_builder.hpp:254-317"]}
{"id": "C54", "title": "Exact outcome of seeks, comparisons and range queries", "statement": "For filters as in C02, where not the only key starts with 0xFF: q follows k if it agrees with k on the distinguishing prefix of k, and h is the first sparse level. moveToKeyGreaterThan(q, inclusive), q not a trap (1) to (3) of C04 (those that have nothing to do with suffixes), goes past exactly these keys k: k < q not followed by q; k followed by q with a real suffix below that of q; k = q if inclusive is off, k is a proper prefix of another key and of length at least h. It stands at the first other key, or is invalid if there is none. getFpFlag is on exactly if q follows the key there (unless the key is q, a proper prefix of another key and of length at least h), or q, shorter than h, is a prefix of it. moveToKeyLessThan(q, inclusive), whatever inclusive is, stands at the place of moveToKeyGreaterThan(q, false) if the flag is on there, otherwise one step of -- before it, or two if lookupKey(q) answers true; at the last key if that seek goes past all keys. compare(q) on key k (obtained as in C11) is -1 if k is a proper prefix of another key, shorter than q, and q starts with the first h bytes of k if k is that long. Otherwise, if q follows k, it is 2018 without real suffixes or if the real suffixes are equal, and -1 or 1 as that of k is below or above that of q; if q does not follow k it is -1 if the distinguishing prefix of k is below q and positive if it is above, being 2018 then only if the prefix is at least 2018 bytes longer than q. If no distinguishing prefix is 2018 bytes longer than r, lookupRange(l, li, r, ri) answers true exactly if the seek to l stands at a key k and compare(r) there is -1 or 2018, after every history of calls; ri has no effect.", "quantifier": "every key list, every configuration, every bound, every iterator obtained through the API, every history of calls", "why_tests_cant": "Tests only look at whether stored keys are found; which of the possible places, flags and codes comes out for other strings is never compared with anything.", "anchors": ["include/surf.hpp: SuRF::moveToKeyGreaterThan, SuRF::lookupRange, SuRF::Iter::compare", "include/louds_dense.hpp: LoudsDense::moveToKeyGreaterThan, LoudsDense::compareSuffixGreaterThan, LoudsDense::Iter::compare", "include/louds_sparse.hpp: LoudsSparse::moveToKeyGreaterThan, LoudsSparse::compareSuffixGreaterThan, LoudsSparse::Iter::compare", "include/suffix.hpp: BitvectorSuffix::compare"]}
{"id": "C55", "title": "What range answers depend on: suffixes only remove, hashes and the split do nothing", "statement": "Take two filters over the same keys (as in C54), a left end l that is a trap (1) to (3) of C04 for neither and a right end r such that no distinguishing prefix is 2018 bytes longer; let the first sparse levels be equal or no key be a proper prefix of another one. If both keep the same real suffixes or none, lookupRange gives the same answer on both, whatever the hash bits, ratios and earlier calls. If l is not above r, every range that a filter with real suffixes answers true is answered true by one without; and every range a longer real suffix answers true is answered true by a shorter one if no key and neither end stops inside the longer suffix. Without these conditions: with the key l a prefix of other keys, the answer for (l, l] depends on the ratio; with l above r, suffixes can add a positive answer; a longer suffix can find a range that a shorter one finds empty.", "quantifier": "every two filters over the same keys, every pair of ends, both flags, every history of each filter", "why_tests_cant": "Tests never compare range answers of two filters, and the exceptions need a particular place of the cut or a key that ends inside its suffix.", "anchors": ["include/surf.hpp: SuRF::lookupRange", "include/suffix.hpp: BitvectorSuffix::compare", "include/louds_dense.hpp: LoudsDense::compareSuffixGreaterThan", "include/louds_sparse.hpp: LoudsSparse::compareSuffixGreaterThan"]}
{"id": "C56", "title": "Size of a filter as a function of its keys", "statement": "Let the trie of the keys have, in its dense levels, D nodes, and in its sparse levels L labels and V nodes. serializedSize() is the sum of nine parts, each rounded up to 8 bytes: 4 bytes and 4 per dense level; two vectors of 256 D bits and one of D bits, each with 8 bytes of header and 4 bytes per started block of 512 bits (one block more if the last is full); the suffixes of the dense levels with 16 bytes of header; 16 bytes and 4 per level; 5 bytes and L labels; a vector of L bits as above; a vector of L bits with 12 bytes of header and 4 bytes per started group of 64 nodes; the suffixes of the sparse levels with 16 bytes of header. Bit vectors take whole 64-bit words. getMemoryUsage() is sizeof(SuRF) + 296 plus the same vectors, tables, labels and suffixes (and one label byte) without headers and rounding. A distinct key has one suffix, of the configured length, in one of the two parts, and V is at most L; so a serialized filter takes at most 545 1/16 bits per dense node, 10 1/16 bits per sparse label, half a bit per sparse node, the suffix length per distinct key, 32 bits per level, 32 more per dense level, and 1969 bits.", "quantifier": "every good key list, every setting a filter can be built with, filters just built or restored any number of times", "why_tests_cant": "Tests check serializedSize only against what serialize writes; none computes the size from the keys, and rounding, the spare label byte and the last table entries matter only at particular counts.", "anchors": ["include/surf.hpp:276-283", "include/louds_dense.hpp:365-383", "include/louds_sparse.hpp:400-419", "include/rank.hpp:42-55", "include/select.hpp:68-81", "include/label_vector.hpp:47-55", "include/suffix.hpp:119-128"]}
{"id": "C57", "title": "Exact outcome of seeks and comparisons of LoudsSparse and LoudsDense alone and of filters without dense levels", "statement": "For a LoudsSparse over all levels (C46, at least two different keys), moveToKeyGreaterThan(q, inclusive) stands at the place of C54 with first sparse level h = 0, with the flag of C54, and is not valid if it goes past all keys, for every q that is not a trap (1) to (3) of C04; compare on an iterator that shows key k is that of C54 with h = 0. For a LoudsDense over all levels (C47, not one single key starting with 0xFF) the same holds with h the height of the object, for every q (not empty if assertions are on): there are no traps. For a filter without dense levels and suffixes (C45, at least two different keys) the seek is that of C54 with h = 0; if it goes past all keys it fails (assertion, or read out of bounds if assertions are off). moveToKeyLessThan(q, inclusive) stands at the place of moveToKeyGreaterThan(q, false) if the flag is on there, otherwise two keys before it, as every lookup is answered true; it fails in the same way if there is no such key or that seek goes past all keys. If no distinguishing prefix is 2018 bytes longer than r, lookupRange(l, li, r, ri) on it fails in the same way if the seek to l goes past all keys, and otherwise answers true exactly if compare(r) at the key there is -1 or 2018, after every history of calls.", "quantifier": "every key list, every suffix type and length, every string, every iterator that shows a key however it got there, every history of range queries", "why_tests_cant": "The unit tests of both classes only seek stored keys and gaps between them and look at the key found; the place, flag and code for all other strings, with every suffix length, are never compared with anything.", "anchors": ["include/louds_sparse.hpp: LoudsSparse::moveToKeyGreaterThan, LoudsSparse::compareSuffixGreaterThan, LoudsSparse::Iter::compare", "include/louds_dense.hpp: LoudsDense::moveToKeyGreaterThan, LoudsDense::compareSuffixGreaterThan, LoudsDense::Iter::compare", "include/surf.hpp: SuRF::moveToKeyGreaterThan, SuRF::lookupRange"]}
{"id": "C58", "title": "The string hash is LevelDB's, and which changes hash suffixes must notice", "statement": "Hash(data, n, seed) is LevelDB's hash for every string and every seed: starting from seed xor n * 0xc6a4a793, each whole group of four bytes, read as a number with the lowest byte first, is added, the sum multiplied by 0xc6a4a793, all modulo 2^32, and its bits from 16 on xored into the low ones; one to three bytes left over are treated in the same way with 24 for 16. Two strings of one length that differ in a single group never have the same hash (two groups can make up for each other). So in a filter with hash or mixed suffixes (C02), with between 25 and 57 hash bits, lookupKey(q) is false whenever q is a stored key k with one byte of its last group (the last one to four bytes) changed, and q still agrees with k on its distinguishing prefix; if the length of k is not a multiple of four, 17 hash bits are enough. 16 are not, and for a byte in an earlier group no number of bits is, each with a witness. (Filters as in C02, where not the only key starts with 0xFF.)", "quantifier": "every string, every seed, every two strings of one length, every filter with hash or mixed suffixes of up to 57 hash bits", "why_tests_cant": "A test can try a few vectors; that no pair of strings of a kind collides is a statement about all of them.", "anchors": ["include/hash.hpp: Hash, suffixHash", "include/suffix.hpp: BitvectorSuffix::constructHashSuffix, BitvectorSuffix::checkEquality", "include/surf.hpp: SuRF::lookupKey"]}
{"id": "C59", "title": "deSerialize takes exactly the bytes it reports and rejects every proper prefix", "statement": "If deSerialize makes a filter of some bytes, whoever wrote them, and moves the pointer on by n, then n of them were there, on the first j < n of them alone it reads past the end, and whatever follows the first n does not change the filter or n. So no proper prefix of what serialize wrote is taken for a filter: reading one runs past its end. On arbitrary bytes nothing can go wrong in deSerialize but reading past the end, or a number that is no suffix type or a block size or sampling interval of 0 (by which it divides). It does not notice other damage: one changed label byte makes it another filter (witness).", "quantifier": "every sequence of bytes at an 8-byte aligned address, every length it is cut to, every continuation; every filter that can be written", "why_tests_cant": "The tests deserialize intact buffers of full length only; that no cut-off buffer and no sequence of bytes whatever goes wrong in another way is a statement about all of them.", "anchors": ["include/surf.hpp: SuRF::deSerialize", "include/louds_dense.hpp: LoudsDense::deSerialize", "include/louds_sparse.hpp: LoudsSparse::deSerialize", "include/suffix.hpp: BitvectorSuffix::deSerialize", "include/rank.hpp: BitvectorRank::deSerialize", "include/select.hpp: BitvectorSelect::deSerialize", "include/label_vector.hpp: LabelVector::deSerialize"]}
{"id": "C60", "title": "Range, point and seek answers of one filter fit together", "statement": "For filters as in C54, left ends that are no traps (1) to (3) of C04 and right ends such that no distinguishing prefix is 2018 bytes longer. (Split) If l <= r and lookupRange(l, li, r, ri) is true, then for every m lookupRange(l, li, m, mi) or lookupRange(m, true, r, ri) is true, provided neither l nor r stops inside the real suffix of a key it follows, or no key above r that is shorter than r is a proper prefix of another key. (Larger) If l' <= l <= r <= r' (with l' = l and l included, also l' included) and lookupRange(l, li, r, ri) is true, so is lookupRange(l', li', r', ri'), provided none of the four stops inside the real suffix of a key it follows and no key above r' that is shorter than r is a proper prefix of another key. (Point) If lookupKey(q) is true (on a filter as in C02, with suffixes or for q without zero byte) and l <= q <= r (l included if l = q), then lookupRange(l, li, r, ri) is true, provided none of the three stops inside the real suffix of a key it follows and, with suffix type real, no key that q follows keeps a zero suffix unless that of q is zero too. (Seek) If q <= q' (for q = q' not from exclusive to inclusive), both no traps and neither stopping inside the real suffix of a key it follows, moveToKeyGreaterThan(q') stands at the key of moveToKeyGreaterThan(q) or a later one, past the end counting as last. (Resume) For any valid iterator got by any calls free of traps, moveToKeyGreaterThan(it.getKey(), true) gives an iterator at the same key: getKey never returns a trap. Without these conditions each of the first four fails (witnesses): a larger range can be found empty even around a stored key, and a higher bound can lead back.", "quantifier": "every key list, every configuration, every bounds and point of splitting, every history of calls before each query", "why_tests_cant": "Tests look at one query at a time; whether a parent range may be skipped when its parts are empty relates answers to all pairs of bounds.", "anchors": ["include/surf.hpp: SuRF::lookupRange, SuRF::lookupKey", "include/suffix.hpp: BitvectorSuffix::compare, BitvectorSuffix::checkEquality", "include/louds_dense.hpp: LoudsDense::Iter::compare", "include/louds_sparse.hpp: LoudsSparse::Iter::compare"]}
{"id": "C61", "title": "What ++ and -- report, the flag, and invalid iterators", "statement": "For filters as in C54 and any iterator got by any calls free of traps, ++ and -- return true exactly if the iterator is valid afterwards, which is the case exactly if it then stands at a stored key, the neighbour in the direction of the move (for --, with the exception of C10). For every filter and every iterator that is not valid: ++ and -- return false and change nothing, getKey returns the empty string, getSuffix returns 0 and writes nothing, getKeyWithSuffix returns the empty string and 0 bits, and compare ends in an assertion if these are on. A new iterator and one after clear() are not valid; clear() keeps the flag. getFpFlag: ++ and -- keep it, moveToFirst and moveToLast return it false, moveToKeyLessThan(q) returns that of moveToKeyGreaterThan(q, false), or false if the latter is not valid.", "quantifier": "every key list, every configuration, every iterator got by any calls; the calls on invalid iterators and the flag for every filter and iterator at all", "why_tests_cant": "Tests ignore the value of ++ and --, and look at invalid iterators in one or two states only.", "anchors": ["include/surf.hpp: SuRF::Iter::operator++, operator--, isValid, getFpFlag, clear, getKey, getSuffix, getKeyWithSuffix, compare", "include/surf.hpp: SuRF::moveToFirst, moveToLast, moveToKeyLessThan"]}
{"id": "C62", "title": "workload_arf: accepted arguments, required input, and what it reports", "statement": "workload_arf ends with -1 exactly if the percentage is over 100, the query type is not point or range, or the distribution not uniform, zipfian or latest. Without the key file, without the query file, or if that has fewer integers than kTxnSize, it reads beyond the end of a vector. Otherwise, with at most kInputSize keys of the one file, of which the given percentage, taken after the shuffle, is inserted in order, and the first kTxnSize integers w of the other, it asks for [w, w], or for [w + 1, w + 1 + 922336973116], both modulo 2^64 (so that an upper end that wraps leaves no keys in the range); it trains the filter with the first kTrainingSize queries and their right answers, and reports for the rest: as positives the number of \"yes\" of the filter, as true positives and true negatives the number of queries with and without an inserted key in range (both ends included), as false positives the positives less the true positives. If the filter has no false negatives, that is the number of queries without a key in range that are answered \"yes\". The rate is false positives / (true negatives + false positives), which counts the false positives twice, as they are among the true negatives: a filter that answers \"yes\" to all queries without a key is reported with 1/2, not 1. loadKeysFromFile with a limit gives the integers of C42, cut at the limit.", "quantifier": "every argument, every contents of the two files, every shuffle, every filter behind the ARF interface, every correct database; all three sizes", "why_tests_cant": "The program needs ten million keys and a library that is not in the repository; no test runs it, and what its numbers mean is a statement about all filters.", "anchors": ["bench/workload_arf.cpp: main", "bench/bench.hpp: loadKeysFromFile (integers), selectIntKeysToInsert"]}
{"id": "C63", "title": "One filter of all keys accepts no more than filters of parts of them", "statement": "Let a filter hold exactly the keys of two others, made with the same settings (C01; none of the lists a single key starting with 0xFF). If its lookupKey(q) is true, so is that of one of the two. More exactly, it is true for the first, or q matches (C02) one of the keys that only the second holds: by adding keys only strings become accepted that are taken for the new ones. This needs that real suffixes have at most 8 bits, or that all keys which q follows, and in mixed filters q, are long enough for all suffix bits (and that real suffixes of such keys are not all zero); and without suffixes that q has no zero byte. With longer real suffixes it is false: added keys can make a key stop inside its suffix bits. The converse is false, as distinguishing prefixes grow. Without real suffixes the same holds for lookupRange(l, li, r, ri): if it is true, so is that of one of the two, for l no trap (1) to (3) of C04 of any of the three, no distinguishing prefix 2018 bytes longer than r, if no key above r and shorter than it is a proper prefix of another key, and l, if excluded, is none. Without that condition on r it is false.", "quantifier": "every key list, every way to divide it in two (also overlapping), every configuration, every string, every bounds", "why_tests_cant": "Relates the answers of three filters to each other for every division of every key list; no test builds more than one filter of related key lists.", "anchors": ["include/surf.hpp: SuRF::lookupKey, SuRF::lookupRange", "include/surf_builder.hpp: SuRFBuilder::build", "include/suffix.hpp: BitvectorSuffix::checkEquality"]}
{"id": "C64", "title": "Workload generators: the key files are made of the log, and queries only ask for loaded keys", "statement": "gen_load.py and gen_txn.py write nothing exactly if the key type is not randint, timestamp or email or the distribution not uniform, zipfian or latest. A line of the log names a key if it has at least three words and the first is INSERT (for gen_txn.py READ): the third word without its first four characters. For randint the two files are these keys, one in each line, in the order of the log. An address name@a.b.c (no spaces, no \"@\" in the name) becomes c.b.a.@name, and no two addresses the same key. For email, if the n >= 1 inserted keys are numbers (digits, perhaps after a sign), gen_load.py writes the keys made of every g-th address, g being 27549660 / n rounded down, as many as were inserted, and gen_txn.py after it for every number read the key written for the last insertion of that number, so only keys of the load file (and, with at most 25000000 keys, the benchmark, C42, loads only keys made of addresses, and queries, if there are any, only for keys it loaded); it ends with a KeyError exactly if a number is read that was not inserted, and never ends well if a word is read that is no number. A list of 27549660 addresses is long enough; if address number (n - 1) * g does not exist, gen_load.py ends with an IndexError, and with a ZeroDivisionError if nothing was inserted. For timestamp the same holds with the first n lines of the list of timestamps (no spaces in them), an IndexError if there are fewer. The lists have to end with a newline: without it the last address loses its last character, and a line without \"@\" becomes a key with a newline in it.", "quantifier": "every log of YCSB made of lines, every list of addresses or timestamps, all arguments", "why_tests_cant": "There is no test of the scripts, which need YCSB and lists that are not in the repository; that no two addresses become the same key and that every query names a loaded key are statements about all lists.", "anchors": ["bench/workload_gen/gen_load.py", "bench/workload_gen/gen_txn.py"]}
{"id": "C65", "title": "MurmurHash3_x86_128 never confuses two strings that differ in one block", "statement": "Two strings of the same length that differ only inside one block of 16 bytes (bytes 16i to 16i+15 for some i, the last block perhaps shorter) have different 128-bit hashes under MurmurHash3_x86_128, for every 32-bit seed; so do any two different strings of one length of at most 16, such as the 8 bytes of two different integers. One string has different hashes under different seeds. No such thing holds for two blocks: for all p, p' of 16m bytes and all 16 bytes b there are 16 bytes b' such that p'b' has the hash of pb; for example there are two strings of 32 bytes with the same hash under the seed of the Bloom filter, so that a filter holding one always answers yes for the other; and strings of whole blocks of one length that collide still do with any common end appended. The claim is about the four words of the hash; the Bloom filter uses two of them. (Strings of less than 2^31 bytes.)", "quantifier": "all strings of bytes, all 32-bit seeds", "why_tests_cant": "There is no test of the hash; that it confuses no two of the 2^128 strings of 16 bytes cannot be tried out, and a wrong multiplier or a dropped byte would only show as a few more false positives.", "anchors": ["bench/MurmurHash3.h: MurmurHash3_x86_128, fmix32, rotl32", "bench/bloom.hpp: BloomHash"]}
