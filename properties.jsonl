{"id": "C01", "title": "Block decomposition partitions the range", "statement": "For any global size n and any positive number of ranks p, the pieces (global_offset, local_size) returned by block_decomposition for ranks 0..p-1 are contiguous, in rank order, pairwise disjoint, start at 0, and together cover exactly the indices 0..n-1.", "quantifier": "every n and p representable in size_t with p > 0, every rank < p", "why_tests_cant": "Any test fixes finitely many (n,p); an off-by-one for some remainder would lose or duplicate traces for other pairs.", "anchors": ["src/utils/decomposition/block_decomposition.cc: block_decomposition", "include/ExSeisDat/utils/decomposition/block_decomposition.h"]}
{"id": "C02", "title": "Block decomposition is balanced", "statement": "For any n and p > 0 the local sizes of two ranks differ by at most one, and no rank has more elements than a lower rank.", "quantifier": "every n, p > 0 and every pair of ranks", "why_tests_cant": "Infinite family of (n,p).", "anchors": ["src/utils/decomposition/block_decomposition.cc: block_decomposition"]}
{"id": "C03", "title": "block_decomposition_location is the inverse of block_decomposition", "statement": "For every global index gi < n, block_decomposition_location(n,p,gi) returns the one rank whose piece contains gi and the index of gi within this piece; it never divides by zero and no intermediate value overflows 64 bits.", "quantifier": "every n, p > 0 in size_t and every gi < n", "why_tests_cant": "The two branches and the zero-chunk case interact with every residue of n modulo p.", "anchors": ["src/utils/decomposition/block_decomposition.cc: block_decomposition_location"]}
{"id": "C04", "title": "Block-aligned file decomposition partitions a byte range", "statement": "For the file-copy utility, the byte ranges handed to the ranks by blockDecomp(sz,bsz,p,rank,off) are contiguous in rank order, cover exactly [0,sz), and every interior boundary off+x is a multiple of bsz.", "quantifier": "every sz, bsz, p, off with no arithmetic overflow; the property is checked for which of these inputs it holds", "why_tests_cant": "Depends on three residues at once; only some inputs break it.", "anchors": ["util/sglobal.cc: blockDecomp"]}
{"id": "C05", "title": "Big-endian number encoding is lossless and MSB first", "statement": "For int16, int32, uint32 and float, from_big_endian(to_big_endian(v)) == v for every value (bit pattern) and to_big_endian(from_big_endian(b)) == b for every byte string; the first byte is the most significant one.", "quantifier": "every 16/32-bit value, every byte string", "why_tests_cant": "2^32 patterns per type; the law must hold for all.", "anchors": ["src/utils/encoding/number_encoding.cc", "include/ExSeisDat/utils/encoding/number_encoding.hh: to_big_endian, from_big_endian"]}
{"id": "C06", "title": "IBM float conversion is exact where IEEE single can represent the value", "statement": "Every IBM System/360 single whose value is representable as a normal IEEE single is converted by from_IBM_to_float to exactly this value, with the right sign.", "quantifier": "every normalised 32-bit IBM pattern whose magnitude is in the normal single range", "why_tests_cant": "2^32 patterns, and normalised patterns lose no bits only if every shift amount is right.", "anchors": ["src/utils/encoding/number_encoding.cc: from_IBM, to_float", "include/ExSeisDat/utils/encoding/number_encoding.hh"]}
{"id": "C07", "title": "IBM overflow and underflow are handled as IEEE", "statement": "IBM values too big for an IEEE single become infinity of the same sign; values in the subnormal range are rounded to nearest even; zero fractions become +0.", "quantifier": "every 32-bit IBM pattern outside the normal range", "why_tests_cant": "The boundaries lie at particular exponents/fractions and rounding depends on all discarded bits.", "anchors": ["src/utils/encoding/number_encoding.cc: to_float, rshift_with_rounding"]}
{"id": "C08", "title": "IBM conversion is correct for every bit pattern", "statement": "from_IBM_to_float returns the correctly rounded IEEE single of the IBM value for all 2^32 inputs (including unnormalised fractions and tiny magnitudes) and evaluates no undefined shift.", "quantifier": "every 32-bit pattern", "why_tests_cant": "Unnormalised fractions and deep underflow are rare in test data.", "anchors": ["src/utils/encoding/number_encoding.cc: from_IBM, rshift_with_rounding"]}
{"id": "C09", "title": "Traces stored in IBM format are read correctly", "statement": "Opening a SEG-Y file whose binary header says format 1 (IBM) and reading traces yields from_IBM of each stored 4-byte sample.", "quantifier": "every sample bit pattern", "why_tests_cant": "The current unit tests compare against mock data produced by the same conversion; the property quantifies over all patterns.", "anchors": ["src/ReadSEGY.cc: readTraceT"]}
{"id": "C10", "title": "ASCII/EBCDIC conversion round trips on the shared repertoire", "statement": "For every character that exists in both encodings, converting ASCII->EBCDIC->ASCII (and EBCDIC->ASCII->EBCDIC) gives the character back; both maps are injective on the repertoire.", "quantifier": "every byte in the repertoire", "why_tests_cant": "Exhaustive over the table; also needs sortedness of the lookup arrays.", "anchors": ["src/utils/encoding/character_encoding.cc: to_ASCII_from_EBCDIC, to_EBCDIC_from_ASCII"]}
{"id": "C11", "title": "Unrepresentable characters become SUB", "statement": "Converting a byte with no equivalent yields the SUB character of the target encoding, as documented.", "quantifier": "every byte outside the repertoire", "why_tests_cant": "The documented fallback is only taken for inputs tests do not use.", "anchors": ["src/utils/encoding/character_encoding.cc: char_sub, to_ASCII_from_EBCDIC"]}
{"id": "C12", "title": "The text header round trips", "statement": "Text given to writeText (ASCII, at most 3200 characters) is what readText returns after closing and reopening the file, padded with NULs to 3200.", "quantifier": "every ASCII string of at most 3200 characters", "why_tests_cant": "The reader guesses the encoding by counting; the guess depends on the whole string.", "anchors": ["src/ReadSEGY.cc: ReadSEGY::ReadSEGY", "src/WriteSEGY.cc: writeText, ~WriteSEGY"]}
{"id": "C13", "title": "Traces tile the file without overlap", "statement": "In the SEG-Y layout the header, and the metadata and data blocks of distinct traces, are pairwise disjoint byte ranges, and together they cover the file exactly.", "quantifier": "every ns, nt with no 64-bit overflow, every pair of traces", "why_tests_cant": "Needs arithmetic for all ns/nt.", "anchors": ["include/ExSeisDat/PIOL/segy_utils.hh: getDOLoc, getDODFLoc, getDOSz, getFileSz"]}
{"id": "C14", "title": "The number of traces is recovered from the file size", "statement": "A file sized for nt traces of ns samples is reported to hold exactly nt traces; a trailing partial trace is not counted.", "quantifier": "every ns, nt (no overflow), every trailing byte count less than one trace", "why_tests_cant": "Division boundary for all ns/nt.", "anchors": ["include/ExSeisDat/PIOL/segy_utils.hh: getNt, getFileSz"]}
{"id": "C15", "title": "Opening any file is safe", "statement": "Opening a file for reading never divides by zero and derives ns as the unsigned 16-bit number stored in the binary header.", "quantifier": "every file content and size", "why_tests_cant": "Only particular header values trigger it.", "anchors": ["src/ReadSEGY.cc: ReadSEGY::ReadSEGY", "include/ExSeisDat/PIOL/segy_utils.hh: getNt"]}
{"id": "C16", "title": "Contiguous reads are independent of internal chunking", "statement": "Reading sz bytes at an offset fills the buffer with exactly the file bytes offset..offset+sz-1, whatever the maximum transfer size.", "quantifier": "every file, offset, size and every positive transfer limit", "why_tests_cant": "Chunk boundaries move with limit and size; the limit is 512 MB in practice so tests never cross it.", "anchors": ["src/DataMPIIO.cc: read, contigIO"]}
{"id": "C17", "title": "Writes store exactly the given bytes and nothing else", "statement": "After writing sz bytes at an offset, reading them back yields the data, and every file byte outside the range is unchanged, whatever the transfer limit.", "quantifier": "every file, offset, data, transfer limit", "why_tests_cant": "Same as C16.", "anchors": ["src/DataMPIIO.cc: write, contigIO"]}
{"id": "C18", "title": "Strided block I/O touches exactly the requested blocks", "statement": "Reading or writing nb blocks of bsz bytes spaced osz bytes apart is equivalent to nb separate contiguous accesses; gaps are untouched, whatever the transfer limit.", "quantifier": "every offset, bsz <= osz, nb, transfer limit >= osz", "why_tests_cant": "Views are reset between chunks, so block-to-file mapping must hold for every chunk.", "anchors": ["src/DataMPIIO.cc: readv, writev, contigIO, strideView"]}
{"id": "C19", "title": "List I/O touches exactly the requested blocks", "statement": "Reading or writing blocks at a list of offsets is equivalent to the per-offset accesses in order; other bytes are untouched.", "quantifier": "every list of offsets, block size, transfer limit", "why_tests_cant": "Same, with arbitrary offset lists.", "anchors": ["src/DataMPIIO.cc: listIO, iol, randBlockView"]}
{"id": "C20", "title": "Collective I/O calls match on all ranks", "statement": "In every read/write, contiguous, strided or list based, all ranks perform the same number of collective MPI-IO calls even if their sizes differ or are zero, so no rank waits for ever.", "quantifier": "every number of ranks and every assignment of sizes to ranks", "why_tests_cant": "A mismatch deadlocks only for size combinations around chunk multiples.", "anchors": ["src/DataMPIIO.cc: contigIO, listIO (remCall)"]}
{"id": "C21", "title": "No transfer exceeds the MPI count limit", "statement": "Each individual MPI call moves at most the transfer limit (and the limit fits an int), and the per-call count is positive for every legal SEG-Y trace size with default options.", "quantifier": "every request size; every ns a SEG-Y header can hold", "why_tests_cant": "Needs >2^31 byte requests.", "anchors": ["src/DataMPIIO.cc: contigIO, listIO, Opt::Opt", "include/ExSeisDat/utils/mpi/MPI_max_array_length.hh"]}
{"id": "C22", "title": "I/O errors are reported", "statement": "If an MPI-IO transfer fails, an error is recorded in the log.", "quantifier": "every failure of any transfer in any history", "why_tests_cant": "Fault injection would be needed at each call.", "anchors": ["src/DataMPIIO.cc: iol, contigIO, listIO"]}
{"id": "C23", "title": "Contiguous and list-based trace access agree", "statement": "Reading (or writing) traces o..o+n-1 by range gives the same result as by the explicit list of those trace numbers, for headers, samples or both.", "quantifier": "every file, ns, o, n", "why_tests_cant": "Must hold for all sizes.", "anchors": ["src/ObjectSEGY.cc"]}
{"id": "C24", "title": "Header-only, sample-only and full access agree", "statement": "The metadata and samples obtained by a full trace read equal those obtained by a header-only read and a sample-only read; header-only writes never alter samples and sample-only writes never alter headers.", "quantifier": "every file, ns, trace set", "why_tests_cant": "Must hold for all.", "anchors": ["src/ObjectSEGY.cc", "src/ReadSEGY.cc: readTraceT", "src/WriteSEGY.cc: writeTraceT"]}
{"id": "C25", "title": "A rule's slots are dense and unique in every history", "statement": "After any sequence of adding and removing metadata entries, the entries of each kind (float, long, short, index, copy) have distinct slot numbers that are exactly 0..count-1.", "quantifier": "every history of rule operations", "why_tests_cant": "Quantifies over histories.", "anchors": ["src/Rule.cc: addRule, addLong, addShort, addSEGYFloat, addIndex, addCopy, rmRule"]}
{"id": "C26", "title": "Adding an existing entry changes nothing and removing is local", "statement": "Adding metadata that already has a default entry is refused (returns false) and leaves the rule unchanged; removing metadata removes only it; adding a whole rule keeps existing entries and adds the missing ones.", "quantifier": "every rule reachable by operations, every metadata", "why_tests_cant": "Histories.", "anchors": ["src/Rule.cc: addRule, rmRule"]}
{"id": "C27", "title": "Predefined header fields do not overlap", "statement": "The header byte ranges used by the default and extra rules (values and scale factors) lie within the 240 byte header, and two different fields are either disjoint or the same shared scale factor.", "quantifier": "every pair of predefined entries", "why_tests_cant": "Finite, but the whole table has to be covered.", "anchors": ["src/Rule.cc: addRule(Meta)", "include/ExSeisDat/PIOL/Tr.h"]}
{"id": "C28", "title": "Reading and writing metadata stays inside the buffers for every rule", "statement": "For every rule a user can construct, transferring metadata accesses only bytes of the caller's trace headers.", "quantifier": "every rule, including ones built without the full header extent", "why_tests_cant": "Only particular rule options break it.", "anchors": ["src/segy_utils.cc: insertParam, extractParam", "src/Rule.cc: extent, start"]}
{"id": "C29", "title": "Metadata set/get is a faithful store", "statement": "getPrm after setPrm on the same trace and entry returns the stored value; setting one (trace, entry) never changes any other; all accesses are in bounds for trace < size.", "quantifier": "every rule, size, trace index, entry, value", "why_tests_cant": "All rules and histories of sets.", "anchors": ["src/param_utils.cc: setPrm", "include/ExSeisDat/PIOL/param_utils.hh: getPrm"]}
{"id": "C30", "title": "Copying a trace's metadata preserves the shared entries", "statement": "cpyPrm copies every entry when source and destination share a rule, and otherwise exactly the entries present in both with the same type. Other destination entries keep their value unless the source holds a copied raw header, in which case they are decoded from it. Other traces are unchanged.", "quantifier": "every pair of rules, indices", "why_tests_cant": "All rule pairs.", "anchors": ["src/param_utils.cc: cpyPrm"]}
{"id": "C31", "title": "Integer metadata round trips through the trace header", "statement": "Long metadata within 32 bits, and short metadata, written to trace headers are read back unchanged, for any number of traces, skip and stride.", "quantifier": "every rule with disjoint fields, every parameter set, stride, skip", "why_tests_cant": "All rules/values/positions.", "anchors": ["src/segy_utils.cc: insertParam, extractParam"]}
{"id": "C32", "title": "Metadata wider than the field is not silently altered", "statement": "A Long metadata value outside the 32-bit range written to a file is either stored faithfully or reported.", "quantifier": "every 64-bit value", "why_tests_cant": "Only large values reveal it.", "anchors": ["src/segy_utils.cc: insertParam"]}
{"id": "C33", "title": "The stored scale factor does not depend on iteration order", "statement": "The shared scale factor chosen for the coordinates of a trace is a function of the set of values only, not of the order in which the entries are visited.", "quantifier": "every list of scale candidates and permutation", "why_tests_cant": "Hash-map order is implementation-defined.", "anchors": ["src/segy_utils.cc: insertParam (scal combine)"]}
{"id": "C34", "title": "Coordinates survive a round trip to the scale's precision", "statement": "A coordinate whose scale factor fits (int32 after scaling) is read back within half of a unit of the chosen decimal scale (plus rounding of the last bit).", "quantifier": "every double coordinate in range, every scale factor", "why_tests_cant": "Real arithmetic over all doubles.", "anchors": ["src/segy_utils.cc: find_scalar, parse_scalar, insertParam, extractParam"]}
{"id": "C35", "title": "Coordinates with at most four decimals round trip exactly", "statement": "A coordinate that is a decimal with at most 4 fractional digits and fits the scaled int32 is returned as the same double.", "quantifier": "every such coordinate", "why_tests_cant": "Double rounding in the product shows only for some values.", "anchors": ["src/segy_utils.cc: insertParam, extractParam, parse_scalar"]}
{"id": "C36", "title": "Coordinates sharing a scale factor do not corrupt each other", "statement": "Writing a trace whose coordinates individually fit the format returns each of them to its own precision.", "quantifier": "every tuple of coordinates sharing a scale", "why_tests_cant": "Only mixed magnitudes trigger it.", "anchors": ["src/segy_utils.cc: insertParam"]}
{"id": "C37", "title": "Header bytes outside the rule are preserved in copy mode", "statement": "With the COPY entry, a read followed by a write reproduces every header byte not covered by another entry of the rule; without changes, the whole header.", "quantifier": "every header, every full-extent rule", "why_tests_cant": "All headers.", "anchors": ["src/segy_utils.cc: insertParam, extractParam"]}
{"id": "C38", "title": "Parsing scale factors follows the SEG-Y convention", "statement": "Scale 0 means 1, positive multiplies, negative divides, for every int16.", "quantifier": "every int16", "why_tests_cant": "65536 values, in double arithmetic.", "anchors": ["src/segy_utils.cc: parse_scalar"]}
{"id": "C39", "title": "After close the file has the size of all traces written", "statement": "After every rank closes the file, its size is 3600 + nt*(240+4 ns) where nt is the maximum over ranks of the end of every write (or the announced number when this is larger).", "quantifier": "every number of ranks, every history of writeNs/writeNt/writeTrace calls on each rank", "why_tests_cant": "Quantifies over histories and ranks.", "anchors": ["src/WriteSEGY.cc: writeTrace, writeNt, writeNs, calcNt, ~WriteSEGY"]}
{"id": "C40", "title": "Number of samples, traces and sample interval round trip", "statement": "A file written with ns, nt and interval inc (a whole number of microseconds up to 32767) is read back with the same ns, nt and inc.", "quantifier": "every ns <= 32767, nt, inc", "why_tests_cant": "All values, double arithmetic.", "anchors": ["src/WriteSEGY.cc: ~WriteSEGY, writeNs, writeInc", "src/ReadSEGY.cc: ReadSEGY::ReadSEGY"]}
{"id": "C41", "title": "Sample intervals that do not fit are reported", "statement": "An interval that cannot be represented (more than 32767 microseconds or below half a microsecond) is reported as an error.", "quantifier": "every double", "why_tests_cant": "Boundary values only.", "anchors": ["src/WriteSEGY.cc: writeInc, ~WriteSEGY"]}
{"id": "C42", "title": "Traces written are the traces read", "statement": "Sample values written by any rank at any position are read back bit for bit (last writer wins per trace) after close, for any sequence of range, list and sample-only writes with the same ns.", "quantifier": "every history of writes on every rank, every sample bit pattern", "why_tests_cant": "Histories and all values.", "anchors": ["src/WriteSEGY.cc: writeTraceT", "src/ReadSEGY.cc: readTraceT", "src/ObjectSEGY.cc", "src/DataMPIIO.cc"]}
{"id": "C43", "title": "Writing does not change the caller's samples", "statement": "After writeTrace the caller's sample array is bit-for-bit what it was before.", "quantifier": "every sample array", "why_tests_cant": "All bit patterns.", "anchors": ["src/WriteSEGY.cc: writeTraceT"]}
{"id": "C44", "title": "Reading past the end is clamped", "statement": "readTrace(offset, sz) reads exactly the traces offset..min(offset+sz, nt)-1 and touches nothing else of the caller's memory.", "quantifier": "every offset, sz, nt", "why_tests_cant": "Offsets beyond the end are rare in tests.", "anchors": ["src/ReadSEGY.cc: readTrace"]}
{"id": "C45", "title": "Non-monotonic reads return the requested traces in the requested order", "statement": "readTraceNonMonotonic returns, in position i, the samples and metadata of trace offset[i], for any order and any repetition.", "quantifier": "every list of trace numbers", "why_tests_cant": "All permutations with duplicates.", "anchors": ["src/ReadSEGY.cc: readTraceNonMonotonic"]}
{"id": "C46", "title": "List-based writes are counted completely", "statement": "After writing traces at a list of offsets, closing keeps all of them, whatever the order of the list.", "quantifier": "every list of offsets", "why_tests_cant": "Only non-monotonic lists break it.", "anchors": ["src/WriteSEGY.cc: writeTraceNonContiguous"]}
{"id": "C47", "title": "A file whose writer died is not taken for a valid file", "statement": "If all writers die before close, at any point of their history, a later reader does not report traces built from missing header data.", "quantifier": "every crash point", "why_tests_cant": "Crash points.", "anchors": ["src/WriteSEGY.cc: ~WriteSEGY", "src/ReadSEGY.cc: ReadSEGY::ReadSEGY"]}
{"id": "C48", "title": "Oversized sample counts are rejected", "statement": "writeNs beyond 32767 records an error and leaves the file's ns unchanged; once any error is recorded, close writes no header and does not resize.", "quantifier": "every ns, every history", "why_tests_cant": "Histories.", "anchors": ["src/WriteSEGY.cc: writeNs, ~WriteSEGY", "src/Logger.cc"]}
{"id": "C49", "title": "Every read labels traces with their file position", "statement": "After any read of metadata, the local trace number of each returned entry is the trace's position in the file.", "quantifier": "every range, list, skip", "why_tests_cant": "All.", "anchors": ["src/ReadSEGY.cc: readTraceT"]}
{"id": "C50", "title": "The sort orders are strict total orders", "statement": "Each predefined sort order is irreflexive, transitive and total on traces with distinct trace numbers, so sorting is well defined and deterministic.", "quantifier": "every triple of (non-NaN) traces", "why_tests_cant": "All triples; std::sort has undefined behaviour otherwise.", "anchors": ["src/sort.cc: lessSrcRcv, lessSrcOff, lessRcvOff, lessLineOff, lessOffLine, getComp"]}
{"id": "C51", "title": "getSortIndex returns a sorting permutation", "statement": "getSortIndex(n, list) returns a permutation of 0..n-1 that visits the list in non-decreasing order.", "quantifier": "every list", "why_tests_cant": "All lists.", "anchors": ["src/sort.cc: getSortIndex"]}
{"id": "C52", "title": "Parallel sort result is a globally sorted permutation", "statement": "When the parallel sort stops, the concatenation over ranks is sorted by the requested order and is a permutation of the input, for any number of ranks holding at least 4 traces each.", "quantifier": "every number of ranks, every distribution of traces with at least 4 per rank, every strict total order", "why_tests_cant": "All distributions; the exit condition is a distributed fixed point.", "anchors": ["src/sort.cc: sort (template), sendLeft, sendRight"]}
{"id": "C53", "title": "Parallel sort terminates", "statement": "The parallel sort reaches its exit condition after finitely many rounds for every input.", "quantifier": "every input", "why_tests_cant": "Liveness over all inputs.", "anchors": ["src/sort.cc: sort (template)"]}
{"id": "C54", "title": "Parallel sort is correct for every distribution the API accepts", "statement": "The sort also orders traces across ranks when some rank holds few traces (fewer than 4).", "quantifier": "every distribution accepted by the API (at least 3 per rank)", "why_tests_cant": "Boundary only.", "anchors": ["src/sort.cc: sort, sendLeft", "src/Flow/Set.cc: sort"]}
{"id": "C55", "title": "The final position list is the inverse of the order", "statement": "The list returned to the workflow gives, for each local input trace, its position in the sorted output; over all ranks it is a bijection onto 0..nt-1.", "quantifier": "every permutation and distribution", "why_tests_cant": "All.", "anchors": ["src/sort.cc: sort(ExSeisPIOL*, vector)"]}
{"id": "C56", "title": "checkOrder accepts exactly the sorted files", "statement": "The order check returns true on all ranks iff the whole file is sorted.", "quantifier": "every file, number of ranks", "why_tests_cant": "Violations at rank borders only.", "anchors": ["src/sort.cc: checkOrder"]}
{"id": "C57", "title": "Min/max search returns the global extremes", "statement": "getMinMax returns on every rank the smallest and largest value over all traces of all ranks, each with the number of a trace that has this value; ranks without traces are ignored.", "quantifier": "every number of ranks, every distribution including empty ranks, all values", "why_tests_cant": "Distributions.", "anchors": ["include/ExSeisDat/PIOL/operations/minmax.h: getCoordMinMax, getMinMax"]}
{"id": "C58", "title": "Min/max ties are decided by the second coordinate", "statement": "Among traces with equal primary value, the reported trace is the one extreme in the second coordinate, on any number of ranks.", "quantifier": "every distribution with ties", "why_tests_cant": "Ties across ranks only.", "anchors": ["include/ExSeisDat/PIOL/operations/minmax.h: getCoordMinMax"]}
{"id": "C59", "title": "Set::getMinMax over several files is the min/max of all files", "statement": "The multi-file min/max equals the min/max over the union of traces.", "quantifier": "every collection of files", "why_tests_cant": "All-negative data only.", "anchors": ["src/Flow/Set.cc: getMinMax"]}
{"id": "C60", "title": "Gather detection is the run-length encoding of the file", "statement": "getIlXlGathers returns one entry per maximal run of equal (inline, crossline), with the number of traces in the run, in file order, independent of the number of ranks.", "quantifier": "every file whose gathers are contiguous, every number of ranks with at least one trace each", "why_tests_cant": "Runs spanning several ranks in all ways.", "anchors": ["src/gather.cc: getGathers"]}
{"id": "C61", "title": "Each gather is processed exactly once", "statement": "The distribution of gathers over ranks assigns every gather to exactly one rank.", "quantifier": "every number of gathers and ranks", "why_tests_cant": "All pairs.", "anchors": ["src/Flow/Set.cc: startGather"]}
{"id": "C62", "title": "The distributed vector is a faithful shared array", "statement": "A value set at a global index is returned by get at this index on any rank, and no other index changes; accesses outside the size are rejected.", "quantifier": "every size, number of ranks, history of sets", "why_tests_cant": "Histories/ranks.", "anchors": ["include/ExSeisDat/utils/mpi/MPI_Distributed_vector.hh"]}
{"id": "C63", "title": "Concatenation keeps every trace once, in order", "statement": "Without sorting, the output positions of all traces of all input files on all ranks are a bijection onto 0..total-1, and file k's traces follow those of file k-1 in their original order.", "quantifier": "every list of file sizes, number of ranks", "why_tests_cant": "All.", "anchors": ["src/Flow/Set.cc: add, startSingle"]}
{"id": "C64", "title": "Block-wise processing covers each local trace once with matching collective calls", "statement": "Processing in memory-bounded blocks visits every local trace exactly once, in order, and all ranks perform the same number of I/O calls.", "quantifier": "every local count per rank, block size", "why_tests_cant": "Block boundaries.", "anchors": ["src/Flow/Set.cc: startSingle", "util/4dio.cc: getCoords", "util/filemake.cc"]}
{"id": "C65", "title": "Chained operations are applied in the requested order", "statement": "The output of a workflow with several requested operations is the composition of all of them in order.", "quantifier": "every list of operations", "why_tests_cant": "Histories of requests.", "anchors": ["src/Flow/Set.cc: calcFunc, drop"]}
{"id": "C66", "title": "Outputs of different groups do not overwrite each other", "statement": "Files produced for groups with different (ns, inc) have different names.", "quantifier": "every multiset of groups", "why_tests_cant": "Only several single groups reveal it.", "anchors": ["src/Flow/Set.cc: output, calcFunc"]}
{"id": "C67", "title": "Model lookup finds the trace at an inline/crossline", "statement": "readModel returns the trace of the model file whose inline/crossline equals the gather's, for any regular grid file.", "quantifier": "every regular grid (start, count, increment), every point", "why_tests_cant": "All grids.", "anchors": ["src/ReadSEGYModel.cc"]}
{"id": "C68", "title": "Tapering changes only the taper zones", "statement": "Tapering leaves leading zeros and every sample outside the two ramps unchanged and accesses only the trace, for any trace and ramp lengths accepted.", "quantifier": "every trace, ramp lengths", "why_tests_cant": "All traces (muted prefix lengths).", "anchors": ["src/utils/signal_processing/taper.cc: taper"]}
{"id": "C69", "title": "AGC windows are centred, clipped and in bounds", "statement": "For every sample j the gain is computed over exactly the samples within the window radius clipped to the trace.", "quantifier": "every trace length, window size accepted", "why_tests_cant": "All lengths.", "anchors": ["src/utils/signal_processing/AGC.cc: AGC"]}
{"id": "C70", "title": "Gain functions compute the documented averages in bounds", "statement": "median/mean-abs/rms/triangular gains read only the window and compute the documented statistic.", "quantifier": "every window", "why_tests_cant": "Even windows and negative values.", "anchors": ["src/utils/signal_processing/Gain_function.cc"]}
{"id": "C71", "title": "4D binning finds the closest pair", "statement": "For each trace of file 1, the reported trace of file 2 minimises the documented distance among all traces of file 2, on any number of ranks, whenever the minimum is within dsrmax.", "quantifier": "every pair of files, distribution and dsrmax", "why_tests_cant": "Pruning errors need particular geometries.", "anchors": ["util/4dcore.cc: calc4DBin, update, initUpdate, dsr"]}
{"id": "C72", "title": "The error state is sticky and complete", "statement": "After any error is recorded the error state holds for ever, whatever the verbosity, and is not set by non-errors.", "quantifier": "every history of log records", "why_tests_cant": "Histories.", "anchors": ["src/Logger.cc: record, isErr"]}
{"id": "C73", "title": "Rank offsets are exclusive prefix sums", "statement": "offset(val) returns on each rank the sum of the values of lower ranks (0 on rank 0).", "quantifier": "every number of ranks and values without overflow", "why_tests_cant": "All.", "anchors": ["src/CommunicatorMPI.cc: offset"]}
{"id": "C74", "title": "File replication repeats the payload", "statement": "The replication utility produces the header followed by repRate copies of the payload, for all versions and rank counts.", "quantifier": "every file size, rank count, repetition", "why_tests_cant": "Block boundaries.", "anchors": ["util/makerep.cc"]}
{"id": "C75", "title": "Random-offset file creation covers every trace once", "statement": "The interleaved offsets used by filemake -r over all ranks are a bijection onto 0..nt-1 and increase on each rank.", "quantifier": "every nt and rank count, every distribution", "why_tests_cant": "All.", "anchors": ["util/filemake.cc: writeRandom"]}
{"id": "C76", "title": "Temporal filter windows stay inside the trace", "statement": "The filter window chosen from the user's settings lies within the trace and default settings cover it.", "quantifier": "every ns, window length, centre", "why_tests_cant": "Boundary settings.", "anchors": ["src/temporalfilter.cc: temporalFilter"]}
{"id": "C77", "title": "The uneven decomposition is a partition", "statement": "The -l option of filemake shares the traces between ranks so that every trace is written by exactly one rank, with higher ranks getting more.", "quantifier": "every number of traces and ranks", "why_tests_cant": "Rounding surplus only for some pairs.", "anchors": ["util/sglobal.cc: lobdecompose"]}
{"id": "C78", "title": "Metadata written are the metadata read", "statement": "After close, reading a trace with the rule it was written with returns the metadata of the last write at this position: integers exactly, coordinates to half a unit of the stored scale, whole-number coordinates exactly.", "quantifier": "every history of writes by any number of ranks, every rule, trace and value that fits its field", "why_tests_cant": "Histories, ranks, buffers and rules combine; tests fix each.", "anchors": ["src/WriteSEGY.cc: writeTraceT", "src/ReadSEGY.cc: readTraceT", "src/segymdextra.cc: insertParam, extractParam"]}
{"id": "C79", "title": "The output call returns the names of the files it wrote", "statement": "Whenever a workflow writes its output, the list of names returned by the output call contains the name of every file written.", "quantifier": "every chain of operations", "why_tests_cant": "The chain decides; histories of requests.", "anchors": ["src/Flow/Set.cc: calcFunc, output"]}
{"id": "C80", "title": "Padding before time-domain filtering repeats the window's own samples", "statement": "For every padding type the window is extended on both sides by three times the filter length of samples taken from the window alone, as the type says.", "quantifier": "every window, filter order, padding type", "why_tests_cant": "Reads past the array often return plausible values.", "anchors": ["src/temporalfilter.cc: getPad, filterTime"]}
{"id": "C81", "title": "Automatic filter order works for all four filter types", "statement": "Giving the corner frequencies a filter type needs lets the order be worked out without reading other memory.", "quantifier": "every filter type and corners", "why_tests_cant": "The assertion and the reads are in different files.", "anchors": ["src/temporalfilter.cc: temporalFilter (automatic order)", "src/Set.cc: temporalFilter"]}
{"id": "C82", "title": "The linear taper rises from 0 to 1", "statement": "The weights of the linear taper lie between 0 and 1, never decrease with the distance from the end and reach exactly 1 at the end of the ramp.", "quantifier": "every ramp length up to 2^24 and every position", "why_tests_cant": "All pairs, with rounding.", "anchors": ["src/utils/signal_processing/Taper_function.cc: linear_taper"]}
{"id": "C83", "title": "Fetching another process's coordinates stays inside its window", "statement": "When 4D binning fetches another process's coordinates by one-sided communication, every access is inside the memory that process exposed.", "quantifier": "every pair of files, distribution and dsrmax", "why_tests_cant": "MPI libraries differ in whether they check; a run that passes on one says nothing about another.", "anchors": ["util/4dcore.cc: createCoordsWin, getCoordsWin"]}
{"id": "C84", "title": "The test file maker makes the same file on any number of processes", "statement": "The contents of every trace made by filemake depend only on the number of traces, the number of samples and the trace's number: the file is the same for every number of processes, every memory limit, and with or without the option for random order.", "quantifier": "every file size, number of processes, batch size and mode", "why_tests_cant": "File comparisons cover chosen sizes; wrong contents need a batch of several traces.", "anchors": ["util/filemake.cc: writeContig, writeRandom, FileMake"]}
{"id": "C85", "title": "minmax writes exactly the traces of the extremes", "statement": "The file minmax writes has one trace per extreme coordinate, in the documented order, each the header of the trace that has the extreme, labelled with its number, also where extremes share a trace; the list it reads by has no repetitions and rises.", "quantifier": "every list of extremes and every conforming sort", "why_tests_cant": "Ties and repeated extremes depend on the data.", "anchors": ["util/minmax.cc: calcMin"]}
{"id": "C86", "title": "Reading coordinates for 4D binning: same collective calls, right places", "statement": "When the coordinates are read in batches, every process makes the same number of collective reads, and every entry of the coordinate arrays is filled once with the trace at its place in the sorted order.", "quantifier": "every file size, number of processes and sorted list", "why_tests_cant": "The batches only differ for files of millions of traces per process.", "anchors": ["util/4dio.cc: getCoords"]}
{"id": "C87", "title": "The two outputs of 4D binning pair up", "statement": "The k-th trace of the first output file and the k-th trace of the second are a matched pair within the limit; every such pair is written once; every process makes the same number of collective writes.", "quantifier": "every distribution of matches over processes, limit and batch size", "why_tests_cant": "Pairing breaks only for certain distributions and batch sizes.", "anchors": ["util/fourdbin.cc: main", "util/4dio.cc: outputNonMono"]}
{"id": "C88", "title": "Expanding roots gives the polynomial that has them", "statement": "For every non-empty list of roots, expanding it gives one more coefficient than there are roots, and the polynomial with these coefficients takes at every point the value of the product over the roots; if the roots come in conjugate pairs the real coefficients returned are exact.", "quantifier": "every non-empty list of complex roots and every point, in exact arithmetic; array bounds in any arithmetic", "why_tests_cant": "A coefficient check covers a few orders.", "anchors": ["src/temporalfilter.cc: expandPoly"]}
{"id": "C89", "title": "Applying a filter solves its difference equation", "statement": "Filtering a trace gives one value per sample, and these are the only values for which, at every sample, the past outputs weighted by the denominator add up to the past inputs weighted by the numerator; with the initial values the program computes, a constant trace comes out constant from the first sample on.", "quantifier": "every order of at least one, coefficients, trace and initial values in exact arithmetic", "why_tests_cant": "Tests compare against a stored trace.", "anchors": ["src/temporalfilter.cc: IIR, filtfilt initial values (zi)"]}
{"id": "C90", "title": "Filtering in time keeps constant traces (or removes them)", "statement": "Lowpass and bandstop filtering in the time domain leaves a constant trace as it is, highpass and bandpass filtering makes it zero, for each way of padding.", "quantifier": "every order, corners, window and padding", "why_tests_cant": "Edge effects depend on the padding and the order together.", "anchors": ["src/temporalfilter.cc: filterTime, processWindow, IIR"]}
{"id": "C91", "title": "The filters have Butterworth's response", "statement": "For every order and every frequency below half the sampling rate, the squared gain of the filter made is that of the Butterworth filter of that order at the given corners: half at a corner, one at the passing end and zero at the stopping end.", "quantifier": "every filter type, order, sampling rate, admissible corners and frequency, in exact arithmetic", "why_tests_cant": "A frequency response is a statement about every frequency and order.", "anchors": ["src/temporalfilter.cc: makeFilter, lowpass, highpass, bandpass, bandstop"]}
{"id": "C92", "title": "The filters are stable", "statement": "The denominator of every filter made has no zero in the closed unit disc of the delay variable, so that errors die out.", "quantifier": "every filter type, order, sampling rate and admissible corners, in exact arithmetic", "why_tests_cant": "Instability appears only for particular corners and long traces.", "anchors": ["src/temporalfilter.cc: makeFilter"]}
{"id": "C93", "title": "Making a filter stays inside its arrays", "statement": "Making a filter reads and writes only elements of its arrays, whatever the numbers are.", "quantifier": "every type, order, sampling rate and corners, with any arithmetic", "why_tests_cant": "An overrun by one element rarely shows.", "anchors": ["src/temporalfilter.cc: makeFilter, expandPoly, bandpass, bandstop"]}
{"id": "C94", "title": "Asking a rule for an entry does not change the rule", "statement": "Looking up an entry of a rule tells whether the rule has it and has no other effect: in every history of calls the lookups can be left out without changing what the other calls do, and a lookup never makes a later call undefined.", "quantifier": "every history of calls on a rule, every metadata", "why_tests_cant": "Looking up an entry that is not there succeeds, and what it does shows only in later calls.", "anchors": ["src/Rule.cc: getEntry, addRule, rmRule, extent", "src/segy_utils.cc: extractParam, insertParam"]}
{"id": "C95", "title": "Metadata sets stay valid when their rule is changed afterwards", "statement": "A metadata set keeps its values, and every entry of its rule can be stored and read for each of its traces, also after the rule it shares with others has been extended or reduced.", "quantifier": "every rule, every entry added or removed, every number of traces", "why_tests_cant": "The sharing shows only if a rule is changed between making and using a set, and an overrun may go unnoticed.", "anchors": ["src/Param.cc: Param", "include/ExSeisDat/PIOL/param_utils.hh: getPrm, setPrm", "src/Rule.cc: addLong, rmRule"]}
{"id": "C96", "title": "A sort sees the metadata its rule asks for", "statement": "Each sort of a set of files is given the metadata named by its own rule, read from these files; what has been cached is reported as cached.", "quantifier": "every history of requests with any rules and files", "why_tests_cant": "One sort per workflow works; the second one with another rule does not.", "anchors": ["src/Flow/Cache.cc: getCache, getOutputTrace", "include/ExSeisDat/Flow/CacheElem.hh: checkPrm", "src/Flow/Set.cc: sort, calcFuncS"]}
{"id": "C97", "title": "The result of a sort is handed to the files completely", "statement": "After a sort each file has a new position for each of its traces, taken in turn from the list the sort returns, and a sort that is refused leaves the positions as they are.", "quantifier": "every number and size of files, every list, every distribution of traces over the ranks", "why_tests_cant": "The slices depend on the sizes of all files before; refusal depends on other ranks.", "anchors": ["src/Flow/Set.cc: calcFuncS, sort"]}
{"id": "C98", "title": "Angle gathers use the gather's own velocities", "statement": "Each sample of the output of the transform to angles is the sample at the same time of the input trace selected by the velocity that the gather's own model trace has at that time (the last one after its end), or zero where no such trace is there; each output trace is labelled with the gather's inline and crossline; nothing outside the arrays is read.", "quantifier": "every gather, model, bin width, number and spacing of angles and sample interval, with any cosine and any rounding of unrepresentable values", "why_tests_cant": "Needs a model that is shorter than the data; neighbouring gathers have similar velocities, so that a wrong one does not show.", "anchors": ["src/Flow/Set.cc: toAngle", "src/Flow/RadonGatherState.cc: makeState"]}
{"id": "C99", "title": "The KML file shows the coordinates of the file", "statement": "The text written for each coordinate in a KML file denotes the coordinate, to within the decimals it shows.", "quantifier": "every finite coordinate", "why_tests_cant": "The fraction is printed as an integer, so that only fractions below a tenth lose digits; a few coordinates need not have one.", "anchors": ["util/segy2kml.cc: highPrecStr"]}
{"id": "C100", "title": "The KML file places a survey where it is", "statement": "The corners of the survey are written longitude first and latitude second, as KML asks, whether the file holds degrees or coordinates of a zone.", "quantifier": "every extent of a survey, with and without a zone, every conversion", "why_tests_cant": "The order shows only if the file is displayed on a map, and it differs between the two branches.", "anchors": ["util/segy2kml.cc: main, writeKML"]}
{"id": "C101", "title": "The example copier reproduces every trace", "statement": "examples/creadwrite.c, run on any number of processes with any memory limit that holds one trace, on a file with IEEE samples and a positive sample interval, produces a file of the same number of traces and samples and the same interval. Whatever the order in which the calls of the processes take effect, every sample, the trace number, offset, in-line and cross-line of every trace are those of the input, and the source, receiver and midpoint coordinates are the same numbers when the input scale factor is 0, 1, -10, -100, -1000 or -10000. Every process makes the same number of calls.", "quantifier": "all such input files, process counts, memory limits, contents of fresh buffers, I/O block sizes and interleavings", "why_tests_cant": "one run checks one file on one number of processes; the loop, the padding of empty calls, the scale factor search and the collective I/O interact", "anchors": ["examples/creadwrite.c: readWriteFullTrace, writePayload, ReadWriteFile", "src/ReadSEGY.cc: readTraceT", "src/WriteSEGY.cc: writeTraceT", "src/segy_utils.cc: insertParam, extractParam"]}
{"id": "C102", "title": "The example copier works for every readable file, memory limit and process count", "statement": "examples/creadwrite.c copies every file that opens without error, for any memory limit, in any build, and its -p option gives a result that does not depend on the number of processes or the memory limit.", "quantifier": "all readable input files, memory limits, process counts and builds", "why_tests_cant": "needs files, limits and builds nobody thought of testing", "anchors": ["examples/creadwrite.c: readWriteFullTrace, writePayload, SourceX1600Y2400", "src/WriteSEGY.cc: writeInc"]}
{"id": "C103", "title": "A set without operations concatenates its files byte for byte", "statement": "Files added to a set and written without any operation: for every group of files with the same number of samples and sample interval, all processes make the same number of calls on the output file, and whatever the order in which the calls take effect the output file reopens with that number of samples and interval, has as many traces as the files together, and trace i of the k-th file is, all 240 header bytes and all samples, the trace after all the traces of the earlier files and the i earlier ones of its own. More generally every output position gets, byte for byte, the trace that the set assigns to it.", "quantifier": "every list of files with IEEE samples and a positive interval, every number of processes, every split of the collective reads, every interleaving of the calls, every comparison sort of the standard library", "why_tests_cant": "needs every list of file sizes, every number of processes and every interleaving of parallel writes", "anchors": ["src/Flow/Set.cc: Set::startSingle, Set::add", "util/concatenate.cc: main", "src/WriteSEGY.cc: writeTraceNonContiguous", "src/ReadSEGY.cc: readTraceNonContiguous"]}
{"id": "C104", "title": "Sorting a file of a set writes every trace once, in the order asked for", "statement": "A set with one file that has at least four traces per process, sorted by any of the nine orders and written: the sort comes to an end; all processes make the same number of calls on the output file; and there is one rearrangement of the input traces, determined before any call takes effect, sorted by the keys of the order with equal keys in input order, such that whatever the order in which the calls take effect the output file reopens with the number of samples, traces and interval of the input and has at every position the trace the rearrangement puts there: all samples, trace number, offset, in-line and cross-line, all header bytes outside the sorted fields, and, with a scale factor that does not enlarge, the same source, receiver and midpoint coordinates and water depth. If all traces have the same coordinate scale factor and no negative offset, the order is the order of the numbers stored in the headers.", "quantifier": "every file with IEEE samples and a positive interval, every number of processes with at least four traces each, every order, every split of the collective reads, every interleaving of the calls, every comparison sort of the standard library", "why_tests_cant": "needs every arrangement of keys over processes and every interleaving of the parallel writes; a test sorts a few small files", "anchors": ["src/Flow/Set.cc: Set::sort, Set::startSingle", "src/Flow/Cache.cc: CoordCache/Cache loading of parameters", "src/sort.cc: sort, getComp", "util/sort.cc: main"]}
{"id": "C105", "title": "A set with trace operations writes every header unchanged and every trace run through the operations", "statement": "A set with a list of per-trace operations (taper, gain control) that are defined on every trace of its files, and then written: all processes make the same number of calls on the output file; whatever the order in which the calls take effect, the output reopens with the number of samples, the total number of traces and the interval, and at every position it has all 240 header bytes of the trace that goes there and, as samples, the result of the operations applied in the order they were asked for to the samples of that trace alone; neither the number of processes nor the blocks the set works in make a difference. For a taper: every trace that has a non-zero sample is tapered from its first non-zero sample on, with ramps cut to what is left of the trace.", "quantifier": "every group of files with IEEE samples, every placement of their traces, every list of operations that keep the number of samples, every number of processes, every split of the collective reads, every interleaving of the calls", "why_tests_cant": "a test runs an operation on one array in memory; whether blocks, processes and permutations leave the result the same needs every file and every interleaving", "anchors": ["src/Flow/Set.cc: Set::startSingle, Set::calcFunc, Set::taper, Set::AGC", "src/utils/signal_processing/taper.cc: taper", "src/utils/signal_processing/AGC.cc: AGC"]}
{"id": "C106", "title": "Writing a set keeps to its memory limit", "statement": "While a set is written, the arrays a process holds for the block of traces it works on (samples and metadata before and after reordering, the transfer buffer, positions, lengths) together never exceed 1 GiB plus eight bytes per process, at any moment, whatever the number of files, traces and processes, the length of the traces and the metadata asked for; when the file is written all of it has been released.", "quantifier": "every number of files, traces per process and processes, every number of samples a SEG-Y header can hold, every rule of less than 4 GiB per trace, every moment of the run", "why_tests_cant": "the limit only matters for files that do not fit in the memory of a test machine, and a peak can lie at any moment of a run", "anchors": ["src/Flow/Set.cc: Set::startSingle", "src/Rule.cc: Rule::paramMem", "src/Param.cc: Param::Param", "src/ReadSEGY.cc: readTraceT", "src/WriteSEGY.cc: writeTraceT", "src/ObjectSEGY.cc: readDO, writeDO", "src/DataMPIIO.cc: listIO, randBlockView"]}
{"id": "C107", "title": "The example that creates a file writes the documented traces", "statement": "The example program that creates a file writes, on any number of processes and in any interleaving, a file of exactly the number of traces and samples asked for, with the interval and text asked for. Trace i has source 1600+i, 2400+i, receiver 100000+i, 3000000+i, midpoint 10000+i, 4000+i, in-line 2400+i, cross-line 1600+i and number i; sample k of it is i*ns+k; numbers are rounded to single precision where the program computes in single precision. Distinct traces have distinct coordinates.", "quantifier": "every number of processes, every interleaving of their calls, every previous content of the output, up to 2^30 traces of up to 32767 samples, every interval from 1 to 32767 microseconds", "why_tests_cant": "The traces are written in blocks by several processes through shared functions that set metadata by position in the block; a mistake in an offset shows only for some numbers of processes, and rounding shows only beyond 2^24 traces.", "anchors": ["examples/exampleCreateFile.cc: createFile, writePayload", "src/Param.cc: setPrm", "src/WriteSEGYModel.cc", "src/WriteSEGY.cc: writeTrace"]}
{"id": "C108", "title": "The example that changes headers exchanges the source coordinates and nothing else", "statement": "The example program modprm writes, on any number of processes and in any interleaving, a file with the number of traces and samples, the interval and the text of its input, in which every trace has the header fields of the input with the two source coordinates exchanged; samples an existing output file already has at these places stay as they are.", "quantifier": "every readable input file, number of processes, interleaving of the calls and previous content of the output file", "why_tests_cant": "Headers are read, exchanged and written in blocks by several processes; a mistake in an offset, in the order of reads and writes or in the scale of the coordinates shows only for some sizes and values.", "anchors": ["examples/modprm.c: readwriteParam, writeHeader, writePayload, main", "src/ReadSEGY.cc: readTrace", "src/WriteSEGY.cc: writeTrace", "src/Param.cc: getPrm, setPrm"]}
{"id": "C109", "title": "The option of the example copier that changes samples writes a straight line into every trace", "statement": "With the option -t the example copier gives sample k of every trace the value 2k plus the number of the first trace of the block it is copied in; headers are copied.", "quantifier": "every readable input file, memory limit, number of processes and interleaving", "why_tests_cant": "The buffer of a block holds several traces, and how many depends on the memory limit, the length of the traces and the number of processes.", "anchors": ["examples/creadwrite.c: readWriteFullTrace, TraceLinearInc"]}
{"id": "C110", "title": "Rules are independent values whose memory is neither leaked nor freed twice", "statement": "In every program that makes rules (from metadata or from a map of entries), changes them, adds one to another, copies and destroys them, no memory is used after it was freed, a change to one rule is not seen in another, and when all rules are destroyed all memory of their entries has been freed exactly once.", "quantifier": "every finite sequence of constructions, calls, copies and destructions over any number of rules", "why_tests_cant": "A use after free often goes unnoticed in a test run, and which pointers two rules share depends on the whole history of calls.", "anchors": ["src/Rule.cc:Rule", "src/Rule.cc:~Rule", "src/Rule.cc:rmRule", "src/Rule.cc:addRule", "src/Rule.cc:addCopy", "include/ExSeisDat/PIOL/Rule.hh:Rule"]}
{"id": "C111", "title": "A rule made from a map of entries stores every value in a slot of its own", "statement": "A rule constructed from a map of entries holds exactly those entries, counts them by type and gives every value a slot of its own within the array of its type, at once and after every later history of changes.", "quantifier": "every map of entries and every history of calls on the rule", "why_tests_cant": "The slots come from numbers in the entries, which the constructor takes over; whether they clash depends on all entries of a type together.", "anchors": ["src/Rule.cc:Rule(RuleMap, bool)", "include/ExSeisDat/PIOL/Rule.hh:RuleMap", "include/ExSeisDat/PIOL/RuleEntry.hh:RuleEntry"]}
{"id": "C112", "title": "The C example that makes a file writes a file with the announced header and traces", "statement": "Run on any number of processes, the C version of the example that makes a file leaves a file whose header announces the requested number of samples, interval and text, and whose traces hold the promised in-line, cross-line, trace numbers, coordinates and samples.", "quantifier": "every number of traces and samples, every sample interval below a second, every number of processes and every interleaving of their calls, every earlier content of the file", "why_tests_cant": "The example runs to its end and writes all traces whatever happens to the header; a test on one size and one process cannot tell which intervals lose it.", "anchors": ["examples/exampleCreateFile.c:createFile", "examples/exampleCreateFile.c:main", "src/PIOL_C_bindings.cc:PIOL_File_WriteDirect_writeInc", "src/WriteSEGY.cc:writeInc", "src/WriteSEGY.cc:~WriteSEGY"]}
{"id": "C113", "title": "The C example that copies a file copies it", "statement": "Run on any number of processes, the C example that copies a file in one go leaves a file with the same number of samples and traces, the same interval, and the same trace headers and samples as the input.", "quantifier": "every input file that opens, every number of traces and samples, every number of processes and every interleaving of their calls, every earlier content of the output", "why_tests_cant": "The two sizes are handed over the wrong way round, which a test on a file with as many traces as samples cannot see; what is written otherwise depends on the number of processes.", "anchors": ["examples/example2.c:main", "src/PIOL_C_bindings.cc:PIOL_File_WriteDirect_writeNs", "src/WriteSEGY.cc:writeNs", "src/WriteSEGY.cc:writeTrace"]}
{"id": "C114", "title": "The first example makes the file its source describes", "statement": "The first example, in its C++ and in its C version, run on any number of processes, leaves a file of 40000 traces of 1000 samples with the text header, the interval, the coordinates, the line numbers and the samples that its source states.", "quantifier": "every number of processes, every interleaving of their calls, every limit on a transfer, every earlier content of the output", "why_tests_cant": "The interval passes through a conversion to sixteen bits, which no test that looks at traces only can see; that no process writes over the traces of another has to hold for every number of processes and every schedule.", "anchors": ["/repo/examples/example1.cc: main", "/repo/examples/example1.c: main", "/repo/src/WriteSEGY.cc: writeInc"]}
{"id": "C115", "title": "A file the sort program has written is accepted by the program that verifies the order", "statement": "After sorting a file and writing the result, on any number of processes, the verifying program asked for the same order reports success on every process; and it reports success on all processes only for files in that order.", "quantifier": "every input file that opens with at least four traces per process, every order, every number of sorting and of verifying processes, every interleaving of the calls, every correct standard sort", "why_tests_cant": "Whether the numbers written read back in the same order depends on the scale chosen for each trace separately; a test with whole coordinates passes always.", "anchors": ["/repo/util/verifysort.cc: main", "/repo/util/sort.cc: main", "/repo/src/sort.cc: checkOrder", "/repo/src/segy_utils.cc: find_scalar"]}
{"id": "C116", "title": "Sorting a sorted file changes nothing", "statement": "A file whose traces already stand in the order asked for comes out of the sort program with every trace at its place, whatever the number of processes. In particular sorting the output of the sort program again by the same order leaves every trace where it is, for the orders by lines and by stored offset and for files whose coordinates are multiples of a sixteenth. With other fractional coordinates stored at different scales it is false: a second sort can exchange traces.", "quantifier": "every conforming input file, order, number of processes of the first and of the second run, block sizes and interleaving of the calls", "why_tests_cant": "A test sorts a few files once; that a second sort is the identity depends on every pair of neighbouring traces, on the values changing or not when the header is rewritten with one common scale, and on the number of processes of both runs", "anchors": ["src/Flow/Set.cc: Set::sort, Set::calcFunc, Set::output", "src/Sort.cc: Sort", "util/sort.cc: main"]}
{"id": "C117", "title": "The extremes program writes the extreme traces of the file", "statement": "The program that finds the extreme coordinates of a file writes a new file of twelve traces: for source x, source y, receiver x, receiver y, midpoint x and midpoint y the trace with the smallest and the trace with the largest value, each with its number, lines, offset and coordinates. The value is extreme among all traces of the input, whatever the scale factors in the headers and however many processes share the search; the new file reopens with one sample per trace, twelve traces and the interval of the input.", "quantifier": "every readable input file with at most 2^31 traces, every number of processes, every order in which their calls take effect", "why_tests_cant": "The extreme trace may be any trace of any rank; coordinates with different scale factors are compared as rounded doubles; ties and ranks without traces must be handled for every distribution.", "anchors": ["util/minmax.cc", "src/minmax.cc: getMinMax", "include/ExSeisDat/PIOL/operations/minmax.h: getMinMax"]}
{"id": "C118", "title": "Sorting several files into one", "statement": "A set of several files with the same trace length and interval, sorted by one of the nine orders and written, gives one file that holds every trace of every input file exactly once, each with its samples and header values, in the order asked for; traces with equal keys come in the order of their numbers, file after file. This holds on one process, on two processes when the files are listed from the smallest to the largest, and on any number when the files have the same size, always with at least four traces on each process. In general it is false on several processes: with two files of 8 and 4 traces on two processes the traces of the second process are numbered wrongly and the file written is not in order.", "quantifier": "every set of conforming files, every order, every sorting routine that sorts; one process, two processes with growing files, or files of one size, and every interleaving of the calls (otherwise refuted by concrete files on two and on three processes)", "why_tests_cant": "The numbers that connect sorted rows with traces depend on the sizes of all files and on the number of processes; tests use one file, or files of equal size, for which the numbers happen to be right.", "anchors": ["src/Flow/Set.cc: Set::sort, Set::output", "src/Flow/Cache.cc", "src/sort.cc: sort, calculateFinalIndices", "util/sort.cc: main"]}
{"id": "C119", "title": "The extremes of a set of files", "statement": "The minimum-and-maximum program that works on a set of several files (getMinMax of a set, called for the source, receiver and midpoint coordinates) ends on any number of processes and reports twelve pairs of a value and a trace number. Each smallest value is that of a trace with the reported number in one of the files, and no trace of any file has a smaller coordinate; the same holds for each largest value. The report does not depend on the order in which the files are given, and it tells which trace of the set has the extreme.", "quantifier": "Every non-empty set of readable files of any lengths, every number of processes and every chunk size.", "why_tests_cant": "Each search runs over gathered values of several ranks and is merged over files of any number; wrong starting values only show on files without a positive coordinate, and a wrong merge only on particular orders of files.", "anchors": ["src/Flow/Set.cc:517-570,726-748 (Set::getMinMax)", "include/ExSeisDat/PIOL/operations/minmax.h", "examples/minmax.cc", "examples/minmax.c"]}
{"id": "C120", "title": "The listing of SEG-Y files is complete and right", "statement": "The assess program counts all names its pattern finds and describes exactly those that end in sgy or segy, in any mix of upper and lower case, in their order; for each it gives the samples per trace and the interval of the binary header, the text and the number of whole traces that fit the size of the file.", "quantifier": "Every list of names and files with a readable header, every chunk size.", "why_tests_cant": "Names and files range over infinite sets; a pattern that matches too much or too little shows only on names not tried.", "anchors": ["util/assess.cc", "src/ReadSEGY.cc"]}
{"id": "C121", "title": "A file opened many times reads the same each time", "statement": "Opening a file any number of times gives the same text, sizes and interval each time, however the reads are cut into chunks. The program that checks this ends normally on every file with a readable header, and would quit if any of its handles read something else.", "quantifier": "Every file with a readable header, every number of rounds and handles, every chunk size of every opening; for the last part every possible reading of every handle.", "why_tests_cant": "The check itself is a program; whether it looks at every handle cannot be seen while all handles agree.", "anchors": ["util/cropen.c (testManyFiles)", "src/ReadSEGY.cc", "src/ReadDirect.cc"]}
{"id": "C122", "title": "The program that describes a trace prints the values of that trace", "statement": "Asked about a trace of a file, the program prints the six coordinates of that trace, each scaled by the factor in its own header, and its in-line and cross-line; asked about a trace the file does not have, it fails.", "quantifier": "every file that opens, every trace number, every value of the fields and of the scale factor", "why_tests_cant": "A test prints one trace of one file; line numbers are fetched as unsigned numbers, which only negative lines show, and a number past the end is not an error for the reader.", "anchors": ["util/traceanalysis.cc: main", "include/ExSeisDat/PIOL/param_utils.hh: getPrm", "src/ReadSEGY.cc: ReadSEGY::readTrace"]}
