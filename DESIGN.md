# Formal model of ExSeisDat in Rocq

The source under study is ICHEC/ExSeisDat (C++, in /repo, read as text only).
The model lives in `rocq/theories` (logical name `Verif`). It is a set of executable
Gallina functions, one group per source file, each with a comment citing the file and
lines it models. Properties are numbered as in `properties.jsonl`.

## Conventions of the model

* `size_t`, `int`, `int16_t`, ... are `Z` with the wrap-around written out (`mod 2^64`,
  two's complement) wherever the property is about machine arithmetic. List-shaped
  algorithms use `nat` lengths.
* Undefined behaviour (out-of-range shift, division by zero, out-of-bounds access) is a
  distinct outcome: the functions return `None`, or `Undefined` where an abort by a failed
  assertion must be told apart (`SignalModel.outcome`).
* `double` is Flocq's `binary_float 53 1024` and `float` is `binary_float 24 128`, rounding to
  nearest even, so every rounding step of the code is in the model. In the file layer a `float` is
  its 32-bit pattern.
* A file is its size and a total function from byte positions to bytes. MPI-IO transfers
  are functions on it; reads beyond the end leave the caller's buffer unchanged.
* `p` MPI processes are a list of local states, or a function of the rank; a collective step is a
  function of the list. A deadlock shows as differing numbers of collective calls.
* The default build of the project is Release, where `assert` is off. Theorems about the Debug
  build say so in their names or comments.
* A property that is false of the code is *refuted*: a theorem with the suffix `_refuted` shows
  it, and further theorems with the suffix `_partial` say for which inputs the property holds. The
  full statement stays in `properties.jsonl`; the manifest gives the status `partial`.

## Files

`XModel.v` holds only definitions, `XSpec.v` the independent specification, `XProofs.v` lemmas, and
`XProperties.v` the property theorems (names starting with the property number), each followed by
`Print Assumptions` and accompanied by an `Example` that shows a case meeting its hypotheses.
Some `Properties` files also hold the lemmas only they need.

## Plan and proof per property

* **C01 Block decomposition partitions the range** (proved) - Decomp: size_t arithmetic in Z with explicit mod 2^64. Proof: nia on quotient/remainder; partition stated on index sets. Theorems in DecompProperties.
* **C02 Block decomposition is balanced** (proved) - Decomp: same model. Theorems in DecompProperties.
* **C03 block_decomposition_location is the inverse of block_decomposition** (proved) - Decomp: location in Z, division by zero and wrap explicit (option); proved inverse of the decomposition. Theorems in DecompProperties.
* **C04 Block-aligned file decomposition partitions a byte range** (partial) - Decomp: blockDecomp with wrap; partition proved under the no-underflow guard, refutation for files smaller than one block. Theorems in DecompProperties.
* **C05 Big-endian number encoding is lossless and MSB first** (proved) - NumEnc: bytes as Z in [0,256); Z.div_mod / testbit lemmas. Theorems in NumEncProperties.
* **C06 IBM float conversion is exact where IEEE single can represent the value** (partial) - NumEncModel: from_IBM/to_float on bit patterns; the value of a pattern is a real number (NumEncSpec); undefined shifts are None. Theorems in NumEncProperties.
* **C07 IBM overflow and underflow are handled as IEEE** (partial) - NumEncModel: as C06; rounding is Flocq's round to nearest even. Theorems in NumEncProperties.
* **C08 IBM conversion is correct for every bit pattern** (partial) - NumEnc: refutation by witness (unnormalised fraction; shift by >= 64). Theorems in NumEncProperties.
* **C09 Traces stored in IBM format are read correctly** (partial) - NumEncModel and FileModel: the path float -> double -> first four bytes; refutation and characterisation. Theorems in CrashProperties, EdgeProperties.
* **C10 ASCII/EBCDIC conversion round trips on the shared repertoire** (proved) - CharEnc: the literal 126 row table, insertion-sorted, lower_bound; finite sweep over all 256 bytes lifted by forallb_forall. Theorems in CharEncProperties.
* **C11 Unrepresentable characters become SUB** (partial) - CharEnc: refutation by witness, and exact characterisation of what is returned. Theorems in CharEncProperties.
* **C12 The text header round trips** (partial) - CharEncModel and FileModel: padding by the writer and the vote of the reader; proved when the vote is right, refuted in general. Theorems in CharEncProperties.
* **C13 Traces tile the file without overlap** (proved) - Layout: Z arithmetic. Theorems in LayoutProperties.
* **C14 The number of traces is recovered from the file size** (proved) - Layout: Z arithmetic. Theorems in LayoutProperties.
* **C15 Opening any file is safe** (partial) - LayoutModel/FileModel: sign extension of int16 to size_t; refuted for a negative sample count, proved for 0..32767. Theorems in LayoutProperties.
* **C16 Contiguous reads are independent of internal chunking** (proved) - DataIO: file = size + byte function; loop on fuel; induction on chunks. Theorems in DataIOProperties.
* **C17 Writes store exactly the given bytes and nothing else** (proved) - DataIO: same. Theorems in DataIOProperties.
* **C18 Strided block I/O touches exactly the requested blocks** (proved) - DataIO: strided views. Theorems in DataIOProperties.
* **C19 List I/O touches exactly the requested blocks** (proved) - DataIO: indexed views. Theorems in DataIOProperties.
* **C20 Collective I/O calls match on all ranks** (proved) - DataIO: number of collective calls as a function of the list of all ranks' sizes. Theorems in DataIOProperties.
* **C21 No transfer exceeds the MPI count limit** (proved) - DataIO: same. Theorems in DataIOProperties.
* **C22 I/O errors are reported** (partial) - DataIO: error-code transcript; refutation. Theorems in DataIOProperties.
* **C23 Contiguous and list-based trace access agree** (proved) - DataIOModel: the object layer on top of the transfers. Theorems in DataIOProperties.
* **C24 Header-only, sample-only and full access agree** (proved) - DataIOModel and FileModel. Theorems in DataIOProperties.
* **C25 A rule's slots are dense and unique in every history** (partial) - RuleModel: assoc-list translate map, op histories; invariant. Theorems in RuleProperties.
* **C26 Adding an existing entry changes nothing and removing is local** (proved) - RuleModel. Theorems in RuleProperties.
* **C27 Predefined header fields do not overlap** (proved) - RuleModel: table, finite sweep. Theorems in RuleProperties.
* **C28 Reading and writing metadata stays inside the buffers for every rule** (partial) - ParamModel/RuleModel: refuted for partial extents, proved for full extents; ExtentProperties says what the extent is and that the only fault is an offset of one. Theorems in ExtentProperties, ParamProperties.
* **C29 Metadata set/get is a faithful store** (proved) - ParamModel. Theorems in ParamProperties.
* **C30 Copying a trace's metadata preserves the shared entries** (proved) - ParamModel. Theorems in ParamProperties.
* **C31 Integer metadata round trips through the trace header** (proved) - ParamModel: insertion and extraction of header fields. Theorems in ParamProperties.
* **C32 Metadata wider than the field is not silently altered** (partial) - ParamModel: refutation. Theorems in EdgeProperties, ParamProperties.
* **C33 The stored scale factor does not depend on iteration order** (proved) - ParamModel: fold over a permutation of the entries. Theorems in ParamProperties.
* **C34 Coordinates survive a round trip to the scale's precision** (proved) - ParamModel with Flocq doubles; the error bound is over the reals. Theorems in ParamProperties.
* **C35 Coordinates with at most four decimals round trip exactly** (partial) - Scalar witness (refuted); DecimalSpec says when a double stands for a number of ten-thousandths; the scale found for it, the integer stored and the double read back are worked out with Flocq's rounding (DecimalProofs). Theorems in DecimalProperties, ParamProperties.
* **C36 Coordinates sharing a scale factor do not corrupt each other** (partial) - Scalar witness (refuted); the positive part from DecimalProofs. Theorems in DecimalProperties, ParamProperties.
* **C37 Header bytes outside the rule are preserved in copy mode** (partial) - ParamModel. Theorems in ParamProperties.
* **C38 Parsing scale factors follows the SEG-Y convention** (proved) - ParamModel. Theorems in ParamProperties.
* **C39 After close the file has the size of all traces written** (partial) - FileModel: state machine of p processes over operation histories. Theorems in FileProperties, TraceProperties.
* **C40 Number of samples, traces and sample interval round trip** (partial) - FileModel. Theorems in FileProperties.
* **C41 Sample intervals that do not fit are reported** (partial) - FileModel (refuted). Theorems in FileProperties.
* **C42 Traces written are the traces read** (proved) - FileModel: refinement to a map from trace numbers to samples. Theorems in TraceProperties.
* **C43 Writing does not change the caller's samples** (proved) - FileModel. Theorems in TraceProperties.
* **C44 Reading past the end is clamped** (partial) - FileModel: with wrap-around; proved for offset <= nt, refuted beyond. Theorems in TraceProperties.
* **C45 Non-monotonic reads return the requested traces in the requested order** (partial) - FileModel and SortModel. Theorems in OrderProperties.
* **C46 List-based writes are counted completely** (partial) - FileModel: refuted; proved for increasing lists. Theorems in OrderProperties.
* **C47 A file whose writer died is not taken for a valid file** (partial) - FileModel: crash after any prefix of the writes (refuted). Theorems in CrashProperties.
* **C48 Oversized sample counts are rejected** (partial) - FileModel and CommModel. Theorems in CrashProperties.
* **C49 Every read labels traces with their file position** (proved) - FileModel. Theorems in TraceProperties.
* **C50 The sort orders are strict total orders** (partial) - SortModel: comparison functions on Flocq doubles. Theorems in SortProperties.
* **C51 getSortIndex returns a sorting permutation** (proved) - SortModel: std::sort with a strict order as insertion sort (unique result). Theorems in SortProperties.
* **C52 Parallel sort result is a globally sorted permutation** (proved) - SortModel: rounds over the list of the processes' lists. Theorems in SortProperties.
* **C53 Parallel sort terminates** (proved) - SortModel: the inversions decrease. Theorems in SortProperties.
* **C54 Parallel sort is correct for every distribution the API accepts** (partial) - SortModel: witness. Theorems in SortProperties.
* **C55 The final position list is the inverse of the order** (partial) - SortModel. Theorems in ReduceProperties, SortProperties.
* **C56 checkOrder accepts exactly the sorted files** (partial) - SortModel: witness and partial theorems. Theorems in SortProperties.
* **C57 Min/max search returns the global extremes** (proved) - MinMaxModel. Theorems in MinMaxProperties.
* **C58 Min/max ties are decided by the second coordinate** (partial) - MinMaxModel: witness. Theorems in MinMaxProperties.
* **C59 Set::getMinMax over several files is the min/max of all files** (partial) - MinMaxModel: fold over the files; witness. Theorems in MinMaxProperties.
* **C60 Gather detection is the run-length encoding of the file** (partial) - GatherModel: run-length encoding as specification. Theorems in GatherProperties.
* **C61 Each gather is processed exactly once** (partial) - GatherModel. Theorems in GatherProperties.
* **C62 The distributed vector is a faithful shared array** (partial) - CommModel: windows with displacement unit and bounds. Theorems in CommProperties.
* **C63 Concatenation keeps every trace once, in order** (proved) - FlowModel. Theorems in FlowProperties.
* **C64 Block-wise processing covers each local trace once with matching collective calls** (proved) - FlowModel. Theorems in FlowProperties.
* **C65 Chained operations are applied in the requested order** (partial) - FlowModel: interpreter of the function list. Theorems in FlowProperties.
* **C66 Outputs of different groups do not overwrite each other** (partial) - FlowModel: names as strings. Theorems in FlowProperties.
* **C67 Model lookup finds the trace at an inline/crossline** (partial) - UtilModel: 64-bit arithmetic. Theorems in UtilProperties.
* **C68 Tapering changes only the taper zones** (partial) - SignalModel on Flocq floats. Theorems in GainProperties, SignalProperties.
* **C69 AGC windows are centred, clipped and in bounds** (proved) - SignalModel. Theorems in SignalProperties.
* **C70 Gain functions compute the documented averages in bounds** (partial) - SignalModel on Flocq floats. Theorems in GainProperties.
* **C71 4D binning finds the closest pair** (partial) - FourDModel on Flocq floats. Theorems in FourDEdgeProperties, FourDLineProperties, FourDProperties.
* **C72 The error state is sticky and complete** (proved) - CommModel. Theorems in CommProperties, FlushProperties.
* **C73 Rank offsets are exclusive prefix sums** (partial) - CommModel. Theorems in CommProperties, ReduceProperties.
* **C74 File replication repeats the payload** (partial) - RepModel: positions written by all processes. Theorems in RepProperties, RepSmallProperties, StdProperties.
* **C75 Random-offset file creation covers every trace once** (proved) - UtilModel. Theorems in UtilProperties.
* **C76 Temporal filter windows stay inside the trace** (partial) - SignalModel. Theorems in GainProperties.
* **C77 The uneven decomposition is a partition** (partial) - DecompModel. Theorems in DecompProperties.
* **C78 Metadata written are the metadata read** (proved) - FileModel and ParamModel: write, close, open, read. Theorems in MetaProperties.
* **C79 The output call returns the names of the files it wrote** (partial) - FlowModel. Theorems in FlowProperties.
* **C80 Padding before time-domain filtering repeats the window's own samples** (partial) - SignalModel. Theorems in GainProperties.
* **C81 Automatic filter order works for all four filter types** (partial) - SignalModel: which of the corners are read. Theorems in GainProperties.
* **C82 The linear taper rises from 0 to 1** (proved) - SignalModel on Flocq floats. Theorems in SignalProperties.
* **C83 Fetching another process's coordinates stays inside its window** (partial) - FourDModel. Theorems in EdgeProperties, FourDEdgeProperties.
* **C84 The test file maker makes the same file on any number of processes** (partial) - ToolModel. Theorems in MadeProperties, ToolProperties.
* **C85 minmax writes exactly the traces of the extremes** (proved) - ToolModel on MinMaxModel. Theorems in ToolProperties.
* **C86 Reading coordinates for 4D binning: same collective calls, right places** (partial) - ToolModel: batches and collective calls; refutations. Theorems in ToolProperties.
* **C87 The two outputs of 4D binning pair up** (proved) - ToolModel. Theorems in ToolProperties.
* **C88 Expanding roots gives the polynomial that has them** (proved) - FilterModel models expandPoly, makeFilter and the four transforms over an abstract arithmetic; the exact instance uses the real and complex numbers. The loops that expand products are shown to give the coefficients of the product (FilterProofs, any arithmetic). Theorems in FilterProperties.
* **C89 Applying a filter solves its difference equation** (proved) - IIR and zi_list in FilterModel; the loop invariant is the difference equation, whose solution is unique. Theorems in FilterRunProperties.
* **C90 Filtering in time keeps constant traces (or removes them)** (partial) - filter_passes and filterTime in FilterModel; from C89 and C91 for a constant padded trace, computation with floats for the refutation. Theorems in FilterRunProperties.
* **C91 The filters have Butterworth's response** (proved) - The numerator and denominator of makeFilter are factored over the poles (FilterAlgebra, FilterExact); the product over the poles is the Butterworth polynomial by the factorisation of x^n+1 over the roots of unity. Theorems in FilterProperties.
* **C92 The filters are stable** (proved) - No zero of the denominator in the closed unit disc, from the sign of the real part of the poles. Theorems in FilterProperties.
* **C93 Making a filter stays inside its arrays** (partial) - Array bounds of every loop in makeFilter, for any arithmetic. Theorems in FilterProperties.
* **C94 Asking a rule for an entry does not change the rule** (partial) - QueryModel adds to a rule the entries that a lookup leaves behind as null pointers; histories with lookups are compared with the same histories without them by induction. Theorems in QueryProperties.
* **C95 Metadata sets stay valid when their rule is changed afterwards** (partial) - with_rule in QueryModel replaces the shared rule of a parameter set; the places of entries are computed before and after. Theorems in QueryProperties.
* **C96 A sort sees the metadata its rule asks for** (partial) - CacheModel: the cache as a list of blocks keyed by the files; induction over the history of requests with the invariant that each block holds what the first rule asked for. Theorems in CacheProperties, FlushProperties.
* **C97 The result of a sort is handed to the files completely** (partial) - hand_out and sort_list in CacheModel; induction over the files. Theorems in CacheProperties.
* **C98 Angle gathers use the gather's own velocities** (partial) - AngleModel: the loops over angles and samples with doubles; cosine and rounding are arbitrary functions. The loop invariant is a table of the samples done so far. Theorems in AngleProperties.
* **C99 The KML file shows the coordinates of the file** (partial) - KmlModel: highPrecStr with doubles; KmlSpec says which number a text denotes; the digits printed for a non-negative integer are shown to denote it. Theorems in KmlProperties.
* **C100 The KML file places a survey where it is** (partial) - kml_points in KmlModel with the conversion as a parameter; the order of each pair is compared with lon_lat. Theorems in KmlProperties.
* **C101 The example copier reproduces every trace** (proved) - Model creadwrite.c as the list of write calls of a rank (ExampleModel); say what a copied trace is in terms of header bytes (CopySpec); combine the reading theorem, the writing theorem and the block decomposition: announcements, then writes whose data come from the input, in any interleaving. Theorems in CopyProperties.
* **C102 The example copier works for every readable file, memory limit and process count** (partial) - Compute the model on the cases in which the claim fails; the memory limit, the assertion and the command line for all inputs. For -p show which block a trace belongs to and that every call writes a piece of one array of headers. Theorems in CopyCaseProperties, ModProperties.
* **C103 A set without operations concatenates its files byte for byte** (proved) - Model the calls of startSingle on the output file of a group for a list of operations that leaves traces alone (SetFileModel), with the real reader, the metadata copy and the writer; show that every call carries whole headers and samples of its sources; combine with the theorem about histories of writes and with the positions of added files (C58). Theorems in SetFileProperties.
* **C104 Sorting a file of a set writes every trace once, in the order asked for** (proved) - Model the cached rows, their numbers and the distribution of the sorted positions (SetSortModel); show that the rows are the headers of the traces and that the orders are strict total orders on them; use the theorems about the parallel sort (C50, C52, C53, C55) for the positions and the general theorem of C103 for the file. Theorems in SetLeadProperties, SetSortProperties.
* **C105 A set with trace operations writes every header unchanged and every trace run through the operations** (partial) - Model the loops over the traces of a block and the chain of operations on the buffer of a call (SetOpsModel); show that a chain acts on each trace alone; generalise the theorem about histories of writes to samples that satisfy a relation (C103) and read off the output; use C68 for the taper. Theorems in SetOpsProperties.
* **C106 Writing a set keeps to its memory limit** (proved) - Model the allocations and releases of one block, of the calls without traces and of all files of a group as a list of events (MemoryModel), with the sizes of the metadata arrays of ParamModel; show that brackets of allocations add up to the denominator of Set.cc:206 and that a block is no longer than the quotient. Theorems in MemoryProperties.
* **C107 The example that creates a file writes the documented traces** (partial) - Model the program per process as a list of calls to the output file (CreateModel); show that every call writes a piece of one array of traces (PieceProofs), apply the theorem about histories of writes, and evaluate the arithmetic with Flocq. Theorems in CreateProperties.
* **C108 The example that changes headers exchanges the source coordinates and nothing else** (proved) - Model the program per process as blocks (ModModel: block_program); show where the blocks begin, that the exchanged metadata are those of the header with two fields exchanged, and apply the theorems about histories of calls that write pieces of one array (PieceProofs). Theorems in ModProperties.
* **C109 The option of the example copier that changes samples writes a straight line into every trace** (partial) - As C108, with the samples: describe the buffer after the loop by induction on the number of traces; evaluate the double and the conversion to float with Flocq; compute a file on which the claim fails. Theorems in ModProperties.
* **C110 Rules are independent values whose memory is neither leaked nor freed twice** (partial) - Model the entries as cells of a heap and the rules as maps to addresses (OwnModel); show for every operation that it refines the operation of RuleModel and touches only the cells of its own rule, then an invariant over programs: allocated cells = owned cells, each owned once. For copies compute the double free for any state. Theorems in OwnProperties.
* **C111 A rule made from a map of entries stores every value in a slot of its own** (partial) - Show that the constructor establishes the invariant of C25 when the numbers are dense; conversely count: distinct numbers below the count are a permutation. Theorems in OwnProperties.
* **C112 The C example that makes a file writes a file with the announced header and traces** (partial) - Model the calls of the C example (CreateCModel). Compare the run with the run of the same calls with a good interval, which touches the same bytes from 3600 on and falls under C107's argument; closing after an error is the identity. Theorems in CreateCProperties.
* **C113 The C example that copies a file copies it** (partial) - Model the calls of the C example (ExTwoModel) with an array of local_nt*ns samples. Use C101's argument with the sizes exchanged: a sample of the output is found by division in the array of its process. Theorems in ExTwoProperties.
* **C114 The first example makes the file its source describes** (partial) - Model both programs (ExOneModel) as calls per process; they fall under the arguments of C107 and C112 for other sizes, stated once for all sizes the writer accepts; evaluate the conversion of the interval. Theorems in ExOneProperties.
* **C115 A file the sort program has written is accepted by the program that verifies the order** (partial) - Model the verifier per process (VerifyModel) on top of the reader; show that its rows are the headers of the file (C18's argument with the default rule). For the sorted file take the rearrangement of C104; a whole number (or a multiple of a sixteenth) stored with any of the scales the writer chooses reads back exactly, since the doubles 0.1, ..., 0.0001 are at most 2^-54 too large; so the keys are those of the input, with ties in file order. Compute a file for the refutation. Theorems in VerifyProperties.
* **C116 Sorting a sorted file changes nothing** (partial) - The runs are those of C104 (`sort_set`, `set_calls`). A strictly ordered input forces the permutation of C104 to be the identity (two strictly increasing lists with the same elements are equal). For the second run the output of the first is shown to satisfy `set_input` (its header bytes come from the `life` lemma; the interval is positive because the double read back is) and to be in order, by the value analysis of C115. Theorems in ResortProperties.
* **C117 The extremes program writes the extreme traces of the file** (proved) - Model the program per process (ExtremeModel): its share of the parameters, the search (MinMaxModel), the list of chosen traces, the read of those traces and the rows written. Every row of the share is the header on disk; the search gives an extreme of the doubles (C57); two coordinates that differ as numbers differ in the same direction as doubles (read_order: products of 16-bit and 32-bit numbers are too far apart to be rounded together). The output is one history of FileModel. Theorems in ExtremeProperties.
* **C118 Sorting several files into one** (partial) - The rows of the cache are followed file by file (an invariant over `cache_files`: row j holds the header, the label and the number of its trace; reads and numbering leave the rows of earlier files alone). On one process the numbers are 0, 1, ..., so C52, C53 and C55 apply to all files together; cutting the list of positions into one piece per file gives the hypothesis `placed` of C103. The refutation computes both runs from the bytes of two files. On several processes the rows of rank r are the image of the numbered pieces (`cache`), so the same theorems apply whenever these numbers increase in input order; they do when the offsets of the pieces do not decrease within a rank and from rank to rank, which is shown for the three cases of `in_step`. Theorems in MultiRankProperties, MultiSortProperties.
* **C119 The extremes of a set of files** (partial) - Model Set::getMinMax over `readTraceNonContiguous`, the rule with two more entries and the merge over files of MinMaxModel. Each file gives the pair of a trace of its own (C57); an invariant of the merge says that the value is that of one of the pairs, the number that of one with an equal value, and that it bounds all. read_order moves from doubles to exact coordinates. The starting value is passed if and only if some coordinate is positive. The order of files does not matter because the result is the bound with the least number. Theorems in SetExtremeProperties.
* **C120 The listing of SEG-Y files is complete and right** (proved) - Model the regular expression with derivatives and prove that it accepts exactly the names of the specification (language of an expression, derivative lemma); the listing is an order-preserving choice of the names; what is read at opening follows from the layout of the header. Theorems in AssessProperties.
* **C121 A file opened many times reads the same each time** (partial) - Model the rounds of openings and comparisons over arbitrary readings; show that a round depends on handle i only; opening is a function of the file whatever the chunks (reads are exact). Theorems in AssessProperties.
* **C122 The program that describes a trace prints the values of that trace** (partial) - Model the read of one trace with the default rule and the eight values fetched (AnalysisModel). From the reader's specification (ReadProofs) the values are the header's; negative lines wrap (refuted), the trace past the end is reported as zeros (refuted). Theorems in AnalysisProperties.

## What Print Assumptions lists

Every property theorem is followed by `Print Assumptions`. There are three answers.

1. *Closed under the global context* (174 theorems): C01_block_decomposition_partition, C02_block_decomposition_balanced, C03_location_finds_owner, C03_location_inverts_decomposition, C04_blockDecomp_partition_aligned, C04_blockDecomp_refuted, C77_lobdecompose_partition_partial, C77_lobdecompose_refuted, C13_regions_tile_the_file, C13_regions_inside_the_file, C14_nt_recovered_from_size, C15_open_small_ns_partial, C15_open_any_file_refuted, C10_round_trip, C10_repertoire, C10_injective, C11_unmapped_to_SUB_refuted, C11_never_SUB, C12_text_round_trip_partial, C12_long_text_is_truncated, C12_no_text_reads_NUL, C12_ebcdic_header_decoded, C12_text_round_trip_refuted, C05_msb_first, C05_decode_encode, C05_encode_decode, C08_byte_order_flag, C08_to_float_carry_refuted, C16_contiguous_read, C17_contiguous_write, C18_strided_read, C18_strided_write, C18_strided_is_separate_accesses, C19_list_read, C19_list_write, C19_list_is_separate_accesses, C20_contiguous_calls_match, C20_strided_calls_match, C20_list_calls_match, C21_call_sizes, C22_contiguous_errors_logged_partial, C22_list_errors_lost_refuted, C23_range_equals_list, C24_full_read_is_headers_and_samples, C24_full_write_is_headers_and_samples, C24_separate_writes, C25_dense_slots, C25_copy_name_refuted, C26_add, C26_remove, C26_add_whole_rule, C27_fields_disjoint, C41_not_normal_reported_partial, C44_start_beyond_end_refuted, C45_view_increasing, C45_empty_refuted, C48_oversized_rejected, C09_three_bits_refuted, C51_getSortIndex, C52_sorted_permutation, C53_terminates, C54_three_traces_refuted, C54_one_rank_partial, C55_single_file_numbers, C55_final_places, C55_two_files_refuted, C56_local_check_partial, C56_no_false_alarm_partial, C56_rank_border_refuted, C72_error_state, C72_sticky, C72_reports_kept, C73_prefix_sums, C73_ranges_tile, C73_other_communicator_refuted, C62_shared_array_partial, C62_rank_zero_refuted, C62_window_too_small_refuted, C62_index_at_end_refuted, C60_gathers_partial, C60_split_gather_refuted, C60_reads_behind_refuted, C60_empty_rank_refuted, C61_each_gather_once_partial, C61_gather_contents_partial, C61_rounds_agree_partial, C61_processed_twice_refuted, C61_rounds_differ_refuted, C63_concatenation, C64_every_trace_once, C64_calls_agree, C64_block_size_positive, C65_sort_then_traces_partial, C65_gather_partial, C65_dropped_refuted, C65_twice_refuted, C65_second_gather_refuted, C65_sort_lost_refuted, C66_names_differ_partial, C66_single_files_refuted, C79_names_partial, C79_no_names_refuted, C69_centre, C76_inside_partial, C76_default_odd_partial, C76_default_even_refuted, C76_outside_refuted, C80_zero_partial, C80_replicate_refuted, C80_symmetric_refuted, C80_cyclic_refuted, C80_replicate_short_refuted, C81_low_high_partial, C81_band_refuted, C67_one_inline_partial, C67_one_crossline_partial, C67_grid_refuted, C67_inlines_fastest_refuted, C67_increment_refuted, C67_two_traces_refuted, C67_one_trace_refuted, C75_cover, C74_small_partial, C74_naive1_partial, C74_naive2_partial, C74_large_refuted, C74_standard_partial, C74_standard_large_refuted, C74_naive2_short_refuted, C74_standard_short_refuted, C85_extremes, C86_first_pass, C86_second_pass_refuted, C86_limit_refuted, C86_coordinates, C87_outputs_pair_up, C87_calls_agree, C87_batch, C28_extent_spans_fields, C73_reductions, C55_local_numbers, C88_bounds, C88_no_root_undefined, C93_inside, C93_order_zero_refuted, C93_band_without_corner_refuted, C89_order_zero_undefined, C90_symmetric_cyclic_refuted, C94_present_partial, C94_histories_partial, C94_copy_partial, C95_other_kinds_partial, C95_removed_refuted, C96_first_rule_partial, C96_one_rule_partial, C96_second_sort_refuted, C96_check_refuted, C97_hand_out, C97_refused_refuted, C102_debug_build_refuted, C102_options_refuted, C102_plain_options, C110_owned, C110_no_leak, C110_values, C110_copy_refuted, C110_stale_copy_refuted, C110_copy_name_refuted, C111_from_map, C111_numbers_refuted, C121_other_handles_refuted, C72_counts, C96_flush, C96_flush_unknown_refuted.

2. The four axioms of the standard library on which its real numbers and Flocq's floats rest, `ClassicalDedekindReals.sig_forall_dec`, `ClassicalDedekindReals.sig_not_dec`, `Classical_Prop.classic`, `FunctionalExtensionality.functional_extensionality_dep` (176 theorems). They come in because Flocq's floats are defined with facts about real numbers, or because the statement speaks of real values: C06_exact_in_normal_range, C06_unnormalised_refuted, C07_overflow_to_infinity, C07_subnormal_rounding_partial, C07_zero_becomes_half_refuted, C08_every_pattern_refuted, C28_full_extent_partial, C28_partial_extent_refuted, C28_copy_extent_refuted, C29_set_get, C29_get_in_bounds, C30_same_rule, C30_different_rules, C31_integer_round_trip, C31_write_succeeds, C32_wide_value_refuted, C33_order_independent, C34_coordinate_precision, C35_decimal_refuted, C35_whole_numbers_partial, C36_shared_scale_refuted, C37_uncovered_bytes, C37_whole_header_partial, C37_scale_refuted, C38_scale_convention, C39_size_after_close_partial, C40_header_round_trip_partial, C40_exact_interval_refuted, C41_interval_overflow_refuted, C41_interval_underflow_refuted, C39_late_announcement_refuted, C39_idle_rank_refuted, C42_traces_round_trip, C43_caller_samples_kept, C44_clamped_partial, C49_labels, C78_metadata_round_trip, C45_non_monotonic_partial, C45_no_metadata_refuted, C46_lists_counted_partial, C46_unsorted_list_refuted, C47_no_samples_before_close_partial, C47_traces_before_close_refuted, C48_error_keeps_file_partial, C48_one_rank_refuted, C09_ibm_read_refuted, C50_orders_compare_keys, C50_distance_exact, C50_orders_total, C50_nan_refuted, C50_negative_offset_refuted, C52_sorted_by_type, C57_global_extremes, C57_no_trace, C58_ties_partial, C58_ties_refuted, C59_files_partial, C59_negative_refuted, C59_empty_file_refuted, C68_taper_partial, C68_between_ramps, C68_debug_partial, C68_debug_refuted, C68_dead_trace_refuted, C68_block, C82_linear_taper, C69_windows, C69_too_long, C68_taper_depth, C70_rms_partial, C70_mean_abs_partial, C70_mean_abs_refuted, C70_median_odd_partial, C70_median_two_refuted, C70_median_even_refuted, C70_triangular_weights, C70_triangular_one_refuted, C76_next_trace_refuted, C71_genuine_partial, C71_kept_partial, C71_unlimited_partial, C71_last_refuted, C71_single_refuted, C83_refuted, C71_reverse_refuted, C71_documented_refuted, C71_compared_partial, C84_contents, C84_keys, C84_random_headers_partial, C84_random_single_partial, C84_random_refuted, C28_off_by_one_partial, C28_stale_start_refuted, C91_response, C91_ends, C91_half_power, C92_stable, C90_constant_partial, C90_replicate_refuted, C71_lines_partial, C94_absent_refuted, C95_added_refuted, C98_own_model_partial, C98_short_model_refuted, C98_last_gather_refuted, C35_decimals_partial, C36_common_scale_partial, C99_text_partial, C99_text_refuted, C100_zone_partial, C100_degrees_refuted, C101_creadwrite_runs, C101_creadwrite_copies, C102_small_memory_refuted, C102_zero_interval_refuted, C102_process_count_refuted, C103_rearranged, C103_concatenation, C104_sorted_file, C105_operations, C105_taper_partial, C105_dead_trace_refuted, C32_read_back_partial, C09_always_half_refuted, C09_half_partial, C83_no_fetch_partial, C106_memory_limit, C107_create_runs, C107_created, C107_exact_small, C107_distinct_refuted, C108_modprm_runs, C108_modprm_swaps, C102_source_partial, C109_linear_partial, C109_single_trace_blocks, C109_linear_refuted, C112_runs, C112_created_partial, C112_reads_back_refuted, C113_written_partial, C113_square_copied, C113_transposed_refuted, C113_overrun_refuted, C113_many_traces_refuted, C114_runs, C114_created_partial, C114_interval_refuted, C115_own_traces, C115_every_file_refuted, C115_sorted_accepted_partial, C115_fraction_refuted, C116_sorted_unchanged, C116_twice_partial, C116_fraction_refuted, C117_minmax_runs, C117_extremes, C118_one_process_partial, C118_two_processes_refuted, C118_in_step_partial, C118_three_processes_refuted, C119_smallest, C119_largest_partial, C119_no_positive_refuted, C119_any_order, C119_which_file_refuted, C104_first_key, C104_output_order, C120_listing, C121_same_readings, C122_report, C122_exact, C122_negative_refuted, C122_past_end_refuted, C84_samples.

3. The same without `Classical_Prop.classic` (3 theorems, about real numbers only): C88_coefficients, C89_difference_equation, C89_steady_state.

## Trusted base

* Coq 8.16.1's kernel, including its virtual machine (`vm_compute` is used in examples and in
  sweeps over finite tables).
* The axioms listed above, all from the standard library. The development adds none.
* Flocq's definitions of binary floating point (used as a library of definitions and proved lemmas; it brings no
  axioms besides those of the real numbers), and that the compiler's `float` and `double` are IEEE
  binary32 and binary64, rounded to nearest even, without excess precision or contraction.
* That the model says what the code does. The comments give the lines, the seeded wrong programs
  below test that the theorems notice changes.
* The MPI library, FFTW, libm (`exp`, `cos`, `tan`, `log`, `pow`) and the C++ library. Where they matter they are
  modelled by their specification: collective calls as functions of all ranks' arguments, MPI-IO as
  transfers of the bytes at the positions of the view, `std::sort` by a permutation that is sorted,
  `std::unordered_map` by an association list in arbitrary order. A libm function is a parameter of
  the theorem where one occurs.

## What is modelled and what is not

| Source | Model | Not modelled |
|---|---|---|
| utils/decomposition/block_decomposition | DecompModel | - |
| utils/encoding/number_encoding | NumEncModel | - |
| utils/encoding/character_encoding | CharEncModel | - |
| include/.../segy_utils.hh, src/segy_utils.cc | LayoutModel, ParamModel | - |
| src/DataMPIIO.cc, src/ObjectSEGY.cc | DataIOModel | MPI_Info hints, error strings |
| src/Rule.cc, RuleEntry | RuleModel, QueryModel (lookups), OwnModel (memory, maps) | printing |
| src/Param.cc, param_utils | ParamModel | memory usage estimates |
| src/ReadSEGY.cc, src/WriteSEGY.cc, ReadDirect, WriteDirect | FileModel | ReadDirect/WriteDirect only forward calls |
| src/Logger.cc, src/CommunicatorMPI.cc, MPI_Distributed_vector | CommModel | text of log lines, time stamps |
| src/sort.cc | SortModel | - |
| operations/minmax.h | MinMaxModel | - |
| src/gather.cc | GatherModel | angle gathers |
| src/Flow/Set.cc, RadonGatherState.cc | FlowModel, SetFileModel (output on files), GatherModel, MinMaxModel, SignalModel, AngleModel | globbing, text messages |
| src/Flow/Cache.cc, CacheElem.hh | CacheModel | the branch after a successful check (never taken), cached traces |
| src/temporalfilter.cc | SignalModel (windows, padding, corners), FilterModel (making and applying filters) | frequency-domain filtering (FFTW), rounding in the filter design |
| utils/signal_processing | SignalModel | cosine tapers only as a given function |
| src/ReadSEGYModel.cc | UtilModel | - |
| util/4dcore.cc, 4dio.cc, fourdbin.cc | FourDModel, ToolModel | command line, printing |
| util/makerep.cc, filemake.cc | RepModel, UtilModel, ToolModel | command line, printing |
| util/sglobal.cc | DecompModel | the rest |
| util/segy2kml.cc | KmlModel | the formula of utm2LatLong, the XML around the coordinates, the command line |
| examples/creadwrite.c | ExampleModel, ModModel (-t, options) | sscanf, PIOL_ExSeis_isErr as a step |
| examples/modprm.c | ModModel | the command line |
| examples/exampleCreateFile.cc, .c | CreateModel, CreateCModel | command line |
| examples/example2.c | ExTwoModel | command line |
| examples/example1.cc, example1.c | ExOneModel | command line |
| util/verifysort.cc | VerifyModel | command line, order of printed lines |
| examples/minmax.cc, examples/minmax.c (Set::getMinMax) | SetExtremeModel | command line, printing |
| util/minmax.cc | ExtremeModel, ToolModel | command line, printing |
| util/concatenate.cc | SetFileModel | command line |
| src/Flow/Set.cc taper, AGC on files | SetOpsModel | temporalFilter on files; NaN payloads |
| src/Flow/Set.cc memory of startSingle | MemoryModel | memory inside MPI, objects of fixed size, lists of traces |
| src/Flow/Set.cc sort, util/sort.cc | SetSortModel | command line |
| util/assess.cc, util/cropen.c | AssessModel | globbing, command line, printing |
| util/traceanalysis.cc | AnalysisModel | command line, digits printed |
| util/radon.cc | - | command line around the library |
| src/PIOL_C_bindings.cc, Flow_C_bindings.cc | - | forward each call to the C++ function |

## Seeded wrong programs

`seeded/LOG.jsonl` has a line for every wrong program tried: the definition edited, the edit, the
claim it breaks, the theorems whose proof no longer goes through, and the theorems tightened because
none did. The edits are made in a scratch copy outside /verif, and everything that depends on the
edited file and bears on the claim is rebuilt. A theorem counts as failed if its own proof fails or if it rests on a
lemma whose proof fails.
