# Formal model of daphne-eu/daphne in Rocq (Coq 8.16.1)

## 1. Layout

* `properties.jsonl` - the properties (C01, C02, ...), stated in terms of the API.
* `rocq/theories/` - the model and proofs. One component of the code is split over
  * `<Comp>Model.v` - Gallina functions following the C++ functions, each with the file and lines it models,
  * `<Comp>Spec.v` (or a `Spec` section in `Base*.v`) - what the result ought to be, written without the model,
  * `<Comp>Proofs.v` - lemmas,
  * `<Comp>.v` / `Props*.v` - the property theorems (short, each `exact`/`apply` a lemma), the
    `Example`s showing that their hypotheses are met by a non-trivial case, and `Print Assumptions`.
* `MANIFEST.json` - property -> theorem names and status.
* `seeded/LOG.jsonl` - mutation experiments (wrong programs tried against the theorems).

## 2. Modelling conventions

* `size_t`, row/column numbers: `nat` (or `Z`/`N` where arithmetic wraps or is signed and that matters; then the
  wrap is written explicitly).
* Arrays: `list`; a read or write outside the array is an explicit error outcome (`None` / `OOB`), never a default,
  in every function where the C++ would be undefined behaviour. Proving that a function returns `Some` is thus a
  memory-safety statement for the arrays modelled.
* Exceptions thrown by the C++ are `None`/`Err` results, kept apart from out-of-bounds where both can occur.
* Value types: most data-structure theorems are polymorphic in the value type, given a decidable equality and a zero.
  Arithmetic theorems are over `Z` (mathematical), over `Z` modulo 2^w, or over an abstract associative/commutative
  operation passed as a function with its laws as hypotheses. Floating point is used only where a statement does not depend
  on rounding; the chunk formulas of the partitioning schemes that use `double` and libm are modelled as oracles
  (an arbitrary function), so the theorem holds for whatever they return.
* Concurrency: small-step interleaving semantics with one transition per critical section, condition variables
  as explicit wait sets, `notify_one` nondeterministic, spurious wake-ups allowed.
* Loops become structural recursion or `fold`; where the C++ loop has no structural bound, the model takes fuel and
  running out of fuel is a distinct outcome, and termination is a theorem.

## 3. Plan per property

| id | modelled | how it is proved |
|----|----------|------------------|
| C01 | `LoadPartitioning` state, all schemes, integer formulas exact, float formulas as oracle | invariant on (scheduled, remaining, emitted chunks) by induction on the steps |
| C02 | same | measure `remaining`; refutation by a concrete diverging state (0-chunk fixpoint) for chunk parameter 0 |
| C03 | `executeSingleQueue`, `executeCpuQueues` distribution loops | partition lemma: concatenation of the ranges = `seq 0 len`, permutation for multi-queue |
| C04 | queue as transition system with threads | invariant: enqueued = dequeued ++ contents; induction over executions |
| C05 | same, with wait sets | invariant that waiting consumers imply empty queue & open input when capacity is large; progress; refutation by an explicit execution to a stuck state |
| C06 | workers over several queues, victim order as oracle | invariant: executed + queued is a permutation of all tasks; a worker stops only with all scanned queues empty |
| C07 | `execute`, `accumulateOutputs` for ROWS/COLS | write-footprint lemma, independence of order of disjoint writes |
| C08 | `accumulateOutputs` for ADD/MIN/MAX | fold over permutations for associative-commutative operations |
| C09 | sink `add`/`consume` | sorting by start, then concatenation lemma for rows and columns |
| C10 | `CreateRange` | arithmetic, telescoping sum |
| C11 | CSR `get`, `set` on arrays | refinement to a function (row, col) -> value; representation invariant |
| C12 | CSR append protocol | invariant over the append history |
| C13 | CSR view constructor and accessors | offset arithmetic |
| C14 | CSR `operator==` | counterexample (refuted), plus soundness when row offsets agree |
| C15 | Dense buffer, offset, rowSkip, slices | refinement by address arithmetic, injectivity of addresses |
| C16 | Dense append | invariant over the append history for contiguous memory; refutation for strided views |
| C17 | label map construction | induction over label list; refutation for generated-name collision |
| C18 | heap of counted objects, cascading destroy | invariant counter = number of references |
| C19 | `StringRefCounter` map | refinement to a counter function |
| C20 | stack of maps | refinement to a stack of association lists/environments |
| C21 | set push/pop | counterexample; exact theorem for streams without repeated contained element when full |
| C22-C24 | byte-level serializers | encode/decode inverse lemmas on byte lists; chunking lemma by induction over the chunks |
| C25 | `quoteStrCsvIf`, `setCString` | induction on the string with the scanner state generalised; counterexample strings |
| C26 | COO readers | counting sort / priority queue correctness |
| C27 | Transpose kernels | counting-sort style invariant over the scatter pass |
| C28 | CastObj kernels | row-wise invariant; counterexample for CSR->CSR |
| C29 | Agg kernels | fold lemmas over sparse rows |
| C30 | MatMul kernels | sum over sparse entries = sum over all k |
| C31 | Order kernel | invariant: after key i the rows are stably sorted by the first i keys and groups are the runs |
| C32 | InnerJoin/SemiJoin | equality with list-comprehension specification |
| C33 | Recode | invariants on the code map |
| C34 | bitmap / position list | inverse functions; counterexample for the bound check |
| C35 | Knuth selection sampling | invariant remaining-to-choose <= remaining range, for an arbitrary stream |
| C36 | IsSymmetric | dense: equivalence; sparse: two counterexamples |
| C37 | `LoadPartitioning`, STATIC | counting the chunks, on the invariant of C01 |
| C38 | dense `operator==` | loop invariant; both directions |
| C39 | collecting distributed results | permutation of disjoint writes |
| C40 | frame `sliceRow/Col`, `cbind`, `rbind`-style constructors | refinement to columns |
| C41 | AggCum, IDXMIN/IDXMAX | fold invariants |
| C42 | RandMatrix kernels for an arbitrary stream | loop invariants with fuel for the drawing loops; explicit counterexamples for the 32-bit overflow and stored zeros |
| C43, C44 | ExtractRow/ExtractCol, FilterRow/FilterCol | loop invariants; counterexamples for strided selections and for non-0/1 entries |
| C45 | frame extract/filter, byte level | bytes beyond the element are overwritten later or fall into the padding |
| C46 | CSV of integers | decimal printing/parsing inverse; counterexamples beyond `int` |
| C47-C50 | Reverse, Diag*, Tri, RowBind, ColBind, Reshape | dense: write-footprint; sparse: `SparseBuild.v` invariant of building a CSR matrix entry by entry |
| C51 | SliceRow/Col, InsertRow/Col | bounds arithmetic mod 2^64, then copy lemmas |
| C52 | EwBinaryMat, EwBinaryObjSca, all specialisations | loop invariants; the merge and the intersection of two sorted rows are related to the cells by induction on the fuel |
| C53 | ManageObjRefsPass on structured control flow, with an interpreter that counts references and treats any use of a destroyed object as an error | strong induction on the fuel of the interpreter; invariant: the counter of every object is the number of references held outside plus the number of values of the block that are still used |
| C54 | DaphneDSLVisitor (blocks, assignments, if, while, do-while, for) with the scoped symbol table, as a translation to an SSA program with scf-like control flow; an interpreter for the latter; a separate big-step evaluator for scripts | mutual induction on the script; invariant: the symbol table denotes the store, and no two entries denote the same value; replacing uses in a region is shown to be the same as rebinding |
| C55 | Group.h: the order of the rows with their groups (through OrderModel), the number of rows of the result, the column-wise aggregation loop over groups and single rows | the blocks of C31's invariant are the groups; induction on the blocks for the aggregation loop; uniqueness of the grouping |
| C56 | Fold.cpp (performCast, constFoldBinaryOp and the integer lambdas), the type inference and casts for scalar operations, the scalar kernels with C++ promotion and overflow rules | bits of a constant and value of a type as residues modulo 2^width; conversions depend on the residue only; case analysis on the operation, not on the types |
| C57 | VectorizeComputationsPass.cpp (41-95, 133-383) and VectorizationUtils.cpp (21-85): candidates, greedy fusion, classification of the operations between the members, creation of the pipelines. One block; the size operations and casts of the pipeline results are not modelled | the operations are a permutation (`C57_conserve`); valid orders of the same operations compute the same values (`C57_reorder`); values used at most once: invariant that every member but the first of a pipeline is used by an earlier member (`C57_fuse`); one pipeline with shared values: soundness and completeness of the dependency search (`C57_step`) |
| C58 | DaphneDSLVisitor.cpp 2031-2251 and 2303-2310: trimming, cloning and moving the operations behind an if, replacing results, the loop over the most nested return. An operation without returns in its regions is a function of operands and state; termination of the loop is not proved | register semantics in which undefined values are explicit; simulation of one round: a run of the new function that returns is a run of the old one (`C58_early`); the verifier's dominance check implies that runs use no undefined value (`C58_verified`) |
| C59 | DaphneInferShapeOpInterface.cpp, the shape traits in DaphneOps.td (about 55 operations), InferencePass.cpp walkOp with scf.for, scf.while, scf.if. Only data types and shapes; seq for integers; no wildcard labels; the first run of the pass; casts inserted by the pass are transparent; backward convolution and pooling not modelled | kernels as relations between shapes (`kern`, read from the kernels); per-operation soundness by cases (`C59_op_shapes`); executions as big-step relation plus reachable intermediate points; induction on programs with loop invariants (`C59_program_shapes`); precision: known arguments give known results (`C59_known`); number of known dimensions as measure for the fix-point search (`C59_rounds`) |
| C60 | MatMul.cpp (kernel for two dense matrices; BLAS for floating point numbers, Eigen maps for integers), Gemv.h, Syrk.h, MatMulOp::canonicalize, PhyOperatorSelectionPass.cpp. BLAS and Eigen are external: modelled by their documentation (argument checks that leave the output unwritten, quick return of gemv, upper triangle of syrk), sums in index order, no rounding; dimensions below 2^31; addition and multiplication abstract, multiplication commutative where a triangle is mirrored | every routine writes its own cells (`for2_tabulate`, nested invariants for syrk and the mirror loop); the compiler's choice over an environment of SSA values with transposes and inferred types, any number of canonicalizations (`C60_compiled`, `C60_compiled_int`) |
| C61 | RewriteToColumnarOpsPass.cpp (what each replaced operation becomes) and the kernels ColSelectCmp, ColProject, ColIntersect, ColMerge, ColJoin, ColSemiJoin, ColGroupFirst, ColGroupNext, ColAggGrp. A column is the list of its values; hash maps are association lists; the two-pointer `while` loops take fuel, bounded in the theorem. Not modelled: the rewrites of -, * and sum() (casts around the kernels of C29 and the aggregations), labels such as x.*, frames with unknown labels, the order in which patterns are applied | the selecting loops collect `filter P (seq 0 n)` (`collect_ok`); intersect and merge by invariants on sorted lists; the hash join pairs every left row with its last partner, which is all of `matches` exactly if partners are unique; group ids by an invariant on first occurrences, further keys by `zip` with the ids, sums by `agg_ok`; equality of the groups with C55 from the uniqueness of classes |
| C62 | ColAggGrp.h applyAggOptimisticSplitting and applyAgg for sums, for int32_t, uint32_t, int64_t, uint64_t; integer promotion of 16-bit values, conversions to the half type modulo its size, overflow of signed arithmetic as undefined behaviour or (parameter) wrapping | loop invariant per group: accumulator + lower half = sum so far (modulo the type), the lower half is never negative; the overflow test is shown to be exact by cases |
| C63 | Canonicalize.cpp: the rules of EwAdd, EwSub, EwMul, EwDiv, EwMinus (via the sub rule), MatMul, Transpose, Rename, rounding, NumRows/NumCols, Cond; the element-wise kernels as the meaning, with C++ integer conversions, IEEE floats (Coq's SpecFloat) and broadcasting; pow, number formatting, rounding, products and matrix conditions are arbitrary functions; booleans and frames are left out | refinement: a rule keeps every Ok value, by cases on the rule with lemmas on wrapping arithmetic and on exact float negation; closed under contexts and sequences by induction; refutations by computation |
| C64 | HorizontalFusionPass.cpp: the search for pairs, fusing one pair, renewing the other pairs, the loop; VectorizationUtils.cpp: dependence, moving the operations between two pipelines; the blocks of C57 with pipelines as lists of their operations; several blocks are left out | invariant of the loop over the pairs (order, independence, which pairs are left for each group of partners); one step by splitting the block around the two pipelines; groups from transitive sharing; refutations by computation |
| C65 | VectorizeComputationsPass.cpp: making a pipeline from operations; HorizontalFusionPass.cpp: moveOperationsToBlock and the merged signature; Canonicalize.cpp: VectorizedPipelineOp::canonicalize; a pipeline = inputs with splits, body, returned operands, combines, sizes; its meaning runs the body on every chunk and combines | simulation of bodies under renumbering of arguments; invariant of the loop over the inputs; induction over the pipelines combined; refutations by computation |
| C66 | DaphneVectorizableOpInterface.cpp: splits, combines and sizes of the operations; Tasks.h/Tasks.cpp: the parts of the inputs, the batches of a task, placing and accumulating results; MTWrapper_dense.cpp: number of rows and memory per row; what the kernels compute on dense matrices of an abstract element type | every chunk computes a part of the result (by operation), chunks placed or accumulated in any order give the whole (permutation of the rows); with C65 for programs and C03 for the tasks; refutations by computation |
| C67 | ChunkedTensor.h: the constructor, positions of elements and chunks, flags of chunks, get/tryGet/set/trySet/trySetChunk/tryGetChunk, lists of chunks for ranges; new memory is arbitrary; asynchronous reads are not modelled | positions are injective and in bounds (mixed-radix numbers), each write changes one element or chunk and one flag, induction over the history |
| C68 | ChunkedTensor.h: tryRechunk, tryDice, tryDiceToContiguousTensor, tryDiceAtChunkLvl, operator==, areLogicalElementsEqual, ReverseArray; ContiguousTensor.h | loop invariants: the elements of the chunks (and of the current chunk) so far are in their place; the loops of bools decide; reduceRank and ReverseArray characterised completely |
| C69 | SQLVisitor.cpp (all clauses), with the kernels for frames as functions on rows (ExtractCol, Cartesian, ThetaJoin, InnerJoin, FilterRow, Group, Order, SetColLabelsPrefix, ColBind) | the visitor is executed with its operations run at once; simulation: the current frame is the flattened list of combinations of rows, extended by the columns of the aggregates in the first pass and replaced by the rows of groups in the second; induction on expressions in each of the passes; ORDER BY and GROUP BY through a lexicographic weak order. Not modelled: lexer and parser, value types, escapes in text, operators with a scalar on the left are taken as elementwise, the static map of tables of RewriteSqlOpPass |
| C70 | ThetaJoin.h, Cartesian.h | positions array filtered in place: invariant write ≤ read, the first `write` entries are the matches among the first `read`; columns written row by row; values of all types in one abstract type with typed comparison and cast, fresh memory arbitrary |
| C71 | MetaDataObject.cpp, DenseMatrix.cpp getValuesInternal and getValues, AllocationDescriptorCUDA.h as memory with transfers | state machine over histories of reads and writes in host and device memories, contents abstract; one invariant for all histories (no failure), one for the histories a small tracker allows (coherence); general refutations for the histories it forbids |
| C72 | OneHot.h, CTable.h (dense), Seq.h, Replace.h (dense, CSR), Bin.h (dense) | loops over arrays with strides; results compared cell by cell with definitions of one-hot blocks, counts, sequences, replacements and bins; Seq once over a record of arithmetic operations, instantiated with bounded integers, rationals and IEEE doubles. Not modelled: the CSR variant of CTable, the Matrix variants of Replace and Bin, NaN and infinity in Bin, rounding in Bin |
| C73 | HDFS/ReadDaphneHDFS.h, ReadHDFSCsv.h, WriteDaphneHDFS.h, WriteHDFSCsv.h, WriteHDFS.h, HDFSUtils.h, DistributedWrite.h | a directory is a list of segments (number of rows, bytes), missing segments are null pointers; the loops over segments, lines and cells, with the line buffer and memchr; contents of the buffer before it is filled arbitrary; binary segments by the serializer of C03/C48. Not modelled: short reads and errors of HDFS, the file names, JSON meta data, frames |
| C74 | api/python/daphne: script_building/script.py, nested_script.py, operator/operation_node.py, operator/nodes/{for_loop,cond,while_loop,do_while_loop,multi_return,matrix}.py | graphs of nodes; the depth-first generation of statements (abstract syntax) with names, levels and counters; their execution over an abstract interpretation; clear(); the redirection of consumers in __setitem__ | simulation: after the script each named variable has the value that the graph denotes (den), by induction over the depth, with a simulation of loops; refutations on concrete graphs over the integers |
| C75 | `LabelsModel.v`: inference of column types and labels of frames, the kernels that build frames, and the simplifications of extractions; frame expressions over abstract columns with a value type | induction on expressions: what is inferred is right (`LabelsProofs.v`); labelled programs are accepted and simplifications sound (`LabelsCanon.v`) |
| C76 | UdfModel (overload resolution; the specialization pass with its state: versions, visited, called and removed functions, new symbols, propagated constants, visiting order), UdfSpec (values of programs by call depth; closed programs; agreement of types), UdfProofs, UdfInv, UdfTypes, Udf | an invariant with ghost constants gives equal values of all functions at every call depth; a triple over the recursion of the pass gives closedness and types; ranks give termination; refutations on small programs, divergence by induction for every number of steps |
| C77 | ConvModel (padding, conv2d_forward, the four paths of pool_forward), ConvSpec (padded images, windows, positions, convolution, averages), ConvProofs, Conv | every loop nest contributes a list to each cell (composition lemmas for sequences and loops); the contributions of all other loop indices to a cell are empty by injectivity of the linearized index; algebra only for the average of rationals |
| C78 | ConvBackModel (the four gradient kernels with their scratch buffers), ConvBackSpec (gradients as sums over windows), ConvBackProofs, ConvFilterProofs, ConvDataProofs, ConvBack | contributions to cells as for C77; a search invariant for the selected cell of max pooling; strided sums of rationals collapse to sums over positions; reversal and exchange of sums for the rotated filter; refutations by computation |
| C79 | MmModel (the iterator over the entries with its wrapping counters, the three readers), MmSpec (positions of array files, listed and mirrored values), MmProofs, MmReadProofs, Mm | the loop visits the listed entries and their mirror images in order; positions are without duplicates; counting shows that uninitialized memory is only used if every cell is given; sortedness of the queue gives a valid sparse matrix; refutations by computation or for all files of a kind |
| C80 | PromoteModel (ranking, inference from arguments with frames, traits, inserted casts, static_cast with wrap-around and IEEE rounding, elementwise kernels, expressions), PromoteSpec (the numbers of a type, mathematical results, exact evaluation), PromoteProofs, Promote | rounding is the identity on representable numbers and always gives representable ones; casts and kernels are exact on representable numbers; induction over expressions; the table of lossless casts as an equivalence; refutations for whole ranges of numbers |
| C81 | FrameCsvModel (printing of cells with %f, rows, meta data, strtod, reading of cells, rows and frames), FrameCsvSpec (cells that survive, decimal numbers of six places, what comes back), FrameCsvProofs, FrameCsv | printed digits are parsed back; rounding is to a nearest number, and a number that stands for a short decimal is less than half a millionth away from it; induction over columns and rows with the invariant that the rest of the file is what has not been read |
| C82 | SparsityModel (expressions, their values, inference of sparsity and symmetry, merging of branches, sparsity()), SparsitySpec (fraction of non-zeros, placements of non-zeros, symmetry), SparsityProofs, SparsityInfer | bijections between the non-zero cells; double counting over all patterns with a given number of non-zeros; induction over expressions |
| C83 | KernelModel (types and their normalization, catalogs, finding a kernel, catalog files, --kernel-ext, rewriting of operations to calls, libraries), KernelSpec (when a kernel is applicable), KernelProofs, KernelChoice | induction over the registered kernels; the operands are split into their groups |
| C84 | CallArgsModel (slots for parameters, parameter names of overloads, choice of a definition, calls, map()), CallArgsSpec (when arguments bind values to parameters, which definition is meant), CallArgsProofs, CallArgs | invariant of the slots; induction over arguments and definitions |
| C85 | LiteralModel (tokens, numbers, escape sequences, script arguments, matrix and frame literals), LiteralSpec (numerals, decimal fractions, items of a string, pieces between commas, shapes), LiteralProofs, Literal | induction over the text; invariants of the replacements; induction over elements and rows |
| C86 | IndexingModel (translation of indexing and assignments to slicing, extracting, filtering and inserting), IndexingSpec (addressed positions, replaced cells, assignments one after the other), IndexingProofs, Indexing | composition of C43, C44 and C51; case distinction over the ways to address; induction over the variables |
| C87 | GroupJoinModel (hash table, build, probe and output phase on the frames of JoinModel), GroupJoin (specification: sums from left to right, first rows; proofs) | loop invariants of the three phases, for every iteration order of the table; connection to the pairs of C32 |
| C88 | CondModel (four dense kernels and the sparse one, type and shape inference, replacement by an if-operation, evaluation of the operands), Cond (specification and proofs) | loop invariants; the sparse kernel by reduction to the append protocol of C12; case analysis for types |
| C89 | CastExprModel (parsing of casts, type inference, simplification of chains, casts of objects, scalars and objects with one cell, bytes of a frame cell), CastExpr (specification and proofs) | induction on nested casts; case analysis over all pairs of data types; arithmetic on little-endian bytes |
| C90 | StrValModel (C strings in memory, std::string, FixedStr16: comparisons, concatenation, case, constant folding), StrVal (specification and proofs) | induction on strings and on expressions; memory only grows, so that new strings have new addresses |
| C91 | NNLayerModel (bias, batch normalization, softmax over an abstract field), NNLayer (specification and proofs) | loop invariants over channels, images and pixels; field equations for the gradients; invariant on the running sum for sparse rows |
| C92 | ListModel (objects with reference counters, list kernels, scripts, typing and kernel lookup), Lists (specification and proofs) | simulation between memory and sequences; invariant: each counter is the number of references from lists and variables |
| C93 | PropRecModel (recording kernel, recording pass, inserting pass), PropRec (specification and proofs) | uniqueness of sorted permutations; induction over programs; fresh values change neither arguments nor types |
| C94 | ConfigModel (keys, defaults, reading the file, merging the command line, checks), Config (the documented cascade and proofs) | case analysis over keys for arbitrary files and command lines |
| C95 | ApproxModel (searching and approximate comparison of dense and sparse matrices), Approx (cells of sparse matrices and proofs) | pigeonhole on stored columns; induction over rows |

## 4. Trusted base

* Coq 8.16.1 kernel (with its conversion by `vm_compute` where a proof uses it; no `native_compute`).
* `Print Assumptions` stands after the theorems of every property; it prints "Closed under the global context" for each
  theorem named in `MANIFEST.json`. No axiom is added and none of the standard library's axioms is used.
* Loading std++ loads ssreflect's `Coq.ssr.ssrunder`, whose module type declares the parameters `Under_rel.*`; they are library
  entries in the environment and no theorem here depends on them.
* Libraries used: Coq standard library and std++ (lists, sorting, permutations). 
* The correspondence between the C++ source and the Gallina model is by reading; each definition cites file and lines, and
  says where it simplifies.

## 5. What is modelled and what is not

Modelled (each in the file `<Comp>Model.v`): the load partitioner, the task queues and workers of the vectorized engine, the combination of
pipeline outputs, distributed ranges, `DenseMatrix`/`CSRMatrix`/`Frame` (labels, byte-level row access), reference counting of data objects and
strings, the scoped symbol table, serialization of dense and sparse matrices, CSV (strings and integers), coordinate files, and the local kernels named
in section 3.

Common simplifications, repeated in the comments: the result pointer of a kernel is null on entry; a new array has arbitrary
contents (`junk`); allocation never fails; a kernel runs alone on its arguments; libm, random number engines and `double` formulas are
arbitrary functions; `std::unordered_map` iterates in an arbitrary order; `std::stable_sort` is a stable sort.

Not modelled: GPU/FPGA/MPI/HDFS back ends, MLIR infrastructure itself, the DaphneDSL grammar, libm, memory allocation failure, data races
inside a kernel other than through the modelled critical sections, floating-point rounding.

## 6. Findings: claims that are false of the code

Each is a theorem with the suffix `_refuted` (or a hypothesis of the positive theorem, marked (h)), and the property's statement says so.

* Partitioning: chunk parameter 0 with STATIC never ends (C02).
* CSR `operator==` compares raw arrays (C14). Dense append into strided views leaves cells (C16). Generated frame labels can collide (C17).
* Bounded priority set: a repeated element evicts another one (C21).
* CSV: backslash before a quote, trailing backslash, CR and NUL break the round trip of strings (C25); `int64`/`uint64` beyond `int` are
  misread or miswritten (C46).
* COO reader: rows and columns are not checked against the shape; the unsorted reader rejects an empty file (C26).
* CastObj CSR->CSR with a view (C28). `agg /= size_t` divides an `int64` as unsigned; dense row aggregation with 0 columns and column aggregation with 0
  rows read out of bounds; sparse column aggregation with 0 rows throws except for SUM; NaN is not propagated through missing entries (C29).
* Sparse matrix products ignore `transa`/`transb` (C30).
* Order: a NaN key makes the grouping loop endless (C31, h). Inner join leaves columns other than string/int64/double uninitialised; semi join dereferences null
  for other key types (C32). Ordered recoding loses values with NaN (C33, h).
* Position list to bitmap: the bound check is off by one (C34). IsSymmetric on sparse matrices is wrong both ways (C36).
* RandMatrix: 32-bit overflow for more than 2^31 cells; the CSR variant may store explicit zeros (C42).
* Extract by position ignores the selection's row skip; ExtractCol with 0 rows accepts any index (C43). Filtering with entries other than 0/1 leaves rows
  uninitialised or overruns (C44). Frame extraction reads up to 7 bytes behind a column (C45).
* Reverse of an n x 0 view with row skip 1 writes out of bounds (C47). rbind of views of columns, and rbind/reshape of a view of a sparse view, are wrong
  (C49, C50). Reshape compares cell counts modulo 2^64 (C50).
* X[-2:0, ] addresses two rows when sliced and one row when assigned; assigning no rows into a sparse matrix without rows throws (C51).
* A row or column as the left operand of a dense element-wise operation is accepted but not broadcast: the result has the shape of the left operand; with an empty right operand memory outside of it is read. Sparse-dense operations test only f(0,1) = 0 to decide whether missing cells stay zero, which is wrong for min, ==, >, >= and ^. Sparse multiplication loses a NaN opposite to a missing cell (C52).
* The reference counting pass is wrong for an if that yields one of its own values twice (double free), for a loop that yields a value from outside of the loop (use after free), and for terminators with three equal operands (leak) (C53).
* A for loop over a variable that existed before overwrites it. After a nested loop over the same variable the loop variable can be assigned to (C54). The rename operations that keep the values of variables distinct are removed by a canonicalization before the reference counting pass runs, so scripts such as `if(c) {x = A + B; y = x;}` reach the wrong cases of C53.
* group with keys given by name writes `ascending[i]` for every key into an array of `starLabels.size()` = 0 elements. group without keys on a frame without rows dereferences the end iterator for the minimum and maximum (C55). The sum and mean of a string column are its first element (the fall-through of `aggregate`).
* Constant folding changes results (C56): `as.si8(-1) + as.ui32(0)` (255 instead of 4294967295), `true + true` (false instead of true), `9007199254740993 % 2` (1 instead of 0: the kernel uses `std::fmod`), an index constant with a narrower integer (assertion failure in LLVM), `as.bool(0.5)` (false instead of true), `min(1.0, nan)`.
* Vectorization (C57): `a = f(X); print(a); print(1); b = g(a)` prints in the wrong order (`C57_effects_refuted`); `a = f(X); s = sum(a); b = g(Y); c = h(a, b)` gives IR in which `sum` uses `a` before it is defined, because only the operations after the pipeline's last listed member are moved (`C57_order_refuted`); the check for uses in control structures only looks at the fused value, not at the other members (`C57_nested_refuted`); the fusibility check when merging two pipelines only executes `continue` in its own loop, so pipelines are merged even if that creates a cycle (`C57_cycle_refuted`); an operand used twice (`a * a` with a fused `a`) inserts a vector into itself and then clears it (`C57_twice_refuted`), which by the C++ standard is undefined and in practice drops the pipeline; in `v = a @ a` the product is fused with `a`, so that its right operand, which is needed as a whole, is only the current chunk of rows (`C57_whole_refuted`).
* Early returns (C58): the example in the comment above `rectifyEarlyReturns` itself is turned into IR that does not verify, because `clone` is called without a value mapping (`C58_nested_refuted`); the results of a returning if are replaced only in operands directly in the block, not in nested regions (`C58_inner_use_refuted`); `if(c){return;} print(1);` is rejected with an error that should never happen (`C58_void_refuted`); returns with different numbers of values go through and values get lost (`C58_arity_refuted`).
* Shape inference (C59): the search for a fix point of the types of loop variables never ends when the body assigns a value of known shape to a variable whose shape has become unknown (`X = fill(1,1,1); for(i in 1:n) X = fill(1,3,3);`), although the comment in InferencePass.cpp says it always terminates (`C59_terminates_refuted`); wrong shapes for cartesian products (`C59_cartesian_refuted`), seq against its direction (`C59_seq_refuted`), scalar-matrix operations (`C59_scalar_left_refuted`), pooling with different strides - the kernel swaps them - (`C59_pool_refuted`), convolution with non-constant parameters (`C59_conv_refuted`), ctable with sizes below -1 (`C59_ctable_refuted`), bitmaps (`C59_bitmap_refuted`); seq with increment 0 divides by zero at compile time (`C59_seq_zero_refuted`).
* Dense multiplication (C60): `t(M) @ t(w)` for a row vector w with known sparsity becomes gemv(M, w), which takes the row skip of w as increment and reads outside of it (`C60_gemv_row_refuted`); gemv for a sparse M computes M @ v (`C60_gemv_sparse_refuted`); gemv does not check the length of v (`C60_gemv_mismatch_refuted`); a product over an empty inner dimension leaves the new array unwritten for floating point numbers, since BLAS rejects a leading dimension of 0 (`C60_empty_refuted`); `t(M) @ M` and the like do not compile for integers (`C60_int_refuted`); the Eigen maps of the integer kernel have swapped shapes when the left operand is transposed (`C60_matmul_int_transposed`), and when both are.
* Columnar execution (C61): the inner join keeps only the last partner of every left row (`C61_inner_join_refuted`, `C61_join_duplicates_refuted`); a result-size hint that is too small leads to writes out of bounds instead of an error (`C61_join_size_refuted`, `C61_semi_size_refuted`); negative positions are rejected (`C61_extract_negative_refuted`), bitmaps that are too short accepted (`C61_filter_length_refuted`); && and || of comparisons of matrices with several columns fail at run time and broadcasting is lost (`C61_logical_columns_refuted`, `C61_logical_broadcast_refuted`), since the pass does not check shapes there; the semi join returns all columns instead of the key column (`C61_semi_columns_refuted`); groups come in the order of first occurrence (`C61_group_order_refuted`); the check of group ids admits the number of groups itself (`C61_agg_bound_refuted`).
* Optimistic splitting (C62): for int64 values the addition on int32 overflows, which is undefined behaviour, before it is tested (`C62_half_refuted`, `C62_half_overflow_refuted`: every column of non-negative 32-bit values with a larger sum); the value and the lower half are added first, which can overflow where the plain sum does not (`C62_full_refuted`).
* Simplification of expressions (C63): the canonicalizer runs before type inference and treats an untyped left operand of `+` as a scalar, so strings are concatenated in the wrong order, rows get lost or an error appears (`C63_add_unknown_refuted`, `C63_add_unknown_row_refuted`, `C63_add_unknown_string_refuted`); a string plus a string matrix is rejected (`C63_add_string_matrix_refuted`); `a - X` as `(X * -1) + a` is wrong for unsigned and narrow integers and undefined for the smallest integer (`C63_sub_unsigned_refuted`, `C63_sub_narrow_refuted`, `C63_sub_min_refuted`); `a / X` as `(X ^ -1) * a` yields infinity, other roundings, or another type (`C63_div_refuted`, `C63_div_rounding_refuted`, `C63_div_single_refuted`); a scalar condition with branches of different known shapes makes the compiler fail (`C63_cond_refuted`).
* Horizontal fusion (C64): the new pipeline can be put before the definition of a value that the second one uses (`C64_followed_refuted`; the IR verifier is switched off, so this is not noticed); scans shared in a chain make the loop over the operations run past the end of the block (`C64_transitive_refuted`); a pipeline that uses a result of another one as a whole is fused with it through a third one (`C64_independent_refuted`); control structures that use a result are moved before it (`C64_nested_refuted`); prints between the pipelines come out earlier (`C64_effects_refuted`).
* Signatures of pipelines (C65): VectorizedPipelineOp::canonicalize looks up the split of the earlier input in the splits from before the simplification, at a position among the inputs that are left, so an input by rows can be replaced by the same value as a whole (`C65_canon_refuted`) and duplicates can stay until the next run (`C65_canon_once_refuted`); moveOperationsToBlock makes one argument per use and is only right for bodies that were not simplified yet (`C65_merge_unwired_refuted`; the pass order avoids it).
* Operations of pipelines (C66): SyrkOp declares the same splits and the same combine for X @ t(X) as for t(X) @ X, so X @ t(X), which the selection of physical operators turns into it, is wrong in a pipeline with several chunks (`C66_syrk_refuted`); MatMulOp ignores a transposed left operand (`C66_trans_left_refuted`; the compiler does not set this flag today); a row vector that is computed inside of a pipeline over more rows is broadcast to every chunk, so sum(r * r) next to X + r * r is counted once per chunk and the result r * r itself is written outside of its rows (`C66_row_vector_refuted`); with matrices without rows the runtime divides by zero, and a 0-row matrix plus a row vector runs one chunk (`C66_empty_refuted`).
* Chunked tensors (C67): tryGet looks up the flag of the chunk before it checks the bounds of the index (undefined behaviour outside of the tensor); trySetChunk checks the chunk indices against the extents of the tensor, not the number of chunks (ChunkedTensor.h 735-738), so chunks that do not exist overwrite others; set lacks the return for tensors without dimensions.
* Tensors (C68): tryRechunk does not resize the flags of the chunks; tryDice uses chunk_strides where it takes chunk_shape, so elements stay uninitialised; tryDiceAtChunkLvl sets the flags of the old tensor; ReverseArray is off by one; operator== of chunked tensors compares uninitialised padding; reduceRank runs to the old rank; tensors that view a part of a matrix are compared and converted without their strides; the constructor from a matrix reads an empty vector.
* SQL (C69): DISTINCT does nothing (or is rejected) with GROUP BY and destroys the order of ORDER BY; BETWEEN is symmetric; an alias hides a registered table of the same name in the rest of the query; `FROM t AS a, t` is rejected; columns without table are never found (one-letter ones raise std::out_of_range); `*` with GROUP BY looks up the arguments of the aggregates; `count(1)` without GROUP BY dereferences a null type; a literal beside an aggregate is rejected; `!=` is accepted only in joins; a join comparison without operator dereferences null; the sides of a join condition cannot be swapped; aliases that begin with `group_` collide with the labels of the translation. Also, the loop of setFramePrefix that searches a free prefix never increments its counter, but no call reaches it.
* Cartesian.h (C70): only int64 and double columns are copied; columns of every other type of the product are uninitialised, for every input, without an error. ThetaJoin.h: without conditions a null pointer is dereferenced (379); values of different types are compared after a cast to the left type, so swapping the sides changes the answer (1 = 1.5; -1 against uint64).
* Copies in device memory (C71): getValues for writing calls setLatest only if the accessed copy is not current (DenseMatrix.h 246-247), so a write to one of several current copies leaves the others current but stale; the host path reports the id of the device copy (DenseMatrix.cpp 201, 211-229), so a host write to a matrix on a device is overwritten by the next transfer and every host read adds a placement; an existing copy is refreshed from the host memory even if that is stale (176-178); views of matrices without host values ignore their offset (DenseMatrix.cpp 108-114).
* Encoding kernels (C72): oneHotString indexes the fresh matrix of codes with the stride of its argument (OneHot.h 145-149), a heap overflow for column views. CTable reads column arguments without their stride (CTable.h 90-91, 99-100), so `ctable(X[,0], X[,1])` counts the wrong pairs; negative coordinates pass the check (101) and are written outside or into another cell; an empty input with derived sizes dereferences the end iterator (76). Seq computes one element too many before it shrinks: signed overflow at the largest integer (Seq.h 83); the fixed tolerance 1e-13 drops the last element of seq(0, 120, 2.4) and keeps elements behind the end for steps below 1e-13. Replace returns no result for empty matrices (Replace.h 67-70, 152-155), and for CSR row views copies the wrong elements with offsets that point outside (179-188). Bin converts before it limits (Bin.h 116-120): undefined for values far above max.
* HDFS (C73): ReadDaphneHDFS counts all rows of the first segment as read although the rows before the range were skipped (ReadDaphneHDFS.h 137), so a range that begins inside a segment and continues in the next loses its last rows; this happens whenever the numbers of writing and reading workers differ. The line reader for CSV never reduces the number of bytes left in the buffer (ReadHDFSCsv.h 117), so memchr runs past the buffer for segments longer than 1 MiB. WriteHDFSCsv ignores the row skip of views, writes int8 values as characters and doubles with six digits. In distributed mode WriteHDFS writes only ranges that have a placement: a matrix on no worker is not written, without an error; reading it dereferences a null pointer.
* DaphneLib (C74): left indexing and loops change their input variables in place although other nodes use them (operation_node.py 255-258, for_loop.py 121-122); assignments at the
  end of a callback are one after the other, so that a swap loses a value; the names in nested callbacks are only distinct for two levels (nested_script.py 52-55); a failed execution skips
  clear(), so that the names of all nodes remain (operation_node.py 126-127, no try/finally); __setitem__ iterates over the list of consumers while `==` on matrices appends to it
  (matrix.py 183-220), which never ends if the matrix is not the first input of a consumer, and replaces a number that is. Seen but not modelled: `**` and `%` of scalars swap their
  operands (scalar.py); a condition of while_loop that uses outer nodes calls list.update, which does not exist; `bin` ignores the limits if Min is 0 (matrix.py).
* Inference for frames (C75): an inner join or Cartesian product with unknown labels on one side gets too few labels; a later lookup gives
  the type of another column or reads out of bounds (the theta join is right). setLabels with a non-constant and then a constant label, and
  wildcards on unknown labels, dereference null. colBind of a column slice is rejected. count is inferred si64, the kernel returns ui64.
  Grouping by `*` with aggregates infers more columns than exist; wildcard keys mixed with plain keys drop the plain ones at run time.
  Extraction of a label like `f.*` is simplified to another result; push-down into colBind removes the error on duplicate labels.
* User-defined functions (C76): bodies are single expressions (no loops, reassignments, effects or several results); the types of
  operations and the folding of constants are parameters; a body is simplified once when it is copied or entered, not again during the
  walk. Findings: a typed function that is called with a constant and without one is erased while still called; an untyped function that
  returns the result of another leaves its caller with an unknown type, since the result type is copied before the calls inside are
  specialized; maps are treated after all calls, so a call with a map among its arguments is specialized for an unknown element type;
  the outcome depends on the order of an unordered_map; a recursive function with a changing constant argument is specialized forever.
* Convolution and pooling (C77): offsets are unbounded (the code has 32-bit counters); getPQ with a filter larger than the padded
  image is undefined (the code wraps around); the result is created by the kernel; matrices are not views. Findings: the strides are
  exchanged in the computation of the output extents of pooling; the maximum starts at zero; the quick path of max pooling starts at
  the largest number; the quick path ignores padding.
* Gradients of convolution and pooling (C78): simplifications as for C77. Findings: the strides are exchanged as in the forward
  direction; conv2dBackwardFilter addresses row p of a filter at p * filter_h; conv2dBackwardData copies filter_h by filter_w cells of
  the output in place of all of them and ends the loop over columns at pad_h + input_w.
* Matrix Market files (C79): the text is taken as split into lines and fields; the header, the conversion of the values and blank or
  comment lines between entries are not modelled, nor is the conversion of integers to double on the way into a frame. The order of
  equal entries in the priority queue is fixed (well-formed files have none). Findings: nothing in the file is checked against its header.
* Mixed value types (C80): numbers are multiples of 2^-1074, so all finite floats, doubles and integers are exact; infinities, NaN and the
  sign of zero are not represented and exponents have no upper bound. Strings, pow and log are not modelled, nor whether a kernel is
  pre-compiled for a type, nor constant folding. Matrices are treated cell by cell. Findings: C80_negative_with_unsigned_refuted,
  C80_logical_on_fractions_refuted, C80_modulo_refuted, C80_grouping_refuted.
* Frames through CSV (C81): strings are lists of bytes, the meta data file is the JSON value it contains (the JSON library is trusted to
  print and parse it, and to reject exactly the labels that are not UTF-8; which those are is a parameter of the theorems). %f and strtod are modelled as correctly rounded
  (glibc); exponents, hexadecimal numbers, infinities, NaN and the sign of zero are not. Findings: C81_big_integers_refuted,
  C81_small_numbers_refuted, C81_fixed_strings_refuted, C81_no_rows_refuted, C81_labels_refuted, C81_lost_rows_refuted.
* Inferred sparsity (C82): sparsities are rational numbers instead of doubles; cells are integers (only whether they are zero matters, and integers
  have no zero divisors: underflow to zero is not modelled). Which shapes are known is a parameter; known ones are right (C59). Loops
  are not modelled. Findings: C82_unknown_refuted, C82_unknown_operands_refuted, C82_dependent_refuted, C82_seq_refuted, C82_diag_refuted, C82_tri_refuted,
  C82_branches_refuted, C82_matmul_refuted.
* Choice of kernels (C83): JSON parsing, the map from C++ type names to types (a parameter), DistributedComputeOp, the creation of
  the context, and how the dynamic loader picks among functions of the same name are not modelled. That the occurrences of a variadic
  operand have the same type up to what is ignored is a hypothesis (well_grouped); without it C83_pack_refuted. Findings:
  C83_hint_refuted, C83_pack_refuted, C83_skipped_refuted, C83_ext_colon_refuted, C83_library_refuted.
* Function calls (C84): the grammar, imports, kernel hints, the table of built-in parameters (a parameter of the model) and the checks
  built-in functions make themselves are not modelled. Findings: C84_overload_refuted, C84_recursion_refuted, C84_cast_refuted,
  C84_specific_refuted, C84_map_refuted.
* Literals (C85): the rounding of a decimal fraction to a floating-point number and the interplay of tokens in the lexer (longest match)
  are not modelled; the value is kept as an exact decimal. Parts of frame literals given as columns are not modelled. Findings:
  C85_int_refuted, C85_suffix_refuted, C85_special_refuted, C85_string_refuted, C85_comma_refuted, C85_dims_refuted, C85_size_refuted,
  C85_text_refuted, C85_frame_text_refuted.
* Indexing (C86): dense matrices; frames and labels are not modelled (C40, C75), nor NaN and infinities as positions. Variables hold immutable
  values, as SSA values do. Errors at compile time and at run time are the same outcome. Findings: C86_several_refuted, C86_several_lost,
  C86_omit_refuted, C86_fraction_refuted, C86_huge_refuted, C86_column_refuted, C86_negative_zero_refuted.
* Group join (C87): values of all types live in one type, with 0 and + as parameters (+ may be undefined); the iteration order of the hash
  table is an arbitrary permutation. Findings: C87_duplicates_refuted, C87_types_refuted, C87_overflow_refuted.
* Conditional expression (C88): evaluating an operand is a list of effects and a value or an error; operations without effects that are
  removed because their results are never used, and the later inference for if-operations, are not modelled. Findings: C88_lazy_refuted,
  C88_properties_refuted, C88_compile_refuted, C88_sparse_empty_refuted.
* Casts (C89): objects are lists of columns (the storage is modelled in C28), conversions of values are a parameter; common subexpression
  elimination, which can merge duplicated operations without effects, is not modelled. Findings: C89_twice_refuted, C89_unknown_refuted,
  C89_first_column_refuted, C89_labels_refuted, C89_column_refuted, C89_scalar_chain_refuted, C89_frame_narrow_refuted, C89_frame_ui64_refuted.
* Strings (C90): memory is one growing list of bytes; freeing strings is modelled in C19. Common subexpression elimination is not modelled. The
  default locale is assumed. Findings: C90_neq_refuted, C90_neq_variables_refuted, C90_case_refuted, C90_fixed_nul_refuted,
  C90_fixed_print_refuted.
* Neural network layers (C91): numbers are those of any field (no rounding, no infinities), exp is any function that turns differences into
  quotients and is never zero, the square root is any function; the theorems are instantiated with rational numbers and powers of two.
  Matrices are those without gaps between rows. Findings: C91_test_rows_refuted, C91_test_channels_refuted, C91_test_images_refuted,
  C91_test_large_refuted, C91_bias_rest_refuted, C91_bias_view_refuted, C91_bias_empty_refuted, C91_softmax_empty_refuted,
  C91_softmax_sparse_overflow_refuted (with numbers extended by one value for all that is infinite or not a number).
* Lists (C92): a matrix is its contents, which do not change; scripts are sequences of statements without control flow, including those
  that end the life of variables; a freed list goes before its elements; addresses are never used again. Only one thread (C18 has several).
  Findings: C92_mixed_refuted, C92_sparse_refuted, C92_unknown_refuted.
* Recorded properties (C93): the main function is a sequence of operations; bodies of loops and conditionals are not looked into, other operations
  have none; of a type only the sparsity is modelled. The order in which the compiler lists the uses of a value is arbitrary. The file is
  a list of numbered entries. Findings: C93_no_effect_refuted, C93_empty_refuted, C93_view_refuted.
* Configuration (C94): values of the keys are truth values, integers, strings or lists; structured values (import paths, logging) are opaque, the list of
  devices and options without a key in the file are left out, as are parsing JSON and the placeholder in the library directory. Findings: C94_file_ignored_refuted,
  C94_cascade_refuted, C94_unset_refuted, C94_tiling_in_file_refuted, C94_missing_file_refuted, C94_columnar_in_file_refuted.
* Searching and approximate comparison (C95): numbers are integers or not-a-number, without rounding, overflow and infinities; a sparse matrix is given by the stored
  entries of its rows, which for views are those of the view; comparing an object with itself or with the same array is not modelled. Unsigned numbers
  are modelled separately. Findings: C95_nan_refuted, C95_columns_refuted, C95_stored_zero_refuted, C95_unsigned_refuted.
