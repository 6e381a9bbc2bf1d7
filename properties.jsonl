{"id": "C01", "title": "Every self-scheduling scheme splits the work into chunks that cover it exactly", "statement": "For every partitioning scheme offered for the vectorized engine, repeatedly asking for the next chunk while more work is announced yields chunk sizes that are all positive, never exceed the work still unassigned, and add up to exactly the number of rows; so the row ranges handed out are contiguous, disjoint and cover [0, rows) with nothing left over.", "quantifier": "all scheme values, all row counts, all worker counts >= 1, all minimum chunk sizes >= 1, and every value the floating-point formulas may return", "why_tests_cant": "The chunk formulas have per-scheme state, integer division and floating point; a gap or overlap only appears for particular combinations of rows, workers and step number, and the combinations are unbounded.", "anchors": ["src/runtime/local/vectorized/LoadPartitioning.h: LoadPartitioning, getNextChunk, hasNextChunk"]}
{"id": "C02", "title": "Chunk production terminates and respects the minimum chunk size", "statement": "Producing chunks ends after at most as many steps as there are rows, and every chunk except possibly the last is at least the configured minimum chunk size. With a minimum chunk size of 0 this fails: some schemes return an empty chunk and production never ends.", "quantifier": "all schemes, row counts, worker counts and minimum chunk sizes", "why_tests_cant": "Non-termination is not observable by a finite test; it depends on the per-step formula hitting zero.", "anchors": ["src/runtime/local/vectorized/LoadPartitioning.h: getNextChunk", "src/runtime/local/vectorized/MTWrapper.h: executeSingleQueue/executeCpuQueues callers"]}
{"id": "C03", "title": "Tasks are distributed over the queues without loss or duplication", "statement": "Whatever queue layout is chosen (one shared queue, one queue per worker or per group, round robin or pre-partitioned), the row ranges of the tasks put in all queues together form a partition of [0, rows): every row belongs to exactly one task in exactly one queue.", "quantifier": "all row counts, queue counts, partitioning schemes, minimum chunk sizes and both distribution modes", "why_tests_cant": "The distribution loops combine the chunk stream with per-queue offsets and remainders; the number of combinations is unbounded.", "anchors": ["src/runtime/local/vectorized/MTWrapper_dense.cpp: executeCpuQueues, executeSingleQueue", "src/runtime/local/vectorized/MTWrapper_sparse.cpp"]}
{"id": "C04", "title": "The blocking task queue delivers each task exactly once, in order, under every interleaving", "statement": "For every interleaving of producers enqueuing, consumers dequeuing and the input being closed, each enqueued task is handed to exactly one consumer, tasks leave in the order they entered, a consumer receives the end marker only after the input is closed and the queue is empty, and the queue never holds more than its capacity.", "quantifier": "all numbers of producer and consumer threads, all capacities, all task lists and all schedules (including spurious wake-ups)", "why_tests_cant": "Tests exercise a handful of schedules; the statement is over all interleavings.", "anchors": ["src/runtime/local/vectorized/TaskQueues.h: BlockingTaskQueue::enqueueTask, dequeueTask, closeInput"]}
{"id": "C05", "title": "Waiting on the task queue cannot get stuck when the queue is large enough", "statement": "If the capacity of the queue is at least the number of tasks ever enqueued (as the vectorized engine arranges), then no reachable state is stuck: as long as some thread has not finished, some thread can make progress, so all consumers eventually receive the end marker. With a smaller capacity this is false: because producers and consumers share one condition variable and only one thread is notified, a reachable state has every thread asleep with work pending.", "quantifier": "all thread counts, capacities, task lists and schedules", "why_tests_cant": "A lost wake-up needs a specific interleaving and may never occur in test runs.", "anchors": ["src/runtime/local/vectorized/TaskQueues.h: BlockingTaskQueue (one condition variable, notify_one)", "src/runtime/local/vectorized/MTWrapper_dense.cpp: queue capacity"]}
{"id": "C06", "title": "Work stealing executes every task exactly once", "statement": "With any number of workers and queues and any victim-selection policy (sequential, prioritised, random, random prioritised), when all workers have stopped every task has been executed exactly once, and no worker stops while one of the queues it scans still holds a task.", "quantifier": "all worker counts, queue contents, victim-selection policies, random choices and schedules", "why_tests_cant": "Depends on every interleaving of pops and on every random victim choice.", "anchors": ["src/runtime/local/vectorized/WorkerCPU.h: WorkerCPU::run", "src/runtime/local/vectorized/TaskQueues.h"]}
{"id": "C07", "title": "Row-wise and column-wise combination in a vectorized pipeline is independent of the schedule", "statement": "For a pipeline whose body acts row-wise on its row-split inputs, the output assembled by the vectorized engine equals the output of running the body once on the whole inputs, for every split of the rows in tasks, every batch size and every order in which tasks complete.", "quantifier": "all inputs, all partitions of the rows, all batch sizes >= 1, all completion orders", "why_tests_cant": "The equality must hold for all partitions and orders; tests fix a few.", "anchors": ["src/runtime/local/vectorized/Tasks.cpp: CompiledPipelineTask::execute, accumulateOutputs, createFuncInputs"]}
{"id": "C08", "title": "Aggregating combination (sum, min, max) in a vectorized pipeline is independent of the schedule", "statement": "For outputs combined with ADD, MIN or MAX over an associative and commutative element operation, the final result equals the fold of the per-row contributions in any order, for every split in tasks, batch size and completion order.", "quantifier": "all inputs, partitions, batch sizes and completion orders", "why_tests_cant": "Same as C07; order dependence shows only under particular schedules.", "anchors": ["src/runtime/local/vectorized/Tasks.cpp: accumulateOutputs"]}
{"id": "C09", "title": "Collecting sparse pipeline results is independent of the order in which workers finish", "statement": "The sparse data sink, given the partial results of the tasks in any order, produces the same sparse matrix: the vertical (row-combined) or horizontal (column-combined) concatenation of the parts ordered by their start position, with valid sorted rows; hence a pipeline with a sparse result gives the same matrix for every division in tasks, batch size and completion order. For row-combined results this needs parts that are not views starting after row 0 of another matrix: with such views the sink writes outside of its arrays.", "quantifier": "all lists of partial sparse matrices, all arrival orders, both combination modes", "why_tests_cant": "Arrival order is decided by the scheduler.", "anchors": ["src/runtime/local/vectorized/VectorizedDataSink.h: VectorizedDataSink<CSRMatrix<VT>>::add, consume"]}
{"id": "C10", "title": "Distributed row partitioning covers the matrix exactly and evenly", "statement": "The row ranges assigned to the workers of the distributed runtime are contiguous, disjoint, cover all rows, and their lengths differ by at most one; ranges attached to row-combined and column-combined outputs have the same property. Cutting a dense matrix along these ranges succeeds if there are at least as many rows as workers, and always throws if there are fewer rows (but at least one) than workers.", "quantifier": "all row (column) counts and all worker counts >= 1", "why_tests_cant": "Unbounded numbers of rows and workers.", "anchors": ["src/runtime/distributed/coordinator/scheduling/LoadPartitioningDistributed.h: CreateRange, SetOutputsMetadata"]}
{"id": "C11", "title": "A sparse matrix behaves like a matrix under any history of set and get", "statement": "Starting from a valid sparse (CSR) matrix with enough spare capacity, after any sequence of set(r,c,v) calls get(r,c) returns the last value set at (r,c), or the original value if none; the internal representation stays valid (row offsets non-decreasing, column indexes strictly increasing in each row, no explicit zeros introduced).", "quantifier": "all valid matrices, all sequences of in-range set/get calls within capacity", "why_tests_cant": "The effect of a set depends on the whole history of insertions and removals.", "anchors": ["src/runtime/local/datastructures/CSRMatrix.h: get, set, getRowIdxsOfNonZeros/lower_bound"]}
{"id": "C12", "title": "Appending non-zeros in row-major order builds exactly the appended sparse matrix", "statement": "After prepareAppend, any sequence of append(r,c,v) calls in increasing (r,c) order within capacity and finishAppend, the sparse matrix holds v at the appended positions and zero elsewhere; appended zeros are not stored.", "quantifier": "all shapes with at least one row, all ordered append sequences within capacity", "why_tests_cant": "Empty rows at the start, middle and end all interact with the running row offsets; the sequences are unbounded.", "anchors": ["src/runtime/local/datastructures/CSRMatrix.h: prepareAppend, append, finishAppend"]}
{"id": "C13", "title": "A row view of a sparse matrix shows exactly the selected rows", "statement": "For a view on rows [rl, ru) of a sparse matrix (and views of views), get(r,c), the number of non-zeros per row and in total agree with row rl + r of the original.", "quantifier": "all valid sparse matrices, all in-range row ranges, nested arbitrarily", "why_tests_cant": "Views share arrays with shifted offsets; every range must work.", "anchors": ["src/runtime/local/datastructures/CSRMatrix.h: view constructor, sliceRow, getNumNonZeros, getValues(rowIdx), getColIdxs(rowIdx)"]}
{"id": "C14", "title": "Sparse matrix equality against equality of contents", "statement": "Two sparse matrices with no explicit zeros, the same shape and the same value in every cell compare equal; and two matrices that compare equal and have the same number of stored entries in every row have the same cells. Without the last condition comparing equal does not imply equal contents (the comparison ignores which row an entry belongs to).", "quantifier": "all pairs of valid sparse matrices", "why_tests_cant": "A counterexample needs two different matrices with the same value and column index sequence.", "anchors": ["src/runtime/local/datastructures/CSRMatrix.h: operator=="]}
{"id": "C15", "title": "Dense views alias exactly the selected window", "statement": "For any chain of row/column slices of a dense matrix, reading cell (r,c) of the view reads the corresponding cell of the base matrix, and writing through the view changes that cell of the base and nothing else; slices with bounds outside the matrix are rejected. Reducing the number of rows of a non-view keeps the remaining cells; for a view it does not (the class then reads other cells).", "quantifier": "all shapes, all chains of slices, all reads and writes", "why_tests_cant": "Aliasing must hold for every offset/stride combination.", "anchors": ["src/runtime/local/datastructures/DenseMatrix.h: DenseMatrix view constructor, pos, get, set, sliceRow, sliceCol, slice"]}
{"id": "C16", "title": "Appending to a dense matrix fills skipped cells with zero", "statement": "After prepareAppend, any row-major ordered sequence of append calls and finishAppend, a dense matrix or view with full rows holds the appended values and zero in every other cell, and cells outside the view are unchanged. For views that select only some of the columns this fails: the cell just before the first value of a later row keeps its old content; it holds if no row starts with a gap.", "quantifier": "all shapes, strides, previous contents and ordered append sequences", "why_tests_cant": "The gap filling has cases for within-row, partial and multi-row gaps, for contiguous and strided memory.", "anchors": ["src/runtime/local/datastructures/DenseMatrix.h: prepareAppend, append, finishAppend, fillZeroUntil"]}
{"id": "C17", "title": "Frame column labels identify columns uniquely", "statement": "Creating a frame or setting its labels succeeds exactly if the labels are distinct, and then looking up a label returns the unique column that carries it and unknown labels are rejected; default labels are always distinct; column concatenation succeeds exactly if row counts agree and all labels are distinct. Selecting columns repeatedly replaces repeated labels by default labels, and lookups work if no selected label looks like a default label; in general this fails (two columns named col_1). A rejected label change leaves the frame with the rejected labels.", "quantifier": "all label lists", "why_tests_cant": "Collisions with generated labels depend on the particular names.", "anchors": ["src/runtime/local/datastructures/Frame.h: initLabels2Idxs, initDeduplicatedLabels2Idxs, setLabels, getColumnIdx"]}
{"id": "C18", "title": "Reference-counted data objects are destroyed exactly once, when the last reference goes away", "statement": "For every history of creating data objects (matrices, views, frames sharing columns, lists), increasing references and destroying references in which the number of destroy calls never exceeds the number of references, no object is used after it was freed, no object is freed twice, and an object is freed exactly when its last reference is given up.", "quantifier": "all histories of create/increase/destroy", "why_tests_cant": "Depends on the entire history of operations.", "anchors": ["src/runtime/local/datastructures/Structure.cpp: increaseRefCounter", "src/runtime/local/datastructures/DataObjectFactory.h: destroy", "src/runtime/local/datastructures/List.h", "src/runtime/local/datastructures/Frame.h"]}
{"id": "C19", "title": "String reference counting never frees a live string nor leaks a dead one", "statement": "For every history of reference increments and decrements on runtime strings, where each string starts with one implicit reference, a decrement reports that the string must be freed exactly when it gives up the last reference.", "quantifier": "all interleavings of increments and decrements over any set of strings", "why_tests_cant": "History property; also the map stores only strings whose counter exceeded one.", "anchors": ["src/util/StringRefCount.cpp: StringRefCounter::inc, dec", "src/runtime/local/kernels/IncRef.h", "src/runtime/local/kernels/DecRef.h"]}
{"id": "C20", "title": "Scoped variable lookup implements lexical scoping", "statement": "Looking up a variable yields the most recent binding made in the innermost open scope that binds it; leaving a scope undoes exactly the bindings made in it; extracting a scope returns exactly these; bindings made outside reappear unchanged.", "quantifier": "all histories of put, pushScope, popScope, extractScope, has and get", "why_tests_cant": "History property over unbounded nesting.", "anchors": ["src/parser/ScopedSymbolTable.h: ScopedSymbolTable"]}
{"id": "C21", "title": "The bounded set behind approximate distinct counting keeps the K smallest distinct values", "statement": "After pushing any sequence of values, the bounded set holds exactly the K smallest distinct values pushed so far. This fails when a value that is already contained is pushed again while the set is full.", "quantifier": "all K and all push sequences", "why_tests_cant": "Only particular repetitions trigger the loss.", "anchors": ["src/util/UniqueBoundedSet.h: UniqueBoundedSet::push, top", "src/runtime/local/kernels/NumDistinctApprox.h"]}
{"id": "C22", "title": "Serializing and deserializing a dense matrix is the identity", "statement": "For every dense matrix stored contiguously with fewer than 2^32 rows and columns, serializing it to a buffer and deserializing the buffer returns a matrix with the same shape and cells; the same holds when the bytes are produced in chunks of any size that holds the header and consumed in pieces of any sizes whose first holds the header. Bytes of another value type and too small chunk sizes are refused. It fails for column ranges (views with gaps between the rows), whose cells are not the ones written, and for dimensions of 2^32 or more, which are cut to 32 bits.", "quantifier": "all shapes, all cell values, all chunk sizes", "why_tests_cant": "Chunk boundaries fall inside values and inside the header for particular sizes only.", "anchors": ["src/runtime/local/io/DaphneSerializer.h: DaphneSerializer<DenseMatrix<VT>>, DaphneSerializerInChunks, DaphneDeserializerInChunks"]}
{"id": "C23", "title": "Out-of-order chunks reassemble the same object", "statement": "Chunks produced by the out-of-order serializer can be delivered in any order, in messages with or without unused space at the end; once all have been delivered the receiver holds the original matrix and reports completion, and not before the last chunk does it report completion. This holds for contiguous dense matrices, for sparse views, and for sparse matrices whose arrays are completely used; for a sparse matrix that has room for more entries than it stores the loop that asks for the next chunk never ends.", "quantifier": "all matrices, chunk sizes and delivery orders", "why_tests_cant": "Orders and sizes are unbounded.", "anchors": ["src/runtime/local/io/DaphneSerializer.h: DaphneSerializerOutOfOrderChunks, DaphneDeserializerOutOfOrderChunks"]}
{"id": "C24", "title": "Serializing and deserializing a sparse matrix is the identity", "statement": "For every sparse matrix or row view (with or without room for further entries) with fewer than 2^32 rows and columns, serializing it, at once or in chunks of any admissible size, and deserializing the bytes returns a matrix with the same shape, the same stored rows and the same cells. The overload that allocates the output buffer itself is safe for dense matrices, but for sparse matrices it reserves 8 bytes and always writes past them.", "quantifier": "all valid sparse matrices (including views) and chunk sizes", "why_tests_cant": "Chunk boundaries fall inside row offsets, column indexes and values.", "anchors": ["src/runtime/local/io/DaphneSerializer.h: DaphneSerializer<CSRMatrix<VT>>"]}
{"id": "C25", "title": "CSV string fields survive writing and reading back", "statement": "Writing a dense matrix of strings (any stride) to a CSV file and reading it back with the same shape returns the same strings, for all strings without NUL that either contain none of comma, quote, line feed and carriage return, or contain no carriage return, no backslash before a quote and no backslash at the end. No string with a carriage return or NUL is ever read, and backslashes before a quote or at the end of a quoted string break the round trip.", "quantifier": "all strings", "why_tests_cant": "The set of strings is infinite and only certain character sequences break the round trip.", "anchors": ["src/runtime/local/io/WriteCsv.h: quoteStrCsvIf", "src/runtime/local/io/utils.h: setCString"]}
{"id": "C26", "title": "Reading coordinate (COO) files yields exactly the listed entries", "statement": "Reading a coordinate file (rows and columns below 2^31) gives a valid sparse matrix with one at each listed coordinate and zero elsewhere: with the sorted reader if the entries are in row-major order, with the unsorted reader for any order of distinct entries (at least one). The unsorted reader throws if any coordinate is outside of the matrix. What fails: the sorted reader writes out of bounds for a row outside of the matrix, accepts columns outside of it, and entries sorted by row only are not found by look-ups; the unsorted reader rejects a file without entries.", "quantifier": "all dimensions and all lists of in-range entries with distinct coordinates", "why_tests_cant": "Empty rows and arbitrary orders must all work.", "anchors": ["src/runtime/local/io/ReadCsvFile.h: ReadCsvFile<CSRMatrix<VT>>"]}
{"id": "C27", "title": "Transposition is correct for dense and sparse matrices and all views", "statement": "Transposing a matrix gives a matrix of swapped shape whose cell (c,r) equals cell (r,c) of the argument; for sparse arguments the result is a valid sparse matrix with sorted rows, also if the argument is a row view. Transposing twice returns the original contents.", "quantifier": "all dense (strided or contiguous) and all valid sparse matrices and row views", "why_tests_cant": "Unbounded shapes and sparsity patterns.", "anchors": ["src/runtime/local/kernels/Transpose.h"]}
{"id": "C28", "title": "Casting between dense and sparse representations preserves the matrix", "statement": "Casting dense to sparse and back (and sparse to dense and back) returns the same cells; the sparse result has no explicit zeros. Casting sparse to sparse with another value type keeps the shape and cells: this is false for non-square matrices and for row views.", "quantifier": "all matrices and views", "why_tests_cant": "Three code paths selected by the number of non-zeros; unbounded inputs.", "anchors": ["src/runtime/local/kernels/CastObj.h"]}
{"id": "C29", "title": "Aggregations over sparse matrices equal aggregations over the same dense matrix", "statement": "For sum, product, min, max, mean, variance and standard deviation over all cells, each row or each column, the sparse implementation returns what the dense implementation returns on the same cells, namely the aggregate of exactly these cells including the implicit zeros (arithmetic that is associative and commutative). It holds for views and strided matrices, and needs at least one column for the row-wise and one row for the column-wise variants: without columns the sparse implementation returns the neutral element and the dense one reads out of bounds, without rows the sparse one throws and the dense one reads out of bounds (refuted there).", "quantifier": "all valid sparse matrices, all aggregation functions named", "why_tests_cant": "Whether implicit zeros matter depends on each row/column being full or not.", "anchors": ["src/runtime/local/kernels/AggAll.h", "src/runtime/local/kernels/AggRow.h", "src/runtime/local/kernels/AggCol.h", "src/runtime/local/kernels/AggOpCode.h"]}
{"id": "C30", "title": "Sparse matrix multiplication equals the mathematical product for every variant", "statement": "Multiplying a sparse by a dense, a dense by a sparse, or two sparse matrices yields in cell (i,j) exactly the sum over k, in increasing order, of lhs(i,k)*rhs(k,j), whichever of the row-wise, parallel or blocked variants is used and however the threads of the parallel ones interleave; the sparse result never outgrows its allocation and stores no zeros. It needs that adding a product with zero changes nothing (refuted for NaN). The generic variant also honours the transposition flags; the kernels with a sparse operand ignore them although the compiler sets them for X @ t(Y) with sparse X (refuted).", "quantifier": "all shapes and sparsity patterns, all variants and block sizes", "why_tests_cant": "Variant selection depends on sizes and hardware; the blocked variant has boundary blocks.", "anchors": ["src/runtime/local/kernels/MatMul.h"]}
{"id": "C31", "title": "Sorting by several columns gives a stable lexicographic order", "statement": "Ordering a matrix or frame by a list of key columns with directions returns a permutation of the rows that is sorted lexicographically by the keys (each in its direction) and keeps the original order of rows with equal keys; the reported groups are exactly the maximal runs of at least two rows with equal keys; this determines the result. It holds for values whose < is a strict weak order; if a key column whose duplicates are searched (any but the last, or the last when groups are requested) contains a NaN, the kernel never ends (refuted).", "quantifier": "all tables, key lists and directions", "why_tests_cant": "Correctness of the group-by-group sorting depends on all earlier keys; unbounded.", "anchors": ["src/runtime/local/kernels/Order.h"]}
{"id": "C32", "title": "Inner join returns exactly the matching pairs", "statement": "The inner join of two frames on one column each, both of string or both of int64 type, returns one row for each pair of a left and a right row with equal keys and no other rows, in left-row order and, per left row, in right-row order; the columns are those of the left frame followed by those of the right frame, and the cells are those of the two rows for string, int64 and double columns (cells of other columns are left uninitialised). A given result size that is too small, unknown or duplicate labels and other key types are rejected. The semi join on int64 columns returns the keys and positions of exactly the left rows whose key occurs on the right, in order; other key types crash.", "quantifier": "all key columns", "why_tests_cant": "Unbounded inputs with arbitrary duplicates.", "anchors": ["src/runtime/local/kernels/InnerJoin.h", "src/runtime/local/kernels/SemiJoin.h"]}
{"id": "C33", "title": "Recoding is a lossless dictionary encoding", "statement": "Recoding a column whose value type has a proper equality returns codes and a dictionary such that looking up each code in the dictionary gives back an equal value, the dictionary has no two equal values and no value that does not occur, and the codes are exactly 0..k-1 for k distinct values. Without the order-preserving option codes are numbered by first occurrence; with it the dictionary is sorted and codes compare like the values. Anything but a single column is rejected. With NaN in the column the order-preserving option loses values.", "quantifier": "all columns and both options", "why_tests_cant": "Unbounded inputs.", "anchors": ["src/runtime/local/kernels/Recode.h"]}
{"id": "C34", "title": "Row positions and bitmaps convert into each other without loss", "statement": "Converting a strictly increasing list of row positions smaller than the bitmap length to a bitmap and back returns the list; converting a 0/1 bitmap to positions and back returns the bitmap. A position equal to the bitmap length is not rejected and writes outside the bitmap.", "quantifier": "all bitmaps and position lists", "why_tests_cant": "The boundary case position = length is memory corruption that tests may not notice.", "anchors": ["src/runtime/local/kernels/ConvertPosListToBitmap.h", "src/runtime/local/kernels/ConvertBitmapToPosList.h"]}
{"id": "C35", "title": "Sampling without replacement yields distinct values for every random stream", "statement": "Sampling size values without replacement from a range of integers returns exactly size pairwise distinct values from [0, range), whatever the random numbers are.", "quantifier": "all sizes, ranges and all random streams", "why_tests_cant": "Holds for every random stream, tests use a few seeds.", "anchors": ["src/runtime/local/kernels/Sample.h", "src/runtime/local/kernels/RandMatrix.h"]}
{"id": "C36", "title": "The symmetry check decides symmetry", "statement": "The check whether a square matrix is symmetric returns true exactly if cell (i,j) equals cell (j,i) for all i, j: this holds for dense matrices and the variant for arbitrary matrices. For sparse matrices it is false in both directions (refuted): the identity matrix is declared not symmetric, and a matrix with an unmatched entry below the diagonal is declared symmetric. What holds for sparse ones: true implies that every non-zero cell above the diagonal equals its mirror image, and a symmetric matrix is recognized if every row with a non-zero diagonal cell has another non-zero cell.", "quantifier": "all square dense and sparse matrices", "why_tests_cant": "Only particular sparsity patterns expose the error.", "anchors": ["src/runtime/local/kernels/IsSymmetric.h"]}
{"id": "C37", "title": "Static scheduling hands out a bounded number of chunks", "statement": "With the static scheme and minimum chunk size 1, W workers get at most 2W-1 chunks in total, for any number of rows. The stronger expectation of one chunk per worker is false: the chunk size is rounded down, so 7 rows on 4 workers become 7 chunks.", "quantifier": "all row counts and worker counts >= 1", "why_tests_cant": "Depends on the remainder of rows modulo workers for all values.", "anchors": ["src/runtime/local/vectorized/LoadPartitioning.h: getNextChunk (STATIC)"]}
{"id": "C38", "title": "Dense matrix equality compares shapes and cells", "statement": "Comparing two dense matrices, each an arbitrary view of an arbitrary matrix, gives true exactly if they have the same shape and equal cells at every position; the pointer shortcut gives the same answer for reflexive element comparison.", "quantifier": "all shapes, strides, contents and chains of slices", "why_tests_cant": "Every stride/offset combination of two operands.", "anchors": ["src/runtime/local/datastructures/DenseMatrix.h: operator=="]}
{"id": "C39", "title": "Collecting distributed results does not depend on the order of arrival", "statement": "Assembling a row- or column-combined result from the parts computed by the workers gives the whole matrix, for every order in which the parts arrive and every number of workers (gRPC and MPI variants; the MPI loop may stop early without losing cells). For added results the gRPC variants give the sum over all workers; the MPI variant does so only if there are at least as many columns as workers, otherwise it drops contributions depending on the order (refuted).", "quantifier": "all shapes, worker counts, parts, arrival orders", "why_tests_cant": "Arrival order is decided by the network.", "anchors": ["src/runtime/distributed/coordinator/kernels/DistributedCollect.h: DistributedCollect::apply", "src/runtime/distributed/coordinator/scheduling/LoadPartitioningDistributed.h: SetOutputsMetadata"]}
{"id": "C40", "title": "Frame selections and concatenations show the right cells", "statement": "A frame obtained by selecting a row range and a list of columns shows, at row r and column c, the cell of the source at row rl+r and the c-th selected column, in every state of the shared buffers; selection is rejected exactly if the bounds or a column position are invalid; concatenating two frames shows the columns of the first followed by those of the second.", "quantifier": "all frames, row ranges, column lists, buffer contents", "why_tests_cant": "Aliasing and offsets for all nested selections.", "anchors": ["src/runtime/local/datastructures/Frame.h: Frame(const Frame *, int64_t, int64_t, size_t, const size_t *), slice, Frame(const Frame *, const Frame *), getColumn"]}
{"id": "C41", "title": "Cumulative aggregations and positions of extrema", "statement": "Row r of a cumulative sum, product, minimum or maximum is the aggregate of rows 0..r of each column. The position of the minimum (maximum) of each row or column is the first position of a smallest (largest) value. The sparse implementations refuse the position functions.", "quantifier": "all shapes with at least one row/column, strides, contents, value orders", "why_tests_cant": "Ties, strides and all shapes.", "anchors": ["src/runtime/local/kernels/AggCum.h", "src/runtime/local/kernels/AggRow.h", "src/runtime/local/kernels/AggCol.h"]}
{"id": "C42", "title": "Random matrices have exactly the requested number of non-zeros for every random stream", "statement": "Generating a dense random matrix yields exactly the number of non-zero cells that follows from the requested sparsity, each a value drawn from the requested range, for every stream of random numbers for which the drawing of non-zero values ends. Generating a sparse random matrix yields a valid sparse matrix with exactly the requested number of stored entries in distinct positions and never writes outside its arrays; zero values are not drawn again there, so it can have fewer non-zero cells than stored entries (refuted).", "quantifier": "all shapes, numbers of non-zeros and random streams", "why_tests_cant": "Tests use a few seeds; the property must hold for every stream, including extreme ones.", "anchors": ["src/runtime/local/kernels/RandMatrix.h: RandMatrix<DenseMatrix<VT>, VT>, RandMatrix<CSRMatrix<VT>, VT>"]}
{"id": "C43", "title": "Selecting rows or columns by position returns exactly the selected cells", "statement": "Extracting rows (columns) of a dense matrix by a column of positions gives, at place i, the row (column) that the i-th position denotes, where negative positions count from the end; duplicates and any order are allowed. A position outside the matrix is reported as an error and nothing outside the matrix is read. Two exceptions are refuted: if the position column is itself a strided view, the dense kernels read the wrong positions; and extracting columns of a matrix without rows accepts any position.", "quantifier": "all matrices (any stride), all position lists", "why_tests_cant": "All strides, positions and shapes.", "anchors": ["src/runtime/local/kernels/ExtractRow.h: ExtractRow<DenseMatrix<VT>, DenseMatrix<VT>, VTSel>", "src/runtime/local/kernels/ExtractCol.h: ExtractCol<DenseMatrix<VTArg>, DenseMatrix<VTArg>, DenseMatrix<VTSel>>"]}
{"id": "C44", "title": "Filtering keeps exactly the marked rows or columns in order", "statement": "Filtering the rows (columns) of a dense matrix by a column of zeros and ones returns exactly the rows (columns) marked by a one, in their original order; a selection of the wrong shape is reported. With other entries the number of result rows is the sum of the entries, not the number of non-zero entries: then rows are left uninitialised or written out of bounds (refuted).", "quantifier": "all matrices (any stride), all bit columns", "why_tests_cant": "All bit patterns and shapes.", "anchors": ["src/runtime/local/kernels/FilterRow.h: FilterRow<DenseMatrix<VT>, DenseMatrix<VT>, VTSel>", "src/runtime/local/kernels/FilterCol.h: FilterCol<DenseMatrix<VT>, DenseMatrix<VT>, VTSel>"]}
{"id": "C45", "title": "Selecting rows of a frame moves whole elements although it copies 8 bytes at a time", "statement": "Extracting or filtering the rows of a frame, which copies every element as 8 bytes whatever its size, leaves in every non-string result column exactly the bytes of the selected elements and writes only inside the (padded) result, provided 8 - s readable bytes follow the source column with elements of s bytes. Columns are allocated without such bytes: selecting the last row of a column of a narrow type reads outside the column (refuted).", "quantifier": "all element sizes 1 to 8, row counts, selections, contents", "why_tests_cant": "Overlapping stores; the out-of-bounds read usually goes unnoticed in tests.", "anchors": ["src/runtime/local/kernels/ExtractRow.h: ExtractRow<Frame, Frame, VTSel>", "src/runtime/local/kernels/FilterRow.h: FilterRow<Frame, Frame, VTSel>"]}
{"id": "C46", "title": "CSV files keep integers in the range of int", "statement": "Writing a dense integer matrix (any stride) to a CSV file and reading it back with the same shape returns the same values if all values lie in [-2^31, 2^31), and for uint32 for all values; it is false for int64 and uint64 values outside of that range.", "quantifier": "all shapes with at least one row and column, all strides, all values of the stated ranges", "why_tests_cant": "The values and shapes are unbounded; tests use small numbers.", "anchors": ["src/runtime/local/io/WriteCsv.h: WriteCsv<DenseMatrix<VT>>", "src/runtime/local/io/ReadCsvFile.h: ReadCsvFile<DenseMatrix<VT>>", "src/runtime/local/io/utils.h: convertCstr"]}
{"id": "C47", "title": "Reversing and diagonals return the right cells", "statement": "Reversing a dense matrix returns its rows in reverse order (twice gives the matrix back). The diagonal matrix of a column vector has the vector on its diagonal and zeros elsewhere; the diagonal of a square matrix is the column of its diagonal cells; dense and sparse variants, for arbitrary views; other shapes are reported as errors. Reversing a view without columns of a matrix with one column writes outside of the result.", "quantifier": "all shapes, strides, views, contents", "why_tests_cant": "Every stride and every sparse structure.", "anchors": ["src/runtime/local/kernels/Reverse.h", "src/runtime/local/kernels/DiagMatrix.h", "src/runtime/local/kernels/DiagVector.h"]}
{"id": "C48", "title": "Triangular parts are exact and never overrun the result", "statement": "The upper or lower triangle of a square matrix, with or without the diagonal, with the values or with ones, has exactly the specified cells for the dense and the sparse implementation; the sparse result, which is allocated for min(nnz, n(n+1)/2) entries, is never overrun. Matrices that are not square are reported as errors.", "quantifier": "all square shapes, strides, sparse structures incl. views and stored zeros, all flags", "why_tests_cant": "The capacity bound is an arithmetic invariant over all structures.", "anchors": ["src/runtime/local/kernels/Tri.h"]}
{"id": "C49", "title": "Binding places both arguments side by side", "statement": "cbind of two matrices with the same number of rows and rbind of two matrices with the same number of columns have exactly the cells of both arguments, dense or sparse; other shapes are reported as errors. For rbind, dense arguments with several rows must be contiguous (it is false for views of columns), and the first sparse argument must be recognisable as a view if it is one (it is false for a view of all rows of a view).", "quantifier": "all shapes, strides, views, contents", "why_tests_cant": "All views and offsets.", "anchors": ["src/runtime/local/kernels/RowBind.h", "src/runtime/local/kernels/ColBind.h"]}
{"id": "C50", "title": "Reshaping keeps the row-major sequence of cells", "statement": "Reshaping a dense or sparse matrix to a shape with the same number of cells gives the matrix whose row-major sequence of cells is that of the argument; shapes with another number of cells are reported as errors as long as the numbers are below 2^64 (above, a 0 x 1 matrix can become 2^32 x 2^32 without any memory). For sparse arguments that are views of all rows of a view the result has the wrong values.", "quantifier": "all shapes, strides, sparse structures, target shapes", "why_tests_cant": "Re-bucketing of entries into rows for every structure.", "anchors": ["src/runtime/local/kernels/Reshape.h"]}
{"id": "C51", "title": "Slices are the addressed range, and inserting replaces exactly that range", "statement": "X[lo:up, ] and X[, lo:up] return exactly the addressed rows or columns, where negative bounds count from the end and an upper bound 0 after a negative lower bound means the end; a range that is not inside the matrix is an error. X[lo:up, ] = Y returns X with exactly the addressed rows replaced by Y (also when X is sparse) and everything else unchanged; a range outside of X or a Y of another shape is an error. Slicing with the bounds just inserted gives Y, and inserting the slice that was read changes nothing, except for bounds lo:0 with lo < -1, for which slicing addresses everything from lo to the end but inserting a single row. Inserting no rows into a sparse matrix without rows is refused.", "quantifier": "all matrices and views of any shape, all int64 bounds (also negative and out of range), dense and CSR inputs", "why_tests_cant": "the bounds are resolved by unsigned wrap-around arithmetic and there are infinitely many combinations of sign and range; tests check a few", "anchors": ["src/runtime/local/kernels/SliceRow.h:SliceRow", "src/runtime/local/kernels/SliceCol.h:SliceCol", "src/runtime/local/kernels/InsertRow.h:InsertRow", "src/runtime/local/kernels/InsertCol.h:InsertCol"]}
{"id": "C52", "title": "Element-wise operations agree on dense and sparse matrices and with broadcasting", "statement": "For every scalar function f, the element-wise operation on two dense matrices (any views) gives f of the corresponding cells, where a right operand that is a row or a column stands for every row or column; combinations of shapes that match in no dimension are errors; f with a scalar gives f of every cell with the scalar, for dense and sparse matrices and for any f. Adding and multiplying sparse matrices merges or intersects the entries and gives the sum or product of the cells (provided 0 is neutral or absorbing), never overrunning the result; a sparse times a dense matrix or vector likewise. It is false that a row or column on the left is broadcast (the result has the shape of the left operand, and memory outside of an empty right operand is read); it is false for sparse-dense operations like min, ==, >, >= and ^ that the missing cells are right, since only f(0,1) is tested; and a NaN opposite to a missing cell is lost.", "quantifier": "all shapes, views, contents and scalar functions (with the stated laws)", "why_tests_cant": "all interleavings of the column positions of two rows, all shapes and functions", "anchors": ["src/runtime/local/kernels/EwBinaryMat.h:EwBinaryMat", "src/runtime/local/kernels/EwBinaryObjSca.h:EwBinaryObjSca"]}
{"id": "C53", "title": "Generated reference counting neither leaks nor frees twice", "statement": "In a compiled program, whatever branches are taken, however often loops run and functions call each other, no data object is used after it was destroyed, none is destroyed twice, and when the main function returns exactly the returned objects are left, with one reference per time they are returned; provided every branch of an if hands out each of its own values at most once, and bodies of loops and functions hand out only values defined in the same block, each at most twice. Without this proviso it is false: an if that assigns the same new matrix to two variables destroys it twice, a loop that assigns a matrix from before the loop to a loop variable destroys it while it is used, and a value returned three times is never destroyed.", "quantifier": "all programs in SSA form with arbitrarily nested ifs, loops and (recursive) calls, all executions, all kernels that return new objects or their arguments", "why_tests_cant": "the property ranges over all programs and all control flow paths", "anchors": ["src/compiler/lowering/ManageObjRefsPass.cpp:processBlock", "src/compiler/lowering/ManageObjRefsPass.cpp:processValue", "src/compiler/utils/LoweringUtils.cpp:findLastUseOfSSAValue", "src/runtime/local/kernels/IncRef.h", "src/runtime/local/kernels/DecRef.h"]}
{"id": "C54", "title": "Compiling control flow preserves the meaning of a script", "statement": "Whatever variables a script (or function body) starts with and however its blocks, ifs, while loops, do-while loops and for loops are nested, the program in static single assignment form that the parser generates computes, for every variable visible at the end, the value the script gives it, and does not terminate if the script does not: assignments in a branch or loop body to variables that existed before are visible afterwards and in the next iteration, those to new variables are not, an if takes over the assignments of exactly the branch that was taken, and a for loop runs through from, from+step, ... up to and including to, upwards or downwards (not at all for step 0). The guarantee that a loop variable cannot be assigned to in the loop fails after a nested loop over a variable of the same name.", "quantifier": "all scripts built from assignments, expressions, blocks, if, while, do-while and for, nested arbitrarily, all initial variables and values, all operations, all numbers of iterations", "why_tests_cant": "the property ranges over all programs and inputs", "anchors": ["src/parser/daphnedsl/DaphneDSLVisitor.cpp:visitIfStatement", "src/parser/daphnedsl/DaphneDSLVisitor.cpp:visitWhileStatement", "src/parser/daphnedsl/DaphneDSLVisitor.cpp:visitForStatement", "src/parser/daphnedsl/DaphneDSLVisitor.cpp:visitBlockStatement", "src/parser/daphnedsl/DaphneDSLVisitor.cpp:handleAssignmentPart", "src/parser/ScopedSymbolTable.h:popScope"]}
{"id": "C55", "title": "Grouping: one row per distinct key, in key order, with the aggregates of its rows", "statement": "Grouping a frame by key columns given through '*' yields one row per distinct combination of keys, in ascending order of the keys; the key columns hold the key of the group and every aggregation column holds the aggregate (count, sum, minimum, maximum, mean) of exactly the values of the rows of that group, taken in input order. Without keys the result is one row aggregating all rows. Two things fail: with keys given by name, an array with no elements is written out of bounds; and the minimum or maximum of an empty frame without keys dereferences an element that does not exist.", "quantifier": "all frames with fewer than 2^63 rows, all numbers of keys, all value types ordered by a strict weak order, all aggregation functions, all initial contents of newly allocated memory", "why_tests_cant": "the property ranges over all frames, keys and aggregation functions", "anchors": ["src/runtime/local/kernels/Group.h:Group<Frame>::apply", "src/runtime/local/kernels/Group.h:ColumnGroupAgg::apply", "src/runtime/local/kernels/Group.h:aggregate", "src/runtime/local/kernels/Order.h:OrderFrame"]}
{"id": "C56", "title": "Constant folding agrees with the kernels on integers", "statement": "If the compiler replaces an arithmetic, comparison, logical or min/max operation, a negation or a cast on constant integers of any of the supported types by a constant, that constant has the type the operation has and the value the kernel would have computed at run time; the compiler reports an error only where the kernel would divide by zero. Exceptions, where the folded program computes something else than the unfolded one: a negative value of a signed type meets a wider unsigned type (the value is zero-extended); true + true is folded to false but true at run time; the remainder of values beyond 2^53 (the kernel computes with doubles); an index meets a narrower integer type (undefined); casts of floating-point numbers to bool and of large ones to ui64; min and max with NaN.", "quantifier": "all pairs of integer constants of the types bool, si8, si32, si64, ui8, ui32, ui64 and index, all operations named above", "why_tests_cant": "the property ranges over all values of all pairs of types; tests cover a few literals", "anchors": ["src/ir/daphneir/Fold.cpp:performCast", "src/ir/daphneir/Fold.cpp:constFoldBinaryOp", "src/ir/daphneir/Fold.cpp:EwAddOp::fold", "src/runtime/local/kernels/EwBinarySca.h:EwBinarySca", "src/runtime/local/kernels/CastSca.h:CastSca", "src/compiler/inference/TypeInferenceUtils.cpp:generality", "src/compiler/inference/AdaptTypesToKernelsPass.cpp:runOnOperation"]}
{"id": "C57", "title": "Fusing operations into vectorized pipelines keeps the program", "statement": "Fusing row-wise operations into vectorized pipelines neither loses nor duplicates an operation. If every value of a block is used at most once, the compiler always succeeds, every operation still comes after the operations it needs, all values and the order of the side effects stay the same, every row-wise producer is fused with its row-wise consumer, only vectorizable operations are fused, and no operation gets a value of its own pipeline that it needs as a whole. With values used several times, creating one pipeline is correct whenever no other operation both needs a member and is needed by a member, the members are in reverse program order and no control structure between them uses values defined between them; side effects then keep their order unless an operation with side effects between the members needs one of them. Otherwise it fails: print(a) can move behind a later print; a value used between two fused operations (or in a control structure between them) can be used before it is defined; two pipelines can be merged so that no valid order exists; a value used twice by one pipeline makes a vector be inserted into itself; and an operation that uses a value both row by row and as a whole (a @ a) gets only some of its rows.", "quantifier": "all straight-line blocks of operations with any operands, any splits and combines, any nested uses, any side effects; all meanings of the operations", "why_tests_cant": "the property ranges over all dependency graphs", "anchors": ["src/compiler/lowering/VectorizeComputationsPass.cpp:runOnOperation", "src/compiler/lowering/VectorizeComputationsPass.cpp:greedyPipelineFusion", "src/compiler/lowering/VectorizeComputationsPass.cpp:isDirectlyFusible", "src/compiler/utils/VectorizationUtils.cpp:movePipelineInterleavedOperations", "src/compiler/utils/VectorizationUtils.cpp:valueDependsOnResultOf"]}
{"id": "C58", "title": "Early returns keep the meaning of a function", "statement": "For a function whose returns are in nested ifs and all have the same number of values: if the front end gets through, the function it produces has a single return, at its end, and if the IR verifier accepts that function, a call of it returns exactly the values which the script says, with the same effects in the same order; whatever the verifier says, no run of it that avoids undefined values returns anything else. No null pointer is followed on the way. Not all functions get through: with operations after an if around a nested return, the operations cloned into the inner if still use the values of the originals (this includes the example in the code's own documentation); a variable set in a returning if and used inside a later loop or if is not replaced there; a function without return value with an early return needs a return at its end; returns with different numbers of values are not reported and values get lost.", "quantifier": "all functions of operations, ifs and returns of any nesting, all meanings of the operations, all arguments", "why_tests_cant": "the property ranges over all nestings of ifs and returns and all paths through them", "anchors": ["src/parser/daphnedsl/DaphneDSLVisitor.cpp:rectifyEarlyReturns", "src/parser/daphnedsl/DaphneDSLVisitor.cpp:rectifyEarlyReturn", "src/parser/daphnedsl/DaphneDSLVisitor.cpp:rectifyIfCaseWithoutReturnOp", "src/parser/daphnedsl/DaphneDSLVisitor.cpp:visitFunctionStatement"]}
{"id": "C59", "title": "Inferred shapes are the shapes of the values", "statement": "At every point of every execution of a compiled program - also in the middle of loops and branches, also if the execution does not end - every matrix and frame has the data type and, where the compiler inferred them, the numbers of rows and columns of its inferred type; so nrow() and ncol() may be replaced by the inferred numbers. A call which inference rejects would be rejected by the kernel as well. If inference ends, then after at most 2w+1 rounds per loop, w the largest number of variables carried by a loop, always with the same result. If the shapes of all arguments and all scalar operands of an operation are known, so are the inferred shapes of its results, unless they depend on the data. This holds for all operations modelled but these: cartesian() of a frame with an unknown number of rows; seq() against its direction (and with increment 0 the compiler divides by zero); elementwise operations with a scalar left and a matrix right operand; conv2d() and pooling with parameters that are no constants, pooling with different strides; ctable() with a result size below -1; the positions of a bitmap's ones. Inference does not end if a loop variable of unknown shape is assigned a value of known shape, or its shape changes from one known shape to another one.", "quantifier": "all programs of operations, for-loops, while-loops and ifs of any nesting, all initial values, all executions and numbers of iterations, all results which the kernels could return", "why_tests_cant": "the property ranges over all programs, all data-dependent shapes and all numbers of iterations", "anchors": ["src/ir/daphneir/DaphneInferShapeOpInterface.cpp:tryInferShape", "src/ir/daphneir/DaphneInferShapeOpInterface.cpp:inferShape", "src/compiler/inference/InferencePass.cpp:walkOp", "src/compiler/inference/InferencePass.cpp:getTypeWithCommonInfo", "src/ir/daphneir/DaphneOps.td"]}
{"id": "C60", "title": "The product of dense matrices is computed whichever kernel is chosen for it", "statement": "X @ Y of two dense matrices, each possibly written as a transpose, is the matrix of the sums of products X(i,k)*Y(k,j) for all shapes and all views, whichever kernel the compiler selects (multiplication, dot product, matrix-vector product, X @ t(X) or t(X) @ X computed as a half that is mirrored) and whether or not the transposition of the right operand was moved into a flag; operands that do not fit are rejected. Exceptions: t(M) @ t(w) for a row w reads outside of w; t(M) @ v for a sparse M yields M @ v or an error; t(M) @ v does not reject a v of the wrong length; with floating point numbers and an empty inner dimension the result is not written at all; t(M) @ M, M @ t(M) and t(M) @ v have no kernel for integers; the integer kernel with a transposed left operand (a flag the front end does not set) is only defined for vectors and square shapes.", "quantifier": "all shapes, strides, contents of fresh arrays, transposition flags, operands and forms of X and Y, all numbers of canonicalization steps", "why_tests_cant": "the property ranges over all matrices, all views and all combinations of operands of the compiler's case distinction", "anchors": ["src/runtime/local/kernels/MatMul.cpp:apply", "src/runtime/local/kernels/Gemv.h", "src/runtime/local/kernels/Syrk.h", "src/compiler/lowering/PhyOperatorSelectionPass.cpp:matchAndRewrite", "src/ir/daphneir/Canonicalize.cpp:MatMulOp::canonicalize"]}
{"id": "C61", "title": "Columnar execution keeps the results of relational operations", "statement": "With columnar execution switched on: comparing a one-column matrix with a scalar gives the same 0/1 matrix; && and || of two one-column 0/1 matrices with equally many rows give the elementwise result; selecting rows of a frame by positions inside the frame, or by a bitmap with one bit per row, gives exactly these rows in that order; the inner join gives one row per pair of rows with equal keys, ordered by the left row and then the right row, if no key of the left frame occurs twice in the right frame; the semi join gives the rows of the left frame with a partner, and their positions; grouping with sums gives one row per combination of keys with the sum over all rows with these keys, and the groups are those of the frame operation. It does not hold that: joins find all matches if a key occurs twice on the right (rows are missing); a result-size hint that is too small is reported (memory is written out of bounds); negative positions, bitmaps that are too short, && on more than one column or with broadcasting are treated as without columnar execution; the semi join has the same columns; groups come in the order of the keys; a group id equal to the number of groups is reported.", "quantifier": "all one-column matrices, scalars, comparison operators, bitmaps, frames with any columns and any number of rows, all selections, key columns and aggregation columns, all contents of new memory", "why_tests_cant": "The columnar operators work on position lists through hash tables and two-pointer loops; which rows come out depends on duplicates, order and sizes, which tests only sample, and the pass replaces the frame kernels silently.", "anchors": ["src/compiler/lowering/RewriteToColumnarOpsPass.cpp: ColumnarOpReplacement, RewriteToColumnarOpsPass::runOnOperation", "src/runtime/local/kernels/ColSelectCmp.h: colSelectCmp", "src/runtime/local/kernels/ColProject.h: colProject", "src/runtime/local/kernels/ColIntersect.h: colIntersect", "src/runtime/local/kernels/ColMerge.h: colMerge", "src/runtime/local/kernels/ColJoin.h: colJoin", "src/runtime/local/kernels/ColSemiJoin.h: colSemiJoin", "src/runtime/local/kernels/ColGroupFirst.h: colGroupFirst", "src/runtime/local/kernels/ColGroupNext.h: colGroupNext", "src/runtime/local/kernels/ColAggGrp.h: colAggGrp"]}
{"id": "C62", "title": "Grouped sums with optimistic splitting are the grouped sums", "statement": "With optimistic splitting switched on, the columnar grouped sum gives, for unsigned 32- and 64-bit values and any data and group ids, the sum of every group modulo the size of the type, the same as without it. For signed values the same holds if overflows wrap around; in C++, where they are undefined, the result is the exact sum of every group, the same as without splitting, if the sum of the values that are not negative and the sum of the negative values of each group are in the range of the type and, for 64-bit values, all values and the sum of the non-negative ones of each group are in the range of 32 bits. It does not hold otherwise: 64-bit values that are not negative, fit 32 bits and have a larger sum overflow the 32-bit accumulator, which is undefined before the check for an overflow is reached; and adding the accumulator to the value before adding both to a negative sum can overflow where the plain sum does not.", "quantifier": "all columns of values of the four integer types, all group ids, all numbers of groups", "why_tests_cant": "Whether an overflow of the lower half is noticed depends on the exact values and their order within every group; tests use small sums.", "anchors": ["src/runtime/local/kernels/ColAggGrp.h: applyAggOptimisticSplitting, applyAgg, HalfType"]}
{"id": "C63", "title": "Simplifying an expression keeps its value", "statement": "When the compiler simplifies an expression of additions, subtractions, multiplications, matrix products, negations, roundings, transpositions, string concatenations, renamings, nrow/ncol and conditions, at any place and any number of times, every value that the expression had is kept, with its type and every cell, if the types that the compiler already inferred are right. Exceptions: a + X where the type of a is not inferred yet (the operands are swapped, which changes the order of concatenated strings and loses rows); a string plus a matrix of strings (becomes an error); a - X, rewritten as (X * -1) + a, for unsigned or narrow integers X, the smallest integer, and a negative zero; a / X, rewritten as (X ^ -1) * a, which becomes infinite or is rounded differently, and has a different type for single precision; a condition that is a scalar with branches of different known shapes (the compiler fails).", "quantifier": "all expressions of any depth, all values of all integer, floating-point and string types, all shapes, all places and sequences of rewriting steps, all rounding and power functions", "why_tests_cant": "The rules fire on any program and change types, operand order and intermediate results; the differences show only for particular types and values (unsigned, overflow, subnormal numbers) that tests do not enumerate.", "anchors": ["src/ir/daphneir/Canonicalize.cpp: EwAddOp::canonicalize, EwSubOp::canonicalize, EwMulOp::canonicalize, EwDivOp::canonicalize, EwMinusOp::canonicalize, MatMulOp::canonicalize, TransposeOp::canonicalize, RenameOp::canonicalize, NumRowsOp::canonicalize, CondOp::canonicalize", "src/runtime/local/kernels/EwBinarySca.h", "src/runtime/local/kernels/EwBinaryObjSca.h", "src/runtime/local/kernels/EwBinaryMat.h"]}
{"id": "C64", "title": "Fusing pipelines over the same matrix keeps the program", "statement": "When pipelines that read the same matrix row by row are combined into one (horizontal fusion), the program stays valid, contains the same operations and computes the same values; all pipelines that scan a common matrix end up in one pipeline with their operations in program order, no other pipelines are touched, and nothing else is lost. This holds if no pipeline needs a result of another one, sharing a scan is transitive, control structures use nothing that pipelines compute, and each pipeline that has a later partner is directly followed by an operation that uses its result and no other pipeline's. The side effects keep their order if there is one group of partners and everything with side effects between two of them needs one of them. A program without partners is not changed. It does not hold without these conditions: the new pipeline is put before the definition of a value it uses; it needs its own result; with scans shared in a chain the compiler runs past the end of the block; a control structure is moved before the value it uses; output is printed in another order.", "quantifier": "all blocks of operations and pipelines of any length, all operand lists, all meanings of the operations", "why_tests_cant": "The pass moves operations by dependence and order in the block and repeats over a list of pairs it rewrites while fusing; which order breaks it depends on the whole program.", "anchors": ["src/compiler/lowering/HorizontalFusionPass.cpp: HorizontalFusionPass::runOnOperation", "src/compiler/utils/VectorizationUtils.cpp: valueDependsOnResultOf, operationDependsOnResultOf, movePipelineInterleavedOperations"]}
{"id": "C65", "title": "A vectorized pipeline computes what its operations compute", "statement": "A pipeline made from vectorizable operations computes, for every way of cutting its inputs into chunks of rows, the values of its operations, if each operation distributes over the chunks as its declared splits and combines say. Combining pipelines one after the other, and then removing inputs that occur twice and results without uses, keeps the value of every result that is used; afterwards no input occurs twice. This needs that every value is an input with one split only, and that pipelines are combined before they are simplified. It does not hold that: a value may be an input both as a whole and by rows (in (A + A) @ B + B the rows of B are replaced by all of B); pipelines may be combined after simplification (an argument used twice becomes two arguments).", "quantifier": "all lists of operations and pipelines, all operands and splits, all chunkings, all meanings of the operations, all sets of unused results", "why_tests_cant": "The wiring of arguments is positional and the loop that removes duplicates changes the positions it looks up while it runs; wrong wiring gives a wrong result or an error only with several chunks.", "anchors": ["src/compiler/lowering/VectorizeComputationsPass.cpp: VectorizeComputationsPass::runOnOperation", "src/compiler/lowering/HorizontalFusionPass.cpp: moveOperationsToBlock, HorizontalFusionPass::runOnOperation", "src/ir/daphneir/Canonicalize.cpp: VectorizedPipelineOp::canonicalize"]}
{"id": "C66", "title": "Computing an operation chunk by chunk gives its result", "statement": "For the vectorizable operations (elementwise operations with a matrix, scalar, row or column vector; sums, minima and maxima over everything, rows or columns; matrix products; outer operations; selection of columns; transposition; binding of columns; t(X) @ X; t(X) @ v) the declared way of cutting the operands, combining the results of the chunks and sizing the result is right: the combined results of any chunks of rows, in any order, are the result of the operation on the whole operands, if the elements are exact (integers that wrap around). A pipeline of such operations that processes n rows therefore returns what the operations return without vectorization, also if pipelines are combined and simplified, with a single task queue for every scheduling scheme, number of threads and batch size. It does not hold for: the product with the transposition of the left operand as a flag; X @ t(X) as one operation; row vectors computed inside of a pipeline over a matrix with more rows (their sums are counted once per chunk); matrices without rows (a division by zero).", "quantifier": "all matrices, chunkings, scheduling schemes, numbers of threads, batch sizes and programs of vectorizable operations, all element types with exact sums", "why_tests_cant": "Each operation declares splits, combines and sizes by hand; a wrong declaration shows only with several chunks, and programs combine the operations arbitrarily.", "anchors": ["src/ir/daphneir/DaphneVectorizableOpInterface.cpp: getVectorSplits, getVectorCombines, createOpsOutputSizes", "src/runtime/local/vectorized/Tasks.h: createFuncInputs", "src/runtime/local/vectorized/Tasks.cpp: CompiledPipelineTask::execute, accumulateOutputs", "src/runtime/local/vectorized/MTWrapper_dense.cpp: executeCpuQueues, executeSingleQueue", "src/compiler/lowering/PhyOperatorSelectionPass.cpp: MatMulOpLowering"]}
{"id": "C67", "title": "A chunked tensor behaves like an array under every history of writes", "statement": "Creating a chunked tensor fails exactly if an extent is zero. A new tensor shows nothing (or the given value, or the numbers of the elements, first index fastest, for the other ways to create it). After any list of element and chunk writes, exactly the writes inside of the tensor were accepted, tryGet shows for each element the value written last, nothing for elements of chunks in which nothing was written, and tryGetChunk gives the elements of a chunk. The chunks listed for a range are those with an element in the range, each once. What fails: tryGet of an index outside of the tensor looks up the flag of a chunk that does not exist (undefined behaviour) before it checks the bounds; trySetChunk compares the chunk indices with the extents of the tensor instead of the number of chunks, so a chunk that does not exist overwrites another one or writes outside of the array; set on a tensor without dimensions is undefined behaviour, and a contiguous tensor without dimensions cannot be set.", "quantifier": "all shapes, chunk shapes, numbers of dimensions, histories of writes, initial contents of the memory, and ranges", "why_tests_cant": "The element an index is stored at depends on shape, chunk shape and number of dimensions, and what is shown depends on the whole history of writes.", "anchors": ["src/runtime/local/datastructures/ChunkedTensor.h: ChunkedTensor, tryGet, get, set, trySet, trySetChunk, tryGetChunk, getLinearId, getLinearChunkIdFromChunkIds, GetChunkListFromIdRange, GetChunkListFromChunkRange, GetChunkRangeFromIdRange"]}
{"id": "C68", "title": "Rechunking, slicing, converting and comparing tensors keep the elements", "statement": "Changing the chunk shape of a complete tensor keeps the value get returns for every index, and an incomplete one stays as it is. Slicing to a contiguous tensor gives exactly the elements of the ranges if these are inside and their chunks are there, and nothing otherwise; the same for slices of contiguous tensors. Converting a contiguous tensor to a chunked one keeps the elements, and the comparisons answer if shape and elements are the same, for chunked tensors if no chunk reaches over the border. Slicing to a chunked tensor is right for one dimension, or if there is one new chunk. What fails: after changing the chunk shape tryGet is undefined behaviour for the chunks beyond the old number (the flags are not resized); slicing to several chunks in more than one dimension leaves elements uninitialised (distances in memory taken for extents); slicing whole chunks gives a tensor that shows nothing; comparing chunked tensors compares what no index belongs to; reduceRank is undefined behaviour if a dimension before the last has extent 1; reversing the byte order writes behind the array for every array; a tensor that views part of a matrix is compared and converted as if it had no gaps; making a chunked tensor from a matrix is undefined behaviour.", "quantifier": "all tensors, shapes, chunk shapes, ranges, element types and initial contents of the memory", "why_tests_cant": "Whether an element arrives at its place depends on the relation of two chunkings and the ranges, for any number of dimensions.", "anchors": ["src/runtime/local/datastructures/ChunkedTensor.h: tryRechunk, tryDice, tryDiceToContiguousTensor, tryDiceAtChunkLvl, areLogicalElementsEqual, operator==, ReverseArray", "src/runtime/local/datastructures/ContiguousTensor.h: get, tryGet, trySet, tryDice, reduceRank, operator==, ContiguousTensor(DenseMatrix)"]}
{"id": "C69", "title": "An SQL query returns the columns and rows it denotes", "statement": "For every database (with int64 or double columns if FROM lists several tables, see C70) and every well-formed SELECT, sql() succeeds and returns the selected columns (all columns for *, those of a table for t.*, otherwise the name given with AS or the text of the expression) and exactly these rows: the combinations of the rows of the tables of FROM and of the joined tables that meet the join conditions and WHERE; with GROUP BY one row per group of equal keys that meets HAVING, with aggregates over the group; without GROUP BY but with aggregates one row; in the order of ORDER BY (stable); with DISTINCT each row once, ascending. Well-formed: tables registered with distinct column names, aliases that hide nothing, columns qualified by their table, conditions of joins with the earlier table on the left, grouped queries select keys and aggregates, no DISTINCT with GROUP BY or ORDER BY. What fails: DISTINCT is ignored (or rejected) with GROUP BY and loses the order of ORDER BY; BETWEEN also accepts swapped bounds; an alias is used instead of a registered table of that name; a table used with an alias cannot be used again without one; columns without their table are never found; * with GROUP BY; count(1) without GROUP BY and a join condition without its operator dereference null pointers; != is rejected outside of joins; the sides of join conditions cannot be swapped; aliases that begin with group_ collide with internal names.", "quantifier": "all databases, queries (any numbers of tables, joins, keys, expressions), values, operators and aggregation functions", "why_tests_cant": "Queries combine clauses and expressions arbitrarily, and internal names, counters and flags of the translation interact across clauses.", "anchors": ["src/parser/sql/SQLVisitor.cpp: visitSelect, visitSelectExpr, visitDistinctExpr, visitCartesianExpr, visitInnerJoin, visitWhereClause, visitGroupByClause, visitHavingClause, visitOrderByClause, visitIdentifierExpr, visitStarExpr, visitGroupAggExpr, visitTableReference, setFramePrefix", "src/runtime/local/kernels/ExtractCol.h", "src/runtime/local/kernels/Cartesian.h", "src/runtime/local/kernels/ThetaJoin.h", "src/runtime/local/kernels/Group.h", "src/runtime/local/kernels/Order.h"]}
{"id": "C70", "title": "Theta joins and Cartesian products return the pairs of rows that meet the conditions", "statement": "For frames with different column labels and numeric columns, and at least one condition, the theta join returns the columns of both frames and, in lexicographic order of the row numbers, exactly one row for each pair of rows that meets all conditions, with the values of the two rows. Unknown columns, shared labels and string columns (also those no condition names) are rejected. The Cartesian product returns all pairs in this order if all columns hold int64 or double values. What fails: the Cartesian product leaves the columns of all other types uninitialised, without an error (so does FROM a, b in SQL); a theta join without conditions dereferences a null pointer; columns of different types are compared after a cast to the type of the left column, so 1 = 1.5 and -1 > 2 (as uint64) hold on one side and not with the sides swapped.", "quantifier": "all frames, column types, lists of conditions, values and initial contents of the memory", "why_tests_cant": "The array of positions is filtered in place once per condition, so a wrong offset shows only with several conditions and particular matches; uninitialised memory often happens to look right.", "anchors": ["src/runtime/local/kernels/ThetaJoin.h: ThetaJoin::apply, CompareColumnPair, WriteColumn, ResultContainer, compareValues", "src/runtime/local/kernels/Cartesian.h: cartesian, cartesianSet"]}
{"id": "C71", "title": "A dense matrix has one contents although it has copies in several memories", "statement": "No history of accesses for reading and for writing, on the host and on any devices, fails. If a matrix is filled in the memory it was created in and then only read, in any order and in any memories, all reads show what was written. The same holds for all histories in which a write goes to a place that has no current copy or the only one, a write on the host goes to a matrix that is not on devices only, and a device used before gets the contents again only while the host memory has them. What fails, after every such history: a write to one of several current copies is not seen at the others; a write on the host to a matrix whose current copies are all on devices is lost with the next read; a device used before shows the older contents of the host memory; each read on the host of a matrix on a device transfers it again and adds a placement without end; a view of rows of a matrix on a device shows the first rows, whichever were selected, and a view of columns may write behind its memory.", "quantifier": "all histories of accesses, places (host, any number of devices), contents and updates", "why_tests_cant": "Which copies count as current depends on the whole history of reads and writes in all memories.", "anchors": ["src/runtime/local/datastructures/DenseMatrix.cpp: getValuesInternal, DenseMatrix (view constructor)", "src/runtime/local/datastructures/DenseMatrix.h: getValues, get, startAddress, isPartialBuffer", "src/runtime/local/datastructures/MetaDataObject.cpp: addDataPlacement, isLatestVersion, addLatest, setLatest, findDataPlacementByType", "src/runtime/local/datastructures/AllocationDescriptorCUDA.h: transferTo, transferFrom"]}
{"id": "C72", "title": "One-hot encoding, contingency tables, sequences, replacing values and binning return what their documentation defines", "statement": "One-hot encoding of every numeric matrix (stored with any stride) keeps, drops or expands every column as instructed; values outside the announced range and malformed instructions are rejected; strings are encoded by the order of their first appearance in the column. A contingency table of two columns stored without gaps and without negative coordinates adds the weight as often as a pair of coordinates occurs. A sequence holds start, start + inc, ... up to the last element that has not passed the end (integers; exact arithmetic unless an element passes the end by at most 1e-13). Replacing changes exactly the elements equal to the pattern (NaN matches NaN), in dense matrices of any stride and CSR matrices that start at the first row. Binning (exact arithmetic) returns the bin that contains the value. Not so: string matrices that are column views (codes are written outside); column views in contingency tables (wrong elements are counted), negative coordinates (writes outside or to another cell), empty inputs with derived sizes (undefined); integer sequences up to the largest number (overflow); double sequences (seq(0, 120, 2.4) misses 120); replacing in empty matrices (no result) and in CSR row views (offsets outside of the result); binning values far above the range into an integer type (undefined).", "quantifier": "all matrices, strides, instructions, weights, ranges and values", "why_tests_cant": "Encodings depend on all values of a column and their order; sizes, strides and accumulated values that break them are unbounded.", "anchors": ["src/runtime/local/kernels/OneHot.h: OneHot::apply, oneHotString", "src/runtime/local/kernels/CTable.h: CTable::apply", "src/runtime/local/kernels/Seq.h: Seq::apply", "src/runtime/local/kernels/Replace.h: Replace::apply", "src/runtime/local/kernels/Bin.h: Bin::apply, validateArgsBin"]}
{"id": "C73", "title": "Matrices written to HDFS in segments are read back, any range of rows of them", "statement": "A matrix with contiguous rows that was written as CSV segments, by one process or by workers with any partition of the rows, is read back exactly: every range of rows, across segments too, if the text of every segment fits in the 1 MiB buffer and values have a text that is read back (all 32-bit integers). Written as binary segments, every range is read exactly that begins with a segment or lies within one, in particular by the workers that wrote it. What fails: a range of binary segments that begins inside a segment and goes on into the next loses its last rows (zeros or old memory), e.g. when other numbers of workers write and read; a CSV segment longer than the buffer is read past the end of the buffer; column views, int8 values and doubles with more than six digits are not written as they are; matrices that are on no worker are not written at all in distributed mode, without an error.", "quantifier": "all matrices, partitions into segments, ranges of rows to read and buffer contents", "why_tests_cant": "What is read depends on how the rows were split among files by other processes and on the position of line ends relative to the buffer.", "anchors": ["src/runtime/local/io/HDFS/ReadDaphneHDFS.h: ReadDaphneHDFS::apply", "src/runtime/local/io/HDFS/ReadHDFSCsv.h: ReadHDFSCsv::apply", "src/runtime/local/io/HDFS/WriteDaphneHDFS.h: WriteDaphneHDFS::apply", "src/runtime/local/io/HDFS/WriteHDFSCsv.h: WriteHDFSCsv::apply", "src/runtime/local/io/HDFS/HDFSUtils.h: findSegmendAndOffset", "src/runtime/distributed/coordinator/kernels/DistributedWrite.h: DistributedWrite::apply", "src/runtime/local/io/HDFS/WriteHDFS.h: WriteHDFS::apply"]}
{"id": "C74", "title": "A computation built with the Python API returns the value of its graph of operations", "statement": "In DaphneLib (Python), compute() on a node returns the value that the graph of operations denotes: every node is evaluated on the values of its inputs; control structures (for_loop, cond, while_loop, do_while) run their callbacks on the current values of the updated nodes and the values that the other nodes had before; a function with several results gives each its own. This holds for well-formed graphs in which callbacks create only plain operations, a matrix that is changed in parts has no other use, a node that a control structure updates is used by nothing but that structure, its callbacks and outputs, and no callback returns an updated node in a later place than its own. Distinct names are distinct variables. After compute() all nodes that took part are fresh again. It FAILS otherwise: assignments to parts and loops change their inputs in place; a callback that swaps two matrices loses one; three nested loops use the same variable names in the innermost body as around it; after a compute() whose execution fails, the next compute() of the same node gives an empty script in which the result is not defined; and an assignment to a part of a matrix never ends if the matrix is not the first input of one of its consumers (B * A; A[0,0] = 5), or replaces the number in 5 * A by the matrix.", "quantifier": "all graphs of operations, all meanings of operations, literals and ranges, all execution states, all consumers", "why_tests_cant": "Tests run a fixed set of Python programs; which variables the script overwrites depends on the sharing in the graph and on the nesting of callbacks, which are unbounded.", "anchors": ["src/api/python/daphne/script_building/script.py: build_code, _dfs_dag_nodes, clear", "src/api/python/daphne/script_building/nested_script.py", "src/api/python/daphne/operator/operation_node.py: compute, code_line", "src/api/python/daphne/operator/nodes/for_loop.py, cond.py, while_loop.py, do_while_loop.py, multi_return.py", "src/api/python/daphne/operator/nodes/matrix.py: __setitem__"]}
{"id": "C75", "title": "The column types and labels the compiler infers for a frame are those the frame has at run time", "statement": "For every DaphneDSL expression over frames (read, createFrame, casting a matrix, extracting columns by label, wildcard or position, slicing columns, setting labels or a prefix, row operations, colBind, inner, theta, semi and group joins, Cartesian products, grouping with aggregates), the column types and the labels that the compiler infers, where it infers them, are those of the frame that the execution returns; an expression that runs and whose labels are all known is accepted; and the simplifications of extractions and relabellings, applied anywhere and in any number, keep the result. This holds when both arguments of a join have known labels or neither is looked up, no wildcard is applied to unknown labels, no count is among the aggregates, and no label reads like a wildcard. It FAILS otherwise: an inner join or Cartesian product in which the labels of one side are unknown gets too few labels, so a later lookup takes the type of another column (the column is then silently converted) or reads out of bounds; setLabels with a non-constant and then a constant label, and wildcards on unknown labels, dereference null; colBind of a column slice is rejected at compile time; count is inferred as si64 but is ui64; grouping by '*' with aggregates infers more columns than there are; extracting a column whose label is literally 'f.*' changes its result under simplification; pushing an extraction into colBind removes the error on duplicate labels.", "quantifier": "all frame expressions, all labels and column types, all column-wise meanings of joins and aggregates, all sequences of simplifications", "why_tests_cant": "Tests compile a fixed set of programs; which types and labels are known depends on the composition of operators and on the labels, which are unbounded.", "anchors": ["src/ir/daphneir/DaphneInferTypesOpInterface.cpp", "src/ir/daphneir/DaphneInferFrameLabelsOpInterface.cpp", "src/compiler/inference/TypeInferenceUtils.h", "src/ir/daphneir/Canonicalize.cpp: ExtractColOp, SetColLabelsOp", "src/runtime/local/kernels/ExtractCol.h", "src/runtime/local/kernels/Group.h", "src/runtime/local/datastructures/Frame.h"]}
{"id": "C76", "title": "Specializing user-defined functions for the types and constants they are called with keeps what the script computes", "statement": "For every DaphneDSL program with user-defined functions (calls, map, if, recursion, typed and untyped parameters), whatever order the functions are visited in: main of the program after specialization returns exactly what main of the original returns, provided no function that is still called has been removed. If every function other than main has an untyped or a matrix parameter and no argument of a call contains a map, then every called function is there, and the arguments of every call and map have the types of the parameters of the version that is called; if moreover no function returns the result of a call, the results have the types of the calls. Without recursion, the specialization ends. A call is resolved to the first definition of its name that fits the types of its arguments as far as they are known, and with known types only to one with exactly these types. It FAILS otherwise: a typed function called once with a constant and once without is removed although it is called; an untyped function that returns the result of another one leaves the call with the unknown type; the arguments for a typed function called from an untyped one are not checked; a call with a map among its arguments is specialized before the map; whether a program compiles depends on the order of a hash table; the declared result type is dropped; a recursive function with a constant argument that it changes makes the compiler specialize forever; an untyped definition that comes first takes all calls, also those with a definition of exactly their types.", "quantifier": "all programs of user-defined functions, all types, operations and foldings of constants, all visiting orders, with and without constant propagation", "why_tests_cant": "Tests compile fixed scripts; the copies that are made, shared and removed depend on the whole call graph, on constants and on the iteration order of a hash table.", "anchors": ["src/compiler/lowering/SpecializeGenericFunctionsPass.cpp: specializeCallsInFunction, createOrReuseSpecialization, createSpecializedFunction, tryReuseExistingSpecialization, getSpecializedFuncArgTypes, runOnOperation", "src/parser/daphnedsl/DaphneDSLVisitor.cpp: findMatchingUDF, argAndUDFParamCompatible"]}
{"id": "C77", "title": "Convolution and pooling compute what their names say for all image, filter, stride and padding sizes", "statement": "For every batch of images, every number of channels and filters, all image and filter extents, paddings and strides with the filter inside the padded image: conv2d reads and writes only cells of its operands, the number of output rows and columns is the number of positions of the filter, and every output cell is the sum over the channels and the filter cells of the products with the padded image, plus the bias. With the same stride in both directions, avgPool2d returns the average of the cells of every window (with zeros as padding), and maxPool2d the largest of zero and the cells of the window. It FAILS otherwise: maxPool2d of a window of negative cells is zero; maxPool2d of images of one column with a single position of the window returns the largest number of the cell type whatever the images are; avgPool2d of such images ignores the padding; with different strides, the number of output rows is computed from the horizontal and the number of columns from the vertical stride, and cells outside of the image are read.", "quantifier": "all numbers of images, channels and filters, all extents, strides and paddings, all cell values, any arithmetic of cells for convolution", "why_tests_cant": "Tests convolve a few square images with equal strides, with positive cells; four code paths are selected by the sizes.", "anchors": ["src/runtime/local/kernels/Conv2DForward.h", "src/runtime/local/kernels/Pooling.cpp: Forward::apply", "src/runtime/local/kernels/Pooling.h: AVG, MAX", "src/runtime/local/kernels/Padding.h: getPQ, Padding"]}
{"id": "C78", "title": "The gradient operators of convolution and pooling return the gradients", "statement": "For all batches, channels, extents, paddings and cell values: with the same stride in both directions, avgPool2dBackward gives every cell the gradients of the windows it is part of, divided by the window size, and maxPool2dBackward gives the gradient of every window to the first of its largest cells. For filters that are square or have one row, conv2dBackwardFilter returns for every filter cell the sum over images and positions of the output gradient times the image cell. If the output of the convolution has exactly the extents of the filter and the padding is the same in both directions, conv2dBackwardData returns for every image cell the sum over the filters and positions covering it. It FAILS otherwise: with different strides the pooling gradients read cells that do not exist or leave out windows; for filters with more rows than columns conv2dBackwardFilter accesses cells behind its result, for others it mixes up the cells; conv2dBackwardData leaves out the gradients of output cells beyond the filter extents, reads behind the output if it is smaller than the filter, and leaves out columns if the paddings differ.", "quantifier": "all numbers of images, channels and filters, all extents, strides and paddings, all cell values", "why_tests_cant": "Tests use one square filter on images of one size, for which the confused extents coincide.", "anchors": ["src/runtime/local/kernels/AvgPoolBackward.h", "src/runtime/local/kernels/MaxPoolBackward.h", "src/runtime/local/kernels/Conv2DBackwardFilter.h", "src/runtime/local/kernels/Conv2DBackwardData.h", "src/runtime/local/kernels/Padding.h: CleanPaddingAndSave"]}
{"id": "C79", "title": "Reading a Matrix Market file gives the matrix that the file describes", "statement": "For every well-formed Matrix Market file - array or coordinate, general, symmetric or skew-symmetric, with values or with the pattern only, the entries of coordinate files in any order - reading it into a dense matrix, a sparse matrix or a frame gives every cell the value that the file lists for it, the value (negated for skew-symmetric files) listed for the mirrored cell, or zero if there is none; the memory of the new matrix does not show through, and dense and sparse results agree. It FAILS for files that are not well-formed, which are accepted without an error: a file cut off after a header that announces as many entries as cells, or one that lists an entry twice, leaves uninitialized cells; a line at position 0 0 silently ends the reading; positions outside of the matrix set other cells or write out of bounds; values too many in array files replace other cells; Hermitian files are read as general ones; symmetric files of matrices that are not square write out of bounds. Rows and columns from 2^31 on are rejected.", "quantifier": "all files, all matrix sizes, all values, all orders of the entries, all contents of uninitialized memory", "why_tests_cant": "Tests read a handful of small files; whether every cell is set depends on the sizes, the symmetry, the order of the entries and the contents of fresh memory.", "anchors": ["src/runtime/local/io/MMFile.h: MMFile, MMIterator", "src/runtime/local/io/ReadMM.h: ReadMM<DenseMatrix>, ReadMM<CSRMatrix>, ReadMM<Frame>"]}
{"id": "C80", "title": "Mixing value types in an expression keeps the numbers", "statement": "Operations on arguments of different value types are computed in the highest-ranking of the types (bool < si8 < ui8 < si32 < ui32 < size < si64 < ui64 < f32 < f64); that type does not depend on the order of the arguments or on how an expression is grouped, and for frames it is determined column by column, with frames of different widths rejected. Whenever the arguments and the result of every operation are numbers of the type it is computed in, an expression of any size over + - * / % min max, comparisons and && || has its mathematical value; if the types that occur can be mixed without loss, only the results have to fit; && and || on integers are right whatever the types; an inserted cast to a floating-point type and + - * / on floating-point numbers give a nearest number of the type. Exactly the following mixtures can lose numbers: signed with unsigned of higher rank, size with si64, integers of 32 or 64 bits with f32, 64-bit integers with f64. It FAILS there: a negative number next to an unsigned one counts as a large positive number in every comparison and minimum; && and || treat numbers between -1 and 1 as false and have undefined behaviour on numbers from -1 down, if an argument is floating-point; % on 64-bit integers goes through double, so that all odd numbers above 2^53 are even; regrouping a sum can change its value.", "quantifier": "all expressions, all combinations of value types, all values", "why_tests_cant": "There are ten numeric value types, hence 100 combinations per operation and unboundedly many expressions; tests use equal types and small numbers, for which every choice is right.", "anchors": ["src/compiler/inference/TypeInferenceUtils.cpp: generality, mostGeneralVt, inferValueTypeFromArgs", "src/compiler/inference/TypeInferenceUtils.h: inferTypeByTraits", "src/compiler/inference/AdaptTypesToKernelsPass.cpp: AdaptTypesToKernelsPass::runOnOperation", "src/ir/daphneir/DaphneOps.td: Daphne_EwBinaryOp, Daphne_EwCmpOp", "src/runtime/local/kernels/EwBinarySca.h", "src/runtime/local/kernels/CastSca.h"]}
{"id": "C81", "title": "A frame written to a CSV file is read back unchanged", "statement": "Writing a frame to a .csv file (which also writes the .meta file) and reading the file back gives a frame with the same column types, labels and rows, whenever it has at least one row and one column, its labels are UTF-8, its integers fit a 32-bit int, its strings survive CSV (see C25) and each of its floating-point numbers is a multiple of 1/64 or the one that stands for a decimal number of six places below 2^23 (f32) or 2^52 (f64) millionths; every such decimal number has one. With other floating-point numbers everything else still comes back, and each of them comes back as a nearest number to its rounding to six decimal places. It FAILS otherwise: an integer column of any type with a number outside of int makes reading undefined behaviour; all numbers up to half a millionth come back as 0; a frame with a column of fixed-size strings cannot be written; a frame without rows is written but cannot be read; a label that is not UTF-8 makes writing fail; and a file that lost its last rows is accepted, with uninitialized memory as the missing rows.", "quantifier": "all frames: any number of rows and columns, all column types, all contents", "why_tests_cant": "Printing and parsing are only inverse for some values, and which ones depends on all digits; strings with separators and line feeds interact with the neighbouring columns; tests read a few small files that were written by hand.", "anchors": ["src/runtime/local/io/WriteCsv.h: WriteCsv<Frame>", "src/runtime/local/io/ReadCsvFile.h: ReadCsvFile<Frame>", "src/runtime/local/io/utils.h: convertCstr, setCString", "src/runtime/local/kernels/Write.h: Write<Frame>", "src/runtime/local/kernels/Read.h: Read<Frame>", "src/parser/metadata/MetaDataParser.cpp: writeMetaDataToString, readMetaDataFromString"]}
{"id": "C82", "title": "sparsity() is the fraction of non-zero cells, and inferred symmetry is right", "statement": "Where the compiler knows the sparsity of a matrix, sparsity() returns it; otherwise it returns -1. It is exactly the fraction of non-zero cells for matrix literals, random matrices, files whose meta data give the right number of non-zeros, diagonal matrices of vectors of known length and sparsity, transposed and reshaped matrices, all of these nested in any way, and outer products of them. For elementwise products, and for sums of non-negative numbers, it is the average of the fraction over all ways to place the non-zeros of one argument. It is always -1 or between 0 and 1 if the arguments are and the lengths of diagonals are known. A matrix is inferred to be symmetric or not symmetric only if it is. It FAILS to be the fraction otherwise: everything unknown gives -1, such as fill(); X + X, X * X, X - X and X * 0 are wrong for every X with some zeros and some non-zeros; a sequence with a zero is said to have none; the diagonal matrix of a vector of unknown sparsity is said to have a full diagonal, and of unknown length to have negative sparsity; triangular parts of a full square matrix are always wrong; after an if-then-else any two sparsities below 1 become 0; the square of the identity is said to be sparser than it is.", "quantifier": "all nested expressions over these operations, all matrices of all shapes, whatever the compiler knows about shapes", "why_tests_cant": "The estimates are averages over exponentially many matrices; tests compare single programs with the number the formula gives.", "anchors": ["src/ir/daphneir/DaphneInferSparsityOpInterface.cpp: tryInferSparsity, inferSparsity", "src/ir/daphneir/DaphneInferSymmetricOpInterface.cpp: inferSymmetric", "src/compiler/inference/InferencePass.cpp: getTypeWithCommonInfo", "src/ir/daphneir/Canonicalize.cpp: SparsityOp::canonicalize", "src/runtime/local/kernels/Sparsity.h", "src/ir/daphneir/DaphneOps.td"]}
{"id": "C83", "title": "The kernel called for an operation is an applicable one of highest priority", "statement": "For an operation without a kernel hint, the kernel that is called is registered for this operation and backend, its parameters and results agree with the types of the operands and results in data type, value type and representation, and no such kernel has a higher priority; of those with the same priority it is the one registered first. If there is none, there is an error, and only then. Kernels of an extension with positive priority are called whenever they are applicable; with priority 0 or less only if no built-in kernel is applicable, and otherwise the program is compiled as without the extension. All operands are passed in order; the occurrences of a variadic operand are packed and followed by their number. A kernel hint is followed or reported. The argument FILE:PRIORITY of --kernel-ext is read as given, and FILE without a colon has priority 0; every kernel of the file is registered with that priority, or the file is refused for an unknown type. The libraries of the kernels that are called are loaded, and no others. It FAILS as follows: a hinted kernel is called whatever its parameter types, result types and backend; of several occurrences of a variadic operand only the first decides, so a dense kernel for lists is called with a sparse matrix in the list; kernels for the average and maximum pooling operations are never registered, not even those of extensions; a file name with a colon needs a priority; kernels are called by name, so if two libraries that are loaded have functions of the same name, the one of the library not chosen may be called.", "quantifier": "all catalogs, extensions and priorities, all operations with any number of operands and any types, all programs", "why_tests_cant": "Which kernel is called depends on all kernels registered; tests use a few extensions with one kernel each.", "anchors": ["src/compiler/catalog/KernelCatalog.h: registerKernel, findKernel, normalizeTypeForKernelLookup", "src/compiler/lowering/RewriteToCallKernelOpPass.cpp: KernelReplacement::matchAndRewrite", "src/parser/catalog/KernelCatalogParser.cpp: parseKernelCatalog, mapTypes", "src/api/internal/daphne_internal.cpp: startDAPHNE", "src/compiler/execution/DaphneIrExecutor.cpp: createExecutionEngine", "doc/Extensions.md"]}
{"id": "C84", "title": "Function calls bind arguments to parameters by position and name, and call the right function", "statement": "A call is accepted exactly if its positional arguments come first, every keyword is the name of a parameter that has no value yet, and no parameter before the last one given is left out; the values are then passed in the order of the parameters. The order of keyword arguments does not matter, and giving all arguments by name, in any order, is the same as giving them by position. If all definitions of a function with the number of arguments of the call have the same parameter names, the function that is called is the first defined one of that name whose parameter types accept the values; otherwise there is an error. A user-defined function hides the built-in function of its name. It FAILS as follows: if two definitions of a function have the same number of parameters but different parameter names, every call with that number of arguments is refused, also if all arguments are positional; within its own body a function cannot be called with keyword arguments; a typed function is not called with a scalar of another type, no cast is inserted although the documentation says so; a definition without types hides all later ones, however specific; map(udf=f, arg=X) is an error, and undefined behaviour if there is a variable with the name of the function, while map(arg=X, udf=f) works.", "quantifier": "all functions with any number of parameters, all calls with any mix of positional and keyword arguments, all sets of definitions", "why_tests_cant": "The number of orders of keyword arguments grows factorially; tests try a few calls.", "anchors": ["src/parser/daphnedsl/DaphneDSLVisitor.cpp: orderCallArguments, getUdfParamNames, argAndUDFParamCompatible, findMatchingUDF, handleMapOpCall, visitCallExpr", "src/parser/daphnedsl/DaphneDSLBuiltins.cpp: getParamNames", "doc/DaphneDSL/LanguageRef.md"]}
{"id": "C85", "title": "Literals and script arguments have the values their text says", "statement": "An integer literal has the value of its digits, separators ignored, and the type of its suffix; a value too large for the type is an error. Every number of si64 can be written, negative ones with a minus. A floating-point literal has exactly the decimal value written (before rounding), as f64, or as f32 with suffix f, where a value beyond the range of f32 is an error. A string literal means its characters with the escape sequences replaced exactly if no escaped backslash is directly followed by one of b, f, n, r, t. Script arguments are accepted exactly if each, after --args has been cut at commas, is name=value and no name occurs twice; $name is then the literal given as the value, or its negative, and an error if not given. A matrix literal has its elements in row-major order, converted to the highest-ranking of their types, whether or not they are known at parse time, in the requested shape, or there is an error if there is no such shape; a frame literal of rows has in column j the j-th elements of the rows. It FAILS as follows: 9223372036854775808 without a minus silently is a negative number; with suffix z values from 2^63 are refused, and -2^63 cannot be written with suffix l; nanf and inff have type f64; no string literal yields a string with a backslash in front of b, f, n, r, t; a value with a comma cannot be given with --args; [x](-1, -1) is accepted as a matrix with 2^64-1 rows and columns; an element of the type of sizes, such as nrow(X), is refused; a string element that is not a constant is refused; frame literals of rows cannot contain strings.", "quantifier": "all literal texts of the grammar, all strings, all lists of script arguments, all lists of elements and dimensions", "why_tests_cant": "There are infinitely many literals; tests try a few of each kind, and not the boundary of every type.", "anchors": ["src/parser/daphnedsl/DaphneDSLGrammar.g4: INT_LITERAL, FLOAT_LITERAL, STRING_LITERAL", "src/parser/daphnedsl/DaphneDSLVisitor.cpp: visitLiteral, visitArgExpr, visitMatrixLiteralExpr, visitRowMajorFrameLiteralExpr, buildColMatrixFromValues", "src/parser/daphnedsl/DaphneDSLParser.cpp", "src/api/internal/daphne_internal.cpp: parseScriptArgs", "doc/DaphneDSL/LanguageRef.md"]}
{"id": "C86", "title": "Indexing reads and replaces exactly the addressed cells", "statement": "X[rows, cols] of a matrix consists of the cells in the addressed rows and columns, in the order in which they are addressed: everything if omitted, a single position, a range (missing bounds being 0 and the number of rows or columns), or a list of positions; negative positions count from the end; what is out of bounds is an error. X[[rows, cols]] consists of the cells whose row and column are marked with a one. X[rows, cols] = Y replaces exactly the addressed cells by those of Y; all others, and all other variables, keep their values, and reading X[rows, cols] afterwards gives Y; a Y of another shape is an error. An assignment to several variables assigns each value to its variable with its brackets if the variables with brackets come first. It FAILS as follows: if a variable without brackets comes before one with brackets, the brackets are moved: x, Y[3, ] = f() does x[3, ] = ... and replaces all of Y; X[, ] = Y accepts every Y, of any shape, also a scalar; negative fractions are rounded up instead of down, so that X[-1.5, ] is the last row and X[-0.5, ] the first; a floating-point position of 2^63 or more is undefined behaviour; a column of a wider matrix cannot be used as a list of positions; X[-2:0, 0] are the last two rows when read, but cannot be assigned to.", "quantifier": "all matrices, all positions, ranges and lists of positions, all bit vectors, all sets of variables, all assignments to several variables", "why_tests_cant": "Bounds, signs, omitted parts and the position of brackets combine in too many ways; the tests have no assignment to several variables with brackets.", "anchors": ["src/parser/daphnedsl/DaphneDSLVisitor.cpp: handleAssignmentPart, applyRightIndexing, applyLeftIndexing, visitRightIdxExtractExpr, visitRightIdxFilterExpr, visitIndexing, visitRange, visitAssignStatement", "src/parser/ParserUtils.h: castSI64If", "src/runtime/local/kernels/SliceRow.h", "src/runtime/local/kernels/InsertRow.h", "doc/DaphneDSL/LanguageRef.md"]}
{"id": "C87", "title": "Group join returns one sum for each key that occurs on both sides", "statement": "groupJoin(lhs, rhs, lhsOn, rhsOn, rhsAgg) returns one row for each value that occurs in both key columns, with the sum of rhs.rhsAgg over the right rows with this key (added in the order of the rows), and the position of the first left row with this key, in some order. If the left keys are unique, these are the sums of the groups of the inner join. The types and labels of the result are those known at compile time (the second label is SUM(rhsAgg)). A label that does not exist is an error, and so is a left key column called SUM(rhsAgg). It FAILS as follows: if a left key occurs several times, each right row is still counted once, unlike in the join, and only the first left row is returned; key columns that are not both si64, or a value column that is neither si64 nor f64, dereference a null pointer instead of giving an error; a sum that does not fit is undefined behaviour.", "quantifier": "all frames, all key and value columns, all sums, all iteration orders of the hash table", "why_tests_cant": "The result depends on all pairs of rows and on the iteration order of a hash table; the tests have one pair of frames.", "anchors": ["src/runtime/local/kernels/GroupJoin.h: groupJoinCol, groupJoinColIf, groupJoin", "src/ir/daphneir/DaphneInferTypesOpInterface.cpp: GroupJoinOp::inferTypes", "src/ir/daphneir/DaphneInferFrameLabelsOpInterface.cpp: GroupJoinOp::inferFrameLabels", "src/ir/daphneir/DaphneOps.td: GroupJoinOp"]}
{"id": "C88", "title": "The conditional expression chooses between its values", "statement": "With a matrix c as condition, c ? t : e is a matrix of the shape of c; each cell is that of t where the cell of c counts as true and that of e elsewhere, where t and e can be matrices of this shape or scalars, of one value type. Another shape, different value types and frames are errors. With a scalar as condition it is t or e as it is; values of different kinds or value types are errors. A sparse condition with a dense t gives a sparse matrix with these cells. The shape that is inferred is that of c or what t and e have in common. It FAILS as follows: both t and e are always evaluated, so the effects of the value that is not chosen happen and its errors are errors of the expression; the result of a matrix condition is inferred to have the sparsity and symmetry of the condition, whatever the values are; with a scalar condition, matrices of different known shapes or sparsities are accepted or rejected depending on whether types were already known after parsing; a sparse condition without rows makes the kernel write outside of its arrays.", "quantifier": "all conditions and values, all shapes and row skips, all types and data properties, all orders of evaluation", "why_tests_cant": "Tests use a few small matrices with the same properties, and values without effects and errors.", "anchors": ["src/runtime/local/kernels/CondMatMatMat.h: CondMatMatMat", "src/runtime/local/kernels/CondMatMatSca.h: CondMatMatSca", "src/runtime/local/kernels/CondMatScaMat.h: CondMatScaMat", "src/runtime/local/kernels/CondMatScaSca.h: CondMatScaSca", "src/ir/daphneir/DaphneInferTypesOpInterface.cpp: CondOp::inferTypes", "src/ir/daphneir/DaphneInferShapeOpInterface.cpp: CondOp::inferShape", "src/ir/daphneir/Canonicalize.cpp: CondOp::canonicalize", "src/parser/daphnedsl/DaphneDSLVisitor.cpp: visitCondExpr"]}
{"id": "C89", "title": "Casts evaluate their argument once, keep what they do not mention, and convert every cell", "statement": "A cast converts each cell of its argument and keeps the shape; as.matrix(x) and as.frame(x) keep the value type, as.scalar(x) and as.f64(x) (etc.) keep the value or data type if the type of x is known after parsing; frames made from matrices get default labels. Matrices, sparse matrices and columns with one cell become their cell as a scalar and the other way round; another shape is an error. Frames with one cell of type si64 or f64 become their cell. A chain of two casts that is simplified to one gives the same result, if it does not go from frame to frame or from a column to a matrix of another type. It FAILS as follows: a cast that leaves out the data type or the value type evaluates its argument twice, with all effects, and k nested ones 2^k times; as.f64(x) and as.scalar(x) forget their target if the type of x is not known after parsing; as.matrix(f) for several columns takes the type of the first column or is an error, depending on when the types become known, and as.frame(f) for several columns is an error; a frame cast to a matrix and back keeps its labels only if the casts are simplified to none; simplification leads to casts for which there is no kernel (a frame with one cell that is not f64 or si64 to matrix to scalar, a column to a matrix of the same type to one of another type); a frame with one cell of a type narrower than 8 bytes is read beyond its memory or with the bytes of the next cells, and ui64 numbers from 2^63 become negative.", "quantifier": "all casts, all nestings, all types, all objects, all memory contents", "why_tests_cant": "The effects depend on how much is known at each stage of compilation and on the memory around a cell; tests fix one combination.", "anchors": ["src/parser/daphnedsl/DaphneDSLVisitor.cpp: visitCastExpr", "src/ir/daphneir/DaphneInferTypesOpInterface.cpp: CastOp::inferTypes", "src/ir/daphneir/Canonicalize.cpp: CastOp::canonicalize", "src/ir/daphneir/DaphneOps.td: CastOp", "src/runtime/local/kernels/CastObj.h: CastObj", "src/runtime/local/kernels/CastObjSca.h: CastObjSca", "src/runtime/local/kernels/CastScaObj.h: CastScaObj"]}
{"id": "C90", "title": "Strings are compared, concatenated and converted by their characters", "statement": "Cells of string matrices are compared with each other and with string scalars alphabetically by bytes, for all of ==, !=, <, <=, >, >=, and + or concat gives the characters of both. == of two string scalars, however they were computed from variables and constants with concatenation, lower and upper, is equality of their characters; concatenation changes no existing string; what the compiler computes for constant strings is what the run time would compute. Fixed-size strings hold up to 15 characters and give them back, longer ones are errors, and ==, !=, <, > and concatenation agree with those of the characters, also against strings of any length; lower and upper convert all ASCII letters. It FAILS as follows: != of two string scalars compares addresses, so that it is 1 for equal strings unless both are the same variable or constant, and == and != are both 1; <, <=, >, >= of string scalars and <=, >= of fixed-size strings are errors; lower and upper of strings with a byte from 128 to 254 are undefined behaviour for scalars and matrices; fixed-size strings with a NUL byte lose what follows it and can be neither equal nor ordered; printing a fixed-size string writes 16 bytes, NUL bytes included.", "quantifier": "all strings of all lengths, all expressions on string scalars, all memory contents, all comparisons", "why_tests_cant": "The wrong answer of != depends on whether two equal strings share an address; tests with literals that the C++ compiler merges cannot see it.", "anchors": ["src/runtime/local/kernels/EwBinarySca.h: EwBinarySca", "src/runtime/local/kernels/EwUnarySca.h: EwUnarySca", "src/runtime/local/kernels/BinaryOpCode.h: supportsBinaryOp", "src/runtime/local/datastructures/FixedSizeStringValueType.h: FixedStr16", "src/ir/daphneir/Fold.cpp: EwEqOp::fold, EwNeqOp::fold, EwConcatOp::fold", "src/compiler/lowering/LowerToLLVMPass.cpp: ConstantOpLowering"]}
{"id": "C91", "title": "Neural network layers compute the usual formulas", "statement": "biasAdd adds to each cell the bias of its channel. softmax turns each cell into its share in the sum of the exponentials of its row, after subtracting the greatest number of the row, so that no exponential overflows, and gives the same for sparse as for dense matrices. Batch normalization for training normalizes each cell with the mean and variance of its channel over all images, returns them, and moves the running mean and variance towards them by the given momentum; its gradients are those of the textbook, given the mean of the channel. It FAILS as follows: batch normalization for inference uses for image i the parameters of channel i instead of those of the channel of the cell, reads outside the parameters when there are more images than channels, and is undefined behaviour beyond 2^31 cells; for training, the vectors are returned as C x C matrices, of which only the first row is filled; biasAdd sets the columns left over after the last whole channel to zero, reads wrong cells of views, and divides by zero for an empty bias; softmax of a matrix without columns reads outside of it; softmax of a sparse matrix also takes the exponential of minus the maximum, so that a row without zeros of numbers below about -700 becomes not a number where the dense one is right. (Without CUDA, scripts can reach only biasAdd and softmax: the operations that batch_norm2d, batch_norm2d_backward, relu and affine create have names for which no CPU kernel is registered.)", "quantifier": "all matrices of all sizes and channel numbers, all numbers of any field, any exponential function, all sparse rows", "why_tests_cant": "Tests use one or two images with as many channels, where mixing up rows and channels cannot be seen, and sizes that the number of channels divides.", "anchors": ["src/runtime/local/kernels/BiasAdd.h: BiasAdd", "src/runtime/local/kernels/BatchNorm2DTestForward.h: BatchNorm2DTestForward", "src/runtime/local/kernels/BatchNorm2DTrainForward.h: BatchNorm2DTrainForward", "src/runtime/local/kernels/BatchNorm2DBackward.h: BatchNorm2DBackward", "src/runtime/local/kernels/Softmax.h: Softmax", "src/parser/daphnedsl/DaphneDSLBuiltins.cpp: DaphneDSLBuiltins::build"]}
{"id": "C92", "title": "Lists are sequences of matrices", "statement": "createList, append, remove, length and print on lists behave as on finite sequences of matrices: append and remove give new lists and leave the old one as it is, remove also gives the removed matrix, an index outside the list is an error, and giving up a variable does not affect what the others show, whatever lists and matrices share. No matrix or list is used after it was freed, and once all variables have been given up nothing is left in memory. A list of dense matrices of one value type is accepted with this type; elements of different value types or that are no matrices are errors. It FAILS as follows: with automatically selected representations, a list that begins with a dense matrix is accepted although sparse ones follow, and these are then taken for dense ones; a list that begins with a sparse matrix is an error, as is appending one, although there are kernels for lists of sparse matrices; if no element has a known value type, the compiler works with a null type.", "quantifier": "all scripts without control flow over any number of matrices and lists, all orders of giving up variables, all list lengths and indices, all combinations of element types and representations", "why_tests_cant": "Tests try a few short lists that each have their own elements and do not look at memory; sharing and the order in which variables die have unboundedly many combinations.", "anchors": ["src/runtime/local/datastructures/List.h: List", "src/runtime/local/datastructures/DataObjectFactory.h: destroy", "src/runtime/local/kernels/CreateList.h: CreateList", "src/runtime/local/kernels/Append.h: Append", "src/runtime/local/kernels/Remove.h: Remove", "src/runtime/local/kernels/Length.h: Length", "src/ir/daphneir/DaphneInferTypesOpInterface.cpp: CreateListOp::inferTypes", "src/compiler/inference/SelectMatrixRepresentationsPass.cpp: SelectMatrixRepresentationsPass", "src/compiler/lowering/RewriteToCallKernelOpPass.cpp: KernelReplacement"]}
{"id": "C93", "title": "Recorded properties of intermediate results are those of the values they are inserted for", "statement": "A script run with property recording writes one entry for each matrix that an operation, loop or conditional of the main function returns, with the fraction of its non-zero cells. When the same script is run with inserting these entries, in whatever order the file has them, each matrix is given its own entry, and all operations are applied to the same arguments as without. It FAILS as follows: the entries have no effect, since for every script and file the types of all values that operations read say the same about sparsity as without the file; after a matrix without cells (whose fraction is written as null) no entry is used any more; the entry for some rows of a sparse matrix that stores zeros counts the stored numbers of other rows.", "quantifier": "all programs of operations, loops and conditionals with any numbers of arguments and results, all sparsities, all orders of the entries in the file and of the uses of a value, all ways operations may compute, all matrices", "why_tests_cant": "Tests compare the printed program for four scripts in which all matrices have cells; they check the printed types that were there before, and cannot show that the file never makes a difference.", "anchors": ["src/compiler/explanation/RecordPropertiesPass.cpp: RecordPropertiesPass::runOnOperation", "src/compiler/explanation/InsertPropertiesPass.cpp: InsertPropertiesPass::runOnOperation", "src/runtime/local/kernels/RecordProperties.h: RecordProperties", "src/util/PropertyLogger.cpp: PropertyLogger::logProperty"]}
{"id": "C94", "title": "The configuration file overrides the defaults and the command line overrides the file", "statement": "A run is configured by the command line, else by the configuration file, else by the defaults. A file with an unexpected key or a value of the wrong kind is refused, and so are exactly the combinations that are documented as impossible; tile sizes on the command line switch tiling with fixed sizes on. An option on the command line always overrides the file, and for the keys without option, the number of threads, the file system, the library directory, the tile sizes, the device and the explanations the file overrides the default. It FAILS as follows: for twenty keys (vectorized execution, code generation, columnar operations, partitioning scheme, task and batch sizes, recording and inserting properties, ...) the value in the file never has an effect; 0 threads, an empty string or false on the command line do not override the file; a file that cannot be opened is skipped; tiling cannot be switched on in the file; --optimistic-splitting is refused although the file has use_columnar.", "quantifier": "all configuration files, all command lines, all keys", "why_tests_cant": "There are 52 keys, each absent or with any value in the file and on the command line; the tests read a file alone, without the command line that overwrites it.", "anchors": ["src/api/internal/daphne_internal.cpp: startDAPHNE", "src/parser/config/ConfigParser.cpp: readUserConfig, checkAnyUnexpectedKeys, fileExists", "src/parser/config/JsonParams.h: DaphneConfigJsonParams", "src/api/cli/DaphneUserConfig.h: DaphneUserConfig", "doc/Config.md"]}
{"id": "C95", "title": "Searching a matrix finds exactly the values of its cells, and approximate comparison tells matrices apart that differ by more than the threshold", "statement": "Searching a dense or sparse matrix for a value, also for zero and not-a-number, says yes exactly if some cell has this value, whether the cell is stored or not. Two dense matrices, two sparse ones that store the same columns, or two matrices of any representation compared by the generic interface are found approximately equal exactly if they have the same shape and no two corresponding numbers differ by more than the threshold; two frames exactly if moreover their types and labels are the same. It FAILS as follows: not-a-number is found equal to every number; sparse matrices that store the same numbers in the same order are found equal in whatever columns these are; equal sparse matrices are found different if one of them stores a zero; unsigned numbers within the threshold are found different if the larger one comes second.", "quantifier": "all matrices of all shapes, all ways to store a sparse matrix, all values searched, all thresholds that are not negative", "why_tests_cant": "Tests search a few small matrices; the comparison is what tests use to compare results, so a wrong column of a sparse result cannot be seen by them.", "anchors": ["src/runtime/local/kernels/HasSpecialValue.h: HasSpecialValue", "src/runtime/local/kernels/CheckEqApprox.h: CheckEqApprox"]}
