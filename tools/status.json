{
 "C01": {
  "status": "partial",
  "note": "Sound for all domains; complete for length >= 2 and non-zero strides. The documented contract is false for domains of length 0 or 1 (C01_domain_equality_refuted)."
 },
 "C02": {
  "status": "partial",
  "note": "Shift and scale proved for all domains; division proved for non-negative strides and refuted for negative strides (unsigned division of a signed stride)."
 },
 "C03": {
  "status": "partial",
  "note": "Exact for unit-stride first argument, positive second stride, non-empty domains, including unsigned wrap-around; refuted for an empty domain at 0 and for negative strides, which the code does not reject."
 },
 "C04": {
  "note": "Domains must be non-empty; product of strides representable."
 },
 "C06": {
  "status": "partial",
  "note": "Proved for every layout built from an extent (1-3 D, all orders, dense/unit-stride/aligned, compile-time and run-time). Refuted for the two-argument constructor of the 2-D column-major aligned layout, and total_size wraps for an empty aligned matrix."
 },
 "C07": {
  "status": "partial",
  "note": "Proved for all layouts; refuted for the run-time description of aligned_512 blocks (missing trait specialisation)."
 },
 "C46": {
  "status": "partial",
  "note": "Dense layouts: all. Aligned: only for one-byte elements and not aligned_512; the compile-time classes take the alignment in elements, the run-time class in bytes (refuted)."
 },
 "C12": {
  "status": "partial",
  "note": "The block_patch global query of a cyclic dimension is refuted; everything else proved."
 },
 "C13": {
  "status": "partial",
  "note": "Holds for maps whose processor list has no repetition; a repeated processor is refuted."
 },
 "C15": {
  "status": "partial",
  "note": "Proved for the element type the chains are built for; the interleaved-complex chain is refuted (byte lengths of one component)."
 },
 "C17": {
  "status": "partial",
  "note": "Empty records and chains without records are refuted (the size arithmetic divides by zero or wraps)."
 },
 "C19": {
  "status": "partial",
  "note": "Distinctness needs non-zero strides; stride 0 is refuted as a counterexample to independence."
 },
 "C21": {
  "status": "partial",
  "note": "Offsets beyond the matrix are refuted (the size wraps)."
 },
 "C23": {
  "status": "partial",
  "note": "Proved for the three static formats; the run-time format's get/put ignore the index (refuted)."
 },
 "C24": {
  "status": "partial",
  "note": "Proved for every history of a block with user storage; release(true) on a block without user storage is refuted (null user pointer)."
 },
 "C25": {
  "status": "partial",
  "note": "in/out/inout proved for every view, program and window; direct versus copy proved unobservable for inout. Refuted for out alone: unwritten elements of a copy access become the temporary's previous content."
 },
 "C26": {
  "status": "partial",
  "note": "Soundness of the compile-time and run-time choice proved for every view and request. Refuted only for the base address: aligned packings are not checked against user storage nor against the default allocation alignment."
 },
 "C27": {
  "status": "partial",
  "note": "Proved for all interleavings (sequentially consistent) of legal operations. The class's own preconditions are shown necessary by refutations: assigning null, reset to self, assigning from a member of the released object."
 },
 "C28": {
  "status": "partial",
  "note": "Proved for the generic evaluators, all dimensions and dimension orders, and for single-precision vectors of any length with unit stride. Refuted for single-precision vectors of 4096 or more elements that are not adjacent in memory, and for meansqval of long complex single-precision vectors."
 },
 "C29": {
  "status": "proved",
  "note": "Bitwise characterisation for integers, forall/exists for bool, with the early exits."
 },
 "C30": {
  "status": "partial",
  "note": "Proved for non-empty views under any strict weak order; on an empty view the search reads index zero (refuted)."
 },
 "C31": {
  "status": "proved",
  "note": "indexbool for vectors and matrices, first, gather, scatter, gather after scatter."
 },
 "C32": {
  "status": "partial",
  "note": "Clip over integers, ramp over any commutative ring, swap of dense blocks of equal dimension order. Refuted: swap of matrices of different dimension order or padded layout exchanges storage cells, not elements."
 },
 "C33": {
  "status": "proved",
  "note": "All kernels, symmetries, decimations, block sizes and numbers of calls, over any commutative ring; input and output vectors do not overlap."
 },
 "C34": {
  "status": "proved",
  "note": "Per-call and total counts; the assertion in apply never fires."
 },
 "C35": {
  "status": "partial",
  "note": "Proved for Fir and for vector and matrix convolution. Refuted for conv_kernel_size of an even symmetric matrix kernel (wrong number of columns)."
 },
 "C36": {
  "status": "proved",
  "note": "Any number of sections and calls, over any commutative ring; input and output separate or identical."
 },
 "C41": {
  "status": "partial",
  "note": "Proved for vectors and matrices, in place and out of place. Refuted for freqswap<col> on non-square matrices (loops over rows), for two equal subviews of odd size (not recognised as the same block) and for empty vectors (reads element 0)."
 },
 "C40": {
  "status": "partial",
  "note": "Proved for exact real samples and for int samples whose range is a multiple of the number of inner bins, over all call sequences. Refuted for general int samples (bin out of range, division by zero) and, by rounding, for float samples."
 },
 "C37": {
  "status": "partial",
  "note": "Vectors and matrices, all symmetries, supports, decimations and address patterns (strides, split storage), over any commutative ring; output disjoint from input. Minimal support needs the full kernel to fit in the input; the constructor does not check that, and the output size then wraps (refuted)."
 },
 "C38": {
  "status": "partial",
  "note": "Proved when half the kernel fits in the input; refuted for taller kernels (unsigned wrap)."
 },
 "C39": {
  "status": "partial",
  "note": "Vectors and matrices, biased and unbiased, for references no longer than the input. Refuted for 1-D same support with even reference length (divisor one less than the number of terms; the source says this is the C-VSIPL definition) and for same support with a longer reference."
 },
 "C42": {
  "status": "partial",
  "note": "Leap-frog positions, full period, disjointness, jump-ahead and the portable combination proved for all seeds, k, ids and calls. Refuted: the first k-1 numbers of the single sequence belong to no generator; numprocs=0 does not return (non-portable) or divides by zero (portable)."
 },
 "C43": {
  "status": "partial",
  "note": "Exact arithmetic, all states. Refuted in single precision: the number 1 is returned (rounding)."
 },
 "C47": {
  "status": "partial",
  "note": "Assignment proved; constancy of a random view is refuted (each read draws a new number)."
 },
 "C44": {
  "status": "partial",
  "note": "All generic evaluators, all shapes and address patterns, over any commutative ring and any conjugation; destination apart from the operands (cumsum, gems: apart or identical). Refuted in place: A = prod(A,A), gemp with C among the operands and gems with transposed C give wrong results, since the destination is written while the operands are read. Mismatched inner sizes: prod refuses them all (C44_prod_mismatch) and every variant refuses an operand that is too short (C44_short_operand), but prodj, prodh, prodt, prod3 and prod4 accept one that is too long and use only a part of it (C44_inner_size_refuted)."
 },
 "C48": {
  "status": "proved",
  "note": "Exact arithmetic; the complex exponential is an arbitrary function."
 },
 "C45": {
  "status": "partial",
  "note": "toepsol over an arbitrary field with conjugation: any returned vector solves the system; total for order >= 2 and nonzero real t_0; the error implies a singular leading block; definite matrices never raise it. Refuted parts: order one reads out of range, a zero diagonal is divided by, an indefinite matrix is not reported although documented."
 },
 "C49": {
  "status": "proved",
  "note": "size(Domain<D>) equals the number of distinct index tuples for every dimension count."
 },
 "C50": {
  "status": "proved",
  "note": "Exact arithmetic over an arbitrary ring with given cosine and sine tables. The theorem C50_reals_formula uses the axioms of Coq's reals. Three-dimensional transforms and complex-to-real ones of split storage need offsets that fit int (see C52_int_offset_refuted)."
 },
 "C51": {
  "status": "proved",
  "note": "Twiddle factors satisfy the laws of roots of unity (shown for the real sine and cosine by C51_reals_exact, which uses the axioms of Coq's reals)."
 },
 "C52": {
  "status": "partial",
  "note": "All variants proved; for split storage the real-to-complex variant needs row offsets that fit int. Refuted without that: the helper offset(data, int) narrows 64-bit offsets."
 },
 "C53": {
  "status": "proved",
  "note": "One-dimensional front end. C53_round_trip_reals uses the axioms of Coq's reals."
 },
 "C54": {
  "status": "partial",
  "note": "Missing: a row-major destination that is not contiguous, from a column-major source, when the matrix is not square; refuted by C54_row_from_column_refuted (copy.hpp passes the extents in the wrong order in that branch)."
 },
 "C55": {
  "status": "proved",
  "note": "Expressions of any depth with elementwise, sub-view, vmmul and whole-view (cached) nodes; exact arithmetic; the destination may be an operand at the same index. Overlap with different indices, which the library leaves undefined, is excluded (C55_overlap_example)."
 },
 "C56": {
  "status": "partial",
  "note": "Missing: tensors' compound operators and the bitwise ones with a scalar argument that refers to an element of the destination; refuted (the scalar is taken by reference and changes during the loop)."
 },
 "C57": {
  "status": "partial",
  "note": "Proved for non-empty sub-domains with positive strides. Refuted: negative strides (the map loses every element), empty sub-domains starting at 0, and the subblock size the map reports. Cyclic maps throw. The local view of a sub-view of a sub-view is unimplemented in the library (throws)."
 },
 "C58": {
  "status": "proved",
  "note": "All five one-index and three two-index projections; any mix of distributions. That copy_dist names the right class per dimension is a compile-time matter and not modelled."
 },
 "C59": {
  "status": "partial",
  "note": "Proved for histories in which each return happens while some memory above the chunk is unused and the byte below it is in use (or the unused run below has the size of the chunk); refuted outside these: overlapping chunks, a wild pointer, lost memory; also for requests near 2^64 and pools of 2 GB and more. Thread safety is not modelled."
 },
 "C60": {
  "status": "partial",
  "note": "Everything proved for sizes whose byte count is below 2^64; refuted beyond (the multiplication wraps)."
 },
 "C61": {
  "status": "partial",
  "note": "Integer and algebraic functions for all twelve integer types. The order-independence of the result type, mixed signed/unsigned comparisons, products of unsigned short, the magnitude of the least value and the complement of bool fail and are refuted. Floating-point library functions are not modelled."
 },
 "C62": {
  "status": "partial",
  "note": "Holds when a contiguous destination is used for block-vector assignment and every processor belongs to a replicated destination of a generator; both restrictions are necessary (C62_strided_vector_refuted, C62_generator_refuted). Views are assumed not to share storage; transport is reliable and in order per pair."
 },
 "C63": {
  "status": "partial",
  "note": "Proved for programs whose main thread holds an object around everything else; simultaneous first or last objects, re-initialization with MPI, the allocator without MPI and threads without an object of their own are refuted."
 },
 "C64": {
  "status": "partial",
  "note": "Proved for all sizes, orders and values under the layout conditions BLAS needs (unit minor stride of the result, non-overlapping rows, for matrix-vector products adjacent rows and positive vector strides). False outside them: five refuted theorems show sub-matrices, reversed vectors, strided results and reversed rows give wrong results, stray writes or an abort with BLAS; double-precision complex dot is rounded to single precision."
 },
 "C65": {
  "status": "partial",
  "note": "exact arithmetic over a commutative ring; LAPACK and BLAS routines by their documented contract; prodq with the thin Q reads outside its buffer for two of the four combinations (refuted)"
 },
 "C66": {
  "status": "partial",
  "note": "The round trip of dense blocks and the two-dimensional and one-dimensional reader tests are proved in full; for tensors the reader test ignores the middle stride, for integers it ignores the dimension, and storage sizes are wrong for sub-views and padded blocks (refuted)."
 },
 "C67": {
  "status": "partial",
  "note": "Formulas, symmetry, range and termination are proved over the reals; the promised error of the Bessel function is refuted and a correct bound of 2e-4 proved instead; Hanning windows of 2^32 or more elements do not return. Missing: rounding (the Chebyshev window is C68)."
 },
 "C68": {
  "status": "proved",
  "note": "Proved over the reals; rounding is not modelled."
 },
 "C69": {
  "status": "partial",
  "note": "Holds for maps without repeated processors; with a repeated processor, which the constructors accept, elements can neither be read nor written."
 },
 "C70": {
  "status": "partial",
  "note": "Proved over exact arithmetic from the documented behaviour of gebrd, orgbr/ungbr and bdsqr, for every shape, storage choice and history. Overlapping operands of produ give a wrong result (refuted)."
 },
 "C71": {
  "status": "partial",
  "note": "Proved for every size that fits an int, every layout, every FFT library that keeps what FFTW's manual promises. Refuted: lengths that do not fit an int are planned for a different length; real transforms of the rows of a distributed matrix are always refused."
 },
 "C72": {
  "status": "proved",
  "note": "Exact arithmetic; blocking broadcasts as in C69; single-precision vectors of 4096 or more elements, which go through a local copy (C73), are not covered here."
 },
 "C73": {
  "status": "partial",
  "note": "The program theorem holds for all schedules; the allocation is large enough for dense layouts only (C73_padded_refuted). The work on the local copies is the same function on every processor."
 },
 "C74": {
  "status": "partial",
  "note": "For libraries that accept blocks that were not admitted, views with non-negative strides, and split complex vectors of unit stride. Refuted: negative strides (the view lies outside the bound block), split complex operands with other strides (the stride is dropped), libraries that insist on admitted blocks (nothing is ever admitted)."
 },
 "C75": {
  "status": "partial",
  "note": "Proved for every library that keeps the standard's promises and takes blocks that were not admitted, its known-wrong convolution outputs being arbitrary. Missing: negative strides, full support with decimation above 4 (refuted: more outputs are recomputed than there are), copying of state-saving filters (refuted: always throws), hints (refuted: swapped), unbiased same-support correlation with even reference length."
 },
 "C76": {
  "status": "partial",
  "note": "Proved for complex transforms and for all transforms of the rows or columns of a matrix (out of place and in place). Partial: 1-D real transforms give the half spectrum a view of the full length, which a checking library refuses beyond two elements (C76_real_length_refuted); odd lengths of real transforms (C76_odd_refuted); split complex matrices of different strides (C76_split_stride_refuted)."
 },
 "C77": {
  "status": "partial",
  "note": "Assignment, kept values and copies proved for all expressions and histories. Refuted: snapshot at the call, mixtures of old and new values, agreement of copies taken before the first read, reading after the transform object is gone, local views of evaluated results, misaligned elementwise overlap."
 },
 "C78": {
  "status": "partial",
  "note": "Host-only programs behave as with one copy. Programs using the device do so if careful (defined in Device.v); five refuted theorems give programs outside that condition where a value is lost."
 },
 "C79": {
  "status": "partial",
  "note": "Full statement proved for vectors (slices, parts, assignment, copy) and for slices of matrices unless columns were reversed before; rows, columns and diagonals only of whole matrices. Refuted: lines of submatrices, reversed columns sliced again, out-of-range rows, negative element indices, overlapping assignment, shape mismatch, copies of parts, zero and integer fill values, submatrix(), size of a matrix without rows."
 },
 "C80": {
  "status": "partial",
  "note": "HDF5: proved for all views with at least one element, with the libraries as documented. Refuted: failures to create a dataset or to convert it are not reported, the short-hand write empties the file. PNG: rows proved for all shapes; the round trip is proved for square images and refuted for others."
 },
 "C81": {
  "status": "partial",
  "note": "Reference counts proved for all histories whose devices are root devices. Refuted: destroying an empty program, kernel or device, assigning buffers, copying sub-devices, default queue where the platform's default device is not the first."
 },
 "C82": {
  "status": "partial",
  "note": "Proved for fir, fft, fftm, the elementwise functions, reductions, dot, transposes, products, llsqsol, qrd, svd, freqswap, windows, clip, rand and slices, for every type, shape, state of the module table and behaviour of the C++ functions. Refuted, with the exact exception, for the functions that can never work (lud, chold, covsol, toepsol, conv, corr, iir from matrices, complex fft, kron, outer, prodh/j/t, mixed products) and for results whose type has not been loaded. cast.py is not modelled (its import always fails)."
 },
 "C83": {
  "status": "partial",
  "note": "Placement, patches, extents, local indices and foreach_point of the transpose proved for all maps; the look-up by global index, processors without a subblock, temporaries, permuted tensors and diagonals are refuted."
 },
 "C84": {
  "status": "partial",
  "note": "Groups, communicators, reductions, lifetimes proved; refuted: exclude of an empty sequence, translate_ranks of outsiders, default communicator's processor set, null communicators, allreduce of complex, char and bool, first use of a type by two threads."
 },
 "C85": {
  "status": "partial",
  "note": "Proved for vectors, matrices, domains, indices and lengths, and for tensors whose elements have text of equal length; refuted for tensors in general (no separator between the elements). The stream's own formatting of numbers is taken to be decimal notation; that of floating-point numbers is a parameter."
 },
 "C86": {
  "status": "partial",
  "note": "Proved: symmetry for all floats and doubles, reflexivity for the finite ones, the exact meaning with and without rounding, integers of like signs, views of any size. Refuted: transitivity, infinities, integers of different signedness, long long against double."
 },
 "C87": {
  "status": "partial",
  "note": "Proved: the ranges of processors for all maps, steps, elements, distances for steps of one and forward distances. Refuted: backward distances for longer steps, distances from 2^31 on, equality of iterators over different vectors. Postfix ++ and -- return a reference to a local variable and are not modelled."
 },
 "C88": {
  "status": "partial",
  "note": "Proved for the POSIX clock (exact quotient; the rounding to double is not modelled). Refuted for the time stamp counter: precision of a float, rate of 1000 MHz assumed after an empty line, undefined before initialisation. The OVXX_TIMER_SYSTEM branch names a namespace that does not exist."
 },
 "C89": {
  "status": "partial",
  "note": "Proved: round trip, form of the written file, reading of every file with unpadded other chunks, refusal. Refuted: buffer overrun on partial samples, overrun on long format chunks, endless loop without a data chunk, division by zero, padding not skipped, wrong RIFF size, number of channels. Little endian only."
 },
 "C90": {
  "status": "partial",
  "note": "Proved for programs without copies of datasets, complex values or type queries; the rest is refuted by witnesses."
 },
 "C91": {
  "status": "partial",
  "note": "Proved for programs in which arrays go before the block they were made of; refuted without."
 },
 "C92": {
  "status": "partial",
  "note": "All conversions and formats, by induction on the sequence. Refuted for const_pointer, which does not check the format it is asked for (C92_const_format_refuted, C92_const_split_refuted), and for null pointers of split format, whose second half is never set (C92_null_split_refuted)."
 },
 "C93": {
  "status": "partial",
  "note": "Proved for all histories, given the factorizations LAPACK documents (getrf_for, potrf_for, geqrf_for for the matrices concerned): what an object solves depends only on the last matrix given to it or to its original before the copy; objects can always be decomposed again, copied and destroyed; no leak, no double free. Refuted for assignment: the operators have no return statement (chold, qrd) or do not compile (lud)."
 },
 "C94": {
  "status": "partial",
  "note": "All three ways are proved equal to one specification for every ring of numbers, rate, length, filter and signal that the library accepts. Refuted: decimation by the length of the filter or more, and phases of one coefficient, are refused by some of the ways but not by others."
 },
 "C95": {
  "status": "proved",
  "note": "Proved for every program over any number of Fir variables (shared backends with reference counts, kernel blocks shared by clones) and Iir variables, and for every commutative ring. The C-VSIPL backend, whose clone() throws, is in CVsipSig.v."
 },
 "C96": {
  "status": "partial",
  "note": "Programs without clip and invclip are correct for every memory contents; with them the settings are lost (two refutations): the local expression is rebuilt without its operation."
 },
 "C97": {
  "status": "partial",
  "note": "Proved: whenever the assignment is carried out every processor stores the right products, and it is carried out in the two cases the code documents. Refuted: vectors replicated on the processors of the matrix only, and vectors placed alike by a map of another class, are refused."
 },
 "C98": {
  "status": "partial",
  "note": "Proved for programs without copy construction of histograms: results read before the next call or assignment of their histogram, or after its end, contain the right counts, and storage is freed. Refuted: a result changes with the next call; a copied histogram shares its counters with the original; assignment between different numbers of bins fails."
 },
 "C99": {
  "status": "partial",
  "note": "Proved for equal maps (Map class) that do not divide the transformed dimension: no processor fails and every element of the output holds its point of the transform of its whole line, for complex, real-to-complex and complex-to-real transforms along either dimension. Refuted: maps dividing the transforms are accepted and the pieces transformed separately; real-to-complex then writes out of bounds."
 },
 "C100": {
  "status": "partial",
  "note": "Proved: without a value, and with a value that is a nonzero float or, for single-precision complex, a nonzero complex number (or for matrices a nonzero integer), the C++ constructor of the right shape is called with length, value and map in their places, for single and double precision, int and single-precision complex; values the element type cannot hold raise ArgumentError. Refuted: zero is not stored, an integer value turns a vector into a matrix, three lengths give a filled matrix, double-precision complex blocks cannot be made, block(array, map) and subblock always raise exceptions."
 },
 "C101": {
  "status": "partial",
  "note": "Proved: modulus and argument of the old elements at every index with nothing else changed, also in place over real() and imag(), for vectors; polartorect and cmplx for vectors and matrices in both orders; the round trip for any scalar functions inverse to each other and for the reals; length mismatch diagnosed with assertions. Refuted: without assertions longer results keep old elements; results overlapping the data at other indices. polartorect(view) with one argument has a result type that no program can be compiled with, and is not modelled."
 },
 "C102": {
  "status": "partial",
  "note": "Proved for every gate but those where the cells on one side exist only in part, and the agreement of the three versions at all gates; the version on pointers of cfar_c.cpp is proved equal to the one by vectors, whatever its scratch memory holds (C102_pointers, C102_pointers_detect_partial); its version with vector instructions is not modelled. At the left boundary the mean is taken over one cell fewer than summed and at the right over one cell more (with a missed target and a false alarm as witnesses); bins not a multiple of four and more than thirty targets at a gate lead out of bounds. Arithmetic is exact; the kernels are written for header names of the predecessor library."
 },
 "C103": {
  "status": "partial",
  "note": "Proved in exact arithmetic for the Fir objects and for the expression of matrix transforms (by the convolution theorem, over any ring with exact twiddle factors and over the real numbers). Row by row, the code multiplies every row by the response of filter 0: the theorem holds only if all filters are the same. One processor; rounding and the distributed form are not modelled."
 },
 "C104": {
  "status": "partial",
  "note": "All eight versions with one replica, and the version with a replica for every pulse, are proved to convolve each pulse with its replica once per repetition (C104_versions, C104_matrix; over the reals for every length in C104_versions_reals), and to leave the pulses alone with a unit impulse (C104_impulse). What the property asks of the check is refuted: without the product the check passes all the same (C104_check_refuted), and what is timed is all zeros (C104_timed_refuted). Exact arithmetic; one processor; the timing and random data are not modelled."
 }
}