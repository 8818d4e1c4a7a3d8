{"id": "C01", "title": "Domain equality means same index set", "statement": "Two one-dimensional domains compare equal exactly when they denote the same set of indices (the contract written above operator==); in particular a domain equals its reversal.", "quantifier": "all pairs of Domain<1> objects (any first index, stride of either sign, length)", "why_tests_cant": "The set of (index, stride, length) triples is unbounded; a test only samples triples and the failing corners (length 0 and 1) are easy to miss.", "anchors": ["src/vsip/domain.hpp: Domain<1>::impl_equals, impl_nth, operator=="]}
{"id": "C02", "title": "Domain arithmetic translates every index", "statement": "d+k, d-k, d*k and d/k (divisibility required) keep the number of indices: d+k and d-k shift every index by k; d*k and d/k (k dividing the stride) keep the first index and multiply or divide the spacing between successive indices by k.", "quantifier": "all domains, all integer offsets and factors, all positions i, including negative strides stored in unsigned words", "why_tests_cant": "Needs modular 64-bit reasoning for every offset and every position.", "anchors": ["src/vsip/domain.hpp: operator+, operator-, operator*, operator/ on Domain<1>"]}
{"id": "C03", "title": "Intersecting two domains yields exactly the common indices", "statement": "intersect(a,b,out) returns true exactly when a and b share an index, and then out enumerates exactly the shared indices, each once, in the order of b.", "quantifier": "all domain pairs that meet the documented precondition (a has unit stride), in one, two and three dimensions", "why_tests_cant": "Set equality over all first/stride/length combinations cannot be sampled; off-by-one errors at the ends appear for particular residues only.", "anchors": ["src/ovxx/domain_utils.hpp: intersect (1-, 2-, 3-D)"]}
{"id": "C04", "title": "Intersections translate to local coordinates without losing elements", "statement": "Given the shared global indices of a global patch, the corresponding local sub-domain (apply_intr) designates, position by position, the local elements that hold those global indices, and subset_from_intr designates the same elements relative to the other domain.", "quantifier": "all patches, all strides of the intersecting domain, all positions", "why_tests_cant": "Position-wise correspondence has to hold for every element of every possible patch.", "anchors": ["src/ovxx/domain_utils.hpp: apply_intr, subset_from_intr"]}
{"id": "C05", "title": "Index traversal visits every element exactly once in storage order", "statement": "Starting at the zero index and repeatedly stepping with next<Order> while valid(), the visited indices are exactly all indices of the extent, each visited once, in lexicographic order of the dimension order; the traversal terminates, and visits nothing when some extent is zero.", "quantifier": "all extents in 1, 2 and 3 dimensions and all dimension orders", "why_tests_cant": "Termination and exactly-once coverage for unbounded extents; zero extents are a corner where the loop can start with an invalid index.", "anchors": ["src/ovxx/domain_utils.hpp: next<Order>, valid"]}
{"id": "C06", "title": "Layouts give every element its own cell inside the allocation", "statement": "For every layout the library computes (row/column/any axis order, dense, unit-stride, aligned or run-time packing, 1-3 dimensions), distinct in-range indices have distinct storage offsets and all offsets are below total_size(); dense layouts use every cell.", "quantifier": "all extents, all dimension orders, all alignments, all pairs of indices", "why_tests_cant": "Two different indices sharing a cell shows up only for specific shapes; no finite set of shapes settles it.", "anchors": ["src/ovxx/layout.hpp: Applied_layout constructors, index, total_size, stride"]}
{"id": "C07", "title": "Aligned layouts align every row and cost at most one alignment unit per row", "statement": "In an aligned packing, every line along the fastest axis starts at a multiple of the requested alignment, and the padded line is longer than the requested one by less than the alignment.", "quantifier": "all extents, element sizes dividing the alignment, axis orders", "why_tests_cant": "Depends on residues of the extent modulo the alignment for every extent.", "anchors": ["src/ovxx/layout.hpp: Applied_layout for aligned packings, is_packing_aligned"]}
{"id": "C08", "title": "Offsets are the dot product of index and reported strides", "statement": "For every layout, index(i...) equals the sum of i_d times stride(d), so client code walking raw pointers with the reported strides touches exactly the element that get()/put() use.", "quantifier": "all layouts, extents and indices", "why_tests_cant": "A pointer walk consistent for the tested shapes says nothing about other shapes.", "anchors": ["src/ovxx/layout.hpp: Applied_layout::index, Applied_layout::stride"]}
{"id": "C09", "title": "A block distribution partitions the index range", "statement": "For Block_dist every global index lies in exactly one subblock, the subblocks are contiguous and in order, their sizes add up to the length, and converting a global index to (subblock, local index) and back is the identity in both directions.", "quantifier": "all lengths, all numbers of subblocks (including more subblocks than elements), all indices", "why_tests_cant": "Partition laws range over every length / subblock-count pair; remainders distribute differently for each residue.", "anchors": ["src/vsip/impl/dist.hpp: Block_dist", "src/ovxx/parallel/dist_utils.hpp"]}
{"id": "C10", "title": "A block-cyclic distribution partitions the index range", "statement": "For Cyclic_dist with any contiguity every global index lies in exactly one (subblock, patch), patches are disjoint and cover the range, subblock sizes add up to the length, and local/global index conversion is a bijection.", "quantifier": "all lengths, subblock counts, contiguities and indices", "why_tests_cant": "Same as above with one more unbounded parameter; the last partial chunk creates many cases.", "anchors": ["src/vsip/impl/dist.hpp: Cyclic_dist", "src/ovxx/parallel/dist_utils.hpp: segment_size, segment_chunks, segment_chunk_size"]}
{"id": "C11", "title": "Distributions are balanced", "statement": "Any two subblocks of a block distribution differ in size by at most one element; any two subblocks of a block-cyclic distribution differ by at most one chunk of `contiguity` elements.", "quantifier": "all lengths, subblock counts, contiguities, pairs of subblocks", "why_tests_cant": "A bound for every pair of subblocks of every distribution.", "anchors": ["src/ovxx/parallel/dist_utils.hpp: segment_size, segment_chunk_size"]}
{"id": "C12", "title": "A multi-dimensional map gives every element exactly one home", "statement": "For a Map with any mix of whole/block/cyclic distributions, each global index tuple belongs to exactly one (subblock, patch, local index) triple; the subblock found from a global index is the one whose patches contain it; local and global index conversions are mutually inverse; subblock numbers and per-dimension coordinates correspond one to one.", "quantifier": "all maps of dimension 1-3, all distributions, all subblock counts, all global indices", "why_tests_cant": "The product of three distributions has unboundedly many shapes.", "anchors": ["src/vsip/map.hpp: split_tuple, impl_subblock_from_global_index, impl_patch_from_global_index, impl_global_from_local_index, impl_global_domain, impl_local_domain, impl_subblock_domain"]}
{"id": "C13", "title": "Each subblock has exactly one owner set and each processor at most one subblock", "statement": "subblock(pr) and processor_begin/end agree: pr is listed as a processor of subblock sb exactly when subblock(pr)==sb; processors outside the map own nothing; with the default assignment every subblock is owned by exactly one processor.", "quantifier": "all processor sets and subblock counts, all processors", "why_tests_cant": "Agreement of two separately coded functions over all processor sets.", "anchors": ["src/vsip/map.hpp: subblock, processor_begin, processor_end, impl_rank_from_proc"]}
{"id": "C14", "title": "Maps that compare equal place every element identically", "statement": "If two maps are reported equal (or equivalent for a dimension), then applied to the same domain they assign every global index to the same processor at the same local index, so skipping communication is safe.", "quantifier": "all pairs of maps, all domains, all indices", "why_tests_cant": "Soundness of an optimisation guard over all map pairs; a false positive silently loses communication.", "anchors": ["src/vsip/map.hpp: operator==, map_equiv, map_equal"]}
{"id": "C15", "title": "Parallel assignment moves every element to its place", "statement": "After a distributed assignment, on every processor, every local element of the destination holds the source value of the same global index, elements are neither lost nor duplicated, nothing outside the destination is written, whatever the two maps are.", "quantifier": "all source and destination maps, domains, processor counts, element values, and orders of message arrival", "why_tests_cant": "Quantifies over all pairs of distributions and all message schedules.", "anchors": ["src/ovxx/parallel/assign_chain.hpp: build_send_list, build_recv_list, build_copy_list, exec", "src/ovxx/parallel/assign_block_vector.hpp"]}
{"id": "C16", "title": "Sender and receiver agree on every message", "statement": "For every ordered processor pair, the sequence of global elements the sender packs is the sequence the receiver unpacks, element by element, and a message is sent if and only if it is expected.", "quantifier": "all map pairs and processor pairs", "why_tests_cant": "Sender and receiver compute their lists independently; agreement must hold for all map pairs.", "anchors": ["src/ovxx/parallel/assign_chain.hpp", "src/ovxx/parallel/assign_block_vector.hpp"]}
{"id": "C17", "title": "Gathering and scattering through a copy chain preserves data", "statement": "Copying a chain of strided memory segments into a buffer lists the addressed elements in chain order; copying a chain into a chain of the same total length moves the k-th addressed element of the source to the k-th addressed element of the destination, regardless of how the records are cut.", "quantifier": "all chains (any number of records, strides, element sizes and lengths)", "why_tests_cant": "The two chains may be cut at arbitrary different places; the interleaving of cut points is unbounded.", "anchors": ["src/ovxx/parallel/copy_chain.cpp: copy_into", "src/ovxx/parallel/copy_chain.hpp"]}
{"id": "C18", "title": "Local patches and points are iterated exactly once", "statement": "foreach_patch and foreach_point call the user's function exactly once for every local element, with the correct global index for that element.", "quantifier": "all maps, local subblocks and elements", "why_tests_cant": "Coverage for all distributions.", "anchors": ["src/ovxx/parallel/util.hpp: foreach_patch, foreach_point"]}
{"id": "C19", "title": "Sub-views read and write exactly the elements they name", "statement": "For subset, slice, diagonal, transpose and permutation views: reading view element i gives the parent element it names; writing it changes exactly that parent element; different view elements name different parent elements.", "quantifier": "all parent extents, domains (any stride sign), slices, offsets, permutations, indices, values, and compositions of views", "why_tests_cant": "Read-over-write laws for every index pair and every view parameter.", "anchors": ["src/ovxx/expr/subset.hpp", "src/ovxx/expr/sliced.hpp", "src/ovxx/expr/diag.hpp", "src/ovxx/expr/transposed.hpp", "src/ovxx/expr/permuted.hpp"]}
{"id": "C20", "title": "Direct pointers into sub-views address the same elements as get and put", "statement": "For every sub-view that offers direct data access, ptr() + sum of i_d*stride(d) is the address of the element returned by get(i...).", "quantifier": "all parents, all view parameters, all indices, all nestings of views", "why_tests_cant": "Two separately coded access paths (get/put and ptr/stride) must agree for every view parameter.", "anchors": ["src/ovxx/expr/subset.hpp: ptr, stride", "src/ovxx/expr/sliced.hpp", "src/ovxx/expr/diag.hpp", "src/ovxx/expr/permuted.hpp", "src/ovxx/expr/component.hpp"]}
{"id": "C21", "title": "The diagonal view contains exactly the elements of that diagonal", "statement": "diag(k) of a matrix has one element for every in-range pair (i, i+k), no more and no fewer, for every offset the user may pass.", "quantifier": "all matrix shapes, all offsets of either sign", "why_tests_cant": "Unsigned size computation over all offsets; out-of-range offsets are a corner.", "anchors": ["src/ovxx/expr/diag.hpp: Diag::size"]}
{"id": "C22", "title": "Real and imaginary component views are independent", "statement": "Writing through .real() changes only the real parts, writing through .imag() only the imaginary parts, reads return the last value written to that component, in every complex storage format; the reported stride addresses the component.", "quantifier": "all complex vectors, indices, values, storage formats", "why_tests_cant": "Read-modify-write laws for all states.", "anchors": ["src/ovxx/expr/component.hpp"]}
{"id": "C23", "title": "Complex storage formats hold the same values", "statement": "For array, interleaved and split storage, put(i,v) followed by get(j) returns v when i=j and the previous value otherwise, and converting between formats preserves every element.", "quantifier": "all sizes, indices, values, formats", "why_tests_cant": "Read-over-write for every pair of indices; index scaling mistakes collide only for particular pairs.", "anchors": ["src/ovxx/storage/traits.hpp", "src/ovxx/storage/user.hpp"]}
{"id": "C24", "title": "Admit and release transfer user data faithfully", "statement": "For a block bound to user storage: admit(true) makes the block read the user's values; values written while admitted are in the user's array after release(true); admit(false)/release(false) need not transfer; release on a released block and admit on an admitted block have no effect; no operation writes outside the block's storage.", "quantifier": "all sequences of admit, release, rebind, put and get on blocks with and without user storage, in every storage format", "why_tests_cant": "A protocol over arbitrary operation histories.", "anchors": ["src/ovxx/storage/manager.hpp: admit, release, rebind, find", "src/ovxx/storage/block.hpp"]}
{"id": "C25", "title": "Direct data access honours its synchronisation policy", "statement": "With policy `in` the block is never modified; with `out`, on destruction the block holds what was written through the pointer; with `inout` the pointer first shows the block's values and untouched elements keep their value; whether the access is direct or through a temporary copy is unobservable.", "quantifier": "all blocks, layouts requested, policies, and writes through the pointer", "why_tests_cant": "Equivalence of two access strategies for all contents and layouts.", "anchors": ["src/ovxx/dda/accessor.hpp", "src/ovxx/dda/block_copy.hpp", "src/vsip/dda.hpp"]}
{"id": "C26", "title": "A direct pointer is handed out only if the memory really has the requested layout", "statement": "Whenever the library decides that a block is compatible with a requested layout, the block's strides are the strides of that layout, so code written for the layout reads and writes the right elements.", "quantifier": "all block shapes, strides, orders and requested packings", "why_tests_cant": "Soundness of a run-time guard over all stride combinations.", "anchors": ["src/ovxx/dda/accessor.hpp: is_compatible"]}
{"id": "C27", "title": "Blocks live exactly as long as something refers to them", "statement": "A reference-counted block is destroyed exactly once, when the last reference disappears, never while a reference exists; assignment, self-assignment and copying of references keep that true, also when references are used from several threads.", "quantifier": "all histories and interleavings of reference creation, copying, assignment and destruction", "why_tests_cant": "Interleavings and histories are unbounded.", "anchors": ["src/ovxx/refcounted.hpp"]}
{"id": "C28", "title": "Reductions compute their mathematical definition", "statement": "sumval, sumsqval, meanval, meansqval, sumval(bool) equal (in exact arithmetic) the sum, sum of squares, mean, mean of squared magnitudes and number of true elements of the view, independent of view length, stride and dimension order.", "quantifier": "all views of dimension 1-3, all lengths (in particular above and below the 4096-element switch), all strides, all element values", "why_tests_cant": "The long-vector code path and strided views combine into cases that small tests never reach.", "anchors": ["src/ovxx/reductions/reductions.hpp", "src/ovxx/reductions/functors.hpp"]}
{"id": "C29", "title": "Logical reductions equal the bitwise fold despite early exit", "statement": "alltrue/anytrue return the bitwise and/or of all elements even though the loops stop early.", "quantifier": "all views and element values", "why_tests_cant": "Early-exit equivalence over all inputs.", "anchors": ["src/ovxx/reductions/functors.hpp: All_true, Any_true", "src/ovxx/reductions/reductions.hpp"]}
{"id": "C30", "title": "Extremum searches return the extreme value and its first position", "statement": "maxval, minval, maxmgval, maxmgsqval ... with an index argument return a value that bounds every element and the first index (in traversal order) at which it occurs.", "quantifier": "all non-empty views of dimension 1-3, all dimension orders, all totally ordered values", "why_tests_cant": "Universally quantified bound and first-occurrence over every input.", "anchors": ["src/ovxx/reductions/reductions_idx.hpp", "src/ovxx/reductions/functors.hpp"]}
{"id": "C31", "title": "Selection functions find exactly the selected elements", "statement": "indexbool returns the number of true elements and stores their indices in increasing order; first returns the first index at or after the start satisfying the predicate; gather and scatter follow the index vector; gather after scatter through distinct indices returns the scattered vector and scatter leaves other elements alone.", "quantifier": "all vectors, index vectors, predicates, start positions", "why_tests_cant": "Universal statements over vectors and predicates.", "anchors": ["src/vsip/selgen.hpp"]}
{"id": "C32", "title": "Clipping, ramps and swap follow their definition", "statement": "clip/invclip map each element by the documented thresholds, ramp(a,b,n) has a+i*b at i, swap exchanges two views element by element and is its own inverse.", "quantifier": "all vectors, thresholds and parameters", "why_tests_cant": "Pointwise laws for all inputs.", "anchors": ["src/vsip/selgen.hpp"]}
{"id": "C33", "title": "FIR filtering in pieces equals filtering at once", "statement": "With state saving, feeding a signal to a Fir object in consecutive blocks produces, concatenated, the decimated convolution of the whole signal with the (unfolded) kernel; without state saving every call is the convolution with zero history; no access is out of bounds.", "quantifier": "all kernels, symmetries, decimations, block sizes, numbers of blocks and signals", "why_tests_cant": "Chunk-invariance over all histories.", "anchors": ["src/ovxx/signal/fir.hpp"]}
{"id": "C34", "title": "FIR output length bookkeeping", "statement": "Each call returns the number of valid outputs; the count never exceeds output_size(); when the block size is a multiple of the decimation it is exactly output_size(); in general the total over k calls is the number of decimation points passed; the internal assertion never fires.", "quantifier": "all block sizes, decimations, call counts", "why_tests_cant": "A bound over every call history.", "anchors": ["src/ovxx/signal/fir.hpp: apply"]}
{"id": "C35", "title": "Symmetric kernels are unfolded to the full kernel", "statement": "A kernel given as half of a symmetric kernel behaves as the full kernel, of odd or even length as requested, in Fir and Convolution.", "quantifier": "all kernels, symmetries, dimensions", "why_tests_cant": "All lengths and parities.", "anchors": ["src/ovxx/signal/fir.hpp", "src/ovxx/signal/conv.hpp: conv_kernel, conv_kernel_size"]}
{"id": "C36", "title": "IIR filtering in pieces equals filtering at once", "statement": "An Iir object realises the cascade of second-order difference equations given by its coefficient matrices; with state saving splitting the input does not change the output; reset returns to the initial state; without state saving every call starts from zero state.", "quantifier": "all coefficient matrices, signals, splits", "why_tests_cant": "Chunk-invariance over all histories.", "anchors": ["src/vsip/impl/signal/iir.hpp"]}
{"id": "C37", "title": "Convolution computes the requested region of the mathematical convolution", "statement": "full/same/min support outputs are the decimated samples of the linear convolution at the documented offsets, for 1-D and 2-D, all strides, with exactly output_size() elements written and no out-of-bounds access.", "quantifier": "all kernel and input sizes, decimations, strides, supports, values", "why_tests_cant": "Edge handling for every size relation.", "anchors": ["src/ovxx/signal/conv.hpp"]}
{"id": "C38", "title": "Same-support convolution may be computed as interior plus edges", "statement": "Computing the interior with the minimal-support kernel and the border with the edge kernel yields the same result as the direct same-support computation.", "quantifier": "all sizes and decimations", "why_tests_cant": "Coverage of border and interior for every size/parity.", "anchors": ["src/ovxx/signal/conv.hpp: conv_same_edge, conv_same_example"]}
{"id": "C39", "title": "Correlation computes the mathematical correlation with the right scaling", "statement": "full/same/min support outputs equal the correlation sums; with unbiased scaling each is divided by the number of terms that actually overlap.", "quantifier": "all reference and input sizes, values, supports, dimensions", "why_tests_cant": "Number of overlapping terms depends on every size relation and parity.", "anchors": ["src/ovxx/signal/corr.hpp"]}
{"id": "C40", "title": "Histograms count every sample exactly once", "statement": "Every sample increments exactly one bin: bin 0 below min, the last bin at or above max, otherwise the bin whose interval contains it; counts add up to the number of samples; accumulation adds, non-accumulation restarts; no out-of-range bin is touched.", "quantifier": "all sample vectors/matrices, bin counts, ranges, sample types, call sequences", "why_tests_cant": "Bin arithmetic for every sample value, incl. integer sample types.", "anchors": ["src/vsip/impl/signal/histo.hpp"]}
{"id": "C41", "title": "Frequency swap exchanges the halves", "statement": "freqswap moves element i to (i + floor(n/2)) mod n per dimension; in-place and out-of-place agree; applying it twice is the identity for even sizes.", "quantifier": "all lengths / matrix shapes, values, in-place or not", "why_tests_cant": "Parity-dependent index arithmetic for every size.", "anchors": ["src/ovxx/signal/freqswap.hpp", "src/vsip/impl/signal/freqswap.hpp"]}
{"id": "C42", "title": "Parallel random generators are disjoint pieces of one sequence", "statement": "Rand objects created with the same seed and numprocs=n produce interleaved (leap-frog) subsequences that together are the single-processor sequence; jump-ahead equals repeated stepping; the portable generator's state depends only on its history of calls.", "quantifier": "all seeds, numbers of processors, ids, step counts", "why_tests_cant": "Equality of infinite sequences.", "anchors": ["src/vsip/random.hpp"]}
{"id": "C43", "title": "Uniform random numbers stay in range", "statement": "randu returns a value in [0,1) for every state of the generator (exact arithmetic) and the portable combination handles every borrow correctly.", "quantifier": "all generator states", "why_tests_cant": "2^64 states.", "anchors": ["src/vsip/random.hpp: randu"]}
{"id": "C44", "title": "Matrix and vector products compute the linear-algebra definition", "statement": "dot, cvjdot, outer, kron, prod, prod3, prod4, prodh, prodj, prodt, gemp, gems and cumsum compute their definitions element by element, for all shapes, and write exactly the result; operands whose shapes do not match are refused.", "quantifier": "all shapes and values", "why_tests_cant": "Universal algebraic identities.", "anchors": ["src/vsip/impl/matvec.hpp", "src/vsip/impl/matvec_prod.hpp"]}
{"id": "C45", "title": "The Toeplitz solver solves the system", "statement": "If toepsol returns (does not report rank deficiency), the returned x satisfies T x = b for the Hermitian Toeplitz matrix with first row t, in exact arithmetic.", "quantifier": "all sizes, all Toeplitz rows and right-hand sides over a field", "why_tests_cant": "A solver correctness statement for all n and all values.", "anchors": ["src/vsip/impl/solver/toepsol.hpp"]}
{"id": "C46", "title": "The run-time description of a block's layout matches the block", "statement": "Asking a block for its run-time layout and applying it to the block's extent yields the offsets and strides at which the block really stores its elements.", "quantifier": "all dense and aligned layouts, extents, dimension orders, element sizes", "why_tests_cant": "Agreement of two independent stride computations must hold for every shape, order and element size.", "anchors": ["src/ovxx/layout.hpp: block_layout, is_packing_aligned, Applied_layout<Rt_layout<D> >"]}
{"id": "C47", "title": "A random view is consumed in order", "statement": "Assigning the view returned by randu(n) to a vector stores the generator's next n numbers in order and advances the generator by exactly n; reading an element of such a view twice yields the same number.", "quantifier": "all generator states, lengths and indices", "why_tests_cant": "The state space of the generator and the sizes are unbounded for tests, and a repeated read is never exercised by element-wise comparison.", "anchors": ["src/vsip/random.hpp: Rand::randu(length_type), Uniform_generator", "src/ovxx/expr/generator.hpp"]}
{"id": "C48", "title": "Modulation can be done frame by frame", "statement": "modulate multiplies each sample by the exponential of its phase and returns the phase that continues the signal: modulating consecutive frames with the returned phase gives the same samples as modulating the concatenated signal.", "quantifier": "all vectors, frame sizes, frequencies, phases, exponential functions", "why_tests_cant": "Equality of two processing orders for all frame splits.", "anchors": ["src/vsip/impl/matvec.hpp: modulate"]}
{"id": "C49", "title": "The size of a domain is the number of its indices", "statement": "The size reported for a D-dimensional domain (product of the per-dimension lengths) is the number of distinct index tuples the domain denotes, also when a dimension is empty or reversed.", "quantifier": "every D-dimensional domain with non-zero strides whose size is representable", "why_tests_cant": "Sizes drive buffer allocation and message lengths for every domain; tests sample a few shapes.", "anchors": ["src/ovxx/domain_utils.hpp:size"]}
{"id": "C50", "title": "The generic Fourier transform computes the discrete Fourier transform and touches nothing else", "statement": "In 1, 2 and 3 dimensions, complex out-of-place, complex in-place, real-to-complex (half spectrum along the chosen axis) and complex-to-real (from a half spectrum) transforms leave in the output elements exactly the DFT of the input elements for every combination of strides (also negative) and of interleaved and split storage, provided output elements are distinct and disjoint from the input; no other memory changes.", "quantifier": "all lengths, strides, storage formats, directions, axes, memory contents", "why_tests_cant": "Correctness for every length, stride and memory layout, and absence of stray writes, cannot be sampled.", "anchors": ["src/ovxx/signal/fft/dft.hpp:dft<D,I,O,S>::in_place, out_of_place", "src/ovxx/signal/fft/dft.hpp:sin_cos, offset"]}
{"id": "C51", "title": "Inverse after forward transform gives the input times the number of points", "statement": "A forward transform followed by the inverse transform leaves N times the input, for complex data and for real data going through the half spectrum along any axis, in 1, 2 and 3 dimensions.", "quantifier": "all lengths, strides, storage formats, axes, inputs", "why_tests_cant": "An identity over all inputs and sizes.", "anchors": ["src/ovxx/signal/fft/dft.hpp:dft"]}
{"id": "C52", "title": "A multiple transform transforms each row or column independently", "statement": "Fftm by rows (columns) leaves in each row (column) of the output exactly the 1-D transform of that row (column) of the input, for complex, real-to-complex and complex-to-real data, and changes nothing else.", "quantifier": "all sizes, strides, storage formats, axes, inputs", "why_tests_cant": "Independence of rows for all shapes and strides.", "anchors": ["src/ovxx/signal/fft/dft.hpp:dftm", "src/ovxx/signal/fft.hpp:Fftm"]}
{"id": "C53", "title": "Fft objects check sizes and apply the scale factor once", "statement": "Applying an Fft object to views of the declared sizes gives the transform times the scale factor; views of any other size are rejected before anything is written; forward and inverse objects with scale factors multiplying to 1/N restore the input.", "quantifier": "all sizes, scale factors, views, inputs", "why_tests_cant": "Covers all sizes, scale factors and inputs.", "anchors": ["src/ovxx/signal/fft.hpp:Fft", "src/ovxx/signal/fft/workspace.hpp"]}
{"id": "C54", "title": "Assigning one block to another copies every element", "statement": "After assigning a vector or matrix view to another of the same size, every element of the destination holds the (converted) element of the source with the same index and no other cell has changed, whatever the strides and dimension orders of the two and for interleaved and split complex storage; in-place transposition exchanges every pair.", "quantifier": "all sizes, strides, dimension orders, storage formats, contents", "why_tests_cant": "The copy has different code for each combination of order and contiguity, and the result must hold for every size and stride.", "anchors": ["src/ovxx/assign/copy.hpp", "src/ovxx/assign/assign.hpp"]}
{"id": "C55", "title": "Assigning an expression evaluates it as if all operands were read first", "statement": "After assigning an expression to a vector, matrix or tensor, every element of the destination holds the (converted) value the expression had at that index before the assignment and nothing else has changed, for every dimension order, even if the destination is itself an operand at the same index, and even if a whole-view operation inside the expression reads the destination.", "quantifier": "all expression trees, sizes, dimension orders, storage, contents", "why_tests_cant": "Covers arbitrary expression trees and aliasing; caches of whole-view operations must be filled before the first element is overwritten.", "anchors": ["src/ovxx/assign/loop_fusion.hpp", "src/ovxx/expr/evaluate.hpp", "src/ovxx/expr/unary.hpp", "src/ovxx/expr/binary.hpp", "src/ovxx/expr/ternary.hpp"]}
{"id": "C56", "title": "Operators, sizes and compound assignment mean what they say", "statement": "An expression built from operators has the size of its view operands and the value of the plain operations, also where a multiplication and an addition are fused; compound assignment combines every element with the operand as it was before, also if the operand is an element of the destination; vmmul multiplies every row or column by the vector.", "quantifier": "all operand expressions, sizes, dimension orders, contents", "why_tests_cant": "Covers all operand combinations and the aliasing of a scalar argument with the destination.", "anchors": ["src/ovxx/view/operators.hpp", "src/vsip/impl/vector.hpp", "src/vsip/matrix.hpp", "src/vsip/tensor.hpp", "src/vsip/impl/vmmul.hpp"]}
{"id": "C57", "title": "Sub-views of distributed views keep every element where it is", "statement": "Every element of a sub-view of a distributed view belongs to exactly one subblock of the sub-view's map; the subblock is on the processor that stores the element, and the local sub-view reads and writes the parent's stored element. The same holds for the map of a sub-view of a sub-view.", "quantifier": "every map without cyclic distributions, processor list, 1- to 3-dimensional view size, sub-domain with positive strides, processor and element", "why_tests_cant": "the sub-domain's stride and offset interact with every way the blocks can fall, including empty and partly covered blocks", "anchors": ["ovxx/parallel/subset_map_decl.hpp: subset_map", "ovxx/expr/subset.hpp: get_local_block", "vsip/map.hpp: impl_local_from_global_domain"]}
{"id": "C58", "title": "Slices of distributed matrices and tensors keep every element where it is", "statement": "Fixing one index of a distributed matrix or tensor, or two indices of a tensor, gives a view whose map stores each element on the same processor and at the same place as the parent's map, and whose subblocks correspond to the parent's subblocks holding them.", "quantifier": "every map (whole, block, cyclic in each dimension), processor list, view size, fixed dimension, index and element", "why_tests_cant": "the composition of subblock numbers depends on the counts in all dimensions, and the slice may miss most processors", "anchors": ["ovxx/parallel/map_utils.hpp: map_project_1, map_project_2", "ovxx/expr/sliced.hpp: get_local_block"]}
{"id": "C59", "title": "Memory handed out by the pool allocator belongs to one caller", "statement": "After any sequence of allocations, client writes and returns, the chunks currently handed out by a pool allocator are aligned to 128 bytes, lie inside the pool and share no byte; no call touches the contents of a chunk in use; a request succeeds exactly when a long enough unused run exists; total_avail() is the unused amount.", "quantifier": "every history of allocate, deallocate and client writes, every pool size, every request size", "why_tests_cant": "the free list depends on the whole history of sizes and orders of return; a corrupted list only shows up several calls later", "anchors": ["src/ovxx/huge_page_allocator.cpp huge_page_allocator::allocate", "src/ovxx/huge_page_allocator.cpp huge_page_allocator::deallocate"]}
{"id": "C60", "title": "Aligned arrays are aligned, large enough and freed exactly once", "statement": "An aligned array starts at a multiple of the requested alignment and all its elements lie in memory obtained from the system; over any sequence of constructions, copies, assignments (also to itself) and destructions each array has exactly one owner, is freed once, and nothing is left when no object is left.", "quantifier": "every alignment, element size, length and address returned by malloc; every history of ownership operations", "why_tests_cant": "tests see a few addresses and a few sequences; a double free or overlap may not crash", "anchors": ["src/ovxx/aligned_array.hpp detail::alloc_align", "src/ovxx/aligned_array.hpp aligned_array"]}
{"id": "C61", "title": "Elementwise arithmetic, comparison and logical functions compute the mathematical result", "statement": "For views of any integer types, add, sub, mul, div, band, bor, bxor, neg, mag, sq, maxmg/minmg(sq) and the fused am, ma, msb, sbm yield the mathematical value whenever the result element type can represent it, comparisons agree with the order of the numbers, logical functions read nonzero as true and bnot flips every bit and is an involution; the result element type does not depend on the order of the operands and can represent both; complex magsq, jmul and expoavg satisfy their algebraic identities.", "quantifier": "all pairs and triples of the twelve integer types, all values of them, and all commutative rings for the complex functions", "why_tests_cant": "Tests sample a few values of a few types; the conversions between intermediate, common and result type interact differently for each of 144 pairs of types and fail only near particular boundaries.", "anchors": ["src/ovxx/math/scalar.hpp:add,sub,mul,div,band,bor,bxor,bnot,neg,mag,magsq,maxmg,minmg,am,ma,msb,sbm,eq,lt,land,lxor,jmul,expoavg", "src/vsip/impl/promotion.hpp:Promotion", "src/ovxx/view/fns_elementwise.hpp"]}
{"id": "C62", "title": "Programs on distributed views compute what the sequential program computes", "statement": "When every processor executes the same sequence of assignments lhs = expression among distributed views of the same size (block, cyclic or replicated over any processors; expressions of distributed operands, scalars and generators), then in every interleaving of the processors, with one processor arbitrarily far ahead of another and any subset of sends completing early, no processor fails or waits for ever, no message is left over or delivered to the wrong statement, and at the end every view holds on every processor the value the same sequence has when run on one processor; no other cell of the views changes.", "quantifier": "all numbers of processors, all maps, extents and strides, all statement sequences and expressions, all initial contents, all schedules and all buffering behaviours of the transport", "why_tests_cant": "A test observes a few schedules of a few programs on a few processors; messages of one statement overtaking those of the next show up only under particular interleavings.", "anchors": ["src/ovxx/parallel/assign.hpp:Dispatcher", "src/ovxx/parallel/expr.hpp:Expression", "src/ovxx/parallel/assign_block_vector.hpp:Assignment", "src/ovxx/parallel/map_subset_block.hpp:map_subset_block", "src/ovxx/dda/persistent.hpp:Persistent_data"]}
{"id": "C63", "title": "The library is initialized exactly while a vsipl object exists", "statement": "The library is usable from the construction of the first vsipl object to the destruction of the last one, by every thread that holds one; nested and repeated objects and objects of other threads have no additional effect; the per-application parts are set up once and torn down once, nothing is released twice, and after the last object is gone every thread's allocator and communicator have been released, in every interleaving of the threads.", "quantifier": "all numbers of threads, all programs of creations, destructions and uses, all interleavings, with and without MPI, MPI initialized by the application or by the library", "why_tests_cant": "The counters are read outside the lock that protects their update; which thread sees itself as first or last depends on the interleaving, which a test does not control.", "anchors": ["src/ovxx/library.cpp:initialize,finalize", "src/ovxx/allocator.cpp:allocator::initialize,allocator::finalize", "src/ovxx/mpi/service.cpp:initialize,finalize", "src/vsip/initfin.hpp:vsipl"]}
{"id": "C64", "title": "Products give the same result with BLAS and without", "statement": "prod, gemp, outer and dot yield the mathematical product in the destination, and change nothing else, whether the library hands them to BLAS or uses its own loops, for every combination of row and column order of the operands and the result, and for transposed operands", "quantifier": "all sizes, storage orders, operand values, positions in memory, and both back ends", "why_tests_cant": "a test run uses one configuration of the library and a handful of layouts; the choice of the back end and of the leading dimensions depends on order, strides and sizes at run time", "anchors": ["src/ovxx/lapack/blas.hpp: Evaluator<op::outer/dot/prod/gemp, be::blas>", "src/ovxx/dispatcher/dispatcher.hpp", "src/vsip/impl/matvec.hpp: outer, dot, prod, gemp"]}
{"id": "C65", "title": "Linear solvers solve the given system", "statement": "llsqsol gives for every matrix of full column rank the least-squares solution (normal equations, and the residual of every other candidate is larger by the squared distance of the images); covsol solves A^H A X = B; a decomposed qrd object solves least-squares, covariance and triangular systems with one R and multiplies by one Q with A = Q R; lud solves op(A) X = B for every regular A and chold A X = B for every regular Hermitian A with either triangle. Only the result view changes, whatever the layouts of the operands, and the result may share storage with the right-hand side.", "quantifier": "all sizes, values, layouts, aliasing of result and right-hand side, transposition flags, storage choices, any number of solves after one decomposition", "why_tests_cant": "tests check a few random systems against residuals; the choice of flag, leading dimension and buffer shape must be right for every shape and every combination of side, transposition and storage", "anchors": ["src/ovxx/lapack/qr.hpp:qrd", "src/ovxx/lapack/lu.hpp:lud", "src/ovxx/lapack/cholesky.hpp:chold", "src/vsip/impl/solver/llsqsol.hpp:llsqsol", "src/vsip/impl/solver/covsol.hpp:covsol"]}
{"id": "C66", "title": "Serialization descriptors tell a reader where every element is", "statement": "The descriptor made from a block gives its element type, dimension, sizes, format and strides; a block type reported as compatible with the descriptor has the same element type and dimension, and once bound to the described memory finds every element exactly where the writer had it, inside the stated storage size.", "quantifier": "every element type with a code, every dimension 1 to 3, every dimension order of writer and reader, all sizes and strides, every previous content of the descriptor", "why_tests_cant": "a test serializes a few matrices of matching types; the property ranges over all pairs of types, orders, sizes and strides, including those that must be refused", "anchors": ["src/vsip/serialization.hpp: Descriptor, describe_data, describe_user_storage, is_compatible, impl::block_compatibility, impl::ordering_compatibility", "share/examples/dda/serialization.cpp", "src/ovxx/dda/accessor.hpp: storage_size"]}
{"id": "C67", "title": "Window functions give the defined, symmetric, normalized window", "statement": "For every length above one (and every beta) the Blackman, Hanning and Kaiser functions return a vector of that length with the value given by the window's formula at every index, symmetric, between zero and one, and with peak one for Kaiser windows of odd length; the Bessel function they use is accurate to the error its author states.", "quantifier": "all lengths above one, all real beta and all real arguments of the Bessel function, all indices", "why_tests_cant": "tests compare a few lengths and one beta with stored values; symmetry, range, termination of the series loop and its error hold for infinitely many real arguments", "anchors": ["src/ovxx/signal/window.cpp: blackman, hanning, kaiser, bessel_I_0", "src/vsip/impl/signal/window.hpp"]}
{"id": "C68", "title": "Chebyshev windows have the requested ripple", "statement": "For every length above one and every ripple, cheby returns a symmetric vector of that length with no negative value and the value one in the middle, whose spectrum follows the Chebyshev polynomial of degree one less than the length; no bin of the spectrum exceeds bin zero and every bin outside the main lobe is at least ripple decibels below it.", "quantifier": "all lengths above one, all real ripples, all indices and frequency bins", "why_tests_cant": "A test compares a few lengths with stored tables; the even and odd lengths, the branch on the argument's magnitude and the final normalization must be right for every length and ripple.", "anchors": ["src/ovxx/signal/window.cpp: cheby, acosh", "src/vsip/impl/signal/window.hpp: cheby"]}
{"id": "C69", "title": "Single elements of distributed views read and write like those of an array", "statement": "When every processor executes the same reads and writes of single elements (get, put, view(i), view(i) op= x) on distributed or replicated views, then however the processors interleave every processor gets exactly the values a single processor with ordinary arrays would get, each processor's part holds the final values, and no processor waits for ever.", "quantifier": "all maps of all blocks, all programs of element accesses (what is done next may depend on values read), all initial contents, all schedules, all numbers of processors", "why_tests_cant": "A test runs one program on a few processors with the interleaving that happens to occur; the claim is about every map, program and interleaving.", "anchors": ["src/ovxx/parallel/distributed_block.hpp: distributed_block::get, put, constructors", "src/ovxx/element_proxy.hpp: element_proxy", "src/ovxx/mpi/communicator.hpp: broadcast"]}
{"id": "C70", "title": "Singular value decomposition", "statement": "After svd::decompose(A, s) the vector s holds the singular values and A = U S V^H with unitary U and V; nothing but s is changed; whatever happens to the memory afterwards, u and v return the requested columns of U and V, and produ and prodv return op(U) b, b op(U), op(V) b and b op(V) for non-overlapping operands, with U and V cut down to the columns the object keeps; the by-value forms make results of exactly the size of the product; the object may be used again for other matrices; requests of a wrong size, or for columns that are not kept, are refused.", "quantifier": "every shape (tall, square, wide), every choice of what is kept of U and V, every matrix for which the LAPACK routines return what they are documented to return, every history of earlier decompositions, every operand, product side and operation", "why_tests_cant": "the buffers for U and V have four different shapes depending on storage choice and aspect ratio, and the product of the two unitary factors must be right for all of them and all matrices", "anchors": ["src/ovxx/lapack/svd.hpp: svd::svd, svd::decompose, svd::produ, svd::prodv, svd::u, svd::v, prod_uv", "src/vsip/impl/solver/svd.hpp: svd<T, by_reference>, svd<T, by_value>"]}
{"id": "C71", "title": "Transforms computed with FFTW", "statement": "With the FFTW backend, Fft and Fftm objects compute exactly the discrete Fourier transform (complex, real to complex along any dimension, complex to real, in place, or of every row or column of a matrix, also of the local rows of a distributed matrix), times the scale factor, for blocks of any layout; the input and all memory but the output and the object's own buffers keep their contents; arguments of wrong sizes are refused; the planning effort follows from the announced number of uses.", "quantifier": "all sizes whose arrays fit an int, up to three dimensions, all orders and strides of input and output blocks, blocks with and without direct access, interleaved and split complex arrays, all alignments, all element sizes, all values, every FFT library that keeps what FFTW's manual promises", "why_tests_cant": "whether data is copied, which plan flags are legal and which strides are planned depends on sizes, alignment, orders and strides of both blocks; tests try a few sizes with the default layout on one machine and one FFTW version", "anchors": ["src/ovxx/fftw/fft.cpp:make_flags,rigor,turn", "src/ovxx/fftw/fftw.cpp:planner,fft,fftm,query_layout,requires_copy,out_of_place,in_place", "src/ovxx/signal/fft/workspace.hpp:workspace", "src/ovxx/dda/accessor.hpp:is_compatible,Accessor", "src/ovxx/dda/block_copy.hpp:Rt_block_copy_to_ptr,Rt_block_copy_from_ptr", "src/ovxx/signal/fft.hpp:operator()"]}
{"id": "C72", "title": "Reductions of distributed views", "statement": "When every processor of a parallel program reduces a distributed view, or an elementwise expression of distributed views (sumval, sumsqval, meanval, meansqval, counts, alltrue, anytrue, maxval, minval, ... with their index), every processor gets the reduction of the whole view: the same value, and the same index, a single processor would get; no processor waits for ever, and the logical reductions, which stop early, stop at the same element everywhere.", "quantifier": "all maps of all blocks (any processors, any distribution), all sizes and dimension orders, all expressions, all contents, all interleavings of the processors, and whatever the program does afterwards", "why_tests_cant": "The communication pattern depends on the maps, the expression, the dimension order and, with early exit, on the data; a test fixes one of each and sees few interleavings", "anchors": ["src/ovxx/reductions/reductions.hpp:dispatcher", "src/ovxx/reductions/reductions.hpp:Evaluator", "src/ovxx/reductions/reductions_idx.hpp:generic_reduction", "src/ovxx/parallel/distributed_block.hpp:get", "src/ovxx/expr/binary.hpp:get"]}
{"id": "C73", "title": "Local access to distributed blocks", "statement": "When every processor of a parallel program accesses a distributed block through dda::Data, it gets a local copy of the whole block; when the access ends, what the processors left in their copies (the same on each) becomes the block's contents. Sequences of such accesses and of assignments, run by all processors, end with no processor waiting, no message left over and the contents a single processor with ordinary arrays would compute; the local copy lies in memory allocated for it.", "quantifier": "all numbers of processors, maps, sizes, strides, synchronization policies (in, out, inout), all work done on the local data, all sequences of assignments and accesses, all interleavings and message delays, every dense layout", "why_tests_cant": "each access is four collective assignments whose messages depend on the maps; later statements can meet messages of earlier ones in any order; tests see few maps and schedules and cannot see that nothing deadlocks", "anchors": ["src/ovxx/dda/accessor.hpp:remote_access", "src/ovxx/dda/accessor.hpp:assigner", "src/ovxx/parallel/assign_local.hpp:Assign_local,Assign_local_if"]}
{"id": "C74", "title": "Products computed by a C-VSIPL library", "statement": "In a configuration with a C-VSIPL library, prod, gemp, outer and dot give the mathematical result, change nothing else, and do so whichever of BLAS, C-VSIPL and the built-in code the operands' types and strides select, for every C-VSIPL library that does what the C-VSIPL standard says.", "quantifier": "all C-VSIPL libraries satisfying the standard's promises, all sizes, strides and dimension orders, all contents, interleaved and split complex storage, all combinations of available back ends", "why_tests_cant": "the result depends on an external library whose preconditions (views inside their block, blocks admitted) are not visible in results of one particular library; which back end runs depends on types and strides", "anchors": ["src/ovxx/cvsip/view.hpp:View,const_View", "src/ovxx/cvsip/block.hpp:block_traits", "src/ovxx/cvsip/matvec.hpp:Evaluator<op::dot/outer/prod/gemp, be::cvsip>", "src/ovxx/dispatcher/dispatcher.hpp:Dispatcher"]}
{"id": "C75", "title": "Convolution, correlation and FIR filters computed by a C-VSIPL library", "statement": "When OpenVSIP is configured to use a C-VSIPL library, a Convolution gives exactly the linear convolution for every symmetry, support and decimation although the library's last outputs may be wrong; a Correlation gives the (scaled) correlation; a FIR filter that saves its state delivers over any number of calls the same samples as filtering the concatenated input at once, one that does not starts afresh in each call, and reset() starts afresh. Only the output view changes.", "quantifier": "all kernels, symmetries, supports, decimations, input lengths, strides, contents of memory, numbers of calls, and all C-VSIPL libraries that do what the standard promises (with any values in the convolution outputs known to be wrong)", "why_tests_cant": "The library is replaceable; whether the fix-ups cover every wrong output for each combination of symmetry, support, decimation and length, and whether state carries over any sequence of calls, are statements about unbounded families", "anchors": ["src/ovxx/cvsip/conv.hpp: Convolution::convolve", "src/ovxx/cvsip/corr.hpp: Correlation::correlate", "src/ovxx/cvsip/fir.hpp: Fir::apply", "src/ovxx/cvsip/common.hpp: hint"]}
{"id": "C76", "title": "Fourier transforms computed by a C-VSIPL library", "statement": "When OpenVSIP is configured to use a C-VSIPL library, an Fft of a vector (complex, real to complex, complex to real; out of place and in place) and an Fftm of all rows or all columns of a matrix leave in the output exactly the scaled discrete Fourier transform of the input, for every length and scale factor, for interleaved and split complex data, and change nothing else.", "quantifier": "every library that behaves as the C-VSIPL standard says, every length, direction, scale factor, axis, data format, non-negative strides and contents", "why_tests_cant": "A test runs one library build with a few lengths; whether the views handed over satisfy the library's requirements depends on every length and stride, and libraries differ in what they check.", "anchors": ["src/ovxx/cvsip/fft.cpp: Fft, Fftm, fft_traits", "src/ovxx/cvsip/fft.hpp: Evaluator<op::fft>, Evaluator<op::fftm>", "src/ovxx/cvsip/view.hpp: View<1,T,true>", "src/ovxx/signal/fft.hpp: Fft, Fftm"]}
{"id": "C77", "title": "Results returned by value are evaluated before the destination is written, and once", "statement": "Assigning an expression that contains by-value transforms, nested in any way, stores what the expression meant before the assignment, even when the transforms' operands overlap the destination arbitrarily (v = fft(v)). The view returned by a by-value transform keeps its values from the first read on: later reads of it or of copies of it give the same transform whatever is written, freed or destroyed.", "quantifier": "all expression trees of memory views, scalars, elementwise operations of one to three operands, views of expressions and by-value operations; all index sets and loop orders, all memories, all overlaps of transform operands with the destination, all programs of reads, copies and outside changes", "why_tests_cant": "nested expressions, overlaps and histories of reads and writes are unbounded; a test uses one expression and reads it once", "anchors": ["src/ovxx/expr/unary.hpp:Unary", "src/ovxx/expr/evaluate.hpp:evaluate", "src/ovxx/expr/traversal.hpp:Traversal", "src/ovxx/assign/loop_fusion.hpp:loop_fusion", "src/ovxx/signal/fft/functor.hpp:fft::Functor", "src/ovxx/signal/fft.hpp:Fft"]}
{"id": "C78", "title": "One copy of the data", "statement": "A block whose data are used both by the host and by an OpenCL device behaves as if there were one copy of the data: every read (element get, const pointer, the user's array after release) shows the value last written, by whichever of element put, element reference, host pointer, kernel, admit or the user wrote it. Programs that do not touch the device always have this, whatever sequence of admit, release and rebind they run.", "quantifier": "every sequence of operations on a block, every user array (usable in place or not), every block size, every kernel", "why_tests_cant": "the faults need particular interleavings of host and device accesses with admit, release and rebind; tests on hardware without OpenCL run none of them", "anchors": ["src/ovxx/storage/manager.hpp:storage_manager", "src/ovxx/opencl/storage.hpp:storage", "src/ovxx/opencl/dda.hpp:accessor", "src/ovxx/storage/block.hpp:stored_block", "src/ovxx/strided.hpp:ref_factory"]}
{"id": "C79", "title": "Python subscripts name the elements Python's rules say they name", "statement": "For a Python vector or matrix, any chain of slices, rows, columns, diagonals and real or imaginary parts yields a view whose element i reads, writes and (as a NumPy array) shows exactly the storage element that the same slicing of a Python sequence would give; indices outside are refused; assigning a scalar or another view to a subscript changes exactly the named elements; a copy has the same elements in its own storage; constructors give the shape and fill value asked for.", "quantifier": "all sizes, all chains of slices with any start, stop and non-zero step, all integer subscripts, all memory contents", "why_tests_cant": "Slicing composes without bound and start, stop and step range over all integers; tests try a few slices of one small vector.", "anchors": ["python/src/vector.py __getitem__/__setitem__", "python/src/matrix.py __getitem__/__setitem__", "python/src/_block.py block", "python/src/block_api.hpp slice_to_domain, subblock1, subblock2, get_row, get_col, diag, assign", "src/ovxx/python/block.hpp Block"]}
{"id": "C80", "title": "Views and images survive a file", "statement": "A view written to an HDF5 file and read back, into a view of the same shape and any layout, has the same elements, whatever the program did in between without writing to that file; several views go into one file under different names; reading something that is not there or has another shape throws and changes nothing; a failure to write or to convert is reported. A matrix encoded as a PNG image has its pixels in the file row by row, and decoding the file into a matrix of the same shape gives them back.", "quantifier": "all views (dense, strided, transposed, sub-views, one to three dimensions), all value types, all sets of names, all other programs in between, all image shapes, depths and colour types", "why_tests_cant": "tests store one or two contiguous views and read them straight back; whether the layout of either side, or what happens in between, matters is a question about all of them", "anchors": ["src/ovxx/io/hdf5.hpp:dataset", "src/ovxx/io/hdf5.hpp:file", "src/ovxx/io/png.hpp:encoder", "src/ovxx/io/png.hpp:decoder"]}
{"id": "C81", "title": "OpenCL objects are released exactly once", "statement": "However a program creates, wraps, copies, assigns and destroys the library's OpenCL objects (buffers, contexts, queues, programs, kernels, devices), an OpenCL object exists as long as some C++ object refers to it, and no longer than some C++ object or the program itself does; no destructor throws. The default device, context and queue fit together and are the same at every call.", "quantifier": "every sequence of operations on any number of objects, with constructors that fail, self-assignment and references taken and given up through the C interface; every list of platforms and devices", "why_tests_cant": "a missing or extra reference shows only after a particular history, as a leak or as a use of freed memory in a driver; tests run on one platform", "anchors": ["src/ovxx/opencl/memory_object.hpp:memory_object", "src/ovxx/opencl/buffer.hpp:buffer", "src/ovxx/opencl/context.hpp:context", "src/ovxx/opencl/command_queue.hpp:command_queue", "src/ovxx/opencl/program.hpp:program", "src/ovxx/opencl/kernel.hpp:kernel", "src/ovxx/opencl/device.hpp:device", "src/ovxx/opencl/device.cpp:default_device", "src/ovxx/opencl/context.cpp:default_context", "src/ovxx/opencl/command_queue.cpp:default_queue"]}
{"id": "C82", "title": "Python functions reach the C++ function with their arguments in the declared roles", "statement": "Every function, class and method the Python modules offer calls the C++ function it is named after, exactly once, with each argument in the role that the C++ signature gives it, allocates its result with the right type and shape, returns that result, and turns a refusal of the C++ function into an exception; on arguments of types that are not supported it raises an exception before calling anything.", "quantifier": "all element types, shapes, argument values and enumeration values, all sets of extension modules already loaded, and all answers (including exceptions) of the C++ functions called", "why_tests_cant": "tests call each function for one or two types and shapes after having imported everything; whether an argument lands in the right parameter, and which overload of an extension module is selected, depends on the dynamic types of all arguments and on which modules have been loaded before", "anchors": ["python/src/_import.py:import_module", "python/src/_block.py:block,subblock", "python/src/vector.py:vector", "python/src/matrix.py:matrix", "python/src/math/elementwise.py", "python/src/math/reductions.py", "python/src/math/matvec.py", "python/src/math/solvers/qrd.py:qrd", "python/src/math/solvers/svd.py:svd", "python/src/math/solvers/lud.py:lud", "python/src/math/solvers/chold.py:chold", "python/src/math/solvers/llsqsol.py", "python/src/signal/fft.py:fft", "python/src/signal/fftm.py:fftm", "python/src/signal/fir.py:fir", "python/src/signal/conv.py:conv", "python/src/signal/corr.py:corr", "python/src/signal/iir.py:iir", "python/src/signal/window.py", "python/src/selgen/clip.py", "python/src/random.py:rand"]}
{"id": "C83", "title": "The transpose of a distributed matrix keeps every element where it is", "statement": "For a matrix distributed by any map, the transposed view reports for every element the subblock, patch, processor and local position at which the element of the matrix really is, its local view is the transpose of the local part, and foreach_point on the transpose visits every local element exactly once with the right global index; transposing twice gives the original placement back.", "quantifier": "every combination of whole, block and cyclic distributions in both dimensions, every number of processors, every matrix size, every element, patch and processor, every function given to foreach_point", "why_tests_cant": "the number of maps, sizes and elements is unbounded, and a test on one machine sees one processor's share of one layout", "anchors": ["src/ovxx/parallel/transpose_map_decl.hpp:transpose_map", "src/ovxx/expr/transposed.hpp:Transposed, get_local_block", "src/ovxx/parallel/util.hpp:foreach_point", "src/ovxx/parallel/support.hpp:block_subblock_from_global_index", "src/ovxx/expr/permuted.hpp:Permuted::map", "src/ovxx/expr/diag.hpp:Diag::map"]}
{"id": "C84", "title": "Process groups, communicators and reductions across processes", "statement": "In every group made with include, exclude and the set operators each rank below size() belongs to exactly one process, and the members and their order are the documented ones; translate_ranks gives each process's rank in the other group; a communicator made from a group or by split has the processes of the group or colour, ordered by key and old rank, and the library numbers the processors 0..n-1 consistently with it; allreduce gives sum, minimum, maximum, all-true and any-true of the values of all processes; an MPI communicator the library owns is freed exactly once, never while an object uses it and never after MPI_Finalize; and several threads may use the element types.", "quantifier": "every number of processes, every sequence of group operations, every choice of colours and keys, every list of values, every history of making, copying, assigning and destroying communicators, every interleaving of threads", "why_tests_cant": "Tests run with a few processes, one split and one schedule; the empty sequence of ranks, the default communicator, complex sums and first use by two threads are not exercised.", "anchors": ["src/ovxx/mpi/group.hpp:Group::include, exclude, translate_ranks", "src/ovxx/mpi/group.cpp:Group", "src/ovxx/mpi/communicator.hpp:Communicator::split, allreduce, operator==", "src/ovxx/mpi/communicator.cpp:Communicator", "src/ovxx/mpi/datatype.hpp:Datatype", "src/ovxx/mpi/service.cpp:num_processors, local_processor_index"]}
{"id": "C85", "title": "The text written for a view, domain or index tells what it is", "statement": "Writing a vector, matrix, domain, index or length to a stream appends a text from which sizes and elements can be read back: two views or domains with the same text are the same; line i of a vector's text is the index i, a colon and element i, and line r of a matrix's text holds the elements of row r in order.", "quantifier": "every vector, matrix and tensor of every size, every domain, index and length of every dimension, every element type whose text tells the element, every stream contents before", "why_tests_cant": "ambiguity of a text concerns all pairs of views; a test compares a few texts, and no test writes a tensor", "anchors": ["src/ovxx/output.hpp:operator<<(ostream, Domain), operator<<(ostream, Index), operator<<(ostream, Length), operator<<(ostream, const_Vector), operator<<(ostream, const_Matrix), operator<<(ostream, const_Tensor)"]}
{"id": "C86", "title": "Comparing values and views up to rounding", "statement": "equal(a, b) does not depend on the order of the operands, is true of a number and itself, and for floating-point numbers means a difference below 1e-6 or a relative difference of at most 1e-4; for integers it means the same number; two views are equal exactly if their sizes are the same and all elements are equal.", "quantifier": "every pair of floats, doubles, rationals and integers including infinities, NaNs and mixed types, every pair of vectors, matrices and tensors of any sizes", "why_tests_cant": "the pairs of numbers cannot be enumerated, and the tests use the function to judge results instead of testing it", "anchors": ["src/ovxx/equal.hpp:almost_equal, equal", "src/vsip/impl/promotion.hpp:Promotion"]}
{"id": "C87", "title": "Iterating over the processors of a map and over vectors", "statement": "The loop from processor_begin(sb) to processor_end(sb) ends and visits exactly the processors that hold subblock sb, each once and in order, and processor_has_block answers accordingly; steps of an iterator forward and back cancel and add up, the iterator n steps from the beginning is on element n, and the difference of two iterators is the number of steps between them.", "quantifier": "every processor number and every list of processors, every iterator position, every number of steps", "why_tests_cant": "termination and wrap-around concern all processor numbers and positions; tests run on a few processors and never subtract iterators", "anchors": ["src/ovxx/value_iterator.hpp:value_iterator", "src/ovxx/vector_iterator.hpp:vector_iterator", "src/ovxx/parallel/map_traits.hpp:processor_has_block", "src/vsip/impl/replicated_map.hpp:processor_begin, processor_end", "src/ovxx/parallel/scalar_map.hpp:processor_begin", "src/vsip/map.hpp:processor_begin, processor_end"]}
{"id": "C88", "title": "Timers measure the time that passed", "statement": "For every sequence of restart() and elapsed() calls on a timer, restart() gives the present time, elapsed() gives the seconds since the last restart() or the construction, to the nanosecond and never negative while the clock does not go back, and two elapsed times without a restart between them differ by the time between the calls; with the processor's counter as clock the rate is the one the system states.", "quantifier": "all sequences of calls and all clock readings within 285 years; all contents of the processor description", "why_tests_cant": "A test can only bracket an interval it does not control, on one machine, shortly after that machine started; precision lost with uptime, or a wrong rate, does not show.", "anchors": ["src/ovxx/timer.hpp:timer::elapsed", "src/ovxx/timer.hpp:timer::restart", "src/ovxx/chrono.hpp:high_resolution_clock::now", "src/ovxx/chrono.cpp:read_clock_rate"]}
{"id": "C89", "title": "WAV files written are read back, and well-formed ones are read right", "statement": "For every number of channels, samples and bytes per sample a WAV file can hold, the decoder of the audio examples gets back from the file the encoder wrote the same format information and the same bytes; it reads every PCM or float file whatever other chunks surround the data, refuses what does not begin as a WAV file, never writes past a buffer of the size it reported, and always returns.", "quantifier": "all format information, data and other chunks; all files", "why_tests_cant": "Tests write and read back one short file; sizes that are not a whole number of samples, cut files, padded chunks and long format chunks are inputs from elsewhere.", "anchors": ["share/examples/audio/wav.hpp:wav::Decoder", "share/examples/audio/wav.hpp:wav::Encoder"]}
{"id": "C90", "title": "HDF5 identifiers are closed exactly once", "statement": "A program that opens, creates, reads, writes, queries and destroys HDF5 files and datasets closes every identifier of the library exactly once: while objects live, the ones they use are open, no call uses or closes an identifier that is not open, and when all objects are gone nothing is left open. It fails for copies and assignments of datasets, complex value types, has_value_type(), failed creations, and query_extent<D>() of datasets with more than D dimensions.", "quantifier": "every sequence of operations on any number of files and datasets, with any outcome of opening them", "why_tests_cant": "Leaks and double closes are silent at run time and depend on the whole history of copies, exceptions and destructions.", "anchors": ["src/ovxx/io/hdf5.hpp:dataset", "src/ovxx/io/hdf5.hpp:file"]}
{"id": "C91", "title": "Python blocks and arrays do not outlive their memory", "statement": "Elements of a Python vector or matrix, of its parts, and of the NumPy arrays made of it, are in memory that has not been given back, in whatever order the objects go; and the memory is given back exactly once, when the last block that shares it is gone. For arrays it holds only if no block goes before the arrays made of it.", "quantifier": "every sequence of making blocks, parts and arrays, taking and dropping references, and reading or writing elements", "why_tests_cant": "Use after free shows only for particular orders of destruction, and often not even then.", "anchors": ["python/src/block_api.hpp:make_array", "python/src/block_api.hpp:array_backref", "src/ovxx/python/block.hpp:Block"]}
{"id": "C92", "title": "Pointers with a run-time format name the data they were made from", "statement": "A pointer to complex data whose storage format is known only at run time gives back, after any sequence of conversions to const and back, a pointer of every format that fits the data, naming the same elements; asking for a format that does not fit is refused, never answered with a pointer to something else; it tests true exactly when it is not null.", "quantifier": "all addresses, all formats, all sequences of conversions", "why_tests_cant": "Conversions compose in any order and a wrong format only shows in the data read through it.", "anchors": ["src/ovxx/pointer.hpp: pointer, const_pointer, const_cast_, pointer_cast, is_aligned_to", "src/ovxx/storage/traits.hpp: detail::storage_cast"]}
{"id": "C93", "title": "Solver objects can be reused, copied and destroyed independently", "statement": "A lud, chold or qrd object solves the systems of the last matrix decomposed into it, however often it was decomposed before; a copy solves those of the matrix its original had when it was copied, even after the original is decomposed anew or destroyed and after the matrix itself is overwritten. An object can be decomposed again, copied and destroyed at any time; its storage is freed exactly once and nothing is left when all objects are gone. Assignment between objects of the same size behaves like a copy.", "quantifier": "Every program creating, copying, assigning, decomposing, using and destroying any number of solver objects in any order, all matrices, right-hand sides and sizes", "why_tests_cant": "Tests decompose once and solve once; whether storage is shared or freed twice depends on the history of all objects, which is unbounded", "anchors": ["src/ovxx/lapack/lu.hpp: lud", "src/ovxx/lapack/cholesky.hpp: chold", "src/ovxx/lapack/qr.hpp: qrd", "src/vsip/impl/solver/lu.hpp", "src/vsip/impl/solver/cholesky.hpp", "src/vsip/impl/solver/qr.hpp"]}
{"id": "C94", "title": "Upsample-filter-downsample, decimating filters and polyphase filters resample alike", "statement": "Changing the sample rate of a signal by P/Q gives the same samples, namely every Q-th sample of the zero-stuffed signal filtered with h, whether the zero-stuffed vector is filtered and then subscripted, filtered by a filter with decimation Q, or computed by P filters that each take every P-th coefficient and write every P-th element of the output.", "quantifier": "All rates P and Q, all signal and filter lengths the library accepts, all signals, coefficients and previous contents of the vectors", "why_tests_cant": "The example program tests one signal with P = 5 and Q = 3; the lengths, rates and phases are unbounded", "anchors": ["share/examples/dsp/resample.cpp: main", "src/ovxx/signal/fir.hpp: Fir", "src/vsip/impl/signal/fir.hpp: Fir::operator()", "src/vsip/vector.hpp: subview assignment"]}
{"id": "C95", "title": "Filter objects can be copied, assigned, reset and destroyed independently", "statement": "A copy of a Fir or Iir filter goes on from the state the original had when it was copied or assigned; afterwards calls, resets and the destruction of one never affect the other. Each call returns the output of the filter for the whole signal its variable stands for. When all filters are destroyed, so is all their storage.", "quantifier": "All programs that construct, copy, assign (to themselves too), call, reset and destroy any number of filters of one type, with and without state saving, for all kernels, coefficients, block sizes and signals", "why_tests_cant": "Tests copy one filter once; sharing of state between copies shows only in particular orders of calls, copies and resets, and the orders are unbounded", "anchors": ["src/vsip/impl/signal/fir.hpp: Fir(Fir const &), operator=, operator(), reset", "src/ovxx/signal/fir.hpp: Fir::clone, apply, reset", "src/vsip/impl/signal/iir.hpp: Iir"]}
{"id": "C96", "title": "Functions with settings in distributed expressions", "statement": "Assigning an expression that applies clip or invclip, alone or inside a larger expression, to a distributed view gives on every processor the elements that the same statement gives on undistributed views, whatever the maps, the order in which processors run and the previous contents of memory; in particular the thresholds and clip values given in the call are those that are applied.", "quantifier": "All programs of distributed assignments, maps, settings, schedules and memory contents", "why_tests_cant": "The result depends on uninitialised memory on each processor, and selgen is tested on undistributed views only", "anchors": ["src/vsip/selgen.hpp clip invclip", "src/ovxx/expr/unary.hpp get_local_block", "src/ovxx/expr/transform.hpp combine", "src/ovxx/parallel/assign.hpp", "src/ovxx/parallel/expr.hpp Expression"]}
{"id": "C97", "title": "Products of distributed matrices by vectors", "statement": "Assigning vmmul<0>(v, m) or vmmul<1>(v, m) to a distributed matrix either throws or leaves on every processor the products of its own elements of m by the right elements of v; it does not throw when the vector is replicated on all processors and the matrix is not divided along it, or when the vector is mapped like the first row (column) of a matrix that is not divided across it.", "quantifier": "All maps of the matrix and the vector, sizes, element values and both directions", "why_tests_cant": "Tests use a few maps on one number of processors", "anchors": ["src/ovxx/expr/vmmul.hpp:has_same_map", "src/ovxx/expr/vmmul.hpp:get_local_block", "src/ovxx/parallel/assign.hpp:assign", "src/vsip/impl/map_fwd.hpp:map_project_1"]}
{"id": "C98", "title": "The life of histograms and of their results", "statement": "A vector returned by a histogram contains the counts of the call that returned it for as long as it exists, also after later calls and the end of the histogram; copies and assigned histograms start from the counts of the original and are independent of it afterwards; when all histograms and results are gone, so is their storage.", "quantifier": "All programs that construct, copy, assign, call and end any number of histograms and keep, copy and read their results, all ranges, numbers of bins and samples", "why_tests_cant": "A test reads each result at once and never copies a histogram", "anchors": ["src/vsip/impl/signal/histo.hpp:Histogram", "src/vsip/impl/vector.hpp:Vector::operator="]}
{"id": "C99", "title": "Transforms of the rows or columns of distributed matrices by value", "statement": "out = fftm(in) on distributed matrices gives, on every processor, the points of the transforms of the whole lines, or an exception: it never transforms pieces of lines and never writes outside a processor's part of the output.", "quantifier": "all maps of both matrices, processor vectors, sizes, directions, and complex-to-complex, real-to-complex and complex-to-real transforms", "why_tests_cant": "The parallel tests use maps that divide across the transforms on a few processors; the outcome depends on the distribution of both matrices.", "anchors": ["src/ovxx/signal/fft.hpp:fftm_facade::operator()", "src/ovxx/signal/fft/functor.hpp:Functor::local", "src/ovxx/signal/fft/workspace.hpp:workspace<2>::out_of_place", "src/ovxx/parallel/assign.hpp"]}
{"id": "C100", "title": "Distributed blocks from Python", "statement": "vsip.parallel.block makes a distributed vector or matrix of the given type, shape and map, filled with the value if one is given, from an array if one is given, and reports a request it cannot serve; subblock makes a part of one.", "quantifier": "all element types and their Python names, shapes, values, maps, arrays and slices, and every behaviour of the C++ functions called", "why_tests_cant": "There are no tests of the parallel Python modules; which C++ overload is called depends on the types and values of the arguments.", "anchors": ["python/src/parallel/block.py:block,subblock", "python/src/parallel/block_api.hpp:define_distributed_block", "python/src/block_api.hpp:traits", "python/src/parallel/block_cd.cpp", "python/src/_import.py:import_module"]}
{"id": "C101", "title": "Polar conversion of views", "statement": "recttopolar(z, rho, theta) gives every element of rho and theta the modulus and argument that the element of z had before the call, and w = polartorect(rho, theta) and w = cmplx(re, im) give every element of w the value of the element function; nothing else in memory changes; both work in place on the real and imaginary parts of the same vector; converting to polar and back restores the elements; results of another length are diagnosed.", "quantifier": "all lengths and shapes of one and two dimensions, storage formats, offsets and strides, overlaps at the same index, memory contents, scalar functions", "why_tests_cant": "A test converts three separate vectors of one element value; overlap of the results with the data at every index, and every stride and format, cannot be enumerated", "anchors": ["src/vsip/complex.hpp: recttopolar, polartorect, cmplx", "src/ovxx/assign/loop_fusion.hpp: loop_fusion::exec"]}
{"id": "C102", "title": "Constant false alarm rate detection", "statement": "Given a radar data cube of beams, doppler bins and range gates, more than twice as long in range as the cells compared, each version of the CFAR kernel (slice by slice, vector by vector, four vectors at a time) reports for every range gate exactly the beams and bins whose power exceeds the threshold times the mean power of up to c cells on either side beyond g guard cells, in order; and the versions report the same targets.", "quantifier": "every cube, extents, number of CFAR gates and guard cells, threshold test", "why_tests_cant": "The running sum is updated by one of six cases per gate, so an error shows only for data whose power lies between two means at the boundary gates; tests place thirty strong targets at random.", "anchors": ["benchmarks/hpec_kernel/cfar.cpp:cfar_detect", "src/vsip/selgen.hpp:indexbool", "benchmarks/hpec_kernel/cfar_c.cpp:t_cfar_by_vector_c"]}
{"id": "C103", "title": "Banks of FIR filters", "statement": "A bank of M filters applied to M input rows gives, in row i, the convolution of input row i with the coefficients in row i of the filters, however it is computed: by Fir objects from zero history, by Fourier transforms row by row, or by one expression of transforms of whole matrices; the forms by transforms agree with the Fir objects wherever all the coefficients meet samples of the row.", "quantifier": "every number of rows, length, coefficients, inputs, number of repetitions", "why_tests_cant": "The equality of a filter with a product of spectra is an algebraic identity over all data; the benchmark puts data into the first row only, which hides an error in the choice of the row.", "anchors": ["benchmarks/hpec_kernel/firbank.cpp:t_firbank_base::firbank", "src/vsip/impl/signal/fir.hpp", "src/ovxx/signal/fft.hpp"]}
{"id": "C104", "title": "Fast convolution of radar pulses", "statement": "Every version of fast convolution (in phases or pulse by pulse, in place or through a temporary, as one expression, with one replica or one for each pulse) turns each pulse into its circular convolution with the signal whose spectrum is the replica, once for every repetition, whatever was in the temporary; the check of the results tells a right version from a wrong one", "quantifier": "all numbers and lengths of pulses, all data, all replicas, all numbers of repetitions, all versions", "why_tests_cant": "the benchmark checks some versions only, and those with a unit impulse, with which the product that makes the convolution has no effect", "anchors": ["benchmarks/fastconv.cpp:t_fastconv_base", "benchmarks/fastconv.cpp:Fast_convolution"]}
