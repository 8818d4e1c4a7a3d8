# Formal model of OpenVSIP in Coq

Source: `/repo` (OpenVSIP, C++).  All line numbers in the comments refer to that tree.

## Conventions

* Coq 8.16.1, standard library only (no other library is imported).
* `theories/*.v`: one area per group of files.  `<Area>.v` holds the model (each definition cites the source lines),
  `<Area>Spec.v` the independent specification when it is more than a line, `<Area>Proofs.v` the lemmas,
  `<Area>Props.v` only the property theorems, their non-vacuity examples and `Print Assumptions`.
* Undefined behaviour (out-of-bounds access, violated `OVXX_PRECONDITION`, division by zero) is a distinct outcome
  (`None`), never a default value.
* Sizes and indices are unbounded except where the source relies on unsigned wrap-around; there `mod 2^64`
  (or `2^32`) is written out.
* Element values: an arbitrary commutative ring / field (a record passed as an argument, so every theorem says so), i.e. exact
  arithmetic.  Floating-point rounding is not modelled.
* C++ templates are modelled at the level of the function bodies; overload resolution, dispatch between back ends
  (except that between the generic products and BLAS, Blas.v) and the compiler are not modelled.

## Plan per property
* **C01 Domain equality means same index set** — `Domain.v`: wrap-64 arithmetic model of Domain<1>; set of indices as a membership predicate; soundness for all, completeness for length>=2, refutation for length <= 1.
* **C02 Domain arithmetic translates every index** — `Domain.v`: pointwise law on impl_nth, modulo 2^64 written out.
* **C03 Intersecting two domains yields exactly the common indices** — `Domain.v`: intersect transcribed with unsigned wrap; iff with set membership, order and no duplicates; lift to 2-/3-D; refutations outside the precondition.
* **C04 Intersections translate to local coordinates without losing elements** — `Domain.v`: position-wise correspondence lemma.
* **C05 Index traversal visits every element exactly once in storage order** — `Traversal.v`: next/valid as a fuelled loop; visited list equals the lexicographic enumeration; fuel never exhausted.
* **C06 Layouts give every element its own cell inside the allocation** — `Layout.v`: all Applied_layout specialisations; injectivity, range, dense surjectivity; refutation for the 2-D column-major aligned two-argument constructor.
* **C07 Aligned layouts align every row and cost at most one alignment unit per row** — `Layout.v`: divisibility and padding bound.
* **C08 Offsets are the dot product of index and reported strides** — `Layout.v`: index = sum idx*stride.
* **C09 A block distribution partitions the index range** — `Dist.v`: segment_* functions and Block_dist methods; partition theorems.
* **C10 A block-cyclic distribution partitions the index range** — `Dist.v`: Cyclic_dist methods; partition theorems with patches.
* **C11 Distributions are balanced** — `Dist.v`: size bounds.
* **C12 A multi-dimensional map gives every element exactly one home** — `Map.v`: product of distributions, split_tuple.
* **C13 Each subblock has exactly one owner set and each processor at most one subblock** — `Map.v`: processor lists.
* **C14 Maps that compare equal place every element identically** — `Map.v`: equality guards imply same placement.
* **C15 Parallel assignment moves every element to its place** — `ParAssign.v`: send/recv/copy lists computed per processor, messages as lists, memory per processor; any arrival order.
* **C16 Sender and receiver agree on every message** — `ParAssign.v`: list equality of packed/unpacked global indices.
* **C17 Gathering and scattering through a copy chain preserves data** — `CopyChain.v`: chains flattened to address lists; copy_into transcribed with fuel.
* **C18 Local patches and points are iterated exactly once** — `Map.v`: enumeration of patches/points.
* **C19 Sub-views read and write exactly the elements they name** — `Views.v`: view blocks as get/put on an abstract parent block.
* **C20 Direct pointers into sub-views address the same elements as get and put** — `Views.v`: address functions.
* **C21 The diagonal view contains exactly the elements of that diagonal** — `Views.v`: Diag::size with unsigned arithmetic.
* **C22 Real and imaginary component views are independent** — `Views.v`: component blocks over three storage formats.
* **C23 Complex storage formats hold the same values** — `Storage.v`: three formats as address maps over a scalar memory.
* **C24 Admit and release transfer user data faithfully** — `Storage.v`: storage_manager as a state machine; histories as op lists.
* **C25 Direct data access honours its synchronisation policy** — `Dda.v`: accessor life cycle as a state machine.
* **C26 A direct pointer is handed out only if the memory really has the requested layout** — `Dda.v`: is_compatible transcribed; strides compared with the layout.
* **C27 Blocks live exactly as long as something refers to them** — `Refcount.v`: count automaton with interleavings of pointer operations.
* **C28 Reductions compute their mathematical definition** — `Reduce.v`: functors and loops over an arbitrary commutative ring; chunked branch with raw memory and stride; refutations.
* **C29 Logical reductions equal the bitwise fold despite early exit** — `Reduce.v`: early exit loops.
* **C30 Extremum searches return the extreme value and its first position** — `Reduce.v`: loops with comparison over a total order.
* **C31 Selection functions find exactly the selected elements** — `Selgen.v`: list-based blocks with bounds.
* **C32 Clipping, ramps and swap follow their definition** — `Selgen.v`: pointwise.
* **C33 FIR filtering in pieces equals filtering at once** — `Fir.v`: apply transcribed with bounds-checked reads; streaming theorem by invariant over the call history.
* **C34 FIR output length bookkeeping** — `Fir.v`: counts.
* **C35 Symmetric kernels are unfolded to the full kernel** — `Fir.v, Conv.v`: kernel unpacking.
* **C36 IIR filtering in pieces equals filtering at once** — `Iir.v`: cascade.
* **C37 Convolution computes the requested region of the mathematical convolution** — `Conv.v`: loops over partial memory (unmapped address = undefined behaviour).
* **C38 Same-support convolution may be computed as interior plus edges** — `Conv.v`: coverage and equality.
* **C39 Correlation computes the mathematical correlation with the right scaling** — `Corr.v`: as C37.
* **C40 Histograms count every sample exactly once** — `Histo.v`: bins over rationals (exact model of float sample types) and over Z with C integer division (integer sample types, refuted).
* **C41 Frequency swap exchanges the halves** — `Freqswap.v`: loops transcribed.
* **C42 Parallel random generators are disjoint pieces of one sequence** — `Random.v`: LCG mod 2^32 with jump-ahead.
* **C43 Uniform random numbers stay in range** — `Random.v`: exact range.
* **C44 Matrix and vector products compute the linear-algebra definition** — `Matvec.v`, `Prod34.v`: loops over an arbitrary commutative ring with involution; mismatched shapes.
* **C45 The Toeplitz solver solves the system** — `Toep.v`: Levinson recursion over an arbitrary field with involution.
* **C46 The run-time description of a block's layout matches the block** — `Layout.v`: `Rt_layout` against the compile-time classes; refuted for element sizes other than one byte.
* **C47 A random view is consumed in order** — `Random.v`: element order of `randu`/`randn` fills.
* **C48 Modulation can be done frame by frame** — `Matvec.v`: phase argument carried between frames.
* **C49 The size of a domain is the number of its indices** — `Domain.v`: product of lengths against the list of indices.
* **C50–C53 Fourier transforms** — `Dft.v`, `DftMulti.v`, `DftThree.v`, `DftReals.v`: the generic back end over a commutative ring with roots of unity (and over Coq's reals for the actual sine and cosine); the one-dimensional front end with its size checks.
* **C54 Assigning one block to another copies every element** — `Copy.v`: every branch of the copy evaluator over a partial memory; refuted for row-major from column-major with non-unit strides.
* **C55 Assigning an expression evaluates it as if all operands were read first** — `Expr.v`: expression trees with caches of non-elementwise nodes, `evaluate`, the nine loop orders of loop fusion; invariant over the visited indices.
* **C56 Operators, sizes, compound assignment and vmmul** — `Expr.v`: operator fusion, `size`, `+=` and friends, the vmmul evaluator; refuted for scalars passed by reference to an element of the destination.
* **C57 Sub-views of distributed views keep every element where it is** — `SubMap.v`: the subset_map constructor over any parent (list of subblocks), impl_local_from_global_domain, local block of Subset; from C03, C04 and C12; refuted for negative strides and empty sub-domains.
* **C58 Slices of distributed matrices and tensors keep every element where it is** — `SubMap.v`: the eight projections written out; placement equivalence with the parent.
* **C59 Memory handed out by the pool allocator belongs to one caller** — `Pool.v`: allocate and deallocate over a word memory with the free list inside it; invariant over histories (free list = maximal unused runs).
* **C60 Aligned arrays are aligned, large enough and freed exactly once** — `Aligned.v`: pointer arithmetic of alloc_align on 64-bit words; ownership machine over named objects and a heap.
* **C61 Elementwise scalar functions** — C++ integer types, conversions and the usual arithmetic conversions as total functions on Z; each scalar function as written; exactness by congruence modulo powers of two.
* **C62 Programs of distributed statements** — all processors run the compiled form of the same statement list (local, block-vector, chained or reorganized assignment); a diamond lemma for the step relation reduces every schedule to one, which is run statement by statement using the delivery theorem C15.
* **C63 Library lifetime** — interleaving model of the counters, the per-thread allocator and communicator and the MPI service; invariant over all interleavings (each thread's share of the counter), termination measure, and witnesses for the races.
* **C64 Products through BLAS** — model the BLAS evaluators (run-time validity tests, leading dimensions, transposition flags) over a reference model of xGEMM, xGEMV, xGER and xDOT on a flat memory, and the dispatch between them and the generic evaluators; prove both give the product and change only the destination.
* **C65 Linear solvers** — model the LAPACK wrappers qrd, lud, chold and llsqsol/covsol over column-major buffers with explicit leading dimensions and flags; triangular solves by substitution; factorizations by contract; prove the solved equations by matrix algebra and triangular-solve correctness.
* **C66 Serialization descriptors** — model the type codes, the compatibility tests and the functions that fill a descriptor; prove that a compatible dense reader finds every element where the descriptor places it, by cases on dimension and order; refute the untested cases by witnesses.
* **C67 Window functions** — model the window functions over Coq's real numbers with fuelled loops; prove formulas, symmetry and range by trigonometry; for the Bessel series prove termination and the error by a ratio bound on the tail; refute the accuracy claim of the polynomial branch.
* **C68 Chebyshev window** — model the function over Coq's real numbers with the transform as its defining sum; prove by the addition theorems that it samples the Chebyshev polynomial, by a cone of non-negative cosine sums that no value is negative, and the ripple by inverting the transform.
* **C69 Elements of distributed views** — model get and put with the broadcast as posted and matched messages, processors stepping in any order; prove by an invariant that relates each processor to a point of the sequential program that every schedule gives its results and some processor can always go on.
* **C70 Singular value decomposition** — model of lapack::svd with abstract gebrd/gbr/bdsqr given by contracts; U = Q diag(Qb, I), V = P diag(Pb, I); unitarity of products; buffers tracked for the three storage choices and both aspect ratios; products through the matrix-product lemmas of C44.
* **C71 Transforms computed with FFTW** — Model the planner (dimensions, strides, flags, buffer sizes), the backend objects (query_layout, requires_copy, in and out of place, row loop), the workspace and the run-time data access it uses; FFTW is any function meeting its manual's promise. Prove that the output holds the sums, in the user's index order, for every layout.
* **C72 Reductions of distributed views** — the generic reduction loops of `reductions.hpp`/`reductions_idx.hpp` as programs of the processors (`PReduce.v`), each element read being that of C69's distributed block; expressions are trees of blocks, scalars and functions. Each loop is shown, by induction, to go on with what the serial loop of C28–C30 computes and to stay within the blocks; C69 then gives every interleaving.
* **C73 Local access to distributed blocks** — `remote_access` and `assign_local` compiled to the actions of C62 (`Remote.v`), with one more action for the work done through the pointer; an invariant over the item list (every block still holds the serial contents) gives the program theorem, C62's diamond lemma all schedules. The size of the local allocation is compared with C06's layouts.
* **C74 Products computed by a C-VSIPL library** — the views put over the data, each evaluator and the three-way choice of back end; the library is any implementation of a record of the standard's promises, one instance shows that they can be met.
* **C75 Convolution, correlation and FIR filters computed by a C-VSIPL library** — constructors, the calls and the recomputation of outputs; the library is any implementation of a record of the standard's promises in which the outputs known to be wrong are unconstrained; induction over the recomputed outputs and over the calls of a filter.
* **C76 Fourier transforms through C-VSIPL** — model the views bound by fft.cpp and any library keeping the standard's promises on them (a record), over the memory and mathematical transform of Dft.v; prove with a loop lemma for computations that keep an invariant (the temporary vector of the library).
* **C77 By-value results as delayed expressions** — expression trees with delayed nodes whose caches live in a store; get, evaluate, assignment loop, copies and local views of the code against a denotation that takes every operand from the old memory; induction over the tree with an invariant saying that existing caches hold the denotation and that reading one element fills all outermost caches (Lazy.v)
* **C78 One copy of the data** — model the storage manager of an OpenCL configuration (two copies, two validity flags) with every operation of the block interface; specification with a single copy; simulation by an invariant over all operation sequences. Counterexamples: element references, admit, release, rebind, kept buffers.
* **C79 Python vectors and matrices** — views are offset, strides and sizes in 64-bit arithmetic as in block_api.hpp; the specification is Python's own slicing of a list of positions; proved by induction over the chain of slices.
* **C80 Files** — the accesses are those of the direct-data-access model with the row-major dense layout; a lemma turns linear accesses from the pointer into indexed ones; the disk is a map from names to datasets, and the round trip is an invariant of all programs that do not open the file for writing.
* **C81 OpenCL handles** — a program is any list of operations on named objects; the invariant counts the objects that refer to each handle; faults are classified by the step that causes them.
* **C82 Python calls** — an interpreter for the Python subset the modules are written in, with Boost.Python overload selection by dynamic type, runs the modules' own syntax trees (`PyProg.v`); the C++ functions are an arbitrary `world` that answers, refuses or throws. Each theorem states the list of C++ calls with named arguments and the value or exception that results; proved by running the interpreter on symbolic arguments and following every path.
* **C83 Transposes of distributed matrices** — the map interface as a record; `transpose_map` as a function on it; refinement to the placement of the underlying map; counted/by-value block lifetimes as a small heap.
* **C84 Process groups, communicators and reductions across processes** — MPI groups as lists of processes with the documented MPI functions, Group and Communicator objects over them, split as a stable sort by key, allreduce with MPI's table of operations and types, a machine for shared ownership of communicators (freed once, by an invariant over histories), and threads racing on the static datatype.
* **C85 The text written for a view, domain or index tells what it is** — model the stream as the text written so far and every operator<< as it appends; injectivity by cutting the text at line breaks, blanks and punctuation that the elements' text does not contain.
* **C86 Comparing values and views up to rounding** — one definition over an abstract arithmetic, used with IEEE arithmetic (SpecFloat), rationals and 64-bit integers; symmetry from the fact that magnitudes of differences and quotients do not depend on signs.
* **C87 Iterating over the processors of a map and over vectors** — model both iterators with 32- and 64-bit arithmetic and the loop of processor_has_block with a step bound that the theorem shows to suffice; induction over the processors not yet visited.
* **C88 Timers measure the time that passed** — model clock::now() for the POSIX clock and the time stamp counter (binary32 arithmetic), read_clock_rate() on the kinds of lines, and a timer as a state machine over calls with clock readings; prove every answer by induction on the history.
* **C89 WAV files** — model encoder and decoder on lists of bytes (structures in memory, sgetn and seeking on a file buffer, unsigned arithmetic); specify WAV files as chunks; prove reading by induction on the chunks.
* **C90 HDF5 identifiers** — a library with counters for open identifiers and errors; the operations of file and dataset as a transition system; invariant by induction over histories.
* **C91 Python lifetimes** — a heap of reference-counted Python objects, shared storage with its count, raw back references; invariant that counts equal the numbers of living objects, by induction over histories.
* **C92 Pointers with a run-time format** — `RtPtr.v`: the tagged union as a tag and two possibly unset words; sequences of conversions by induction.
* **C93 Solver objects can be reused and copied** — a machine with variables, a heap of arrays and the user's memory, over the operations of `Solver.v`; the specification `given` follows the history; invariant: arrays of different objects are distinct and each is owned by one object.
* **C94 Resampling** — the example's three computations as functions over lists with the filters of `Fir.v` and strided sub-vectors; one call of a filter is the convolution (from the proof of C33); the sum over all coefficients is regrouped by phase.
* **C95 Filter objects** — programs over variables, reference-counted backends and blocks; a specification that only tracks, for every variable, its filter and the signal it was fed; an invariant relating reference counts to references shows that no operation reaches the state of another variable.
* **C96 Functions with settings in distributed expressions** — the expressions of C62 with clip and invclip, whose nodes are rebuilt with uninitialised members; correctness without them through C62, loss of the settings by comparing the compiled programs and by running one to its end.
* **C97 Products of distributed matrices by vectors** — model has_same_map of the Vmmul node with the maps and projections of C58, the local assignment it permits, and prove the stored products from where the maps place the operands' elements.
* **C98 The life of histograms and of their results** — model histograms and results as views of counted blocks with the calls of C40; simulate an ideal in which results are values, with a flag for results whose histogram was used again; induction on the program.
* **C99 Transforms of distributed matrices by value** — model of the assignment of the result of an Fftm object called by value (map comparison, local sizes, sizes passed to the back end, lines read and written); theorem by the placement lemmas of C09 for any line transform.
* **C100 Distributed blocks from Python** — parallel/block.py entered as a program of the interpreter of C82 with the export tables of the parallel modules; theorems by symbolic execution.
* **C101 Polar conversion of views** — memory of scalar cells, views as functions from indices to cells; the loop of recttopolar and the fused loops as one general pass that reads two cells and writes two, proved by induction over the list of indices.
* **C102 CFAR detection** — the three kernels as loops over gates with the running sum as state; invariant: the sum at gate k is that of the cells near k.
* **C103 Banks of FIR filters** — the three versions of the kernel composed of the Fir model (C33) and the transforms (C50-C53); the convolution theorem for the exact DFT.
* **C104 Fast convolution of radar pulses** — the versions of benchmarks/fastconv.cpp as programs on a matrix of data and a temporary; each body is shown to convolve every pulse circularly with the replica by the convolution theorem of `FirbankProofs.v`, and the repetitions follow by induction.

## Trusted base

* Coq 8.16.1's kernel, including its virtual machine (`vm_compute` is used in examples and in some refutations), and the standard library.
* No axiom is declared anywhere.  `Print Assumptions` is run on every property theorem in the `*Props.v` file that states it.
  It prints "Closed under the global context" for every theorem except these, which speak about real numbers and the real sine
  and cosine: `C50_reals_formula`, `C51_reals_exact`, `C53_round_trip_reals` (`DftRealsProps.v`), `C101_round_trip_reals` (`PolarProps.v`), `C103_expression_reals` (`FirbankProps.v`) and all theorems of C67
  (`WindowProps.v`) and C68 (`ChebyProps.v`).  For these it lists the axioms of the standard library's real numbers:
  `ClassicalDedekindReals.sig_forall_dec`, `ClassicalDedekindReals.sig_not_dec` and
  `FunctionalExtensionality.functional_extensionality_dep`.
* Loading the standard library's `ssr` plugin files declares the module parameters `Coq.ssr.ssrunder.Under_rel.*`; no theorem here
  depends on them.
* The correspondence between the definitions in the models and the C++ they cite.  It is by reading; nothing checks it mechanically.
  The refutations and the mutation runs (below) are the evidence that the models are faithful enough to show defects.

## What is modelled

| Area | Source | Model |
| --- | --- | --- |
| Domains | vsip/domain.hpp, ovxx/domain_utils.hpp | Domain.v |
| Index traversal | ovxx/domain_utils.hpp, ovxx/vertex.hpp, ovxx/order_traits.hpp | Traversal.v |
| Layouts | vsip/layout.hpp, ovxx/layout.hpp | Layout.v |
| Distributions and maps | vsip/impl/dist.hpp, ovxx/parallel/dist_utils.hpp, vsip/map.hpp, vsip/impl/replicated_map.hpp, ovxx/parallel/{util,support}.hpp | Dist.v, Map.v |
| Maps of sub-views and slices | ovxx/parallel/{subset_map_decl,map_utils}.hpp, ovxx/expr/{subset,sliced}.hpp, vsip/map.hpp | SubMap.v |
| Parallel assignment, copy chains | ovxx/parallel/assign_chain.hpp, ovxx/mpi/chain_builder.hpp, ovxx/parallel/copy_chain.hpp | ParAssign.v, CopyChain.v |
| View blocks | ovxx/expr/{subset,sliced,diag,transposed,permuted,component}.hpp, vsip/{matrix,tensor}.hpp | Views.v |
| Storage, admit and release | ovxx/storage/{traits,host,user,manager,block,component}.hpp | Storage.v |
| Direct data access | ovxx/dda/accessor.hpp, ovxx/block_copy.hpp, ovxx/adjust_layout.hpp | Dda.v |
| Reference counting | ovxx/refcounted.hpp | Refcount.v |
| Reductions | ovxx/reductions/{functors,reductions,reductions_idx}.hpp | Reduce.v |
| Selection, generation | vsip/selgen.hpp, ovxx/expr/generator.hpp | Selgen.v |
| FIR, IIR, convolution, correlation | vsip/impl/signal/{fir,iir,conv}.hpp, ovxx/signal/{fir,conv,corr}.hpp | Fir.v, Iir.v, Conv.v, Corr.v |
| Histogram, frequency swap | vsip/impl/signal/{histo,freqswap}.hpp, ovxx/signal/freqswap.hpp | Histo.v, Freqswap.v |
| Random numbers | vsip/random.hpp | Random.v |
| Products, modulation, Toeplitz solver | vsip/impl/{matvec,matvec_prod}.hpp, vsip/impl/solver/toepsol.hpp | Matvec.v, Prod34.v, Toep.v |
| Fourier transforms | ovxx/signal/fft/{dft,workspace,util,backend}.hpp, ovxx/signal/fft.hpp | Dft*.v |
| Assignment | ovxx/assign/*, ovxx/expr/*, ovxx/view/operators.hpp, vsip/impl/vector.hpp, vsip/matrix.hpp, vsip/tensor.hpp, vsip/impl/vmmul.hpp | Copy.v, Expr.v |
| Pool allocator | ovxx/huge_page_allocator.cpp (constructor, allocate, deallocate; open_huge_pages is an address) | Pool.v |
| Aligned arrays | ovxx/aligned_array.hpp (detail::alloc_align, aligned_array ownership) | Aligned.v |
| Elementwise scalar functions and promotion | `src/ovxx/math/scalar.hpp` (integer and algebraic functions), `src/vsip/impl/promotion.hpp` | Scalar.v |
| Distributed expressions and statement sequences | `parallel/assign.hpp`, `parallel/expr.hpp`, `parallel/map_subset_block.hpp`, `parallel/assign_block_vector.hpp`, `dda/persistent.hpp` | ParSeq.v |
| Initialization and finalization | src/ovxx/library.cpp, allocator.cpp, mpi/service.cpp | Library.v |
| BLAS evaluators | `lapack/blas.hpp` 49-86, 224-720; `dispatcher/dispatcher.hpp` 95-109 | Blas.v |
| Linear solvers | `src/ovxx/lapack/{qr,lu,cholesky}.hpp`, `src/vsip/impl/solver/{llsqsol,covsol}.hpp` | Solver.v |
| Serialization | `src/vsip/serialization.hpp` | Serial.v |
| Windows | `src/ovxx/signal/window.cpp` except cheby | Window.v |
| Chebyshev window | `src/ovxx/signal/window.cpp` cheby | Cheby.v |
| Distributed blocks, element proxies | `parallel/distributed_block.hpp`, `element_proxy.hpp` | DBlock.v |
| FFTW backend | `fftw/fft.cpp`, `fftw/fftw.cpp`, `signal/fft/workspace.hpp`, `dda/accessor.hpp` (run-time layouts), `dda/block_copy.hpp` (run-time) | Fftw.v |
| Reductions of distributed views | `reductions/reductions.hpp`, `reductions/reductions_idx.hpp` on `parallel/distributed_block.hpp` | PReduce.v |
| Local access to distributed blocks | `src/ovxx/dda/accessor.hpp` 446-537, `src/ovxx/parallel/assign_local.hpp` 40-110 | Remote.v |
| Products through C-VSIPL | src/ovxx/cvsip/{view,block,matvec}.hpp | CVsip.v |
| Signal processing through C-VSIPL | src/ovxx/cvsip/{conv,corr,fir,common}.hpp | CVsipSig.v |
| Fourier transforms through C-VSIPL | src/ovxx/cvsip/{fft.cpp,fft.hpp} | CVsipFft.v |
| Delayed by-value operations | `ovxx/expr/{unary,binary,ternary,evaluate,traversal}.hpp`, `ovxx/assign/loop_fusion.hpp`, `ovxx/signal/fft/functor.hpp` | Lazy.v |
| Device copies | ovxx/storage/manager.hpp (OVXX_HAVE_OPENCL), ovxx/opencl/storage.hpp, ovxx/opencl/dda.hpp (direct accessor) | Device.v |
| Python vectors and matrices | python/src/{vector,matrix,_block}.py, python/src/block_api.hpp, src/ovxx/python/block.hpp | Pyview.v |
| HDF5 and PNG files | ovxx/io/{hdf5,png}.hpp | FileIO.v |
| OpenCL handles | ovxx/opencl/{memory_object,buffer,context,command_queue,program,kernel,device}.hpp, {device,context,command_queue,platform}.cpp | Handles.v |
| Calls from Python | python/src/*.py, math/*.py, math/solvers/*.py, signal/*.py, selgen/clip.py and the export tables of the *_api.hpp modules | PyLang.v, PyProg.v, PyCalls.v |
| Transposes of distributed matrices | `ovxx/parallel/transpose_map_decl.hpp`, `ovxx/expr/transposed.hpp` (local block), `permuted.hpp`/`diag.hpp` (`map()`) | TransMap.v |
| Text output | src/ovxx/output.hpp | Output.v |
| Comparison up to rounding | src/ovxx/equal.hpp | Equal.v |
| Iterators | src/ovxx/{value_iterator,vector_iterator}.hpp, processor_has_block in src/ovxx/parallel/map_traits.hpp | Iter.v |
| Clocks and timers | `ovxx/{chrono.hpp,chrono.cpp,timer.hpp}` | Timer.v |
| WAV files | `share/examples/audio/wav.hpp` | Wav.v |
| HDF5 identifiers | `ovxx/io/hdf5.hpp` | Hdf5.v |
| Lifetimes in Python | `python/src/block_api.hpp`, `ovxx/python/block.hpp` | PyLife.v |
| Run-time pointers | ovxx/pointer.hpp, ovxx/storage/traits.hpp | RtPtr.v |
| Copies, reuse and destruction of solver objects | src/ovxx/lapack/{lu,cholesky,qr}.hpp (constructors, destructors) | SolverObj.v |
| Resampling | share/examples/dsp/resample.cpp | Resample.v |
| Life of filter objects | src/vsip/impl/signal/{fir,iir}.hpp, src/ovxx/signal/fir.hpp | FiltObj.v |
| Distributed clip and invclip | expr/unary.hpp get_local_block, expr/transform.hpp combine, vsip/selgen.hpp | ParFun.v |
| distributed vmmul | `src/ovxx/expr/vmmul.hpp`, `src/ovxx/parallel/assign.hpp` | ParVm.v |
| histogram objects | `src/vsip/impl/signal/histo.hpp` | HistObj.v |
| By-value Fftm on distributed matrices | signal/fft.hpp, signal/fft/functor.hpp, signal/fft/workspace.hpp | ParFftm.v |
| Distributed blocks from Python | python/src/parallel/{block.py,block_api.hpp,_block_*.cpp,block_cd.cpp} | PyPar.v |
| CFAR benchmark kernels | benchmarks/hpec_kernel/cfar.cpp, cfar_c.cpp (t_cfar_by_vector_c) | Cfar.v, CfarFlat.v |
| FIR bank benchmark kernels | benchmarks/hpec_kernel/firbank.cpp | Firbank.v |
| Fast convolution | benchmarks/fastconv.cpp | Fastconv.v |
| Polar conversion | `vsip/complex.hpp`, `assign/loop_fusion.hpp` | `Polar.v` |
| MPI groups and communicators | `mpi/group.hpp`, `mpi/group.cpp`, `mpi/communicator.hpp`, `mpi/communicator.cpp`, `mpi/datatype.hpp`, `mpi/service.cpp` | `Mpi.v` |
| Singular value decomposition | `ovxx/lapack/svd.hpp`, `vsip/impl/solver/svd.hpp` | `Svd.v` |

The head of each model file and the comment on each definition give the exact lines and the simplifications made.

## What is not modelled

* Floating-point rounding, overflow of signed integers except where written out, NaN.
* Back ends other than the generic one, the BLAS/LAPACK wrappers (Blas.v, Solver.v, Svd.v), the FFTW wrapper (Fftw.v) and the C-VSIPL
  wrappers for products, signal processing and Fourier transforms (CVsip.v, CVsipSig.v, CVsipFft.v): CUDA, OpenCL, SIMD; of C-VSIPL the solvers, 2-D convolution and correlation (these do not compile:
  they include headers or use macros that do not exist) and cvsip/reductions.hpp (its template argument has the wrong type, so it is never selected);
  the FFTW wrapper configured for split complex arrays.  FFTW is any function that keeps what its manual promises ([documented] in
  Fftw.v, a hypothesis of the theorems; C71_library shows that it can be met).  BLAS and LAPACK
  routines themselves are given by their documented behaviour in exact arithmetic (definitions in Blas.v and Solver.v); the factorizations
  xGEQRF, xGETRF and xPOTRF are arbitrary functions constrained by a hypothesis of the theorem.
* Template instantiation and overload resolution (which function body a call reaches is read off by hand), exceptions thrown by
  allocation, threads (the library has none of its own).  Messages are delivered unchanged, once, in any order.
* Of the HDF5 and PNG libraries only the documented behaviour (FileIO.v, Hdf5.v); of the Python bindings everything except vectors, matrices and
  block lifetimes (Pyview.v, PyLife.v) and the scripts modelled in PyProg.v; the MPI library itself beyond the behaviour stated in Mpi.v.
* Small files with no behaviour of their own or not reached by any modelled operation: signal/fft/no_fft.hpp, ops_count.hpp, the diagnostics of
  dispatcher and assignment, working_view.hpp, the converters between C-VSIPL or Python objects and views, view/cast.hpp, type_name.hpp,
  check_config.*; the application share/apps/ssar and the programs in share/examples/dsp except resample.cpp.
* Code that does not compile: byteswap.hpp, the assignment operator of lud, offsets of split pointers with a run-time format.

## Testing the theorems

Each model definition was edited the way a realistic bug would change the program, in a scratch copy.  A script rebuilds every file
that depends on the edit; when a proof fails, its statement is kept and assumed so that the build goes on, and at the end the property
theorems that depend on an assumed statement are the ones that caught the edit.  Each attempt is one line of `seeded/LOG.jsonl`.
Surviving edits led to tighter theorems, named in the log, unless the edit leaves the claim true.

## Findings

Statements a user would expect and that are false of the faithful model.  Each is a theorem exhibiting a concrete input.

<!-- findings -->
* `C01_domain_equality_refuted` (DomainProps.v): Without those hypotheses the documented contract fails: two domains holding just index 5 differ because of their (irrelevant) strides, and two empty domains differ because of their first index.
* `C02_domain_div_negative_refuted` (DomainProps.v): ... but for negative strides it does not: the signed stride is divided as an unsigned number. (9, -4, 2) / 2 is rejected by the validity assertion or, with assertions off, holds a huge stride.
* `C03_intersect_empty_refuted` (DomainProps.v): Outside those hypotheses the result is wrong: an empty domain that starts at 0 (impl_last wraps to 2^64-1) is reported to intersect, and a reversed domain loses common elements.
* `C03_intersect_negative_stride_refuted` (DomainProps.v): Outside those hypotheses the result is wrong: an empty domain that starts at 0 (impl_last wraps to 2^64-1) is reported to intersect, and a reversed domain loses common elements.
* `C06_column_aligned_two_arg_ctor_refuted` (LayoutProps.v): the two-argument constructor of the column-major aligned layout pads the wrong dimension; two elements share a cell.
* `C06_empty_aligned_allocation_refuted` (LayoutProps.v): an aligned matrix with no rows reports an allocation of almost 2^64 elements.
* `C07_aligned_512_runtime_refuted` (LayoutProps.v): the run-time description of an aligned_512 block carries alignment 0 (missing specialisation), so the lines are not aligned.
* `C100_array_refuted` (PyParProps.v): Defect: the documented form block(array, map) always raises UnboundLocalError: the type of the array is never asked for.
* `C100_complex_refuted` (PyParProps.v): Defect: no distributed block of double-precision complex numbers can be made: the name of the extension module with these blocks lacks the underscore that it is looked up with.
* `C100_integer_refuted` (PyParProps.v): Defect: a distributed vector to be filled with a positive integer comes out as an uninitialised matrix with that many columns; with a negative integer OverflowError is raised.
* `C100_subblock_refuted` (PyParProps.v): Defect: subblock always raises AttributeError on distributed blocks, because the C++ functions it calls are not exported.
* `C100_tensor_refuted` (PyParProps.v): Defect: a shape of three lengths is accepted and gives a matrix of the first two, filled with the third.
* `C100_zero_refuted` (PyParProps.v): Defect: a distributed vector or matrix to be filled with zero is not initialised at all, because zero counts as no value; so are the matrices of the shipped example.
* `C101_longer_refuted` (PolarProps.v): Limitation: without assertions longer results are accepted, and their further elements keep what they had.
* `C101_shifted_refuted` (PolarProps.v): Limitation: when a result lies in the data at another index, elements are converted that have been overwritten already; here the modulus of element 1 is taken of the modulus of element 0.
* `C102_columns_refuted` (CfarProps.v): Defect: more targets at a gate than there are columns for (thirty) are stored out of bounds by the kernel for vectors, and counted but not stored by that for slices.
* `C102_false_alarm_refuted` (CfarProps.v): Defect: a cell that is no target is reported for that reason.
* `C102_four_refuted` (CfarProps.v): Limitation: the kernel that handles four bins at a time reads outside the cube unless the bins are a multiple of four.
* `C102_left_refuted` (CfarProps.v): Defect: where only some of the cells on the left exist, the mean is taken over one cell fewer than were summed, so it is too large.
* `C102_missed_refuted` (CfarProps.v): Defect: a target is missed for that reason.
* `C102_right_refuted` (CfarProps.v): Defect: where only some of the cells on the right exist, the mean is taken over one cell more than were summed.
* `C103_lengths_refuted` (FirbankProps.v): Limitation: of a filter with one coefficient, or longer than the rows, neither form can be made: the Fir object refuses the first, and the second does not fit into the matrix of responses.
* `C103_row_by_row_refuted` (FirbankProps.v): Defect: written with transforms row by row, every row is passed through the first filter of the bank: the product is always taken with row 0 of the responses.
* `C103_wrong_filter_refuted` (FirbankProps.v): Defect: two filters with different coefficients give the same output.
* `C104_check_refuted` (FastconvProps.v): Defect: the check cannot fail a version that leaves the product with the replica out, and with it the whole convolution: with the impulse, the forward transform followed at once by the inverse one gives the same result as the version in full.
* `C104_timed_refuted` (FastconvProps.v): Limitation: what is timed has nothing but zeros in it: the replica is zero, and after one repetition so are all pulses.
* `C12_block_patch_query_refuted` (MapProps.v): the block-level query for the patch of an index returns its subblock number instead (support.hpp 162).
* `C13_repeated_processor_refuted` (MapProps.v): the constructor accepts a user-supplied processor vector with repetitions; a processor is then listed for a subblock that subblock(pr) does not report.
* `C15_interleaved_refuted` (ParAssignProps.v): Complex blocks in interleaved storage. chain_add there describes the transfer in units of the component type T (element_type, assign_chain.hpp 46-47) but with offsets, strides and lengths counted in complex elements (data.stride, accessor.hpp 300): components of the elements are left out of the message.
* `C17_empty_records_refuted` (CopyChainProps.v): Without the positive-length condition it fails: an empty record of non-unit stride makes the copy take one element from it anyway, and a pair of chains without records is dereferenced.
* `C17_no_records_refuted` (CopyChainProps.v): Without the positive-length condition it fails: an empty record of non-unit stride makes the copy take one element from it anyway, and a pair of chains without records is dereferenced.
* `C19_zero_stride_refuted` (ViewsProps.v): A subset whose domain has stride 0 repeats its element: writing one view element changes the others.
* `C21_offset_beyond_matrix_refuted` (ViewsProps.v): Beyond the last diagonal the size wraps: diag(5) of a 2x3 matrix has no pair, but the view reports two elements, outside the matrix.
* `C23_any_format_refuted` (StorageProps.v): Pointers whose format is chosen at run time ignore the index: writing element 1 changes element 0.
* `C24_release_without_user_storage_refuted` (StorageProps.v): A block without user storage: release(true) writes through the absent user pointer, although nothing was ever bound.
* `C25_out_copy_observable_refuted` (DdaProps.v): With [out] alone it is observable: the elements the code does not write keep their values in a direct access, and become whatever the temporary held in a copy; in a maybe-direct access this happens even if the code never asks for the pointer.
* `C26_alignment_of_storage_refuted` (DdaProps.v): Without the hypothesis on allocation: a block declared aligned but placed on unaligned user storage is handed out directly, and a temporary allocated at the default 32 bytes is not 64-byte aligned.
* `C26_user_storage_alignment_refuted` (DdaProps.v): Without the hypothesis on allocation: a block declared aligned but placed on unaligned user storage is handed out directly, and a temporary allocated at the default 32 bytes is not 64-byte aligned.
* `C27_assign_null_refuted` (RefcountProps.v): What [legal] excludes does go wrong. Assigning a null refcounted_ptr to a non-null one dereferences null.
* `C27_assign_own_member_refuted` (RefcountProps.v): Assigning from a member of the object the target points to ([p = p->next]) reads the member after its object is destroyed.
* `C27_reset_self_refuted` (RefcountProps.v): Resetting the only reference to its own pointer uses a destroyed object.
* `C28_float_complex_meansq_refuted` (ReduceProps.v): meansqval of a long complex single-precision vector sums z*z and takes the real part; 4096 copies of the imaginary unit have mean square 1, the result is -1.
* `C28_float_strided_refuted` (ReduceProps.v): A long single-precision vector whose elements are not adjacent (every second element of an array): the partial sums ignore the stride. The elements are all zero; the result is one.
* `C30_empty_view_refuted` (ReduceProps.v): On an empty view the search still reads the element at index zero.
* `C32_swap_orders_refuted` (SelgenProps.v): Views of different dimension orders: cells are exchanged, not elements.
* `C32_swap_padded_refuted` (SelgenProps.v): Padded blocks: the last elements are not exchanged.
* `C35_conv_kernel_size_refuted` (ConvProps.v): The size conv_kernel_size reports for an even symmetric matrix kernel is not the size of the full kernel.
* `C37_min_long_kernel_refuted` (ConvProps.v): The constructor's checks admit kernels longer than the input. With minimal support there is then no sample, but the output size wraps.
* `C37_min_wide_kernel_refuted` (ConvProps.v): The constructor's checks admit kernels longer than the input. With minimal support there is then no sample, but the output size wraps.
* `C38_tall_kernel_refuted` (ConvProps.v): With a kernel more than twice as tall as the input, the interior's size wraps ([in_rows - coeff_rows / 2]).
* `C39_even_same_refuted` (CorrProps.v): So the scaling is wrong there: two terms, divisor 1.
* `C39_long_reference_refuted` (CorrProps.v): Same support does not reject a reference longer than the input, and its scaling is wrong then: one term, divisor 2.
* `C40_float_rounding_refuted` (HistoProps.v): [float] samples: with 27 bins on [0,1) the largest sample below 1 is counted as if it were not below 1.
* `C40_int_samples_refuted` (HistoProps.v): [int] samples in general: a sample below the maximum is given a bin beyond the last one, or the bin width is zero.
* `C41_axis_col_refuted` (FreqswapProps.v): Non-square matrices: columns beyond the number of rows are not swapped, and a matrix with more rows than columns is accessed out of range.
* `C41_empty_refuted` (FreqswapProps.v): An empty vector is read at index 0.
* `C41_equal_subviews_refuted` (FreqswapProps.v): Two block objects for the same elements (e.g. two equal subviews) are not recognised as the same block: for odd sizes the result is wrong.
* `C42_first_numbers_refuted` (RandomProps.v): The first k-1 numbers of the single sequence belong to none of the k generators: together they are not the whole single-processor sequence.
* `C42_zero_processors_refuted` (RandomProps.v): The constructor does not check the number of processors: with zero the non-portable constructor does not return and the portable one divides by zero.
* `C43_float_refuted` (RandomProps.v): In single precision the number one is returned: this seed's first number is 2^32-1, which rounds to 2^32.
* `C44_gemp_in_place_refuted` (MatvecProps.v): The same with gemp and with the transposed gems.
* `C44_gems_in_place_refuted` (MatvecProps.v): The same with gemp and with the transposed gems.
* `C44_in_place_refuted` (MatvecProps.v): The product is evaluated straight into the destination: A = prod(A, A) is not the square of A.
* `C44_inner_size_refuted` (Prod34Props.v): Defect: prodj, prodh, prodt, prod3 and prod4 do not check that the inner sizes agree, unlike prod. When the second operand is longer than the first is wide, they accept it and silently compute a product with a part of it.
* `C45_indefinite_refuted` (ToepProps.v): The documented error for a matrix that is not positive definite is not raised: only a vanishing pivot is noticed.
* `C45_order_one_refuted` (ToepProps.v): A system of order one reads past its vector, whatever its values.
* `C45_zero_diagonal_refuted` (ToepProps.v): A zero diagonal is divided by, not reported.
* `C46_alignment_units_refuted` (LayoutProps.v): the compile-time classes read the alignment in elements, the run-time class in bytes; the strides differ for elements larger than a byte.
* `C47_constant_refuted` (RandomProps.v): But the vector itself is not a value: reading one element twice gives two different numbers, whatever the seed.
* `C52_int_offset_refuted` (DftProps.v): The row and column offsets of a multiple transform pass through int parameters (offset(data, int)): a matrix whose rows lie 2^31 or more elements apart is not transformed correctly.
* `C54_row_from_column_refuted` (CopyProps.v): assigning a column-major matrix to a row-major one that is not contiguous copies the transposed extents: elements are missed, cells outside the left-hand side are overwritten, and cells outside the right-hand side are read.
* `C56_bitwise_own_element_refuted` (ExprProps.v): likewise v ^= v(0) clears v(0) and leaves the rest unchanged.
* `C56_tensor_own_element_refuted` (ExprProps.v): tensors take the scalar by reference, so that t += t(0,0,0) adds the old value of t(0,0,0) to that element and twice the old value to all others.
* `C57_empty_subview_refuted` (SubMapProps.v): an empty sub-view starting at index 0 gets a map that claims every element of the parent (the last index of an empty domain wraps around in intersect).
* `C57_reversed_subview_refuted` (SubMapProps.v): a sub-view with a negative stride (a reversed view) of a distributed vector gets a map without any subblock, because intersect converts the stride to unsigned: every element is lost, and an assignment from or to it moves nothing.
* `C57_subblock_domain_refuted` (SubMapProps.v): the size a subset map reports for a subblock (subblock_domain(view, sb)) is the parent's subblock size, not the size of the part of the sub-view that is there (subset_map_decl.hpp 257-259).
* `C59_free_last_refuted` (PoolProps.v): Finding (wild pointer): when no free block lies above the returned chunk, [deallocate] does not set the chunk's link: the link is whatever the client last stored there. A later request that walks the list follows it.
* `C59_huge_request_refuted` (PoolProps.v): a request within 127 bytes of 2^64 is rounded up to zero bytes; it succeeds, and the block it returns is still in the free list.
* `C59_lost_memory_refuted` (PoolProps.v): Finding (lost memory): in the same situation the free blocks below the returned chunk are forgotten: with nothing held, a request for the whole pool fails.
* `C59_merge_overlap_refuted` (PoolProps.v): Finding (memory corruption): returning a chunk just above a free block merges the two with the wrong size (the size of the returned chunk is added to itself, that of the block before is dropped). If the block before is the smaller one, the allocator then hands out memory that another chunk still uses.
* `C59_page_count_refuted` (PoolProps.v): the size of the pool is computed in [int]; it overflows from 128 pages (2 GB) on.
* `C60_huge_array_refuted` (AlignedProps.v): the number of bytes of an array is computed without regard to overflow: an array of 2^61 + 1 doubles succeeds with 8 bytes.
* `C61_bool_complement_refuted` (ScalarProps.v): The complement of a [bool] is always true.
* `C61_least_magnitude_refuted` (ScalarProps.v): The magnitude of the least [short] is negative; of the least [int] it is undefined.
* `C61_mixed_comparison_refuted` (ScalarProps.v): Signed and unsigned operands are compared as unsigned: the view comparison [lt] of -1 (an [int]) and 1 (an [unsigned]) is false.
* `C61_promotion_loses_kind_refuted` (ScalarProps.v): An unsigned view times a floating-point view has unsigned elements, and a view of [bool] plus one of [unsigned] has [bool] elements.
* `C61_promotion_order_refuted` (ScalarProps.v): The promotion of types outside the table is the left one, so it depends on the order of the operands and can lose the larger operand: a [char] view plus an [int] view has elements of type [char], and 1 + 1000 is -23; the other way round it is 1001.
* `C61_unsigned_short_product_refuted` (ScalarProps.v): The product of two [unsigned short] values is computed in [int] and can overflow, which is undefined, although unsigned arithmetic is supposed to wrap.
* `C62_generator_refuted` (ParSeqProps.v): A generator assigned to a vector that is replicated over some of the processors: the others build the generator's local part too, for a subblock they do not have, against the precondition sb == 0 (replicated_map.hpp 162).
* `C62_strided_vector_refuted` (ParSeqProps.v): A block-distributed vector assigned to a block-distributed vector that is not contiguous (a column of a row-major matrix, a real part, a strided subview): the elements received are stored into a buffer that is never copied to the vector. The buffer belongs to a Persistent_data constructed with dda::out, but its back end is always an Accessor<B, L, dda::in> (dda/persistent.hpp 27).
* `C63_allocator_leak_refuted` (LibraryProps.v): Without MPI allocator::finalize is never called (library.cpp 127-130 is inside #if OVXX_HAVE_MPI): the default allocator remains after the last object is gone, and each further round loses one.
* `C63_first_objects_race_refuted` (LibraryProps.v): Two threads create the first two objects at the same time: both have counted before either looks whether it is the first (global_count == 1, library.cpp 63, is read outside the lock), so the parts that are needed once per application are not initialized at all.
* `C63_last_objects_race_refuted` (LibraryProps.v): Two threads destroy the last two objects at the same time: both see the counter at 0 (library.cpp 125-141 read it outside the lock) and tear the shared part down twice.
* `C63_other_thread_refuted` (LibraryProps.v): A thread that has no vsipl object of its own cannot use the library although one exists in the program, against initfin.hpp 19-22 ("at least one vsipl object must exist. Creation of more vsipl objects has no additional effect"): the default allocator and the communicator are thread-local.
* `C63_reinitialization_refuted` (LibraryProps.v): With MPI the library cannot be initialized again once the last object has been destroyed: mpi::finalize deletes the buffer but does not reset the pointer (mpi/service.cpp 55-65), so the next mpi::initialize does not initialize anything, and either its communicator asks a finalized MPI or the buffer is deleted again.
* `C64_double_complex_dot_refuted` (BlasProps.v): dot() of double-precision complex vectors is computed in double precision and then rounded to single precision: whenever some number [x] is not a single-precision one, dot of the one-element vectors (x) and (1) is not x.
* `C64_reversed_rows_refuted` (BlasProps.v): r = prod(A, B) where the rows of A run upwards in memory (a sub-view with a negative stride): the leading dimension is negative and BLAS ends the program, although the generic evaluator computes the product.
* `C64_reversed_vector_refuted` (BlasProps.v): r = prod(A, v) with v read backwards and A in column order: BLAS takes the pointer of a vector with a negative increment as the end with the lowest address, the evaluator passes the first element's; the vector is read outside the view.
* `C64_strided_result_refuted` (BlasProps.v): r = prod(A, B) where r is made of every other column of a matrix: the minor stride of the result is not looked at, and elements which do not belong to r are overwritten.
* `C64_submatrix_vector_refuted` (BlasProps.v): r = prod(A, v) where A is a 2x2 part of a 3x4 matrix in row order (get_view / operator()): the BLAS evaluator passes the number of columns as the leading dimension, not the distance between rows, and so takes the second row from the wrong place.
* `C64_vector_submatrix_refuted` (BlasProps.v): r = prod(v, B) where B is a part of a matrix in column order: the same mistake.
* `C65_prodq_saveq1_refuted` (SolverProps.v): With qrd_saveq1 the product Q B of the thin Q (rows by columns) and a matrix with as many rows as Q has columns is refused by no test, but LAPACK is told that Q is square of the order of B, and then rows of its result are read that do not exist.
* `C65_prodq_saveq1_right_refuted` (SolverProps.v): The same for B Q^T, with the thin Q.
* `C66_aligned_storage_refuted` (SerialProps.v): The storage size for user storage of a block with aligned rows leaves out the padding: the last row lies outside.
* `C66_complex_storage_refuted` (SerialProps.v): The same complex data is given two storage sizes: describing its user storage counts reals, describing its data counts complex elements.
* `C66_integer_dimension_refuted` (SerialProps.v): For integer element types the dimension is not compared: the descriptor of an integer matrix is accepted by a block of three dimensions.
* `C66_tensor_stride_refuted` (SerialProps.v): The test of a tensor descriptor compares the largest stride with the product of the two smaller sizes but never looks at the middle stride: the descriptor of a sub-tensor seen with two dimensions exchanged is accepted although its elements are elsewhere.
* `C66_user_code_refuted` (SerialProps.v): Codes from 0x10000 on are for user types, but the code with bit 8 set is taken for an integer type: two different user types whose codes agree in bit 9 and above bit 9 are taken for one another.
* `C66_view_storage_refuted` (SerialProps.v): The storage size for data accessed in place is the number of elements, not the extent of memory: the last element of a sub-matrix lies outside.
* `C67_bessel_accuracy_refuted` (WindowProps.v): For arguments up to 3 in magnitude the code promises (in its comment) an error within 1.6e-7 and cites the formula for I_0, but its coefficients are those of the formula for J_0 with the signs dropped: at 3 the error is above 1.8e-4, over a thousand times larger.
* `C67_hanning_long_refuted` (WindowProps.v): The counter of the Hanning loop is 32 bits wide while the length is 64 bits wide: from length 2^32 on the function does not return.
* `C69_repeated_processor_refuted` (DBlockProps.v): The map constructors accept a processor listed twice. An element of the second subblock then can be neither written nor read: the write is dropped on every processor and the read fails on its root.
* `C69_repeated_replica_refuted` (DBlockProps.v): The same for a replicated map: two entries for processor 0 on two processors pass for "all processors hold it", and processor 1 reads from a local block that has no elements.
* `C70_in_place_refuted` (SvdProps.v): The restriction to operands that do not overlap is needed: unlike prodq of a qrd object, produ(b, b) returns, having overwritten b with something else than U b, because the product is evaluated straight into its destination.
* `C71_distributed_real_refuted` (FftwProps.v): Rows of a distributed matrix cannot be transformed from real to complex or back, although they are complete on one process: the domains of input and output are required to be equal, and for rows of 3 elements or more the half spectrum is shorter.
* `C71_long_refuted` (FftwProps.v): The lengths given to FFTW are ints. A transform of 2^32 + 4 elements is planned, without an error, for 4 elements; the rest of the output keeps what it held (here 1, for an input of zeros).
* `C73_padded_refuted` (RemoteProps.v): With a padded layout they do not: as many elements are allocated as the block has, not as many as the layout needs; the local copy of a 2 by 3 block with aligned rows is stored beyond the end of the allocation.
* `C74_not_admitted_refuted` (CVsipProps.v): The blocks bound are never admitted. A library that insists on that, as the standard does, computes none of the products, for no operands.
* `C74_reversed_refuted` (CVsipProps.v): A reversed vector (negative stride): the block bound starts at the view's first element and has a size near 2^64 (or 0), the other elements lie before its start. A library that checks this, as the standard allows, fails, while the built-in code computes the product.
* `C74_split_stride_refuted` (CVsipProps.v): A complex vector in split storage with a stride other than 1 (a column, say, or every second element): the view handed to the library as an operand ignores the stride, whatever the library. Here the dot product with itself of every second element of (1, 2, 3) is 1 + 4 instead of 1 + 9.
* `C75_copy_refuted` (CVsipSigProps.v): A filter that saves its state cannot be copied, whatever the library.
* `C75_fir_reversed_refuted` (CVsipSigProps.v): A filter reading a reversed vector: the offset is measured from the view's first element as if it were the lowest address, and the elements the library is told to read and write are others. Here: the input (3, 2, 1) at addresses 2, 1, 0 is bound as addresses 5, 4, 3.
* `C75_hint_refuted` (CVsipSigProps.v): The user's hint does not reach the library: minimise memory becomes minimise time and the reverse.
* `C75_many_fixups_refuted` (CVsipSigProps.v): Full support and decimation by more than 4: the number of outputs recomputed does not depend on the decimation and can exceed the number of outputs, of which then one before the first is written. No library gets the convolution done.
* `C76_odd_refuted` (CVsipFftProps.v): C-VSIPL allows libraries that transform real vectors of even length only; the backend is chosen for every length (fft.hpp 60, rt_valid) and does not fall back to another one.
* `C76_real_length_refuted` (CVsipFftProps.v): The 1-D transforms between real and complex numbers give the view of the half spectrum (n/2 + 1 elements) the length n. A library that, as the standard asks, takes views of exactly the right length refuses every such transform of more than two elements (fft.cpp 187-188, 195-196, 223, 231).
* `C76_split_stride_refuted` (CVsipFftProps.v): Rows of a matrix from a split complex array to another: the view of the input is given the stride of the output (fft.cpp 393). With every second element of the input and a dense output, every library transforms the wrong elements: here it leaves 3 where the transform is 4.
* `C77_copies_refuted` (LazyProps.v): Two copies of one view may hold different values: a copy taken before the first read is evaluated separately, so that overwriting the input between the first reads makes them differ.
* `C77_lifetime_refuted` (LazyProps.v): The view returned by a by-value transform cannot be read after the transform object is gone, unless it was read before.
* `C77_local_refuted` (LazyProps.v): The local view of a view that has been read does not hold the same values: it is evaluated again, from what the input holds then.
* `C77_mixture_refuted` (LazyProps.v): An expression with a by-value operation can show a mixture: after one element of [x + fft(x)] has been read and [x] overwritten, reading gives neither what the expression meant before nor what it means now, because the transform is the old one and the elementwise operand the new one.
* `C77_overlap_refuted` (LazyProps.v): Elementwise operands that overlap the destination out of place are read after they have been overwritten, although by-value operands in the same expression are not: [v(0,1) = v(1,0) + fft(v)].
* `C77_snapshot_refuted` (LazyProps.v): The view returned by a by-value transform does not hold the transform of the input at the call: when the input is overwritten before the view is first read, the view holds the transform of the new input.
* `C78_admit_refuted` (DeviceProps.v): Defect: the data a user hands over by admit do not reach the device: a kernel run next works on indeterminate values, because admit leaves the device copy marked as valid.
* `C78_kept_buffer_refuted` (DeviceProps.v): Defect: a buffer kept by a device accessor is used for a second kernel after the host read an element: the result of the second kernel is never seen, since the accessor's [sync_out] does nothing.
* `C78_rebind_refuted` (DeviceProps.v): Defect: results still on the device when a block is released are written into whatever array the block is bound to later: reading the block overwrites the data of the new array with the old device contents.
* `C78_reference_refuted` (DeviceProps.v): Defect: [view(i) = v] writes through an element reference, which does not mark the device copy as out of date (storage/manager.hpp [at] lacks what [put] does): the next kernel does not see the value.
* `C78_release_refuted` (DeviceProps.v): Defect: release(true) hands the host copy back even when the results are on the device: the user's array does not get them.
* `C79_fill_integer_refuted` (PyviewProps.v): Defect: a vector of 8 elements to be filled with the integer 3 gets an uninitialised 8 x 3 block: the overload for matrices takes the value for a number of columns.
* `C79_fill_zero_refuted` (PyviewProps.v): Defect: a vector or matrix to be filled with zero is not initialised at all, because zero counts as no value.
* `C79_negative_index_refuted` (PyviewProps.v): Limitation: single elements cannot be named from the end: [v[-1]] and [m[-1, -1]] raise an exception for every vector and matrix, although [m[-1]] is the last row.
* `C79_overlap_refuted` (PyviewProps.v): Limitation: an assignment between overlapping parts of one vector does not see the old values: [v[2::2] = v[:-2:2]] smears the first element, and [v[1:] = v[:-1]] is an overlapping memcpy.
* `C79_part_copy_refuted` (PyviewProps.v): Defect: copies and NumPy arrays of the real part of a complex vector are wrong, hence all arithmetic on it: of the vector 0+1i, 2+3i, 4+5i, 6+7i the real parts are 0, 2, 4, 6, but [v.real().copy()] and [array(v.real())] have 0, 1, 2, 3.
* `C79_reversed_refuted` (PyviewProps.v): Defect: slicing the columns of a view whose columns were reversed aborts: [m[:, ::-1][:, 0:2]].
* `C79_row_range_refuted` (PyviewProps.v): Defect: a row index beyond the last row is accepted: [m[4]] of a 4 x 4 matrix is a vector whose elements lie behind the matrix.
* `C79_rows_refuted` (PyviewProps.v): Defect: the number of rows of a matrix without rows is reported as its number of columns.
* `C79_shape_refuted` (PyviewProps.v): Defect: the shapes of the two sides of a matrix assignment are not compared: assigning a 1 x 1 submatrix to a 2 x 2 one copies its neighbours, and reads behind a 1 x 1 matrix.
* `C79_strided_row_refuted` (PyviewProps.v): Defect: a row of a matrix of every second column consists of neighbouring elements, because the stride along the row is taken to be 1: [m[:, ::2][1]].
* `C79_submatrix_method_refuted` (PyviewProps.v): Defect: the method [submatrix], documented as another spelling of a subscript with two slices, always raises an exception.
* `C79_submatrix_row_refuted` (PyviewProps.v): Defect: rows, columns and diagonals of a submatrix are taken from the wrong place: row 0, column 0 and the diagonal of [m[1:3, 1:3]] are those of [m] itself, because the offset of the submatrix is not added.
* `C80_incompatible_type_refuted` (FileIOProps.v): Defect: reading a dataset whose value type cannot be converted (real numbers into a complex view or the other way round) reports success. The view keeps its old content if it is accessed directly, and is filled with uninitialised memory if it is accessed through a copy; the dataset's values play no part in it.
* `C80_png_byte_order_refuted` (FileIOProps.v): Defect: samples of 16 bits are handed over in the machine's byte order, while a PNG file has the high byte first: on a little-endian machine the sample 1 is stored as 256.
* `C80_png_low_depth_refuted` (FileIOProps.v): Limitation: images with 1, 2 or 4 bits per sample can be neither written nor read.
* `C80_png_rectangular_refuted` (FileIOProps.v): Defect: the decoder takes the height for the width. An image that is not square cannot be read into a matrix of its shape: the check fails.
* `C80_png_wide_refuted` (FileIOProps.v): Defect: nor into the height x height matrix that the check asks for: if the image is wider than high, libpng writes past its end.
* `C80_same_name_refuted` (FileIOProps.v): Defect: a second dataset of the same name in one file is lost without an exception: the file is as if it had not been written.
* `C80_second_write_refuted` (FileIOProps.v): Limitation: the short-hand function write() empties the file first, so two of them leave only the second dataset: the first write reported success and its data are gone.
* `C80_write_to_reader_refuted` (FileIOProps.v): Defect: writing to a file opened for reading reports success and does nothing.
* `C81_buffer_assignment_refuted` (HandlesProps.v): Defect: the assignment operator of buffer objects ends without returning a value, which is undefined behaviour, for every two buffers.
* `C81_device_copy_refuted` (HandlesProps.v): Defect: copying a device object does not retain the device, destroying the copy releases it: with a sub-device the original is left with a device that is gone.
* `C81_no_queue_refuted` (HandlesProps.v): Defect: the default context is that of the platform's default device, the default device is chosen by another rule. On a platform with a processor first and a graphics card as its default device, there is a default device and a default context but never a default queue, so no operation of the library can use the device.
* `C81_null_refuted` (HandlesProps.v): Defect: a program, kernel or device object that was never given a handle cannot be destroyed: its destructor releases the null handle, gets an error and throws.
* `C82_bool_slices_refuted` (PyCallsProps.v): Defect: a slice of a boolean vector raises ValueError: the module of its type is looked up under numpy.bool_, which is not among the names of the boolean type.
* `C82_chold_refuted` (PyCallsProps.v): Defect: no Cholesky solver can be made from Python: its first argument has a C++ enumeration type for which there is no Python type, so neither an int nor any enumeration value that exists is accepted.
* `C82_complex_fft_corr_refuted` (PyCallsProps.v): Defect: complex FFTs and correlations raise TypeError, because "dtype in (complex)" is no test for membership in a tuple.
* `C82_complex_reductions_refuted` (PyCallsProps.v): Limitation: reductions of complex views, all of which the C++ library supports except maxval and minval, raise ValueError.
* `C82_conv_refuted` (PyCallsProps.v): Defect: no convolution can be made from Python: conv takes no kernel, so that no C++ function fits, and always raises ArgumentError.
* `C82_corr_refuted` (PyCallsProps.v): Defect: no real correlation can be made from Python: corr hands the support region over first where C++ takes it third, and always raises ArgumentError.
* `C82_covsol_toepsol_refuted` (PyCallsProps.v): Defect: covsol and toepsol use names that are not defined and always raise NameError before any C++ function is called.
* `C82_iir_refuted` (PyCallsProps.v): Defect: an IIR filter cannot be made from matrices of coefficients: iir hands the matrices over instead of their blocks, and always raises ArgumentError.
* `C82_ite_mask_refuted` (PyCallsProps.v): Defect: ite takes a condition and two alternatives, but a boolean condition is refused with ValueError, because all three arguments must have one type.
* `C82_lud_refuted` (PyCallsProps.v): Defect: no LU solver can be made from Python: lud uses a name that is not defined and always raises NameError. Given one, solve would leave out the operation and always raise ArgumentError.
* `C82_matvec_missing_refuted` (PyCallsProps.v): Defect: kron, outer, prodh, prodj and prodt of arguments of one type call C++ functions that the extension modules do not export, and always raise AttributeError.
* `C82_mixed_prod_refuted` (PyCallsProps.v): Defect: prod of arguments of different types is written to go through NumPy, but uses a name that is not defined, and always raises NameError.
* `C82_other_types_refuted` (PyCallsProps.v): Limitation: windows and clipping for complex types, and random numbers of type complex64, which C++ offers, raise AttributeError.
* `C82_qrd_rsol_refuted` (PyCallsProps.v): Defect: qrd.rsol takes no operation and hands none over, so that no C++ function fits and it always raises ArgumentError.
* `C82_result_type_refuted` (PyCallsProps.v): Defect: the elementwise functions whose result has another type (eq, euler; arg and magsq of complex arguments) do not load the module of that type. Unless the program has used blocks of it before, the C++ function runs to the end and the call then fails with TypeError: for example eq of two vectors before any boolean block has been made.
* `C82_silent_none_refuted` (PyCallsProps.v): Defect: cvjdot, cumsum, gemp and gems, and outer and vmmul of arguments of different types, return None without having computed or reported anything.
* `C82_svd_produ_refuted` (PyCallsProps.v): Defect: produ and prodv always raise TypeError: a helper method is declared without [self].
* `C82_unexported_refuted` (PyCallsProps.v): Limitation: arg of a real view, and acos, asin, atan, ceil, exp10, floor and euler of a complex one, are offered in Python without a C++ function behind them and raise AttributeError.
* `C83_diag_map_refuted` (TransMapProps.v): Defect: a diagonal of a distributed matrix reports the matrix's two-dimensional map (diag.hpp 68); asking for the one-dimensional domain of any subblock fails an assertion (map.hpp 906).
* `C83_global_index_refuted` (TransMapProps.v): Defect: global_from_local_index of a transposed distributed matrix terminates the program, for every map, subblock and local index (transpose_map_decl.hpp 123-130).
* `C83_map_of_temporary_refuted` (TransMapProps.v): Defect: the map of a transposed view refers to the map inside the argument's block (transpose_map_decl.hpp 184). The block of a sub-view or of another transpose is part of the view, so the transpose of such a temporary - a(dom).transpose(), a.transpose().transpose() - uses the map of a destroyed object.
* `C83_no_subblock_refuted` (TransMapProps.v): Defect: on a processor that has no part of the matrix, subblock_domain of the matrix is empty, as documented (support.hpp 42-50), but subblock_domain of its transpose fails an assertion: transpose_map does not admit no_subblock (transpose_map_decl.hpp 82, 90, 99, 109).
* `C83_permuted_map_refuted` (TransMapProps.v): Defect: a permuted view of a distributed tensor reports the tensor's own map (permuted.hpp 89), so it says that elements are where they are not. Here the map of the (1,0,2) permutation puts element (0,1,0) of the view in subblock 0, of processor 7; the element is element (1,0,0) of the tensor, which is on processor 5 only.
* `C83_where_is_element_refuted` (TransMapProps.v): Defect: a program cannot ask where an element of the transpose of a distributed matrix is. For every map and every index subblock_from_global_index (and patch_from_global_index, which has the same body) terminates the program: the function of the map throws "not implemented" although it is declared not to throw (transpose_map_decl.hpp 136-143). The same question about the matrix itself has an answer.
* `C84_all_true_bitwise_refuted` (MpiProps.v): Limitation: reduce_all_true_bool of numbers is their bitwise conjunction: 1 and 2 are both true, the result is false.
* `C84_allreduce_complex_refuted` (MpiProps.v): Defect: allreduce() of complex numbers (a sum over a distributed complex view) is an error for every reduction: the predefined operations of MPI are not defined for the derived type the library makes of two reals.
* `C84_allreduce_small_types_refuted` (MpiProps.v): Defect: allreduce() of signed char and char is an error for every reduction (MPI_CHAR is text), and that of bool for all but the two reductions for bool.
* `C84_default_communicator_refuted` (MpiProps.v): Defect: Communicator() is MPI_COMM_WORLD with an empty processor_set(): the number of processors is right, but no process finds its index.
* `C84_exclude_nothing_refuted` (MpiProps.v): Defect: exclude(begin, end) of an empty sequence of ranks gives the empty group; the same call with int pointers gives the whole group (group.hpp: the general template was copied from include).
* `C84_null_communicator_refuted` (MpiProps.v): Limitation: comparing a null communicator with any, even with itself, is an error, and so is asking for its size.
* `C84_translate_outside_refuted` (MpiProps.v): Defect: translate_ranks() into numbers of index_type does not give no_rank (the largest index_type) for a process outside the second group, as rank() documents it, but MPI_UNDEFINED cut to 64 bits, whatever negative int MPI_UNDEFINED is, unless it is -1.
* `C84_type_first_use_refuted` (MpiProps.v): Defect: two threads that use such a type for the first time at once: there is a schedule in which the second gets an uninitialized MPI_Datatype.
* `C85_tensor_refuted` (OutputProps.v): Defect: operator<< for tensors writes the elements of a row one after the other without anything between them (output.hpp 113-114; vectors and matrices have separators): tensors with different elements, and tensors of different size, have the same text.
* `C86_infinity_refuted` (EqualProps.v): Defect: an infinity is not equal to itself: the difference of two infinities is not a number, and there is no test for identical operands (equal.hpp 29-38). A NaN or an infinity equals nothing.
* `C86_long_long_refuted` (EqualProps.v): Defect: for a long long on the left and a double on the right the promotion type is long long, so the double is truncated, both tolerances become 0 and the relative error is an integer quotient: every two numbers within a factor of two are equal. With the operands exchanged they are compared as doubles.
* `C86_long_long_zero_refuted` (EqualProps.v): Defect: if the long long is 0 the program divides by zero, also when the double is 0.
* `C86_mixed_signs_refuted` (EqualProps.v): Defect: a negative and an unsigned integer can be equal (equal.hpp 41-46 compares with ==).
* `C86_transitive_refuted` (EqualProps.v): Limitation: the comparison is not transitive; results that are compared in two steps can be further apart than the tolerance.
* `C87_distance_refuted` (IterProps.v): Defect: the difference is an unsigned quotient (value_iterator.hpp 59-60): for a step of 2 the distance from a later iterator back to an earlier one is a large positive number.
* `C87_equality_refuted` (IterProps.v): Defect: iterators over different vectors at the same position compare equal, because each operand's block is compared with itself (vector_iterator.hpp 36-40). (The loops above rely on it.)
* `C87_long_vector_refuted` (IterProps.v): Limitation: distances are of type int (vector_iterator.hpp 45): for a vector of 2^31 elements the distance from begin to end is negative.
* `C88_before_init_refuted` (TimerProps.v): Limitation: before the library is initialised the counter cannot be read as time: the rate is still 0 and the conversion of the infinite quotient to an integer is undefined.
* `C88_rate_refuted` (TimerProps.v): Defect: an empty or a long line before the rate, or no rate at all, and the clock silently assumes 1000 MHz: a processor at 3000 MHz then measures three seconds for each that passes (read_clock_rate() takes the EOF of sscanf for a success).
* `C88_tsc_refuted` (TimerProps.v): Defect: with the time stamp counter as clock short intervals cannot be measured, because the 64-bit counter is first converted to a float of 24 bits. At 1000 MHz (one tick per nanosecond), thirteen days after the start of the machine, 33 milliseconds measure as none at all, and two nanoseconds as 134 milliseconds.
* `C89_channels_refuted` (WavProps.v): Limitation: the encoder accepts any number of channels, but the decoder at most four; and the number is cut to 16 bits without an error.
* `C89_long_format_refuted` (WavProps.v): Defect: a format chunk of more than 40 bytes is read over the end of the header in the decoder.
* `C89_no_data_refuted` (WavProps.v): Defect: the decoder never returns from a file that has other chunks but no data chunk (a file cut short, say): at the end of the file it keeps on looking at the last chunk header it read.
* `C89_overrun_refuted` (WavProps.v): Defect: a data chunk that is not a whole number of samples makes the decoder write past the end of a buffer of exactly the size it asked for: buffer_size counts whole samples, operator() reads the whole chunk.
* `C89_padding_refuted` (WavProps.v): Defect: WAV files pad chunks of odd size with a byte; the decoder does not skip it and goes astray. It never returns from this file, which has a LIST chunk of one byte before the data.
* `C89_riff_size_refuted` (WavProps.v): Defect: the size after RIFF has to count the bytes that follow it; the encoder writes the size of the whole file, eight more.
* `C89_small_samples_refuted` (WavProps.v): Defect: the decoder divides by zero on samples of fewer than 8 bits.
* `C90_assignment_refuted` (Hdf5Props.v): Defect: assignment to a dataset loses the identifier it had: it stays open for ever, and the other is closed twice.
* `C90_complex_refuted` (Hdf5Props.v): Limitation: complex values are outside: the compound type made for every write of a complex view is never closed. A program that writes n complex datasets and destroys everything leaves n types open.
* `C90_copy_refuted` (Hdf5Props.v): Defect: a dataset can be copied, and both copies close the identifier: after the first is destroyed, reading from the second is an error, and so is its destruction.
* `C90_extent_refuted` (Hdf5Props.v): Defect: query_extent<D>() of a dataset with more than D dimensions writes behind the end of its array before it compares the dimensionality, after any careful program.
* `C90_failed_create_refuted` (Hdf5Props.v): Defect: if the library cannot create the dataset (the name exists, the file is read-only), write() reports nothing, and the dataset counts as existing: the write and the destruction use an invalid identifier.
* `C90_value_type_refuted` (Hdf5Props.v): Defect: asking for the value type leaves the type of the dataset open, and the type it is compared with if that is complex.
* `C91_array_end_refuted` (PyLifeProps.v): Defect: even if the memory is still there, because a part of the block is, the end of an array writes into the block it was made of, which is gone.
* `C91_array_refuted` (PyLifeProps.v): Defect: an array does not keep the block it was made of: after any such program, when the last reference to the last block on a storage is dropped and an array made of it is left, the array's elements are in memory that was given back.
* `C92_const_format_refuted` (RtPtrProps.v): Defect: a const_pointer does not check the format it is asked for, unlike pointer. Asked for an array or for interleaved data, one to split data gives an array that starts in the real parts, so that the imaginary part of the first element is the real part of the second.
* `C92_const_split_refuted` (RtPtrProps.v): Defect: asked for split storage, a const_pointer to an array gives a pair whose second pointer was never set.
* `C92_null_split_refuted` (RtPtrProps.v): Defect: a null pointer made for split storage has only its first half set: the pair it gives has a second pointer that was never set, before and after any conversions.
* `C93_assign_refuted` (SolverObjProps.v): Defect: assignment of one solver object to another of the same size is undefined: the assignment operators of chold and qrd copy the members and then end without returning anything (cholesky.hpp 46-53, qr.hpp 67-78), and that of lud does not compile (lu.hpp 48-55).
* `C94_refused_refuted` (ResampleProps.v): Limitation: without the conditions the three differ: a filter that decimates by its own length or more is refused although filtering and then downsampling works, and so are phases of a single coefficient.
* `C96_clip_refuted` (ParFunProps.v): Defect: a distributed [w = clip(v, lower, upper, lval, uval)] does not clip. Get_local_block and the reorganization of the operands rebuild the unary node from its argument alone (unary.hpp 202, transform.hpp 248), so that the thresholds and values are uninitialised members: whatever these contain, there are settings, and two vectors of two elements on two processors, for which the program ends with a wrong vector.
* `C96_settings_lost_refuted` (ParFunProps.v): Defect: the settings given to clip and invclip never reach a distributed assignment. Two programs that differ in nothing but these settings are turned into the same actions on every processor, whatever the maps.
* `C97_replicated_refuted` (ParVmProps.v): Limitation: a vector replicated on all processors of the matrix is refused, with the exception for unimplemented operations, if the program runs on further processors: the test compares with the map replicated on all processors of the program (vmmul.hpp 141).
* `C97_same_placement_refuted` (ParVmProps.v): Limitation: so is a vector each element of which is on the same processor as its column if its map is of another class than the projected map, in which the dimensions left over have the class Block_dist.
* `C98_assign_sizes_refuted` (HistObjProps.v): Limitation: a histogram cannot be assigned to one with another number of bins: the assignment of the counters requires equal sizes.
* `C98_copy_shares_refuted` (HistObjProps.v): Defect: a copy of a histogram goes on counting in the counters of the original: the implicit copy constructor copies the member hist_ as a view. A call of the copy is seen in the next accumulating call of the original, and clears its counts if it does not accumulate. Assignment, in contrast, copies the counts.
* `C98_result_changes_refuted` (HistObjProps.v): Defect: a vector returned by a histogram changes when the histogram is called again: the result is a view of the histogram's own counters (histo.hpp 148, 163), so that a program that keeps the results of two calls finds the second twice.
* `C99_divided_overrun_refuted` (ParFftmProps.v): Defect: with a real to complex transform divided in this way a processor writes beyond its part of the output. Eight columns on two processors are four each, whose transforms have three points; the five columns of the output are three and two.
* `C99_divided_refuted` (ParFftmProps.v): Defect: a matrix divided along the transforms is accepted although the transforms need whole lines (the check that the by-reference form makes is commented out): every processor transforms the pieces it holds. One row of four ones on two processors gives two points with the sum 2 instead of 4.
<!-- /findings -->
