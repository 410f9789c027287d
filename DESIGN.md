# Formal model of ska-sdp-func in Rocq (Coq 8.16.1)

The subject is the C, C++ and CUDA code in /repo/src/ska-sdp-func.  Nothing is built or run:
the model is a reading of the source, each definition citing file and lines.

## Modelling conventions

* **Integers** are unbounded `Z` (C `int`, `int64_t`); C `/` and `%` are `Z.quot`/`Z.rem`
  (truncating), C++ `floor/ceil/round` on exact numbers are defined in `Base.v`.  Machine
  overflow is not modelled except where a property is about it (32-bit thread indices on the
  GPU, which are `u32`, the casts to `int` of the ES kernels, `int` sizes in C77, ...).
* **Real numbers**: `float`/`double` arithmetic is modelled *exactly*: as rationals `Q`/`Qc`
  where floor/ceil/comparisons decide the control flow, as `R` (stdlib classical reals) where
  trigonometry is needed, or as an arbitrary commutative ring or arbitrary operations.
  Rounding error is outside the model.  (Exception: bits of IEEE 754 doubles in C111.)
* **Complex numbers** are pairs of reals with their own small ring theory (`Cplx.v`).
* **Arrays** are `nd A` = shape + total index function; a read/write outside the shape is the
  distinct outcome `None` (undefined behaviour) in an option monad, so "in bounds" theorems say
  that the program returns `Some`.
* **Loops** are `for_` (bounded iteration) or fuelled recursion returning a distinct
  out-of-fuel value, which the theorems exclude.  OpenMP `parallel for` loops whose iterations
  write disjoint cells are modelled sequentially unless the property is about the schedule; then
  an explicit interleaving semantics is used (task pool, flagger, bucket sort).
* **GPU (CUDA) code**: a kernel is the list of memory operations of every thread, and a launch
  is any interleaving of them.  Five machines, by what the kernel needs:
  `Gpu.v`/`GpuLaunch.v`/`GpuView.v` (host side of a launch with its limits and the registry of
  kernels; stores, read-modify-write of an own element, atomic additions as single steps),
  `GpuBlock.v` (shared memory and barriers, one step per access), `GpuCas.v` (the compare-and-swap
  loops of `sdp_cuda_atomics.h`, one step per load and exchange), `GpuFetch.v` (slots taken with
  `atomicAdd`, whose result decides a later store), `GpuAtom.v` (shared memory, barriers and
  atomics together).  Memory is sequentially consistent.  Theorems quantify over every schedule;
  refutations give one.  Warp-level lock-step is *not* assumed, except that reductions written
  for it are treated as the property's notes say (C90).  cuFFT is the exact DFT; device memory
  can be allocated and copied.
* **Statements** live in `Prop_*.v`: the theorems, closed mostly by lemmas of the `*Facts.v`
  files, each followed by `Print Assumptions`, and an `Example Cnn_hyps` showing that a concrete
  case meets the hypotheses.  Words of the statements that are not part of the model are defined
  in `*Spec.v`.  `..._refuted` theorems show that a property as stated in properties.jsonl is
  false of the code; the property is then also proved under a precondition that repairs it
  (often `..._partial`).

## Trusted base

* The Coq 8.16.1 kernel, including its VM (`vm_compute`/`vm_cast`) for computations on literals:
  the quadrature table (C88), cosine-sum bounds (C89), and small example runs in refutations.
  `native_compute` is not used.  No axioms are added, no kernel check is switched off; no
  library axioms other than the standard library's.
* `Print Assumptions` of every theorem, recorded in `ASSUMPTIONS.md` (276 theorems are closed;
  the others use, from the standard library's reals, `ClassicalDedekindReals.sig_forall_dec`,
  `ClassicalDedekindReals.sig_not_dec`, `FunctionalExtensionality.functional_extensionality_dep`
  and for a few `Classical_Prop.classic`).
* The reading of the source by the model: that each definition says what the cited lines do
  under the conventions above.  `seeded/LOG.jsonl` records tests of the theorems against edits
  of the model (wrong programs), not of the reading itself.

## What is modelled

| Source (src/ska-sdp-func) | Model |
|---|---|
| utility/sdp_mem.cpp, sdp_mem.h, sdp_mem_view.h | `Mem.v`, `Checks.v` (CPU); copy and clear on the GPU: `ElementGpu.v` (with sdp_mem.cu) |
| utility/sdp_data_model_checks.h | `Checks.v` |
| utility/sdp_timer.cpp | `Timer.v` |
| utility/sdp_logging.h | `Logging.v` |
| utility/sdp_device_wrapper.cpp, .h | `Gpu*.v`: registry and launch as the kernels use them |
| utility/sdp_cuda_atomics.h | `Atomics.v`, `GpuCas.v` |
| utility/sdp_thread_support.cpp | `Mutex.v` |
| clean/sdp_hogbom_clean.cpp | `Hogbom.v` (CLEAN loop), `HogbomSky.v` (beam, restored image) on the CPU |
| clean/sdp_hogbom_clean.cu | `HogbomGpu.v`: search and subtraction; `HogbomSkyGpu.v`: the beam and the restored image |
| clean/sdp_ms_clean_cornwell.cpp | `MsClean.v` |
| examples/* | `Examples.v`, `VectorAddGpu.v` |
| fourier_transforms/sdp_fft.cpp | `Fft.v`: the library's own CPU transforms; the scaling and phase kernels of sdp_fft.cu: `ElementGpu.v` |
| fourier_transforms/sdp_fft_padded_size.cpp | `PadSize.v` |
| fourier_transforms/sdp_pswf.cpp | `Pswf.v`; the search for eigenvalues is an argument |
| fourier_transforms/sdp_swiftly.cpp | `Swiftly.v` |
| grid_data/sdp_degrid_uvw_custom.cpp, .cu | `DegridCustom.v`, `DegridCustomGpu.v` |
| grid_data/sdp_gridder_clamp_channels.cpp, .cu | `Clamp.v`, `ClampApi.v`, `ClampGpu.v` |
| grid_data/sdp_gridder_direct.cpp | `Direct.v` |
| grid_data/sdp_gridder_grid_correct.cpp, .cu | `GridUtils.v`, `ElementGpu.v` |
| grid_data/sdp_gridder_utils.cpp, .cu | `GridUtils.v`, `Subgrid.v`, `Flmn.v`, `Select.v`, `GridUtilsGpu.v`, `BoundsGpu.v`, `SumDiffGpu.v` |
| grid_data/sdp_gridder_uvw_es_fft.cpp, _utils.cpp, _kernels.cu | `EsPlan.v`, `EsParams.v`, `EsBuffers.v`, `EsPipe.v`, `EsKernels.v`, `Legendre.v`, `Quadrature*.v`, `GoodSize.v` |
| grid_data/sdp_gridder_wtower_uvw.cpp, .cu; sdp_gridder_wtower_height.cpp | `WTower.v`, `WTowerDrv.v`, `WHeight.v`, `WTowerGpu.v` |
| grid_data/sdp_grid_wstack_wtower.cpp | `WStack.v`: both drivers (w-planes, tasks, corrections, transforms); `SharedAdd.v`: threads adding to the grid; `TaskPool.v`, `Select.v`: task queue and selection |
| numeric_functions/sdp_fft_convolution.cpp, .cu | `FftConv.v`, `FftConvGpu.v` |
| station_beam/* | `Station.v`, `SphericalWave.v`, `StationGpu.v`, `DipoleGpu.v` |
| visibility/sdp_dft.cpp, .cu | `Dft.v`, `DftGpu.v` |
| visibility/sdp_flagger.cpp | `Flagger.v`, `FlaggerReal.v` |
| visibility/sdp_opt_weighting.cpp, .cu | `OptWeightGpu.v` |
| visibility/sdp_phase_rotate.cpp, .cu; utility/sdp_sky_coord.h | `PhaseRotate.v`, `PhaseRotateGpu.v` |
| visibility/sdp_tiled_functions.cpp, .cu | `Tiled.v`, `PrefixGpu.v`, `TiledGpu.v` |
| visibility/sdp_weighting.cpp, .cu | `Weighting.v`, `WeightingGpu.v` |

## What is not modelled

* `pocketfft_hdronly.h`, cuFFT, the CUDA driver and runtime, the C and C++ standard libraries
  (assumed to do what they document), dynamic loading of the CUDA libraries.
* The Python wrappers in src/ska_sdp_func (ctypes), except where an anchor names one for its test.
* Rounding, infinities and NaN; allocation failures; exhausted device memory.
* Work left out of the modelled files is named in the comment of the definition that omits it,
  and in the note of the property in MANIFEST.json.

## Plan per property

How each property is modelled and proved (theorem names and what is missing: MANIFEST.json).

| Property | Model | Proof |
|---|---|---|
| C01-C09, C14 | `Mem.v`: record, create, wrapper, slice, alias, copy, clear, set_value over byte-addressed blocks | arithmetic on strides, induction on rank; histories by induction |
| C10-C13 | `Checks.v`: every check function, view creation, data-model checks | case analysis |
| C15-C16 | `Timer.v`: state machine, tree zipper | induction over histories |
| C17-C18 | `TaskPool.v`: pool state, interleaving of picks | invariant over every schedule |
| C19-C21 | `Clamp.v`: clamping over Q | floor/ceil lemmas |
| C22-C26 | `WTower.v`: kernel indices, plane ranges, degrid/grid | integer/rational arithmetic, sum exchange |
| C69 | `WTowerDrv.v`: both drivers with w-phase, FFT and sub-grid stack | two loops in lockstep; each plane by C25, FFT by C37-C40, scaling by C63 |
| C27-C28 | `WHeight.v` | invariant of the search |
| C29-C33, C63-C65 | `Subgrid.v` (any commutative ring, `CRing.v`), `GridUtils.v` (array utilities, grid correction, direct FTs over `Cplx.v`), `Flmn.v` | pointwise characterisation of loops |
| C34-C36 | `Hogbom.v`, `MsClean.v` | loop invariants |
| C37-C40 | `Fft.v` | Stockham = DFT by induction on passes, roots of unity |
| C41-C42 | `PaddedSize.v`, `GoodSize.v` | heap invariant, smooth-number enumeration |
| C43 | `FftConv.v` | index arithmetic, cyclic vs linear convolution |
| C44-C46, C68 | `Swiftly.v` | modular arithmetic |
| C47, C70 | `Pswf.v` over an arbitrary arithmetic | loop invariants on written elements; the eigenvalue search is an argument |
| C48 | `Dft.v`: checks, int positions, both kernels | `Sets.v` (each iteration owns its outputs), sums |
| C49, C71 | `PhaseRotate.v`: both functions, in place or not | `changes_for`, trigonometric identities; frames in `PhaseRotateSpec.v` |
| C72 | `ContigSpec.v`: positions by strides against row-major positions | contiguity checks; refutations by running the model |
| C50-C51 | `Tiled.v` | counting-sort invariant over every order |
| C52, C53, C73 | `Flagger.v`: whole of sdp_flagger.cpp (CPU), arbitrary arithmetic, any schedule of baselines over threads | `FlaggerSpec.flagged` characterises the flags; `sets`/`psets` loop rules; refutations by general argument and by running the model in rationals |
| C74 | the same model over the reals and complex numbers (`FlaggerReal.v`) | sorting, medians and scores commute with scaling |
| C54 | `Weighting.v`: checks, gridding, sums, both read-backs (CPU); coordinates in Q, weights in any commutative ring with any division | sums over visibilities per cell (`for_adds`), `sets` for the outputs; refutations by running the model |
| C55 | DegridCustom.v, Prop_DegridCustom.v: C55_in_bounds_partial, C55_negative_w_refuted, C55_geometry_refuted. |
| C75 | Prop_DegridCustom.v: C75_values, C75_position, C75_nonsquare_refuted. |
| C56, C76 | EsParams.v (with the table), EsParamsSpec.v, Prop_EsParams.v: C56_entry_partial, C56_out_of_table, C56_large_refuted, C76_accuracy, C76_accuracy_refuted, C76_support_refuted. |
| C77 | GoodSize.v (loops on fuel, shown sufficient), Prop_EsParams.v: C77_least, C77_bounds, C77_overflow_refuted. |
| C78 | Legendre.v over the reals; LegendreSpec.v: Legendre's differential equation; Prop_Legendre.v: C78_polynomial, C78_recursion, C78_weight, C78_accuracy_refuted. |
| C58, C79 | `SphericalWave.v` (sdp_legendre2, pattern, API), `SphericalWaveSpec.v` (P_l^m from derivatives of P_l; expansion as a double sum) | recursion = scaled Gegenbauer polynomials, derivative identities by induction; sums reordered in a commutative monoid |
| C57, C80 | `Station.v` (sdp_station.cpp, sdp_element_dipole.cpp), `StationSpec.v` (sum over elements; direction cosine) | loop invariants and write footprints; trigonometric identities; mean value theorem for the bound near the axis |
| C59 | `Atomics.v`: compare-and-swap loops of sdp_cuda_atomics.h as threads of single steps | invariant over interleavings: the completed operations in some order replay the memory; measure for termination |
| C60 | `Logging.v`: lookup and filter as a state machine; `LoggingSpec.v`: what a value asks for | induction over the calls |
| C61 | `Examples.v`: both example functions, arbitrary arithmetic, possibly overlapping vectors | loop invariants |
| C67 | `FailSpec.v`: `clean`; `ClampApi.v`: the clamping entry points with their views after failed checks | case analysis on the checks; loop invariant for the refutation |
| C85 | `Gpu.v`, `EsKernels.v`, `EsScreenFacts*.v`, `Prop_EsPipe.v` | every interleaving of a launch; quadrant decomposition covers each pixel once |
| C86 | `EsKernelsFacts*.v`, `GpuFacts*.v`, `Prop_EsPipe.v` | sums of atomic additions are order independent; supports, tables and int ranges |
| C87 | `EsPipe.v`, `EsPipeFacts*.v`, `Prop_EsPipe.v` | linear algebra of the launches with the DFT in between; adjointness |
| C81 | `EsBuffers.v`, `EsBuffersFacts*.v`, `Prop_EsBuffers.v` | decision procedure of the checks; heap accounting of creation |
| C82 | `EsPlan.v`, `EsPlanFacts*.v`, `Prop_EsPlan.v` | real inequalities about scale, number and position of planes |
| C83 | `EsPlan.v`, `Prop_EsPlan.v` | loop invariant for minimum and maximum |
| C84 | `EsPlan.v`, `EsPlanFacts*.v`, `Prop_EsPlan.v` | loop invariants for the tables; extra quadrature points vanish |
| C88 | `LegendreBounds.v`, `CosQ.v`, `CosZ.v`, `Plane.v`, `LegendreZ.v`, `Quadrature*.v`, `Prop_Quadrature.v` | bounds of the Legendre polynomial and its slope at integer cell centres with a proved bound of the rounding errors, Newton's method in the cell, moments by integer interval arithmetic; the computation is one vm_compute, which coqchk repeats without the VM in 80 s |
| C89 | `EsPlanFacts3.v`, `Correction*.v`, `Prop_Correction.v` | positivity of the norm from C88; bounds of the cosine sum on a grid in integer arithmetic, chord bound between grid points |
| C90 | `GpuBlock.v`, `HogbomGpu.v` | blocks of threads with shared memory and barriers, all interleavings; one phase between barriers is determined when the threads have disjoint footprints; invariant of the reduction tree; counterexample runs by computation |
| C91 | `HogbomGpu.v` | each cycle refines a minor cycle; convolution identity by induction on cycles |
| C92 | `GpuLaunch.v`, `DftGpu.v` | host launch with its limits and the registry of kernels; threads write disjoint sets of locations, so that every schedule gives the same result |
| C93 | `PhaseRotateGpu.v` | each thread sets its row to what the CPU loop sets it to; agreement with the CPU function |
| C94 | `WeightingGpu.v` | atomic additions commute: every schedule of the first kernel gives the sums; the second writes disjoint locations |
| C95 | `WeightingGpu.v` | as C94, with the sums over all visibilities started from arbitrary memory; refutation by two contents |
| C96 | `GpuView.v`, `GridUtilsGpu.v` | every thread updates its own pixel: the generic result for disjoint updates, for grids of blocks that cover the image |
| C97 | `GridUtilsGpu.v` | as C96, distinct pixels by injectivity of the wrapped index; the lost update as an explicit schedule |
| C98 | `GpuCas.v` | invariant: the memory is that of the operations done so far in some order, an operation that finds nothing to do being done when it loads; measure for termination |
| C99 | `BoundsGpu.v` | C98 for the minima and maxima of the threads; extremum of the ends of the rows is the extremum of all coordinates |
| C100 | `SumDiffGpu.v` | phases between barriers; invariant of the reduction: the first d slots add up to the total modulo 2^32; every row belongs to one thread |
| C101, C102 | `ElementGpu.v` | one thread for every element: launches of disjoint updates (each_result); untouched locations for the index overflow |
| C103 | `ClampGpu.v` | one thread per row of a range (rows_result), on top of the lemmas of C19 |
| C104 | `StationGpu.v` | block machine: two barriers per chunk of elements; phase by phase (GpuBlockFacts2.phase_claim) the chunk is in shared memory and the accumulators hold the sum over the chunks so far; blocks are independent (project) |
| C105 | `DipoleGpu.v` | launch model; per-thread footprint, disjoint because stride >= 2 (1 for scalar); the kernels do not test the number of points, refuted outside of multiples of 256 |
| C106 | `WTowerGpu.v` | launch model; row-by-row simulation between the CPU loops and a thread (operations of a row = what the CPU adds), then disjointness (degrid) or sums of atomic additions (grid) over all schedules |
| C107 | `DegridCustomGpu.v` | launch model; the value theorem of C75 with the rounding as a parameter, instantiated with halves-to-even; equality with the CPU away from ties, refuted at a tie |
| C108 | `PrefixGpu.v` | block model with barriers; invariant of the scan step (windows of 2^k entries) for all schedules; refuted from 512 tiles on by a schedule |
| C109 | `TiledGpu.v` | launch model; sum of atomic additions over a permutation of the (tile, visibility) pairs; composed with C108 |
| C110 | `GpuFetch.v`, `TiledGpu.v` | machine of threads that take slots with atomicAdd and then store; invariant: the order of the additions is a permutation of the pairs, slots are exclusive |
| C111 | `OptWeightGpu.v`, `GpuAtom.v` | launch machine with shared memory, barriers and atomic additions; footprints of the threads (only own slots written); IEEE 754 bits of the robust parameter; two explicit schedules replayed by an executable interpreter that is sound for the machine |
| C112 | `FftConvGpu.v` | six kernel launches (two through each/line lemmas, the quadrant exchange with four stores per thread) in every schedule; cuFFT as the exact DFT; convolution theorem and windows of the circular convolution |
| C113 | `Direct.v` | checks of every call, scratch arrays (no memory when empty), composition of the list of sources (C61) with the two direct transforms (C63); sums over the list as sums over the pixels; exchange of sums for adjointness |
| C114 | `VectorAddGpu.v` | every thread writes its own element (disjoint_result), the grid covers all elements up to 2^32; beyond that no thread index equals the element (the index is a 32-bit number) |
| C115 | `HogbomSky.v` | nested loops for the beam and the outputs, the FFT convolution theorem (C43), translation of the beam index to the offset from component; a one-cycle run for the point source |
| C116 | `WStack.v` | each task: sub-grid transform, w-towers driver (C69) and cut-out / addition (C29) as adjoint pairs; sums over tasks and planes; order independence from adjointness with point sources |
| C117 | `SharedAdd.v` | small-step threads with single loads and stores: array plus outstanding additions is invariant, a loaded value is current because of the lock or of separate indices; the pieces are those of the model of subgrid_add (C29) |
| C118 | `HogbomSkyGpu.v` | five launches on views as in C112, each kernel one element per thread; the convolution through C112_same_partial, the CPU through restore_lemma of C115 |
| C119 | `Mutex.v` | any client as a function from a thread's place to its next action; simulation by executions whose sections are uninterrupted: the owner's partial section is kept apart until it unlocks |
