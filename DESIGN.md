# rfsed in Rocq: design

Source: /repo (akinremisa/rfsed). Guide: /root/guide.md. Coq 8.16.1.

## 1. Approach

The model is a shallow, branch-by-branch transcription of the Python functions into total Gallina
functions. Exceptions are values (`res A := Ok a | Err e`). Every function that computes with numbers is
written **once, polymorphically over a record `Num` of arithmetic operations** (no laws in the record), and
is then used at two instances:

* `B64` - IEEE-754 binary64 (`spec_float` of Coq's standard library, 53/1024): executable with
  `vm_compute`, has NaN, infinities, signed zeros and rounding. Used for refutations and for the laws of
  comparison, NaN included.
* `RN`  - the real numbers: exact arithmetic. Used for algebraic and analytic laws.

Theorems come in three strengths, visible in their statement:
(a) for every `Num` (hence for binary64, whatever the rounding);
(b) for every `Num` whose comparison obeys `OrdLaws` (proved for B64 *and* RN);
(c) for `RN` only ("exact arithmetic").

FFT-based code (`ResonanceFilt`, `gfilter`, `phaseshift`, deconvolutions) is modelled over R and C = R x R with
the textbook DFT as the meaning of `fft`/`ifft`; rounding is not modelled there.

Mutable state: numpy arrays are lists; `stk[z,:] = row` is a bounds-checked update; a numpy *view*
(`bmod = stk[k,:]`) is represented by its row index so that later in-place writes are seen through it.
Library calls with side effects or physics (obspy read/TauP/bandpass filter, `RFStream.stack`, obspy `pg`)
are function parameters (oracles); every theorem quantifies over them.

## 2. Files (rocq/theories)

Files are layered: vocabulary and specification, model, lemmas, property theorems. Property theorems have names
starting with the property id and live in `P_*.v`; each comes with a concrete case meeting its hypotheses (in the
same file or in the `*Ex`/`*2` file next to it).

| file | content |
|---|---|
| Base.v, Num.v, NumPy.v | exceptions, monadic loops, Python list/array primitives; `Num`, `OrdLaws`, binary64 and real instances; argmax/argmin with NaN, arange, max/min, slices |
| Spec.v, SpecSignal.v, SpecElastic.v, SpecFs.v | **specification vocabulary**, independent of the model: textbook travel times; sampled signals and spectra; equations of motion of layered elastic media; file trees |
| Cplx.v, DFT.v, DFT2.v, Mat4.v | mathematics only: complex numbers, finite sums, DFT (inversion, shift, convolution, Parseval, Hermitian spectra), 4x4 matrices |
| HkModel.v | getamp, hk (hkZhu.py), hkSeq (hkSeqYeck.py), hkYu (hkYu.py), hkSynth, hkSeqSynth (SynthAnalysis.py) |
| HkProofs.v, HkReal.v, HkFacts.v, HkFacts2-4.v | lemmas about them |
| P_Hk.v, P_Hk2-6.v, P_HkEx.v, P_HkEx2.v | C01-C10, C13-C22, C77, C78 |
| Float64.v, FloatErr.v, FloatHk.v, FloatStack.v, P_Float.v, P_Float2.v, P_FloatEx.v, FloatSeq.v, FloatTable.v, FloatOne.v, P_Float3.v, P_Float4.v, P_FloatEx2.v | binary64 against real numbers: `SpecFloat` arithmetic is correctly rounded (via Flocq), forward error analysis of the H-k programs: C82-C86, C89-C91 |
| ShowModel.v, P_Show.v, P_Show2.v | the same five H-k programs with everything they print and show on screen: C92, C93 |
| SpecArrival.v, P_Arrival.v, P_Arrival2.v, P_Arrival3.v | ray paths, delays and spike series; the response of the propagator model as spike series: C94; the spectrum of the receiver function: C95 |
| P_Ex.v | concrete cases for theorems that have none beside them |
| PlotModel.v, PlotProofs.v, PlotProofs2-4.v, P_Plot.v, P_Plot2-4.v | plothk, plotSeqhk, plothkYu, plothkSynth, plothkSeqSynth, plotfiltrf, plotfiltSynthrf as state transformers with drawing and file events: C11, C12, C56, C80, C81 |
| ReverbModel.v, ReverbProofs.v, ReverbProofs2.v, P_Reverb.v, P_Reverb2.v, P_Reverb3.v | ResonanceFilt of ReverbFilter.py and SynthAnalysis.py: C23-C28, C57, C79, C87, C88 |
| DeconModel.v, DeconProofs.v, DeconProofs2-5.v, P_Decon.v, P_Decon2.v | synrf.py 76-347: gaussFilter, gfilter, correl, phaseshift, the two deconvolutions and their dispatch: C34-C41, C58, C59 |
| HaskellModel.v, HaskellProofs.v, HaskellProofs2-6.v, P_Haskell.v, P_Haskell2.v | synrf.py 350-452 and the thickness loop: e_inverse, propagator_sol, haskell, fwd_seis: C29-C33, C60-C64 |
| SynModel.v, P_Syn.v, P_Syn2.v | class `synrf` as a state machine: C42, C43, C65 |
| PoolModel.v, PoolProofs.v, P_Pool.v | `multiprocessing.Pool.map` as a nondeterministic machine with worker deaths: C46, C66 |
| ExtractModel.v, P_Extract.v | ExtractEq, ExtractEqMultiproc: C50-C53, C67 |
| WaveModel.v, WaveProofs.v, P_Wave.v, P_Wave2-7.v, WaveSyn.v | WaveformFitting, WaveformFittingMultiproc: C44, C45, C47-C49, C68-C73 |
| FsModel.v, FsProofs.v, FsProofs2.v, P_Fs.v, P_Fs2.v | util.py: save_* helpers, install_examples, install_rfsed_tests (with distutils' copy_tree and its cache): C54, C55, C74-C76 |
| P_Legend.v, P_Legend2.v, P_Legend3.v | legends, axes and bands of the saved figures: C96, C97, C98 |
| P_Plot5.v | visibility of the marked arrivals: C99; plotting again changes nothing more: C100 |
| LeastSquares.v, DeconConv.v | projections, frame bounds, Parseval, contraction of one greedy step |
| SpecConv.v | specification of best-fitting spike trains and of their receiver function |
| P_Conv.v | convergence of iterative deconvolution: C101; recovery of receiver functions: C102 |
| P_Samples.v | samples recorded and samples written by the extraction functions: C103, C104 |
| GlobModel.v, P_Glob.v | glob.glob(datapath + "*"), the file search of ExtractEq: C105, C106 |
| P_Meta.v, P_Meta2.v, P_Meta3.v, P_MetaEx.v | metamorphic properties of the five H-k programs: C107 (grids), C108 (length of the records), C109 (units) |
| P_Units.v, P_Units2.v, P_Units3.v | C110: units in haskell, fwd_seis, the two deconvolutions and the class synrf |
| P_Shift.v | C111, C112: time origin of the records; the water-level method as a linear filter |
| P_ExtractMeta.v | C113: extraction event by event and file by file |
| P_Wave8.v | C114, C115, C116: waveform fitting on another grid, with other weights, in another amplitude unit |
| P_FiltPlot.v | C117: the curves on the three saved figures of the resonance filter |
| P_Reverb4.v | C118: time unit, origin and reversal in the resonance filter |
| P_Wave9.v | C119: the velocity profile drawn in the waveform figures |
| InstallModel.v, InstallProofs.v, P_Install.v | C120: several processes installing at the same time, one system call at a time |
| DrawSpec.v, P_Missing.v | what pyplot demands of a table; C121, C122: missing samples and degenerate grids |
| P_Hk7.v | C123: recovery of a crust whose phases dominate their search windows |
| P_Float5.v, P_FloatEx3.v | C124: recovery of a standing-out crust in double precision; concrete runs |
| P_Float6.v, P_FloatEx4.v | C125: the samples that matter in double precision; concrete runs |
| SessionModel.v, P_Session.v | heap of Trace objects shared by results of hk and hkSeq, sessions of analyses, figures and in-place changes; C126, C127 |
| SynSessionModel.v, P_SynSession.v | synrf objects keeping references to the caller's arrays, sessions with in-place changes; C128, C129 |
| P_Wave10.v | the parallel fitting route as a whole; C130 |
| P_Float7.v | rounding in the misfit of the waveform fit; C131 |
| PyplotModel.v, P_Pyplot.v, P_Pyplot2.v | pyplot's current figure, open figures and close('all') across calls; C132-C135 |
| P_Noise.v, P_NoiseEx.v | stability of the H-k searches under noise; C136 |
| P_WlNoise.v | noise amplification of the water-level method; C137 |
| P_WaveNoise.v | stability of the waveform fit under noise; C138 |
| PoolLifeModel.v, P_PoolLife.v | creation, closing and joining of the process pools; C139 |
| P_Reverb5.v, P_Reverb6.v | lag and strength found by the resonance filter against those of a reverberating record; C140 |
| P_Reverb7.v | ResonanceFilt followed by hkYu on a reverberating record; C141 |
| P_Reverb8.v | noise and the resonance filter, alone and before hkYu; C142 |
| P_DeconHk.v | deconvolution followed by hkSynth; C143 |
| ArrSessionModel.v, P_ArrSession.v | H-k results keeping references to the caller's arrays, sessions of analyses, figures and in-place changes; C144, C145 |
| P_DeconHkNoise.v | noisy seismogram, water-level deconvolution, hkSynth (C146) |
| P_IterNoise.v | noise in the iterative deconvolution and on to hkSynth (C147) |
| LoadModel.v, P_Load.v | the example loaders of util.py and what cannot disturb them (C148) |
| P_Reverb9.v | the limit of long records: lag exact, strength and filtered record convergent (C149) |
| P_IterYu.v | noisy seismogram -> deconv_iterative -> ResonanceFiltSynth -> hkYu (C150) |
| P_WaterYu.v | noisy seismogram -> deconv_waterlevel -> ResonanceFiltSynth -> hkYu (C151) |
| P_SeqDecon.v | noisy seismogram -> deconvolution -> hkSeqSynth, both layers (C152) |
| P_WaterFit.v | noisy seismogram -> deconvolution -> waveform fit, the depth and Vp/Vs of the grid (C153) |
| P_WaterFit2.v | the same through the parallel fit, every schedule (C153) |

## 3. Plan per property

| id | model | proof |
|---|---|---|
| C01 | `getamp` over any Num with OrdLaws | induction on the argmin scan |
| C02 | `getamp` on the uniform axis over R | case analysis + nearest-sample bound |
| C03,C04,C20,C22 | travel-time definitions at RN | real analysis (sqrt monotone), algebra |
| C05,C06,C07,C14,C15,C19 | the nested loops with table, counter z, bounds checks | loop invariants |
| C08,C09 | hk at RN | permutation/linearity of the sum |
| C10 | option-typed arguments; hkYu's misspelt assignments | case analysis; `_refuted` for hkYu |
| C11,C12,C56 | plot functions as state transformers producing drawing/file events | induction, string lemmas |
| C13 | NaN / complex root semantics | refutation + characterisation |
| C16,C18 | hkSeq as written | `_refuted` by computation + exact characterisation |
| C17 | clip loop on the table, best model as a view | loop invariant |
| C21 | hkYu scalars at RN | algebra |
| C23-C28 | ResonanceFilt over R/C | DFT shift theorem, Cauchy-Schwarz, list induction |
| C29 | thickness loop | induction |
| C30-C33 | 4x4 complex matrices | trig addition formulas, field identities, induction over layers |
| C34-C36 | filters over C | DFT symmetry and convolution |
| C37-C39 | the while loop with explicit fuel itmax-it | loop invariants; matching-pursuit inequality |
| C40-C43 | dispatch, state machine | case analysis, induction over call histories |
| C44 | t==0 search; int(25/delta) | refutation in binary64, proof over R |
| C45,C47-C49 | solution tables, GoF | permutations, monotonicity, refutations |
| C46,C53 | Pool.map chunk machine | invariant over all schedules |
| C50-C52 | extraction loops with oracles for read/TauP | induction; refutation for C52 |
| C54,C55 | file system as a finite map of paths, distutils' mkpath/copy_file/copy_tree step by step with its `_path_created` cache | program logic for outcomes incl. kills; refutations for the race and for obstacles |
| C57 | ResonanceFilt on a scaled trace | homogeneity of every step, invariance of the trough search |
| C58,C59 | both deconvolutions | uniqueness of the greedy run; Cauchy-Schwarz for the single arrival; algebra of the water level |
| C60-C62 | haskell against SpecElastic's welded-stack problem | energy-flux argument for non-singularity; uniqueness of the solution; matrix exponential by eigen-decomposition, derivative test |
| C63 | explicit `NaNResult` outcome of square roots/divisions | case analysis over the layers |
| C64 | frequency loop and inverse transform | loop invariant, Hermitian spectrum |
| C65 | run_deconvolution history | induction over calls |
| C66 | pool machine with a worker-death step | invariant: a task is queued, held, lost or answered |
| C67 | both extraction loops | sub-list induction |
| C68-C73 | waveform fitting over RN, drawing events, composition with the synrf model | Cauchy-Schwarz for Pearson, loop forms, composition theorems |
| C74,C75 | kill counter in the file-system world | invariants that hold at every kill point |
| C76 | interleavings of n callers, each a two-step program | invariant over all interleavings |
| C77 | every read, default and index check of the H-k programs, any Num | success conditions of every loop |
| C78 | H-k programs on ideal receiver functions, RN | nearest-sample bound, strict dominance of the true node |
| C79 | ResonanceFilt, RN | strict Cauchy-Schwarz for r<1, spectral bounds, injectivity of the filter |
| C80 | the four remaining H-k plot functions, any Num, any pyplot | a program logic (`safe`): invariant on the result plus the list of files written, for every outcome |
| C82-C86 | hk_times, getamp, taxis, hk at `B64` | SpecFloat operations = Flocq's correctly rounded operations (Float64.v); forward error analysis (FloatErr, FloatHk, FloatStack); accumulation by induction over the traces; best-model and recovery by combining C07 (B64) with the error bounds |
| C87 | rcore (both ResonanceFilt) | moment identities of the lagged products of a least-squares residual; Chebyshev's sum inequality; a sequence with its maximum first decreases or has a trough |
| C88 | same | refuted by a ten-sample trace; exact energy balance via circular correlation |
| C89-C91 | hkSeqMoho_times, hkSeqSynthMoho_times, hkYu, hkSynth, hkSeqSynth, hkSeq, hk (stack=True) at `B64` | forward error analysis of the two-layer and Yu delays (FloatSeq); tables of single contributions (FloatTable, FloatOne); best row through C07/C15 at `B64` and the clip; recovery as C86, with the sediment shift cancelling in the resolution condition |
| C92, C93 | the H-k programs as writers of a log (figures, printed lines) with an arbitrary pyplot | inversion of the log monad; stage decomposition of hkSeq/hkSeqSynth proved equal to HkModel's; refutation by computation |
| C94 | `haskell` over exact complex numbers (HaskellModel) | each layer's propagator splits a row into four with their own phase; induction over the stack, amplitudes real and without omega; delays identified with hk_times and hkSeqMoho_times |
| C81 | same functions, RN, on success | exact event lists of each figure; `figures` splits the event log at plt.show(); times by hk_times_R / hkSeqMoho_times_R |
| C95 | HaskellModel (fwd_seis), DeconModel (water level), SynModel composed | DFT of the record from orthogonality of harmonics, Hermitian symmetry of the filtered quotient, C94 |
| C96 | PlotModel (panel1 and its callers), WaveModel (one_figure) | invariant of the drawing monad over all events, whatever the outcome; nearest-integer analysis of the rendering, over R and in binary64; refutation by computation |
| C97 | WaveModel (one_figure: np_std, f_plus, f_minus) | inversion of one_figure for every figure saved; sums over records; refutation by computation in binary64 |
| C98 | PlotModel (panel1), WaveModel (minmax, ends) | the invariant of C96 for the axis events; laws of Python's min and max in an ordered arithmetic; refutation by computation |
| C99 | the drawing events of P_Plot4 with the axis limits | marks and limits of each figure from the exact event lists; PsPs is the last arrival; refuted at a grid corner |
| C100 | as C80 | the state after a returned call is a fixed point of header writing and clipping (`headers_fixed`, `kept_again`) |
| C101 | deconv_iterative (DeconModel) through the greedy run of C38 | existence of the projection and of a frame bound by induction on the number of lags (Gram-Schmidt), one greedy step removes a fixed share of the excess misfit, Parseval for the explicit rate |
| C102 | as C101, and deconv_waterlevel | a convolved numerator is fitted exactly, so the best fit is the true train; spectra for the water level |
| C103 | ExtractModel with traces carrying their samples | from C53_written and C53_windows, with the reader law as hypothesis |
| C104 | as C103, ExtractEq | refuted by a concrete archive of two files; characterisation from C50_every_trace |
| C105 | glob.glob with posixpath.split/join and fnmatch on strings, os.listdir as oracle | string induction; uniqueness of a sorted permutation |
| C106 | as C105 | refutation by computation, characterisation by string lemmas |
| C107 | the five H-k programs | tables are functions of the node; argmax over a sub-table |
| C108 | the five H-k programs over exact reals | the nearest sample of a delay inside the axis is unchanged by samples outside |
| C109 | the five H-k programs over exact reals | scaling of vertical slownesses, of nearest samples and of argmax |
| C110 | haskell, fwd_seis, deconv_iterative, deconv_waterlevel, class synrf over exact reals | similarity of the propagator matrices by the unit of stress; linearity of the DFT; simulation of the object's calls |
| C111 | deconv_iterative, deconv_waterlevel | a common delay multiplies both spectra by one phase ramp, which cancels in spectral products with the conjugate; loop simulation with rotated residual |
| C112 | deconv_waterlevel | the denominators depend on the vertical record only; linearity and shift theorem of the DFT |
| C113 | ExtractEq, ExtractEq_Multiproc | the written stream is a table over files and windows; rows and columns of the table split, permute and extend |
| C114 | WaveformFitting | both tables come from one evaluation function of grid points; ranking only adds GoF |
| C115 | WaveformFitting | counterexample run; unchanged maxima give unchanged GoF |
| C116 | WaveformFitting | scaling cancels in Pearson's coefficient and in the sign normalisation |
| C117 | plotfiltrf, plotfiltSynthrf, ResonanceFilt | event history split into saved figures; position of the trough from C87; concrete run |
| C118 | ResonanceFilt (both) | everything found is a function of the autocorrelation, which reversal preserves |
| C119 | PlotWaveformFitting, plotbestmodel | points on the broken line characterised by depth; material met at a depth as an inductive relation |
| C120 | install_examples, install_rfsed_tests, distutils.dir_util / file_util cut into system calls | small-step machine with names and inodes; invariant per file (untouched / absent and about to be created / present with a writer for whatever is not yet right) and per directory |
| C121 | the five H-k programs in binary64 with a pyplot that refuses non-finite tables | finite (non-NaN) results have finite (non-NaN) operands; inversion of the programs; computed runs |
| C122 | the five H-k programs with a pyplot that refuses collinear points | the drawn table is over the grid (C05), so its rows show two values only if the grid has them |
| C123 | the five H-k programs, exact arithmetic | value at a node <= value at the true node sample by sample; equality forces the three samples to coincide, which the resolution excludes |
| C124 | the five H-k programs at B64 | tables best up to rounding (C85, C90) + pairwise comparison of the reads of two nodes |
| C125 | the five H-k programs at B64 | the index of a read is within the tolerance of the exact delay (C83), hence equal reads |
| C126 | hk, hkSeq, plothk, plotSeqhk over a heap of Trace objects | simulation with a session of separate copies: analyses do not read the headers, figures write them before reading them |
| C127 | as C126 | counterexample in double precision; C126_shared gives the exact condition |
| C128 | synrf over a heap of arrays | simulation with objects that own copies; the methods do not write the arrays |
| C129 | as C128 | counterexample; invariant of the references and thicknesses of an object over any history |
| C130 | WaveModel, PoolModel | serial run rebuilt from the parallel one by permutation of the grid; C45, C68, C73 transferred |
| C131 | WaveModel at binary64 | forward error analysis of sum of squares, mean and root; argmin on the rounded table |
| C132 | PyplotModel: pyplot's open figures, files and windows as a state machine | induction over the figures of a call and the prefix of pyplot calls made |
| C133 | PyplotModel: pyplot's open figures, files and windows as a state machine | refutation; exact formula for the files of a session by induction over the calls |
| C134 | PyplotModel: pyplot's open figures, files and windows as a state machine | refutation; exact count by induction over the calls |
| C135 | PyplotModel: pyplot's open figures, files and windows as a state machine | refutation; case analysis over the functions |
| C136 | HkModel over the reals | triangle inequality through getamp, the sums and argmax |
| C137 | DeconModel over the complex numbers | Parseval and the bound |W|^2/D^2 <= 1/(wlevel*max) at each frequency |
| C138 | WaveModel over the reals | Minkowski's inequality for the RMSE, then argmin |
| C139 | PoolLifeModel: pools of the process with state and live workers | symbolic execution of the statements; refutation; induction over sessions |
| C140 | ReverbModel against records built from a signal and its reverberations | identity for the autocorrelation at the true lag (trend orthogonal to the record); line bound; support argument for copies of a pulse; refutation |
| C141 | ReverbModel and HkModel composed | remainder of the filter (C140) bounded sample by sample, then the recovery theorem for records whose phases stand out (C123) on the filtered record |
| C142 | ReverbModel on two records | detrending is an orthogonal projection, Cauchy-Schwarz for every autocorrelation coefficient, margin for the first trough, triangle inequality for the filtered record; refutation by a level autocorrelation |
| C143 | DeconModel, then HkModel on its result | C102 gives the distance to the ideal receiver function, C123 the winner of the search with a margin of twice that distance |
| C144 | the five H-k programs and their plot functions over a heap of arrays | simulation with results that own copies; the results hold exactly the arrays given (inversion of the five programs) and the plots change no array (C11, C80) |
| C145 | as C144 | counterexample; invariant of a dictionary over any history |
| C146 | as C143, with a second radial record | the noise bound of C137 and the loss bound of C143 added sample by sample; then the recovery lemma of C143 |
| C147 | deconv_iterative on two records; hkSynth | the best trains of spikes of two records differ by no more than the records (Pythagoras for both fits added, Cauchy-Schwarz); C101 for the iterations; the recovery lemma of C143 |
| C148 | the five loaders; histories of save_*, races of them, both installers with kill points, foreign writes | invariant: directories above the package stay, example files keep their content, on the way to them only missing directories may appear; C75 for the installers; then opening gives the same result, also the same error |
| C149 | detrending, autocorrelation, trough search and two-tap filter of a record of n samples, n growing | the train has a bounded absolute sum, so the removed line has size O(1/n) and energy O(1/n) and shifts every autocorrelation value by O(1/n); then C140_strength_bound and C141_filtered |
| C150 | the three programs in sequence, the receiver function of the first being the trace of the second | the receiver function is near the ideal one (C147's bounds), hence within the noise of the reverberating record by the triangle inequality, and C142 takes it from there |
| C151 | the three programs in sequence with the water-level deconvolution | root-sum-square distance to the ideal receiver function (Parseval, C137), then as C150 |
| C152 | deconvolution and the two stages of hkSeqSynth in sequence | distance to the ideal receiver function from C150_close_limit and C151_close, then standing-out phases (C123_hkSeqSynth) |
| C153 | deconvolution and WaveformFitting in sequence | root-sum-square distance to the ideal receiver function (C150_close_limit, C151_close), Minkowski over the window, then the best RMSE as in C138 |

A property that is false of the code is kept with its full statement; the theorems then are a machine-checked
counterexample (suffix `_refuted`) and the strongest true characterisation. MANIFEST.json marks these `partial` with
a note starting with REFUTED. At present every `partial` entry is of this kind.

## 4. Trusted base

**Kernel and logic.** Coq 8.16.1's kernel (`vm_compute` included). No axiom, parameter, admitted proof, functor or
module type of our own, no plugin. `ASSUMPTIONS.txt` (written by `tools/assumptions.py`) gives what
`Print Assumptions` lists for every theorem of MANIFEST.json; only these axioms of Coq's standard library occur:

* `ClassicalDedekindReals.sig_forall_dec`, `ClassicalDedekindReals.sig_not_dec` (construction of the reals),
* `FunctionalExtensionality.functional_extensionality_dep` (used by the reals library),
* `Classical_Prop.classic` (through the standard library's real analysis and Flocq's rounding lemmas; the theorems are listed in ASSUMPTIONS.txt).

The theorems on the file system, the process pool, dispatch, grid enumeration and everything stated for every `Num`
are closed under the global context.

**Reading of the Python source.** The transcription is by hand; every definition cites file and lines. numpy/scipy
primitives are modelled as documented: argmax/argmin (first extremum, first NaN wins), arange, slicing, 
lookups, `find_peaks` without arguments (strict or plateau maxima, plateau midpoint), `detrend` by its closed least-squares form,
`fft/ifft` by the defining sums, `correlate`, `std`, `mean`, `corrcoef`.

**Arithmetic.** Theorems over `RN` are about exact arithmetic (the note in MANIFEST.json says so); theorems over every
`Num` or `B64` cover rounding. binary64 operations are Coq's `SpecFloat` (round to nearest even); `sqrt` and division are
correctly rounded as in IEEE; `x**2` and `x**0.5`, which numpy and Python hand to libm's `pow`, are taken as the correctly rounded square and square root (Float64.v proves, with Flocq's theorems and no axiom of Flocq, that they all are). FFT code is only modelled exactly. Where numpy would continue with NaN/inf after a division
by zero in the FFT/propagator code the model stops with the outcome `NaNResult`. `1 <= K` (hypothesis `Kpos`-style) appears
in exact travel-time theorems where a real square root of a negative number would otherwise be 0 in Coq and NaN in numpy.

**Oracles** (arbitrary functions; every theorem quantifies over them): obspy `read`, `read_events`, `Stream.stack`,
trace selection, bandpass filter, TauP travel times and `gps2dist_azimuth/kilometer2degrees`, directory listing, `pg` (phase
goodness), RFStream writers (modelled up to the (file name, stream) pair handed over), pyplot (an arbitrary function that may raise; the concrete runs use `DrawSpec.pyplot`, which raises exactly for non-finite values and for grids without two different depths and two different ratios, as matplotlib does).

**Not modelled.** Wording and number format of printed lines (the printed values are modelled); line styles, colours, labels, axis cosmetics of figures; the C
implementation of multiprocessing (pickling is assumed faithful; a killed worker loses the task it holds); symlinks,
permissions and full disks; a destination directory inside the installed package; in-place changes by the caller
of the entries of a result dictionary itself (of his Trace objects: SessionModel; of arrays he handed over: ArrSessionModel, SynSessionModel); negative `delta`; Unicode case folding of method names (ASCII only);
`next_pow_2` with a wrongly rounded logarithm; the decoding of HDF5/QuakeML files (an arbitrary function of the bytes).

**Boundary cases of the FFT code.** `phaseshift` divides by cos(2 pi s/n): where that is exactly 0 over R the model answers
NaNResult, whereas numpy divides by about 6e-17.  The theorems about `phaseshift` do not speak about those shifts.  In the
legends of the saved figures (C96) the two numbers are modelled, the station name in front of them is not.

**Mutation testing.** `seeded/LOG.jsonl` records every wrong program tried against the theorems, which theorems failed and
which were tightened as a result.
