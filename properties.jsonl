{"id": "C01", "title": "getamp returns the sample nearest in time", "statement": "getamp(rfdata, tarray, t) returns rfdata at the first index whose time is closest to t (no other sample of the axis is closer; ties go to the earlier sample); with an undefined (NaN) t it returns rfdata[0]; it raises exactly when the axis is empty or the chosen index is outside rfdata.", "quantifier": "every data array, every time axis, every requested time (including NaN and out-of-range times)", "why_tests_cant": "The nearest sample depends on the whole axis and on ties/NaN; tests only sample a few times.", "anchors": ["src/rfsed/hkZhu.py:getamp", "src/rfsed/hkSeqYeck.py:getamp", "src/rfsed/hkYu.py:getamp", "src/rfsed/ReverbFilter.py:getamp", "src/rfsed/SynthAnalysis.py:getamp"]}
{"id": "C02", "title": "getamp time error is at most half a sample, and clamps outside the trace", "statement": "On the uniform axis delta*arange(l)-preonset, a requested time inside the axis is read at a sample at most delta/2 away; a time beyond the last sample silently reads the last sample and a time before the first silently reads the first.", "quantifier": "every delta>0, every length, every preonset, every requested time", "why_tests_cant": "Bound must hold for all real times and all axes.", "anchors": ["src/rfsed/hkZhu.py:getamp", "src/rfsed/hkZhu.py:hk"]}
{"id": "C03", "title": "H-k travel times are the Zhu & Kanamori delays and are correctly ordered", "statement": "For K>1, H>0 and a pre-critical ray parameter, the Ps, PpPs and PsPs+PpSs times used for a node (H,K) are H(qs-qp), H(qs+qp), 2Hqs with qs,qp the vertical S/P slownesses for Vs=Vp/K; they satisfy 0<tPs<tPpPs<tPsPs, tPs+tPpPs=tPsPs, and increase strictly with H and with K.", "quantifier": "every node, Vp and pre-critical ray parameter", "why_tests_cant": "Universally quantified real inequalities.", "anchors": ["src/rfsed/hkZhu.py:hk", "src/rfsed/SynthAnalysis.py:hkSynth", "src/rfsed/hkSeqYeck.py:hkSeq"]}
{"id": "C04", "title": "The (H,K) node is identifiable from the predicted arrivals", "statement": "Two different nodes (H,K), (H',K') with positive thickness never predict the same Ps and PpPs times at the same Vp and pre-critical ray parameter.", "quantifier": "every pair of nodes", "why_tests_cant": "Injectivity over a continuum.", "anchors": ["src/rfsed/hkZhu.py:hk"]}
{"id": "C05", "title": "The stack table enumerates the grid completely and in order", "statement": "hk/hkSynth/hkSeq/hkSeqSynth/hkYu return a stack table with exactly len(K)*len(H) rows; row i*len(H)+j carries (H[j],K[i]); no node is skipped, duplicated or written out of bounds.", "quantifier": "every pair of grids H, K (any lengths, including non-square)", "why_tests_cant": "Index arithmetic must be right for all sizes.", "anchors": ["src/rfsed/hkZhu.py:hk", "src/rfsed/SynthAnalysis.py:hkSynth", "src/rfsed/SynthAnalysis.py:hkSeqSynth", "src/rfsed/hkSeqYeck.py:hkSeq", "src/rfsed/hkYu.py:hkYu"]}
{"id": "C06", "title": "hk stack value is the weighted sum over all traces", "statement": "With stack=False, the value at a node is the sum over the traces of w1*A(tPs)+w2*A(tPpPs)-w3*A(tPsPs) with each trace's own slowness; with stack=True it is the number of traces times the value computed on the stacked trace with the average slowness.", "quantifier": "every stream, grid and weights", "why_tests_cant": "All streams and all nodes.", "anchors": ["src/rfsed/hkZhu.py:hk"]}
{"id": "C07", "title": "The best model is the global maximum of the stack, first in K-major order", "statement": "bestmodel is a row of the returned stack table whose value is >= every other row's and > every earlier row's; if some value is NaN the first NaN row is returned instead; empty grids raise.", "quantifier": "every stack table, including ties and NaN", "why_tests_cant": "Argmax over arbitrary tables incl. NaN.", "anchors": ["src/rfsed/hkZhu.py:hk", "src/rfsed/SynthAnalysis.py:hkSynth", "src/rfsed/SynthAnalysis.py:hkSeqSynth", "src/rfsed/hkSeqYeck.py:hkSeq", "src/rfsed/hkYu.py:hkYu"]}
{"id": "C08", "title": "hk does not depend on trace order or on the amplitude unit", "statement": "Permuting the traces of a stream whose traces share the sampling leaves every stack value and the best model unchanged; multiplying all amplitudes by c>0 multiplies all stack values by c and leaves the best (H,K) unchanged (exact arithmetic).", "quantifier": "every stream, every permutation, every c>0", "why_tests_cant": "All permutations and scalings.", "anchors": ["src/rfsed/hkZhu.py:hk"]}
{"id": "C09", "title": "Stacking before or after agrees for equal slowness", "statement": "If all traces have the same slowness and sampling, hk(stack=True) and hk(stack=False) return the same stack table and best model (exact arithmetic).", "quantifier": "every such stream and grid", "why_tests_cant": "All streams.", "anchors": ["src/rfsed/hkZhu.py:hk"]}
{"id": "C10", "title": "None selects the documented default", "statement": "Passing None for a velocity or a weight is the same as passing the documented default, in hk, hkSynth, hkSeq (sediment) and hkYu.", "quantifier": "every call with any subset of optional arguments None", "why_tests_cant": "All subsets of arguments and all inputs.", "anchors": ["src/rfsed/hkZhu.py:hk", "src/rfsed/SynthAnalysis.py:hkSynth", "src/rfsed/hkYu.py:hkYu", "src/rfsed/hkSeqYeck.py:hkSeq"]}
{"id": "C11", "title": "Plotting does not corrupt the H-k result", "statement": "plothk changes nothing in the result except that with rmneg the non-positive stack values become 0: rows, order, best (H,K) and positive values are unchanged, and plotting again changes nothing more; the input stream's data are untouched (only tps/tppps/tpsps headers are added when stack=False).", "quantifier": "every result table, every rmneg, repeated plotting", "why_tests_cant": "In-place mutation and aliasing for all tables/histories.", "anchors": ["src/rfsed/hkZhu.py:plothk", "src/rfsed/SynthAnalysis.py:plothkSynth", "src/rfsed/hkYu.py:plothkYu", "src/rfsed/hkSeqYeck.py:plotSeqhk"]}
{"id": "C12", "title": "plothk marks the best model's arrival times and saves exactly one figure", "statement": "plothk draws, for each plotted trace, the three arrival times of the best (H,K) at that trace's slowness, and writes exactly one file named savepath/station_channel_layer.format; a layer other than 'Moho'/'Sed' raises and writes nothing.", "quantifier": "every result and every layer name", "why_tests_cant": "All streams/layers.", "anchors": ["src/rfsed/hkZhu.py:plothk", "src/rfsed/SynthAnalysis.py:plothkSynth"]}
{"id": "C13", "title": "A post-critical ray parameter is reported to the caller", "statement": "If a trace's ray parameter exceeds 1/Vp (no propagating P leg) the call does not silently contribute garbage amplitudes to the stack.", "quantifier": "every node, Vp and ray parameter with rp>1/Vp", "why_tests_cant": "NaN/complex propagation for all values.", "anchors": ["src/rfsed/hkZhu.py:hk", "src/rfsed/SynthAnalysis.py:hkSynth", "src/rfsed/hkYu.py:hkYu"]}
{"id": "C14", "title": "Traces shorter than the first are handled", "statement": "hk reads each trace with the time axis of the first trace: a longer trace's tail is never read; the call raises IndexError exactly when some read index falls beyond the end of a shorter trace.", "quantifier": "every stream with arbitrary lengths", "why_tests_cant": "All length combinations.", "anchors": ["src/rfsed/hkZhu.py:hk"]}
{"id": "C15", "title": "Sequential stacking uses the sediment result for the Moho stage", "statement": "In hkSeq/hkSeqSynth every Moho node is evaluated with the two-layer times built from the sediment best model (H1,K1) just found, the sediment Vp and the Moho Vp; the sediment stage never reads the Moho stream's data.", "quantifier": "every pair of streams and grids", "why_tests_cant": "Cross-stage data flow for all inputs.", "anchors": ["src/rfsed/hkSeqYeck.py:hkSeq", "src/rfsed/SynthAnalysis.py:hkSeqSynth"]}
{"id": "C16", "title": "Sequential stack value sums over all traces", "statement": "With stack=False, hkSeq's value at a node is the sum over all traces of the stream of the weighted amplitudes.", "quantifier": "every stream with any number of traces", "why_tests_cant": "Needs all streams; the shipped test only checks truthiness.", "anchors": ["src/rfsed/hkSeqYeck.py:hkSeq"]}
{"id": "C17", "title": "Sequential Moho stack values are returned as computed", "statement": "The Moho stack table returned by hkSeq/hkSeqSynth holds the node values; the best Moho model is the argmax of the values before any display clipping.", "quantifier": "every stream and grid", "why_tests_cant": "In-place clipping and view aliasing for all tables.", "anchors": ["src/rfsed/hkSeqYeck.py:hkSeq", "src/rfsed/SynthAnalysis.py:hkSeqSynth"]}
{"id": "C18", "title": "Each stream is sampled on its own time axis in hkSeq", "statement": "hkSeq samples the Moho traces at the samples nearest to the predicted times on the Moho traces' own axis.", "quantifier": "every pair of streams (sampling intervals may differ)", "why_tests_cant": "All sampling combinations.", "anchors": ["src/rfsed/hkSeqYeck.py:hkSeq"]}
{"id": "C19", "title": "Synthetic and stream versions agree", "statement": "hkSynth equals hk, and hkSeqSynth equals hkSeq, on one-trace streams with the same data, axis and ray parameter.", "quantifier": "every trace, grid, weights", "why_tests_cant": "All inputs.", "anchors": ["src/rfsed/SynthAnalysis.py:hkSynth", "src/rfsed/SynthAnalysis.py:hkSeqSynth", "src/rfsed/hkZhu.py:hk", "src/rfsed/hkSeqYeck.py:hkSeq"]}
{"id": "C20", "title": "Two-layer times are consistent with one-layer times", "statement": "With zero sediment thickness the Moho-stage times equal the one-layer times; with the same velocities in both layers they equal the one-layer times for the summed thickness.", "quantifier": "every thickness, K, Vp, pre-critical ray parameter", "why_tests_cant": "Real identities.", "anchors": ["src/rfsed/hkSeqYeck.py:hkSeq", "src/rfsed/SynthAnalysis.py:hkSeqSynth"]}
{"id": "C21", "title": "hkYu's sediment thickness and P delay", "statement": "hkYu reports SedThick=tlag*VsSed/2 and Pdelay=SedThick/VsSed-SedThick/VpSed; for 0<VsSed<=VpSed, 0<=Pdelay<=tlag/2.", "quantifier": "every tlag>=0 and velocities", "why_tests_cant": "Real inequalities.", "anchors": ["src/rfsed/hkYu.py:hkYu"]}
{"id": "C22", "title": "hkYu's adjusted times are the two-layer times", "statement": "The three adjusted arrival times used by hkYu equal the two-layer Moho times with the sediment legs at vertical incidence; when no reverberation was detected (tlag=0) hkYu returns the same table as hkSynth.", "quantifier": "every node, tlag, velocities", "why_tests_cant": "Cross-module identity for all inputs.", "anchors": ["src/rfsed/hkYu.py:hkYu", "src/rfsed/SynthAnalysis.py:hkSynth", "src/rfsed/hkSeqYeck.py:hkSeq"]}
{"id": "C23", "title": "Resonance filter frequency vector matches the FFT bins", "statement": "For every trace length n>=1 (even or odd) the angular-frequency vector has exactly n entries and entry k equals dw*k modulo n*dw.", "quantifier": "every n", "why_tests_cant": "Floor-division/precedence must be right for all parities.", "anchors": ["src/rfsed/ReverbFilter.py:ResonanceFilt", "src/rfsed/SynthAnalysis.py:ResonanceFilt"]}
{"id": "C24", "title": "Resonance filtering adds the delayed, scaled trace", "statement": "filteredrf[j] = D[j] + r*D[(j-L) mod n] where D is the demeaned, detrended trace and L=tlag/delta (exact arithmetic): a circular two-tap filter.", "quantifier": "every trace and every detected lag", "why_tests_cant": "Needs a DFT theorem for every n.", "anchors": ["src/rfsed/ReverbFilter.py:ResonanceFilt", "src/rfsed/SynthAnalysis.py:ResonanceFilt"]}
{"id": "C25", "title": "No reverberation leaves the trace unfiltered", "statement": "If the autocorrelation has no interior trough then r=0, tlag=0, the filter is 1 and filteredrf is the detrended trace.", "quantifier": "every trace", "why_tests_cant": "All traces.", "anchors": ["src/rfsed/ReverbFilter.py:ResonanceFilt", "src/rfsed/SynthAnalysis.py:ResonanceFilt"]}
{"id": "C26", "title": "tlag is the first autocorrelation trough and r lies in [0,1]", "statement": "If a reverberation is detected, tlag/delta is the first strict (or plateau) local minimum of the autocorrelation, is between 1 and n-2 samples, autoc[0]=1 and 0<=r<=1.", "quantifier": "every trace that is not a straight line", "why_tests_cant": "Cauchy-Schwarz for every trace; first-peak search for all sequences.", "anchors": ["src/rfsed/ReverbFilter.py:ResonanceFilt", "src/rfsed/SynthAnalysis.py:ResonanceFilt"]}
{"id": "C27", "title": "Detrending removes any straight line", "statement": "Adding any straight line a+b*j to the trace does not change D, autoc, r, tlag or filteredrf; D has zero mean.", "quantifier": "every trace and every line", "why_tests_cant": "All traces and lines.", "anchors": ["src/rfsed/ReverbFilter.py:ResonanceFilt", "src/rfsed/SynthAnalysis.py:ResonanceFilt"]}
{"id": "C28", "title": "The stream and synthetic resonance filters agree", "statement": "ReverbFilter.ResonanceFilt on a stream equals SynthAnalysis.ResonanceFilt on its stacked trace and the time axis delta*arange-preonset (exact arithmetic).", "quantifier": "every stream", "why_tests_cant": "All inputs.", "anchors": ["src/rfsed/ReverbFilter.py:ResonanceFilt", "src/rfsed/SynthAnalysis.py:ResonanceFilt"]}
{"id": "C29", "title": "Layer thicknesses reproduce the depths", "statement": "synrf converts depths to thicknesses whose running sums are the depths; the number of layers is preserved.", "quantifier": "every depth list", "why_tests_cant": "All lengths.", "anchors": ["src/rfsed/synrf.py:synrf.__init__"]}
{"id": "C30", "title": "Splitting a layer does not change the response", "statement": "Propagating through two layers of the same material is propagating through one of the summed thickness; a zero-thickness layer is the identity: the response and the synthetic seismograms are invariant under subdividing any layer of a model of two or more layers. In a one-layer model the layer is the half-space itself, its thickness is ignored, and cutting it adds the travel phase of the whole thickness to both components.", "quantifier": "every stack of layers, frequency, pre-critical ray parameter", "why_tests_cant": "Matrix group law for all reals.", "anchors": ["src/rfsed/synrf.py:propagator_sol", "src/rfsed/synrf.py:haskell"]}
{"id": "C31", "title": "The thickness of the deepest layer does not affect the receiver function", "statement": "Changing the bottom layer's thickness multiplies radial and vertical response by the same unit-modulus phase, so their ratio is unchanged.", "quantifier": "every model, frequency, thickness", "why_tests_cant": "All reals; hard-coded 77.5 km.", "anchors": ["src/rfsed/synrf.py:haskell", "src/rfsed/synrf.py:e_inverse"]}
{"id": "C32", "title": "Vertical incidence produces no P-to-S conversion", "statement": "With rayp=0 the radial response is zero at every frequency and the radial seismogram is identically zero (for incident S: the vertical one).", "quantifier": "every layered model", "why_tests_cant": "All models.", "anchors": ["src/rfsed/synrf.py:haskell", "src/rfsed/synrf.py:propagator_sol"]}
{"id": "C33", "title": "The propagator is unimodular", "statement": "det of the layer propagator is 1 for every layer, hence for every stack of layers, and the vertical energy flux above and below the stack is the same (no energy creation in the elastic stack).", "quantifier": "every stack of layers", "why_tests_cant": "All reals.", "anchors": ["src/rfsed/synrf.py:propagator_sol"]}
{"id": "C34", "title": "The Gaussian filter is a symmetric low-pass with unit DC gain", "statement": "For even nft the filter has nft samples, value 1/dt at DC, is non-increasing up to Nyquist and symmetric (g[k]=g[nft-k]).", "quantifier": "every even nft, dt>0, gaussian>0", "why_tests_cant": "All sizes.", "anchors": ["src/rfsed/synrf.py:gaussFilter"]}
{"id": "C35", "title": "Gaussian filtering is linear and commutes with circular shifts, and keeps signals real", "statement": "gfilter(x) for a real signal is the circular convolution of x with a real even kernel; no imaginary part is discarded.", "quantifier": "every signal and even nft", "why_tests_cant": "DFT theorem for all n.", "anchors": ["src/rfsed/synrf.py:gfilter"]}
{"id": "C36", "title": "phaseshift delays by exactly preonset", "statement": "phaseshift(x,nfft,dt,preonset) is x circularly delayed by int(preonset/dt) samples, for every shift except odd multiples of a quarter of the window, where the formula divides by zero.", "quantifier": "every real signal, nfft, dt, preonset", "why_tests_cant": "Trigonometric identity for every size and shift, with an exactly characterised singular set.", "anchors": ["src/rfsed/synrf.py:phaseshift"]}
{"id": "C37", "title": "Iterative deconvolution terminates and places causal spikes only", "statement": "deconv_iterative performs at most itmax iterations; the spike train has at most it non-zero entries, all at lags < nfft/2-1 for phase P.", "quantifier": "every pair of traces and every parameter", "why_tests_cant": "Loop invariant for all inputs.", "anchors": ["src/rfsed/synrf.py:deconv_iterative"]}
{"id": "C38", "title": "Each iteration reduces the residual", "statement": "In exact arithmetic the normalised residual never increases from one iteration to the next and stays in [0,1].", "quantifier": "every pair of traces (non-zero source)", "why_tests_cant": "Matching-pursuit argument for all inputs.", "anchors": ["src/rfsed/synrf.py:deconv_iterative"]}
{"id": "C39", "title": "The returned rms history has one entry per iteration", "statement": "deconv_iterative returns rms with one entry per performed iteration, the last one describing the returned receiver function.", "quantifier": "every input", "why_tests_cant": "All runs incl. 0 and 1 iterations.", "anchors": ["src/rfsed/synrf.py:deconv_iterative"]}
{"id": "C40", "title": "Bad deconvolution requests are rejected before computing", "statement": "Traces of different length or an unknown method raise ValueError; method names are case-insensitive; 'iter' and 'water' dispatch to the corresponding algorithm.", "quantifier": "every method string and lengths", "why_tests_cant": "All strings.", "anchors": ["src/rfsed/synrf.py:deconvolve", "src/rfsed/synrf.py:RFTrace.deconvolve", "src/rfsed/synrf.py:deconv_iterative", "src/rfsed/synrf.py:deconv_waterlevel"]}
{"id": "C41", "title": "Water level bounds the spectral division", "statement": "After water-level correction every denominator is at least wlevel*max power (so positive for a non-zero source and 0<wlevel), entries above the level are unchanged; with wlevel=0 and no spectral zero the spectral division is exact.", "quantifier": "every source spectrum and level", "why_tests_cant": "All spectra.", "anchors": ["src/rfsed/synrf.py:deconv_waterlevel"]}
{"id": "C42", "title": "synrf object protocol", "statement": "filter/run_deconvolution before run_fwd raise; run_fwd fully resets the traces (history-independent); run_deconvolution with pre_filt=None leaves the stored traces unchanged and can be repeated with the same result.", "quantifier": "every sequence of method calls", "why_tests_cant": "Histories of calls.", "anchors": ["src/rfsed/synrf.py:synrf"]}
{"id": "C43", "title": "One synthetic trace per ray parameter", "statement": "A float rayp yields one trace, a list/array of m ray parameters yields m traces in order; any other type is rejected with TypeError.", "quantifier": "every rayp value", "why_tests_cant": "All values.", "anchors": ["src/rfsed/synrf.py:synrf.__init__", "src/rfsed/synrf.py:synrf.run_fwd", "src/rfsed/synrf.py:synrf.run_deconvolution"]}
{"id": "C44", "title": "The fit window starts at P and covers 25 s", "statement": "WaveformFitting/WaveformPara fit samples from the sample with t=0 for int(25/delta) samples (fewer only if the trace is shorter), for any delta for which the P arrival is a sample.", "quantifier": "every delta, preonset, length (binary64 included)", "why_tests_cant": "Floating-point equality t==0 for all deltas.", "anchors": ["src/rfsed/WaveformFitting.py:WaveformFitting", "src/rfsed/WaveformFittingMultiproc.py:WaveformPara"]}
{"id": "C45", "title": "Serial and multiprocessing waveform fitting agree", "statement": "WaveformFitting and run_waveformfitting+plotbestmodel evaluate the same multiset of solutions and report the same best models.", "quantifier": "every grid and misfit values", "why_tests_cant": "All misfit landscapes incl. ties.", "anchors": ["src/rfsed/WaveformFitting.py:WaveformFitting", "src/rfsed/WaveformFittingMultiproc.py:run_waveformfitting", "src/rfsed/WaveformFittingMultiproc.py:plotbestmodel"]}
{"id": "C46", "title": "Parallel runs are schedule independent", "statement": "run_waveformfitting, Get_Eqtimes_multiproc and ExtractEq_Multiproc return/write the same result for every nproc and every completion order of the workers: item k of the result belongs to item k of the input, nothing lost or duplicated.", "quantifier": "every schedule and every nproc>=1", "why_tests_cant": "Schedules.", "anchors": ["src/rfsed/WaveformFittingMultiproc.py:run_waveformfitting", "src/rfsed/ExtractEqMultiproc.py:Get_Eqtimes_multiproc", "src/rfsed/ExtractEqMultiproc.py:ExtractEq_Multiproc"]}
{"id": "C47", "title": "Goodness of fit ranks better models higher", "statement": "A solution at least as good in correlation, RMSE and PG has a GoF at least as high; with weights summing to 1 GoF<=1; wtCorr=1 selects the best-correlation model.", "quantifier": "every solution table and non-negative weights", "why_tests_cant": "All tables.", "anchors": ["src/rfsed/WaveformFitting.py:WaveformFitting", "src/rfsed/WaveformFittingMultiproc.py:plotbestmodel"]}
{"id": "C48", "title": "Changing the weights before plotting changes the plotted GoF model", "statement": "PlotWaveformFitting plots the best model for the weights passed to it.", "quantifier": "every table and weights", "why_tests_cant": "All weights.", "anchors": ["src/rfsed/WaveformFitting.py:PlotWaveformFitting"]}
{"id": "C49", "title": "plotbestmodel tolerates a result list that does not match ModelParams", "statement": "If the results come from a different depth grid than ModelParams, plotbestmodel does not report a model that was never evaluated.", "quantifier": "every pair of result list / parameter grids", "why_tests_cant": "All size mismatches.", "anchors": ["src/rfsed/WaveformFittingMultiproc.py:plotbestmodel"]}
{"id": "C50", "title": "ExtractEq writes exactly the fully covered windows", "statement": "The written stream is, in file order then event order, the data of every (file,event) pair whose whole request window lies inside the file's first trace, with onset = origin time + first arrival time on every extracted trace.", "quantifier": "every set of files and catalog", "why_tests_cant": "All catalogs/files.", "anchors": ["src/rfsed/ExtractEq.py:ExtractEq"]}
{"id": "C51", "title": "The request window is insensitive to sign", "statement": "The extracted window is [onset-|w0|, onset+|w1|] for every sign combination of the request window and contains the onset.", "quantifier": "every window", "why_tests_cant": "All signs.", "anchors": ["src/rfsed/ExtractEq.py:ExtractEq", "src/rfsed/ExtractEqMultiproc.py:Eq_times"]}
{"id": "C52", "title": "Serial and multiprocessing extraction agree", "statement": "ExtractEq and ExtractEq_Multiproc write the same data for the same files, catalog and window.", "quantifier": "every set of files and catalog", "why_tests_cant": "All files/catalogs.", "anchors": ["src/rfsed/ExtractEq.py:ExtractEq", "src/rfsed/ExtractEqMultiproc.py:ExtractEq_Multiproc"]}
{"id": "C53", "title": "Every extracted trace carries the onset of its own event", "statement": "In ExtractEq_Multiproc each written trace's onset is the onset of the window it was cut with, traces appear in file order then event order.", "quantifier": "every set of files/windows", "why_tests_cant": "All inputs; loop variable shadowing.", "anchors": ["src/rfsed/ExtractEqMultiproc.py:Get_EqStream_multiproc", "src/rfsed/ExtractEqMultiproc.py:ExtractEq_Multiproc"]}
{"id": "C54", "title": "save_* directory helpers are idempotent and only create their directory", "statement": "Each save_* helper returns a directory that exists afterwards, creates nothing else, and can be called again; two processes may call it concurrently.", "quantifier": "every file system state, every interleaving of two callers", "why_tests_cant": "File-system states and interleavings.", "anchors": ["src/rfsed/util.py:save_Eq_data", "src/rfsed/util.py:save_IRIS_waveform", "src/rfsed/util.py:save_calculated_RF", "src/rfsed/util.py:save_catalog", "src/rfsed/util.py:save_plot", "src/rfsed/util.py:save_tests"]}
{"id": "C55", "title": "install_examples copies everything and touches nothing else", "statement": "After install_examples(path) every packaged example/data file exists under path with the packaged content, colliding files are overwritten, all other files are unchanged; repeating the call changes nothing.", "quantifier": "every file system state", "why_tests_cant": "All file-system states.", "anchors": ["src/rfsed/util.py:install_examples", "src/rfsed/util.py:install_rfsed_tests"]}
{"id": "C56", "title": "Figures of different analyses do not overwrite each other", "statement": "Two plot calls for different stations, channels or layers write different files.", "quantifier": "every pair of result dictionaries", "why_tests_cant": "All names.", "anchors": ["src/rfsed/hkZhu.py:plothk", "src/rfsed/hkSeqYeck.py:plotSeqhk", "src/rfsed/hkYu.py:plothkYu", "src/rfsed/ReverbFilter.py:plotfiltrf", "src/rfsed/WaveformFitting.py:PlotWaveformFitting"]}
{"id": "C57", "title": "The resonance filter does not depend on the amplitude unit", "statement": "Multiplying the trace by any non-zero constant leaves autoc, r, tlag and the filter unchanged and multiplies filteredrf by that constant (exact arithmetic).", "quantifier": "every trace and every non-zero factor", "why_tests_cant": "All traces and factors; needs equivariance of detrending, correlation, peak search and the DFT.", "anchors": ["src/rfsed/ReverbFilter.py:ResonanceFilt", "src/rfsed/SynthAnalysis.py:ResonanceFilt"]}
{"id": "C58", "title": "A single arrival is recovered exactly by both deconvolutions", "statement": "If the numerator trace is the source delayed by d samples (inside the allowed lags, without wrap-around of the source) and scaled by c, iterative deconvolution returns c/dt times the Gaussian pulse delayed by d plus the pre-onset shift, with zero residual history and at most two iterations; water-level deconvolution with no level and no spectral zero returns the same pulse, and its normalised form peaks at exactly c. In particular a trace deconvolved by itself is a unit pulse at the onset.", "quantifier": "every source, delay, scale factor, sampling and Gaussian width", "why_tests_cant": "Holds for all sources; needs uniqueness of the greedy step and injectivity of the filter.", "anchors": ["src/rfsed/synrf.py:deconv_iterative", "src/rfsed/synrf.py:deconv_waterlevel"]}
{"id": "C59", "title": "Deconvolution only sees amplitude ratios", "statement": "Scaling the numerator by c and the source by d (both non-zero) scales the receiver function by c/d and leaves the residual history and the iteration count unchanged, for both methods.", "quantifier": "every pair of traces and scale factors (gain, polarity)", "why_tests_cant": "Whole-run simulation argument over all inputs including tie-breaks and the stopping rule.", "anchors": ["src/rfsed/synrf.py:deconv_iterative", "src/rfsed/synrf.py:deconv_waterlevel"]}
{"id": "C60", "title": "The forward model never divides by zero for an elastic model", "statement": "For every non-empty stack of layers with positive density and velocities and a slowness below every layer slowness, haskell returns a finite, nonzero pair at every nonzero frequency: the 2x2 system it inverts is never singular.", "quantifier": "every stack, frequency, pre-critical slowness", "why_tests_cant": "All reals; needs energy conservation.", "anchors": ["src/rfsed/synrf.py:haskell", "src/rfsed/synrf.py:e_inverse", "src/rfsed/synrf.py:propagator_sol"]}
{"id": "C61", "title": "haskell returns the free-surface response", "statement": "The returned pair is the displacement of the stress-free surface of elastic layers in welded contact over a half-space of the deepest material, for an incident P (ipha>=0) or S (ipha<0) wave of unit amplitude, and it is the only such pair.", "quantifier": "every stack of layers, frequency, pre-critical slowness", "why_tests_cant": "A boundary value problem over all real inputs.", "anchors": ["src/rfsed/synrf.py:haskell"]}
{"id": "C62", "title": "The propagator solves the elastic wave equation", "statement": "A motion-stress field satisfies Hooke's law and the equations of motion in a homogeneous layer iff its value at every depth is propagator_sol applied to its value at the top.", "quantifier": "every layer, frequency, depth, field", "why_tests_cant": "Differential equation; all reals.", "anchors": ["src/rfsed/synrf.py:propagator_sol"]}
{"id": "C63", "title": "Post-critical slownesses give no numbers", "statement": "If the slowness is at or above the P or S slowness of some layer, the forward model's result is NaN, not a silently wrong waveform.", "quantifier": "every stack containing such a layer", "why_tests_cant": "All reals.", "anchors": ["src/rfsed/synrf.py:haskell", "src/rfsed/synrf.py:e_inverse", "src/rfsed/synrf.py:propagator_sol"]}
{"id": "C64", "title": "The synthetic seismograms are the time-domain free-surface motion", "statement": "fwd_seis returns two records of npts samples; sample k is the surface motion at time (k+1)*dt synthesised from the free-surface responses at the frequencies 1..n/2 of the padded record, vertical positive upward; the mean is left out.", "quantifier": "every model, npts, dt, pre-critical slowness", "why_tests_cant": "All models and lengths.", "anchors": ["src/rfsed/synrf.py:fwd_seis"]}
{"id": "C65", "title": "A pre-filter accumulates over repeated deconvolutions", "statement": "run_deconvolution with a pre_filt (also the default one) filters the stored radial and vertical traces in place before deconvolving: n identical calls leave every stored trace filtered n times, and the n-th result is the deconvolution of the n times filtered traces; only run_fwd undoes it.", "quantifier": "every object state after run_fwd, every filter, every number of repeated calls", "why_tests_cant": "All call counts and filters; needs an invariant over histories.", "anchors": ["src/rfsed/synrf.py:synrf.run_deconvolution", "src/rfsed/synrf.py:synrf.filter"]}
{"id": "C66", "title": "A killed worker never yields a wrong or partial result", "statement": "If a worker process of one of the parallel functions is killed while it holds a task, the call never returns a wrong, reordered or partial result: whenever it returns at all the result is the complete one, and if a task was lost it does not return.", "quantifier": "every schedule and every set of crash points", "why_tests_cant": "Crash points and schedules.", "anchors": ["src/rfsed/WaveformFittingMultiproc.py:run_waveformfitting", "src/rfsed/ExtractEqMultiproc.py:Get_Eqtimes_multiproc", "src/rfsed/ExtractEqMultiproc.py:ExtractEq_Multiproc"]}
{"id": "C67", "title": "ExtractEq_Multiproc writes everything ExtractEq writes, plus partially covered windows", "statement": "For the same files in name order, catalog and window, the stream written by ExtractEq is a subsequence of the one written by ExtractEq_Multiproc; they are equal if windows not covered by a file's first trace read no data.", "quantifier": "every set of files, catalog, window, number of processes and schedule", "why_tests_cant": "All archives and schedules.", "anchors": ["src/rfsed/ExtractEq.py:ExtractEq", "src/rfsed/ExtractEqMultiproc.py:ExtractEq_Multiproc"]}
{"id": "C68", "title": "A model that reproduces the data wins", "statement": "If at some grid point the synthetic equals the stacked record in the fit window, the model reported as best by RMSE has RMSE 0 and reproduces the record in the window; it is that grid point if no other reproduces it; the best reported correlation is 1 if the record is not constant there.", "quantifier": "every stream, grid, forward model", "why_tests_cant": "All records and grids.", "anchors": ["src/rfsed/WaveformFitting.py:WaveformFitting"]}
{"id": "C69", "title": "The plotted synthetic is the one that was scored", "statement": "In each figure of plotbestmodel the synthetic beside the stacked record has, over the fit window, exactly the correlation and RMSE reported for the marked model; for PlotWaveformFitting the same if the header pre-onset |starttime-onset| equals the fitted |preonset|.", "quantifier": "every stream, grid, forward model and weights", "why_tests_cant": "All inputs.", "anchors": ["src/rfsed/WaveformFitting.py:PlotWaveformFitting", "src/rfsed/WaveformFittingMultiproc.py:plotbestmodel"]}
{"id": "C70", "title": "The fit criteria are Pearson's correlation and the root mean square difference", "statement": "The table has exactly one row per grid point; its correlation is Pearson's coefficient (in [-1,1]; equal to 1 exactly when the synthetic is a positive multiple of the record plus a constant) and its RMSE the root mean square difference, both between the 25 s windows of the stacked record and of the synthetic of that grid point (exact arithmetic, records not constant for the correlation).", "quantifier": "every stream, grid, forward model", "why_tests_cant": "All records; Cauchy-Schwarz and its equality case.", "anchors": ["src/rfsed/WaveformFitting.py:WaveformFitting", "src/rfsed/WaveformFittingMultiproc.py:WaveformFit_multiproc"]}
{"id": "C71", "title": "A table row measures the free-surface response of its elastic model", "statement": "The synthetic of the grid point (H, Vp/Vs) is the default iterative deconvolution of the radial by the vertical surface response of the three-layer elastic model (sediment of thickness HSed, crust down to H with Vs=VpCrust/(Vp/Vs), fixed mantle half-space) to a P wave from below, both band-passed twice between 0.05 and 1.25 Hz.", "quantifier": "every stream, grid and pre-critical model", "why_tests_cant": "Composition of the forward model, object protocol and fit for all inputs.", "anchors": ["src/rfsed/WaveformFitting.py:WaveformFitting", "src/rfsed/synrf.py:synrf", "src/rfsed/synrf.py:fwd_seis"]}
{"id": "C72", "title": "The waveform figures mark the printed models", "statement": "PlotWaveformFitting and plotbestmodel save, in this order, the correlation, RMSE, PG and GoF figures, each with the criterion of the whole table and marked at exactly the model printed as best for it, in four different files savepath/station_label.format; all four exactly when the call returns, otherwise a prefix of them.", "quantifier": "every result and every failure point of the drawing", "why_tests_cant": "All results and failure points.", "anchors": ["src/rfsed/WaveformFitting.py:PlotWaveformFitting", "src/rfsed/WaveformFittingMultiproc.py:plotbestmodel"]}
{"id": "C73", "title": "Waveform fitting completes on well-formed input", "statement": "With the P arrival on a sample of the stream and of the stack, at least one sample in 25 s, a non-empty grid and a forward model and phase criterion that answer at the grid points, WaveformFitting returns (exact arithmetic).", "quantifier": "every stream, grid, forward model", "why_tests_cant": "All inputs.", "anchors": ["src/rfsed/WaveformFitting.py:WaveformFitting", "src/rfsed/WaveformFittingMultiproc.py:WaveformPara"]}
{"id": "C74", "title": "A killed installation can be completed by running it again", "statement": "If install_examples is killed before any of its system calls, nothing but the installed paths is affected, every installed path holds its old content, nothing, or a beginning of the packaged content, and a new process that calls install_examples again ends in exactly the state of an undisturbed installation.", "quantifier": "every file system in which nothing of the wrong kind is in the way, every packaged tree, every kill point", "why_tests_cant": "All crash points of all trees.", "anchors": ["src/rfsed/util.py:install_examples"]}
{"id": "C75", "title": "An installation never damages anything else", "statement": "For every file system, every obstacle, every previous call in the process and every kill point, install_examples and install_rfsed_tests change only packaged paths (or, when a directory sits where a packaged file goes, the file of that name inside it) and create missing directories above the destination; no existing directory disappears; the only exception raised is DistutilsFileError.", "quantifier": "every file system state, history and kill point", "why_tests_cant": "All file systems, all error paths.", "anchors": ["src/rfsed/util.py:install_examples", "src/rfsed/util.py:install_rfsed_tests"]}
{"id": "C76", "title": "Concurrent save_* callers", "statement": "Under every interleaving of any number of processes calling save_* helpers: only the helpers' own directories appear, every caller that finished left its directory in place, the only failure is FileExistsError and only for a caller that lost the race against another caller of the same helper; at least one caller of each helper succeeds; callers of different helpers or of already existing directories never fail.", "quantifier": "every interleaving of any number of callers", "why_tests_cant": "Interleavings.", "anchors": ["src/rfsed/util.py:save_Eq_data", "src/rfsed/util.py:save_plot", "src/rfsed/util.py:save_tests"]}
{"id": "C77", "title": "The H-k programs complete on well-formed input", "statement": "For non-empty grids, a non-empty time axis, traces at least as long as the axis they are read on, non-zero velocities and every weight/velocity without a working default given explicitly, hk, hkSynth, hkSeq, hkSeqSynth and hkYu compute the table of the whole grid and raise nothing of their own: the call returns that table unless pyplot refuses to draw it, and then it raises what pyplot raised. (What pyplot refuses is C121 and C122.)", "quantifier": "all streams, grids, weights, velocities and slownesses in any arithmetic, including binary64 with NaN or infinite samples", "why_tests_cant": "a test exercises a handful of grids; completion must hold for every grid shape, trace count and sample value", "anchors": ["src/rfsed/hkZhu.py:hk", "src/rfsed/hkSeqYeck.py:hkSeq", "src/rfsed/hkYu.py:hkYu", "src/rfsed/SynthAnalysis.py:hkSynth", "src/rfsed/SynthAnalysis.py:hkSeqSynth"]}
{"id": "C78", "title": "H-k stacking recovers the crust that produced the receiver functions", "statement": "If every trace is the ideal response of a crust (H0,K0) on the grid (largest amplitude A at the samples nearest to Ps and PpPs, -A at PpSs+PsPs, smaller amplitudes elsewhere), the record covers the grid's predicted arrivals and every other node differs by more than the sampling resolution, then bestmodel is exactly (H0,K0) with value A(w1+w2+w3) per trace; likewise for both stages of the sequential programs and for hkYu with the sediment-shifted times.", "quantifier": "all grids, crusts, slownesses, sampling intervals, numbers of traces, positive weights (exact arithmetic)", "why_tests_cant": "a test recovers one crust on one grid; the resolution bound is a statement about all of them", "anchors": ["src/rfsed/hkZhu.py:hk", "src/rfsed/hkSeqYeck.py:hkSeq", "src/rfsed/hkYu.py:hkYu", "src/rfsed/SynthAnalysis.py:hkSynth", "src/rfsed/SynthAnalysis.py:hkSeqSynth"]}
{"id": "C79", "title": "The resonance filter can be undone", "statement": "The reverberation strength r returned by ResonanceFilt is always strictly below 1, the filter's gain lies between 1-r and 1+r at every frequency, the detrended receiver function is the only signal with the returned filtered trace, and a trace that is a signal plus its own reverberation with the found strength and lag is filtered to exactly that signal.", "quantifier": "all non-empty traces and sampling intervals (exact arithmetic)", "why_tests_cant": "strictness and uniqueness are statements about every trace", "anchors": ["src/rfsed/ReverbFilter.py:ResonanceFilt", "src/rfsed/SynthAnalysis.py:ResonanceFilt"]}
{"id": "C80", "title": "Plotting the sequential, Yu and synthetic H-k results never corrupts them and writes only their figures", "statement": "Whatever pyplot does (it may raise at any call), plotSeqhk, plothkYu, plothkSynth and plothkSeqSynth leave every entry of the result dictionary as it was, except the arrival-time headers of the plotted traces (plotSeqhk with stack=False) and, when rmneg is on, the non-positive values of the stack tables, which become 0; the only files written are the program's own one or two figures, in order, all of them if the call returns.", "quantifier": "all results, arguments, arithmetics, pyplot behaviours and outcomes (return or exception at any point)", "why_tests_cant": "a test sees one failure point; the claim is about every one", "anchors": ["src/rfsed/hkSeqYeck.py:plotSeqhk", "src/rfsed/hkYu.py:plothkYu", "src/rfsed/SynthAnalysis.py:plothkSynth", "src/rfsed/SynthAnalysis.py:plothkSeqSynth"]}
{"id": "C81", "title": "Every H-k figure shows the model it is saved for", "statement": "When plotSeqhk, plothkYu, plothkSynth or plothkSeqSynth returns, each saved figure shows the table of its own layer, a marker at that layer's best row and marks exactly at the Ps, PpPs and PpSs+PsPs times this row predicts (two-layer times with the sediment row on top for the Moho figures, sediment-shifted times for plothkYu), for each plotted trace's own ray parameter (the average one when stacked), with the documented gains; nothing of one figure appears in the other.", "quantifier": "all results, grids, velocities, gains, formats and pyplot behaviours for which the call returns (exact arithmetic, pre-critical ray parameters)", "why_tests_cant": "figures are not inspected by unit tests, and the claim ranges over all tables and streams", "anchors": ["src/rfsed/hkSeqYeck.py:plotSeqhk", "src/rfsed/hkYu.py:plothkYu", "src/rfsed/SynthAnalysis.py:plothkSynth", "src/rfsed/SynthAnalysis.py:plothkSeqSynth"]}
{"id": "C82", "title": "In double precision the predicted delays are accurate to 1e-13", "statement": "For velocities, thicknesses and Vp/Vs of any usual size (2^-20..2^20) and ray parameters below 2/3 of the P slowness, the three delays that hk, hkSynth and the sediment stages compute in IEEE double precision are finite and differ from the Zhu & Kanamori delays by less than 2^-46 (1.5e-14) of the PpPs delay, the rounding of km2deg*slowness included.", "quantifier": "all doubles within these ranges", "why_tests_cant": "every rounding pattern of six rounded operations and two square roots; cancellation in the Ps delay is the risk a few test values do not exclude", "anchors": ["src/rfsed/hkZhu.py:hk", "src/rfsed/SynthAnalysis.py:hkSynth", "src/rfsed/hkSeqYeck.py:hkSeq"]}
{"id": "C83", "title": "In double precision every amplitude is read within half a sample of the true arrival", "statement": "getamp on a double-precision time axis returns the sample nearest to the requested time up to one part in 2^51; in hk every amplitude entering the stack is a sample whose true time is within half a sampling interval, plus 2^-43 of the record length, of the exact arrival time of the node.", "quantifier": "all records, sampling intervals, onsets, models and double-precision inputs of usual size", "why_tests_cant": "a rounding error that selects a wrong sample shows for rare times only", "anchors": ["src/rfsed/hkZhu.py:getamp", "src/rfsed/hkZhu.py:hk"]}
{"id": "C84", "title": "In double precision a stack value is the weighted sum over the traces up to a stated rounding error", "statement": "With n traces, the value hk stores for a node is finite and differs from the exact sum of w1*A(tPs)+w2*A(tPpPs)-w3*A(tPsPs) over the samples read by at most (n+3)*2^-52 times the sum of the magnitudes of the weighted amplitudes (plus n*2^-1000).", "quantifier": "all streams of up to 2^20 traces, weights up to 2^10, amplitudes up to 2^50", "why_tests_cant": "accumulated rounding over any number of traces", "anchors": ["src/rfsed/hkZhu.py:hk"]}
{"id": "C85", "title": "Rounding can only exchange models of nearly equal stack value", "statement": "No node of the grid has an exact stack value that exceeds that of the reported best model by more than the two nodes' rounding error bounds.", "quantifier": "all grids, streams and double-precision inputs of usual size", "why_tests_cant": "a statement about every pair of nodes", "anchors": ["src/rfsed/hkZhu.py:hk"]}
{"id": "C86", "title": "In double precision hk recovers the crust that produced the receiver functions", "statement": "If every trace carries pulses A, A, -A at the samples within the time resolution of the Ps, PpPs and PpSs+PsPs times of a model (H0,K0) on the grid, at most B<A elsewhere, the record covers the arrivals of the grid, every other node is resolved on some trace and min(w)*(A-B) exceeds twice the rounding error bound, then the double-precision run reports (H0,K0), with a value within the bound of n*A*(w1+w2+w3).", "quantifier": "all such grids, streams and doubles of usual size", "why_tests_cant": "an end-to-end statement about every grid and record", "anchors": ["src/rfsed/hkZhu.py:hk"]}
{"id": "C87", "title": "The resonance filter leaves a trace alone exactly when it is a straight line", "statement": "ResonanceFilt reports tlag = 0 if and only if the (stacked) trace is a straight line. For every other trace the autocorrelation of the detrended trace has a trough, and the filter takes the first one: a lag of at least one and at most n-2 samples. In particular a trace without any reverberation (a lone spike) is filtered too.", "quantifier": "every trace of every length, every sampling interval", "why_tests_cant": "The existence of a trough follows from two moment identities and Chebyshev's sum inequality over all traces and lengths.", "anchors": ["src/rfsed/ReverbFilter.py:ResonanceFilt", "src/rfsed/SynthAnalysis.py:ResonanceFilt"]}
{"id": "C88", "title": "The lag used by the resonance filter is an anticorrelation, so filtering removes energy", "statement": "The autocorrelation at the lag used by ResonanceFilt is negative (a reverberation of alternating sign) and the filtered trace has less energy than the detrended one.", "quantifier": "every trace that is not a straight line", "why_tests_cant": "Universally quantified over traces; the exact energy balance holds for all of them, the sign does not.", "anchors": ["src/rfsed/ReverbFilter.py:ResonanceFilt", "src/rfsed/SynthAnalysis.py:ResonanceFilt"]}
{"id": "C89", "title": "In double precision the two-layer and sediment-shifted delays are accurate to 3e-14", "statement": "For sediment and crust of any usual size (2^-20..2^20) and pre-critical ray parameters, the three delays hkSeq, hkSeqSynth (two layers) and hkYu (vertical sediment legs from tlag) compute in IEEE double precision are finite and differ from the exact two-layer delays by at most 2^-45 of the PpPs delay; the sediment thickness hkYu reports is within 2^-50 (relative) of tlag*VsSed/2.", "quantifier": "all doubles within these ranges, the rounding of km2deg*slowness included", "why_tests_cant": "every rounding pattern of some twenty rounded operations and four square roots, with cancellation in the Ps delay", "anchors": ["src/rfsed/hkSeqYeck.py:hkSeq", "src/rfsed/SynthAnalysis.py:hkSeqSynth", "src/rfsed/hkYu.py:hkYu"]}
{"id": "C90", "title": "In double precision every table holds the weighted sums at the predicted arrivals, and its best row is a best model up to rounding", "statement": "For hkSynth, hkSeqSynth, hkSeq (stack False or True), hkYu and hk with stack=True, run in IEEE double precision on a record of usual size: every node of the grid has one row in K-major order whose finite value differs from the weighted sum (its positive part in the Moho tables) of three samples within the time resolution of the exact arrivals by at most a stated rounding error; no other node's exact sum exceeds that of the reported row by more than the two rounding errors.", "quantifier": "all grids, records, weights and double-precision inputs of usual size", "why_tests_cant": "rounding may select another sample or another row only for rare inputs", "anchors": ["src/rfsed/hkSeqYeck.py:hkSeq", "src/rfsed/SynthAnalysis.py:hkSynth", "src/rfsed/SynthAnalysis.py:hkSeqSynth", "src/rfsed/hkYu.py:hkYu", "src/rfsed/hkZhu.py:hk"]}
{"id": "C91", "title": "In double precision every H-k program recovers the model that produced its record", "statement": "If the record given to hkSynth, hkYu, hkSeqSynth, hkSeq or hk(stack=True) carries pulses A, A, -A at the samples within the time resolution of the three arrivals of a grid model and at most B<A elsewhere, the other nodes are resolved and min(w)*(A-B) exceeds the rounding errors, the double-precision run reports that model, with the value A*(w1+w2+w3) (times the number of traces for hk) up to a stated relative error; in the sequential programs both the sediment and, below it, the crust.", "quantifier": "all such grids, records and doubles of usual size", "why_tests_cant": "an end-to-end statement about every grid and record", "anchors": ["src/rfsed/hkSeqYeck.py:hkSeq", "src/rfsed/SynthAnalysis.py:hkSynth", "src/rfsed/SynthAnalysis.py:hkSeqSynth", "src/rfsed/hkYu.py:hkYu", "src/rfsed/hkZhu.py:hk"]}
{"id": "C92", "title": "The printed report gives the best model and its stack value", "statement": "Every 'Best ... Max stack' line printed by hk, hkSynth, hkYu, hkSeq and hkSeqSynth gives the depth, the Vp/Vs and the stack value of the model returned as best for that layer, the value being the maximum of the returned table; hkYu also prints the sediment thickness it returns; a run that raises has printed nothing about a stage it did not complete.", "quantifier": "all inputs, all pyplot behaviours (any call may raise), any arithmetic with ordered comparison", "why_tests_cant": "console output is not tested; the claim relates what is printed to the returned arrays for all inputs and interruption points", "anchors": ["src/rfsed/hkZhu.py:hk", "src/rfsed/hkSeqYeck.py:hkSeq", "src/rfsed/hkYu.py:hkYu", "src/rfsed/SynthAnalysis.py:hkSynth", "src/rfsed/SynthAnalysis.py:hkSeqSynth"]}
{"id": "C93", "title": "The figure shown by an H-k program is the figure of its result", "statement": "When hk, hkSynth, hkYu, hkSeq or hkSeqSynth returns, each figure it showed is the contour of the table it returns, marked at the best row of this table, with axis limits that are grid values and enclose the whole grid; one figure per layer, sediment first, each shown before its line is printed; showing does not change the result, and if pyplot raises nothing the program returns whatever its computation returns.", "quantifier": "all inputs and pyplot behaviours, any arithmetic with ordered comparison", "why_tests_cant": "figures are not inspected by tests; ranges over all grids and tables", "anchors": ["src/rfsed/hkZhu.py:hk", "src/rfsed/hkSeqYeck.py:hkSeq", "src/rfsed/hkYu.py:hkYu", "src/rfsed/SynthAnalysis.py:hkSynth", "src/rfsed/SynthAnalysis.py:hkSeqSynth"]}
{"id": "C94", "title": "The synthetic response consists of the H-k arrivals and their combinations", "statement": "For any stack of layers over a half-space the radial-to-vertical response computed by synrf is, at every frequency, the quotient of two sums of delayed spikes whose real amplitudes do not depend on the frequency; the delays are the sums, over the layers, of one of 0, Ps, PpPs, PsPs of that layer. For one layer these are exactly the three delays at which hk reads a trace, for sediment and crust the delays of hkSeq's Moho stage are among them; for layers without any contrast the quotient is one constant (nothing but the first arrival).", "quantifier": "all stacks of finitely many layers, all precritical slownesses, all nonzero frequencies, P and S incidence", "why_tests_cant": "ranges over all media and frequencies, and ties two programs (synthesis and stacking) together", "anchors": ["src/rfsed/synrf.py:haskell", "src/rfsed/hkZhu.py:hk", "src/rfsed/hkSeqYeck.py:hkSeq"]}
{"id": "C95", "title": "The synthetic receiver function carries exactly the arrivals of the medium", "statement": "For every layered medium there are real amplitudes, one per ray path, such that for any sampling interval, record length 2^q, preonset, Gaussian width and water level, the spectrum of the receiver function returned by synrf (run_fwd, then run_deconvolution with method 'water') is, at every bin below Nyquist that exceeds the water level, the Gaussian gain times the delay factor of the preonset times the quotient of the two spike series at the path delays; for one layer these delays are 0 and the three times at which hk reads the trace.", "quantifier": "all layered media, precritical slownesses, P or S incidence, samplings, lengths 2^q, filters, levels, call histories; bins below Nyquist above the level", "why_tests_cant": "ties forward modelling, deconvolution and stacking together for all media and parameters", "anchors": ["src/rfsed/synrf.py:synrf", "src/rfsed/synrf.py:fwd_seis", "src/rfsed/synrf.py:deconv_waterlevel", "src/rfsed/hkZhu.py:hk"]}
{"id": "C96", "title": "The legend of a saved figure states the best model to two decimals", "statement": "In every figure saved by plothk, plotSeqhk, plothkYu, plothkSynth, plothkSeqSynth, PlotWaveformFitting and plotbestmodel, the legend of the best-model mark states the depth and the Vp/Vs of that model rounded to two decimals, i.e. the numbers the waveform-fitting console lines show for the same model.", "quantifier": "all results, tables, grids, parameters, pyplot behaviours and outcomes", "why_tests_cant": "the stated number is right for most nodes and wrong for a band of Vp/Vs values between two hundredths; tests of a few nodes do not show which", "anchors": ["src/rfsed/hkZhu.py:plothk", "src/rfsed/hkSeqYeck.py:plotSeqhk", "src/rfsed/hkYu.py:plothkYu", "src/rfsed/SynthAnalysis.py:plothkSynth", "src/rfsed/SynthAnalysis.py:plothkSeqSynth", "src/rfsed/WaveformFitting.py:PlotWaveformFitting", "src/rfsed/WaveformFittingMultiproc.py:plotbestmodel"]}
{"id": "C97", "title": "The band 'RF Data Std' shows the scatter of the receiver functions", "statement": "In the figures saved by PlotWaveformFitting and plotbestmodel the shaded band labelled 'RF Data Std' around the stacked receiver function shows the standard deviation of the receiver functions of the stream at each time, so that receiver functions that agree give a band of no width.", "quantifier": "all streams, stacks, grids, synthetics", "why_tests_cant": "a band is always drawn; what its width measures is a statement about all streams", "anchors": ["src/rfsed/WaveformFitting.py:PlotWaveformFitting", "src/rfsed/WaveformFittingMultiproc.py:plotbestmodel"]}
{"id": "C98", "title": "The axes of a saved figure contain the search grid", "statement": "In every saved figure with the stack or the criterion over (H, Vp/Vs), the axes begin and end at grid values and contain all the grid values of both parameters (in particular the best model marked).", "quantifier": "all grids in any order without NaN, results, outcomes", "why_tests_cant": "tests use increasing grids from linspace; the statement is about all grids", "anchors": ["src/rfsed/hkZhu.py:plothk", "src/rfsed/hkSeqYeck.py:plotSeqhk", "src/rfsed/hkYu.py:plothkYu", "src/rfsed/SynthAnalysis.py:plothkSynth", "src/rfsed/SynthAnalysis.py:plothkSeqSynth", "src/rfsed/WaveformFitting.py:PlotWaveformFitting", "src/rfsed/WaveformFittingMultiproc.py:plotbestmodel"]}
{"id": "C99", "title": "The arrivals marked in a saved H-k figure are visible", "statement": "In every figure saved by plothk, plotSeqhk, plothkYu, plothkSynth and plothkSeqSynth the marks of the three arrivals of the best model lie inside the time axis of the panel they are drawn in.", "quantifier": "all results, streams, tables, grids, ray parameters and calls that return", "why_tests_cant": "the axis is fixed and the best model is not: a test with one thin crust sees all marks, and a mark outside the axis raises nothing", "anchors": ["src/rfsed/hkZhu.py:plothk", "src/rfsed/hkSeqYeck.py:plotSeqhk", "src/rfsed/hkYu.py:plothkYu", "src/rfsed/SynthAnalysis.py:plothkSynth", "src/rfsed/SynthAnalysis.py:plothkSeqSynth"]}
{"id": "C100", "title": "Plotting an H-k result again changes nothing more", "statement": "After plotSeqhk, plothkYu, plothkSynth or plothkSeqSynth has returned, calling it again with the same rmneg on the same result leaves every entry of the result exactly as it is, headers and tables included, even if the second call uses other gains, paths, formats, or raises at any point.", "quantifier": "all results, arguments, arithmetics, pyplot behaviours of both calls, outcomes of the second call", "why_tests_cant": "every failure point of the second call and every table are meant", "anchors": ["src/rfsed/hkSeqYeck.py:plotSeqhk", "src/rfsed/hkYu.py:plothkYu", "src/rfsed/SynthAnalysis.py:plothkSynth", "src/rfsed/SynthAnalysis.py:plothkSeqSynth"]}
{"id": "C101", "title": "Iterative deconvolution converges to the least-squares receiver function", "statement": "For every source there is a rate in (0,1] such that, whatever the numerator, the misfit after i iterations of deconv_iterative exceeds the smallest misfit any train of spikes at the allowed lags can have by at most (1-rate)^i, and a run stopped by minderr by at most minderr percent of 1/rate. If no frequency of the source is missing, the rate is the smallest power of the filtered source over (number of lags x mean power), the best train is unique, and every sample of the returned receiver function tends to that of the best train as itmax grows.", "quantifier": "all sources, numerators, samplings, Gaussian widths, phases, iteration limits and stopping thresholds", "why_tests_cant": "a statement about a limit over all numbers of iterations and about the best of infinitely many spike trains", "anchors": ["src/rfsed/synrf.py:deconv_iterative", "src/rfsed/synrf.py:correl", "src/rfsed/synrf.py:gfilter", "src/rfsed/synrf.py:phaseshift"]}
{"id": "C102", "title": "Receiver functions of any number of arrivals are recovered", "statement": "If the numerator is the source convolved with a train of arrivals at allowed lags and no frequency of the source is missing, the receiver function returned by deconv_iterative differs from the one of these arrivals by at most (1-rate)^it (and minderr/(100 rate) when stopped early) times a stated size, the residual history decays at that rate, and the difference tends to 0 as itmax grows; deconv_waterlevel returns it with the frequencies of the source below the water level attenuated and none amplified, exactly if none is below.", "quantifier": "all sources, arrival trains, samplings, widths, levels", "why_tests_cant": "quantifies over all trains of arrivals and a limit", "anchors": ["src/rfsed/synrf.py:deconv_iterative", "src/rfsed/synrf.py:correl", "src/rfsed/synrf.py:gfilter", "src/rfsed/synrf.py:phaseshift", "src/rfsed/synrf.py:deconv_waterlevel"]}
{"id": "C103", "title": "Parallel extraction loses no recorded sample of a requested window", "statement": "If obspy's reader returns between two times every sample of a file in between (and at most half a sample more), the stream written by Add_sta_time_2cat, Get_Eqtimes_multiproc and ExtractEq_Multiproc holds, for every event of the catalog, every sample recorded in any of the files inside that event's request window, in a trace marked with that event's onset; and every sample written is recorded in one of the files and lies in the window of an event whose onset it is marked with.", "quantifier": "all files, catalogs, windows, numbers of processes and schedules", "why_tests_cant": "quantifies over all archives (files that overlap, have gaps or several traces) and all pool schedules", "anchors": ["src/rfsed/ExtractEqMultiproc.py:Add_sta_time_2cat", "src/rfsed/ExtractEqMultiproc.py:Get_Eqtimes_multiproc", "src/rfsed/ExtractEqMultiproc.py:ExtractEq_Multiproc"]}
{"id": "C104", "title": "ExtractEq writes every recorded sample of every requested window", "statement": "ExtractEq writes, for every event of the catalog, every sample that the data files record inside that event's request window.", "quantifier": "all archives, catalogs and windows", "why_tests_cant": "depends on how windows fall on file boundaries and gaps, over all archives", "anchors": ["src/rfsed/ExtractEq.py:ExtractEq"]}
{"id": "C105", "title": "ExtractEq searches exactly the visible files of the data directory, in an order of its own", "statement": "With a data directory given as path/ ExtractEq searches exactly the entries of that directory whose name does not start with a dot, in the order of their names; what it writes does not depend on the order in which the operating system lists the directory.", "quantifier": "all directory trees, directory paths without the characters *?[, listing orders", "why_tests_cant": "the listing order is chosen by the file system; quantifies over all trees", "anchors": ["src/rfsed/ExtractEq.py:ExtractEq"]}
{"id": "C106", "title": "The data directory may be given with or without the final slash", "statement": "ExtractEq gives the same result for the data directory path and path/.", "quantifier": "all directory trees and paths", "why_tests_cant": "a statement about all trees and names of neighbouring files", "anchors": ["src/rfsed/ExtractEq.py:ExtractEq"]}
{"id": "C107", "title": "Refining the search grid changes no stack value and never worsens the best model", "statement": "Two calls of an H-k program that differ only in the grids of H and K give the same stack value to every (H, K) both grids contain; if one grid contains the other, its best stack value is at least that of the other, and equal to it when the best model already belongs to the coarser grid. For the two-layer programs the same holds of the sediment stage, and the Moho tables agree on shared nodes whenever the two calls choose the same sediment model.", "quantifier": "all data, all pairs of grids, every arithmetic with the ordering laws (exact reals and binary64 with NaN)", "why_tests_cant": "ranges over all data and all pairs of grids", "anchors": ["src/rfsed/hkZhu.py:hk", "src/rfsed/hkSeqYeck.py:hkSeq", "src/rfsed/hkYu.py:hkYu", "src/rfsed/SynthAnalysis.py:hkSynth", "src/rfsed/SynthAnalysis.py:hkSeqSynth"]}
{"id": "C108", "title": "Samples outside the predicted arrivals do not matter", "statement": "If every delay predicted by the grid lies inside the time axis, extending the records with any samples before (with the onset moved accordingly) and after leaves every stack value and the best model of all five H-k programs unchanged.", "quantifier": "all records, extensions, grids, weights and pre-critical rays (exact arithmetic)", "why_tests_cant": "ranges over all records and all extensions", "anchors": ["src/rfsed/hkZhu.py:hk", "src/rfsed/hkSeqYeck.py:hkSeq", "src/rfsed/hkYu.py:hkYu", "src/rfsed/SynthAnalysis.py:hkSynth", "src/rfsed/SynthAnalysis.py:hkSeqSynth"]}
{"id": "C109", "title": "The H-k programs do not depend on the choice of units", "statement": "Expressing lengths, times, amplitudes and weights in other units consistently (H, velocities, ray parameters, sampling, onset, delays) multiplies the H column of the tables by the unit of length and all stack values by one positive factor, and leaves the K column and the index of the best model unchanged, for all five H-k programs; the sediment thickness and P delay of hkYu scale as a length and a time.", "quantifier": "all records, grids, weights, pre-critical rays, all positive scale factors (exact arithmetic)", "why_tests_cant": "ranges over all records and all scale factors", "anchors": ["src/rfsed/hkZhu.py:hk", "src/rfsed/hkSeqYeck.py:hkSeq", "src/rfsed/hkYu.py:hkYu", "src/rfsed/SynthAnalysis.py:hkSynth", "src/rfsed/SynthAnalysis.py:hkSeqSynth"]}
{"id": "C110", "title": "Synthetic seismograms and receiver functions do not depend on the choice of units", "statement": "Expressing lengths, times and densities in other units consistently (depths, velocities, densities, ray parameters, sampling interval, filter corners, preonset, Gaussian width) leaves the surface response and the synthetic seismograms unchanged, and the receiver functions change only as quantities of dimension 1/time (the normalised water-level one not at all); the misfits, the number of iterations, the exceptions raised and the effect of any history of calls on a synrf object are the same.", "quantifier": "all layered models, ray parameters, records, options and histories of calls, all positive scale factors (exact arithmetic)", "why_tests_cant": "ranges over all models, histories and scale factors", "anchors": ["src/rfsed/synrf.py:haskell", "src/rfsed/synrf.py:fwd_seis", "src/rfsed/synrf.py:deconv_iterative", "src/rfsed/synrf.py:deconv_waterlevel", "src/rfsed/synrf.py:synrf"]}
{"id": "C111", "title": "Receiver functions do not depend on the common time origin of the two records", "statement": "If the radial and the vertical record are both delayed by the same number of samples (circularly over the next power of two), both deconvolution methods return the same receiver function, or fail alike; the iterative method also returns the same misfits and number of iterations, and so does the water-level method when the record length is a power of two.", "quantifier": "all records, delays and options (exact arithmetic)", "why_tests_cant": "ranges over all records and delays", "anchors": ["src/rfsed/synrf.py:deconv_iterative", "src/rfsed/synrf.py:deconv_waterlevel", "src/rfsed/synrf.py:correl", "src/rfsed/synrf.py:gfilter"]}
{"id": "C112", "title": "For a given vertical record the water-level method is a linear time-invariant filter", "statement": "deconv_waterlevel(a*R1 + b*R2, Z) returns a*RF1 + b*RF2 whenever it returns RF1 for R1 and RF2 for R2 (normalised or not); delaying the radial record alone delays the receiver function by as much.", "quantifier": "all records, coefficients, delays and options (exact arithmetic)", "why_tests_cant": "ranges over all records, coefficients and delays", "anchors": ["src/rfsed/synrf.py:deconv_waterlevel"]}
{"id": "C113", "title": "Extraction can be done event by event and file by file", "statement": "Extracting a catalog in two parts succeeds exactly when extracting it as a whole does, and writes the same traces; the order of the events only reorders them. When files are added to the data directory everything written before is still written, in the same order, and every further trace comes from a window covered by an added file. The multiprocessing version writes the files of a concatenated list part by part and the windows of a concatenated list as the same collection of traces, for every number of processes and every schedule.", "quantifier": "all archives, catalogs, splits, added files, process counts and schedules", "why_tests_cant": "ranges over all archives, splits and schedules", "anchors": ["src/rfsed/ExtractEq.py:ExtractEq", "src/rfsed/ExtractEqMultiproc.py:ExtractEq_Multiproc"]}
{"id": "C114", "title": "Waveform fit criteria of a model depend neither on the other models searched nor on the weights", "statement": "The correlation, the RMSE and the phase goodness of fit of a model (H, Vp/Vs) are the same in every search over the same records that contains it, whatever the grid and the weights. A larger grid never worsens the best correlation, RMSE or phase goodness of fit and a smaller non-empty grid raises no new error. The weights change neither the criteria nor the three models printed for them.", "quantifier": "all records, grids, weights, forward models and phase criteria", "why_tests_cant": "ranges over all pairs of grids and weights", "anchors": ["src/rfsed/WaveformFitting.py:WaveformFitting", "src/rfsed/WaveformFittingMultiproc.py:WaveformFit_multiproc"]}
{"id": "C115", "title": "The overall goodness of fit ranks two models independently of the other models searched", "statement": "Which of two models has the higher overall goodness of fit does not change when further models are added to the grid.", "quantifier": "all records, grids and weights", "why_tests_cant": "ranges over all extensions of the grid", "anchors": ["src/rfsed/WaveformFitting.py:WaveformFitting"]}
{"id": "C116", "title": "Correlation and phase fit do not depend on the amplitude unit of the data", "statement": "Multiplying all receiver functions by a positive factor leaves the correlation and the phase goodness of fit of every model and the best models by these criteria unchanged, and raises no new error (the RMSE and hence the overall goodness of fit do depend on it).", "quantifier": "all records, grids, weights, positive factors, and stacking procedures that commute with the factor (exact arithmetic)", "why_tests_cant": "ranges over all records and factors", "anchors": ["src/rfsed/WaveformFitting.py:WaveformFitting"]}
{"id": "C117", "title": "The diagnostic figures of the resonance filter are drawn against the right axes", "statement": "plotfiltrf saves three figures: the autocorrelation against the lag (so that the trough the filter used is seen at tlag), the filter's response against frequency, and the receiver function and the filtered one against the time since the onset; the dictionary is left unchanged.", "quantifier": "all receiver functions, preonsets, paths, formats and pyplot behaviours", "why_tests_cant": "ranges over all traces and time axes; a figure is rarely asserted on", "anchors": ["src/rfsed/ReverbFilter.py:plotfiltrf", "src/rfsed/ReverbFilter.py:ResonanceFilt", "src/rfsed/SynthAnalysis.py:plotfiltSynthrf"]}
{"id": "C118", "title": "The resonance filter does not depend on the time unit, the time origin or the direction of time", "statement": "For a given trace the strength r, the autocorrelation, the filter and the filtered trace do not depend on the sampling interval or on the time axis (preonset), and tlag is proportional to the sampling interval. The reversed trace has the same r, tlag, autocorrelation and filter.", "quantifier": "all traces, sampling intervals and time axes (exact arithmetic)", "why_tests_cant": "ranges over all traces and all pairs of axes", "anchors": ["src/rfsed/ReverbFilter.py:ResonanceFilt", "src/rfsed/SynthAnalysis.py:ResonanceFilt"]}
{"id": "C119", "title": "The velocity profile drawn in the waveform-fitting figures is the medium that was scored", "statement": "In every figure saved by PlotWaveformFitting and by plotbestmodel the third panel (depths 0 to 50 km) shows, for the row the figure marks, exactly the P and S velocities met at each depth in the layered medium from which the synthetic of that row is computed, with a step from the velocity above to the velocity below at each interface, provided the Moho of the row is below the sediment.", "quantifier": "all streams, sediment and crust parameters, grids, depths and Moho depths (also below 50 km); exact arithmetic", "why_tests_cant": "ranges over all depths and all models; the contents of a figure are rarely asserted on", "anchors": ["src/rfsed/WaveformFitting.py:PlotWaveformFitting", "src/rfsed/WaveformFittingMultiproc.py:plotbestmodel"]}
{"id": "C120", "title": "Concurrent installations", "statement": "If any number of processes call install_examples(path) (or install_rfsed_tests(path)) at the same time for the same path, and nothing of a wrong kind is in the way, then, in whatever order their system calls are performed: all of them end after a bounded number of system calls; when all have ended at least one has returned and the destination holds exactly what one undisturbed installation would have left there (contents, time stamps and modes); nothing else is ever touched; a process that does not return raises only DistutilsFileError or FileNotFoundError; and if processes are killed at any moment, one further installation alone gives the same result as an undisturbed one.", "quantifier": "all packaged trees, destinations, prior file systems without hard or symbolic links, numbers of processes, interleavings of system calls (data written byte by byte) and kill points", "why_tests_cant": "races between unlink, open, write, utime and chmod depend on the schedule; tests see a few of them", "anchors": ["src/rfsed/util.py:install_examples", "src/rfsed/util.py:install_rfsed_tests"]}
{"id": "C121", "title": "A missing sample is never silently used", "statement": "If an H-k program returns, then at every node of its grid and for every trace it evaluates, the samples it read for Ps, PpPs and PsPs were numbers: a NaN at any of these samples makes the call raise. In hk, hkSynth, hkYu and the sediment stage of the sequential programs the same holds of infinite samples and weights; in the Moho stage, whose table is clipped before it is drawn, an infinite sample can pass unnoticed. In particular a dead channel (no finite sample) anywhere in the stream makes hk raise.", "quantifier": "all binary64 streams, grids, weights, velocities, slownesses and stack options for which the call returns", "why_tests_cant": "a NaN may sit at any sample of any trace and be read only at one node of the grid; every combination must be refused", "anchors": ["src/rfsed/hkZhu.py:hk", "src/rfsed/hkSeqYeck.py:hkSeq", "src/rfsed/hkYu.py:hkYu", "src/rfsed/SynthAnalysis.py:hkSynth", "src/rfsed/SynthAnalysis.py:hkSeqSynth"]}
{"id": "C122", "title": "A returned search compared several depths and several ratios", "statement": "If an H-k program returns, each grid it searched contains two different thicknesses and two different Vp/Vs ratios; a one-value grid (a parameter held fixed) makes the call raise, because the stack cannot be drawn.", "quantifier": "all inputs of hk, hkSynth, hkYu, hkSeq and hkSeqSynth in any arithmetic", "why_tests_cant": "must hold for every grid, stream and option, and for both grids of the sequential programs", "anchors": ["src/rfsed/hkZhu.py:hk", "src/rfsed/hkSeqYeck.py:hkSeq", "src/rfsed/hkYu.py:hkYu", "src/rfsed/SynthAnalysis.py:hkSynth", "src/rfsed/SynthAnalysis.py:hkSeqSynth"]}
{"id": "C123", "title": "H-k stacking recovers any crust whose phases stand out where they are looked for", "statement": "Take a crust (H0,K0) on the grid. If among the samples that the models of the grid read for Ps (PpPs) the one read for (H0,K0) is the largest, and among those read for PpSs+PsPs it is the smallest, the record covers the predicted arrivals, the weights are positive and every other model differs by more than the sampling resolution (on some trace), then bestmodel is (H0,K0) - whatever the sizes of the three pulses and whatever the record holds elsewhere (a larger direct P, noise). Likewise for hk with stack=True, hkSynth, hkYu with the sediment-shifted arrivals, and both stages of hkSeq and hkSeqSynth.", "quantifier": "all grids, records, crusts, slownesses, sampling intervals, numbers of traces and positive weights (exact arithmetic)", "why_tests_cant": "a test recovers one crust from one record; the claim is about every record in which the phases dominate their search windows", "anchors": ["src/rfsed/hkZhu.py:hk", "src/rfsed/hkSeqYeck.py:hkSeq", "src/rfsed/hkYu.py:hkYu", "src/rfsed/SynthAnalysis.py:hkSynth", "src/rfsed/SynthAnalysis.py:hkSeqSynth"]}
{"id": "C124", "title": "Recovery of a standing-out crust survives double-precision rounding", "statement": "In IEEE double precision: take a crust (H0,K0) on the grid; let every sample within the read tolerance of its Ps (PpPs, PpSs+PsPs) delay have one amplitude, and let the other samples that a model of the grid may read for that phase be smaller (for PpSs+PsPs larger) by a margin whose weighted size exceeds the rounding errors. Then bestmodel is exactly (H0,K0), whatever the sizes of the three pulses and whatever the record holds elsewhere; for hk (stack False and True, up to a million traces), hkSynth, hkYu, and both stages of hkSeq and hkSeqSynth.", "quantifier": "all grids, records, crusts, slownesses, sampling intervals, weights of usual size as doubles, and all numbers of traces up to 2^20", "why_tests_cant": "rounding of travel times and of sums depends on every input; no finite set of grids covers it", "anchors": ["src/rfsed/hkZhu.py:hk", "src/rfsed/hkSeqYeck.py:hkSeq", "src/rfsed/hkYu.py:hkYu", "src/rfsed/SynthAnalysis.py:hkSynth", "src/rfsed/SynthAnalysis.py:hkSeqSynth"]}
{"id": "C125", "title": "In double precision, samples away from the predicted arrivals change no bit of an H-k result", "statement": "In IEEE double precision: let two records (or two streams with the same lengths, sampling and slownesses) hold the same bits at every sample within half a sampling interval (plus rounding) of a Ps, PpPs or PpSs+PsPs delay of some model of the grid, and anything else - other values, infinities, NaN - elsewhere (e.g. in the direct P, before the onset, or in the coda). If the program returns for one of them, it returns for the other, with the same table and the same best model bit for bit; for hk (stack False and True), hkSynth, hkYu and both stages of hkSeq and hkSeqSynth.", "quantifier": "all pairs of records, grids, velocities, slownesses, sampling intervals and onsets of usual size as doubles, all weights and numbers of traces", "why_tests_cant": "which sample a rounded travel time selects depends on every input; no finite set of records shows that no other sample is ever read", "anchors": ["src/rfsed/hkZhu.py:getamp", "src/rfsed/hkZhu.py:hk", "src/rfsed/hkSeqYeck.py:hkSeq", "src/rfsed/hkYu.py:hkYu", "src/rfsed/SynthAnalysis.py:hkSynth", "src/rfsed/SynthAnalysis.py:hkSeqSynth"]}
{"id": "C126", "title": "H-k results that share traces do not disturb each other", "statement": "Take any session: analyses with hk and hkSeq of streams that share Trace objects, and figures of the results drawn in any order and any number of times (also calls that raise part way). As long as the caller changes in place no trace that an unstacked analysis has already used, every dictionary returned, every figure drawn and saved and every exception is what it would be if each analysis had worked on a copy of its own of the traces, although the dictionaries hold the caller's traces and plothk and plotSeqhk write arrival times into them. A caller who only stacks may change the traces at will. Analyses and figures leave samples, slowness, back azimuth and the like of every trace as they were.", "quantifier": "all sequences of analyses, figures and in-place changes, all sharing patterns between streams, all parameters, all behaviours of pyplot and stack (a stack that does not look at the arrival-time headers)", "why_tests_cant": "the interleavings and sharing patterns are unbounded; a test draws one figure of one result", "anchors": ["src/rfsed/hkZhu.py:hk", "src/rfsed/hkZhu.py:plothk", "src/rfsed/hkSeqYeck.py:hkSeq", "src/rfsed/hkSeqYeck.py:plotSeqhk"]}
{"id": "C127", "title": "The figure of an H-k result shows the data it was computed from", "statement": "After hk or hkSeq has returned, plothk or plotSeqhk of the result shows the waveforms and arrival times of the data the result was computed from, whatever the caller has done to the traces of the stream in between.", "quantifier": "all sessions of analyses, in-place changes of traces and figures", "why_tests_cant": "it ranges over what the caller does between the two calls", "anchors": ["src/rfsed/hkZhu.py:hk", "src/rfsed/hkZhu.py:plothk", "src/rfsed/hkSeqYeck.py:hkSeq", "src/rfsed/hkSeqYeck.py:plotSeqhk"]}
{"id": "C128", "title": "synrf objects made from shared arrays do not disturb each other", "statement": "Take any number of synrf objects made from arrays that may be shared between them, and any interleaving of run_fwd, filter and run_deconvolution on them (also calls that raise). As long as the caller changes in place no array that is the vp, vs, rho or rayp of an existing object, every outcome and all stored seismograms are what they would be had each object copied its arguments at construction. The depth array may be changed at any time.", "quantifier": "all sequences of constructions, method calls and in-place changes, all sharing patterns, all bandpass filters", "why_tests_cant": "interleavings and sharing patterns are unbounded", "anchors": ["src/rfsed/synrf.py:synrf.__init__", "src/rfsed/synrf.py:synrf.run_fwd", "src/rfsed/synrf.py:synrf.filter", "src/rfsed/synrf.py:synrf.run_deconvolution"]}
{"id": "C129", "title": "A synrf object keeps describing the model it was made from", "statement": "After synrf(depth, vp, vs, rho, rayp, ...) the object computes the seismograms and receiver functions of that model and those ray parameters, whatever the caller does to his arrays and lists afterwards.", "quantifier": "all sessions with in-place changes of the arrays", "why_tests_cant": "it ranges over what the caller does between construction and call", "anchors": ["src/rfsed/synrf.py:synrf.__init__", "src/rfsed/synrf.py:synrf.run_fwd", "src/rfsed/synrf.py:synrf.filter", "src/rfsed/synrf.py:synrf.run_deconvolution"]}
{"id": "C130", "title": "The parallel waveform fit completes when the serial one does, and finds a model that reproduces the data", "statement": "For every number of processes and every schedule of the pool, the route WaveformPara, run_waveformfitting, plotbestmodel prints best models exactly when WaveformFitting with the same arguments and weights returns; results and printed models do not depend on the schedule or the number of processes. On well-formed input (P on a sample of the stream and the stack, a sample in 25 s, a non-empty grid, a forward model and phase criterion that answer) it completes with one row per grid point. If a grid point reproduces the stacked record in the window, the model printed as best by RMSE has RMSE 0 and reproduces it, and is that point if no other does (exact arithmetic).", "quantifier": "every stream, grid, forward model, number of processes, schedule, weights", "why_tests_cant": "All records, grids and schedules.", "anchors": ["src/rfsed/WaveformFittingMultiproc.py:WaveformPara", "src/rfsed/WaveformFittingMultiproc.py:run_waveformfitting", "src/rfsed/WaveformFittingMultiproc.py:plotbestmodel"]}
{"id": "C131", "title": "In double precision the reported RMSE and the RMSE-best model are right up to rounding", "statement": "With finite records of at most 2^30 in magnitude in the fit window (at most 2^20 samples n), every RMSE in the table computed in binary64 differs from the exact root mean square difference of the same records by at most 3(n+4)/2^53 relative plus 2^-535; the exact misfit of the model reported as best by RMSE exceeds the smallest one on the grid by at most 9(n+4)/2^53 relative plus 3*2^-535; and if a grid point reproduces the record in the window, the best RMSE is exactly 0 and the reported model reproduces the record to 2^-523 in every sample.", "quantifier": "every stream, grid, forward model answering with doubles in range", "why_tests_cant": "All records and grids; the bound is on the worst rounding.", "anchors": ["src/rfsed/WaveformFitting.py:WaveformFitting"]}
{"id": "C132", "title": "A result plot never picks up other drawings", "statement": "plothk, plotSeqhk, plothkYu, plothkSynth, plothkSeqSynth, PlotWaveformFitting and plotbestmodel write files that hold exactly the drawings of that call, complete and in order, whatever figures are open before, with any backend; if the call stops half-way, the files already written are still right, every figure left open holds drawings of one figure of the call only, and figures open before are untouched or closed.", "quantifier": "every pyplot state, backend, result and point at which the call stops", "why_tests_cant": "All histories of earlier drawings and all crash points.", "anchors": ["src/rfsed/hkZhu.py:hk", "src/rfsed/hkZhu.py:plothk", "src/rfsed/hkSeqYeck.py:hkSeq", "src/rfsed/hkSeqYeck.py:plotSeqhk", "src/rfsed/hkYu.py:hkYu", "src/rfsed/hkYu.py:plothkYu", "src/rfsed/SynthAnalysis.py:hkSynth", "src/rfsed/SynthAnalysis.py:hkSeqSynth", "src/rfsed/SynthAnalysis.py:plothkSynth", "src/rfsed/SynthAnalysis.py:plothkSeqSynth", "src/rfsed/SynthAnalysis.py:plotfiltSynthrf", "src/rfsed/ReverbFilter.py:plotfiltrf", "src/rfsed/WaveformFitting.py:PlotWaveformFitting", "src/rfsed/WaveformFittingMultiproc.py:plotbestmodel"]}
{"id": "C133", "title": "Every file rfsed writes holds only what its call drew", "statement": "In a session of rfsed calls (returned or raised) every file saved holds exactly the drawings of the call that wrote it.", "quantifier": "every sequence of calls, every point where a call may stop, both kinds of backend", "why_tests_cant": "Depends on the history of the whole session.", "anchors": ["src/rfsed/hkZhu.py:hk", "src/rfsed/hkZhu.py:plothk", "src/rfsed/hkSeqYeck.py:hkSeq", "src/rfsed/hkSeqYeck.py:plotSeqhk", "src/rfsed/hkYu.py:hkYu", "src/rfsed/hkYu.py:plothkYu", "src/rfsed/SynthAnalysis.py:hkSynth", "src/rfsed/SynthAnalysis.py:hkSeqSynth", "src/rfsed/SynthAnalysis.py:plothkSynth", "src/rfsed/SynthAnalysis.py:plothkSeqSynth", "src/rfsed/SynthAnalysis.py:plotfiltSynthrf", "src/rfsed/ReverbFilter.py:plotfiltrf", "src/rfsed/WaveformFitting.py:PlotWaveformFitting", "src/rfsed/WaveformFittingMultiproc.py:plotbestmodel"]}
{"id": "C134", "title": "Figures do not pile up", "statement": "The number of figures left open by rfsed calls is bounded.", "quantifier": "every sequence of returned calls", "why_tests_cant": "Unbounded sequences of calls.", "anchors": ["src/rfsed/hkZhu.py:hk", "src/rfsed/hkZhu.py:plothk", "src/rfsed/hkSeqYeck.py:hkSeq", "src/rfsed/hkSeqYeck.py:plotSeqhk", "src/rfsed/hkYu.py:hkYu", "src/rfsed/hkYu.py:plothkYu", "src/rfsed/SynthAnalysis.py:hkSynth", "src/rfsed/SynthAnalysis.py:hkSeqSynth", "src/rfsed/SynthAnalysis.py:plothkSynth", "src/rfsed/SynthAnalysis.py:plothkSeqSynth", "src/rfsed/SynthAnalysis.py:plotfiltSynthrf", "src/rfsed/ReverbFilter.py:plotfiltrf", "src/rfsed/WaveformFitting.py:PlotWaveformFitting", "src/rfsed/WaveformFittingMultiproc.py:plotbestmodel"]}
{"id": "C135", "title": "rfsed leaves the user's open figures alone", "statement": "A figure the user has open before a call of rfsed is open and unchanged after it.", "quantifier": "every function that draws, every state of pyplot, both kinds of backend", "why_tests_cant": "All pyplot states and functions.", "anchors": ["src/rfsed/hkZhu.py:hk", "src/rfsed/hkZhu.py:plothk", "src/rfsed/hkSeqYeck.py:hkSeq", "src/rfsed/hkSeqYeck.py:plotSeqhk", "src/rfsed/hkYu.py:hkYu", "src/rfsed/hkYu.py:plothkYu", "src/rfsed/SynthAnalysis.py:hkSynth", "src/rfsed/SynthAnalysis.py:hkSeqSynth", "src/rfsed/SynthAnalysis.py:plothkSynth", "src/rfsed/SynthAnalysis.py:plothkSeqSynth", "src/rfsed/SynthAnalysis.py:plotfiltSynthrf", "src/rfsed/ReverbFilter.py:plotfiltrf", "src/rfsed/WaveformFitting.py:PlotWaveformFitting", "src/rfsed/WaveformFittingMultiproc.py:plotbestmodel"]}
{"id": "C136", "title": "Noise moves H-k results only so much", "statement": "If every sample of the records is changed by at most e, every stack value of hkSynth, hkYu, hkSeq and hkSeqSynth changes by at most (|w1|+|w2|+|w3|)*e, and of hk by at most the number of traces times that; the model reported as best on the noisy records has a noise-free stack value within twice that bound of the maximum; and the same model is reported if it leads all others by more than twice the bound.", "quantifier": "every record, grid, weight, ray parameter, noise pattern and noise level", "why_tests_cant": "All noise patterns and records at once.", "anchors": ["src/rfsed/hkZhu.py:hk", "src/rfsed/hkZhu.py:getamp", "src/rfsed/hkSeqYeck.py:hkSeq", "src/rfsed/hkYu.py:hkYu", "src/rfsed/SynthAnalysis.py:hkSynth", "src/rfsed/SynthAnalysis.py:hkSeqSynth"]}
{"id": "C137", "title": "Water-level deconvolution amplifies noise only so much", "statement": "Changing the radial record of the water-level deconvolution changes the receiver function by at most the change of the record divided by sqrt(wlevel) times the size of the source record (root sum of squares, per sampling interval; per height of the Gaussian pulse when normalised): dt^2*wlevel*|w|^2*|rf'-rf|^2 <= |u'-u|^2; in particular the receiver function itself is bounded so.", "quantifier": "every pair of radial records, source record, sampling, delay, water level, Gaussian width, normalisation", "why_tests_cant": "All records and noise patterns.", "anchors": ["src/rfsed/synrf.py:deconv_waterlevel", "src/rfsed/synrf.py:deconvolve"]}
{"id": "C138", "title": "Noise moves the waveform misfit and its best model only so much", "statement": "If every sample of the stacked record changes by at most e, the RMSE of every model changes by at most e; the model printed as best by RMSE misfits the noise-free record by at most 2e more than the best one and is the same model if all others are worse by more than 2e; data that are the synthetic of a grid point plus such noise give a best RMSE of at most e and a model whose synthetic differs from the true one by at most 2e RMS in the window.", "quantifier": "every stream, grid, forward model, noise pattern and level", "why_tests_cant": "All noise patterns, grids and records.", "anchors": ["src/rfsed/WaveformFitting.py:WaveformFitting", "src/rfsed/WaveformFittingMultiproc.py:run_waveformfitting"]}
{"id": "C139", "title": "The parallel functions leave no worker processes behind", "statement": "run_waveformfitting, ExtractEq_Multiproc and Get_Eqtimes_multiproc leave no open pool and no worker process behind, whether they return or raise, and the statements after the parallel part never raise themselves.", "quantifier": "every number of processes, schedule, outcome of the tasks, and sequence of calls", "why_tests_cant": "All outcomes and call sequences; leaked processes are not visible in results.", "anchors": ["src/rfsed/ExtractEqMultiproc.py:Get_Eqtimes_multiproc", "src/rfsed/ExtractEqMultiproc.py:ExtractEq_Multiproc", "src/rfsed/WaveformFittingMultiproc.py:run_waveformfitting"]}
{"id": "C140", "title": "tlag and r are the two-way time and the strength of the sediment reverberation", "statement": "For a record that consists of a signal and its reverberations (every sample is the signal minus rho times the record L samples earlier), ResonanceFilt reports tlag = L*delta and r = rho, and the filtered record is the signal.", "quantifier": "every record length, signal, lag and strength", "why_tests_cant": "A continuum of signals and all record lengths; the plausible-looking wrong lag is not flagged by any exception.", "anchors": ["src/rfsed/ReverbFilter.py:ResonanceFilt", "src/rfsed/SynthAnalysis.py:ResonanceFilt"]}
{"id": "C141", "title": "The resonance filter followed by hkYu recovers a crust below reverberating sediment", "statement": "Let the record be a signal plus its reverberations of strength rho and lag L samples, and let ResonanceFilt report that lag. If in the signal the three Moho phases stand, at the delays of (H0,K0) shifted by the sediment legs that follow from the lag, above (PsPs: below) every other sample read on the grid by more than twice an explicit remainder (mis-estimated strength times the largest sample, plus 21 times the mean absolute sample, plus the last L samples), then hkYu on the filtered record, its time axis and its tlag returns (H0,K0) as best model.", "quantifier": "every signal, record, strength, lag, grid, positive weights and number of samples meeting the hypotheses", "why_tests_cant": "A continuum of records and grids, and it composes two stages: an error of lag, strength, sign or time axis in one stage shows only as a biased best model in the other.", "anchors": ["src/rfsed/ReverbFilter.py:ResonanceFilt", "src/rfsed/SynthAnalysis.py:ResonanceFilt", "src/rfsed/hkYu.py:hkYu"]}
{"id": "C142", "title": "Noise moves the result of the resonance filter only so much", "statement": "If two records differ by noise whose energy is at most eta^2 times the energy of the detrended record, then ResonanceFilt reports the same lag for both, the strengths differ by at most a multiple of eta, and so do the filtered records.", "quantifier": "every record, noise, eta, record length and sampling interval", "why_tests_cant": "A continuum of records and noises; the lag is found by a search and can jump.", "anchors": ["src/rfsed/ReverbFilter.py:ResonanceFilt", "src/rfsed/SynthAnalysis.py:ResonanceFilt"]}
{"id": "C143", "title": "From the seismogram to the crust: deconvolution, then H-k stacking", "statement": "If a numerator record is the source convolved with the arrivals of a crust, then H-k stacking the receiver function that the deconvolution returns finds that crust: with the water level when it attenuates nothing (and, when it does, with a margin of twice what it takes away), and with the iterative method after enough iterations, whenever the ideal receiver function of those arrivals (their Gaussian pulses) has larger amplitudes at the delays of the true crust than at those of any other model of the grid.", "quantifier": "every source, arrivals, sampling interval, pre-onset, Gaussian width, water level, number of iterations, grid, velocity, slowness and weights", "why_tests_cant": "A continuum of records and grids; the number of iterations that suffices depends on the source.", "anchors": ["src/rfsed/synrf.py:deconv_waterlevel", "src/rfsed/synrf.py:deconv_iterative", "src/rfsed/SynthAnalysis.py:hkSynth"]}
{"id": "C144", "title": "H-k results over shared arrays do not disturb each other", "statement": "Run any number of H-k analyses (hk, hkSeq, hkYu, hkSynth, hkSeqSynth) on traces, time axes and grids that may be shared between them, and draw and read their results in any order and as often as wanted (also calls that raise). As long as the caller changes in place no array he handed to an earlier analysis, every result, figure and exception is what it would be if each result owned copies of its arrays.", "quantifier": "all sequences of analyses, figures, readings and in-place changes, all sharing patterns, all behaviours of pyplot and of the stacking, all arithmetics", "why_tests_cant": "interleavings and sharing patterns are unbounded", "anchors": ["src/rfsed/SynthAnalysis.py:hkSynth", "src/rfsed/SynthAnalysis.py:hkSeqSynth", "src/rfsed/hkYu.py:hkYu", "src/rfsed/hkZhu.py:hk", "src/rfsed/hkSeqYeck.py:hkSeq", "src/rfsed/SynthAnalysis.py:plothkSynth", "src/rfsed/SynthAnalysis.py:plothkSeqSynth", "src/rfsed/hkYu.py:plothkYu", "src/rfsed/hkZhu.py:plothk", "src/rfsed/hkSeqYeck.py:plotSeqhk"]}
{"id": "C145", "title": "A figure shows the analysis whose result it is given", "statement": "A figure made from the result of an H-k analysis shows the receiver function and the grid of that analysis, and its axes contain the best model, whatever the caller does to his arrays between the analysis and the figure.", "quantifier": "all sessions with in-place changes of the arrays", "why_tests_cant": "it ranges over everything the caller does between analysis and figure", "anchors": ["src/rfsed/SynthAnalysis.py:hkSynth", "src/rfsed/SynthAnalysis.py:hkSeqSynth", "src/rfsed/hkYu.py:hkYu", "src/rfsed/hkZhu.py:hk", "src/rfsed/hkSeqYeck.py:hkSeq", "src/rfsed/SynthAnalysis.py:plothkSynth", "src/rfsed/SynthAnalysis.py:plothkSeqSynth", "src/rfsed/hkYu.py:plothkYu", "src/rfsed/hkZhu.py:plothk", "src/rfsed/hkSeqYeck.py:plotSeqhk"]}
{"id": "C146", "title": "A noisy seismogram leads to the crust", "statement": "Take a source convolved with the arrivals of a crust, add any noise to the radial record, deconvolve it with the water-level method at a positive level, and stack the receiver function over an H-k grid. If the crust stands out in the ideal receiver function by more than twice the sum of what the water level removes and of the noise amplitude divided by the square root of the water level times the source energy (and by the sampling interval), the best model is that crust.", "quantifier": "all sources, arrival sequences, noise records, sampling intervals, pre-onsets, positive water levels, Gaussian widths, normalised or not, grids, velocities, slownesses and positive weights", "why_tests_cant": "it ranges over all noise records and all sources", "anchors": ["src/rfsed/synrf.py:deconv_waterlevel", "src/rfsed/SynthAnalysis.py:hkSynth"]}
{"id": "C147", "title": "Iterative deconvolution amplifies noise only so much", "statement": "Deconvolve two radial records with the same vertical record iteratively. If no frequency of the vertical record is missing, the root-sum-square difference of the two receiver functions is at most that of the records divided by the sampling interval and the smallest spectral amplitude of the vertical record, plus what the iterations have left undone (which tends to 0 as itmax grows). Hence a source convolved with the arrivals of a crust, plus noise, still gives the crust as the best model of hkSynth when it stands out in the ideal receiver function by more than twice these amounts.", "quantifier": "all pairs of records, sources without missing frequencies, phases, sampling intervals, Gaussian widths, pre-onsets, itmax and minderr; all grids, velocities, slownesses and positive weights", "why_tests_cant": "it ranges over all noise records and all sources, and over the number of iterations", "anchors": ["src/rfsed/synrf.py:deconv_iterative", "src/rfsed/SynthAnalysis.py:hkSynth"]}
{"id": "C148", "title": "The example data sets survive everything the package does to the disk", "statement": "rfMoho_example, rfSed_example and read_raw_waveform_data return the decoded content of the file shipped with the package, raw_data_example and catalog_example its path. No number of save_* calls (also concurrent ones), installations of examples or tests into places that are neither inside nor around the package, killed or not, and no foreign change that leaves the example files alone makes a loader return anything else - not even when the file was missing at the start. A complete install_examples leaves copies that decode to the same streams.", "quantifier": "all histories of calls and kill points, all contents of the disk and of the package, all process caches, all schedules of concurrent save_* calls, all destinations apart from the package, all file decoders", "why_tests_cant": "it ranges over all histories, schedules, kill points and disks", "anchors": ["src/rfsed/util.py:rfMoho_example", "src/rfsed/util.py:rfSed_example", "src/rfsed/util.py:raw_data_example", "src/rfsed/util.py:catalog_example", "src/rfsed/util.py:read_raw_waveform_data", "src/rfsed/util.py:install_examples", "src/rfsed/util.py:install_rfsed_tests"]}
{"id": "C149", "title": "On long records the sediment filter finds and removes the reverberation", "statement": "Take a pulse shorter than a lag, with reverberations of that lag and any strength below 1, such that the autocorrelation of the record falls by a margin at every step down to the lag and then rises. For every tolerance there is a number of samples from which on the ResonanceFilt of ReverbFilter and that of SynthAnalysis report exactly the reverberation lag, a strength within the tolerance of the true one, and a filtered record that is the pulse within the tolerance at every sample.", "quantifier": "all lags, strengths in [0,1), amplitude bounds, margins and tolerances; all pulses, records longer than the threshold, sampling intervals and time axes", "why_tests_cant": "it is a limit over the record length, uniform in the pulse", "anchors": ["src/rfsed/ReverbFilter.py:ResonanceFilt", "src/rfsed/SynthAnalysis.py:ResonanceFilt"]}
{"id": "C150", "title": "From a noisy seismogram of a sediment-covered crust to the crust", "statement": "Let a radial record be a source pulse convolved with spikes, plus noise, where the Gaussian receiver function of the spikes is close to a record that reverberates with some lag and strength. Run deconv_iterative, the ResonanceFilt of SynthAnalysis and hkYu one after the other. If the distance, the noise (divided by the sampling interval and the smallest spectral amplitude of the source) and what the iterations have left undone stay below a small fraction of the record's size, if the autocorrelation has its trough at the lag by a margin, and if the phases of the crust stand out of the reverberation-free record by more than twice an explicit amount, then the reported sediment lag is exact and the best model of hkYu is the true thickness and Vp/Vs. For a large enough itmax the iterations do not count.", "quantifier": "all source pulses without missing frequencies, spike trains, noise records, reverberation lags and strengths, phases, sampling intervals, Gaussian widths, pre-onsets, itmax and minderr; all grids, velocities, slownesses, positive weights and plotting back ends", "why_tests_cant": "it joins three programs and ranges over all noise records, sources and iteration counts", "anchors": ["src/rfsed/synrf.py:deconv_iterative", "src/rfsed/SynthAnalysis.py:ResonanceFilt", "src/rfsed/hkYu.py:hkYu"]}
{"id": "C151", "title": "From a noisy seismogram of a sediment-covered crust to the crust, with the water level", "statement": "Let a radial record be a source pulse convolved with spikes, plus noise, where the Gaussian receiver function of the spikes, in the units deconv_waterlevel uses, is close to a record that reverberates with some lag and strength. Run deconv_waterlevel at a positive level, the ResonanceFilt of SynthAnalysis and hkYu one after the other. The receiver function is within what the level takes away (root sum square over the frequencies) plus the noise divided by the root of level times source energy, of the ideal one; if this plus the distance stays below a small fraction of the record's size, the autocorrelation has its trough at the lag by a margin, and the phases of the crust stand out of the reverberation-free record by more than twice an explicit amount, then the reported sediment lag is exact and the best model of hkYu is the true thickness and Vp/Vs.", "quantifier": "all source pulses, spike trains, noise records, positive water levels, reverberation lags and strengths, sampling intervals, Gaussian widths, pre-onsets of whole samples and both normalisations; all grids, velocities, slownesses, positive weights and plotting back ends", "why_tests_cant": "it joins three programs and ranges over all noise records and sources", "anchors": ["src/rfsed/synrf.py:deconv_waterlevel", "src/rfsed/SynthAnalysis.py:ResonanceFilt", "src/rfsed/hkYu.py:hkYu"]}
{"id": "C152", "title": "A noisy seismogram leads to both layers", "statement": "Take a source convolved with the arrivals of a layered medium, add noise, deconvolve the record (with the water-level method at a positive level, or with the iterative method), and use the receiver function for both stages of hkSeqSynth. If the ideal receiver function of the arrivals is larger at the three delays of the upper layer, and at the summed delays of both layers, than where any other model of the grids is read, by more than twice the sum of what the water level removes and what the noise amounts to after the deconvolution (for the iterative method, once itmax is large enough, by more than twice the noise), then the two best models are the upper and the lower layer.", "quantifier": "all sources, arrivals, noise records, positive water levels, sampling intervals, Gaussian widths, pre-onsets, itmax and minderr; all pairs of grids, velocities, slownesses, positive weights and plotting back ends", "why_tests_cant": "it joins two programs and ranges over all noise records, sources and media", "anchors": ["src/rfsed/synrf.py:deconv_waterlevel", "src/rfsed/synrf.py:deconv_iterative", "src/rfsed/SynthAnalysis.py:hkSeqSynth"]}
{"id": "C153", "title": "A noisy seismogram leads to the model of the waveform fit", "statement": "Take a source convolved with the arrivals of a medium, add noise, deconvolve the record (with the water-level method at a positive level, or with the iterative method), and fit the stacked receiver function with WaveformFitting, or in parallel with WaveformPara, run_waveformfitting and plotbestmodel. If the synthetic of some depth and Vp/Vs ratio of the grid is the ideal receiver function of the arrivals, then the best RMSE is at most what the water level removes plus what the noise amounts to after the deconvolution (for the iterative method, once itmax is large enough, the noise up to any positive margin), divided by the square root of the number of samples of the window; the synthetic of the best model differs from the ideal one by at most twice that, root mean square over the window; and if no other model of the grid has a synthetic so near, the best model is that depth and ratio.", "quantifier": "all sources, arrivals, noise records, positive water levels, sampling intervals, Gaussian widths, pre-onsets, itmax and minderr; all grids, sediment parameters, forward models and stacking functions, numbers of processes and schedules of the pool", "why_tests_cant": "it joins two programs and ranges over all noise records, sources, media and grids", "anchors": ["src/rfsed/synrf.py:deconv_waterlevel", "src/rfsed/synrf.py:deconv_iterative", "src/rfsed/WaveformFitting.py:WaveformFitting", "src/rfsed/WaveformFittingMultiproc.py:run_waveformfitting"]}
