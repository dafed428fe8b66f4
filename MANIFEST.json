{
 "claims": [
  {
   "property": "C01",
   "status": "proved",
   "theorems": [
    "C01_getamp_nearest",
    "C01_getamp_undefined",
    "C01_getamp_nan_b64",
    "C01_getamp_empty"
   ],
   "note": ""
  },
  {
   "property": "C02",
   "status": "proved",
   "theorems": [
    "C02_half_sample",
    "C02_clamp_after",
    "C02_clamp_before"
   ],
   "note": "exact arithmetic"
  },
  {
   "property": "C03",
   "status": "proved",
   "theorems": [
    "C03_times_formula",
    "C03_times_order",
    "C03_times_monotone"
   ],
   "note": ""
  },
  {
   "property": "C04",
   "status": "proved",
   "theorems": [
    "C04_node_identifiable",
    "C04_grazing_not_identifiable"
   ],
   "note": ""
  },
  {
   "property": "C05",
   "status": "proved",
   "theorems": [
    "C05_hk_grid",
    "C05_hkSynth_grid",
    "C05_hkSeq_grid",
    "C05_hkSeqSynth_grid",
    "C05_hkYu_grid",
    "C05_example"
   ],
   "note": ""
  },
  {
   "property": "C06",
   "status": "proved",
   "theorems": [
    "C06_hk_value",
    "C06_hk_axis",
    "C06_hk_value_exact",
    "C06_hk_stacked_exact",
    "C05_example"
   ],
   "note": ""
  },
  {
   "property": "C07",
   "status": "proved",
   "theorems": [
    "C07_hk_best",
    "C07_hkSynth_best",
    "C07_hkSeq_best_sed",
    "C07_hkSeqSynth_best_sed",
    "C07_hkYu_best",
    "C07_empty_grid",
    "C05_example"
   ],
   "note": ""
  },
  {
   "property": "C08",
   "status": "proved",
   "theorems": [
    "C08_hk_order_free",
    "C08_hk_unit_free",
    "C08_example"
   ],
   "note": ""
  },
  {
   "property": "C09",
   "status": "proved",
   "theorems": [
    "C09_stack_agrees",
    "C09_example"
   ],
   "note": ""
  },
  {
   "property": "C10",
   "status": "partial",
   "theorems": [
    "C10_hk_defaults",
    "C10_hkSynth_defaults",
    "C10_hkSeq_sed_defaults",
    "C10_hkYu_velocity_defaults",
    "C10_hkYu_None_weight_raises",
    "C10_hkSeq_moho_None_raises",
    "C10_hkYu_weights_refuted"
   ],
   "note": "REFUTED for hkYu's weights: w1SubSed=None etc. raise TypeError (misspelt assignment, hkYu.py). Proved for hk, hkSynth, hkSeq's sediment stage and hkYu's velocities."
  },
  {
   "property": "C11",
   "status": "proved",
   "theorems": [
    "C11_plothk_result",
    "C11_best_unchanged",
    "C11_plothk_idempotent",
    "C11_example"
   ],
   "note": ""
  },
  {
   "property": "C12",
   "status": "proved",
   "theorems": [
    "C12_plothk_traces",
    "C12_plothk_stacked",
    "C12_unknown_layer",
    "C12_at_most_one_file"
   ],
   "note": ""
  },
  {
   "property": "C13",
   "status": "partial",
   "theorems": [
    "C13_numpy_postcritical_reads_first_sample",
    "C13_python_postcritical_reads_H_qs",
    "C13_postcritical_refuted"
   ],
   "note": "REFUTED: post-critical ray parameters are not reported; the theorems say exactly what is read instead."
  },
  {
   "property": "C14",
   "status": "proved",
   "theorems": [
    "C14_tail_never_read",
    "C14_IndexError_iff",
    "C14_example"
   ],
   "note": ""
  },
  {
   "property": "C15",
   "status": "proved",
   "theorems": [
    "C15_hkSeq_moho_value",
    "C15_hkSeq_moho_value_stacked",
    "C15_hkSeqSynth_moho_value",
    "C15_sediment_independent",
    "C15_example"
   ],
   "note": ""
  },
  {
   "property": "C16",
   "status": "partial",
   "theorems": [
    "C16_hkSeq_last_trace_only",
    "C16_hkSeq_sed_last_trace_only",
    "C16_sum_refuted"
   ],
   "note": "REFUTED: only the last trace of the stream contributes (proved)."
  },
  {
   "property": "C17",
   "status": "partial",
   "theorems": [
    "C17_hkSeq_clips",
    "C17_hkSeqSynth_clips",
    "C17_best_preserved_if_positive",
    "C17_values_refuted"
   ],
   "note": "REFUTED: negative Moho values are returned as 0; the theorems give exactly what is returned and that the best model survives when positive."
  },
  {
   "property": "C18",
   "status": "partial",
   "theorems": [
    "C18_hkSeq_axis",
    "C18_own_axis_if_equal_sampling",
    "C18_own_axis_refuted"
   ],
   "note": "REFUTED: the Moho stage uses the sediment stream's axis; holds when the samplings agree."
  },
  {
   "property": "C19",
   "status": "proved",
   "theorems": [
    "C19_hk_hkSynth",
    "C19_hkSeq_hkSeqSynth",
    "C19_example"
   ],
   "note": ""
  },
  {
   "property": "C20",
   "status": "proved",
   "theorems": [
    "C20_zero_sediment",
    "C20_same_layers",
    "C20_example"
   ],
   "note": ""
  },
  {
   "property": "C21",
   "status": "proved",
   "theorems": [
    "C21_hkYu_sediment",
    "C21_example"
   ],
   "note": ""
  },
  {
   "property": "C22",
   "status": "proved",
   "theorems": [
    "C22_hkYu_times_two_layer",
    "C22_hkYu_no_lag",
    "C20_example"
   ],
   "note": ""
  },
  {
   "property": "C23",
   "status": "proved",
   "theorems": [
    "C23_frequency_vector",
    "C23_response",
    "C79_example"
   ],
   "note": "exact arithmetic"
  },
  {
   "property": "C24",
   "status": "proved",
   "theorems": [
    "C24_two_tap",
    "C24_ResonanceFilt_returns",
    "C24_ResonanceFiltSynth_returns",
    "C79_example"
   ],
   "note": "exact arithmetic"
  },
  {
   "property": "C25",
   "status": "proved",
   "theorems": [
    "C25_no_trough",
    "C25_example"
   ],
   "note": "exact arithmetic"
  },
  {
   "property": "C26",
   "status": "proved",
   "theorems": [
    "C26_first_trough",
    "C87_resonance_found"
   ],
   "note": "exact arithmetic"
  },
  {
   "property": "C27",
   "status": "proved",
   "theorems": [
    "C27_line_invariant",
    "C27_zero_mean",
    "C27_C57_example"
   ],
   "note": "exact arithmetic"
  },
  {
   "property": "C28",
   "status": "proved",
   "theorems": [
    "C28_stream_synth",
    "C28_example"
   ],
   "note": "exact arithmetic"
  },
  {
   "property": "C29",
   "status": "proved",
   "theorems": [
    "C29_thickness",
    "C29_nonneg"
   ],
   "note": ""
  },
  {
   "property": "C30",
   "status": "proved",
   "theorems": [
    "C30_group",
    "C30_split",
    "C30_split_seismograms",
    "C30_zero_layer",
    "C30_lone",
    "C30_lone_refuted"
   ],
   "note": "Equality of results including the NaN outcome; the one-layer exception is characterised (C30_lone)."
  },
  {
   "property": "C31",
   "status": "proved",
   "theorems": [
    "C31_bottom",
    "C31_ratio",
    "C31_lone",
    "C31_shift",
    "C31_example"
   ],
   "note": ""
  },
  {
   "property": "C32",
   "status": "proved",
   "theorems": [
    "C32_vertical",
    "C32_seismogram",
    "C32_example"
   ],
   "note": ""
  },
  {
   "property": "C33",
   "status": "proved",
   "theorems": [
    "C33_det"
   ],
   "note": ""
  },
  {
   "property": "C34",
   "status": "proved",
   "theorems": [
    "C34_gaussFilter",
    "C34_odd_rejected"
   ],
   "note": "exact arithmetic"
  },
  {
   "property": "C35",
   "status": "proved",
   "theorems": [
    "C35_real_even_kernel",
    "C35_linear",
    "C35_shift",
    "C35_example"
   ],
   "note": "exact arithmetic"
  },
  {
   "property": "C36",
   "status": "proved",
   "theorems": [
    "C36_delay",
    "C36_quarter_window_refuted"
   ],
   "note": "exact arithmetic; the second theorem characterises the singular shifts"
  },
  {
   "property": "C37",
   "status": "proved",
   "theorems": [
    "C37_spikes",
    "C37_returns"
   ],
   "note": "exact arithmetic, nt left at its default"
  },
  {
   "property": "C38",
   "status": "proved",
   "theorems": [
    "C38_residual",
    "C38_example"
   ],
   "note": "exact arithmetic, nt left at its default; also states that every step is the optimal single spike"
  },
  {
   "property": "C39",
   "status": "partial",
   "theorems": [
    "C39_rms_drops_last",
    "C39_refuted"
   ],
   "note": "REFUTED: synrf.py:208 returns rms[0:it-1], so the entry describing the returned receiver function is dropped (and it=0 gives itmax-1 zeros); C39_rms_drops_last states what is returned."
  },
  {
   "property": "C40",
   "status": "proved",
   "theorems": [
    "C40_dispatch",
    "C40_rejects",
    "C40_defaults",
    "C40_not_builtin_refuted"
   ],
   "note": "the exception is the module's own class named ValueError, not the builtin one (C40_not_builtin_refuted)"
  },
  {
   "property": "C41",
   "status": "proved",
   "theorems": [
    "C41_waterlevel",
    "C41_returns",
    "C41_exact"
   ],
   "note": "exact arithmetic"
  },
  {
   "property": "C42",
   "status": "proved",
   "theorems": [
    "C42_filter_defaults",
    "C42_before_run_fwd",
    "C42_run_fwd_resets",
    "C42_decon_pure",
    "C42_parameters_constant",
    "C42_example"
   ],
   "note": "obspy's bandpass is an arbitrary function; edge case (empty ray parameter list and pre_filt=None returns an empty stream) stated in C42_before_run_fwd"
  },
  {
   "property": "C43",
   "status": "proved",
   "theorems": [
    "C43_rayp_types",
    "C43_run_fwd",
    "C43_receiver_functions",
    "C43_rays_independent"
   ],
   "note": ""
  },
  {
   "property": "C44",
   "status": "partial",
   "theorems": [
    "C44_any_arithmetic",
    "C44_window",
    "C44_succeeds",
    "C44_binary64_refuted"
   ],
   "note": "Proved in exact arithmetic; REFUTED in binary64 (75 Hz, P at 30 s: no computed time is exactly 0 and the call raises IndexError); C44_any_arithmetic says what happens in any arithmetic"
  },
  {
   "property": "C45",
   "status": "partial",
   "theorems": [
    "C45_same_solutions",
    "C45_best_models",
    "C45_ties_refuted"
   ],
   "note": "same solutions always; same best values always and same models when only one grid point attains the best value; REFUTED for ties (C45_ties_refuted: the two versions keep the first of different orders)"
  },
  {
   "property": "C46",
   "status": "proved",
   "theorems": [
    "C46_pool_result",
    "C46_pool_raises",
    "C46_pool_terminates",
    "C46_pool_returns",
    "C46_schedule_independent",
    "C46_evaluated_once",
    "C46_evaluated_before_failures",
    "C46_no_process",
    "C46_exception_depends_on_schedule"
   ],
   "note": "Pool.map of CPython modelled as a transition system; when several items raise, which exception is raised depends on the schedule"
  },
  {
   "property": "C47",
   "status": "partial",
   "theorems": [
    "C47_monotone",
    "C47_at_most_one",
    "C47_correlation_only",
    "C47_refuted"
   ],
   "note": "proved when some row has positive correlation, RMSE and PG; REFUTED otherwise (C47_refuted: all correlations negative, the worst model is reported)"
  },
  {
   "property": "C48",
   "status": "partial",
   "theorems": [
    "C48_weights_ignored",
    "C48_refuted"
   ],
   "note": "REFUTED: the weights passed to PlotWaveformFitting are never read"
  },
  {
   "property": "C49",
   "status": "partial",
   "theorems": [
    "C49_too_many",
    "C49_matching",
    "C49_general",
    "C49_refuted"
   ],
   "note": "REFUTED when there are fewer results than grid points (the never evaluated model 0 km, Vp/Vs 0 is reported); complete characterisation of the other cases"
  },
  {
   "property": "C50",
   "status": "proved",
   "theorems": [
    "C50_file_order",
    "C50_written",
    "C50_complete",
    "C50_every_trace"
   ],
   "note": "obspy reading, directory listing, catalog reading and travel times are arbitrary functions"
  },
  {
   "property": "C51",
   "status": "proved",
   "theorems": [
    "C51_window",
    "C51_both",
    "C51_example"
   ],
   "note": "times in whole nanoseconds, half a nanosecond of rounding per addition"
  },
  {
   "property": "C52",
   "status": "partial",
   "theorems": [
    "C52_agree_refuted",
    "C67_serial_within_multiproc"
   ],
   "note": "REFUTED: a window that is only partly covered by a file is written by ExtractEq_Multiproc and not by ExtractEq (C52_agree_refuted); what does hold is C67"
  },
  {
   "property": "C53",
   "status": "proved",
   "theorems": [
    "C53_written",
    "C53_complete",
    "C53_windows"
   ],
   "note": ""
  },
  {
   "property": "C54",
   "status": "partial",
   "theorems": [
    "C54_save_outcomes",
    "C54_save_sequential",
    "C54_distinct_directories",
    "C54_concurrent_refuted",
    "C54_example"
   ],
   "note": "REFUTED for concurrent callers (C54_concurrent_refuted: two processes racing, one gets FileExistsError). Proved for a single caller: exact outcome for every file system, idempotence, frame. C76 states what does hold concurrently."
  },
  {
   "property": "C55",
   "status": "partial",
   "theorems": [
    "C55_install_examples",
    "C55_install_rfsed_tests",
    "C55_colliding_directory_refuted",
    "C55_colliding_file_refuted",
    "C55_reinstall_refuted",
    "C55_stale_cache",
    "C55_example"
   ],
   "note": "REFUTED without the no-obstacle hypothesis (a directory in place of a file; a file in place of a directory; re-installing after removing the result in the same process). Proved when nothing of the wrong kind is in the way and distutils' cache is truthful: everything packaged is installed exactly, everything else unchanged, repeating changes nothing."
  },
  {
   "property": "C56",
   "status": "partial",
   "theorems": [
    "C56_hk_names_distinct",
    "C56_underscore_collision_refuted",
    "C56_plothkYu_fixed_name",
    "C56_plotfiltrf_fixed_names",
    "C56_refuted"
   ],
   "note": "REFUTED: plothkYu, plothkSynth, plothkSeqSynth and plotfiltrf use fixed file names, so two analyses overwrite each other; plothk/plotSeqhk names are distinct when codes contain no underscore (proved)."
  },
  {
   "property": "C57",
   "status": "proved",
   "theorems": [
    "C57_unit_free",
    "C27_C57_example"
   ],
   "note": "exact arithmetic"
  },
  {
   "property": "C58",
   "status": "proved",
   "theorems": [
    "C58_single_arrival_iter",
    "C58_single_arrival_water"
   ],
   "note": "exact arithmetic"
  },
  {
   "property": "C59",
   "status": "proved",
   "theorems": [
    "C59_amplitude_iter",
    "C59_amplitude_water"
   ],
   "note": "exact arithmetic; iterative case for runs with at least one iteration (with zero iterations the result is all zeros)"
  },
  {
   "property": "C60",
   "status": "proved",
   "theorems": [
    "C60_defined"
   ],
   "note": ""
  },
  {
   "property": "C61",
   "status": "proved",
   "theorems": [
    "C61_response",
    "C61_lone",
    "C31_example"
   ],
   "note": ""
  },
  {
   "property": "C62",
   "status": "proved",
   "theorems": [
    "C62_propagator"
   ],
   "note": ""
  },
  {
   "property": "C63",
   "status": "proved",
   "theorems": [
    "C63_postcritical"
   ],
   "note": "NaN propagation is modelled as the outcome NaNResult at the first non-finite division or square root."
  },
  {
   "property": "C64",
   "status": "proved",
   "theorems": [
    "C64_seismograms"
   ],
   "note": ""
  },
  {
   "property": "C65",
   "status": "proved",
   "theorems": [
    "C65_prefilter_is_filter",
    "C65_prefilter_accumulates",
    "C65_default_calls"
   ],
   "note": ""
  },
  {
   "property": "C66",
   "status": "proved",
   "theorems": [
    "C46_pool_result",
    "C66_lost_task_never_returns"
   ],
   "note": "C46_pool_result is about runs with worker deaths too"
  },
  {
   "property": "C67",
   "status": "proved",
   "theorems": [
    "C67_serial_within_multiproc"
   ],
   "note": ""
  },
  {
   "property": "C68",
   "status": "proved",
   "theorems": [
    "C68_reproduced"
   ],
   "note": ""
  },
  {
   "property": "C69",
   "status": "proved",
   "theorems": [
    "C69_plotbestmodel",
    "C69_PlotWaveformFitting",
    "C69_serial_refuted"
   ],
   "note": "C69_serial_refuted: the condition on the header in the serial version is needed"
  },
  {
   "property": "C70",
   "status": "proved",
   "theorems": [
    "C70_rows",
    "C70_correlation",
    "C70_perfect_correlation",
    "C70_rmse"
   ],
   "note": ""
  },
  {
   "property": "C71",
   "status": "proved",
   "theorems": [
    "C71_synthetic",
    "C71_pipeline"
   ],
   "note": "obspy's bandpass is an arbitrary function"
  },
  {
   "property": "C72",
   "status": "proved",
   "theorems": [
    "C72_PlotWaveformFitting",
    "C72_plotbestmodel",
    "C72_distinct_files"
   ],
   "note": ""
  },
  {
   "property": "C73",
   "status": "proved",
   "theorems": [
    "C73_completes"
   ],
   "note": ""
  },
  {
   "property": "C74",
   "status": "proved",
   "theorems": [
    "C74_killed_install",
    "C74_example"
   ],
   "note": ""
  },
  {
   "property": "C75",
   "status": "proved",
   "theorems": [
    "C75_install_examples_harmless",
    "C75_install_rfsed_tests_harmless"
   ],
   "note": ""
  },
  {
   "property": "C76",
   "status": "proved",
   "theorems": [
    "C76_concurrent_callers",
    "C76_somebody_succeeds",
    "C76_no_failure"
   ],
   "note": ""
  },
  {
   "property": "C77",
   "status": "proved",
   "theorems": [
    "C77_hk_completes",
    "C77_hkSynth_completes",
    "C77_hkSeq_completes",
    "C77_hkSeqSynth_completes",
    "C77_hkYu_completes",
    "C78_hk_example",
    "C78_hkSynth_example"
   ],
   "note": "any arithmetic; pyplot is a function that may raise on any table; the concrete runs use a pyplot that refuses non-finite values and degenerate grids"
  },
  {
   "property": "C78",
   "status": "proved",
   "theorems": [
    "C78_hk_recovers",
    "C78_hkSynth_recovers",
    "C78_hkYu_recovers",
    "C78_hkSeqSynth_recovers",
    "C78_hkSeq_recovers",
    "C78_hk_example",
    "C78_hkSynth_example"
   ],
   "note": "exact arithmetic; uniform time axis; hkSeq: the last trace of each stream decides (C16)"
  },
  {
   "property": "C79",
   "status": "proved",
   "theorems": [
    "C79_r_below_one",
    "C79_gain_bounds",
    "C79_invertible",
    "C79_removes_reverberation",
    "C79_example"
   ],
   "note": "exact arithmetic"
  },
  {
   "property": "C80",
   "status": "proved",
   "theorems": [
    "C80_plotSeqhk_result",
    "C80_plothkYu_result",
    "C80_plothkSynth_result",
    "C80_plothkSeqSynth_result"
   ],
   "note": "any arithmetic, any pyplot, any outcome; example C80_example_partial_write"
  },
  {
   "property": "C81",
   "status": "proved",
   "theorems": [
    "C81_plotSeqhk_traces",
    "C81_plotSeqhk_stacked",
    "C81_plothkYu",
    "C81_plothkSynth",
    "C81_plothkSeqSynth"
   ],
   "note": "exact arithmetic; drawing events of the pyplot calls are modelled, pixels are not; in trace mode the shaded spans are those of the last trace only; examples C81_example_*"
  },
  {
   "property": "C82",
   "status": "proved",
   "theorems": [
    "C82_delays",
    "C82_delays_slowness"
   ],
   "note": "binary64; error bounds from Flocq's correctly-rounded theorems; example C84_example (sane values)"
  },
  {
   "property": "C83",
   "status": "proved",
   "theorems": [
    "C83_nearest",
    "C84_hk_value"
   ],
   "note": "binary64; the reads are the reads3 part of C84_hk_value"
  },
  {
   "property": "C84",
   "status": "proved",
   "theorems": [
    "C84_hk_value",
    "C84_example"
   ],
   "note": "binary64; stack=False"
  },
  {
   "property": "C85",
   "status": "proved",
   "theorems": [
    "C85_hk_best",
    "C84_example"
   ],
   "note": "binary64; stack=False"
  },
  {
   "property": "C86",
   "status": "proved",
   "theorems": [
    "C86_hk_recovers",
    "C86_example"
   ],
   "note": "binary64; stack=False"
  },
  {
   "property": "C87",
   "status": "proved",
   "theorems": [
    "C87_resonance_found",
    "C87_no_resonance_iff",
    "C87_lone_spike_example"
   ],
   "note": "exact arithmetic"
  },
  {
   "property": "C88",
   "status": "partial",
   "theorems": [
    "C88_anticorrelation_refuted",
    "C88_energy"
   ],
   "note": "REFUTED: the first trough can be a positive correlation, and filtering then adds energy; C88_energy is the exact energy of the filtered trace for every input. Exact arithmetic"
  },
  {
   "property": "C89",
   "status": "proved",
   "theorems": [
    "C89_two_layer",
    "C89_two_layer_slowness",
    "C89_hkYu",
    "C91_hkYu_example",
    "C91_hkSeqSynth_example"
   ],
   "note": "binary64; the examples run hkYu and hkSeqSynth on sane inputs"
  },
  {
   "property": "C90",
   "status": "proved",
   "theorems": [
    "C90_hkSynth",
    "C90_hkSeqSynth",
    "C90_hkYu",
    "C90_hkSeq",
    "C90_hk_stacked",
    "C91_hkSynth_example",
    "C91_hkYu_example",
    "C91_hkSeqSynth_example"
   ],
   "note": "binary64; for hk with stack=True the best-row statement is C07/C91"
  },
  {
   "property": "C91",
   "status": "proved",
   "theorems": [
    "C91_hkSynth",
    "C91_hkYu",
    "C91_hkSeqSynth",
    "C91_hkSeq",
    "C91_hk_stacked",
    "C91_hkSynth_example",
    "C91_hkYu_example",
    "C91_hkSeqSynth_example"
   ],
   "note": "binary64"
  },
  {
   "property": "C92",
   "status": "partial",
   "theorems": [
    "C92_hk",
    "C92_hkSynth",
    "C92_hkYu",
    "C92_hkSeq",
    "C92_hkSeqSynth",
    "C92_hkSeq_moho_line_iff",
    "C92_hkSeq_interrupted",
    "C92_moho_value_refuted"
   ],
   "note": "REFUTED: the Moho line of hkSeq and hkSeqSynth prints the sediment's stack value (C92_moho_value_refuted, exact characterisation C92_hkSeq, C92_hkSeqSynth, C92_hkSeq_moho_line_iff); all other lines are proved right"
  },
  {
   "property": "C93",
   "status": "proved",
   "theorems": [
    "C93_hk",
    "C93_hkSynth",
    "C93_hkYu",
    "C93_hkSeq",
    "C93_hkSeqSynth",
    "C93_hk_returns",
    "C93_hkSynth_returns",
    "C93_hkYu_returns",
    "C93_hkSeq_returns",
    "C93_hkSeqSynth_returns",
    "C92_moho_value_refuted"
   ],
   "note": "any arithmetic; the _returns theorems (with C77) and the computed run of C92_moho_value_refuted meet the hypotheses"
  },
  {
   "property": "C94",
   "status": "proved",
   "theorems": [
    "C94_response",
    "C94_receiver_function",
    "C94_hk_delays",
    "C94_hkSeq_delays",
    "C94_one_layer",
    "C94_uniform"
   ],
   "note": "exact complex arithmetic; examples ex_one_layer, ex_two_layers, ex_uniform meet the hypotheses"
  },
  {
   "property": "C95",
   "status": "proved",
   "theorems": [
    "C95_water",
    "C95_synrf",
    "C95_one_layer",
    "C95_runs"
   ],
   "note": "exact arithmetic; C95_runs and C95_example: the hypotheses are met"
  },
  {
   "property": "C96",
   "status": "partial",
   "theorems": [
    "C96_refuted",
    "C96_legend_exact",
    "C96_legend_double",
    "C96_plothk",
    "C96_plotSeqhk",
    "C96_plothkYu",
    "C96_plothkSynth",
    "C96_plothkSeqSynth",
    "C96_PlotWaveformFitting",
    "C96_plotbestmodel"
   ],
   "note": "REFUTED: the legend prints Vp/Vs + 0.001; on the documented grid linspace(1.65,1.95,121) the node 1.6549999999999998 is legended 1.66 (C96_refuted). Characterisation: every mark drawn, in any arithmetic and whatever the outcome, is at the reported row and legended (H, K+0.001) (C96_plothk ... C96_plotbestmodel); at two decimals that is right exactly when K is less than 0.004 above the shown hundredth, one hundredth too high otherwise, never more than 0.006 off (C96_legend_exact; in double precision C96_legend_double). Missing: nothing, the statement is false."
  },
  {
   "property": "C97",
   "status": "partial",
   "theorems": [
    "C97_refuted",
    "C97_PlotWaveformFitting",
    "C97_plotbestmodel",
    "C97_width"
   ],
   "note": "REFUTED: two identical receiver functions give a band of positive width at every sample (C97_refuted). Characterisation (exact arithmetic): the band is the stacked record plus and minus one number, its own standard deviation over time; the width is the same at every sample and zero iff the stacked record is constant. Missing: nothing, the statement is false."
  },
  {
   "property": "C98",
   "status": "partial",
   "theorems": [
    "C98_refuted",
    "C98_PlotWaveformFitting",
    "C98_increasing",
    "C98_plotbestmodel",
    "C96_plothk",
    "C96_plotSeqhk",
    "C96_plothkYu",
    "C96_plothkSynth",
    "C96_plothkSeqSynth"
   ],
   "note": "True of plothk, plotSeqhk, plothkYu, plothkSynth, plothkSeqSynth (second conclusion [limits] of the C96 theorems, any ordered arithmetic, any outcome) and of plotbestmodel (C98_plotbestmodel). REFUTED for PlotWaveformFitting, whose axes run from the first to the last grid value (C98_PlotWaveformFitting): right for increasing grids (C98_increasing), but with depths given as 30, 40, 35 the best model 40 is outside the axes of all four figures (C98_refuted). Missing: nothing, the statement is false for PlotWaveformFitting."
  },
  {
   "property": "C99",
   "status": "partial",
   "theorems": [
    "C99_refuted",
    "C99_plothk",
    "C99_plotSeqhk",
    "C99_plothkYu",
    "C99_plothkSynth",
    "C99_plothkSeqSynth",
    "C99_shallow",
    "C99_example"
   ],
   "note": "REFUTED: the axis ends at 30 s (crust) or 10 s (sediment) whatever the model; at H=60, Vp/Vs=1.95, Vp=6.9, p=0.06, a corner of the documented grid, PsPs comes after 30 s and its mark is cut off (C99_refuted). Characterisation (exact arithmetic, pre-critical, every call that returns): all marks of a figure are visible exactly when the PsPs time of every drawn trace (plus tlag for plothkYu) is at most the end of the axis (C99_plothk ... C99_plothkSeqSynth); true when H*(Vp/Vs)/Vp <= 15 s (C99_shallow). Missing: nothing, the statement is false."
  },
  {
   "property": "C100",
   "status": "proved",
   "theorems": [
    "C100_plotSeqhk_again",
    "C100_plothkYu_again",
    "C100_plothkSynth_again",
    "C100_plothkSeqSynth_again"
   ],
   "note": "any arithmetic, any pyplot; plothk: C11_plothk_idempotent. That first calls return: C81_example_*"
  },
  {
   "property": "C101",
   "status": "proved",
   "theorems": [
    "C101_rate",
    "C101_receiver_function",
    "C101_converges"
   ],
   "note": "exact arithmetic, nt left at its default; concrete case: C102_example"
  },
  {
   "property": "C102",
   "status": "proved",
   "theorems": [
    "C102_iterative",
    "C102_limit",
    "C102_water",
    "C102_water_exact"
   ],
   "note": "exact arithmetic; nt left at its default; for the water level preonset is a whole number of samples. C102_example: a concrete two-arrival case."
  },
  {
   "property": "C103",
   "status": "proved",
   "theorems": [
    "C103_no_sample_lost",
    "C103_example"
   ],
   "note": "the reader law reads_window is a hypothesis about obspy; concrete case: C103_example (two files, a window across their boundary)"
  },
  {
   "property": "C104",
   "status": "partial",
   "theorems": [
    "C104_refuted",
    "C104_event_lost",
    "C104_run",
    "C104_which_samples",
    "C104_no_straddling"
   ],
   "note": "REFUTED: an event whose window crosses the boundary of two consecutive gapless files is not written at all (C104_refuted, C104_event_lost on the run C104_run); what holds: a sample is written exactly if the whole window lies in the first trace of a file holding it (C104_which_samples), so nothing is lost if no window leaves the first trace of a file it touches (C104_no_straddling)"
  },
  {
   "property": "C105",
   "status": "proved",
   "theorems": [
    "C105_searched",
    "C105_root_and_current",
    "C105_listing_order",
    "C105_written",
    "C105_pattern",
    "C105_example",
    "C105_pattern_example"
   ],
   "note": "glob.glob is modelled for a path without pattern characters (any behaviour otherwise); concrete case: C105_example, C105_pattern_example"
  },
  {
   "property": "C106",
   "status": "partial",
   "theorems": [
    "C106_refuted",
    "C106_searched",
    "C106_raises"
   ],
   "note": "REFUTED: without the final slash the files searched are the directory itself and its neighbours whose names start with the same letters, never its contents (C106_searched), so ExtractEq raises whenever reading a directory raises (C106_raises; C106_refuted on a concrete tree); no stream is then written"
  },
  {
   "property": "C107",
   "status": "proved",
   "theorems": [
    "C107_hk",
    "C107_hkSynth",
    "C107_hkYu",
    "C107_hkSeq",
    "C107_hkSeqSynth",
    "C107_example"
   ],
   "note": "any Num with OrdLaws, hence exact reals and binary64; concrete case: C107_example"
  },
  {
   "property": "C108",
   "status": "proved",
   "theorems": [
    "C108_hk",
    "C108_hkSynth",
    "C108_hkYu",
    "C108_hkSeq",
    "C108_hkSeqSynth",
    "C108_example"
   ],
   "note": "exact reals; with stack=True the stack of the longer records is assumed to extend the stack of the shorter ones; concrete case: C108_example"
  },
  {
   "property": "C109",
   "status": "proved",
   "theorems": [
    "C109_hk",
    "C109_hkSynth",
    "C109_hkYu",
    "C109_hkSeq",
    "C109_hkSeqSynth",
    "C109_example"
   ],
   "note": "exact reals; the plot is assumed to accept every finite table over the rescaled grid and, with stack=True, the library's stack to commute with the amplitude unit; concrete case: C109_example"
  },
  {
   "property": "C110",
   "status": "proved",
   "theorems": [
    "C110_response",
    "C110_seismograms",
    "C110_iterative",
    "C110_waterlevel",
    "C110_object",
    "C110_call",
    "C110_history"
   ],
   "note": "exact reals; obspy's band-pass filter is assumed to depend only on the ratios of its corner frequencies to the sampling frequency; concrete case: C110_example"
  },
  {
   "property": "C111",
   "status": "proved",
   "theorems": [
    "C111_common_delay_iter",
    "C111_common_delay_water"
   ],
   "note": "exact reals; results compared as a whole, exceptions included; concrete case: C111_example"
  },
  {
   "property": "C112",
   "status": "proved",
   "theorems": [
    "C112_linear",
    "C112_time_invariant"
   ],
   "note": "exact reals; concrete case: C112_example"
  },
  {
   "property": "C113",
   "status": "proved",
   "theorems": [
    "C113_succeeds",
    "C113_catalog_parts",
    "C113_catalog_order",
    "C113_more_files",
    "C113_multiproc_files",
    "C113_multiproc_windows"
   ],
   "note": "C113_succeeds characterises exactly when ExtractEq returns and with what; concrete case: C113_example"
  },
  {
   "property": "C114",
   "status": "proved",
   "theorems": [
    "C114_same_criteria",
    "C114_refinement",
    "C114_weights"
   ],
   "note": "C114_same_criteria and C114_weights hold in any arithmetic, C114_refinement in exact arithmetic; the parallel version computes the same criteria (C45); concrete case: C114_example"
  },
  {
   "property": "C115",
   "status": "partial",
   "theorems": [
    "C115_refuted",
    "C115_within_range"
   ],
   "note": "REFUTED: the criteria are normalised by their maxima over the grid, so adding a badly fitting model can reverse the order of two others and change the reported best model (C115_refuted, a run in binary64). It holds, and GoF values stay the same, when the added models stay within the range of the three criteria (C115_within_range, exact arithmetic; concrete case: C115_example)"
  },
  {
   "property": "C116",
   "status": "proved",
   "theorems": [
    "C116_amplitude_unit",
    "C116_rmse_depends"
   ],
   "note": "exact reals; concrete case: C116_example; C116_rmse_depends is a binary64 run where the RMSE-best model changes with the unit"
  },
  {
   "property": "C117",
   "status": "partial",
   "theorems": [
    "C117_refuted",
    "C117_figures",
    "C117_traces_right",
    "C117_trough_displaced",
    "C117_right_iff_no_preonset"
   ],
   "note": "REFUTED: all three figures are drawn against the time axis of the receiver function, so the autocorrelation is displaced by the preonset (the trough used by the filter is drawn at tlag - preonset; right only for preonset = 0: C117_trough_displaced, C117_right_iff_no_preonset) and the frequency response has a time axis (C117_refuted: trough of lag 1 s drawn at -4 s). What is saved is characterised by C117_figures; the third figure is right (C117_traces_right)."
  },
  {
   "property": "C118",
   "status": "proved",
   "theorems": [
    "C118_time_unit",
    "C118_time_reversal",
    "C118_example"
   ],
   "note": "exact reals; both entry points; concrete case: C118_example"
  },
  {
   "property": "C119",
   "status": "proved",
   "theorems": [
    "C119_PlotWaveformFitting",
    "C119_plotbestmodel",
    "C119_moho_in_sediment"
   ],
   "note": "exact reals. Spec: points on a broken line, material met at a depth in a stack of layers. C119_moho_in_sediment: the condition is needed (the line folds back otherwise). Concrete case: C119_example."
  },
  {
   "property": "C120",
   "status": "proved",
   "theorems": [
    "C120_concurrent_installs",
    "C120_concurrent_test_installs",
    "C120_killed",
    "C120_alone",
    "C120_terminates",
    "C120_progress",
    "C120_one_may_fail",
    "C120_one_may_fail_to_delete"
   ],
   "note": "individual processes may fail although nothing is in the way: C120_one_may_fail (FileNotFoundError) and C120_one_may_fail_to_delete (DistutilsFileError) are concrete races and show that the hypotheses are met. C120_alone relates the small-step machine to the sequential model of C55."
  },
  {
   "property": "C121",
   "status": "proved",
   "theorems": [
    "C121_hk",
    "C121_hk_stacked",
    "C121_hkSynth",
    "C121_hkYu",
    "C121_hkSeq",
    "C121_hkSeqSynth",
    "C121_hk_dead_trace",
    "C121_moho_infinite",
    "C121_example",
    "reads_nearest"
   ],
   "note": "binary64; assumes that tricontourf refuses a table with a value that is not finite (matplotlib does); C121_moho_infinite shows that the restriction to NaN in the Moho stage is needed; reads_nearest says which sample is read"
  },
  {
   "property": "C122",
   "status": "proved",
   "theorems": [
    "C122_hk",
    "C122_hkSynth",
    "C122_hkYu",
    "C122_hkSeq",
    "C122_hkSeqSynth",
    "C121_example"
   ],
   "note": "assumes that tricontourf refuses points that lie on one line (matplotlib does); C121_example has a run that returns and one-value grids that raise"
  },
  {
   "property": "C123",
   "status": "proved",
   "theorems": [
    "C123_hk",
    "C123_hk_stacked",
    "C123_hkSynth",
    "C123_hkYu",
    "C123_hkSeqSynth",
    "C123_hkSeq",
    "C123_not_ideal",
    "C123_example"
   ],
   "note": "generalises C78; C123_example is a run on a record with a direct P six times the Ps pulse, which is not ideal in the sense of C78 (C123_not_ideal)"
  },
  {
   "property": "C124",
   "status": "proved",
   "theorems": [
    "C124_hk",
    "C124_hk_stacked",
    "C124_hkSynth",
    "C124_hkYu",
    "C124_hkSeqSynth",
    "C124_hkSeq",
    "C124_not_pulses",
    "C124_example",
    "C124_hkSynth_example"
   ],
   "note": "double-precision counterpart of C123, generalises C86 and C91; the examples run on a record that does not meet the hypotheses of C86/C91 (C124_not_pulses)"
  },
  {
   "property": "C125",
   "status": "proved",
   "theorems": [
    "C125_hk",
    "C125_hkSynth",
    "C125_hkYu",
    "C125_hkSeqSynth",
    "C125_hkSeq",
    "C125_example",
    "C125_hk_example"
   ],
   "note": "double-precision counterpart of C108, for arbitrary other samples; the examples replace the direct P by NaN and the coda by infinity"
  },
  {
   "property": "C126",
   "status": "proved",
   "theorems": [
    "C126_shared",
    "C126_hands_off",
    "C126_waveforms",
    "C126_example"
   ],
   "note": "simulation between a heap of Trace objects shared by the results and a session in which each result owns copies; the in-place change of a used trace is C127"
  },
  {
   "property": "C127",
   "status": "partial",
   "theorems": [
    "C127_refuted",
    "C127_witness",
    "C126_shared",
    "C126_hands_off"
   ],
   "note": "REFUTED: the dictionary holds the caller's Trace objects, so a trace changed in place after an unstacked analysis (e.g. filtered) is what the figure shows, beside the old table and best model. Characterised: the figure is right whenever no trace of an earlier unstacked analysis has been changed (C126_shared), and always for stacked analyses (C126_hands_off)"
  },
  {
   "property": "C128",
   "status": "proved",
   "theorems": [
    "C128_shared",
    "C128_hands_off",
    "C128_example"
   ],
   "note": "simulation between objects that keep references and objects that own copies; changes of the kept arrays are C129"
  },
  {
   "property": "C129",
   "status": "partial",
   "theorems": [
    "C129_refuted",
    "C129_run_fwd",
    "C129_stored",
    "C128_shared"
   ],
   "note": "REFUTED: vp, vs, rho and a rayp list are kept by reference (only depth is copied, as thicknesses): a ray parameter list extended after construction gives two traces instead of one. Characterised: run_fwd computes with the depths of the construction and the velocities, densities and ray parameters of the moment of the call (C129_run_fwd); filter and run_deconvolution see only the number of ray parameters (C129_stored)"
  },
  {
   "property": "C130",
   "status": "proved",
   "theorems": [
    "C130_completes_iff",
    "C130_deterministic",
    "C130_completes",
    "C130_reproduced",
    "C130_example"
   ],
   "note": "exact arithmetic; which of several equal best models is printed can differ from the serial version (C45)"
  },
  {
   "property": "C131",
   "status": "proved",
   "theorems": [
    "C131_rmse",
    "C131_table",
    "C131_best",
    "C131_reproduced",
    "C131_example"
   ],
   "note": "sums left to right (numpy sums pairwise, which has a smaller error); math.sqrt correctly rounded"
  },
  {
   "property": "C132",
   "status": "proved",
   "theorems": [
    "C132_own_figures",
    "C132_own_returned",
    "C132_which",
    "C132_plothk",
    "C132_plotSeqhk",
    "C132_plothkYu",
    "C132_plothkSynth",
    "C132_plothkSeqSynth"
   ],
   "note": "figures are lists of drawings; axes inside a figure are not distinguished"
  },
  {
   "property": "C133",
   "status": "partial",
   "theorems": [
    "C133_refuted",
    "C133_refuted_returned",
    "C133_filter_plots",
    "C133_filter_plots_iff",
    "C133_searches",
    "C133_one_call",
    "C133_blocking",
    "C133_history",
    "C133_stacked_only",
    "C133_plotfiltrf"
   ],
   "note": "REFUTED: plotfiltrf/plotfiltSynthrf draw on the current figure, which plothk/plotSeqhk leave open for unstacked results (non-blocking backends) and any raised plot leaves open; the exact content of every file is given from the history, and the claim is proved for blocking backends with returned calls and for sessions without unstacked plots"
  },
  {
   "property": "C134",
   "status": "partial",
   "theorems": [
    "C134_refuted",
    "C134_one_call",
    "C134_count",
    "C134_blocking"
   ],
   "note": "REFUTED: each plothk of an unstacked result leaves a figure open on a non-blocking backend; exact count for every session, zero for blocking backends"
  },
  {
   "property": "C135",
   "status": "partial",
   "theorems": [
    "C135_refuted",
    "C135_kept",
    "C135_closed",
    "C135_raised_shared"
   ],
   "note": "REFUTED: close('all') closes every figure in all functions but plothk on unstacked results, and the search functions and filter plots draw into the user's current figure; exact outcome for each function"
  },
  {
   "property": "C136",
   "status": "proved",
   "theorems": [
    "C136_hk",
    "C136_hkSeq",
    "C136_hkYu",
    "C136_hkSynth",
    "C136_hkSeqSynth",
    "C136_example"
   ],
   "note": "exact arithmetic; both runs return; with stack=True the stacked records are assumed to differ by at most e; the Moho table of the sequential searches is compared when both runs report the same sediment model"
  },
  {
   "property": "C137",
   "status": "proved",
   "theorems": [
    "C137_waterlevel",
    "C137_bounded",
    "C137_example"
   ],
   "note": "exact arithmetic; both calls return"
  },
  {
   "property": "C138",
   "status": "proved",
   "theorems": [
    "C138_rmse",
    "C138_best",
    "C138_true_model",
    "C138_example"
   ],
   "note": "exact arithmetic; both runs return; serial program (the parallel one gives the same table, C45, C130)"
  },
  {
   "property": "C139",
   "status": "partial",
   "theorems": [
    "C139_refuted",
    "C139_with_pool",
    "C139_eqtimes",
    "C139_with_tidy",
    "C139_eqtimes_iff",
    "C139_events",
    "C139_session",
    "C139_example"
   ],
   "note": "REFUTED: Get_Eqtimes_multiproc does not close its pool when Eq_times raises for some event (no with statement); proved for the other two, and the exact number of workers left by any session; Python's own finaliser of unreferenced pools is not modelled"
  },
  {
   "property": "C140",
   "status": "partial",
   "theorems": [
    "C140_refuted",
    "C140_autocorrelation",
    "C140_strength",
    "C140_strength_bound",
    "C140_removed",
    "C140_zero_mean_pulse",
    "C140_zero_mean_example",
    "C140_example"
   ],
   "note": "REFUTED: a spike at sample 1 with reverberations of lag 4, strength 1/2 gives lag 1, strength 1/6. Proved: the exact autocorrelation at the true lag; if the reported lag is the true one, |r - rho| is bounded by the end of the record and the removed trend (explicit bound) and the filtered record differs from the signal by an explicit remainder; for records of separated zero-mean pulses the reported lag is always shorter than the pulse"
  },
  {
   "property": "C141",
   "status": "proved",
   "theorems": [
    "C141_filtered",
    "C141_from_remainder",
    "C141_recovers",
    "C141_example"
   ],
   "note": "exact arithmetic. Hypotheses on the run: the reported lag is the true one (C140 says when it is not), the record is not a straight line, and hkYu returns"
  },
  {
   "property": "C142",
   "status": "partial",
   "theorems": [
    "C142_refuted",
    "C142_lag",
    "C142_same_lag",
    "C142_stable",
    "C142_samples",
    "C142_example",
    "C142_then_hkYu",
    "C142_then_hkYu_example"
   ],
   "note": "REFUTED: for the record -1 0 0 2 0 0 -1 noise of any size e <= 1/10 moves the lag from 3 to 1, the strength from 2/3 to below e and a filtered sample by more than 1/2. Proved: with the same reported lag, strength within 2 eta (2 + eta) and filtered record within eta (6 + 2 eta) relative energy norm; the lag is the same when the autocorrelation falls down to it and rises after it by more than 2 eta (2 + eta); hkYu after the filter still recovers the crust with the noise added to the remainder of C141. Exact arithmetic"
  },
  {
   "property": "C143",
   "status": "proved",
   "theorems": [
    "C143_water_exact",
    "C143_water",
    "C143_iterative",
    "C143_limit",
    "C143_sharp",
    "C143_example"
   ],
   "note": "exact arithmetic; both calls return. C143_limit: the number of iterations that suffices does not depend on the grid, the velocity, the slowness or the pre-onset"
  },
  {
   "property": "C144",
   "status": "proved",
   "theorems": [
    "C144_shared",
    "C144_hands_off",
    "C144_example"
   ],
   "note": "simulation between dictionaries that keep references and dictionaries that own copies. The streams of hk and hkSeq are passed by value here; their sharing is C126/C127"
  },
  {
   "property": "C145",
   "status": "partial",
   "theorems": [
    "C145_refuted",
    "C145_current",
    "C144_shared"
   ],
   "note": "REFUTED: grids, traces and time axes are kept by reference: a depth grid converted to metres in place gives a figure whose axes do not contain the marked best model. Characterised (C145_current): after any history the result still is that analysis (parameters, best row, table up to clipped values, traces up to headers) with the caller's arrays as they are now, and a figure is the figure of that mixture"
  },
  {
   "property": "C146",
   "status": "proved",
   "theorems": [
    "C146_noisy",
    "C146_example"
   ],
   "note": "C137 (noise amplification) composed with the ideal receiver function (C102) and the recovery of a crust from a nearby record (C123, C143). The record is the one of length uin, so the program has all samples; the noise is any record of the same length"
  },
  {
   "property": "C147",
   "status": "proved",
   "theorems": [
    "C147_iterative",
    "C147_limit",
    "C147_recovers",
    "C147_found",
    "C147_example"
   ],
   "note": "least-squares receiver functions are nonexpansive in the record (orthogonality of the two fits, Cauchy-Schwarz), the Gaussian filter enlarges no difference (Parseval), and the iterations converge (C101). Exact arithmetic; no maxlag restriction other than the one of the phase, as in C101"
  },
  {
   "property": "C148",
   "status": "proved",
   "theorems": [
    "C148_loaders_unaffected",
    "C148_stream",
    "C148_files",
    "C148_installed_copy",
    "C148_example"
   ],
   "note": "the HDF5 decoder of read_rf is an arbitrary function of the bytes; the package is installed as ordinary files (pkg_resources, no zip); no symlinks or permissions"
  },
  {
   "property": "C149",
   "status": "proved",
   "theorems": [
    "C149_removed",
    "C149_strength",
    "C149_lag",
    "C149_example"
   ],
   "note": "exact arithmetic. For a fixed record the unconditional claim is refuted (C140); this is what remains true of it: the removed trend and the end of the record matter less and less"
  },
  {
   "property": "C150",
   "status": "proved",
   "theorems": [
    "C150_close",
    "C150_close_limit",
    "C150_crust",
    "C150_found",
    "C150_example"
   ],
   "note": "exact arithmetic. Joins C147 (noise through the deconvolution) with C142 (noise through the filter) and C141 (the crust from the filtered record). The example is a record of 500 samples with the filter's lag 2 and strength 3/8, a spike as the source and one disturbed sample; the smallness conditions are sufficient, not necessary"
  },
  {
   "property": "C151",
   "status": "proved",
   "theorems": [
    "C151_close",
    "C151_crust",
    "C151_example"
   ],
   "note": "exact arithmetic. The water-level counterpart of C150: C102 and Parseval for what the level removes, C137 for the noise, C142 for filter and stacking. The example is C150's record with a water level of 1/2"
  },
  {
   "property": "C152",
   "status": "proved",
   "theorems": [
    "C152_water",
    "C152_found",
    "C152_example"
   ],
   "note": "exact arithmetic. C146/C147 for sequential stacking, through C123_hkSeqSynth; the root-sum-square loss (Parseval) takes the place of C146's sum over frequencies. The pre-onset of the water-level theorem is a whole number of samples, as in C102"
  },
  {
   "property": "C153",
   "status": "proved",
   "theorems": [
    "C153_fit",
    "C153_water",
    "C153_iter",
    "C153_example",
    "C153_parallel",
    "C153_parallel_example"
   ],
   "note": "exact arithmetic. The forward model and the stacking are arguments of the theorem, as in C68 and C138; the data of the stacked trace are the deconvolved record. The pre-onset of the water-level theorem is a whole number of samples, as in C102"
  }
 ]
}