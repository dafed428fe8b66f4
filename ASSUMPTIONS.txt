Closed under the global context  [230 theorems]
    P_Hk.C01_getamp_nearest
    P_Hk.C01_getamp_undefined
    P_Hk.C01_getamp_nan_b64
    P_Hk.C01_getamp_empty
    P_Hk.C05_hk_grid
    P_Hk.C05_hkSynth_grid
    P_Hk.C05_hkSeq_grid
    P_Hk.C05_hkSeqSynth_grid
    P_Hk.C05_hkYu_grid
    P_Hk.C06_hk_value
    P_Hk.C06_hk_axis
    P_Hk.C07_hk_best
    P_Hk.C07_hkSynth_best
    P_Hk.C07_hkSeq_best_sed
    P_Hk.C07_hkSeqSynth_best_sed
    P_Hk.C07_hkYu_best
    P_Hk.C07_empty_grid
    P_Hk2.C10_hk_defaults
    P_Hk2.C10_hkSynth_defaults
    P_Hk2.C10_hkSeq_sed_defaults
    P_Hk2.C10_hkYu_velocity_defaults
    P_Hk2.C10_hkYu_None_weight_raises
    P_Hk2.C10_hkSeq_moho_None_raises
    P_Hk2.C10_hkYu_weights_refuted
    P_Plot.C11_plothk_result
    P_Plot.C11_best_unchanged
    P_Plot.C11_plothk_idempotent
    P_Ex.C11_example
    P_Plot2.C12_unknown_layer
    P_Plot2.C12_at_most_one_file
    P_Hk2.C13_numpy_postcritical_reads_first_sample
    P_Hk2.C13_postcritical_refuted
    P_Hk2.C14_tail_never_read
    P_Hk3.C15_sediment_independent
    P_Hk4.C16_hkSeq_last_trace_only
    P_Hk4.C16_hkSeq_sed_last_trace_only
    P_Hk4.C16_sum_refuted
    P_Hk4.C17_hkSeq_clips
    P_Hk4.C17_hkSeqSynth_clips
    P_Hk4.C17_values_refuted
    P_Hk4.C18_hkSeq_axis
    P_Hk4.C18_own_axis_if_equal_sampling
    P_Hk4.C18_own_axis_refuted
    P_Hk4.C19_hk_hkSynth
    P_Hk4.C19_hkSeq_hkSeqSynth
    P_Reverb.C23_frequency_vector
    P_Syn.C42_filter_defaults
    P_Wave.C44_any_arithmetic
    P_Wave.C44_binary64_refuted
    P_Wave2.C45_same_solutions
    P_Wave3.C45_ties_refuted
    P_Pool.C46_pool_result
    P_Pool.C46_pool_raises
    P_Pool.C46_pool_terminates
    P_Pool.C46_pool_returns
    P_Pool.C46_schedule_independent
    P_Pool.C46_evaluated_once
    P_Pool.C46_evaluated_before_failures
    P_Pool.C46_no_process
    P_Pool.C46_exception_depends_on_schedule
    P_Wave3.C47_refuted
    P_Wave3.C48_weights_ignored
    P_Wave3.C48_refuted
    P_Wave3.C49_too_many
    P_Wave3.C49_matching
    P_Wave3.C49_general
    P_Extract.C50_file_order
    P_Extract.C53_written
    P_Extract.C53_complete
    P_Fs.C54_save_outcomes
    P_Fs.C54_save_sequential
    P_Fs.C54_distinct_directories
    P_Fs.C54_concurrent_refuted
    P_Fs.C54_example
    P_Fs.C55_install_examples
    P_Fs.C55_install_rfsed_tests
    P_Fs2.C55_colliding_directory_refuted
    P_Fs2.C55_colliding_file_refuted
    P_Fs2.C55_reinstall_refuted
    P_Fs2.C55_stale_cache
    P_Fs2.C55_example
    P_Plot2.C56_hk_names_distinct
    P_Plot2.C56_underscore_collision_refuted
    P_Plot2.C56_plothkYu_fixed_name
    P_Plot2.C56_plotfiltrf_fixed_names
    P_Plot2.C56_refuted
    P_Pool.C66_lost_task_never_returns
    P_Wave4.C69_plotbestmodel
    P_Wave6.C69_serial_refuted
    P_Wave4.C72_PlotWaveformFitting
    P_Wave4.C72_plotbestmodel
    P_Wave4.C72_distinct_files
    P_Fs.C74_killed_install
    P_Fs2.C74_example
    P_Fs2.C75_install_examples_harmless
    P_Fs2.C75_install_rfsed_tests_harmless
    P_Fs.C76_concurrent_callers
    P_Fs.C76_somebody_succeeds
    P_Fs.C76_no_failure
    P_Hk5.C77_hk_completes
    P_Hk5.C77_hkSynth_completes
    P_Hk5.C77_hkSeq_completes
    P_Hk5.C77_hkSeqSynth_completes
    P_Hk5.C77_hkYu_completes
    P_Plot3.C80_plotSeqhk_result
    P_Plot3.C80_plothkYu_result
    P_Plot3.C80_plothkSynth_result
    P_Plot3.C80_plothkSeqSynth_result
    P_Show2.C92_hk
    P_Show2.C92_hkSynth
    P_Show2.C92_hkYu
    P_Show2.C92_hkSeq
    P_Show2.C92_hkSeqSynth
    P_Show2.C92_hkSeq_moho_line_iff
    P_Show2.C92_hkSeq_interrupted
    P_Show2.C92_moho_value_refuted
    P_Show.C93_hk
    P_Show.C93_hkSynth
    P_Show.C93_hkYu
    P_Show.C93_hkSeq
    P_Show.C93_hkSeqSynth
    P_Show2.C93_hk_returns
    P_Show2.C93_hkSynth_returns
    P_Show2.C93_hkYu_returns
    P_Show2.C93_hkSeq_returns
    P_Show2.C93_hkSeqSynth_returns
    P_Legend.C96_plothk
    P_Legend.C96_plotSeqhk
    P_Legend.C96_plothkYu
    P_Legend.C96_plothkSynth
    P_Legend.C96_plothkSeqSynth
    P_Legend3.C96_PlotWaveformFitting
    P_Legend3.C96_plotbestmodel
    P_Legend3.C97_refuted
    P_Legend3.C98_refuted
    P_Legend3.C98_PlotWaveformFitting
    P_Legend3.C98_increasing
    P_Legend3.C98_plotbestmodel
    P_Plot5.C100_plotSeqhk_again
    P_Plot5.C100_plothkYu_again
    P_Plot5.C100_plothkSynth_again
    P_Plot5.C100_plothkSeqSynth_again
    P_Samples.C104_event_lost
    P_Glob.C105_searched
    P_Glob.C105_root_and_current
    P_Glob.C105_pattern
    P_Glob.C105_pattern_example
    P_Glob.C106_searched
    P_Meta.C107_hk
    P_Meta.C107_hkSynth
    P_Meta.C107_hkYu
    P_Meta.C107_hkSeq
    P_Meta.C107_hkSeqSynth
    P_ExtractMeta.C113_multiproc_files
    P_ExtractMeta.C113_multiproc_windows
    P_Wave8.C114_same_criteria
    P_Wave8.C114_weights
    P_Wave8.C115_refuted
    P_Wave8.C116_rmse_depends
    P_Install.C120_concurrent_installs
    P_Install.C120_concurrent_test_installs
    P_Install.C120_killed
    P_Install.C120_alone
    P_Install.C120_terminates
    P_Install.C120_progress
    P_Install.C120_one_may_fail
    P_Install.C120_one_may_fail_to_delete
    P_Missing.C121_hk
    P_Missing.C121_hk_stacked
    P_Missing.C121_hkSynth
    P_Missing.C121_hkYu
    P_Missing.C121_hkSeq
    P_Missing.C121_hkSeqSynth
    P_Missing.C121_hk_dead_trace
    P_Missing.C121_moho_infinite
    P_Missing.C121_example
    P_Missing.reads_nearest
    P_Missing.C122_hk
    P_Missing.C122_hkSynth
    P_Missing.C122_hkYu
    P_Missing.C122_hkSeq
    P_Missing.C122_hkSeqSynth
    P_Session.C126_shared
    P_Session.C126_hands_off
    P_Session.C126_waveforms
    P_Session.C126_example
    P_Session.C127_refuted
    P_Session.C127_witness
    P_Pyplot.C132_own_figures
    P_Pyplot.C132_own_returned
    P_Pyplot.C132_which
    P_Pyplot2.C132_plothk
    P_Pyplot2.C132_plotSeqhk
    P_Pyplot2.C132_plothkYu
    P_Pyplot2.C132_plothkSynth
    P_Pyplot2.C132_plothkSeqSynth
    P_Pyplot.C133_refuted
    P_Pyplot.C133_refuted_returned
    P_Pyplot.C133_filter_plots
    P_Pyplot.C133_filter_plots_iff
    P_Pyplot.C133_searches
    P_Pyplot.C133_one_call
    P_Pyplot.C133_blocking
    P_Pyplot.C133_history
    P_Pyplot.C133_stacked_only
    P_Pyplot2.C133_plotfiltrf
    P_Pyplot.C134_refuted
    P_Pyplot.C134_one_call
    P_Pyplot.C134_count
    P_Pyplot.C134_blocking
    P_Pyplot.C135_refuted
    P_Pyplot.C135_kept
    P_Pyplot.C135_closed
    P_Pyplot.C135_raised_shared
    P_PoolLife.C139_refuted
    P_PoolLife.C139_with_pool
    P_PoolLife.C139_eqtimes
    P_PoolLife.C139_with_tidy
    P_PoolLife.C139_eqtimes_iff
    P_PoolLife.C139_events
    P_PoolLife.C139_session
    P_PoolLife.C139_example
    P_ArrSession.C144_shared
    P_ArrSession.C144_hands_off
    P_ArrSession.C145_current
    P_Load.C148_loaders_unaffected
    P_Load.C148_stream
    P_Load.C148_files
    P_Load.C148_installed_copy
    P_Load.C148_example

Axioms: ClassicalDedekindReals.sig_forall_dec  [1 theorems]
    P_Syn.C43_rayp_types

Axioms: ClassicalDedekindReals.sig_forall_dec, FunctionalExtensionality.functional_extensionality_dep  [31 theorems]
    P_Haskell.C29_thickness
    P_Haskell.C29_nonneg
    P_Extract.C50_written
    P_Extract.C50_complete
    P_Extract.C50_every_trace
    P_Extract.C51_window
    P_Extract.C51_both
    P_Ex.C51_example
    P_Extract.C52_agree_refuted
    P_Extract.C67_serial_within_multiproc
    P_Extract.C53_windows
    P_Legend2.C96_refuted
    P_Legend2.C96_legend_exact
    P_Samples.C103_no_sample_lost
    P_Samples.C103_example
    P_Samples.C104_refuted
    P_Samples.C104_run
    P_Samples.C104_which_samples
    P_Samples.C104_no_straddling
    P_Glob.C105_listing_order
    P_Glob.C105_written
    P_Glob.C105_example
    P_Glob.C106_refuted
    P_Glob.C106_raises
    P_Units3.C110_object
    P_ExtractMeta.C113_succeeds
    P_ExtractMeta.C113_catalog_parts
    P_ExtractMeta.C113_catalog_order
    P_ExtractMeta.C113_more_files
    P_Wave9.C119_moho_in_sediment
    P_Reverb5.C140_autocorrelation

Axioms: ClassicalDedekindReals.sig_forall_dec, ClassicalDedekindReals.sig_not_dec, FunctionalExtensionality.functional_extensionality_dep  [241 theorems]
    P_Hk.C02_half_sample
    P_Hk.C02_clamp_after
    P_Hk.C02_clamp_before
    P_Hk.C03_times_formula
    P_Hk.C03_times_order
    P_Hk.C03_times_monotone
    P_Hk.C04_node_identifiable
    P_Hk.C04_grazing_not_identifiable
    P_HkEx2.C05_example
    P_Hk.C06_hk_value_exact
    P_Hk.C06_hk_stacked_exact
    P_Hk2.C08_hk_order_free
    P_Hk2.C08_hk_unit_free
    P_HkEx2.C08_example
    P_Hk2.C09_stack_agrees
    P_HkEx2.C09_example
    P_Plot2.C12_plothk_traces
    P_Plot2.C12_plothk_stacked
    P_Hk2.C13_python_postcritical_reads_H_qs
    P_Hk3.C14_IndexError_iff
    P_HkEx2.C14_example
    P_Hk3.C15_hkSeq_moho_value
    P_Hk3.C15_hkSeq_moho_value_stacked
    P_Hk3.C15_hkSeqSynth_moho_value
    P_HkEx2.C15_example
    P_Hk4.C17_best_preserved_if_positive
    P_HkEx2.C19_example
    P_Hk4.C20_zero_sediment
    P_Hk4.C20_same_layers
    P_HkEx2.C20_example
    P_Hk4.C21_hkYu_sediment
    P_HkEx2.C21_example
    P_Hk4.C22_hkYu_times_two_layer
    P_Hk4.C22_hkYu_no_lag
    P_Reverb.C23_response
    P_Reverb2.C79_example
    P_Reverb.C24_two_tap
    P_Reverb.C24_ResonanceFilt_returns
    P_Reverb.C24_ResonanceFiltSynth_returns
    P_Reverb.C25_no_trough
    P_Ex.C25_example
    P_Reverb.C26_first_trough
    P_Reverb3.C87_resonance_found
    P_Reverb.C27_line_invariant
    P_Reverb.C27_zero_mean
    P_Ex.C27_C57_example
    P_Reverb.C28_stream_synth
    P_Ex.C28_example
    P_Haskell.C30_group
    P_Haskell.C30_split
    P_Haskell.C30_split_seismograms
    P_Haskell.C30_zero_layer
    P_Haskell2.C30_lone
    P_Haskell2.C30_lone_refuted
    P_Haskell.C31_bottom
    P_Haskell.C31_ratio
    P_Haskell.C31_lone
    P_Haskell2.C31_shift
    P_Haskell.C32_vertical
    P_Haskell2.C32_seismogram
    P_Ex.C32_example
    P_Haskell.C33_det
    P_Decon.C34_odd_rejected
    P_Decon.C35_real_even_kernel
    P_Decon.C35_linear
    P_Decon.C35_shift
    P_Decon.C36_delay
    P_Decon.C36_quarter_window_refuted
    P_Decon.C37_spikes
    P_Decon.C37_returns
    P_Decon.C38_residual
    P_Ex.C38_example
    P_Decon.C39_rms_drops_last
    P_Decon.C39_refuted
    P_Decon2.C40_dispatch
    P_Decon2.C40_rejects
    P_Decon2.C40_defaults
    P_Decon2.C40_not_builtin_refuted
    P_Decon2.C41_waterlevel
    P_Decon2.C41_returns
    P_Decon2.C41_exact
    P_Syn.C42_before_run_fwd
    P_Syn.C42_run_fwd_resets
    P_Syn.C42_decon_pure
    P_Syn.C42_parameters_constant
    P_Ex.C42_example
    P_Syn.C43_run_fwd
    P_Syn.C43_receiver_functions
    P_Syn.C43_rays_independent
    P_Wave.C44_window
    P_Wave.C44_succeeds
    P_Wave2.C45_best_models
    P_Wave2.C47_monotone
    P_Wave2.C47_at_most_one
    P_Wave2.C47_correlation_only
    P_Wave3.C49_refuted
    P_Reverb.C57_unit_free
    P_Decon2.C58_single_arrival_iter
    P_Decon2.C58_single_arrival_water
    P_Decon2.C59_amplitude_iter
    P_Decon2.C59_amplitude_water
    P_Haskell.C60_defined
    P_Haskell.C63_postcritical
    P_Syn.C65_prefilter_is_filter
    P_Syn.C65_prefilter_accumulates
    P_Syn2.C65_default_calls
    P_Wave5.C68_reproduced
    P_Wave4.C69_PlotWaveformFitting
    P_Wave5.C70_rows
    P_Wave5.C70_correlation
    P_Wave5.C70_perfect_correlation
    P_Wave5.C70_rmse
    WaveSyn.C71_synthetic
    P_Wave6.C73_completes
    P_HkEx.C78_hk_example
    P_HkEx.C78_hkSynth_example
    P_Hk6.C78_hk_recovers
    P_Hk6.C78_hkSynth_recovers
    P_Hk6.C78_hkYu_recovers
    P_Hk6.C78_hkSeqSynth_recovers
    P_Hk6.C78_hkSeq_recovers
    P_Reverb2.C79_removes_reverberation
    P_Plot4.C81_plotSeqhk_traces
    P_Plot4.C81_plotSeqhk_stacked
    P_Plot4.C81_plothkYu
    P_Plot4.C81_plothkSynth
    P_Plot4.C81_plothkSeqSynth
    P_FloatEx.C84_example
    P_Reverb3.C87_no_resonance_iff
    P_Reverb3.C87_lone_spike_example
    P_Reverb3.C88_anticorrelation_refuted
    P_Reverb3.C88_energy
    P_Arrival.C94_response
    P_Arrival.C94_receiver_function
    P_Arrival2.C94_hk_delays
    P_Arrival2.C94_hkSeq_delays
    P_Arrival2.C94_one_layer
    P_Arrival2.C94_uniform
    P_Arrival3.C95_water
    P_Arrival3.C95_one_layer
    P_Arrival3.C95_runs
    P_Legend3.C97_PlotWaveformFitting
    P_Legend3.C97_plotbestmodel
    P_Legend3.C97_width
    P_Plot5.C99_refuted
    P_Plot5.C99_plothk
    P_Plot5.C99_plotSeqhk
    P_Plot5.C99_plothkYu
    P_Plot5.C99_plothkSynth
    P_Plot5.C99_plothkSeqSynth
    P_Plot5.C99_shallow
    P_Plot5.C99_example
    P_Conv.C101_rate
    P_Conv.C101_receiver_function
    P_Conv.C101_converges
    P_Conv.C102_iterative
    P_Conv.C102_limit
    P_Conv.C102_water
    P_Conv.C102_water_exact
    P_MetaEx.C107_example
    P_Meta2.C108_hk
    P_Meta2.C108_hkSynth
    P_Meta2.C108_hkYu
    P_Meta2.C108_hkSeq
    P_Meta2.C108_hkSeqSynth
    P_MetaEx.C108_example
    P_Meta3.C109_hk
    P_Meta3.C109_hkSynth
    P_Meta3.C109_hkYu
    P_Meta3.C109_hkSeq
    P_Meta3.C109_hkSeqSynth
    P_MetaEx.C109_example
    P_Units.C110_response
    P_Units.C110_seismograms
    P_Units2.C110_iterative
    P_Units2.C110_waterlevel
    P_Units3.C110_call
    P_Units3.C110_history
    P_Shift.C111_common_delay_iter
    P_Shift.C111_common_delay_water
    P_Shift.C112_linear
    P_Shift.C112_time_invariant
    P_Wave8.C114_refinement
    P_Wave8.C115_within_range
    P_Wave8.C116_amplitude_unit
    P_FiltPlot.C117_refuted
    P_FiltPlot.C117_figures
    P_FiltPlot.C117_traces_right
    P_FiltPlot.C117_trough_displaced
    P_FiltPlot.C117_right_iff_no_preonset
    P_Reverb4.C118_time_unit
    P_Reverb4.C118_time_reversal
    P_Reverb4.C118_example
    P_Wave9.C119_PlotWaveformFitting
    P_Wave9.C119_plotbestmodel
    P_Hk7.C123_hk
    P_Hk7.C123_hk_stacked
    P_Hk7.C123_hkSynth
    P_Hk7.C123_hkYu
    P_Hk7.C123_hkSeqSynth
    P_Hk7.C123_hkSeq
    P_Hk7.C123_not_ideal
    P_Hk7.C123_example
    P_FloatEx3.C124_not_pulses
    P_SynSession.C128_shared
    P_SynSession.C128_hands_off
    P_SynSession.C129_run_fwd
    P_SynSession.C129_stored
    P_Wave10.C130_completes_iff
    P_Wave10.C130_deterministic
    P_Wave10.C130_completes
    P_Wave10.C130_reproduced
    P_Wave10.C130_example
    P_Noise.C136_hk
    P_Noise.C136_hkSeq
    P_Noise.C136_hkYu
    P_Noise.C136_hkSynth
    P_Noise.C136_hkSeqSynth
    P_NoiseEx.C136_example
    P_WaveNoise.C138_rmse
    P_WaveNoise.C138_best
    P_WaveNoise.C138_true_model
    P_WaveNoise.C138_example
    P_Reverb6.C140_refuted
    P_Reverb5.C140_strength
    P_Reverb5.C140_strength_bound
    P_Reverb5.C140_removed
    P_Reverb6.C140_zero_mean_example
    P_Reverb6.C140_example
    P_Reverb7.C141_from_remainder
    P_Reverb8.C142_lag
    P_Reverb8.C142_example
    P_DeconHk.C143_water_exact
    P_DeconHk.C143_water
    P_DeconHk.C143_iterative
    P_DeconHk.C143_limit
    P_ArrSession.C144_example
    P_ArrSession.C145_refuted
    P_Reverb9.C149_strength
    P_Reverb9.C149_lag
    P_WaterFit.C153_fit

Axioms: ClassicalDedekindReals.sig_forall_dec, ClassicalDedekindReals.sig_not_dec, Classical_Prop.classic, FunctionalExtensionality.functional_extensionality_dep  [96 theorems]
    P_Ex.C31_example
    P_Decon.C34_gaussFilter
    P_Ex.C35_example
    P_Haskell.C61_response
    P_Haskell.C61_lone
    P_Haskell.C62_propagator
    P_Haskell2.C64_seismograms
    P_Wave7.C71_pipeline
    P_Reverb2.C79_r_below_one
    P_Reverb2.C79_gain_bounds
    P_Reverb2.C79_invertible
    P_Float.C82_delays
    P_Float.C82_delays_slowness
    P_Float.C83_nearest
    P_Float.C84_hk_value
    P_Float.C85_hk_best
    P_Float2.C86_hk_recovers
    P_FloatEx.C86_example
    P_Float3.C89_two_layer
    P_Float3.C89_two_layer_slowness
    P_Float3.C89_hkYu
    P_FloatEx2.C91_hkYu_example
    P_FloatEx2.C91_hkSeqSynth_example
    P_Float4.C90_hkSynth
    P_Float4.C90_hkSeqSynth
    P_Float4.C90_hkYu
    P_Float4.C90_hkSeq
    P_Float4.C90_hk_stacked
    P_FloatEx2.C91_hkSynth_example
    P_Float4.C91_hkSynth
    P_Float4.C91_hkYu
    P_Float4.C91_hkSeqSynth
    P_Float4.C91_hkSeq
    P_Float4.C91_hk_stacked
    P_Arrival3.C95_synrf
    P_Legend2.C96_legend_double
    P_Float5.C124_hk
    P_Float5.C124_hk_stacked
    P_Float5.C124_hkSynth
    P_Float5.C124_hkYu
    P_Float5.C124_hkSeqSynth
    P_Float5.C124_hkSeq
    P_FloatEx3.C124_example
    P_FloatEx3.C124_hkSynth_example
    P_Float6.C125_hk
    P_Float6.C125_hkSynth
    P_Float6.C125_hkYu
    P_Float6.C125_hkSeqSynth
    P_Float6.C125_hkSeq
    P_FloatEx4.C125_example
    P_FloatEx4.C125_hk_example
    P_SynSession.C128_example
    P_SynSession.C129_refuted
    P_Float7.C131_rmse
    P_Float7.C131_table
    P_Float7.C131_best
    P_Float7.C131_reproduced
    P_Float7.C131_example
    P_WlNoise.C137_waterlevel
    P_WlNoise.C137_bounded
    P_WlNoise.C137_example
    P_Reverb6.C140_zero_mean_pulse
    P_Reverb7.C141_filtered
    P_Reverb7.C141_recovers
    P_Reverb7.C141_example
    P_Reverb8.C142_refuted
    P_Reverb8.C142_same_lag
    P_Reverb8.C142_stable
    P_Reverb8.C142_samples
    P_Reverb8.C142_then_hkYu
    P_Reverb8.C142_then_hkYu_example
    P_DeconHk.C143_sharp
    P_DeconHk.C143_example
    P_DeconHkNoise.C146_noisy
    P_DeconHkNoise.C146_example
    P_IterNoise.C147_iterative
    P_IterNoise.C147_limit
    P_IterNoise.C147_recovers
    P_IterNoise.C147_found
    P_IterNoise.C147_example
    P_Reverb9.C149_removed
    P_Reverb9.C149_example
    P_IterYu.C150_close
    P_IterYu.C150_close_limit
    P_IterYu.C150_crust
    P_IterYu.C150_found
    P_IterYu.C150_example
    P_WaterYu.C151_close
    P_WaterYu.C151_crust
    P_WaterYu.C151_example
    P_SeqDecon.C152_water
    P_SeqDecon.C152_found
    P_SeqDecon.C152_example
    P_WaterFit.C153_water
    P_WaterFit.C153_iter
    P_WaterFit.C153_example

