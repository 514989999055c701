# Formal model of PyFHD in Rocq (Coq 8.16.1): design

The model is a shallow embedding of the Python/NumPy code in `/repo/PyFHD` as total Gallina functions.
`rocq/theories` holds, per area, a model file (definitions only, each citing the lines it models), a
specification file (the vocabulary of the property statements, written without the model's helpers), a
proof file, and a property file which contains nothing but the property theorems (`exact lemma`), the
satisfiability examples beside them, and `Print Assumptions`.

## Modelling conventions

* NumPy arrays are lists (1-D), lists of lists (row-major 2-D), or total functions on indices together with a
  size; exceptions are values (`None`, or an error constructor).
* Python integers and int64 are `Z` (or `nat` for lengths and positions): no wrap-around is modelled.
* Floating-point numbers are exact rationals (`Q`, or `Qc` where Leibniz equality helps) and complex numbers are
  pairs of them; real-number trigonometry uses the standard library's `R`. Rounding error is therefore
  outside the model; NaN and infinities are modelled explicitly where the code tests for them.
* In-place mutation becomes a returned value. Where aliasing of two names for one array changes the result
  (for example a view that is written through) the model carries the aliasing explicitly.
* External libraries (h5py, astropy, scipy, FFT, pyuvdata) are either modelled by their documented
  input/output contract, stated in the comment, or are arguments of the model (closed `Section` variables).

## Plan per property

| id | what is modelled | how it is proved |
|----|------------------|------------------|
| C01 | `get_bins`, `get_hist`, `histogram` over Q | index arithmetic on Qfloor, induction on data; spec is a filter-and-count |
| C02 | `get_ri` as the array-writing loop with its tracker | loop invariant over the processed prefix; spec is a filter of positions |
| C03 | `histogram` with `num_bins` | refutation witness for the maximum element; positive result for data below the maximum |
| C04 | `array_match` | refutation (multiplicity, no match) and the positive theorem for value lists without repeats |
| C05 | `idl_argunique` | induction on sorted lists |
| C06 | `deriv_coefficients` over Z/Q | induction on n, polynomial identity |
| C07 | `weight_invert` over rationals extended with NaN and infinities | case analysis |
| C08, C09 | `rebin`, `rebin_rows`, `rebin_columns` | index characterisation, sums over blocks |
| C10 | `meshgrid` | div/mod |
| C11 | `conjugate_mirror` as flip, conj, roll | modular index arithmetic |
| C12, C13, C16 | `baseline_grid_locations`, the index lookups of `visibility_grid` | masks as pointwise decisions; key decoding by div/mod; refutations for non-square grids and for the flat-index decoding |
| C14, C15 | the per-bin kernel of `visibility_grid` with and without grouping | sums over permutations and groups |
| C17 | `interpolate_kernel` and the derivative weights | ring |
| C18 | `visibility_count` | sums over bins |
| C19 | `filter_uv_uniform` | sums |
| C20 | the chunk loop of `visibility_degrid` | induction |
| C21 | `vis_weights_update` | pointwise masks, uses C04; refutation for the no-match case |
| C22 | `vis_flag_basic` | pointwise monotonicity |
| C23 | `split_vis_weights` | list reasoning; refutation of "only usable times" |
| C24, C25 | `idl_median`, `resistant_mean` | order statistics on sorted permutations |
| C26 | `vis_calibration_apply` | field identities on Gaussian rationals |
| C27 | `cal_auto_ratio_divide`, `cal_auto_ratio_remultiply` | pointwise |
| C28 | `vis_cal_bandpass` | pointwise |
| C29 | `calculate_adaptive_gain` | induction over histories |
| C30 | solver loop of `vis_calibrate_subroutine` | induction on fuel = iteration count; refutation of the limit check |
| C31 | `vis_calibration_flag` | monotone invariant; refutation of the zero-statistic flagging |
| C32 | `vis_extract_autocorr` | list reasoning |
| C33 | `flag_model_visibilities` | list reasoning; refutation with autocorrelations |
| C34 | `save`/`load` over an HDF5 tree | structural induction on nested dictionaries; refutation for one-key dictionaries |
| C35, C36 | `main` as a state machine over abstract stages; `save` as a sequence of writes | simulation; refutations |
| C37 | option checks of `pyfhd_setup` | decision logic |
| C38-C40 | `create_obs`, `update_obs` | list reasoning; refutations |
| C41 | `create_params` baseline decoding | arithmetic; refutations |
| C42 | `healpix_cnv_generate`, `healpix_cnv_apply` | sums; refutation for on-grid pixels |
| C43 | `region_grow` with `label` as its contract (4-connected components) | reachability |
| C44, C45 | `simple_deproject_w_term`, `l_m_n` over R | trigonometric identities |
| C46-C50 | the named functions | list/index reasoning |

| C51-C55 | `visibility_grid` as a whole: counters, filter plane, Hermitian planes, success, uniform weighting | sums over bins, pointwise |
| C56, C57 | `vis_flag_basic`, `vis_flag` | pointwise masks, folds; refutations |
| C58 | `cal_auto_ratio_divide`'s reference column | list reasoning; refutation |
| C59 | one solver step at the true gains | field identities |
| C60 | what `save` leaves in the caller's dictionary | structural induction; refutation |
| C61 | `main` over all option combinations | case analysis over the options, arbitrary stages |
| C62 | what `region_grow` leaves in the caller's image | pointwise; refutation |
| C63 | the loops and file names of `healpix_snapshot_cube_generate` | induction over polarisations |
| C64-C66 | `vis_cal_auto_init`, `vis_cal_auto_fit`, `vis_baseline_hist` | sums, folds over tiles, histogram theorems; refutations |
| C67 | `calibrate`: order of the steps, what is kept and returned; steps are parameters (any behaviour), `vis_calibration_apply` and `vis_cal_bandpass` plugged in for recovery | inversion of a successful run; C26, C28 |
| C68 | `vis_cal_polyfit` with NumPy's fit, unwrap, exp and the hyperresolved search as parameters | polynomial evaluation by induction; splitting sorted channel lists; refutations |
| C69 | `calibrate_qu_mixing` on top of `reshape_and_average_in_time`; lstsq and arctan2 parameters | C49; extensionality over positive weights |
| C70 | all of `vis_calibrate_subroutine` around the solver: clipping, time averaging, baseline range, tile histograms, per-frequency solve, NaN handling | histogram theorem C03 for the tile positions; extensionality over usable samples; C59 for exact data; concrete refutations |
| C71 | `extract_header`, `create_params` over a header given by its cards and columns | reduction to the list of parameter names; first occurrence of a name; refutations for every file of the offending kind |
| C72 | all of `create_layout` over cards and columns as partial functions of the name | entry by entry; a column is constant iff it collapses; refutations for every table of the offending kind |
| C73 | all of `create_obs` over exact numbers (Obs.v's time bins, frequency bins and tile numbering inside it) | inversion of the run; extremes by folds; refutations for every input of the offending kind |
| C74 | `read_metafits`, `project_slant_orthographic` with astropy as parameters, the time cut | stable sort and selection of one polarisation; every slice of the cut bounded |
| C75 | `dirty_image_generate` over the reals with the discrete transform written out and both shifts as index maps | reindexing of double sums; the shifts of even sizes are involutions; cyclic exponentials; refutations on families of planes |
| C76 | `quickview` from `update_obs` on, `get_image_renormalization`, `crosspol_split_real_imaginary` with its aliasing; files as kind, polarisation and planes | composition of the image theorem of C75 over the polarisations; the last file of a name; field arithmetic |
| C77 | `gaussian_decomp`, `beam_image`, `beam_image_cube`, with the in-place change of the parameters and the running sums that are not reset | fold invariants over lobes, channels and bins (sorted, so that a later bin overwrites an earlier one); field arithmetic |
| C78 | `phase_shift_uv_image` with both shifts divided by the dimension, and its product with a plane | exponent arithmetic under the double sum; composition with C75 for the images |
| C79, C80 | the choice of sizes at the start of `healpix_snapshot_cube_generate`, with `update_obs` | case analysis on the options; floor and ceiling of reals; the smallest power of two via logarithms |
| C81-C84 | `grid_beam_per_baseline` (through `dirty_image_generate`, with the reshapes that sum down) and the set-up in `visibility_grid` 174-212 | index arithmetic of the reshapes; shift theorem of C78; floor of a square root |
| C85, C86 | `transfer_bandpass` with header cards as partial functions, the data as an array of any rank, NumPy's views, squeeze, broadcasting and integer assignment; the choice of a pointing and the interpolation to finer channels are parameters | shapes of broadcasts; case analysis on the header |
| C87, C88 | `recarray_to_dict` on a nested inductive type of NumPy values | mutual induction on the meaning of structures |
| C89, C90 | `vis_model_transfer`, `import_vis_model_from_sav`, `import_vis_model_from_uvfits` over a directory of files, arrays of any rank | case analysis, induction on the polarisations |
| C91, C92 | `crosspol_reformat` on lists of planes, and its use by `main` | pixel by pixel; sums by a permutation of the pixels |
| C93, C94 | `plot_cals`: pages, panels, titles, lines and ranges as data; NumPy's functions of numbers are parameters | per panel; the page count by division |
| C95-C97 | the hyperresolved search of `vis_cal_polyfit` for one polarisation and tile, over R | sums over full turns vanish, over part of a turn are smaller than the number of terms; argmax |
| C98-C100 | pixel selection of `healpix_cnv_generate`, `angle_difference` over R, with healpy, astropy and the files as parameters | triangle inequality on the sphere; where as filter; C42 |
| C101, C102 | the slant parameters of `project_slant_orthographic`, `parallactic_angle` over R | spherical trigonometry |
| C103-C106 | the option table of `pyfhd_parser` (generated by tools/options.py), `write_collated_yaml_config`, reading by configargparse and argparse | induction over the entries, an invariant of reading, computation over the table |
| C107-C110 | the files and directories made by `pyfhd_logger`, `main`, `finish_pyfhd`, `create_layout`, `create_psf`, `plot_cals`, `quickview`, the HEALPix export: any number of runs as processes on one file system, small steps, any schedule | invariants of the transition system, induction over the schedule |
| C111-C113 | `quick_image`, `log_color_calc`, `color_range`: colours, colour bar, missing values, file name; reals with NaN and infinities | monotony of the logarithm, pixel-wise case analysis |
| C114 | `create_psf` over a disk of sav and HDF5 files (H5IO for the copy), the beam_per_baseline test of `main` | transposition of nested lists, the round trip of C34 |
| C115, C116 | the choice of a pointing and the interpolation of `transfer_bandpass` | nearest element of an increasing list; first failing step of the loops |
| C117 | `convert_vis_model_arr_to_sav`, `run_command` and the IDL program of the templates over a file system with a working directory | splitting of texts, induction over the two loops, C89 for the reading back |
| C118 | the recorded git information of `setup.py` and `retrieve_gitdict`, the commit of `pyfhd_parser` and `pyfhd_logger` | lists of characters: stripping and splitting undo the writing |

## Trusted base

* The kernel of Coq 8.16.1 (including `vm_compute`, used only in examples and refutation witnesses), `coqc` and the
  standard library. No other library's axioms, no axioms of this development, no `Admitted`, no functors or module
  types, no kernel check switched off.
* That the model is a faithful transcription. Every model definition cites the lines it transcribes; simplifications
  are stated there and under "Modelling conventions".
* External functions are parameters (fields of a record or function arguments), so theorems hold for every behaviour
  of theirs that satisfies the hypotheses written in the statement.

### What `Print Assumptions` lists

Generated by `tools/assumptions.py` from the output of the `Print Assumptions` command after each theorem.

<!-- assumptions -->
* Closed under the global context (405 theorems): C01_histogram_counts, C01_histogram_default_limits, C01_histogram_empty, C01_histogram_inverted_limits, C02_reverse_indices, C03_num_bins_maximum_overflows, C03_num_bins_partial, C03_num_bins_refuted, C04_array_match_duplicates_refuted, C04_array_match_exact, C04_array_match_one_array_refuted, C04_array_match_partial, C05_idl_argunique, C05_runs_tile, C06_deriv_coefficients, C06_divided_by_factorial, C06_nonpositive, C07_integer_exact, C07_integer_truncated_refuted, C07_integer_zero_refuted, C07_weight_invert_partial, C08_fix_truncates_towards_zero, C08_rebin_down, C08_rebin_mean_preserved, C08_rebin_non_dividing, C09_mixed_averages_all_rows, C09_one_row_refuted, C09_rebin_non_multiple, C09_rebin_up_1d, C09_rebin_up_2d_partial, C09_sample_1d, C09_sample_2d_partial, C09_sample_round_trip_partial, C103_lines, C103_reload, C104_idl_refuted, C104_memory_refuted, C104_quote_refuted, C104_ring_refuted, C104_run_refuted, C104_tiles_refuted, C105_named, C105_template, C106_images_refuted, C106_switches_partial, C106_tiles_refuted, C107_asked, C107_others, C107_stopped, C108_description_refuted, C108_kept_partial, C108_second_refuted, C109_confined, C109_missing, C109_name, C10_meshgrid, C10_meshgrid_square, C110_prepared_partial, C110_together_refuted, C113_ending_refuted, C113_formats, C113_name_partial, C114_baselines_refuted, C114_copy_partial, C114_ending_refuted, C114_errors, C114_files, C114_option_refuted, C114_sav, C115_before_refuted, C115_delays, C115_entry_partial, C115_outside, C115_season_refuted, C116_channels_refuted, C116_parts_refuted, C116_width_refuted, C117_back_partial, C117_directory_refuted, C117_exact, C117_fails, C117_missing, C117_relative_refuted, C117_single_refuted, C117_space_refuted, C118_damaged, C118_elsewhere_refuted, C118_installed_partial, C118_unknown_refuted, C11_average_hermitian, C11_mirror, C11_mirror_additive, C11_mirror_involutive, C12_footprint_inside_partial, C12_non_square_refuted, C13_bins_partition, C13_default_selection, C13_total, C14_bin, C14_planes_partial, C14_spectral_refuted, C15_linear, C15_order_partial, C15_order_refuted, C16_lookup_exact, C16_own_frequency_partial, C16_refuted, C17_bilinear, C17_exact_cases, C17_weights, C18_count_partial, C18_mirrored, C18_non_square_refuted, C19_empty_refuted, C19_filter_partial, C19_obs_refuted, C19_weights_partial, C20_bins, C20_pieces_cover, C20_process_partial, C20_process_refuted, C21_counters_refuted, C21_flag_counters, C21_no_match_refuted, C21_update_partial, C22_monotone, C22_use_flags, C23_odd_refuted, C23_split_partial, C23_unflagged, C24_idl_median_even_partial, C24_idl_median_odd_refuted, C24_idl_median_odd_too_high, C24_idl_median_single, C24_width_filter, C25_constant, C25_mean_of_inliers, C25_nan_refuted, C25_odd_total, C25_order_free, C26_apply_partial, C26_four_pols_refuted, C27_other_tiles_refuted, C27_restores_partial, C28_factors, C28_shared, C28_unused, C28_value, C29_estimate, C29_finite, C29_nan_refuted, C29_range_partial, C29_total, C29_value, C30_converged_partial, C30_converged_refuted, C30_few, C30_iteration, C30_limit, C30_reference_partial, C30_reference_refuted, C30_total_partial, C30_trace, C31_bounded, C31_channel_reasons, C31_flags, C31_only_removes, C31_tile_reasons, C31_uniform, C31_zero_refuted, C32_all, C32_average_partial, C32_single_time_refuted, C33_autos_refuted, C33_matched_partial, C33_nearest_refuted, C33_same_times, C34_array_partial, C34_dict_partial, C34_integers, C34_objects, C34_others_refuted, C34_single_refuted, C34_stored, C34_string_refuted, C35_calibration_refuted, C35_gridding_partial, C35_gridding_refuted, C35_obs_partial, C36_ends_partial, C36_refuted, C36_silent_refuted, C37_accepts_partial, C37_adjust_partial, C37_enhance_refuted, C37_modes_refuted, C37_sav_refuted, C37_status_refuted, C38_bins_partial, C38_single_refuted, C39_create, C39_update_partial, C39_update_refuted, C40_increasing, C40_short_table, C40_tiles_partial, C40_unordered_refuted, C40_zero_based_refuted, C41_baseline_column, C41_columns, C41_decode_partial, C41_decode_refuted, C41_missing_tile_refuted, C42_bilinear_partial, C42_constant_partial, C42_constant_refuted, C42_gridline_refuted, C42_linear, C42_outside_refuted, C43_border_seed_refuted, C43_labelling_exists, C43_nan_seed, C43_region_partial, C46_layout_partial, C46_single_refuted, C48_default, C48_locality, C48_noise, C48_short, C49_time_average, C49_wrong_weight_shape, C50_blocks_partition, C50_default_baselines, C50_default_baselines_refuted, C50_export_partial, C50_export_refuted, C50_returns, C50_split, C51_counts, C51_total, C52_uniform_is_count, C53_average, C53_hermitian, C54_spectral_model, C54_succeeds, C55_shapes, C55_uniform_partial, C55_uniform_refuted, C56_band_refuted, C56_flagged_time_refuted, C56_tile_list_refuted, C56_weights_partial, C57_empty_channel, C57_empty_tile, C57_empty_time_refuted, C57_lowers_partial, C57_one_time_refuted, C57_uniform, C57_uninitialised_refuted, C58_reference_partial, C58_reference_refuted, C59_fixed_point, C60_objects, C60_unchanged_partial, C60_unchanged_refuted, C61_completes_partial, C61_export_refuted, C61_fails_refuted, C61_flag_refuted, C61_save_weights_refuted, C62_unchanged_partial, C62_unchanged_refuted, C63_files_partial, C63_no_split_refuted, C63_returns_partial, C64_isolation_refuted, C64_positive, C64_value, C65_exact, C65_gain_partial, C65_scale_partial, C65_scale_refuted, C65_single_pol_refuted, C66_lonely_refuted, C66_mixed_refuted, C66_perfect, C66_value_partial, C67_completes_partial, C67_consistent, C67_exact_fit, C67_four_pols_refuted, C67_phases_refuted, C67_polyfit_refuted, C67_recovers, C67_statistics, C68_jump_refuted, C68_jump_shift_refuted, C68_low_degree_refuted, C68_marked_cables, C68_no_jump_refuted, C68_other_tiles, C68_reflection_modes_refuted, C68_reflection_size_refuted, C68_top_term_refuted, C68_value_partial, C69_flagged, C69_perfect, C69_rotated, C69_value, C70_count_partial, C70_count_refuted, C70_flagged_data, C70_flagged_tile_refuted, C70_kept, C70_nan_rows_refuted, C70_recovers, C70_reference_refuted, C70_single_time, C70_solution_partial, C71_accepts_partial, C71_first_refuted, C71_header, C71_missing, C71_missing_refuted, C71_params_missing, C71_params_partial, C71_site_refuted, C71_time_refuted, C72_accepts_partial, C72_columns, C72_constant, C72_defaults, C72_empty_refuted, C72_header, C72_leap_partial, C72_leap_refuted, C72_missing_columns, C72_numbers_refuted, C72_time_system, C73_completes_partial, C73_counts, C73_dimension_refuted, C73_fov_refuted, C73_geometry_partial, C73_non_square_refuted, C73_small_array_refuted, C73_tiles_partial, C74_all_flagged_refuted, C74_metadata, C74_no_file_create_refuted, C74_no_file_refuted, C74_offset, C74_one_cut_refuted, C74_one_tile_refuted, C74_time_cut_refuted, C85_axes_refuted, C85_orientation_refuted, C85_polarisations_refuted, C85_rounded_refuted, C85_times_refuted, C85_values_partial, C85_window_refuted, C86_axes, C86_delay, C86_missing, C86_polarisations, C86_start, C86_tiles, C86_used, C86_width, C87_dictionary, C87_records, C87_structure, C88_nested_ragged, C88_null_refuted, C88_null_row, C88_ragged, C88_repeated_refuted, C88_string_table_refuted, C88_structures_refuted, C88_types_refuted, C89_missing, C89_only, C89_sav, C89_shapes, C89_type, C89_uvfits, C90_channels_refuted, C90_frequencies_refuted, C90_polarisations_refuted, C90_repeated_refuted, C90_single_refuted, C91_pipeline, C91_planes, C91_total, C92_consistent_refuted, C92_negative_refuted, C92_twice_refuted, C92_weights_refuted, C93_pages, C93_polarisations, C94_few_refuted, C94_limits_refuted, C94_many_refuted, C94_rest_refuted.
* Axioms `ClassicalDedekindReals.sig_forall_dec` (2 theorems): C47_imaginary_refuted, C47_real_partial.
* Axioms `ClassicalDedekindReals.sig_forall_dec`, `ClassicalDedekindReals.sig_not_dec`, `Classical_Prop.classic`, `FunctionalExtensionality.functional_extensionality_dep` (35 theorems): C100_unrestricted_refuted, C101_no_w_term, C101_parameters, C101_turn, C102_south_refuted, C102_zenith_refuted, C111_colors, C111_scale, C112_abs_refuted, C112_absent_refuted, C112_caller_refuted, C112_constant_refuted, C112_default_refuted, C112_integers_refuted, C112_labels_refuted, C112_linear_missing, C112_linear_partial, C112_linear_refuted, C112_missing_refuted, C112_sym_refuted, C112_sym_scale, C77_transform_grows_refuted, C79_completes, C79_consistent, C79_field, C79_pixels, C79_resolution, C79_unset, C80_field_refuted, C80_span_refuted, C98_field_and_band, C98_named, C98_unique, C99_sides, C99_visible.
* Axioms `ClassicalDedekindReals.sig_forall_dec`, `ClassicalDedekindReals.sig_not_dec`, `FunctionalExtensionality.functional_extensionality_dep` (66 theorems): C13_length_in_reals, C44_reversible, C44_shape_refuted, C44_square_partial, C44_square_refuted, C45_direction_cosines, C45_phase_centre, C75_caller_refuted, C75_centre, C75_fourier_partial, C75_hermitian, C75_linear, C75_non_square_refuted, C75_normalization, C75_odd_refuted, C75_padding_partial, C75_padding_refuted, C75_resize_partial, C75_threshold, C76_caller_refuted, C76_crosspol_refuted, C76_header, C76_image_kept, C76_images_partial, C76_non_square_refuted, C76_obs_partial, C76_padding_refuted, C76_scale, C76_source, C76_weights_refuted, C77_channel_refuted, C77_cube_hertz_refuted, C77_cube_order_refuted, C77_cube_partial, C77_grid, C77_groups_refuted, C77_image, C77_mean, C77_not_square_refuted, C77_params_refuted, C77_regrid, C77_square_partial, C77_square_refuted, C77_tables_refuted, C77_transform_refuted, C78_factors, C78_image, C78_rectangle_refuted, C78_shift, C81_kernel, C81_position, C82_alone_refuted, C82_clip, C82_weak_refuted, C83_channels_partial, C83_many_refuted, C83_refuted, C84_centre_partial, C84_centre_refuted, C95_exact, C95_restores, C95_strongest, C96_candidate, C96_exact, C97_same_cable_refuted, C97_self_refuted.
* Axioms `ClassicalDedekindReals.sig_forall_dec`, `FunctionalExtensionality.functional_extensionality_dep` (1 theorems): C96_reference.
<!-- end assumptions -->

## What is modelled and what is not

| file of /repo/PyFHD | modelled (model file) | not modelled |
|---|---|---|
| pyfhd.py | `main`: order of stages, checkpoints, saves, exports (Pipeline) | logging, timing, the argument parser |
| pyfhd_tools/pyfhd_setup.py | `pyfhd_parser`, `write_collated_yaml_config` (Options), `pyfhd_logger`'s names and directories (OutDir), `_check_file_exists`, `pyfhd_setup` (Setup) | help texts, the inside of configargparse, PyYAML and argparse beyond what Options.v says of them, what is logged |
| pyfhd_tools/pyfhd_utils.py | `get_bins`, `get_hist`, `get_ri`, `histogram` (Histogram), `l_m_n`, `simple_deproject_w_term`, `crosspol_split_real_imaginary` (Sky), `rebin*` (Rebin), `weight_invert` (WeightInvert), `array_match` (ArrayMatch), `meshgrid`, `deriv_coefficients`, `idl_argunique`, `idl_median`, `reshape_and_average_in_time` (Utils1), `resistant_mean` (ResMean), `vis_weights_update`, `split_vis_weights`, `vis_noise_calc` (VisWeights), `region_grow` (RegionGrow), `angle_difference` (HealpixSel), `parallactic_angle` (Slant), `run_command` (ModelExport) | - |
| gridding/gridding_utils.py | `interpolate_kernel`, `conjugate_mirror`, `baseline_grid_locations`, `visibility_count` (GridLoc), `dirty_image_generate` (DirtyImage), `grid_beam_per_baseline` (Kernel), `crosspol_reformat` (CrossPol) | `holo_mapfn_convert` (no caller) |
| gridding/visibility_grid.py | `visibility_grid` (VisGrid; the per-baseline beam is an argument there, its set-up is in Kernel) |  |
| gridding/visibility_degrid.py | the walk through bins and pieces (Filter) | the rest: the function cannot run (it calls `baseline_grid_locations` without its logger) |
| gridding/filters.py | `filter_uv_uniform` (Filter) | |
| flagging/flagging.py | all three functions (Flagging) | |
| calibration/calibration_utils.py | `vis_extract_autocorr`, `vis_calibration_apply`, `cal_auto_ratio_*` (CalApply), `vis_calibration_flag` (CalFlag), `vis_cal_bandpass` (Bandpass), `calculate_adaptive_gain` (AdaptGain), `vis_cal_auto_init`, `vis_cal_auto_fit`, `vis_baseline_hist` (CalAuto), `vis_cal_polyfit` (Polyfit; its hyperresolved search, a parameter there, is Reflect), `transfer_bandpass` (TransferBp; its pointing choice and interpolation, parameters there, are PointingBp) |  |
| calibration/vis_calibrate_subroutine.py | the solver loop for one polarisation and frequency (Solver), everything around it (CalSub) | `calibration_weights=True`, which no caller uses |
| calibration/calibrate.py | `calibrate` (Calibrate; its steps are parameters), `calibrate_qu_mixing` (QuMixing) |  |
| source_modeling/vis_model_transfer.py | `flag_model_visibilities` (ModelFlag), `vis_model_transfer` and the two readers (ModelRead), `convert_vis_model_arr_to_sav` (ModelExport) |  |
| data_setup/obs.py | `create_obs`, `read_metafits`, `project_slant_orthographic` (ObsFull, Obs, Slant), `update_obs` (Obs, Quickview) | astropy's transformations, the pixel of the zenith |
| data_setup/uvfits.py | `extract_header`, `create_params` (UvHeader, baseline decoding in Obs), `extract_visibilities` (Obs), `create_layout` (Layout) | logging; the final save of the layout |
| io/pyfhd_io.py | saving and loading (H5IO), `recarray_to_dict` (RecDict) | `convert_sav_to_dict`, lazy loading |
| healpix/healpix_utils.py | `healpix_cnv_generate` (HealpixSel, HealpixCnv), `healpix_cnv_apply` (HealpixCnv), `vis_model_freq_split` (HealpixExport), `beam_image_cube` (Beam), `phase_shift_uv_image` (ExportSize) | healpy and astropy calls (parameters) |
| healpix/export.py | `healpix_snapshot_cube_generate`: the sizes (62-113, ExportSize), the cubes (from line 96 on, HealpixExport) | - |
| io/pyfhd_quickview.py | `get_image_renormalization`, `quickview` 193-406 (Quickview) | HDF5 saves 121-192, the mask and mean of the beam (unused), copied header cards |
| beam_setup/beam_utils.py | `gaussian_decomp`, `beam_image` (Beam) | the two volumes of the transform; the values of tabulated beams before the error |
| plotting/calibration.py | `plot_cals` (PlotCal) | ticks, legend, labels |
| beam_setup/beam.py | `create_psf` (BeamFile) | decoding of sav files by scipy, messages |
| plotting/image.py | `quick_image`, `log_color_calc`, `color_range` (ColorImg) | drawing, titles, axes, positions, messages |
| setup.py, pyfhd_tools/git_helper.py | the recorded git information, `retrieve_gitdict` (GitInfo) | the rest of setup.py |
| pyfhd_tools/unit_conv.py, pyfhd_tools/test_utils.py | | all |

## Defects of the code found on the way

Each is a theorem whose name ends in `_refuted`; the manifest notes say what holds instead. The list of these theorems
is in MANIFEST.json; every `partial` status whose note says "false" or "refuted" is such a case.
