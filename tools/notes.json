{
"C01": [
"proved",
""
],
"C02": [
"proved",
""
],
"C03": [
"partial",
"The full statement is false of the code (refuted: an element equal to the upper limit is written outside the histogram). Proved for data without elements equal to the upper limit."
],
"C04": [
"partial",
"The full statement is false of the code (a value listed an even number of times is ignored; without array_2 a match raises UnboundLocalError; no match gives the scalar -1). Exact behaviour proved, and the property proved for value lists without repeats."
],
"C05": [
"proved",
""
],
"C06": [
"proved",
""
],
"C10": [
"proved",
""
],
"C24": [
"partial",
"Refuted for arrays of odd length (rank one too high, IndexError on one element); proved for even length and for the width filter."
],
"C49": [
"proved",
""
],
"C07": [
"partial",
"Proved for float and complex arrays and scalars of every size with every threshold. Refuted for integer arrays: the reciprocal is truncated, and a zero weight admitted by a threshold <= 0 becomes INT64_MIN."
],
"C08": [
"proved",
""
],
"C09": [
"partial",
"Proved for 1-D arrays and 2-D arrays with at least two rows; refuted for 2-D arrays with one row (interpolation raises ValueError, sampling repeats rows). When one dimension grows and the other shrinks every row is the average of all rows."
],
"C11": [
"proved",
""
],
"C12": [
"partial",
"Proved for square planes. Refuted for planes that are not square: x is checked against elements and y against dimension although the plane has elements rows and dimension columns."
],
"C13": [
"proved",
"Lengths are compared through squares of exact rationals; C13_length_in_reals shows this is the comparison of lengths."
],
"C17": [
"proved",
""
],
"C18": [
"partial",
"Pixel counts proved for elements <= dimension, the total for square planes. False of the code for other shapes: C18_non_square_refuted (footprints sticking out are dropped)."
],
"C14": [
"partial",
"Per bin (C14_bin) for every input; whole planes (C14_planes_partial) for planes with at least as many columns as rows and tabulated beams. The spectral-index planes do change under grouping (C14_spectral_refuted)."
],
"C15": [
"partial",
"Linearity proved for every input and configuration. Order independence fails in general (C15_order_refuted, consequence of C16); proved when the beam is the same in all frequency bins."
],
"C16": [
"partial",
"False: the frequency of sample k is looked up as k mod n_freq in arrays stored channel-major (C16_refuted); C16_lookup_exact says when the lookup is right and C16_own_frequency_partial proves the property for those cases and for single-bin beams."
],
"C51": [
"proved",
"For every beam, configuration and shape of the plane."
],
"C52": [
"proved",
"For every beam, configuration and shape of the plane, mirrored or not; visibility_count succeeds whenever visibility_grid returned planes."
],
"C53": [
"proved",
"For every input and configuration."
],
"C54": [
"proved",
"Square planes (C12 and C18 have counterexamples for others). With one kernel per baseline, the rows grid_beam_per_baseline returns are assumed to have psf_dim^2 entries. The failing combination, spectral planes of a model, is C54_spectral_model."
],
"C55": [
"partial",
"False: the planes are multiplied by the counts, not divided (C55_uniform_refuted, exact behaviour in C55_uniform_partial). C55_shapes: the planes have the size of the grid."
],
"C19": [
"partial",
"Proved when some weighted pixel is covered and the plane has more than one pixel; otherwise the filter is NaN (C19_empty_refuted). Letting the function count the visibilities itself always raises KeyError (C19_obs_refuted)."
],
"C20": [
"partial",
"The bins are the histogram bins and the pieces concatenate to the bin for every memory limit; but trailing pieces can be empty, which raises IndexError (C20_process_refuted, exact condition in C20_process_partial). visibility_degrid as a whole cannot run (it calls baseline_grid_locations without its logger argument), so only its bin and piece walking is modelled."
],
"C21": [
"partial",
"Proved when no tile is flagged or a flagged tile occurs in some baseline. Refuted otherwise: array_match returns -1, np.size(-1) is 1, and the last baseline is zeroed. The flag counters are not written when nothing is left."
],
"C23": [
"partial",
"Disjointness, equal sizes, pairing of weights and usable even times proved for every flag pattern, and the exact lists without flags. Refuted for the odd list: bin number -1 satisfies -1 % 2 == 1, so baselines of flagged times enter it. Only the first half of the times is ever used."
],
"C48": [
"proved",
"Stated on the squared noise (variance / 2), by pairwise differences of usable pairs."
],
"C22": [
"proved",
"Exact description of the use flags after the call, monotonicity for every successful call without any assumption, and counters equal to the number of zeros."
],
"C56": [
"partial",
"Exact effect on every weight proved for well-formed observations. Refuted: the last baseline of a flagged time keeps its weight, out-of-band channels are put back when channel flagging is off, and any non-empty flag_tiles list makes the call fail."
],
"C57": [
"partial",
"Proved for every successful call and every statistic (np.std, running median as oracles): weights and flags are only lowered, a channel or tile without data is flagged with all its weights, and equal channels are treated alike. Refuted: fails for a single time and whenever a time has at most ten usable visibilities, and the flags of a tile without baselines depend on uninitialised memory."
],
"C25": [
"partial",
"Real arrays (every caller passes amplitudes). The returned number is the mean of the inliers and lies in the range of the data, constants are preserved, odd lengths always give a number, order does not matter. Refuted in general: an even number of values can give NaN."
],
"C26": [
"partial",
"C26_apply_partial covers everything except four polarisations with a model array: that call raises because obs has no n_times (C26_four_pols_refuted). Gains may be NaN; visibilities are finite; exact arithmetic."
],
"C27": [
"partial",
"Tiles with a positive autocorrelation are restored (C27_restores_partial, for any square root positive on positives). The other tiles are NOT left alone: they are divided by uninitialised memory (C27_other_tiles_refuted)."
],
"C29": [
"partial",
"C29_range_partial: NaN or in range for all histories; C29_finite gives the range outright when the last but one convergence is not 0; two zero convergences give NaN (C29_nan_refuted). C29_value and C29_estimate say which gain is returned."
],
"C32": [
"partial",
"C32_all (no averaging) is full; C32_average_partial needs two or more used times: with one used time every call with several channels raises (C32_single_time_refuted)."
],
"C58": [
"partial",
"True when every tile has an autocorrelation (C58_reference_partial); otherwise the reference column is looked up by tile number instead of position (C58_reference_refuted)."
],
"C30": [
"partial",
"Per polarisation and frequency, for every data set, any iteration limit and an arbitrary modulus oracle: limits below 1 are rejected (C30_limit, although not by the check meant for it), the reported iteration is below the limit (C30_iteration), the result is the end of a chain of at most max_cal_iter least-squares updates (C30_trace), tiles with fewer than 5 equations end at 0 (C30_few), the reference tile ends with phase 0 (C30_reference_partial: after at least one update). Refuted: a solution is counted as converged although neither its mean nor any tile's change meets the threshold, because the back-up test at 386 is inverted (C30_converged_refuted, what does hold is C30_converged_partial); a reference tile with too few equations makes every gain NaN or the solve fail (C30_reference_refuted), so termination with gains is proved only without a reference tile (C30_total_partial). calibration_weights and the averaging before the solve are not modelled."
],
"C59": [
"proved",
"For every array in which each tile has at least 5 equations and one non-zero model visibility, all true gains non-zero. The modulus is an oracle that agrees with the real part on the reference gain."
],
"C31": [
"partial",
"The gain statistics (spreads, medians, fits) are arbitrary oracles. Proved: nothing returns to use (C31_only_removes), at most three passes per test (C31_bounded), tiles with amplitude outside half to twice the median and tiles whose phase slope or spread stands out are flagged (C31_flags), equal statistics flag nothing (C31_uniform). Refuted: tiles and frequencies whose statistic is zero are not flagged (C31_zero_refuted). C31_channel_reasons and C31_tile_reasons: nothing is flagged without a reason."
],
"C28": [
"proved",
"for every amplitude and averaging function (np.abs and resistant_mean are oracles), gains with NaN entries allowed, with and without cable groups; exact arithmetic; the transfer of a bandpass from a file is not modelled. C28_unused also shows flagged tiles get a NaN remainder in the cable mode."
],
"C33": [
"partial",
"for data laid out time by time with the baselines in the usual order, with or without auto-correlations and with tile numbers or tile names: C33_matched_partial (nearest after the time shift) and C33_same_times (total, exact times). Missing: a model with auto-correlations always fails (C33_autos_refuted); the shift has the wrong sign when the model is late, so the nearest time is not used (C33_nearest_refuted)."
],
"C38": [
"partial",
"Proved for times in order with at least two distinct values; the full statement is false: with a single time create_obs raises TypeError (np.diff / len of a scalar), for every such file."
],
"C39": [
"partial",
"Proved for create_obs. False for update_obs: its loop stops one bin early, so the channels of the last bin are left at bin 0 (exact behaviour proved)."
],
"C40": [
"partial",
"The full statement is false: the replacement is sequential and in place, so a tile number already assigned is replaced again if it is the antenna number of a later entry (all antennas become tile n for antenna numbers 0..n-1). Proved for tables without such collisions, in particular increasing tables from 1."
],
"C41": [
"partial",
"The full statement is false: the divisor is guessed from the smallest baseline number. Proved when that is antenna 1 with itself or with an even antenna; proved wrong whenever it is antenna 1 with an odd antenna from 3."
],
"C46": [
"partial",
"Proved for any file whose baseline, frequency, polarisation and part axes all have length other than 1; the full statement is false: np.squeeze drops an axis of length 1 and the call raises IndexError."
],
"C34": [
"partial",
"Proved for nested dictionaries (any number of top-level keys but one) of numeric, boolean and ASCII string arrays, numbers, booleans and None, and of strings if h5py's scalar strings had a dtype attribute; and for a bare numeric array. False otherwise: a dictionary with one key comes back as a bare array or raises; with h5py's documented bytes a string value makes load raise AttributeError; strings with a NUL are silently dropped; keys with a slash and 0-d arrays raise; None inside arrays becomes NaN or an empty string. C34_objects says exactly what is stored for arrays of objects, C34_integers that other integers cannot be saved."
],
"C35": [
"partial",
"Resuming from the obs checkpoint proved for all stage behaviours, options and disk states (assuming loading returns what was saved, C34). False for the gridding checkpoint (the observation loses nf_vis; everything else proved equal) and for the calibration checkpoint (main reads a configuration key that does not exist, so no such run completes)."
],
"C36": [
"partial",
"False: save truncates the file first. Proved that at every crash point strictly inside the write the old file is gone and what loads, if anything, is not the new dictionary; between entries it even loads without an error as a smaller dictionary. Only the two end points are safe."
],
"C37": [
"partial",
"Acceptance proved equivalent to the documented error conditions except two that the code gets wrong: enhance_eor is tested the wrong way round, and the files of a sav model are never checked (a Path is compared with a str). Adjustments proved consistent except the choice of a single reflection mode, which never happens. A refused configuration exits with status 0."
],
"C60": [
"partial",
"Proved for data without None inside object arrays; false otherwise (None is replaced in the caller's array). C60_objects says exactly what the array holds afterwards."
],
"C61": [
"partial",
"False of the code. Proved, for runs that start from no checkpoint: exactly which option combinations complete when no stage fails (completes_partial gives success, fails_refuted failure for every other combination). The failing ones: save_weights without save_visibilities (KeyError), flag_visibilities together with calibrate_visibilities (pyfhd.py:307 calls vis_flag without its required logger: TypeError), export_images or healpix_export without calibrate_visibilities, export_images without recalculate_grid. Stages are opaque functions."
],
"C42": [
"partial",
"The full statement is false of the code: pixels on a grid line get 0 and pixels outside the image get values of another row (refuted). Proved: bilinear interpolation, constants kept, off the grid lines; linearity for every conversion. HEALPix pixel positions are inputs; positions are rationals."
],
"C43": [
"partial",
"Refuted for seeds on the border, which never grow. Proved for the interior seeds, for every labelling that satisfies the contract of scipy.ndimage.label; a labelling meeting the contract is constructed."
],
"C44": [
"partial",
"False of the code: the call fails unless the number of baselines equals the number of frequencies, and then exchanges the two (refuted). Proved: when it returns, amplitudes are unchanged and the opposite direction restores the visibilities."
],
"C45": [
"proved",
"Over the reals (standard library axioms of the reals)."
],
"C47": [
"partial",
"The imaginary part is lost for every image (refuted); plane 2 and the names are right."
],
"C62": [
"partial",
"Refuted: NaNs of the caller's image become 0. Proved for images without NaN."
],
"C50": [
"partial",
"vis_model_freq_split: proved in full with visibility_grid and dirty_image_generate as arbitrary functions. The export drops the last channels when n_avg does not divide the number of channels (refuted), and the default choice of baselines picks channels (refuted). C50_default_baselines: the default list of baselines holds channel numbers."
],
"C63": [
"partial",
"Refuted without split_ps_export: the call always fails. Proved for the even/odd split, with gridding, imaging, beam and conversion as arbitrary functions."
],
"C64": [
"partial",
"Positivity and the value are proved for every input and any sqrt positive on positives. The last sentence is false of the code (C64_isolation_refuted, for every input with one negative autocorrelation): all gains of the polarisation become 1."
],
"C65": [
"partial",
"The gains are proved for two or more polarisations and distinct tiles (lstsq, sqrt, modulus and phase as parameters); an exact linear relation leaves the gains unchanged (C65_exact). The scale is false of the code as soon as a tile has no autocorrelation: any value can be returned (C65_scale_refuted). One polarisation always raises IndexError (C65_single_pol_refuted)."
],
"C66": [
"partial",
"Proved when no bin mixes zero and nonzero model visibilities. False of the code otherwise: with two or more nonzero ones the call raises ValueError (C66_mixed_refuted, every such input), with exactly one the value is wrong (C66_lonely_refuted)."
],
"C67": [
"partial",
"Consistency, statistics and recovery are proved for arbitrary steps (C67_consistent, C67_statistics, C67_recovers, C67_exact_fit); completion with the bandpass or without the polynomial. False of the code: polynomial without bandpass always raises KeyError (C67_polyfit_refuted), four polarisations always fail (C67_four_pols_refuted); with the bandpass but no polynomial phases are never calibrated (C67_phases_refuted)."
],
"C68": [
"partial",
"Proved: the phase is right and the amplitude is the fitted polynomial minus its highest term (C68_value_partial); unaffected tiles keep their gains (C68_other_tiles). False of the code: the highest term is dropped (C68_top_term_refuted, every successful run of degree >= 2), a fit with fewer coefficients fails (C68_low_degree_refuted), the gain jump option fails or shifts by a channel (C68_jump_refuted, C68_jump_shift_refuted) or zeroes all gains (C68_no_jump_refuted), three of four reflection modes never work (C68_reflection_modes_refuted), and the nominal reflection is too large by the number of channels (C68_reflection_size_refuted). The hyperresolved search is a parameter."
],
"C69": [
"proved",
"lstsq and arctan2 are parameters; exact rational arithmetic."
],
"C70": [
"partial",
"Proved: samples without weight or out of range have no influence, even on failure (C70_flagged_data); exact data are a fixed point and the call succeeds (C70_recovers); one time averaged is the same as not averaged; other gains are kept and only tiles both flagged and without data become NaN (C70_kept). C70_solution_partial needs that flagged tiles carry no weight and that no gain was NaN. Refuted: data of a flagged tile with positive weights are attributed to the first good tile; NaN gains at the last frequency zero the gains of other frequencies (tile positions are used as frequencies); one frequency without data of the reference tile makes the call fail; n_vis_cal counts the last polarisation only. calibration_weights=True is not modelled; inputs are finite."
],
"C71": [
"partial",
"Proved: what an accepted header contains (C71_header); complete files are accepted unless the first parameter is DATE or a needed BASELINE (C71_accepts_partial); the parameters are the columns of their names (C71_params_partial), and a missing one ends the program (C71_params_missing). Refuted: such a first parameter is a KeyError although present (C71_first_refuted); a missing DATE or BASELINE is a ValueError (C71_missing_refuted); an unknown instrument is a TypeError, never the MWA (C71_site_refuted); the second of two DATE parameters is dropped from the times (C71_time_refuted). Astropy's site registry and FITS scaling are parameters."
],
"C72": [
"partial",
"Proved: given cards and columns are taken, defaults otherwise (C72_header, C72_columns, C72_missing_columns, C72_time_system, C72_defaults), constant columns become one number and nothing else does (C72_constant), tables with antenna numbers and antennas are accepted (C72_accepts_partial), leap seconds of the file or of IAT (C72_leap_partial). Refuted: a table without NOSTA always fails (C72_numbers_refuted), the leap seconds are absent when unknown (C72_leap_refuted), a table without antennas fails (C72_empty_refuted). Logging and saving are not part of the model."
],
"C73": [
"partial",
"Proved: sizes, pixel size along the first axis and the extreme baselines (C73_geometry_partial); polarisations, times, flagged times and centre frequency (C73_counts); tile numbers for increasing antenna tables (C73_tiles_partial); acceptance with a metafits file and given dimensions (C73_completes_partial). Refuted: FoV changes nothing and 0 fails (C73_fov_refuted), the first dimension cannot be left out (C73_dimension_refuted), on a grid that is not square the pixels are wrong on the second axis (C73_non_square_refuted), arrays of fewer than 128 antennas are rejected (C73_small_array_refuted). Exact numbers; 180/pi and the length of a baseline are parameters."
],
"C74": [
"partial",
"Proved: rows, flags, pointing, phase centre and image centre (C74_metadata), longitude offset (C74_offset). Refuted: one unflagged tile is refused and none accepted (C74_one_tile_refuted, C74_all_flagged_refuted); without a metafits file the function always fails (C74_no_file_refuted, C74_no_file_create_refuted); a time cut removes all times or none (C74_time_cut_refuted), and a single value other than 0 always fails (C74_one_cut_refuted). The transformations of astropy are parameters."
],
"C75": [
"partial",
"Proved over the reals for planes of even size: the transform with threshold, weights and pixel size (C75_fourier_partial; no width smoothing, uniform filter or resizing), the middle pixel (C75_centre), linearity (C75_linear), real images (C75_hermitian), normalisation (C75_normalization), padding by whole numbers (C75_padding_partial), which entries a threshold removes (C75_threshold). Refuted: fractional padding only multiplies the image (C75_padding_refuted), the plane of the caller is changed so that a second call gives another image (C75_caller_refuted), planes that are not square are rejected unless the threshold is None (C75_non_square_refuted), odd sizes are centred wrongly (C75_odd_refuted). The uniform filter and rebinning are parameters; NaN and infinities are not represented. C75_resize_partial: resizing gives the image of the rebinned plane (the rebinning is a parameter)."
],
"C76": [
"partial",
"Proved over the reals for square planes of even size without padding: dirty and model images in units of the weights, and the residual (C76_images_partial; not the fourth polarisation), a source in the middle (C76_source), independence of the scale of the weights (C76_scale), the observation afterwards for fewer than four polarisations (C76_obs_partial), header (C76_header), the image planes of the caller are kept (C76_image_kept). Refuted: the imaginary cross polarisation is 0 in all files and the names of the observation are changed (C76_crosspol_refuted), every weights file holds all polarisations and filtered weights (C76_weights_refuted), model planes and weights of the caller are multiplied by the filter (C76_caller_refuted), padding always fails (C76_padding_refuted), so do planes that are not square (C76_non_square_refuted). Filter, beam image and horizon are parameters; the HDF5 saves and the copied header cards are not part of the model."
],
"C77": [
"partial",
"Proved over the reals: the image of lobes (C77_image), on another grid (C77_regrid), the beam over a band (C77_mean) whatever the image size (C77_grid), the power beam of one channel or one bin (C77_square_partial), the planes and mask of the cube (C77_cube_partial: a plane is that of its channel unless a lower bin lies between channels of a higher one). Refuted: the caller's parameters are changed (C77_params_refuted), images that are not square fail (C77_not_square_refuted), the transform of several lobes fails and that of one lobe grows outwards (C77_transform_refuted, C77_transform_grows_refuted), the power beam over two bins mixes them (C77_square_refuted), several groups, one channel unsquared and tabulated beams always fail (C77_groups_refuted, C77_channel_refuted, C77_tables_refuted), unordered bins (C77_cube_order_refuted), hertz (C77_cube_hertz_refuted); the polarisations asked for are ignored (in C77_cube_partial). Region growing is a parameter here (C43 has it)."
],
"C78": [
"proved",
"Over the reals. C78_shift (every position of the transform), C78_image (pixels of the images the export makes), C78_factors (size 1; all ones without a change of phase centre). Planes that are not square, which the property leaves out, are moved by the wrong number of rows, or fail (C78_rectangle_refuted). radec_to_pixel is a parameter."
],
"C79": [
"proved",
"Over the reals (in floating point the number of pixels kept from the observation may be one less). C79_consistent, C79_resolution, C79_field, C79_pixels, C79_unset, C79_completes."
],
"C80": [
"partial",
"Refuted: the parser's default for --ps-kspan is 0, which counts as set, so the export always stops (C80_span_refuted); its default for --ps-kbinsize is 0.5, so --ps-fov is ignored (C80_field_refuted). The configuration file shipped as a template sets --ps-kspan."
],
"C81": [
"proved",
"Over the reals. C81_kernel (any direction cosines and w), C81_position (coordinates made by visibility_grid). l_m_n is C45."
],
"C82": [
"partial",
"C82_clip: sums and floor. Refuted: the floor is that of the whole box, so kernels depend on the others (C82_alone_refuted) and a kernel wholly below it becomes NaN (C82_weak_refuted)."
],
"C83": [
"partial",
"Refuted: the sums run over the visibilities instead of the uv pixels, so that the integral of one kernel is its first value (C83_refuted), and more visibilities than uv pixels are an error (C83_many_refuted). C83_channels_partial: the counts and integrals are kept per channel."
],
"C84": [
"partial",
"True for resolutions 1 and 2 (C84_centre_partial); for every resolution from 3 on the middle is in an earlier pixel (C84_centre_refuted)."
],
"C85": [
"partial",
"False of the code. No file can be transferred unless the observation has as many tiles as frequencies (C85_axes_refuted, every file), nor with several polarisations and three or more tiles (C85_polarisations_refuted), several times (C85_times_refuted) or an axis of spectral windows (C85_window_refuted). In the remaining case the values are real parts, rounded to whole numbers by default, and the remainder pairs tile t, channel c with tile c, channel t (C85_values_partial exact, C85_rounded_refuted). The exchange of polarisations duplicates one (C85_orientation_refuted)."
],
"C86": [
"proved",
"C86_missing, C86_delay, C86_axes, C86_polarisations, C86_width, C86_start, C86_tiles, C86_used."
],
"C87": [
"proved",
"C87_structure, C87_dictionary (readsav's dictionary), C87_records. Proved against the inductive relation means of RecDictSpec."
],
"C88": [
"partial",
"False of the code: of several structures only the first is kept (C88_structures_refuted), behind a null pointer nothing is converted (C88_null_refuted; C88_null_row for a row with one), floats after an integer array are rounded (C88_types_refuted), a single number is repeated (C88_repeated_refuted), a table of strings raises AttributeError (C88_string_table_refuted). Proved: arrays of different sizes become a list (C88_ragged, C88_nested_ragged), and C87."
],
"C89": [
"proved",
"C89_sav, C89_missing, C89_shapes, C89_only, C89_uvfits, C89_type. Shapes with axes of length 1 in the uvfits data are those of C46."
],
"C90": [
"partial",
"False of the code: one visibility is repeated over all baselines (C90_repeated_refuted), sav files with another number of channels are accepted (C90_channels_refuted), a 1 x 1 array loses an axis (C90_single_refuted), uvfits models may have another number of polarisations (C90_polarisations_refuted) or other frequencies (C90_frequencies_refuted). Proved: what is refused, in C89."
],
"C91": [
"proved",
"C91_planes, C91_total, C91_pipeline."
],
"C92": [
"partial",
"False of the code, which subtracts where it should add: planes that agree (each the conjugate of the other at the opposite {u,v}) become zero (C92_consistent_refuted), so does everything when it is done twice (C92_twice_refuted), equal real totals of the weights give total weight zero (C92_weights_refuted), and weights become negative (C92_negative_refuted). What the code does is C91."
],
"C93": [
"proved",
"C93_pages, C93_polarisations. The figures are recorded as data; an exception is returned without the pages saved before it."
],
"C94": [
"partial",
"False of the code: with fewer than 128 tiles nothing is plotted (C94_few_refuted), with 129 to 255 the tiles after the first 128 are on no page (C94_rest_refuted), with 256 or more IndexError is raised for every input (C94_many_refuted), and the range must contain the amplitudes of flagged tiles (C94_limits_refuted). What holds is C93."
],
"C95": [
"proved",
"C95_strongest, C95_exact, C95_restores. Over the exact reals."
],
"C96": [
"proved",
"C96_reference, C96_exact, C96_candidate. Over the exact reals."
],
"C97": [
"partial",
"False of the code: if no tile in use has another cable the mode found is 2.5 below the nominal one whatever the data (C97_same_cable_refuted), and whenever the search moves off the nominal mode the tile and all with the same cable are among those averaged (C97_self_refuted)."
],
"C98": [
"proved",
"C98_field_and_band, C98_unique, C98_named. Over the exact reals; healpy and astropy are parameters, except the great circle distance, which is defined."
],
"C99": [
"proved",
"C99_visible, C99_sides. Assumes that some visible pixel is in the image (otherwise see C42). Pixels on grid lines: C42."
],
"C100": [
"partial",
"False of the code: every such call raises (C100_unrestricted_refuted), the mask being indexed with floats."
],
"C101": [
"proved",
"C101_no_w_term, C101_parameters, C101_turn. Over the exact reals; excludes a zenith at right angles to the phase centre or at a pole."
],
"C102": [
"partial",
"False of the code: for a zenith to the south both parameters have the wrong sign (arctan of a quotient), so the w term is taken off instead of added (C102_south_refuted), and at the zenith they are NaN (C102_zenith_refuted). To the north: C101."
],
"C103": [
"proved",
"C103_reload, C103_lines. configargparse, PyYAML and argparse are modelled from their documentation."
],
"C104": [
"partial",
"False of the code. The entry output_dir, set in every run, is no option, so the file of every run is refused (C104_run_refuted); so are the IDL switches (C104_idl_refuted), the default of --memory-threshold (C104_memory_refuted), flagged tiles (C104_tiles_refuted) and a text with a quote (C104_quote_refuted); ring_radius is taken as an abbreviation of --ring-radius-multi (C104_ring_refuted). What does read back is C103."
],
"C105": [
"proved",
"C105_named, C105_template. configargparse, PyYAML and argparse are modelled from their documentation; keys with an equals sign are left out."
],
"C106": [
"partial",
"False for two options: whatever the file, export_images is true (C106_images_refuted), and every tile named for flagging arrives as the list of its characters (C106_tiles_refuted). Every switch with a hyphenated flag that is off by default can be set or left (C106_switches_partial)."
],
"C107": [
"proved",
"C107_others, C107_asked, C107_stopped. Observation ids have no underscore; names have no slash; a .sav beam's HDF5 copy is not in the place of a result; HDF5's locks, permissions and full disks are not represented."
],
"C108": [
"partial",
"False of the code: with a description the layout, pyfhd_config.h5 and the checkpoints are the last run's, whichever observation it is of, so that resuming loads another observation (C108_description_refuted); without one, two runs started in the same second have one directory and one record (C108_second_refuted). Kept are the recorded configurations of runs with another name, the checkpoints of runs without a description from such runs of other observations, and all lines of the log (C108_kept_partial)."
],
"C109": [
"proved",
"C109_name, C109_confined, C109_missing."
],
"C110": [
"partial",
"False if two runs have one output directory that is not there yet: both see that it is missing and the second to make it ends with FileExistsError (C110_together_refuted). True in every order of steps if the output paths and the shared output directories are there (C110_prepared_partial)."
],
"C111": [
"proved",
"C111_colors, C111_scale. Exact real arithmetic."
],
"C112": [
"partial",
"False of the code: colour bar numbers are too large for every pixel below the upper end (C112_labels_refuted); a value and its opposite have the same colour (C112_sym_refuted); with a larger negative end all large values have colour 255 and 0 is in the upper half (C112_abs_refuted); the linear scale is cut at the values of the range (C112_linear_refuted; right, with its colour bar, for ranges from 0 or below to 255 or above, C112_linear_partial); constant images are NaN (C112_constant_refuted); with a missing value positive pixels have no colour (C112_missing_refuted), one not in the image is UnboundLocalError (C112_absent_refuted), integer images fail (C112_integers_refuted), the caller's array is changed (C112_caller_refuted); log_color_calc without count_missing always fails (C112_default_refuted). What the symmetric scale draws is the logarithm of the magnitude (C112_sym_scale); the linear scale with missing values has them at 0 and the others in proportion from 1 to 255, with a colour bar that is wrong at its lower end (C112_linear_missing)."
],
"C113": [
"partial",
"True for names without the ending and one format (C113_name_partial), several formats become png (C113_formats). False of the code for every name that ends in a known ending, in letters of either case: it is added again (C113_ending_refuted)."
],
"C114": [
"partial",
"Proved: which beam a sav file gives (C114_sav), the copy gives the same beam for fields HDF5 holds as they are (C114_copy_partial), other files stay (C114_files), missing and refused files (C114_errors). False of the code: beams of other baselines are dropped without a message (C114_baselines_refuted); any other ending, such as .SAV, gives no beam and an unrelated error later (C114_ending_refuted); beam_per_baseline is never turned off because a shape is compared with a number (C114_option_refuted). Missing: copies with lists, strings and objects (see C34)."
],
"C115": [
"partial",
"Proved: the delays tell the pointing (C115_delays), the entry for files that start in one of the ten slots (C115_entry_partial), none further outside (C115_outside). False of the code: a file that starts shortly before the first slot is taken to start at pointing 4 (C115_before_refuted); the starts do not move with the seasons (C115_season_refuted). The data taken out are then never used because an axis is missing (C85_times_refuted)."
],
"C116": [
"partial",
"False of the code: with wider channels the axes are read in the wrong order and the last assignment never fits (C116_channels_refuted, C116_parts_refuted), so only files of the same channel width are ever transferred (C116_width_refuted). What is missing is a case where it is true; files of the same width are in C85 and C86."
],
"C117": [
"partial",
"In an existing directory given from the root, without white space, with IDL and up to four polarisations, every visibility comes back rounded to single precision (exactly, if single precision holds it). The rest is false of the code: 1 + 2^-24 does not come back under any such rounding; a directory with white space or given relative to the working directory gets no model and no error (the words of the command are split at white space, and IDL is started inside the directory; its exit code is not looked at); the working directory of the run is changed for good. IDL's treatment of a last axis of length one is not represented."
],
"C118": [
"partial",
"True for an installation from a repository (C118_installed_partial). False of the code without the recorded file: the commit is that of whatever repository the run is started in, with a line end (C118_elsewhere_refuted), empty outside of one and an error without git (C118_unknown_refuted); a recorded file of fewer than three lines ends the run (C118_damaged). That the recorded file belongs to the code that runs, after later edits, is not expressed."
]
}