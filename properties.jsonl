{"id": "C01", "title": "histogram counts are exact", "statement": "histogram(data, bin_size=b, min=lo, max=hi) returns, for every bin i, exactly the number of elements d of data with lo <= d <= hi and lo+i*b <= d < lo+(i+1)*b; every in-range element is counted in exactly one bin and out-of-range elements in none, so the histogram sums to the number of in-range elements.", "quantifier": "every data array (any length, including values outside the limits), every lower limit, upper limit and positive bin size", "why_tests_cant": "the bin index is obtained by rescaling with n/(bins[-1]-bins[0]) after a conditional drop of the last bin; tests sample a few arrays and cannot show that no value falls in a neighbouring bin or beyond the end of the array (the numba kernel has no bounds check)", "anchors": ["PyFHD/pyfhd_tools/pyfhd_utils.py:get_bins", "PyFHD/pyfhd_tools/pyfhd_utils.py:get_hist", "PyFHD/pyfhd_tools/pyfhd_utils.py:histogram"]}
{"id": "C02", "title": "reverse indices list every bin's elements, once, in order", "statement": "For the ri returned by histogram, ri[ri[i]:ri[i+1]] is exactly the increasing list of positions of the data elements that fall in bin i; consecutive slices are adjacent, the slices of all bins together list every in-range position exactly once, and len(ri) is nbins + 1 + number of in-range elements.", "quantifier": "every data array, limits, positive bin size and bin index", "why_tests_cant": "gridding, flagging and calibration all walk bins through ri; an off-by-one only shows for particular mixes of empty bins and out-of-range elements", "anchors": ["PyFHD/pyfhd_tools/pyfhd_utils.py:get_ri", "PyFHD/pyfhd_tools/pyfhd_utils.py:histogram"]}
{"id": "C03", "title": "histogram with num_bins stays inside its arrays", "statement": "histogram(data, num_bins=k) counts every in-range element in one of the k bins it returns.", "quantifier": "every data array with max > min and every k >= 1", "why_tests_cant": "only data that attain the maximum trigger the out-of-bounds write, and the write silently corrupts memory instead of failing", "anchors": ["PyFHD/pyfhd_tools/pyfhd_utils.py:histogram", "PyFHD/pyfhd_tools/pyfhd_utils.py:get_hist"]}
{"id": "C04", "title": "array_match selects exactly the matching positions", "statement": "array_match(a1, v, a2) returns the increasing list of positions k such that a1[k] or a2[k] is one of the values in v (callers use it to cut the baselines of the flagged tiles).", "quantifier": "every pair of equally long non-empty integer arrays a1, a2 and every list of values v", "why_tests_cant": "the selection combines two count arrays with a bitwise AND, so only particular multiplicities or an empty result expose a wrong selection", "anchors": ["PyFHD/pyfhd_tools/pyfhd_utils.py:array_match", "PyFHD/pyfhd_tools/pyfhd_utils.py:vis_weights_update"]}
{"id": "C05", "title": "idl_argunique returns the last position of each distinct value", "statement": "On a sorted array, idl_argunique returns one position per distinct value, in increasing order, each being the last occurrence of its value, and the runs they delimit tile the whole array.", "quantifier": "every sorted array", "why_tests_cant": "gridding groups visibilities by these runs; a wrong boundary silently merges two groups", "anchors": ["PyFHD/pyfhd_tools/pyfhd_utils.py:idl_argunique"]}
{"id": "C06", "title": "deriv_coefficients are the falling-factorial coefficients", "statement": "The list c returned by deriv_coefficients(n) satisfies sum_k c[k]*a^(n-k) = a(a-1)...(a-n+1) for every a, i.e. it is the coefficient of the n-th derivative of x^a; with divide_factorial coefficient m is divided by (m+1)!; n <= 0 gives 0.", "quantifier": "every n >= 1 and every exponent a", "why_tests_cant": "the in-place slice update depends on the order in which overlapping slices are read and written; tests only compare two small n", "anchors": ["PyFHD/pyfhd_tools/pyfhd_utils.py:deriv_coefficients"]}
{"id": "C07", "title": "weight_invert inverts exactly the usable weights and is always finite", "statement": "Each output entry of weight_invert is 1/w when the weight w is usable (finite, non-zero, and at or above the threshold when one is given) and 0 otherwise; no output is NaN or infinite whatever the input; shape is preserved except that one-element arrays become scalars.", "quantifier": "every array of floats including NaN and infinities, every threshold, with and without use_abs, real or complex", "why_tests_cant": "the special values interact (1/inf, 1/nan, comparison with nan); tests sample a few", "anchors": ["PyFHD/pyfhd_tools/pyfhd_utils.py:weight_invert"]}
{"id": "C08", "title": "rebin to a smaller shape takes block averages", "statement": "When both new dimensions divide the old ones, rebin returns an array of the requested shape whose entry (i,j) is the mean of the corresponding block, so the overall mean is preserved for floats; for integers each average is truncated towards zero columns first; non-dividing shapes raise ValueError.", "quantifier": "every 2-D array and every pair of dividing target dimensions", "why_tests_cant": "the block structure comes from a 4-D reshape; only algebra shows it for all shapes", "anchors": ["PyFHD/pyfhd_tools/pyfhd_utils.py:rebin"]}
{"id": "C09", "title": "rebin to a larger shape interpolates between the original samples", "statement": "When the new dimensions are multiples of the old ones, rebin keeps every original sample at its scaled position, fills the gaps by linear interpolation and repeats the last sample; with sample=True every sample is repeated, and sampling back to the old shape returns the original array.", "quantifier": "every array and every pair of integer expansion factors", "why_tests_cant": "the construction pads and slices intermediate arrays; sizes with a single row or column take other paths", "anchors": ["PyFHD/pyfhd_tools/pyfhd_utils.py:rebin", "PyFHD/pyfhd_tools/pyfhd_utils.py:rebin_rows", "PyFHD/pyfhd_tools/pyfhd_utils.py:rebin_columns"]}
{"id": "C10", "title": "meshgrid enumerates coordinates", "statement": "meshgrid(dimension, elements, axis) is an elements x dimension array whose entry in row r, column c is c for axis 1 and r for axis 2; meshgrid(n, axis) is the square version.", "quantifier": "every positive size", "why_tests_cant": "index arithmetic with div and mod must be right for every rectangular shape", "anchors": ["PyFHD/pyfhd_tools/pyfhd_utils.py:meshgrid"]}
{"id": "C11", "title": "conjugate_mirror is the uv-plane reflection", "statement": "conjugate_mirror(img)[u,v] = conj(img[-u,-v]) with indices taken modulo the array size; applying it twice gives back the image, it is additive, and (img + conjugate_mirror(img))/2, which the gridding returns, is Hermitian-symmetric.", "quantifier": "every complex array of every shape, odd or even", "why_tests_cant": "it is built from a flip followed by a roll, whose composition is only visibly the reflection for sizes that were tried", "anchors": ["PyFHD/gridding/gridding_utils.py:conjugate_mirror", "PyFHD/gridding/visibility_grid.py:visibility_grid"]}
{"id": "C12", "title": "every gridded footprint lies inside the uv grid", "statement": "Every visibility that baseline_grid_locations leaves in a bin has its whole psf_dim x psf_dim footprint inside the uv grid, and decoding the bin number gives back the (xmin, ymin) of each of its visibilities.", "quantifier": "every set of baselines, frequencies, weights, psf sizes and grid sizes", "why_tests_cant": "the range test, the offset and the row-major key use three different size variables; square test grids hide any confusion between them", "anchors": ["PyFHD/gridding/gridding_utils.py:baseline_grid_locations", "PyFHD/gridding/visibility_grid.py:visibility_grid"]}
{"id": "C13", "title": "flagged or out-of-range visibilities never reach the grid", "statement": "A visibility whose weight is not positive (when models are not being filled), whose baseline length at the lowest or highest frequency of the observation is outside [min_baseline, max_baseline], or whose footprint leaves the grid appears in no bin; every other visibility appears in exactly one; bin_n are the bin populations and n_bin_use the number of non-empty bins.", "quantifier": "every set of baselines, frequencies and weights", "why_tests_cant": "five successive masks overwrite the same two arrays", "anchors": ["PyFHD/gridding/gridding_utils.py:baseline_grid_locations"]}
{"id": "C14", "title": "grouping identical visibilities does not change the gridded result", "statement": "For each bin, visibility_grid's shortcut of summing all visibilities that share the same beam sub-pixel offset, frequency bin and beam group before gridding yields the same image, weights and counts as gridding each visibility separately.", "quantifier": "every bin content: any number of visibilities with any offsets, frequency bins and groups", "why_tests_cant": "the shortcut is only taken above a data-dependent size ratio, and combines argsort, run detection and an arithmetic key that must not collide", "anchors": ["PyFHD/gridding/visibility_grid.py:visibility_grid", "PyFHD/pyfhd_tools/pyfhd_utils.py:idl_argunique"]}
{"id": "C15", "title": "gridding is linear in the visibilities and independent of their order", "statement": "Gridding a sum of two visibility sets with the same baselines gives the sum of the gridded planes, scaling scales them, and permuting the order in which visibilities are stored does not change the gridded plane.", "quantifier": "every visibility set and every permutation", "why_tests_cant": "order independence ranges over all permutations", "anchors": ["PyFHD/gridding/visibility_grid.py:visibility_grid"]}
{"id": "C16", "title": "each gridded visibility is attributed to its own frequency and baseline", "statement": "When visibility_grid looks up the frequency (beam) and baseline (group) of a bin's visibility, it uses the frequency and baseline that visibility was observed at.", "quantifier": "every number of frequencies and baselines and every visibility", "why_tests_cant": "the flat-index decoding is only wrong when the two axes have different roles or lengths", "anchors": ["PyFHD/gridding/visibility_grid.py:visibility_grid", "PyFHD/gridding/gridding_utils.py:baseline_grid_locations"]}
{"id": "C17", "title": "interpolate_kernel is bilinear interpolation", "statement": "interpolate_kernel combines the four neighbouring beam kernels with the bilinear weights (1-dx)(1-dy), dx(1-dy), (1-dx)dy, dx*dy, which are exactly the returned derivative weights of baseline_grid_locations and add up to 1; constant kernels are reproduced and at zero offset the kernel itself is returned.", "quantifier": "every kernel table, index and offset", "why_tests_cant": "tests compare a handful of numbers", "anchors": ["PyFHD/gridding/gridding_utils.py:interpolate_kernel", "PyFHD/gridding/gridding_utils.py:baseline_grid_locations"]}
{"id": "C18", "title": "visibility_count counts visibilities per uv pixel", "statement": "Before mirroring, pixel (y,x) of visibility_count is the number of gridded visibilities whose psf footprint covers the pixel, so the plane sums to psf_dim^2 times the number of gridded visibilities; the returned plane is the average of that plane and its reflection.", "quantifier": "every visibility set", "why_tests_cant": "overlapping footprints accumulate; conservation ranges over all overlaps", "anchors": ["PyFHD/gridding/gridding_utils.py:visibility_count"]}
{"id": "C19", "title": "uniform weighting filter is mean-normalised", "statement": "filter_uv_uniform multiplies the plane by a filter proportional to 1/vis_count where vis_count >= 1 and 0 elsewhere, normalised so that the filter averages to 1 over the weighted pixels.", "quantifier": "every plane, count plane and weights", "why_tests_cant": "normalisation must hold for every count distribution; zero-mean and empty selections are separate paths", "anchors": ["PyFHD/gridding/filters.py:filter_uv_uniform"]}
{"id": "C20", "title": "degridding in memory-limited pieces covers each visibility once", "statement": "The pieces in which visibility_degrid processes the visibilities of a bin are disjoint, in order, and together cover all of them, whatever the memory limit.", "quantifier": "every number of visibilities and every number of pieces", "why_tests_cant": "ceil-based chunk sizes can leave an empty or overlapping last chunk for particular ratios", "anchors": ["PyFHD/gridding/visibility_degrid.py:visibility_degrid"]}
{"id": "C21", "title": "vis_weights_update clears every flagged visibility and nothing else", "statement": "After vis_weights_update the weight of every visibility with a flagged frequency, flagged tile, flagged time, out-of-range footprint or baseline length is 0, every other weight is unchanged, and n_vis is the number of usable visibilities.", "quantifier": "every weight array, flag state and baseline set", "why_tests_cant": "depends on array_match over all tile combinations, including the no-match case", "anchors": ["PyFHD/pyfhd_tools/pyfhd_utils.py:vis_weights_update", "PyFHD/pyfhd_tools/pyfhd_utils.py:array_match"]}
{"id": "C22", "title": "flagging is monotone", "statement": "vis_flag_basic never sets a previously flagged tile or frequency back to used, and the reported numbers of flagged tiles, frequencies and times equal the number of zeros in the corresponding use arrays.", "quantifier": "every weight array and option set", "why_tests_cant": "ranges over all flag states", "anchors": ["PyFHD/flagging/flagging.py:vis_flag_basic"]}
{"id": "C23", "title": "even/odd split uses disjoint, equally sized, unflagged time samples", "statement": "split_vis_weights returns two disjoint baseline lists of equal length, drawn only from usable times, even times in one and odd times in the other; afterwards paired entries have equal weights, and the weights outside the lists are 0.", "quantifier": "every number of times, time flags and weights", "why_tests_cant": "only particular flag patterns send unused samples (index -1) into the odd set", "anchors": ["PyFHD/pyfhd_tools/pyfhd_utils.py:split_vis_weights"]}
{"id": "C24", "title": "idl_median is a median", "statement": "idl_median(x) returns an element of x such that at least half of the elements are <= it and at least half are >= it; with width w it replaces interior points by the running median and leaves the w//2 points at each edge alone.", "quantifier": "every non-empty array", "why_tests_cant": "parity of the length selects different order statistics", "anchors": ["PyFHD/pyfhd_tools/pyfhd_utils.py:idl_median"]}
{"id": "C25", "title": "resistant_mean averages only inliers", "statement": "resistant_mean returns the mean of the elements within the final deviation threshold of the median; the result lies between the smallest and largest element and constant arrays give the constant.", "quantifier": "every real array", "why_tests_cant": "two-stage clipping depends on all order statistics", "anchors": ["PyFHD/pyfhd_tools/pyfhd_utils.py:resistant_mean"]}
{"id": "C26", "title": "applying the calibration undoes the gains", "statement": "If each visibility equals g_a(f) * conj(g_b(f)) * V for the gains of its two tiles and polarisations, vis_calibration_apply returns V wherever both gains are non-zero and 0 wherever a gain is zero, leaving other frequencies and baselines unaffected.", "quantifier": "every gain solution, tile pair, frequency, polarisation and visibility", "why_tests_cant": "ranges over all baselines and all gains, and the index order (tile, frequency, polarisation) is only pinned down by algebra", "anchors": ["PyFHD/calibration/calibration_utils.py:vis_calibration_apply"]}
{"id": "C27", "title": "auto-ratio division is undone by remultiplication", "statement": "cal_auto_ratio_remultiply after cal_auto_ratio_divide restores the gains of the tiles that have autocorrelations with a non-zero ratio and leaves all other tiles' gains as they were.", "quantifier": "every gain array, autocorrelation array and list of tiles with autocorrelations", "why_tests_cant": "subsets of tiles and reference-tile choices are combinatorial", "anchors": ["PyFHD/calibration/calibration_utils.py:cal_auto_ratio_divide", "PyFHD/calibration/calibration_utils.py:cal_auto_ratio_remultiply"]}
{"id": "C28", "title": "bandpass times remainder is the original gain", "statement": "vis_cal_bandpass factors each gain: bandpass * remainder equals the input gain at every used frequency of every tile with a non-zero bandpass, and the bandpass is constant across the tiles that share it.", "quantifier": "every gain array, tile and frequency selection", "why_tests_cant": "ranges over all selections, with per-cable grouping", "anchors": ["PyFHD/calibration/calibration_utils.py:vis_cal_bandpass"]}
{"id": "C29", "title": "the adaptive gain stays in its range", "statement": "calculate_adaptive_gain returns the base gain for the first iterations and afterwards a value between base_gain/2 and max(1, base_gain), for every convergence history; each call records its value in the gain history, so every later entry satisfies the same bounds.", "quantifier": "every history of convergence values", "why_tests_cant": "the value is a recurrence over the whole history", "anchors": ["PyFHD/calibration/calibration_utils.py:calculate_adaptive_gain"]}
{"id": "C30", "title": "the calibration solver always terminates and reports its iteration", "statement": "For each polarisation and frequency the solver performs at most max_cal_iter updates and reports an iteration below max_cal_iter; every update is a convex combination of the old solution and the least-squares solution given the old one (its phase only, in the first iterations), turned so that the reference tile has phase 0; tiles without enough equations end with gain 0; an iteration limit below 1 is rejected; a solution reported as converged meets the threshold.", "quantifier": "every data set and solver configuration", "why_tests_cant": "stopping depends on the convergence history", "anchors": ["PyFHD/calibration/vis_calibrate_subroutine.py:vis_calibrate_subroutine"]}
{"id": "C31", "title": "calibration flagging only removes tiles and frequencies", "statement": "vis_calibration_flag never returns a tile or frequency to use that was flagged before, flags the tiles and frequencies whose gain amplitude statistic is zero, and stops after a bounded number of passes.", "quantifier": "every gain solution and flag state", "why_tests_cant": "ranges over all flag states and all outlier orders", "anchors": ["PyFHD/calibration/calibration_utils.py:vis_calibration_flag"]}
{"id": "C32", "title": "autocorrelations are extracted for the right tiles", "statement": "vis_extract_autocorr returns, per tile that has an autocorrelation, the visibilities whose two tiles are equal, averaged over the used times when asked, with auto_tile_i naming the tile of each column.", "quantifier": "every baseline table, time flag set and visibility array", "why_tests_cant": "index arithmetic over (time, baseline) layouts", "anchors": ["PyFHD/calibration/calibration_utils.py:vis_extract_autocorr"]}
{"id": "C33", "title": "model visibilities are matched to the data's time and antennas", "statement": "flag_model_visibilities returns a model array in which entry k is the model visibility for the same antenna pair and the nearest model time as data visibility k, with flagged tiles removed.", "quantifier": "every set of data times, antenna pairs and flagged tiles", "why_tests_cant": "depends on the combination of flagged tiles, autos and time offsets", "anchors": ["PyFHD/source_modeling/vis_model_transfer.py:flag_model_visibilities"]}
{"id": "C34", "title": "save then load returns the same data", "statement": "load(save(d)) returns a dictionary with the same keys and values as d for every nested dictionary of arrays, numbers, booleans, strings and None.", "quantifier": "every nested dictionary", "why_tests_cant": "recursion over arbitrary nesting; one-key dictionaries, empty lists and None are special-cased", "anchors": ["PyFHD/io/pyfhd_io.py:save", "PyFHD/io/pyfhd_io.py:load", "PyFHD/io/pyfhd_io.py:save_dataset", "PyFHD/io/pyfhd_io.py:load_dataset"]}
{"id": "C35", "title": "resuming from a checkpoint gives the result of the uninterrupted run", "statement": "A run interrupted after a checkpoint was written and restarted with that checkpoint produces the same final outputs as the uninterrupted run.", "quantifier": "every stage behaviour, option set and interruption point", "why_tests_cant": "interruption points multiply with option combinations; resume paths are rarely run", "anchors": ["PyFHD/pyfhd.py:main"]}
{"id": "C36", "title": "a crash while writing a checkpoint leaves a usable state", "statement": "If the program dies at any moment while writing a checkpoint, the previous checkpoint of that name, or the new one, can be loaded afterwards.", "quantifier": "every crash point during save", "why_tests_cant": "crash points cannot be enumerated by unit tests", "anchors": ["PyFHD/io/pyfhd_io.py:save", "PyFHD/pyfhd.py:main"]}
{"id": "C37", "title": "an inconsistent configuration is rejected before any processing", "statement": "pyfhd_setup returns normally exactly when none of its documented error conditions holds, and the options it silently adjusts are adjusted to mutually consistent values.", "quantifier": "every combination of options", "why_tests_cant": "option combinations are exponential", "anchors": ["PyFHD/pyfhd_tools/pyfhd_setup.py:pyfhd_setup"]}
{"id": "C38", "title": "time bins partition the visibilities", "statement": "create_obs's bin_offset lists the first visibility index of each distinct time in order, so consecutive offsets delimit exactly the visibilities of one time, and n_time is the number of distinct times.", "quantifier": "every ordered list of visibility times, including a single time", "why_tests_cant": "block lengths may vary; single-time data take a different path", "anchors": ["PyFHD/data_setup/obs.py:create_obs"]}
{"id": "C39", "title": "every frequency channel is assigned to its own frequency bin", "statement": "fbin_i assigns each frequency channel to the bin of width freq_res that contains it, both in create_obs and after update_obs.", "quantifier": "every frequency array and bin width", "why_tests_cant": "the last bin is where a loop bound error shows", "anchors": ["PyFHD/data_setup/obs.py:create_obs", "PyFHD/data_setup/obs.py:update_obs"]}
{"id": "C40", "title": "antenna numbers are translated to tile indices", "statement": "create_obs replaces each antenna number in the baseline table by 1 + its position in the antenna table.", "quantifier": "every antenna table and baseline table", "why_tests_cant": "the in-place renumbering loop only goes wrong for particular orders of antenna numbers", "anchors": ["PyFHD/data_setup/obs.py:create_obs"]}
{"id": "C41", "title": "baseline numbers decode to the antenna pair they encode", "statement": "create_params recovers (a, b) from the UVFITS baseline number 256*a + b for every baseline in the file.", "quantifier": "every set of antenna pairs", "why_tests_cant": "the modulus is guessed from the smallest baseline number present", "anchors": ["PyFHD/data_setup/uvfits.py:create_params"]}
{"id": "C42", "title": "HEALPix conversion is bilinear interpolation", "statement": "healpix_cnv_generate followed by healpix_cnv_apply gives each HEALPix pixel the bilinear interpolation of the four surrounding image pixels; its weights are non-negative and add up to 1, so a constant image maps to the constant; the conversion is linear.", "quantifier": "every image, pixel set and pixel position", "why_tests_cant": "pixels on grid lines and pixels sharing a cell exercise different accumulation paths", "anchors": ["PyFHD/healpix/healpix_utils.py:healpix_cnv_generate", "PyFHD/healpix/healpix_utils.py:healpix_cnv_apply"]}
{"id": "C43", "title": "region_grow returns the connected region", "statement": "region_grow returns exactly the interior pixels connected, through pixels within the thresholds, to one of the seed pixels, or None when there are none.", "quantifier": "every image, thresholds and seed set", "why_tests_cant": "connectivity is a transitive closure over arbitrary shapes", "anchors": ["PyFHD/pyfhd_tools/pyfhd_utils.py:region_grow"]}
{"id": "C44", "title": "w-term deprojection is reversible and preserves amplitude", "statement": "simple_deproject_w_term multiplies each visibility by a unit-modulus phase that depends only on its w and frequency; applying it with the opposite direction restores the visibilities.", "quantifier": "every visibility array, w, frequency and direction", "why_tests_cant": "needs complex-exponential identities and index alignment", "anchors": ["PyFHD/pyfhd_tools/pyfhd_utils.py:simple_deproject_w_term"]}
{"id": "C45", "title": "l_m_n returns direction cosines", "statement": "l_m_n returns l, m and n-1 with l^2 + m^2 + n^2 = 1 for every pixel, all zero at the phase centre.", "quantifier": "every pair of sky positions", "why_tests_cant": "trigonometric identity over the reals", "anchors": ["PyFHD/pyfhd_tools/pyfhd_utils.py:l_m_n"]}
{"id": "C46", "title": "visibility arrays keep their meaning when read", "statement": "extract_visibilities places the visibility of polarisation p, channel f, baseline-time b at [p, f, b], with real, imaginary and weight parts from the same record.", "quantifier": "every file content", "why_tests_cant": "axis order over arbitrary shapes", "anchors": ["PyFHD/data_setup/uvfits.py:extract_visibilities"]}
{"id": "C47", "title": "crosspol_split_real_imaginary keeps the imaginary part", "statement": "After crosspol_split_real_imaginary plane 2 holds the real part and plane 3 the imaginary part of the original cross-polarisation image.", "quantifier": "every image", "why_tests_cant": "depends on view/copy aliasing, with all-real test images it cannot be seen", "anchors": ["PyFHD/pyfhd_tools/pyfhd_utils.py:crosspol_split_real_imaginary"]}
{"id": "C48", "title": "noise is estimated from unflagged even/odd pairs only", "statement": "vis_noise_calc's value for a polarisation and frequency depends only on pairs whose both weights are positive, is 0 when there is none, and is invariant under adding a constant to all visibilities.", "quantifier": "every visibility and weight array", "why_tests_cant": "ranges over all flag patterns", "anchors": ["PyFHD/pyfhd_tools/pyfhd_utils.py:vis_noise_calc"]}
{"id": "C49", "title": "time averaging is the weighted sum over times", "statement": "reshape_and_average_in_time returns at (f, b) the sum over times t of vis[f, t*n_baselines+b]*w[f,t,b], and exits when the weight shape differs.", "quantifier": "every array and shape", "why_tests_cant": "flat-index layout over arbitrary shapes", "anchors": ["PyFHD/pyfhd_tools/pyfhd_utils.py:reshape_and_average_in_time"]}
{"id": "C50", "title": "frequency averaging bins partition the channels", "statement": "vis_model_freq_split grids every channel in exactly one output frequency cube, cube i holding channels i*n_avg..(i+1)*n_avg-1, and its n_vis totals add up to the number gridded.", "quantifier": "every number of channels and averaging factor", "why_tests_cant": "non-dividing averaging factors", "anchors": ["PyFHD/healpix/healpix_utils.py:vis_model_freq_split", "PyFHD/healpix/export.py:healpix_snapshot_cube_generate"]}
{"id": "C51", "title": "gridding reports the numbers of gridded visibilities", "statement": "n_vis returned by visibility_grid is the number of griddable visibilities of the selection, for a selection of distinct channels obs['nf_vis'] of each selected channel is the number of griddable visibilities of that channel, the selected channels' counts add up to n_vis, and channels outside the selection keep their counts.", "quantifier": "every observation, selection of channels and baselines, and set of weights", "why_tests_cant": "the counts come from two different routes (histogram populations and a positivity test on pixel coordinates) that must agree for every input", "anchors": ["PyFHD/gridding/visibility_grid.py:visibility_grid"]}
{"id": "C52", "title": "the uniform filter plane is the visibility count plane", "statement": "The uniform_filter plane visibility_grid returns equals what visibility_count returns for the same observation, selection and flags.", "quantifier": "every observation and selection", "why_tests_cant": "two separately written accumulation loops must agree on every input", "anchors": ["PyFHD/gridding/visibility_grid.py:visibility_grid", "PyFHD/gridding/gridding_utils.py:visibility_count"]}
{"id": "C53", "title": "gridded planes are Hermitian unless conjugation is switched off", "statement": "With no_conjugate False every complex plane returned by visibility_grid satisfies F(-u,-v) = conj F(u,v) with indices modulo the plane size, and the real planes are even.", "quantifier": "every input and configuration, any plane shape", "why_tests_cant": "ranges over all planes and all pixels, including the edge rows an even-sized plane reflects onto themselves", "anchors": ["PyFHD/gridding/visibility_grid.py:visibility_grid", "PyFHD/gridding/gridding_utils.py:conjugate_mirror"]}
{"id": "C54", "title": "gridding a valid observation succeeds", "statement": "On a square plane with in-range selections, and unless spectral-index planes are asked for together with a model, visibility_grid returns planes exactly when some selected visibility is griddable and the empty dictionary otherwise; no index or shape error can occur. With spectral-index planes, a model and a kernel wider than one pixel it never returns planes.", "quantifier": "every valid observation, selection and configuration", "why_tests_cant": "absence of exceptions over all inputs", "anchors": ["PyFHD/gridding/visibility_grid.py:visibility_grid"]}
{"id": "C55", "title": "uniform weighting divides out the sample density", "statement": "With grid_uniform every covered pixel of the returned planes is the unweighted pixel divided by the number of visibilities covering it, up to one common normalisation.", "quantifier": "every observation", "why_tests_cant": "a normalisation that is applied inverted still gives plausible images", "anchors": ["PyFHD/gridding/visibility_grid.py:visibility_grid"]}
{"id": "C56", "title": "basic flagging clears exactly what was asked", "statement": "vis_flag_basic sets to zero the weights of channels outside the configured band, of coarse-channel edges when channel flagging is on, of every baseline of a flagged time and of every tile named in flag_tiles, and leaves all other weights unchanged.", "quantifier": "every weight array, visibility array, observation and option set", "why_tests_cant": "ranges over all flag states, offsets and option combinations", "anchors": ["PyFHD/flagging/flagging.py:vis_flag_basic", "PyFHD/flagging/flagging.py:vis_flag_tiles"]}
{"id": "C57", "title": "statistical flagging only removes data", "statement": "vis_flag returns for every observation, only ever lowers weights and use flags, clears all weights of a tile or channel it flags, reports the number of usable visibilities left, and its result depends on its inputs alone.", "quantifier": "every weight and visibility array and observation", "why_tests_cant": "ranges over all data and over uninitialised memory contents", "anchors": ["PyFHD/flagging/flagging.py:vis_flag"]}
{"id": "C58", "title": "auto ratios are relative to the reference tile", "statement": "The ratio that cal_auto_ratio_divide removes from tile t is the square root of tile t's autocorrelation over the reference tile's autocorrelation, whichever tiles have autocorrelations.", "quantifier": "every list of tiles with autocorrelations, every reference tile and autocorrelation array", "why_tests_cant": "only when some tile lacks an autocorrelation does a tile's number differ from its position, and which tile goes missing depends on the data", "anchors": ["PyFHD/calibration/calibration_utils.py:cal_auto_ratio_divide"]}
{"id": "C59", "title": "the true gains are a fixed point of the solver", "statement": "If the data are exactly g_a * conj(g_b) * model for some gains whose reference tile is real and positive, a solve that starts from these gains returns them unchanged, with convergence 0.", "quantifier": "every array of tiles, baselines, model visibilities and true gains, and every solver configuration", "why_tests_cant": "ranges over all arrays and all iteration counts", "anchors": ["PyFHD/calibration/vis_calibrate_subroutine.py:vis_calibrate_subroutine"]}
{"id": "C60", "title": "saving does not change the data being saved", "statement": "save leaves the dictionary or array passed to it as it was; only the file changes.", "quantifier": "every nested dictionary of arrays, numbers, booleans, strings and None", "why_tests_cant": "Round-trip tests compare the loaded file with data that were prepared for saving; whether the caller's arrays are altered depends on element types (object arrays holding None) that examples miss.", "anchors": ["PyFHD/io/pyfhd_io.py:format_array", "PyFHD/io/pyfhd_io.py:save_dataset"]}
{"id": "C61", "title": "every accepted option combination runs to completion", "statement": "When none of the processing stages fails, main completes for every combination of the options that choose which stages run, what is saved and what is exported.", "quantifier": "every combination of stage, save and export options and every stage behaviour", "why_tests_cant": "There are thousands of option combinations and each end-to-end run needs full data; variables assigned only in some branches show up only in particular combinations.", "anchors": ["PyFHD/pyfhd.py:main"]}
{"id": "C62", "title": "region_grow does not change the image it is given", "statement": "After a call to region_grow the caller's image holds the values it held before the call.", "quantifier": "every image, seed set and thresholds", "why_tests_cant": "A test compares the returned region; an in-place change of the argument only shows for images with NaNs and only to a caller that uses the image again.", "anchors": ["PyFHD/pyfhd_tools/pyfhd_utils.py:region_grow"]}
{"id": "C63", "title": "the HEALPix export writes one file per cube and polarisation", "statement": "For both settings of split_ps_export, healpix_snapshot_cube_generate completes whenever gridding, imaging and conversion do, and writes exactly one file per cube (even and odd, or the single cube) and polarisation, named after the observation, the cube and the polarisation.", "quantifier": "every number of polarisations and channels, both settings of split_ps_export, every behaviour of the stages", "why_tests_cant": "An end-to-end run of the export needs full data and a beam; a variable assigned in one branch only shows with one setting.", "anchors": ["PyFHD/healpix/export.py:healpix_snapshot_cube_generate"]}
{"id": "C64", "title": "initial gains from the autocorrelations are usable numbers", "statement": "vis_cal_auto_init returns a positive finite gain for every polarisation, channel and tile. When the autocorrelations and their models are positive, the gains of a polarisation are the square roots of data over model (1 for tiles without autocorrelation) times a common factor, chosen so that their average is the square root of the ratio of the mean amplitudes of data and model visibilities. An unusable autocorrelation sample only affects the gain it belongs to.", "quantifier": "every observation size, every data, every set of tiles with autocorrelations", "why_tests_cant": "NaN, zero and negative samples can sit anywhere in the arrays; a test has a few fixed data sets.", "anchors": ["PyFHD/calibration/calibration_utils.py:vis_cal_auto_init"]}
{"id": "C65", "title": "gains fitted to the autocorrelations keep phases and follow the autocorrelation amplitude", "statement": "vis_cal_auto_fit replaces the gain of every tile with autocorrelations by (slope x autocorrelation amplitude + offset) with the phase of the old gain, where the line is the least squares fit over the used channels whose neighbours are used and whose values are numbers; other tiles keep their gain; the reported scale is the average slope and the parameters are reported, for any number of polarisations.", "quantifier": "every gain array, autocorrelations, flags, number of tiles with autocorrelations", "why_tests_cant": "The reported scale depends on uninitialised memory when a tile has no autocorrelation, which no test can pin down.", "anchors": ["PyFHD/calibration/calibration_utils.py:vis_cal_auto_fit"]}
{"id": "C66", "title": "the residual histogram compares data and model visibility by visibility", "statement": "vis_baseline_hist returns, for each polarisation and each bin of baseline length, the mean and the spread of |data - model| divided by the mean of |model|, over the visibilities of that length whose model is not zero; bins without any hold 0. It succeeds for every data, flagged or not.", "quantifier": "every visibility array, baseline set, frequency set and limits", "why_tests_cant": "The failure needs a bin with both zero and nonzero model visibilities.", "anchors": ["PyFHD/calibration/calibration_utils.py:vis_baseline_hist"]}
{"id": "C67", "title": "calibration returns consistent visibilities, gains, residuals and statistics", "statement": "calibrate returns the visibilities obtained by applying exactly the gains it returns; those gains plus the residuals it returns are the gains the solver found; the reported means are those over the tiles and channels in use after its own flagging. If the solver finds the true gains, the calibrated visibilities are the model and the residuals vanish; fitting steps that reproduce their input change nothing at the used channels. Every combination of the bandpass, polynomial, auto ratio and auto fit options completes, for two or four polarisations.", "quantifier": "every data, model, flagging, option combination and behaviour of the individual steps", "why_tests_cant": "There are many option combinations and the data and the results of the iterative solver are unbounded.", "anchors": ["PyFHD/calibration/calibrate.py:calibrate"]}
{"id": "C68", "title": "fitting polynomials to the gains evaluates the fitted polynomials", "statement": "vis_cal_polyfit replaces the gain of every tile and channel by the fitted amplitude polynomial with the phase of the fitted phase polynomial, both evaluated at that channel; with the gain jump option separate amplitude polynomials apply below and above the jump, and the full band fit is used if the data has no jump. The chosen cable reflection method then multiplies the gains of the used tiles of the chosen cable length by one plus the fitted reflection, and leaves the other tiles alone.", "quantifier": "every gain array, flagging, degree, frequency set and outcome of the numerical fits", "why_tests_cant": "The fits are over arbitrary data; errors that scale with the channel number or the number of channels look plausible in any single comparison.", "anchors": ["PyFHD/calibration/calibration_utils.py:vis_cal_polyfit"]}
{"id": "C69", "title": "the Q-U mixing angle is model minus data, from unflagged samples only", "statement": "calibrate_qu_mixing returns the angle of the line of pseudo Q against pseudo U of the model minus that of the data, where both are summed over time with the weights of XX limited to 0..1 and only frequencies and baselines with a positive weight take part. Data equal to the model wherever the weight is positive give 0, flagged samples never matter, and a data Q turned by a factor gives minus the angle of that factor.", "quantifier": "every data, model, weights and observation size with four polarisations; every least squares routine", "why_tests_cant": "The result is one number from all data; a test cannot show that no flagged sample contributes for any flag pattern.", "anchors": ["PyFHD/calibration/calibrate.py:calibrate_qu_mixing", "PyFHD/pyfhd_tools/pyfhd_utils.py:reshape_and_average_in_time"]}
{"id": "C70", "title": "calibration solves for exactly the unflagged, in-range data and leaves everything else alone", "statement": "For every polarisation, vis_calibrate_subroutine returns for each usable frequency and tile the gain found for the weighted means (over time if cal_time_average is set) of the unflagged data and model of the baselines inside the calibration range. Samples with no positive weight or outside the range, and data of flagged tiles, never influence the result; one frequency never changes the gains of another; unusable frequencies and tiles keep their starting gain and flagged tiles become NaN; data that are the model times the starting gains return these gains; n_vis_cal counts the visibilities used.", "quantifier": "every number of polarisations, frequencies, tiles, times and baselines, every data, model, weights, flags, starting gains, baseline range and solver setting", "why_tests_cant": "The claim is about all flag patterns at once: a test shows that one flagged sample is ignored, not that none of them can ever matter.", "anchors": ["PyFHD/calibration/vis_calibrate_subroutine.py:vis_calibrate_subroutine"]}
{"id": "C71", "title": "reading a UVFITS header and its random-group parameters is faithful", "statement": "For every UVFITS file with the required header cards, extract_header returns the channel frequencies, axis lengths, pointing and telescope position the FITS standard assigns to the cards (telescope position from the named site when the file has none, the MWA's when the instrument is unknown), and raises KeyError exactly when one of the needed parameters UU, VV, WW, DATE and BASELINE (or both ANTENNA1 and ANTENNA2) is missing; create_params returns for each visibility the coordinates and the date of its group, dates split over several DATE parameters being added.", "quantifier": "every primary header, every list of parameter names in any order, every column of group data", "why_tests_cant": "Files differ in the order and number of their group parameters; a test reads one file.", "anchors": ["PyFHD/data_setup/uvfits.py:extract_header", "PyFHD/data_setup/uvfits.py:create_params"]}
{"id": "C72", "title": "the antenna layout holds the file's values, or the documented default", "statement": "For every antenna table of a UVFITS file, create_layout returns a layout whose entries are the header cards and columns of the table where they are given and the documented defaults where not; mount types, axis offsets and feed orientations are reduced to one number exactly when all antennas agree; the call never fails for a missing card or column, and the layout always has the leap seconds (-1 when they cannot be known).", "quantifier": "every antenna header and table, with any cards and columns missing", "why_tests_cant": "Each of about thirty cards and columns can be missing; a test covers a few files.", "anchors": ["PyFHD/data_setup/uvfits.py:create_layout", "PyFHD/data_setup/uvfits.py:_check_layout_valid"]}
{"id": "C73", "title": "the geometry of an observation follows from the configuration and the baselines", "statement": "For every UVFITS observation and configuration that create_obs accepts: the uv grid has the dimensions and pixel size asked for (the second dimension defaulting to the first, the pixel size to half a wavelength or to what gives the field of view asked for); the image pixels have on both axes the size that makes the image the Fourier dual of the uv grid; the maximum baseline is the longest baseline that falls on the grid and the minimum baseline the shortest nonzero one, not below the configured minimum; and every observation of at least two times with some data on the grid is accepted.", "quantifier": "every header, parameter table, antenna table, metafits file and configuration", "why_tests_cant": "The sizes depend on every baseline at every frequency and on seven options.", "anchors": ["PyFHD/data_setup/obs.py:create_obs", "PyFHD/data_setup/obs.py:project_slant_orthographic", "PyFHD/data_setup/uvfits.py:extract_header"]}
{"id": "C74", "title": "the metadata of an observation is the metafits file's, and times are cut as asked", "statement": "For every observation: tile names, heights and flags are those of the metafits rows, one per antenna in the order of the antennas; pointing, phase centre and time resolution are those of the file, and the image is centred on the phase centre; an observation with all tiles flagged is refused and others are not; without a metafits file the metadata comes from the UVFITS header; and a time cut removes that many seconds from the start or the end and no others.", "quantifier": "every metafits file, header, parameter table and configuration", "why_tests_cant": "Rows come in any order; flags, times to cut and missing files are unbounded in number.", "anchors": ["PyFHD/data_setup/obs.py:read_metafits", "PyFHD/data_setup/obs.py:create_obs", "PyFHD/data_setup/obs.py:project_slant_orthographic"]}
{"id": "C75", "title": "a dirty image is the Fourier transform of the uv plane it is given", "statement": "For every uv plane and every choice of options: the dirty image is the Fourier transform of the masked and filtered plane, taken about the middle of both, per steradian of pixel area if a pixel size is given and times the normalisation if one is given; it is linear in the plane; it is real when the plane is Hermitian, so that dropping the imaginary part loses nothing; padding the plane interpolates the image and does not change its values at the old pixels; a baseline threshold removes the entries on the named side of it and no others; and the plane of the caller is left as it was.", "quantifier": "every complex plane of any size, and every mask, filter, threshold, padding, beam, pixel size and normalisation", "why_tests_cant": "The transform mixes all entries of a plane of any size; a test compares a few stored images.", "anchors": ["PyFHD/gridding/gridding_utils.py:dirty_image_generate"]}
{"id": "C76", "title": "the quick-look images and the files and headers they are written to", "statement": "For every set of gridded uv planes, weights and model planes with their observation and beams: after quickview the dirty and model image of each polarisation on disk is the Fourier transform of the filtered plane in janskys per steradian of sky, corrected for the beam; a source of S janskys in the middle of the field has S times the beam per solid angle of a pixel there, whatever the weights and the filter, and multiplying data and weights alike changes nothing; the residual is dirty minus model; the four polarisations include the real and the imaginary part of the cross polarisation; the weights of a polarisation are in its weights file; padding refines the images; the header says where the pixels are; and the planes and the observation of the caller are left as they were.", "quantifier": "every number of polarisations, planes of any size, weights, filter, beams, horizon, padding and observation", "why_tests_cant": "Each image depends on all entries of planes of any size, the weights and the beam; the tests need stored images of full observations, and none has four polarisations or padding.", "anchors": ["PyFHD/io/pyfhd_quickview.py:quickview", "PyFHD/io/pyfhd_quickview.py:get_image_renormalization", "PyFHD/data_setup/obs.py:update_obs", "PyFHD/pyfhd_tools/pyfhd_utils.py:crosspol_split_real_imaginary"]}
{"id": "C77", "title": "beam images and cubes of power beams from Gaussian lobes", "statement": "For every set of Gaussian lobes fitted per polarisation and frequency bin, every observation and every image size: the image of the lobes is their sum at every pixel, also after moving it to another grid, and the parameters given are left as they were; the beam over a band is the sum over the channels in use divided by the sum of their norms, and the value in a direction does not depend on the size of the image; the power beam is the sum of the squares; beams are made for any number of baseline groups, for tabulated beams, and for one channel; the cube has the power beam of each channel asked for, in channel numbers or in hertz, for the polarisations asked for, and the mask is 1 exactly where all of them are above the threshold around the pointing; the Fourier transform of lobes is available.", "quantifier": "every list of lobes, psf, observation, polarisation, list of channels, threshold, region-growing result and image size", "why_tests_cant": "The image depends on all lobes, channels and bins at once; the tests compare one stored beam of one size, all of it in one group.", "anchors": ["PyFHD/beam_setup/beam_utils.py:gaussian_decomp", "PyFHD/beam_setup/beam_utils.py:beam_image", "PyFHD/healpix/healpix_utils.py:beam_image_cube"]}
{"id": "C78", "title": "rephasing moves the image of a uv plane to the original phase centre", "statement": "For every square uv plane and every observation: multiplying the plane by the factors made for it never fails and never changes the size of an entry; if the phase centre is the original one the plane is unchanged; otherwise the image of the product is that of the plane moved so that what was in its middle is at the pixel of the original phase centre.", "quantifier": "every plane size, every complex plane, every phase and original phase centre and every conversion of directions to pixels", "why_tests_cant": "A statement about a transform of every plane at every position; there is no test of this function, and one would compare arrays for one pointing.", "anchors": ["PyFHD/healpix/healpix_utils.py:phase_shift_uv_image", "PyFHD/healpix/healpix_utils.py:vis_model_freq_split"]}
{"id": "C79", "title": "the sizes of the export fit together and follow the options", "statement": "For every combination of the options --ps-kbinsize, --ps-fov, --ps-kspan, --ps-dimension, --ps-degpix, each set or not, and every observation: if sizes are found then the uv pixel size, field of view, number of pixels and degrees per pixel fit together and are those of the new observation, the disc of HEALPix pixels reaches the corners of the field of view, and the HEALPix resolution is the coarsest power of two with pixels no larger than the new ones; --ps-kbinsize overrides --ps-fov, which overrides the observation; --ps-kspan overrides --ps-dimension, which overrides --ps-degpix, which overrides the observation, and the number of pixels is the largest that fits; with none set the observation keeps its sizes; and sizes are found whenever at least one pixel fits.", "quantifier": "every value of the options, every observation and every table of frequency bins", "why_tests_cant": "2^5 combinations of options with real values; there is no test of the export.", "anchors": ["PyFHD/healpix/export.py:healpix_snapshot_cube_generate", "PyFHD/data_setup/obs.py:update_obs"]}
{"id": "C80", "title": "the documented defaults of the export sizes", "statement": "For every observation: if --ps-kspan, --ps-dimension and --ps-degpix are not given, the number of pixels is calculated from the field of view and the pixels of the observation; if --ps-fov is given and --ps-kbinsize is not, the field of view is the one given.", "quantifier": "every observation, every field of view and every value of the other options", "why_tests_cant": "Needs the behaviour for all values of the options that are given, with the parser's defaults for the others.", "anchors": ["PyFHD/pyfhd_tools/pyfhd_setup.py:pyfhd_parser", "PyFHD/healpix/export.py:healpix_snapshot_cube_generate"]}
{"id": "C81", "title": "a kernel made for a baseline is the beam at the place of its visibility", "statement": "For every beam image of even size and every set of visibilities that share a box of uv pixels, without clipping: each visibility gets a kernel of its own, which does not depend on the others; its value in a uv pixel is the sum of the values, in that pixel, of the transform of the beam with the phases of the visibility. With direction cosines linear in the pixels, as visibility_grid calls it, the transform is moved by exactly the distance, in uv pixels times the resolution, between the visibility (from its other end if v > 0) and the pixel the box refers to; w does not matter.", "quantifier": "every beam, kernel size, resolution, window inside the transform, list of visibilities, coordinates and frequencies", "why_tests_cant": "The kernel is a transform of the whole beam evaluated between grid points; the tests compare three stored boxes.", "anchors": ["PyFHD/gridding/gridding_utils.py:grid_beam_per_baseline", "PyFHD/gridding/visibility_grid.py:visibility_grid"]}
{"id": "C82", "title": "clipping the floor of the kernels made for baselines", "statement": "For every set of kernels in a box: after clipping each kernel has the sum it had and values up to the floor are 0; the kernel of a visibility does not depend on the others in the box; clipping gives numbers whenever the kernels are not zero.", "quantifier": "every set of kernels and every threshold", "why_tests_cant": "The floor depends on the largest value of all kernels; the tests compare three stored boxes.", "anchors": ["PyFHD/gridding/gridding_utils.py:grid_beam_per_baseline"]}
{"id": "C83", "title": "beam integrals of the kernels made for baselines", "statement": "For every set of kernels used for degridding: the integral of the beam of each channel grows by the sum of each kernel of the channel, and that of the squared beam by the sum of its squares.", "quantifier": "every set of kernels, channels and running sums", "why_tests_cant": "A sum over all kernels; no test sets the flag.", "anchors": ["PyFHD/gridding/gridding_utils.py:grid_beam_per_baseline"]}
{"id": "C84", "title": "the window of the transform is centred on the pixel the phases refer to", "statement": "For every even kernel size, every resolution and every even beam image that is large enough: the window visibility_grid cuts from the transform has kernel size times resolution values a side, and the middle of the transform is the first value of uv pixel kernel size / 2, which the phases of C81 refer to.", "quantifier": "every kernel size, resolution and image size", "why_tests_cant": "A statement about all resolutions; the tests are given the window.", "anchors": ["PyFHD/gridding/visibility_grid.py:visibility_grid"]}
{"id": "C85", "title": "a bandpass transferred from a calfits file is the one in the file", "statement": "For every calfits file that follows the standard and has the tiles, channels and polarisations of the observation: the transferred bandpass of a polarisation, tile and channel is the complex gain stored for them, polarisations being exchanged if the x axis points north or south and the matching time chosen if there are several; and the remainder of every gain of the calibration is that gain divided by the bandpass of its tile and channel.", "quantifier": "every calfits file, observation, initial gain and calibration", "why_tests_cant": "The test data contain no calfits file at all.", "anchors": ["PyFHD/calibration/calibration_utils.py:transfer_bandpass"]}
{"id": "C86", "title": "an unusable calfits file leaves the calibration as it is without one", "statement": "If the calfits file asked for does not exist, holds delays, has the axes of the standard in another order, has fewer polarisations or another number of tiles than the observation, channels whose width is neither a multiple nor a whole part of that of the observation, or channels of another width that start at another frequency, then the bandpass used is the one estimated from the gains, exactly as if no file had been asked for; a bandpass that is transferred is used in its place.", "quantifier": "every such file, observation, set of gains and estimate", "why_tests_cant": "The ways in which a file may be unsuitable are unlimited; no test has such a file.", "anchors": ["PyFHD/calibration/calibration_utils.py:transfer_bandpass", "PyFHD/calibration/calibration_utils.py:vis_cal_bandpass"]}
{"id": "C87", "title": "an IDL structure becomes the dictionary it means, at any depth", "statement": "For every IDL structure read by readsav whose tags hold numbers, strings, null pointers, arrays of numbers or of strings, pointers to arrays of one shape, pointers to arrays of pointers to arrays of one shape, and again such structures (directly or through a pointer): the conversion returns the dictionary with the same tags in lower case and the same values, in which nested structures are dictionaries again, strings are text and pointers to arrays of one shape are one array with an axis more.", "quantifier": "every such structure, of any depth and size", "why_tests_cant": "Structures nest without limit; the tests convert the structures of a few observations.", "anchors": ["PyFHD/io/pyfhd_io.py:recarray_to_dict"]}
{"id": "C88", "title": "the conversion of an IDL structure keeps all of its data", "statement": "For every structure readsav returns: no value of the structure is lost, changed or repeated by the conversion, and no record array is left in the result.", "quantifier": "every structure", "why_tests_cant": "What is lost depends on what comes first in an array; the tests' structures have no such arrays.", "anchors": ["PyFHD/io/pyfhd_io.py:recarray_to_dict"]}
{"id": "C89", "title": "a model read from files is the model in these files", "statement": "For every directory with one sav file per polarisation, all of one shape, whether the array is stored directly (with other than one entry) or through a pointer: the model of polarisation p is the array of the file named after it with the axes reversed, and the parameters are those of the parameter file; other files do not matter. If the parameter file or the file of any polarisation is missing, the program ends. A file with another number of visibilities, unless it is one, is refused. For every uvfits model with an accepted header: another number of channels than that of the observation ends the program; otherwise the visibility of polarisation p, channel f and record b is the one of the file, and the parameters are those of its records. Any other file type ends the program.", "quantifier": "every directory, every number of polarisations, channels and visibilities, every missing file", "why_tests_cant": "Which of the files is missing and how it is packed varies; the tests read one model.", "anchors": ["PyFHD/source_modeling/vis_model_transfer.py:vis_model_transfer", "PyFHD/source_modeling/vis_model_transfer.py:import_vis_model_from_sav", "PyFHD/source_modeling/vis_model_transfer.py:import_vis_model_from_uvfits"]}
{"id": "C90", "title": "a model that does not fit the observation is refused", "statement": "For every model file whose number of polarisations, channels or visibilities, or whose frequencies, differ from those of the observation (or of its other polarisations): the transfer refuses it.", "quantifier": "every model and observation", "why_tests_cant": "The tests transfer models made for the observation.", "anchors": ["PyFHD/source_modeling/vis_model_transfer.py:import_vis_model_from_sav", "PyFHD/source_modeling/vis_model_transfer.py:import_vis_model_from_uvfits"]}
{"id": "C91", "title": "the cross polarisation planes are the stated combination", "statement": "For every array of four or more gridded planes of one shape: the reformatting leaves all planes but the third and fourth as they are; the third becomes half the difference of the third and the conjugates of the fourth at the opposite {u,v}; the third and fourth are then each other's conjugates at opposite {u,v}, and their totals follow from those of the old ones. With fewer planes IndexError is raised. In the pipeline exactly observations of four polarisations are treated, for the image, the weights and the model alike.", "quantifier": "every array of planes, even or odd sizes, square or not", "why_tests_cant": "The mirror differs for even and odd sizes and on the first row and column; there is no test of the function.", "anchors": ["PyFHD/gridding/gridding_utils.py:crosspol_reformat", "PyFHD/gridding/gridding_utils.py:conjugate_mirror", "PyFHD/pyfhd.py:main"]}
{"id": "C92", "title": "the cross polarisation planes keep what XY and YX have measured", "statement": "For every array of four gridded planes: what the XY and YX planes agree on is kept by the reformatting, non-negative weights stay non-negative, and doing it again changes nothing.", "quantifier": "every array of planes", "why_tests_cant": "Agreement of XY and YX is a property of data; the tests have no four-polarisation data.", "anchors": ["PyFHD/gridding/gridding_utils.py:crosspol_reformat", "PyFHD/pyfhd.py:main"]}
{"id": "C93", "title": "what the calibration plots show for 128 to 255 tiles", "statement": "For every calibration of an array of 128 to 255 tiles with one or two polarisations, an unflagged channel and finite vertical ranges: six files are written, amplitude and phase of the solutions, of the residuals (per-channel solution less solution, phases unwrapped first) and of the per-channel solutions. In each, tile t < 128 is the panel in row t div 16 and column t mod 16 under its own name, with one line per polarisation over the unflagged channels in MHz; a polarisation is left out, and the axes switched off, exactly when the tile is flagged or all of its numbers are NaN. With more than two polarisations nothing is returned.", "quantifier": "every gain and residual array, flagging, obs id, numbers of tiles 128-255", "why_tests_cant": "Plots are files of pixels: no test looks at what they show.", "anchors": ["PyFHD/plotting/calibration.py:plot_cals", "PyFHD/calibration/calibrate.py:calibrate"]}
{"id": "C94", "title": "every tile of every array is plotted, on an axis set by the unflagged tiles", "statement": "For every calibration with any number of tiles: each tile is on one panel of one page, and the vertical range of the panels depends on the unflagged tiles only.", "quantifier": "every number of tiles, every gain array", "why_tests_cant": "The test data have 128 tiles.", "anchors": ["PyFHD/plotting/calibration.py:plot_cals"]}
{"id": "C95", "title": "the hyperresolved search finds the strongest mode, and an exact reflection exactly", "statement": "For every polarisation and tile, without autocorrelations: the mode returned is, of the 101 modes 0.05 apart within 2.5 of the nominal one, one with the largest Fourier amplitude of the gain less its mean over the unflagged channels; the amplitude is that one divided by the number of channels and the phase its angle. If all channels are used and the gain is a constant plus a reflection whose mode is one of those tested, a whole number and no multiple of the number of channels, its mode, amplitude and phase are returned exactly; and if the constant is one the gain multiplied by the fit is the gain before the smooth fit, at every channel.", "quantifier": "every number of channels from six on, gain, amplitude, phase, mode and background", "why_tests_cant": "That a search finds what is there is a statement about all reflections; the tests compare one stored result.", "anchors": ["PyFHD/calibration/calibration_utils.py:vis_cal_polyfit"]}
{"id": "C96", "title": "with autocorrelations the reflection in the phases is found exactly", "statement": "For every polarisation and tile, with autocorrelations and all channels used: if the phase of the gain less the average phase of the reference tiles is that of a reflection of the mode found, a whole or half number whose double is no multiple of the number of channels, then the amplitude and phase returned are those of the reflection, and the gain is turned by exactly this phase at every channel. The reference tiles are those used, with a known cable and a nominal mode further than 0.01 from the mode found.", "quantifier": "every number of channels, gain, autocorrelations, amplitude and phase", "why_tests_cant": "See C95.", "anchors": ["PyFHD/calibration/calibration_utils.py:vis_cal_polyfit"]}
{"id": "C97", "title": "the tiles a reflection is compared with have other cables", "statement": "For every polarisation and tile, with autocorrelations: the tiles with which the tile is compared do not include itself nor tiles with the same cable, and if there are no others the mode is left at its nominal value.", "quantifier": "every set of cables, gains and autocorrelations", "why_tests_cant": "The test data have several cable lengths and the stored result was made with the same code.", "anchors": ["PyFHD/calibration/calibration_utils.py:vis_cal_polyfit"]}
{"id": "C98", "title": "the list of HEALPix pixels belongs to the nearest field and band", "statement": "For every observation exported with restricted HEALPix pixels and no file named: the list used is that of a field to which the pointing is as near as to the other, up to one degree, and of a band whose frequency is nearest to that of the observation; more than a degree nearer to one field and off 166.5 MHz this determines it. The name of the list is left in the configuration, where later calls find it; a file that is named is used whatever the observation, and nothing else is read.", "quantifier": "every pointing on the sphere, frequency, content of the files, mask and number of sides", "why_tests_cant": "The comparison folds angles in degrees at 2 pi; that this never changes the choice is a statement about all pointings.", "anchors": ["PyFHD/healpix/healpix_utils.py:healpix_cnv_generate", "PyFHD/pyfhd_tools/pyfhd_utils.py:angle_difference"]}
{"id": "C99", "title": "the exported pixels are those of the list above the horizon, each with its own position", "statement": "For every list of two or more HEALPix pixels: the pixels of the conversion are, in the order of the list, those with a positive altitude at the site of the instrument; their number and the number of sides are recorded in the observation, with the number of pixels for which the mask is zero, and nothing else of it changes; and an image converted gets at each of them that is inside the image, off the grid lines, the bilinear interpolation at its own position. The number of sides is that of the file, else that of the caller, else the smallest power of two for which HEALPix pixels are not larger than the image's.", "quantifier": "every list, position, altitude, image, mask and pixel size", "why_tests_cant": "The tests use stored lists for one observation.", "anchors": ["PyFHD/healpix/healpix_utils.py:healpix_cnv_generate", "PyFHD/healpix/healpix_utils.py:healpix_cnv_apply"]}
{"id": "C100", "title": "pixels are chosen from the pointing when no list is asked for", "statement": "For every observation exported without restricting the HEALPix pixels: the pixels used are those within the radius around the pointing that are inside the image and its mask.", "quantifier": "every observation, radius and mask", "why_tests_cant": "No test runs this branch.", "anchors": ["PyFHD/healpix/healpix_utils.py:healpix_cnv_generate"]}
{"id": "C101", "title": "the projection absorbs the w term of a flat array, for a zenith north of the phase centre", "statement": "For every phase centre whose zenith lies, seen from it, to the north or exactly east or west: the two slant parameters stored in the astrometry are the direction cosines of the zenith over its height, so that for every baseline in the plane of the array and every source the phase, w term included, is u x + v y with (x, y) the position of the source in the slant orthographic projection of the FITS standard. Adding whole turns to the right ascension of the zenith changes nothing.", "quantifier": "every phase centre, zenith, baseline and source on the sphere", "why_tests_cant": "Tests compare one stored astrometry; that imaging needs no w term is a statement about all baselines and sources.", "anchors": ["PyFHD/data_setup/obs.py:project_slant_orthographic", "PyFHD/pyfhd_tools/pyfhd_utils.py:parallactic_angle"]}
{"id": "C102", "title": "the projection absorbs the w term wherever the zenith is", "statement": "As C101, for a zenith in any direction from the phase centre.", "quantifier": "every phase centre, zenith, baseline and source on the sphere", "why_tests_cant": "See C101.", "anchors": ["PyFHD/data_setup/obs.py:project_slant_orthographic", "PyFHD/pyfhd_tools/pyfhd_utils.py:parallactic_angle"]}
{"id": "C103", "title": "the written configuration reads back: options with hyphenated flags", "statement": "For every configuration whose entries are internal ones or options holding a value of the option's type (texts without quotes and line ends, null only where null is the default, flags spelt with hyphens, or the list of PSF files): the file written for the run is accepted when given back with -c, every option in it has its value again, and every option not in it has its default. The file has no internal entry and nothing but entries of the configuration.", "quantifier": "every configuration of any number of options and every value of them", "why_tests_cant": "A test writes and reads a few configurations; there are 141 options with unboundedly many values.", "anchors": ["PyFHD/pyfhd_tools/pyfhd_setup.py:write_collated_yaml_config", "PyFHD/pyfhd_tools/pyfhd_setup.py:pyfhd_parser"]}
{"id": "C104", "title": "the written configuration reads back: any run", "statement": "The file PyFHD writes for a run, given back with -c, is accepted and gives every option of that run the value it had.", "quantifier": "every run", "why_tests_cant": "See C103.", "anchors": ["PyFHD/pyfhd_tools/pyfhd_setup.py:write_collated_yaml_config", "PyFHD/pyfhd_tools/pyfhd_setup.py:pyfhd_parser"]}
{"id": "C105", "title": "a misspelt option in a configuration file is refused", "statement": "If a configuration file is accepted, each of its keys that has a value is a long flag of the program or the beginning of exactly one long flag. In particular a file with the keys of the shipped template that are no options is refused.", "quantifier": "every configuration file", "why_tests_cant": "Tests try one misspelling; the property is about every key that is not an option.", "anchors": ["PyFHD/pyfhd_tools/pyfhd_setup.py:pyfhd_parser", "PyFHD/templates/pyfhd.yaml"]}
{"id": "C106", "title": "each option can be given each of its values", "statement": "A switch can be set and left off from a configuration file, and tiles to flag can be given by name.", "quantifier": "every configuration file", "why_tests_cant": "That no file at all reaches a value cannot be seen from a test.", "anchors": ["PyFHD/pyfhd_tools/pyfhd_setup.py:pyfhd_parser", "PyFHD/flagging/flagging.py:vis_flag_tiles"]}
{"id": "C107", "title": "the results of an observation are its own, whatever other runs do", "statement": "For any number of runs, one after the other or at the same time, each stopped anywhere: a result file of an observation in an output directory (visibilities, metadata, calibration, uv planes, images, cubes, plots) is changed only by runs of that observation with that directory. A run that is the only one of its observation in its directory and is allowed its steps leaves every file its options ask for, complete and its own, whatever was there before; stopped earlier, it leaves of each file what was there, or the beginning or all of its own.", "quantifier": "every set of runs, every order of their steps, every point each is stopped at, every earlier content of the file system, every combination of the options that decide which files are made", "why_tests_cant": "A test makes one run in an empty directory; the property is about every interleaving and history of runs.", "anchors": ["PyFHD/pyfhd.py:main", "PyFHD/pyfhd.py:finish_pyfhd", "PyFHD/pyfhd_tools/pyfhd_setup.py:pyfhd_logger", "PyFHD/io/pyfhd_quickview.py:quickview", "PyFHD/healpix/export.py:healpix_snapshot_cube_generate", "PyFHD/plotting/calibration.py:plot_cals"]}
{"id": "C108", "title": "the other files of a run are kept too", "statement": "The layout, the checkpoints, the recorded configuration and the log of a run are not lost to runs of other observations in the same directory.", "quantifier": "every set of runs and every order of their steps", "why_tests_cant": "See C107.", "anchors": ["PyFHD/pyfhd.py:main", "PyFHD/pyfhd_tools/pyfhd_setup.py:pyfhd_logger", "PyFHD/data_setup/uvfits.py:create_layout"]}
{"id": "C109", "title": "a run touches only its output directory", "statement": "The output directory is named after the description with underscores for spaces, or after the second the run started in, so that two runs share it exactly if these agree. Whatever runs do, a file that changes is below one of their output directories or is the HDF5 copy of a .sav beam, a new directory is an output path or below an output directory, and no file or directory is removed. An output path that is missing is made if the directory above it is there; otherwise the run ends at once and leaves nothing.", "quantifier": "every set of runs, every order of their steps, every content of the file system", "why_tests_cant": "See C107.", "anchors": ["PyFHD/pyfhd.py:main", "PyFHD/pyfhd_tools/pyfhd_setup.py:pyfhd_logger", "PyFHD/data_setup/uvfits.py:create_layout", "PyFHD/beam_setup/beam.py:create_psf"]}
{"id": "C110", "title": "runs can be started at the same time", "statement": "No run is ended by the file system because other runs work at the same time, and each finishes when it is allowed its steps.", "quantifier": "every set of runs and every order of their steps", "why_tests_cant": "The order in which a test's processes take their steps is not the test's to choose.", "anchors": ["PyFHD/pyfhd.py:main", "PyFHD/pyfhd_tools/pyfhd_setup.py:pyfhd_logger", "PyFHD/data_setup/uvfits.py:create_layout"]}
{"id": "C111", "title": "colours on the logarithmic scale follow the values", "statement": "A picture drawn with log=True in the default profile, without missing values: negative pixels have colour 0, zeros colour 1, positive ones a colour that depends only on the value and the range and grows with the logarithm, from the first free colour (2 if there are zeros, otherwise 1) at the lower end of the range, or at the smallest positive value if the range starts at or below 0, to 255 at the upper end; values beyond an end have the colour of that end. The array of the caller is kept.", "quantifier": "every image of finite numbers and every range with a positive upper end above the lower end of the scale", "why_tests_cant": "Tests would compare a few pictures; the claim is about the order of colours for every pair of values in every image.", "anchors": ["PyFHD/plotting/image.py:quick_image", "PyFHD/plotting/image.py:log_color_calc", "PyFHD/plotting/image.py:color_range"]}
{"id": "C112", "title": "the other scales, missing values and the colour bar are right", "statement": "The colour bar shows at each colour the value drawn in it; on the linear scale colours grow in proportion to the values; the symmetric scale tells values of opposite sign apart, the absolute one covers the absolute values; missing values are drawn in the missing colour and leave the other pixels and the caller's array alone.", "quantifier": "every image, range and profile", "why_tests_cant": "See C111.", "anchors": ["PyFHD/plotting/image.py:quick_image", "PyFHD/plotting/image.py:log_color_calc", "PyFHD/plotting/image.py:color_range"]}
{"id": "C113", "title": "a picture is saved under the name asked for", "statement": "A picture saved by quick_image is in the file named, with the ending of the format asked for added once if it is not there already.", "quantifier": "every name and combination of formats", "why_tests_cant": "Names are unbounded texts.", "anchors": ["PyFHD/plotting/image.py:quick_image"]}
{"id": "C114", "title": "the beam used is the beam of the file named, however it is stored", "statement": "A run with a beam from an IDL sav file uses, for each polarization and frequency, the beam of that file, and all its other fields; it writes beside it an HDF5 copy and changes no other file; a later run from the copy, read at once or opened lazily, uses the same beam. A name that is not one of a beam file is refused. A beam given as a single image value turns beam_per_baseline off.", "quantifier": "every beam file, file name and state of the disk", "why_tests_cant": "Beam files of several GB are in no test; the claim is about every entry of every beam and about two runs in a row.", "anchors": ["PyFHD/beam_setup/beam.py:create_psf", "PyFHD/pyfhd.py:main", "PyFHD/io/pyfhd_io.py:save", "PyFHD/io/pyfhd_io.py:load"]}
{"id": "C115", "title": "a calibration by pointings is used for the pointing of the observation", "statement": "From a calibration file with one entry per pointing the observation gets the entry of its own pointing, told by its delays: the first entry is the pointing during which the file starts, by the time of day at which the pointings start on that date. Observations at a pointing before that of the file, with unknown delays, or outside the five pointings on either side of the zenith get none.", "quantifier": "every list of delays and every two dates", "why_tests_cant": "Dates and delays are unbounded; tests know a few nights.", "anchors": ["PyFHD/calibration/calibration_utils.py:transfer_bandpass"]}
{"id": "C116", "title": "a calibration with other channels is brought to the channels of the observation", "statement": "A calibration file whose channels are wider, or narrower, than those of the observation by a whole factor is interpolated, or averaged, to them.", "quantifier": "every file and observation", "why_tests_cant": "See C115.", "anchors": ["PyFHD/calibration/calibration_utils.py:transfer_bandpass"]}
{"id": "C117", "title": "a model written for FHD is the model that was written", "statement": "For every model array and directory: after convert_vis_model_arr_to_sav has returned, reading the directory with import_vis_model_from_sav gives, for every polarisation asked for, the visibility that was written at every channel and record; if the sav files cannot be made the call fails; and the rest of the run is not affected.", "quantifier": "every model array, number of polarisations, directory name, observation identifier, state of the file system, with and without IDL, every rounding to single precision", "why_tests_cant": "The tests do not have IDL and do not call the function; the names of the directories and the values of the visibilities are unbounded.", "anchors": ["PyFHD/source_modeling/vis_model_transfer.py:convert_vis_model_arr_to_sav", "PyFHD/pyfhd_tools/pyfhd_utils.py:run_command", "PyFHD/templates/convert_model_arr_to_sav.pro:convert_model_arr_to_sav", "PyFHD/source_modeling/vis_model_transfer.py:import_vis_model_from_sav"]}
{"id": "C118", "title": "a run reports the version of the code that runs", "statement": "The commit written to the log and shown by --version is that of the repository PyFHD was installed from, wherever the run is started and whether or not git is there; if it is not known, a message says so; the run never fails for it.", "quantifier": "every repository, working directory and content of the recorded file", "why_tests_cant": "Tests run in one checkout with git; the working directory and the recorded texts are unbounded.", "anchors": ["setup.py:GitInfo", "PyFHD/pyfhd_tools/git_helper.py:retrieve_gitdict", "PyFHD/pyfhd_tools/pyfhd_setup.py:pyfhd_parser", "PyFHD/pyfhd_tools/pyfhd_setup.py:pyfhd_logger"]}
