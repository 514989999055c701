(** The options defined by pyfhd_parser, PyFHD/pyfhd_tools/pyfhd_setup.py:15-1010: name in the configuration, flags, kind,
    default, choices; the number is the line in that file. Written by tools/options.py. Left out: --version and the
    positional obs_id. *)
From Coq Require Import String.
From Verif Require Import Base OptionsBase.
Import ListNotations.
Open Scope string_scope.
Open Scope list_scope.
(** pyfhd_setup.py:33-1008 *)
Definition options : list option_def := [
  opt "config" ["-c"; "--config"] (Store TText) (VStr "./pyfhd.yaml") [] (* 33 *);
  opt "input_path" ["-i"; "--input-path"] (Store TPath) (VPath "input") [] (* 117 *);
  opt "recalculate_all" ["-r"; "--recalculate-all"] (Switch) (VBool false) [] (* 124 *);
  opt "silent" ["-s"; "--silent"] (Switch) (VBool false) [] (* 130 *);
  opt "log_file" ["-l"; "--log-file"] (Switch) (VBool false) [] (* 137 *);
  opt "instrument" ["--instrument"] (Store TText) (VStr "mwa") [(VStr "mwa")] (* 143 *);
  opt "dimension" ["--dimension"] (Store TInt) (VInt (2048)) [] (* 150 *);
  opt "elements" ["--elements"] (Store TInt) (VInt (2048)) [] (* 156 *);
  opt "kbinsize" ["--kbinsize"] (Store TFloat) (VFloat "0.5") [] (* 162 *);
  opt "FoV" ["--FoV"; "--fov"] (Store TFloat) VNone [] (* 168 *);
  opt "deproject_w_term" ["--deproject_w_term"] (Store TFloat) VNone [] (* 175 *);
  opt "conserve_memory" ["--conserve-memory"] (Switch) (VBool false) [] (* 181 *);
  opt "memory_threshold" ["--memory-threshold"] (Store TInt) (VFloat "100000000.0") [] (* 187 *);
  opt "min_baseline" ["--min-baseline"] (Store TFloat) (VFloat "1.0") [] (* 193 *);
  opt "n_pol" ["--n-pol"] (Store TInt) (VInt (2)) [(VInt (0)); (VInt (2)); (VInt (4))] (* 199 *);
  opt "save_checkpoints" ["--save-checkpoints"] (Switch) (VBool false) [] (* 208 *);
  opt "obs_checkpoint" ["--obs-checkpoint"] (Store TPath) VNone [] (* 214 *);
  opt "calibrate_checkpoint" ["--calibrate-checkpoint"] (Store TPath) VNone [] (* 220 *);
  opt "gridding_checkpoint" ["--gridding-checkpoint"] (Store TPath) VNone [] (* 226 *);
  opt "override_target_phasera" ["--override-target-phasera"] (Store TFloat) VNone [] (* 234 *);
  opt "override_target_phasedec" ["--override-target-phasedec"] (Store TFloat) VNone [] (* 240 *);
  opt "calibrate_visibilities" ["-cv"; "--calibrate-visibilities"] (Switch) (VBool false) [] (* 248 *);
  opt "diffuse_calibrate" ["--diffuse-calibrate"] (Store TPath) VNone [] (* 255 *);
  opt "transfer_calibration" ["--transfer-calibration"] (Store TPath) VNone [] (* 260 *);
  opt "calibration_catalog_file_path" ["--calibration_catalog-file-path"] (Store TPath) VNone [] (* 265 *);
  opt "return_cal_visibilities" ["--return-cal-visibilities"] (Switch) (VBool false) [] (* 271 *);
  opt "cal_stop" ["--cal-stop"] (Switch) (VBool false) [] (* 277 *);
  opt "transfer_model_uv" ["--transfer-model-uv"] (Store TPath) VNone [] (* 283 *);
  opt "cal_convergence_threshold" ["--cal-convergence-threshold"] (Store TFloat) (VFloat "1e-07") [] (* 289 *);
  opt "cal_adaptive_calibration_gain" ["--cal-adaptive-calibration-gain"] (Switch) (VBool false) [] (* 295 *);
  opt "cal_base_gain" ["--cal-base-gain"] (Store TFloat) VNone [] (* 301 *);
  opt "min_cal_baseline" ["--min-cal-baseline"] (Store TFloat) (VFloat "50.0") [] (* 307 *);
  opt "max_cal_baseline" ["--max-cal-baseline"] (Store TFloat) VNone [] (* 313 *);
  opt "allow_sidelobe_cal_sources" ["--allow-sidelobe-cal-sources"] (Switch) (VBool false) [] (* 319 *);
  opt "cable_bandpass_fit" ["--cable-bandpass-fit"] (Switch) (VBool false) [] (* 325 *);
  opt "cal_bp_transfer" ["--cal-bp-transfer"] (Store TPath) VNone [] (* 331 *);
  opt "calibration_polyfit" ["--calibration-polyfit"] (Switch) (VBool false) [] (* 337 *);
  opt "cal_amp_degree_fit" ["--cal-amp-degree-fit"] (Store TInt) (VInt (2)) [] (* 343 *);
  opt "cal_phase_degree_fit" ["--cal-phase-degree-fit"] (Store TInt) (VInt (1)) [] (* 349 *);
  opt "cal_reflection_hyperresolve" ["--cal-reflection-hyperresolve"] (Switch) (VBool false) [] (* 355 *);
  opt "cal_reflection_mode_theory" ["--cal-reflection-mode-theory"] (Store TFloat) (VInt (150)) [] (* 361 *);
  opt "cal_reflection_mode_delay" ["--cal-reflection-mode-delay"] (Switch) (VBool false) [] (* 367 *);
  opt "cal_reflection_mode_file" ["--cal-reflection-mode-file"] (Switch) (VBool false) [] (* 373 *);
  opt "calibration_auto_fit" ["--calibration-auto-fit"] (Switch) (VBool false) [] (* 379 *);
  opt "calibration_auto_initialize" ["--calibration-auto-initialize"] (Switch) (VBool false) [] (* 385 *);
  opt "cal_gain_init" ["--cal-gain-init"] (Store TInt) (VInt (1)) [] (* 391 *);
  opt "vis_baseline_hist" ["--vis-baseline-hist"] (Switch) (VBool false) [] (* 397 *);
  opt "bandpass_calibrate" ["--bandpass-calibrate"] (Switch) (VBool false) [] (* 403 *);
  opt "cal_time_average" ["--cal-time-average"] (Switch) (VBool false) [] (* 409 *);
  opt "auto_ratio_calibration" ["--auto-ratio-calibration"] (Switch) (VBool false) [] (* 415 *);
  opt "digital_gain_jump_polyfit" ["--digital-gain-jump-polyfit"] (Switch) (VBool false) [] (* 421 *);
  opt "calibration_flag_iterate" ["--calibration-flag-iterate"] (Store TInt) (VInt (0)) [] (* 427 *);
  opt "cal_phase_fit_iter" ["--cal-phase-fit-iter"] (Store TInt) (VInt (4)) [] (* 433 *);
  opt "max_cal_iter" ["--max-cal-iter"] (Store TInt) (VInt (100)) [] (* 439 *);
  opt "flag_model" ["-fm"; "--flag-model"] (Switch) (VBool false) [] (* 447 *);
  opt "flag_visibilities" ["-fv"; "--flag-visibilities"] (Switch) (VBool false) [] (* 454 *);
  opt "flag_calibration" ["-fc"; "--flag-calibration"] (Switch) (VBool false) [] (* 461 *);
  opt "flag_calibration_frequencies" ["-fcf"; "--flag-calibration-frequencies"] (Switch) (VBool false) [] (* 468 *);
  opt "flag_basic" ["-fb"; "--flag-basic"] (Switch) (VBool false) [] (* 475 *);
  opt "flag_tiles" ["-ft"; "--flag-tiles"] (Append TList) (VList []) [] (* 482 *);
  opt "flag_frequencies" ["-ff"; "--flag-frequencies"] (Switch) (VBool false) [] (* 490 *);
  opt "flag_freq_start" ["--flag-freq-start"] (Store TFloat) VNone [] (* 497 *);
  opt "flag_freq_end" ["--flag-freq-end"] (Store TFloat) VNone [] (* 503 *);
  opt "transfer_weights" ["--transfer-weights"] (Store TPath) VNone [] (* 509 *);
  opt "time_cut" ["--time-cut"] (Store TList) VNone [] (* 515 *);
  opt "beam_file_path" ["-b"; "--beam-file-path"] (Store TPath) VNone [] (* 523 *);
  opt "lazy_load_beam" ["-ll"; "--lazy-load-beam"] (Switch) (VBool false) [] (* 529 *);
  opt "recalculate_beam" ["--recalculate-beam"] (Switch) (VBool false) [] (* 536 *);
  opt "beam_nfreq_avg" ["--beam-nfreq-avg"] (Store TInt) (VInt (16)) [] (* 542 *);
  opt "psf_dim" ["--psf-dim"] (Store TInt) (VInt (54)) [] (* 548 *);
  opt "psf_resolution" ["--psf-resolution"] (Store TInt) (VInt (100)) [] (* 554 *);
  opt "beam_mask_threshold" ["--beam-mask-threshold"] (Store TInt) (VInt (100)) [] (* 560 *);
  opt "beam_model_version" ["--beam-model-version"] (Store TInt) (VInt (2)) [] (* 566 *);
  opt "beam_clip_floor" ["--beam-clip-floor"] (Switch) (VBool false) [] (* 572 *);
  opt "interpolate_kernel" ["--interpolate-kernel"] (Switch) (VBool false) [] (* 578 *);
  opt "beam_per_baseline" ["--beam-per-baseline"] (Switch) (VBool false) [] (* 584 *);
  opt "dipole_mutual_coupling_factor" ["--dipole-mutual-coupling-factor"] (Switch) (VBool false) [] (* 590 *);
  opt "beam_offset_time" ["--beam-offset-time"] (Store TFloat) (VInt (56)) [] (* 596 *);
  opt "recalculate_grid" ["-g"; "--recalculate-grid"] (Switch) (VBool false) [] (* 604 *);
  opt "image_filter" ["--image-filter"] (Store TText) (VStr "filter_uv_uniform") [(VStr "filter_uv_uniform"); (VStr "filter_uv_hanning"); (VStr "filter_uv_natural"); (VStr "filter_uv_radial"); (VStr "filter_uv_tapered_uniform"); (VStr "filter_uv_optimal")] (* 611 *);
  opt "mask_mirror_indices" ["--mask-mirror-indices"] (Switch) (VBool false) [] (* 625 *);
  opt "grid_weights" ["--grid-weights"] (Switch) (VBool false) [] (* 631 *);
  opt "grid_variance" ["--grid-variance"] (Switch) (VBool false) [] (* 637 *);
  opt "grid_uniform" ["--grid-uniform"] (Switch) (VBool false) [] (* 643 *);
  opt "grid_spectral" ["--grid-spectral"] (Switch) (VBool false) [] (* 649 *);
  opt "grid_psf_file" ["--grid_psf_file"] (Many) (VList []) [] (* 655 *);
  opt "deconvolve" ["-d"; "--deconvolve"] (Switch) (VBool false) [] (* 663 *);
  opt "max_deconvolution_components" ["--max-deconvolution-components"] (Store TInt) (VInt (20000)) [] (* 670 *);
  opt "dft_threshold" ["--dft-threshold"] (Switch) (VBool false) [] (* 676 *);
  opt "return_decon_visibilities" ["--return-decon-visibilities"] (Switch) (VBool false) [] (* 682 *);
  opt "deconvolution_filter" ["--deconvolution-filter"] (Store TText) (VStr "filter_uv_uniform") [(VStr "filter_uv_uniform"); (VStr "filter_uv_hanning"); (VStr "filter_uv_natural"); (VStr "filter_uv_radial"); (VStr "filter_uv_tapered_uniform"); (VStr "filter_uv_optimal")] (* 688 *);
  opt "smooth_width" ["--smooth-width"] (Store TInt) (VInt (32)) [] (* 702 *);
  opt "filter_background" ["--filter-background"] (Switch) (VBool false) [] (* 708 *);
  opt "output_path" ["-o"; "--output-path"] (Store TPath) (VPath "output") [] (* 716 *);
  opt "description" ["--description"] (Store TText) VNone [] (* 723 *);
  opt "export_images" ["--export-images"] (Switch) (VBool true) [] (* 729 *);
  opt "cleanup" ["--cleanup"] (Switch) (VBool false) [] (* 735 *);
  opt "snapshot_healpix_export" ["--snapshot-healpix-export"] (Switch) (VBool false) [] (* 741 *);
  opt "pad_uv_image" ["--pad-uv-image"] (Store TFloat) (VFloat "1.0") [] (* 747 *);
  opt "ring_radius_multi" ["--ring-radius-multi"] (Store TFloat) (VInt (10)) [] (* 753 *);
  opt "save_obs" ["--save-obs"] (Switch) (VBool false) [] (* 759 *);
  opt "save_params" ["--save-params"] (Switch) (VBool false) [] (* 765 *);
  opt "save_cal" ["--save-cal"] (Switch) (VBool false) [] (* 771 *);
  opt "save_visibilities" ["--save-visibilities"] (Switch) (VBool false) [] (* 777 *);
  opt "save_weights" ["--save-weights"] (Switch) (VBool false) [] (* 783 *);
  opt "save_healpix_fits" ["--save-healpix-fits"] (Switch) (VBool false) [] (* 789 *);
  opt "calibration_plots" ["--calibration-plots"] (Switch) (VBool false) [] (* 797 *);
  opt "model_file_type" ["-m"; "--model-file-type"] (Store TText) (VStr "sav") [(VStr "sav"); (VStr "uvfits")] (* 805 *);
  opt "model_file_path" ["--model-file-path"] (Store TPath) (VPath "input") [] (* 812 *);
  opt "diffuse_model" ["--diffuse-model"] (Store TPath) VNone [] (* 818 *);
  opt "model_catalog_file_path" ["--model-catalog-file-path"] (Store TPath) VNone [] (* 823 *);
  opt "allow_sidelobe_model_sources" ["--allow-sidelobe-model-sources"] (Switch) (VBool false) [] (* 829 *);
  opt "run_simulation" ["-sim"; "--run-simulation"] (Switch) (VBool false) [] (* 837 *);
  opt "in_situ_sim_input" ["--in-situ-sim-input"] (Store TPath) VNone [] (* 844 *);
  opt "eor_vis_filepath" ["--eor-vis-filepath"] (Store TPath) VNone [] (* 850 *);
  opt "enhance_eor" ["--enhance-eor"] (Store TFloat) (VFloat "1.0") [] (* 856 *);
  opt "sim_noise" ["--sim-noise"] (Store TPath) VNone [] (* 862 *);
  opt "tile_flag_list" ["--tile-flag-list"] (Store TList) VNone [] (* 868 *);
  opt "remove_sim_flags" ["--remove-sim-flags"] (Switch) (VBool false) [] (* 873 *);
  opt "extra_vis_filepath" ["--extra-vis-filepath"] (Store TPath) VNone [] (* 879 *);
  opt "ps_kbinsize" ["--ps-kbinsize"] (Store TFloat) (VFloat "0.5") [] (* 887 *);
  opt "ps_kspan" ["--ps-kspan"] (Store TInt) (VInt (0)) [] (* 893 *);
  opt "ps_beam_threshold" ["--ps-beam-threshold"] (Store TFloat) (VInt (0)) [] (* 899 *);
  opt "ps_fov" ["--ps-fov"] (Store TFloat) VNone [] (* 905 *);
  opt "ps_dimension" ["--ps-dimension"] (Store TInt) VNone [] (* 911 *);
  opt "ps_degpix" ["--ps-degpix"] (Store TFloat) VNone [] (* 917 *);
  opt "ps_nfreq_avg" ["--ps-nfreq-avg"] (Store TFloat) VNone [] (* 923 *);
  opt "ps_tile_flag_list" ["--ps-tile-flag-list"] (Append TList) (VList []) [] (* 929 *);
  opt "n_avg" ["--n-avg"] (Store TInt) (VInt (2)) [] (* 936 *);
  opt "rephase_weights" ["--rephase-weights"] (Switch) (VBool false) [] (* 942 *);
  opt "restrict_healpix_inds" ["--restrict-healpix-inds"] (Switch) (VBool false) [] (* 948 *);
  opt "healpix_inds" ["--healpix-inds"] (Store TPath) VNone [] (* 954 *);
  opt "split_ps_export" ["--split-ps-export"] (Switch) (VBool false) [] (* 960 *);
  opt "IDL_calibrate" ["--IDL_calibrate"] (Switch) (VBool false) [] (* 968 *);
  opt "grid_IDL_outputs" ["--grid_IDL_outputs"] (Switch) (VBool false) [] (* 974 *);
  opt "IDL_healpix_gridded_outputs" ["--IDL_healpix_gridded_outputs"] (Switch) (VBool false) [] (* 980 *);
  opt "IDL_output_dir" ["--IDL_output_dir"] (Store TText) VNone [] (* 986 *);
  opt "IDL_dry_run" ["--IDL_dry_run"] (Switch) (VBool false) [] (* 991 *);
  opt "IDL_variables_file" ["--IDL_variables_file"] (Store TText) VNone [] (* 997 *);
  opt "grid_psf_file_sav" ["--grid_psf_file_sav"] (Store TText) (VBool false) [] (* 1007 *);
  opt "grid_psf_file_npz" ["--grid_psf_file_npz"] (Store TText) (VBool false) [] (* 1008 *)].
