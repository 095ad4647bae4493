# Formal model of LEDSmokeAnalysis (LEDSA) in Rocq / Coq 8.16.1

The sources under `/repo` were read as text only; nothing was built or executed.
`properties.jsonl` lists the properties in English, `MANIFEST.json` the theorems that settle
each of them, `seeded/LOG.jsonl` the wrong programs the theorems were tested against.

## Layout

Every area of the code has several files in `rocq/theories/`:

* `X_Model.v` – executable Gallina definitions, function by function; each definition (or the
  block it opens) carries a comment citing file and lines and says where it simplifies.
* `X_Spec.v` – small specification vocabulary, independent of the model's helpers (small
  specifications stand at the head of the `X_Props.v` file that uses them).
* `X_Proofs.v`, `X_Facts.v` – lemmas.
* `X_Props.v` – the property theorems `Cnn_…`, followed by `Print Assumptions` and by concrete
  `Example`s that meet their hypotheses.  A theorem `Cnn_…_refuted : exists …` shows with a
  witness that something a user would expect is false of the code.

Exceptions are values (`res A := Ok a | Err e`, `Base.v`).  Loops are structural recursions whose
bound is part of the code (a `for` range, a shrinking dictionary); where a fuel argument is
needed a theorem shows it is never exhausted.

## Trusted base

* the Coq 8.16.1 kernel (and `coqchk`);
* what `Print Assumptions` lists beneath each theorem – see the table at the end: theorems over
  integers, rationals, lists and strings are closed under the global context, theorems over `R`
  use axioms of the standard library only;
* the faithfulness of the definitions in `*_Model.v` to the cited lines (reviewable line by line).
  The models of Python's own library were compared with Python 3.11 on random inputs:
  `configparser` (`Ini_Model.v`, `Percent_Model.v`), `argparse` with the options of `Arg_Model.v`
  (5485 command lines), `strptime` and `datetime` (`Calendar_Model.v`, `Capture_Model.v`), `int`,
  `float`, `strip`, `split`, `zfill`, `range`, `os.path.join` and the format `10.4e` (`Str.v`,
  `Substr.v`, `Format_Model.v`, `Images_Model.v`).  One difference was found and repaired (`int` does
  not skip the control characters 28-31).  numpy and pandas were not at hand; nothing of `/repo` was
  run;
* the contracts of external calls, which are *arguments* of the model, constrained by hypotheses in
  the theorems that need them; beside each such theorem an instance shows that the contract can be
  met:
  * OpenCV `minMaxLoc`: returns a position of the maximum (any of them);
  * SciPy `nnls`: returns a non-negative minimiser of the residual norm (C126, C129, C131: a
    non-negative vector whose sum of squares is within a tolerance of the smallest);
  * SciPy `minimize`: stays inside the bounds; where needed: is not worse than the start, or is an
    exact minimiser (C128, C129, C131: comes within a tolerance of the infimum);
  * SciPy `curve_fit` (plane through the LEDs): an arbitrary plane not perpendicular to the code's
    parametrisation;
  * `os.listdir` and Python sets: arbitrary order; `multiprocessing.Pool.map`: arbitrary schedule;
  * EXIF and raw decoding: arbitrary functions from file content to values.

No axiom, parameter, functor or module type of our own is used, and no kernel check is switched off.

## Simplifications that matter

* Floating point rounding is not modelled: numbers are `Z`, `Q` or `R`.  The exceptions are the
  layer borders (Rounding_Model, C123), the distances through the layers (Machine_Model, C124) and
  the whole analysis with either solver (MachineEnd_Model, MachineSolver_Model, MachineNonLinear_Model,
  C125, C126, C128, from the pixels on C129 and C131) including the mean over the reference images
  (Mean_Model, C130),
  with a bound on the relative error of each operation (text formatting with `%.4e` and `int16`/`uint8` storage *are* modelled, because they are visible).
* NaN is `None`; NaN and infinity are told apart only where the code does.
* Dates are day numbers and seconds of day in most files; Calendar_Model reads them from their texts
  (`strptime` and `datetime` of the Python library for ASCII texts) and C107 connects the two.
* File systems are finite maps from names to contents; a crash is a prefix of the list of atomic
  effects of a program.
* Not modelled at all: matplotlib output, progress bars, logging format, EXIF byte parsing, rawpy
  demosaicing, the HDF5 encoding, the download of the demo images, the numerical algorithms inside
  SciPy.

## Which code is modelled

* `ledsa/postprocessing/helper_functions.py`: `get_widman_extco` (1) – Widman_Model.
* `ledsa/postprocessing/simulation.py`: `__init__` (13) – Avg_Model, Read_Model, Sim_Model; `_apply_moving_average` (92) – Sim_Model; `get_closest_time` (120) – Sim_Model; `set_timeshift` (131) – Read_Model, Sim_Model; `_get_ledparams_df_from_path` (142) – Params_Model, Sim_Model; `_get_extco_df_from_path` (162) – OldFiles_Model, Read_Model, Sim_Model; `read_led_params` (191) – Params_Model; `read_all` (197) – Params_Model, Sim_Model; `remove_duplicate_heights` (202) – Params_Model; `get_extco_at_time` (208) – Read_Model; `get_extco_at_led_array` (255) – Sim_Model; `get_extco_at_layer` (297) – Sim_Model; `get_extco_at_height` (323) – Sim_Model; `get_ledparams_at_led_array` (348) – Params_Model, Sim_Model; `get_ledparams_at_led_id` (397) – Sim_Model; `get_image_name_from_time` (439) – Read_Model; `get_pixel_cordinates_of_LED` (451) – Sim_Model; `get_pixel_values_of_led` (465) – Sim_Model.
* `ledsa/data_extraction/model.py`: `target_function` (7) – Fit_Model; `led_model` (60) – Fit_Model.
* `ledsa/data_extraction/data_integrity.py`: `check_intensity_normalization` (6) – Analysis_Model; `check_led_positions` (44) – empty in the code; `check_led_saturations` (47) – empty in the code.
* `ledsa/data_extraction/step_1_functions.py`: `find_search_areas` (9) – Step1_Model; `add_search_areas_to_plot` (46) – not modelled (plot).
* `ledsa/data_extraction/DataExtractor.py`: `__init__` (38) – Extractor_Model; Pipeline_Model (loading of the search areas and arrays); `load_search_areas` (70) – Pipeline_Model; `write_search_areas` (77) – Pipeline_Model; `find_search_areas` (91) – Pipeline_Model; `plot_search_areas` (113) – Pipeline_Model; `match_leds_to_led_arrays` (152) – Edges_Model, Pipeline_Model; `load_led_array_indices` (179) – Dir_Model, Edges_Model, Step2_Model; `plot_led_arrays` (195) – not modelled (plot); `process_image_data` (220) – Edges_Model, Main_Model, Restart_Model, Todo_Model, Warn_Model; `process_img_file` (245) – Restart_Model, Todo_Model; `setup_step3` (259) – Restart_Model; `setup_restart` (266) – Restart_Model.
* `ledsa/data_extraction/step_2_functions.py`: `match_leds_to_led_arrays` (8) – Edges_Model, Pipeline_Model, Step2_Model; `_find_next_led` (110) – Step2_Model; `_find_neighbour_leds` (148) – Step2_Model; `_find_closest_node` (181) – Step2_Model; `_get_indices_of_outer_leds` (206) – Edges_Model; `_get_indices_of_ignored_leds` (235) – Config_Model; `_remove_ignored_leds` (259) – Step2_Model; `generate_led_array_indices_files` (289) – Pipeline_Model, Step2_Model; `reorder_led_indices` (316) – Step2_Model; `reorder_search_areas` (350) – Step2_Model; `flatten_list` (361) – Step2_Model; `merge_indices_of_led_arrays` (384) – Edges_Model, Step2_Model.
* `ledsa/data_extraction/step_3_functions.py`: `generate_analysis_data` (17) – Step3_Model; `create_fit_result_file` (61) – Format_Model, Restart_Model; `create_imgs_to_process_file` (80) – Restart_Model, Todo_Model; `find_and_save_not_analysed_imgs` (93) – Dir_Model, Restart_Model; `_generate_led_analysis_data` (110) – Fit_Model, Step2_Model, Step3_Model, Warn_Model; `_save_results_in_file` (165) – Dir_Model, Format_Model, Restart_Model; `_find_analysed_img_ids` (191) – Restart_Model; `_save_list_of_remaining_imgs_needed_to_be_processed` (209) – Restart_Model; `_fit_model_to_led` (222) – Fit_Model; `_log_warnings` (247) – Warn_Model (text of the entry not modelled); `_create_header` (283) – Format_Model, Restart_Model.
* `ledsa/data_extraction/LEDAnalysisData.py`: `__init__` (26) – Format_Model, Step3_Model; `__str__` (48) – Format_Model, Step3_Model; `get_main_data_string` (61) – Format_Model; `get_fit_data_string` (72) – Format_Model.
* `ledsa/data_extraction/init_functions.py`: `create_needed_directories` (9) – Extractor_Model; `request_config_parameters` (29) – Config_Model, Ini_Model; `generate_image_infos_csv` (72) – Images_Model; `_calc_experiment_and_real_time` (101) – Calendar_Model, Images_Model; `_get_datetime_from_str` (130) – Calendar_Model, Images_Model; `_find_img_number_list` (148) – Images_Model; `_build_img_data_string` (176) – Images_Model; `_save_analysis_infos` (210) – Images_Model; `_save_experiment_infos` (224) – Images_Model.
* `ledsa/tools/photo_renamer.py`: `set_working_dir` (10) – not modelled (dialogue); `get_files` (24) – Capture_Model, Renamer_Model; `rename_images_by_date` (78) – Dialogue_Model, Renamer_Model; `main` (152) – Renamer_Model, Capture_Model, Dialogue_Model.
* `ledsa/demo/demo_run.py`: `run_demo` (5) – Arg_Model, Main_Model.
* `ledsa/demo/demo_setup.py`: `setup_demo` (12) – Main_Model; `_create_config_files` (41) – Main_Model; `_proceed_prompt` (105) – Main_Model; `_cleanup_demo_directories` (129) – never called; `_setup_directories` (141) – Main_Model; `_download_and_extract_images` (162) – Main_Model; `download_file_from_url` (174) – Main_Model; `_edit_config_files` (209) – Main_Model; `_replace_params_in_file` (225) – Demo_Model.
* `ledsa/__main__.py`: `main` (12) – Arg_Model, Cli_Model, Main_Model.
* `ledsa/ledpositions/coordinates.py`: `__init__` (26) – Coordinates_Model; `conversion_matrix` (31) – Coordinates_Model; `get_led_array` (45) – Coordinates_Model; `calculate_coordinates` (57) – Cache_Model, CoordFile_Model, Coordinates_Model; `_calculate_3d_coordinates` (72) – Coordinates_Model; `_calculate_2d_coordinates` (123) – Coordinates_Model; `_orth_projection` (139) – Coordinates_Model; `_fit_plane` (162) – Coordinates_Model; `plane_func` (171) – Coordinates_Model; `_project_points_to_plane` (179) – Coordinates_Model; `_get_plane_coordinates` (199) – Coordinates_Model.
* `ledsa/analysis/ExtinctionCoefficients.py`: `__init__` (41) – Analysis_Model (arguments); `__str__` (68) – Sim_Model (header); `calc_and_set_coefficients` (73) – Analysis_Model, Avg_Model, End_Model, MachineEnd_Model, MachineNonLinear_Model, MachineSolver_Model, Object_Model; `calc_and_set_coefficients_mp` (88) – Analysis_Model, End_Model, MachineEnd_Model, Object_Model; `set_all_member_variables` (106) – Analysis_Model; `load_img_data` (120) – Analysis_Model, Avg_Model, Cli_Model, Object_Model; `save` (135) – Avg_Model, Cli_Model, Object_Model, Read_Model, Sim_Model; `calc_distance_array` (161) – Analysis_Model, End_Model, Object_Model; `calc_and_set_ref_intensities` (177) – Analysis_Model, End_Model, MachineEnd_Model, Mean_Model, Object_Model; `apply_color_correction` (193) – CorrTab_Model, Correction_Model; `calc_coefficients_of_img` (219) – abstract in the code; `multiindex_series_to_nparray` (231) – Analysis_Model; `_get_experiment_times_from_image_infos_file` (247) – Avg_Model.
* `ledsa/analysis/ConfigDataAnalysis.py`: `__init__` (9) – Ini_Model, Main_Model, Percent_Model; `load` (91) – Ini_Model; `save` (106) – Ini_Model; `get_list_of_values` (114) – Cli_Model, Config_Model; `in_camera_channels` (149) – Cli_Model, Percent_Model; `in_camera_position` (156) – Cli_Model, Percent_Model; `in_num_layers` (163) – Cli_Model, Percent_Model; `in_domain_bounds` (170) – Cli_Model, Percent_Model; `in_led_array_indices` (177) – Cli_Model, Percent_Model.
* `ledsa/analysis/ExtinctionCoefficientsNonLinear.py`: `__init__` (30) – Solver_Model (arguments); `calc_coefficients_of_img` (58) – Solver_Model, End_Model, MachineNonLinear_Model; `calc_intensities` (83) – Solver_Model, MachineNonLinear_Model; `cost_function` (110) – Solver_Model.
* `ledsa/analysis/Experiment.py`: `__contains__` (22) – Layers_Model; `__post_init__` (54) – Layers_Model, MachineEnd_Model, Rounding_Model; `__getitem__` (60) – Layers_Model; `__str__` (63) – Sim_Model (header); `__repr__` (66) – not modelled; `__str__` (86) – Sim_Model (header); `__repr__` (89) – not modelled; `__init__` (134) – Layers_Model, Analysis_Model; `__str__` (164) – Sim_Model (header); `calc_traversed_dist_per_layer` (170) – End_Model, Layers_Model, Machine_Model; `calc_traversed_dist_in_plane` (190) – Layers_Model, Machine_Model; `calc_traversed_dist_per_layer_with_nonzero_alpha` (208) – Layers_Model, Machine_Model; `calc_traversed_height_in_layer` (228) – Layers_Model, Machine_Model; `distance_calculation_is_consistent` (250) – Layers_Model, Machine_Model; `set_leds` (273) – Analysis_Model; `get_led_ids` (284) – Analysis_Model, ArrayFile_Model; `get_led_positions` (298) – Analysis_Model, CoordFile_Model.
* `ledsa/analysis/data_preparation.py`: `apply_color_correction` (7) – Cli_Model, CorrTab_Model, Correction_Model.
* `ledsa/analysis/ExperimentData.py`: `__init__` (46) – Cli_Model; `load_config_parameters` (65) – ArrayFile_Model, Cli_Model, Main_Model; `request_config_parameters` (108) – Cli_Model.
* `ledsa/analysis/ExtinctionCoefficientsLinear.py`: `__init__` (22) – Solver_Model (arguments); `calc_coefficients_of_img` (43) – Solver_Model, End_Model, MachineSolver_Model.
* `ledsa/core/image_handling.py`: `get_img_name` (6) – Images_Model, Restart_Model; `get_img_id` (24) – Images_Model, Restart_Model, Todo_Model.
* `ledsa/core/parser_arguments_declaration.py`: `add_parser_arguments_tools` (4) – Arg_Model, Main_Model; `add_parser_arguments_data_extraction` (18) – Arg_Model, Cli_Model, Main_Model; `add_parser_arguments_testing` (54) – Arg_Model, Main_Model; `add_parser_arguments_demo` (70) – Arg_Model, Main_Model; `add_parser_argument_analysis` (91) – Arg_Model, Correction_Model, Main_Model.
* `ledsa/core/image_reading.py`: `read_channel_data_from_img` (9) – Raw_Model; `read_img_array_from_img` (29) – Raw_Model; `_read_channel_data_from_img_file` (49) – Raw_Model; `_read_channel_data_from_raw_file` (64) – Raw_Model; `_read_img_array_from_raw_file` (84) – Raw_Model; `_read_img_array_from_img_file` (96) – Raw_Model; `_read_grayscale_img_array_from_img_file` (100) – Raw_Model; `get_exif_entry` (107) – Capture_Model, Images_Model.
* `ledsa/core/ConfigData.py`: `__init__` (15) – Config_Model, Extractor_Model, Ini_Model, Main_Model, Percent_Model; `get` (156) – Config_Model, Percent_Model; `load` (170) – Extractor_Model, Ini_Model; `save` (183) – Config_Model, Ini_Model; `get2dnparray` (191) – Config_Model; `get_datetime` (223) – Calendar_Model, Config_Model; `in_img_dir` (242) – Config_Model, Ini_Model, Percent_Model; `in_first_img_experiment_id` (248) – Config_Model, Ini_Model, Percent_Model; `in_last_img_experiment_id` (254) – Config_Model, Ini_Model, Percent_Model; `in_ref_img_id` (260) – Config_Model, Ini_Model, Percent_Model; `in_max_num_leds` (267) – Config_Model, Ini_Model, Percent_Model; `in_time_ref_img_id` (274) – Config_Model, Ini_Model, Percent_Model; `in_time_ref_img_file` (281) – Config_Model, Ini_Model, Percent_Model; `in_num_arrays` (289) – Config_Model, Ini_Model, Percent_Model; `in_time_diff_to_img_time` (295) – Calendar_Model, Config_Model; `in_img_name_string` (349) – Config_Model (answers); `in_num_img_overflow` (357) – Config_Model (answers); `in_first_img_analysis_id` (364) – Config_Model (answers); `in_last_img_analysis_id` (371) – Config_Model (answers); `in_led_array_edge_indices` (377) – Config_Model; `in_led_array_edge_coordinates` (392) – Config_Model; `get_start_time` (410) – Images_Model; `_get_datetime_from_str` (426) – Calendar_Model, Config_Model.
* `ledsa/core/file_handling.py`: `set_flag` (11) – Pipeline_Model; `check_flag` (22) – Pipeline_Model; `remove_flag` (34) – Pipeline_Model; `create_analysis_infos_avg` (47) – Avg_Model; `read_table` (74) – Coordinates_Model, Format_Model, Images_Model, Todo_Model; `read_hdf` (116) – Avg_Model, Cache_Model, CorrTab_Model, Table_Model; `read_hdf_avg` (146) – Avg_Model; `average_all_fitpar` (169) – Avg_Model; `extend_hdf` (203) – Cli_Model, CorrTab_Model, Table_Model; `create_binary_data` (220) – Cache_Model, Params_Model, Table_Model; `_get_column_names` (276) – Table_Model; `_get_old_columns` (298) – Table_Model; `_param_array_to_dataframe` (318) – Table_Model; `_append_coordinates` (339) – Cache_Model, Table_Model; `_append_nans_to_params` (364) – Table_Model; `_append_coordinates_to_params` (379) – Table_Model.
* `ledsa/core/parser_arguments_run.py`: `run_tools_arguments` (18) – Arg_Model, Main_Model; `run_data_extraction_arguments` (31) – Arg_Model, Cli_Model, Main_Model, Pipeline_Model; `run_testing_arguments` (101) – Arg_Model, Main_Model; `run_demo_arguments` (118) – Arg_Model, Main_Model; `apply_cc_on_ref_property` (142) – Arg_Model, Correction_Model; `run_analysis_arguments` (159) – Arg_Model, Main_Model; `run_analysis_arguments_with_extinction_coefficient` (181) – Arg_Model, Main_Model; `extionction_coefficient_calculation` (193) – Cli_Model, End_Model.

## Findings (behaviour of the code that a user would not expect; all are theorems)

Extraction, step 1 and 2
* C04 Squares cut off at the top or left border leave the brightest pixel in place: the same LED is
  reported again and again (Python's negative slice bounds).
* C11/C14 Step 2 renumbers the LEDs in the search area file; running it a second time is refused.
  C15: a crash between the writes of step 2 leaves inconsistent files that a second run accepts.
* C52 A double blank in `ignore_led_indices` silently disables the whole list.
* (step 2) An ignored edge LED silently shifts the coordinates: the neighbour takes its place.

Step 3, result files and table
* C23 Restart keeps torn files and looks only at the existence of the file of one channel; the
  other channels are not repaired.  C53: `--restart` never fits, `--restart -g` starts over,
  `-s3_fast -g` processes everything twice.
* C26 With fit, maximum and centre run together in the result file: all later columns are shifted.
* C27 The table holds `floor` of the number of images, the extraction `ceil`: the last image is
  dropped; the id of the first image is taken from the experiment, not from the analysis.
* C30 The binary table is never refreshed.
* C31 Colour corrected sums overflow `int16`; `--cc_channels` extends the default and always fails.
* C75 In fit mode LEDs cut off at the lower or right border stop the run; the reported centre has
  the row and column offsets exchanged.  C72–C74: `dx`/`dy` are exchanged with respect to the
  documentation, the spot's centre need not be its brightest point, fits are never unique, and
  negative extents are hardly penalised.

Analysis
* C35 A horizontal line of sight exactly at the top of the domain is dropped; camera and LED at the
  same position give NaN.
* C36 Arrays merged in non-ascending order, or `num_skip_leds > 0`, misalign distances and
  intensities; arrays with one LED and missing index files fail with TypeError.
* C40 With one or two layers the linear solver is biased for every smoke profile other than zero.
* C42 The misfit is the RMS divided by sqrt(n); with the default weights unseen layers are driven to
  the upper bound 10.
* C43 Gaps in the image ids break the parallel run only; the nonlinear solver gives different results
  in serial and parallel runs.
* C44 Solver names other than the two exact ones are announced to work and fail.
* C95 One LED that is outside of the domain or dark in all reference images costs the coefficients of the
  whole array (ValueError), with no hint to the LED.
* C64–C66 Existing results are never found; the number of layers and the channels are never asked
  for; `--cc` is not used by the analysis of the same call.

Coordinates
* C46 Edge LEDs collinear with the pixel origin make the computation fail.
* C48 Widths are stretched by |n|/|b|, folded at x = 0, and with exactly three LEDs rows and columns
  are confused.  C63: LEDs outside all arrays shift the widths of all others.

Configuration
* C49 Line structure of multi-column values is ignored.  C51: `time_img_id` is written,
  `time_ref_img_id` is read.  C62: needs a trailing slash and a plain placeholder.
* C76–C79 A new configuration object has no usable option until it is loaded from the file; comments
  are lost on saving; unindented multi-line values make the file unreadable; editing `num_cores`
  overwrites every line mentioning the word.

Post-processing, tools
* C54 The upper bound of the domain gives KeyError, heights below the domain read layer 0.
* C55 The moving average lags.  C56: repeated time shifts diverge between tables; per-LED values are
  never shifted.  C67: heights are assigned to the time index.  C68: default radius is a text.
* C58 Directory names win over file names silently.  C69: a multi-line header breaks reading.
* C59 A photo without raw partner stops the renaming half-way; colliding names overwrite silently.
* C60 Raw values >= 32768 wrap; both greens use the black level of channel 1.  C71: PNG images are
  black.
* C80–C81 Averaging over images never reaches the analysis: the averaged table is not the one that is
  read, and saving fails from 12 images on.
* C82/C85 Of several images with the same time only the coefficients of the first can be read; results
  of two reference properties collide.  C84: two layers can get the same height label.  C85: image
  names are not shifted by a time shift.
* C86 Two images in one second make the access to an LED array fail.  C87: `remove_duplicate_heights`
  drops LEDs of other arrays.  C88: all three channels are needed.

Program and demo
* C89 Values with a percent sign are refused, or stored and never readable again.
* C90 Colour correction and the creation of `config_analysis.ini` run twice per call; a missing
  `config_analysis.ini` is noticed only after the whole data extraction; `--setup` and `--run` without
  `--demo` are ignored, and so is `--n_cores 0`.
* C91 `--n_cores 1` keeps the 4 cores of the demo files; the demo runs in the working directory even
  if it was set up elsewhere.
* C92 The marker of a successful setup is written before the configuration files; an archive without an
  entry for its directory loses its first image; old images stay.
* C96 `-rg` is refused as ambiguous although `-gr` is accepted; `-rgb` is not `-r -g -b`: with
  `-s3_fast` the latter also runs step 3 with fits.
* C97 The dot of the pattern is not escaped and the pattern is not anchored: `1_led_positions.csv.bak` or
  `old_12_led_positions_csv` make the images 1 and 12 count as done, and a restart leaves them out.
* C98 Step 3 loads as many index files as the configuration says, also old ones of earlier runs: an LED
  can then be in two arrays or not exist any more; with a smaller number arrays are silently left out.
* C99 The misfit is divided by N instead of sqrt(N), so that its weight against the preference falls with
  the number of LEDs: with 400 LEDs and the default weights clear air gives the coefficient 10.
* C100 Computing serially twice with one object doubles the list of coefficients, and saving fails; with
  several processes the nonlinear solver starts all images from the last image of the computation before.
* C101 An LED more than roughly a sixth of the LED spacing beside the line to the edge LED is passed over and
  belongs to no array, without any message.
* C103 If a channel lacks an image (interrupted step 3), the colour correction overwrites the channels before it,
  with converted nan in the rows that are missing elsewhere, and then stops with ValueError.
* C103 A file of the old layout (key `/table`) can be read but not extended.
* C105 A blank in an image name (`Foto 12.JPG`) makes step 3 fail before the first image; a restart with one
  such image left can work on other images instead.
* C106 `get_widman_extco` needs micrometres although it is annotated with `int`.
* C107 If the clock of the time reference image is past midnight and the camera is not (or the other way round),
  the stored offset of the camera is wrong by a day.
* C108 A comma between two edge labels makes step 2 replace the search areas by an empty table; step 2 then fails
  until step 1 is run again.
* C109 With an unreadable merge_led_array_indices steps 2 and 3 in one call analyse the arrays not merged; a later
  call of step 3 fails.
* C110 Nothing checks that the layers can be told apart: with as many LEDs as layers, all at different heights, the
  lowest layer may be unseen; the solver still returns a coefficient for it.
* C111 `_append_coordinates` remembers the coordinate file, or its absence, for the life of the process: tables built
  after the coordinates were calculated can still have none.
* C112 `DataExtractor()` with its default channels always fails (`list(0)`), with `load_config_file=False` only after
  config.ini has been overwritten.
* C113 `get_led_positions` takes the row number for the id: after removing a search area by hand the distances of later
  LEDs are those of other LEDs, while the tables show the right coordinates.
* C115 The bare `except` of the photo renamer turns a missing sub-second entry (which ends the program elsewhere) and
  a padded one into the full second, so that photos of one second can be numbered against their order.
* C116 The photo renamer writes its log before asking: after "n", or after an error in the middle, the log lists
  renames that were not made. An unclear answer to "keep the changelog" starts the renaming again, which then fails.
* C117 With groups of merged arrays that cannot be read, step 2 goes on with the arrays as found, but the analysis reads the merged index files, if need be those of an earlier run: intensities of one array meet the positions of another one. Theorem `C117_other_leds_refuted`.
* C118 `_log_warnings` looks for the directory `logfiles` and then makes it without `exist_ok`. Two workers whose first failed fits coincide stop step 3 with FileExistsError. Theorem `C118_when_logging_can_fail`.
* C122 With the non-linear solver one LED outside the domain makes every cost nan; the analysis reports profiles that do not depend on the photographs, without a message. The linear solver fails instead. Theorem `C122_all_smoke_looks_the_same`.
* C124 The consistency check compares an absolute error with 1e-6, while rounding errors grow with the distance: for lines of sight long enough the check refuses correct distances. In double precision 500 m are safe. Theorems `C124_long_lines_of_sight_refuted`, `C124_double_precision`.
* C127 Result files without a time column get the times of the images cut to whole seconds: with averaged images one of two images in a second is lost, and a file without times no longer fits a file with times. Rows beyond the list of images are dropped without a message. Theorems `C127_half_seconds_refuted`, `C127_rows_beyond_the_images_are_lost`.
* C131 A group in merge_led_array_indices that lists its rows in descending order can turn the profile upside down: exact photographs, a solution without residual, and the smoke under the ceiling is reported on the floor. Theorem `C131_descending_refuted`.
* C132 With num_skip_leds > 0 the analysis fails for every array that lost an LED; if one LED is left, the non-linear solver goes on without a word and compares all lines of sight with it. Theorems `C132_linear_fails`, `C132_non_linear_fails`, `C132_one_led_left_refuted`.
* C133 Nothing corrects for the exposure of the single photographs: with automatic exposure the smoke can be reported as clear air (the relative intensities are clipped at 1 without a message). Theorem `C133_exposure_refuted`.
* C134 `lambda_reg` has the unit of an area: the same value gives other smoke if the positions are given in another unit of length. The bounds 0 and 10 of the non-linear solver are fixed, too. Theorems `C134_same_regularisation_refuted`, `C134_bounds_refuted`.
* C135 Relative intensities below 10^-10 are cut off without a message: thick smoke is reported too thin. Theorem `C135_thick_smoke_refuted`.
* C136 Too few layers do not report the mean of the smoke in them: LEDs inside a layer see only a part of it. Theorem `C136_one_layer_refuted`.
* C137 The search squares do not follow a camera that moves: beyond the margin of the squares the move is recorded as lost light. Theorem `C137_larger_moves_refuted`.
* C138 Light in the search squares that does not come from the LED is not subtracted; it bounds the smoke that can be reported. Theorem `C138_ground_is_subtracted_refuted`.
* C139 Saturated pixels hide smoke without a warning; `check_led_saturations` (data_integrity.py:47) is empty. Theorem `C139_saturated_pixels_refuted`.
* C140 Smoke in the reference photographs is subtracted silently, and smoke that clears below it is reported as none. Theorem `C140_steady_smoke_refuted`.

Seen while reading, without a theorem
* `Experiment` with its default `merge_led_arrays=False` looks for the file of merged coordinates.
* `average_all_fitpar` builds a path that is a tuple because of a trailing comma.
* `ConfigData.load` continues after a missing file, `ConfigDataAnalysis.load` does not.

## Properties: what is modelled and how it is proved

* **C01** Step 1 numbers the LEDs 0,1,2,... and stops at max_num_leds – Step1: loop as structural recursion on max_n_leds-led_id; induction. *(proved: 2 theorems)*
* **C02** Step 1 only reports pixels of the image that exceed the threshold, brightest first – Step1: invariant 'working pixel = original or 0'; induction. *(proved: 3 theorems)*
* **C03** Step 1 misses no bright pixel unless it hits the limit – Step1: invariant 'pixel = original unless in a recorded square'; exit condition of the loop. *(proved: 1 theorem)*
* **C04** Reported LEDs are separated - except at the top/left image border – Step1: Python slice arithmetic; positive part by the invariant, negative part for every image with such a brightest pixel. *(proved: 4 theorems)*
* **C05** The brightness threshold is a percentile of the image – Step1: percentile over sorted pixel list in Q. *(proved: 4 theorems)*
* **C06** Step 2 assigns every LED to at most one array – Step2: dictionary-shrinks invariant of the walk. *(proved: 2 theorems)*
* **C07** Each matched array runs from its first edge LED to its last edge LED – Step2: 'last edge stays in the dictionary until reached'; fuel = dictionary size shown sufficient. *(proved: 4 theorems)*
* **C08** Ignored LEDs are removed and nothing else – Step2: list.remove on duplicate-free lists = filter. *(proved: 2 theorems)*
* **C09** The next LED minimises the weighted distance among the five nearest – Step2: repeated argmin = k nearest; over R. *(proved: 1 theorem)*
* **C10** Straight, well separated LED arrays are recovered exactly – Step2: triangle inequality shows that the successor has strictly the smallest weighted cost; induction along each array. *(proved: 1 theorem)*
* **C11** Renumbering keeps every LED at its pixel position – Step2: positional indexing + consecutive ranges. *(proved: 3 theorems)*
* **C12** Array index files round-trip (reversed) – Step2/Pipeline: file contents as lists; reversal. *(proved: 2 theorems)*
* **C13** Merging arrays concatenates exactly the listed arrays – Step2: flat_map characterisation; count argument. *(proved: 5 theorems)*
* **C14** Step 2 cannot be applied twice to the same search areas – Pipeline: state machine over files and flag. *(proved: 2 theorems)*
* **C15** A crash inside step 2 – Pipeline: programs as lists of atomic file effects, a crash = prefix; refutation by concrete layout. *(proved: 6 theorems)*
* **C16** The image number list enumerates the camera counter cyclically – Images: closed form of both range() calls. *(proved: 3 theorems)*
* **C17** The analysis image table – Images: row-wise. *(proved: 3 theorems)*
* **C18** Experiment times follow the EXIF clock – Images: datetimes as (day, second) pairs, millisecond offsets in Z. *(proved: 4 theorems)*
* **C19** Image id and image name lookups are mutually inverse – Images: list search. *(proved: 2 theorems)*
* **C20** Step 3 measures exactly the 2r x 2r square of each LED – Step3: slice arithmetic, sums over index ranges. *(proved: 4 theorems)*
* **C21** Step 3 produces one record per selected LED – Step3: flat_map/filter. *(proved: 2 theorems)*
* **C22** Restart after an interruption between images completes the run – Restart: file map invariant 'every existing file is complete'; any permutation. *(proved: 2 theorems)*
* **C23** Restart does not repair a torn file or the other channels – Restart: prefix of write effects; exact characterisation. *(proved: 7 theorems)*
* **C24** Parallel image processing is schedule independent – Restart: interleavings as shuffles of effect lists touching disjoint files. *(proved: 1 theorem)*
* **C25** The result file of an image can be read back – Format: '%.4e' rounding as integer arithmetic. *(proved: 2 theorems)*
* **C26** Result columns match the table columns in fast mode only – Table: printing and splitting of result lines as strings; the table row of a fitted line computed symbolically. *(proved: 8 theorems)*
* **C27** Every analysed image enters the binary table only if the counts divide – Table: floor versus ceiling division; number lists of both programs compared. *(proved: 8 theorems)*
* **C28** The table holds each image's LEDs sorted by id – Table: insertion sort, uniqueness of sorted permutation. *(proved: 1 theorem)*
* **C29** Each table row carries the coordinates of its own LED – Table: mask selection of sorted coordinate rows. *(proved: 3 theorems)*
* **C30** The analysis can use outdated step-3 results – Table: history of step3/read events. *(proved: 3 theorems)*
* **C31** Colour correction inverts the mixing matrix within int16 – Table: matrix inverse over Q; int16 range. *(proved: 11 theorems)*
* **C32** Layers partition the domain – Geometry: linspace over R. *(proved: 1 theorem)*
* **C33** Distances through the layers add up to the line of sight – Geometry: telescoping sum of overlaps; sin(atan). *(proved: 2 theorems)*
* **C34** Each layer's share is its part of the line of sight – Geometry: same. *(proved: 2 theorems)*
* **C35** Horizontal lines of sight – Geometry: same, border witness. *(proved: 4 theorems)*
* **C36** Distance rows and intensity columns refer to the same LED – Align: reversal lemmas, Sorted; counterexample. *(proved: 5 theorems)*
* **C37** Reference intensities normalise the reference images – Align: sums over R/Q. *(proved: 5 theorems)*
* **C38** Linear solver: the augmented system is the regularised least squares problem – Solver: block sums; nnls contract. *(proved: 3 theorems)*
* **C39** Linear solver: no smoke gives zero extinction – Solver: cost 0 at x=0 forces A x = 0. *(proved: 1 theorem)*
* **C40** Linear solver: layer profiles linear in height are recovered exactly – Solver: cost 0 at the truth, full rank. *(proved: 3 theorems)*
* **C41** Beer-Lambert forward model – Solver: exp of sums. *(proved: 5 theorems)*
* **C42** Nonlinear cost function – Solver: sums of absolute values / squares. *(proved: 6 theorems)*
* **C43** Parallel and serial computation of coefficients agree for the linear solver – Solver: pool as permutation of task executions. *(proved: 3 theorems)*
* **C44** Solver selection – Cli: decision table over strings. *(proved: 2 theorems)*
* **C45** Edge LEDs get exactly the configured coordinates – Coordinates: 2x2 linear solve, field. *(proved: 1 theorem)*
* **C46** LEDs between the edges are interpolated on the 3D line – Coordinates: same. *(proved: 6 theorems)*
* **C47** Projection onto the fitted plane – Coordinates: field. *(proved: 2 theorems)*
* **C48** 2D width/height coordinates – Coordinates: square roots; counterexamples. *(proved: 6 theorems)*
* **C49** Multi-column config values are parsed row by row – Config: tokens and rows; decimal printing/parsing. *(proved: 6 theorems)*
* **C50** List-valued analysis options – Config: decision table. *(proved: 3 theorems)*
* **C51** Missing configuration values are requested once and stored – Config: map of options and an answer stream. *(proved: 8 theorems)*
* **C52** The ignore list is all-or-nothing – Config: string splitting. *(proved: 3 theorems)*
* **C53** Command line: channels and steps – Cli: boolean decision procedure for all flag combinations. *(proved: 7 theorems)*
* **C54** Height to layer conversion in post-processing – Sim: floor over R/Q. *(proved: 3 theorems)*
* **C55** Moving average window – Sim: index arithmetic. *(proved: 3 theorems)*
* **C56** Time shift history – Sim: state machine. *(proved: 5 theorems)*
* **C57** Closest time – Sim: argmin. *(proved: 1 theorem)*
* **C58** Result file names identify channel and LED array – Sim: string splitting. *(proved: 2 theorems)*
* **C59** Renaming photos loses nothing if new names are fresh – Renamer: file map, sequence of renames. *(proved: 5 theorems)*
* **C60** Raw colour channels partition the sensor – Raw: pixelwise integer arithmetic. *(proved: 5 theorems)*
* **C61** Editing num_cores touches only the num_cores lines – Demo: line-wise string functions. *(proved: 5 theorems)*
* **C62** The start time is derived from the first experiment image – Images/Config: string concatenation of directory, pattern and id. *(proved: 3 theorems)*
* **C63** LEDs outside all arrays take part in the 2D coordinates – Coordinates: two layouts with the same plane, minimum over all LEDs. *(proved: 2 theorems)*
* **C64** Existing results are never found – Cli: path computed for reading never equals a path written, over all runs. *(proved: 4 theorems)*
* **C65** Which analysis parameters can be asked for – Cli: the parameter dialogue as a program over an answer stream. *(proved: 3 theorems)*
* **C66** Colour correction and analysis in one call – Cli/Correction: order of loading, correcting and computing. *(proved: 2 theorems)*
* **C67** Heights as labels of the extinction coefficients – Sim: assignment of an index as an operation on labelled frames. *(proved: 2 theorems)*
* **C68** Pixel values around a LED – Sim: slices with Python's negative bounds. *(proved: 6 theorems)*
* **C69** Saved results are read back – Sim/Format: header lines counted, reading after writing. *(proved: 2 theorems)*
* **C70** Normalised LED parameters – Sim: sums over reference rows in Q. *(proved: 4 theorems)*
* **C71** Grey values of images – Raw: integer arithmetic of the grey value; extension lists. *(proved: 6 theorems)*
* **C72** The shape of the fitted light spot – Fit over R: strict monotonicity of tanh along rays, sign analysis of the ellipse equation. *(proved: 7 theorems)*
* **C73** The parameters of a fit are not determined – Fit over R: trigonometric identities of the rotated frame. *(proved: 2 theorems)*
* **C74** The cost of a fit – Fit over R: sums of squares, penalty terms case by case. *(proved: 5 theorems)*
* **C75** The fitted area and the reported centre – Fit/Step3: shapes of numpy arrays; cost 0 at the truth. *(proved: 4 theorems)*
* **C76** Created configuration files can be read back – Ini: general theorem that reading the written text gives the sections back (induction over sections, options and lines). *(proved: 5 theorems)*
* **C77** Saving a loaded configuration – Ini: same theorem applied to the result of loading (loaded values satisfy its premises). *(proved: 5 theorems)*
* **C78** Values on several lines in configuration files – Ini: multi-line values, indentation. *(proved: 3 theorems)*
* **C79** The number of cores written into the demo files – Ini + Demo: line-wise editing commutes with writing. *(proved: 3 theorems)*
* **C80** The averaged list of images – Avg: grouping of the image list by halves of the id, positions counted. *(proved: 2 theorems)*
* **C81** Averaging over images has no effect but failures – Avg: groups of rows; reading back the file the analysis opens; lengths of the two tables. *(proved: 4 theorems)*
* **C82** Coefficients read by time – Read: labelled frames as association lists keyed by time, channel, array and layer; glob order arbitrary. *(proved: 6 theorems)*
* **C83** The three views of the coefficients agree – Read: the three accessors unfolded to the same cell. *(proved: 1 theorem)*
* **C84** Layers labelled by height – Read: rounding of layer centres in Q, distance of neighbouring centres. *(proved: 4 theorems)*
* **C85** Times, images and coefficients belong together – Params: first row of a time; shifts of the labels. *(proved: 4 theorems)*
* **C86** LED parameters read by array – Params: pivot of a list of rows, duplicate keys. *(proved: 6 theorems)*
* **C87** Removing duplicate heights – Params: rows kept by first height; counterexample layout. *(proved: 3 theorems)*
* **C88** All three channels are needed – Params: loop over the channels with a missing file. *(proved: 1 theorem)*
* **C89** Percent signs in configuration values – Percent: Python's BasicInterpolation on strings; scanning by induction over the text. *(proved: 6 theorems)*
* **C90** What one call of the program does, and in which order – Main: calls as a list, failures as a function; prefix and counting lemmas. *(proved: 7 theorems)*
* **C91** The demo runs five programs on its own configuration – Main: line-wise editing commutes with writing for multi-line values; the demo files as instances. *(proved: 7 theorems)*
* **C92** Setting up the demo – Main: answers as a list, changes as a list with prefixes as crashes, archive as a list of members. *(proved: 7 theorems)*
* **C93** Linear solver: measuring errors are bounded in the result – Stable: the minimum against the true profile and (a+b)^2 <= 2a^2+2b^2; clipping as a projection onto an interval which contains the true value. *(proved: 8 theorems)*
* **C94** The smoke is recovered from the recorded sums, from the table to the coefficients – End: composition of C36, C37, C33, C43 and C93; relative errors of stored sums, means and quotients bounded one after the other. *(proved: 1 theorem)*
* **C95** What makes the linear analysis of an array fail – End: one failing image makes the loop fail, whatever the images before gave; nan in the matrix or in the right hand side. *(proved: 5 theorems)*
* **C96** The words of the command line and the options they mean – Arg: the parser as classification, grouping and consumption of words; the accepted language as an inductive relation over a separate table of names; both directions. *(proved: 8 theorems)*
* **C97** Which images a restart regards as done – Dir: the regular expression as a search for the first match, against decompositions of the name; the remaining images by their ids and result files. *(proved: 3 theorems)*
* **C98** Which index files step 3 loads – Dir: the state of the directory after step 2 pointwise, then the loading loop on it. *(proved: 2 theorems)*
* **C99** How far a minimum of the nonlinear cost can be from the truth – Minimiser: the cost of the result against the cost of the true profile and of the constant profile 10; exp bounded by exp_ineq1. *(proved: 5 theorems)*
* **C100** Several calls on one object of coefficients – Object: state of the object and of the files as records, histories as lists of calls; the filled object as an invariant. *(proved: 8 theorems)*
* **C101** Which rows of LEDs step 2 follows and how straight they have to be – Nearly: weight as distance plus 0.987 times the rest; an LED outside the five closest has a greater weight by the triangle inequality; walking along the array by induction. *(proved: 4 theorems)*
* **C102** From the reference image to the measured values – Extract: the light spots as a specification of the image; the loop of step 1 with the spots left as invariant; positions numbered by step 1 matched to the rows; C101, renumbering, C98 and C20 composed. *(proved: 3 theorems)*
* **C103** Colour correction of tables with different rows – CorrTab: alignment of association lists, nan as None; the length of the common index against completeness of a table; writing by induction over the channels. *(proved: 5 theorems)*
* **C104** From the photographs to the smoke – Photos: C102 gives the records, C28 the table, C94 the coefficients; the numbers of the lamps are matched with the rows of the coordinate file by their offset. *(proved: 1 theorem)*
* **C105** The list of the images step 3 works on – Todo: names cut at single blanks as loadtxt does; the three shapes of the result (list, grid, error) by cases on the pieces. *(proved: 4 theorems)*
* **C106** The relation of Widmann – Widman: real powers. *(proved: 4 theorems)*
* **C107** Dates and times as texts – Calendar: the regular expressions of strptime as a backtracking search; field texts by evaluation over all values of the field, then composed; the day number against a calendar that is advanced second by second. *(proved: 9 theorems)*
* **C108** Unreadable edge labels destroy the search areas – Edges: the text as result of option and prompt; bad words by mapM; step 2 unfolded with no array; the directory without table as a state that step 2 keeps. *(proved: 8 theorems)*
* **C109** Unreadable merge groups – Edges: the environment with unreadable groups equals the one without merging. *(proved: 2 theorems)*
* **C110** Which positions tell the layers apart – Separate: elimination over the reals shows that a matrix either separates or has a kernel vector; the light of an LED is the difference of a piecewise linear function of height at LED and camera, so a kernel vector is a piecewise linear function with many zeros (counted over runs of non-zero borders; the converse solves for the values at the borders). *(proved: 5 theorems)*
* **C111** Coordinates in the tables and the life of a process – Cache: the attribute is set by the first table and only a new process clears it (induction over events); contents by C28/C29. *(proved: 6 theorems)*
* **C112** What constructing a DataExtractor creates – Extractor: entries as a function of the path; adding missing directories composes. *(proved: 4 theorems)*
* **C113** The coordinate file, written and read back – CoordFile: the six decimals are parsed back digit by digit; rows by induction; the table part by C28/C29 and the cache lemmas of C111. *(proved: 5 theorems)*
* **C114** Configured coordinates reach the analysis – CoordEnd: composes C45/C46/C48 with C113; the floating point error is a parameter e, and every result is storable with any e > 0. *(proved: 2 theorems)*
* **C115** Photos are numbered in the order of their capture times – Capture: the texts of EXIF dates through the regular expression of strptime (Calendar); the sort is an argument with a contract, insertion sort is shown to satisfy it; numbers are positions in the sorted list. *(proved: 6 theorems)*
* **C116** The questions of the photo renamer and its log – Dialogue: answers as a list; the log is a file of the directory; undoing is the same do_moves lemma as C59 with the pairs exchanged. *(proved: 7 theorems)*
* **C117** The LEDs of an array in the analysis and in step 3 – ArrayFile: loaded files as mapM over the numbers; index files after step 2 from Dir, unreadable groups from C109. *(proved: 4 theorems)*
* **C118** The log of failed fits with several workers – Warn: operations of the workers as lists, the order as a list of workers; pending entries stay an interleaving; the failing order is look, look, make, make. *(proved: 3 theorems)*
* **C119** Smoke that is linear in height needs two LEDs only – Linear: the penalty vanishes on progressions only, so a kernel vector of the augmented system is a progression the lines of sight do not see; the light of a progression is a x + b G(x) with the convex piecewise linear integral G of the staircase, and three points of its graph on one line share a piece. *(proved: 9 theorems)*
* **C120** Smoke of any profile: what regularisation costs – Profile: a profile that minimises the functional for its own optical depths cannot be improved by scaling it down, so its penalty is 0; without regularisation a kernel vector of the lines of sight gives two profiles with the same light; the whole analysis by the generalised forms of C94 and C104 with the error bound of C93 including its bias. *(proved: 5 theorems)*
* **C121** Error of the whole analysis with the non-linear solver – Profile: the cost is continuous on the box of bounds (it grows at most linearly in the sum of the differences), so a smallest value exists by induction over the layers; the smoke itself is a candidate, so the misfit of the minimiser is bounded by C99, the intensities of two profiles bound their optical depths from below, and these the profiles by C110; then the solver-independent forms of C94 and C104. *(proved: 9 theorems)*
* **C122** An LED outside the domain silently blinds the non-linear solver – Profile: a row of nan makes the cost the constant function without a number (by functional extensionality), so each image maps the start value only; the loop by induction, the pool by C43. *(proved: 3 theorems)*
* **C123** Layers with rounded borders – Rounding: np.linspace operation by operation with an abstract rounding of relative error u; the layers are pairs of neighbours of any ascending list, so partition and lengths are shown by induction over the list; clipping to the line of sight does not enlarge the error of a border. *(proved: 7 theorems)*
* **C124** Distances with the arithmetic of the machine – Machine: each operation of the distance calculation with its own error; numbers that agree up to a factor q^k with q = 1/(1-u) are closed under products, quotients, sums of positive numbers, roots, and increasing functions that bend downwards (arcus tangent, sine up to a right angle), so the factors only have to be counted. *(proved: 7 theorems)*
* **C125** The analysis with rounded distances – MachineEnd: the rows of the machine differ from the exact ones by at most C u (C123, C124; C by maximum over the LEDs); a matrix which tells the layers apart keeps doing so, with a quarter of its constant, under small changes; then the stability of C93 with the changed matrix. *(proved: 1 theorem)*
* **C126** The linear analysis on a machine – MachineSolver: one more error for each step of the solver; the penalty of the rounded rows is at most twice the exact one plus a term of order u^2; a solver within tol adds 2 tol before division by the constant. *(proved: 3 theorems)*
* **C127** Result files without times – OldFiles: a file without times is turned into one with times before C82 is applied; the first row of a second is found by induction over the list of images. *(proved: 4 theorems)*
* **C128** The non-linear analysis on a machine – MachineNonLinear: pairs of an exact number with a bound and a computed number off by c u are closed under all operations of the cost, with new constants; the root of a sum of squares by the triangle inequality; the infimum of the computed cost exists since it is bounded below; then C121 with slack tol plus twice the error of the cost and the distances of C125. *(proved: 3 theorems)*
* **C129** From the pixels to the smoke on a machine – Whole: the errors of the pixels add up to 4 r^2 eta, stay eta in the mean and (where the brightest pixel is) in the maximum, and divided by the least light they are relative; the first half of C104 (photographs_records) gives the records and the table, C126 and C128 the rest. *(proved: 5 theorems)*
* **C130** The mean over the reference images with rounding – Mean: a tree of additions with k leaves and its division are within the factors (1-u)^k and (1+u)^k, and (1-u)^k + (1+u)^k >= 2. *(proved: 5 theorems)*
* **C131** Merged LED arrays, from the pixels to the smoke – Merged: a group of numbered rows joined is again a list of rows of the table, so the loop of step 3 from C102 applies; C98 gives the loaded files, C36 the order, the rest as in C129 with the lamps and places found by their numbers. Descending: a room that is symmetric about the camera; table and equations are computed, C40 gives the profile for either order of the rows. *(proved: 4 theorems)*
* **C132** Skipped LEDs – Skip: the records of an array are its LEDs with divisible numbers, so the lemmas behind C36 give their entries; the solver meets fewer intensities than rows in the first image, C43 carries the serial loop over to the pool. *(proved: 4 theorems)*
* **C133** What does not matter to the analysis – Invariance: the factor of an LED cancels in value over mean, so both solvers see equal numbers; distances are made of differences only. Eight times the exposure gives relative intensities of at least 1, which C39 turns into zeros. *(proved: 5 theorems)*
* **C134** Units of length and the regularisation – Units: lines of sight scale with the unit; the augmented matrix with lambda times the square scales as a whole; by uniqueness of the minimiser (C93) the solution scales inversely. With unchanged lambda the scalar problem is solved by completing the square. The three terms of the non-linear cost scale one by one. *(proved: 6 theorems)*
* **C135** Amount of smoke and the largest coefficient – Amount: the non-negative vectors are a cone, so the minimiser scales with the right-hand side (uniqueness from C93); scaling the minimiser itself by t >= 0 cannot help, which bounds the norm of its image by that of the data; clipping bounds the data. *(proved: 4 theorems)*
* **C136** The number of layers – Resolution: the length of a line of sight between two heights is additive in the heights, so blocks of m columns add up to one old column; the old minimiser, cut, competes with the new one. *(proved: 3 theorems)*
* **C137** A camera that moved by some pixels – Moved camera: both sums are trimmed to the square that holds the light, where the shifted sum is the old one; maxima by the same pixels; then through the loops over LEDs and arrays. *(proved: 2 theorems)*
* **C138** Light that does not come from the LEDs – Light from elsewhere: the quotient of the recorded values is at least b/(t+b), which bounds every optical depth; the projection onto the non-negative combinations is not longer than the data. *(proved: 2 theorems)*
* **C139** Saturated pixels – Saturation: min(c, s) >= t min(c, p) for every pixel, hence for the sums; then as for C138. *(proved: 2 theorems)*
* **C140** Smoke in the reference photographs – Smoke in the references: the quotients are those of the difference of the coefficients; recovery without regularisation, or depths 0 and the unique solution 0. *(proved: 3 theorems)*

## What `Print Assumptions` lists

*Closed under the global context* (375 theorems):
C01_ids_consecutive_and_bounded, C01_search_terminates, C02_reported_pixels_are_bright, C02_brightest_first, C02_first_is_maximum, C03_no_bright_pixel_missed, C04_separated_away_from_border, C04_distinct_away_from_border, C04_border_pixel_reported_repeatedly, C04_distinct_positions_refuted, C05_threshold_between_min_and_max, C05_threshold_monotone, C05_few_bright_pixels, C05_threshold_is_not_negative, C06_no_led_twice, C06_repeated_ids, C07_fails_exactly_when_edge_led_unavailable, C07_arrays_run_between_their_edge_leds, C07_equal_labels_swallow_all_remaining_leds, C07_ends_at_second_label_refuted, C08_only_ignored_leds_removed, C08_ignore_list_never_fails, C11_renumbering_keeps_positions, C11_new_ids_have_one_position, C11_positional_ids_needed_refuted, C12_index_files_round_trip, C12_too_many_arrays_configured, C13_merge_concatenates_listed_arrays, C13_no_configuration_no_change, C13_merge_keeps_all_leds, C13_empty_group_makes_step3_fail, C13_nonempty_groups_load, C14_second_step2_is_refused, C14_step1_allows_step2, C15_rerun_of_both_steps_repairs_everything, C15_kill_in_step2_then_rerun, C15_rerun_of_step2_alone_refuted, C15_kill_after_flag_is_refused, C15_step2_in_a_new_process, C15_single_led_in_a_new_process_refuted, C16_numbers_follow_the_camera_counter, C16_first_above_9999_fails, C16_bad_increment, C17_analysis_table_rows, C17_requested_range_is_used_iff_first_ids_agree, C17_requested_range_ignored_refuted, C18_experiment_time_differences, C18_first_image_time, C18_midnight_refuted, C18_fractional_offset, C19_lookups_are_inverse, C19_repeated_name_refuted, C20_measures_the_square_of_the_led, C20_square_size, C20_fails_near_top_or_left_border, C20_small_image_measures_elsewhere_refuted, C21_one_record_per_selected_led, C21_succeeds_if_every_selected_led_can_be_measured, C22_restarts_complete_the_run, C22_restart_is_possible, C23_restart_processes_images_without_first_channel_file, C23_files_of_started_images_are_never_touched, C23_serial_restart_is_a_restart_step, C23_torn_file_is_kept_refuted, C23_second_channel_is_never_completed_refuted, C23_empty_file_counts_as_analysed_refuted, C23_restart_of_a_fit_run_mixes_formats_refuted, C24_every_schedule_gives_the_serial_result, C25_result_file_read_back, C25_large_sums_are_rounded_refuted, C26_fast_file_columns_match, C26_fit_file_rows, C26_fit_table_is_shifted, C26_fit_mode_maximum_is_lost, C26_fit_table_maximum_is_wrong, C26_negative_centre_unreadable, C26_other_widths_cannot_be_loaded, C26_single_led_cannot_be_loaded, C27_loaded_equals_analysed_iff_divisible, C27_wrapping_ids_need_overflow_9999, C27_right_overflow_numbers, C27_overflow_must_be_9999, C27_stacking_needs_equal_numbers, C27_missing_file_aborts, C27_last_image_is_dropped_refuted, C27_later_first_image_is_miscounted_refuted, C28_table_holds_the_records_sorted_by_led, C29_rows_carry_the_coordinates_of_their_led, C29_led_recorded_twice_refuted, C29_led_recorded_twice_can_fail, C30_table_is_never_refreshed, C30_first_read_sees_current_results, C30_analysis_uses_outdated_results_refuted, C31_stored_values_invert_the_matrix, C31_values_are_stored_in_row_order, C31_large_sums_are_not_preserved, C31_overflow_refuted, C31_wrong_number_of_channels_fails, C31_cc_channels_option_always_fails, C31_channel_gap_fails, C31_columns_are_taken_by_channel_number, C31_channel_outside_the_matrix_fails, C31_right_iff_channels_in_order, C31_reordered_channels_are_swapped_refuted, C36_rows_and_intensities_are_aligned, C36_descending_merge_refuted, C36_skipped_leds_break_alignment_refuted, C36_single_led_array_fails, C36_missing_index_file, C37_reference_is_the_mean, C37_normalised_mean_is_one, C37_warning_lists_the_outliers, C37_relative_intensities, C37_no_data_ends_the_analysis, C43_parallel_equals_serial, C43_other_ids_refuted, C44_only_exact_names_work, C44_announced_names_refuted, C49_rows_in_order_and_rest_dropped, C49_only_the_sequence_of_tokens_counts, C49_prompt_is_read_back, C49_edge_indices_are_read_back, C49_variable_rows, C49_line_structure_is_kept_refuted, C50_list_values, C50_written_list_is_read_back, C50_lower_case, C51_only_absent_values_are_asked_once, C51_present_values_are_kept, C51_answers_are_saved, C51_complete_configuration_is_left_alone, C51_all_required_values_are_present, C51_offset_is_image_time_minus_clock_time, C51_reference_file_alone_refuted, C51_time_img_id_is_never_used, C52_ignore_list_all_or_nothing, C52_single_blanks_are_honoured, C52_extra_blank_disables_the_list, C53_channels, C53_slow_step3, C53_other_actions, C53_order, C53_configuration_file, C53_fast_with_colour_runs_twice_refuted, C53_restart_with_colour_starts_over_refuted, C54_layer_contains_height, C54_layer_outside, C54_get_extco_at_height, C55_window, C55_window_is_never_centred, C55_smoothing_delays_a_ramp, C56_shift_history, C56_same_time_axis, C56_one_shift_agrees, C56_two_shifts_agree_refuted, C56_led_values_are_never_shifted, C57_closest_time, C58_file_name_round_trip, C58_any_directory_refuted, C59_nothing_is_lost, C59_new_names_are_distinct, C59_numbers_follow_the_dates, C59_image_without_raw_partner_stops, C59_new_name_in_use_refuted, C60_pixel_law, C60_wide_raw_values_refuted, C60_channels_partition_the_sensor, C60_channels_sum_to_the_image, C60_other_channels_fail, C61_line, C61_lines_are_edited_in_place, C61_editing_is_idempotent, C61_missing_parameter_is_not_added, C61_only_the_parameter_refuted, C62_start_time_of_first_image, C62_directory_without_slash_refuted, C62_numeric_placeholder_fails, C64_looked_for_is_never_written, C64_where_it_looks, C64_results_are_always_recomputed, C64_looked_for_file_skips, C65_number_of_layers_is_never_asked, C65_second_request_never_matters, C65_channels_are_never_asked, C66_correction_does_not_reach_the_analysis, C66_corrected_property_needs_a_former_run, C67_heights_label_the_times, C67_heights_of_led_array_refuted, C68_default_radius_never_works, C68_default_radius_refuted, C68_explicit_radius, C68_led_near_the_border_is_empty, C68_led_near_the_left_border_has_empty_lines, C68_position_of_led, C69_result_table_is_read_back, C69_multi_line_header_refuted, C70_reference_values_have_mean_one, C70_dark_references_give_no_numbers, C70_array_and_led_agree, C70_zero_means_absolute, C71_png_is_black, C71_no_led_in_a_flat_image, C71_no_led_in_a_png_image, C71_jpeg_gray_value, C71_gray_pixel_loses_one, C71_extensions, C76_created_file_is_read_back, C76_plain_values_are_kept, C76_every_option_is_found, C76_new_object_has_no_options, C76_time_reference_id_refuted, C77_saving_keeps_every_option, C77_saving_again_changes_nothing, C77_changing_one_option, C77_answers_are_stored, C77_comments_are_kept_refuted, C78_typed_arrays_survive_saving, C78_indented_lines_are_kept, C78_constructor_lines_are_kept_refuted, C79_edited_file, C79_only_the_number_of_cores_changes, C79_other_options_are_kept_refuted, C80_averaged_image_list, C80_every_image_once, C81_averaged_rows, C81_averages_are_never_stored, C81_single_images_are_used, C81_saving_fails_from_12_images, C82_value_at_time, C82_columns_in_order, C82_file_order_is_irrelevant, C82_two_files_for_one_array, C82_missing_results, C82_solver_directory_is_found, C83_views_agree, C84_labels_are_close, C84_labels_are_different, C84_equal_labels_refuted, C84_heights_only_relabel, C85_first_image_of_a_time, C85_coefficients_belong_to_the_image, C85_shifted_coefficients, C85_shifted_images_refuted, C86_when_parameters_can_be_read, C86_two_images_in_one_second, C86_values, C86_missing_measurements, C86_smoothing, C86_channels, C87_which_rows_are_kept, C87_an_array_can_disappear, C87_heights_can_be_read, C88_all_channels_are_needed, C89_doubled_signs_are_read_back, C89_stray_signs_fail, C89_constructors, C89_stored_values_can_be_read_refuted, C89_self_reference, C89_ten_references, C90_demo_excludes_the_rest, C90_demo_options_alone_do_nothing, C90_demo_arguments, C90_order, C90_colour_correction_runs_twice, C90_configuration_before_colours, C90_missing_analysis_file_is_noticed_late, C91_number_of_cores, C91_other_options_are_kept, C91_demo_configuration, C91_demo_images, C91_one_core_refuted, C91_sequence, C91_directory, C92_prompt, C92_changes_need_consent, C92_marker_means_images, C92_marker_means_success_refuted, C92_images_are_extracted, C92_archive_without_directory, C92_second_directory_fails, C96_grammar, C96_order, C96_flags, C96_rejected, C96_config_takes_all_words, C96_demo_commands, C96_joined_letters_refuted, C96_rgb_is_not_r_g_b, C97_which_names_count, C97_images_of_a_restart, C97_copied_file_counts_refuted, C98_loaded_arrays, C98_old_index_file_refuted, C100_later_files_are_ignored, C100_first_computation_settles, C100_serial_appends, C100_save_after_serial, C100_parallel_replaces, C100_failed_serial, C100_distances_survive_a_failure, C100_same_result_again_refuted, C102_step1_finds_the_spots, C103_completes_iff, C103_ends_at_the_first_table_with_missing_rows, C103_same_rows_are_corrected, C103_missing_rows_become_nan, C103_row_order_refuted, C105_names_are_read_back_iff, C105_step3_works_on_the_listed_images, C105_one_blank_stops_step3, C105_restart_works_on_other_images_refuted, C107_every_date_is_read, C107_only_dates_are_read, C107_one_blank_in_the_entry, C107_numbers_follow_the_calendar, C107_experiment_time_counts_seconds, C107_numbers_stand_for_the_texts, C107_stored_start_time_is_read_back, C107_clock_offset, C107_clock_over_midnight_refuted, C108_labels_are_taken_in_pairs, C108_step_2_works_with_the_numbers, C108_when_no_array_is_left, C108_search_areas_are_lost, C108_step_2_cannot_recover, C108_no_sequence_of_step_2_recovers, C108_step_1_repairs, C15_rerun_of_both_steps_repairs_everything, C109_when_groups_are_unreadable, C109_unreadable_groups, C111_first_table_of_the_process_decides, C111_stored_tables_stay, C111_one_call, C111_unreadable_coordinates, C111_new_tables_get_the_coordinates_refuted, C111_deleting_the_table_refuted, C112_default_channels_fail, C112_needed_directories, C112_second_time_nothing_is_created, C112_file_named_analysis, C113_coordinates_are_read_back, C113_positions_are_read_back, C113_new_table_after_writing, C113_single_row_fails, C113_position_of_the_id_refuted, C115_file_types, C115_capture_time, C115_only_dates, C115_unreadable_date_renames_nothing, C115_photos_are_numbered_by_capture_time, C115_padded_fraction_refuted, C116_no_renames_nothing, C116_yes_renames_once, C116_log_lists_the_photos, C116_log_undoes_the_renames, C116_unclear_second_answer_asks_again, C116_stops_at_an_image_without_raw_file, C116_log_after_an_error_refuted, C117_same_file_as_a_later_step_3, C117_same_leds_as_step_3, C117_unreadable_groups, C117_other_leds_refuted, C118_no_entry_is_lost, C118_when_logging_can_fail, C118_one_core_never_fails, C127_rows_are_matched_by_position, C127_same_as_a_file_with_times, C127_rows_beyond_the_images_are_lost, C127_half_seconds_refuted, C130_empty_mean, C130_from_left_to_right, C130_in_halves, C132_every_array_loses_one, C137_small_moves_do_not_matter, C137_larger_moves_refuted.

`ClassicalDedekindReals.sig_forall_dec`, `FunctionalExtensionality.functional_extensionality_dep` (14 theorems):
C32_layers_partition_the_domain, C42_curvature_zero_iff_progression, C46_between_the_edges, C47_projection, C47_heights_are_kept, C93_each_coefficient, C93_solutions_are_unique, C123_borders_are_close, C123_rounded_borders_ascend, C123_layers_divide_the_domain, C129_one_lamp, C129_any_property, C129_relative_error, C130_mean_with_rounding.

`ClassicalDedekindReals.sig_forall_dec`, `ClassicalDedekindReals.sig_not_dec`, `FunctionalExtensionality.functional_extensionality_dep` (39 theorems):
C09_next_led_is_greedy, C10_straight_arrays_recovered, C41_model_is_beer_lambert, C41_transmissions_multiply, C42_misfit_zero_iff_reproduced, C42_misfit_is_not_the_rms, C42_without_preference_truth_is_optimal, C42_unseen_layers_lower_the_cost, C42_unseen_layers_are_at_the_upper_bound, C45_edge_leds_get_the_configured_coordinates, C46_leds_are_interpolated_on_the_3d_line, C46_succeeds, C46_edges_in_line_with_the_origin_fail, C46_array_of_one_led_fails, C46_led_without_search_area_fails, C48_widths_start_at_zero, C48_heights_are_z, C48_three_leds_refuted, C48_widths_are_stretched, C48_true_distance_iff_parallel_to_x, C48_folding_refuted, C63_unassigned_leds_are_at_minus_one, C63_unassigned_leds_shift_the_widths_refuted, C74_penalty_free_region, C99_minimiser_fits, C99_linear_profile, C101_followed_arrays_are_found, C101_nearly_straight_arrays_are_found, C101_greater_detour_is_passed_over, C101_led_beside_the_line_refuted, C102_extraction, C102_brightness_does_not_matter, C114_positions_reach_the_analysis, C114_widths_and_heights_reach_the_tables, C119_penalty_fills_the_gaps, C122_one_nan_hides_the_image, C131_extraction, C134_distances, C134_cost.

`ClassicalDedekindReals.sig_forall_dec`, `ClassicalEpsilon.constructive_indefinite_description`, `Classical_Prop.classic` (2 theorems):
C121_contract_can_be_met, C128_contract_can_be_met.

`ClassicalDedekindReals.sig_forall_dec`, `ClassicalDedekindReals.sig_not_dec`, `Classical_Prop.classic`, `FunctionalExtensionality.functional_extensionality_dep` (125 theorems):
C33_distances_add_up, C33_none_iff_outside_too_long, C34_distance_is_length_in_layer, C34_share_of_overlap, C35_horizontal_line_of_sight, C35_horizontal_outside_is_dropped, C35_top_border_refuted, C35_same_position_gives_nan, C38_augmented_system_is_the_objective, C38_optical_depth, C38_coefficients_minimise_the_objective, C39_no_smoke_no_extinction, C40_linear_profiles_are_recovered, C40_no_regularisation_recovers_everything, C40_few_layers_are_underestimated, C41_bounds, C41_antitone, C41_strictly_antitone_in_a_crossed_layer, C43_nonlinear_start_refuted, C72_between_zero_and_amplitude, C72_half_amplitude_on_the_ellipse, C72_extents_are_swapped, C72_darker_along_every_ray, C72_point_symmetric, C72_centre_is_brightest, C72_centre_is_brightest_refuted, C73_same_spot, C73_best_fit_is_never_unique, C74_zero_cost_iff_reproduced, C74_no_perfect_fit_with_a_dark_pixel, C74_negative_extents_are_hardly_penalised, C74_fit_stays_in_the_area, C75_area_must_be_square, C75_led_at_the_lower_border_cannot_be_fitted, C75_reported_centre_is_transposed, C75_reported_centre_refuted, C93_fit_error, C93_coefficient_error, C93_depth_error, C93_noisy_profiles, C94_smoke_is_recovered, C95_led_without_distances_fails, C95_depths_given_to_the_solver, C95_led_out_of_view_fails, C95_dark_led_fails, C95_no_reference_fails, C99_without_preference, C99_many_leds, C99_clear_air_refuted, C104_from_the_photographs_to_the_smoke, C106_widmann_relation, C106_longer_waves_are_weakened_less, C106_nanometres, C106_real_iff_positive, C110_when_layers_are_told_apart, C110_when_the_light_determines_the_smoke, C110_one_led_in_every_layer, C110_fewer_leds_than_layers, C110_as_many_leds_as_layers_refuted, C119_coefficient_error, C119_noisy_profiles, C119_linear_profiles_are_recovered, C119_two_heights, C119_two_leds, C119_non_linear_solver, C119_analysis_with_few_leds, C119_from_the_photographs, C120_profiles_are_smoothed, C120_only_linear_profiles_are_exact, C120_every_profile_without_regularisation, C120_analysis_of_any_smoke, C120_from_the_photographs, C121_error_of_any_profile, C121_error_of_linear_profiles, C122_led_out_of_view_is_not_noticed, C122_all_smoke_looks_the_same, C123_any_borders, C123_distances_are_close, C123_horizontal_lines, C123_camera_at_a_border_refuted, C124_any_borders, C124_distances_of_the_machine, C124_horizontal_lines, C124_same_position_gives_nan, C124_double_precision, C124_double_precision_horizontal, C124_long_lines_of_sight_refuted, C125_analysis_with_rounded_distances, C126_depth_error, C126_one_image, C126_analysis_on_a_machine, C128_one_image, C128_analysis_on_a_machine, C129_from_the_pixels, C129_from_the_pixels_non_linear, C130_double_precision, C131_merged, C131_merged_non_linear, C131_descending_refuted, C132_linear_fails, C132_non_linear_fails, C132_one_led_left_refuted, C133_brightness_does_not_matter, C133_sum_and_mean, C133_distances_in_other_coordinates, C133_coordinate_system_does_not_matter, C133_exposure_refuted, C134_one_image, C134_unit_of_length, C134_same_regularisation_refuted, C134_bounds_refuted, C135_twice_the_smoke, C135_not_more_than_measured, C135_largest_coefficient, C135_thick_smoke_refuted, C136_same_smoke_same_light, C136_more_layers_fit_better, C136_one_layer_refuted, C138_ground_limits_the_smoke, C138_ground_is_subtracted_refuted, C139_no_more_smoke_than_there_is, C139_saturated_pixels_refuted, C140_difference_is_reported, C140_less_smoke_is_none, C140_steady_smoke_refuted.

`ClassicalDedekindReals.sig_forall_dec`, `ClassicalDedekindReals.sig_not_dec`, `ClassicalEpsilon.constructive_indefinite_description`, `Classical_Prop.classic`, `FunctionalExtensionality.functional_extensionality_dep` (8 theorems):
C93_solutions_exist, C93_contract_can_be_met, C121_there_is_a_best_result, C121_dense_smoke_is_cut_off, C121_analysis_of_any_smoke, C121_analysis_with_few_leds, C121_from_the_photographs, C121_two_leds_from_the_photographs.

