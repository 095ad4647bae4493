{"id": "C01", "title": "Step 1 numbers the LEDs 0,1,2,... and stops at max_num_leds", "statement": "For every reference image, percentile, radius and limit, the search terminates and the rows of the returned table carry the ids 0,1,...,n-1 in that order with n <= max(0,max_num_leds).", "quantifier": "all images, radii, percentiles and limits (including limits <= 0), and every way minMaxLoc may break ties", "why_tests_cant": "termination and the numbering must hold for every pixel pattern; a test fixes one image", "anchors": ["ledsa/data_extraction/step_1_functions.py:find_search_areas"]}
{"id": "C02", "title": "Step 1 only reports pixels of the image that exceed the threshold, brightest first", "statement": "Every reported (row, column) lies inside the image, its brightness in the ORIGINAL image is strictly above the percentile threshold, and the reported brightnesses are non-increasing.", "quantifier": "all non-negative images, radii, percentiles and limits, every tie-breaking", "why_tests_cant": "the search repeatedly overwrites its working copy; soundness w.r.t. the original image is an invariant over all iterations", "anchors": ["ledsa/data_extraction/step_1_functions.py:find_search_areas"]}
{"id": "C03", "title": "Step 1 misses no bright pixel unless it hits the limit", "statement": "For a radius >= 0: if fewer than max_num_leds LEDs are reported then every pixel of the image brighter than the threshold lies in the square [row-r,row+r) x [col-r,col+r) of some reported LED.", "quantifier": "all non-negative images, radii, percentiles, limits, tie-breakings", "why_tests_cant": "completeness is a statement about every pixel of every image", "anchors": ["ledsa/data_extraction/step_1_functions.py:find_search_areas"]}
{"id": "C04", "title": "Reported LEDs are separated - except at the top/left image border", "statement": "If a reported LED is at least r>=1 pixels away from the top and left border, no later LED lies in its square [row-r,row+r) x [col-r,col+r). Without that guard the claim is false: if the brightest pixel is unique and nearer than r to the top (or left) border of an image that is at least 2r high (wide), Python's negative slice start clears nothing and the same pixel is reported max_num_leds times.", "quantifier": "all non-negative images, radii, limits, tie-breakings; the negative half for every image with such a brightest pixel", "why_tests_cant": "the violation needs an LED in a border strip; ordinary test images keep LEDs away from it", "anchors": ["ledsa/data_extraction/step_1_functions.py:find_search_areas"]}
{"id": "C05", "title": "The brightness threshold is a percentile of the image", "statement": "The threshold lies between the darkest and the brightest pixel of the image, is monotone in the configured percentile, is at least 0 for non-negative images, and at most N-1-floor(q/100*(N-1)) of the N pixels are strictly brighter than it.", "quantifier": "all non-empty images and all percentiles 0..100", "why_tests_cant": "order statistics must hold for every multiset of pixel values", "anchors": ["ledsa/data_extraction/step_1_functions.py:find_search_areas"]}
{"id": "C06", "title": "Step 2 assigns every LED to at most one array", "statement": "When matching succeeds, the concatenation of all returned arrays contains no LED twice and only LEDs of the search-area table. If an id is repeated in the table, the LED takes part at the place of the first row and with the position of the last row.", "quantifier": "all search-area tables, all edge-index tables, all ignore lists, every distance function", "why_tests_cant": "depends on the order in which earlier arrays consume LEDs; unbounded number of layouts", "anchors": ["ledsa/data_extraction/step_2_functions.py:match_leds_to_led_arrays"]}
{"id": "C07", "title": "Each matched array runs from its first edge LED to its last edge LED", "statement": "Matching terminates; it fails exactly when an edge LED is not available any more (absent from the table or used by an earlier array); otherwise, if the two edge labels of an array differ, the array (before removal of ignored LEDs) starts with the first and ends with the second label. With equal labels the claim is false: the array then swallows every LED that is still unmatched.", "quantifier": "all tables with unique ids, all edge-pair tables, every distance function", "why_tests_cant": "the walk is a data-dependent loop; termination and end point need an invariant", "anchors": ["ledsa/data_extraction/step_2_functions.py:match_leds_to_led_arrays"]}
{"id": "C08", "title": "Ignored LEDs are removed and nothing else", "statement": "The returned arrays contain no LED of the ignore list; apart from that every array is the walked array with its order unchanged.", "quantifier": "all layouts and ignore lists (with repetitions and unknown ids)", "why_tests_cant": "list.remove only deletes one occurrence; correctness relies on uniqueness over all layouts", "anchors": ["ledsa/data_extraction/step_2_functions.py:_remove_ignored_leds"]}
{"id": "C09", "title": "The next LED minimises the weighted distance among the five nearest", "statement": "With exact real distances, the LED chosen after LED c on the way to edge e is one of the min(5,remaining) LEDs closest to c and minimises 0.987*|n-e| + |n-c| among them.", "quantifier": "all positions, all sets of remaining LEDs", "why_tests_cant": "a minimality claim over all candidate positions", "anchors": ["ledsa/data_extraction/step_2_functions.py:_find_next_led", "ledsa/data_extraction/step_2_functions.py:_find_neighbour_leds", "ledsa/data_extraction/step_2_functions.py:_find_closest_node"]}
{"id": "C10", "title": "Straight, well separated LED arrays are recovered exactly", "statement": "If every array is straight (each LED lies on the segment from its predecessor to the last edge LED) and each LED's successor is strictly the closest LED among those not yet passed, then matching returns exactly these arrays, each in spatial order.", "quantifier": "any number of arrays of any length in any orientation, with any other LEDs present", "why_tests_cant": "geometric correctness for all layouts", "anchors": ["ledsa/data_extraction/step_2_functions.py:match_leds_to_led_arrays"]}
{"id": "C11", "title": "Renumbering keeps every LED at its pixel position", "statement": "After step 2 the search-area table has one row per matched LED, row i has id i, and the LED with new id (array k, place j) has the pixel position the old LED at (array k, place j) had; the new ids are 0,1,2,... running through the arrays in order.", "quantifier": "all step-1 tables and all assignments", "why_tests_cant": "two separate renumberings (rows and index lists) must stay in step for every assignment", "anchors": ["ledsa/data_extraction/step_2_functions.py:reorder_search_areas", "ledsa/data_extraction/step_2_functions.py:reorder_led_indices"]}
{"id": "C12", "title": "Array index files round-trip (reversed)", "statement": "Loading the index files written by step 2 yields, for every array, the new ids in descending order; nothing is lost and the number of files equals the number of arrays.", "quantifier": "all assignments", "why_tests_cant": "file/in-memory order mismatch is only visible over whole pipelines", "anchors": ["ledsa/data_extraction/step_2_functions.py:generate_led_array_indices_files", "ledsa/data_extraction/DataExtractor.py:load_led_array_indices"]}
{"id": "C13", "title": "Merging arrays concatenates exactly the listed arrays", "statement": "Each merged array is the concatenation, in the configured order, of the listed existing arrays; unknown indices are skipped; a group that ends up empty is dropped. Therefore, if some group is empty, step 3 looks for more merge files than were written and fails.", "quantifier": "all array lists and merge configurations", "why_tests_cant": "quantifies over all merge tables", "anchors": ["ledsa/data_extraction/step_2_functions.py:merge_indices_of_led_arrays", "ledsa/data_extraction/DataExtractor.py:load_led_array_indices"]}
{"id": "C14", "title": "Step 2 cannot be applied twice to the same search areas", "statement": "After a completed step 2 every further step 2 is refused and changes no file, until step 1 has been completed again.", "quantifier": "all histories of completed step 1 / step 2 runs", "why_tests_cant": "a property of histories, not of one call", "anchors": ["ledsa/data_extraction/DataExtractor.py:match_leds_to_led_arrays", "ledsa/data_extraction/DataExtractor.py:find_search_areas", "ledsa/core/file_handling.py:set_flag", "ledsa/core/file_handling.py:check_flag", "ledsa/core/file_handling.py:remove_flag"]}
{"id": "C15", "title": "A crash inside step 2", "statement": "After a crash at any point of step 2, running step 1 and step 2 again produces the same search areas, flag and index files as an uninterrupted run. Re-running only step 2 is NOT safe: there is a crash point (table rewritten, flag not yet set) after which step 2 is accepted and renumbers the already renumbered table, giving a wrong assignment.", "quantifier": "all layouts and all crash points", "why_tests_cant": "crash points cannot be enumerated by unit tests", "anchors": ["ledsa/data_extraction/DataExtractor.py:match_leds_to_led_arrays"]}
{"id": "C16", "title": "The image number list enumerates the camera counter cyclically", "statement": "For 1<=first<=9999, last<=9999 and increment>=1 the list consists of every increment-th number of the cyclic sequence first, first+1, ..., 9999, 1, 2, ..., last (or first..last without wrap), each as zero-padded decimal of at least four digits; for first>9999 with wrap-around it fails.", "quantifier": "all first, last, increment", "why_tests_cant": "the wrap-around stride arithmetic has unbounded parameter combinations", "anchors": ["ledsa/data_extraction/init_functions.py:_find_img_number_list"]}
{"id": "C17", "title": "The analysis image table", "statement": "The table written for the analysis has one row per image of the number list, with consecutive ids 1..n and the formatted image names in order. The range starts at first_img_experiment_id, so the claim 'the analysed images are first_img_analysis_id..last_img_analysis_id' holds iff both first ids agree (refuted otherwise).", "quantifier": "all configurations", "why_tests_cant": "the wrong config key only matters for configurations where the two ids differ", "anchors": ["ledsa/data_extraction/init_functions.py:_build_img_data_string", "ledsa/data_extraction/init_functions.py:_save_analysis_infos"]}
{"id": "C18", "title": "Experiment times follow the EXIF clock", "statement": "The difference of two experiment times equals the difference of the EXIF times of the images. If the start time is derived from the first image, the first image gets the experiment time 'exif_time_infront_real_time' (so 0 only for offset 0), provided that subtracting the offset does not cross midnight; if it does, all times are off by whole days. A fractional offset 's.f' is applied as s seconds plus f MILLIseconds.", "quantifier": "all EXIF times, offsets and start times", "why_tests_cant": "clock arithmetic over all dates, offsets and midnight crossings", "anchors": ["ledsa/data_extraction/init_functions.py:_calc_experiment_and_real_time", "ledsa/core/ConfigData.py:get_start_time", "ledsa/core/ConfigData.py:get_datetime"]}
{"id": "C19", "title": "Image id and image name lookups are mutually inverse", "statement": "In the generated table get_img_name(get_img_id(name)) = name and get_img_id(get_img_name(id)) = id for all listed names and ids, provided names are distinct; unknown ids and names raise NameError.", "quantifier": "all tables, all ids and names", "why_tests_cant": "round-trip law over all tables", "anchors": ["ledsa/core/image_handling.py:get_img_name", "ledsa/core/image_handling.py:get_img_id"]}
{"id": "C20", "title": "Step 3 measures exactly the 2r x 2r square of each LED", "statement": "For an LED at least r away from the top/left border and at most (size-r) in each direction, sum, mean and max are those of the (2r)^2 pixels of its square. Near the bottom/right border the square is cut at the border. Nearer than r to the top or left border of an image that is at least 2r high and wide the measured area is empty and step 3 raises ValueError.", "quantifier": "all images, LED positions and radii", "why_tests_cant": "the border behaviour depends on Python slice semantics for every position", "anchors": ["ledsa/data_extraction/step_3_functions.py:_generate_led_analysis_data"]}
{"id": "C21", "title": "Step 3 produces one record per selected LED", "statement": "The records of an image are, in order, exactly the LEDs of the index files whose id is divisible by num_skip_leds+1, each tagged with the index of its array.", "quantifier": "all index lists and skip values", "why_tests_cant": "must hold for all tables", "anchors": ["ledsa/data_extraction/step_3_functions.py:generate_analysis_data"]}
{"id": "C22", "title": "Restart after an interruption between images completes the run", "statement": "If step 3 (one channel) is interrupted any number of times at image boundaries and restarted with -re, the final result files equal those of an uninterrupted run, whatever order the remaining images are processed in.", "quantifier": "all image lists, all interruption points, any number of interruptions, all processing orders", "why_tests_cant": "crash points and set iteration order", "anchors": ["ledsa/data_extraction/step_3_functions.py:find_and_save_not_analysed_imgs", "ledsa/data_extraction/DataExtractor.py:process_image_data", "ledsa/data_extraction/DataExtractor.py:setup_restart"]}
{"id": "C23", "title": "Restart does not repair a torn file or the other channels", "statement": "If the interruption happens while a result file is being written, the restart keeps the torn file forever; with several channels an image whose first-channel file exists is never completed for the other channels. (Both refute 'restart completes the run' in general.) Exactly the images without a first-channel file are reprocessed.", "quantifier": "all crash points inside a file or between channels", "why_tests_cant": "crash points inside a file cannot be hit deterministically by tests", "anchors": ["ledsa/data_extraction/step_3_functions.py:find_and_save_not_analysed_imgs", "ledsa/data_extraction/step_3_functions.py:_find_analysed_img_ids", "ledsa/data_extraction/step_3_functions.py:_save_results_in_file"]}
{"id": "C24", "title": "Parallel image processing is schedule independent", "statement": "For every interleaving of the file operations of the worker processes the final result files equal those of the serial run.", "quantifier": "all interleavings, numbers of workers and image lists with distinct ids", "why_tests_cant": "schedules cannot be enumerated", "anchors": ["ledsa/data_extraction/DataExtractor.py:process_image_data", "ledsa/data_extraction/DataExtractor.py:process_img_file"]}
{"id": "C25", "title": "The result file of an image can be read back", "statement": "Writing the records of an image and reading the file yields the same LED ids, array ids and maxima in the same order; the sums come back rounded to 5 significant digits: exactly if the sum has at most 5 digits, otherwise with relative error at most 5e-5 (and not exactly in general).", "quantifier": "all records", "why_tests_cant": "the precision loss shows only for sums above 99999", "anchors": ["ledsa/data_extraction/LEDAnalysisData.py:get_main_data_string", "ledsa/core/file_handling.py:read_table"]}
{"id": "C26", "title": "Result columns match the table columns in fast mode only", "statement": "Files written by -s3_fast have exactly the columns the table builder expects. In files written by -s3 (with fit) the maximum and led_center_x run together without a comma, so the table that is built from them has a max_col_val of at least 10*max (for a centre >= 1) and each of the 13 later columns holds its right neighbour's value (led_center_x holds led_center_y, ..., fit_nfev holds fit_time); a negative led_center_x makes the file unreadable. Files with another width (including the two documented old formats with 15 and 4 columns) or with a single LED cannot be loaded.", "quantifier": "all result files", "why_tests_cant": "column bookkeeping across modules; the wrong table loads without any error", "anchors": ["ledsa/core/file_handling.py:_get_column_names", "ledsa/core/file_handling.py:_get_old_columns", "ledsa/core/file_handling.py:create_binary_data", "ledsa/data_extraction/LEDAnalysisData.py:get_main_data_string", "ledsa/data_extraction/LEDAnalysisData.py:get_fit_data_string"]}
{"id": "C27", "title": "Every analysed image enters the binary table only if the counts divide", "statement": "For ascending ids the number of images loaded into the table equals the number of images analysed iff (num_skip_imgs+1) divides (last-first+1); otherwise exactly the last image is silently dropped and stacking times and coefficients for saving fails. For ids wrapping around at 9999 (no skipping) the counts agree iff num_img_overflow divides 9999 and is above 9999-(first-last), so among the numbers from the first id on only for 9999; larger overflow numbers ask for files that do not exist, and then no table is built. An analysis that starts after the first image of the experiment is miscounted.", "quantifier": "all id ranges, skips and overflow settings", "why_tests_cant": "off-by-one only for certain arithmetic combinations", "anchors": ["ledsa/core/file_handling.py:create_binary_data", "ledsa/data_extraction/init_functions.py:_find_img_number_list", "ledsa/analysis/ExtinctionCoefficients.py:save"]}
{"id": "C28", "title": "The table holds each image's LEDs sorted by id", "statement": "For each image the table rows are the rows of its result file sorted ascending by LED id, with the image id in front; images appear in ascending order.", "quantifier": "all result files", "why_tests_cant": "sorting and concatenation over all inputs", "anchors": ["ledsa/core/file_handling.py:create_binary_data", "ledsa/core/file_handling.py:_param_array_to_dataframe"]}
{"id": "C29", "title": "Each table row carries the coordinates of its own LED", "statement": "If the LED ids of an image are distinct and all occur in the coordinate table (sorted by id), the width/height appended to each row are those of that LED. With overlapping merge groups (an LED twice in an image) this is false.", "quantifier": "all result tables and coordinate tables", "why_tests_cant": "the positional pairing is right only under a global invariant", "anchors": ["ledsa/core/file_handling.py:_append_coordinates_to_params", "ledsa/core/file_handling.py:_append_coordinates"]}
{"id": "C30", "title": "The analysis can use outdated step-3 results", "statement": "The binary table is created on first use and never refreshed: after step 3, analysis, step 3 again, the analysis still sees the first results. Without a table file it sees the current ones.", "quantifier": "all histories of step 3 runs and table reads", "why_tests_cant": "a property of histories", "anchors": ["ledsa/core/file_handling.py:read_hdf", "ledsa/core/file_handling.py:create_binary_data"]}
{"id": "C31", "title": "Colour correction inverts the mixing matrix within int16", "statement": "If the corrected values are integers within -32768..32767 and all three channels are corrected, the stored values v satisfy M*v = raw. Values outside that range cannot be stored (refuted for sums above 32767); a channel list other than 0..n-1 picks wrong columns or fails; every value given with --cc_channels is appended to the default 0 1 2.", "quantifier": "all matrices and intensities", "why_tests_cant": "overflow appears only for large sums", "anchors": ["ledsa/analysis/data_preparation.py:apply_color_correction", "ledsa/core/file_handling.py:extend_hdf", "ledsa/core/parser_arguments_declaration.py:add_parser_argument_analysis"]}
{"id": "C32", "title": "Layers partition the domain", "statement": "For n>=1 and bottom<top the n layers have equal height, start at bottom, end at top, and every height in [bottom,top) lies in exactly one layer.", "quantifier": "all bounds, all n, all heights", "why_tests_cant": "real-valued quantification", "anchors": ["ledsa/analysis/Experiment.py:Layers", "ledsa/analysis/Experiment.py:Layer"]}
{"id": "C33", "title": "Distances through the layers add up to the line of sight", "statement": "If camera and LED are at different heights and both within the domain, the distances per layer are non-negative and sum to the Euclidean distance camera-LED, so the built-in consistency check accepts them; if the line of sight leaves the domain by more than the tolerance the result is None.", "quantifier": "all camera and LED positions, all domains and layer counts", "why_tests_cant": "real-valued quantification over geometry", "anchors": ["ledsa/analysis/Experiment.py:calc_traversed_dist_per_layer", "ledsa/analysis/Experiment.py:distance_calculation_is_consistent"]}
{"id": "C34", "title": "Each layer's share is its part of the line of sight", "statement": "The distance in a layer equals the Euclidean distance times (height of the overlap of layer and camera-LED height interval)/(height difference): it is the length of the part of the straight line of sight inside the layer; layers outside the interval get 0.", "quantifier": "all geometries, including vertical lines of sight", "why_tests_cant": "real-valued quantification", "anchors": ["ledsa/analysis/Experiment.py:calc_traversed_dist_per_layer_with_nonzero_alpha", "ledsa/analysis/Experiment.py:calc_traversed_height_in_layer"]}
{"id": "C35", "title": "Horizontal lines of sight", "statement": "If camera and LED have the same height z in [bottom,top), exactly the layer containing z gets the whole distance. At z=top the claim is false: every layer gets 0 and the result is None.", "quantifier": "all geometries with equal heights", "why_tests_cant": "the half-open border case is a measure-zero input", "anchors": ["ledsa/analysis/Experiment.py:calc_traversed_dist_in_plane"]}
{"id": "C36", "title": "Distance rows and intensity columns refer to the same LED", "statement": "For an array that was not merged, or merged from ascending array indices, row j of the distance matrix belongs to the LED with the j-th smallest id, i.e. to entry j of the intensity vector. For a merge list in non-ascending order this is false, and skipped LEDs (num_skip_leds > 0) break it as well; an array with a single LED or without index file makes the analysis fail.", "quantifier": "all assignments and merge configurations", "why_tests_cant": "the three reversals are spread over three modules; only a global argument shows they cancel", "anchors": ["ledsa/analysis/ExtinctionCoefficients.py:calc_distance_array", "ledsa/analysis/Experiment.py:get_led_ids", "ledsa/analysis/ExtinctionCoefficients.py:calc_and_set_ref_intensities", "ledsa/data_extraction/step_2_functions.py:merge_indices_of_led_arrays"]}
{"id": "C37", "title": "Reference intensities normalise the reference images", "statement": "For every LED the mean of intensity/reference over the reference images is 1, and a warning lists exactly the (image, LED) pairs whose relative deviation from the mean exceeds the tolerance (with mean 0: every value other than 0). Each value of an image is divided by the reference of the same LED position; differing numbers of LEDs are an error unless one of them is 1; a non-zero value over the reference 0 is infinite, 0/0 and missing values are not a number. An array without values in the table ends the analysis.", "quantifier": "all tables with non-zero means", "why_tests_cant": "universal arithmetic law", "anchors": ["ledsa/analysis/ExtinctionCoefficients.py:calc_and_set_ref_intensities", "ledsa/data_extraction/data_integrity.py:check_intensity_normalization"]}
{"id": "C38", "title": "Linear solver: the augmented system is the regularised least squares problem", "statement": "For every x, |A_aug x - b_aug|^2 = |A x - b|^2 + lambda*|second differences of x|^2 (for at least 3 layers; |x|^2 for fewer), with b = -ln(clip(I,1e-10,1)); the returned coefficients are non-negative and minimise it.", "quantifier": "all distance matrices, intensities and lambda>=0, for every solver meeting the NNLS contract", "why_tests_cant": "a statement about an optimisation problem for all inputs", "anchors": ["ledsa/analysis/ExtinctionCoefficientsLinear.py:calc_coefficients_of_img"]}
{"id": "C39", "title": "Linear solver: no smoke gives zero extinction", "statement": "If no LED is dimmed (all relative intensities >= 1) every layer traversed by at least one line of sight gets extinction coefficient 0.", "quantifier": "all geometries, intensities >= 1, every solver meeting the NNLS contract", "why_tests_cant": "universal", "anchors": ["ledsa/analysis/ExtinctionCoefficientsLinear.py:calc_coefficients_of_img"]}
{"id": "C40", "title": "Linear solver: layer profiles linear in height are recovered exactly", "statement": "If the intensities are produced by Beer-Lambert from non-negative coefficients that are an arithmetic progression over the layers (n>=3), are not below 1e-10, and the distance matrix has full column rank, then the solver returns exactly these coefficients. Without regularisation (lambda=0) every profile is recovered. With one or two layers and lambda>0 no smoke profile other than zero is ever returned exactly.", "quantifier": "all geometries, all such profiles, all lambda>=0, every solver meeting the NNLS contract", "why_tests_cant": "exact inversion for all inputs", "anchors": ["ledsa/analysis/ExtinctionCoefficientsLinear.py:calc_coefficients_of_img"]}
{"id": "C41", "title": "Beer-Lambert forward model", "statement": "The nonlinear solver's model intensity of an LED is exp(-sum sigma_i d_i); it lies in (0,1] for non-negative sigmas, is antitone in every sigma and the transmission through stacked smoke multiplies.", "quantifier": "all coefficients and distances", "why_tests_cant": "real-valued law", "anchors": ["ledsa/analysis/ExtinctionCoefficientsNonLinear.py:calc_intensities"]}
{"id": "C42", "title": "Nonlinear cost function", "statement": "The misfit is 0 iff the model reproduces the measured intensities, and it is the root mean square error divided by sqrt(number of LEDs), not the error itself; the curvature term is 0 iff the coefficients form an arithmetic progression. Without preference the cost is >= 0, and 0 exactly for arithmetic progressions reproducing the measurement. With a negative preference that outweighs the curvature (8*LEDs*layers*w_curv < -w_pref, true for the defaults up to 749 LED-layer pairs) more extinction in a layer crossed by no line of sight always lowers the cost, so an exact minimiser reports the upper bound 10 there.", "quantifier": "all coefficients, targets and weights", "why_tests_cant": "real-valued law", "anchors": ["ledsa/analysis/ExtinctionCoefficientsNonLinear.py:cost_function"]}
{"id": "C43", "title": "Parallel and serial computation of coefficients agree for the linear solver", "statement": "For a table with image ids 1..n and the same LEDs in each image, serial and multi-process computation give the same list of coefficients for every schedule of the pool. With other image ids the parallel run can fail while the serial run works. For the nonlinear solver agreement is false in general: the serial run starts each image from the previous result, the parallel run from zero.", "quantifier": "all tables, schedules and linear-type solvers; refuted for start-dependent solvers", "why_tests_cant": "schedules and solver state", "anchors": ["ledsa/analysis/ExtinctionCoefficients.py:calc_and_set_coefficients", "ledsa/analysis/ExtinctionCoefficients.py:calc_and_set_coefficients_mp", "ledsa/analysis/ExtinctionCoefficients.py:multiindex_series_to_nparray", "ledsa/analysis/ExtinctionCoefficientsNonLinear.py:calc_coefficients_of_img"]}
{"id": "C44", "title": "Solver selection", "statement": "Only the exact strings 'linear' and 'nonlinear' give a solver with its parameters loaded. With at least one image, every other spelling that is announced to work ('Linear', 'numeric', unknown -> default linear) reaches a solver whose parameters are None and fails.", "quantifier": "all solver strings", "why_tests_cant": "all strings", "anchors": ["ledsa/core/parser_arguments_run.py:extionction_coefficient_calculation", "ledsa/analysis/ExperimentData.py:load_config_parameters"]}
{"id": "C45", "title": "Edge LEDs get exactly the configured coordinates", "statement": "After a successful run the first LED of every array (last line of its index file) has exactly the first configured 3D point of this array and the last LED the second one, whatever the other arrays are, if no LED belongs to two arrays.", "quantifier": "all pixel positions and coordinates", "why_tests_cant": "linear algebra law over the reals", "anchors": ["ledsa/ledpositions/coordinates.py:_calculate_3d_coordinates", "ledsa/ledpositions/coordinates.py:LED", "ledsa/ledpositions/coordinates.py:_orth_projection"]}
{"id": "C46", "title": "LEDs between the edges are interpolated on the 3D line", "statement": "Every LED of the array gets P1 + t*(P2-P1) where t is the orthogonal-projection parameter of its pixel position on the pixel line of the two edges; t in [0,1] iff the projection falls between the edges. The run succeeds if all arrays have at least two LEDs of the table and independent edge positions; if the edge pixel positions of an array are collinear with the pixel origin the computation fails although the geometry is fine; it also fails for an array of one LED, and if an index file lists a LED that has no search area, or two of them.", "quantifier": "all pixel positions", "why_tests_cant": "real-valued law", "anchors": ["ledsa/ledpositions/coordinates.py:_calculate_3d_coordinates", "ledsa/ledpositions/coordinates.py:_orth_projection"]}
{"id": "C47", "title": "Projection onto the fitted plane", "statement": "Every projected point satisfies the plane equation, differs from the original by a multiple of the plane normal, keeps its z coordinate, is the nearest point of the plane, and projecting twice changes nothing.", "quantifier": "all points and planes with (a,b) != 0", "why_tests_cant": "real-valued law", "anchors": ["ledsa/ledpositions/coordinates.py:_project_points_to_plane"]}
{"id": "C48", "title": "2D width/height coordinates", "statement": "Heights are the z coordinates, the smallest width is 0 and all widths are >= 0. Width differences of points on the same side of x=0 are the distances along the wall times |n|/|b|, so they are distances iff the plane normal has a=0; points on both sides of x=0 are folded onto each other, and with exactly three LEDs the heights are x, y, z of the third LED.", "quantifier": "all point sets and planes", "why_tests_cant": "real-valued law; special cases", "anchors": ["ledsa/ledpositions/coordinates.py:_get_plane_coordinates", "ledsa/ledpositions/coordinates.py:_calculate_2d_coordinates"]}
{"id": "C49", "title": "Multi-column config values are parsed row by row", "statement": "A value consisting of k*c numbers yields the k rows in order; surplus numbers at the end are silently dropped; the text produced by the interactive edge-index prompt parses back to the entered pairs. Line ends carry no meaning: a missing number on one line shifts all later rows without notice.", "quantifier": "all token lists and column counts", "why_tests_cant": "round-trip law", "anchors": ["ledsa/core/ConfigData.py:get2dnparray", "ledsa/core/ConfigData.py:in_led_array_edge_indices"]}
{"id": "C50", "title": "List-valued analysis options", "statement": "get_list_of_values returns None for 'none' in any case and for blank values, the parsed list if all tokens parse, and the fallback if the option is missing or some token does not parse.", "quantifier": "all option values", "why_tests_cant": "decision logic over all strings", "anchors": ["ledsa/analysis/ConfigDataAnalysis.py:get_list_of_values"]}
{"id": "C51", "title": "Missing configuration values are requested once and stored", "statement": "After a dialogue without error every required value is present (unless the user typed 'None'); values that were present are unchanged except the date; the user is asked only for absent values, each once, and the answers are saved; the offset becomes image time minus clock time of the reference image. With the file written by --config the dialogue fails if only time_ref_img_file is given, because the file calls the other option time_img_id, which is never read.", "quantifier": "all configurations and all user answers (without percent signs, see C89)", "why_tests_cant": "all combinations of absent values", "anchors": ["ledsa/data_extraction/init_functions.py:request_config_parameters"]}
{"id": "C52", "title": "The ignore list is all-or-nothing", "statement": "ignore_led_indices is honoured iff every piece between single blanks is an integer; any double blank or stray character silently disables the whole list.", "quantifier": "all option strings", "why_tests_cant": "silent fallback on rare formatting", "anchors": ["ledsa/data_extraction/step_2_functions.py:_get_indices_of_ignored_leds"]}
{"id": "C53", "title": "Command line: channels and steps", "statement": "-rgb selects channels 0,1,2; otherwise -r/-g/-b select 0/1/2, default 0. A colour flag starts the slow step 3 - also together with -s3_fast (for -r,-g,-b) and with --restart, so '-s3_fast -g' processes all images twice, ending with the fast results, and '--restart -g' starts over. A restart never fits. Steps 1 and 2 and the coordinates run exactly if their flag is given. --config with up to three values creates the file with them as image directory, reference image and number of cores, in this order; with more than three values it creates no file.", "quantifier": "all flag combinations", "why_tests_cant": "all 2^n flag combinations", "anchors": ["ledsa/core/parser_arguments_run.py:run_data_extraction_arguments"]}
{"id": "C54", "title": "Height to layer conversion in post-processing", "statement": "For a height in [lower,upper) get_extco_at_height reads the layer that contains it; for the upper bound it addresses a non-existing layer; heights up to one layer below the domain silently read layer 0.", "quantifier": "all heights, bounds and layer counts", "why_tests_cant": "real-valued boundary cases", "anchors": ["ledsa/postprocessing/simulation.py:SimData.layer_from_height"]}
{"id": "C55", "title": "Moving average window", "statement": "With window w>=2 the smoothed value at step t is the mean of exactly the w raw values t-(w-w/2) .. t+w/2-1 (and missing if that range leaves the data); hence the window is never centred, contrary to the documentation (past minus future is 1 for even and 2 for odd w).", "quantifier": "all series and window sizes", "why_tests_cant": "all window sizes", "anchors": ["ledsa/postprocessing/simulation.py:SimData._apply_moving_average"]}
{"id": "C56", "title": "Time shift history", "statement": "After one set_timeshift(d) extinction coefficients and LED parameters are shifted by the same d. After several calls the coefficients are shifted by the sum, the LED parameters only by the last value - they diverge unless all earlier shifts sum to 0. The same holds for any order of shifting and reading. Values read per LED id are never shifted.", "quantifier": "all call histories", "why_tests_cant": "needs call histories", "anchors": ["ledsa/postprocessing/simulation.py:SimData.set_timeshift", "ledsa/postprocessing/simulation.py:SimData.get_ledparams_at_led_array"]}
{"id": "C57", "title": "Closest time", "statement": "get_closest_time returns a time of the table whose distance to the request is minimal.", "quantifier": "all tables and requests", "why_tests_cant": "minimality over all inputs", "anchors": ["ledsa/postprocessing/simulation.py:SimData.get_closest_time"]}
{"id": "C58", "title": "Result file names identify channel and LED array", "statement": "Parsing the file name written for (solver, channel, property, array) gives back channel and array, provided the directory contains neither 'channel_' nor 'array_' and the property followed by '_' does not contain 'array_'. A directory name containing such a text takes precedence: other numbers are read, silently.", "quantifier": "all channels, arrays, directories", "why_tests_cant": "string round-trip over all paths", "anchors": ["ledsa/analysis/ExtinctionCoefficients.py:save", "ledsa/postprocessing/simulation.py:SimData._get_extco_df_from_path"]}
{"id": "C59", "title": "Renaming photos loses nothing if new names are fresh", "statement": "If every image has a raw partner and no new name equals an existing file name, then after the renaming each image's content is found under its new name, the new names are pairwise distinct and numbered in order of capture date, and no other file changes. If a new name equals a not-yet-renamed file, that file's content can be lost without an error; if an image has no raw partner the tool fails when it reaches it, after renaming all earlier photos and none of the later ones.", "quantifier": "all directories, names and dates", "why_tests_cant": "collisions depend on all names present", "anchors": ["ledsa/tools/photo_renamer.py:rename_images_by_date", "ledsa/tools/photo_renamer.py:get_files"]}
{"id": "C60", "title": "Raw colour channels partition the sensor", "statement": "For a filter with colours 0..3 every pixel is non-zero in at most one of the channels 0,1,2, with the black level of that channel (both greens use that of channel 1), and the channels sum to the whole image if the black levels are equal. For black <= white/2, white < 2^15 and values that fit into 15 bits: results are between 0 and the white level, 0 at or below the black level, monotone in the raw value, white level from the white level on. Raw values above 2^15 can become black; other channels fail.", "quantifier": "all raw images and levels", "why_tests_cant": "pixelwise law over all sensors", "anchors": ["ledsa/core/image_reading.py:_read_channel_data_from_raw_file", "ledsa/core/image_reading.py:_read_img_array_from_raw_file"]}
{"id": "C61", "title": "Editing num_cores touches only the num_cores lines", "statement": "Replacing a parameter (by a value without newline) keeps the number of lines, changes only lines that contain the word and '=', keeps their left-hand side up to the first '=', and applying it twice equals applying it once. A missing parameter is not added. Lines of other parameters that merely mention the word are changed too.", "quantifier": "all files, words and values", "why_tests_cant": "all texts", "anchors": ["ledsa/demo/demo_setup.py:_replace_params_in_file"]}
{"id": "C62", "title": "The start time is derived from the first experiment image", "statement": "If no start time is configured, it is the EXIF time of the first experiment image minus the clock offset, provided img_directory ends with a slash or is empty and the name pattern has a plain {} placeholder. Without the slash a different path is read, and with a numeric placeholder such as {:04d} deriving the start time always fails.", "quantifier": "all directories, name patterns, image ids, EXIF contents", "why_tests_cant": "depends on the spelling of every directory and pattern", "anchors": ["ledsa/core/ConfigData.py:get_start_time"]}
{"id": "C63", "title": "LEDs outside all arrays take part in the 2D coordinates", "statement": "A LED that belongs to no array gets the position (-1,-1,-1); it takes part in the plane fit and in the minimum of the widths, so that the widths of all other LEDs can change although the fitted plane is the same.", "quantifier": "all tables and index files; refuted independence", "why_tests_cant": "needs an unassigned LED together with the geometry of all others", "anchors": ["ledsa/ledpositions/coordinates.py:_calculate_3d_coordinates", "ledsa/ledpositions/coordinates.py:_get_plane_coordinates"]}
{"id": "C64", "title": "Existing results are never found", "statement": "The analysis looks for an existing result file in a directory in which it never writes, so results are recomputed in every run, whatever was computed before and in whatever directory. It looks beside the working directory instead of in it and leaves out the solver directory.", "quantifier": "all working directories, solvers, channels, properties, arrays and histories of analysis runs", "why_tests_cant": "needs the set of all files ever written", "anchors": ["ledsa/core/parser_arguments_run.py:extionction_coefficient_calculation", "ledsa/analysis/ExtinctionCoefficients.py:save"]}
{"id": "C65", "title": "Which analysis parameters can be asked for", "statement": "A missing number of layers or missing channels are never asked for: without layers the run fails, without channels it fails or computes nothing. Missing LED arrays, domain bounds and camera position are asked for while loading; the later request_config_parameters changes nothing or the run fails although the user has just answered.", "quantifier": "all analysis configurations and all answers", "why_tests_cant": "all combinations of absent values and answers", "anchors": ["ledsa/analysis/ExperimentData.py:load_config_parameters", "ledsa/analysis/ExperimentData.py:request_config_parameters", "ledsa/core/parser_arguments_run.py:extionction_coefficient_calculation"]}
{"id": "C66", "title": "Colour correction and analysis in one call", "statement": "With --cc the correction is carried out twice with the same result as once, and the coefficients computed in the same call are those of the uncorrected values; naming the corrected column as reference property fails unless a former run created it.", "quantifier": "all tables, corrections and properties", "why_tests_cant": "relation between two runs over all data", "anchors": ["ledsa/core/parser_arguments_run.py:run_analysis_arguments", "ledsa/core/parser_arguments_run.py:apply_cc_on_ref_property", "ledsa/analysis/ExtinctionCoefficients.py:load_img_data"]}
{"id": "C67", "title": "Heights as labels of the extinction coefficients", "statement": "get_extco_at_led_array with yaxis='height' assigns the layer heights to the time index: it fails unless there are as many times as layers, and then the times are replaced by heights while the columns still carry layer numbers.", "quantifier": "all result tables, layers and bounds", "why_tests_cant": "needs all table shapes", "anchors": ["ledsa/postprocessing/simulation.py:SimData.get_extco_at_led_array"]}
{"id": "C68", "title": "Pixel values around a LED", "statement": "get_pixel_values_of_led never works with the radius of the configuration file (a text); with an explicit radius r it returns the flipped 2r x 2r square around the LED's position, found by row number; near the upper border the square has no lines, near the left border its lines are empty.", "quantifier": "all images, positions and radii", "why_tests_cant": "all positions relative to the border", "anchors": ["ledsa/postprocessing/simulation.py:SimData.get_pixel_values_of_led"]}
{"id": "C69", "title": "Saved results are read back", "statement": "The table written by the coefficient calculation is read back by the post-processing with the same layers, times and values, because the header is 8 lines long and the first 7 are skipped. A header value that contains a newline breaks this.", "quantifier": "all headers and tables", "why_tests_cant": "all header texts", "anchors": ["ledsa/analysis/ExtinctionCoefficients.py:save", "ledsa/postprocessing/simulation.py:SimData._get_extco_df_from_path"]}
{"id": "C70", "title": "Normalised LED parameters", "statement": "Normalised LED parameters have mean 1 over the n_ref reference rows, and the values per array and per LED agree up to the time shift; n_ref = 0 gives absolute values. If the reference values of an LED add up to 0, none of its values is a number.", "quantifier": "all tables and n_ref", "why_tests_cant": "algebraic law over all tables", "anchors": ["ledsa/postprocessing/simulation.py:SimData.get_ledparams_at_led_array", "ledsa/postprocessing/simulation.py:SimData.get_ledparams_at_led_id"]}
{"id": "C71", "title": "Grey values of images", "statement": "For PNG images every grey value is 0, so no LED can be found in them. For 8-bit JPEG images the grey value is the weighted mean rounded down, at most 254; a grey pixel of value v>0 becomes v-1. Exactly eight spellings of file extensions are accepted; others fail.", "quantifier": "all pixel values and file names", "why_tests_cant": "all pixel values", "anchors": ["ledsa/core/image_reading.py:_read_grayscale_img_array_from_img_file", "ledsa/core/image_reading.py:read_img_array_from_img"]}
{"id": "C72", "title": "The shape of the fitted light spot", "statement": "For a positive amplitude the spot has values strictly between 0 and the amplitude. It is point symmetric, decreases strictly along every ray from its centre, and equals half of the amplitude exactly on an ellipse turned by alpha (brighter inside, darker outside) whose half axis along x is dy and along y is dx - the reverse of the documented meaning. The centre is the brightest point if widths and extents are proportional, and need not be otherwise.", "quantifier": "all real parameters and positions (positive amplitude, extents and widths)", "why_tests_cant": "a law of a real function at all points and parameters", "anchors": ["ledsa/data_extraction/model.py:led_model"]}
{"id": "C73", "title": "The parameters of a fit are not determined", "statement": "Exchanging the extents and the widths while turning by 90 degrees, turning by 180 degrees, negating both extents or both widths, and turning a round spot leave the spot unchanged. For all parameters with |alpha| <= pi/2 there are different parameters with |alpha| <= pi/2 that cost the same for every search area, so a best fit is never unique.", "quantifier": "all real parameters, positions and pixel values", "why_tests_cant": "uniqueness quantifies over all parameters", "anchors": ["ledsa/data_extraction/model.py:led_model", "ledsa/data_extraction/model.py:target_function"]}
{"id": "C74", "title": "The cost of a fit", "statement": "For square search areas the cost is never negative and vanishes exactly if the spot reproduces all pixels (those below 5 % of the maximum set to 0) and position, extents, widths and angle are in the allowed region, which is exactly where the penalty vanishes. If one pixel is below 5 % of the maximum no parameters have cost 0. Negative extents cost only 1/dx^4+1/dy^4. An optimiser that does not return anything worse than the start keeps the centre in the area up to b/(1000 n) pixels to the lower right, and the widths and the angle within similar bounds.", "quantifier": "all pixel values in [0,b], all sizes n with b < 1000 n (n - 1/2), all parameters, every optimiser with that contract", "why_tests_cant": "optimality over a continuous parameter space", "anchors": ["ledsa/data_extraction/model.py:target_function", "ledsa/data_extraction/step_3_functions.py:_fit_model_to_led"]}
{"id": "C75", "title": "The fitted area and the reported centre", "statement": "Areas that are not square (both sides above 1) always fail with ValueError: an LED whose square is cut off at the lower border is measured by the fast mode but stops the fit mode. For a noise-free spot without dark pixels the true parameters have cost 0, and the centre reported for them has the offsets of row and column exchanged; it is right only if both offsets are equal.", "quantifier": "all images, positions, radii and spots", "why_tests_cant": "needs all spots and positions; images in tests are symmetric", "anchors": ["ledsa/data_extraction/step_3_functions.py:_fit_model_to_led", "ledsa/data_extraction/step_3_functions.py:_generate_led_analysis_data", "ledsa/data_extraction/model.py:target_function"]}
{"id": "C76", "title": "Created configuration files can be read back", "statement": "Loading the config.ini or config_analysis.ini written by the constructors gives exactly the documented sections and options, each with the text of its parameter, whatever the (single-line, stripped) texts without percent signs are (percent signs: C89); comment and empty keys disappear. The new object itself, before it is loaded from the file, raises KeyError for every option. The option time_ref_img_id read by the time handling is never in the file (it is written as time_img_id).", "quantifier": "all texts of all parameters", "why_tests_cant": "all texts, including '=', ':', '#', '[' inside values", "anchors": ["ledsa/core/ConfigData.py:ConfigData.__init__", "ledsa/core/ConfigData.py:ConfigData.load", "ledsa/analysis/ConfigDataAnalysis.py:ConfigDataAnalysis.__init__", "ledsa/analysis/ConfigDataAnalysis.py:ConfigDataAnalysis.load"]}
{"id": "C77", "title": "Saving a loaded configuration", "statement": "For every file that loads, saving and loading again gives the same sections, options and values, and a second save gives the same text. Setting one option before saving changes only this option, to the answer without surrounding blanks. An option set in DEFAULT is also what every section without an own option of this name shows; nothing else changes. Comments are lost.", "quantifier": "all file texts; all options, all answers without carriage return and percent sign", "why_tests_cant": "quantifies over all file contents", "anchors": ["ledsa/core/ConfigData.py:ConfigData.save", "ledsa/core/ConfigData.py:ConfigData.load", "ledsa/core/ConfigData.py:ConfigData.in_ref_img_id", "ledsa/analysis/ConfigDataAnalysis.py:ConfigDataAnalysis.save"]}
{"id": "C78", "title": "Values on several lines in configuration files", "statement": "Arrays typed in line by line give the same array before and after saving and loading. Multi-line values handed to the constructor are read back when every line is indented by at least three blanks; without indentation the created file can not be loaded at all.", "quantifier": "all typed lines that are no comments, all files", "why_tests_cant": "all line lists and file contents", "anchors": ["ledsa/core/ConfigData.py:ConfigData.in_led_array_edge_indices", "ledsa/core/ConfigData.py:ConfigData.get2dnparray", "ledsa/core/ConfigData.py:ConfigData.__init__", "ledsa/demo/demo_setup.py:_create_config_files"]}
{"id": "C79", "title": "The number of cores written into the demo files", "statement": "Editing num_cores in a created configuration file gives exactly the file that would have been created with that number of cores, so after loading only num_cores differs - provided no other value contains the word num_cores; otherwise that value is overwritten too.", "quantifier": "all parameter texts on one line and all numbers of cores", "why_tests_cant": "all texts", "anchors": ["ledsa/demo/demo_setup.py:_edit_config_files", "ledsa/demo/demo_setup.py:_replace_params_in_file"]}
{"id": "C80", "title": "The averaged list of images", "statement": "create_analysis_infos_avg keeps the first ten images and joins the others in consecutive pairs: the rows are numbered 1, 2, ..., every image is named in exactly one row in the old order, a pair has both names joined by a slash and the mean of both times, and a last image without partner stays alone. n images give n rows for n <= 10 and 10 + (n-9)/2 (rounded down) otherwise.", "quantifier": "all lists of images of any length", "why_tests_cant": "all lengths and names", "anchors": ["ledsa/core/file_handling.py:create_analysis_infos_avg"]}
{"id": "C81", "title": "Averaging over images has no effect but failures", "statement": "The averaged values that average_all_fitpar computes per LED are right and have the ids of the averaged image list, but they are never stored: the call always ends with an error. With average_images=True the analysis therefore uses single images: the first call fails if there is no table yet (and leaves the table of single images behind); with a table, saving fails for 12 or more images, and for up to 11 images the result is the one without averaging. After any history of calls, post-processing with average_images=True fails because the averaged table does not exist.", "quantifier": "all tables, image lists and histories of analysis calls", "why_tests_cant": "histories of calls, any number of images", "anchors": ["ledsa/core/file_handling.py:read_hdf_avg", "ledsa/core/file_handling.py:average_all_fitpar", "ledsa/analysis/ExtinctionCoefficients.py:load_img_data", "ledsa/analysis/ExtinctionCoefficients.py:save", "ledsa/postprocessing/simulation.py:__init__"]}
{"id": "C82", "title": "Coefficients read by time", "statement": "get_extco_at_time returns for every time of the result files the columns of exactly the arrays with a file of that channel, in ascending order, the rows 0, 1, ... up to the largest number of layers, and in each cell the value saved for that array, layer and time (the first row of the time in the file, no value if there is none). The order in which files are found does not matter when they have the same times. Two files for the same channel and array (for example two reference properties) make the channel unreadable by time: ValueError. No file at all gives ValueError, an unknown channel or time KeyError. The directory looked in is that of the solver. The whole table has one column per layer of each file, ordered by channel, LED array and layer.", "quantifier": "all sets of result files with equal times, or with distinct times inside each file", "why_tests_cant": "all numbers of files, arrays, layers and times", "anchors": ["ledsa/postprocessing/simulation.py:SimData._get_extco_df_from_path", "ledsa/postprocessing/simulation.py:SimData.get_extco_at_time"]}
{"id": "C83", "title": "The three views of the coefficients agree", "statement": "For every channel, array, layer and time, reading by time, by array and by layer shows the same (smoothed) value, and each view shows it once.", "quantifier": "all sets of result files, smoothing windows, arrays, layers and times", "why_tests_cant": "agreement of three functions on all inputs", "anchors": ["ledsa/postprocessing/simulation.py:SimData.get_extco_at_time", "ledsa/postprocessing/simulation.py:SimData.get_extco_at_led_array", "ledsa/postprocessing/simulation.py:SimData.get_extco_at_layer"]}
{"id": "C84", "title": "Layers labelled by height", "statement": "The height labels bottom, top and center differ from the true heights of the layer by at most 0.005, 0.005 and 0.01, and the top label of a layer is the bottom label of the next. Bottom and top labels differ for layers thicker than 0.01 and centre labels for layers thicker than 0.02; for thinner ones centre labels of different layers can coincide. Asking for heights changes only the labels; it fails exactly for an unknown reference or if the number of layers in the configuration is not that of the results.", "quantifier": "all domains and numbers of layers", "why_tests_cant": "rounding at all numbers of layers", "anchors": ["ledsa/postprocessing/simulation.py:SimData.get_extco_at_time", "ledsa/postprocessing/simulation.py:SimData.__init__"]}
{"id": "C85", "title": "Times, images and coefficients belong together", "statement": "The image found for a time is the first with this time (IndexError if there is none), and the coefficients shown for that time are those of this image, so later images with the same time are never shown. A time shift moves the coefficients, but not the images: after it the image of a time is another one than the one its coefficients come from.", "quantifier": "all lists of images, coefficients and shifts", "why_tests_cant": "all lists with repeated times", "anchors": ["ledsa/postprocessing/simulation.py:SimData.get_image_name_from_time", "ledsa/postprocessing/simulation.py:SimData.get_extco_at_time", "ledsa/postprocessing/simulation.py:SimData.set_timeshift"]}
{"id": "C86", "title": "LED parameters read by array", "statement": "Reading the LED parameters of an array succeeds exactly if no LED (for heights: no height) of the array is measured twice in the same whole second, and raises ValueError otherwise; so two images within one second make every array unreadable. Without smoothing the result has the shifted times in ascending order as rows, LEDs or heights in ascending order as columns, and each measurement relative to the mean of its reference rows in its place; a place without a measurement is empty. Smoothing with a window of w >= 2 rows keeps rows and columns and shows in each place the mean of exactly w unsmoothed values of the column, or no value if there are fewer. Channels other than 0, 1 and 2 end in UnboundLocalError.", "quantifier": "all tables in which each LED occurs once per image, all image lists with distinct ids", "why_tests_cant": "all tables and times", "anchors": ["ledsa/postprocessing/simulation.py:SimData._get_ledparams_df_from_path", "ledsa/postprocessing/simulation.py:SimData.get_ledparams_at_led_array"]}
{"id": "C87", "title": "Removing duplicate heights", "statement": "remove_duplicate_heights keeps a measurement exactly if no later row of the table, of whatever LED array, has the same time and height, and sorts the rows by time and height. An array whose LEDs all share their height with later rows of other arrays disappears. Afterwards every array can be read by height without error.", "quantifier": "all tables", "why_tests_cant": "all tables", "anchors": ["ledsa/postprocessing/simulation.py:SimData.remove_duplicate_heights", "ledsa/postprocessing/simulation.py:SimData.get_ledparams_at_led_array"]}
{"id": "C88", "title": "All three channels are needed", "statement": "Reading results succeeds exactly if the LED parameters of the channels 0, 1 and 2 exist and the coefficient files can be read; if one of them is missing it raises FileNotFoundError, even when only another channel was analysed.", "quantifier": "all states of the result directory", "why_tests_cant": "all combinations of existing files", "anchors": ["ledsa/postprocessing/simulation.py:SimData.read_all", "ledsa/postprocessing/simulation.py:SimData._get_ledparams_df_from_path"]}
{"id": "C89", "title": "Percent signs in configuration values", "statement": "A value can be stored and is read back exactly if its percent signs are doubled (and as it is if there are none). A text with a percent sign that is not followed by another one or by an opening parenthesis can not be stored: setting it raises ValueError, and so do the constructors, without writing a file. In a file written by hand it is loaded, but every access to the option fails. An option that refers to itself can not be read; a chain of references to other options is followed if it has at most ten, and refused otherwise. Some texts are accepted when stored but can not be read.", "quantifier": "all texts, options and configuration files", "why_tests_cant": "all texts", "anchors": ["ledsa/core/ConfigData.py:ConfigData.__init__", "ledsa/core/ConfigData.py:ConfigData.get", "ledsa/core/ConfigData.py:ConfigData.in_img_dir", "ledsa/analysis/ConfigDataAnalysis.py:ConfigDataAnalysis.__init__"]}
{"id": "C90", "title": "What one call of the program does, and in which order", "statement": "With --demo all other options are ignored and only the demo setup and the demo run are started; --setup, --run and --n_cores without --demo have no effect. --demo needs a non-empty --setup or --run, and a number of cores other than 0 needs --run; otherwise the program exits without doing anything. Whatever is done is done in the order: renaming of images, data extraction, preparation of the analysis, extinction coefficients, tests; with --config_analysis the file is created before the first colour correction, whatever fails. If nothing fails, the colour correction and the creation of config_analysis.ini happen twice in one call, everything else once. A missing config_analysis.ini is noticed only after the whole data extraction has been done.", "quantifier": "all parsed command lines, presence of both configuration files, and failures of the called programs", "why_tests_cant": "all combinations of eleven options and all failures", "anchors": ["ledsa/__main__.py:main", "ledsa/core/parser_arguments_run.py:run_tools_arguments", "ledsa/core/parser_arguments_run.py:run_demo_arguments", "ledsa/core/parser_arguments_run.py:run_analysis_arguments", "ledsa/core/parser_arguments_run.py:run_testing_arguments"]}
{"id": "C91", "title": "The demo runs five programs on its own configuration", "statement": "The demo runs step 1, step 2, step 3 fast for three channels, the coordinates and the analysis in this order and stops at the first failure. Started with n cores, n not 1, both configuration files load with n cores whatever the numbers before were; all other options keep their values. For the files of the demo itself and every n: the edge tables have seven rows, the experiment and the analysis have the same images 1 to 275, the analysis asks nothing and has 7 x 3 jobs. With --n_cores 1 the number in the files is kept, so the demo runs with 4 cores (refuted). The demo runs in the simulation directory of the working directory if there is one, whatever path was set up, and otherwise in the one of the path that is typed.", "quantifier": "all numbers of cores, all values of the options in the two files whose continuation lines are indented, all failures, all names in the working directory", "why_tests_cant": "the edit rewrites every line that contains a text; that it changes nothing else is a statement about all values", "anchors": ["ledsa/demo/demo_run.py:run_demo", "ledsa/demo/demo_setup.py:_edit_config_files", "ledsa/demo/demo_setup.py:_create_config_files", "ledsa/core/parser_arguments_run.py:run_demo_arguments"]}
{"id": "C92", "title": "Setting up the demo", "statement": "A question is repeated until the answer is yes or no in any case. Nothing is changed unless it is answered with yes, and a second question too if there is an earlier setup. If a setup is interrupted, the marker of a successful setup means that the images are extracted, but not that the configuration files are written (refuted). From an archive that starts with its directory every image is extracted with its content, and files of other names stay as they were; from an archive without an entry for the directory the first image is missing; a second directory in the archive ends the setup with an exception.", "quantifier": "all sequences of answers, all points of interruption, all archives with one directory, all earlier contents", "why_tests_cant": "all answer sequences and archives; the loop moves files while it extracts", "anchors": ["ledsa/demo/demo_setup.py:setup_demo", "ledsa/demo/demo_setup.py:_proceed_prompt", "ledsa/demo/demo_setup.py:_download_and_extract_images"]}
{"id": "C93", "title": "Linear solver: measuring errors are bounded in the result", "statement": "If every relative intensity is within a relative error e < 1 of the Beer-Lambert value of the true coefficients s (none of them below 1e-10), each optical depth the linear solver works with is within -ln(1-e) of the true one; clipping does not make the error larger. The optical depths of the result then differ from the true ones, summed over the squares, by at most four times the squared depth errors plus 2 lambda times the penalty of s; and if the lines of sight tell the layers apart (|A z|^2 >= c |z|^2 for some c > 0) the squared error of the coefficients is at most that sum divided by c. For three or more layers and coefficients which are linear in height this is 4 N ln(1-e)^2 / c for N LEDs, whatever lambda is; e = 0 gives exactness. If the lines of sight tell the layers apart, the objective has exactly one non-negative minimum, so the result does not depend on how nnls finds it.", "quantifier": "all distance matrices without negative entries, all non-negative true coefficients, all errors e < 1, all lambda >= 0", "why_tests_cant": "an inequality over all noise vectors and all geometries; a test sees single noise samples", "anchors": ["ledsa/analysis/ExtinctionCoefficientsLinear.py:calc_coefficients_of_img"]}
{"id": "C94", "title": "The smoke is recovered from the recorded sums, from the table to the coefficients", "statement": "Let the table hold the records of images 1..n, the LEDs of an array be in view of the camera and tell the layers apart (|A z|^2 >= c |z|^2), the smoke of every image be linear in height over at least three layers with no smoke in the reference images, no LED be dimmed below 1e-10, and every recorded sum be within a relative error eps of brightness times transmission. Then the linear analysis of the array succeeds and the squared error of the coefficients of every image is at most 4 N ln(1-r)^2 / c, with N LEDs and r the relative error of a quotient of two stored sums (r = 2t/(1-t), t = eps + (1+eps)/20000). This holds for every lambda >= 0, every merge of arrays, serially and in parallel, in whatever order the tasks end, and whatever the unknown brightness of each LED is.", "quantifier": "all arrays, merges, tables of records, positions, layers, smoke profiles linear in height, brightnesses, errors, lambda, numbers of cpus and task orders", "why_tests_cant": "one statement about the composition of index files, table, reference mean, distances, clipping and solver over all inputs; tests compare one scene with stored numbers", "anchors": ["ledsa/analysis/ExtinctionCoefficientsLinear.py:calc_coefficients_of_img", "ledsa/analysis/ExtinctionCoefficients.py:ExtinctionCoefficients.calc_and_set_coefficients", "ledsa/analysis/ExtinctionCoefficients.py:ExtinctionCoefficients.calc_and_set_coefficients_mp", "ledsa/core/parser_arguments_run.py:extionction_coefficient_calculation"]}
{"id": "C95", "title": "What makes the linear analysis of an array fail", "statement": "If for one LED of the array more than a micrometre of the line of sight is outside of the domain (or the LED is at the height of the camera outside of the domain or at the place of the camera), no image of the array gets coefficients; serially the analysis ends with ValueError. The same happens in every complete table if an LED has the value 0 in all reference images, because the reference images are analysed as well (0/0), and if no image of the table is a reference image and the array has two or more LEDs. Whenever the solver returns coefficients, the optical depth it was given for an LED is minus the logarithm of value over reference mean, limited to the range from 0 to ln 10^10; an LED with reference mean 0 counts as a free view if its value is positive and as fully dark if it is negative.", "quantifier": "all arrays, positions, tables, choices of reference images, numbers of cpus", "why_tests_cant": "absence of any successful run over all tables", "anchors": ["ledsa/analysis/ExtinctionCoefficientsLinear.py:calc_coefficients_of_img", "ledsa/analysis/ExtinctionCoefficients.py:ExtinctionCoefficients.calc_distance_array", "ledsa/analysis/ExtinctionCoefficients.py:ExtinctionCoefficients.calc_and_set_ref_intensities", "ledsa/analysis/Experiment.py:Experiment.calc_traversed_dist_per_layer"]}
{"id": "C96", "title": "The words of the command line and the options they mean", "statement": "A command line is accepted exactly if it can be read, without any word left over, as a sequence of uses of options: a name or an unambiguous beginning of a name (whose first two characters are not a one-letter option) followed by the values the option takes, a name with its value after an equals sign, or joined one-letter flags; a value is a word that does not begin with a hyphen, a negative number, or a word with a blank that resembles no option. The flags set, the last values of --config, --setup and --n_cores, and the colour channels 0 1 2 followed by all given ones are what the program then uses; the order of the options does not matter as long as no option with values is repeated; --config takes all words up to the next option. Every other command line, also one with --help or --, ends the program with SystemExit before anything is done. The five command lines of the demo mean the commands of C91. It is not true that joined one-letter flags mean the same in every order: -gr is accepted, -rg is not, and -rgb is an option of its own which differs from -bgr in the fast mode.", "quantifier": "all lists of words, all abbreviations, all orders", "why_tests_cant": "the set of accepted command lines is infinite and depends on all names together; a new option can make an abbreviation ambiguous", "anchors": ["ledsa/core/parser_arguments_declaration.py:add_parser_arguments_data_extraction", "ledsa/core/parser_arguments_declaration.py:add_parser_argument_analysis", "ledsa/core/parser_arguments_declaration.py:add_parser_arguments_demo", "ledsa/core/parser_arguments_declaration.py:add_parser_arguments_testing", "ledsa/__main__.py:main", "ledsa/demo/demo_run.py:run_demo"]}
{"id": "C97", "title": "Which images a restart regards as done", "statement": "The restart of step 3 reads a number from every name in the directory of the first channel that contains a number followed by _led_positions, any character and csv - the first such place, with all digits of the number - and from no other name. If the directory holds nothing but result files and names without such a place, and the table of images has distinct ids and names, the images of the restart are those of the table without a result file, each once; a result file of an image that is not in the table makes the restart fail. It is not true that an image is left out only if its result file exists: a backup copy of a result file is enough.", "quantifier": "all names of files, all directories, all tables of images", "why_tests_cant": "the set of names is infinite and contains everything that other programs or the user may put in the directory", "anchors": ["ledsa/data_extraction/step_3_functions.py:_find_analysed_img_ids", "ledsa/data_extraction/step_3_functions.py:find_and_save_not_analysed_imgs", "ledsa/data_extraction/step_3_functions.py:create_fit_result_file"]}
{"id": "C98", "title": "Which index files step 3 loads", "statement": "After a completed step 2 the index files with the numbers of its arrays hold these arrays, and all other index files are what they were. With a number of arrays n in the configuration, step 3 loads the n first arrays if step 2 made at least n - the others are silently not analysed -, and otherwise all arrays followed by the files of earlier runs, or it fails if one of these does not exist; if every row of edge labels has at least two labels, step 2 makes one array per row. With merging, step 3 loads exactly the merged arrays if every group contains a non-empty array; groups which step 2 dropped as empty are replaced by files of earlier runs at the end. It is not true that what is loaded comes from the last complete run of steps 1 and 2: an LED can then belong to two arrays or not exist at all.", "quantifier": "all states of the working directory, all configurations, all numbers of arrays", "why_tests_cant": "depends on files of arbitrary earlier runs with arbitrary other configurations", "anchors": ["ledsa/data_extraction/DataExtractor.py:DataExtractor.load_led_array_indices", "ledsa/data_extraction/DataExtractor.py:DataExtractor.match_leds_to_led_arrays", "ledsa/data_extraction/step_2_functions.py:generate_led_array_indices_files", "ledsa/data_extraction/step_2_functions.py:merge_indices_of_led_arrays"]}
{"id": "C99", "title": "How far a minimum of the nonlinear cost can be from the truth", "statement": "If the optimiser returned an exact minimum within the bounds, then for every profile within the bounds the intensities of the result are, in Euclidean distance, at most N*(2*N*w_curvature*total bend of the profile + 10*|w_preference|) further from the measured ones than the intensities of that profile (N LEDs). Hence for noise-free intensities of a linear profile every LED is reproduced up to 10*N*|w_preference|; without preference and with a matrix of full rank such a profile is recovered exactly. With a negative preference the mean coefficient of every minimum is at least 10 - 1/(|w_preference|*sqrt(N)), whatever was measured. It is not true that the minimum for clear air is near zero: with the default weights and 400 LEDs behind one metre of clear air it is the upper bound 10.", "quantifier": "all matrices, intensities, profiles, weights and numbers of LEDs and layers", "why_tests_cant": "real-valued profiles and intensities, and a minimum over a continuum; the effect of the preference appears only with many LEDs", "anchors": ["ledsa/analysis/ExtinctionCoefficientsNonLinear.py:cost_function", "ledsa/analysis/ExtinctionCoefficientsNonLinear.py:calc_coefficients_of_img", "ledsa/analysis/ExtinctionCoefficientsNonLinear.py:__init__"]}
{"id": "C100", "title": "Several calls on one object of coefficients", "statement": "Distances, image values and reference intensities are taken from the files of the first computation that gets that far; no later change of these files has any effect on the object. Distances of a computation that failed for want of image values are kept as well. Every serial computation appends the coefficients of all images to the list and never empties it (one that fails leaves the images before the failing one), so with as many times as images saving works after exactly one serial computation with a new object and raises ValueError after any other number. A computation with several processes replaces the list, whatever was in it. For a solver that starts from the stored coefficients it is not true that computing again gives the same result.", "quantifier": "all histories of computing and saving, all contents of the files at each call, all solvers without memory, all schedules of the pool", "why_tests_cant": "quantifies over histories of calls and of changes of the files between them", "anchors": ["ledsa/analysis/ExtinctionCoefficients.py:calc_and_set_coefficients", "ledsa/analysis/ExtinctionCoefficients.py:calc_and_set_coefficients_mp", "ledsa/analysis/ExtinctionCoefficients.py:set_all_member_variables", "ledsa/analysis/ExtinctionCoefficients.py:save"]}
{"id": "C101", "title": "Which rows of LEDs step 2 follows and how straight they have to be", "statement": "An array is found completely and in order if, seen from each of its LEDs, the next one minimises distance plus 0.987 times the distance to the edge LED among all LEDs that are not used yet. This is the case whenever the detour over the next LED is less than 13/987 of the difference between the distances to any other free LED and to the next one; so rows need not be straight exactly. Beyond this an LED is passed over in favour of one on the straight line. It is not true that every LED close to the line belongs to the array: of four LEDs at intervals of 10 pixels the second one, 2 pixels beside the line, is left out without any message (at 1 pixel it is found).", "quantifier": "all tables of LEDs with distinct ids, all numbers of arrays and of LEDs in them, all positions in the plane, stray LEDs included", "why_tests_cant": "real square roots and all layouts of LEDs; a test fixes one layout and cannot say how much it may be bent", "anchors": ["ledsa/data_extraction/step_2_functions.py:match_leds_to_led_arrays", "ledsa/data_extraction/step_2_functions.py:_find_next_led"]}
{"id": "C102", "title": "From the reference image to the measured values", "statement": "Let the pixels of the reference image that are brighter than the threshold be the lamps of some rows, further strays, and pixels in the search square of a strictly brighter lamp; no lamp lies in the square of another one, the rows are roughly straight (in the sense of C101) and the user enters the numbers which step 1 gave to the first and last lamp of each row. Then step 1 finds exactly the lamps and strays, steps 1 and 2 complete (in different processes), the stored table holds exactly the lamps of the rows, numbered through row by row, and step 3 gives for every further image of this size exactly one record per lamp, row by row and in each from the last lamp to the first, with the sum, the mean and the maximum of the pixels of the square around this lamp. The stored table and the index files depend on the positions of the lamps only, not on the order of their brightness, the strays, the threshold or earlier runs.", "quantifier": "all images, numbers and positions of rows, lamps and strays, all brightness orders, all earlier contents of the directory, all further images", "why_tests_cant": "relates three program runs over files for unbounded sets of images; a test checks one layout with one brightness order", "anchors": ["ledsa/data_extraction/step_1_functions.py:find_search_areas", "ledsa/data_extraction/step_2_functions.py:match_leds_to_led_arrays", "ledsa/data_extraction/step_2_functions.py:reorder_led_indices", "ledsa/data_extraction/step_2_functions.py:reorder_search_areas", "ledsa/data_extraction/DataExtractor.py:find_search_areas", "ledsa/data_extraction/DataExtractor.py:match_leds_to_led_arrays", "ledsa/data_extraction/DataExtractor.py:load_led_array_indices", "ledsa/data_extraction/step_3_functions.py:generate_analysis_data"]}
{"id": "C103", "title": "Colour correction of tables with different rows", "statement": "Let the tables of the channels hold each image and LED at most once. The correction completes exactly if the matrix has an inverse (otherwise nothing is written), all tables have the same rows and none is of the old layout (which can be read but not extended). Otherwise it stops with ValueError or KeyError at the first table that lacks a row of another one or is of the old layout, after the tables before have been overwritten; rows which another channel lacks are then nan converted to int16 in the first table. With the same rows in the same order every row gets the corrected value of its own image and LED; with the same rows in another order it is not true (the values are stored by position).", "quantifier": "all numbers of channels, matrices, tables and sets of missing rows, all conversions of nan", "why_tests_cant": "quantifies over all combinations of missing rows, and over partial writes before the failure", "anchors": ["ledsa/analysis/data_preparation.py:apply_color_correction", "ledsa/analysis/ExtinctionCoefficients.py:apply_color_correction", "ledsa/core/file_handling.py:extend_hdf", "ledsa/core/file_handling.py:read_hdf"]}
{"id": "C104", "title": "From the photographs to the smoke", "statement": "Take a reference image with roughly straight rows of light spots (and strays), steps 1 and 2 with the edge labels the user reads from the plot, step 3 in fast mode on the photographs, the binary table made of its result files, and the analysis of one LED array with the linear solver. If every photograph shows, summed over the square of each lamp, the brightness of the lamp times the transmission of smoke that is linear in height, up to a relative error, and the lines of sight tell the layers apart, then every step completes and the coefficients of every photograph differ from those of the smoke by no more than a bound that depends on this error and the five digits of the result files only.", "quantifier": "all images, lamps, strays, rooms, cameras, smoke profiles, numbers of photographs and cores, all solvers that minimise", "why_tests_cant": "composes all steps over all inputs; a test can only follow one experiment and knows no true smoke", "anchors": ["ledsa/data_extraction/step_1_functions.py:find_search_areas", "ledsa/data_extraction/step_2_functions.py:match_leds_to_led_arrays", "ledsa/data_extraction/step_3_functions.py:generate_analysis_data", "ledsa/core/file_handling.py:create_binary_data", "ledsa/analysis/ExtinctionCoefficientsLinear.py:calc_coefficients_of_img"]}
{"id": "C105", "title": "The list of the images step 3 works on", "statement": "The names written to images_to_process.csv are read back exactly if none of them contains a blank, and then step 3 works on these images, one or many or none. If a single image name of the table contains a blank, step 3 fails with ValueError or NameError before the first result is written, although the same names are accepted everywhere else. It is not true that a restart works on images that are not done only: with one image left whose name contains a blank it can work on other images and end without an error.", "quantifier": "all tables of images and all names", "why_tests_cant": "quantifies over all lists of names; the failure depends on how the names are cut into pieces and on the number of lines", "anchors": ["ledsa/data_extraction/step_3_functions.py:create_imgs_to_process_file", "ledsa/data_extraction/DataExtractor.py:process_image_data", "ledsa/core/file_handling.py:read_table", "ledsa/data_extraction/step_3_functions.py:_save_list_of_remaining_imgs_needed_to_be_processed"]}
{"id": "C106", "title": "The relation of Widmann", "statement": "For every positive wavelength the extinction is the number whose product with the wavelength to the power 1.0088 is 4.8081; longer waves are weakened less, more than in proportion. A wavelength given in nanometres, as the annotation int suggests, therefore gives less than a thousandth of the extinction of the same wavelength in micrometres. There is a real result exactly for positive wavelengths (0 raises ZeroDivisionError, negative ones give complex numbers).", "quantifier": "all real wavelengths", "why_tests_cant": "a statement about all wavelengths and their ratios", "anchors": ["ledsa/postprocessing/helper_functions.py:get_widman_extco"]}
{"id": "C107", "title": "Dates and times as texts", "statement": "Every date and time of the Gregorian calendar from year 1 to 9999 is read from the EXIF text of the camera, and with the same result from dd.mm.yyyy with or without leading zeros; whatever is read is a date of the calendar whose six numbers stand in the text in this order (February 30, second 60 or a two digit year are errors, and end the program if they stand in the configuration). The EXIF text must have exactly one blank. The experiment time of a photo taken n seconds after (before) the start is n (-n), counted second by second through the ends of days, months, years and leap Februaries; the order of the numbers is that of the calendar. The clock in the time reference image has no date: the stored offset is the true one exactly if camera and clock show the same day, and otherwise a whole number of days off.", "quantifier": "all dates of the calendar, all texts, all numbers of seconds", "why_tests_cant": "quantifies over all dates and all time spans; the errors lie at ends of days, months and leap years", "anchors": ["ledsa/data_extraction/init_functions.py:_get_datetime_from_str", "ledsa/data_extraction/init_functions.py:_calc_experiment_and_real_time", "ledsa/core/ConfigData.py:get_datetime", "ledsa/core/ConfigData.py:_get_datetime_from_str", "ledsa/core/ConfigData.py:in_time_diff_to_img_time", "ledsa/core/ConfigData.py:get_start_time"]}
{"id": "C108", "title": "Unreadable edge labels destroy the search areas", "statement": "Labels that are numbers are taken in pairs, from config.ini or from the prompt, and step 2 works with exactly these numbers, the ignored LEDs and the groups given. No LED array at all is left exactly if the option or the prompt fails, fewer than two words are given, or one word is not a number (for example '0, 1'); this is not reported as an error of the configuration. Step 2 then overwrites led_search_areas.csv by an empty table, fails while drawing the plot, and sets no flag; all other files stay. From then on every call of step 2 fails without touching a file, whatever the configuration says by then; step 1 followed by step 2 with readable labels gives the files of an undisturbed run.", "quantifier": "all option texts, all typed lines, all tables, all states of the directory, all numbers of later calls", "why_tests_cant": "a silent fallback whose damage shows in another function; needs all later histories", "anchors": ["ledsa/data_extraction/step_2_functions.py:_get_indices_of_outer_leds", "ledsa/data_extraction/step_2_functions.py:reorder_search_areas", "ledsa/data_extraction/DataExtractor.py:match_leds_to_led_arrays", "ledsa/data_extraction/DataExtractor.py:plot_search_areas"]}
{"id": "C109", "title": "Unreadable merge groups", "statement": "merge_led_array_indices is unreadable exactly if some line holds a word that is not a number. Step 2 then does what it does without merging: it ends in the same way, writes the same files, and leaves merged index files of earlier runs as they are. Step 3 of the same call analyses the arrays not merged, every later call fails when it loads the indices.", "quantifier": "all option texts, all layouts, all states of the directory", "why_tests_cant": "same configuration, different behaviour depending on whether steps 2 and 3 run in one call", "anchors": ["ledsa/data_extraction/step_2_functions.py:merge_indices_of_led_arrays", "ledsa/data_extraction/DataExtractor.py:match_leds_to_led_arrays", "ledsa/data_extraction/DataExtractor.py:load_led_array_indices"]}
{"id": "C110", "title": "Which positions tell the layers apart", "statement": "With camera and LEDs inside the domain the matrix of distances determines the extinction coefficients of the layers (its columns are independent) exactly if around every group of neighbouring layer borders, less than one layer away, lie at least as many different heights of camera and LEDs as there are borders; an LED at the height of the camera counts as a height of its own in the layer of the camera. Exactly then two different smoke profiles never give the same light at all LEDs. One LED strictly inside every layer, not at the height of the camera, is enough; fewer LEDs than layers never are, and as many LEDs as layers not always.", "quantifier": "all domains, numbers of layers, camera positions, all lists of LED positions, all smoke profiles", "why_tests_cant": "a statement about the solvability of every configuration, needing linear algebra over all profiles", "anchors": ["ledsa/analysis/Experiment.py:calc_traversed_dist_per_layer", "ledsa/analysis/Experiment.py:Layers", "ledsa/analysis/ExtinctionCoefficientsLinear.py:calc_coefficients_of_img"]}
{"id": "C111", "title": "Coordinates in the tables and the life of a process", "statement": "The first table a process builds gets the coordinates in the file at that moment (NaN without the file), and every table the same process builds later gets the same ones, whatever has been written to the coordinate file since. A stored table keeps its coordinates until it is deleted. Within one call of the command line the coordinates are calculated before any table is built, so all tables still missing get the new ones; but a table built first after coordinates were calculated, or built again after deleting it, may lack them or have old ones. A coordinate file that cannot be read stops the first table and is not remembered: with a right file the same process builds the table.", "quantifier": "all sequences of writing coordinates and results, reading and deleting tables and new processes; all files and records", "why_tests_cant": "hidden state in a function attribute: the result depends on the whole history of the process", "anchors": ["ledsa/core/file_handling.py:_append_coordinates", "ledsa/core/file_handling.py:create_binary_data", "ledsa/core/file_handling.py:read_hdf", "ledsa/ledpositions/coordinates.py:calculate_coordinates"]}
{"id": "C112", "title": "What constructing a DataExtractor creates", "statement": "With the default channels=(0), a number and no tuple, the constructor always fails; no directory has been created then, but without load_config_file a new config.ini has replaced the former one. With given channels all needed directories (plots, analysis, one per channel) are there before the first question is asked, everything that was there is unchanged and nothing else is new; a construction that finds them all creates nothing. A file named analysis makes it fail with at most the directory plots new.", "quantifier": "all contents of the working directory, all channel lists, all texts of config.ini, all later parts of the constructor", "why_tests_cant": "the default argument is never used by the tests; the frame part (nothing else changes) speaks about all paths", "anchors": ["ledsa/data_extraction/DataExtractor.py:__init__", "ledsa/data_extraction/init_functions.py:create_needed_directories", "ledsa/core/ConfigData.py:__init__"]}
{"id": "C113", "title": "The coordinate file, written and read back", "statement": "Of the file that calculate_coordinates writes, the tables get id, width and height of every LED in its order and the distance calculation gets x, y and z, all to half a millionth; in a new process the next table then has width and height of its own LED in every row, if the ids in the file ascend and contain the measured LEDs. With a single LED the distance calculation fails. It takes the row whose position is the id: if a search area has been removed by hand, later LEDs get the position of another LED there, while the tables still show their own.", "quantifier": "all rows of the coordinate file, all result files, all id lists", "why_tests_cant": "text formatting of arbitrary numbers (ties, carries, signs) and agreement of two readers on all files", "anchors": ["ledsa/ledpositions/coordinates.py:calculate_coordinates", "ledsa/core/file_handling.py:_append_coordinates", "ledsa/analysis/Experiment.py:get_led_positions"]}
{"id": "C114", "title": "Configured coordinates reach the analysis", "statement": "With search areas numbered from 0, every LED of an array has in the distance calculation a position on the straight line through the two configured points of its array, and its first and last LED have these points, up to the rounding of the file and of the floating point computation. The widths in the tables start at 0 and the heights there are the z coordinates (unless there are exactly three LEDs), with the same error.", "quantifier": "all search areas, index files, configured points, planes and roundings", "why_tests_cant": "a chain over four modules and two file formats; tests use one geometry with nominal values", "anchors": ["ledsa/ledpositions/coordinates.py:calculate_coordinates", "ledsa/ledpositions/coordinates.py:_calculate_3d_coordinates", "ledsa/ledpositions/coordinates.py:_calculate_2d_coordinates", "ledsa/analysis/Experiment.py:get_led_positions", "ledsa/core/file_handling.py:_append_coordinates"]}
{"id": "C115", "title": "Photos are numbered in the order of their capture times", "statement": "The file types asked for are the texts between the commas without blanks around them. For every date of the calendar that is in the EXIF entry DateTimeOriginal in its usual form, the photo renamer reads exactly this date; if SubSecTimeDigitized consists of one to six digits it is read as the decimal fraction of the second, otherwise (absent, empty, longer, padded with blanks) the fraction is zero. Conversely nothing but a date of the calendar is ever read. If one image has no readable date, nothing is renamed. If all dates are readable, every image has a raw file, the images have different stems and none of the names to be given is in use, then with any sort that orders by date every image and its raw file end up under day, name and a number from 1 to the number of images, no number is given twice, and an earlier photo (fractions included) has a smaller number. A fraction that is padded with a blank counts as the full second, so that a later photo of the same second can get the smaller number.", "quantifier": "all dates, fractions, sets of images, file types, directories and sorts by date", "why_tests_cant": "The space of dates and fractions and the permutations of photos are unbounded; the order of equal dates is not fixed by the library, so a test sees only one of the allowed orders.", "anchors": ["ledsa/tools/photo_renamer.py:24-75", "ledsa/tools/photo_renamer.py:78-134"]}
{"id": "C116", "title": "The questions of the photo renamer and its log", "statement": "As long as the answer is not yes, no file but the log is touched; after a no the log of renames that were not made stays behind. After yes each photo and raw file has its new name, no other file is touched, and the second answer decides about the log alone. The log has one row per photo, and undoing its rows restores every file. An answer other than yes or no to the second question leads back to the first, and another yes then fails with FileNotFoundError without changing anything. An image without raw file ends the tool after a yes: the photos before it have their new names, every other file is as before and the log stays. The log then lists renames that were not made.", "quantifier": "all sequences of answers, all directories and lists of photos whose new names are free", "why_tests_cant": "The answers form sequences of any length and the directory has any content; that the log restores every file is a statement about all names at once.", "anchors": ["ledsa/tools/photo_renamer.py:78-149"]}
{"id": "C117", "title": "The LEDs of an array in the analysis and in step 3", "statement": "The analysis and a later call of step 3 read the same file for the same array, whatever the files are. After a completed step 2 with readable groups of merged arrays this file holds, in reverse order, the LEDs that step 3 of the same call measures as this array; for the number of an array that does not exist the analysis gets what the file held before. With groups that cannot be read step 3 of the same call measures the arrays as they were found, whereas the analysis looks for the file of a merged array: without one it fails with TypeError, and with one of an earlier run it can take LEDs of which not a single one belongs to the measured array.", "quantifier": "all directories, LED positions, texts of the options edges, ignored LEDs and merged arrays, earlier runs and array numbers", "why_tests_cant": "Which file is read depends on an option of a configuration file and on files that earlier runs left behind; a test starts from a clean directory and one configuration.", "anchors": ["ledsa/analysis/Experiment.py:284-296", "ledsa/analysis/ExperimentData.py:106", "ledsa/core/ConfigData.py:191-221", "ledsa/data_extraction/DataExtractor.py:152-193"]}
{"id": "C118", "title": "The log of failed fits with several workers", "statement": "Whatever the order in which the operations of the workers are carried out, a run that ends without an exception has appended the entry of every failed fit exactly once to the log, those of one worker in their order and nothing else. A single process never fails to log. Several workers can fail, with FileExistsError for the directory of the log, exactly if this directory does not exist at the start and at least two workers have an entry to write.", "quantifier": "all numbers of workers, all lists of entries, all orders of the operations and all earlier logs", "why_tests_cant": "The order of operations is chosen by the operating system; a test sees a single one and the window between looking for the directory and making it is some microseconds long.", "anchors": ["ledsa/data_extraction/step_3_functions.py:145-156", "ledsa/data_extraction/step_3_functions.py:244-280", "ledsa/data_extraction/DataExtractor.py:220-243"]}
{"id": "C119", "title": "Smoke that is linear in height needs two LEDs only", "statement": "With regularisation (lambda > 0) and at least three layers, every solver that keeps the contract of nnls returns every smoke profile that is linear in height exactly, from exact intensities, if and only if the lines of sight tell any two linear profiles apart. Without preference the same holds for every non-linear solver that finds a minimum within the bounds, whatever its start. With camera and LEDs inside the domain they do exactly if two LEDs have different heights and do not lie in one layer (borders included) together with the camera; an LED at the height of the camera counts slightly higher. Two such LEDs suffice for any number of layers. For them a constant, given by the positions, the number of layers and lambda alone, bounds the error of the whole analysis by the relative error of the recorded sums, whatever the smoke, the brightness of the LEDs and the number of images and cores are; this includes the way from the photographs through steps 1 to 3 (as in C104). LEDs that are all in the layer of the camera, or all at the same height, are never enough.", "quantifier": "all domains, camera positions, lists of LED positions, numbers of layers, lambdas, linear smoke profiles, images and solvers meeting the contract", "why_tests_cant": "solvability of every configuration and an error bound over all profiles and images; a test fixes one geometry and one profile", "anchors": ["ledsa/analysis/Experiment.py:calc_traversed_dist_per_layer", "ledsa/analysis/ExtinctionCoefficientsLinear.py:calc_coefficients_of_img", "ledsa/analysis/ExtinctionCoefficients.py:calc_and_set_coefficients_mp"]}
{"id": "C120", "title": "Smoke of any profile: what regularisation costs", "statement": "With regularisation (lambda > 0), at least three layers and exact intensities, the profile reported by any solver that keeps the contract of nnls is strictly less rough (sum of the squared second differences) than the smoke unless the smoke is linear in height, and the optical depths it stands for are off by at most lambda times the roughness that is lost (squares summed). So, where the lines of sight tell linear profiles apart, exactly the linear profiles are reported as they are. Without regularisation (lambda = 0) every profile is reported exactly by every such solver if and only if the heights of camera and LEDs are spread over the layers (the condition of C110). Under that condition a constant K, given by the positions and the number of layers alone, bounds the squared error of the whole analysis by K (ln(1-r)^2 + lambda * penalty of the smoke), r being the relative error of the intensities, for every non-negative smoke, every lambda >= 0 and every number of images and cores; this includes the way from the photographs through steps 1 to 3 (as in C104).", "quantifier": "all domains, camera positions, lists of LED positions, numbers of layers, lambdas, smoke profiles, images and solvers meeting the contract", "why_tests_cant": "an error bound over all profiles and a statement on every solver; a test fixes one profile, usually a constant one, for which regularisation does no harm", "anchors": ["ledsa/analysis/Experiment.py:calc_traversed_dist_per_layer", "ledsa/analysis/ExtinctionCoefficientsLinear.py:calc_coefficients_of_img", "ledsa/analysis/ExtinctionCoefficients.py:calc_and_set_coefficients_mp"]}
{"id": "C121", "title": "Error of the whole analysis with the non-linear solver", "statement": "If minimize returns a smallest cost within the bounds (0, 10) whenever there is one, then there always is one: for at least one layer and one LED with finite distances and intensities the cost has a smallest value within the bounds. For smoke of any profile with coefficients between 0 and 10, if the heights of camera and LEDs are spread over the layers (the condition of C110), a constant K, given by the positions and the number of layers alone, bounds the error of the whole analysis of every image: the distance of the reported profile from the smoke is at most K times (relative error of the intensities + weighting_curvature * bend of the smoke + |weighting_preference|), for every number of images and cores and every order of the pool; the relative error includes the five digits the table keeps. With weighting_curvature > 0 and smoke linear in height two LEDs at different heights whose lines of sight are not in one layer with the camera suffice, with the bound K (relative error + |weighting_preference|). Both hold from the photographs on (as in C104). A layer with a coefficient v >= 10 is always reported with an error of at least v - 10.", "quantifier": "all domains, camera positions, lists of LED positions, numbers of layers, weights, smoke profiles, images and minimisers meeting the contract", "why_tests_cant": "an error bound over all profiles, weights and images, and the existence of a minimum over the reals; a test runs one optimisation on one profile", "anchors": ["ledsa/analysis/ExtinctionCoefficientsNonLinear.py:calc_coefficients_of_img", "ledsa/analysis/ExtinctionCoefficientsNonLinear.py:cost_function", "ledsa/analysis/ExtinctionCoefficients.py:calc_and_set_coefficients_mp", "ledsa/analysis/Experiment.py:calc_traversed_dist_per_layer"]}
{"id": "C122", "title": "An LED outside the domain silently blinds the non-linear solver", "statement": "If the distances of one LED of the array, or its relative intensity, are nan, the cost that minimize sees is no number for any coefficients: the call for this image still succeeds and its result depends on nothing but the start value. Hence, if one LED of the array is out of view (more than a micrometre of its line of sight outside the domain, at camera height outside the domain, or at the place of the camera), the whole non-linear analysis ends without an error and with one profile per image, and none of the profiles depends on the table: two experiments with the same images and LEDs get the same profiles, whatever the smoke did. The linear solver refuses every such experiment (C95).", "quantifier": "all minimisers, weights, domains, positions, tables with complete images, numbers of cores and orders of the pool", "why_tests_cant": "a statement on the result for all tables and all minimisers; a test that compares two experiments shows it for these two only", "anchors": ["ledsa/analysis/ExtinctionCoefficientsNonLinear.py:calc_coefficients_of_img", "ledsa/analysis/ExtinctionCoefficientsNonLinear.py:cost_function", "ledsa/analysis/ExtinctionCoefficients.py:calc_distance_array", "ledsa/analysis/Experiment.py:calc_traversed_dist_per_layer"]}
{"id": "C123", "title": "Layers with rounded borders", "statement": "Let every operation of np.linspace have a relative error of at most u <= 1/16 (with the bottom itself representable). Each computed border of the n layers is off by at most 10 u times the larger of |bottom| and |top|, and the last one is exactly the top. If 20 u n times this size is less than the height of the domain, the computed borders ascend strictly from bottom to top and the layers divide the domain: every height from the bottom up to, but without, the top is in exactly one layer, every other height in none. For any such borders the distances of a line of sight that is not horizontal are the exact lengths of its parts between the borders, add up to its length inside the domain, and the line is dropped exactly when more than a micrometre lies outside; against exact borders the line is dropped or kept alike and each distance changes by at most 20 u times the size times length over height difference. A horizontal line gives the same row if the camera is further than 10 u times the size from every border between two layers; at such a border the whole distance can go to the neighbouring layer, however small u is.", "quantifier": "all u, roundings, domains, numbers of layers, camera and LED positions", "why_tests_cant": "a statement over all roundings and all positions; a test checks a few domains whose borders are often exactly representable", "anchors": ["ledsa/analysis/Experiment.py:__post_init__", "ledsa/analysis/Experiment.py:calc_traversed_dist_per_layer", "ledsa/analysis/Experiment.py:calc_traversed_height_in_layer", "ledsa/analysis/Experiment.py:calc_traversed_dist_in_plane"]}
{"id": "C124", "title": "Distances with the arithmetic of the machine", "statement": "Let every subtraction, multiplication, addition, division, square root, arcus tangent and sine of the distance calculation have a relative error of at most u <= 1/200, no arcus tangent exceed a right angle, and np.sum have one such error per number. Let n layers lie between ascending borders and (n+18) u <= 1/2; call 2 (n+18) u times the length of a line of sight its tolerance. A line that is not horizontal is kept if its length outside the domain plus the tolerance is at most a micrometre and dropped if the length outside minus the tolerance is more; each of its distances has a relative error of at most 12 u against the exact length between the borders, and it never gives nan. With borders rounded as well, each distance inside the domain differs from the one of exact arithmetic by at most 12 u of it plus 22 u times the size of the borders times length over height difference. A horizontal line inside the domain gives its length, up to 12 u, to the layer of the camera and exactly 0 to every other layer; one outside is dropped if longer than a micrometre and the tolerance. An LED at the place of the camera gives nan. With four units in the last place of double precision (u = 2^-50) no line of up to 500 m inside the domain (below its top if horizontal) is lost with up to a million layers; but for every u some line of length 1/u inside the domain is lost.", "quantifier": "all u, machines meeting the error bounds, borders, numbers of layers, camera and LED positions", "why_tests_cant": "the consistency check compares two floating point sums; whether rounding alone can make it reject a line of sight is a statement over all roundings and positions", "anchors": ["ledsa/analysis/Experiment.py:calc_traversed_dist_per_layer", "ledsa/analysis/Experiment.py:calc_traversed_dist_in_plane", "ledsa/analysis/Experiment.py:calc_traversed_dist_per_layer_with_nonzero_alpha", "ledsa/analysis/Experiment.py:calc_traversed_height_in_layer", "ledsa/analysis/Experiment.py:distance_calculation_is_consistent"]}
{"id": "C125", "title": "The analysis with rounded distances", "statement": "Let camera and LEDs lie inside the domain so that the heights tell the layers apart (C110), and let the camera not lie on an inner border if an LED has its height. There are K > 0 and u0 > 0, given by the positions and the layers alone: on every machine whose operations for borders and distances have relative errors of at most u <= u0 (and which represents the bottom of the domain exactly) the analysis with the linear solver succeeds for all photographs, all smoke and all regularisations, and the squared error of every profile is at most K (ln^2(1-e) + lambda * penalty of the smoke + u^2 * squared norm of the smoke), where e is the relative error of the intensities.", "quantifier": "all machines meeting the error bounds, positions, numbers of layers, smoke profiles, tables, solvers meeting the contract of nnls", "why_tests_cant": "a continuity statement over all roundings and all inputs: small errors of the distance matrix must not be amplified without bound by the solver", "anchors": ["ledsa/analysis/ExtinctionCoefficients.py:calc_distance_array", "ledsa/analysis/Experiment.py:calc_traversed_dist_per_layer", "ledsa/analysis/ExtinctionCoefficientsLinear.py:calc_coefficients_of_img"]}
{"id": "C126", "title": "The linear analysis on a machine", "statement": "As C125, and in addition the quotients of intensities, the logarithms, the square root of lambda and the rows of the regularisation are rounded with relative errors of at most u, the mean over the reference images has a relative error of at most mu (see C130), and nnls only comes within tol of the smallest sum of squares: the analysis succeeds and the squared error of every profile is at most K (ln^2(1-e) + lambda * penalty of the smoke + tol + u^2 (1 + (1 + lambda) * squared norm of the smoke)), with K given by the positions and the layers alone; here e is the relative error of the relative intensities if the recorded values (the sums, means or maxima, whichever reference property is chosen) have the relative error eps + 2 mu. One rounded optical depth is off by at most -ln(1-e) + 36 u.", "quantifier": "all machines meeting the error bounds, tolerances, positions, numbers of layers, smoke profiles, tables, lambda", "why_tests_cant": "a bound over all roundings, tolerances and inputs; tests sample one machine", "anchors": ["ledsa/analysis/ExtinctionCoefficients.py:calc_and_set_coefficients", "ledsa/analysis/Experiment.py:calc_traversed_dist_per_layer", "ledsa/analysis/ExtinctionCoefficientsLinear.py:calc_coefficients_of_img"]}
{"id": "C127", "title": "Result files without times", "statement": "Result files of earlier versions have no column with the time; their rows are paired with the list of images by position, and the times are cut to whole seconds. With one row per image and times of at least 0, for every image that is the first of its second the coefficients shown for that second are those of its row, for every LED array and layer of the channel. If all times are whole seconds, such a file is read exactly like the file with the times of the images, whatever other files there are. Rows beyond the number of images are silently ignored. With half seconds (averaged images) the positive part fails: one of two images in the same second vanishes from the result, and next to a file with times the coefficients of a file without times are missing at the time of the image.", "quantifier": "all lists of images, directories with files of both kinds, numbers of layers, times", "why_tests_cant": "an alignment claim over all files and time lists; a test with the shipped data has one kind of file only", "anchors": ["ledsa/postprocessing/simulation.py:SimData._get_extco_df_from_path", "ledsa/postprocessing/simulation.py:SimData.get_extco_at_time"]}
{"id": "C128", "title": "The non-linear analysis on a machine", "statement": "The analysis with the non-linear solver, with every operation of the borders, distances, relative intensities and cost function rounded with a relative error of at most u, an exponential with an absolute error of at most u for arguments up to 0, a mean over the reference images with a relative error of at most mu, and a minimiser that comes within tol > 0 of the infimum of the cost it sees: if the lines of sight tell the layers apart, no LED at the height of the camera lies on an inner border and the smoke is at most 10 per metre, the analysis succeeds, and the error of every profile is at most K (e + wc * bend of the smoke + |wp| + tol + (1 + wc + |wp|) u), where e is the relative error of the relative intensities if the recorded values (the sums, means or maxima, whichever reference property is chosen) have the relative error eps + 2 mu, wc and wp are the weights, and K and the largest u allowed are given by the positions and the layers alone. For one image the bound is explicit up to one constant that depends on the numbers of layers and LEDs.", "quantifier": "all machines meeting the error bounds, tolerances, positions, numbers of layers, smoke profiles, tables, weights, minimisers, start values", "why_tests_cant": "a bound over all roundings, minimisers and inputs; tests sample one machine and one minimiser", "anchors": ["ledsa/analysis/ExtinctionCoefficients.py:calc_and_set_coefficients", "ledsa/analysis/Experiment.py:calc_traversed_dist_per_layer", "ledsa/analysis/ExtinctionCoefficientsNonLinear.py:calc_coefficients_of_img", "ledsa/analysis/ExtinctionCoefficientsNonLinear.py:calc_intensities", "ledsa/analysis/ExtinctionCoefficientsNonLinear.py:cost_function"]}
{"id": "C129", "title": "From the pixels to the smoke on a machine", "statement": "The whole program: steps 1 and 2 find and order the lamps of the reference image, step 3 measures the photographs in fast mode, the result files are collected in the table, and the analysis of an LED array runs with the rounded arithmetic of C126 (linear solver) or C128 (non-linear solver). If every pixel in the square of radius r around a lamp of the array shows its light without smoke times the Beer-Lambert transmission of the line of sight, up to an absolute error eta (one half for a camera that rounds to integers, more with noise or light from elsewhere), and every square gets at least the light L in every photograph (all its pixels together for the sum, their mean for the mean, the brightest of them for the maximum, whichever is the reference property), then the recorded values are correct up to the relative error 4 r^2 eta / L for the sum and eta / L for the mean and the maximum, the program runs without an error, and every profile differs from the smoke by at most the bound of C126 or C128 for this relative error (plus twice the one of the mean over the reference images); the constant and the largest unit roundoff allowed are given by the positions and the layers alone.", "quantifier": "all reference images with separated lamps, photographs, pixel errors, smoke profiles, machines, solvers within the tolerance, positions and numbers of layers", "why_tests_cant": "a claim about all photographs of all smoke profiles through the whole program; a test has one set of photographs and no known smoke", "anchors": ["ledsa/data_extraction/step_1_functions.py:find_search_areas", "ledsa/data_extraction/step_2_functions.py:match_leds_to_led_arrays", "ledsa/data_extraction/step_3_functions.py:generate_analysis_data", "ledsa/core/file_handling.py:create_binary_data", "ledsa/analysis/ExtinctionCoefficients.py:calc_and_set_coefficients", "ledsa/analysis/ExtinctionCoefficientsLinear.py:calc_coefficients_of_img", "ledsa/analysis/ExtinctionCoefficientsNonLinear.py:calc_coefficients_of_img"]}
{"id": "C130", "title": "The mean over the reference images with rounding", "statement": "Let every addition and the division of the mean of the reference values of an LED be rounded with a relative error of at most u <= 1 (for numbers that are not negative). Whatever the order of the additions, as long as every value is added once, the mean of up to N values that are not negative has a relative error of at most (1+u)^N - 1, and empty cells are left out as in the exact mean. Adding from left to right and adding the halves of the list, as numpy does, are such orders. In double precision (u = 2^-52) the error is at most 3e-10 for up to a million reference images. Different orders can give different means.", "quantifier": "all roundings meeting the error bound, orders of the additions, numbers of reference images, values", "why_tests_cant": "a bound over all roundings and summation orders; a test sees the order of one version of pandas", "anchors": ["ledsa/analysis/ExtinctionCoefficients.py:calc_and_set_ref_intensities"]}
{"id": "C131", "title": "Merged LED arrays, from the pixels to the smoke", "statement": "As C102 and C129, with groups in merge_led_array_indices that list at least one row each and only rows that exist: step 2 completes, what step 3 loads are the rows of each group joined in the order of the group (whatever number of arrays is configured), and step 3 gives exactly one record per group and lamp of its rows, group by group and in each from the last lamp to the first, with the sum, the mean and the maximum of the square around this lamp. If the row numbers in every group ascend, and the LEDs of all rows of a group together tell the layers apart - which the rows alone need not do -, the analysis of the merged array on a machine succeeds and every profile differs from the smoke by at most the bound of C126 (linear solver) or C128 (non-linear solver) for the relative error of the recorded property, as in C129. With the same rows listed in descending order the analysis can report the profile upside down: the smoke under the ceiling appears on the floor, for exact photographs, without any residual and for every weight of the regularisation.", "quantifier": "all reference images with separated lamps, groups of rows, photographs, pixel errors, smoke profiles, machines, solvers within the tolerance, positions and numbers of layers", "why_tests_cant": "the numbering of step 2, the merged index files, step 3 and the analysis have to agree on the order of the LEDs for every grouping", "anchors": ["ledsa/data_extraction/step_2_functions.py:merge_indices_of_led_arrays", "ledsa/data_extraction/DataExtractor.py:load_led_array_indices", "ledsa/analysis/Experiment.py:get_led_ids", "ledsa/analysis/ExtinctionCoefficients.py:calc_and_set_coefficients"]}
{"id": "C132", "title": "Skipped LEDs", "statement": "If LEDs are skipped in step 3 (num_skip_leds > 0) and an LED of an array (of at least two LEDs, not merged or merged from ascending rows) was left out for it, the analysis of this array never gives coefficients with the linear solver, with one or several processes and whatever the solver does: it ends with an exit if no LED of the array was recorded and with a ValueError otherwise. Without merging, every array of at least two LEDs loses one. The non-linear solver fails in the same way unless exactly one LED of the array is left; then it compares every line of sight with this one LED and can report clear air although the upper layer darkens the other LED to a 32nd of its light.", "quantifier": "all arrays, numbers of skipped LEDs, photographs, tables, reference properties, positions, solvers, numbers of processes and schedules", "why_tests_cant": "that no choice of images, positions and schedule gives a result; the case of a single LED left needs a particular array and does not raise an error", "anchors": ["ledsa/data_extraction/step_3_functions.py:generate_analysis_data", "ledsa/analysis/ExtinctionCoefficients.py:calc_and_set_coefficients", "ledsa/analysis/ExtinctionCoefficients.py:calc_and_set_coefficients_mp", "ledsa/analysis/ExtinctionCoefficientsNonLinear.py:cost_function"]}
{"id": "C133", "title": "What does not matter to the analysis", "statement": "Let the table hold the same LEDs in ascending order in all images 1..m, at least one of them a reference image. If every LED is brighter or darker by a positive factor of its own, the same in all images, the coefficients of both solvers stay exactly the same, serially and in parallel. So sum and mean of the pixels give the same coefficients if the table holds them exactly (every LED with its own number of pixels, the same in all images). With any solver the coefficients do not depend on the coordinate system either: moving it, turning or mirroring it about the vertical, with all heights changed by the same amount, changes nothing. It is otherwise for the exposure of a single photograph: with eight times the light in one image, smoke that halves the light in each of three layers is reported as clear air.", "quantifier": "all tables, factors, references, positions, layers, solvers (external minimisers arbitrary functions) and schedules; all isometries that keep the vertical", "why_tests_cant": "relates two runs on arbitrary tables and real-valued geometries", "anchors": ["ledsa/analysis/ExtinctionCoefficients.py:calc_and_set_coefficients", "ledsa/analysis/ExtinctionCoefficients.py:calc_and_set_coefficients_mp", "ledsa/analysis/ExtinctionCoefficients.py:calc_and_set_ref_intensities", "ledsa/analysis/Experiment.py:calc_traversed_dist_per_layer", "ledsa/analysis/ExtinctionCoefficientsLinear.py:calc_coefficients_of_img", "ledsa/analysis/ExtinctionCoefficientsNonLinear.py:cost_function"]}
{"id": "C134", "title": "Units of length and the regularisation", "statement": "Let all LEDs of an array be in view and tell the layers apart, and let the linear solver solve the least squares problem it is given. If the domain, the camera and the LEDs are given in another unit of length (k new units make one old one, k > 0), all distances are k times as large, and with the regularisation multiplied by the square of k the coefficients of all images are the old ones divided by k (per new unit), serially and in parallel; if one run fails, so does the other, with the same error. The regularisation has thus the unit of an area: with the same lambda_reg in another unit the reported smoke is another one. A layer of one metre behind which two LEDs lose half of their light has, with lambda_reg = 2, the coefficient ln 2 / 2 per metre if given in metres and 4/5 ln 2 per metre if given in half metres. With the non-linear solver the cost of corresponding coefficients is the same if both weights are multiplied by k; but the bounds 0 and 10 of the coefficients are fixed, so that smoke which is found exactly with metres can be out of reach in another unit.", "quantifier": "all k > 0, tables, reference properties, positions, layers, regularisations, external solvers meeting their contract, numbers of processes and schedules", "why_tests_cant": "relates two runs on arbitrary real-valued geometries through the minimiser of a least squares problem", "anchors": ["ledsa/analysis/ExtinctionCoefficients.py:calc_and_set_coefficients", "ledsa/analysis/ExtinctionCoefficients.py:calc_and_set_coefficients_mp", "ledsa/analysis/Experiment.py:calc_traversed_dist_per_layer", "ledsa/analysis/ExtinctionCoefficientsLinear.py:calc_coefficients_of_img", "ledsa/analysis/ExtinctionCoefficientsNonLinear.py:cost_function"]}
{"id": "C135", "title": "Amount of smoke and the largest coefficient", "statement": "Let the LEDs tell the layers apart and the linear solver solve the least squares problem it is given. c times the smoke (all relative intensities raised to the power c > 0) gives c times the coefficients, as long as all relative intensities lie between 10^-10 and 1. The reported smoke takes, summed over the squares of the optical depths of all LEDs, never more light than was measured, whatever the regularisation. Whatever the photographs show, an analysis that ends reports for every image one non-negative coefficient per layer, and none of them times the path of any LED through the layer is more than ln 10^10 times the square root of the number of LEDs. Smoke that leaves less than 10^-10 of the light is not scaled: from a millionth of the light on, twice the smoke is reported as less than twice the smoke.", "quantifier": "all factors, numbers of LEDs and layers, positions in view, tables, reference properties, regularisations, external solvers meeting their contract, numbers of processes and schedules", "why_tests_cant": "a bound over all photographs and geometries, and a relation between two runs, through the minimiser of a least squares problem", "anchors": ["ledsa/analysis/ExtinctionCoefficients.py:calc_and_set_coefficients", "ledsa/analysis/ExtinctionCoefficients.py:calc_and_set_coefficients_mp", "ledsa/analysis/ExtinctionCoefficientsLinear.py:calc_coefficients_of_img"]}
{"id": "C136", "title": "The number of layers", "statement": "Cut every layer into m layers with the same smoke: with the distances of the code every LED in view has exactly the same optical depth as before. So without regularisation and with LEDs that tell both sets of layers apart, the linear solver with m times the layers fits the measured depths of every image at least as well (sum of the squared deviations). Too few layers do not give the mean: with clear air below smoke that halves the light and LEDs at the ends of both layers, two layers recover the smoke exactly and one layer reports a coefficient below the mean of the two.", "quantifier": "all domains, numbers of layers and factors m, cameras, LEDs in view, smoke, relative intensities and external solvers meeting their contract", "why_tests_cant": "relates runs with different numbers of layers over real-valued geometries", "anchors": ["ledsa/analysis/Experiment.py:calc_traversed_dist_per_layer", "ledsa/analysis/Experiment.py:calc_traversed_height_in_layer", "ledsa/analysis/ExtinctionCoefficientsLinear.py:calc_coefficients_of_img"]}
{"id": "C137", "title": "A camera that moved by some pixels", "statement": "Let all light of every LED be within m pixels of its place (none else within r + e pixels, which are in the image, and no negative values), with m + e <= r for the half width r of the search squares. If the camera turns between two photographs so that the picture moves by at most e rows and e columns, step 3 (without fits) writes exactly the same records (sum, mean, maximum of every LED in every array), whatever comes in at the borders of the image. Larger moves are not noticed either but look like smoke: with squares of half width 2 a move by two rows makes LEDs with the sums 200 and 150 be recorded as 0.", "quantifier": "all images, moves, half widths, search areas, index files and numbers of skipped LEDs", "why_tests_cant": "a relation between two arbitrary images; the sums run over all pixels", "anchors": ["ledsa/data_extraction/step_3_functions.py:generate_analysis_data", "ledsa/data_extraction/step_3_functions.py:_generate_led_analysis_data"]}
{"id": "C138", "title": "Light that does not come from the LEDs", "statement": "Light from elsewhere (lamps, the fire, bright walls) that falls into the square of an LED in all photographs bounds the smoke that can be reported: with light b > 0 from elsewhere and light of at most t of the LED in the reference photographs, whatever smoke there is in the image, the depths of the coefficients of the linear solver have together at most the sum of squares of the values ln(1 + t/b). That this light is subtracted is false: an LED in opaque smoke, as bright as its surroundings (t = b), is reported as ln 2 where ln 10^10 is reported without the surroundings.", "quantifier": "all numbers of LEDs, values of the images, light from elsewhere, distances, numbers of layers and regularisations, and every nnls that meets its contract", "why_tests_cant": "a bound over all real smoke and images and all least squares problems; a test sees single numbers", "anchors": ["ledsa/analysis/ExtinctionCoefficients.py:calc_and_set_ref_intensities", "ledsa/analysis/ExtinctionCoefficients.py:calc_and_set_coefficients", "ledsa/analysis/ExtinctionCoefficientsLinear.py:calc_coefficients_of_img"]}
{"id": "C139", "title": "Saturated pixels", "statement": "Let no pixel of a photograph hold more than c, whatever the light. If the smoke lets at least the part t of the light of an LED through in every pixel of its square, and the reference photographs show at most the light without smoke, then the sums of step 3 and the linear solver do not report more smoke than there is: the depths of the coefficients have together at most the sum of squares of the values -ln t, for every c. That saturation does not matter is false: smoke that takes half of the light of an LED with 510 at its brightest pixel is reported as ln 2 if c = 1000 and as 0 if c = 255; the check for saturated LEDs (check_led_saturations) is empty.", "quantifier": "all photographs, largest pixel values, positions and numbers of LEDs, half widths, parts of the light, reference photographs, distances, numbers of layers and regularisations, and every nnls that meets its contract", "why_tests_cant": "a bound over all images, all smoke and all least squares problems; a test sees single images", "anchors": ["ledsa/data_extraction/step_3_functions.py:_generate_led_analysis_data", "ledsa/data_extraction/data_integrity.py:check_led_saturations", "ledsa/analysis/ExtinctionCoefficients.py:calc_and_set_coefficients", "ledsa/analysis/ExtinctionCoefficientsLinear.py:calc_coefficients_of_img"]}
{"id": "C140", "title": "Smoke in the reference photographs", "statement": "The analysis sees only what changed since the reference photographs. If these were taken in smoke y and the photograph in smoke s >= y (in every layer, with readable differences), the linear solver without regularisation reports exactly s - y; if s <= y in every layer, it reports 0 in all layers with any regularisation. That smoke which is there from the references on is reported is false.", "quantifier": "all brightnesses of the LEDs, coefficients, distances, numbers of LEDs and layers, and every nnls that meets its contract", "why_tests_cant": "an equation over all real coefficients and least squares problems; tests see single numbers with rounding", "anchors": ["ledsa/analysis/ExtinctionCoefficients.py:calc_and_set_ref_intensities", "ledsa/analysis/ExtinctionCoefficients.py:calc_and_set_coefficients", "ledsa/analysis/ExtinctionCoefficientsLinear.py:calc_coefficients_of_img"]}
