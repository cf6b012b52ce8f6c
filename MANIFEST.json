{
 "claims": [
  {
   "property": "C01",
   "status": "proved",
   "theorems": [
    "C01_split_layout"
   ],
   "note": ""
  },
  {
   "property": "C02",
   "status": "proved",
   "theorems": [
    "C02_merge_split"
   ],
   "note": ""
  },
  {
   "property": "C03",
   "status": "proved",
   "theorems": [
    "C03_split_merge"
   ],
   "note": ""
  },
  {
   "property": "C04",
   "status": "proved",
   "theorems": [
    "C04_rebin_block_sum",
    "C04_same_family"
   ],
   "note": ""
  },
  {
   "property": "C05",
   "status": "proved",
   "theorems": [
    "C05_trim_terminates",
    "C05_odd_never_returns"
   ],
   "note": ""
  },
  {
   "property": "C06",
   "status": "proved",
   "theorems": [
    "C06_rebin_conserves"
   ],
   "note": ""
  },
  {
   "property": "C07",
   "status": "proved",
   "theorems": [
    "C07_rebin_compose",
    "C07_standard_compose"
   ],
   "note": ""
  },
  {
   "property": "C08",
   "status": "proved",
   "theorems": [
    "C08_rebin_split",
    "C08_rebin_stokes"
   ],
   "note": ""
  },
  {
   "property": "C09",
   "status": "proved",
   "theorems": [
    "C09_standard_block_sum",
    "C09_standard_conserves"
   ],
   "note": ""
  },
  {
   "property": "C10",
   "status": "proved",
   "theorems": [
    "C10_old_new_agree"
   ],
   "note": "Both kernels read as Python source. Under numba the old kernel calls an undecorated function, which nopython mode rejects; the package never calls it."
  },
  {
   "property": "C11",
   "status": "proved",
   "theorems": [
    "C11_shift"
   ],
   "note": ""
  },
  {
   "property": "C12",
   "status": "proved",
   "theorems": [
    "C12_shift_micropol",
    "C12_shift_back"
   ],
   "note": ""
  },
  {
   "property": "C13",
   "status": "proved",
   "theorems": [
    "C13_demosaic_adjacent",
    "C13_bounds"
   ],
   "note": ""
  },
  {
   "property": "C14",
   "status": "partial",
   "theorems": [
    "C14_measured_pixels_refuted",
    "C14_measured_pixels_partial",
    "C14_actual_value"
   ],
   "note": "False for families 1-3 (refuted with a 4x4 witness); true for family 0; C14_actual_value gives the exact value for every family."
  },
  {
   "property": "C15",
   "status": "proved",
   "theorems": [
    "C15_demosaic_mean",
    "C15_mean_conserves",
    "C15_bad_option"
   ],
   "note": ""
  },
  {
   "property": "C16",
   "status": "proved",
   "theorems": [
    "C16_ifov"
   ],
   "note": ""
  },
  {
   "property": "C17",
   "status": "proved",
   "theorems": [
    "C17_ideal_recovered",
    "C17_missing_angle"
   ],
   "note": ""
  },
  {
   "property": "C18",
   "status": "proved",
   "theorems": [
    "C18_linear",
    "C18_offset"
   ],
   "note": ""
  },
  {
   "property": "C19",
   "status": "proved",
   "theorems": [
    "C19_polar_form"
   ],
   "note": ""
  },
  {
   "property": "C20",
   "status": "partial",
   "theorems": [
    "C20_dolp_def",
    "C20_dolp_at_most_two",
    "C20_dolp_at_most_one_refuted",
    "C20_dolp_at_most_one_partial"
   ],
   "note": "DoLP <= 1 is false for non-negative mosaics (witness reaches 2); DoLP <= 2 holds always, DoLP <= 1 for what ideal micropolarizers record of physical light."
  },
  {
   "property": "C21",
   "status": "proved",
   "theorems": [
    "C21_exposure"
   ],
   "note": ""
  },
  {
   "property": "C22",
   "status": "proved",
   "theorems": [
    "C22_malus_source"
   ],
   "note": ""
  },
  {
   "property": "C23",
   "status": "proved",
   "theorems": [
    "C23_malus_curve"
   ],
   "note": ""
  },
  {
   "property": "C24",
   "status": "partial",
   "theorems": [
    "C24_product",
    "C24_other_shape_partial",
    "C24_one_row_refuted"
   ],
   "note": "Product, flags and locality proved for every matching tensor. Rejection of other shapes is proved except when numpy broadcasts (one-row/one-column tensors or images), where it is refuted: such a tensor is used for every row. That the operand image is left unchanged is part of C56."
  },
  {
   "property": "C25",
   "status": "proved",
   "theorems": [
    "C25_inverts",
    "C25_calibrated"
   ],
   "note": ""
  },
  {
   "property": "C26",
   "status": "partial",
   "theorems": [
    "C26_demosaicing_partial",
    "C26_no_flags_refuted"
   ],
   "note": "Proved with fit flags. Refuted without: demodulate(..., demosaicing=True) raises AttributeError for every demodulator that has no flags."
  },
  {
   "property": "C27",
   "status": "proved",
   "theorems": [
    "C27_roundtrip"
   ],
   "note": ""
  },
  {
   "property": "C28",
   "status": "partial",
   "theorems": [
    "C28_missing_partial",
    "C28_copy_refuted"
   ],
   "note": "Refuted: a second file with the digits 01 makes up for the missing M00, which stays zero. Proved for folders in which no two files carry the same digits."
  },
  {
   "property": "C29",
   "status": "partial",
   "theorems": [
    "C29_grid_partial",
    "C29_covered_partial",
    "C29_leftover_refuted",
    "C29_refused"
   ],
   "note": "Proved for every grid that divides the number of superpixels, every completion order and every fit; refuted for accepted grids that do not divide it: the remaining rows/columns stay zero (C29_covered_partial gives the exact result)."
  },
  {
   "property": "C30",
   "status": "proved",
   "theorems": [
    "C30_calibrated",
    "C30_own_samples"
   ],
   "note": ""
  },
  {
   "property": "C31",
   "status": "proved",
   "theorems": [
    "C31_families"
   ],
   "note": ""
  },
  {
   "property": "C32",
   "status": "partial",
   "theorems": [
    "C32_families_partial",
    "C32_equal_phases_refuted"
   ],
   "note": "Refuted for four equal phases. Proved: the four families differ iff the nearest to 0, 45 and -45 differ."
  },
  {
   "property": "C33",
   "status": "partial",
   "theorems": [
    "C33_flags_partial",
    "C33_not_fitted",
    "C33_centre_refuted"
   ],
   "note": "Refuted at the occulter's centre superpixel, which is not flagged; exact everywhere else. Unflagged centre means it is fitted."
  },
  {
   "property": "C34",
   "status": "partial",
   "theorems": [
    "C34_corrected_partial",
    "C34_zero_kept_refuted"
   ],
   "note": "Refuted for zero (the test is S<0 where the comment says S=0). Negative values become 1, others are kept."
  },
  {
   "property": "C35",
   "status": "partial",
   "theorems": [
    "C35_superpixels_partial",
    "C35_pixels",
    "C35_default_centre",
    "C35_odd_sides_partial",
    "C35_side_one_refuted"
   ],
   "note": "The odd-side rejection fails for sides of length 1: a 1 x 2w image gives a 0 x 2w result. Everything else is proved (superpixel and pixel mode, default centre, rejection when both sides exceed 1)."
  },
  {
   "property": "C36",
   "status": "partial",
   "theorems": [
    "C36_default_rho_refuted"
   ],
   "note": "False: the default rho=None always raises TypeError (proved for all inputs)."
  },
  {
   "property": "C37",
   "status": "proved",
   "theorems": [
    "C37_mask_consistent",
    "C37_mask_selects"
   ],
   "note": ""
  },
  {
   "property": "C38",
   "status": "partial",
   "theorems": [
    "C38_partition_partial",
    "C38_centre",
    "C38_partition_refuted"
   ],
   "note": "False at the centre superpixel, which neither ROI selects; true at every other pixel (radius bounded by the outer limit that stands for infinity)."
  },
  {
   "property": "C39",
   "status": "proved",
   "theorems": [
    "C39_ring_normalised",
    "C39_outside_zero",
    "C39_gain_offset",
    "C39_total"
   ],
   "note": ""
  },
  {
   "property": "C40",
   "status": "partial",
   "theorems": [
    "C40_mask",
    "C40_roi",
    "C40_kasi_refuted"
   ],
   "note": "Proved for PolarCam and any camera with an occulter position; Kasi defines none, so both methods raise AttributeError."
  },
  {
   "property": "C41",
   "status": "proved",
   "theorems": [
    "C41_list",
    "C41_scalar",
    "C41_unique",
    "C41_idempotent"
   ],
   "note": ""
  },
  {
   "property": "C42",
   "status": "partial",
   "theorems": [
    "C42_float_termination_partial",
    "C42_float_termination_refuted",
    "C42_infinity_refuted"
   ],
   "note": "False: returns for a finite binary64 angle iff |angle| <= 2^61 (both directions proved for all binary64 numbers); infinities never return."
  },
  {
   "property": "C43",
   "status": "proved",
   "theorems": [
    "C43_array",
    "C43_unique"
   ],
   "note": ""
  },
  {
   "property": "C44",
   "status": "proved",
   "theorems": [
    "C44_decoding",
    "C44_unique_encoding"
   ],
   "note": ""
  },
  {
   "property": "C45",
   "status": "partial",
   "theorems": [
    "C45_parallel_partial",
    "C45_parallel_nul_chunk",
    "C45_parallel_refuted"
   ],
   "note": "False: .strip(b'\\0') removes trailing NUL bytes of a chunk, so e.g. an all-dark frame raises. Exact dichotomy for files of the right length: decoded correctly iff no chunk ends in NUL, otherwise raises."
  },
  {
   "property": "C46",
   "status": "partial",
   "theorems": [
    "C46_wrong_length_refuted",
    "C46_wrong_length_partial"
   ],
   "note": "False: a file 96 bytes too long whose chunks end in NUL is accepted. True for too short files and for too long ones with a chunk not ending in NUL."
  },
  {
   "property": "C47",
   "status": "proved",
   "theorems": [
    "C47_raw_round_trip",
    "C47_raw_layout",
    "C47_raw_other_values",
    "C47_raw_files"
   ],
   "note": ""
  },
  {
   "property": "C48",
   "status": "proved",
   "theorems": [
    "C48_crash",
    "C48_bad_input",
    "C48_done"
   ],
   "note": ""
  },
  {
   "property": "C49",
   "status": "partial",
   "theorems": [
    "C49_converted_name_refuted",
    "C49_dotted_directory_refuted",
    "C49_actual_name",
    "C49_converted_name_partial"
   ],
   "note": "False for paths with further dots (they become colons, also in directory names). True without; C49_actual_name gives the name for every normalised absolute path."
  },
  {
   "property": "C50",
   "status": "proved",
   "theorems": [
    "C50_merge",
    "C50_average",
    "C50_merge_others",
    "C50_short_file",
    "C50_order"
   ],
   "note": ""
  },
  {
   "property": "C51",
   "status": "partial",
   "theorems": [
    "C51_data",
    "C51_order",
    "C51_header",
    "C51_float_order_refuted",
    "C51_float_mean_refuted",
    "C51_undated",
    "C51_empty"
   ],
   "note": "Mean or sum, header and dates proved; order independence in exact arithmetic, refuted in binary64, where also the mean of ten equal images differs from them (C101 gives the cases without rounding). A date in neither format makes the file unloadable when TIME-OBS is missing (KeyError)."
  },
  {
   "property": "C52",
   "status": "partial",
   "theorems": [
    "C52_list_of_one_partial",
    "C52_plain_name_refuted",
    "C52_sum_name"
   ],
   "note": "Refuted: for a plain string the name kept is its first character. Proved for lists of one name, and the SUM_ name for several files."
  },
  {
   "property": "C53",
   "status": "partial",
   "theorems": [
    "C53_fix_data_partial",
    "C53_skipped",
    "C53_fix_data_refuted",
    "C53_nan"
   ],
   "note": "A bound equal to 0 is ignored (truthiness test), refuted with witness; exact for every non-zero bound."
  },
  {
   "property": "C54",
   "status": "partial",
   "theorems": [
    "C54_all_params",
    "C54_one_param",
    "C54_single_pol",
    "C54_demosaiced",
    "C54_invalid_suffix",
    "C54_not_demosaiced",
    "C54_invalid_suffix_refuted",
    "C54_invalid_suffix_partial"
   ],
   "note": "Distinct names and no loss proved for all four savers. 'Raises before anything is written' fails for save_single_pol_images and save_param_as_fits: the directory has been created; no file is."
  },
  {
   "property": "C55",
   "status": "proved",
   "theorems": [
    "C55_images",
    "C55_reflects"
   ],
   "note": "Invariant over every history of plain calls, failing ones included; every image of every reachable state (any calls) has even-sided data and matching height/width."
  },
  {
   "property": "C56",
   "status": "partial",
   "theorems": [
    "C56_unchanged_partial",
    "C56_untouched_partial",
    "C56_resize_partial",
    "C56_rebin_refuted",
    "C56_rotate_refuted"
   ],
   "note": "Refuted for rebin (writes the new size into the shared header of the image it is called on) and rotate (turns the Stokes vector in the memory of the image it is called on); both characterised for every successful call. Proved for copies, number arithmetic and demodulation; for shifts, cleaning and arithmetic between images when the header has the size of the data; rebin and congrid change nothing but headers."
  },
  {
   "property": "C57",
   "status": "partial",
   "theorems": [
    "C57_header_partial",
    "C57_rebin_refuted"
   ],
   "note": "Refuted: after rebin by 2 or more the header of the source has the new image's size. Proved for every history without resizing."
  },
  {
   "property": "C58",
   "status": "partial",
   "theorems": [
    "C58_stale_refuted",
    "C58_demosaic_again_partial"
   ],
   "note": "Refuted: once demosaiced, every correction recomputes the Stokes vector from the images demosaiced before, whatever the new data. Demosaicing again gives the vector of the current data (proved for every reachable state)."
  },
  {
   "property": "C59",
   "status": "proved",
   "theorems": [
    "C59_created",
    "C59_remembered",
    "C59_stays",
    "C59_inherited"
   ],
   "note": "Creation, inheritance and permanence, each over every reachable state."
  },
  {
   "property": "C60",
   "status": "partial",
   "theorems": [
    "C60_dark",
    "C60_dark_shape",
    "C60_dark_of_itself",
    "C60_dark_unsigned_refuted",
    "C60_dark_unsigned"
   ],
   "note": "Exact for signed/float data; arrays of unsigned integers wrap around instead of clamping (refuted)."
  },
  {
   "property": "C61",
   "status": "partial",
   "theorems": [
    "C61_division_partial",
    "C61_flat_partial",
    "C61_division_refuted",
    "C61_scalar_zero_refuted",
    "C61_scalar"
   ],
   "note": "Where the divisor is zero the result is uninitialised memory (np.divide with where and no out); exact elsewhere."
  },
  {
   "property": "C62",
   "status": "partial",
   "theorems": [
    "C62_ignored_refuted"
   ],
   "note": "Refuted: the dictionary given to MicropolImage(image, angle_dic=d) is ignored for every image and d."
  },
  {
   "property": "C63",
   "status": "partial",
   "theorems": [
    "C63_walk_partial",
    "C63_points",
    "C63_values_partial",
    "C63_overshoot_refuted",
    "C63_far_edge_refuted",
    "C63_near_edge_refuted",
    "C63_same_point_refuted",
    "C63_float_refuted",
    "C63_float_partial",
    "C63_float_values_partial"
   ],
   "note": "Refuted: one sample is always taken beyond the end, so a line to the far edge raises IndexError and a line to row or column 0 ends on the opposite edge; equal points raise ValueError. The walk itself (start first, end reached, unit steps, bounding box) is proved in exact arithmetic; in binary64 the end can be missed (witness). For coordinates up to 65536 the pixels found in binary64 are those of exact arithmetic, except where the line meets a pixel exactly: there it may be the next one towards zero in the shorter direction."
  },
  {
   "property": "C64",
   "status": "proved",
   "theorems": [
    "C64_bresenham",
    "C64_steep"
   ],
   "note": "Also: steeper lines come back with rows and columns exchanged. The slope is compared in binary64; lines of up to 2^52 pixels."
  },
  {
   "property": "C65",
   "status": "partial",
   "theorems": [
    "C65_errors",
    "C65_no_Q_refuted"
   ],
   "note": "Proved: I, Q, U errors exactly, pB, DoLP and AoLP errors are the first-order propagation wherever the derivatives exist and Q is not zero. Refuted for the AoLP error at Q = 0, where the first-order error exists but the code divides by zero."
  },
  {
   "property": "C66",
   "status": "partial",
   "theorems": [
    "C66_shape",
    "C66_bilinear",
    "C66_same",
    "C66_corners",
    "C66_range",
    "C66_image",
    "C66_float_refuted"
   ],
   "note": "Shape, bilinear interpolation, identity, corners and bounds proved in exact arithmetic; in binary64 the identity and the bounds are refuted (rounding). Sides of at least 2."
  },
  {
   "property": "C67",
   "status": "partial",
   "theorems": [
    "C67_alignment",
    "C67_twice",
    "C67_not_square",
    "C67_sun_centre_partial",
    "C67_sun_centre_refuted"
   ],
   "note": "Data movement, involution, families and keywords proved for every square mosaic. The sun centre is within a pixel in exact arithmetic; in binary64 the truncated scaling can put it two pixels off (witness at row 246). Applying it twice appends the time to DATE-OBS twice."
  },
  {
   "property": "C68",
   "status": "partial",
   "theorems": [
    "C68_modal_bin",
    "C68_half_sum",
    "C68_window_partial",
    "C68_left_refuted",
    "C68_right_refuted",
    "C68_masked_refuted",
    "C68_saturated_refuted"
   ],
   "note": "Refuted: modal bins 0-9 raise IndexError, 991-999 ValueError, whatever the fit; in particular fields more than half of whose pixels are masked to the minimum or saturated. Between 10 and 990 exactly twenty bin centres and relative counts are fitted."
  },
  {
   "property": "C69",
   "status": "proved",
   "theorems": [
    "C69_threshold",
    "C69_empty",
    "C69_narrow_range"
   ],
   "note": "For any median filter (oracle), exact arithmetic; also: of data that span less than one unit at most the maximum reaches the threshold (see C128)."
  },
  {
   "property": "C70",
   "status": "proved",
   "theorems": [
    "C70_found",
    "C70_missing",
    "C70_centred_step"
   ],
   "note": ""
  },
  {
   "property": "C71",
   "status": "proved",
   "theorems": [
    "C71_calibration",
    "C71_rejects",
    "C71_identity"
   ],
   "note": "Float data. Incomplete superpixels raise ValueError. Identity matrices and zero offsets give exactly the IFOV correction."
  },
  {
   "property": "C72",
   "status": "proved",
   "theorems": [
    "C72_flagged_only"
   ],
   "note": "For any median filter that keeps the shape (oracle)."
  },
  {
   "property": "C73",
   "status": "partial",
   "theorems": [
    "C73_hot_pixels_refuted",
    "C73_default_threshold_refuted"
   ],
   "note": "Refuted for every image: the method _set_data_and_Stokes does not exist, so AttributeError is raised; and with the default threshold the map would be zero for all non-negative images."
  },
  {
   "property": "C74",
   "status": "partial",
   "theorems": [
    "C74_cut_partial",
    "C74_mixture_refuted",
    "C74_new_folder_partial"
   ],
   "note": "Refuted: interrupted between two files, a folder holding an older tensor of the same size loads as a mixture. Proved: interrupted inside a matrix file it raises; in a new folder it raises or gives the new tensor."
  },
  {
   "property": "C75",
   "status": "partial",
   "theorems": [
    "C75_order_partial",
    "C75_matched_partial",
    "C75_lengths_refuted",
    "C75_missing_orientation",
    "C75_series_refuted"
   ],
   "note": "Order independence proved except for a series of normalising images, which are matched by position after sorting (refuted). Files beyond the orientations are silently ignored (rejection refuted)."
  },
  {
   "property": "C76",
   "status": "partial",
   "theorems": [
    "C76_convert_set_partial",
    "C76_nul_chunk_refuted",
    "C76_convert_set_others",
    "C76_convert_set_order"
   ],
   "note": "Refuted for files with a chunk ending in NUL (see C45): then the call raises and writes nothing. Mean, other files and order proved for files without such a chunk."
  },
  {
   "property": "C77",
   "status": "partial",
   "theorems": [
    "C77_flat_refuted"
   ],
   "note": "Refuted: with a flat the function never returns a result (reading it uses np.float, which numpy 1.26.4, the pinned version, does not have)."
  },
  {
   "property": "C78",
   "status": "partial",
   "theorems": [
    "C78_outlier_refuted"
   ],
   "note": "Refuted for every position, length and value: the element compared and the one replaced are not the same, so an isolated outlier is never removed."
  },
  {
   "property": "C79",
   "status": "partial",
   "theorems": [
    "C79_rejection",
    "C79_majority_refuted",
    "C79_median"
   ],
   "note": "The kept values are characterised whenever the median deviation is positive. Refuted when more than half of the values agree: then everything is kept."
  },
  {
   "property": "C80",
   "status": "partial",
   "theorems": [
    "C80_ray_partial",
    "C80_inner_partial",
    "C80_border_centre_refuted",
    "C80_inner_right_refuted",
    "C80_inner_left_refuted",
    "C80_short_radius_refuted"
   ],
   "note": "Proved for centres at least two pixels from the top and left border, without an inner radius and with one that lies inside the image below the outer one: start, unit steps, distance from the ray, where it ends, values. Refuted for centres in the first two rows or columns (ValueError for every angle) and for inner radii beyond the border (IndexError to the right, pixels of the opposite side to the left) and short outer radii."
  },
  {
   "property": "C81",
   "status": "partial",
   "theorems": [
    "C81_options_partial",
    "C81_spline_refuted"
   ],
   "note": "Proved for 'mean' and 'adjacent'; refuted for 'spline', which raises for every image with the pinned numpy."
  },
  {
   "property": "C82",
   "status": "partial",
   "theorems": [
    "C82_congrid_refuted",
    "C82_sizes_partial",
    "C82_others_partial"
   ],
   "note": "Refuted: the Stokes vector of a resampled mosaic has all of its sides instead of half of them (every reachable state). The other methods are right on every history of plain calls."
  },
  {
   "property": "C83",
   "status": "partial",
   "theorems": [
    "C83_micropol",
    "C83_image_partial",
    "C83_image_refuted"
   ],
   "note": "Proved for MicropolImage and for the initialisers Image knows; refuted for Image(MicropolImage) and other types, which give an image without data."
  },
  {
   "property": "C84",
   "status": "partial",
   "theorems": [
    "C84_default_refuted",
    "C84_no_flat_refuted",
    "C84_flat_partial"
   ],
   "note": "Refuted: with the default occulter=True AttributeError is raised (PolarCam has no occulter_pos_nov2022), and without a flat UnboundLocalError, whatever the files. With a flat and without the occulter the result is characterised."
  },
  {
   "property": "C85",
   "status": "partial",
   "theorems": [
    "C85_equal_images_partial",
    "C85_ideal_sensor_refuted"
   ],
   "note": "Refuted: the images of an ideal sensor are in general not left unchanged, since all orientations are averaged into one rank-one fit per superpixel. Proved when the images of all orientations are equal. Exact arithmetic; pinv is any function with the Penrose equations on rank-one matrices."
  },
  {
   "property": "C86",
   "status": "proved",
   "theorems": [
    "C86_limits",
    "C86_deviation",
    "C86_empty"
   ],
   "note": "Exact arithmetic; the bound is Chebyshev's inequality. Empty images give NaN."
  },
  {
   "property": "C87",
   "status": "proved",
   "theorems": [
    "C87_limits"
   ],
   "note": "Exact arithmetic."
  },
  {
   "property": "C88",
   "status": "partial",
   "theorems": [
    "C88_turn",
    "C88_half_turn",
    "C88_not_square",
    "C88_compose",
    "C88_back",
    "C88_flip",
    "C88_flip_twice",
    "C88_demodulate_partial",
    "C88_mirror",
    "C88_mirror_refuted"
   ],
   "note": "Turns and flips of the tensor proved for all tensors and k. Refuted: the turned image demodulated with the turned tensor, because the pixels of a superpixel are exchanged (witness: light at 0 degrees comes out at 45). Proved when superpixels move without being turned in themselves, without flags (flags are never turned)."
  },
  {
   "property": "C89",
   "status": "partial",
   "theorems": [
    "C89_means_partial",
    "C89_odd",
    "C89_forgets_refuted",
    "C89_flags_refuted"
   ],
   "note": "Refuted: the matrices are read from the folder again, so turns and flips are forgotten; and the flags are not binned, so the result cannot demodulate images of its own size. Block means of the matrices in the folder and ValueError for odd sides are proved."
  },
  {
   "property": "C90",
   "status": "proved",
   "theorems": [
    "C90_search",
    "C90_always_several",
    "C90_empty",
    "C90_gain"
   ],
   "note": "For every blur and circle detector (oracles); a detector that always finds several circles makes it search forever."
  },
  {
   "property": "C91",
   "status": "partial",
   "theorems": [
    "C91_given_partial",
    "C91_ignored_refuted",
    "C91_fitted",
    "C91_fit_fails_refuted",
    "C91_defaults_refuted"
   ],
   "note": "Refuted: if one of the three arguments is missing all are replaced by the result of the fits (which also fail or give any other centre and radius)."
  },
  {
   "property": "C92",
   "status": "partial",
   "theorems": [
    "C92_fits",
    "C92_rows",
    "C92_rows_refuted",
    "C92_one_row"
   ],
   "note": "Proved in the code's own coordinates (distance in profile samples). Refuted in pixel coordinates: the backward profiles start one pixel before the centre, so the middle is half a pixel off. Exact arithmetic."
  },
  {
   "property": "C93",
   "status": "proved",
   "theorems": [
    "C93_units",
    "C93_zero",
    "C93_noise"
   ],
   "note": "Exact arithmetic; zero exposure times and a zero mean raise ZeroDivisionError."
  },
  {
   "property": "C94",
   "status": "partial",
   "theorems": [
    "C94_file_partial",
    "C94_folder_refuted",
    "C94_dotted_refuted"
   ],
   "note": "Refuted: nested new folders fail with FileNotFoundError (mkdir without parents) and folders with a dot in their name are taken for files and not created. Proved for file names (all folders on the way are created) and for folders in an existing one."
  },
  {
   "property": "C95",
   "status": "partial",
   "theorems": [
    "C95_panels_partial",
    "C95_limits_refuted",
    "C95_not_demosaiced",
    "C95_unnamed"
   ],
   "note": "Refuted: with vmin or vmax given, UnboundLocalError is raised for every demosaiced image. With the default limits the panels are proved. Colours, colour bars and matplotlib's own checks are not modelled."
  },
  {
   "property": "C96",
   "status": "proved",
   "theorems": [
    "C96_show",
    "C96_empty",
    "C96_no_columns",
    "C96_params",
    "C96_param",
    "C96_orientations"
   ],
   "note": "The numbers shown in titles, colours and colour bars are not modelled; show_pol_param for the six documented names. Exact arithmetic."
  },
  {
   "property": "C97",
   "status": "partial",
   "theorems": [
    "C97_total",
    "C97_all_pixels",
    "C97_families_partial",
    "C97_default_range_refuted",
    "C97_odd"
   ],
   "note": "Proved with an explicit range. Refuted for the default range: each family is counted in bins of its own range. Exact arithmetic."
  },
  {
   "property": "C99",
   "status": "partial",
   "theorems": [
    "C99_saved_partial",
    "C99_zero_refuted",
    "C99_invalid",
    "C99_interrupted",
    "C99_lost_refuted"
   ],
   "note": "Refuted: a bound of zero switches the limits off (fix_data), and astropy removes the old file before writing the new one, so an interruption loses it. The corner in which the file is one of the folders on its own way (a.fits/../a.fits) is excluded."
  },
  {
   "property": "C98",
   "status": "partial",
   "theorems": [
    "C98_maps",
    "C98_covariance_partial",
    "C98_stray_refuted",
    "C98_missing_partial",
    "C98_copy_refuted",
    "C98_no_map",
    "C98_calibrated"
   ],
   "note": "Maps proved. The tensor is proved if every further file is an image of the same size without two digits in its name. Refuted: an unreadable file listed first raises OSError, and a copy of another matrix makes up for a missing one, whose entries are then 0. With no file at all Cij is None."
  },
  {
   "property": "C100",
   "status": "proved",
   "theorems": [
    "C100_recovered",
    "C100_determined"
   ],
   "note": "Without occulter and flat field, chunks dividing the image, a fit that returns an explanation of the samples within the bounds if there is one (scipy's curve_fit is not modelled), exact arithmetic."
  },
  {
   "property": "C101",
   "status": "proved",
   "theorems": [
    "C101_stokes",
    "C101_demosaic",
    "C101_binned",
    "C101_polarization",
    "C101_polarization_demosaiced",
    "C101_files"
   ],
   "note": "Binary64 throughout (SpecFloat operations, proved equal to Flocq's). Pixels are integers up to a bound; for 16-bit images any binning up to 90000 is covered. AoLP (arctan2) is not covered."
  },
  {
   "property": "C102",
   "status": "partial",
   "theorems": [
    "C102_raw_partial",
    "C102_shows_partial",
    "C102_others_partial",
    "C102_copy_refuted",
    "C102_demosaiced_partial",
    "C102_demosaiced_refuted"
   ],
   "note": "Proved for the image itself while it is not demosaiced, and for images with another Stokes vector. Refuted: a copy shares its Stokes vector with the original, so masking the copy masks the vector (not the data) of the original; and demosaiced images are masked by whole superpixels, their Stokes vector by single pixels."
  },
  {
   "property": "C103",
   "status": "proved",
   "theorems": [
    "C103_stokes",
    "C103_demosaic",
    "C103_binned"
   ],
   "note": "The bounds refer to the same computation on the absolute values of the pixels, that is to the result itself if no pixel is negative. AoLP is not covered."
  },
  {
   "property": "C104",
   "status": "proved",
   "theorems": [
    "C104_raw",
    "C104_demosaiced",
    "C104_binned"
   ],
   "note": "Pixels are 0 or between 2^-400 and 2^400. For demosaiced images the bounds are relative to the intensity, since differences of interpolated values can cancel; they are stated where the intensity is at least 2^-400."
  },
  {
   "property": "C105",
   "status": "proved",
   "theorems": [
    "C105_demodulated",
    "C105_demosaiced",
    "C105_files"
   ],
   "note": "Superpixels that were fitted (C24, C26 give the others). The bounds refer to the same computation with the absolute values of pixels and tensor; differences such as Q can cancel, so relative to the result itself no bound holds."
  },
  {
   "property": "C106",
   "status": "proved",
   "theorems": [
    "C106_adjacent",
    "C106_mean"
   ],
   "note": "The value of superpixel (Y, X) is put at pixel (2Y, 2X), half a pixel from its centre: see C14."
  },
  {
   "property": "C107",
   "status": "proved",
   "theorems": [
    "C107_demosaic",
    "C107_rebin",
    "C107_files"
   ],
   "note": "Exact arithmetic; C103 and C104 bound the rounding errors."
  },
  {
   "property": "C108",
   "status": "proved",
   "theorems": [
    "C108_radial_profile",
    "C108_twice"
   ],
   "note": "The second statement needs the same sector for mean and output, as in the defaults."
  },
  {
   "property": "C109",
   "status": "partial",
   "theorems": [
    "C109_keywords_kept",
    "C109_image_names",
    "C109_image_refuted",
    "C109_names_refuted",
    "C109_renamed_refuted",
    "C109_sizes",
    "C109_in_place_sizes"
   ],
   "note": "Keywords proved for MicropolImage, also after any further calls. Refuted: images made from an Image lose all keywords; images made from a MicropolImage have no attribute filename, or 'image.fits' after arithmetic with a number. Image(image) and Image.rebin keep the name; shift and arithmetic of an Image give image.fits. NAXIS1 and NAXIS2 of new and rotated images are proved to be the sizes of the data."
  },
  {
   "property": "C110",
   "status": "partial",
   "theorems": [
    "C110_own_header",
    "C110_shared_refuted",
    "C110_written_refuted"
   ],
   "note": "Proved if one of the two is an Image. Refuted: a MicropolImage and everything made from it (copies, demodulated, binned, shifted images, sums and multiples) have one header object, so writing a keyword into one writes it into all."
  },
  {
   "property": "C111",
   "status": "partial",
   "theorems": [
    "C111_found_partial",
    "C111_other_folder_refuted",
    "C111_not_found_refuted"
   ],
   "note": "Proved for paths without the characters *, ? and [. Refuted: the path is used as a glob pattern, so the matrices of run[1] are read from run1 if that exists, and are not found otherwise, although os.path.exists has just found the folder."
  },
  {
   "property": "C112",
   "status": "partial",
   "theorems": [
    "C112_zero_partial",
    "C112_actual_refuted",
    "C112_negative_refuted",
    "C112_photon_noise"
   ],
   "note": "The errors are right (photon noise), and for more than four images the value is zero exactly for exact fits and not negative. Refuted: the squared deviations are divided by the errors instead of their squares, and the degrees of freedom are n - 2, n - 3 or n - 4 according to whether boundaries were given; with equal errors s the map is s (n - 3) / d times the reduced chi-square, and negative for three images."
  },
  {
   "property": "C113",
   "status": "partial",
   "theorems": [
    "C113_uncorrelated_partial",
    "C113_correlated_refuted",
    "C113_difference",
    "C113_ideal",
    "C113_photon_refuted"
   ],
   "note": "Proved where I, Q and U are uncorrelated; for ideal polarizers pB and AoLP are right whatever the errors. Refuted: I, Q and U are made of the same four pixels, but the code adds their errors as if they were independent. Where Q and U are correlated sigma_pB and sigma_AoLP are wrong; with ideal polarizers and photon noise sigma_DoLP is always too large, by (Q^2+U^2)/(g I^3) in the square (g: gain)."
  },
  {
   "property": "C114",
   "status": "partial",
   "theorems": [
    "C114_sum_partial",
    "C114_difference_partial",
    "C114_pixels",
    "C114_difference_refuted",
    "C114_sum_refuted",
    "C114_calibration_refuted"
   ],
   "note": "Proved where every result fits the integer type. Refuted: MicropolImage keeps the type of the array, so for unsigned data every pixel of a - b with a < b is 2^bits too large (a + b: too small), and Q and U are wrong by multiples of 2^bits; chen_wan_liang_calibration of integer data truncates the corrected pixels, so that the result is up to 1 too small."
  },
  {
   "property": "C115",
   "status": "partial",
   "theorems": [
    "C115_panels_partial",
    "C115_titles",
    "C115_axes_refuted"
   ],
   "note": "The panels and their titles are right. Refuted: the returned second value is the axes object of the last panel, because the variable is used again as a loop variable (demodulation.py 222)."
  },
  {
   "property": "C116",
   "status": "proved",
   "theorems": [
    "C116_bound",
    "C116_calibrated"
   ],
   "note": "The pseudo-inverse of the fitted modulation matrix is assumed to be one (numpy.linalg.pinv), and the fitted matrix to have rank 3."
  },
  {
   "property": "C117",
   "status": "partial",
   "theorems": [
    "C117_binned_partial",
    "C117_varying_refuted"
   ],
   "note": "Proved if the superpixels of a bin have the same matrix and the demodulator has no flags (C89 refutes binning of flags). Refuted otherwise: the mean matrix times the sums of the pixels is not the sum of the products; example where the result is 1/4 instead of 1."
  },
  {
   "property": "C118",
   "status": "proved",
   "theorems": [
    "C118_errors",
    "C118_rounded",
    "C118_raw"
   ],
   "note": "The library function arctan2 is a parameter with a stated error bound; nothing is claimed where Q = U = 0."
  },
  {
   "property": "C119",
   "status": "proved",
   "theorems": [
    "C119_raw",
    "C119_binned",
    "C119_demodulated",
    "C119_demosaiced",
    "C119_ifov"
   ],
   "note": "For any type of numbers, no property of the operations is used."
  },
  {
   "property": "C120",
   "status": "partial",
   "theorems": [
    "C120_reduced_partial",
    "C120_hangs_refuted"
   ],
   "note": "Proved if all angles are at most 2^55 rad or not numbers, with an error of at most (|n| + 2) 2^-53 of the angle for n half turns. Refuted: with an infinite angle or one above 2^55 rad the call never returns."
  },
  {
   "property": "C121",
   "status": "proved",
   "theorems": [
    "C121_corrected",
    "C121_ideal",
    "C121_demodulated"
   ],
   "note": "Exact arithmetic. The dark image is that of the exposure, and the flat image has had its dark signal removed; the pixels where the flat is zero (C61) are excluded by the positive sensitivity."
  },
  {
   "property": "C122",
   "status": "proved",
   "theorems": [
    "C122_linear",
    "C122_affine",
    "C122_refined",
    "C122_back",
    "C122_loses",
    "C122_image"
   ],
   "note": "Exact arithmetic, at least 2 samples per side. Concerns the Stokes parameters computed from the resampled data; those the method itself stores have another size (C82). C122_loses shows that other sizes lose detail."
  },
  {
   "property": "C123",
   "status": "partial",
   "theorems": [
    "C123_dark_partial",
    "C123_counts",
    "C123_nan_refuted",
    "C123_flat",
    "C123_uniform",
    "C123_flat_nan"
   ],
   "note": "Refuted: a pixel that is not a number, in the image or in the dark, becomes 0 after subtract_dark (the comparison nan >= 0 is false), so a lost pixel looks like a measurement. The rest is proved."
  },
  {
   "property": "C124",
   "status": "proved",
   "theorems": [
    "C124_shift_shift",
    "C124_shift_back",
    "C124_shift_stokes",
    "C124_shift_bin",
    "C124_dark_bin",
    "C124_flats",
    "C124_flat_scale"
   ],
   "note": "Exact arithmetic. C124_dark_bin gives both the agreement and the strict difference; C124_shift_case shows the loss when shifting back."
  },
  {
   "property": "C125",
   "status": "partial",
   "theorems": [
    "C125_transpose_stokes",
    "C125_transpose_bin",
    "C125_transpose_adjacent",
    "C125_transpose_mean",
    "C125_upside_stokes",
    "C125_upside_bin",
    "C125_upside_mean",
    "C125_upside_adjacent_refuted",
    "C125_turned",
    "C125_opposite"
   ],
   "note": "Refuted for demosaicing with option adjacent: the image turned upside down is interpolated differently, because values are taken from the next superpixels below and to the right only. The rest is proved; binning upside down needs bins that cover the image."
  },
  {
   "property": "C126",
   "status": "proved",
   "theorems": [
    "C126_least_squares",
    "C126_theoretical",
    "C126_reference",
    "C126_throughput"
   ],
   "note": "Exact arithmetic; the matrices in the demodulator are assumed to be the pseudo-inverses for the micropolarizers (what C25 and C100 establish for the calibration)."
  },
  {
   "property": "C127",
   "status": "proved",
   "theorems": [
    "C127_exact",
    "C127_mean",
    "C127_corrected",
    "C127_demodulated",
    "C127_light"
   ],
   "note": "binary64 with rounding to nearest even. The flat must have no zero pixels (they are left uninitialised, C34). Counts below 2^53 are exact."
  },
  {
   "property": "C128",
   "status": "partial",
   "theorems": [
    "C128_rejected",
    "C128_replaced",
    "C128_limits",
    "C128_offset_partial",
    "C128_scaled_refuted"
   ],
   "note": "Refuted for auto_threshold and the scale: candidates start one unit above the minimum, so in units in which the image spans less than one, every pixel but the brightest is background. It follows a change of zero, and all other cuts follow any change of units."
  },
  {
   "property": "C129",
   "status": "proved",
   "theorems": [
    "C129_response",
    "C129_least_noise",
    "C129_theoretical_response",
    "C129_theoretical"
   ],
   "note": "Equal variances are needed: C129_photon_noise shows that for completely polarized light with photon noise other weights have half the variance."
  },
  {
   "property": "C130",
   "status": "partial",
   "theorems": [
    "C130_value_partial",
    "C130_missed",
    "C130_corners_refuted"
   ],
   "note": "Refuted: the last ring ends at the largest distance truncated to a whole number, so pixels beyond it stay 0 whatever the data; for a 4 x 4 image around its centre these are the pixels (0,0), (0,1) and (1,0). Up to every whole distance that some pixel reaches, the statement is proved."
  },
  {
   "property": "C131",
   "status": "partial",
   "theorems": [
    "C131_alone_partial",
    "C131_bounded",
    "C131_changed_refuted"
   ],
   "note": "Refuted only for programs that change in place the array returned by map_polar_coordinates: the changed array stays in the cache and is used by later masks. Programs that only call the functions are proved not to depend on the cache."
  },
  {
   "property": "C132",
   "status": "partial",
   "theorems": [
    "C132_rings",
    "C132_no_ring",
    "C132_camera_partial",
    "C132_counts",
    "C132_level",
    "C132_uniform_refuted"
   ],
   "note": "Refuted for uniform rings of values that are not integers: eight pixels of 0.1 added one after the other give a mean that is not 0.1 and a standard deviation of 1e-17 instead of 0, so the filtered ring is 1 instead of 0 (C132_level: always 0 or close to 1 or -1). Proved for counts. The angles are the default (all pixels), rho_max is a parameter."
  },
  {
   "property": "C133",
   "status": "partial",
   "theorems": [
    "C133_private_partial",
    "C133_renewed_partial",
    "C133_copy_refuted",
    "C133_stale_refuted"
   ],
   "note": "Refuted for plain copies MicropolImage(image) and for demodulated images: they refer to the same array (micropol_image.py 123), so a pixel written into one is written into the other. Refuted for the image's own parameters: an assignment to a pixel bypasses the setter and leaves the Stokes vector. Proved: no other image is changed if there were no plain copies and demodulations, nor after any call that computes the pixels of the image anew."
  },
  {
   "property": "C134",
   "status": "partial",
   "theorems": [
    "C134_stokes",
    "C134_parameters",
    "C134_demod",
    "C134_rebin",
    "C134_demosaic",
    "C134_ifov_partial",
    "C134_flat_refuted",
    "C134_ring_refuted"
   ],
   "note": "Proved for Stokes and polarization parameters, demodulation, binning and demosaicing. Refuted for the field-of-view correction (0 in the first two rows and columns, as for any pixel there), the flat field (one missing flat pixel makes the whole corrected image missing, through np.mean) and the radial filter (one missing pixel sets its whole ring to 0, because std > 0 is false). The dark correction turns missing pixels into 0 (C123). That other superpixels are unaffected is C119."
  },
  {
   "property": "C135",
   "status": "partial",
   "theorems": [
    "C135_transposed",
    "C135_backwards_partial",
    "C135_backwards_float_partial",
    "C135_moved_partial",
    "C135_float_refuted",
    "C135_mirrored_refuted",
    "C135_bresenham",
    "C135_bresenham_backwards_partial",
    "C135_bresenham_refuted"
   ],
   "note": "Proved: transposition for DDA and linear_roi (exactly and in binary64), reversal and displacement in exact arithmetic, reversal in binary64 up to one pixel where the line meets a pixel exactly; for bresenham displacement and mirroring always, reversal for an odd number of columns. Refuted: reversal and displacement in binary64 (accumulated 0.1), mirroring for DDA (coordinates are cut off, not rounded), reversal of bresenham at ties."
  },
  {
   "property": "C136",
   "status": "partial",
   "theorems": [
    "C136_shift_partial",
    "C136_shift_micropol_partial",
    "C136_shift_refuted",
    "C136_dark",
    "C136_flat",
    "C136_clamp",
    "C136_regions",
    "C136_mask_twice"
   ],
   "note": "Proved for darks (exact arithmetic, second dark not negative), flats (common factor given), clamps (also in binary64), regions and masks. Shifts compose in the same direction; refuted for opposite directions, where rows are lost at the edge (the documented purpose of missing)."
  },
  {
   "property": "C137",
   "status": "partial",
   "theorems": [
    "C137_packed_partial",
    "C137_packed_refuted",
    "C137_plain",
    "C137_light"
   ],
   "note": "Proved for 16-bit files and for 12-bit files without a chunk that ends in a NUL byte; refuted for the others, which are rejected (C45), for example an all-dark frame. The FITS file between reader and image is taken to hold the same numbers (astropy is not modelled)."
  },
  {
   "property": "C138",
   "status": "partial",
   "theorems": [
    "C138_error",
    "C138_range_partial",
    "C138_camera",
    "C138_range_refuted",
    "C138_exact",
    "C138_image"
   ],
   "note": "Refuted for the range: the last of 26 positions over 8 samples is rounded beyond the last sample, so a row that falls from 1 to 0 there gets a negative pixel. It is outside the range by no more than the proved error."
  },
  {
   "property": "C139",
   "status": "partial",
   "theorems": [
    "C139_again_partial",
    "C139_corrected",
    "C139_vector_refuted",
    "C139_flags_refuted",
    "C139_angles_refuted",
    "C139_absent"
   ],
   "note": "Holds for images whose Stokes vector is that of their pixels, if their orientations are given again or are the default. Refuted otherwise: the file holds pixels and header only, so the Stokes vector of a demodulated, demosaiced, masked or rotated image is lost, all flags are, and an image with its own orientations is read with the default ones (Q changes sign if 0 and 90 degrees are exchanged)."
  },
  {
   "property": "C140",
   "status": "partial",
   "theorems": [
    "C140_meaning_partial",
    "C140_refused",
    "C140_left_refuted",
    "C140_sum_refuted",
    "C140_sum_start",
    "C140_angles_refuted"
   ],
   "note": "Holds whenever images stand on the left of numbers and arrays and are of one class; every other expression raises TypeError (proved for all expressions). Refuted: numbers and arrays on the left of an image and Python's sum of images raise TypeError since there are no reflected operators, an Image and a MicropolImage cannot be combined, and images with different orientations of the micropolarizers are combined without an error, with wrong Stokes parameters."
  },
  {
   "property": "C141",
   "status": "proved",
   "theorems": [
    "C141_errors"
   ],
   "note": "Proved for the whole chain from pixel errors to sigma_AoLP. The errors of pB for unpolarized light and of AoLP for Q = 0 are not numbers (NaN, see C65)."
  },
  {
   "property": "C142",
   "status": "partial",
   "theorems": [
    "C142_two_images",
    "C142_exact_partial",
    "C142_exact_refuted",
    "C142_stokes_partial",
    "C142_number",
    "C142_sign_refuted",
    "C142_quotient"
   ],
   "note": "The type of every result has room for the operands and is the narrowest such type (proved). Every result is exact for a signed and an unsigned type, the latter at least as wide and at most 32 bits; refuted for all other pairs of types (wrapping, or rounding for uint64 with a signed type) and for numbers: with numpy 1.26.4 an unsigned image minus k wraps around below k, plus -k does not."
  },
  {
   "property": "C143",
   "status": "partial",
   "theorems": [
    "C143_angle",
    "C143_pixels_partial",
    "C143_superpixels_partial",
    "C143_any_bounds",
    "C143_circle",
    "C143_default_centre",
    "C143_across_refuted",
    "C143_exact_arithmetic"
   ],
   "note": "selection exact for multiples of 30 and 45 degrees, within 2^-42 degrees otherwise; refuted: theta=[-45, 45] keeps only the directions from 0 to 45 degrees"
  },
  {
   "property": "C144",
   "status": "proved",
   "theorems": [
    "C144_counts",
    "C144_ifov",
    "C144_equal",
    "C144_calibration",
    "C144_exact_calibration",
    "C144_identity"
   ],
   "note": ""
  },
  {
   "property": "C145",
   "status": "proved",
   "theorems": [
    "C145_filter",
    "C145_empty",
    "C145_step"
   ],
   "note": ""
  },
  {
   "property": "C146",
   "status": "partial",
   "theorems": [
    "C146_picks",
    "C146_asked_partial",
    "C146_grid",
    "C146_exact",
    "C146_same",
    "C146_previous_refuted",
    "C146_next_refuted"
   ],
   "note": "Every pixel is one that the kind asks for up to the rounding of the position, the order is kept, the same size gives the same image and grids finer by a power of two are exact (proved for all kinds); \"nearest\" and \"nearest-up\" keep every sample that the new grid meets, corners included. Refuted for the other two: with \"previous\" the last column of 50 out of 2 is the first column of the image, with \"next\" the last column of 26 out of 8 is NaN, since (n - 1) / (m - 1) * (m - 1) is rounded below or above n - 1."
  },
  {
   "property": "C147",
   "status": "partial",
   "theorems": [
    "C147_linear",
    "C147_range",
    "C147_same",
    "C147_picks",
    "C147_images",
    "C147_refused",
    "C147_ignored_refuted",
    "C147_one_refuted"
   ],
   "note": "Proved for all shapes with sides of at least 2 before and after (linear: exact arithmetic; nearest, nearest-up and previous: binary64). Refuted: with more sizes than axes the rest is ignored instead of refused, and a new side of 1 makes all elements NaN instead of refusing or sampling."
  },
  {
   "property": "C148",
   "status": "proved",
   "theorems": [
    "C148_pixel",
    "C148_demodulated",
    "C148_light"
   ],
   "note": ""
  },
  {
   "property": "C149",
   "status": "partial",
   "theorems": [
    "C149_shows",
    "C149_figures_partial",
    "C149_curves_refuted",
    "C149_small_refuted",
    "C149_odd",
    "C149_folder"
   ],
   "note": "Proved for images of at least 150 pixels a side, with every curve characterised; the curves are those of the superpixel where all four pixels could be fitted, and nothing is written. Refuted: where a fit fails or a pixel is dark, the figure shows the curves of an earlier superpixel, and with a side of less than 150 pixels the run ends in ValueError, since the window is fixed."
  },
  {
   "property": "C150",
   "status": "proved",
   "theorems": [
    "C150_inverse",
    "C150_stokes",
    "C150_light"
   ],
   "note": ""
  },
  {
   "property": "C151",
   "status": "partial",
   "theorems": [
    "C151_union",
    "C151_intersection",
    "C151_difference_refuted",
    "C151_ints",
    "C151_floats_partial",
    "C151_floats_refuted",
    "C151_twice",
    "C151_stokes_partial",
    "C151_mixed",
    "C151_mixed_number",
    "C151_mask_ints",
    "C151_large_refuted",
    "C151_number"
   ],
   "note": "Hidden pixels that are NaN or infinite come out as NaN instead of zero, masks cannot be subtracted (TypeError), and integers beyond 2^53 are rounded when floats join in. Proved for finite hidden pixels; everything else for all inputs."
  },
  {
   "property": "C152",
   "status": "partial",
   "theorems": [
    "C152_rank",
    "C152_few",
    "C152_scale",
    "C152_isolated_partial",
    "C152_border_refuted",
    "C152_pair_refuted",
    "C152_range",
    "C152_undetected_refuted"
   ],
   "note": "Refuted in the first two rows and columns, where the mirrored window compares a pixel with itself, so that a flagged hot pixel stays (and would not be found), and for two bright neighbours. Proved for isolated bright or dark pixels elsewhere; the range and all statements about the filter hold without exception."
  },
  {
   "property": "C153",
   "status": "partial",
   "theorems": [
    "C153_turned",
    "C153_determined",
    "C153_corners",
    "C153_corners_determined",
    "C153_compose",
    "C153_crop_refuted",
    "C153_exact_partial",
    "C153_error",
    "C153_unturned_refuted",
    "C153_shows_its_data",
    "C153_direction_refuted"
   ],
   "note": "Positions proved for all turns; where one side is even and the other one odd, a quarter turn takes centres to corners and the pixel to the right and below is used. Values proved for numbers of 24 bits, otherwise within 2^-24. Refuted: Pillow's pictures are 24-bit floats, so rotate(0) makes 2^24 out of 2^24 + 1; quarter turns of pictures that are not square lose the ends; Q and U keep their sign in a quarter turn, so the directions of polarization do not turn."
  },
  {
   "property": "C154",
   "status": "partial",
   "theorems": [
    "C154_populations_partial",
    "C154_populations_refuted",
    "C154_image",
    "C154_two_levels",
    "C154_small_refuted"
   ],
   "note": "Proved when the gap exceeds the width of the populations by the square root of twice the number of pixels, and for two levels without condition (the threshold is then the background plus 1). Refuted: of a background of 0 and 100 and a signal of 102 the brighter background counts as signal; signals that nowhere fill half of 10 x 10 pixels do not change the threshold, so that those fainter than the background plus 1 stay below it."
  },
  {
   "property": "C155",
   "status": "partial",
   "theorems": [
    "C155_means",
    "C155_exact",
    "C155_rounded",
    "C155_few_bits_partial",
    "C155_constant_partial",
    "C155_constant_refuted",
    "C155_four_refuted"
   ],
   "note": "Means and exactness proved, for entries of few bits also that every mean is the nearest number; constant matrices proved to be kept for n = 2, and for every n if the number has few bits. Refuted for n = 3, where 0.1 everywhere becomes 0.09999999999999999, and for n = 4, where it becomes 0.10000000000000002. n*n + 8 <= 2^52 is assumed, and that the sums stay below 2^1019."
  },
  {
   "property": "C156",
   "status": "partial",
   "theorems": [
    "C156_powers_partial",
    "C156_demodulated_partial",
    "C156_three_refuted"
   ],
   "note": "Proved for powers of two, in both directions, also after demodulation. Refuted for 3: pixels 1, 1, 3, 3 have DoLP 0.7071067811865476, pixels 3, 3, 9, 9 have 0.7071067811865475. AoLP is left out (libm)."
  }
 ]
}