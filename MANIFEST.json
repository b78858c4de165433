{
 "claims": [
  {
   "property": "C01",
   "status": "proved",
   "theorems": [
    "C01_at_exact",
    "C01_in_bounds",
    "C01_at_distinct",
    "C01_at_write"
   ],
   "note": "All images built by constructors, reshape, copy, assignment, writes, nested sub-images, with sizes below 2^32. Exact value, exception condition, injectivity, write frame."
  },
  {
   "property": "C02",
   "status": "proved",
   "theorems": [
    "C02_at_safe_iff"
   ],
   "note": "Exact condition (iff) over all 32-bit sizes; 65536x65536 witness as an example."
  },
  {
   "property": "C03",
   "status": "proved",
   "theorems": [
    "C03_reshape"
   ],
   "note": "All three outcomes of reshape."
  },
  {
   "property": "C04",
   "status": "proved",
   "theorems": [
    "C04_subimage_throws",
    "C04_subimage_window",
    "C04_subimage_nested"
   ],
   "note": "Exception condition (iff), aliasing in both directions with frame, nesting."
  },
  {
   "property": "C05",
   "status": "proved",
   "theorems": [
    "C05_copy",
    "C05_copy_throws",
    "C05_assign"
   ],
   "note": "Separate buffers. Copy between views of the same buffer is not covered by this theorem."
  },
  {
   "property": "C06",
   "status": "proved",
   "theorems": [
    "C06_getHeight_refuted",
    "C06_getters"
   ],
   "note": "The property is false of the code; the theorem is the refutation with a reachable witness."
  },
  {
   "property": "C07",
   "status": "proved",
   "theorems": [
    "C07_inter_at",
    "C07_inter_write",
    "C07_inter_subimage",
    "C07_band_refuted",
    "C07_size_refuted"
   ],
   "note": "In-range access proved; the band check is missing in the code, refuted with witnesses (aliasing and out-of-buffer)."
  },
  {
   "property": "C08",
   "status": "proved",
   "theorems": [
    "C08_setTo_one_byte",
    "C08_setTo_throws",
    "C08_setTo_refuted",
    "C08_setTo_wide"
   ],
   "note": "Proved for one-byte element types; refuted for every wider element type."
  },
  {
   "property": "C09",
   "status": "proved",
   "theorems": [
    "C09_growarray_sequence"
   ],
   "note": "All histories of calls on owning arrays, any element type. Exceptions leave the modelled object unchanged (operator= changes default_value before throwing, only for non-owning arrays)."
  },
  {
   "property": "C10",
   "status": "proved",
   "theorems": [
    "C10_fill_iff",
    "C10_bytes_one_or_zero",
    "C10_fill_refuted",
    "C10_resize_default",
    "C10_resize_stale_refuted"
   ],
   "note": "fill: exact characterisation (iff); resize: default proved for fresh storage, stale contents refuted for every type."
  },
  {
   "property": "C11",
   "status": "proved",
   "theorems": [
    "C11_packed_set"
   ],
   "note": "Refinement over all histories with fewer than 2^32 elements and sets."
  },
  {
   "property": "C12",
   "status": "proved",
   "theorems": [
    "C12_same_shape"
   ],
   "note": "Two and three image versions."
  },
  {
   "property": "C13",
   "status": "proved",
   "theorems": [
    "C13_border_read",
    "C13_value_border",
    "C13_size"
   ],
   "note": "Every border read within one image side of the image gives the extended/reflected/wrapped/constant pixel; constant border for every 32-bit coordinate."
  },
  {
   "property": "C14",
   "status": "proved",
   "theorems": [
    "C14_wrap_far_refuted",
    "C14_reflect_far_refuted"
   ],
   "note": "Refuted with a witness: reads further out than one image side leave the image for wrap and reflect."
  },
  {
   "property": "C15",
   "status": "proved",
   "theorems": [
    "C15_horizontal",
    "C15_horizontal_int",
    "C15_wrong_subimage"
   ],
   "note": "Any arithmetic (integers or floating point operations as a parameter) plus an exact integer form; all three internal paths."
  },
  {
   "property": "C16",
   "status": "proved",
   "theorems": [
    "C16_vertical",
    "C16_vertical_int"
   ],
   "note": "As C15, vertical."
  },
  {
   "property": "C17",
   "status": "proved",
   "theorems": [
    "C17_convolve",
    "C17_convolve_int"
   ],
   "note": "As C15, two-dimensional kernels."
  },
  {
   "property": "C18",
   "status": "proved",
   "theorems": [
    "C18_naive",
    "C18_wrap_refuted",
    "C18_reflect_refuted"
   ],
   "note": "Correct for extend and constant borders at any kernel size; reflect and wrap refuted for kernels reaching more than one side out."
  },
  {
   "property": "C19",
   "status": "proved",
   "theorems": [
    "C19_horizontal",
    "C19_vertical",
    "C19_convolve",
    "C19_horizontal_int",
    "C19_vertical_int",
    "C19_wrong_shape"
   ],
   "note": "Any arithmetic plus exact integer form; naive, inner and border paths; both passes of convolve. Vertical needs coefficients that fit the pixel type when the kernel is not shorter than the image (see C20)."
  },
  {
   "property": "C20",
   "status": "proved",
   "theorems": [
    "C20_truncation_refuted"
   ],
   "note": "Refuted with a witness: U8 image 10,20 and kernel 257,1."
  },
  {
   "property": "C21",
   "status": "proved",
   "theorems": [
    "C21_horizontal",
    "C21_vertical",
    "C21_convolve"
   ],
   "note": "Proved for U8 and U16 for horizontal, vertical and the two-pass call."
  },
  {
   "property": "C22",
   "status": "proved",
   "theorems": [
    "C22_horizontal",
    "C22_vertical",
    "C22_blur"
   ],
   "note": "Integer pixels, sums that fit; the vertical filter needs a kernel wider than the image or not taller than it (see C23)."
  },
  {
   "property": "C23",
   "status": "proved",
   "theorems": [
    "C23_short_image_refuted"
   ],
   "note": "Refuted: a 3x2 image with radius 1 is read outside its buffer."
  },
  {
   "property": "C24",
   "status": "proved",
   "theorems": [
    "C24_radius_zero",
    "C24_range"
   ],
   "note": "U8 and U16; every output lies between bounds of its own window."
  },
  {
   "property": "C25",
   "status": "proved",
   "theorems": [
    "C25_sum",
    "C25_sum_modulo",
    "C25_mean",
    "C25_histogram",
    "C25_all_pixels"
   ],
   "note": "sum exact when it fits the sum type, modulo 2^32 for unsigned sums without a bound; mean for 64-bit or non-negative sums; histogram when all pixels fit its range"
  },
  {
   "property": "C26",
   "status": "proved",
   "theorems": [
    "C26_min",
    "C26_max",
    "C26_subimage_refuted"
   ],
   "note": "proved for images that own their storage; refuted for sub-images with a witness"
  },
  {
   "property": "C27",
   "status": "proved",
   "theorems": [
    "C27_average_refuted",
    "C27_mean_s64",
    "C27_mean_refuted"
   ],
   "note": "refuted for 16 and 32-bit pixels (mean) and 16-bit bands; proved for 64-bit pixels"
  },
  {
   "property": "C28",
   "status": "proved",
   "theorems": [
    "C28_fill",
    "C28_fill_border"
   ],
   "note": "all pixel types, sub-images included"
  },
  {
   "property": "C29",
   "status": "proved",
   "theorems": [
    "C29_fill",
    "C29_subimage_refuted"
   ],
   "note": "proved for owning images; refuted for sub-images"
  },
  {
   "property": "C30",
   "status": "proved",
   "theorems": [
    "C30_convert_average",
    "C30_bands"
   ],
   "note": "unsigned, non-negative and 64-bit images; band sums must fit the sum type"
  },
  {
   "property": "C31",
   "status": "proved",
   "theorems": [
    "C31_logicAnd",
    "C31_logicOr",
    "C31_in_place",
    "C31_shape"
   ],
   "note": "Objects sharing memory are modelled by an explicit heap; outputs may be the same object as an input or any window whose shared places belong to the same pixel."
  },
  {
   "property": "C32",
   "status": "proved",
   "theorems": [
    "C32_erode",
    "C32_dilate",
    "C32_duality",
    "C32_shrink_grow"
   ],
   "note": "0/1 images of at least 1x1 pixel with sides up to 2^31."
  },
  {
   "property": "C33",
   "status": "proved",
   "theorems": [
    "C33_no_rows",
    "C33_no_columns",
    "C33_refuted"
   ],
   "note": "Refuted: images without rows, and images without columns but with three or more rows, are accessed outside their storage."
  },
  {
   "property": "C34",
   "status": "proved",
   "theorems": [
    "C34_threshold",
    "C34_complement"
   ],
   "note": "Any pixel type with its two comparisons."
  },
  {
   "property": "C35",
   "status": "proved",
   "theorems": [
    "C35_otsu",
    "C35_unique",
    "C35_two_occupied",
    "C35_one_occupied",
    "C35_otsu2",
    "C35_tuning",
    "C35_in_range",
    "C35_double_ties_refuted"
   ],
   "note": "Exact rational arithmetic in place of double for optimality; memory safety and range for any arithmetic. With IEEE doubles the choice among equally good splits is refuted (C35_double_ties_refuted). The modified variant and the tuning parameter are covered too."
  },
  {
   "property": "C36",
   "status": "proved",
   "theorems": [
    "C36_index",
    "C36_zero_minimum",
    "C36_refuted"
   ],
   "note": "Proved for ranges starting at 0, refuted otherwise (exact and IEEE arithmetic)."
  },
  {
   "property": "C37",
   "status": "proved",
   "theorems": [
    "C37_partition",
    "C37_sizes",
    "C37_statistics",
    "C37_places"
   ],
   "note": "Partition, sizes, loop structure and places, for arbitrary per-block computations."
  },
  {
   "property": "C38",
   "status": "proved",
   "theorems": [
    "C38_initial",
    "C38_mean",
    "C38_mean_float",
    "C38_mean_any",
    "C38_minmax",
    "C38_minmax_any",
    "C38_otsu",
    "C38_otsu2",
    "C38_otsu_any",
    "C38_mean_local",
    "C38_minmax_local",
    "C38_otsu_local",
    "C38_shape",
    "C38_small"
   ],
   "note": "Functional result for U8/U16 images in exact arithmetic (mean with scale at most 1, min-max, both Otsu methods), for IEEE floating point images (mean), and for any arithmetic in which the thresholds are defined; locality, independence of history, rejection of bad shapes. Range hypotheses exclude the defects C63-C67."
  },
  {
   "property": "C39",
   "status": "proved",
   "theorems": [
    "C39_trace_ends"
   ],
   "note": "Termination as a theorem about the loop with fuel: 4*width*height iterations suffice and the visited pixels form a closed walk from the start. The exit test compares position and direction with those of the first step."
  },
  {
   "property": "C40",
   "status": "proved",
   "theorems": [
    "C40_trace_marks"
   ],
   "note": "Every access of the model is checked; Ok means all were inside the buffers. Elements outside of the windows are unchanged."
  },
  {
   "property": "C41",
   "status": "proved",
   "theorems": [
    "C41_trace_points"
   ],
   "note": "Stated for a single trace with any limit; the points are recorded in coordinates of the label image."
  },
  {
   "property": "C42",
   "status": "proved",
   "theorems": [
    "C42_labels"
   ],
   "note": "For every state of the labeller reachable by constructor, settings and earlier calls."
  },
  {
   "property": "C43",
   "status": "proved",
   "theorems": [
    "C43_never_fails",
    "C43_refuses"
   ],
   "note": "Ok for every reachable state and every 0/1 image with 4(w+2)(h+2) < 2^32; Throw exactly for a sub-image of other size. The input is a const argument that the model does not return."
  },
  {
   "property": "C44",
   "status": "proved",
   "theorems": [
    "C44_history"
   ],
   "note": "Two reachable states with equal settings."
  },
  {
   "property": "C45",
   "status": "proved",
   "theorems": [
    "C45_limits"
   ],
   "note": "Compared with a labeller without limits on the same image."
  },
  {
   "property": "C46",
   "status": "proved",
   "theorems": [
    "C46_contours",
    "C46_sets"
   ],
   "note": "Contour k belongs to label k; external set = outer edge, internal sets in one-to-one relation with the holes; every set has one owner."
  },
  {
   "property": "C47",
   "status": "proved",
   "theorems": [
    "C47_relative",
    "C47_fixed",
    "C47_made_fixed",
    "C47_made_double",
    "C47_made_relative",
    "C47_computeI",
    "C47_negative",
    "C47_large",
    "C47_modes",
    "C47_modes_double",
    "C47_validity",
    "C47_default",
    "C47_validity_cases"
   ],
   "note": "Exact rational arithmetic for values and rounding; the two modes also for every double except NaN. Lengths of 2^31-1/2 and more are shown undefined."
  },
  {
   "property": "C48",
   "status": "proved",
   "theorems": [
    "C48_normalize",
    "C48_mean",
    "C48_mean_int",
    "C48_square_refuted",
    "C48_gaussian",
    "C48_gaussian_sum",
    "C48_gaussian_shape",
    "C48_gaussian_throw",
    "C48_gaussian2D"
   ],
   "note": "Exact real numbers and the real exponential. 1D kernels proved, 2D normalisation refuted; factory kernels characterised completely. The literals 0.8 and SQRT_2_PI are the decimal numbers written."
  },
  {
   "property": "C49",
   "status": "proved",
   "theorems": [
    "C49_round_trip",
    "C49_round_up",
    "C49_overflow",
    "C49_offset",
    "C49_offset_square",
    "C49_empty"
   ],
   "note": "Exact real numbers; orders from -6 on (the divisor 5+0.8*order is positive). Doubles: C74."
  },
  {
   "property": "C50",
   "status": "proved",
   "theorems": [
    "C50_ownership",
    "C50_no_leak",
    "C50_assign",
    "C50_subimage",
    "C50_copy_construction_refuted",
    "C50_assign_subimage_refuted",
    "C50_dangling_refuted"
   ],
   "note": "Programs of any length over an explicit heap. Refuted for copy construction (double free), assignment from a sub-image (leak) and use of a sub-image after its parent (use after free)."
  },
  {
   "property": "C51",
   "status": "proved",
   "theorems": [
    "C51_signed_constant_refuted"
   ],
   "note": "Refuted with a witness: S16 image of -1 becomes 0."
  },
  {
   "property": "C52",
   "status": "proved",
   "theorems": [
    "C52_float_window_refuted"
   ],
   "note": "Refuted on F32 with IEEE arithmetic."
  },
  {
   "property": "C53",
   "status": "proved",
   "theorems": [
    "C53_rows",
    "C53_ragged_throws"
   ],
   "note": "Found missing by a seeded bug (rows reversed)."
  },
  {
   "property": "C54",
   "status": "proved",
   "theorems": [
    "C54_histogram_range_refuted"
   ],
   "note": "refuted with a witness; C25_histogram covers pixels in range"
  },
  {
   "property": "C55",
   "status": "proved",
   "theorems": [
    "C55_average_no_bands",
    "C55_mean_empty",
    "C55_mean_refuted"
   ],
   "note": "the division by zero is proved for all empty images / images without bands; the stated property is therefore refuted"
  },
  {
   "property": "C56",
   "status": "proved",
   "theorems": [
    "C56_float_max_refuted"
   ],
   "note": "refuted with a witness (1x1 image holding -3)"
  },
  {
   "property": "C57",
   "status": "proved",
   "theorems": [
    "C57_fill_uniform",
    "C57_subimage_refuted"
   ],
   "note": "proved for owning images for any number sequence; refuted for sub-images"
  },
  {
   "property": "C58",
   "status": "proved",
   "theorems": [
    "C58_sum_overflow_refuted"
   ],
   "note": "refuted with a witness; C25_sum gives the range in which sums are exact"
  },
  {
   "property": "C59",
   "status": "proved",
   "theorems": [
    "C59_threshold_equal_refuted"
   ],
   "note": "Refuted for pixels equal to the threshold."
  },
  {
   "property": "C60",
   "status": "proved",
   "theorems": [
    "C60_self_crop_refuted"
   ],
   "note": "Refuted: overlapping memcpy."
  },
  {
   "property": "C61",
   "status": "proved",
   "theorems": [
    "C61_refuted"
   ],
   "note": "Refuted with two blobs whose holes start below the second row."
  },
  {
   "property": "C62",
   "status": "proved",
   "theorems": [
    "C62_refuted"
   ],
   "note": "Refuted with a single pixel and maxContourSize = 1."
  },
  {
   "property": "C63",
   "status": "proved",
   "theorems": [
    "C63_refuted"
   ],
   "note": "Refuted; any filter, see block_zero in L_BlockInt."
  },
  {
   "property": "C64",
   "status": "proved",
   "theorems": [
    "C64_refuted"
   ],
   "note": "Refuted, in exact and in IEEE arithmetic."
  },
  {
   "property": "C65",
   "status": "proved",
   "theorems": [
    "C65_refuted"
   ],
   "note": "Refuted."
  },
  {
   "property": "C66",
   "status": "proved",
   "theorems": [
    "C66_refuted"
   ],
   "note": "Refuted, in exact and in IEEE arithmetic."
  },
  {
   "property": "C67",
   "status": "proved",
   "theorems": [
    "C67_refuted"
   ],
   "note": "Refuted, in exact and in IEEE arithmetic."
  },
  {
   "property": "C68",
   "status": "proved",
   "theorems": [
    "C68_undefined",
    "C68_throw",
    "C68_refuted"
   ],
   "note": "Refuted for every arithmetic: whenever the 1D kernel exists for width -1 the 2D one is undefined, for other widths <= 0 it throws."
  },
  {
   "property": "C69",
   "status": "proved",
   "theorems": [
    "C69_range"
   ],
   "note": "Kernel coefficients in exact real arithmetic, convolution in the integer arithmetic of the code. Kernel width limited by 100*width*(max+1) < 2^31."
  },
  {
   "property": "C70",
   "status": "proved",
   "theorems": [
    "C70_refuted"
   ],
   "note": "Refuted with the double 0.49999999999999994."
  },
  {
   "property": "C71",
   "status": "proved",
   "theorems": [
    "C71_nonnegative",
    "C71_refuted"
   ],
   "note": "Proved for non-negative lengths, refuted by the default configuration."
  },
  {
   "property": "C72",
   "status": "proved",
   "theorems": [
    "C72_line",
    "C72_refuted"
   ],
   "note": "Proved for 1D lists, refuted for 2D lists."
  },
  {
   "property": "C73",
   "status": "proved",
   "theorems": [
    "C73_kernel",
    "C73_shape",
    "C73_square"
   ],
   "note": "Exact real numbers and the real exponential."
  },
  {
   "property": "C74",
   "status": "proved",
   "theorems": [
    "C74_refuted",
    "C74_infinite_refuted"
   ],
   "note": "Refuted in IEEE doubles: order 1, radius 6 gives 7."
  },
  {
   "property": "C75",
   "status": "proved",
   "theorems": [
    "C75_exact",
    "C75_any",
    "C75_small",
    "C75_filter"
   ],
   "note": "Integer images. Comparison in exact arithmetic (C75_exact, C75_filter) or any arithmetic including floats (C75_any). Condition on the region is that of C23."
  },
  {
   "property": "C76",
   "status": "proved",
   "theorems": [
    "C76_upward_refuted"
   ],
   "note": "False: refuted with a witness. Documentation and code disagree."
  },
  {
   "property": "C77",
   "status": "proved",
   "theorems": [
    "C77_full_region_refuted"
   ],
   "note": "False: refuted with a witness (3x2 image)."
  },
  {
   "property": "C78",
   "status": "proved",
   "theorems": [
    "C78_total",
    "C78_u8",
    "C78_image"
   ],
   "note": "Exact value or undefined for every integer type with a TypeInfo."
  },
  {
   "property": "C79",
   "status": "proved",
   "theorems": [
    "C79_result_fits_refuted"
   ],
   "note": "False: refuted with a witness."
  },
  {
   "property": "C80",
   "status": "proved",
   "theorems": [
    "C80_contours"
   ],
   "note": "The Java class GrowQueue_I32 is not in the repository; its resize is modelled with an arbitrary growth function. Looking up fields and methods is not modelled."
  },
  {
   "property": "C81",
   "status": "proved",
   "theorems": [
    "C81_points",
    "C81_mismatch"
   ],
   "note": "The Java class PackedSetsPoint2D_I32 is not in the repository; its getSet is part of the specification."
  },
  {
   "property": "C82",
   "status": "proved",
   "theorems": [
    "C82_fixed",
    "C82_otsu",
    "C82_local",
    "C82_block_mean",
    "C82_block_minmax",
    "C82_block_otsu",
    "C82_any"
   ],
   "note": "Fixed threshold in doubles; Otsu and block filters in exact arithmetic; local mean in any arithmetic. Virtual machine, Java image classes and JNI rules are modelled as described in M_Native.v. Integer (U8) images only."
  },
  {
   "property": "C83",
   "status": "proved",
   "theorems": [
    "C83_refuted"
   ],
   "note": "False: refuted with a witness."
  },
  {
   "property": "C84",
   "status": "proved",
   "theorems": [
    "C84_refuted"
   ],
   "note": "False: refuted with a witness (local mean filter with a region of width 1)."
  },
  {
   "property": "C85",
   "status": "proved",
   "theorems": [
    "C85_horizontal",
    "C85_vertical",
    "C85_square",
    "C85_refused",
    "C85_code",
    "C85_offset",
    "C85_width",
    "C85_columns_refuted",
    "C85_bits_refuted"
   ],
   "note": "U8 input only. False for borders with two rules (C85_columns_refuted) and 8-bit output (C85_bits_refuted)."
  },
  {
   "property": "C86",
   "status": "proved",
   "theorems": [
    "C86_labels",
    "C86_contours"
   ],
   "note": "Java's classes are modelled as described in M_Native.v and M_Jni.v. Minimum and maximum length must not be negative, see C87."
  },
  {
   "property": "C87",
   "status": "proved",
   "theorems": [
    "C87_defaults",
    "C87_set",
    "C87_other_rule",
    "C87_kept",
    "C87_negative_refuted"
   ],
   "note": "The part about negative values is false: C87_negative_refuted."
  },
  {
   "property": "C88",
   "status": "proved",
   "theorems": [
    "C88_filters",
    "C88_finders",
    "C88_destroy_refuted",
    "C88_type_refuted"
   ],
   "note": "False for explicit destruction of threshold filters and for changing the image type: C88_destroy_refuted, C88_type_refuted."
  },
  {
   "property": "C89",
   "status": "proved",
   "theorems": [
    "C89_new",
    "C89_band",
    "C89_reshape",
    "C89_write",
    "C89_default"
   ],
   "note": "setNumberOfBands, at and setTo do not compile when instantiated and are not modelled."
  },
  {
   "property": "C90",
   "status": "proved",
   "theorems": [
    "C90_destroy",
    "C90_refuted"
   ],
   "note": "False: refuted with a witness; C90_destroy says for which images."
  },
  {
   "property": "C91",
   "status": "proved",
   "theorems": [
    "C91_horizontal",
    "C91_vertical"
   ],
   "note": "Closed under the global context."
  },
  {
   "property": "C92",
   "status": "proved",
   "theorems": [
    "C92_mean"
   ],
   "note": "Closed under the global context."
  },
  {
   "property": "C93",
   "status": "proved",
   "theorems": [
    "C93_gaussian"
   ],
   "note": "Over real numbers; uses the axioms of the real numbers and Classical_Prop.classic."
  },
  {
   "property": "C94",
   "status": "proved",
   "theorems": [
    "C94_mean_refuted",
    "C94_negative_refuted",
    "C94_gaussian_refuted",
    "C94_normalized_refuted"
   ],
   "note": "Violated: refuted by witnesses."
  },
  {
   "property": "C95",
   "status": "proved",
   "theorems": [
    "C95_rows_first",
    "C95_columns_first",
    "C95_constant_refuted"
   ],
   "note": "Convolution with two line kernels, rows or columns first, equals the convolution with the product kernel; refuted for a constant border other than 0."
  },
  {
   "property": "C96",
   "status": "proved",
   "theorems": [
    "C96_values",
    "C96_copy_refuted",
    "C96_stale_copy_refuted",
    "C96_assign_copy_refuted"
   ],
   "note": "Every program without copy construction refines independent sequences, without undefined behaviour or leak; copy construction frees twice or dangles (witnesses)."
  },
  {
   "property": "C97",
   "status": "proved",
   "theorems": [
    "C97_container",
    "C97_kernels",
    "C97_access",
    "C97_info",
    "C97_statistics",
    "C97_default_refuted",
    "C97_offset_refuted",
    "C97_large_refuted",
    "C97_rows_refuted",
    "C97_magnitude_refuted",
    "C97_magnitude_undefined_refuted"
   ],
   "note": "All histories of kernel objects; statistics of integer kernels; witnesses at the edges."
  },
  {
   "property": "C98",
   "status": "proved",
   "theorems": [
    "C98_fill",
    "C98_range",
    "C98_empty_refuted"
   ],
   "note": "All coefficients and only these are replaced; integer range as documented; empty range not refused (witness)."
  },
  {
   "property": "C99",
   "status": "proved",
   "theorems": [
    "C99_any",
    "C99_integer",
    "C99_border",
    "C99_any_border",
    "C99_picture",
    "C99_wide_border_refuted",
    "C99_wide_inner_refuted",
    "C99_overflow_refuted",
    "C99_infinity_refuted"
   ],
   "note": "Exact for integer images and any comparison of pixels; witnesses for wide borders, overflow and infinities."
  },
  {
   "property": "C100",
   "status": "proved",
   "theorems": [
    "C100_subimage"
   ],
   "note": "Layout and pixels of the helper's sub-image."
  },
  {
   "property": "C101",
   "status": "proved",
   "theorems": [
    "C101_values",
    "C101_copy_refuted",
    "C101_assign_refuted",
    "C101_block_size_refuted"
   ],
   "note": "Two-level heap (arrays of pointers, blocks); the copy, assignment and block size defects are stated by _refuted theorems with concrete programs."
  },
  {
   "property": "C102",
   "status": "proved",
   "theorems": [
    "C102_symmetric",
    "C102_self",
    "C102_exact",
    "C102_error",
    "C102_zero_refuted",
    "C102_order_refuted"
   ],
   "note": "IEEE 754 arithmetic of SpecFloat, related to the real numbers through Flocq. Refuted: distance zero only for equal points, and the order of distances is kept."
  },
  {
   "property": "C103",
   "status": "proved",
   "theorems": [
    "C103_horizontal",
    "C103_vertical",
    "C103_convolve",
    "C103_bits"
   ],
   "note": "Error analysis of the very order of operations in the code, for the inner part and the border passes alike."
  },
  {
   "property": "C104",
   "status": "proved",
   "theorems": [
    "C104_horizontal",
    "C104_vertical",
    "C104_convolve",
    "C104_limit_refuted"
   ],
   "note": "C104_limit_refuted shows that the bound cannot be raised."
  },
  {
   "property": "C105",
   "status": "proved",
   "theorems": [
    "C105_horizontal",
    "C105_vertical",
    "C105_constant_refuted"
   ],
   "note": "C105_constant_refuted: with seven equal coefficients the constant float image 8388610 becomes 8388609."
  },
  {
   "property": "C106",
   "status": "proved",
   "theorems": [
    "C106_convolve",
    "C106_gaussian"
   ],
   "note": "The kernel is any kernel of non-negative floats; the values that FactoryKernelGaussian computes are in C48 and C73."
  },
  {
   "property": "C107",
   "status": "proved",
   "theorems": [
    "C107_horizontal",
    "C107_vertical",
    "C107_blur",
    "C107_window_refuted",
    "C107_square"
   ],
   "note": "Images wider than the window but lower than it are excluded in the vertical pass, as in C22."
  },
  {
   "property": "C108",
   "status": "proved",
   "theorems": [
    "C108_constants",
    "C108_min",
    "C108_max",
    "C108_sum",
    "C108_mean",
    "C108_constant_refuted",
    "C108_infinite_refuted"
   ],
   "note": "Model in M_Stats (float_min, float_max, float_sum, float_mean) with IEEE operations of M_Float; spec over the reals in S_FStats. C108_constants fixes u, t, the overflow threshold and the smallest normal number of both types. Refutations: C108_constant_refuted, C108_infinite_refuted."
  },
  {
   "property": "C109",
   "status": "proved",
   "theorems": [
    "C109_inner",
    "C109_naive_int",
    "C109_inner_int",
    "C109_nearest",
    "C109_negative_refuted",
    "C109_zero_refuted",
    "C109_narrow_refuted",
    "C109_naive_float",
    "C109_inner_float"
   ],
   "note": "Model: M_Convolve (int_arith_div, naive_*, inner_*), M_Divisor (float_arith_div). Spec in S_Divisor. Refutations: C109_negative_refuted, C109_zero_refuted, C109_narrow_refuted."
  },
  {
   "property": "C110",
   "status": "proved",
   "theorems": [
    "C110_threshold",
    "C110_nan_refuted"
   ],
   "note": "Lengths are computed in any arithmetic; the mean is that of C107, the square mean is tied to it by C107_square. Refutation: C110_nan_refuted."
  },
  {
   "property": "C111",
   "status": "proved",
   "theorems": [
    "C111_mean",
    "C111_minmax",
    "C111_constant_refuted"
   ],
   "note": "C111_mean and C111_minmax give the decision away from the threshold; C111_constant_refuted shows that it can be wrong at the threshold. Regions without a positive value: C65_refuted."
  },
  {
   "property": "C112",
   "status": "proved",
   "theorems": [
    "C112_otsu",
    "C112_unique",
    "C112_otsu2",
    "C112_index",
    "C112_index2",
    "C112_filter"
   ],
   "note": "C112_otsu, C112_otsu2: near_best and near_middle (S_FOtsu) bound the lost separation and the error of the middle in terms of the number of bins and pixels; C112_unique: with a clear winner this is best_split of C35. C112_index, C112_index2, C112_filter: images. C35_double_ties_refuted shows that some slack is needed."
  },
  {
   "property": "C113",
   "status": "proved",
   "theorems": [
    "C113_gray",
    "C113_unchecked",
    "C113_interleaved",
    "C113_array"
   ],
   "note": "C113_gray, C113_interleaved (one byte elements; C08 tells what setTo does to wider ones) and C113_array: refinement of the wrapped objects to a window of the memory for every history of calls. C113_unchecked: when every pixel can be read."
  },
  {
   "property": "C114",
   "status": "proved",
   "theorems": [
    "C114_extrema",
    "C114_sum",
    "C114_normalize",
    "C114_mean",
    "C114_mean_saturates",
    "C114_mean_refuted",
    "C114_symmetric",
    "C114_gaussian"
   ],
   "note": "IEEE arithmetic of M_Float.v; exp and ceil of the C library are arbitrary functions. C114_mean_refuted: a float mean kernel of width 4278190080 adds up to 255; C114_mean_saturates says so for every width from 2^24 (2^53) on."
  },
  {
   "property": "C115",
   "status": "proved",
   "theorems": [
    "C115_any",
    "C115_narrow",
    "C115_bits",
    "C115_fixed",
    "C115_local",
    "C115_fixed_refuted",
    "C115_failure_refuted"
   ],
   "note": "The virtual machine hands arrays out and takes them back; float arrays and integer arrays are separate. Refuted part: the comparison with the double itself and the handling of exceptions. Block and Otsu filters are not instantiated for floats (C115_any covers the call)."
  },
  {
   "property": "C116",
   "status": "proved",
   "theorems": [
    "C116_horizontal",
    "C116_vertical",
    "C116_square",
    "C116_refused",
    "C116_double",
    "C116_columns_refuted"
   ],
   "note": "Assumes that the compiler neither fuses nor reorders floating point operations. Refuted part: use of the rule for columns."
  },
  {
   "property": "C117",
   "status": "proved",
   "theorems": [
    "C117_horizontal",
    "C117_vertical",
    "C117_mean",
    "C117_gaussian",
    "C117_failure_refuted"
   ],
   "note": "The Gaussian theorem takes the kernel as given (C114 describes it). Refuted part: exceptions leave the native code."
  },
  {
   "property": "C118",
   "status": "proved",
   "theorems": [
    "C118_edge",
    "C118_determined",
    "C118_points_refuted"
   ],
   "note": "Same model as C46. Union of contours = inner boundary under the dual rule; equality of records and point sets implies equal foreground; a block and a ring show that the points alone do not suffice."
  },
  {
   "property": "C119",
   "status": "proved",
   "theorems": [
    "C119_cpp",
    "C119_any",
    "C119_fixed"
   ],
   "note": "In C++ (C119_cpp), from Java for any filter (C119_any) and for the fixed threshold (C119_fixed)."
  },
  {
   "property": "C120",
   "status": "proved",
   "theorems": [
    "C120_order",
    "C120_one",
    "C120_moved",
    "C120_java",
    "C120_java_moved"
   ],
   "note": "C120_order and C120_java give the whole content of the result: numbering of the sets, beginnings, order of the points, assignment to blobs. C120_one says that the order is determined, C120_moved and C120_java_moved that it does not depend on the place of the foreground or the size of the image."
  },
  {
   "property": "C121",
   "status": "proved",
   "theorems": [
    "C121_threshold",
    "C121_otsu",
    "C121_local",
    "C121_block_mean",
    "C121_block_minmax",
    "C121_block_otsu",
    "C121_blur_mean",
    "C121_blur_gaussian",
    "C121_morph",
    "C121_in_place",
    "C121_other",
    "C121_parent",
    "C121_pixels",
    "C121_overlap_refuted",
    "C121_dilate_refuted",
    "C121_erode_refuted"
   ],
   "note": "Shared-memory versions of the functions in M_Shared.v; proved to simulate the models with separate buffers, so that the other theorems apply. Storage images and statistics are separate. C121_overlap_refuted, C121_dilate_refuted and C121_erode_refuted give witnesses where the conditions fail."
  },
  {
   "property": "C122",
   "status": "proved",
   "theorems": [
    "C122_fixed",
    "C122_otsu",
    "C122_local",
    "C122_block_mean",
    "C122_block_minmax",
    "C122_block_otsu",
    "C122_in_place",
    "C122_parent",
    "C122_overlap_refuted"
   ],
   "note": "Otsu and the block filters in exact arithmetic as in C82; the local mean in any arithmetic. C122_overlap_refuted shows that the condition is needed."
  },
  {
   "property": "C123",
   "status": "proved",
   "theorems": [
    "C123_mean",
    "C123_gaussian"
   ],
   "note": "Gaussian over real numbers as in C93. Calls in which the storage shares an array with input or output are not modelled."
  },
  {
   "property": "C124",
   "status": "proved",
   "theorems": [
    "C124_index",
    "C124_filter",
    "C124_whole",
    "C124_java",
    "C124_split_refuted",
    "C124_min_refuted",
    "C124_undefined_refuted"
   ],
   "note": "C124_index gives the threshold, C124_filter the output, C124_whole the case of whole numbers and C124_java the call from Java. C124_split_refuted, C124_min_refuted and C124_undefined_refuted show images with fractions, with another minimum, and with values outside the range."
  },
  {
   "property": "C125",
   "status": "proved",
   "theorems": [
    "C125_bytes",
    "C125_floats",
    "C125_undefined_refuted"
   ],
   "note": "Doubles as IEEE 754 binary64 with round to nearest even; tuning 0 and scale 1 only."
  },
  {
   "property": "C126",
   "status": "proved",
   "theorems": [
    "C126_fresh",
    "C126_mean",
    "C126_minmax",
    "C126_otsu",
    "C126_failure_refuted"
   ],
   "note": "Otsu with tuning 0 and scale 1. The Java machine is modelled by its arrays and the set of arrays not yet given back."
  },
  {
   "property": "C127",
   "status": "proved",
   "theorems": [
    "C127_image",
    "C127_same",
    "C127_kernel1",
    "C127_kernel2",
    "C127_width_refuted"
   ],
   "note": "Proved on a model of printf's %d and %02x; refuted part: the width line of an image at least 2^31 wide."
  },
  {
   "property": "C128",
   "status": "proved",
   "theorems": [
    "C128_number",
    "C128_image",
    "C128_kernel1",
    "C128_kernel2",
    "C128_same_refuted"
   ],
   "note": "Proved on a model of printf's %.4e that rounds the exact value, as glibc does."
  },
  {
   "property": "C129",
   "status": "proved",
   "theorems": [
    "C129_horizontal",
    "C129_vertical",
    "C129_square",
    "C129_windows",
    "C129_horizontal_refuted",
    "C129_vertical_refuted",
    "C129_square_refuted"
   ],
   "note": "Convolution on a heap where each read sees all earlier writes is proved equal to convolution of copies, for every pixel type; in-place use is refuted by witnesses."
  },
  {
   "property": "C130",
   "status": "proved",
   "theorems": [
    "C130_first",
    "C130_nowhere",
    "C130_once",
    "C130_fallback_refuted"
   ],
   "note": "order of the places (C130_first), nothing anywhere (C130_nowhere), at most one library on every machine (C130_once); falling back to a later library is false (C130_fallback_refuted)"
  },
  {
   "property": "C131",
   "status": "proved",
   "theorems": [
    "C131_clean",
    "C131_meanwhile",
    "C131_posix",
    "C131_streams",
    "C131_ends"
   ],
   "note": "file system after the end (C131_clean), what changes until then (C131_meanwhile, C131_posix), streams (C131_streams), termination (C131_ends)"
  },
  {
   "property": "C132",
   "status": "proved",
   "theorems": [
    "C132_copy",
    "C132_bytes"
   ],
   "note": "copy (C132_copy), what is linked from a jar (C132_bytes)"
  },
  {
   "property": "C133",
   "status": "proved",
   "theorems": [
    "C133_mean_order",
    "C133_mean_shift",
    "C133_mean_mirror",
    "C133_gauss_order",
    "C133_gauss_shift",
    "C133_gauss_mirror",
    "C133_transpose_refuted",
    "C133_signed_refuted"
   ],
   "note": "C133_mean_* and C133_gauss_*; C133_transpose_refuted and C133_signed_refuted are witnesses of what does not hold. Gaussian kernel over real numbers as in C69."
  },
  {
   "property": "C134",
   "status": "proved",
   "theorems": [
    "C134_local_shift",
    "C134_local_mirror",
    "C134_otsu_counts",
    "C134_otsu_related",
    "C134_otsu_shift",
    "C134_otsu_mirror",
    "C134_constant_refuted",
    "C134_scale_refuted"
   ],
   "note": "C134_local_shift in float with scale 1; C134_otsu_shift in exact arithmetic; C134_local_mirror, C134_otsu_counts, C134_otsu_mirror in any arithmetic; C134_otsu_related gives the counts of related images. C134_constant_refuted and C134_scale_refuted are witnesses of what does not hold."
  },
  {
   "property": "C135",
   "status": "proved",
   "theorems": [
    "C135_order",
    "C135_open",
    "C135_close",
    "C135_combine",
    "C135_open_refuted",
    "C135_close_refuted",
    "C135_reuse_refuted"
   ],
   "note": "C135_order, C135_open, C135_close, C135_combine; C135_open_refuted, C135_close_refuted and C135_reuse_refuted are witnesses for what does not hold at the edge."
  },
  {
   "property": "C136",
   "status": "proved",
   "theorems": [
    "C136_mean",
    "C136_gauss",
    "C136_local",
    "C136_morph",
    "C136_convolve_h",
    "C136_convolve_v",
    "C136_convolve_2",
    "C136_edge_refuted",
    "C136_relative_refuted"
   ],
   "note": "Relates the results for an image and for a part of it; conv_ready, mean_ready and gauss_ready state that no overflow occurs."
  },
  {
   "property": "C137",
   "status": "proved",
   "theorems": [
    "C137_image",
    "C137_kernel",
    "C137_unit",
    "C137_constant",
    "C137_turned",
    "C137_impulse_refuted",
    "C137_normalized_refuted"
   ],
   "note": "For integer images without overflow of the sums (sum_ready)."
  },
  {
   "property": "C138",
   "status": "proved",
   "theorems": [
    "C138_mean",
    "C138_minmax",
    "C138_otsu",
    "C138_scale_refuted",
    "C138_flat_refuted"
   ],
   "note": "Exact arithmetic; images whose sums and statistics do not overflow."
  },
  {
   "property": "C139",
   "status": "proved",
   "theorems": [
    "C139_more",
    "C139_rules",
    "C139_reflected",
    "C139_reflected_blobs",
    "C139_reflected_holes",
    "C139_inverse",
    "C139_same_rule_refuted",
    "C139_frame_refuted",
    "C139_numbers_refuted"
   ],
   "note": "Holes are counted as sets of points that are not external contours (C46)."
  },
  {
   "property": "C140",
   "status": "proved",
   "theorems": [
    "C140_runs",
    "C140_nested",
    "C140_same",
    "C140_holes",
    "C140_count_refuted"
   ],
   "note": "Holes are counted as sets of points that are not external contours (C46)."
  },
  {
   "property": "C141",
   "status": "proved",
   "theorems": [
    "C141_dilate",
    "C141_erode",
    "C141_erode_blobs_refuted",
    "C141_dilate_holes_refuted"
   ],
   "note": "The blank edge is needed because the operations leave the edge of the output as it was (C32, C135)."
  },
  {
   "property": "C142",
   "status": "proved",
   "theorems": [
    "C142_erode_times",
    "C142_dilate_times",
    "C142_contour",
    "C142_four_refuted"
   ],
   "note": "Each repetition has its own output image, so no image is read and written at once (C121)."
  },
  {
   "property": "C143",
   "status": "proved",
   "theorems": [
    "C143_sum",
    "C143_mean",
    "C143_extremes",
    "C143_histogram",
    "C143_tells",
    "C143_bins",
    "C143_overflow_refuted",
    "C143_float_refuted"
   ],
   "note": "Minimum and maximum for images that own their storage (C26), the mean for pixels that are not negative (C27)."
  },
  {
   "property": "C144",
   "status": "proved",
   "theorems": [
    "C144_between",
    "C144_order",
    "C144_shift",
    "C144_exchange",
    "C144_signed_refuted"
   ],
   "note": "Negative bands of 16 and 32 bit images are C27."
  },
  {
   "property": "C145",
   "status": "proved",
   "theorems": [
    "C145_between",
    "C145_outside",
    "C145_masks",
    "C145_itself",
    "C145_true_refuted"
   ],
   "note": "The thresholds and the logic are stated together; each alone is C34 and C31."
  }
 ]
}
