{
 "claims": [
  {
   "property": "C01",
   "status": "proved",
   "theorems": [
    "C01_sort_permutes"
   ],
   "note": "Any arithmetic, any input on which sort returns."
  },
  {
   "property": "C02",
   "status": "proved",
   "theorems": [
    "C02_ids_sorted_and_matching",
    "C02_cell_is_geometric"
   ],
   "note": ""
  },
  {
   "property": "C03",
   "status": "proved",
   "theorems": [
    "C03_offsets_delimit_cells"
   ],
   "note": ""
  },
  {
   "property": "C04",
   "status": "proved",
   "theorems": [
    "C04_sort_stable",
    "C04_sort_idempotent"
   ],
   "note": ""
  },
  {
   "property": "C05",
   "status": "partial",
   "theorems": [
    "C05_exact",
    "C05_float32_partial",
    "C05_float32_exactly",
    "C05_refuted"
   ],
   "note": "REFUTED for binary32 as stated: at 358 of the 1290 usable resolutions (e.g. 25) the point with coordinates 1-2^-24 gets a cell outside the grid and sort accesses out of bounds. Proved in exact arithmetic, and for binary32 at every resolution that passes a decidable test (default 16, powers of two); C05_float32_exactly: these are exactly the resolutions at which every set in the open cube is sorted."
  },
  {
   "property": "C06",
   "status": "partial",
   "theorems": [
    "C06_exact",
    "C06_float32_partial",
    "C06_refuted"
   ],
   "note": "REFUTED for NaN, which validate_xyzset accepts. C06_float32_partial is the exact characterisation over all binary32 values; C06_exact proves the property for ordered numbers."
  },
  {
   "property": "C07",
   "status": "proved",
   "theorems": [
    "C07_maxheapify",
    "C07_maxheapify_any_values",
    "C07_float_order",
    "C07_exact_order"
   ],
   "note": ""
  },
  {
   "property": "C08",
   "status": "proved",
   "theorems": [
    "C08_sort"
   ],
   "note": "For every value but NaN (weak order, C07_float_order); for arbitrary values sort still terminates and permutes (C09_layouts_agree)."
  },
  {
   "property": "C09",
   "status": "proved",
   "theorems": [
    "C09_layouts_agree",
    "C09_host_layout",
    "C09_device_layout"
   ],
   "note": ""
  },
  {
   "property": "C10",
   "status": "proved",
   "theorems": [
    "C10_knn_exact"
   ],
   "note": "Exact arithmetic; host and device code, any injective layout."
  },
  {
   "property": "C100",
   "status": "partial",
   "theorems": [
    "C100_refuted",
    "C100_triangles_refuted",
    "C100_planes_refuted",
    "C100_single_refuted",
    "C100_harmless",
    "C100_single"
   ],
   "note": "REFUTED at cc_p_maxsize 256 (the eight-bit counter of C18): three points in a row, rows exact with 8 planes, all cells in error with 256, also with use_recompute; and at cc_t_maxsize 65536, which is narrowed to 0 (C100_triangles_refuted); cc_p_maxsize 65542 is narrowed to 6 (C100_planes_refuted). C100_harmless, C100_single: true up to 255 planes and 65535 triangles, CPU, exact arithmetic or single precision."
  },
  {
   "property": "C11",
   "status": "proved",
   "theorems": [
    "C11_grid_independent"
   ],
   "note": "Exact arithmetic."
  },
  {
   "property": "C12",
   "status": "proved",
   "theorems": [
    "C12_padding",
    "C10_knn_exact"
   ],
   "note": "On the device the padding value is 128 instead of infinity."
  },
  {
   "property": "C13",
   "status": "proved",
   "theorems": [
    "C13_bisector_separates",
    "C13_bisector_zero_iff_equal"
   ],
   "note": ""
  },
  {
   "property": "C14",
   "status": "proved",
   "theorems": [
    "C14_intersect_unique_point",
    "C14_intersect_any_order",
    "C14_intersect_any_scale"
   ],
   "note": ""
  },
  {
   "property": "C15",
   "status": "proved",
   "theorems": [
    "C15_security_radius"
   ],
   "note": "Exact arithmetic, any candidate list and order, any clipping history from the cube."
  },
  {
   "property": "C16",
   "status": "proved",
   "theorems": [
    "C16_boundary"
   ],
   "note": "Host, and device with at most 255 removed triangles."
  },
  {
   "property": "C17",
   "status": "proved",
   "theorems": [
    "C17_terminates",
    "C17_repeated_label_refuted"
   ],
   "note": "For triangles with three different labels; a triangle naming a plane twice can make the walk leave the row (C17_repeated_label_refuted)."
  },
  {
   "property": "C18",
   "status": "partial",
   "theorems": [
    "C18_small_capacities",
    "C18_capacity_256_refuted"
   ],
   "note": "REFUTED: from p_maxsize 256 on the uint8_t duplicate search wraps and every cut of two or more triangles fails. Up to 255 the capacity provably has no influence."
  },
  {
   "property": "C19",
   "status": "proved",
   "theorems": [
    "C19_host",
    "C19_device"
   ],
   "note": "Any arithmetic, any row contents: run_in with the slot's own region succeeds, so no access leaves the slot and none is out of bounds. The device version needs t_maxsize <= 254 or p_maxsize <= 130 because of its 8-bit counters."
  },
  {
   "property": "C20",
   "status": "proved",
   "theorems": [
    "C20_row"
   ],
   "note": "Any arithmetic. Absence of repetition and ascending distance come from C10 (the candidates), of which the row is an ordered sub-list."
  },
  {
   "property": "C21",
   "status": "partial",
   "theorems": [
    "C21_refuted",
    "C20_row"
   ],
   "note": "REFUTED: after a capacity or boundary error cci::compute returns before filtering, so all k candidates are reported, including ones never tried (C20_row, ~no_error branch, states this for every input). C20_row's no_error branch is the guarded version."
  },
  {
   "property": "C22",
   "status": "proved",
   "theorems": [
    "C22_neighbours_touch",
    "C22_call_returns"
   ],
   "note": "Exact arithmetic, CPU path, use_recompute off, supported parameter ranges (api_ok)."
  },
  {
   "property": "C23",
   "status": "proved",
   "theorems": [
    "C23_faces_reported",
    "C23_equal_points_refuted"
   ],
   "note": "Exact arithmetic, CPU path, use_recompute off. Points at equal positions never list each other (C23_equal_points_refuted), hence the restriction to different positions."
  },
  {
   "property": "C24",
   "status": "proved",
   "theorems": [
    "C24_chunks"
   ],
   "note": "every n >= 0 and every int chunksize"
  },
  {
   "property": "C25",
   "status": "proved",
   "theorems": [
    "C25_thread_ranges"
   ],
   "note": "thread count >= 1; the last short chunk also covers up to M <= capacity stale slots of the previous chunk, harmless by C26/C27"
  },
  {
   "property": "C26",
   "status": "proved",
   "theorems": [
    "C26_any_interleaving",
    "C26_no_race",
    "C26_disjoint_tasks"
   ],
   "note": "sequentially consistent interleavings of single accesses; for kernels with 6<=p_maxsize<=255, 1<=k<=65535"
  },
  {
   "property": "C27",
   "status": "proved",
   "theorems": [
    "C27_settings"
   ],
   "note": "use_recompute off; buffer sizes within int; the sort succeeds with ids in range"
  },
  {
   "property": "C28",
   "status": "proved",
   "theorems": [
    "C28_rounds",
    "C28_fuel",
    "C28_returns"
   ],
   "note": "Round count bound for every outcome history, and the whole call returns (hypotheses rec_ok: sizes within the integer widths through every doubling). Any arithmetic."
  },
  {
   "property": "C29",
   "status": "partial",
   "theorems": [
    "C29_overflow_refuted",
    "C29_one_point_refuted",
    "C29_rows_complete"
   ],
   "note": "REFUTED as stated: capacity overflow in the last round is never retried (C29_overflow_refuted) and a single point gives undefined behaviour (C29_one_point_refuted). Proved instead, exact arithmetic: every row whose last computation ended without an error flag is complete (C29_rows_complete); with enough room every row is (C49)."
  },
  {
   "property": "C30",
   "status": "proved",
   "theorems": [
    "C30_rows_recorded",
    "C30_jagged_array_builds",
    "C30_jagged_array"
   ],
   "note": "For at most INT_MAX neighbours in total; beyond that the int offsets overflow (C44_offsets_overflow)."
  },
  {
   "property": "C31",
   "status": "partial",
   "theorems": [
    "C31_savetxt_partial",
    "C31_print_partial",
    "C31_lines_readable",
    "C31_refuted",
    "C31_savetxt_shown",
    "C31_print_shown",
    "C31_shown_iff"
   ],
   "note": "REFUTED for empty rows, which are not shown: two different results give the same file. Proved when every row (after the first) is non-empty; C31_savetxt_shown and C31_print_shown give the exact text for every table."
  },
  {
   "property": "C32",
   "status": "proved",
   "theorems": [
    "C32_int_roundtrip",
    "C32_bool_roundtrip",
    "C32_out_of_range_throws",
    "C32_wrong_form_throws"
   ],
   "note": ""
  },
  {
   "property": "C33",
   "status": "partial",
   "theorems": [
    "C33_last_assignment_wins",
    "C33_unknown_key_throws",
    "C33_defaults",
    "C33_documented_default_refuted"
   ],
   "note": "REFUTED in one clause: the README's default of dev_suppress_stdout is false, the table's is true. The rest is proved."
  },
  {
   "property": "C34",
   "status": "partial",
   "theorems": [
    "C34_float_roundtrip_partial",
    "C34_float_truncated",
    "C34_refuted"
   ],
   "note": "REFUTED: every integral double of magnitude 10^6 or more reads back as its leading digit (C34_float_truncated); proved for all values below."
  },
  {
   "property": "C35",
   "status": "proved",
   "theorems": [
    "C35_set_true",
    "C35_set_false",
    "C35_sequences",
    "C35_byte_is_its_flags"
   ],
   "note": ""
  },
  {
   "property": "C36",
   "status": "partial",
   "theorems": [
    "C36_refuted",
    "C36_device_ignored"
   ],
   "note": "REFUTED: main never passes the device on, so every run is a CPU run; -x has no effect on any argument vector (proved for all)."
  },
  {
   "property": "C37",
   "status": "partial",
   "theorems": [
    "C37_device_rows",
    "C37_zero_states",
    "C37_states_refuted",
    "C37_recompute_refuted"
   ],
   "note": "Rows proved equal to the host's for all inputs, any interleaving and any leftover device memory (exact arithmetic, no recompute); with a zeroed state buffer the states agree too. The states clause is REFUTED: the device state buffer is never initialised, and with use_recompute a leftover security bit changes the neighbours."
  },
  {
   "property": "C38",
   "status": "partial",
   "theorems": [
    "C38_refuted",
    "C38_chunks_partial",
    "C38_group_size_throws"
   ],
   "note": "REFUTED by a witness (reference points read with the chunk's stride). Proved for all inputs: the chunked device run still returns, whatever the interleaving, one result per point; a chunk size that is no multiple of the group size throws."
  },
  {
   "property": "C39",
   "status": "partial",
   "theorems": [
    "C39_wrap_refuted",
    "C39_beyond_refuted"
   ],
   "note": "REFUTED: for every k that is a multiple of 65536 the cell stage looks at no candidate at all, and for every other k > 65536 a slot i >= 1 works on candidates of other slots and leaves its own row as the k-NN stage left it (from r*i+r on); proved for all such inputs."
  },
  {
   "property": "C40",
   "status": "proved",
   "theorems": [
    "C40_symmetric"
   ],
   "note": "Exact arithmetic; as C23."
  },
  {
   "property": "C41",
   "status": "proved",
   "theorems": [
    "C41_cell"
   ],
   "note": "Exact arithmetic, any candidate list (a stage of a run is the run on a prefix of the list). Holds whenever no error flag is set."
  },
  {
   "property": "C42",
   "status": "proved",
   "theorems": [
    "C42_minmax2",
    "C42_minmax3",
    "C42_minmax_int",
    "C42_radius_update",
    "C42_swap"
   ],
   "note": ""
  },
  {
   "property": "C43",
   "status": "proved",
   "theorems": [
    "C43_rejects",
    "C43_runs"
   ],
   "note": ""
  },
  {
   "property": "C44",
   "status": "partial",
   "theorems": [
    "C44_fits_returns",
    "C44_offsets_overflow",
    "C44_overflow_refuted",
    "C44_count_refuted"
   ],
   "note": "First half proved (CPU, no recompute). 'Not silently accepted' is REFUTED: every size that does not fit is a signed overflow, i.e. undefined behaviour, not an error."
  },
  {
   "property": "C45",
   "status": "partial",
   "theorems": [
    "C45_refuted"
   ],
   "note": "REFUTED: k = 0 is undefined behaviour (out-of-bounds read) for every non-empty point set; proved for all inputs."
  },
  {
   "property": "C46",
   "status": "proved",
   "theorems": [
    "C46_never_stuck"
   ],
   "note": "Exact arithmetic, CPU path, use_recompute off (api_ok)."
  },
  {
   "property": "C47",
   "status": "proved",
   "theorems": [
    "C47_capacities"
   ],
   "note": "Exact arithmetic, CPU path, use_recompute off (api_ok). C47_tight_ex: both bounds are attained."
  },
  {
   "property": "C48",
   "status": "proved",
   "theorems": [
    "C48_exact_neighbours"
   ],
   "note": "Exact arithmetic, CPU path, use_recompute off. p_maxsize <= 255 in the supported range limits n to 250."
  },
  {
   "property": "C49",
   "status": "proved",
   "theorems": [
    "C49_recompute_exact"
   ],
   "note": "Exact arithmetic, CPU path, n >= 2. p_maxsize <= 255 limits n to 250."
  },
  {
   "property": "C50",
   "status": "proved",
   "theorems": [
    "C50_rows_distinct",
    "C50_recompute"
   ],
   "note": "Exact arithmetic, CPU path."
  },
  {
   "property": "C51",
   "status": "partial",
   "theorems": [
    "C51_refuted",
    "C51_generic_symmetric"
   ],
   "note": "REFUTED for cells that touch without sharing a face (four points on a circle), although exact and complete. Proved for every point set in generic position (SpecRows.generic)."
  },
  {
   "property": "C52",
   "status": "partial",
   "theorems": [
    "C52_refuted",
    "C52_canonical",
    "C52_order_free"
   ],
   "note": "REFUTED in degenerate position by two orders of one set. Proved for generic position, exact arithmetic, CPU path."
  },
  {
   "property": "C53",
   "status": "proved",
   "theorems": [
    "C53_device_exact"
   ],
   "note": "Exact arithmetic, no chunking, no recompute."
  },
  {
   "property": "C54",
   "status": "proved",
   "theorems": [
    "C54_parameters"
   ],
   "note": "ints for the numbers, bools for the switches."
  },
  {
   "property": "C55",
   "status": "proved",
   "theorems": [
    "C55_end_to_end",
    "C55_defaults"
   ],
   "note": "Exact arithmetic."
  },
  {
   "property": "C56",
   "status": "proved",
   "theorems": [
    "C56_summary"
   ],
   "note": ""
  },
  {
   "property": "C57",
   "status": "partial",
   "theorems": [
    "C57_refuted",
    "C56_summary"
   ],
   "note": "REFUTED with use_recompute: every round clears the flags of all cells, so cells that did reach their radius are counted as failures. What is printed is C56_summary."
  },
  {
   "property": "C58",
   "status": "proved",
   "theorems": [
    "C58_assignments",
    "C58_rejects",
    "C58_floats"
   ],
   "note": "Keys the C++ class knows, ints within int and bools; floats with an integral value."
  },
  {
   "property": "C59",
   "status": "partial",
   "theorems": [
    "C59_refuted",
    "C59_sorted_copy",
    "C59_sorted_input"
   ],
   "note": "REFUTED: the module sorts a copy, so the indices refer to an order the caller never sees. Proved for all inputs which order that is, and the property for input already in the order of the grid cells."
  },
  {
   "property": "C60",
   "status": "partial",
   "theorems": [
    "C60_refuted"
   ],
   "note": "REFUTED for every row of every result: no index raises IndexError, so the loop runs through the following rows and ends in undefined behaviour."
  },
  {
   "property": "C61",
   "status": "partial",
   "theorems": [
    "C61_refuted",
    "C61_necessary"
   ],
   "note": "That such a call never returns a result is proved for all inputs (C61_necessary). That it throws is REFUTED: undefined behaviour in each of the six cases."
  },
  {
   "property": "C62",
   "status": "partial",
   "theorems": [
    "C62_float32_rows",
    "C62_float32_recompute",
    "C62_any_rows",
    "C62_refuted"
   ],
   "note": "Proved for k < n (binary32, and any arithmetic whose comparison is a weak order on the distances). REFUTED for k >= n: the padding with index 0 can survive a rounded cut, so point 0 is listed twice (two points with decimal coordinates)."
  },
  {
   "property": "C63",
   "status": "partial",
   "theorems": [
    "C63_missing_refuted",
    "C63_extra_refuted",
    "C63_nearest_refuted",
    "C63_stuck_refuted",
    "C63_reached_refuted"
   ],
   "note": "REFUTED in each part by a witness of two to six points in binary32; the exact geometry of each witness is proved over the reals. True for points in robust position: C82."
  },
  {
   "property": "C64",
   "status": "partial",
   "theorems": [
    "C64_warned",
    "C64_warned_float32",
    "C64_refuted"
   ],
   "note": "Proved for every call that returns (exact arithmetic; single precision with safe_res). REFUTED in general: the check comes after the sort, which has used the cell numbers of such points as indices; the point (1,1,1) ends in undefined behaviour before the warning."
  },
  {
   "property": "C65",
   "status": "proved",
   "theorems": [
    "C65_quiet",
    "C65_stdout",
    "C65_silent",
    "C65_rejects",
    "C65_same_run",
    "C65_report",
    "C65_messages"
   ],
   "note": "Runs that return. Every arithmetic; the 'standard error stays empty' part for exact arithmetic here and for single precision in C70."
  },
  {
   "property": "C66",
   "status": "partial",
   "theorems": [
    "C66_spelled",
    "C66_every_line",
    "C66_refuted",
    "C66_documented"
   ],
   "note": "Every way of writing accepted options is understood (GNU getopt_long as modelled in MGetopt), and C66_every_line says for every list of words what is reported, mistakes included. REFUTED for the help text: it offers --gridres, which is unknown; all other entries agree (C66_documented)."
  },
  {
   "property": "C67",
   "status": "partial",
   "theorems": [
    "C67_refuted"
   ],
   "note": "REFUTED: the input file is required even then; status 1 with an error message, and no version is ever printed."
  },
  {
   "property": "C68",
   "status": "partial",
   "theorems": [
    "C68_nearest",
    "C68_rounded",
    "C68_refuted",
    "C68_open"
   ],
   "note": "Nearest float: proved for every numeral. 'Strictly inside stays strictly inside' is REFUTED by 0.99999999, which is read as 1 and makes the program index out of bounds; proved from 2^-149 to 1-2^-24 (C68_open)."
  },
  {
   "property": "C69",
   "status": "proved",
   "theorems": [
    "C69_nine_digits"
   ],
   "note": ""
  },
  {
   "property": "C70",
   "status": "proved",
   "theorems": [
    "C70_text_to_text"
   ],
   "note": "Without use_recompute. The order of the points is the order after the sort by grid cell."
  },
  {
   "property": "C71",
   "status": "proved",
   "theorems": [
    "C71_rows_bound_cells",
    "C71_all_cells"
   ],
   "note": "Exact arithmetic, CPU path."
  },
  {
   "property": "C72",
   "status": "proved",
   "theorems": [
    "C72_faces_positions"
   ],
   "note": "Exact arithmetic, CPU path."
  },
  {
   "property": "C73",
   "status": "proved",
   "theorems": [
    "C73_paths"
   ],
   "note": "Exact arithmetic, CPU path."
  },
  {
   "property": "C74",
   "status": "proved",
   "theorems": [
    "C74_nearest_first",
    "C74_sorted"
   ],
   "note": "Exact arithmetic, CPU path. Order by computed distance in single precision: C62."
  },
  {
   "property": "C75",
   "status": "proved",
   "theorems": [
    "C75_locality"
   ],
   "note": "Exact arithmetic, CPU path."
  },
  {
   "property": "C76",
   "status": "proved",
   "theorems": [
    "C76_cube_symmetry"
   ],
   "note": "Exact arithmetic, CPU path; generic position (without it already the order of the points matters: C52_refuted)."
  },
  {
   "property": "C77",
   "status": "proved",
   "theorems": [
    "C77_validated_canonical",
    "C77_any_k"
   ],
   "note": "Exact arithmetic, CPU path, no recompute."
  },
  {
   "property": "C78",
   "status": "partial",
   "theorems": [
    "C78_sort_ends_iff",
    "C78_call_needs",
    "C78_negative_throws",
    "C78_zero_refuted"
   ],
   "note": "REFUTED: at resolutions 0 and -1 every call with a point in the open cube writes past the end of the offset array (binary32). C78_sort_ends_iff is the exact condition for any number type; below -1 the sort throws. Positive resolutions: C05."
  },
  {
   "property": "C79",
   "status": "proved",
   "theorems": [
    "C79_nearest",
    "C79_recompute",
    "C79_separated",
    "C79_lattice"
   ],
   "note": "Binary32 (Flocq), CPU path, k < n. The bound for what C63_nearest_refuted shows; the clipping after the search: C82."
  },
  {
   "property": "C80",
   "status": "proved",
   "theorems": [
    "C80_device_rows",
    "C80_zero_states",
    "C80_nearest"
   ],
   "note": "Binary32 (Flocq) on both sides: IEEE operations, no fused multiply-add, no flushing of subnormals on the device. One chunk (C38 is about chunks)."
  },
  {
   "property": "C81",
   "status": "proved",
   "theorems": [
    "C81_rows",
    "C81_same",
    "C81_single_same",
    "C81_single_nearest"
   ],
   "note": "C37_recompute_refuted is the case that remains: a leftover bit 0 stops the repetition of an unfinished cell. C81_rows and C81_same: exact arithmetic."
  },
  {
   "property": "C82",
   "status": "proved",
   "theorems": [
    "C82_robust",
    "C82_recompute",
    "C82_all",
    "C82_device",
    "C82_device_recompute",
    "C82_line"
   ],
   "note": "Binary32 (Flocq). The guarded counterpart of C63_refuted. The condition is about the input points as real numbers; C82_line is an unbounded family that meets it. Rows are exact as sets; their order is that of C79."
  },
  {
   "property": "C83",
   "status": "proved",
   "theorems": [
    "C83_contact",
    "C83_row",
    "C83_generic",
    "C83_neighbours",
    "C83_symmetric",
    "C83_as_exact",
    "C83_order_free",
    "C83_certificate",
    "C83_checked"
   ],
   "note": "Binary32 (Flocq), CPU path; for the device C82_device and C83_row. C83_as_exact is for any exact arithmetic over the reals (rationals, reals). C83_certificate: the test in integers, sound but not complete."
  },
  {
   "property": "C84",
   "status": "proved",
   "theorems": [
    "C84_core",
    "C84_api",
    "C84_python",
    "C84_text",
    "C84_readme"
   ],
   "note": "Binary32 (Flocq), CPU path. C84_readme: the literals are written as correctly rounded quotients of integers; hardware concurrency 4."
  },
  {
   "property": "C85",
   "status": "proved",
   "theorems": [
    "C85_rows",
    "C85_unique",
    "C85_same",
    "C85_as_exact",
    "C85_power_of_two",
    "C85_device",
    "C85_test",
    "C85_readme"
   ],
   "note": "Binary32 (Flocq). On the device face_rows needs no condition on the distances; the order does."
  },
  {
   "property": "C86",
   "status": "partial",
   "theorems": [
    "C86_value_partial",
    "C86_truncates_partial",
    "C86_exponent",
    "C86_leading",
    "C86_no_number",
    "C86_switch",
    "C86_threads",
    "C86_python",
    "C86_integral",
    "C86_refuted"
   ],
   "note": "REFUTED: a float near the next integer is rounded up, and below 1/10000 or from 10^6 on the leading digit comes back. The value read is determined for every finite float (C86_value_partial, C86_exponent), and is the truncation below 100000 if the next integer is at least 1/20 away."
  },
  {
   "property": "C87",
   "status": "proved",
   "theorems": [
    "C87_fits",
    "C87_flagged",
    "C87_flagged_row",
    "C87_short"
   ],
   "note": "Exact arithmetic, CPU path, use_recompute off (api_ok). C87_ex: three points with one plane too few."
  },
  {
   "property": "C88",
   "status": "partial",
   "theorems": [
    "C88_nineteen",
    "C88_refuted",
    "C55_defaults"
   ],
   "note": "REFUTED by 14 points: every cell with 19 faces (walls count) overflows t_maxsize 32. C55_defaults: up to 13 points the statement is true. Exact arithmetic."
  },
  {
   "property": "C89",
   "status": "proved",
   "theorems": [
    "C89_when",
    "C89_exactly"
   ],
   "note": "Exact arithmetic, CPU path, use_recompute off (api_ok). C89_ex: the three points of C87_ex with 7 planes (flagged) and with 8 (not)."
  },
  {
   "property": "C90",
   "status": "proved",
   "theorems": [
    "C90_spread",
    "C90_cuts",
    "C90_recompute",
    "C90_device",
    "C90_lattice",
    "C90_lattice_cuts"
   ],
   "note": "Exact arithmetic. C90_spread, C90_cuts: CPU, use_recompute off (api_ok); C90_recompute: use_recompute on, sizes as in api_more; C90_device: one chunk (dev_ok). C90_ex_lattice: 1000 rational points; C90_ex_recompute: 64 points, k = 1; C90_ex_rows: the rows of 8 points."
  },
  {
   "property": "C91",
   "status": "proved",
   "theorems": [
    "C91_flags",
    "C91_own"
   ],
   "note": "Exact arithmetic, CPU path, use_recompute on (api_rec). C91_ex: three points in a row with 7 planes; the middle one stays flagged, the ends are complete."
  },
  {
   "property": "C92",
   "status": "proved",
   "theorems": [
    "C92_few_cuts",
    "C92_call",
    "C92_spread",
    "C92_spread_cuts",
    "C92_device",
    "C92_line",
    "C92_line_cuts",
    "C92_default"
   ],
   "note": "Single precision. C92_few_cuts, C92_call, C92_line, C92_default: CPU; C92_device: one chunk, use_recompute off (dev_ok). C92_ex_default: 120 points on a line; C92_ex_run: four points with 8 planes and k = 1; C92_ex_spread: both paths' conditions."
  },
  {
   "property": "C93",
   "status": "proved",
   "theorems": [
    "C93_made",
    "C93_assign",
    "C93_call",
    "C93_past",
    "C93_positions",
    "C93_negative"
   ],
   "note": "C93_ex: rows of 2, 0 and 1 entries. Reads outside a vector are undefined behaviour in the model."
  },
  {
   "property": "C94",
   "status": "partial",
   "theorems": [
    "C94_negative_refuted",
    "C94_default_refuted",
    "C93_negative"
   ],
   "note": "REFUTED: d[i][-1] is the last entry of the row before (C93_negative), undefined for row 0; size() of dnn() is 2^64 - 1 and all its rows are undefined."
  },
  {
   "property": "C95",
   "status": "proved",
   "theorems": [
    "C95_get",
    "C95_count"
   ],
   "note": "C95_ex: positions 2, 0, 2."
  },
  {
   "property": "C96",
   "status": "proved",
   "theorems": [
    "C96_one_number",
    "C96_int",
    "C96_bool",
    "C96_threads",
    "C96_option"
   ],
   "note": "C96_ex_int, C96_ex_bool, C96_ex_threads, C96_ex_option: what is read from some 33 texts. An option's number outside int is undefined behaviour (atoi)."
  },
  {
   "property": "C97",
   "status": "proved",
   "theorems": [
    "C97_returns",
    "C97_result",
    "C97_call",
    "C97_file"
   ],
   "note": "Any arithmetic. C97_returns is the exact condition: resolution from 0 to 1290 and a number of threads other than 0."
  },
  {
   "property": "C98",
   "status": "proved",
   "theorems": [
    "C98_table",
    "C98_single",
    "C98_device",
    "C98_exact",
    "C98_exact_locate"
   ],
   "note": "C98_single, C98_device: single precision, robust position, buffers as in C92. C98_exact, C98_exact_locate: CPU, exact arithmetic. C98_ex: four points in a row; C98_ex_walk: three steps."
  },
  {
   "property": "C99",
   "status": "proved",
   "theorems": [
    "C99_symmetry",
    "C99_removal",
    "C99_tables",
    "C99_devices_symmetry",
    "C99_devices_removal",
    "C99_exact_removal"
   ],
   "note": "Single precision, CPU, robust position, buffers as in C92 (single_ok). C99_devices_*: any pair of devices, on the device without recompute and with k candidates sufficient (run_ok). C99_exact_removal: exact arithmetic, general position. C99_ex_removal: three points in a row without the middle one; C99_ex_symmetry: mirrored."
  }
 ]
}