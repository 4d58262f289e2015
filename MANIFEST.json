{
 "claims": [
  {
   "property": "C01",
   "status": "proved",
   "theorems": [
    "C01_shell_sorts"
   ],
   "note": ""
  },
  {
   "property": "C02",
   "status": "proved",
   "theorems": [
    "C02_quick_sorts"
   ],
   "note": ""
  },
  {
   "property": "C03",
   "status": "proved",
   "theorems": [
    "C03_sorts_total"
   ],
   "note": ""
  },
  {
   "property": "C04",
   "status": "proved",
   "theorems": [
    "C04_nth_largest",
    "C04_nth_largest_buffer",
    "C04_nth_largest_panics"
   ],
   "note": ""
  },
  {
   "property": "C05",
   "status": "partial",
   "theorems": [
    "C05_median_refuted",
    "C05_median_partial"
   ],
   "note": "False of the code: Median of three values is their maximum (C05_median_refuted). Proved instead: it returns the floor(len/2)-th largest."
  },
  {
   "property": "C06",
   "status": "partial",
   "theorems": [
    "C06_percentile_refuted",
    "C06_percentile_one_refuted",
    "C06_percentile_partial"
   ],
   "note": "False of the code: p=0 panics for two elements and p=1 is not an extreme. Proved: rank returned when p*len>=1, exact arithmetic."
  },
  {
   "property": "C07",
   "status": "proved",
   "theorems": [
    "C07_reverse"
   ],
   "note": ""
  },
  {
   "property": "C08",
   "status": "proved",
   "theorems": [
    "C08_xorshift_unit"
   ],
   "note": ""
  },
  {
   "property": "C09",
   "status": "proved",
   "theorems": [
    "C09_xorshift_batch"
   ],
   "note": ""
  },
  {
   "property": "C10",
   "status": "proved",
   "theorems": [
    "C10_uniform_int"
   ],
   "note": ""
  },
  {
   "property": "C11",
   "status": "proved",
   "theorems": [
    "C11_tausworthe_stream",
    "C11_tausworthe_batch"
   ],
   "note": ""
  },
  {
   "property": "C12",
   "status": "partial",
   "theorems": [
    "C12_tausworthe_below_one_refuted",
    "C12_tausworthe_closed_partial"
   ],
   "note": "False of the code: adding 1.0 to a tiny negative difference rounds to exactly 1.0 (C12_tausworthe_below_one_refuted). Proved instead: every draw is in the closed interval [0,1]."
  },
  {
   "property": "C13",
   "status": "proved",
   "theorems": [
    "C13_sobol_distinct"
   ],
   "note": ""
  },
  {
   "property": "C14",
   "status": "partial",
   "theorems": [
    "C14_sobol_capacity_refuted"
   ],
   "note": "False of the code: call number 2^30 - 1 panics with an index out of range (C14_sobol_capacity_refuted). Distinctness below the limit is C13."
  },
  {
   "property": "C15",
   "status": "partial",
   "theorems": [
    "C15_sobol_reinit_refuted",
    "C15_sobol_reinit_partial",
    "C15_sobol_reinit_distinct_partial"
   ],
   "note": "False of the code: Init does not reset the stored coordinates (C15_sobol_reinit_refuted). Proved: after a multiple of 2^p calls the first 2^p - 2 points agree with a fresh sequence, and a re-initialised sequence still has no repeats."
  },
  {
   "property": "C16",
   "status": "proved",
   "theorems": [
    "C16_linear",
    "C16_linear_node"
   ],
   "note": "Exact real arithmetic."
  },
  {
   "property": "C17",
   "status": "partial",
   "theorems": [
    "C17_linear_decreasing_refuted"
   ],
   "note": "False of the code: every Eval on a strictly decreasing table panics (C17_linear_decreasing_refuted, for all tables and all x)."
  },
  {
   "property": "C18",
   "status": "proved",
   "theorems": [
    "C18_uniform_linear"
   ],
   "note": "Exact real arithmetic; equality of results including panics."
  },
  {
   "property": "C19",
   "status": "proved",
   "theorems": [
    "C19_bilinear",
    "C19_bilinear_node",
    "C19_uniform_bilinear"
   ],
   "note": "Exact real arithmetic; includes the uniform constructor."
  },
  {
   "property": "C20",
   "status": "partial",
   "theorems": [
    "C20_trilinear_refuted",
    "C20_trilinear_partial"
   ],
   "note": "False of the code: the z fraction uses the y table, so a node can panic (C20_trilinear_refuted). Proved when the z coordinates equal the y coordinates."
  },
  {
   "property": "C21",
   "status": "proved",
   "theorems": [
    "C21_natural_spline"
   ],
   "note": "Exact real arithmetic."
  },
  {
   "property": "C22",
   "status": "partial",
   "theorems": [
    "C22_two_points_refuted"
   ],
   "note": "False of the code: every two point table panics (C22_two_points_refuted)."
  },
  {
   "property": "C23",
   "status": "proved",
   "theorems": [
    "C23_derivatives",
    "C23_negative_order"
   ],
   "note": "Exact real arithmetic; limits as in the standard library's derivable_pt_lim."
  },
  {
   "property": "C24",
   "status": "partial",
   "theorems": [
    "C24_integral_refuted",
    "C24_integral_partial"
   ],
   "note": "False of the code when the lower limit is not a table point (C24_integral_refuted). Proved when it is one, with the integral of Coquelicot (definition only; no axioms beyond the standard library's reals)."
  },
  {
   "property": "C25",
   "status": "proved",
   "theorems": [
    "C25_tridiagonal",
    "C25_tridiagonal_total"
   ],
   "note": "Exact real arithmetic."
  },
  {
   "property": "C26",
   "status": "proved",
   "theorems": [
    "C26_bicubic_history",
    "C26_bicubic_node"
   ],
   "note": "Exact real arithmetic; histories of calls that return."
  },
  {
   "property": "C27",
   "status": "proved",
   "theorems": [
    "C27_tricubic_history",
    "C27_tricubic_node"
   ],
   "note": "Exact real arithmetic; histories of calls that return."
  },
  {
   "property": "C28",
   "status": "proved",
   "theorems": [
    "C28_convolve_zero",
    "C28_convolve_ends"
   ],
   "note": "Exact real arithmetic; any kernel with its centre inside, not only odd widths."
  },
  {
   "property": "C29",
   "status": "partial",
   "theorems": [
    "C29_convolve_refuted",
    "C29_convolve_periodic_partial",
    "C29_convolve_mirror_partial"
   ],
   "note": "False of the code: left of the centre the index is off by one. The partial theorems say exactly what is read there and prove the claim elsewhere."
  },
  {
   "property": "C30",
   "status": "proved",
   "theorems": [
    "C30_constants",
    "C30_tophat",
    "C30_gaussian"
   ],
   "note": "Exact real arithmetic with math.Exp the real exponential. sigma = 0 is excluded (the code divides by it)."
  },
  {
   "property": "C31",
   "status": "partial",
   "theorems": [
    "C31_lookup_refuted",
    "C31_lookup_partial"
   ],
   "note": "False of the code: Periodic is off by one left of the slice, Reflection always panics at len(xs)."
  },
  {
   "property": "C32",
   "status": "proved",
   "theorems": [
    "C32_savgol"
   ],
   "note": "Exact real arithmetic; math.Pow with whole exponents is the real power. The proof shows that the first row is never exchanged (Chebyshev's sum inequality), so no condition on exchanges is needed."
  },
  {
   "property": "C33",
   "status": "proved",
   "theorems": [
    "C33_deriv2"
   ],
   "note": "Exact real arithmetic."
  },
  {
   "property": "C34",
   "status": "partial",
   "theorems": [
    "C34_deriv4_refuted",
    "C34_deriv4_partial"
   ],
   "note": "False of the code: interior points get 4/3 of the derivative. C34_deriv4_partial gives the value at every point."
  },
  {
   "property": "C35",
   "status": "proved",
   "theorems": [
    "C35_mult_square"
   ],
   "note": "Exact real arithmetic."
  },
  {
   "property": "C36",
   "status": "partial",
   "theorems": [
    "C36_mult_refuted",
    "C36_mult_wide_refuted",
    "C36_mult_partial"
   ],
   "note": "False of the code: result rows are placed with the width of the left factor (C36_mult_refuted, for all narrower right factors; C36_mult_wide_refuted). Proved when B is square or A has one row."
  },
  {
   "property": "C37",
   "status": "proved",
   "theorems": [
    "C37_transpose",
    "C37_transpose_any_split"
   ],
   "note": "Holds for any values (no arithmetic); second theorem for every recursion cut-off."
  },
  {
   "property": "C38",
   "status": "proved",
   "theorems": [
    "C38_mult_vec",
    "C38_vec_mult"
   ],
   "note": "Exact real arithmetic."
  },
  {
   "property": "C39",
   "status": "proved",
   "theorems": [
    "C39_lu",
    "C39_lu_panics"
   ],
   "note": "Exact real arithmetic; non-singular means trivial kernel."
  },
  {
   "property": "C40",
   "status": "partial",
   "theorems": [
    "C40_determinant_refuted",
    "C40_tiny_refuted",
    "C40_determinant_partial"
   ],
   "note": "False of the code: 2x2 all-ones matrix gives -1 because the pivot index is stale (C40_determinant_refuted), and a zero pivot replaced by 10^-20 gives a non-zero determinant of a singular matrix (C40_tiny_refuted). Proved for every non-singular matrix against the Laplace expansion."
  },
  {
   "property": "C41",
   "status": "proved",
   "theorems": [
    "C41_solve_no_exchange"
   ],
   "note": "Exact real arithmetic."
  },
  {
   "property": "C42",
   "status": "partial",
   "theorems": [
    "C42_solve_refuted",
    "C42_solve_partial"
   ],
   "note": "False of the code: the row exchanges are applied wrongly to b (C42_solve_refuted). C42_solve_partial says exactly which system is solved for every non-singular matrix; C41 covers the case without exchanges."
  },
  {
   "property": "C43",
   "status": "partial",
   "theorems": [
    "C43_solve_matrix_refuted",
    "C43_solve_matrix_in_place_partial"
   ],
   "note": "False of the code: the right hand side is never read, the zero matrix is returned for every non-singular A (C43_solve_matrix_refuted). Proved for the in-place method without exchanges."
  },
  {
   "property": "C44",
   "status": "proved",
   "theorems": [
    "C44_invert"
   ],
   "note": "Exact real arithmetic."
  },
  {
   "property": "C45",
   "status": "proved",
   "theorems": [
    "C45_idx_check",
    "C45_idx_range",
    "C45_idx_injective",
    "C45_idx_onto"
   ],
   "note": ""
  },
  {
   "property": "C46",
   "status": "partial",
   "theorems": [
    "C46_coords_refuted",
    "C46_coords_partial"
   ],
   "note": "False of the code for grids with non-zero origin (C46_coords_refuted). Proved: the coordinates relative to the origin."
  },
  {
   "property": "C47",
   "status": "proved",
   "theorems": [
    "C47_intersect_complete",
    "C47_intersect_sound"
   ],
   "note": ""
  },
  {
   "property": "C48",
   "status": "proved",
   "theorems": [
    "C48_intersect_unbounded"
   ],
   "note": ""
  },
  {
   "property": "C49",
   "status": "proved",
   "theorems": [
    "C49_sub_minimum_image",
    "C49_mod_range"
   ],
   "note": "Component-wise statement; exact real arithmetic."
  },
  {
   "property": "C50",
   "status": "partial",
   "theorems": [
    "C50_mod_single_refuted",
    "C50_mod_single_partial"
   ],
   "note": "False of the code: a tiny negative coordinate rounds up to the width (C50_mod_single_refuted). Proved: result finite, in [0,width], strictly below it for non-negative inputs."
  },
  {
   "property": "C51",
   "status": "partial",
   "theorems": [
    "C51_cross_refuted",
    "C51_cross_partial"
   ],
   "note": "False of the code: a.Cross(b) is b x a (C51_cross_refuted). Proved: exact value b x a, orthogonality, aliasing variant."
  },
  {
   "property": "C52",
   "status": "proved",
   "theorems": [
    "C52_tiles_cover",
    "C52_tiles_disjoint",
    "C52_tiles_unique",
    "C52_tiles_volume"
   ],
   "note": ""
  },
  {
   "property": "C53",
   "status": "proved",
   "theorems": [
    "C53_vertices_valid",
    "C53_cartesian"
   ],
   "note": ""
  },
  {
   "property": "C54",
   "status": "partial",
   "theorems": [
    "C54_centered_refuted",
    "C54_centered_partial"
   ],
   "note": "False of the code: only the x coordinate is checked (C54_centered_refuted). Proved away from the y and z faces."
  },
  {
   "property": "C55",
   "status": "proved",
   "theorems": [
    "C55_volume",
    "C55_translation",
    "C55_permutation",
    "C55_degenerate"
   ],
   "note": "Exact real arithmetic; history of Init/Volume/Contains/Barycenter/Distribute calls."
  },
  {
   "property": "C56",
   "status": "proved",
   "theorems": [
    "C56_contains_inside",
    "C56_contains_outside"
   ],
   "note": "Exact real arithmetic."
  },
  {
   "property": "C57",
   "status": "partial",
   "theorems": [
    "C57_barycenter_refuted",
    "C57_barycenter_partial"
   ],
   "note": "False of the code: the fourth corner is left out (C57_barycenter_refuted). Proved: the returned value for every call history."
  },
  {
   "property": "C58",
   "status": "proved",
   "theorems": [
    "C58_distribute_inside",
    "C58_distribute_tetra_inside"
   ],
   "note": ""
  },
  {
   "property": "C59",
   "status": "proved",
   "theorems": [
    "C59_six_preimages",
    "C59_volume_preserving"
   ],
   "note": ""
  },
  {
   "property": "C60",
   "status": "proved",
   "theorems": [
    "C60_cell_bounds_contain",
    "C60_cell_bounds_least"
   ],
   "note": "Exact real arithmetic."
  },
  {
   "property": "C61",
   "status": "proved",
   "theorems": [
    "C61_deriv_edges",
    "C61_deriv_wrap",
    "C61_central_exact",
    "C61_weights_exact",
    "C61_everywhere"
   ],
   "note": "Exact real arithmetic, any origin, all three operators; needs the width of the axis to exceed the order. C61_everywhere gives the value in every cell for any field (the weights of Spec.Stencils on the nearest points); the other theorems say that these weights are exact."
  },
  {
   "property": "C62",
   "status": "partial",
   "theorems": [
    "C62_axis2_refuted",
    "C62_axis2_wrap_refuted",
    "C62_faces_partial",
    "C62_interior_partial"
   ],
   "note": "False of the code: the borders of axis 2 use the step of axis 0. C62_faces_partial gives the whole result: the slope in every cell, except next to the two faces across axis 2, where the neighbours in the list take the place of the neighbours along the axis."
  },
  {
   "property": "C63",
   "status": "partial",
   "theorems": [
    "C63_curl_twice_refuted",
    "C63_divergence_options_refuted",
    "C63_gradient_partial",
    "C63_divergence_partial",
    "C63_curl_partial",
    "C63_default_partial"
   ],
   "note": "False of the code: Curl and Divergence write Op into the caller's options, or the package default. The partial theorems say what Gradient and a first call compute in every cell, with the slopes of C62."
  },
  {
   "property": "C64",
   "status": "proved",
   "theorems": [
    "C64_each_cube_once"
   ],
   "note": "Cells are compared as sets with multiplicity (Permutation); for every number type and every interpolator."
  },
  {
   "property": "C65",
   "status": "proved",
   "theorems": [
    "C65_schedules"
   ],
   "note": "State machine of the goroutines and the channel with arbitrary interleaving of atomic updates; workers share only read-only data."
  },
  {
   "property": "C66",
   "status": "proved",
   "theorems": [
    "C66_deposit",
    "C66_segment_mass"
   ],
   "note": "Exact arithmetic; random buffer choices are an arbitrary stream. Points at non-positive integer coordinates are excluded in periodic directions (C68)."
  },
  {
   "property": "C67",
   "status": "proved",
   "theorems": [
    "C67_add"
   ],
   "note": "All four overlap kinds, scalar and vector buffers; exact arithmetic."
  },
  {
   "property": "C68",
   "status": "partial",
   "theorems": [
    "C68_floor_refuted",
    "C68_floor_float32_refuted",
    "C68_floor_partial"
   ],
   "note": "False of the code: intFloor(k) = k-1 for integers k <= 0, and wrong in float32 just above -1. Proved for positive and for non-integer coordinates."
  },
  {
   "property": "C69",
   "status": "proved",
   "theorems": [
    "C69_clean",
    "C69_capacity",
    "C69_slice"
   ],
   "note": "Buffers are slices with a backing array; histories are arbitrary sequences of preparations and writes. The size computed by NewManager bounds every later request."
  },
  {
   "property": "C70",
   "status": "partial",
   "theorems": [
    "C70_subsample_refuted",
    "C70_is_pow_two_partial",
    "C70_subsample_partial"
   ],
   "note": "False of the code: the check is made on the old value, so a bad length is accepted and the next call fails."
  },
  {
   "property": "C71",
   "status": "partial",
   "theorems": [
    "C71_density_refuted",
    "C71_round_trip_partial",
    "C71_unknown_partial",
    "C71_velocities_partial"
   ],
   "note": "False of the code: String panics for Density (q <= 0). Proved for the other quantities."
  },
  {
   "property": "C72",
   "status": "partial",
   "theorems": [
    "C72_velocity_refuted",
    "C72_divergence_refuted",
    "C72_velocity_partial",
    "C72_curl_partial",
    "C72_divergence_partial"
   ],
   "note": "False of the code: i % (len/30) panics for lengths 1..29, and the divergence uses the x component for y."
  },
  {
   "property": "C73",
   "status": "proved",
   "theorems": [
    "C73_round_trip"
   ],
   "note": "Any pair of machine byte orders for writer and reader. Words are compared as bit patterns, so NaNs are included."
  },
  {
   "property": "C74",
   "status": "partial",
   "theorems": [
    "C74_truncated_refuted",
    "C74_truncated_partial"
   ],
   "note": "Refuted: a short read of os.File.Read is not an error, so a file cut inside the data is accepted; cuts inside the header make positions come back unread without an error. Partial: what is reported."
  },
  {
   "property": "C75",
   "status": "partial",
   "theorems": [
    "C75_bad_header_refuted",
    "C75_bad_header_partial"
   ],
   "note": "Refuted: ReadSheetPositionsAt returns nil when the header read failed. Partial: velocities."
  },
  {
   "property": "C76",
   "status": "proved",
   "theorems": [
    "C76_byte_order"
   ],
   "note": "For int32, int64 and float32 readers, data anywhere in the file."
  },
  {
   "property": "C77",
   "status": "partial",
   "theorems": [
    "C77_doubles_refuted",
    "C77_doubles_partial"
   ],
   "note": "Refuted: the loop swaps index j with 3-j for j < 4, which does nothing. Partial: machine order."
  },
  {
   "property": "C78",
   "status": "proved",
   "theorems": [
    "C78_particle_buffer"
   ],
   "note": "Any batches and buffer size; a later particle with the same id overwrites an earlier one."
  },
  {
   "property": "C79",
   "status": "partial",
   "theorems": [
    "C79_count_refuted",
    "C79_count_partial"
   ],
   "note": "Refuted: uint32(NPart[0])<<32 is 0. Partial: high word 0."
  },
  {
   "property": "C80",
   "status": "proved",
   "theorems": [
    "C80_grid_round_trip"
   ],
   "note": "Scalar, unprojected grids."
  },
  {
   "property": "C81",
   "status": "partial",
   "theorems": [
    "C81_self_describing_refuted"
   ],
   "note": "Refuted: IsVectorGrid is set after the header is written; a projected grid has fewer values than the header's pixels."
  },
  {
   "property": "C82",
   "status": "proved",
   "theorems": [
    "C82_flag"
   ],
   "note": "Bit by bit description of the reversal, involution, and the decoding rule of the Python reader."
  },
  {
   "property": "C83",
   "status": "partial",
   "theorems": [
    "C83_ball_box_refuted",
    "C83_ball_box_partial"
   ],
   "note": "Refuted when the scaled radius equals a coordinate. Partial: all other balls, in exact arithmetic. Rounding can also give L and is not covered by the partial theorem."
  },
  {
   "property": "C84",
   "status": "proved",
   "theorems": [
    "C84_power_of_two"
   ],
   "note": "Both loops with fuel proved sufficient."
  },
  {
   "property": "C85",
   "status": "proved",
   "theorems": [
    "C85_segments"
   ],
   "note": "write_grids: names, contents of both arrays and the order of the files, for every number type; each unit cube is in exactly one segment."
  },
  {
   "property": "C86",
   "status": "partial",
   "theorems": [
    "C86_names_refuted",
    "C86_names_partial"
   ],
   "note": "refuted for every cells >= 11 (\"1\",\"0\",\"10\" and \"10\",\"1\",\"0\"); partial: cells <= 10."
  },
  {
   "property": "C87",
   "status": "proved",
   "theorems": [
    "C87_bounding_box"
   ],
   "note": "exact arithmetic; origin in [0, L), every particle in the periodic interval, and both ends attained, when all positions are in [0, L) and have images within an interval shorter than L/2."
  },
  {
   "property": "C88",
   "status": "partial",
   "theorems": [
    "C88_cells_refuted",
    "C88_cells_partial"
   ],
   "note": "refuted (3 is accepted: integer halving); partial: exact characterisation (accepts iff >= 1). validCellNum is not called by the program."
  },
  {
   "property": "C89",
   "status": "proved",
   "theorems": [
    "C89_counts",
    "C89_one_bin",
    "C89_centers"
   ],
   "note": "Exact arithmetic; the float64 code can lose samples at the upper end, see C126."
  },
  {
   "property": "C90",
   "status": "proved",
   "theorems": [
    "C90_split"
   ],
   "note": ""
  },
  {
   "property": "C91",
   "status": "partial",
   "theorems": [
    "C91_split_refuted",
    "C91_split_partial"
   ],
   "note": "False for every skip >= 2: a cube is handled only if its index modulo skip^3*workers is one of the workers, and for skip >= 2 some cubes have other remainders. Proved: no cube twice."
  },
  {
   "property": "C92",
   "status": "partial",
   "theorems": [
    "C92_same_refuted",
    "C92_intersect_partial",
    "C92_contains_partial"
   ],
   "note": "False when the two intervals are the same (start and width): all comparisons are strict. Proved: exact for all other pairs; contains1D exact."
  },
  {
   "property": "C93",
   "status": "proved",
   "theorems": [
    "C93_grid_lists"
   ],
   "note": ""
  },
  {
   "property": "C94",
   "status": "partial",
   "theorems": [
    "C94_upper_edge_refuted"
   ],
   "note": "False on every grid: z = Width panics, x = Width lands in the list of cell (0,1,0)."
  },
  {
   "property": "C95",
   "status": "proved",
   "theorems": [
    "C95_finder",
    "C95_finder_direct"
   ],
   "note": "Exact arithmetic."
  },
  {
   "property": "C96",
   "status": "partial",
   "theorems": [
    "C96_finder_periodic_refuted",
    "C96_finder_periodic_partial"
   ],
   "note": "False: markSubhalos compares plain coordinate differences, so halos that meet across the boundary are never listed. Proved: everything listed does meet; pairs whose coordinates differ by at most half the box are listed exactly when they meet."
  },
  {
   "property": "C97",
   "status": "proved",
   "theorems": [
    "C97_bounds"
   ],
   "note": ""
  },
  {
   "property": "C98",
   "status": "proved",
   "theorems": [
    "C98_radius_names"
   ],
   "note": "Strings of ASCII characters."
  },
  {
   "property": "C99",
   "status": "proved",
   "theorems": [
    "C99_mass_radius"
   ],
   "note": "sqrt and pow are the real functions."
  },
  {
   "property": "C100",
   "status": "proved",
   "theorems": [
    "C100_convert",
    "C100_top_n",
    "C100_negative"
   ],
   "note": "The sort is any function with the contract of package sort for strict weak orders; NaN masses excluded. Column 62 passes the range check and gives a read error; columns above panic; negative n panics."
  },
  {
   "property": "C101",
   "status": "proved",
   "theorems": [
    "C101_densities"
   ],
   "note": "sqrt and pow are the real functions. The mean density is physical only for OmegaM+OmegaL = 1, as the code comments say."
  },
  {
   "property": "C102",
   "status": "proved",
   "theorems": [
    "C102_mode"
   ],
   "note": "for every iteration order of the map."
  },
  {
   "property": "C103",
   "status": "partial",
   "theorems": [
    "C103_savgol_deriv_refuted",
    "C103_savgol_deriv_partial"
   ],
   "note": "False of the code (found while proving C32): rows are exchanged from order 4 on, and the solve then uses the wrong right hand side. Proved when no rows are exchanged."
  },
  {
   "property": "C104",
   "status": "partial",
   "theorems": [
    "C104_box_cells_refuted",
    "C104_box_cells_float_refuted",
    "C104_box_cells_partial"
   ],
   "note": "False of the code: 1 + floor(end) counts the cell that begins at the end of the box."
  },
  {
   "property": "C105",
   "status": "partial",
   "theorems": [
    "C105_projection_refuted",
    "C105_velocity_image_partial"
   ],
   "note": "False of the code for projections: velocities are divided by the depth but counts are not."
  },
  {
   "property": "C106",
   "status": "partial",
   "theorems": [
    "C106_caller_data_refuted",
    "C106_caller_data_partial"
   ],
   "note": "Refuted on big endian machines. Partial: little endian."
  },
  {
   "property": "C107",
   "status": "partial",
   "theorems": [
    "C107_render_subsample_refuted",
    "C107_render_subsample_partial"
   ],
   "note": "Refuted by 3. Partial: positive, and powers of two are accepted."
  },
  {
   "property": "C108",
   "status": "partial",
   "theorems": [
    "C108_valid_quantity_refuted"
   ],
   "note": "Refuted: the first iteration calls Quantity(0).String(), which panics."
  },
  {
   "property": "C109",
   "status": "partial",
   "theorems": [
    "C109_ball_checks_refuted",
    "C109_ball_checks_partial"
   ],
   "note": "Refuted at the edge and for negative radii. Partial: positive radius, not at the edge, exact arithmetic."
  },
  {
   "property": "C110",
   "status": "proved",
   "theorems": [
    "C110_box_check"
   ],
   "note": "Iff, on reals and ASCII strings."
  },
  {
   "property": "C111",
   "status": "partial",
   "theorems": [
    "C111_python_big_endian_refuted"
   ],
   "note": "Refuted: version 129 on a big endian machine."
  },
  {
   "property": "C112",
   "status": "partial",
   "theorems": [
    "C112_lost_refuted",
    "C112_lost_partial"
   ],
   "note": "refuted for every remainder >= 2: the result does not depend on the particle (n-1,0,0); partial: remainder 0."
  },
  {
   "property": "C113",
   "status": "proved",
   "theorems": [
    "C113_velocity_bounds"
   ],
   "note": "exact arithmetic (comparisons only)."
  },
  {
   "property": "C114",
   "status": "partial",
   "theorems": [
    "C114_velocity_tight_refuted",
    "C114_velocity_tight_partial"
   ],
   "note": "refuted: bounds start at vs[0] of the whole lattice; partial: first segment."
  },
  {
   "property": "C115",
   "status": "proved",
   "theorems": [
    "C115_round",
    "C115_image_pixels"
   ],
   "note": ""
  },
  {
   "property": "C116",
   "status": "proved",
   "theorems": [
    "C116_cube_root"
   ],
   "note": ""
  },
  {
   "property": "C117",
   "status": "proved",
   "theorems": [
    "C117_numbers"
   ],
   "note": ""
  },
  {
   "property": "C118",
   "status": "partial",
   "theorems": [
    "C118_recorded_refuted",
    "C118_recorded_partial"
   ],
   "note": "refuted: the values of the configuration are recorded even when ImagePixels/AutoParticles replace them; partial: explicit numbers."
  },
  {
   "property": "C119",
   "status": "partial",
   "theorems": [
    "C119_units_refuted",
    "C119_units_partial"
   ],
   "note": "refuted: XUnits scales positions but not TotalWidth; also, float32 rounding can give exactly TotalWidth. partial: units 1, exact arithmetic."
  },
  {
   "property": "C120",
   "status": "proved",
   "theorems": [
    "C120_schedules"
   ],
   "note": ""
  },
  {
   "property": "C121",
   "status": "partial",
   "theorems": [
    "C121_bounding_box_refuted",
    "C121_bounding_box_partial"
   ],
   "note": "False: the loops run over dx = 0, skip, ... < skip and so look only at the base particle. Proved: the result is the base particle with zero width."
  },
  {
   "property": "C122",
   "status": "partial",
   "theorems": [
    "C122_cube_kept_refuted",
    "C122_cube_kept_partial"
   ],
   "note": "False as a consequence of C121. Proved: a cube is kept exactly if its base particle lies strictly inside the sheet's own region (not the histogram box)."
  },
  {
   "property": "C123",
   "status": "partial",
   "theorems": [
    "C123_grid_index_refuted",
    "C123_grid_index_partial"
   ],
   "note": "False in float64: a position at the upper edge of the grid gets pixel number n in a row of n (then the lookup panics). Proved in exact arithmetic."
  },
  {
   "property": "C124",
   "status": "partial",
   "theorems": [
    "C124_crossing_refuted",
    "C124_samples_partial",
    "C124_wrap_partial"
   ],
   "note": "False: corner positions are used as stored, so a tetrahedron across the edge of the box is sampled in the middle of the box. Proved: samples are convex combinations of the stored positions; wrapping the sample is exact."
  },
  {
   "property": "C125",
   "status": "partial",
   "theorems": [
    "C125_no_panic_refuted",
    "C125_worker_partial"
   ],
   "note": "False when the skip does not divide the segment width (nothing checks this). Proved otherwise."
  },
  {
   "property": "C126",
   "status": "partial",
   "theorems": [
    "C126_float_refuted"
   ],
   "note": "False: rounding of (x-min)/dx can reach the number of bins, and NaN is converted to an index. No positive part."
  },
  {
   "property": "C127",
   "status": "proved",
   "theorems": [
    "C127_file"
   ],
   "note": ""
  },
  {
   "property": "C128",
   "status": "partial",
   "theorems": [
    "C128_large_spheres_refuted"
   ],
   "note": "False in float64: two concentric-ish halos of radii 3 and 1 in a box of width 8 are not found; radius 12 panics. C95_finder_direct gives the condition under which nothing is missed."
  },
  {
   "property": "C129",
   "status": "partial",
   "theorems": [
    "C129_reuse_refuted"
   ],
   "note": "False: old entries of subhalos are kept and appear in the last list."
  },
  {
   "property": "C130",
   "status": "partial",
   "theorems": [
    "C130_no_halos_refuted"
   ],
   "note": "False: cumulativeMax reads the last element of an empty slice."
  },
  {
   "property": "C131",
   "status": "proved",
   "theorems": [
    "C131_values"
   ],
   "note": "The column getter is an argument; with the binary getter see C100."
  },
  {
   "property": "C132",
   "status": "partial",
   "theorems": [
    "C132_below_width_refuted"
   ],
   "note": "False: with 3 cells of width 125/3, and with 150 cells in a box of 100, the largest float64 below the width gets cell number 3 (150) and z panics."
  },
  {
   "property": "C133",
   "status": "proved",
   "theorems": [
    "C133_read_halos"
   ],
   "note": ""
  },
  {
   "property": "C134",
   "status": "partial",
   "theorems": [
    "C134_line_profile_partial",
    "C134_line_profile_refuted"
   ],
   "note": "Holds for cubes (the code says it assumes a cubical box, but nothing checks it). For other boxes the center of axes 0, 1, 2 is used for the permuted axes: the profile starts at a wrong place or is empty."
  },
  {
   "property": "C135",
   "status": "partial",
   "theorems": [
    "C135_reject_refuted"
   ],
   "note": "Refuted: the line that would set smoothStarted is commented out, so extractLine returns ok = true for all inputs; NaN densities are kept and lineProfiles takes exactly profCount attempts."
  },
  {
   "property": "C136",
   "status": "partial",
   "theorems": [
    "C136_radii_partial",
    "C136_radii_refuted"
   ],
   "note": "Refuted for every box: the middle is (Span - 0.5) cw / 2 instead of (Span - 1) cw / 2, so the radii are measured from a point a quarter of a cell above the center on each axis. The partial theorem gives these values exactly."
  },
  {
   "property": "C137",
   "status": "partial",
   "theorems": [
    "C137_direction_partial",
    "C137_direction_refuted"
   ],
   "note": "Holds unless the drawn point is the origin (all draws 0.5, or both that are kept), where the result is NaN in float64."
  },
  {
   "property": "C138",
   "status": "partial",
   "theorems": [
    "C138_remove_partial",
    "C138_remove_refuted"
   ],
   "note": "ConvertIndices only wraps below the origin. If the subhalo's box goes above the origin of the halo's box plus the width of the volume, cells are set at wrong places or the index is out of range; SphereBounds makes such boxes. The partial theorem has that bound as its hypothesis."
  },
  {
   "property": "C139",
   "status": "partial",
   "theorems": [
    "C139_binned_mean_partial",
    "C139_binned_mean_refuted"
   ],
   "note": "Holds when lowLim is given together with highLim, or neither is and the largest element is at least the smallest positive float64, and the limits differ. Otherwise: line 309 tests lowLim instead of highLim, so highLim alone is ignored and lowLim alone gives a NaN width and a panic; line 310 starts the maximum at a positive number; equal data give width zero and a panic."
  },
  {
   "property": "C140",
   "status": "proved",
   "theorems": [
    "C140_round"
   ],
   "note": ""
  },
  {
   "property": "C141",
   "status": "proved",
   "theorems": [
    "C141_print"
   ],
   "note": ""
  },
  {
   "property": "C142",
   "status": "proved",
   "theorems": [
    "C142_swaps"
   ],
   "note": ""
  },
  {
   "property": "C143",
   "status": "partial",
   "theorems": [
    "C143_print_radii_partial",
    "C143_print_radii_refuted"
   ],
   "note": "Radii for masses of the types 200c, 500c and 2500c are computed with rType (200m) instead of rPrintType in line 128: the partial theorem says what they are for every type, the refutation that they are wrong for every mass unless the two densities agree."
  },
  {
   "property": "C144",
   "status": "partial",
   "theorems": [
    "C144_targets_partial",
    "C144_targets_refuted"
   ],
   "note": "An ID that is missing from the catalogue leaves index 0, the halo with the largest radius."
  },
  {
   "property": "C145",
   "status": "proved",
   "theorems": [
    "C145_new_halos"
   ],
   "note": ""
  },
  {
   "property": "C146",
   "status": "proved",
   "theorems": [
    "C146_particles"
   ],
   "note": ""
  },
  {
   "property": "C147",
   "status": "proved",
   "theorems": [
    "C147_find_idx"
   ],
   "note": ""
  },
  {
   "property": "C148",
   "status": "partial",
   "theorems": [
    "C148_read_halo_partial"
   ],
   "note": "Proved for targets in the catalogue and spheres that stay inside the box, with the radii the program uses (C143). Missing: radii of the definition asked for (C143, refuted), missing targets (C144, refuted), overlaps across the boundary (C96, refuted)."
  },
  {
   "property": "C149",
   "status": "partial",
   "theorems": [
    "C149_scaled_partial",
    "C149_scaled_refuted"
   ],
   "note": "A float32 particle a rounding error above the face of cell 1 of 21 is scaled to below that cell, 21 is added, and the worker writes outside of its buffer: the run panics."
  },
  {
   "property": "C150",
   "status": "partial",
   "theorems": [
    "C150_no_files_refuted",
    "C150_no_boxes_refuted",
    "C150_unreadable_partial",
    "C150_sizes_partial"
   ],
   "note": "No files: index 0 of an empty slice, as in densitySetupIO before it. No boxes, as from bounds files without entries: index 0 of an empty slice while the buffers are made. Files that cannot be read or with another GridCount are reported."
  },
  {
   "property": "C151",
   "status": "proved",
   "theorems": [
    "C151_files"
   ],
   "note": "What it means that cells meet is C47; what the buffers are used for is C69."
  },
  {
   "property": "C152",
   "status": "proved",
   "theorems": [
    "C152_job"
   ],
   "note": "The hypotheses on sheets are those under which C87 records a bounding box. See C68 for sample points on faces and C149 for float32."
  },
  {
   "property": "C153",
   "status": "proved",
   "theorems": [
    "C153_mean"
   ],
   "note": ""
  },
  {
   "property": "C154",
   "status": "partial",
   "theorems": [
    "C154_lost_refuted",
    "C154_pipeline_partial"
   ],
   "note": "With eleven or more segments per axis the names of C86 collide, files are overwritten, and the mean rises by less than 1: the number of different names over the number of segments. For ten or less it rises by 1."
  },
  {
   "property": "C155",
   "status": "partial",
   "theorems": [
    "C155_negative_refuted",
    "C155_new_box_partial"
   ],
   "note": "Holds in exact arithmetic for boxes whose widths are not negative. False of the code: BallConfig.CheckInit accepts negative radii (see C109) and NewBox then panics on a negative number of pixels."
  },
  {
   "property": "C156",
   "status": "partial",
   "theorems": [
    "C156_whole_refuted",
    "C156_main_partial",
    "C156_full_partial",
    "C156_unreadable_partial"
   ],
   "note": "Holds in exact arithmetic for Density and DensityGradient and for boxes that start inside the simulation and are at least one pixel narrower than it, under the conditions of C152; images from the first to the last pixel have mean 1. False of the code: a box of exactly the width of the simulation gets one more pixel along each axis (C104), which stays empty: with 4 pixels the mean is 64/125, and a projection is divided by a depth of 5 instead of 4. A first sheet that cannot be read is ignored by densitySetupIO (the width is then 0), but the run still ends with an error."
  },
  {
   "property": "C157",
   "status": "partial",
   "theorems": [
    "C157_axis_refuted",
    "C157_location_partial"
   ],
   "note": "Holds for everything but the axis: for quantities that cannot be projected the axis of the configuration is recorded although the image has three dimensions. That the span recorded with projections is not the size of their data is C81; that particles and pixels may be 0 is C118."
  },
  {
   "property": "C158",
   "status": "partial",
   "theorems": [
    "C158_depth_refuted"
   ],
   "note": "False of the code: output.go uses 20000 particles at 5000 pixels where main.go uses 5 at 500, a factor of 4, and divides by the cube of the subsampling length where it should multiply, so that what is recorded is 4/skip^6 times the depth."
  },
  {
   "property": "C159",
   "status": "proved",
   "theorems": [
    "C159_bounds"
   ],
   "note": ""
  },
  {
   "property": "C160",
   "status": "partial",
   "theorems": [
    "C160_same_name_refuted",
    "C160_own_file_partial"
   ],
   "note": "Holds if no two sections share a name. False of the code: a ball and a box of one name, or sections of one name in two bounds files, are written to one file and the last one wins without a message."
  },
  {
   "property": "C161",
   "status": "proved",
   "theorems": [
    "C161_cosmology"
   ],
   "note": ""
  },
  {
   "property": "C162",
   "status": "partial",
   "theorems": [
    "C162_same_region_refuted",
    "C162_main_partial"
   ],
   "note": "False in general: a box that is exactly the region of a sheet gets nothing from that sheet (C92). Proved with those sheets left out, and for densities, for which alone the code counts."
  },
  {
   "property": "C163",
   "status": "partial",
   "theorems": [
    "C163_positions_refuted",
    "C163_unreadable_partial",
    "C163_grid_partial"
   ],
   "note": "False for positions: ReadSheetPositionsAt returns an error if the length of the buffer differs, hist.go:170 drops it, and the positions of the previous sheet are counted again. Proved for headers and the grid."
  },
  {
   "property": "C164",
   "status": "partial",
   "theorems": [
    "C164_accepted_refuted",
    "C164_checks_partial"
   ],
   "note": "False: ValidQuantity and ValidHistBins are never called, and no check of ParticlesPerTetrahedron exists, so that accepted runs panic. Proved for the checks that are made."
  },
  {
   "property": "C165",
   "status": "partial",
   "theorems": [
    "C165_same_name_refuted",
    "C165_own_file_partial"
   ],
   "note": "False for boxes of equal names; proved for distinct names."
  },
  {
   "property": "C166",
   "status": "partial",
   "theorems": [
    "C166_projected_refuted",
    "C166_image_grid_partial"
   ],
   "note": "False for projected images, whose location has the depth of the box as third number of pixels (see C81); proved for the others."
  },
  {
   "property": "C167",
   "status": "proved",
   "theorems": [
    "C167_velocity_job"
   ],
   "note": "The images are in real arithmetic; a point that lies exactly between two cells is excluded unless the sheet is rendered through a three dimensional segment buffer, as in C152."
  },
  {
   "property": "C168",
   "status": "partial",
   "theorems": [
    "C168_projection_refuted",
    "C168_images_partial"
   ],
   "note": "Projections divide the summed velocities by the depth of the box although they are divided by the number of points afterwards, so no pixel of a projection deeper than one cell shows the velocity of uniformly moving particles (C168_projection_refuted); the pixels are the mean velocity over the depth (C168_images_partial). Images of 1 to 29 pixels panic (C72)."
  },
  {
   "property": "C169",
   "status": "proved",
   "theorems": [
    "C169_uniform"
   ],
   "note": "In real arithmetic."
  },
  {
   "property": "C170",
   "status": "partial",
   "theorems": [
    "C170_short_refuted",
    "C170_velocity_partial"
   ],
   "note": "In real arithmetic. False of the code for boxes of 1 to 29 pixels: the run panics (C170_short_refuted, from C72), and nothing is written for the other boxes of the run either."
  },
  {
   "property": "C171",
   "status": "partial",
   "theorems": [
    "C171_thin_refuted",
    "C171_gradient_partial"
   ],
   "note": "In real arithmetic, with at least five pixels along each axis, for every pixel. False of the code: next to the faces across z the z component is the slope along the list (`taken`, C62), and with a box of fewer than three pixels along an axis, or of three or four along x or y that do not cover the simulation, the run ends without output (C171_thin_refuted). Left open: z axes of three or four pixels and simulations of four pixels."
  },
  {
   "property": "C172",
   "status": "partial",
   "theorems": [
    "C172_thin_refuted",
    "C172_curl_partial"
   ],
   "note": "In real arithmetic, with at least five pixels along each axis, for every pixel; next to the faces across z the slopes along z are those along the list. False of the code for thin boxes as in C171 (C172_thin_refuted). Left open as in C171."
  },
  {
   "property": "C173",
   "status": "partial",
   "theorems": [
    "C173_divergence_refuted",
    "C173_divergence_partial"
   ],
   "note": "False of the code: the middle term is the derivative of the x component along y, so what is written is not the divergence at any pixel at which the x and the y component change differently along y (C173_divergence_refuted, the defect of C63 seen from the command line). C173_divergence_partial gives what is written in every pixel."
  },
  {
   "property": "C174",
   "status": "partial",
   "theorems": [
    "C174_read_partial",
    "C174_gas_refuted",
    "C174_mixed",
    "C174_big_refuted"
   ],
   "note": "Files of dark matter particles only are read completely.  If a file has as many gas particles as dark matter particles, the block of positions is twice as long as expected and pairs of float32 are read as float64; other numbers of gas particles are refused.  The header is always read as little endian, so that the byte order parameter gives wrong counts for big endian files."
  },
  {
   "property": "C175",
   "status": "partial",
   "theorems": [
    "C175_cut_partial",
    "C175_ids_refuted",
    "C175_header_refuted"
   ],
   "note": "A file that ends before the ids is refused; ReadGadgetHeader returns zeros if the header is cut, and a file that ends within the ids is read with zeros for the others."
  },
  {
   "property": "C176",
   "status": "proved",
   "theorems": [
    "C176_grids"
   ],
   "note": ""
  },
  {
   "property": "C177",
   "status": "partial",
   "theorems": [
    "C177_range_partial",
    "C177_missing_refuted",
    "C177_stale_refuted"
   ],
   "note": "Only ids out of range are noticed.  A missing id leaves its particle at the origin; a file that ends before its ids is given the ids of the file before it, since the buffers are shared and errors are dropped."
  },
  {
   "property": "C178",
   "status": "proved",
   "theorems": [
    "C178_segments"
   ],
   "note": "The segments in the order in which they are written; that files of more than ten segments per axis overwrite each other is C86 and C179."
  },
  {
   "property": "C179",
   "status": "partial",
   "theorems": [
    "C179_images_partial",
    "C179_lost_refuted"
   ],
   "note": "Up to ten segments along each axis; with eleven or more the names of C86 collide, files are overwritten, and mass is missing."
  },
  {
   "property": "C180",
   "status": "partial",
   "theorems": [
    "C180_directories_partial",
    "C180_nothing_refuted"
   ],
   "note": "ValidIterationStart and ValidIterationEnd exist but are never called: with IteratedInput and without IterationEnd the program succeeds and does nothing."
  },
  {
   "property": "C181",
   "status": "partial",
   "theorems": [
    "C181_zero_refuted",
    "C181_refused_partial",
    "C181_lengths_partial"
   ],
   "note": "False of the code: order 0 returns the abscissae instead of the function values (C181_zero_refuted). Refusal of other orders and of unequal lengths proved."
  },
  {
   "property": "C182",
   "status": "proved",
   "theorems": [
    "C182_sizes"
   ],
   "note": "Where the code's checks exist they are complete; checks that are absent (MultAt's out) are not claimed."
  },
  {
   "property": "C183",
   "status": "proved",
   "theorems": [
    "C183_linear",
    "C183_bilinear",
    "C183_trilinear",
    "C183_spline",
    "C183_bicubic",
    "C183_tricubic"
   ],
   "note": "Slices are values, so calls whose output slice shares memory with an input are not covered."
  },
  {
   "property": "C184",
   "status": "proved",
   "theorems": [
    "C184_radius_types",
    "C184_damaged_catalogues"
   ],
   "note": ""
  },
  {
   "property": "C185",
   "status": "partial",
   "theorems": [
    "C185_profile_run_partial",
    "C185_profile_run_refuted",
    "C185_profile_stops"
   ],
   "note": "Proved for cubes of pixels (C134), directions that are not drawn at the origin (C137) and subhalos that do not reach the periodic image of the first pixel; a subhalo that does can stop the run with an index out of range (refuted part; C138). NaN pixels are used like numbers, so they do not remove lines (C135). The numbers are those before formatting."
  },
  {
   "property": "C186",
   "status": "proved",
   "theorems": [
    "C186_new",
    "C186_draws",
    "C186_uniform_at"
   ],
   "note": "The stream of the Go library is a parameter of which only its documented range [0, 1) is assumed."
  },
  {
   "property": "C187",
   "status": "partial",
   "theorems": [
    "C187_seed",
    "C187_unit_buffers_partial",
    "C187_half_open_refuted"
   ],
   "note": "The cube is closed: a double below one next to one becomes one when it is converted to float32, so half-open is refuted. The closed cube is what the theorems about runs assume of the points."
  },
  {
   "property": "C188",
   "status": "partial",
   "theorems": [
    "C188_uniform_partial",
    "C188_uniform_int_partial",
    "C188_uniform_int_xorshift_partial",
    "C188_uniform_int_refuted",
    "C188_uniform_refuted",
    "C188_uniform_tausworthe_refuted"
   ],
   "note": "The upper bound is not excluded. UniformInt(1, 2) returns 2 when the Go library draws 1 - 2^-53, Uniform(1, 1 + 2^-52) returns its upper bound, and with Tausworthe, which can draw one, Uniform can return a number above high. Proved: Uniform stays in the closed range for Xorshift and Golang without overflow; UniformInt(0, n) for n up to 2^53; UniformInt(low, high) with Xorshift for bounds up to 2^19."
  },
  {
   "property": "C189",
   "status": "proved",
   "theorems": [
    "C189_random_sample",
    "C189_random_sample_lengths",
    "C189_double",
    "C189_double_short"
   ],
   "note": "Points lie in the tetrahedron in exact arithmetic on the doubles drawn."
  },
  {
   "property": "C190",
   "status": "proved",
   "theorems": [
    "C190_histogram",
    "C190_range",
    "C190_render"
   ],
   "note": "In real arithmetic (the numbers are only compared). The predicates of config.go that no program calls are not part of it. Remark: the example Ball file advertises ProjectionAxis, a field which BallConfig (config.go:342-349) does not have."
  },
  {
   "property": "C191",
   "status": "proved",
   "theorems": [
    "C191_period",
    "C191_one_cycle",
    "C191_draws"
   ],
   "note": "The factors of 2^128 - 1 are proved prime, the largest by Pocklington's criterion; the step satisfies a polynomial of degree 128 in which x has order 2^128 - 1."
  },
  {
   "property": "C192",
   "status": "partial",
   "theorems": [
    "C192_coordinate_partial",
    "C192_plane_partial",
    "C192_squares_refuted",
    "C192_tables"
   ],
   "note": "False of the code: the direction numbers of degree three and more are built from entry j - 1 where the method takes j - l (sobol.go:61), so coordinates three and four share a recurrence: their second binary digits always agree, and of the sixteen squares of side 1/4 half are never entered. Proved: each of the six coordinates by itself; coordinates one and two, with t = 1. Not done: the other pairs. The point before the first delivered one is skipped, so the first point counts as number 2."
  },
  {
   "property": "C193",
   "status": "proved",
   "theorems": [
    "C193_answers",
    "C193_new",
    "C193_set_vectors",
    "C193_written",
    "C193_nowhere",
    "C193_raw",
    "C193_slice",
    "C193_clear",
    "C193_wrapper",
    "C193_raw_final"
   ],
   "note": "The scratch weights are left out of the state; the numbers of the finished images are those of the models used by C33, C34, C171 and C172."
  },
  {
   "property": "C194",
   "status": "partial",
   "theorems": [
    "C194_read_partial",
    "C194_cells",
    "C194_big_refuted",
    "C194_slab_refuted",
    "C194_slabs_refuted"
   ],
   "note": "Read back on little endian machines whenever the image has the size the header gives. False on big endian machines (the version is misread and the reader exits), and false for quantities that cannot be projected when an axis was given: the header names the axis although the whole grid is written (C157). Python 2 file reading is assumed: line 69 opens a binary file in text mode."
  },
  {
   "property": "C195",
   "status": "partial",
   "theorems": [
    "C195_sheets_partial",
    "C195_axes_refuted",
    "C195_fields_refuted",
    "C195_unique_partial",
    "C195_uneven_refuted"
   ],
   "note": "Proved with the axes as they are: the first index runs along z. The comment says x (refuted). The fields omega_m and count do not hold what the comment says: omega_m is OmegaL, count that of the first snapshot file (refuted). No particle stands twice; all of them stand somewhere if the number of cells divides the width of the lattice, and otherwise those at the upper ends are in no file (refuted). The reading machine is little endian."
  },
  {
   "property": "C196",
   "status": "partial",
   "theorems": [
    "C196_layers_partial",
    "C196_whole_partial",
    "C196_even_refuted",
    "C196_deep_refuted",
    "C196_title_partial",
    "C196_title_refuted",
    "C196_extent_partial",
    "C196_projected_partial"
   ],
   "note": "Proved: odd depths up to the thickness show exactly that many centred layers; a depth equal to the thickness shows the box; projected grids are accepted for their own axis only, with the right title; pixels are drawn at their coordinates. Refuted: even depths average one layer more; depths above the thickness show only last layers, as a negative index counts from the end; for unprojected grids the title counts half of the pixels along x on the z axis and the reverse, so it may lie outside of the box. Numbers are reals; numpy slicing, np.mean and imshow are modelled by their documented meaning."
  }
 ]
}