# Formal model of gotetra: design

The source in `/repo` was read as text only; nothing in it was built or run.
The model and proofs are in `rocq/` (Coq 8.16.1).

## 1. Layout

| Directory (`rocq/theories/`) | Contents |
|---|---|
| `Base/`  | result type with explicit panics, checked slice access, bounded loops, the `Num` interface of arithmetic operations with its two instances (exact reals, IEEE-754 via Flocq), general lemmas |
| `Model/` | the Go functions, one definition per function, each citing file and lines in `/repo`; no proofs |
| `Spec/`  | small independent definitions used to state properties (sortedness, matrix product, periodic intervals, byte layouts, ...). They do not use model functions; only the files named `*Defs.v` import `Model/`, to abbreviate conversions between a model record and a specification object or concrete inputs |
| `Proof/` | lemmas |
| `Props/` | only theorem statements closed by `exact`, non-vacuity examples and `Print Assumptions` |

## 2. Modelling decisions

* **Panics.** A Go function that may panic returns `res A := Ok a | Panic | Fatal | NoFuel`.
  Every slice access goes through `get`/`set`, which return `Panic` out of
  range, so "returns `Ok`" includes "no index panic".
* **Loops.** Counted loops are structural recursion on the trip count. `while`
  loops take fuel and return `NoFuel` if it runs out; theorems say the result is
  `Ok`, which includes termination.
* **Integers.** Go `int` is `Z` without overflow (sizes are assumed to stay
  below 2^63). Where wrap-around matters (`uint32`, `uint64` words of the random
  generators, of the Gadget header and of the version flag) it is modelled by
  explicit reduction modulo 2^32 / 2^64.
* **Floating point.** Numeric code is written once over the interface `Num F`.
  Theorems about real-number behaviour use the instance `R` (exact arithmetic:
  rounding is *not* modelled there; float32 and float64 are identified).
  Theorems about IEEE behaviour, and the counterexamples, use Flocq's
  `binary_float 53 1024` / `24 128` with round-to-nearest-even, no fused
  multiply-add (Go on amd64). Structural theorems quantify over every `Num`.
  `math.Pow/Exp/Log10/Sqrt` exist only in the real model.
* **Concurrency.** Goroutines and channels are an explicit transition system
  whose steps are interleaved arbitrarily.
* **Files** are byte lists with a read offset.
* **Defects.** If a property is false of the faithful model the theorem
  `..._refuted` gives a concrete counterexample and the `..._partial` theorem
  gives the condition under which the property holds.

## 3. Plan per property

R = expected to be refuted as stated, with a positive theorem for the part that holds.

| Id | What is modelled | How it is proved |
|---|---|---|
| C01-C03 | `Shell`, `Quick`, `partition`, `sort3` on lists with checked access, over any type with a comparison; instantiated at IEEE doubles | permutation and no-panic by loop invariants without any assumption on the order; sortedness from a strict weak order; instantiated at NaN-free doubles |
| C04 | `NthLargest`, `nthLargest` | strong induction on length using the partition lemma |
| C05 R | `Median` | counterexample of length 3; exact rank returned |
| C06 R | `Percentile` | counterexample p=0; rank returned for p*len >= 1 |
| C07 | `Reverse` | loop invariant |
| C08-C10 | xorshift state machine on 32 bit words; conversion to double with Flocq | invariant "state non zero" by bit arguments; rounding lemmas |
| C11, C12 R | table, three indices; exact and IEEE | invariant relating the circular table to the output history; counterexample in IEEE |
| C13-C15 (14, 15 R) | `Init`, `NextAt` on 30 bit words | direction numbers are unit triangular, Gray code steps; capacity counterexample by induction, not by running |
| C16-C20 (17, 20 R) | `searcher`, `Linear`, `BiLinear`, `TriLinear` | invariant of the binary search, field algebra |
| C21-C25 (22, 24 R) | `Spline`, `TriDiagAt` | Thomas algorithm invariant, diagonal dominance, derivative and integral via Coquelicot |
| C26, C27 | `BiCubic`, `TriCubic` with their caches as state | cache invariant over call histories |
| C28-C32 (29, 31 R) | `Kernel`, boundary conditions, kernel constructors | index invariants; finite sums |
| C33, C34 (34 R) | `calc.Deriv` | field algebra per region |
| C35-C44 (36, 40, 42, 43 R) | `Matrix`, `LUFactors` | loop invariants of in-place elimination; finite sums |
| C45-C48 (46 R) | `Grid`, `CellBounds` on `Z` | div/mod arithmetic |
| C49-C51 (50, 51 R) | `Vec` | linear arithmetic; IEEE counterexample |
| C52-C54 (54 R) | `TetraIdxs` | case analysis on coordinate order; index arithmetic |
| C55-C60 (57 R) | `Tetra` | nonlinear real arithmetic, convexity |
| C61-C63 (62, 63 R) | `GridLocation` derivatives, options as mutable state | field algebra; history counterexample |
| C64-C66 | worker loops, interpolation, mass | partition of strided ranges; transition system; sums |
| C67-C69 (68 R) | `Overlap` implementations, workspaces | periodic index arithmetic; slices with capacity |
| C70-C72 (70, 71, 72 R) | validators, names, buffers | case analysis; counterexamples |
| C73-C77 (74, 75, 77 R) | byte level encoders and decoders | round-trip lemmas |
| C78 | `ParticleBuffer` | refinement to last-write-wins map |
| C79-C82 (79, 81 R) | headers, grid files, flag | bit arithmetic, round trip |
| C83, C84 (83 R at one boundary) | configuration | linear arithmetic; fuel induction |
| C85-C88 (86, 88 R) | conversion to segments | index arithmetic; decimal strings; interval invariant |
| C89-C92 (91, 92 R) | histogram code | counting lemmas; counterexamples |
| C93-C97 (94, 96 R) | halo grid and finder | linked list invariant; geometry |
| C98-C102 | names, radii, catalogue conversion, cosmology, mode flag | case analysis; `Rpower`; permutations |
| C103 R | Savitzky-Golay derivative kernels | the moment matrix and the LU solve of C42 |
| C104, C105 R | the cells of a box; velocities in projections | `up`/floor arithmetic; IEEE and concrete counterexamples |
| C106-C111 (106-109, 111 R) | caller data of `WriteSheet`, configuration checks, the Python flag reader | byte lemmas; case analysis |
| C112-C119 (112, 114, 118, 119 R) | `writeGrids`, `copyToSegment`, pixel and particle numbers, units | loop invariants; counterexamples with all parameters free where possible |
| C120-C127 (121-126 R) | schedules of the histogram workers, bounding boxes, samples, float errors, whole files | transition system; linear arithmetic; IEEE counterexamples |
| C128-C133 (128, 129, 130, 132 R) | large spheres, finder reuse, empty catalogues, catalogue values, edge cells, `ReadRockstar` | executable counterexamples; composition of the parts |
| C134-C148 (134-139, 143, 144 R) | the scripts `profile.go` and `read_halo.go`: line profiles, cell radii, removal of subhalos, binned means, swaps, targets, the whole of `read_halo` | loop invariants; distances over R; permutations of rows; IEEE witnesses |
| C149-C154 (149, 152-154 R) | the rendering manager: scaling, failures, choice of files, a whole run, the mean of full images; conversion followed by rendering | frame of a sheet in the periodic grid; counts over permutations of uses; induction over files, boxes and workers; IEEE witness |
| C155-C161 (R; 159 all) | renderMain from configuration to output files: images, recorded location, depth, names and cosmology | composition of C117, C104, C152, C153; induction over bounds files; IEEE witnesses |
| C162-C166 (R) | tetraHistMain from configuration to tables; rendered images as its grids | invariant over files and boxes, composition of C92-C98, C157; IEEE witnesses |
| C167-C169 (R) | runs that render velocities: sums and counts in every cell, the images written, uniform motion | the frame of C152 for vector buffers; induction over files, boxes and workers |
| C170-C173 (R) | the velocities, gradients, curls and divergences renderMain writes | composition of C152, C168 with C61-C63 over the images of a run |
| C174-C180 (any Num; C179 R) | Gadget-2 files, createGrids, lGadget2Main | decoding of the records one after another; appending to the particle buffer as in C78; composition with C85 and C154 |
| C181-C182 (any Num) | calc.Deriv at order 0 and wrong sizes; size checks of math/mat | case analysis on the checks |
| C183 (any Num; cubic R) | interpolate EvalAll | loop invariant over the points; history independence from C26, C27 |
| C184 | halo/radius.go columns, halo/io.go binaryColGetter on damaged files | case analysis; read_full on short files |
| C185 (R) | scripts/profile.go main | C80 for the image, C138 for each subhalo, C134 and C137 for each line, C141 for the tables |
| C186 (F64) | rand.go, golang.go | case split on the backend; each keeps its own stream theorem (C08, C09, C11, C12) |
| C187 (F64, F32) | tausworthe.go Init, render.go buffers | invariant over the digits: after k digits every entry is below 2 - 2^(1-k); conversion to float32 is monotone |
| C188 (F64) | rand.go Uniform, UniformInt | rounding f*d with f < 1 stays below d; difference of doubles exact when small |
| C189 (R) | tetra.go RandomSample, DistributeTetra64 | C58 on the points drawn (C186) |
| C190 (R) | config.go Valid* as called by main.go | case analysis on the predicates |
| C191 (exact) | xorshift.go | linearity over GF(2), order of x modulo the characteristic polynomial, primality of the factors |
| C192 (exact) | sobol.go | triangular direction numbers, elimination over GF(2) for all pairs of digit counts, counting |
| C193 | buffer.go (interface), output.go | invariant over histories of calls; loop invariant for the copy |
| C194 (exact) | python/gotetra.py, output.go | slices of encoded words; the header by fields; the data by offsets |
| C195 (exact) | python/gtet.py, main.go, io.go | C73 and C85 composed with the reader; flat arrays of equal rows |
| C196 (R) | python/render.py | arithmetic of slice bounds |

## 4. Trusted base

* The Coq 8.16.1 kernel (`vcheck` also runs `coqchk`). `vm_compute` is used, `native_compute` is not.
* The axioms that `Print Assumptions` lists. All of them belong to the Coq
  standard library; they stand behind `Reals` and the classical lemmas used in
  its development. This development adds no axiom, parameter or hypothesis
  outside a section, and switches no kernel check off.
* Flocq and Coquelicot are used as libraries of definitions and proved lemmas;
  they contribute no axiom of their own to any theorem below.
* The correspondence between the Go text and `Model/`, by reading: section 5
  says what was left out.

Axioms per theorem (output of `Print Assumptions`, grouped):

* nothing ("Closed under the global context") (127 theorems): C193_answers, C193_new, C193_set_vectors, C193_written, C193_nowhere, C193_raw, C193_slice, C193_clear, C193_wrapper, C193_raw_final, C181_zero_refuted, C181_refused_partial, C181_lengths_partial, C174_read_partial, C174_gas_refuted, C174_mixed, C174_big_refuted, C175_cut_partial, C175_ids_refuted, C175_header_refuted, C176_grids, C177_range_partial, C177_missing_refuted, C177_stale_refuted, C178_segments, C180_directories_partial, C180_nothing_refuted, C189_double, C189_double_short, C45_idx_check, C45_idx_range, C45_idx_injective, C45_idx_onto, C46_coords_refuted, C46_coords_partial, C47_intersect_complete, C47_intersect_sound, C48_intersect_unbounded, C53_vertices_valid, C53_cartesian, C54_centered_refuted, C54_centered_partial, C97_bounds, C98_radius_names, C100_convert, C100_top_n, C100_negative, C130_no_halos_refuted, C184_radius_types, C184_damaged_catalogues, C90_split, C91_split_refuted, C91_split_partial, C120_schedules, C190_render, C73_round_trip, C74_truncated_refuted, C74_truncated_partial, C75_bad_header_refuted, C75_bad_header_partial, C76_byte_order, C77_doubles_refuted, C77_doubles_partial, C78_particle_buffer, C79_count_refuted, C79_count_partial, C80_grid_round_trip, C81_self_describing_refuted, C82_flag, C84_power_of_two, C106_caller_data_refuted, C106_caller_data_partial, C107_render_subsample_refuted, C107_render_subsample_partial, C108_valid_quantity_refuted, C111_python_big_endian_refuted, C183_linear, C183_bilinear, C183_trilinear, C183_spline, C85_segments, C86_names_refuted, C86_names_partial, C88_cells_refuted, C88_cells_partial, C102_mode, C112_lost_refuted, C112_lost_partial, C150_no_files_refuted, C150_no_boxes_refuted, C150_unreadable_partial, C150_sizes_partial, C151_files, C182_sizes, C194_read_partial, C194_cells, C194_big_refuted, C194_slab_refuted, C194_slabs_refuted, C195_sheets_partial, C195_axes_refuted, C195_fields_refuted, C195_unique_partial, C195_uneven_refuted, C11_tausworthe_batch, C191_period, C191_one_cycle, C192_tables, C64_each_cube_once, C69_clean, C69_capacity, C69_slice, C70_subsample_refuted, C70_is_pow_two_partial, C70_subsample_partial, C71_density_refuted, C71_round_trip_partial, C71_unknown_partial, C71_velocities_partial, C72_velocity_refuted, C135_reject_refuted, C138_remove_partial, C141_print, C142_swaps, C144_targets_partial, C144_targets_refuted, C145_new_halos.
* `ClassicalDedekindReals.sig_forall_dec` (1 theorems): C37_transpose_any_split.
* `ClassicalDedekindReals.sig_forall_dec`, `FunctionalExtensionality.functional_extensionality_dep` (169 theorems): C28_convolve_zero, C28_convolve_ends, C29_convolve_refuted, C29_convolve_periodic_partial, C29_convolve_mirror_partial, C30_constants, C30_tophat, C31_lookup_refuted, C31_lookup_partial, C33_deriv2, C34_deriv4_refuted, C34_deriv4_partial, C49_sub_minimum_image, C49_mod_range, C51_cross_refuted, C51_cross_partial, C52_tiles_cover, C52_tiles_disjoint, C52_tiles_unique, C52_tiles_volume, C55_volume, C55_translation, C55_permutation, C55_degenerate, C56_contains_inside, C56_contains_outside, C57_barycenter_refuted, C57_barycenter_partial, C58_distribute_inside, C58_distribute_tetra_inside, C59_six_preimages, C59_volume_preserving, C60_cell_bounds_contain, C60_cell_bounds_least, C61_deriv_edges, C61_deriv_wrap, C61_central_exact, C61_weights_exact, C61_everywhere, C62_faces_partial, C62_interior_partial, C63_gradient_partial, C63_divergence_partial, C63_curl_partial, C63_default_partial, C93_grid_lists, C94_upper_edge_refuted, C92_same_refuted, C92_intersect_partial, C92_contains_partial, C121_bounding_box_refuted, C121_bounding_box_partial, C122_cube_kept_refuted, C122_cube_kept_partial, C123_grid_index_partial, C124_crossing_refuted, C124_samples_partial, C124_wrap_partial, C164_checks_partial, C166_projected_refuted, C166_image_grid_partial, C190_histogram, C190_range, C83_ball_box_refuted, C83_ball_box_partial, C109_ball_checks_refuted, C109_ball_checks_partial, C110_box_check, C16_linear, C16_linear_node, C17_linear_decreasing_refuted, C18_uniform_linear, C19_bilinear, C19_bilinear_node, C19_uniform_bilinear, C20_trilinear_refuted, C20_trilinear_partial, C21_natural_spline, C22_two_points_refuted, C23_negative_order, C25_tridiagonal, C25_tridiagonal_total, C26_bicubic_history, C26_bicubic_node, C27_tricubic_history, C27_tricubic_node, C183_bicubic, C183_tricubic, C87_bounding_box, C113_velocity_bounds, C114_velocity_tight_refuted, C114_velocity_tight_partial, C115_round, C115_image_pixels, C116_cube_root, C117_numbers, C118_recorded_refuted, C118_recorded_partial, C119_units_partial, C149_scaled_partial, C152_job, C153_mean, C154_lost_refuted, C154_pipeline_partial, C35_mult_square, C36_mult_refuted, C36_mult_wide_refuted, C36_mult_partial, C37_transpose, C38_mult_vec, C38_vec_mult, C39_lu, C39_lu_panics, C40_determinant_refuted, C40_tiny_refuted, C40_determinant_partial, C41_solve_no_exchange, C42_solve_refuted, C42_solve_partial, C43_solve_matrix_refuted, C43_solve_matrix_in_place_partial, C44_invert, C196_layers_partial, C196_whole_partial, C196_even_refuted, C196_deep_refuted, C196_title_partial, C196_title_refuted, C196_extent_partial, C196_projected_partial, C11_tausworthe_stream, C65_schedules, C66_deposit, C66_segment_mass, C67_add, C68_floor_refuted, C68_floor_partial, C72_velocity_partial, C72_curl_partial, C72_divergence_partial, C104_box_cells_refuted, C104_box_cells_partial, C105_velocity_image_partial, C155_new_box_partial, C156_main_partial, C156_full_partial, C156_unreadable_partial, C157_axis_refuted, C157_location_partial, C158_depth_refuted, C159_bounds, C160_own_file_partial, C139_binned_mean_partial, C140_round, C146_particles, C147_find_idx, C06_percentile_partial, C167_velocity_job, C168_projection_refuted, C168_images_partial, C169_uniform, C170_short_refuted, C170_velocity_partial, C171_thin_refuted, C171_gradient_partial, C172_thin_refuted, C172_curl_partial, C173_divergence_refuted, C173_divergence_partial.
* `ClassicalDedekindReals.sig_forall_dec`, `ClassicalDedekindReals.sig_not_dec`, `FunctionalExtensionality.functional_extensionality_dep` (13 theorems): C30_gaussian, C179_images_partial, C179_lost_refuted, C95_finder, C95_finder_direct, C96_finder_periodic_refuted, C96_finder_periodic_partial, C134_line_profile_partial, C136_radii_partial, C136_radii_refuted, C137_direction_partial, C185_profile_run_refuted, C185_profile_stops.
* `ClassicalDedekindReals.sig_forall_dec`, `ClassicalDedekindReals.sig_not_dec`, `Classical_Prop.classic`, `FunctionalExtensionality.functional_extensionality_dep` (92 theorems): C32_savgol, C103_savgol_deriv_refuted, C103_savgol_deriv_partial, C186_new, C186_draws, C186_uniform_at, C187_seed, C187_unit_buffers_partial, C187_half_open_refuted, C188_uniform_partial, C188_uniform_int_partial, C188_uniform_int_xorshift_partial, C188_uniform_int_refuted, C188_uniform_refuted, C188_uniform_tausworthe_refuted, C189_random_sample, C189_random_sample_lengths, C50_mod_single_refuted, C50_mod_single_partial, C62_axis2_refuted, C62_axis2_wrap_refuted, C63_curl_twice_refuted, C63_divergence_options_refuted, C99_mass_radius, C101_densities, C128_large_spheres_refuted, C129_reuse_refuted, C131_values, C132_below_width_refuted, C133_read_halos, C89_counts, C89_one_bin, C89_centers, C123_grid_index_refuted, C125_no_panic_refuted, C125_worker_partial, C126_float_refuted, C127_file, C162_same_region_refuted, C162_main_partial, C163_positions_refuted, C163_unreadable_partial, C163_grid_partial, C164_accepted_refuted, C165_same_name_refuted, C165_own_file_partial, C23_derivatives, C24_integral_refuted, C24_integral_partial, C119_units_refuted, C149_scaled_refuted, C08_xorshift_unit, C09_xorshift_batch, C10_uniform_int, C12_tausworthe_below_one_refuted, C12_tausworthe_closed_partial, C13_sobol_distinct, C14_sobol_capacity_refuted, C15_sobol_reinit_refuted, C15_sobol_reinit_partial, C15_sobol_reinit_distinct_partial, C191_draws, C192_coordinate_partial, C192_plane_partial, C192_squares_refuted, C68_floor_float32_refuted, C72_divergence_refuted, C104_box_cells_float_refuted, C105_projection_refuted, C155_negative_refuted, C156_whole_refuted, C160_same_name_refuted, C161_cosmology, C134_line_profile_refuted, C137_direction_refuted, C138_remove_refuted, C139_binned_mean_refuted, C143_print_radii_partial, C143_print_radii_refuted, C148_read_halo_partial, C185_profile_run_partial, C01_shell_sorts, C02_quick_sorts, C03_sorts_total, C04_nth_largest, C04_nth_largest_buffer, C04_nth_largest_panics, C05_median_refuted, C05_median_partial, C06_percentile_refuted, C06_percentile_one_refuted, C07_reverse.

## 5. What is modelled and what is not

Every definition in `Model/` cites the lines it renders.

| Go file | Model | Left out |
|---|---|---|
| `cosmo/param.go`, `const.go` | `Cosmo.v` | - |
| `math/calc/deriv.go` | `Calc.v` | the option machinery (the destination is an argument) |
| `math/interpolate/search.go`, `linear_interpolators.go` | `Interp.v`, `EvalAll.v` | `Ref` (only panics) |
| `math/interpolate/spline.go`, `cubic_interpolators.go` | `Spline.v`, `EvalAll.v` | `Ref` (only panics) |
| `math/interpolate/filter.go` | `Filter.v` | boundary values other than the four constants |
| `math/mat/mat.go` | `Mat.v` | - |
| `math/mat/mat32.go` | same text as `mat.go` without the transposes, with float32 for float64: the definitions of `Mat.v` at `F32Num` | - |
| `math/rand/*.go` | `Rand.v`, `RandGen.v` (interface, seeding) | the Go library generator itself (a stream of which only the range [0, 1) is assumed), the clock, `main` in `sobol.go` |
| `math/sort/*.go` | `Sort.v` | - |
| `render/geom/grid.go`, `vec.go`, `tetra.go` | `Geom.v`, `RandGen.v` (RandomSample, DistributeTetra64) | logging helpers of `grid.go:211-247`; the variants of a vector operation that only choose the destination |
| `render/geom/deriv.go` | `GridDeriv.v` | - |
| `render/density/quantity.go`, `buffer.go` | `Density.v`, `Buffers.v` (the interface) | the scratch array `weights` |
| `render/density/interpolator.go` | `Render.v` | - |
| `render/box.go` | `Box.v`, `RenderMain.v` (NewBox) | accessors |
| `render/render.go` | `RandGen.v` (random points), `Render.v` (passes and schedules of workers), `Manager.v` (manager, choice of files, whole runs) | logging, memory statistics |
| `render/hist.go` | `Hist.v`, `HistMain.v` | reuse of the buffers of the workers |
| `render/io/io.go`, `buffer.go` | `SheetIO.v`, `Gadget.v` (Gadget-2 files) | opening of files |
| `render/io/output.go` | `GridIO.v`, `RenderMain.v` (the records, the choice of the images) | - |
| `python/gotetra.py` | `GridIO.v` (the flag), `PyGrid.v` (read_header, read_grid) | printing; `struct`, `array` and `numpy.reshape` are modelled by their documented meaning; Python 2 on Unix (line 69 reads bytes in text mode) |
| `python/gtet.py` | `PySheet.v` (File) | `struct`, `array` and numpy slicing are modelled by their documented meaning; floats stay 32 bit patterns; `PySheet.v` also holds the header that writeGrids fills in |
| `python/render.py` | `PyRender.v` (slices, means, extent, title) | log10, abs and clip come before the modelled part; colours, windows, arguments and saved files are not modelled; imshow is modelled by its documented meaning |
| `render/io/config.go` | `Config.v` | example texts, `gcfg` parsing, checks that a string is not empty |
| `render/halo/grid.go`, `finder.go` | `Halo.v` | - |
| `render/halo/radius.go`, `io.go` | `Catalog.v` | the text table reader |
| `render/main/main.go` | `Main.v`, `Pipeline.v` (the directory between conversion and rendering), `RenderMain.v` (renderMain), `HistMain.v` (tetraHistMain), `Gadget.v` (ConvertSnapshot) | flags, logging, profiling, reading of directories |
| `render/scripts/profile.go` | extractLine, gridMult, lineProfiles, printProfiles (the numbers), randomUnit, round, radii, removeSubhalo, binnedMean; main from the parsed table and the image file to the numbers written (`ProfileMain.v`) | parsing of tables, text output, seeding |
| `render/scripts/read_halo.go` | Halos and its Len, Less, Swap; main from the table on; newHalo, newHalos, particles, numbers in genScripts, findIdx | arguments, reading the header and the table, texts of scripts, writing files; sort.Sort is any sequence of swaps |

### Assumptions made by the model

* `int` does not overflow; slices given as separate arguments do not overlap
  unless a comment says so; memory allocation succeeds.
* `os.File.Read` returns `min(len, remaining)` bytes and an error only at the
  end of the file; creating, opening and writing files succeed unless the
  property is about the failure.
* Strings are ASCII (`strings.ToLower`, `ToUpper`, `Trim`). Go's `ToLower` maps
  U+0130 to `i`, which is outside this model.
* `sort.Sort` is any function that returns an ordered permutation (the theorems
  quantify over it). Iteration over a Go map is any order.
* `math.Sqrt/Pow/Exp/Log10` are arguments of the model; theorems instantiate
  them with the real functions.
* `rand.Int63n` and the Go generator are arbitrary sequences of values in their
  range.

## 6. Findings

Properties that are false of the code, each with a machine-checked
counterexample (`..._refuted`). The corresponding `..._partial` theorem says
what does hold.

* **C05** Median is the median. False of the code: Median of three values is their maximum (C05_median_refuted). Proved instead: it returns the floor(len/2)-th largest.
* **C06** Percentile is total on [0,1]. False of the code: p=0 panics for two elements and p=1 is not an extreme. Proved: rank returned when p*len>=1, exact arithmetic.
* **C12** Tausworthe outputs are strictly below one in double arithmetic. False of the code: adding 1.0 to a tiny negative difference rounds to exactly 1.0 (C12_tausworthe_below_one_refuted). Proved instead: every draw is in the closed interval [0,1].
* **C14** Sobol sequence capacity. False of the code: call number 2^30 - 1 panics with an index out of range (C14_sobol_capacity_refuted). Distinctness below the limit is C13.
* **C15** Re-initialising a Sobol sequence restarts it. False of the code: Init does not reset the stored coordinates (C15_sobol_reinit_refuted). Proved: after a multiple of 2^p calls the first 2^p - 2 points agree with a fresh sequence, and a re-initialised sequence still has no repeats.
* **C17** Linear interpolation on decreasing tables. False of the code: every Eval on a strictly decreasing table panics (C17_linear_decreasing_refuted, for all tables and all x).
* **C20** Trilinear interpolation. False of the code: the z fraction uses the y table, so a node can panic (C20_trilinear_refuted). Proved when the z coordinates equal the y coordinates.
* **C22** Splines through two points. False of the code: every two point table panics (C22_two_points_refuted).
* **C24** Spline integral. False of the code when the lower limit is not a table point (C24_integral_refuted). Proved when it is one, with the integral of Coquelicot (definition only; no axioms beyond the standard library's reals).
* **C29** Convolution with periodic and reflecting boundaries. False of the code: left of the centre the index is off by one. The partial theorems say exactly what is read there and prove the claim elsewhere.
* **C31** Boundary condition lookup. False of the code: Periodic is off by one left of the slice, Reflection always panics at len(xs).
* **C34** Fourth order numerical derivative. False of the code: interior points get 4/3 of the derivative. C34_deriv4_partial gives the value at every point.
* **C36** Matrix product for all compatible shapes. False of the code: result rows are placed with the width of the left factor (C36_mult_refuted, for all narrower right factors; C36_mult_wide_refuted). Proved when B is square or A has one row.
* **C40** Determinant. False of the code: 2x2 all-ones matrix gives -1 because the pivot index is stale (C40_determinant_refuted), and a zero pivot replaced by 10^-20 gives a non-zero determinant of a singular matrix (C40_tiny_refuted). Proved for every non-singular matrix against the Laplace expansion.
* **C42** Linear solve. False of the code: the row exchanges are applied wrongly to b (C42_solve_refuted). C42_solve_partial says exactly which system is solved for every non-singular matrix; C41 covers the case without exchanges.
* **C43** Solving for several right hand sides. False of the code: the right hand side is never read, the zero matrix is returned for every non-singular A (C43_solve_matrix_refuted). Proved for the in-place method without exchanges.
* **C46** Coords inverts Idx. False of the code for grids with non-zero origin (C46_coords_refuted). Proved: the coordinates relative to the origin.
* **C50** Mod stays below the width in single precision. False of the code: a tiny negative coordinate rounds up to the width (C50_mod_single_refuted). Proved: result finite, in [0,width], strictly below it for non-negative inputs.
* **C51** Cross product. False of the code: a.Cross(b) is b x a (C51_cross_refuted). Proved: exact value b x a, orthogonality, aliasing variant.
* **C54** Centered tetrahedra are checked against the grid. False of the code: only the x coordinate is checked (C54_centered_refuted). Proved away from the y and z faces.
* **C57** Barycenter. False of the code: the fourth corner is left out (C57_barycenter_refuted). Proved: the returned value for every call history.
* **C62** Grid derivative along the third axis. False of the code: the borders of axis 2 use the step of axis 0. C62_faces_partial gives the whole result: the slope in every cell, except next to the two faces across axis 2, where the neighbours in the list take the place of the neighbours along the axis.
* **C63** Curl and divergence do not depend on earlier calls. False of the code: Curl and Divergence write Op into the caller's options, or the package default. The partial theorems say what Gradient and a first call compute in every cell, with the slopes of C62.
* **C68** Floor of a grid coordinate. False of the code: intFloor(k) = k-1 for integers k <= 0, and wrong in float32 just above -1. Proved for positive and for non-integer coordinates.
* **C70** Subsample length validation. False of the code: the check is made on the old value, so a bad length is accepted and the next call fails.
* **C71** Quantity names round-trip. False of the code: String panics for Density (q <= 0). Proved for the other quantities.
* **C72** Velocity-type buffers finalise without panic. False of the code: i % (len/30) panics for lengths 1..29, and the divergence uses the x component for y.
* **C74** Truncated sheet files are reported. Refuted: a short read of os.File.Read is not an error, so a file cut inside the data is accepted; cuts inside the header make positions come back unread without an error. Partial: what is reported.
* **C75** Unreadable headers are reported. Refuted: ReadSheetPositionsAt returns nil when the header read failed. Partial: velocities.
* **C77** Byte order conversion for double triples. Refuted: the loop swaps index j with 3-j for j < 4, which does nothing. Partial: machine order.
* **C79** Particle count from a Gadget header. Refuted: uint32(NPart[0])<<32 is 0. Partial: high word 0.
* **C81** Vector and projected grid files are self describing. Refuted: IsVectorGrid is set after the header is written; a projected grid has fewer values than the header's pixels.
* **C83** Ball regions become the right boxes. Refuted when the scaled radius equals a coordinate. Partial: all other balls, in exact arithmetic. Rounding can also give L and is not covered by the partial theorem.
* **C86** Segment files do not overwrite each other. refuted for every cells >= 11 ("1","0","10" and "10","1","0"); partial: cells <= 10.
* **C88** Cell number validation. refuted (3 is accepted: integer halving); partial: exact characterisation (accepts iff >= 1). validCellNum is not called by the program.
* **C91** Histogram workers visit every cube once (any skip). False for every skip >= 2: a cube is handled only if its index modulo skip^3*workers is one of the workers, and for skip >= 2 some cubes have other remainders. Proved: no cube twice.
* **C92** Periodic interval tests. False when the two intervals are the same (start and width): all comparisons are strict. Proved: exact for all other pairs; contains1D exact.
* **C94** Positions on the upper box edge. False on every grid: z = Width panics, x = Width lands in the list of cell (0,1,0).
* **C96** Subhalo finder is periodic. False: markSubhalos compares plain coordinate differences, so halos that meet across the boundary are never listed. Proved: everything listed does meet; pairs whose coordinates differ by at most half the box are listed exactly when they meet.
* **C103** Savitzky-Golay derivative kernels. False of the code (found while proving C32): rows are exchanged from order 4 on, and the solve then uses the wrong right hand side. Proved when no rows are exchanged.
* **C104** A rendering box has at most as many cells as the periodic grid. False of the code: 1 + floor(end) counts the cell that begins at the end of the box.
* **C105** Velocity images hold mean velocities. False of the code for projections: velocities are divided by the depth but counts are not.
* **C106** Writing a sheet keeps the caller's data. Refuted on big endian machines. Partial: little endian.
* **C107** Render SubsampleLength validation. Refuted by 3. Partial: positive, and powers of two are accepted.
* **C108** Render Quantity validation. Refuted: the first iteration calls Quantity(0).String(), which panics.
* **C109** Accepted balls give acceptable boxes. Refuted at the edge and for negative radii. Partial: positive radius, not at the edge, exact arithmetic.
* **C111** Python reader on any machine. Refuted: version 129 on a big endian machine.
* **C112** Every particle is written. refuted for every remainder >= 2: the result does not depend on the particle (n-1,0,0); partial: remainder 0.
* **C114** Velocity bounds are tight. refuted: bounds start at vs[0] of the whole lattice; partial: first segment.
* **C118** Output files record the numbers used. refuted: the values of the configuration are recorded even when ImagePixels/AutoParticles replace them; partial: explicit numbers.
* **C119** Converted positions lie in the recorded box. refuted: XUnits scales positions but not TotalWidth; also, float32 rounding can give exactly TotalWidth. partial: units 1, exact arithmetic.
* **C121** Bounding box of a cube. False: the loops run over dx = 0, skip, ... < skip and so look only at the base particle. Proved: the result is the base particle with zero width.
* **C122** Cubes are not lost. False as a consequence of C121. Proved: a cube is kept exactly if its base particle lies strictly inside the sheet's own region (not the histogram box).
* **C123** Grid index. False in float64: a position at the upper edge of the grid gets pixel number n in a row of n (then the lookup panics). Proved in exact arithmetic.
* **C124** Samples of a tetrahedron. False: corner positions are used as stored, so a tetrahedron across the edge of the box is sampled in the middle of the box. Proved: samples are convex combinations of the stored positions; wrapping the sample is exact.
* **C125** Histogram workers do not panic. False when the skip does not divide the segment width (nothing checks this). Proved otherwise.
* **C126** Histogram counts in float64. False: rounding of (x-min)/dx can reach the number of bins, and NaN is converted to an index. No positive part.
* **C128** Finder works for large spheres. False in float64: two concentric-ish halos of radii 3 and 1 in a box of width 8 are not found; radius 12 panics. C95_finder_direct gives the condition under which nothing is missed.
* **C129** Finder can be used twice. False: old entries of subhalos are kept and appear in the last list.
* **C130** Finder accepts an empty catalogue. False: cumulativeMax reads the last element of an empty slice.
* **C132** Positions just below the width in float64. False: with 3 cells of width 125/3, and with 150 cells in a box of 100, the largest float64 below the width gets cell number 3 (150) and z panics.
* **C134** Density along a line. Holds for cubes (the code says it assumes a cubical box, but nothing checks it). For other boxes the center of axes 0, 1, 2 is used for the permuted axes: the profile starts at a wrong place or is empty.
* **C135** Lines through removed subhalos are rejected. Refuted: the line that would set smoothStarted is commented out, so extractLine returns ok = true for all inputs; NaN densities are kept and lineProfiles takes exactly profCount attempts.
* **C136** Radii of cells. Refuted for every box: the middle is (Span - 0.5) cw / 2 instead of (Span - 1) cw / 2, so the radii are measured from a point a quarter of a cell above the center on each axis. The partial theorem gives these values exactly.
* **C137** Random directions. Holds unless the drawn point is the origin (all draws 0.5, or both that are kept), where the result is NaN in float64.
* **C138** Removing a subhalo. ConvertIndices only wraps below the origin. If the subhalo's box goes above the origin of the halo's box plus the width of the volume, cells are set at wrong places or the index is out of range; SphereBounds makes such boxes. The partial theorem has that bound as its hypothesis.
* **C139** Means of binned data. Holds when lowLim is given together with highLim, or neither is and the largest element is at least the smallest positive float64, and the limits differ. Otherwise: line 309 tests lowLim instead of highLim, so highLim alone is ignored and lowLim alone gives a NaN width and a panic; line 310 starts the maximum at a positive number; equal data give width zero and a panic.
* **C143** Radii written for the renderer. Radii for masses of the types 200c, 500c and 2500c are computed with rType (200m) instead of rPrintType in line 128: the partial theorem says what they are for every type, the refutation that they are wrong for every mass unless the two densities agree.
* **C144** Targets in the catalogue. An ID that is missing from the catalogue leaves index 0, the halo with the largest radius.
* **C148** The catalogue program as a whole. Proved for targets in the catalogue and spheres that stay inside the box, with the radii the program uses (C143). Missing: radii of the definition asked for (C143, refuted), missing targets (C144, refuted), overlaps across the boundary (C96, refuted).
* **C149** Scaled positions stay in the buffer. A float32 particle a rounding error above the face of cell 1 of 21 is scaled to below that cell, 21 is added, and the worker writes outside of its buffer: the run panics.
* **C150** Jobs that cannot be rendered. No files: index 0 of an empty slice, as in densitySetupIO before it. No boxes, as from bounds files without entries: index 0 of an empty slice while the buffers are made. Files that cannot be read or with another GridCount are reported.
* **C154** From particles to images. With eleven or more segments per axis the names of C86 collide, files are overwritten, and the mean rises by less than 1: the number of different names over the number of segments. For ten or less it rises by 1.
* **C155** NewBox makes an empty image of the configured box. Holds in exact arithmetic for boxes whose widths are not negative. False of the code: BallConfig.CheckInit accepts negative radii (see C109) and NewBox then panics on a negative number of pixels.
* **C156** renderMain as a whole. Holds in exact arithmetic for Density and DensityGradient and for boxes that start inside the simulation and are at least one pixel narrower than it, under the conditions of C152; images from the first to the last pixel have mean 1. False of the code: a box of exactly the width of the simulation gets one more pixel along each axis (C104), which stays empty: with 4 pixels the mean is 64/125, and a projection is divided by a depth of 5 instead of 4. A first sheet that cannot be read is ignored by densitySetupIO (the width is then 0), but the run still ends with an error.
* **C157** The location recorded with an image is that of the image. Holds for everything but the axis: for quantities that cannot be projected the axis of the configuration is recorded although the image has three dimensions. That the span recorded with projections is not the size of their data is C81; that particles and pixels may be 0 is C118.
* **C158** The recorded projection depth is the one the particles suffice for. False of the code: output.go uses 20000 particles at 5000 pixels where main.go uses 5 at 500, a factor of 4, and divides by the cube of the subsampling length where it should multiply, so that what is recorded is 4/skip^6 times the depth.
* **C160** Each image has its own file. Holds if no two sections share a name. False of the code: a ball and a box of one name, or sections of one name in two bounds files, are written to one file and the last one wins without a message.
* **C162** tetraHistMain as a whole. False in general: a box that is exactly the region of a sheet gets nothing from that sheet (C92). Proved with those sheets left out, and for densities, for which alone the code counts.
* **C163** Files that cannot be read end a histogram run. False for positions: ReadSheetPositionsAt returns an error if the length of the buffer differs, hist.go:170 drops it, and the positions of the previous sheet are counted again. Proved for headers and the grid.
* **C164** Accepted histogram configurations can be run. False: ValidQuantity and ValidHistBins are never called, and no check of ParticlesPerTetrahedron exists, so that accepted runs panic. Proved for the checks that are made.
* **C165** Each histogram has its own file. False for boxes of equal names; proved for distinct names.
* **C166** Rendered images can serve as grids of histograms. False for projected images, whose location has the depth of the box as third number of pixels (see C81); proved for the others.
* **C168** Velocity images show mean velocities. Projections divide the summed velocities by the depth of the box although they are divided by the number of points afterwards, so no pixel of a projection deeper than one cell shows the velocity of uniformly moving particles (C168_projection_refuted); the pixels are the mean velocity over the depth (C168_images_partial). Images of 1 to 29 pixels panic (C72).
* **C170** A run for Velocity writes mean velocities. In real arithmetic. False of the code for boxes of 1 to 29 pixels: the run panics (C170_short_refuted, from C72), and nothing is written for the other boxes of the run either.
* **C171** A run for DensityGradient writes the gradient. In real arithmetic, with at least five pixels along each axis, for every pixel. False of the code: next to the faces across z the z component is the slope along the list (`taken`, C62), and with a box of fewer than three pixels along an axis, or of three or four along x or y that do not cover the simulation, the run ends without output (C171_thin_refuted). Left open: z axes of three or four pixels and simulations of four pixels.
* **C172** A run for VelocityCurl writes the curl. In real arithmetic, with at least five pixels along each axis, for every pixel; next to the faces across z the slopes along z are those along the list. False of the code for thin boxes as in C171 (C172_thin_refuted). Left open as in C171.
* **C173** A run for VelocityDivergence writes the divergence. False of the code: the middle term is the derivative of the x component along y, so what is written is not the divergence at any pixel at which the x and the y component change differently along y (C173_divergence_refuted, the defect of C63 seen from the command line). C173_divergence_partial gives what is written in every pixel.
* **C174** A Gadget-2 file is read faithfully. Files of dark matter particles only are read completely.  If a file has as many gas particles as dark matter particles, the block of positions is twice as long as expected and pairs of float32 are read as float64; other numbers of gas particles are refused.  The header is always read as little endian, so that the byte order parameter gives wrong counts for big endian files.
* **C175** A Gadget-2 file that is cut is refused. A file that ends before the ids is refused; ReadGadgetHeader returns zeros if the header is cut, and a file that ends within the ids is read with zeros for the others.
* **C177** An incomplete set of snapshot files is noticed. Only ids out of range are noticed.  A missing id leaves its particle at the origin; a file that ends before its ids is given the ids of the file before it, since the buffers are shared and errors are dropped.
* **C179** The mass of a snapshot is in the images. Up to ten segments along each axis; with eleven or more the names of C86 collide, files are overwritten, and mass is missing.
* **C180** Every directory of an iteration is converted. ValidIterationStart and ValidIterationEnd exist but are never called: with IteratedInput and without IterationEnd the program succeeds and does nothing.
* **C181** Derivative orders and slice lengths. False of the code: order 0 returns the abscissae instead of the function values (C181_zero_refuted). Refusal of other orders and of unequal lengths proved.
* **C185** The program profile from image and table to files. Proved for cubes of pixels (C134), directions that are not drawn at the origin (C137) and subhalos that do not reach the periodic image of the first pixel; a subhalo that does can stop the run with an index out of range (refuted part; C138). NaN pixels are used like numbers, so they do not remove lines (C135). The numbers are those before formatting.
* **C187** Seeding and the points of the unit cube. The cube is closed: a double below one next to one becomes one when it is converted to float32, so half-open is refuted. The closed cube is what the theorems about runs assume of the points.
* **C188** Ranges of Uniform and UniformInt. The upper bound is not excluded. UniformInt(1, 2) returns 2 when the Go library draws 1 - 2^-53, Uniform(1, 1 + 2^-52) returns its upper bound, and with Tausworthe, which can draw one, Uniform can return a number above high. Proved: Uniform stays in the closed range for Xorshift and Golang without overflow; UniformInt(0, n) for n up to 2^53; UniformInt(low, high) with Xorshift for bounds up to 2^19.
* **C192** The Sobol points are evenly spread. False of the code: the direction numbers of degree three and more are built from entry j - 1 where the method takes j - l (sobol.go:61), so coordinates three and four share a recurrence: their second binary digits always agree, and of the sixteen squares of side 1/4 half are never entered. Proved: each of the six coordinates by itself; coordinates one and two, with t = 1. Not done: the other pairs. The point before the first delivered one is skipped, so the first point counts as number 2.
* **C194** The Python reader sees the image that was written. Read back on little endian machines whenever the image has the size the header gives. False on big endian machines (the version is misread and the reader exits), and false for quantities that cannot be projected when an axis was given: the header names the axis although the whole grid is written (C157). Python 2 file reading is assumed: line 69 opens a binary file in text mode.
* **C195** The Python reader sees the sheets of a conversion. Proved with the axes as they are: the first index runs along z. The comment says x (refuted). The fields omega_m and count do not hold what the comment says: omega_m is OmegaL, count that of the first snapshot file (refuted). No particle stands twice; all of them stand somewhere if the number of cells divides the width of the lattice, and otherwise those at the upper ends are in no file (refuted). The reading machine is little endian.
* **C196** The picture of a grid shows the layers that were asked for. Proved: odd depths up to the thickness show exactly that many centred layers; a depth equal to the thickness shows the box; projected grids are accepted for their own axis only, with the right title; pixels are drawn at their coordinates. Refuted: even depths average one layer more; depths above the thickness show only last layers, as a negative index counts from the end; for unprojected grids the title counts half of the pixels along x on the z axis and the reverse, so it may lie outside of the box. Numbers are reals; numpy slicing, np.mean and imshow are modelled by their documented meaning.

Observed while modelling, not stated as properties:

* `render/io/io.go`: the comment of the endianness flag says 0 is big endian and
  -1 little endian; the code does the opposite.
* `ReadGadgetHeader` reads the header little endian whatever `order` says.
* `calc.Deriv` with order 0 copies `xs`, not `ys`.
* `geom.Deriv` of order 4 does not reject widths 3 and 4.
* `HistFromFile` ignores the error of `ReadSheetPositionsAt`.
* `validCellNum` is never called; `ValidCells` only checks that the number is positive.
* `HistBins > 0` is not checked before the histogram is made.
* `RhoAverage` is the physical matter density only in a flat cosmology.
