# Formal model of rss_ringoccs: design

Source: `/repo` (C core in `src/`, headers in `include/`, CPython bindings in
`rss_ringoccs/crssringoccs/`). Nothing was built or run; the model was written
from the text. `libtmpl` (a git submodule) is **empty** in the pinned tree, so
each libtmpl function is an *oracle* whose contract is written down
explicitly (section "Trusted base").

## Layers

* **Numbers.** The code is transcribed once over a record of scalar operations
  (`Scalar.v`). Instance `dbl_scalar` is exact IEEE-754 binary64: Flocq's
  `BinarySingleNaN.binary_float 53 1024` with NaN, infinities and signed zeros,
  round-to-nearest-even `+ - * / sqrt`, C comparisons (false on NaN) and the C cast
  to `size_t`, which is *undefined behaviour* outside its range. Instance
  `real_scalar` is the real numbers. Statements about validation, selection,
  orientation and chords are about doubles; statements about indices, memory,
  dispatch and schedules hold for every instance; algebraic statements (linearity,
  normalisation, interpolation, closed forms) are about reals, i.e. exact
  arithmetic.
* **Memory.** An array is `option (list A)` (`None` = NULL); cells of `malloc`ed
  buffers are `option A` (`None` = never written). Every element access
  goes through a checked read/write. Out-of-bounds access, read of
  uninitialised memory, dereference of NULL, out-of-range float-to-integer cast,
  double free, use after free, bad library argument and divergence are distinct
  *undefined* outcomes `UB reason` of the result monad, never silently totalised.
  Allocation goes through an oracle that can fail. Ownership properties (C39, C45,
  C46) use an explicit heap of live blocks and open files (`Model_Heap.v`).
* **Integers.** `size_t` is a `Z` with explicit wrap-around modulo 2^64
  wherever the code can wrap.
* **Threads.** `#pragma omp parallel` + `omp for schedule(static)` is a partition
  of the iteration space into contiguous chunks, each run with its
  own private variables. All partitions are quantified over. Chunks are run one
  after the other: iterations write only their own output cell and read nothing
  another iteration writes, which the model makes visible by passing only `T_out`
  from chunk to chunk.
* **Error discipline.** A tau object carries `err : option message`.

Files: `Model_*.v` contain definitions only, each citing file and lines;
`Spec_*.v` contain the independent specification vocabulary; `Proof_*.v` lemmas;
`Ref_*.v` libraries that satisfy the assumed laws; `Ex_*.v` concrete inputs;
`Properties_*.v` the theorems, each with `Print Assumptions` and a concrete
non-trivial case.

A theorem called `…_refuted` proves that the faithful model violates the
property one would first write down, with a concrete witness (or for all inputs of
a class). The property list states the exact scope in which the property is true,
and mentions the refuted part in parentheses.

## Per property: what is modelled, how it is proved

| id | property | modelled | proof | theorems |
|----|----|----|----|----|
| C01 | Keyword validation is exact | the five keyword checks on binary64 | iff with a specification on reals, through Flocq comparison lemmas | `c01_keywords_exact` (R+c) |
| C02 | Geometry validation is exact | the five geometry checks; extrema of libtmpl as oracle with law | iff on NaN-free arrays | `c02_geometry_exact` (R+c), `c02_nan_opening_accepted_refuted` (R+c), `c02_nan_refuted` (R+c), `c02_nan_resolution_refuted` (R+c) |
| C03 | Errors are sticky and the first message wins | every tau function as a state transformer | case analysis per call, induction over call sequences | `c03_errors_are_sticky` (0) |
| C04 | Named ranges are recognised exactly | string normalisation and the range table | table lookup equivalence for all strings | `c04_named_ranges` (0), `c04_case_and_blanks` (0), `c04_named_ranges_valid` (R+c) |
| C05 | Reconstruction-method names are parsed exactly | method names and the decimal order suffix | table lookup; induction over decimal strings | `c05_methods` (0), `c05_fresnelN` (0) |
| C06 | Window names are parsed exactly and consistently | window names | table lookup equivalence for all strings | `c06_windows` (0) |
| C07 | Method dispatch is total and never leaves the tables | dispatch, selection tables, all drivers | case analysis over the selector, driver frame lemmas | `c07_dispatch` (0), `c07_transforms` (0), `c07_profile_of_method` (R+c), `c07_unimplemented_refused` (0), `c07_named_methods_implemented` (0) |
| C08 | Selected samples are inside the request and inside the data | window selection on binary64 | scan invariants, order lemmas of doubles | `c08_selected_inside` (R+c) |
| C09 | Every selected sample has its full window inside the data | the trimming step | invariants of the two "where" scans | `c09_windows_fit` (R+c), `c09_wide_window_selected_refuted` (R+c) |
| C10 | Exactly the last admissible sample is dropped | the whole selection | both inclusions from the scan invariants | `c10_selection_exact` (R+c), `c10_last_dropped_refuted` (R+c) |
| C11 | Each window width is computed from that sample's own geometry | the width formulas | loop invariants for the buffer; refutations by computation | `c11_widths_plain` (R+c), `c11_widths_bfac` (R+c), `c11_widths_bfac_offset` (R+c), `c11_velocity_index_refuted` (R+c), `c11_parameter_index_refuted` (R+c) |
| C12 | Reprocessing a finished object is refused | selection and reconstruction on processed objects | frame lemmas of each stage | `c12_reprocessing_refused` (R+c), `c12_reprocessing_defined` (R+c), `c12_reconstruction_refused` (0), `c12_second_run_refused` (R+c), `c12_refusal_after_reversal_refuted` (R+c) |
| C13 | The data range check is exact, and one sample too weak at the end | the data range check with the cast to size_t | loop induction | `c13_range_check_exact` (R+c), `c13_window_past_end_refuted` (R+c) |
| C14 | Quadratic-Fresnel reconstruction only touches memory it owns | the parallel Fresnel driver, all schedules | invariant of thread-private state; induction over chunks | `c14_fresnel_mode_safe` (R+c), `c14_extra_sample_refuted` (R+c) |
| C15 | Newton-mode reconstruction only touches memory it owns | the parallel Newton driver and its seven transforms | same | `c15_newton_modes_safe` (R+c) |
| C16 | Results do not depend on the number of threads | both parallel drivers | refinement to a schedule-free specification | `c16_fresnel_threads` (R+c), `c16_newton_threads` (R+c), `c16_threads_change_result_refuted` (R+c), `c16_newton_threads_change_result_refuted` (R+c) |
| C17 | FFT-mode reconstruction only reads recorded data | the FFT driver, arithmetic modulo 2^64 | index bounds | `c17_fft_mode_safe` (R+c), `c17_fft_out_of_bounds_refuted` (R+c) |
| C18 | Piecewise quadratic quadratures are safe for every odd window size from three on | Filon02 and Filon12 | loop induction with index bounds | `c18_quadratic_filon_safe` (0), `c18_single_point_refuted` (0), `c18_reconstruction_refuted` (R+c) |
| C19 | The FFT length is the least power of two not below the request | the padding loop on 64-bit size_t | induction on the exponent | `c19_next_power_of_two` (0), `c19_large_sizes_never_return` (0) |
| C20 | Ingress data: what is reversed and what is not | orientation check | fold over the reversed arrays | `c20_reversal` (R+c), `c20_profile_not_reversed_refuted` (R+c) |
| C21 | Orientation check accepts exactly one-way occultations | orientation check | iff on doubles | `c21_orientation_exact` (R+c) |
| C22 | Finished arrays describe the same samples | finishing | fold over the resized arrays | `c22_finish` (0), `c22_positions_not_cut` (0), `c22_positions_misaligned_refuted` (R+c) |
| C23 | Forward modelling leaves the inverse result intact | forward model and plain run | simulation of the two runs | `c23_forward_keeps_inverse` (0), `c23_forward_failure_loses_refuted` (R+c), `c23_wave_number_sign_refuted` (R+c) |
| C24 | Reconstruction either fails or returns equally long arrays | full reconstruction | composition of stage lemmas | `c24_reconstruction_aligned` (0) |
| C25 | Reconstruction is linear in the recorded signal | all transforms and drivers over the reals | linearity by induction, lifted through every stage | `c25_reconstruction_linear` (R) |
| C26 | Normalised quadratic Fresnel mode preserves free space | Fresnel transform over the reals | closed form, norm of a product | `c26_fresnel_free_space` (R), `c26_unnormalised_refuted` (R) |
| C27 | Normalised Newton quadratures preserve free space | all other transforms over the reals | closed forms | `c27_riemann_free_space` (R), `c27_filon_free_space` (R), `c27_elliptical_free_space` (R), `c27_perturbed_free_space` (R), `c27_interpolated_free_space` (R), `c27_legendre_free_space` (R), `c27_filon02_refuted` (R) |
| C28 | Forward modelling uses the conjugate kernel | kernels and Fresnel transform | equality over any scalar record; conjugation over the reals | `c28_forward_kernel_conjugate` (0), `c28_fresnel_forward` (R), `c28_forward_ignored_refuted` (0) |
| C29 | Degree-4 phase interpolation is exact at its nodes | four-point interpolation | field identities | `c29_quartic_nodes` (R), `c29_quartic_exact` (R) |
| C30 | Degree-8 and degree-16 phase interpolation reproduces its nodes | 8- and 16-point interpolation with the literal decimal constants | rational arithmetic bound on the defect of the truncated matrices | `c30_eight_point_nodes` (R), `c30_sixteen_point_nodes` (R) |
| C31 | The Legendre phase is the documented truncated series for every order | the four Legendre transforms | Horner loop induction | `c31_even_phase` (R), `c31_odd_normalised_phase` (R), `c31_odd_unnormalised_phase` (R), `c31_odd_unnormalised_refuted` (R), `c31_side_refuted` (R) |
| C32 | The quadratic Fresnel mode is symmetric | Fresnel transform on binary64 | commutativity of rounded addition, induction | `c32_fresnel_symmetric` (0), `c32_fresnel_symmetric_double` (R+c) |
| C33 | Window buffers are refreshed consistently | window buffers | loop induction | `c33_half_windows` (0), `c33_full_window` (0), `c33_resize` (0), `c33_empty_window_double_free_refuted` (R+c) |
| C34 | CSV rows and columns land where documented | character-level readers (fgets, strtok, atof oracle) | induction over lines and fields | `c34_rows_and_columns` (0) |
| C35 | Exactly which files are read without undefined behaviour | same | exact characterisation of the runs that return | `c35_which_files_are_safe` (0), `c35_lines_are_rows` (0), `c35_short_row_refuted` (R+c) |
| C36 | A wrong number of columns is reported before any row is read | column count check | case analysis | `c36_wrong_columns` (0), `c36_unopened` (0) |
| C37 | Angles of Uranus tables are converted exactly once | Uranus readers | loop induction | `c37_angles` (0), `c37_factor` (R+c) |
| C38 | Merged tables: the header is optional | merged reader | loop induction | `c38_header` (0), `c38_no_header` (0), `c38_arrays_filled_refuted` (0) |
| C39 | CSV extraction frees everything exactly once under any allocation failure | heap of blocks with a failing allocator | ownership invariant (multiset of live blocks), symbolic execution | `c39_tables` (0), `c39_cassini` (0), `c39_uranus` (0), `c39_double_free_refuted` (R+c), `c39_leak_refuted` (R+c) |
| C40 | Combined extraction reports unusable files | combined extraction | case analysis over the failing table | `c40_unusable_files_reported` (0), `c40_uranus_refuted` (0) |
| C41 | Exactly chord occultations are rejected | chord check on binary64 | loop invariants | `c41_chords_rejected` (R+c), `c41_uranus_chords_rejected` (R+c), `c41_error_exactly_for_chords` (R+c), `c41_directions` (R+c), `c41_search_bounds_refuted` (R+c) |
| C42 | Interpolated columns are aligned with the DLP samples | interpolation onto the DLP grid (interpolation routine as oracle) | pointwise values through every step | `c42_aligned` (R+c), `c42_uranus_aligned` (R+c), `c42_lengths` (0) |
| C43 | Normalised power of legacy tables follows from optical depth | legacy power | pointwise; real analysis of sin | `c43_legacy_power` (R+c), `c43_formula` (R) |
| C44 | Creating a tau object copies the data faithfully | creation from a DLP object over any scalars | loop induction over the copied cells | `c44_creation` (0), `c44_accepted` (R+c), `c44_refused` (0), `c44_profile_exact` (R) |
| C45 | Allocation failure while creating a tau object is contained | creation and destruction on the heap | ownership invariant | `c45_allocation_failure` (0) |
| C46 | Destroying CSV objects through a handle is idempotent | destruction functions | case analysis | `c46_csv_tables` (0), `c46_csv_data` (0), `c46_tau_handle_refuted` (0), `c46_tau_null` (0) |
| C47 | Date to revolution lookup is a correct partial inverse of the tables | the revolution table and lookup | decision over the table lifted to all dates | `c47_date_to_rev` (0), `c47_rev_of_each_event` (0), `c47_shared_day_refuted` (0) |
| C48 | History printing stays in bounds | history printing | loop induction | `c48_history_print` (0), `c48_full_table_refuted` (0), `c48_geo_history` (0) |
| C49 | Straight-edge models are step functions | straight-edge models on binary64 | loop induction | `c49_right_edge` (R+c), `c49_left_edge` (R+c), `c49_decreasing_refuted` (R+c), `c49_edge_at_end_refuted` (R+c), `c49_left_outside_refuted` (R+c) |
| C50 | Each model function accepts the model type it implements | argument checks of the models | case analysis | `c50_left_type` (0), `c50_right_type` (0), `c50_sine_refuted` (0), `c50_sine_as_left_edge` (0) |
| C51 | Interpolated Newton modes only touch memory they own | interpolated Newton driver | index invariants | `c51_interpolated_modes_safe` (R+c) |
| C52 | The "fresnelN" modes only touch memory they own | Legendre driver | index invariants | `c52_legendre_modes_safe` (R+c) |
| C53 | Each transform computes its documented sum | all transforms over the reals | closed forms by induction on the window size | `c53_fresnel_sum` (R), `c53_kernel_data` (R), `c53_node_data` (R), `c53_elliptical_data` (R), `c53_perturbed_data` (R), `c53_riemann_sum` (R), `c53_elliptical_sum` (R), `c53_perturbed_sum` (R), `c53_filon_sums` (R), `c53_filon12_sum` (R), `c53_newton4_sum` (R), `c53_newton8_sum` (R), `c53_newton16_sum` (R), `c53_legendre_sums` (R) |
| C54 | Well-posed reconstructions succeed and return the requested samples | the whole reconstruction, stage by stage, on binary64 | composition of the selection, range-check, driver and trimming theorems; exactness of the spacing in double arithmetic | `c54_reconstruction_succeeds` (R+c) |
| C55 | The Python class takes over exactly complete DLP objects | the Python attributes and their conversion, one by one | induction over the reading order | `c55_conversion` (R+c), `c55_cases` (0), `c55_error_iff` (R+c), `c55_list_crashes_refuted` (R+c) |
| C56 | Ranges and perturbations from Python are understood exactly | Python values as a type; the two conversion routines | case analysis on the value; the string part reduces to C06 | `c56_range` (R+c), `c56_perturb` (R+c), `c56_big_integer_refuted` (R+c) |
| C57 | The Python class returns the reconstruction it was asked for, or raises | the constructor from argument defaults to the members shown | composition of C44, C55, C56, C06, C07, C54 and the trimming theorem | `c57_constructed` (R+c), `c57_call` (R+c), `c57_refused` (R+c), `c57_data` (R+c), `c57_well_posed` (R+c), `c57_no_dlp_refuted` (R+c), `c57_no_history_refuted` (R+c), `c57_positions_refuted` (R+c) |
| C58 | The Python CSV classes show the files, aligned, or raise | the three constructors, the take-over of the arrays and the member table | composition of C38, C40, C41, C42 with the take-over loop; C55 for the last part | `c58_cassini` (R+c), `c58_uranus` (R+c), `c58_merged` (0), `c58_merged_unwritten_refuted` (0), `c58_cassini_unusable_raises` (R+c), `c58_cassini_chord_raises` (R+c), `c58_uranus_chord_raises` (R+c), `c58_merged_unusable_raises` (0), `c58_uranus_unusable_refuted` (R+c), `c58_to_reconstruction` (R+c), `c58_attributes` (R+c) |
| C59 | The Python CSV classes neither free twice nor leave files open | the same constructors and the destructor, in the heap model | ownership invariant of C39 carried through the take-over loop | `c59_cassini` (0), `c59_uranus` (0), `c59_merged` (0), `c59_leak_refuted` (0), `c59_second_init_refuted` (R+c) |
| C60 | The FFT mode computes the convolution with the central kernel | the FFT driver over the real scalar, with the library transforms as oracles | orthogonality of roots of unity, convolution theorem, and the index arithmetic of the padded arrays | `c60_fft_convolution` (R), `c60_invariant_kernel` (R), `c60_not_normalised_refuted` (R) |
| C61 | Free space keeps its intensity through a whole diffraction correction | the whole correction step over the real scalar: dispatch, drivers with reuse of windows, transforms | the driver theorems of C14, C15, C51 and C52 redone over the reals, composed with C26 and C27 | `c61_free_space` (R) |
| C62 | Elevation and ring opening angles are heights above the right planes | both functions of src/occultation_geometry, with the SPICE toolkit as an oracle | trigonometry over the reals from the law of the angle function | `c62_elevation` (R), `c62_opening` (R), `c62_unique` (R+c), `c62_opposite_pole` (R+c), `c62_missing_ephemeris_refuted` (0) |
| C63 | A reconstruction and the object it works on share no memory problem | the reconstruction, creation, destruction and the Python constructor and destructor once more, with a block for every pointer (Model_Mem.v); values come from the functions of the other files | a simulation: each step relates the heap run to the value run and carries the multiset of owned blocks | `c63_reconstruction` (0), `c63_destroy` (0), `c63_lifetime` (0), `c63_three_leaks` (0), `c63_failed_runs_leak_refuted` (R+c), `c63_python_rejected` (R+c), `c63_python_failed` (R+c), `c63_python_run` (R+c), `c63_python_leaks_refuted` (R+c), `c63_python_same` (R+c) |
| C64 | The files that the package writes are files it can read | the functions of rss_ringoccs/tools that write GEO, CAL, DLP and TAU files, with Python's %F and %E conversions written out (Model_Write.v) | induction over digits: a printed number is a numeral for the rounded number; induction over rows: the text is a well-formed table; then C34 | `c64_round_trip` (R+c), `c64_profile` (R+c), `c64_depth` (R+c), `c64_dlp_depth` (R+c), `c64_sky_frequency` (R+c), `c64_uplink_geo_refuted` (R+c), `c64_uplink_dlp_refuted` (R+c), `c64_uplink_tau_refuted` (0) |
| C65 | The labels describe the files they are written for | the functions that collect the contents of the labels: byte positions from the format strings, names, extremes, times (Model_Label.v), next to the writers of C64 | the byte positions are the running sums of the printed widths, by induction over columns and rows; folds for the extremes; floor arithmetic for the times | `c65_layout` (R+c), `c65_exists` (R+c), `c65_tells` (R+c), `c65_too_wide_refuted` (R+c), `c65_uneven_refuted` (R+c), `c65_midnight_refuted` (R), `c65_time_refuted` (R+c) |
| C66 | Calls that change the radii of the planet in the kernel pool | the kernel pool as a state, the functions of occgeo that write radii to it, SPICE as an oracle that depends on the radii (Model_Pool.v) | state transformer per call, induction over samples and over histories of calls | `c66_times` (0), `c66_history` (R), `c66_intercepts_restore` (0), `c66_intercepts_independent` (0), `c66_intercepts` (0), `c66_exception_refuted` (0), `c66_geometry_forgets` (0), `c66_geometry` (0), `c66_atmosphere_contains_ionosphere` (R), `c66_atmosphere_refuted` (R) |
| C67 | Seconds past midnight and ephemeris times | both conversions on calendar fields, exact arithmetic (Model_Time.v); the UTC strings are not modelled | floor arithmetic, Gregorian calendar lemmas, induction over the breaks | `c67_date` (R), `c67_to_time` (R), `c67_zero` (R), `c67_same_day` (R), `c67_round_trip` (R), `c67_steps` (R), `c67_midnight_refuted` (R), `c67_twice_refuted` (R), `c67_new_year_refuted` (R), `c67_century_refuted` (R), `c67_negative_refuted` (R), `c67_default_kernels_refuted` (R) |
| C68 | The direction of an occultation and the parts of a chord | the decision between ingress, egress and chord on lists of samples with any type of further columns (Model_Chord.v); the velocity is the numerical gradient | the gradient of a valley changes sign once, at the computed place; filters and suffixes for the blocked samples | `c68_one_way` (R), `c68_chord` (R), `c68_index` (R), `c68_parts` (R), `c68_blocked_ingress` (R), `c68_blocked_egress` (R), `c68_late_refuted` (R), `c68_even_refuted` (R), `c68_end_refuted` (R), `c68_far_refuted` (R), `c68_midnight_refuted` (R) |
| C69 | Free-space regions in radius and in time | the gap edges, the iteration, the table file and the linear interpolation (numpy, scipy) written out over the reals (Model_Free.v); the Julian date of a ring event time is a parameter | bounds of the polar equation of an ellipse; induction over the table; strict monotony of the interpolation, by negation for falling radii | `c69_edge` (R), `c69_edge_fixed` (R), `c69_edge_tie` (R), `c69_regions` (R), `c69_ordered` (R), `c69_rising` (R), `c69_falling` (R), `c69_chord` (R), `c69_few` (R) |
| C70 | Frames and angles of an occultation | the functions of calc_occ_geometry.py that work on single vectors, with the SPICE vector routines (twovec, rotate, recrad, vsep, nplnpt) written out as NAIF documents them and the ephemerides as an oracle (Model_Frame.v) | the rotation matrix in coordinates is orthonormal with determinant one; polar coordinates; minimum of a quadratic for the distance | `c70_azimuth` (R+c), `c70_opening` (R+c), `c70_elevation` (R+c), `c70_pole` (R), `c70_state` (R+c), `c70_impact` (R+c), `c70_fresnel` (R), `c70_fresnel_effective` (R), `c70_beta` (R+c), `c70_effective` (R+c), `c70_degrees_refuted` (R+c), `c70_axis_refuted` (R+c), `c70_removed_refuted` (R+c), `c70_frame_refuted` (R+c) |
| C71 | The resampled signal belongs to the radii returned with it | pre_resample and resample_IQ over the reals, with rounding to even, scipy interp1d written out and resample_poly as a convolution with zero padding; the filter coefficients are a parameter (Model_Resample.v) | bounds of the rounded factors; the convolution of a linear sequence with a symmetric filter of unit gain; sums reversed and split | `c71_radii` (R), `c71_within` (R), `c71_signal` (R), `c71_direction` (R), `c71_drift_refuted` (R), `c71_ends_refuted` (R), `c71_short_refuted` (R) |
| C72 | Every sample of a diffraction-limited profile belongs together | the profile class, the split of chords and the threshold over the reals, numpy interp and scipy interp1d written out; the cubic spline, the filter coefficients and the noise power are parameters; the angles in radians and the other geometry columns are treated alike (Model_Dlp.v) | both interpolations agree on neighbouring samples, by induction; nearest radii by midpoints; cuts of sorted lists | `c72_profile` (R+c), `c72_trim` (R), `c72_range` (R), `c72_direction` (R), `c72_threshold` (R+c), `c72_chord` (R), `c72_heads` (R), `c72_depth_refuted` (R+c) |
| C73 | A raw data file is read sample by sample | the header as a table of names and sizes, files as lists of bytes, samples as integers, times over the reals; the value of eight bytes and the decimation of the signal library are parameters; the names of stations from the file name, bands and gains are not modelled (Model_Rsr.v) | blocks of a concatenation by induction; words back from bytes by arithmetic; nearest of equally spaced times; nested ceilings | `c73_signal` (R), `c73_decimated` (R), `c73_rate` (R), `c73_header` (R), `c73_sky` (R), `c73_edge_refuted` (R), `c73_bits_refuted` (R), `c73_track_refuted` (R), `c73_sky_refuted` (R) |
| C74 | Reconstructed sky frequencies follow light times and clocks | the function, the derivative of the light time and the clock rates over the reals, SPICE states and light times as an oracle, the conversion of times to ephemeris time left out (Model_Sky.v) | derivative of the implicit light time by the chain rule of the standard library; algebra | `c74_frequency` (R+c), `c74_light_time` (R+c), `c74_clock` (R), `c74_two_way` (R), `c74_band_refuted` (R+c) |
| C75 | The frequency correction turns each sample and keeps its power | the correction of the signal over the reals with the spline library as a parameter (Model_Sky.v) | rotation of the plane; closed form of cumulated sums of a linear sequence | `c75_power` (R), `c75_tone` (R), `c75_drift` (R), `c75_drift_refuted` (R) |
| C76 | The frequency offset is that of the strongest signal in its window | windows and peak search over the reals, with numpy fft as the discrete Fourier transform, fftfreq, arange and argmax written out (Model_Offset.v) | first maximum of a list; strict triangle inequality for weighted sums of unit vectors with two different directions | `c76_peak` (R), `c76_tone` (R), `c76_bin` (R), `c76_windows` (R), `c76_total` (R), `c76_beyond_refuted` (R) |
| C77 | The frequency offsets kept for the fit | the masks as lists of booleans changed in place, with the loops and index errors of the code; the median and the tolerance are parameters; the optional clipping with a polynomial is left out (Model_Mask.v) | loop invariant: the mask ahead is untouched; two neighbouring kept samples survive every step | `c77_clip` (R), `c77_neighbours` (0), `c77_mask` (R), `c77_total` (R) |
| C78 | The free space that calibrates the power | the lists of gaps and medians changed in place, numpy max and median with values that are not numbers, and what the geometry holds afterwards; the fit, the plots and the dialogue are left out (Model_Power.v) | removing the first equal gap keeps the rest since equal gaps have equal medians; uniqueness of sorted lists; a witness calibrated twice | `c78_mask` (R), `c78_raises` (R), `c78_range` (R), `c78_asks` (R), `c78_again_refuted` (R) |
| C79 | The gaps that the user types | texts as lists of characters with the slices of Python (negative indices included) and split; the reader of numbers is a parameter; the rest of the dialogue is left out (Model_Typed.v) | a text is a list of blocks between opening brackets; induction over the blocks with the position of each bracket | `c79_typed` (0), `c79_close` (0), `c79_close_refuted` (R), `c79_refused` (0) |
| C80 | The times of the downsampled power | the factor by round, scipy resample_poly as in C71 and numpy linspace (Model_Down.v) | division with remainder of the number of samples; the filter on a line from C71 | `c80_times` (R), `c80_values` (R), `c80_raises` (R), `c80_late_refuted` (R) |
| C81 | The order of the polynomial for the frequency offsets | the loop with the F test and its divisions by zero as in numpy; the fit is a parameter that minimises the squared distance (Model_Order.v) | interpolation of any data by Newton polynomials, so that the residuals vanish when the degrees of freedom do; invariant of the loop | `c81_order` (R), `c81_exact` (R), `c81_cubic_refuted` (R) |
| C82 | Discontinuities of the frequency offsets | second differences, scipy argrelmax, the four checks and the removal by value (Model_Jump.v) | invariant of the removals over the rest of the list; neighbours in a sorted list; second differences of a step | `c82_disconts` (R), `c82_pair` (R), `c82_step_refuted` (R) |

Axioms per theorem: (0) closed under the global context; (R) the axioms of the
standard library's real numbers, `sig_forall_dec`, `sig_not_dec` and
`functional_extensionality_dep`; (R+c) these and `classic`.

## Trusted base

* Coq 8.16.1's kernel (and `coqchk`).
* The axioms listed above; all from the standard library
  (`Coq.Reals.ClassicalDedekindReals`, `Coq.Logic.FunctionalExtensionality`,
  `Coq.Logic.Classical_Prop`). No axiom, parameter or admitted proof is declared in
  this development. `coqchk -o` on the whole development lists, besides these three
  modules' axioms, only the opaque constants of the standard library's real numbers
  and of `ssrunder` (module `Coq.ssr.ssrunder`), which are sealed by module types of
  the standard library and have a definition there.
* The reading of the C code, recorded by the file and line citation above each
  definition of `Model_*.v`.
* The contracts of code outside the repository, which appear as *hypotheses* of
  the theorems that need them and are shown satisfiable by `Ref_Tmpl.v`,
  `Ref_Csv.v` and the examples of the theorem files:
  * extrema of arrays (`minmax_law`, `min_law`, `max_law`, `nan_law` in `Spec_Tau.v`),
  * sine, cosine, exponential, modulus, linear quadrature rules, discrete Fourier
    transforms (`Spec_Real.v`), only for theorems in exact arithmetic,
  * line counting, `atof`, interpolation returning one value per point
    (`Spec_Csv.v`, `Spec_CsvData.v`),
  * polar form, wave length, wave number, Fresnel scale (`Spec_Create.v`).
  Theorems without such a hypothesis hold for *arbitrary* results of the
  library functions. All library functions are assumed to be pure and total.

## What is modelled

* `src/tau`: all functions: creation from DLP data, initialisation, allocation,
  copying, destruction (`Model_Create.v`); all checks (`Model_Checks.v`); string
  setters (`Model_Strings.v`); orientation, window selection, finishing
  (`Model_Select.v`); window buffers (`Model_Recon.v`).
* `src/fresnel_transform`: all transforms and selection tables
  (`Model_Transform.v`, `Model_Interp.v`, `Model_Recon.v`).
* `src/reconstruction`: all drivers, dispatch, the forward model and the full
  reconstruction (`Model_Recon.v`).
* `src/csv_tools`: all readers, single and combined, at character level, with heap
  (`Model_Csv.v`, `Model_CsvData.v`). Families of functions that differ only in
  names and columns are one parametrised definition, whose comment lists the files.
* `src/history`, `src/model`, the revolution lookup and tables (`Model_Misc.v`).
* The Python class `DiffractionCorrection` (`rss_ringoccs/crssringoccs/auxiliary`,
  `common` and `diffraction_correction`): conversion of the DLP object and of the
  arguments, the constructor, and the members shown (`Model_Py.v`). Python values
  are a type with the cases the code tells apart; reference counts are left out.
* The Python classes `ExtractCSVData`, `GetUranusData` and `GetMergedCSVData`: the
  constructors, the take-over of the arrays, the members shown and the destructor
  (`Model_PyCsv.v`).
* The contents of the PDS3 labels that `get_geo_series_info`, `get_cal_series_info`,
  `get_dlp_series_info`, `get_tau_series_info` and `pds3_write_series_v2.py` derive from
  the data (`Model_Label.v`): record and column layout, names, formats, extremes and
  times; not the constant texts, units, opacities, the layout of the label's own text
  and the rounding of its numbers to four decimals.
* The Python functions `write_geo_series_data`, `write_cal_series_data`,
  `write_dlp_series_data` and `write_tau_series_data` of `rss_ringoccs/tools`
  (`Model_Write.v`); numpy and the rounding of printed numbers are parameters, the
  digits are written out.

* The geometry functions of `rss_ringoccs/occgeo` that change the kernel pool
  (`Model_Pool.v`), and the conversions between seconds past midnight and ephemeris
  time (`Model_Time.v`), and the decision between ingress, egress and chord
  (`Model_Chord.v`), the free-space regions with the table of gaps
  (`Model_Free.v`), and frames, angles and impact radii (`Model_Frame.v`, with the SPICE
  vector routines written out as NAIF documents them).
* Of the calibration code, the resampling of the signal to uniform radii
  (`Model_Resample.v`; the filter coefficients are a parameter), and the
  diffraction-limited profile (`Model_Dlp.v`; spline and noise power are parameters, the
  history and the writing of files are left out).
* The reconstructed sky frequencies and the correction of the signal with the frequency offsets
  (`Model_Sky.v`), with SPICE states and the spline library as parameters.
* The search for the frequency offsets (`Model_Offset.v`) and the mask of the offsets that are
  fitted (`Model_Mask.v`), and the gaps and samples that calibrate the power (`Model_Power.v`) with
  the reader of the gaps that a user types (`Model_Typed.v`) and the downsampling before it
  (`Model_Down.v`), the order of the polynomial (`Model_Order.v`) and the discontinuities between
  which it is fitted (`Model_Jump.v`); the
  fits themselves are not modelled.
* The reader of raw data files (`Model_Rsr.v`: bytes, headers, samples, decimation and
  predicted frequencies).

## What is not modelled

* The SPICE toolkit itself (an oracle in Model_Geometry.v).
* In the heap model of the reconstruction (Model_Mem.v) the private buffers of the
  drivers are allocated and freed as one group per call, and the blocks of the
  libtmpl searches are two or three (`sep`); reference counts of the Python objects
  passed as arguments are not modelled.
* `graveyard/` (not compiled), `tests/`, and the Python code outside the bindings,
  the writers of data files, the labels, the reader of raw data files, and the parts of `occgeo`, of
  `calibration` and of the time conversions named above.
* Floating-point *accuracy* of the transforms: their values are characterised in
  exact arithmetic; bit-level statements about them are limited to schedule
  independence (C16), kernel conjugation (C28) and mirror symmetry (C32).
* Termination is part of the model (every loop is bounded or has an explicit
  `Diverges` outcome); running time is not modelled.
* Data races as such: see "Threads". Failing allocations inside a parallel region
  are modelled as failing in every thread.
* NULL `tau` arguments (each function returns at once).
* Text encodings: strings are byte strings, `isspace`/`tolower` are those of the C
  locale.

## Seeded faults

`seeded/LOG.jsonl` records edits of the model in a scratch copy, the theorems whose
proofs then fail, and the theorems that were strengthened because they did not.
