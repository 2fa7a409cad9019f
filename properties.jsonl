{"id": "C01", "title": "Keyword validation is exact", "statement": "Starting from an error-free tau object, rssringoccs_Tau_Check_Keywords leaves it error-free if and only if: the Allan deviation and the resolution are finite and strictly positive, the eccentricity is finite and non-negative, the periapse is finite and lies in [-2pi, 2pi], and the requested range consists of two finite numbers with 0 <= range[0] <= range[1]. In either case no data other than the error flag and message is changed.", "quantifier": "all IEEE-754 double values (including NaN, infinities, signed zeros, subnormals) of the five keywords, all tau objects", "why_tests_cant": "There are 2^64 values per keyword; NaN and boundary behaviour of chained comparisons is exactly what samples miss.", "anchors": ["src/tau/rss_ringoccs_tau_check_keywords.c:rssringoccs_Tau_Check_Keywords", "src/tau/rss_ringoccs_tau_check_allan_deviation.c", "src/tau/rss_ringoccs_tau_check_resolution.c", "src/tau/rss_ringoccs_tau_check_eccentricity.c", "src/tau/rss_ringoccs_tau_check_periapse.c", "src/tau/rss_ringoccs_tau_check_range.c"]}
{"id": "C02", "title": "Geometry validation is exact", "statement": "Starting from an error-free tau object whose azimuth, opening-angle, distance and radius arrays are non-empty and hold no NaN, and whose resolution is a number, rssringoccs_Tau_Check_Geometry accepts if and only if every azimuth is finite and in [-360,360], every opening angle is in [-360,360], all ring distances and radii are positive numbers, the sample spacing is finite and non-zero, and the resolution is at least 1.99 times the absolute sample spacing; nothing but the error is changed. (Arrays of NaN opening angles and a NaN resolution are wrongly accepted: see the refutations.)", "quantifier": "all arrays of doubles of every length, all spacings and resolutions", "why_tests_cant": "The claim is about every element of arrays of arbitrary length, including arrays in which a NaN hides from min/max.", "anchors": ["src/tau/rss_ringoccs_tau_check_geometry.c", "src/tau/rss_ringoccs_tau_check_azimuth_angle.c", "src/tau/rss_ringoccs_tau_check_opening_angle.c", "src/tau/rss_ringoccs_tau_check_ring_distance.c", "src/tau/rss_ringoccs_tau_check_ring_radius.c", "src/tau/rss_ringoccs_tau_check_displacement.c"]}
{"id": "C03", "title": "Errors are sticky and the first message wins", "statement": "Once the error flag of a tau object is set, every further library call on that object (checks, setters, window selection, every diffraction-correction mode, finishing, the full reconstruction) leaves the whole object, including the recorded message and all data, exactly as it is.", "quantifier": "all tau objects with the flag set, all finite sequences of library calls with all arguments", "why_tests_cant": "Arbitrary call sequences from arbitrary failed states; tests exercise a handful of failure points.", "anchors": ["src/tau/rss_ringoccs_tau_check_keywords.c", "src/tau/rss_ringoccs_tau_get_window_width.c", "src/tau/rss_ringoccs_tau_finish.c", "src/tau/rss_ringoccs_tau_set_psi_type.c", "src/tau/rss_ringoccs_tau_set_range_from_string.c", "src/tau/rss_ringoccs_tau_set_window_type.c", "src/reconstruction/rss_ringoccs_reconstruction.c", "src/reconstruction/rss_ringoccs_diffraction_correction.c"]}
{"id": "C04", "title": "Named ranges are recognised exactly", "statement": "Setting the range from a string succeeds exactly when the string, after removing white space and lowering case, is one of the documented feature names; it then sets the documented pair of radii, and each such pair passes the keyword range check. Strings equal up to case and white space behave identically. Any other string raises an error.", "quantifier": "all strings, all tau objects", "why_tests_cant": "Unbounded input language; equality up to case/white space is a relation over all pairs of strings.", "anchors": ["src/tau/rss_ringoccs_tau_set_range_from_string.c:rssringoccs_Tau_Set_Range_From_String"]}
{"id": "C05", "title": "Reconstruction-method names are parsed exactly", "statement": "Setting the method from a string selects the documented method for each documented name (case and white space ignored); \"fresnelN\" selects the quadratic Fresnel method for N = 2 and the Legendre method with polynomial order N-1 for 3 <= N <= 255; \"fresnel0\", \"fresnel1\" and every name that is neither documented nor begins with \"fresnel\" raise an error.", "quantifier": "all strings, all tau objects", "why_tests_cant": "Unbounded input language and an integer parameter.", "anchors": ["src/tau/rss_ringoccs_tau_set_psi_type.c:rssringoccs_Tau_Set_Psi_Type"]}
{"id": "C06", "title": "Window names are parsed exactly and consistently", "statement": "Setting the window type from a string succeeds exactly for the eight documented names (case and white space ignored) and sets the window function and the normalized equivalent width of the same window; an unknown name raises an error.", "quantifier": "all strings, all tau objects", "why_tests_cant": "Unbounded input language.", "anchors": ["src/tau/rss_ringoccs_tau_set_window_type.c:rssringoccs_Tau_Set_Window_Type"]}
{"id": "C07", "title": "Method dispatch is total and never leaves the tables", "statement": "For every value of the method selector, rssringoccs_Diffraction_Correction runs the driver and the transform that belong to that method, so that the profile written by a window method consists of that method's values; a method that is not implemented is refused with an error and unchanged data, and every method that a name can select is implemented.", "quantifier": "all selector values 0..16, both settings of use_norm and use_fwd, every polynomial order", "why_tests_cant": "Reasoning over the whole table with index arithmetic; a wrong slot shows up only for that method.", "anchors": ["src/reconstruction/rss_ringoccs_diffraction_correction.c", "src/fresnel_transform/rss_ringoccs_tau_select_newton_transform.c", "src/fresnel_transform/rss_ringoccs_tau_select_newton_interp_transform.c", "src/reconstruction/rss_ringoccs_diffraction_correction_legendre.c"]}
{"id": "C08", "title": "Selected samples are inside the request and inside the data", "statement": "If window selection succeeds on data with increasing radii, then start+n_used does not exceed the number of samples and each selected sample has a radius within the closed requested range (as given by the user before the call).", "quantifier": "all radius arrays of all lengths, all requested ranges, all window widths", "why_tests_cant": "Index arithmetic over three successive narrowing steps and unbounded arrays.", "anchors": ["src/tau/rss_ringoccs_tau_get_window_width.c:rssringoccs_Tau_Get_Window_Width"]}
{"id": "C09", "title": "Every selected sample has its full window inside the data", "statement": "If window selection succeeds on data with increasing radii whose window edges also increase from sample to sample, every selected sample i satisfies rho[i]-w[i]/2 > rho[first] and rho[i]+w[i]/2 < rho[last] as real numbers. (Without the condition on the edges a window reaching beyond the data can be selected: refutation.)", "quantifier": "all radius arrays, all window-width profiles (not only monotone ones), all ranges", "why_tests_cant": "Needs width profiles in which the admissible set is not contiguous; the failing case depends on a data-dependent gap.", "anchors": ["src/tau/rss_ringoccs_tau_get_window_width.c:rssringoccs_Tau_Get_Window_Width"]}
{"id": "C10", "title": "Exactly the last admissible sample is dropped", "statement": "If window selection succeeds on data with increasing radii and increasing window edges, the selected samples are exactly those inside the requested range whose window fits in the data, except the last of them, which is always dropped.", "quantifier": "all radius arrays, widths, ranges", "why_tests_cant": "Maximality is a statement about all samples that are absent from the output.", "anchors": ["src/tau/rss_ringoccs_tau_get_window_width.c:rssringoccs_Tau_Get_Window_Width"]}
{"id": "C11", "title": "Each window width is computed from that sample's own geometry", "statement": "After window selection the width of every requested sample is the documented function of that sample's own Fresnel scale and wave number, the scalar settings and a ring radial velocity: always without the Allan-deviation correction; with the correction, whenever no sample up to the end of the request is unable to reach the resolution, with the sample's own velocity if the request starts at or below the first recorded radius, and otherwise with the velocity found as many samples before it as the request starts after the first sample. (So in general the velocity is another sample's, and after an unreachable sample the parameter is too: refutations.)", "quantifier": "all arrays of Fresnel scales and velocities, all ranges, both settings of bfac", "why_tests_cant": "The index bookkeeping error is invisible when the range starts at the first sample and every sample qualifies, as in the usual test data.", "anchors": ["src/tau/rss_ringoccs_tau_get_window_width.c:rssringoccs_Tau_Get_Window_Width"]}
{"id": "C12", "title": "Reprocessing a finished object is refused", "statement": "Calling window selection on an object that already carries window widths sets the error flag and leaves every data array unchanged; so does running the full reconstruction a second time on its own successful result. A refused full reconstruction never touches the profiles or the array size, and touches the geometry arrays only by the reorientation of inward data that precedes the refusal.", "quantifier": "all tau objects with window widths present", "why_tests_cant": "Any prior history could have produced the object.", "anchors": ["src/tau/rss_ringoccs_tau_get_window_width.c", "src/reconstruction/rss_ringoccs_reconstruction.c"]}
{"id": "C13", "title": "The data range check is exact, and one sample too weak at the end", "statement": "rssringoccs_Tau_Check_Data_Range accepts if and only if the spacing is positive and for every selected sample i, with m the half-window in samples, m <= i and i+m <= arr_size; nothing but the error is changed. (The upper bound is one too weak: with i+m = arr_size accepted, the Fresnel and Newton modes read past the arrays.)", "quantifier": "all arrays of widths, all starts, lengths and spacings", "why_tests_cant": "Boundary case n+m = number of samples; the set of failing inputs has measure zero.", "anchors": ["src/tau/rss_ringoccs_tau_check_data_range.c:rssringoccs_Tau_Check_Data_Range"]}
{"id": "C14", "title": "Quadratic-Fresnel reconstruction only touches memory it owns", "statement": "If all arrays are complete, the sample after the selection has a window that fits, and every window fits in the data, the quadratic Fresnel mode reads and writes only valid elements, returns, and gives every sample of the selection (and the one after it) the value of the transform with a window whose width differs from the sample's own by less than two spacings, for any number of threads; with memory available and the range check passed it returns no error. (Valid data accepted by all checks can violate the condition on the extra sample: refutation.)", "quantifier": "all inputs accepted by the pre-checks, all thread counts", "why_tests_cant": "An out-of-bounds access by one element usually does not crash; needs reasoning over every accepted input.", "anchors": ["src/reconstruction/rss_ringoccs_diffraction_correction_fresnel.c", "src/fresnel_transform/rss_ringoccs_fresnel_transform.c"]}
{"id": "C15", "title": "Newton-mode reconstruction only touches memory it owns", "statement": "If all arrays are complete and every window of the selection fits in the data (and, for the piecewise quadratic quadratures, has at least three points), every Newton quadrature mode reads and writes only valid elements, returns, and gives each selected sample the value of that mode's transform with a window whose width differs from the sample's own by less than two spacings, for any number of threads; with memory available and the range check passed it returns no error.", "quantifier": "all inputs accepted by the pre-checks, all thread counts, all Newton modes", "why_tests_cant": "Stale windows depend on the history of widths inside a thread's chunk.", "anchors": ["src/reconstruction/rss_ringoccs_diffraction_correction_newton.c", "src/fresnel_transform/rss_ringoccs_fresnel_transform_newton_riemann.c", "src/fresnel_transform/rss_ringoccs_fresnel_transform_newton_filon01.c", "src/fresnel_transform/rss_ringoccs_fresnel_transform_newton_filon11.c", "src/fresnel_transform/rss_ringoccs_fresnel_transform_newton_filon02.c", "src/fresnel_transform/rss_ringoccs_fresnel_transform_newton_filon12.c"]}
{"id": "C16", "title": "Results do not depend on the number of threads", "statement": "For a given input whose window widths all give the same window (no reuse of a stale window is visible), the reconstructed object is the same for every number of threads and every static schedule, in the quadratic Fresnel and in each Newton quadrature mode. (With slowly varying widths the result does depend on the number of threads: refutations.)", "quantifier": "all inputs, all partitions of the samples into contiguous per-thread chunks", "why_tests_cant": "Quantifies over schedules; the divergence needs a chunk boundary to fall inside a run of slowly varying widths.", "anchors": ["src/reconstruction/rss_ringoccs_diffraction_correction_fresnel.c", "src/reconstruction/rss_ringoccs_diffraction_correction_newton.c"]}
{"id": "C17", "title": "FFT-mode reconstruction only reads recorded data", "statement": "If all arrays are complete and a whole window of the middle sample, in samples, is recorded on both sides of the selection, the FFT mode reads and writes only valid elements, and writes to each selected sample the entry, read around the wrap, of the inverse transform of the product of the transforms of the tapered central kernel and of the recorded data, both padded with zeros to a common power of two; if memory suffices and the range check passes, no error is set. (The pre-checks only guarantee half a window: a reconstruction of valid data reads out of bounds.)", "quantifier": "all inputs accepted by the pre-checks", "why_tests_cant": "Modular index arithmetic with unsigned wrap-around.", "anchors": ["src/reconstruction/rss_ringoccs_diffraction_correction_simple_fft.c"]}
{"id": "C18", "title": "Piecewise quadratic quadratures are safe for every odd window size from three on", "statement": "The piecewise quadratic Filon quadratures stay within the window buffers and data for every odd number of window points from three on whose window fits in the data. (With a single point, which the driver can produce, they always read out of bounds: refutation.)", "quantifier": "all odd window sizes, all data", "why_tests_cant": "Unsigned wrap-around at exactly one size.", "anchors": ["src/fresnel_transform/rss_ringoccs_fresnel_transform_newton_filon02.c", "src/fresnel_transform/rss_ringoccs_fresnel_transform_newton_filon12.c", "src/reconstruction/rss_ringoccs_diffraction_correction_newton.c"]}
{"id": "C19", "title": "The FFT length is the least power of two not below the request", "statement": "The padding helper returns the least power of two that is at least its argument, for every argument not above 2^63, and never returns for larger arguments.", "quantifier": "all 64-bit sizes", "why_tests_cant": "2^64 inputs; termination depends on wrap-around.", "anchors": ["src/reconstruction/rss_ringoccs_diffraction_correction_simple_fft.c:next_pow_2"]}
{"id": "C20", "title": "Ingress data: what is reversed and what is not", "statement": "When the orientation check flips inward data, radius, azimuth, opening angle, distance, times, ring-plane positions and corrections are all reversed, the velocities are reversed and made positive, the spacing is made positive, and nothing else is touched. (The recorded profile, wave numbers and Fresnel scales are among what is not touched, so they no longer belong to the radius at their index: refutation.)", "quantifier": "all arrays of all lengths with decreasing radius", "why_tests_cant": "An array that is left out only matters for asymmetric data and real ingress input.", "anchors": ["src/tau/rss_ringoccs_tau_check_occ_type.c:rssringoccs_Tau_Check_Occ_Type"]}
{"id": "C21", "title": "Orientation check accepts exactly one-way occultations", "statement": "The orientation check accepts exactly when there are at least two samples and either the spacing is positive and the velocities are all positive or all negative, or the spacing is negative and the velocities are all negative; after acceptance spacing and velocities are positive; after rejection nothing but the error is changed.", "quantifier": "all velocity arrays and spacings", "why_tests_cant": "Statement about every element of arrays of any length.", "anchors": ["src/tau/rss_ringoccs_tau_check_occ_type.c:rssringoccs_Tau_Check_Occ_Type"]}
{"id": "C22", "title": "Finished arrays describe the same samples", "statement": "Finishing a processed object cuts radius, Fresnel scale, azimuth, wave number, velocity, opening angle, distance, width, times, corrections, longitude and the profiles to exactly n_used entries, entry i of each being input entry start+i, sets the array size to n_used, and leaves every other array as it was. (The ring-plane positions are among the arrays not cut, so they are misaligned afterwards: refutation.)", "quantifier": "all objects, all starts and lengths", "why_tests_cant": "A forgotten array is only visible when start > 0.", "anchors": ["src/tau/rss_ringoccs_tau_finish.c:rssringoccs_Tau_Finish"]}
{"id": "C23", "title": "Forward modelling leaves the inverse result intact", "statement": "Whenever the reconstruction with forward modelling succeeds, the reconstruction without it succeeds and gives the same reconstructed profile, input profile, selection and arrays (except, in the \"fresnelN\" modes, the signs of the wave numbers). (If forward modelling is impossible the inverse result is lost although the plain run would succeed; and in \"fresnelN\" modes wave numbers keep a flipped sign: refutations.)", "quantifier": "all inputs, all transforms", "why_tests_cant": "Save/restore discipline over all exits.", "anchors": ["src/reconstruction/rss_ringoccs_reconstruction.c:rssringoccs_Reconstruction"]}
{"id": "C24", "title": "Reconstruction either fails or returns equally long arrays", "statement": "The full reconstruction either sets the error flag or ends with the same number of samples, equal to the reported size, in each per-sample array it processes and in all profiles.", "quantifier": "all tau objects and settings", "why_tests_cant": "Whole-pipeline invariant.", "anchors": ["src/reconstruction/rss_ringoccs_reconstruction.c", "src/tau/rss_ringoccs_tau_finish.c"]}
{"id": "C25", "title": "Reconstruction is linear in the recorded signal", "statement": "With everything but the recorded profile fixed, if the full reconstruction returns for profiles T1 and T2 then for every superposition a T1 + b T2 it returns too, its reconstructed and forward-modelled profiles are the same superposition of the two results, and selection, arrays, size and error are the same (exact arithmetic; the quadrature and Fourier routines of the library are assumed linear).", "quantifier": "all complex profiles, all scalars, all window sizes, all geometries", "why_tests_cant": "Algebraic law over a vector space of unbounded dimension.", "anchors": ["src/fresnel_transform/rss_ringoccs_fresnel_transform.c", "src/fresnel_transform/rss_ringoccs_fresnel_transform_newton_riemann.c", "src/fresnel_transform/rss_ringoccs_fresnel_transform_newton4.c", "src/fresnel_transform/rss_ringoccs_fresnel_transform_newton8.c", "src/fresnel_transform/rss_ringoccs_fresnel_transform_newton16.c", "src/fresnel_transform/rss_ringoccs_fresnel_transform_legendre_odd_norm.c", "src/fresnel_transform/rss_ringoccs_fresnel_transform_normalized_even_polynomial.c"]}
{"id": "C26", "title": "Normalised quadratic Fresnel mode preserves free space", "statement": "With normalisation on, a constant input profile of modulus a is reconstructed with modulus a at each sample, inverse or forward (exact arithmetic, non-zero window sum). (Without normalisation it is not: refutation.)", "quantifier": "all constants, windows, half-widths and Fresnel scales", "why_tests_cant": "Holds for every window size and weight sequence.", "anchors": ["src/fresnel_transform/rss_ringoccs_fresnel_transform.c"]}
{"id": "C27", "title": "Normalised Newton quadratures preserve free space", "statement": "With normalisation on, a constant input profile of modulus a is reconstructed with modulus a at each sample by the Riemann, Filon01, Filon11, eight-point and Legendre modes; the elliptical, perturbed and sixteen-point modes do so with normalisation on or off (exact arithmetic, non-zero kernel sum). (The Filon02, Filon12 and four-point modes never normalise: refutation.)", "quantifier": "all constants, windows, phases, sizes", "why_tests_cant": "As C26.", "anchors": ["src/fresnel_transform/rss_ringoccs_fresnel_transform_newton_riemann.c", "src/fresnel_transform/rss_ringoccs_fresnel_transform_newton_filon01.c", "src/fresnel_transform/rss_ringoccs_fresnel_transform_newton4.c", "src/fresnel_transform/rss_ringoccs_fresnel_transform_newton8.c", "src/fresnel_transform/rss_ringoccs_fresnel_transform_newton16.c", "src/fresnel_transform/rss_ringoccs_fresnel_transform_elliptical_newton.c", "src/fresnel_transform/rss_ringoccs_fresnel_transform_perturbed_newton.c"]}
{"id": "C28", "title": "Forward modelling uses the conjugate kernel", "statement": "In every mode that evaluates the Fresnel kernel, the kernel of the forward model from radius a to radius b is the complex conjugate of the inverse kernel from b to a, in double as in exact arithmetic; the quadratic mode applied forward to the conjugate profile gives i times the conjugate of the inverse result. (The elliptical, perturbed, eight- and sixteen-point transforms ignore the forward setting and apply the inverse kernel: refutation.)", "quantifier": "all geometries and phases, all transforms", "why_tests_cant": "Per-transform sign conventions; a transform that ignores the flag still gives plausible output.", "anchors": ["src/fresnel_transform/rss_ringoccs_fresnel_kernel.c", "src/fresnel_transform/rss_ringoccs_fresnel_transform.c", "src/fresnel_transform/rss_ringoccs_fresnel_transform_newton_riemann.c", "src/fresnel_transform/rss_ringoccs_fresnel_transform_newton8.c", "src/fresnel_transform/rss_ringoccs_fresnel_transform_newton16.c"]}
{"id": "C29", "title": "Degree-4 phase interpolation is exact at its nodes", "statement": "The polynomial phase used by the four-point Newton mode takes the sampled phase values at the five nodes (-w/2, -w/4, 0, w/4, w/2), and equals every quartic it samples.", "quantifier": "all five-tuples of phase values, all quartics", "why_tests_cant": "Identity over all reals.", "anchors": ["src/fresnel_transform/rss_ringoccs_fresnel_transform_newton4.c:deg4_interp"]}
{"id": "C30", "title": "Degree-8 and degree-16 phase interpolation reproduces its nodes", "statement": "The polynomial phases used by the 8- and 16-point Newton modes vanish at the centre and take the sampled phase values at their nodes, up to 1e-21 and 4e-18 times the sum of the absolute sampled values (the decimal constants are truncated).", "quantifier": "all tuples of phase values", "why_tests_cant": "Identity in 8 or 16 real variables; one wrong digit in one of about 100 constants stays unnoticed.", "anchors": ["src/fresnel_transform/rss_ringoccs_fresnel_transform_newton8.c", "src/fresnel_transform/rss_ringoccs_fresnel_transform_newton16.c"]}
{"id": "C31", "title": "The Legendre phase is the documented truncated series for every order", "statement": "For every number N of coefficients the phase of the Legendre modes is k D times the sum of c_j x^(j+2) over all coefficients supplied, on both sides of the centre, for odd N and, with normalisation, for even N. (Without normalisation an even N from 4 on drops c_0 and c_1; and even and odd N take opposite signs of x on the same side: refutations.)", "quantifier": "all orders, coefficient arrays, offsets", "why_tests_cant": "Induction on the order; a wrong loop bound drops terms only from some order on.", "anchors": ["src/fresnel_transform/rss_ringoccs_fresnel_transform_legendre_odd.c", "src/fresnel_transform/rss_ringoccs_fresnel_transform_legendre_odd_norm.c", "src/fresnel_transform/rss_ringoccs_fresnel_transform_even_polynomial.c", "src/fresnel_transform/rss_ringoccs_fresnel_transform_normalized_even_polynomial.c"]}
{"id": "C32", "title": "The quadratic Fresnel mode is symmetric", "statement": "Reversing the recorded profile around the reconstruction point does not change the value the quadratic Fresnel mode returns, bit for bit.", "quantifier": "all profiles, window sizes", "why_tests_cant": "Law over all profiles.", "anchors": ["src/fresnel_transform/rss_ringoccs_fresnel_transform.c"]}
{"id": "C33", "title": "Window buffers are refreshed consistently", "statement": "After a window refresh for a sample the abscissae are the uniformly spaced offsets of that sample's window and the weights are the window function at those abscissae with that sample's width; buffers always hold as many entries as the reported point count.", "quantifier": "all widths, spacings, sizes, allocation outcomes", "why_tests_cant": "History of resizes of any length.", "anchors": ["src/tau/rss_ringoccs_tau_reset_window.c", "src/tau/rss_ringoccs_tau_resize_half_window.c", "src/tau/rss_ringoccs_tau_compute_window.c"]}
{"id": "C34", "title": "CSV rows and columns land where documented", "statement": "Reading a well-formed GEO/CAL/DLP/TAU/merged/Uranus table (each line has the required number of non-empty fields, fewer than 1024 characters and a final newline) succeeds, stores the value of field j of row i in entry i of the array documented for column j (angles of Uranus tables in radians converted to degrees), and reports the number of rows, which is the length of each array.", "quantifier": "all files in which each line has the required number of non-empty fields and less than 1023 characters and ends in a newline", "why_tests_cant": "All files of all lengths; a swapped column is only seen by comparing every column.", "anchors": ["src/csv_tools/rss_ringoccs_geo_csv_read_data.c", "src/csv_tools/rss_ringoccs_cal_csv_read_data.c", "src/csv_tools/rss_ringoccs_dlp_csv_read_data.c", "src/csv_tools/rss_ringoccs_tau_csv_read_data.c", "src/csv_tools/rss_ringoccs_merged_csv_data_read_data.c", "src/csv_tools/rss_ringoccs_uranus_dlp_csv_read_data.c"]}
{"id": "C35", "title": "Exactly which files are read without undefined behaviour", "statement": "With memory available, extracting from a non-empty file returns if and only if the first line has the wrong number of columns, or no line is counted, or every line has at least the required number of fields and there are no more lines than were counted (as many, for Uranus tables in radians); in the last case entry i of each array holds the value of the corresponding field of line i. (For all other files, for example a table with one short row, the behaviour is undefined: refutation.)", "quantifier": "all byte strings as file contents", "why_tests_cant": "Unbounded input language, adversarial content.", "anchors": ["src/csv_tools/rss_ringoccs_geo_csv_read_data.c", "src/csv_tools/rss_ringoccs_cal_csv_read_data.c", "src/csv_tools/rss_ringoccs_dlp_csv_read_data.c", "src/csv_tools/rss_ringoccs_tau_csv_read_data.c"]}
{"id": "C36", "title": "A wrong number of columns is reported before any row is read", "statement": "If the first line does not have the number of columns required by the selected format, the extractor sets the error flag, allocates no arrays and reads no row.", "quantifier": "all files, both format flags, all six table kinds", "why_tests_cant": "All files.", "anchors": ["src/csv_tools/rss_ringoccs_geo_csv_check_column_count.c", "src/csv_tools/rss_ringoccs_dlp_csv_check_column_count.c", "src/csv_tools/rss_ringoccs_tau_csv_check_column_count.c", "src/csv_tools/rss_ringoccs_cal_csv_check_column_count.c", "src/csv_tools/rss_ringoccs_merged_csv_data_check_column_count.c", "src/csv_tools/rss_ringoccs_uranus_dlp_csv_check_column_count.c"]}
{"id": "C37", "title": "Angles of Uranus tables are converted exactly once", "statement": "With dlp_in_radians set, the four angle columns are multiplied by the constant 180/pi (exact to 1e-12) exactly once and all other columns are stored as read; without it nothing is converted; afterwards the object is marked as being in degrees.", "quantifier": "all tables, both flag values", "why_tests_cant": "All rows; idempotence of the flag.", "anchors": ["src/csv_tools/rss_ringoccs_uranus_dlp_csv_read_data.c"]}
{"id": "C38", "title": "Merged tables: the header is optional", "statement": "A merged table with or without a header line beginning with B gives the same rows and count. (The three TAU arrays of the object are allocated but never written, whatever the table: refutation.)", "quantifier": "all merged tables", "why_tests_cant": "Statement about all arrays and rows.", "anchors": ["src/csv_tools/rss_ringoccs_merged_csv_data_read_data.c", "src/csv_tools/rss_ringoccs_merged_csv_data_malloc.c"]}
{"id": "C39", "title": "CSV extraction frees everything exactly once under any allocation failure", "statement": "For every file and every pattern of allocation failures, extracting a single table never uses or frees released memory, closes the file, and a following destruction frees everything that was allocated, exactly once. The same holds for the combined Cassini and Uranus extractions, with any files and any failures except those of the TAU object and of the members allocated after the DLP columns have been taken over. (In these two cases blocks are leaked, or freed twice: refutations.)", "quantifier": "all success/failure sequences of the allocator, all combinations of file errors", "why_tests_cant": "Exponentially many failure patterns.", "anchors": ["src/csv_tools/rss_ringoccs_csv_data_extract.c", "src/csv_tools/rss_ringoccs_csv_data_steal_dlp_data.c", "src/csv_tools/rss_ringoccs_csv_data_malloc.c", "src/csv_tools/rss_ringoccs_csv_data_destroy_members.c"]}
{"id": "C40", "title": "Combined extraction reports unusable files", "statement": "If any of the input files of a combined Cassini extraction cannot be opened, has the wrong number of columns or no line, and the others are well-formed, the call returns an object with the error flag set. (A Uranus extraction always dereferences a null pointer in this situation: refutation.)", "quantifier": "all combinations of file errors", "why_tests_cant": "Error path combinations.", "anchors": ["src/csv_tools/rss_ringoccs_uranus_csv_data_extract.c"]}
{"id": "C41", "title": "Exactly chord occultations are rejected", "statement": "Extraction from well-formed tables rejects data with radial velocities of both signs or zero; if the geometry has a sample in the direction of the data, the error is set exactly for such chords. (Otherwise the search for the first geometry sample of matching direction always reads past the geometry arrays: refutation.)", "quantifier": "all DLP and GEO tables", "why_tests_cant": "Loop termination condition over arbitrary data.", "anchors": ["src/csv_tools/rss_ringoccs_csv_data_check_chord_occ.c", "src/csv_tools/rss_ringoccs_csv_data_reverse_geo_variables.c"]}
{"id": "C42", "title": "Interpolated columns are aligned with the DLP samples", "statement": "After successful extraction each exposed array has n_elements entries, one per DLP sample: the DLP columns as read; sky frequency entry i is the interpolation of (predicted minus fitted residual) at the observed event time of DLP sample i; geometry entry i is the interpolation, at the radius of DLP sample i, of the matching geometry column, reversed exactly for ingress, from the first sample in the direction of the data on; TAU entry i likewise at the radius of DLP sample i.", "quantifier": "all tables", "why_tests_cant": "All lengths.", "anchors": ["src/csv_tools/rss_ringoccs_csv_data_interpolate_cal.c", "src/csv_tools/rss_ringoccs_csv_data_interpolate_geo.c", "src/csv_tools/rss_ringoccs_csv_data_interpolate_tau.c"]}
{"id": "C43", "title": "Normalised power of legacy tables follows from optical depth", "statement": "For legacy DLP/TAU tables, the exposed power of sample i is exp(-tau[i]/sin|B[i]|), which is exp(-tau[i]/|sin B[i]|) for opening angles of at most a half turn.", "quantifier": "all rows", "why_tests_cant": "All rows.", "anchors": ["src/csv_tools/rss_ringoccs_csv_data_steal_dlp_data.c", "src/csv_tools/rss_ringoccs_csv_data_interpolate_tau.c"]}
{"id": "C44", "title": "Creating a tau object copies the data faithfully", "statement": "rssringoccs_Tau_Create_From_DLP on usable input (no error, at least two samples, positive resolution) gives an object whose fourteen geometry, time and position arrays equal the input arrays entry by entry, whose complex profile has squared modulus equal to the normalised power and argument minus the phase, whose wave numbers and Fresnel scales are the physical functions of the sky frequency and the geometry of the same sample, whose spacing is the difference of the first two radii, and whose parameters are the documented defaults; it is free of errors exactly if the geometry is usable (C02). Null or failed input, at most one sample, or a non-positive resolution gives an object with the error flag set and no arrays.", "quantifier": "all DLP objects", "why_tests_cant": "All lengths and field contents.", "anchors": ["src/tau/rss_ringoccs_tau_create_from_dlp.c", "src/tau/rss_ringoccs_tau_copy_dlp_data.c", "src/tau/rss_ringoccs_tau_copy_dlp_members.c", "src/tau/rss_ringoccs_tau_compute_data_from_dlp_members.c"]}
{"id": "C45", "title": "Allocation failure while creating a tau object is contained", "statement": "For every pattern of allocation failures while a tau object is created, the call returns: NULL exactly if the object itself cannot be allocated (nothing is then allocated), and otherwise an object whose destruction frees each allocated block exactly once, with the error flag set if any array could not be allocated.", "quantifier": "all allocator outcome sequences", "why_tests_cant": "Exponentially many failure patterns.", "anchors": ["src/tau/rss_ringoccs_tau_malloc_members.c", "src/tau/rss_ringoccs_tau_init.c", "src/tau/rss_ringoccs_tau_destroy.c", "src/tau/rss_ringoccs_tau_destroy_members.c"]}
{"id": "C46", "title": "Destroying CSV objects through a handle is idempotent", "statement": "After destroying a CSV table or combined CSV object through its handle the handle is null, so destroying it any number of further times does nothing. (The handle of a tau object keeps its value, and destroying any created tau object a second time uses freed memory: refutation.)", "quantifier": "all objects, any number of repeated calls", "why_tests_cant": "Histories of repeated calls.", "anchors": ["src/tau/rss_ringoccs_tau_destroy.c", "src/csv_tools/rss_ringoccs_csv_data_destroy.c", "src/csv_tools/rss_ringoccs_geo_csv_destroy.c", "src/csv_tools/rss_ringoccs_cal_csv_destroy.c"]}
{"id": "C47", "title": "Date to revolution lookup is a correct partial inverse of the tables", "statement": "For every year and day the lookup returns without error: a revolution that has an occultation on exactly that date, or null if and only if no revolution has; for every date but day 135 of 2017 the revolution is unique, so the result is that of every event of the day. (On that day two revolutions have events and only the first is found: refutation.)", "quantifier": "all pairs of unsigned years and days", "why_tests_cant": "2^64 pairs.", "anchors": ["src/history/rss_ringoccs_date_to_rev.c"]}
{"id": "C48", "title": "History printing stays in bounds", "statement": "Printing a history whose two tables have the documented form (at most eight name/value pairs, then a null pointer) writes the seven descriptive lines and every pair of both tables, in order, and reads nothing past the null; the history written for a geometry file has this form. (A table filled without terminator is read out of bounds: refutation.)", "quantifier": "all fill levels of the tables", "why_tests_cant": "Boundary when the table is full.", "anchors": ["src/history/rss_ringoccs_history_print.c"]}
{"id": "C49", "title": "Straight-edge models are step functions", "statement": "On increasing finite radii with a finite edge different from the last radius, the right-edge model sets the input profile to zero left of the edge and to the opacity from the edge on, at each sample, and changes nothing else; the left-edge model sets the mirrored step and then, if the edge is inside the data, hands exactly that profile to the diffraction step. (An edge at the last radius is treated differently from an edge at any other sample; decreasing radii give no step; for an edge outside the data no diffraction is computed and the output profile stays uninitialised: refutations.)", "quantifier": "all radius arrays, edges, opacities", "why_tests_cant": "All lengths.", "anchors": ["src/model/rss_ringoccs_tau_model_left_straightedge.c", "src/model/rss_ringoccs_tau_model_right_straightedge.c"]}
{"id": "C50", "title": "Each model function accepts the model type it implements", "statement": "The left- and right-edge routines refuse null parameters and every other model type with an error and unchanged data. (The sine-wave routine refuses its own type, and runs when asked for a left edge: refutation.)", "quantifier": "all model types", "why_tests_cant": "Cheap to state, never covered.", "anchors": ["src/model/rss_ringoccs_tau_model_sine_wave.c"]}
{"id": "C51", "title": "Interpolated Newton modes only touch memory they own", "statement": "If all arrays are complete, every window of the selection fits in the data and has at least one point per side, each interpolated Newton mode reads and writes only valid elements, returns and gives each selected sample the value of that mode's transform with a window whose width differs from the sample's own by less than two spacings; with memory available and the range check passed it returns no error.", "quantifier": "all data, sizes, selections, methods newton4/8/16", "why_tests_cant": "Memory errors depend on every width and index.", "anchors": ["src/reconstruction/rss_ringoccs_diffraction_correction_polynomial_newton.c:rssringoccs_Diffraction_Correction_Newton_Interp"]}
{"id": "C52", "title": "The \"fresnelN\" modes only touch memory they own", "statement": "If all arrays are complete, the stored order is at least two and the coefficient routine returns that many coefficients, every window of the selection fits in the data and has at least one point per side, each \"fresnelN\" mode reads and writes only valid elements, returns and gives each selected sample the value of that mode's transform with a window whose width differs from the sample's own by less than two spacings; in forward mode exactly the wave numbers up to the number of selected samples are negated, otherwise nothing but the profile changes; with memory available and the range check passed it returns no error.", "quantifier": "all data, sizes, selections, orders", "why_tests_cant": "Memory errors depend on every width, order and index.", "anchors": ["src/reconstruction/rss_ringoccs_diffraction_correction_legendre.c"]}
{"id": "C53", "title": "Each transform computes its documented sum", "statement": "In exact arithmetic each transform returns the window-weighted sum of the recorded samples with the kernel exp(-i psi) at each sample of the window (the Riemann mode leaves out the last one), or the sum of the quadrature rule over consecutive samples, times its stated factor: normalised by the modulus of the sum of the weights, or the spacing, or the spacing over the Fresnel scale. The phase at a sample uses the spacecraft position, the azimuth and the radius recorded for that sample, the radius of the centre and the wave number of the sample (of the centre at the nodes of the interpolations and in the elliptical and perturbed modes); in the forward direction the roles are exchanged.", "quantifier": "all data, windows, geometries, sizes", "why_tests_cant": "Equality of two formulas over all sizes and real inputs.", "anchors": ["src/fresnel_transform/rss_ringoccs_fresnel_transform.c", "src/fresnel_transform/rss_ringoccs_fresnel_transform_newton_riemann.c", "src/fresnel_transform/rss_ringoccs_fresnel_transform_newton8.c"]}
{"id": "C54", "title": "Well-posed reconstructions succeed and return the requested samples", "statement": "Take an object without error holding all its data, valid keywords, radii increasing by the same step of at least a millimetre, velocities of one sign, no forward model, at least two samples in the requested range, and for each of them a finite window width (with the Allan-deviation correction, as in C11: the resolution attainable at each of them) such that the data extend half the largest width and one sample beyond on both sides (and for the chosen method: windows at least two samples wide where it needs panels or interpolation, for the quadratic method a last window no wider than another one). With memory available the reconstruction then returns without error for any number of threads; the samples kept are exactly those of the requested range without the last one; every array is the matching piece of the input (velocities made positive, widths as in C11); and each output sample is the value the chosen method defines on the input data.", "quantifier": "all well-posed objects and methods except simple FFT, all sizes, all thread schedules", "why_tests_cant": "Composition of six stages over every input: selection, checks, windows, threads, transform and trimming.", "anchors": ["src/reconstruction/rss_ringoccs_reconstruction.c", "src/tau/rss_ringoccs_tau_get_window_width.c", "src/tau/rss_ringoccs_tau_finish.c"]}
{"id": "C55", "title": "The Python class takes over exactly complete DLP objects", "statement": "A DLP object passed from Python is converted without error if and only if its eighteen documented attributes are one-dimensional numeric arrays of the same length; the C object then has exactly these arrays. If the first attribute in reading order that is not so is missing or of another length (or the radii are missing or not an array), the C object carries an error. (If that attribute is something other than a numeric array, such as a list, the module writes through a null pointer: refutation.)", "quantifier": "all Python objects, all attribute values and lengths", "why_tests_cant": "Every attribute can fail in several ways, in every position of the reading order.", "anchors": ["rss_ringoccs/crssringoccs/auxiliary/crssringoccs_extract_data.c", "rss_ringoccs/crssringoccs/auxiliary/crssringoccs_py_dlp_to_c_dlp.c"]}
{"id": "C56", "title": "Ranges and perturbations from Python are understood exactly", "statement": "A range given from Python sets the limits if it is a string or bytes that spells a documented name, or a list of exactly two numbers, to the documented limits or those numbers; any other value sets the error flag. Perturbation coefficients likewise must be a list of exactly five numbers, or be left out (zeros). Nothing else in the object changes. (An integer too large for a double is silently replaced by -1 while a Python exception stays pending: refutation.)", "quantifier": "all Python values, all objects without error", "why_tests_cant": "The argument space is all Python values.", "anchors": ["rss_ringoccs/crssringoccs/diffraction_correction/crssringoccs_get_py_range.c", "rss_ringoccs/crssringoccs/diffraction_correction/crssringoccs_get_py_perturbation.c"]}
{"id": "C57", "title": "The Python class returns the reconstruction it was asked for, or raises", "statement": "If DiffractionCorrection(dlp, resolution, ...) gives an instance, the DLP object was complete, every option was valid, the object reconstructed had the data of the DLP object, the resolution times the resolution factor and each option as passed or its default, its reconstruction succeeded, and the arrays and arguments shown are those of the result. If the DLP object is complete but its geometry is unusable, or any option is invalid, or the reconstruction fails, the call raises. A well-posed request (C54) gives an instance with exactly the requested samples and the values of the chosen method. (A call without dlp reads an uninitialised pointer, a DLP object without history crashes the interpreter, and the three position arrays show the first samples of the input instead of the reconstructed ones: refutations.)", "quantifier": "all argument combinations, DLP objects, libraries, thread schedules", "why_tests_cant": "Combinations of twelve optional arguments with every data set.", "anchors": ["rss_ringoccs/crssringoccs/diffraction_correction/crssringoccs_diffraction_correction_init.c", "rss_ringoccs/crssringoccs/auxiliary/crssringoccs_c_tau_to_py_tau.c"]}
{"id": "C58", "title": "The Python CSV classes show the files, aligned, or raise", "statement": "ExtractCSVData and GetUranusData, given well-formed files of an ingress or egress occultation whose geometry has a sample in the direction of the data, make an instance with one entry per DLP sample in each array: the documented attribute names show the DLP columns, the interpolated geometry, sky frequency and TAU values (C42), and None for the three TAU attributes if no TAU file is given. GetMergedCSVData shows the nineteen columns of its file without a header row. A chord occultation makes both constructors raise, an unusable file makes ExtractCSVData and GetMergedCSVData raise. Any such instance is a complete DLP object for DiffractionCorrection. (GetUranusData crashes on an unusable file, and three arrays of GetMergedCSVData instances are never written: refutations.)", "quantifier": "all files, flags and library behaviours", "why_tests_cant": "The input space is all combinations of up to four files.", "anchors": ["rss_ringoccs/crssringoccs/extract_csv_data/crssringoccs_extract_csv_data_init.c", "rss_ringoccs/crssringoccs/extract_csv_data/crssringoccs_extract_csv_data_steal.c", "rss_ringoccs/crssringoccs/get_uranus_data/crssringoccs_get_uranus_data_init.c", "rss_ringoccs/crssringoccs/get_merged_csv_data/crssringoccs_get_merged_csv_data_init.c", "rss_ringoccs/crssringoccs/py_csv_obj/crssringoccs_py_csv_obj_members.c"]}
{"id": "C59", "title": "The Python CSV classes neither free twice nor leave files open", "statement": "For any arguments and files, and any allocation failures except those excluded in C39, constructing ExtractCSVData, GetUranusData or GetMergedCSVData on a new instance never uses or frees released memory and closes all files; if it raises, no memory stays allocated; if it succeeds, destroying the instance frees every array exactly once, and exactly one block stays allocated. (That block, the C struct, is leaked by every successful construction, and a second call of __init__ leaks all arrays of the first: refutations.)", "quantifier": "all files, arguments, prior heaps and patterns of allocation failures", "why_tests_cant": "Every allocation can fail independently.", "anchors": ["rss_ringoccs/crssringoccs/extract_csv_data/crssringoccs_extract_csv_data_init.c", "rss_ringoccs/crssringoccs/py_csv_obj/crssringoccs_py_csv_obj_destroy.c", "rss_ringoccs/crssringoccs/common/crssringoccs_set_var.c"]}
{"id": "C60", "title": "The FFT mode computes the convolution with the central kernel", "statement": "In exact arithmetic, with transforms that are discrete Fourier transforms, evenly spaced radii, complete arrays and a whole window of the middle sample recorded on both sides of the selection, the FFT mode writes to every selected sample i the sum over all displacements d within the window of the data at i - d times the tapered kernel of displacement d computed at the middle sample: no wrap-around term and no padding contributes. If the kernel depends on the displacement only, this is the sum with the sample's own kernel. (The mode ignores the request for window normalisation: a refutation.)", "quantifier": "all data, geometries, selections, windows and array lengths", "why_tests_cant": "Circular wrap-around errors depend on the relation between window, selection and padded length.", "anchors": ["src/reconstruction/rss_ringoccs_diffraction_correction_simple_fft.c"]}
{"id": "C61", "title": "Free space keeps its intensity through a whole diffraction correction", "statement": "In exact arithmetic, take an object without error that holds all its data, with evenly spaced radii, a selection whose windows lie within the data, memory available and normalisation requested. If all recorded samples are the same complex number z (nothing was in the way of the signal), the diffraction correction with the quadratic, series, Newton (Riemann, linear Filon, elliptical, perturbed) or interpolated (8 and 16 points) method returns without error, for any number of threads, and every selected sample of the result has the modulus of z: the power of free space is 1 after correction if it was 1 before. Needed besides: the sum of window times kernel, by which the method divides, is not zero (and the needs of the mode, as in C54). (The FFT mode does not normalise: see the refutation of C60.)", "quantifier": "all data lengths, selections, windows, geometries, methods and thread schedules", "why_tests_cant": "The normalisation involves every window of every sample and the reuse of windows within a thread.", "anchors": ["src/reconstruction/rss_ringoccs_diffraction_correction.c", "src/reconstruction/rss_ringoccs_diffraction_correction_fresnel.c", "src/reconstruction/rss_ringoccs_diffraction_correction_newton.c", "src/reconstruction/rss_ringoccs_diffraction_correction_legendre.c", "src/reconstruction/rss_ringoccs_diffraction_correction_polynomial_newton.c"]}
{"id": "C62", "title": "Elevation and ring opening angles are heights above the right planes", "statement": "In exact arithmetic and with a SPICE toolkit whose angle function is the angle between two vectors: the elevation of a target is the angle, from -90 to 90 degrees, of the direction from the station to the target above the plane whose normal points from the centre of the Earth to the station; the ring opening angle is that of the direction from the spacecraft to the station above the plane of the given pole, and the opposite pole gives the opposite angle. (If the toolkit has no ephemeris, a vector that was never written is used: refutation.)", "quantifier": "all times, targets, stations, frames, poles and ephemerides with non-zero vectors", "why_tests_cant": "Signs and conventions (which body is target, which observer, complement of the angle) agree on many symmetric configurations.", "anchors": ["src/occultation_geometry/rss_ringoccs_elevation_angle_deg.c", "src/occultation_geometry/rss_ringoccs_opening_angle_deg.c"]}
{"id": "C63", "title": "A reconstruction and the object it works on share no memory problem", "statement": "With every allocation, free and pointer in view: a reconstruction of an object that owns its arrays never uses or frees released memory, has the same outcome as without that bookkeeping, and afterwards the object again owns exactly the arrays it points to, all different, while all other memory is untouched. Creating, reconstructing and destroying an object returns all memory, except exactly these blocks: one if the window does not fit on the left, two if it does not fit on the right, one if the forward model has too little data (and one for each search if the search routine allocates the size separately). A DiffractionCorrection call that raises because the data cannot be converted returns all memory; one that raises later leaves one block and those lost by the reconstruction; a successful one leaves, after the destruction of its instance, one block (the wave numbers) and those. (So failed reconstructions and all Python calls that reach the reconstruction leak: refutations.)", "quantifier": "all objects, data, heaps, thread schedules, patterns of allocation failure and search routines", "why_tests_cant": "Ownership must hold on every path through every early return.", "anchors": ["src/reconstruction/rss_ringoccs_reconstruction.c", "src/tau/rss_ringoccs_tau_get_window_width.c", "src/tau/rss_ringoccs_tau_finish.c", "src/tau/rss_ringoccs_tau_destroy_members.c", "rss_ringoccs/crssringoccs/diffraction_correction/crssringoccs_diffraction_correction_init.c", "rss_ringoccs/crssringoccs/diffraction_correction/crssringoccs_diffraction_correction_destroy.c"]}
{"id": "C64", "title": "The files that the package writes are files it can read", "statement": "In exact arithmetic, for GEO, CAL, DLP and TAU files of one-way observations with any number of samples of ordinary size: the Python writer produces a file, the C reader of that kind of file accepts it and finds one row for each sample, and each column that it stores under a name is the quantity of that name: as given, converted to degrees, or (optical depth) -|sin B| ln(power), (power) the squared modulus of the reconstructed profile, (phase) minus its argument; exact to half a unit of the sixth decimal, or to one part in a million for power, optical depth and threshold. Power and phase of a TAU file give the profile back with the convention with which profiles are made from data (C44), optical depth and opening angle give the power back with the formula for legacy files (C43), and the difference of the frequency columns of a CAL file is the reconstructed sky frequency without the fitted offset. (For two-way observations the GEO and DLP files are written with five more columns and no reader accepts them, and writing the TAU file always raises: refutations.)", "quantifier": "all instances, numbers of samples and values", "why_tests_cant": "Writer and reader are in different languages and share no definition of the file; a column or unit mismatch shows only when both are run on the same data.", "anchors": ["rss_ringoccs/tools/pds3_geo_series.py", "rss_ringoccs/tools/pds3_uranus_geo_series.py", "rss_ringoccs/tools/pds3_cal_series.py", "rss_ringoccs/tools/pds3_dlp_series.py", "rss_ringoccs/tools/pds3_tau_series.py", "src/csv_tools/rss_ringoccs_dlp_csv_extract.c", "src/csv_tools/rss_ringoccs_geo_csv_extract.c"]}
{"id": "C65", "title": "The labels describe the files they are written for", "statement": "In exact arithmetic, for the GEO, CAL, DLP and TAU files that the package writes (GEO and DLP also of two-way observations), if every value fits in its column: the PDS3 label states the true number of records and the true length of each, and for each column the byte at which it starts, its width and its format; the bytes there are a number in that format for the quantity that the name of the column stands for, followed by a comma or by the end of the record. There is a label exactly if the first step of the samples equals the last up to a thousandth. The label also states the least and largest sample, the first step, the least and largest radius, longitude, azimuth and elevation, and the time of day of the first and last sample in whole seconds. (A value too wide for its column makes the file longer than stated; uneven steps leave a data file without label, although the code announces a warning only; times after midnight have hours from 24 on; and with rounding a whole minute can show as the second before: refutations.)", "quantifier": "all instances, numbers of samples and values", "why_tests_cant": "Data and label are produced by different code with separate lists of widths, names and formats; a mismatch shows only in a file read by its label.", "anchors": ["rss_ringoccs/tools/pds3_write_series_v2.py", "rss_ringoccs/tools/pds3_geo_series.py", "rss_ringoccs/tools/pds3_cal_series.py", "rss_ringoccs/tools/pds3_dlp_series.py", "rss_ringoccs/tools/pds3_tau_series.py"]}
{"id": "C66", "title": "Calls that change the radii of the planet in the kernel pool", "statement": "The functions that compute ring intercepts and planetary occultation times replace the radii of the planet in the kernel pool, which is global. For all histories of calls: a call of get_planet_occ_times returns, in order, exactly the given times at which the planet, with the height added to the radii found in the pool, hides the spacecraft; it leaves the enlarged radii in the pool, so that the k-th of a sequence of calls works with the sum of the first k heights. The ring intercepts are those of a flat ellipsoid, one for each time in the order of the times; they do not depend on the radii in the pool, and the pool is as before when the call returns. A Geometry instance reloads the kernels and so does not depend on what happened before. (In a Geometry instance the times reported for the atmosphere of 500 km are therefore those for 5500 km, and contain every time reported for the ionosphere of 5000 km; and a sample without ring intercept leaves a flat planet in the pool: refutations.)", "quantifier": "all pools, kernels, histories of calls, times and SPICE results", "why_tests_cant": "The effect of a call depends on the calls before it in the same process; a test of one call sees nothing.", "anchors": ["rss_ringoccs/occgeo/calc_occ_geometry.py: get_planet_occ_times, calc_rho_vec_km, calc_uplink_geo", "rss_ringoccs/occgeo/occgeo.py: Geometry.__init__"]}
{"id": "C67", "title": "Seconds past midnight and ephemeris times", "statement": "In exact arithmetic and between two leap seconds: the date and time of day that spm_to_et makes from a year, a day and seconds past midnight exist in the Gregorian calendar and name the instant that many seconds after that midnight, also on following days and over one New Year (a day or a year of zero, and nothing else, ends the process); et_to_spm counts times of one day, given in order, from the midnight of that day or of an earlier reference day of the same year; on such times the two are inverse to each other. From one element to the next et_to_spm counts the time that passed, except over midnight. (Over midnight it counts less, by the part of the day that was left at the last sample, so that every later element is too small; a reference day of the old year is refused after New Year; 2100 is taken for a leap year; times before midnight get negative seconds; and the default kernel path raises: refutations.)", "quantifier": "all years, days, numbers of seconds and sequences of times", "why_tests_cant": "Midnight, New Year and leap years occur in few observations; the samples of a test are on one day.", "anchors": ["rss_ringoccs/tools/spm_to_et.py", "rss_ringoccs/tools/et_to_spm.py"]}
{"id": "C68", "title": "The direction of an occultation and the parts of a chord", "statement": "In exact arithmetic: a profile whose radius only falls is reported as ingress, one whose radius only rises as egress, in both cases with all samples. For a chord (radius first falling, then rising) whose sample after the lowest is higher than the one before the lowest, and at most 170000 km, the direction is both, and the two parts are exactly the falling and the rising samples at times that are not blocked by the atmosphere, in their order; if the blocked times cover one part, the other direction is reported with exactly the samples that are not blocked. The split is one sample after the lowest, or two if the sample after the lowest is below the one before. (In the second case one rising sample is counted to the falling part; if the two are equal, or in the second case no sample follows, or in the first case the sample after the lowest is above 170000 km, an exception is raised; and blocked times past midnight are not recognised because of C67: refutations.)", "quantifier": "all profiles, numbers of samples, steps and sets of blocked times", "why_tests_cant": "The place of the split depends on the positions of the samples around the lowest one; a recorded chord shows one of the cases.", "anchors": ["rss_ringoccs/occgeo/occgeo.py: Geometry.get_profile_dir, verify_chord, get_chord_ind", "rss_ringoccs/occgeo/calc_occ_geometry.py: calc_rip_velocity, split_chord_arr, remove_blocked"]}
{"id": "C69", "title": "Free-space regions in radius and in time", "statement": "In exact arithmetic: the radius given to the elliptic edge of a gap lies between the periapse and the apoapse of the edge, equals the radius of a circular edge, and is the radius of the precessing ellipse at the sample nearest to a radius that differs by at most the tolerance, unless all passes of the iteration are used (if two samples are equally near, at the mean of their longitudes from periapse). With the table of gaps of the package the free-space regions in radius are exactly the gaps strictly between the least and the largest recorded radius, the part below 72000 km, and the three regions outside the rings that are covered wholly; each has its lower radius first, both ends go up through the list, and none leaves the recorded radii. For a profile in one direction, and for a chord split at its lowest sample, the regions in time are in the order of time and each contains exactly the unblocked samples whose radius is in the region in radius it belongs to. With fewer than two unblocked samples an exception is raised.", "quantifier": "all profiles with times in order, sets of blocked times, longitudes and precession times", "why_tests_cant": "The regions are found by iteration and interpolation on the samples of the observation; order and direction differ between ingress, egress and chord.", "anchors": ["rss_ringoccs/occgeo/calc_occ_geometry.py: get_freespace, get_freespace_km, find_gaps, rad_converge", "tables/gap_orbital_elements.txt"]}
{"id": "C70", "title": "Frames and angles of an occultation", "statement": "In exact arithmetic, for a pole that is a unit vector not along the third axis of the frame, and directions not along the pole: the ring longitude is the angle from 0 to 360 degrees, counterclockwise about the pole, from the ascending node of the ring plane to the ring intercept point, and the observed ring azimuth that from the projected line of sight to it; the opening angle and the elevation are heights, from -90 to 90 degrees, of the line of sight above the ring plane and of the target above the horizon; the pole points to the right ascension and declination that the polynomials of the kernel give for the time in Julian centuries; the state of the spacecraft is given with lengths unchanged, its third component along the pole and its first along the projected line of sight in J2000; the impact radius of each sample is the distance of the centre of the planet from the line through the spacecraft to the station (years before 2016). The square of the Fresnel scale times the squared sine of the opening angle is lambda D (1 - cos^2 B sin^2 phi) / 2, equivalently the scale times the sine of the effective opening angle is the root of lambda D / 2; the enhancement factor is its cotangent. (The effective opening angle is in radians, not degrees as named; a pole along the third axis is refused; from 2016 on, if samples are removed, impact radii are computed from the positions of other samples; and in another frame than J2000 the first axis is not along the line of sight: refutations.)", "quantifier": "all ephemerides, poles, times, positions, frequencies and angles", "why_tests_cant": "Conventions of rotation matrices and signs agree on symmetric configurations; the misalignment occurs only when samples are removed.", "anchors": ["rss_ringoccs/occgeo/calc_occ_geometry.py: calc_phi_deg, calc_B_deg, calc_elevation_deg, calc_sc_state, xform_j2k_to_pcf, calc_impact_radius_km, calc_F_km, calc_B_eff_deg, calc_beta, get_pole", "rss_ringoccs/occgeo/occgeo.py: Geometry.__init__"]}
{"id": "C71", "title": "The resampled signal belongs to the radii returned with it", "statement": "In exact arithmetic, for radii in ascending order that extend over more than half a kilometre and one spacing: resampling returns, for each component of the signal, one value for each radius; the radii are equally spaced from a first radius that is an integer plus a multiple of the desired spacing and lies at or shortly after the begin of the data. The spacing is the desired one to the metre if the mean spacing of the data is not larger, else the next multiple of 25 m not below the mean spacing. For a desired spacing of whole metres all radii lie within the data, end less than one and a half spacings before the end of the data, and a signal that is a linear function of the radius is returned as this function of the radii, except at the first and last ten. Samples in the order of an ingress give the same result as in the reverse order. (For other spacings the radii drift from the positions of the samples in proportion to the number of the sample; the first and last samples are attenuated by about a half; and data shorter than a kilometre may be extrapolated: refutations.)", "quantifier": "all strictly monotone radii, signals, positive spacings and symmetric filters with unit gain", "why_tests_cant": "The error grows with the number of samples and is zero for the usual spacings; tests use a handful of spacings.", "anchors": ["rss_ringoccs/calibration/resample_IQ.py: resample_IQ, pre_resample", "rss_ringoccs/calibration/dlp_class.py: DiffractionLimitedProfile.__init__"]}
{"id": "C72", "title": "Every sample of a diffraction-limited profile belongs together", "statement": "In exact arithmetic, for times in order, radii in one direction and at least two samples of geometry and calibration: in every profile returned, the radial velocity does not change sign, and each sample lies between two neighbouring samples of the geometry, the same part of the way in radius, time, velocity, opening angle and all other columns; its power is the squared magnitude of the resampled signal at its radius over the free-space power of the calibration there, and is not negative; its phase is that of the signal; its power is exp(-tau / sin B) of its optical depth and opening angle; its frequency and threshold are those of the calibration at its time. The threshold is the optical depth at which free space is reduced to the noise in the band of one resolution, and is positive exactly if free space is above this noise. The radii are one piece of the resampled ones that contains every radius in the requested range and at most half a spacing more; a range with no radius strictly inside is refused. Only raw samples within the times of the geometry are used: all if none lies outside, else those from the first time on to before the last. If the velocity has both signs, the samples of the other direction are removed, and only those. A chord is split at the first change of sign of the velocity into the samples earlier than a second before it and those from a second after it on, in geometry, raw data and calibration alike, each an ingress if its radii begin by falling and else an egress. (With a negative opening angle a signal weaker than free space has a negative optical depth: refutation.)", "quantifier": "all geometries, raw data, calibrations, noise levels, ranges, spacings, splines and filters", "why_tests_cant": "The columns come from different interpolations, in time and in radius, over different tables; that they agree is a fact about all tables.", "anchors": ["rss_ringoccs/calibration/dlp_class.py: DiffractionLimitedProfile.__init__, create_dlps", "rss_ringoccs/calibration/calc_tau_thresh.py: calc_tau_thresh"]}
{"id": "C73", "title": "A raw data file is read sample by sample", "statement": "For every file of 16-bit samples at 1, 16 or 50 thousand samples in a second, of any number of records of equal length and any part of a record after them: the reader returns every sample of the complete records in the order of the file, the real part being the second word of each pair and the imaginary part the first, as signed numbers, or twice the number plus one if the bias is corrected (for numbers other than -32768); the times begin at the time of the first header and advance by one over the rate. With a decimation the signal is the decimated one by the least factor switched on for that rate, and each sample has the time of the raw sample it stands for. The date is that of the header, or of the record if the header has none, and the station that of the header. For records of one second beginning with a second, and times inside the file, the predicted frequency of each time is the one of the polynomial of the record of its second at the part of that second, if the least time is not in the last half of a sample of its second. Files with another rate are refused with an exception. (The number -32768 is read as 65537 instead of -65535; files of 8-bit samples with one record are refused; the track mode is chosen before the year is corrected; and a least time in the last half of a sample of its second ends with an exception: refutations.)", "quantifier": "all files, options, rates, numbers and lengths of records, samples and times", "why_tests_cant": "Byte positions, words and boundaries of records must agree for every length of file; wrong values occur for one number in 65536 and for times at the ends of seconds.", "anchors": ["rss_ringoccs/rsr_reader/rsr_reader.py: RSRReader.__init__, __set_sfdu_unpack, __set_IQ, __loop, get_f_sky_pred"]}
{"id": "C74", "title": "Reconstructed sky frequencies follow light times and clocks", "statement": "In exact arithmetic, for any motions of the bodies: if the light time from spacecraft to station is the distance over the velocity of light plus the delay in the field of a mass at the barycentre, and has a derivative, then the frequency computed for a one-way signal received at a time is the frequency of the oscillator times one minus the derivative of the light time, times the rate of the clock of the spacecraft when the signal was sent over that of the station when it was received, where the rates follow from the velocities and the potentials of twelve bodies. For a two-way signal the ratio of the transponder for the pair of bands and the derivative of the light time on the way up enter as well, and the clock is that of the uplink station, which is the receiving one unless its name ends in two characters; other pairs of bands are refused. (Three pairs of bands give the frequency 0: refutation.)", "quantifier": "all ephemerides, velocities, frequencies, stations, pairs of bands and lists of times", "why_tests_cant": "The derivative of an implicitly given light time cannot be compared with a table; errors are of the order of the relativistic terms.", "anchors": ["rss_ringoccs/calibration/calc_f_sky_recon.py: calc_f_sky_recon, derlt, derpt"]}
{"id": "C75", "title": "The frequency correction turns each sample and keeps its power", "statement": "In exact arithmetic, for every spline: the corrected signal has as many samples as the raw one and each has the power of the raw sample. For a spline that reproduces cubic polynomials and at least four offsets in the order of time over at least 0.04 s: a signal with the constant frequency of the offsets becomes constant, and one whose frequency drifts linearly as the offsets do is left with the phase that belongs to a hundredth of the offset at the first time and with a constant frequency of a two-hundredth of the drift per second. (A drifting signal is therefore not brought to a constant, even if the offset is known exactly: refutation.)", "quantifier": "all raw signals, times, offsets and splines", "why_tests_cant": "The remaining error grows with time and with the drift, and vanishes for the constant offsets used in tests.", "anchors": ["rss_ringoccs/calibration/calibration_class.py: Calibration.correct_IQ"]}
{"id": "C76", "title": "The frequency offset is that of the strongest signal in its window", "statement": "In exact arithmetic, for every raw signal of at least two samples: the windows are centred every ten seconds from the lower limit to less than ten seconds beyond the upper one, in order; exactly those with more than two samples at or after their begin and before their end have an offset. The offset of a window is a frequency on a grid of 0.001 Hz within 0.2 Hz of the strongest frequency of the discrete Fourier transform of its samples, weighted by a von Hann window, and no frequency of the grid has more power. For a pure tone sampled evenly, less than 2.5 s apart, at least four times, the offset is exactly its frequency if this is on the grid, and always if it is a frequency of the discrete transform. (Windows beyond the upper limit are used, even if all samples lie beyond it: refutation.)", "quantifier": "all raw signals, times, limits, window widths, amplitudes, phases, frequencies and numbers of samples", "why_tests_cant": "That no other frequency is stronger is a statement about all frequencies and all signals; window boundaries fall between samples in tests.", "anchors": ["rss_ringoccs/calibration/calc_freq_offset.py: calc_freq_offset.__find_offset_freqs, __find_peak_freq"]}
{"id": "C77", "title": "The frequency offsets kept for the fit", "statement": "In exact arithmetic, for every list of offsets and tolerance: the mask is always computed and has one entry for each offset. Clipping keeps exactly the offsets that are numbers within 150 Hz, not farther from the median than five times the root of the median squared distance and than 15 Hz, and, from the third to the third last, within the tolerance of both neighbouring offsets that are numbers; the search for further kept offsets in the code removes none. The check of neighbours then removes exactly, from the fourth to the third last, those without a kept neighbour, and the third if none of the other four of the first five is kept. If fewer than five are left, the offsets within 150 Hz outside the radii from 92000 to 118000 km are taken, with the same check of neighbours.", "quantifier": "all lists of offsets (also not numbers), radii, tolerances and medians", "why_tests_cant": "The masks are changed in place while they are read, in both directions; the outcome depends on the pattern of the whole list.", "anchors": ["rss_ringoccs/calibration/freq_offset_fit.py: FreqOffsetFit.create_mask, __sigma_clip, __neighbor_check"]}
{"id": "C78", "title": "The free space that calibrates the power", "statement": "In exact arithmetic, for every list of gaps and every signal of positive powers, some of them perhaps not numbers: the unit of power is the largest power within a single gap, between the first and the last of two or three gaps (from end to end if they touch), or between the second and the second last of four or more; without a sample there, and only then, the calibration raises an error. Exactly the gaps whose median power is below a half or above five quarters of the unit are removed, the others stay in order, and exactly the samples within a remaining gap whose power differs by less than a tenth of the unit from the median of that gap are selected: all have between 0.4 and 1.35 times the largest power. With at most five gaps left the fit is linear. The user is asked exactly if there is no gap or no sample was selected, and then all samples are selected. (The gaps are removed from the geometry itself: the same calibration done again may find no free space. Refutation.)", "quantifier": "all lists of gaps (also repeated, empty or overlapping ones), times and positive powers", "why_tests_cant": "A list is changed while a copy of it is walked, and a second list must stay aligned with it, for repeated gaps too; the change to the caller shows only in a later call.", "anchors": ["rss_ringoccs/calibration/power_normalization.py: Normalization.__init__, Normalization.create_mask"]}
{"id": "C79", "title": "The gaps that the user types", "statement": "For every list of at least one gap whose limits are texts without opening bracket or comma: a list [[a,b],[c,d],...] with exactly two characters between the gaps, such as Python prints, is read as it is written. An answer without two opening brackets in a row and without two closing ones keeps the previous gaps. (With one character between the gaps, as in [[10,20],[30,40]], every gap but the last loses the last character of its upper limit and the wrong gaps are used without a message: refutation.)", "quantifier": "all lists of gaps and texts, and all readers of numbers that refuse the empty text", "why_tests_cant": "The code slices by fixed distances from the next bracket; tests use one way of writing the list.", "anchors": ["rss_ringoccs/calibration/power_normalization.py: Normalization.fit_check, Normalization.extract_list_from_str"]}
{"id": "C80", "title": "The times of the downsampled power", "statement": "In exact arithmetic, for evenly spaced raw samples and every filter that keeps constants and has no delay: one sample is made of as many raw samples as the integer nearest to the ratio of the spacings (with an error exactly if the raw spacing is at least twice the one asked for), the last one perhaps of fewer, with as many times as powers. For a signal linear in time each power, ten samples from either end, is that of the signal at the first of its raw samples. The time given for it is later by a share, growing from none to all, of the raw samples left over at the end, so by less than the new spacing. (The power is therefore not that at the time given: refutation.)", "quantifier": "all numbers of samples, spacings, linear signals and filters", "why_tests_cant": "The times agree in tests whose number of samples is a multiple plus one; the error depends on the remainder.", "anchors": ["rss_ringoccs/calibration/power_normalization.py: Normalization.downsample_IQ"]}
{"id": "C81", "title": "The order of the polynomial for the frequency offsets", "statement": "In exact arithmetic, for every least-squares fit of data at distinct times, at least one: the order is found, is between one and nine, and is one or at least two less than the number of data. Every lower order from one on was improved significantly by the next one: the squared distance fell by more than what remained for each degree of freedom. The order found is nine or was not. Data on a polynomial of some order are fitted with no higher order. (The search ends at the first order that brings nothing: a cubic through five points is fitted with a line. Refutation.)", "quantifier": "all data and all least-squares fits of them", "why_tests_cant": "The F test divides by degrees of freedom and residuals that become zero or negative for few or exact data; the claim is about the best of all polynomials.", "anchors": ["rss_ringoccs/calibration/freq_offset_fit.py: FreqOffsetFit.calc_poly_order"]}
{"id": "C82", "title": "Discontinuities of the frequency offsets", "statement": "In exact arithmetic, for every two or more samples (distinct times, offsets, radii) and every threshold: the list of discontinuities begins with 0, ends with -1 and between them has, in increasing order, exactly the samples where the second difference of the offsets is larger than at both neighbours and more than two thirds of the largest, that lie ten or more samples from the begin, from the last sample and from every other such sample, where the offsets change by the threshold or more, and that are not within the B ring. Of two such samples closer than ten neither is kept. (A jump need not be found: a step from any value to any other between evenly spaced samples is never found. Refutation.)", "quantifier": "all samples and thresholds, all numbers of samples from two on", "why_tests_cant": "The list is edited by value after a loop over neighbours in the unedited list, and its last entry is -1, which as the end of a slice leaves out a sample; which bends survive depends on all the others.", "anchors": ["rss_ringoccs/calibration/freq_offset_fit.py: FreqOffsetFit.get_disconts, __centdiff2"]}
