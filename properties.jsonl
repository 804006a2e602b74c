{"id": "C01", "title": "Parametrization names survive a write/read cycle", "statement": "For every input parametrization that has an entry in the name table, and for UNKNOWN_INPUT, parsing the name produced by params::get_name gives the same parametrization back, distinct parametrizations have distinct names, and a string that is no table name parses as UNKNOWN_INPUT. The same holds for every output parametrization. The five enumerators without a table entry print as UNKNOWN_INPUT, have dimension -1 and therefore do not survive.", "quantifier": "every enumerator of params::input and params::output, and every string", "why_tests_cant": "The parse side ranges over all strings; a test samples some names and cannot show that no other string is accepted.", "anchors": ["sources/core/params.h: params::input, params::output", "sources/core/params.cpp: input_map, params::get_name, params::parse_input, params::parse_output, params::dimension"]}
{"id": "C02", "title": "A conversion touches exactly the destination's components", "statement": "Converting Cartesian directions into any parametrization with a table entry and a conversion writes exactly dimension(parametrization) components of the output buffer and leaves every further component unchanged; reading from a parametrization never looks at components beyond its dimension.", "quantifier": "every parametrization with a conversion, every Cartesian vector, every content and length of the output buffer", "why_tests_cant": "Frame conditions over arbitrary buffer contents and all real inputs cannot be enumerated.", "anchors": ["sources/core/params.cpp: params::from_cartesian, params::to_cartesian, params::dimension"]}
{"id": "C03", "title": "Conversion between parametrizations is conversion through Cartesian coordinates", "statement": "params::convert copies the vector when both parametrizations are equal, and otherwise has the same effect as to_cartesian of the source followed by from_cartesian of the destination; CARTESIAN is neutral on either side; a conversion from or to one of the five enumerators without a rule never returns (the process terminates) instead of yielding garbage, and every other enumerator can be read.", "quantifier": "every pair of parametrizations and every input vector", "why_tests_cant": "The pairs are finite but the vectors are not; short-cut branches must agree with the general path on all of them.", "anchors": ["sources/core/params.h: params::convert", "sources/core/params.cpp: to_cartesian, from_cartesian"]}
{"id": "C04", "title": "Angular parametrizations denote unit directions", "statement": "For every real coordinate vector, to_cartesian of the angle based parametrizations (RUSIN_TH_PH_TD_PD, RUSIN_TH_TD_PD, RUSIN_TH_TD, RUSIN_TH_PH_TD, ISOTROPIC_TV_TL_DPHI, SPHERICAL_TL_PL_TV_PV, COS_TH, COS_TH_TD, RUSIN_VH in its domain, ...) produces a view and a light vector of norm one. STEREOGRAPHIC, SCHLICK_VK and COS_TK do not have this property.", "quantifier": "every real coordinate vector in the parametrization's domain", "why_tests_cant": "A statement about all reals; sampling cannot separate an identity from a near miss away from the samples.", "anchors": ["sources/core/params.cpp: params::to_cartesian, params::half_to_cartesian, params::classical_to_cartesian"]}
{"id": "C05", "title": "Half/difference angles decode to a mirrored pair around the half vector", "statement": "For all half and difference angles, the light direction produced by half_to_cartesian is the mirror image of the view direction about the half direction (theta_h, phi_h), the bisector of the two is parallel to that half direction, and the angle between the half direction and either vector has cosine cos(theta_d).", "quantifier": "all real theta_h, phi_h, theta_d, phi_d", "why_tests_cant": "An identity over four real variables.", "anchors": ["sources/core/params.cpp: params::half_to_cartesian, params::rotate_normal, params::rotate_binormal"]}
{"id": "C06", "title": "Angle and projected parametrizations round-trip on their domain", "statement": "On its documented domain, converting a coordinate vector to Cartesian and back returns it unchanged for SPHERICAL_TL_PL_TV_PV, ISOTROPIC_TV_TL_DPHI, RUSIN_TH_TD, COS_TH, COS_TH_TD, STARK_2D, NEUMANN_2D, COS_TLV, ISOTROPIC_TV_PROJ_DPHI, the RUSIN_TH_* families, RUSIN_VH and CARTESIAN. For COS_TLR it returns the negated cosine; for ISOTROPIC_TL_TV_PROJ_DPHI, SCHLICK_TL_TK_PROJ_DPHI and RETRO_TL_TVL_PROJ_DPHI it negates the last coordinate; for NEUMANN_3D and STARK_3D it shifts the azimuth by pi; for COS_TK, SCHLICK_VK and STEREOGRAPHIC the coordinates are lost.", "quantifier": "every coordinate vector in the domain of the parametrization", "why_tests_cant": "The domain is a continuum with boundary cases (poles, grazing angles) that sampling misses.", "anchors": ["sources/core/params.cpp: params::to_cartesian, params::from_cartesian"]}
{"id": "C07", "title": "Output conversion replicates or averages channels", "statement": "Converting between output parametrizations copies vectors of equal dimension, replicates a single channel to every output channel, averages all channels when the destination is scalar provided the destination was zero beforehand (otherwise its old content is averaged in), touches no other component, and terminates the process for every other combination of dimensions.", "quantifier": "all pairs of output parametrizations and all value vectors", "why_tests_cant": "Ranges over all vectors and all prior contents of the destination buffer.", "anchors": ["sources/core/params.h: params::convert(const double*, params::output, ...)"]}
{"id": "C08", "title": "Hemisphere test is exact", "statement": "is_above_hemisphere accepts a Cartesian configuration if and only if both z components are non negative, for every parametrization convertible to Cartesian.", "quantifier": "every Cartesian vector", "why_tests_cant": "Universal over reals including the boundary z = 0.", "anchors": ["sources/core/params.h: params::is_above_hemisphere"]}
{"id": "C10", "title": "Command line parsing follows the first-occurrence rule", "statement": "For every argument vector whose bracketed groups contain no empty token, the option map built from it maps each key to the value that followed its first occurrence: the next token if that token does not start with '-', the bracketed group joined by single spaces if it starts with '[', and the empty string otherwise; a key that does not occur is undefined. In particular a negative number is never taken as a value.", "quantifier": "every argument vector of any length", "why_tests_cant": "The input space is all token sequences; the interplay of brackets, flags and repeated keys is unbounded.", "anchors": ["sources/core/args.h: arguments::arguments(int, char**), is_defined, operator[]"]}
{"id": "C11", "title": "Typed getters fall back to the caller's default", "statement": "is_defined, operator[], get_string and update behave as a finite map: an undefined key yields the caller's default from every typed getter, update(key, v) makes the key defined with value v and leaves all other keys unchanged.", "quantifier": "every option map, key and value", "why_tests_cant": "Universal over maps and operation histories.", "anchors": ["sources/core/args.h: get_string, get_float, get_double, get_int, update, is_defined, is_vec, operator[]"]}
{"id": "C12", "title": "A command line survives being recorded and re-read", "statement": "For every option map whose keys and values are free of white space, with non empty keys that do not start a new option inside a value, parsing the string produced by get_cmd with create_arguments yields the same options.", "quantifier": "every option map satisfying the stated lexical conditions", "why_tests_cant": "All maps of any size; the tokeniser's end-of-stream behaviour only shows in combination.", "anchors": ["sources/core/args.h: get_cmd, create_arguments"]}
{"id": "C13", "title": "Vector options split at commas and only at commas", "statement": "get_vec of \"[a1,...,an]\" (n >= 1) where no element contains a comma or ']' returns exactly the n elements in order, a value that is not bracketed gives the empty vector, and \"[]\" yields one empty string.", "quantifier": "every list of comma-free strings", "why_tests_cant": "Lists of any length and content.", "anchors": ["sources/core/args.h: arguments::get_vec(const std::string&), is_vec"]}
{"id": "C14", "title": "Fixed-size vector options always have the requested size", "statement": "get_vec(key, size, default) returns a vector of exactly size entries: the parsed elements followed by the default for the missing ones, the default everywhere when the key is undefined and the scalar in every entry when the option is a scalar.", "quantifier": "every option map, key, size and default", "why_tests_cant": "All sizes and string contents.", "anchors": ["sources/core/args.h: get_vec(const std::string&, int, float)"]}
{"id": "C15", "title": "File headers are read up to the first data line and no further", "statement": "Parsing a header consumes exactly the longest prefix of lines that start with '#', keeps for each key the last value given, ignores '# ' comment lines, and leaves the stream positioned at the first byte that belongs to the data, for every file.", "quantifier": "every byte stream", "why_tests_cant": "All streams; where the parser stops decides whether payload bytes are eaten.", "anchors": ["sources/core/args.h: arguments::parse_header"]}
{"id": "C16", "title": "Binary data files round-trip bit for bit", "statement": "Saving a data set in ALTA's binary format and loading the file back yields the same dimensions, parametrizations, confidence-interval kind, number of samples and bit patterns of every double, whenever the first payload byte is not '#'; if it is, loading does not return the data that was saved.", "quantifier": "every data set of every shape and confidence-interval kind", "why_tests_cant": "The failing class is decided by a single bit pattern of the first sample out of 2^64.", "anchors": ["sources/core/data_storage.cpp: vertical_segment_save_as_binary / load_data_from_binary, save_data_as_binary, header"]}
{"id": "C17", "title": "Binary files cut inside the payload are never accepted", "statement": "Loading a binary data file whose payload was cut short but not removed entirely raises an exception instead of returning data, for every truncation point (first payload byte not '#'). A file cut exactly after its header raises no exception: the loader continues with an array it never filled.", "quantifier": "every data set and every truncation point", "why_tests_cant": "Every crash point of a writer: all prefixes.", "anchors": ["sources/core/data_storage.cpp: load_data_from_binary", "sources/core/args.h: arguments::parse_header"]}
{"id": "C18", "title": "Text loading keeps exactly the samples inside the requested box, in order", "statement": "Loading a text data set keeps a row if and only if all its abscissas lie within [min,max] and all its ordinates within [ymin,ymax]; kept rows appear in file order with unchanged values.", "quantifier": "every file content and every min/max/ymin/ymax option", "why_tests_cant": "All row sequences and all bounds.", "anchors": ["sources/core/data_storage.cpp: vertical_segment_load_from_text / load_data_from_text"]}
{"id": "C19", "title": "Confidence intervals bracket the measurement", "statement": "For every sample, the bounds computed from a non negative absolute tolerance satisfy low <= y <= high; with dt-positive they are additionally clamped to be non negative while keeping low <= y <= high; with dt-relative or dt-max the bracket holds exactly for non negative y; cosine correction scales the measured channels only, so a corrected measurement can leave its interval.", "quantifier": "every measurement and every option combination", "why_tests_cant": "Universal over reals and option combinations; sign dependent.", "anchors": ["sources/core/data_storage.cpp: read_confidence_interval"]}
{"id": "C20", "title": "Sample storage behaves as an array of rows", "statement": "In a vertical segment data set, writing sample i makes reading sample i return what was written and changes no other sample; out of range accesses and rows of the wrong size are rejected.", "quantifier": "every data set, index and row, and every history of writes", "why_tests_cant": "Any history of writes at any indices.", "anchors": ["sources/core/vertical_segment.cpp: get, set", "sources/core/vertical_segment.h"]}
{"id": "C21", "title": "Data bounds are the exact extrema at construction", "statement": "After construction the reported min() and max() are, per input column, the least and greatest value over all samples, attained by some sample; they are not updated by later writes.", "quantifier": "every non empty matrix", "why_tests_cant": "All matrices of all sizes.", "anchors": ["sources/core/vertical_segment.cpp: initializeMinMax / update_bounds"]}
{"id": "C22", "title": "Data equality is reflexive, symmetric and shape sensitive", "statement": "data::equals is reflexive for every epsilon that is not negative, even in the presence of NaN and infinities, symmetric for every epsilon, and false whenever sizes, dimensions or parametrizations differ; for finite entries it holds exactly if all differences, rounded to double, are at most epsilon; a NaN is equal to everything; the default epsilon is 1.0.", "quantifier": "all pairs of data sets over IEEE doubles and all epsilons", "why_tests_cant": "Depends on IEEE comparison semantics for all operand classes.", "anchors": ["sources/core/data.cpp: alta::data::equals"]}
{"id": "C23", "title": "The interval accessor", "statement": "get(i, x, yl, yu) of a vertical segment without stored confidence interval returns an interval that contains every finite measurement; with an asymmetrical interval it returns the stored bounds; with a symmetrical interval both returned bounds are y minus the half width, so they always coincide.", "quantifier": "every data set, sample and confidence-interval kind", "why_tests_cant": "IEEE rounding over all measurements.", "anchors": ["sources/core/vertical_segment.cpp: get(int, vec&, vec&, vec&)"]}
{"id": "C24", "title": "Component product broadcasts scalars", "statement": "product(a,b) multiplies component wise for equal sizes, scales by the scalar when one side has one component, is commutative in value, and has the size of the larger operand.", "quantifier": "all vectors of compatible sizes", "why_tests_cant": "All sizes and values.", "anchors": ["sources/core/common.cpp: product"]}
{"id": "C25", "title": "A well bracketed timer reports the total of its intervals", "statement": "For every sequence of alternating start/stop calls on a monotone clock the timer's elapsed time is the sum of the individual intervals, reset sets it to zero, and the printed value determines the elapsed time. The printed hour field counts units of six minutes, and starting a running timer subtracts the time since its last stop.", "quantifier": "every history of timer calls and clock readings", "why_tests_cant": "Unbounded call histories.", "anchors": ["sources/core/common.h: timer", "sources/core/common.cpp"]}
{"id": "C26", "title": "Composite functions store their free parameters losslessly", "statement": "For every tree of compound and product functions with arbitrary fixed/free flags, setting a parameter vector of length nbParameters and reading the parameters back returns that vector, nbParameters is its length, fixed sub-functions are not modified, and bounds are laid out in the same order.", "quantifier": "every tree shape, every set of flags, every parameter vector", "why_tests_cant": "Structural induction over unbounded trees.", "anchors": ["sources/core/function.cpp: compound_function, product_function (setParameters, parameters, nbParameters, getParametersMin/Max)"]}
{"id": "C27", "title": "The Jacobian of a composite is the derivative of its value", "statement": "If every leaf function reports as Jacobian the partial derivatives of its value, then so does every compound and product tree of equal output dimension built from them.", "quantifier": "every tree, point and parameter vector", "why_tests_cant": "Real analysis over unbounded trees.", "anchors": ["sources/core/function.cpp: compound_function::parametersJacobian, product_function::parametersJacobian"]}
{"id": "C28", "title": "Composites resolve a common parametrization", "statement": "A compound of functions takes the first known input parametrization if all functions after it have the same one, and is CARTESIAN of dimension 6 otherwise (an unknown parametrization is neutral only before the first known one); incompatible output parametrizations and an empty list are refused; a product keeps the common parametrization or becomes CARTESIAN.", "quantifier": "every list of functions", "why_tests_cant": "Order dependent over arbitrary lists.", "anchors": ["sources/core/function.cpp: compound_parameters, product_parameters"]}
{"id": "C29", "title": "Functions survive save and load", "statement": "Saving a function (a nonlinear function, or any compound or product of functions) and loading its text with a function of the same structure sets every parameter, free or fixed, to the number printed and consumes exactly that text. Loading a whole saved file asks for the function described by the saved command line with the saved dimensions and input parametrization (the output parametrization is not saved) and restores its parameters. A text describing something else is refused and changes nothing; in a compound or a product a part that cannot be loaded leaves the text to the next part, and the whole is loaded when at least one part is; a file whose body is refused, or with another first line, gives no function. Parameters missing from a truncated file are taken from uninitialised memory.", "quantifier": "every function tree, every parameter values, every command line that can be written, any text after it", "why_tests_cant": "All trees of all depths and all parameter vectors.", "anchors": ["sources/core/function.cpp: nonlinear_function::load, save_call / save, compound_function::load, product_function::load", "sources/core/plugins_manager.cpp: load_function"]}
{"id": "C30", "title": "Distances are distances", "statement": "L2_distance and Linf_distance between a function and a non empty data set are non negative and zero if and only if the function takes the measured value at every sample. Linf is the least bound on all deviations, L2 <= sqrt(dimY) Linf and Linf <= sqrt(number of samples) L2. Both are defined whenever the function can be evaluated at every sample and, for Linf, the numbers of outputs agree; Linf is undefined if they differ and L2 aborts on an empty data set.", "quantifier": "every function, every data set and every parametrization", "why_tests_cant": "All data sizes and values.", "anchors": ["sources/core/function.cpp: function::L2_distance, function::Linf_distance"]}
{"id": "C31", "title": "Multivariate monomial enumeration is a bijection", "statement": "For every input dimension the map from coefficient index to exponent vector enumerates every exponent vector exactly once, in order of non decreasing total degree (within a degree, by the exponents of the last inputs), and the number of vectors of a given degree is the binomial count the library computes.", "quantifier": "every dimension and every index", "why_tests_cant": "Unbounded indices and dimensions.", "anchors": ["sources/core/rational_function.cpp: rational_function_1d::index2degree, populate, estimate_dk"]}
{"id": "C32", "title": "A rational function evaluates the quotient it was given", "statement": "update(a,b) on a function created with those numbers of coefficients makes value(x) the quotient of the two polynomials in the inputs rescaled to [-1,1], wherever the denominator does not vanish; when |b0| > 1e-16 all coefficients are divided by b0. Channels are created on demand, identically each time, on the function's bounds with flat sides widened by 0.1. Exactly excluded: update with more coefficients than before (exponents are never set), p(x) and q(x) (uninitialised accumulator) and evaluating before every channel was requested.", "quantifier": "all dimensions, coefficient vectors, bounds and points", "why_tests_cant": "All reals, all sizes.", "anchors": ["sources/core/rational_function.cpp: rational_function_1d::update, value, p, q, resize, rational_function::get, value"]}
{"id": "C33", "title": "Rational functions survive save and load", "statement": "Writing a rational function whose channels exist and are normalised, and loading the text into a new function of the same dimensions, restores the bounds and every coefficient and exponent up to the printing of numbers; when numbers print exactly the loaded function has the same value everywhere. A function whose channels already exist keeps their old domain.", "quantifier": "every rational function, any text around it in the file", "why_tests_cant": "All sizes and all number formats.", "anchors": ["sources/core/rational_function.cpp: save_call, load, rational_function_1d::save_body, load"]}
{"id": "C34", "title": "Chebyshev basis evaluates the Chebyshev polynomials", "statement": "For every degree and every x (inside [-1,1], where cosines are used, and outside), the basis function of the Chebyshev plugin is the Chebyshev polynomial of the first kind; a function of the plugin evaluates to the quotient of the Chebyshev expansions of its coefficients in any number of inputs.", "quantifier": "every degree, every x, every dimension and number of coefficients", "why_tests_cant": "Induction on the degree, all reals.", "anchors": ["sources/plugins/rational_function_chebychev/rational_function.cpp: chebychev, p, q, get"]}
{"id": "C35", "title": "Legendre basis evaluates the Legendre polynomials", "statement": "For every degree and x the basis functions of the Legendre and cosine plugins are the Legendre polynomials: of that degree, one at 1, pairwise orthogonal on [-1,1] with squared norm 2/(2n+1). The Legendre plugin evaluates the quotient of the two expansions; the cosine plugin multiplies it by cos(theta_l) cos(theta_v) when the parametrization is known. Channels of these plugins widen flat sides of the domain by one.", "quantifier": "every degree, x, dimension and number of coefficients", "why_tests_cant": "Induction on the degree, integrals over all reals.", "anchors": ["sources/plugins/rational_function_legendre/rational_function.cpp: legendre, p, q", "sources/plugins/rational_function_cosine/rational_function.cpp: legendre, p, q"]}
{"id": "C36", "title": "Plugin search path is the environment variable split at colons", "statement": "The plugin directories searched are exactly the ':'-separated components of ALTA_PLUGIN_PATH in order, each empty component standing for the system directory.", "quantifier": "every environment value", "why_tests_cant": "All strings, including leading, trailing and doubled colons.", "anchors": ["sources/core/plugins_manager.cpp: plugin_search_path"]}
{"id": "C37", "title": "The first directory that provides a plugin wins", "statement": "With a dlerror() that forgets errors of earlier successful or failed dl calls (glibc), opening a plugin returns the provider symbol from the first directory on the search path whose library loads and exports it, and fails exactly if there is none. (With POSIX's dlerror() the code misses plugins that are not in the first directory.)", "quantifier": "every search path and every file system content", "why_tests_cant": "All directory lists and contents.", "anchors": ["sources/core/plugins_manager.cpp: open_library"]}
{"id": "C38", "title": "Library names are completed deterministically", "statement": "Every plugin name of at least two characters is turned into the platform library name, names that already carry the suffix are kept, and shorter names are rejected by an exception.", "quantifier": "every string", "why_tests_cant": "All strings.", "anchors": ["sources/core/plugins_manager.cpp: library_name"]}
{"id": "C40", "title": "MERL lookups stay inside the table", "statement": "For every triple of angles, also outside their range, evaluating a complete MERL table reads inside the table only and returns three non negative numbers; angles outside the range give black; the value does not change when the azimuth is negated or replaced by its complement to a full turn.", "quantifier": "all tables and all real angles", "why_tests_cant": "All reals including boundary angles and values outside the nominal ranges.", "anchors": ["sources/plugins/data_io/merl.cpp: theta_half_index, theta_diff_index, phi_diff_index, lookup_brdf_val, value"]}
{"id": "C41", "title": "MERL samples enumerate the table without gaps", "statement": "The samples 0..n-1 of a MERL data set have pairwise different angles; the angles split into cells, each containing the angles of exactly one sample and on which the value is constant; evaluating at the angles of sample i returns its values (black if one of them is negative); setting sample i changes that sample only.", "quantifier": "every index of the table, every angle and every table content", "why_tests_cant": "1.4 million cells times arbitrary contents.", "anchors": ["sources/plugins/data_io/merl.cpp: get, set, value, *_index, *_from_index"]}
{"id": "C42", "title": "MERL files round-trip", "statement": "Writing a MERL table and reading it back restores every stored double. Reading checks the product of the three header dimensions only (any other product ends the program) and does not notice a truncated file, whose missing entries are read as zero.", "quantifier": "every table", "why_tests_cant": "All contents.", "anchors": ["sources/plugins/data_io/merl.cpp: read_brdf, save, load_data"]}
{"id": "C43", "title": "UTIA interpolation is a convex combination that reproduces nodes", "statement": "For every table, evaluation returns the quadrilinear interpolation of the sixteen surrounding measurements (azimuths wrap around), in particular sample i at the position of sample i. For elevations up to 75 degrees it stays within any bounds on the measurements; beyond, the last interval is extrapolated and nonnegative measurements can give negative values. Directions below the horizon are black, azimuths beyond one turn stop the program, negative light elevations read before the table. set changes one sample. load reads raw doubles, but save writes decimal text that load does not read back.", "quantifier": "all directions, all tables, all samples", "why_tests_cant": "Reals.", "anchors": ["sources/plugins/data_io/utia.cpp: value, get, set, save, load_data"]}
{"id": "C44", "title": "Grid interpolation reproduces nodes and stays in range", "statement": "On a regular grid of any dimension, rank and multi-index correspond one to one; below the upper ends of the domain the interpolated value is the multilinear interpolation of the corners of the cell, stays within any bounds on the stored values, equals the stored value at a node and is exact on affine data. At the upper ends the same holds unless the rank of one of the corners read is exactly the number of nodes, in which case the program stops (always so at the upper corner of the domain). Setting a node changes that node only. Construction needs the size to match, and reads uninitialised variables without PARAM_OUT or an input parametrization.", "quantifier": "all dimensions, sizes, stored values and points of the domain", "why_tests_cant": "Unbounded dimension and real-valued points.", "anchors": ["sources/plugins/data_interpolants/grid.cpp: value, get_index, get_indices, get_abscissa, initialize"]}
{"id": "C45", "title": "Slice images address each pixel once", "statement": "Whatever the --param and --phi options, get and set of the 2D slice data plugin address each pixel exactly once, and evaluating at a point returns the pixel whose cell contains it, in particular sample i at the position of sample i (for projected parametrizations only if --phi is not below the lower bound). On the right edge of the domain the first pixel of the next line is returned, on the upper edge and (for projected parametrizations) left of the domain memory outside the image is read.", "quantifier": "all image sizes and contents, all options, all points", "why_tests_cant": "Unbounded images and real-valued points.", "anchors": ["sources/plugins/data_io/slice.cpp: get, set, value, min, max, brdf_slice_parameters"]}
{"id": "C46", "title": "Each sample gives exactly two constraints of the quadratic program", "statement": "For every number of samples, the strided visiting order is a permutation: each sample owns its own pair of columns of the program, no column is written twice or left out. For every pair of coefficient vectors the columns evaluate to p(x)-yu q(x) and yl q(x)-p(x), and the right hand sides are minus the norms of the columns.", "quantifier": "every number of samples, every data set and every pair of sizes", "why_tests_cant": "All sizes; strided visiting order.", "anchors": ["sources/plugins/rational_fitters/quadprog.cpp: fit_data"]}
{"id": "C47", "title": "A fit passes strictly inside every confidence interval", "statement": "With a positive delta and a solver whose results satisfy the constraints, a successful quadprog fit has, for every channel and every sample, a non zero denominator and a value strictly between the bounds. With a solver that finds a solution when there is one, an attempt fails only if some channel cannot be interpolated with the given sizes. With delta <= 0 nothing is ever fitted; with more outputs in the data than in the function a null pointer is followed (contrary to the comment in the code).", "quantifier": "every data set, every solver behaviour within its contract, all sizes", "why_tests_cant": "All data and all solutions.", "anchors": ["sources/plugins/rational_fitters/quadprog.cpp: fit_data", "sources/external/quadprog++"]}
{"id": "C48", "title": "The search over the sizes terminates and covers the requested range", "statement": "quadprog tries (min_np+k, min_nq+k), each capped by its maximum, for k = 0, 1, ..., stops at the first success and answers no only after trying the maximum sizes; it always ends. Whatever the options, the minimum sizes do not exceed the maximum ones.", "quantifier": "every pair of minimum/maximum settings and every data set", "why_tests_cant": "All settings.", "anchors": ["sources/plugins/rational_fitters/quadprog.cpp: fit_data, set_parameters"]}
{"id": "C49", "title": "Adding violated samples one by one ends and is sound", "statement": "In the parallel fitter, each round either finds no violated sample or moves exactly the sample with the largest violation from the training set to the constraints, so the loop ends after at most one program per sample outside the start set, plus one. On success the samples used as constraints are passed strictly and all the others lie within their interval or the function is 0/0 there. Failure means that no coefficients interpolate the samples, or that every remaining sample was added: the complete program is then never solved.", "quantifier": "every data set, every solver behaviour within its contract, all sizes", "why_tests_cant": "All histories of the loop.", "anchors": ["sources/plugins/rational_fitters/quadratic_program.h: test_constraints, add_constraints, solve_program", "sources/plugins/rational_fitters/quadprog_parallel.cpp: fit_data"]}
{"id": "C50", "title": "Norm based metrics are mutually consistent", "statement": "Without a mask the reported metrics are, channel by channel, the L1, L2, L3, LInf norms, MSE and RMSE of the errors at the samples (value of the compared object at the converted position minus measurement; zero where both directions are below the horizon). They satisfy 0 <= LInf <= L3 <= L2 <= L1 <= n LInf, L2^2 = n MSE, RMSE^2 = MSE and vanish together, exactly when all errors do. With a mask the result is only defined when the kept samples lie below the number of dropped ones, and dropped samples are counted as zero errors; a mask keeping everything stops the program.", "quantifier": "every pair of data matrices", "why_tests_cant": "All sizes and values.", "anchors": ["sources/core/metrics.cpp"]}
{"id": "C52", "title": "Blinn-Phong Jacobian is the gradient", "statement": "The Blinn function evaluates ks*cos^N for positive cosines and 0 otherwise, and for all parameters and cosines its parameter Jacobian consists of the partial derivatives of its value; so does the retro-reflecting variant's for positive cosines. Such a function can be used in sums and products (C27).", "quantifier": "all parameters, numbers of channels and cosines", "why_tests_cant": "Real analysis.", "anchors": ["sources/plugins/nonlinear_function_blinn/function.cpp: value, parametersJacobian", "sources/plugins/nonlinear_function_retroblinn/function.cpp: value, parametersJacobian"]}
{"id": "C53", "title": "Schlick Fresnel Jacobian is the gradient", "statement": "The Schlick Fresnel factor is R0 + (1-R0)(1-c)^5 in the cosine c (clamped to [0,1]) between direction and half vector; its Jacobian is its derivative with respect to R0; for R0 <= 1 it lies between R0 and 1, is R0 at normal incidence and 1 at grazing incidence, and decreases with the cosine. For unit directions c^2 = (1 + v.l)/2.", "quantifier": "all parameters and pairs of directions whose half vector is above the surface", "why_tests_cant": "Real analysis.", "anchors": ["sources/plugins/nonlinear_fresnel_schlick/function.cpp: value, parametersJacobian"]}
{"id": "C54", "title": "ABC Jacobian is the gradient", "statement": "For cosines in [0,1] the ABC function evaluates a/(1+b(1-cos))^c, and where 1+b(1-cos) > 0 its Jacobian consists of the partial derivatives. Outside [0,1] its value is 0 while the derivative reported for a is not.", "quantifier": "all parameters, numbers of channels and cosines", "why_tests_cant": "Real analysis.", "anchors": ["sources/plugins/nonlinear_function_abc/function.cpp: value, parametersJacobian"]}
{"id": "C55", "title": "Ward Jacobian", "statement": "The Ward function evaluates Ward's anisotropic lobe and its derivative with respect to ks is exact. The derivatives with respect to the roughness parameters reported by the code are exact only on an explicit coincidence set; for instance, when the half vector has no x component, the one for ax is exact only if it has no y component either.", "quantifier": "all parameters (non zero roughness) and directions above the surface", "why_tests_cant": "Real analysis.", "anchors": ["sources/plugins/nonlinear_function_ward/function.cpp: value, parametersJacobian"]}
{"id": "C56", "title": "Beckmann Jacobian", "statement": "The Beckmann function evaluates Beckmann's lobe above the surface and 0 below, and its derivative with respect to ks is exact. The derivative with respect to the roughness a reported by the code is exact only if ks = 0, the half vector is the normal, or a^2 cos^2 = 1 - cos^2. The retro variant without back parametrization evaluates the lobe at x0 x3 + x2 x4 + x2 x5, which is not a cosine.", "quantifier": "all parameters (non zero roughness) and directions", "why_tests_cant": "Real analysis.", "anchors": ["sources/plugins/nonlinear_function_beckmann/function.cpp: value, parametersJacobian", "sources/plugins/nonlinear_function_retrobeckmann/function.cpp: value"]}
{"id": "C57", "title": "Diffuse bootstrap starts at the per-channel minimum", "statement": "Bootstrapping the diffuse term from data sets each channel to the minimum of that channel over all samples. With cosine weights it is the minimum of value over cosine among the samples with a positive cosine, the first sample being ignored, so the result may exceed the first sample. With --bootstrap the process ends. The function then evaluates to these constants.", "quantifier": "every data set, all dimensions", "why_tests_cant": "All data sizes and values.", "anchors": ["sources/plugins/nonlinear_function_diffuse/function.cpp: bootstrap, value"]}
{"id": "C58", "title": "Search and clamp helpers", "statement": "is_in returns the first index at which a value occurs and -1 exactly when it does not occur; clamp(x,a,b) with a <= b lies in [a,b], equals x inside and the nearest end outside.", "quantifier": "every vector, every value", "why_tests_cant": "All sizes and values.", "anchors": ["sources/core/common.h: is_in, clamp"]}
{"id": "C59", "title": "Composites evaluate their parts at the converted point", "statement": "The value of a compound is the sum, and the value of a product the component-wise product, of the values its functions take at the point converted to their own parametrization. If both the composite and a part have the parametrization UNKNOWN_INPUT the part is evaluated on uninitialised memory.", "quantifier": "every tree of functions and every point", "why_tests_cant": "All tree shapes, points and parametrizations.", "anchors": ["sources/core/function.cpp: compound_function::value, product_function::value", "sources/core/params.h: params::convert"]}
{"id": "C60", "title": "Function objects are built as the command line says", "statement": "Building a function from options always terminates. Without --func, or with a plugin that cannot be found, the result is a rational function. A plugin name gives that plugin's function, multiplied by the Fresnel function if --fresnel names a nonlinear plugin, with the fixed-lobe and fixed-fresnel flags on the right factor. A bracketed list gives the compound of its lobes in the order written, each with its own --fixed flag and Fresnel factor. (A lobe whose plugin is missing makes the program dereference a null pointer; an empty list raises an exception.)", "quantifier": "every option set, every search path and file system content, every list of lobes", "why_tests_cant": "Command lines, nesting depths and installed plugins are unbounded.", "anchors": ["sources/core/plugins_manager.cpp: get_function"]}
{"id": "C61", "title": "Data and function are made compatible, or the program stops", "statement": "check_compatibility: unequal output sizes stop the program; a function without input parametrization takes that of the data and keeps its dimensions; otherwise nothing changes unless --change-param is given with different parametrizations, in which case the data is replaced by a converted object only if it has no sample (with samples the behaviour is undefined).", "quantifier": "every pair of parametrizations, every option set", "why_tests_cant": "All combinations.", "anchors": ["sources/core/plugins_manager.cpp: check_compatibility", "sources/core/data.h: data_params"]}
{"id": "C62", "title": "The parallel search does not depend on the schedule", "statement": "For every order in which the threads execute their critical sections, the parallel rational fitter gives the same answer: the first number of coefficients for which some split into numerator and denominator is fitted, and among these splits one with the smallest L2 distance (smallest delta with --use_delta). The function is the same for all schedules unless two splits tie. With a zero step and no fit the search never ends.", "quantifier": "every schedule of the threads, every data set and range of sizes", "why_tests_cant": "All interleavings.", "anchors": ["sources/plugins/rational_fitters/quadprog_parallel.cpp: fit_data"]}
{"id": "C63", "title": "Automatic conversion of data without intervals", "statement": "The parallel fitter converts other data to vertical segments by storing, for each sample, the sample followed by (1-dt)y and (1+dt)y. The code writes record i at entry i instead of i times the record size, so only a single sample is converted correctly: with two samples or more the records overlap and the last upper bound is never initialised.", "quantifier": "every data set, all dimensions and dt", "why_tests_cant": "All data sizes.", "anchors": ["sources/plugins/rational_fitters/quadprog_parallel.cpp: fit_data"]}
{"id": "C64", "title": "The eigen fitter minimises the algebraic error", "statement": "Given exact eigenvectors, when the eigen fitter reports success every channel of the fitted rational function has, up to a common factor, the unit coefficient vector that minimises the sum over the samples of (p(x) - y q(x))^2 on the data's domain; data that are a quotient of polynomials of the requested sizes are reproduced wherever the fitted denominator does not vanish. It reports failure, leaving the channel alone, only when the decomposition fails or every unit vector has an error beyond the largest double. Whatever the decomposition returns, the first of the smallest non negative eigenvalues is used. Data with more outputs than the function dereference a null pointer.", "quantifier": "every data set, sizes and number of channels", "why_tests_cant": "All data sets and sizes.", "anchors": ["sources/plugins/rational_fitters/eigen.cpp: fit_data"]}
{"id": "C65", "title": "The least squares fitter minimises the true error in the numerator", "statement": "Given an exact least squares solver and at least one iteration, the leastsquare fitter always succeeds and for each channel the numerator minimises the sum of (p(x)/q(x) - y)^2 for the denominator found, if that does not vanish at the samples; the denominator minimises the sum of (y (y q(x) - p0(x)))^2 for the previous numerator p0 (the constant 1 at first). Data that are the inverse of a polynomial of the requested size are reproduced. With no iteration it reports success with a denominator that was never computed.", "quantifier": "every data set, sizes, number of channels and of iterations", "why_tests_cant": "All data sets and sizes.", "anchors": ["sources/plugins/rational_fitters/leastsquare.cpp: fit_data"]}
{"id": "C66", "title": "Isotropic Lafortune lobes", "statement": "With L lobes the function evaluates the sum of the positive lobes (Cx(x0x3+x1x4)+Cz x2x5)^N in every channel; its Jacobian has the right size and is exact in every entry except possibly Cx, Cz of a lobe whose dot product is exactly 0; setting and getting the 3*L*nY parameters is the identity and another length ends the process. Bootstrapping gives every lobe the exponent L and, without --bootstrap, the same direction, so all lobes then have identical Jacobian columns at every point.", "quantifier": "every number of lobes and channels, all parameters and directions", "why_tests_cant": "All sizes; real analysis.", "anchors": ["sources/plugins/nonlinear_function_isotropic_lafortune/function.cpp"]}
{"id": "C67", "title": "Spherical Gaussian", "statement": "The spherical Gaussian evaluates ks*exp(n(d-1)) where d is the cosine of the chosen parametrization, its Jacobian is its gradient, and for ks, n >= 0 and d <= 1 it lies between 0 and ks, reaching ks at d = 1.", "quantifier": "all parameters, types (except moment) and directions", "why_tests_cant": "Real analysis.", "anchors": ["sources/plugins/nonlinear_function_spherical_gaussian/function.cpp"]}
{"id": "C68", "title": "Shadowing terms", "statement": "Schlick's shadowing term evaluates the product of the two G1 factors, its Jacobian is the derivative where the denominators do not vanish, and it lies in (0,1] for w >= 0 and cosines in (0,1]. The Jacobian of the Smith term is 0 where (mu/w)^2 = 2 although the derivative is not, and that of Walter's approximation is positive for small roughness although the value is constantly 1 there. The values of the Smith and Walter terms are given in closed form: 1 for Smith when the view direction is the normal, 0 for Walter unless both directions are above the surface.", "quantifier": "all parameters and directions", "why_tests_cant": "Real analysis.", "anchors": ["sources/plugins/nonlinear_shadowing_schlick/function.cpp", "sources/plugins/nonlinear_shadowing_smith/function.cpp", "sources/plugins/nonlinear_shadowing_walter_smith/function.cpp", "sources/plugins/nonlinear_shadowing_walter_smith/function.hpp"]}
{"id": "C69", "title": "Parameter vectors of the function plugins", "statement": "For each non linear function plugin, setParameters followed by parameters is the identity on vectors of nbParameters entries, whatever the object held before, and the starting point of bootstrap lies between getParametersMin and getParametersMax.", "quantifier": "every plugin with per channel parameters, number of channels and parameter vector", "why_tests_cant": "All sizes and values.", "anchors": ["sources/plugins/nonlinear_function_blinn/function.cpp: setParameters, parameters", "sources/plugins/nonlinear_function_ward/function.cpp: setParameters, parameters, getParametersMin", "sources/plugins/nonlinear_function_sgd/function.cpp: setParameters, parameters", "sources/core/function.cpp: getParametersMax"]}
{"id": "C70", "title": "SGD and retro Yoo cannot be fitted with derivatives", "statement": "SGD evaluates (a truncated 1/pi times) diffuse colour plus lobe above the surface; its Jacobian is identically 0, which is wrong for the diffuse colour at every point above the surface. Retro Yoo multiplies the result into uninitialised memory, so its value and the exactness of its Jacobian depend on what memory contained, and parameters() returns 3 instead of 2 entries per channel, the last third uninitialised.", "quantifier": "all parameters, memory contents and directions", "why_tests_cant": "All memory contents.", "anchors": ["sources/plugins/nonlinear_function_sgd/function.cpp", "sources/plugins/nonlinear_function_retroyoo/function.cpp"]}
{"id": "C71", "title": "The other Fresnel factors", "statement": "The Jacobian of the retro-reflecting Schlick factor is the derivative of its value. The normalized Schlick factor cannot be used: its reflectance vector is never given a size, so setting parameters ends the process; with the vector sized, its Jacobian would be the derivative only for reflectance 1 or at normal incidence.", "quantifier": "all parameters and directions", "why_tests_cant": "Real analysis.", "anchors": ["sources/plugins/nonlinear_fresnel_retroschlick/function.cpp", "sources/plugins/nonlinear_fresnel_normalized_schlick/function.cpp"]}
{"id": "C72", "title": "Eigen non linear fitter: residual and Jacobian", "statement": "For data and a function that can be compared, the residual vector given to Eigen's Levenberg-Marquardt holds, channel by channel, the differences between each sample and the function (times the cosine with --fit-with-cosine) at the converted sample position, and the Jacobian matrix holds exactly their partial derivatives whenever the function's own Jacobian is exact. A parameter vector outside of the function's bounds is refused and leaves the function as it was.", "quantifier": "every data set, function tree, parameter vector and solver buffer", "why_tests_cant": "All sizes, all conversions; real analysis.", "anchors": ["sources/plugins/nonlinear_fitter_eigen/fitter.cpp: EigenFunctor"]}
{"id": "C73", "title": "NLopt and Ipopt minimise the same sum of squares", "statement": "The objective evaluated by the NLopt and by the Ipopt fitter is the sum over samples and channels of the squared difference between function and data at the converted position, and the gradient they provide is the gradient of that objective whenever the function's own Jacobian is exact; the function then holds the evaluated parameters.", "quantifier": "every data set, function tree and parameter vector", "why_tests_cant": "All sizes; real analysis.", "anchors": ["sources/plugins/nonlinear_fitter_nlopt/fitter.cpp: f, df", "sources/plugins/nonlinear_fitter_ipopt/fitter.cpp: eval_f, eval_grad_f"]}
{"id": "C74", "title": "Ceres fitter: residual blocks", "statement": "The residual of a sample is data minus function, or with --log-fit the difference of the logarithms of one plus each; the Jacobian is exact without --log-fit. With --log-fit it divides by one plus the data instead of one plus the function, so an entry is the derivative of the residual exactly where the function does not depend on the parameter or already equals the data.", "quantifier": "every sample, function tree and parameter vector", "why_tests_cant": "Real analysis.", "anchors": ["sources/plugins/nonlinear_fitter_ceres/fitter.cpp: CeresFunctor, fit_data"]}
{"id": "C75", "title": "What a non linear fitter leaves behind", "statement": "Whatever the solver asks for and answers: a function that is not non linear is refused, one without parameters accepted; only free parameters of the function ever change; on success the function holds the solver's final point; on failure it holds the starting point or a point the solver asked about (Eigen, NLopt) or the final point if one was delivered (Ipopt); the bounds of the definition domain are the data's in all cases. Ceres always reports success.", "quantifier": "every solver strategy, data set and function tree", "why_tests_cant": "All adaptive behaviours of an external solver.", "anchors": ["sources/plugins/nonlinear_fitter_eigen/fitter.cpp: fit_data", "sources/plugins/nonlinear_fitter_nlopt/fitter.cpp: fit_data", "sources/plugins/nonlinear_fitter_ipopt/fitter.cpp: fit_data, finalize_solution", "sources/plugins/nonlinear_fitter_ceres/fitter.cpp: fit_data"]}
{"id": "C76", "title": "data2data without interpolation converts the samples", "statement": "data2data writes in the parametrization named by --param, or in the input's when the name is unknown, and refuses to run when both are unknown. Output sample i has the position of input sample i converted to that parametrization and the same values; only without --all-values, and when light or view is below the horizon, it is a sample of zeros instead (the sample is not dropped). It completes exactly when every position can be converted and the target has a conversion rule (so the four parametrizations without one cannot even be copied). Keeping the parametrization copies the data, and going to CARTESIAN and back restores it, on the documented ranges.", "quantifier": "every data set, parametrization, --param text and --all-values", "why_tests_cant": "All sizes and positions.", "anchors": ["sources/softs/data2data/main.cpp: compute_parameters, convert_vertical_segment, main"]}
{"id": "C77", "title": "data2data with interpolation resamples", "statement": "With a data plugin that defines its own positions, each output sample keeps its position and gets the input object's value at that position converted through CARTESIAN, or zeros when light or view is below the horizon; the result does not depend on the order in which the parallel iterations run. One input channel is repeated over the output channels; several channels into one give the sum plus what the destination held, divided by the number of channels.", "quantifier": "every pair of data objects, every interpolant and every schedule of the iterations", "why_tests_cant": "All schedules of the parallel loop.", "anchors": ["sources/softs/data2data/main.cpp: convert_with_interpolation"]}
{"id": "C78", "title": "brdf2data exports function values or differences", "statement": "brdf2data keeps the positions and writes the function's value at each converted position, or the measured values minus it with --export-diff. The two exports add up to the measurement; exporting into an export changes nothing and leaves zero differences; the root mean square of the exported differences is the L2 distance of the function to the data.", "quantifier": "every function, data set and position", "why_tests_cant": "All sizes and conversions.", "anchors": ["sources/softs/brdf2data/main.cpp: main", "sources/core/function.cpp: L2_distance"]}
{"id": "C79", "title": "brdf2gnuplot plots values, errors and polar slices", "statement": "Each line holds a sample's position and, per channel, the value of the function at the converted position (times both cosines with --cos-plot), measured minus value with --error, or after the sample's number that difference relative to the measurement with --linear_error. A polar plot of 2N lines has the values for light at the given elevation and views at -i*pi/2/N on the light's side, then at i*pi/2/N on the other.", "quantifier": "every function, data set, sample count and option", "why_tests_cant": "All sizes.", "anchors": ["sources/softs/brdf2gnuplot/main.cpp: main"]}
{"id": "C80", "title": "fit2stat converts the data and reports the errors", "statement": "Data in the function's parametrizations are used as they are; with another input parametrization the positions are converted, with another output parametrization the channels; when both differ the program ends abnormally. Going from several channels to one the sums are never reset, each sample counts again in the following ones. The reported norms, mean square errors and cosine weighted errors are those of measured minus evaluated values. It completes only for functions in CARTESIAN coordinates.", "quantifier": "every function, data set and pair of parametrizations", "why_tests_cant": "All sizes and conversions; sums over arbitrarily many samples.", "anchors": ["sources/softs/fit2stat/fit2stat.cpp: convertDataToFunctionParam, fastNormComputation, fastWeightedErrors, computeCosineFactorsFromData, main"]}
{"id": "C81", "title": "data2moments sums over a regular grid", "statement": "For an object with an interpolant, data2moments writes ten lines, for each channel: the total of the values above the channel's least sample over the data's bounding box, and the moments of order 1 to 3 in the two chosen coordinates divided by it. Each is the sum over every position of a regular grid (100 or the given number per coordinate, one where the box is flat; positions at the left end of each interval), once each, times the volume of a cell. A channel equal to its least sample everywhere has total 0 and no other number. It ends abnormally when a chosen coordinate does not exist (the default ones of data with one coordinate), overflows with more positions than an int holds (the default for five coordinates), and refuses plain lists of samples.", "quantifier": "every interpolant, box, number of samples per coordinate and choice of coordinates", "why_tests_cant": "All grid sizes and dimensions.", "anchors": ["sources/softs/data2moments/main.cpp: main"]}
{"id": "C82", "title": "data2moments reports moments of a distribution", "statement": "When the interpolant is nowhere below the least sample, the total is not negative, the means are within the box, the second moments at least the squared means and the mixed moment within the Cauchy-Schwarz bound. Scaling the values by a positive factor and shifting them scales the total and changes nothing else. For a uniform excess the total is volume times excess and the mean is half a step below the middle of the box.", "quantifier": "every interpolant, box and sampling", "why_tests_cant": "All grid sizes; real valued inequalities.", "anchors": ["sources/softs/data2moments/main.cpp: main"]}
{"id": "C83", "title": "Typed vector options", "statement": "A vector option written [a, b, c] gives the elements a, b, c converted to the type asked for, whatever white space surrounds them; a missing option or one without brackets gives none. An empty element (a trailing comma or [] included) ends the list and counts as an element - for an int an uninitialised one -, and an element of more than 255 bytes is split and loses a byte.", "quantifier": "every option text made of such elements, every conversion", "why_tests_cant": "Texts of any length and any number of elements.", "anchors": ["sources/core/args.h: arguments::get_vec"]}
{"id": "C84", "title": "ASTM files", "statement": "Loading an ASTM file with at least NUM_POINTS rows gives the parametrization announced by the names after VARS (their number and the last of them; not their order) and the first NUM_POINTS rows; lines without a comma and text after the numbers of a row are ignored. With fewer rows the loader never returns, or stops the program if the file ends within a row; a negative number of points is an exception.", "quantifier": "every header, list of names, body, number of points and number syntax", "why_tests_cant": "Non termination and files of any size.", "anchors": ["sources/plugins/data_io/astm.cpp: parse_header, compute_parameters, load_data"]}
{"id": "C85", "title": "Interpolation of scattered samples", "statement": "The value of the rbf interpolant is the average of at most three samples weighted by the inverse of their squared distance plus 1e-10; it stays within the range of the samples used, ignores the others, and follows scaling and shifting of the values. At a sample it is within 2M/(1e10 delta) of it but not equal; without samples it is zero. The samples themselves cannot be read back.", "quantifier": "every table of samples, every point, every search result that names existing samples with their distances", "why_tests_cant": "Real valued inequalities for all tables and all answers of the search library.", "anchors": ["sources/plugins/data_interpolants/rbf.cpp: rbf_interpolant::value"]}
{"id": "C86", "title": "Exported shaders compile", "statement": "Saving a compound of products of plugins as a shader or as a BRDF explorer file writes a GLSL program that parses, whatever the parameters print as. It compiles (every name declared before use, every call matching a signature, no function defined twice) exactly when the function has one or three channels and no plugin occurs twice.", "quantifier": "every tree of plugins of that shape, every parameter vector, every number of channels, every way of printing numbers in decimal", "why_tests_cant": "The generated text depends on an unbounded tree and on every parameter value; tests compile a few shaders.", "anchors": ["sources/core/function.cpp: function::save, compound_function::save_call, product_function::save_call", "sources/plugins/*/function.cpp: save_call, save_body"]}
{"id": "C87", "title": "Exported shaders compute the same colour", "statement": "For compounds of products of the Blinn, Ward, Schlick (and retro-Schlick), diffuse, isotropic Lafortune and spherical Gaussian (half, back, mirror) plugins, evaluating BRDF(L,V,N,X,Y) in the exported shader gives the value of the function object with the printed parameters, for all directions where both are defined; one channel gives a grey.", "quantifier": "every such tree, every parameters, every pair of unit directions", "why_tests_cant": "Equality of two real valued programs over all trees and directions.", "anchors": ["sources/core/function.cpp: function::save", "sources/plugins/*/function.cpp: save_call, save_body, value"]}
{"id": "C88", "title": "Functions whose shader is not usable", "statement": "Exporting stops the program exactly when the function contains the smith plugin or a rational function; the file it writes is not a GLSL program when the function contains the schlick or walter masking, when it contains no compound at all (a plugin or product alone), or when a non-empty compound is a factor of a product; with the retroyoo plugin it never compiles.", "quantifier": "every function tree, parameters, channels and number formatting", "why_tests_cant": "Rejection of an unbounded family of generated texts.", "anchors": ["sources/core/function.cpp: function::save, product_function::save_call", "sources/plugins/nonlinear_shadowing_*/function.cpp: save_call, save_body", "sources/plugins/nonlinear_function_retroyoo/function.cpp"]}
{"id": "C89", "title": "Shaders that differ from their function", "statement": "The exported shader of the retroblinn, abc, spherical Gaussian (retro) and retrobeckmann plugins does not compute the value of the function: the scale is dropped, the cosine replaces one minus the cosine, the light replaces its mirror image, and the product of the cosines replaces the fourth power of the back cosine, respectively. Both values are given for all parameters and directions.", "quantifier": "every parameters, directions, one or three channels", "why_tests_cant": "Exact values over a continuum of inputs.", "anchors": ["sources/plugins/nonlinear_function_retroblinn/function.cpp", "sources/plugins/nonlinear_function_abc/function.cpp", "sources/plugins/nonlinear_function_spherical_gaussian/function.cpp", "sources/plugins/nonlinear_function_retrobeckmann/function.cpp"]}
{"id": "C90", "title": "Plugin function files restore the plugin", "statement": "Saving an object of a nonlinear plugin in ALTA's own format never fails except for sgd, and loading the text into an object of the same plugin and number of channels gives back every parameter as printed, the parametrization of an abc function and the number of lobes of a lafortune function, wherever the text stands. It holds for diffuse, blinn, retroblinn, ward, beckmann, spherical_gaussian (all types), the Fresnel and shadowing plugins, abc, isotropic lafortune, and lafortune with at most one lobe.", "quantifier": "every plugin, number of channels and lobes, parameter values, surrounding text and way of printing numbers that can be read back", "why_tests_cant": "Round trip of generated text for all values and sizes.", "anchors": ["sources/plugins/nonlinear_*/function.cpp: load, save_call"]}
{"id": "C91", "title": "Plugin function files that lose information", "statement": "What the other plugins' files restore: retrobeckmann inverts the flag that selects its parametrization; retroyoo restores nothing, sets its first parameter to zero, leaves the stream failed and reports success; lafortune with several lobes gives the exponents of the last lobe to the first and leaves the others as they were or uninitialised; sgd cannot save (but loads files listing its eleven vectors), and normalized_schlick stops the program on saving and loading.", "quantifier": "every object of these plugins, any number of channels and lobes, any surrounding text", "why_tests_cant": "Exact effect on every parameter for all sizes and values.", "anchors": ["sources/plugins/nonlinear_function_retrobeckmann/function.cpp: load, save_call", "sources/plugins/nonlinear_function_retroyoo/function.cpp: load, save_call", "sources/plugins/nonlinear_function_lafortune/function.cpp: load", "sources/plugins/nonlinear_function_sgd/function.cpp: load", "sources/plugins/nonlinear_fresnel_normalized_schlick/function.cpp"]}
{"id": "C92", "title": "A plugin refuses the file of another plugin", "statement": "Loading a text saved by another plugin, or one whose first tag is not #FUNC, reports failure and leaves the object as it was; the exceptions are the two lafortune plugins, which accept each other's files (an isotropic function takes the third coefficient for the exponent), and the types of spherical_gaussian.", "quantifier": "every pair of plugins, every parameters, every surrounding text", "why_tests_cant": "All pairs of plugins with all values.", "anchors": ["sources/plugins/nonlinear_*/function.cpp: load"]}
{"id": "C93", "title": "Sums of plugins restore each of their functions", "statement": "Saving a sum of plugins of C90, in any number and with repetitions, and loading the text into a sum of the same plugins gives every function its own parameters back. With a retroyoo function in front, no function after it is loaded and the sum still reports success.", "quantifier": "every list of plugins, every parameters", "why_tests_cant": "Induction over lists of functions of any length.", "anchors": ["sources/core/function.cpp: compound_function::load, compound_function::save_call"]}
{"id": "C94", "title": "Truncated plugin function files", "statement": "A plugin function file cut after any number of lines (the first one included) is not refused: load reports success, the parameters whose lines are present are set, in the order of the file, and the others keep the values they had.", "quantifier": "every plugin whose numbers follow the first line, every number of channels, every cutting point and values", "why_tests_cant": "Every crash point of a partial write.", "anchors": ["sources/plugins/nonlinear_*/function.cpp: load"]}
{"id": "C95", "title": "Shared functions in Python scripts", "statement": "Whatever a script has done with function objects before: f.set(v) with the right number of numbers gives each plugin function of f its part of v, the last one if it occurs several times in f, and touches nothing else; with a wrong number it does nothing. f.get() lists the parameters in order, and returns v after f.set(v) exactly when v gives all occurrences of a plugin function the same numbers (always when none occurs twice; for f + f the first half is lost). f + g and f * g keep following f and g: at any later moment their value is the sum, or the product, of the current values of f and g at the same point; they are None when an operand is None or has no parameters. A function keeps its value unless a plugin function it contains is given new parameters.", "quantifier": "every history of creations, sums, products and set calls, every sharing of objects, every point", "why_tests_cant": "Histories with aliasing are unbounded; a test has a fixed small object graph.", "anchors": ["sources/python/alta.cpp: add_function, mult_function, set_function_params, get_function_params", "sources/core/function.cpp: compound_function, product_function"]}
{"id": "C96", "title": "Options from Python dictionaries", "statement": "arguments(d) defines exactly the keys of d; each has the text of the last entry with that key. A vec given as value is read by get_vec as the same numbers, as far as printing keeps them.", "quantifier": "every sequence of entries and every vector", "why_tests_cant": "Every dictionary and vector.", "anchors": ["sources/python/wrapper_args.h: python_arguments", "sources/python/wrapper_vec.h: vec_str", "sources/core/args.h: get_vec"]}
{"id": "C97", "title": "Vectors in Python", "statement": "v[i] is component i for 0 <= i < len(v) and an exception for every other index, also a negative one; list(v) has the components of v; v[i] = x changes component i alone and ends the program when i is out of range; a + b and a - b are componentwise and end the program when the lengths differ.", "quantifier": "every vector and index", "why_tests_cant": "Every index and length.", "anchors": ["sources/python/wrapper_vec.h: register_vec"]}
{"id": "C98", "title": "data2data in Python", "statement": "The result has the parametrization of the target and one sample per sample of the source, in order: the same position in the other parametrization, then the channels (copied, broadcast from one, or averaged to one), then intervals that are all zero, so that they contain the value only where it is zero. The average also contains the previous content of the memory.", "quantifier": "every pair of parametrizations, samples and number of channels", "why_tests_cant": "Every content of memory and every sample.", "anchors": ["sources/python/alta.cpp: data2data"]}
{"id": "C99", "title": "brdf2data in Python", "statement": "Every sample of the data keeps its position and gets the first dimY channels of the function there as values; data without samples is unchanged; with fewer channels in the function it does not succeed.", "quantifier": "every function, parametrization and data", "why_tests_cant": "Every function and sample.", "anchors": ["sources/python/alta.cpp: brdf2data"]}
{"id": "C100", "title": "The Lafortune function", "statement": "With L lobes of three coefficients and nY channels: the parameter vector has 4 L nY numbers, set then get returns it, any other length ends the program, and the diffuse term, zero in a new object, is never part of it. The value of a channel is its diffuse term plus, for every lobe, the dot product of Cx, Cy, Cz with the componentwise product of the two directions, raised to the exponent, when it is positive. The Jacobian is the derivative except where such a dot product is zero. A fit starts from the least value of each channel as diffuse term and lobes spread over the quarter circle; without samples or with more channels than the function it ends the program. With the flag of isotropic lobes, which the constructor leaves uninitialised, the object can be read and evaluated, but setting the parameters, the Jacobian and the start of a fit end the program.", "quantifier": "every number of lobes and channels, every parameter vector, direction and data", "why_tests_cant": "Every parameter vector and every content of uninitialised memory.", "anchors": ["sources/plugins/nonlinear_function_lafortune/function.cpp: lafortune_function", "sources/plugins/nonlinear_function_lafortune/function.h: getCurrentLobe"]}
{"id": "C101", "title": "The starting point of a fit", "statement": "Starting a function for a fit: with --bootstrap [v1, v2, ...] the free parameters of a sum, a product or a single function are the numbers given in order and zero beyond, and the fixed functions keep whatever they had, without being started. Without the option each function of a sum starts with the options given to it. With a file, a sum or a product starts from the parameters of the function saved there, free or fixed; more generally each function is set by the text where the previous one stopped or, when the text does not suit it, is left unchanged and starts on its own - the factors of a product with the same option, so that a factor the file does not hold keeps its old parameters. A file without the exact line that ends a header makes the call loop forever; a file that cannot be opened leaves a sum or a product as it was and ends the program for a single function; a single function ignores a saved file because it does not skip the header.", "quantifier": "every tree of functions, every option and every content of the file", "why_tests_cant": "Every tree, option and file content, and a call that does not return cannot be tested.", "anchors": ["sources/core/function.cpp: function::bootstrap, nonlinear_function::bootstrap, compound_function::bootstrap, product_function::bootstrap"]}
{"id": "C102", "title": "Options, exit status and files of the programs", "statement": "data2brdf, brdf2brdf, brdf2data, brdf2gnuplot, data2data, data2moments, fit2stat and data2stats: asked for help, a program does nothing and exits with 0; without a mandatory option it does nothing and exits with 1. However a run ends, no file other than the one named by --output has changed. The exit status is 0 or 1, and with 1 no file has changed at all, except that data2moments empties its output when the data plugin cannot be opened.", "quantifier": "every command line, every content of the disk, every behaviour of the plugins, of the readers and writers and of the fit", "why_tests_cant": "Every content of files and every behaviour of the code the programs call.", "anchors": ["sources/softs/*/main.cpp: main", "sources/softs/fit2stat/fit2stat.cpp: main", "sources/softs/data2stats/data2stats.cpp: main"]}
{"id": "C103", "title": "data2brdf", "statement": "data2brdf exits with 0 exactly when it prints help, lists the parameters of a fitting plugin that exists, or when the plugin, the data and the function are found, the data has samples and the fit succeeds; the output then holds the fitted function with the options of the command line and the two errors of the fit. When the output cannot be opened, data2brdf, brdf2brdf, brdf2gnuplot and data2moments exit with 0 all the same and write nothing; fit2stat, data2stats and data2data for binary files do not exit with 0 in that case.", "quantifier": "every command line, disk and behaviour of the code called", "why_tests_cant": "Every failure of the code called.", "anchors": ["sources/softs/data2brdf/main.cpp: main", "sources/core/function.cpp: function::save"]}
{"id": "C104", "title": "Programs that start from a function", "statement": "brdf2brdf exits with 0 exactly when it reads a function from the input, and the output is then that function saved with the options of brdf2brdf. brdf2data does so exactly when it reads the function and the data, and the output is then the data with the values of the function; when the data plugin cannot be opened it also exits with 0 and writes nothing. brdf2gnuplot exits with 0 only when it read the function, and the output is the plot over the data, the polar plot, or, when neither is asked for, not written.", "quantifier": "every command line, disk and behaviour of the code called", "why_tests_cant": "Every failure of the code called.", "anchors": ["sources/softs/brdf2brdf/main.cpp: main", "sources/softs/brdf2data/main.cpp: main", "sources/softs/brdf2gnuplot/main.cpp: main"]}
{"id": "C105", "title": "Programs that start from data", "statement": "data2data exits with 0 exactly when the data is read, the output parametrization and data class exist and the conversion and the saving succeed; the output is then the converted data: splatted when the target class is vertical_segment or --splat is given, interpolated otherwise, in binary with --out-data alta-binary and in the text of its class otherwise. data2moments exits with 0 exactly when the data is read and is not a vertical_segment, and the output holds its moments.", "quantifier": "every command line, disk and behaviour of the code called", "why_tests_cant": "Every failure of the code called.", "anchors": ["sources/softs/data2data/main.cpp: main, convert", "sources/softs/data2moments/main.cpp: main"]}
{"id": "C106", "title": "Reports of fit2stat and data2stats", "statement": "fit2stat and data2stats exit with 0 exactly when both inputs are read and, if --output is given and not empty, that file could be opened; it then holds one line per error, with its name. The errors of fit2stat weighted by both cosines are not in the report: the lines with that name repeat the errors weighted by the light alone.", "quantifier": "every command line, disk, data and function", "why_tests_cant": "Every value of the errors.", "anchors": ["sources/softs/fit2stat/fit2stat.cpp: main", "sources/softs/data2stats/data2stats.cpp: main"]}
{"id": "C107", "title": "Crashes of the programs", "statement": "When the code the programs call does not crash, a run uses a null pointer exactly in these cases: data2brdf, data2data, fit2stat and brdf2gnuplot with data whose plugin cannot be opened, brdf2brdf with an input that is missing or is not a function. Otherwise it ends by itself or with an exception.", "quantifier": "every command line and disk, every behaviour of the code called that does not crash", "why_tests_cant": "Every combination of missing files and plugins.", "anchors": ["sources/softs/*/main.cpp: main", "sources/core/plugins_manager.cpp: load_function, load_data"]}
{"id": "C108", "title": "Functions that go through files", "statement": "Reading the output of a successful data2brdf gives the fitted function with its numbers as printed: any nonlinear function of the structure that the options describe, or a rational function. brdf2brdf keeps a function when its own options describe that structure (--func and the others given again), or for rational functions. Without --func, and for every function with --export alta, brdf2brdf exits with 0 and writes a file that no program can read, on which brdf2brdf itself crashes.", "quantifier": "every function, command line and disk", "why_tests_cant": "Every structure of functions and every parameter.", "anchors": ["sources/softs/data2brdf/main.cpp: main", "sources/softs/brdf2brdf/main.cpp: main", "sources/core/plugins_manager.cpp: load_function, get_function", "sources/core/function.cpp: function::save, save_header"]}
{"id": "C109", "title": "C++ export of a rational function", "statement": "With --export C++ (or c++, cpp) a rational function with one channel and at least one coefficient in the numerator and the denominator is written as a C++ function whose names are all declared, and brdf(x) is the quotient of the two polynomials with the coefficients as printed. It is the value of the function object at x when the domain is [-1, 1] in every input; for any other domain it is the value at the point x is mapped to when [-1, 1] is stretched to the domain, because the exported code does not normalise its input, so program and object differ.", "quantifier": "every number of inputs, degree, coefficient, domain and point where the denominator is not 0", "why_tests_cant": "Every polynomial, domain and point.", "anchors": ["sources/core/rational_function.cpp: rational_function_1d::save_body, rational_function::save_call, rational_function_1d::value", "sources/core/function.cpp: function::save"]}
{"id": "C110", "title": "Functions the C++ export cannot express", "statement": "The C++ export writes a file for every function, but the file is not C++ that compiles when the function contains a plugin (a Lafortune function without lobes apart), two channels of rational functions in all, or a channel without coefficients in the numerator or the denominator.", "quantifier": "every tree of sums and products of plugins and rational functions", "why_tests_cant": "Every tree and every printed number.", "anchors": ["sources/core/function.cpp: function::save, compound_function::save_call, product_function::save_call", "sources/core/rational_function.cpp: rational_function_1d::save_body", "sources/plugins/nonlinear_function_lafortune/function.cpp: save_body"]}
{"id": "C111", "title": "Matlab export", "statement": "Every file written with --export matlab has exactly one more opening than closing brace: the body is opened with { and ended with endfunction, so no file can be read by Matlab or Octave.", "quantifier": "every tree of sums and products of plugins and rational functions", "why_tests_cant": "Every tree and every printed number.", "anchors": ["sources/core/function.cpp: function::save", "sources/core/rational_function.cpp: rational_function_1d::save_body"]}
{"id": "C112", "title": "Files of sums and products of plugins", "statement": "The ALTA file of any tree of sums and products of nonlinear plugins, read with the same options, gives the tree with every plugin restored as it would be from its own file, although the Lafortune function writes its shader code into the file before the functions. The stream is left behind the last function of the tree. A tree with a shifted gamma distribution anywhere in it cannot be saved: the program is ended.", "quantifier": "every tree of sums and products, plugin, parameter and option", "why_tests_cant": "Every depth and width of the tree and every parameter.", "anchors": ["sources/core/function.cpp: compound_function::load, product_function::load, save_body, save_call", "sources/core/plugins_manager.cpp: load_function", "sources/plugins/nonlinear_function_lafortune/function.cpp: save_body"]}
{"id": "C113", "title": "A sum or product reads a text with some of its functions", "statement": "A sum, or any tree of sums and products of plugins, reads a text that holds only some of its functions, in their order: these are restored and the others keep their parameters, however the functions are nested. Each function of the text goes to the first remaining plugin of the same kind. The load succeeds exactly when the text holds at least one function; a function file whose body is refused, or that begins with another line, gives no function.", "quantifier": "every tree of sums and products of plugins and every selection of its plugins", "why_tests_cant": "Every number of members, selection and parameter.", "anchors": ["sources/core/function.cpp: compound_function::load"]}
{"id": "C114", "title": "Text data files that are cut short", "statement": "A text data file that is cut anywhere behind its header is never refused. Cut after a whole line, with or without its end of line, it loads with exactly the samples of the remaining lines. Cut inside the last number of a line, it loads with the number that the remaining digits spell (0 if they spell none). Cut anywhere else inside a line, the loader reads a variable that was never set.", "quantifier": "every data set, every dimension and every position of the cut behind the header", "why_tests_cant": "Every position of the cut (a crash or a full disk while writing) and every data set.", "anchors": ["sources/core/data_storage.cpp: load_data_from_text, save_data_as_text"]}
{"id": "C115", "title": "Text data files through the programs, from file to file", "statement": "data2data on a text data file writes a text file with the parametrization asked for and the converted samples, and exits with 0. Without a new parametrization (and with --all-values, or if no sample lies below the horizon) it copies a file the library saved byte for byte. brdf2data writes the positions of the samples with the values of the function there (or the differences); run again on the file it wrote, it writes the same file.", "quantifier": "all text files the library can save (samples, parametrizations and numbers of channels), all functions, all argument lists without reading options", "why_tests_cant": "a test runs the programs on a few files and compares with stored output", "anchors": ["sources/softs/data2data.cpp main", "sources/softs/brdf2data.cpp main", "sources/core/plugins_manager.cpp load_data", "sources/core/data_storage.cpp load_data_from_text, save_data_as_text", "sources/core/vertical_segment.cpp"]}
{"id": "C116", "title": "Options of the fitting plugins", "statement": "The options set up the solvers as follows and in no other way. Ceres: iterations, factorization (--ceres-factorization, not the documented --ceres-factorizer) and progress as asked; the last of the three tolerances given becomes the tolerance for the function, the tolerances for gradient and parameters never change; a tolerance that is no number throws. NLopt: the eleven names choose their algorithms and everything else SLSQP; evaluations are limited only if asked; the relative function tolerance is set on the parameters. Ipopt: 10 iterations and mumps unless asked. quadprog and eigen read whole sizes unchanged (up to 2^24), quadprog's ranges are never empty and are those of C48, sizes beyond int are undefined behaviour; least squares reads 1e1 as 1. The parallel search with --np below 10 and no --min-np fails without a try.", "quantifier": "all argument lists, all earlier settings of the solver, all conversions of text to numbers", "why_tests_cant": "tests fit with one or two sets of options and cannot see the settings of the solver", "anchors": ["sources/plugins/nonlinear_fitter_ceres/fitter.cpp set_parameters", "sources/plugins/nonlinear_fitter_nlopt/fitter.cpp fit_data", "sources/plugins/nonlinear_fitter_ipopt/fitter.cpp fit_data", "sources/plugins/rational_fitters/quadprog.cpp set_parameters", "sources/plugins/rational_fitters/eigen.cpp set_parameters", "sources/plugins/rational_fitters/leastsquare.cpp set_parameters", "sources/plugins/rational_fitters/quadprog_parallel.cpp fit_data"]}
{"id": "C117", "title": "Rational function files that are cut short", "statement": "A rational function whose channels all exist, normalised and with at least one numerator coefficient, is saved to a text that ends with the last denominator coefficient of the last channel. Loading any beginning of that text that stops before this number - inside the header, the bounds, a channel or between channels - into a new function of the same dimensions is never accepted: it is refused or works with numbers that were never set (the latter for instance when the text stops just before the last number). A text that stops inside the last number is accepted silently: everything else is as saved, and the last coefficient is whatever the remaining characters say.", "quantifier": "every such function, every number of inputs, outputs and coefficients, every point where the file is cut before the end of the last number", "why_tests_cant": "The cut points and functions are unbounded; a test can truncate a few files only.", "anchors": ["sources/core/rational_function.cpp: rational_function::load, rational_function_1d::load, rational_function::save_call, rational_function_1d::save_body", "sources/core/function.cpp: save"]}
{"id": "C118", "title": "Digits of numbers in files", "statement": "A number written with precision P (15 for text data, 10 for functions, 11 significant digits in scientific notation for rational functions) is a text without blanks that is read back as the double nearest to the nearest decimal number of P digits, whatever follows it after a blank. That decimal number differs from the number by at most 5 units of the digit after the last one, relative to the number; order is preserved; numbers of at most P digits are kept exactly (P up to 15), and a number that was read is written as the same text again (P up to 15, zero or normal doubles). If the file ends inside a number, what is left is read to the end or refused. Doubles are NOT all kept: 1 and the double after 1 are written alike in data files; 17 digits would keep them all. Literals of exported shaders are decimal literals of the same value.", "quantifier": "every real number, every precision P > 0 (up to 15 where doubles are re-read), every text that follows, every cut inside a number", "why_tests_cant": "The statement ranges over all 2^64 doubles and every precision; tests only sample them.", "anchors": ["sources/core/data_storage.cpp: save_data_as_text, load_data_from_text", "sources/core/function.cpp: function::save, nonlinear_function::save_call, load", "sources/core/rational_function.cpp: rational_function::save_call"]}
{"id": "C119", "title": "Precision of saved data and functions", "statement": "Text data that are saved and loaded keep their parametrization and number of samples, every coordinate and value agrees with the saved one up to 15 digits (relative error at most 6e-15), and saving them again gives the same file byte for byte. The same holds for saved functions (simple, sum or product) with 10 digits and for rational functions with 11 digits for bounds and coefficients. A function is in general changed by saving and loading it: a parameter 1 + 2^-35, a double, comes back as 1.", "quantifier": "every list of samples, function tree and rational function whose numbers are zero or normal doubles (and, for text data, at most half the largest float)", "why_tests_cant": "Quantifies over all files; a test can compare a few.", "anchors": ["sources/core/data_storage.cpp: save_data_as_text, load_data_from_text", "sources/core/function.cpp: function::save, load", "sources/core/plugins_manager.cpp: load_function", "sources/core/rational_function.cpp: save_call, load"]}
{"id": "C120", "title": "Threads of data2data", "statement": "When data2data interpolates with several threads, the samples written are those of a run with one thread, however the accesses of the iterations to memory are interleaved: no schedule fails if one succeeds, every schedule that lets each iteration go on ends, and at every moment each sample of the output has its new entries up to some place and its old ones after it. The number of incorrect configurations that is reported is exact with one thread; with several threads it is at least one and at most exact, and every value in between is possible because the counter is incremented without synchronisation.", "quantifier": "every input and output object, every schedule of the accesses of all iterations, every moment", "why_tests_cant": "A schedule that loses an increment or tears a sample may never occur in a test run; the statement covers all interleavings of any number of iterations.", "anchors": ["sources/softs/data2data/main.cpp: convert_with_interpolation"]}
{"id": "C121", "title": "Threads of the parallel rational fitter", "statement": "The parallel rational fitter returns, for every interleaving of its iterations, the best fit (smallest L2 distance, or smallest delta with --use_delta) of the first size for which there is one, and its counters and sum of deltas are those of one thread; the function and its domain that all iterations read are not disturbed by the updates made in between. Two interleavings give the same answer, and the same function unless two fits tie. Every interleaving in which each iteration goes on ends.", "quantifier": "every data set, every solver, every interleaving of the iterations of every loop", "why_tests_cant": "A test sees the schedules that happen to occur on one machine.", "anchors": ["sources/plugins/rational_fitters/quadprog_parallel.cpp: fit_data, the parallel loop"]}
{"id": "C122", "title": "Reciprocity of the function plugins", "statement": "Exchanging the two directions does not change the value. This holds for every pair of vectors and every parameter vector for Blinn, retro Blinn and ABC (in any coordinate of one dimension), Beckmann, retro Beckmann with the back parametrization, Ward, the Gaussians of the half and back vector, Schlick's and Walter's shadowing, and both kinds of Lafortune lobes; for vectors of the same length for Schlick's Fresnel factors; for unit directions for the mirror Gaussians and the factor of the retro lobes; for SGD unless exactly one direction is below the surface; and for every sum and product built from symmetric functions. It fails for SGD with one direction below the surface, for Smith's shadowing, which looks at one direction only, and for retro Beckmann without the back parametrization, which can be dark one way and bright the other.", "quantifier": "every plugin, parameter vector, number of channels and pair of directions; every nesting of sums and products", "why_tests_cant": "The claim is an equality over a continuum of directions; a test samples a few pairs and cannot find the directions where the symmetry breaks.", "anchors": ["sources/plugins/nonlinear_function_*/function.cpp: value", "sources/plugins/nonlinear_fresnel_*/function.cpp: value", "sources/plugins/nonlinear_shadowing_*/function.cpp: value", "sources/core/params.cpp: from_cartesian, half_vector", "sources/core/function.cpp: compound_function::value, product_function::value"]}
{"id": "C123", "title": "Ranges of the function plugins", "statement": "With an amplitude that is not negative and other parameters that are positive, no lobe (Blinn, retro Blinn, ABC, Beckmann, retro Beckmann, Ward, Gaussians, isotropic Lafortune) is negative; Blinn and ABC do not exceed their amplitude and reach it at the normal; the Fresnel factor of the retro lobes lies between R0 and 1; Smith's shadowing lies strictly between 0 and 1 when the second direction is above the surface and never when it is below; Walter's shadowing is positive when both are above, but exceeds 1, by less than 0.003, when the argument of its rational approximation is between 1.406 and 1.6.", "quantifier": "every parameter vector inside the bounds, every number of channels and all directions", "why_tests_cant": "A test cannot rule out a negative or amplifying value at some direction; the excess of Walter's term is about 0.001 in a narrow band.", "anchors": ["sources/plugins/nonlinear_function_*/function.cpp: value", "sources/plugins/nonlinear_fresnel_retroschlick/function.cpp: value", "sources/plugins/nonlinear_shadowing_smith/function.cpp: value", "sources/plugins/nonlinear_shadowing_walter_smith/function.cpp: shadowTerm, value"]}
{"id": "C124", "title": "Rational functions after any sequence of calls", "statement": "Any sequence of setMin, setMax, get, update of a channel, setDimY, setSize and clear with vectors of the right lengths succeeds. The bounds of the function are those set last. A channel exists when it was asked for since it was last dropped (by setSize, clear, or setDimY to a smaller number); it keeps the bounds that were set when it was first asked for, flat sides widened by 0.1, and evaluates the quotient given last. Bounds set afterwards change no value, but they are what the file contains, so the function loaded from the file evaluates the same coefficients on the bounds set last, and is another function when those differ. A function with a channel missing dereferences a null pointer when evaluated, and its file does not load. Copying a function with update takes the coefficients and keeps the target's bounds.", "quantifier": "every sequence of calls, number of inputs and channels, sizes and coefficients", "why_tests_cant": "The state depends on the whole order of the calls; a unit test tries a few orders, mostly the one the fitters use.", "anchors": ["sources/core/rational_function.h: rational_function::setMin, setMax, setDimY, setSize, clear, update", "sources/core/rational_function.cpp: rational_function::get, value, load, save_call"]}
{"id": "C125", "title": "Text of a rational function on a stream", "statement": "Sent to the standard output, the text of a rational function determines its number of channels, which of them exist and their coefficients as printed. Sent to any other stream, that stream only receives the headings: no coefficient arrives in it.", "quantifier": "every function, and every way of printing numbers without commas and brackets", "why_tests_cant": "That the text determines the function is a statement about all pairs of functions.", "anchors": ["sources/core/rational_function.cpp: operator<<"]}
{"id": "C126", "title": "Measured tables cut short", "statement": "A MERL file cut anywhere after its 12 byte header loads without an error: every number keeps the bytes that are in the file and the missing ones are zero, so each channel of each sample is the one of the whole file, or is black. Cut in the header, what is read is not defined. A UTIA file cut anywhere loads without an error too, but the missing bytes are what was in memory, so that the same cut file loads as different tables. What follows a complete UTIA table is ignored.", "quantifier": "every table, every length the file is cut to, and every contents of memory", "why_tests_cant": "The files have millions of bytes and every length is a different case; memory a test gets is most often zero.", "anchors": ["sources/plugins/data_io/merl.cpp: read_brdf, load_data, save, get", "sources/plugins/data_io/utia.cpp: load_data"]}
{"id": "C127", "title": "Fitting rational functions through a Matlab session", "statement": "When every problem is answered and what is not a solution is flagged negative, a fit passes strictly inside every interval of every channel, and a failure means that with none of the sizes tried this is possible. The sizes grow one by one from the smallest, the search ends, and they exceed the largest one asked for by one, exactly when the other polynomial has more sizes to try. When the solver stops on an error, the last answer of the session is taken for the new one: its numbers become the coefficients whatever the data, or are read beyond their end; only in a new session does the fit fail. An answer flagged as unfinished is believed, and with --use-qpas no error of the solver is ever noticed. The sizes are the options' (10 by default); unlike in the other fitters, when both smallest sizes are above the largest ones the fit fails with nothing tried. A fit that is not accepted changes nothing.", "quantifier": "every data set, number of channels and sizes, every history of the session and every solver", "why_tests_cant": "What a fit gives depends on all the problems solved before in the same session, and on how the solver fails; a test sees a solver that works.", "anchors": ["sources/plugins/rational_fitter_matlab/rational_fitter.cpp: rational_fitter_matlab::fit_data, set_parameters"]}
{"id": "C128", "title": "What a fitter remembers between fits", "statement": "The sizes of a fit by the quadratic program, eigenvector and Matlab fitters are those of the last set_parameters, whatever arguments the fits are given, and nobody has set them before the first one; the least squares fitter also keeps the sizes given to fits; the Ceres plugin keeps every option it was ever given until it is given again, except the factorization, also those of a set_parameters that raised an exception, up to the first text that is no number; the parallel, NLopt and Ipopt fitters keep nothing. Hence a Python fit with arguments has the settings it would have with a new fitter, except with Ceres, and one without arguments has those of the last fit that had some, or sizes nobody has set when there was none.", "quantifier": "every sequence of set_parameters and fit_data calls with any arguments, and every Python script that fits with one fitter", "why_tests_cant": "The settings depend on everything the fitter object was given before; a test makes one fit with a new fitter.", "anchors": ["sources/core/fitter.h: fitter::set_parameters, fitter::fit_data", "sources/python/alta.cpp: fit_data_with_args, fit_data_without_args", "sources/plugins/rational_fitters: set_parameters, fit_data", "sources/plugins/nonlinear_fitter_ceres/fitter.cpp: nonlinear_fitter_ceres::set_parameters"]}
{"id": "C129", "title": "Data sets as Python sequences", "statement": "d[i] is sample i for 0 <= i < len(d); any other int, also a negative one, stops the program for segments and grids and is undefined behaviour for tables and images; an index that is no int raises an exception. In a loop over d (for x in d) the body gets the samples in order, and the program only goes on after the loop when the body leaves it at one of them: list(d) always fails. A loop over range(len(d)) goes through the samples and ends. d[i] = y for 0 <= i < len(d) makes d[i] give back y (for tables and images its values; the position is ignored) and leaves every other d[j]; elsewhere it fails as reading does; a vector of a wrong size stops the program for segments.", "quantifier": "every valid data set of every class, every index, every loop body, every value assigned", "why_tests_cant": "What a loop does depends on the number of samples and on its body; a test indexes a few positions of one file.", "anchors": ["sources/python/wrapper_data.h: register_data", "sources/core/vertical_segment.cpp: vertical_segment::get, vertical_segment::set", "sources/plugins/data_io: get, set"]}
{"id": "C130", "title": "Function files in Python", "statement": "Whatever function load_function(name) returns is what f.load(name) makes of the function f that the header of the file describes. f.load itself ignores the header, which may be missing, and for functions that use the base class's loader also the plugin: any f with the same number of parameters takes the numbers. A file that cannot be opened or holds another kind of function leaves f as it was, without an exception. What f.save(name) wrote restores f's numbers in any function of the same structure, but load_function gives None for it unless f is a rational function, because f.save writes no command line; f.save(name, args) is always a TypeError.", "quantifier": "every file content, every function object, every saved function", "why_tests_cant": "Loading has to be right for any file and any object, also ones that do not belong together; a test loads a file it saved into the object it saved.", "anchors": ["sources/python/alta.cpp: load_from_file_with_args, load_function, save_function_without_args, register_function", "sources/python/wrapper_args.h: register_args", "sources/core/plugins_manager.cpp: load_function"]}
