{"id": "C01", "title": "Variogram value at zero lag is the nugget", "statement": "Every built-in variogram model (linear, power, gaussian, exponential, spherical, hole-effect) evaluated at distance 0 returns exactly its nugget parameter.", "quantifier": "all six models, all real parameters (positive range / positive exponent where the model has one)", "why_tests_cant": "parameters are continuous; tests sample a few triples", "anchors": ["src/pykrige/variogram_models.py: linear_variogram_model, power_variogram_model, gaussian_variogram_model, exponential_variogram_model, spherical_variogram_model, hole_effect_variogram_model"]}
{"id": "C02", "title": "Variogram models grow with distance", "statement": "linear, power, gaussian, exponential and spherical models are non-decreasing in distance and never below the nugget, for non-negative slope/scale/partial sill and positive range. (The hole-effect model is not monotone, but never goes below its nugget.)", "quantifier": "all pairs of distances 0 <= d1 <= d2, all admissible parameters", "why_tests_cant": "universally quantified inequality over reals", "anchors": ["src/pykrige/variogram_models.py"]}
{"id": "C03", "title": "Bounded variogram models respect the sill and the meaning of 'range'", "statement": "gaussian, exponential and spherical never exceed partial sill + nugget; spherical equals it from the range on; gaussian and exponential have reached at least 95% of the partial sill at the range; hole-effect never exceeds psill*(1+exp(-2))+nugget.", "quantifier": "all distances, all admissible parameters", "why_tests_cant": "inequalities over a continuum", "anchors": ["src/pykrige/variogram_models.py"]}
{"id": "C04", "title": "The Cython variograms compute the same functions as the Python ones", "statement": "For each model that backend='C' supports, the C function gives the same real value as the Python function at every distance >= 0 (including distance == range for the spherical model, where the two branch conditions differ); models it does not support ('hole-effect', and custom functions with other names) are rejected with NotImplementedError rather than mis-evaluated.", "quantifier": "all models, parameters and distances", "why_tests_cant": "the branch boundary d == range is a measure-zero set tests do not hit", "anchors": ["src/pykrige/lib/variogram_models.pyx: get_variogram_model, _c_*_variogram_model", "src/pykrige/lib/cok.pyx"]}
{"id": "C05", "title": "variogram_parameters: list and dict spellings mean the same model", "statement": "[sill, range, nugget], {'sill','range','nugget'} and {'psill': sill-nugget,'range','nugget'} give identical internal parameters; linear and power lists and dicts agree too; missing keys raise KeyError, wrong lengths ValueError, dict with 'custom' TypeError, unknown model ValueError, non-list/dict TypeError; extra keys are ignored and 'sill' wins over 'psill'.", "quantifier": "all parameter values and all dictionaries/lists", "why_tests_cant": "infinitely many dictionaries and lists", "anchors": ["src/pykrige/core.py: _make_variogram_parameter_list"]}
{"id": "C06", "title": "The sill the user asks for is the sill the model has", "statement": "With list parameters [sill, range, nugget] the variogram actually used tends to / reaches `sill` (not sill+nugget, not sill-nugget): spherical equals sill for every distance beyond the range, gaussian/exponential stay at or below sill and get arbitrarily close to it.", "quantifier": "all sill/range/nugget and distances", "why_tests_cant": "end-to-end claim over a continuum", "anchors": ["src/pykrige/core.py: _make_variogram_parameter_list", "src/pykrige/variogram_models.py"]}
{"id": "C07", "title": "Isotropic settings leave coordinates alone", "statement": "With anisotropy scaling 1 and angle 0 (all angles 0 in 3D) the adjusted coordinates equal the original ones; the centre is always a fixed point; and the adjustment with scaling 1 and any angle preserves all distances.", "quantifier": "all coordinates, centres, angles", "why_tests_cant": "identities over reals", "anchors": ["src/pykrige/core.py: _adjust_for_anisotropy"]}
{"id": "C08", "title": "Anisotropy stretches exactly one rotated axis (2D) / two (3D)", "statement": "The squared distance between two adjusted points equals u^2 + scaling^2 * v^2 where (u,v) is the original difference expressed in the frame rotated counter-clockwise by the angle; in 3D it equals u^2 + sy^2 v^2 + sz^2 w^2 with an orthonormal rotated frame. Angles are 360-degree periodic (180 degrees for distances in 2D).", "quantifier": "all points, centres, scalings, angles", "why_tests_cant": "identities over reals", "anchors": ["src/pykrige/core.py: _adjust_for_anisotropy"]}
{"id": "C09", "title": "Great-circle distance is a metric on the sphere, in degrees", "statement": "great_circle_distance is symmetric, lies in [0,180], is 0 exactly when the two lon/lat pairs denote the same point of the sphere, is 360-periodic in longitude, its cosine is the dot product of the unit vectors, and it satisfies the triangle inequality.", "quantifier": "all pairs/triples of longitudes and latitudes", "why_tests_cant": "universally quantified over reals, including antipodes, poles and the date line", "anchors": ["src/pykrige/core.py: great_circle_distance"]}
{"id": "C10", "title": "Chord and great-circle distances are consistent", "statement": "euclid3_to_great_circle applied to the Euclidean distance of the two 3D unit vectors equals great_circle_distance, and the order of chord lengths is the order of great-circle distances, so the moving-window neighbour search on 3D coordinates selects great-circle neighbours.", "quantifier": "all pairs/triples of points", "why_tests_cant": "real identities", "anchors": ["src/pykrige/core.py: euclid3_to_great_circle, great_circle_distance", "src/pykrige/ok.py: OrdinaryKriging.execute"]}
{"id": "C11", "title": "Ordinary kriging is unbiased: constants are reproduced", "statement": "Whenever execute succeeds, the weights used for each point sum to 1, so if every datum equals c every predicted value is c. (With pseudo_inv=True: whenever the kriging equations at that point have a solution; a pseudo-inverse of an inconsistent system gives weights that need not sum to 1.)", "quantifier": "all data sets (2D, 3D, euclidean and geographic), variogram functions and query points, every backend", "why_tests_cant": "holds for every data set", "anchors": ["src/pykrige/ok.py: _get_kriging_matrix, _exec_vector, _exec_loop, _exec_loop_moving_window", "src/pykrige/ok3d.py"]}
{"id": "C12", "title": "Ordinary kriging interpolates the data exactly (exact_values=True)", "statement": "At a query point that coincides with data point k (data points separated by more than 1e-10) the prediction is z_k and the variance is 0, whatever the nugget.", "quantifier": "all data sets, variograms, k, backends", "why_tests_cant": "for every data set", "anchors": ["src/pykrige/ok.py: _exec_vector, _exec_loop", "src/pykrige/ok3d.py", "src/pykrige/lib/cok.pyx"]}
{"id": "C13", "title": "exact_values=False only matters at data points and only with a nugget", "statement": "At query points farther than 1e-10 from all data, exact_values has no effect; at data points with zero nugget the non-exact kriging is still exact; with a positive nugget the prediction at a data point is in general not the datum.", "quantifier": "all data sets, variograms and query points", "why_tests_cant": "for every data set", "anchors": ["src/pykrige/ok.py", "src/pykrige/ok3d.py"]}
{"id": "C14", "title": "Predictions are affine in the data, variances do not depend on them", "statement": "Replacing z by a*z+c replaces every prediction by a*pred+c and leaves every variance unchanged (fixed variogram parameters); predictions for z1+z2 are sums. With universal kriging, adding any combination of the drift functions to the data adds the same combination at the query point to the prediction.", "quantifier": "all data sets, a, c, backends", "why_tests_cant": "for all inputs", "anchors": ["src/pykrige/ok.py", "src/pykrige/uk.py", "src/pykrige/ok3d.py", "src/pykrige/uk3d.py"]}
{"id": "C15", "title": "Vectorized, loop and C backends return the same grid (ordinary kriging)", "statement": "For the same object and query, backends 'vectorized', 'loop' and (for supported models) 'C' return the same values and variances, masked or not, 2D and 3D, and raise for the same singular systems.", "quantifier": "all data, variograms, query points, masks", "why_tests_cant": "for all inputs (tests compare one grid)", "anchors": ["src/pykrige/ok.py: _exec_vector, _exec_loop", "src/pykrige/lib/cok.pyx: _c_exec_loop", "src/pykrige/ok3d.py"]}
{"id": "C16", "title": "Kriging weights minimise the estimation variance; variance is never negative", "statement": "If the variogram is conditionally negative definite on data plus query point, the returned variance equals 2*sum(w*gamma0)-sum(w w gamma) for the returned weights, is non-negative, and no other weights with sum 1 give a smaller value.", "quantifier": "all data sets, admissible variograms, weights", "why_tests_cant": "optimality over a continuum of competitors", "anchors": ["src/pykrige/ok.py"]}
{"id": "C17", "title": "The order of the data points is irrelevant", "statement": "Permuting the data points (coordinates together with values) does not change any prediction or variance, of ordinary or universal kriging.", "quantifier": "all permutations of all data sets", "why_tests_cant": "n! permutations", "anchors": ["src/pykrige/ok.py", "src/pykrige/core.py"]}
{"id": "C18", "title": "Grid and points styles agree, and grid cells are where they should be", "statement": "Cell [i][j] of style 'grid' ([k][i][j] in 3D) is what style 'points' returns for (x_j, y_i[, z_k]); each result depends only on its own query point (and, in universal kriging, on the specified drift values at it), so splitting, reordering or duplicating query points does not change any value.", "quantifier": "all grids, all objects", "why_tests_cant": "all grid sizes", "anchors": ["src/pykrige/ok.py: execute", "src/pykrige/ok3d.py: execute", "src/pykrige/uk.py: execute"]}
{"id": "C19", "title": "Masked execution hides exactly the masked cells and changes nothing else", "statement": "style 'masked' returns masked entries exactly where the mask is True and elsewhere the values of style 'grid', for every backend; a mask given as (nx,ny) is transposed, (3D: axes 0 and 2 swapped), other shapes raise ValueError, a missing mask raises IOError.", "quantifier": "all grids and masks", "why_tests_cant": "2^(nx*ny) masks", "anchors": ["src/pykrige/ok.py: execute", "src/pykrige/ok3d.py: execute", "src/pykrige/uk.py: execute", "src/pykrige/uk3d.py: execute"]}
{"id": "C20", "title": "Moving window with all points equals global kriging; with too many it fails", "statement": "n_closest_points = number of data gives the same result as no window; with n_closest_points larger than the number of data points execute never returns if any cell is unmasked (backend 'C' writes outside its arrays instead of raising); 2D n_closest_points <= 1 raises ValueError; a moving-window result depends only on the k nearest data.", "quantifier": "all data sets, query points, k", "why_tests_cant": "for all inputs", "anchors": ["src/pykrige/ok.py: _exec_loop_moving_window, execute", "src/pykrige/ok3d.py", "src/pykrige/lib/cok.pyx: _c_exec_loop_moving_window"]}
{"id": "C21", "title": "The Cython moving-window loop has no stale state between points", "statement": "The work arrays reused across query points never influence a later result: the output for each unmasked point is the one obtained by running that point alone, and equals the Python moving-window loop.", "quantifier": "all sequences of query points, masks and initial buffer contents", "why_tests_cant": "depends on the history of the buffers", "anchors": ["src/pykrige/lib/cok.pyx: _c_exec_loop_moving_window, check_b_vect"]}
{"id": "C22", "title": "Redundant data points", "statement": "Two coinciding data points with zero nugget make the kriging matrix singular, so without pseudo_inv execution raises LinAlgError and never returns numbers; with pseudo_inv their two weights are equal (they are averaged); when the matrix is regular pseudo_inv changes nothing. The same holds for the universal classes when the specified drift values of the two agree.", "quantifier": "all data sets containing a duplicate, all query points", "why_tests_cant": "for all data sets", "anchors": ["src/pykrige/ok.py", "src/pykrige/ok3d.py", "src/pykrige/uk.py", "src/pykrige/uk3d.py", "src/pykrige/core.py: P_INV"]}
{"id": "C23", "title": "Universal kriging reproduces its drift (2D)", "statement": "If the data are any linear combination of 1 and the configured drift terms (regional_linear, point_log, external_Z, specified, functional) the vectorized prediction at each query point is that same combination of the drift values there.", "quantifier": "all data sets, drift configurations, coefficients and query points", "why_tests_cant": "for all trends", "anchors": ["src/pykrige/uk.py: _get_kriging_matrix, _exec_vector"]}
{"id": "C24", "title": "Universal kriging reproduces its drift (3D)", "statement": "Same for UniversalKriging3D, whose query coordinates are handled in (z,y,x) order while data are in (x,y,z) order.", "quantifier": "all data sets, drift configurations and query points", "why_tests_cant": "axis order mistakes only show on asymmetric data", "anchors": ["src/pykrige/uk3d.py: _get_kriging_matrix, _exec_vector"]}
{"id": "C25", "title": "Universal kriging without drift terms is ordinary kriging", "statement": "UniversalKriging(3D) with no drift terms returns the same values and variances as OrdinaryKriging(3D) on the same inputs; 3D kriging of coplanar data and queries equals 2D kriging.", "quantifier": "all data sets and queries", "why_tests_cant": "for all inputs", "anchors": ["src/pykrige/uk.py", "src/pykrige/ok.py", "src/pykrige/uk3d.py", "src/pykrige/ok3d.py"]}
{"id": "C26", "title": "Where the universal kriging backends agree, and where they do not", "statement": "For the same object and query, backends 'vectorized' and 'loop' of UniversalKriging(3D) give the same values and variances, or raise the same exception, whenever the object has no 'specified' drift, no shown query point lies on a point_log well, and the query is not a masked one on an object with external drift. Each of the three exceptions is a real disagreement of the code: with 'specified' drift the loop backend uses the wrong entries of the drift array, at a well it raises TypeError, and only the vectorized backend evaluates the external drift at masked cells.", "quantifier": "all drift configurations, data, queries, masks", "why_tests_cant": "for all configurations", "anchors": ["src/pykrige/uk.py: _exec_loop, _exec_vector", "src/pykrige/uk3d.py: _exec_loop"]}
{"id": "C27", "title": "The universal kriging system always has the announced size", "statement": "For every drift configuration the number of drift rows written into matrix and right-hand side is the number execute reserved, so the 'Kriging may fail' warnings never fire and no row is left unset.", "quantifier": "all drift configurations", "why_tests_cant": "all combinations and counts of drift terms", "anchors": ["src/pykrige/uk.py: execute, _get_kriging_matrix, _exec_vector, _exec_loop", "src/pykrige/uk3d.py"]}
{"id": "C28", "title": "External drift is bilinear interpolation of the user's grid", "statement": "The external drift is defined exactly for coordinates within the grid's range (otherwise ValueError). For ascending grid coordinates it is the bilinear interpolant of the four surrounding nodes: node values are returned at nodes, functions a+bx+cy+dxy sampled on the grid are reproduced everywhere inside, the value lies between the extreme corner values, and it is continuous on the whole range, also across the borders of grid cells. For descending coordinates node values are in general not reproduced.", "quantifier": "all grids, all query coordinates", "why_tests_cant": "continuum of coordinates", "anchors": ["src/pykrige/uk.py: _calculate_data_point_zscalars"]}
{"id": "C29", "title": "update_variogram_model is equivalent to building a new object", "statement": "After a successful update_variogram_model(args) the object predicts like one freshly constructed with the same data and args, whatever happened before, and an update that raises does so exactly as the constructor would; for UniversalKriging with point_log drift this needs the anisotropy of the wells to be the one given at construction (a change of anisotropy leaves the wells behind, and the predictions then differ).", "quantifier": "all histories of updates (successful or failed), executes and toggles", "why_tests_cant": "unbounded histories", "anchors": ["src/pykrige/ok.py: __init__, update_variogram_model", "src/pykrige/uk.py: update_variogram_model"]}
{"id": "C30", "title": "Coordinates and anisotropy settings never get out of step", "statement": "After any sequence of successful or failing update_variogram_model calls the adjusted coordinates used for kriging are the original ones adjusted with the current anisotropy settings, and the data themselves are unchanged.", "quantifier": "all operation sequences", "why_tests_cant": "unbounded histories", "anchors": ["src/pykrige/ok.py", "src/pykrige/uk.py", "src/pykrige/ok3d.py"]}
{"id": "C31", "title": "What a failed update leaves behind", "statement": "If update_variogram_model raises because of its variogram_model argument, no later prediction changes. If it raises later (bad parameters, failed fit or statistics) data, coordinates and options are intact and the next successful update makes the object as good as new, but until then predictions may change (it is not atomic: the anisotropy and the variogram function have already been replaced).", "quantifier": "all failing updates", "why_tests_cant": "crash-point property", "anchors": ["src/pykrige/ok.py: update_variogram_model"]}
{"id": "C32", "title": "What the object shares with the user's arrays and lists", "statement": "No call mutates the arrays and lists passed by the user, and mutating them after the call does not change later predictions - with two exceptions, in which the object keeps the user's own list: a variogram_parameters list for the linear, power or custom model, and the list of functional drifts.", "quantifier": "all later mutations", "why_tests_cant": "aliasing over histories", "anchors": ["src/pykrige/core.py: _make_variogram_parameter_list, _adjust_for_anisotropy", "src/pykrige/ok.py: __init__"]}
{"id": "C33", "title": "Talk-back switches do not affect results", "statement": "switch_verbose and switch_plotting are involutions that change no prediction, parameter or statistic, and execute does not modify the object.", "quantifier": "all operation sequences", "why_tests_cant": "unbounded histories", "anchors": ["src/pykrige/ok.py: switch_verbose, switch_plotting, execute"]}
{"id": "C34", "title": "Experimental variogram: every pair of points is counted once", "statement": "Each of the n(n-1)/2 pairs falls in exactly one of the nlags distance bins (exact arithmetic), whatever the data, including all-equal distances; hence the bin populations add up to the number of pairs.", "quantifier": "all data sets, nlags >= 1", "why_tests_cant": "for all data", "anchors": ["src/pykrige/core.py: _initialize_variogram_model"]}
{"id": "C35", "title": "Experimental variogram: shape of lags and semivariances", "statement": "lags and semivariance have equal length between 1 and nlags, lags are strictly increasing and within [min distance, max distance], semivariances are non-negative and at most half the largest squared difference; no NaN is returned; empty bins are dropped.", "quantifier": "all data sets, nlags", "why_tests_cant": "for all data", "anchors": ["src/pykrige/core.py: _initialize_variogram_model"]}
{"id": "C36", "title": "When automatic fitting is possible, and the bounds it respects", "statement": "Without variogram_parameters, the fit is accepted (start point within its bounds, non-degenerate bounds and weights) exactly when the lags and semivariances admit it - in particular whenever the data have two different values and two different separations and nlags >= 2 - and the fitted parameters lie within the bounds of the model; otherwise, in particular for constant data, ValueError is raised.", "quantifier": "all lags/semivariances, all models", "why_tests_cant": "for all data", "anchors": ["src/pykrige/core.py: _calculate_variogram_model"]}
{"id": "C37", "title": "weight=True weights are a decreasing probability distribution over lags", "statement": "The weights are positive, sum to 1 and decrease with lag; the residual vector is zero exactly when the model passes through all points, weighted or not.", "quantifier": "all lags with positive spread", "why_tests_cant": "for all data", "anchors": ["src/pykrige/core.py: _variogram_residuals"]}
{"id": "C38", "title": "Cross-validation statistics are well formed", "statement": "delta, sigma and epsilon have equal length <= n-1, every sigma exceeds 1e-10, epsilon*sigma = delta, Q1 = |sum epsilon|/(m-1), Q2 = (sum epsilon^2)/(m-1) and cR = Q2 times the geometric mean of sigma^2 (m >= 2 the number of residuals), all non-negative; each residual uses only the preceding data points.", "quantifier": "all data sets", "why_tests_cant": "for all data", "anchors": ["src/pykrige/core.py: _find_statistics, _krige, calcQ1, calcQ2, calc_cR"]}
{"id": "C39", "title": "Krige wrapper passes each method exactly the keywords it accepts", "statement": "For each method the keyword set Krige.fit passes to the constructor is accepted by that constructor, carries the user's values, and the anisotropy tuples are mapped to the right per-axis arguments.", "quantifier": "all methods and option values", "why_tests_cant": "combinations of options", "anchors": ["src/pykrige/compat.py: Krige.fit, krige_methods_kws"]}
{"id": "C40", "title": "Krige wrapper: predict contract", "statement": "predict before fit raises; points of the wrong dimensionality raise ValueError; predict returns the 'points'-style result with the configured n_closest_points for ordinary methods and ignores it for universal ones; keyword arguments override style and backend but cannot override n_closest_points.", "quantifier": "all methods, points and kwargs", "why_tests_cant": "all states", "anchors": ["src/pykrige/compat.py: Krige.predict, execute, _dimensionality_check"]}
{"id": "C41", "title": "Regression kriging composes trend and residual", "statement": "predict = regression prediction + kriged residual, and when the kriging step is exact at the training points predict returns the training targets there whatever the regressor.", "quantifier": "all regressors, data", "why_tests_cant": "for all regressors", "anchors": ["src/pykrige/rk.py: RegressionKriging.fit, predict"]}
{"id": "C42", "title": "Classification kriging: ilr transform round trip", "statement": "inverse_ilr(ilr(p)) = p for every probability vector with entries >= machine epsilon, ilr(inverse_ilr(v)) = v when no probability underflows epsilon, inverse_ilr outputs positive vectors summing to 1, closure(d,k) sums to k.", "quantifier": "all dimensions and vectors", "why_tests_cant": "all dimensions", "anchors": ["src/pykrige/ck.py: ilr_transformation, inverse_ilr_transformation, closure"]}
{"id": "C43", "title": "What classification kriging predicts", "statement": "predict returns, for each point, the index of the most probable class (a valid index into classes_) of the composition whose log-ratios are the classifier's plus the kriged residuals. It does not return the labels themselves; labels of the documented one-dimensional shape make fit raise; with a single class predict always raises.", "quantifier": "all label sets", "why_tests_cant": "for all label sets", "anchors": ["src/pykrige/ck.py: ClassificationKriging.predict"]}
{"id": "C44", "title": "ASCII grid files round-trip", "statement": "write_asc_grid then read_asc_grid returns the grid with values rounded to two decimals, and the coordinates, cell sizes and no_data when they have two decimals, in both header styles (in style 2 the corner must have two decimals), provided every printed value is shorter than 16 characters and the spacings are above 0.005. The conditions are needed: wider values run together and cannot be read, spacings of 0.005 or less cannot be read, style 2 rounds the corner.", "quantifier": "all grid sizes and values", "why_tests_cant": "all grids", "anchors": ["src/pykrige/kriging_tools.py: write_asc_grid, read_asc_grid"]}
{"id": "C45", "title": "ASCII grid header lines may come in any order", "statement": "read_asc_grid gives the same result for every order of the header lines it needs and is case-insensitive in keywords; an unknown keyword raises IOError; wrong NCOLS/NROWS raise IOError. Comments (from '#') and blank lines in the body change nothing; rows of different lengths (outside the skipped footer) raise ValueError.", "quantifier": "all permutations of header lines", "why_tests_cant": "all orders", "anchors": ["src/pykrige/kriging_tools.py: read_asc_grid"]}
{"id": "C46", "title": "What spacing write_asc_grid accepts", "statement": "write_asc_grid accepts the coordinates exactly when, on each axis, the first step agrees with the mean step (and the file is untouched otherwise, with ValueError). In particular grids with uneven interior steps can be accepted, in exact arithmetic and in binary64.", "quantifier": "all coordinate vectors", "why_tests_cant": "for all inputs", "anchors": ["src/pykrige/kriging_tools.py: write_asc_grid"]}
{"id": "C47", "title": "zmap files round-trip", "statement": "write_zmap_grid then read_zmap_grid returns the grid with values rounded to the printed precision, coordinates, cell size and no_data, for all grid sizes (any number of values in the last line), in exact arithmetic; the values and no_data in any arithmetic. NaN cells come back as the no_data value when that has at most eight significant digits, and need not otherwise. In binary64 the returned coordinate arrays can be one longer than the grid.", "quantifier": "all grid sizes and values", "why_tests_cant": "line-wrapping depends on ny mod 5", "anchors": ["src/pykrige/kriging_tools.py: write_zmap_grid, read_zmap_grid, space_back_to_front"]}
{"id": "C48", "title": "What becomes of the zmap coordinate system name", "statement": "read_zmap_grid returns the coord_sys string given to write_zmap_grid cut at its first ':' and with a space in front (so a name without colon never comes back unchanged).", "quantifier": "all names", "why_tests_cant": "for all strings", "anchors": ["src/pykrige/kriging_tools.py: write_zmap_grid, read_zmap_grid"]}
{"id": "C49", "title": "Option validation of execute and the constructors", "statement": "Exactly the documented styles, backends, pseudo-inverse types, coordinate types and variogram names are accepted, everything else raises the documented exception; mismatched point arrays raise ValueError; a single data point cannot be constructed.", "quantifier": "all argument combinations", "why_tests_cant": "all combinations", "anchors": ["src/pykrige/ok.py: __init__, execute", "src/pykrige/ok3d.py", "src/pykrige/uk.py", "src/pykrige/uk3d.py"]}
{"id": "C50", "title": "GSTools models are accepted exactly when supported", "statement": "A CovModel is accepted iff GSTools is present, version >= 1.3 (>= 1.4 for latlon), its dimension fits the class and latlon is only used with geographic ordinary kriging; an accepted model's variogram and anisotropy replace the user's arguments.", "quantifier": "all versions, dims, flags", "why_tests_cant": "all combinations", "anchors": ["src/pykrige/compat_gstools.py: validate_gstools", "src/pykrige/ok.py", "src/pykrige/uk.py", "src/pykrige/ok3d.py"]}
{"id": "C51", "title": "Integer query coordinates", "statement": "execute gives the same result for integer and float query arrays holding the same numbers, for geographic coordinates and whenever at least one array is not of integer type; with euclidean coordinates all-integer query arrays never succeed (the in-place centring raises TypeError).", "quantifier": "all queries", "why_tests_cant": "dtype combinations", "anchors": ["src/pykrige/core.py: _adjust_for_anisotropy", "src/pykrige/ok.py: execute"]}
{"id": "C52", "title": "Rigid motions of the coordinate system do not change the kriging", "statement": "Translating all data and query coordinates by the same vector leaves predictions and variances unchanged (with anisotropy too); rotating them leaves isotropic kriging unchanged; scaling all coordinates together with the range leaves them unchanged. The same holds for translations and rotations in universal kriging when the wells, drift grid and drift functions are moved along.", "quantifier": "all motions, data, queries", "why_tests_cant": "continuous group", "anchors": ["src/pykrige/ok.py", "src/pykrige/core.py"]}
{"id": "C53", "title": "Universal kriging solves the universal kriging equations", "statement": "Value and variance returned at every non-masked cell by UniversalKriging(3D).execute are the universal kriging estimate and variance for the configured variogram, drift terms and data, with every drift function evaluated at that cell (loop backend: without specified drift).", "quantifier": "all data, variograms, drift configurations, query styles, masks", "why_tests_cant": "for all inputs", "anchors": ["src/pykrige/uk.py: _get_kriging_matrix, _exec_vector, _exec_loop, execute", "src/pykrige/uk3d.py"]}
{"id": "C54", "title": "Universal kriging interpolates the data exactly", "statement": "With exact_values=True and data farther apart than 1e-10 universal kriging returns the datum and variance 0 at a data point.", "quantifier": "all data, variograms, drift configurations", "why_tests_cant": "for all inputs", "anchors": ["src/pykrige/uk.py: _exec_vector, _exec_loop", "src/pykrige/uk3d.py"]}
{"id": "C55", "title": "Universal kriging is the best linear unbiased predictor; its variance is never negative", "statement": "The returned variance is the estimation variance of weights that sum to 1 and reproduce all drift terms; for a conditionally negative definite variogram no other such weights do better, and it is non-negative.", "quantifier": "all data, admissible variograms, drift configurations, competing weights", "why_tests_cant": "optimality over a continuum", "anchors": ["src/pykrige/uk.py", "src/pykrige/uk3d.py"]}
{"id": "C56", "title": "Classification kriging reproduces the training labels", "statement": "With exact kriging options and training points more than 1e-10 apart, ClassificationKriging.predict at a training point returns the index of that point's training label, whatever the classifier's probabilities.", "quantifier": "all classifiers, label sets, data", "why_tests_cant": "for all classifiers and data", "anchors": ["src/pykrige/ck.py: ClassificationKriging.fit, predict, krige_residual, ilr_transformation, inverse_ilr_transformation", "src/pykrige/compat.py: Krige"]}
{"id": "C57", "title": "What a rejected write does to an existing file", "statement": "When write_asc_grid with style 1 or 2 raises, the file is as it was before. In particular a grid of one row or one column is an IndexError and the file is left alone. An invalid style empties the file before it is rejected; write_zmap_grid with a one-row or one-column grid leaves a header without data.", "quantifier": "all arguments", "why_tests_cant": "every failure point", "anchors": ["src/pykrige/kriging_tools.py: write_asc_grid, write_zmap_grid"]}
{"id": "C58", "title": "zmap files with the wrong number of values", "statement": "A file written by write_zmap_grid from a grid with more values than coordinates is refused by read_zmap_grid (IndexError); one with fewer values is read, and the missing cells are returned as uninitialised memory (write_zmap_grid does not compare the grid's shape with the coordinates).", "quantifier": "all grids and sizes", "why_tests_cant": "all sizes; depends on memory contents", "anchors": ["src/pykrige/kriging_tools.py: read_zmap_grid, write_zmap_grid"]}
{"id": "C59", "title": "Ordinary kriging with a sound model never fails", "statement": "With Euclidean coordinates and a built-in linear, power, gaussian, exponential or spherical model with non-negative parameters (not all zero, exponent in (0,2), positive range), if the nugget is positive or no two data share a location then execute succeeds for every well-formed query, every backend and every moving window of 2..n points (the kriging matrix is never singular); without a moving window, and without pseudo_inv, the condition on the data is also necessary.", "quantifier": "all data sets of all sizes, parameters, anisotropies, queries, backends, windows, histories of updates", "why_tests_cant": "invertibility for a continuum of configurations of any size", "anchors": ["src/pykrige/ok.py: _get_kriging_matrix, execute", "src/pykrige/ok3d.py", "src/pykrige/variogram_models.py"]}
{"id": "C60", "title": "Bounds on the kriging variance", "statement": "With such a model the returned variance is never negative; away from the data it is positive and at least the nugget; with exact_values=False at least the nugget everywhere; it never exceeds twice the variogram to any datum used; and no other unbiased linear combination of the data used has a smaller estimation variance.", "quantifier": "all data sets, parameters, queries, competing weights", "why_tests_cant": "positive-definiteness over a continuum of point sets of any size", "anchors": ["src/pykrige/ok.py: _exec_vector, _exec_loop, _exec_loop_moving_window", "src/pykrige/ok3d.py", "src/pykrige/variogram_models.py"]}
{"id": "C61", "title": "Universal kriging with a sound model fails exactly for dependent drifts", "statement": "With such a model, distinct data or a positive nugget, and no pseudo_inv, UniversalKriging(3D).execute succeeds iff the constant and the drift functions are linearly independent on the data (for drifts whose evaluation cannot fail); with independent drifts it never raises LinAlgError; its variance is never negative, at least the nugget away from the data, and minimal among all weights that reproduce the drifts.", "quantifier": "all data, parameters, drift configurations, queries", "why_tests_cant": "invertibility and optimality over a continuum", "anchors": ["src/pykrige/uk.py: _get_kriging_matrix, _exec_vector, execute", "src/pykrige/uk3d.py"]}
{"id": "C62", "title": "Less information never lowers the kriging variance", "statement": "With such a model, at the same location: the variance of a moving-window call is at least that of the call without window; the variance from a subset of the data is at least that from all data (same variogram); universal kriging's variance is at least that of ordinary kriging built from the same arguments.", "quantifier": "all data, subsets, windows, drifts, locations", "why_tests_cant": "relates two executions for all inputs", "anchors": ["src/pykrige/ok.py", "src/pykrige/ok3d.py", "src/pykrige/uk.py", "src/pykrige/uk3d.py"]}
{"id": "C63", "title": "Constructors and updates with sound arguments return", "statement": "With Euclidean coordinates, well-formed arguments, a built-in linear/power/gaussian/exponential/spherical model with sound parameters, no zero scaling and no pseudo_inv, the constructor returns iff (when it computes statistics, i.e. always except OrdinaryKriging with enable_statistics=False) the nugget is positive or all data but the last are at different places; otherwise it raises LinAlgError. With a positive nugget or all data at different places, constructor, update_variogram_model and then every well-formed execute return.", "quantifier": "all data sets of all sizes, parameters, classes", "why_tests_cant": "chains constructor, statistics, update and execute for a continuum of inputs", "anchors": ["src/pykrige/ok.py: __init__, update_variogram_model", "src/pykrige/ok3d.py", "src/pykrige/uk.py", "src/pykrige/uk3d.py", "src/pykrige/core.py: _find_statistics, _krige"]}
{"id": "C64", "title": "What a failed fit leaves behind", "statement": "When Krige.fit raises, the estimator is as it was. When ClassificationKriging.fit raises, either the classifier itself raised and nothing changed or predict raises until a later fit succeeds. When RegressionKriging.fit raises in the regressor nothing changes; when it raises afterwards, predict returns the sum of the new trend and the residuals of the previous fit (the fit is not atomic).", "quantifier": "all regressors, classifiers, data, failure points", "why_tests_cant": "every failure point and every history", "anchors": ["src/pykrige/compat.py: Krige.fit, predict", "src/pykrige/rk.py: RegressionKriging.fit, predict, krige_residual", "src/pykrige/ck.py: ClassificationKriging.fit, predict, krige_residual"]}
{"id": "C65", "title": "Scores", "statement": "RegressionKriging.score is the (weighted) coefficient of determination: at most 1, equal to 1 exactly when every prediction equals its target, and 1 on the training data with exact kriging options. ClassificationKriging.score is 1 on the training data when the labels are 0..K-1; for labels outside that range it is 0 however good the predictions, because indices are compared with labels.", "quantifier": "all estimators, data, weights, labels", "why_tests_cant": "for all estimators and data", "anchors": ["src/pykrige/rk.py: RegressionKriging.score", "src/pykrige/ck.py: ClassificationKriging.score"]}
{"id": "C66", "title": "Multiplying the variogram rescales the variances only", "statement": "Building the object with k times the variogram (k > 0; for built-in models: slope or scale or sill, and nugget, multiplied by k) leaves every prediction of ordinary and universal kriging unchanged and multiplies every variance by k.", "quantifier": "all k, data, models, queries, windows", "why_tests_cant": "relates two executions for all inputs", "anchors": ["src/pykrige/variogram_models.py", "src/pykrige/core.py: _make_variogram_parameter_list", "src/pykrige/ok.py", "src/pykrige/ok3d.py", "src/pykrige/uk.py", "src/pykrige/uk3d.py"]}
{"id": "C67", "title": "Accessors report what kriging uses", "statement": "With a built-in model and given parameters the variogram used by kriging is the documented formula of the model with those parameters, after construction and after every update; get_variogram_points returns the experimental lags and that variogram at them; get_epsilon_residuals returns the standardised residuals of predicting each datum (with variance at least 1e-10) from the data before it, and get_statistics returns their mean, mean square and the cR value; with a sound model and nugget at least 1e-10 no datum is skipped.", "quantifier": "all data, models, parameter spellings, histories of updates", "why_tests_cant": "for all inputs and histories", "anchors": ["src/pykrige/ok.py: get_variogram_points, get_epsilon_residuals, get_statistics", "src/pykrige/uk.py: get_variogram_points, get_statistics", "src/pykrige/ok3d.py", "src/pykrige/uk3d.py", "src/pykrige/core.py: calcQ1, calcQ2, calc_cR", "src/pykrige/variogram_models.py", "docs/source/variogram_models.rst"]}
{"id": "C68", "title": "Geographic coordinates with a sound model", "statement": "With coordinates_type='geographic' and a linear (positive nugget), power (exponent at most 1; below 1 or with positive nugget) or exponential model with non-negative parameters, great-circle kriging is as sound as Euclidean kriging: the kriging matrix is invertible and execute returns for every well-formed query iff the nugget is positive or no two data are at the same place on the sphere; variances are never negative and, away from the data, at least the nugget; the prediction is the best linear unbiased one; a moving window never has a smaller variance; the constructor returns iff the nugget is positive or all data but the last are at different places (when statistics are computed). It is false for the gaussian model and for exponents above 1 (negative variances) and for the linear model without nugget (LinAlgError with antipodal data).", "quantifier": "all data sets on the sphere, of all sizes, parameters, queries, windows", "why_tests_cant": "positive-definiteness of functions of the great-circle distance for point sets of any size", "anchors": ["src/pykrige/core.py: great_circle_distance", "src/pykrige/ok.py: __init__, execute, _get_kriging_matrix", "src/pykrige/variogram_models.py"]}
{"id": "C69", "title": "Names, order and defaults of arguments", "statement": "For the four constructors, update_variogram_model, execute and Krige: positional arguments mean the same as keyword arguments under the documented names in the documented order; leaving a keyword out is the same as passing its documented default; the order of keywords is irrelevant; too many, unknown, doubly given or missing arguments are TypeErrors. In particular update_variogram_model without anisotropy arguments removes the anisotropy.", "quantifier": "all calls: all values, all subsets and orders of keywords", "why_tests_cant": "every combination of arguments", "anchors": ["src/pykrige/ok.py: __init__, update_variogram_model, execute", "src/pykrige/uk.py", "src/pykrige/ok3d.py", "src/pykrige/uk3d.py", "src/pykrige/compat.py: Krige.__init__"]}
{"id": "C70", "title": "Krige parameters and re-fitting", "statement": "Krige.set_params accepts every constructor parameter, changes exactly the named ones and leaves the fitted model alone (an unknown name is a ValueError, earlier assignments stay); fitting afterwards is the same as fitting a new Krige with those parameters, and clone gives an unfitted copy; until then predict uses the old model, except that n_closest_points takes effect at once and a method of another dimension makes predict raise.", "quantifier": "all estimators, parameters, histories, data", "why_tests_cant": "all histories of set_params, fit and predict", "anchors": ["src/pykrige/compat.py: Krige.__init__, fit, predict, execute"]}
{"id": "C71", "title": "Drift arguments of universal kriging", "statement": "The universal constructors return exactly when the constructor without drift does and the data of every requested drift term are complete (external drift grid of a matching shape and coordinates covering all data, at least one well row of floats, nonempty lists of arrays of the right length or of functions), and otherwise raise a documented exception for the first problem; unknown drift names, their order and repetitions are ignored, and in 3D external_Z and point_log too. execute returns exactly when the query and the specified drift arrays have matching shapes, all cells (vectorized) or all shown cells (loop) are inside the external drift grid, and the universal kriging system is uniquely solvable; the loop backend needs in addition that no shown cell is at a well and that, with specified drift, there are more cells than data and preceding drift terms.", "quantifier": "all drift arguments, data, queries, arrays", "why_tests_cant": "all combinations of arguments and shapes", "anchors": ["src/pykrige/uk.py: __init__, execute, _exec_vector, _exec_loop", "src/pykrige/uk3d.py"]}
{"id": "C72", "title": "Constructing regression and classification kriging; shared estimators", "statement": "RegressionKriging and ClassificationKriging take the estimator and the options of Krige by position or keyword with the documented names, order and defaults; anything but a scikit-learn estimator of the right kind is a RuntimeError; the options go to Krige unchanged (checked at once by RegressionKriging, at fit by ClassificationKriging). In any program, objects holding different estimators do not influence each other, and only fits through an object holding the same estimator change what an object shows. Objects built without an estimator share one default estimator, so fitting one changes the predictions of the others: they become their own kriged residuals plus the trend learned last. Assigning the attribute n_closest_points has no effect. An object that was never fitted raises on predict, krige_residual and score, even when its estimator was fitted through another object.", "quantifier": "all calls, estimators, data, programs interleaving any number of objects", "why_tests_cant": "all interleavings of operations on several objects", "anchors": ["src/pykrige/rk.py: RegressionKriging.__init__, fit, predict, score", "src/pykrige/ck.py: ClassificationKriging.__init__, fit, predict, score", "src/pykrige/compat.py: check_sklearn_model"]}
{"id": "C73", "title": "Scores, cross-validation and grid search of Krige", "statement": "Krige.score is the coefficient of determination of predict: at most 1, 1 exactly when every prediction equals its value, and 1 on the training data with exact options. Used with scikit-learn's cross_validate and GridSearchCV: each score is that of a model constructed directly from the training rows with the candidate's parameters (nan when construction or prediction raises), whatever the estimator was fitted to and whatever the other candidates are; the best candidate is the first with the largest mean score, nan being worst, and the model found is a new Krige with its parameters fitted to all data. A method of the wrong dimension, test sets of one row and training sets with fewer rows than n_closest_points give no score.", "quantifier": "all estimators, parameters, candidates, splits, data", "why_tests_cant": "all candidates, splits, data and histories of the estimator", "anchors": ["src/pykrige/compat.py: Krige", "examples/08_krige_cv.py", "tests/test_api.py"]}
{"id": "C74", "title": "What pseudo_inv buys", "statement": "With pseudo_inv=True (the singular value decompositions converging) ordinary kriging without a moving window returns for any data, coincident points included, and universal kriging returns exactly when the arguments have proper shapes and no shown location is outside the external drift grid or at a well (loop backend); with a moving window it still can raise on coincident data. For the constructors it turns LinAlgError into success and changes no other outcome; update_variogram_model never raises LinAlgError. The weights behind each prediction and variance then solve the kriging equations in the least-squares sense with minimal norm.", "quantifier": "all data, variograms (singular systems included), queries, drift terms", "why_tests_cant": "all data sets and singular systems", "anchors": ["src/pykrige/ok.py: OrdinaryKriging.execute", "src/pykrige/uk.py: UniversalKriging.execute", "src/pykrige/core.py: _krige, P_INV", "src/pykrige/ok3d.py", "src/pykrige/uk3d.py"]}
{"id": "C75", "title": "Statistics under changes of the data", "statement": "For an object whose cross-validation statistics belong to its current variogram: replacing the values by a*z+b (parameters given) multiplies the residuals by a and leaves their standard deviations alone, so Q1 is multiplied by |a|, Q2 and cR by a^2; multiplying the variogram by k divides Q2 by k and leaves cR alone (when no residual is dropped by the 1e-10 threshold); moving the data, rotating them (without anisotropy) or changing the unit of length leaves all statistics alone. Reordering the data, which never changes predictions, can change the statistics.", "quantifier": "all data, classes, histories of updates, a, b, k, motions", "why_tests_cant": "relates two objects for all inputs", "anchors": ["src/pykrige/core.py: _find_statistics, _krige, calcQ1, calcQ2, calc_cR", "src/pykrige/ok.py: __init__, update_variogram_model, get_statistics", "src/pykrige/ok3d.py", "src/pykrige/uk.py", "src/pykrige/uk3d.py"]}
{"id": "C76", "title": "Anisotropy is a change of coordinates", "statement": "Kriging with anisotropy_scaling and anisotropy_angle (2D, 3D) gives at every location the prediction and variance that kriging without anisotropy gives for the data and location expressed in the rotated axes with the later axes stretched by the scalings; the experimental variogram, the fitted parameters and the statistics agree too. Universal kriging likewise, for regional linear, logarithmic well, specified and functional drift terms carried to those coordinates.", "quantifier": "all data, scalings, angles, models (given or fitted), queries, windows", "why_tests_cant": "relates two executions for all inputs", "anchors": ["src/pykrige/core.py: _adjust_for_anisotropy, _initialize_variogram_model", "src/pykrige/ok.py: __init__, execute", "src/pykrige/ok3d.py", "src/pykrige/uk.py: __init__, execute", "src/pykrige/uk3d.py"]}
{"id": "C77", "title": "Closed forms: data on a line, two data", "statement": "With a linear variogram without nugget and data and location on a line, ordinary kriging is linear interpolation between the two neighbouring data (among those used), with variance 2 slope (x-a)(b-x)/(b-a), and the value of the nearest datum outside, with variance 2 slope |x-a|. With two data and any variogram prediction and variance are given by a formula in the three semivariances. Predictions are not bound to the range of the data.", "quantifier": "all data on a line, of any number and order, locations, windows; all pairs of data and variograms", "why_tests_cant": "for all data and locations", "anchors": ["src/pykrige/ok.py: execute, _get_kriging_matrix, _exec_vector, _exec_loop", "src/pykrige/ok3d.py", "src/pykrige/variogram_models.py: linear_variogram_model"]}
{"id": "C78", "title": "Pure nugget; far from the data", "statement": "With a constant variogram c every location that is not a datum gets the arithmetic mean of the data used, with variance c(1+1/m). With gaussian, exponential and spherical models, locations far from all data get predictions and variances that converge to one weighted mean of the data and one variance, at least the sill; beyond the range of a spherical model they are all equal.", "quantifier": "all data, parameters, queries", "why_tests_cant": "limits and all locations", "anchors": ["src/pykrige/ok.py: execute", "src/pykrige/ok3d.py", "src/pykrige/variogram_models.py"]}
{"id": "C79", "title": "Predictions are continuous away from the data", "statement": "Predictions and variances of ordinary kriging (no moving window) depend continuously on the location, wherever it is further than 1e-10 from all data (anywhere without exact_values as long as the variogram is continuous there); the built-in models are continuous at positive distances. With a nugget and exact_values there is a jump around each datum. With a moving window the same holds at locations where no two data are equally far; where the set of nearest data changes there are jumps. For universal kriging the same holds jointly in the location and the drift values; without specified drift arrays, where the location is not a point_log well, the external grid is ascending and the user's drift functions are continuous, it holds in the location alone.", "quantifier": "all data, models, locations, Euclidean (with anisotropy) and geographic coordinates", "why_tests_cant": "limits", "anchors": ["src/pykrige/ok.py: execute", "src/pykrige/ok3d.py", "src/pykrige/variogram_models.py", "src/pykrige/core.py: great_circle_distance"]}
{"id": "C80", "title": "Variogram functions in binary64", "statement": "In IEEE double precision (no overflow; exp and pow of the C library monotone): at lag 0 every built-in model returns exactly the nugget, in Python and in Cython; linear, power, Gaussian and exponential models never decrease with the lag; no model returns less than the nugget; Gaussian and exponential never return more than the rounded sill, and the spherical one returns exactly it beyond its range. The spherical model can exceed its sill at its range by rounding. Python and Cython return the same bits for linear, power, exponential and (except at the range) spherical models, but not for the Gaussian one.", "quantifier": "all binary64 parameters and lags, all C libraries", "why_tests_cant": "all pairs of floating-point numbers", "anchors": ["src/pykrige/variogram_models.py", "src/pykrige/lib/variogram_models.pyx"]}
{"id": "C81", "title": "Coordinates and the kriging system in binary64", "statement": "Without anisotropy settings (scaling 1, angle 0) coordinates are still re-centred in floating point: coincident points stay coincident and their distance is exactly 0 however inner products are computed; order is preserved and the error is at most 2^-51 of the largest coordinate; positive coordinates within a factor three of each other, and multiples of a power of two needing at most 51 bits (whole numbers of metres), are not changed at all. In general two distinct data points can become one, which makes the kriging matrix singular. The kriging matrix is symmetric with zero diagonal and at a datum the right-hand side is a column of it, bit for bit.", "quantifier": "all binary64 coordinates, dimensions 2 and 3, BLAS implementations", "why_tests_cant": "all pairs of floating-point numbers", "anchors": ["src/pykrige/core.py: _adjust_for_anisotropy", "src/pykrige/ok.py: __init__, _get_kriging_matrix, _exec_vector", "src/pykrige/ok3d.py"]}
{"id": "C82", "title": "Only the span of the drift terms matters", "statement": "Two universal kriging objects for the same data, options and updates predict the same values and variances whenever each drift function of one is a constant plus a linear combination of those of the other: regional_linear equals functional drift with the coordinate functions and specified drift with the original coordinates; units and offsets of external grid, specified arrays, functions and well strengths do not matter. A term that at the data is a constant plus a combination of the others (for example a constant function) makes execute raise LinAlgError without pseudo_inv, and is ignored with it.", "quantifier": "all data, drift terms, histories of updates, queries", "why_tests_cant": "relates executions for all inputs", "anchors": ["src/pykrige/uk.py: UniversalKriging.__init__, execute, _get_kriging_matrix", "src/pykrige/uk3d.py: UniversalKriging3D"]}
{"id": "C83", "title": "Adding a datum; the form of the prediction surface", "statement": "With the variogram parameters given, adding one datum to a data set changes every prediction by lambda times (new value - old prediction at the new place) and lowers its variance by lambda^2 times the old variance there, where lambda is the prediction at that location from data that are 1 at the new place and 0 at the others; in particular a datum equal to its prediction changes no prediction. Every prediction is one constant plus (universal kriging) one combination of the drift functions plus one combination, with coefficients summing to 0 and orthogonal to the drift functions, of the variogram values between the location and the data; the coefficients are the same for all queries and backends.", "quantifier": "all data, added data, variograms, drift terms, queries, without moving window", "why_tests_cant": "relates executions on two data sets for all inputs", "anchors": ["src/pykrige/ok.py: OrdinaryKriging.__init__, execute", "src/pykrige/ok3d.py", "src/pykrige/uk.py: UniversalKriging.execute", "src/pykrige/uk3d.py"]}
{"id": "C84", "title": "NaN data values", "statement": "numpy.nan is accepted as a data value, and what happens to it is: with given variogram parameters the constructors (ordinary and universal, 2D and 3D) raise exactly when they would for other values and build the same object whatever the data values are, NaN included, except for the stored values, the experimental variogram (bins that a NaN reaches are dropped) and the statistics (the residuals, Q1, Q2 and cR that a NaN reaches are NaN: every residual from the first NaN on; the standard deviations are not affected); execute raises for data with NaN exactly when it raises for other values; an estimate becomes NaN if, and only if, the value of one of the data it uses is NaN, so without a moving window a single NaN spoils every estimate that is not masked, with a moving window only the points whose neighbours include it, and variances never depend on it. The same holds for universal kriging with every kind of drift (which has no window): one NaN makes all shown estimates NaN, while the variances, masks and warnings stay the same.", "quantifier": "all data, NaN positions, variogram parameters, styles, back-ends, masks, windows and query points", "why_tests_cant": "the statement is about which of the finitely many estimates each datum reaches, for all data sets and windows; tests fix one NaN in one data set", "anchors": ["src/pykrige/ok.py: OrdinaryKriging.__init__, execute", "src/pykrige/core.py: _initialize_variogram_model", "src/pykrige/lib/cok.pyx: _c_exec_loop, _c_exec_loop_moving_window", "src/pykrige/ok3d.py: execute", "src/pykrige/uk.py: UniversalKriging.execute", "src/pykrige/uk3d.py: UniversalKriging3D.execute"]}
{"id": "C85", "title": "Warnings", "statement": "The warnings tell the truth. In geographic coordinates OrdinaryKriging warns that the anisotropy is ignored exactly when a scaling other than 1 is asked for (directly or by a GSTools model; an angle alone is not reported), in the constructor and in update_variogram_model, and the object then is the one obtained without the anisotropy arguments. UniversalKriging warns about unneeded specified drift arrays exactly when some are given without specified drift, and the answer is the one without them. write_asc_grid warns about dimensions exactly when the shape of z is not (len(y), len(x)), and about the order exactly when a coordinate is below the first; for evenly spaced coordinates in either direction there is no warning exactly when the coordinates read back are those written (uneven coordinates can pass without a warning and be read back changed).", "quantifier": "all constructor and update arguments, histories, queries; all coordinate lists and grids", "why_tests_cant": "equivalences over all inputs", "anchors": ["src/pykrige/ok.py: __init__, update_variogram_model", "src/pykrige/uk.py: execute", "src/pykrige/uk3d.py: execute", "src/pykrige/kriging_tools.py: write_asc_grid, read_asc_grid"]}
