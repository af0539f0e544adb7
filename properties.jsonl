{"id": "C01", "title": "Cached reads are transparent", "statement": "Whatever was requested, reset, cleaned or re-levelled before, a value obtained through the cache equals what its computation would return now, as long as the inputs of that computation have not changed since the entry was written; in particular caching never changes a result, it only avoids recomputation.", "quantifier": "every finite history of cached requests (any key, level, force/overwrite/persisting flag), resets, cleanings, removals and level changes", "why_tests_cant": "the number of histories is unbounded and a stale or misfiled entry only shows after particular interleavings", "anchors": ["kerch/feature/cache.py: Cache._get, _save, _reset_cache, _clean_cache, _remove_from_cache, cache_level"]}
{"id": "C02", "title": "The cache level bounds what is stored", "statement": "At every moment no entry stored in the cache has a level above the module's current cache_level.", "quantifier": "every history of requests and level changes", "why_tests_cant": "depends on the order of level changes, forced entries and requests", "anchors": ["kerch/feature/cache.py: Cache._save, cache_level setter"]}
{"id": "C03", "title": "Cleaning evicts exactly the entries above the threshold", "statement": "Cleaning the cache above a level removes every entry of a strictly higher level, keeps every other entry with its value unchanged, and cleaning at level none empties the cache.", "quantifier": "every cache content and every level", "why_tests_cant": "needs all contents, including mixtures of forced, persisting and ordinary entries", "anchors": ["kerch/feature/cache.py: Cache._clean_cache"]}
{"id": "C04", "title": "Resets keep exactly the persisting entries", "statement": "A reset that spares persisting entries removes all and only the non-persisting entries and leaves the values of the persisting ones untouched; a full reset empties the cache; a reset that spares some classes additionally keeps exactly the entries those classes declare.", "quantifier": "every cache content, every persisting flag assignment, every list of spared classes", "why_tests_cant": "needs all contents and flag combinations", "anchors": ["kerch/feature/cache.py: Cache._reset_cache, reset"]}
{"id": "C05", "title": "Recursive reset reaches every descendant", "statement": "Resetting a module with recursion empties the cache of the module and of every caching descendant, however deep; resetting without recursion leaves all descendants untouched; and calling reset() with default arguments recurses, as documented.", "quantifier": "every module tree", "why_tests_cant": "trees of any depth and branching", "anchors": ["kerch/feature/cache.py: Cache.reset"]}
{"id": "C06", "title": "Removing an entry by name removes that entry and nothing else", "statement": "Removing a single named entry from the cache removes exactly that entry; removing a list of names removes exactly the entries with those names.", "quantifier": "every cache content and every name or list of names", "why_tests_cant": "a test with one arbitrary name passes when the name happens not to be shared; the claim is about all names", "anchors": ["kerch/feature/cache.py: Cache._remove_from_cache", "kerch/kernel/random_features/random_features.py: after_step"]}
{"id": "C07", "title": "Short-term entries do not survive their read", "statement": "A value requested with the short-term (destroy) option is no longer in the cache after the request.", "quantifier": "every cache content, key and level", "why_tests_cant": "must hold for every key and prior content", "anchors": ["kerch/feature/cache.py: Cache._get"]}
{"id": "C08", "title": "Unknown cache levels are rejected", "statement": "Setting the cache level to a name that is not one of none, light, normal, heavy, total raises an error at the assignment and leaves the module unchanged.", "quantifier": "every string", "why_tests_cant": "the rejected names are an infinite set", "anchors": ["kerch/feature/cache.py: Cache.cache_level, _get_level"]}
{"id": "C09", "title": "A level change applies to the whole module", "statement": "After setting cache_level on a module, every transform the module already holds in its cache uses the new level as well.", "quantifier": "every module state holding any number of cached transforms", "why_tests_cant": "depends on which transforms have been built before the change", "anchors": ["kerch/feature/cache.py: Cache.cache_level setter"]}
{"id": "C10", "title": "Porting a module ports each cached value once", "statement": "When a module is ported (device or type change), the porting function is applied exactly once to every cached tensor of the module, of its descendants and of the transforms they hold.", "quantifier": "every module tree, every cache content, every porting function", "why_tests_cant": "trees of any depth; the defect is invisible for idempotent porting functions", "anchors": ["kerch/feature/cache.py: Cache._apply", "kerch/transform/Transform.py: Transform"]}
{"id": "C11", "title": "Proportional sub-sampling selects distinct valid points", "statement": "Selecting a proportion p with 0 < p <= 1 of a sample of n points selects round(n p) pairwise distinct indices, all valid positions of the sample; p = 1 selects every point; p outside that range is rejected.", "quantifier": "every sample size, every proportion and every outcome of the random permutation", "why_tests_cant": "the random permutation ranges over n! outcomes", "anchors": ["kerch/feature/stochastic.py: Stochastic.stochastic"]}
{"id": "C12", "title": "Selections reach every descendant", "statement": "After a selection (or a return to evaluation mode, which selects the full sample) every descendant reached through initialised modules uses the same indices as the module and holds no non-persisting cached value.", "quantifier": "every module tree and every selection", "why_tests_cant": "trees of any depth and any previous state", "anchors": ["kerch/feature/stochastic.py: Stochastic.stochastic, train"]}
{"id": "C13", "title": "A rejected selection changes nothing observable", "statement": "If a selection request is rejected, the selected indices stay as they were and every value read afterwards is the same as before; and a request whose indices are not valid positions of the sample is rejected.", "quantifier": "every state and every request", "why_tests_cant": "all combinations of requests and states", "anchors": ["kerch/feature/stochastic.py: Stochastic.stochastic"]}
{"id": "C14", "title": "Sample updates write exactly the addressed rows", "statement": "Updating the sample at some indices makes each addressed row equal to the given values (the last one for a repeated index), leaves every other row unchanged, keeps the shape, and drops every non-persisting cached value; a number of values different from the number of indices is rejected; a sample that holds no value (no point or no column) is left as it is by every update.", "quantifier": "every sample, index list and value matrix", "why_tests_cant": "all sizes and index patterns including duplicates", "anchors": ["kerch/feature/sample.py: Sample.update_sample"]}
{"id": "C15", "title": "A failed sample update leaves the object consistent", "statement": "If a sample update raises, then neither the sample nor the values read from the cache are out of step: a kernel matrix read afterwards is the kernel matrix of the sample stored.", "quantifier": "every state, including trainable samples without gradients yet", "why_tests_cant": "requires reasoning about the state at each point where an exception can leave the method", "anchors": ["kerch/feature/sample.py: Sample.update_sample"]}
{"id": "C16", "title": "The sample does not change behind the module's back", "statement": "After a module has been given a sample, later in-place changes by the caller to the array passed do not change the values the module returns.", "quantifier": "every array and every later write to it", "why_tests_cant": "aliasing depends on the array's type and on what is cached", "anchors": ["kerch/feature/sample.py: Sample.init_sample", "kerch/utils/cast.py: castf"]}
{"id": "C17", "title": "Sample dimensions stay consistent", "statement": "After any history of successful sample initialisations, dimension assignments and selections, the announced number of points and input dimension are those of the stored sample, and dimensions cannot be re-assigned once known.", "quantifier": "every history of initialisations and dimension assignments", "why_tests_cant": "histories are unbounded and the order of assignments matters", "anchors": ["kerch/feature/sample.py: Sample.init_sample, dim_input, num_sample"]}
{"id": "C18", "title": "Kernel matrices always reflect the current state", "statement": "For a distance-based kernel, after any history of sample (re)initialisations, sample updates, sub-sampling, bandwidth changes, cache-level changes, resets and reads, reading the kernel matrix returns the kernel evaluated on the currently selected sample points with the current bandwidth.", "quantifier": "every finite history of these operations", "why_tests_cant": "staleness shows only for particular interleavings of reads and writes", "anchors": ["kerch/kernel/kernel.py: Kernel._K", "kerch/kernel/distance/_distance.py: _Distance.sigma", "kerch/feature/sample.py: Sample", "kerch/feature/cache.py: Cache"]}
{"id": "C19", "title": "Changing the bandwidth does not recompute distances", "statement": "Changing the bandwidth drops the kernel matrix but keeps the sample distance matrix, so the next kernel matrix is obtained without recomputing any distance.", "quantifier": "every state of a distance kernel and every bandwidth", "why_tests_cant": "quantifies over all cache contents", "anchors": ["kerch/kernel/distance/_distance.py: sigma setter", "kerch/feature/cache.py: _reset_cache"]}
{"id": "C20", "title": "The default bandwidth is a function of the sample", "statement": "When no bandwidth is given, the bandwidth used is the heuristic evaluated on the currently selected sample.", "quantifier": "every history of sample changes and reads", "why_tests_cant": "needs histories in which the sample changes after the first read", "anchors": ["kerch/kernel/distance/_distance.py: sigma"]}
{"id": "C21", "title": "Replacing random-feature weights takes effect", "statement": "After assigning new weights to a random-feature kernel, the feature map and kernel matrix returned are those of the new weights.", "quantifier": "every history of reads and weight assignments", "why_tests_cant": "only histories with a read before the assignment expose the defect", "anchors": ["kerch/kernel/random_features/random_features.py: RandomFeatures.weights"]}
{"id": "C22", "title": "Changing polynomial hyper-parameters takes effect", "statement": "After assigning a degree or offset to a polynomial kernel, reading the hyper-parameter returns the assigned value and the feature map is that of the new parameters.", "quantifier": "every history of reads and assignments", "why_tests_cant": "needs arbitrary interleavings of reads and assignments", "anchors": ["kerch/kernel/generic/polynomial.py: Polynomial.alpha, beta"]}
{"id": "C23", "title": "Out-of-sample results depend only on the values passed", "statement": "Evaluating a transform, kernel or level on out-of-sample data returns the result for the values of the data passed now, regardless of which data objects were passed before.", "quantifier": "every history of evaluations, including objects modified in place or freed between calls", "why_tests_cant": "object identities are reused only in particular allocation histories", "anchors": ["kerch/transform/Transform.py: Transform.oos", "kerch/level/_View.py: _View.forward"]}
{"id": "C24", "title": "Out-of-sample values are cached at the documented level", "statement": "Out-of-sample transformed data are kept only when the cache level is at least heavy (default transform) or total (other transforms), and level outputs of out-of-sample data only from heavy on.", "quantifier": "every level and every evaluation", "why_tests_cant": "all combinations of levels, keys and histories", "anchors": ["kerch/transform/Transform.py: _set_cache_levels", "kerch/utils/defaults.py: DEFAULT_CACHE_LEVEL", "kerch/level/_View.py: forward"]}
{"id": "C25", "title": "Repeated transforms are merged", "statement": "A list of transforms is reduced by collapsing runs of the same transform and nothing else: the result has no two equal neighbours and applying it is the requested sequence with repeated neighbours merged.", "quantifier": "every list of transforms", "why_tests_cant": "the defect needs particular patterns of repetitions", "anchors": ["kerch/transform/TransformTree.py: TransformTree.beautify_transform"]}
{"id": "C26", "title": "Reverting undoes the transforms", "statement": "For every chain of mean centering, minimum centering, unit-variance and min-max normalisations fitted on a sample, reverting the transform of any data gives the data back.", "quantifier": "every sample (with at least two points when the variance is used), every chain, every out-of-sample data set, after any history of evaluations (exact real arithmetic)", "why_tests_cant": "continuous domain and unbounded chains", "anchors": ["kerch/transform/TransformTree.py: apply, revert", "kerch/transform/all/*.py"]}
{"id": "C27", "title": "Transformed samples have the advertised statistics", "statement": "After mean centering each column of the sample has mean zero; after minimum centering its minimum is zero; after standardisation it has mean zero and unit variance; after min-max rescaling it lies in [0,1] and attains both bounds (for columns whose spread exceeds the numerical threshold).", "quantifier": "every sample with at least the required number of points", "why_tests_cant": "continuous domain, all sizes", "anchors": ["kerch/transform/all/MeanCentering.py", "kerch/transform/all/MinimumCentering.py", "kerch/transform/all/Variance.py", "kerch/transform/all/MinMaxNormalization.py"]}
{"id": "C28", "title": "Sphere normalisation yields unit vectors", "statement": "After unit-sphere normalisation every (in- or out-of-sample) point whose norm exceeds the numerical threshold has norm one and keeps its direction; no point has norm above one; and asking to revert the normalisation raises an error.", "quantifier": "every data set", "why_tests_cant": "continuous domain", "anchors": ["kerch/transform/all/Sphere.py"]}
{"id": "C29", "title": "Implicit and explicit transforms agree", "statement": "For a kernel with an explicit feature map, the kernel matrix transformed implicitly by any chain of centering and normalisation equals the matrix of inner products of the explicitly transformed features, in-sample, out-of-sample versus sample and out-of-sample versus out-of-sample, as long as no point to be normalised has a norm below the square root of the numerical threshold.", "quantifier": "every feature map, sample, pair of out-of-sample sets and chain of transforms", "why_tests_cant": "unbounded chains over a continuous domain", "anchors": ["kerch/transform/all/MeanCentering.py", "kerch/transform/all/Sphere.py", "kerch/transform/Transform.py: oos, statistics_oos"]}
{"id": "C30", "title": "Centered kernel matrices have zero means", "statement": "Every row of a centered sample kernel matrix sums to zero and so does every column if the kernel is symmetric, every row of a centered out-of-sample kernel matrix sums to zero over the sample, and centering twice is centering once.", "quantifier": "every kernel matrix", "why_tests_cant": "all sizes and values", "anchors": ["kerch/transform/all/MeanCentering.py: _implicit_sample, _implicit_oos"]}
{"id": "C31", "title": "Arguments are not modified", "statement": "Passing a list of transforms to a kernel or to a kernel evaluation leaves the caller's list unchanged, so repeating a call repeats its result.", "quantifier": "every kernel, list and number of repetitions", "why_tests_cant": "the drift accumulates over repeated calls", "anchors": ["kerch/kernel/kernel.py: Kernel.__init__, _simplify_transform"]}
{"id": "C32", "title": "Kernel matrices are symmetric positive semi-definite", "statement": "The sample kernel matrix of every kernel with an explicit feature map is symmetric and positive semi-definite, also after any chain of explicit transforms, and k(x,y) is the transpose of k(y,x).", "quantifier": "every feature map, sample and coefficient vector", "why_tests_cant": "quantifies over all coefficient vectors and sizes", "anchors": ["kerch/kernel/explicit.py: Explicit._implicit", "kerch/kernel/kernel.py: Kernel._K, k"]}
{"id": "C33", "title": "Distance kernels are similarity measures", "statement": "For every distance kernel of the toolbox (epanechnikov, quartic, triweight, tricube, triangular, uniform, logistic, exponential, Laplace, RBF) and every positive bandwidth, k(x,y) = k(y,x), 0 <= k(x,y) <= k(x,x) = 1, and k decreases with the distance.", "quantifier": "every pair of points, bandwidth and dimension", "why_tests_cant": "continuous domain", "anchors": ["kerch/kernel/statistics/*.py", "kerch/kernel/distance/_distance.py"]}
{"id": "C34", "title": "Kernels announced as normalised are normalised", "statement": "Whenever a kernel announces itself as normalised without a transform, k(x,x) = 1 for every x.", "quantifier": "every kernel class and every point", "why_tests_cant": "continuous domain and all classes", "anchors": ["kerch/kernel/kernel.py: normalized", "kerch/kernel/statistics/silverman.py"]}
{"id": "C35", "title": "Compact kernels vanish exactly beyond the bandwidth", "statement": "For the compactly supported kernels, k(x,y) = 0 whenever the distance exceeds the bandwidth and k(x,y) > 0 whenever it is strictly below it.", "quantifier": "every pair of points and bandwidth", "why_tests_cant": "continuous domain, boundary included", "anchors": ["kerch/kernel/statistics/*.py"]}
{"id": "C36", "title": "Distances are metrics", "statement": "Each offered distance (Euclidean, Manhattan, Chebyshev, Minkowski) is non-negative, zero exactly on equal points, symmetric and satisfies the triangle inequality, and can be evaluated; the Euclidean distance lies between the Chebyshev and the Manhattan one.", "quantifier": "all points of all dimensions", "why_tests_cant": "continuous domain", "anchors": ["kerch/kernel/distance/*.py"]}
{"id": "C37", "title": "The polynomial feature map realises the polynomial kernel", "statement": "For degrees from one on and non-negative offsets, the inner product of the explicit polynomial features of x and y is (x.y + offset)^degree.", "quantifier": "every degree, offset, dimension and pair of points", "why_tests_cant": "continuous domain and unbounded degree and dimension", "anchors": ["kerch/kernel/generic/polynomial.py: _explicit, _implicit, multichoose"]}
{"id": "C38", "title": "The polynomial feature dimension is announced correctly", "statement": "The announced feature dimension of a polynomial kernel equals the number of features produced, for every degree and input dimension.", "quantifier": "every degree and input dimension", "why_tests_cant": "unbounded", "anchors": ["kerch/kernel/generic/polynomial.py: dim_feature, _explicit"]}
{"id": "C39", "title": "Polynomial kernels evaluate both arguments", "statement": "k(x,y) of a polynomial kernel is the matrix of polynomial kernel values between the points of x and the points of y, and k(x) that between x and the sample.", "quantifier": "all arguments", "why_tests_cant": "all pairs of arguments", "anchors": ["kerch/kernel/generic/polynomial.py: k"]}
{"id": "C40", "title": "The hat kernel is the documented triangular profile", "statement": "The hat kernel with lag p equals p+1-|x-y| when |x-y| <= p and 0 otherwise, for every pair of time points.", "quantifier": "all time points and lags", "why_tests_cant": "continuous domain", "anchors": ["kerch/kernel/time/hat.py"]}
{"id": "C41", "title": "The indicator kernel is positive semi-definite", "statement": "With the default diagonal value, the indicator kernel matrix over distinct integer time points is symmetric positive semi-definite, also after the lag is changed.", "quantifier": "every finite set of time points, every lag, every coefficient vector", "why_tests_cant": "all sizes and coefficient vectors", "anchors": ["kerch/kernel/time/indicator.py"]}
{"id": "C42", "title": "Chi-squared kernels are normalised similarities", "statement": "The additive and skewed chi-squared kernels are symmetric, and on histograms (non-negative features summing to one, away from the numerical threshold) the additive kernel satisfies 0 <= k(x,y) <= k(x,x) = 1; the skewed kernel satisfies k(x,x) = 1 and k(x,y) <= 1.", "quantifier": "all histograms of all dimensions", "why_tests_cant": "continuous domain", "anchors": ["kerch/kernel/vision/*.py"]}
{"id": "C43", "title": "Random Fourier features approximate a shift-invariant normalised kernel", "statement": "For any drawn weights, the random Fourier feature kernel depends only on x - y, is bounded by one in absolute value and equals one at x = y.", "quantifier": "every weight matrix, bandwidth and pair of points", "why_tests_cant": "continuous domain and all weight draws", "anchors": ["kerch/kernel/random_features/rff.py", "kerch/kernel/random_features/random_features.py"]}
{"id": "C44", "title": "Random-feature activations and inverses match", "statement": "For every admissible parameter, the inverse activation of the arcsinh, leaky-ReLU and hyperbola features undoes the activation; parameters for which no inverse exists are rejected.", "quantifier": "every real value and every parameter accepted by the constructor", "why_tests_cant": "continuous domain", "anchors": ["kerch/kernel/random_features/rf_arcsinh.py", "kerch/kernel/random_features/rf_lrelu.py", "kerch/kernel/random_features/rf_hyperbola.py"]}
{"id": "C45", "title": "Random-feature pre-images are exact", "statement": "When the weights determine the input (full column rank), the explicit pre-image of the feature map of any points returns these points.", "quantifier": "every weight matrix of full column rank, bandwidth and data set", "why_tests_cant": "continuous domain and all shapes", "anchors": ["kerch/kernel/random_features/random_features.py: _explicit, _explicit_preimage"]}
{"id": "C46", "title": "Kernel names resolve unambiguously", "statement": "Creating a kernel by name ignores case and underscores, returns the class of that name, and rejects every other name.", "quantifier": "every string", "why_tests_cant": "infinite set of strings", "anchors": ["kerch/kernel/_factory.py: factory, class_factory"]}
{"id": "C47", "title": "An unknown representation is an error", "statement": "Passing data through a kernel with a representation other than primal or dual raises an error.", "quantifier": "every string", "why_tests_cant": "infinite set of strings", "anchors": ["kerch/kernel/kernel.py: Kernel.forward"]}
{"id": "C48", "title": "Correlation matrices are correlation matrices", "statement": "Where variances are positive, the correlation matrix of the features has unit diagonal, is symmetric and has entries between -1 and 1.", "quantifier": "every feature map and sample", "why_tests_cant": "continuous domain, all sizes", "anchors": ["kerch/kernel/kernel.py: cov, corr"]}
{"id": "C49", "title": "Nystrom features reproduce the kernel on the sample", "statement": "When all positive eigenvalues are kept, inner products of the Nystrom features of the sample give back the base kernel matrix, and the out-of-sample features of the sample points equal the sample features; the statement also holds after sub-sampling.", "quantifier": "every kernel matrix and eigendecomposition, every selection", "why_tests_cant": "all sizes, all selections", "anchors": ["kerch/kernel/nystrom.py"]}
{"id": "C50", "title": "Nearest-neighbour pre-images average the nearest observations", "statement": "The k-nearest-neighbour pre-image of a row of distances is the mean of k distinct observations whose distances are no larger than any other; it lies within the range of the observations, and adding a constant to all distances does not change which observations qualify.", "quantifier": "every distance row, observation set and k", "why_tests_cant": "all sizes and values including ties", "anchors": ["kerch/method/_knn.py"]}
{"id": "C51", "title": "Smoothed pre-images are weighted means", "statement": "With non-negative coefficients, a smoothed pre-image is a convex combination of the observations (with all or the num largest coefficients), reproduces constant observations, and is always defined.", "quantifier": "every coefficient row and observation set", "why_tests_cant": "continuous domain", "anchors": ["kerch/method/_smoother.py"]}
{"id": "C52", "title": "Iterative pre-images restore the kernel's configuration", "statement": "After an iterative pre-image, whether it succeeds or raises, the kernel's cache level is what it was before.", "quantifier": "every input and every failure point", "why_tests_cant": "failure points are numerous and depend on shapes", "anchors": ["kerch/method/_iterative.py"]}
{"id": "C53", "title": "Reading the total variance does not change it", "statement": "Asking a fitted model for its total variance any number of times, normalised or not, returns the same value each time for the same question.", "quantifier": "every sequence of such reads", "why_tests_cant": "the drift appears only from the second read on", "anchors": ["kerch/level/_KPCA.py: total_variance"]}
{"id": "C54", "title": "Explained variance lies between 0 and 1", "statement": "For a solved KPCA model the relative variance is between 0 and 1, and it is 1 when all components are kept, in both representations.", "quantifier": "every data set, kernel, number of components", "why_tests_cant": "continuous domain, all sizes", "anchors": ["kerch/level/_KPCA.py: relative_variance, _solve_primal, _solve_dual"]}
{"id": "C55", "title": "The KPCA loss is a reconstruction error", "statement": "For orthonormal components the KPCA loss is non-negative and equals the (scaled) squared distance between the features and their projection on the components.", "quantifier": "every feature matrix and orthonormal component matrix", "why_tests_cant": "continuous domain, all sizes", "anchors": ["kerch/level/_KPCA.py: loss, _loss_original, _loss_projected"]}
{"id": "C56", "title": "Mapping to the latent space and back is a projection", "statement": "For a solved KPCA model, mapping features to the latent space and back is the orthogonal projection onto the components, in primal and in dual representation; with all components it is the identity on the sample.", "quantifier": "every solved model and all inputs", "why_tests_cant": "continuous domain", "anchors": ["kerch/level/_KPCA.py: h, phi_map, k_map"]}
{"id": "C57", "title": "Hidden variables stay attached to their data points", "statement": "After solving in dual on the selected points, the hidden variable reported for the i-th selected point is the one computed for that point.", "quantifier": "every selection of the sample (any order) and every solution", "why_tests_cant": "all index lists including permutations", "anchors": ["kerch/level/_View.py: update_dual, dual_param", "kerch/level/_KPCA.py: _solve_dual"]}
{"id": "C58", "title": "Primal and dual variables cannot contradict each other", "statement": "After assigning one of the primal or dual variables of a level, reading the other one either fails as not initialised or is consistent with the assigned one; a stale value is never returned.", "quantifier": "every history of assignments and reads", "why_tests_cant": "depends on histories", "anchors": ["kerch/level/_View.py: dual_param, primal_param", "kerch/level/single_view/View.py: _reset_primal"]}
{"id": "C59", "title": "Level outputs follow the model parameters", "statement": "After the parameters of a level change, its output is that of the new parameters.", "quantifier": "every history of parameter assignments and outputs", "why_tests_cant": "depends on histories", "anchors": ["kerch/level/_View.py: forward, dual_param, primal_param, update_dual"]}
{"id": "C60", "title": "Loss components are refreshed before each training step", "statement": "After the before-step hook, every component of the loss is recomputed at the next read.", "quantifier": "every state", "why_tests_cant": "depends on what has been read before", "anchors": ["kerch/level/_Level.py: before_step", "kerch/level/_KPCA.py: losses"]}
{"id": "C61", "title": "The LS-SVM dual solution is optimal", "statement": "The dual LS-SVM solution satisfies the optimality conditions, its training residual is the regularisation times the dual variables, the dual variables sum to zero, and it is unique for a positive semi-definite kernel matrix and positive regularisation.", "quantifier": "every kernel matrix, target and positive regularisation", "why_tests_cant": "continuous domain, all sizes", "anchors": ["kerch/level/single_view/LSSVM.py: _solve_dual"]}
{"id": "C62", "title": "Primal and dual LS-SVM solutions predict alike", "statement": "Solving the LS-SVM in primal and in dual with the same regularisation gives the same predictions.", "quantifier": "every feature matrix, target and positive regularisation", "why_tests_cant": "continuous domain, all sizes", "anchors": ["kerch/level/single_view/LSSVM.py: _solve_primal, _solve_dual"]}
{"id": "C63", "title": "Hidden variables are centered after each step", "statement": "After the after-step hook of an LS-SVM level, the hidden variables of each output sum to zero over the sample.", "quantifier": "every number of points and outputs, every value", "why_tests_cant": "shape-dependent: all pairs of sizes", "anchors": ["kerch/level/single_view/LSSVM.py: _center_hidden, after_step"]}
{"id": "C64", "title": "Advertised levels can be created and solved", "statement": "An LS-SVM level, a ridge level and a multi-view KPCA can be created and solved on any valid data.", "quantifier": "all valid construction arguments", "why_tests_cant": "quantifies over all arguments", "anchors": ["kerch/level/single_view/View.py: __init__", "kerch/level/single_view/Ridge.py", "kerch/level/multi_view/MultiView.py: __init__"]}
{"id": "C65", "title": "Multi-view slices partition the model", "statement": "The weights of the views are consecutive disjoint slices that together are exactly the weights of the multi-view model, and a primal prediction hands to each predicted view exactly its own features.", "quantifier": "every number of views and every list of feature dimensions", "why_tests_cant": "unbounded number of views", "anchors": ["kerch/level/multi_view/MultiView.py: _weight_from_view", "kerch/level/multi_view/MVKPCA.py: predict"]}
{"id": "C66", "title": "Levels of a model fit together", "statement": "At every moment in the life of a model, the output dimension of each level is the input dimension of the next one; appending a level that does not fit is rejected and leaves the model unchanged.", "quantifier": "every history of appended levels and solves", "why_tests_cant": "unbounded number of levels and histories", "anchors": ["kerch/model/Model.py: _append_level", "kerch/level/_KPCA.py: _solve_dual"]}
{"id": "C67", "title": "Evaluating a model composes its levels", "statement": "In evaluation mode the output of a model is the composition of the outputs of its levels, in order; in training mode the sample of each deeper level is, at the selected rows, the output of the level above, and its other rows are unchanged.", "quantifier": "every number of levels, every input and selection", "why_tests_cant": "unbounded depth", "anchors": ["kerch/model/Model.py: forward"]}
{"id": "C68", "title": "Checkpoints contain the model", "statement": "Saving a model and loading the saved state into an equally configured model restores its outputs.", "quantifier": "every model and every parameter value", "why_tests_cant": "quantifies over all parameter values", "anchors": ["kerch/model/Model.py: __init__, _append_level", "kerch/monitor/Watcher.py: save_model"]}
{"id": "C69", "title": "Training can be repeated", "statement": "Initialising the levels of a model for training a second time succeeds whenever it succeeded the first time.", "quantifier": "every model and number of levels", "why_tests_cant": "depends on the number of levels and prior initialisation", "anchors": ["kerch/model/Model.py: init_levels", "kerch/train/Trainer.py: _init_fit", "kerch/feature/sample.py: num_sample"]}
{"id": "C70", "title": "Soft-constrained levels are trained", "statement": "After a level has been added with the soft constraint and initialised on data, its parameters are handed to the optimiser as trainable.", "quantifier": "every level configuration", "why_tests_cant": "depends on the order of construction, assignment and initialisation", "anchors": ["kerch/model/Model.py: _append_level", "kerch/level/single_view/View.py: level_trainable", "kerch/level/_View.py: dual_param", "kerch/opt/Optimizer.py"]}
{"id": "C71", "title": "Each epoch visits each training point exactly once", "statement": "For every admissible batch size, the batches of an epoch are non-empty, no larger than the batch size, and together list each training index exactly once, in order; inadmissible batch sizes are rejected.", "quantifier": "every training-set size and batch size", "why_tests_cant": "unbounded sizes", "anchors": ["kerch/train/Trainer.py: batch_size, fit"]}
{"id": "C72", "title": "Each training step uses the gradient of its own batch", "statement": "During training, each optimisation step uses the gradient of the loss on the current batch only.", "quantifier": "every number of batches and every gradient value", "why_tests_cant": "needs at least two batches and arbitrary gradients", "anchors": ["kerch/train/Trainer.py: fit"]}
{"id": "C73", "title": "Exactly the last checkpoint survives", "statement": "After training finishes, exactly one checkpoint file remains, it is the most recently saved one and its path is returned; and it is the state of the model after the last epoch.", "quantifier": "every number of epochs and saving period", "why_tests_cant": "unbounded numbers", "anchors": ["kerch/monitor/Watcher.py: save_model, finish", "kerch/monitor/Saver.py: update"]}
{"id": "C74", "title": "Watchers can be created by name", "statement": "Requesting a watcher by one of the offered names (none, saver, wandb) yields a usable watcher or, for none, no watching.", "quantifier": "every offered name and all arguments", "why_tests_cant": "all names and arguments", "anchors": ["kerch/monitor/factory.py", "kerch/monitor/Saver.py"]}
{"id": "C75", "title": "Data splits are disjoint and of the requested sizes", "statement": "Splitting a data set into training, validation and test sets yields disjoint index sets of exactly the requested sizes, for every shuffle, and requested sizes that cannot be met are rejected.", "quantifier": "every data-set size, every list of sizes, every shuffle", "why_tests_cant": "n! shuffles and unbounded sizes", "anchors": ["kerch/data/_LearningSet.py: _LearningSet._indices, _LearningSetTrain, _LearningSetTrainTest"]}
{"id": "C76", "title": "Stiefel updates keep parameters orthonormal", "statement": "A Stiefel optimiser step moves along a skew-symmetric direction; the exact Cayley update keeps the rows of the (unit-normalised) parameter as orthonormal as they were, and the twenty fixed-point iterations used are within 2^-20 (relative) of that exact update, for every non-negative learning rate.", "quantifier": "every parameter, gradient, momentum and learning rate", "why_tests_cant": "continuous domain and all shapes", "anchors": ["kerch/opt/stiefel/stiefel_optimizer.py: SGDG.step, AdamG.step", "kerch/opt/stiefel/gutils.py: Cayley_loop"]}
{"id": "C77", "title": "Momentum accumulates on the Stiefel manifold", "statement": "With a non-zero momentum factor, a Stiefel step depends on the previous gradients.", "quantifier": "every sequence of gradients and momentum factors", "why_tests_cant": "needs sequences of steps", "anchors": ["kerch/opt/stiefel/stiefel_optimizer.py: SGDG.step"]}
{"id": "C78", "title": "Every trainable parameter is optimised exactly once", "statement": "The parameters listed for a manifold contain no duplicates and all parameters of that kind in the module tree in order; the optimiser groups contain exactly the trainable ones among them, each once.", "quantifier": "every module tree with shared parameters", "why_tests_cant": "trees of any size and sharing pattern", "anchors": ["kerch/feature/module.py: manifold_parameters", "kerch/opt/Optimizer.py: __init__"]}
{"id": "C79", "title": "Logging levels are per object", "statement": "Setting the logging level of one object does not change that of another object.", "quantifier": "every pair of objects and history of assignments", "why_tests_cant": "depends on classes and histories", "anchors": ["kerch/feature/logger.py: Logger", "kerch/feature/module.py: logging_level"]}
{"id": "C80", "title": "Inputs are normalised to matrices", "statement": "Casting an input to the internal format yields a two-dimensional array with the same entries (scalars become 1x1, vectors columns), is idempotent, and rejects inputs of higher dimension.", "quantifier": "inputs of every shape", "why_tests_cant": "all shapes", "anchors": ["kerch/utils/cast.py: castf"]}
{"id": "C81", "title": "Proportional selections are never empty", "statement": "Selecting a positive proportion of a non-empty sample selects at least one point.", "quantifier": "every sample size and proportion", "why_tests_cant": "only sizes and proportions with a product of at most one half fail", "anchors": ["kerch/feature/stochastic.py: Stochastic.stochastic"]}
{"id": "C82", "title": "Updating the sample clears the gradients of the updated rows", "statement": "After updating some rows of a trainable sample, the gradients stored for those rows are zero and the others unchanged, as the documentation of the update announces.", "quantifier": "every trainable sample, gradient, index list and value matrix", "why_tests_cant": "the claim is about all gradients and index lists; a test without gradient or with a zero gradient cannot see it", "anchors": ["kerch/feature/sample.py: Sample.update_sample"]}
{"id": "C83", "title": "A rejected bandwidth assignment leaves the kernel as it was", "statement": "If assigning the bandwidth raises, the bandwidth read afterwards is the one that was in force before (in particular still the heuristic if none had been determined).", "quantifier": "every state of a distance kernel and every rejected value", "why_tests_cant": "needs the state before and after an exception for every history", "anchors": ["kerch/kernel/distance/_distance.py: sigma setter"]}
{"id": "C84", "title": "A rejected sample initialisation leaves the object usable", "statement": "If initialising the sample raises because of an invalid selection, the object keeps its previous sample and selection, and the kernel matrix can still be read.", "quantifier": "every state, every sample and every invalid selection", "why_tests_cant": "only shows when the rejected sample has another size than the previous one", "anchors": ["kerch/feature/sample.py: Sample.init_sample", "kerch/feature/stochastic.py: Stochastic.stochastic"]}
{"id": "C85", "title": "A sample can be announced by either of its dimensions first", "statement": "A module can be constructed knowing only the number of points or only the input dimension; the sample is created once the other one is assigned, with exactly these dimensions and all points selected.", "quantifier": "every number of points and every dimension, in both orders", "why_tests_cant": "the claim covers all dimensions and both orders of assignment", "anchors": ["kerch/feature/sample.py: Sample.__init__, init_sample, dim_input, num_sample"]}
{"id": "C86", "title": "Changing a lag, diagonal value, skew or slope takes effect", "statement": "After assigning the lag of a hat or indicator kernel, the diagonal value of an indicator kernel, the skew of a skewed chi-squared kernel or the slope of leaky-ReLU features, every kernel matrix and feature map returned is that of the new value.", "quantifier": "every history of readings, assignments, resets and level changes", "why_tests_cant": "staleness depends on which values happen to be cached, hence on the whole history", "anchors": ["kerch/kernel/time/hat.py: lag", "kerch/kernel/time/indicator.py: lag, gamma", "kerch/kernel/vision/skewed_chi_2.py: p", "kerch/kernel/random_features/rf_lrelu.py: alpha"]}
{"id": "C87", "title": "Random-feature weights can be provided", "statement": "A random-feature kernel constructed with explicit weights uses exactly these weights, as its documentation announces.", "quantifier": "every weight matrix of the right width", "why_tests_cant": "the claim ranges over all weights, bandwidths and readings", "anchors": ["kerch/kernel/random_features/random_features.py: RandomFeatures.__init__, num_weights, weights"]}
{"id": "C88", "title": "The default bandwidth is usable", "statement": "Without an explicit bandwidth, a distance kernel determines a positive bandwidth from its sample as soon as the sample has two different points, so that k(x,x) is a number for every x.", "quantifier": "every sample of pairwise different points, every dimension and offered distance", "why_tests_cant": "ranges over all samples of all sizes", "anchors": ["kerch/kernel/distance/distance.py: _determine_sigma", "kerch/kernel/distance/distance_squared.py: _determine_sigma"]}
{"id": "C89", "title": "Gaussian kernel matrices are positive semi-definite", "statement": "For every bandwidth different from zero, every matrix of pairwise values of the RBF kernel is positive semi-definite.", "quantifier": "every finite set of points of every dimension, every bandwidth", "why_tests_cant": "infinitely many quadratic forms over a continuous domain", "anchors": ["kerch/kernel/generic/rbf.py", "kerch/kernel/statistics/exponential.py: _implicit"]}
{"id": "C90", "title": "Polynomial kernel matrices are positive semi-definite", "statement": "For every natural degree and non-negative offset, every matrix of polynomial kernel values is positive semi-definite.", "quantifier": "every finite set of points, degree and offset", "why_tests_cant": "infinitely many quadratic forms over a continuous domain", "anchors": ["kerch/kernel/generic/polynomial.py: _implicit"]}
{"id": "C91", "title": "Hat kernel matrices are positive semi-definite", "statement": "For every lag, every matrix of hat kernel values between time points is symmetric and positive semi-definite.", "quantifier": "every finite set of real time points and every lag", "why_tests_cant": "infinitely many quadratic forms over a continuous domain", "anchors": ["kerch/kernel/time/hat.py: _implicit"]}
{"id": "C92", "title": "What the sigmoid kernel guarantees", "statement": "The sigmoid kernel is symmetric with values strictly between zero and one for all parameters; it is not a positive semi-definite kernel, so a dual model on it has no feature space.", "quantifier": "all points and parameters", "why_tests_cant": "continuous domain", "anchors": ["kerch/kernel/generic/sigmoid.py"]}
{"id": "C93", "title": "The closed form of infinitely many leaky-ReLU features", "statement": "The closed-form leaky-ReLU kernel is symmetric, is the inner product when the slope is one, and k(x,x) is (1+slope^2)/2 times the squared norm of x, for every x including the origin.", "quantifier": "all points and slopes", "why_tests_cant": "continuous domain", "anchors": ["kerch/kernel/random_features/rf_lrelu.py: closed_form_kernel"]}
{"id": "C94", "title": "Distance kernels follow their documented formulas", "statement": "For every positive bandwidth and every offered distance, each kernel of a distance returns the value of the formula in its documentation (uniform, triangular, Epanechnikov, quartic, triweight, tricube, logistic, Silverman, exponential, RBF, Laplacian).", "quantifier": "all pairs of points, bandwidths, kernels and offered distances", "why_tests_cant": "continuous domain, all dimensions", "anchors": ["kerch/kernel/statistics/*.py: _implicit", "kerch/kernel/generic/rbf.py", "kerch/kernel/generic/laplacian.py", "kerch/kernel/distance/*.py"]}
{"id": "C95", "title": "Chi-squared kernels follow their documented formulas", "statement": "The additive chi-squared kernel is sum_i 2 x_i y_i / (x_i + y_i) and the skewed one is prod_i 2 sqrt(x_i+p) sqrt(y_i+p) / (x_i + y_i + 2), away from the numerical threshold.", "quantifier": "all histograms and parameters p", "why_tests_cant": "continuous domain, all dimensions", "anchors": ["kerch/kernel/vision/additive_chi_2.py: _implicit", "kerch/kernel/vision/skewed_chi_2.py: _implicit"]}
{"id": "C96", "title": "A Nystrom kernel is never built on a Nystrom kernel", "statement": "Requesting a Nystrom kernel on a base kernel whose name designates the Nystrom kernel is rejected, for every accepted spelling of that name.", "quantifier": "every string", "why_tests_cant": "infinite set of strings", "anchors": ["kerch/kernel/nystrom.py: Nystrom.__init__", "kerch/kernel/_factory.py: class_factory"]}
{"id": "C97", "title": "Level, model and dataset names resolve unambiguously", "statement": "Levels, models and datasets are created by their name up to case (datasets also up to blanks and underscores, with the abbreviation pima), and every other name is rejected.", "quantifier": "every string", "why_tests_cant": "infinite set of strings", "anchors": ["kerch/level/factory.py: factory", "kerch/model/factory.py: factory", "kerch/data/factory.py: factory"]}
{"id": "C98", "title": "The watcher factory knows its names", "statement": "The watcher factory returns the watcher of the given name, and nothing for the name none.", "quantifier": "every string", "why_tests_cant": "infinite set of strings", "anchors": ["kerch/monitor/factory.py: factory, class_factory"]}
{"id": "C99", "title": "cov is the covariance of the features", "statement": "The covariance matrix returned for some data holds the covariances of the (transformed) features of that data.", "quantifier": "every feature map, sample, data and default transform", "why_tests_cant": "continuous domain, all sizes, all lists of transforms", "anchors": ["kerch/kernel/kernel.py: cov, c, phi"]}
{"id": "C100", "title": "Nystrom features do not depend on the cache level", "statement": "The features of a Nystrom kernel, of the sample or of other points, are the same whatever the cache level and whatever was done before.", "quantifier": "every history of operations and every pair of cache levels", "why_tests_cant": "infinitely many histories", "anchors": ["kerch/kernel/nystrom.py: _compute_decomposition, _explicit_with_none", "kerch/feature/cache.py: _save, _get"]}
{"id": "C101", "title": "Nystrom kernels can be sub-sampled", "statement": "After selecting a subset of the sample, a Nystrom kernel gives the features of the selected points.", "quantifier": "every sample, selection and dimension", "why_tests_cant": "all selections", "anchors": ["kerch/kernel/nystrom.py: Nystrom", "kerch/feature/stochastic.py: stochastic", "kerch/utils/math.py: eigs"]}
{"id": "C102", "title": "A Nystrom kernel follows its base kernel", "statement": "After a change of the parameters of its base kernel, the features given by a Nystrom kernel are those of the new base kernel.", "quantifier": "every state and every change", "why_tests_cant": "depends on what was read before", "anchors": ["kerch/kernel/nystrom.py: base_kernel, _explicit_with_none", "kerch/kernel/kernel.py: _phi"]}
{"id": "C103", "title": "The announced dimension of a Nystrom kernel is the number of its features", "statement": "The feature dimension of a Nystrom kernel can be read and is the number of features it gives, with or without a requested dimension.", "quantifier": "every sample, spectrum and requested dimension", "why_tests_cant": "depends on the spectrum of the kernel matrix", "anchors": ["kerch/kernel/nystrom.py: dim, dim_feature"]}
{"id": "C104", "title": "Nearest-neighbour pre-images recover points of the sample", "statement": "The nearest-neighbour pre-image of the kernel values of points of the sample is these points themselves.", "quantifier": "every kernel, every sample and every list of its points", "why_tests_cant": "all samples and all kernels", "anchors": ["kerch/kernel/_base_kernel.py: implicit_preimage", "kerch/method/_knn.py: knn"]}
{"id": "C105", "title": "Iterative pre-images of features accept feature vectors", "statement": "The iterative explicit pre-image accepts every image with as many columns as the kernel has features.", "quantifier": "every kernel, sample and image", "why_tests_cant": "all shapes", "anchors": ["kerch/method/_iterative.py: iterative_preimage_phi"]}
{"id": "C106", "title": "The iterative method leaves its starting point unchanged", "statement": "Running the iterative minimisation does not modify the tensor given as starting point.", "quantifier": "every objective, starting point and number of iterations, whether or not an iteration raises", "why_tests_cant": "depends on the type of the tensor that is passed", "anchors": ["kerch/method/_iterative.py: iterative", "kerch/utils/cast.py: castf"]}
{"id": "C107", "title": "A variance that was returned does not change", "statement": "The value returned by asking for the total variance is not changed by later calls.", "quantifier": "every history of readings and resets after the call", "why_tests_cant": "aliasing with the cache shows only when the first value is looked at again", "anchors": ["kerch/level/_KPCA.py: total_variance", "kerch/feature/cache.py: _get"]}
{"id": "C108", "title": "Primal and dual KPCA find the same components", "statement": "From the dual solution one obtains orthonormal components in feature space that are eigenvectors of the matrix decomposed in primal, for the eigenvalues reported in dual.", "quantifier": "every feature matrix, number of components and threshold", "why_tests_cant": "continuous domain, all sizes", "anchors": ["kerch/level/_KPCA.py: _solve_primal, _solve_dual"]}
{"id": "C109", "title": "KPCA outputs agree in primal and dual", "statement": "The outputs of a solved KPCA model do not depend on the representation it was solved in.", "quantifier": "every feature matrix and all inputs", "why_tests_cant": "continuous domain, all sizes", "anchors": ["kerch/level/_View.py: phiw", "kerch/level/_KPCA.py: W, H"]}
{"id": "C110", "title": "Solving works when fewer components are significant", "statement": "Solving a KPCA succeeds and reports exactly the significant components and eigenvalues, also when they are fewer than the requested output dimension.", "quantifier": "every decomposition, requested dimension and prior state of the variables", "why_tests_cant": "depends on the rank of the data and on the history of the level", "anchors": ["kerch/level/_KPCA.py: _solve_primal, _solve_dual", "kerch/level/_View.py: update_dual, primal_param"]}
{"id": "C111", "title": "Unsetting a variable makes it uninitialised", "statement": "After assigning None to the primal or dual variables of a level, reading them fails as not initialised.", "quantifier": "every state of the level", "why_tests_cant": "depends on what was assigned before", "anchors": ["kerch/level/_View.py: dual_param, primal_param", "kerch/level/single_view/View.py: _reset_primal"]}
{"id": "C112", "title": "The announced output dimension is that of the variables", "statement": "Whenever the primal or dual variables of a level can be read, they have as many columns as the output dimension of the level.", "quantifier": "every history of assignments, updates, initialisations and changes of the output dimension", "why_tests_cant": "depends on histories", "anchors": ["kerch/level/_View.py: dim_output, dual_param, primal_param, update_dual"]}
{"id": "C113", "title": "Assigning values of the same shape keeps the parameter object", "statement": "Assigning to the primal or dual variables of a level a value of the shape they have keeps the parameter object, so that an optimiser created before still trains the level.", "quantifier": "every reachable state and value", "why_tests_cant": "depends on the shapes", "anchors": ["kerch/level/_View.py: dual_param, primal_param"]}
{"id": "C114", "title": "Variables given at construction are used", "statement": "A level created with given hidden variables or weights has these variables.", "quantifier": "every combination of construction arguments", "why_tests_cant": "all combinations of arguments", "anchors": ["kerch/level/_View.py: __init__", "kerch/level/_Level.py: __init__"]}
{"id": "C115", "title": "An attached view can be detached", "statement": "Detaching an attached view succeeds, after which the view holds its own weights.", "quantifier": "every state of the view", "why_tests_cant": "depends on the state", "anchors": ["kerch/level/_View.py: attach_to, detach"]}
{"id": "C116", "title": "A new input is mapped by the parameters of the moment", "statement": "The output returned for an input never passed before is computed from the parameters the level has at that moment.", "quantifier": "every history of reads, training steps and parameter changes, every caching level, both representations", "why_tests_cant": "depends on what was read before in the other calls", "anchors": ["kerch/level/_View.py: forward", "kerch/level/_KPCA.py: sqrt_vals, vals"]}
{"id": "C117", "title": "The output is the one of the input passed", "statement": "With fixed parameters, the output returned for an input is the one its present contents determine, whatever inputs were passed before.", "quantifier": "every history of reads and in-place changes of inputs", "why_tests_cant": "depends on the memory addresses of former inputs", "anchors": ["kerch/level/_View.py: forward"]}
{"id": "C118", "title": "An LS-SVM can be solved on a selection", "statement": "When a part of the sample is selected, solving an LS-SVM fits the selected points.", "quantifier": "every history of selections and solves, every proper part of the sample", "why_tests_cant": "quantifies over all selections", "anchors": ["kerch/level/single_view/LSSVM.py: _solve_dual", "kerch/feature/stochastic.py: stochastic"]}
{"id": "C119", "title": "The loss of a solved LS-SVM can be read", "statement": "After an LS-SVM or ridge regression has been solved, its loss can be read in the representation it was solved in.", "quantifier": "every state of the level, both representations", "why_tests_cant": "quantifies over all states", "anchors": ["kerch/level/single_view/LSSVM.py: loss, _loss_regularization"]}
{"id": "C120", "title": "The LS-SVM solution minimises the reported loss", "statement": "No weights and bias have a lower reported loss than the solution of the LS-SVM.", "quantifier": "every feature matrix, target and positive regularisation, every other weights and bias", "why_tests_cant": "continuous domain, compares with all other parameters", "anchors": ["kerch/level/single_view/LSSVM.py: _solve_dual, loss"]}
{"id": "C121", "title": "The training residual does not depend on kappa", "statement": "Whatever the scaling kappa of the view, the training residual of a solved LS-SVM is the regularisation times the dual variables.", "quantifier": "every kernel matrix, target, positive regularisation and kappa", "why_tests_cant": "continuous domain, all sizes", "anchors": ["kerch/level/single_view/LSSVM.py: _solve_dual", "kerch/level/single_view/View.py: _forward"]}
{"id": "C122", "title": "The predictions of an LS-SVM include its bias", "statement": "Once an LS-SVM is solved, its predictions contain the bias computed by the solution.", "quantifier": "every construction and history of the level", "why_tests_cant": "quantifies over all histories", "anchors": ["kerch/level/single_view/View.py: __init__, _forward, requires_bias"]}
{"id": "C123", "title": "A level can be solved again on another sample", "statement": "Solving an LS-SVM again with another sample and its target replaces the former solution; solving with another sample never uses targets of the former one.", "quantifier": "every history, every size of the new sample", "why_tests_cant": "quantifies over all sizes and histories", "anchors": ["kerch/level/single_view/Level.py: solve", "kerch/level/_View.py: update_dual"]}
{"id": "C124", "title": "The multi-view kernel is the inner product of the multi-view features", "statement": "For points given view by view, the multi-view kernel with the sample equals the inner product of the concatenated features.", "quantifier": "every list of views, every feature maps, scalings and points", "why_tests_cant": "unbounded number of views, continuous domain", "anchors": ["kerch/level/multi_view/MultiView.py: phis, phi, ks, k"]}
{"id": "C125", "title": "Known views can be given by name or by number", "statement": "A prediction accepts the known views by name or by number, and predicts exactly the other views.", "quantifier": "every set of views and of known keys", "why_tests_cant": "unbounded number of views", "anchors": ["kerch/level/multi_view/MVKPCA.py: _project", "kerch/level/multi_view/MultiView.py: view"]}
{"id": "C126", "title": "The order of the known views does not matter", "statement": "Giving the known views of a prediction in another order gives the same scores and the same kernel values.", "quantifier": "every permutation of every list of known views", "why_tests_cant": "all permutations, continuous domain", "anchors": ["kerch/level/multi_view/MVKPCA.py: _project_primal, _project_dual", "kerch/level/multi_view/MultiView.py: weights_by_name"]}
{"id": "C127", "title": "Hard-constrained levels are not trained by the optimiser", "statement": "After a level has been added with the hard constraint and initialised on data, its parameters are not handed to the optimiser (it is solved instead).", "quantifier": "every level configuration", "why_tests_cant": "depends on the order of construction, assignment and initialisation", "anchors": ["kerch/model/Model.py: _append_level", "kerch/level/single_view/View.py: level_trainable", "kerch/level/_View.py: dual_param, primal_param"]}
{"id": "C128", "title": "Switching the mode of a model returns the model", "statement": "As for any torch module, train() and eval() of a model return the model, so that calls can be chained, and set its mode.", "quantifier": "every model and mode", "why_tests_cant": "every state of every model", "anchors": ["kerch/model/Model.py: train", "kerch/feature/stochastic.py: train"]}
{"id": "C129", "title": "The dual variables follow the training points", "statement": "After a model has been initialised for training on given points, the dual variables of its levels have one row per training point.", "quantifier": "every model, every sequence of training sets", "why_tests_cant": "depends on earlier trainings", "anchors": ["kerch/model/Model.py: init_sample, init_levels", "kerch/level/_View.py: init_parameters"]}
{"id": "C130", "title": "A full training pass agrees with evaluation", "statement": "When all the points are selected, evaluating a model right after a training pass gives the output of that pass.", "quantifier": "every number of levels and every behaviour of the levels", "why_tests_cant": "unbounded depth, every behaviour", "anchors": ["kerch/model/Model.py: forward"]}
{"id": "C131", "title": "Reports keep the values of all levels apart", "statement": "The hyperparameters, losses and watched properties reported by a model contain those of each level, under keys that name the level, and nothing else; none overwrites another.", "quantifier": "every number of levels, every class names and keys", "why_tests_cant": "unbounded number of levels, all strings", "anchors": ["kerch/model/Model.py: hparams_fixed, hparams_variable, losses, watched_properties"]}
{"id": "C132", "title": "The saving period can be chosen", "statement": "A watcher created with the documented options for its periods saves, logs and plots at these periods.", "quantifier": "every call of the constructors", "why_tests_cant": "all combinations of arguments", "anchors": ["kerch/monitor/Watcher.py: Watcher.__init__", "kerch/monitor/Saver.py: Saver.__init__"]}
{"id": "C133", "title": "The default logging level concerns new objects only", "statement": "The default logging level is read back as set, is the level of objects created afterwards without their own, leaves existing objects as they are, and is changed by nothing else.", "quantifier": "every history of creations and assignments", "why_tests_cant": "unbounded histories", "anchors": ["kerch/feature/logger.py: set_logging_level, get_logging_level, Logger.__init__"]}
{"id": "C134", "title": "Integers are cast to the requested number of dimensions", "statement": "Casting integers with the matrix option gives a matrix, and without it a vector, with the same entries.", "quantifier": "inputs of every shape", "why_tests_cant": "all shapes", "anchors": ["kerch/utils/cast.py: casti"]}
{"id": "C135", "title": "Only the two representations are accepted", "statement": "Checking a representation returns it if it is primal or dual, the default if none was given and the default is one of the two, and otherwise raises the representation error.", "quantifier": "every string and default", "why_tests_cant": "all strings", "anchors": ["kerch/utils/cast.py: check_representation"]}
{"id": "C136", "title": "Re-orthonormalisation gives orthonormal rows", "statement": "When a Stiefel step re-orthonormalises a parameter, the result has orthonormal rows, and rows that were orthonormal already are not moved.", "quantifier": "every parameter and every correct QR factorisation", "why_tests_cant": "continuous domain, and it happens in one step out of about a hundred", "anchors": ["kerch/opt/stiefel/gutils.py: qr_retraction", "kerch/opt/stiefel/stiefel_optimizer.py: SGDG.step"]}
{"id": "C137", "title": "A Stiefel step descends", "statement": "The velocity of a Stiefel step along minus the gradient does not increase the loss at first order, and leaves it unchanged at first order only if the velocity is zero.", "quantifier": "every parameter with orthogonal rows of the same norm, every gradient", "why_tests_cant": "continuous domain and all shapes", "anchors": ["kerch/opt/stiefel/stiefel_optimizer.py: SGDG.step"]}
{"id": "C138", "title": "Ordinary parameters follow gradient descent with momentum and weight decay", "statement": "A step moves every parameter that has a gradient along minus the average of its gradients (with the given momentum and dampening, and weight decay added), and leaves the others alone.", "quantifier": "every list of parameter groups, options and sequences of gradients", "why_tests_cant": "needs histories and every combination of options", "anchors": ["kerch/opt/Optimizer.py: Optimizer", "kerch/opt/stiefel/stiefel_optimizer.py: SGDG.step, AdamG.step"]}
{"id": "C139", "title": "Every trainable hyperparameter can be optimised", "statement": "A step of the optimiser succeeds whichever trainable hyperparameters (bandwidth, degree, lag, ...) have a gradient.", "quantifier": "every set of hyperparameters made trainable", "why_tests_cant": "all combinations of kernels and options", "anchors": ["kerch/opt/stiefel/stiefel_optimizer.py: SGDG.step, AdamG.step", "kerch/kernel/distance/_distance.py: sigma", "kerch/kernel/generic/polynomial.py: Polynomial.__init__"]}
{"id": "C140", "title": "A step only reads the gradients", "statement": "After an optimisation step the gradients are those that were computed by the backward pass.", "quantifier": "every list of parameter groups and options", "why_tests_cant": "all combinations of options", "anchors": ["kerch/opt/stiefel/stiefel_optimizer.py: SGDG.step, AdamG.step"]}
{"id": "C141", "title": "Reducing the learning rate scales all the steps", "statement": "Reducing by a factor multiplies the learning rate of every group by it, changes nothing else, composes, and scales the next step of gradient descent by this factor.", "quantifier": "every list of groups and factor", "why_tests_cant": "all groups and factors", "anchors": ["kerch/opt/Optimizer.py: Optimizer.reduce"]}
{"id": "C142", "title": "An unknown optimiser is an error", "statement": "Creating an optimiser succeeds exactly for the known names, and a step returns the value of the closure.", "quantifier": "every name and module", "why_tests_cant": "all strings", "anchors": ["kerch/opt/Optimizer.py: Optimizer.__init__, Optimizer.step"]}
{"id": "C143", "title": "Decompositions give the requested largest eigenpairs", "statement": "Decomposing a symmetric matrix and asking for k eigenpairs gives k orthonormal eigenvectors with the k largest eigenvalues in descending order (all of them by default), whichever routine does it; any other k and a matrix that is not square are refused.", "quantifier": "every symmetric matrix, number of eigenpairs and behaviour of the underlying routines within their documentation", "why_tests_cant": "continuous domain, all sizes, and which routine runs depends on the size", "anchors": ["kerch/utils/math.py: eigs"]}
{"id": "C144", "title": "Generalised decompositions solve the generalised problem", "statement": "Decomposing A relative to B returns values and vectors with A v = s B v.", "quantifier": "every symmetric A and every symmetric invertible B", "why_tests_cant": "continuous domain and all sizes", "anchors": ["kerch/utils/math.py: eigs"]}
{"id": "C145", "title": "The hints given to a decomposition only choose the method", "statement": "Whatever true hints are given about the matrix (symmetric, positive), the k largest eigenpairs are returned.", "quantifier": "every matrix, every number of eigenpairs and all four combinations of hints", "why_tests_cant": "continuous domain and all sizes", "anchors": ["kerch/utils/math.py: eigs"]}
{"id": "C146", "title": "Solving a kernel principal component analysis is optimal", "statement": "The parameters found by solving have the smallest loss, and keep the most variance, among all orthonormal parameters of the same size; pruning costs at most its threshold for each requested component.", "quantifier": "every feature or kernel matrix, number of components, threshold and every competing orthonormal matrix", "why_tests_cant": "quantifies over all competitors in a continuous domain", "anchors": ["kerch/level/_KPCA.py: _KPCA._solve_primal, _KPCA._solve_dual, _KPCA.loss", "kerch/utils/math.py: eigs"]}
{"id": "C147", "title": "The scale of a level is that of its kernel", "statement": "A level with scale kappa has kappa times the kernel, the product of its features, and predicts the same in primal and in dual; changing kappa changes them together.", "quantifier": "every scale, every sequence of changes, every kernel and points", "why_tests_cant": "continuous domain and histories of changes", "anchors": ["kerch/level/single_view/View.py: View.kappa, View.phi, View.k, View._forward", "kerch/level/_View.py: _View.phiw"]}
{"id": "C148", "title": "A level can be solved again", "statement": "Solving a level that was solved before replaces its solution, whatever the new points and the number of components that are kept.", "quantifier": "every level, number of points and components", "why_tests_cant": "needs sequences of solutions with all shapes", "anchors": ["kerch/level/_KPCA.py: _KPCA._solve_dual, _KPCA._solve_primal", "kerch/level/_View.py: _View.update_dual, _View.primal_param"]}
{"id": "C149", "title": "Evaluation uses every point", "statement": "Switching a model to evaluation makes every level use all of its points, whatever was selected before, and changes neither the points nor the parameters; switching it to training keeps the selections.", "quantifier": "every model, selections and levels", "why_tests_cant": "models with any number of levels and any selection", "anchors": ["kerch/model/Model.py: Model.train, Model.stochastic", "kerch/feature/stochastic.py: Stochastic.train, Stochastic.stochastic"]}
{"id": "C150", "title": "Parameters given as orthonormal are updated on the manifold", "statement": "A step of the optimiser updates every parameter of a Stiefel group that has a gradient on the manifold, and no other.", "quantifier": "every list of groups, parameters and shapes", "why_tests_cant": "all shapes and options", "anchors": ["kerch/opt/stiefel/stiefel_optimizer.py: SGDG.step, AdamG.step"]}
{"id": "C151", "title": "A level answers with the methods of the kernel it was given", "statement": "A level can be created on every kernel class, of kerch or of a user, and each question it puts to its kernel is answered by the method that an object of that kernel class would use; a class that is no kernel is refused.", "quantifier": "every kernel class, with or without a distance, every level class, every attribute", "why_tests_cant": "the classes are made at run time from classes of users, so there are infinitely many of them", "anchors": ["kerch/level/single_view/View.py: View.__new__", "kerch/kernel/distance/select_distance.py: SelectDistance.__new__", "kerch/kernel/generic/rbf.py: RBF.__new__"]}
{"id": "C152", "title": "A copied kernel or level behaves like the original", "statement": "A kernel or level that is copied (copy.deepcopy) or stored and read back (pickle) answers every question with the same methods as the original.", "quantifier": "every kernel and level class, of kerch or of a user, every attribute", "why_tests_cant": "the classes are made at run time from classes of users, so there are infinitely many of them", "anchors": ["kerch/level/single_view/View.py: View.__new__", "kerch/kernel/distance/select_distance.py: SelectDistance.__new__", "kerch/feature/module.py: Module.__new__"]}
{"id": "C153", "title": "A copy is independent of the original", "statement": "A deep copy of a kernel, level or model computes the same as the original, and from then on changing the parameters of either changes nothing in the other.", "quantifier": "every object graph, every sequence of later assignments to either", "why_tests_cant": "needs every history of assignments on every graph of objects", "anchors": ["kerch/kernel/generic/sigmoid.py: Sigmoid.__init__, Sigmoid._implicit", "kerch/kernel/generic/polynomial.py: Polynomial._implicit"]}
{"id": "C154", "title": "The fixed hyperparameters name the kernel and list the dimensions", "statement": "The fixed hyperparameters reported by a kernel, and by a level on it, are a dictionary that gives the name of that kernel and all the fixed values of the level; classes that add no hyperparameters change nothing.", "quantifier": "every kernel class, every class a user derives from it, every level class, every distance", "why_tests_cant": "classes of users and classes made at run time, infinitely many", "anchors": ["kerch/feature/module.py: Module.hparams_fixed", "kerch/kernel/kernel.py: Kernel.hparams_fixed", "kerch/kernel/generic/rbf.py: RBF.hparams_fixed", "kerch/kernel/generic/linear.py: Linear.hparams_fixed", "kerch/kernel/generic/polynomial.py: Polynomial.hparams_fixed", "kerch/level/_View.py: _View.hparams_fixed", "kerch/level/_Level.py: _Level.hparams_fixed"]}
{"id": "C155", "title": "The variable hyperparameters are those that can be trained", "statement": "The variable hyperparameters reported by a kernel, and by a level on it, are exactly those that can be trained, with their current values.", "quantifier": "every kernel class, every class a user derives from it, every level class, all values", "why_tests_cant": "classes of users and classes made at run time, infinitely many", "anchors": ["kerch/feature/module.py: Module.hparams_variable", "kerch/kernel/distance/_distance.py: _Distance.hparams_variable", "kerch/kernel/random_features/random_features.py: RandomFeatures.hparams_variable", "kerch/level/single_view/LSSVM.py: LSSVM.__init__"]}
{"id": "C156", "title": "Exponential and logistic kernels give positive semi-definite matrices", "statement": "Laplacian kernels, exponential kernels of the Manhattan distance and logistic kernels of the Euclidean distance give positive semi-definite kernel matrices in every dimension; Silverman kernels do between numbers, for every distance.", "quantifier": "every bandwidth, every dimension, every finite set of points and all coefficients", "why_tests_cant": "a quadratic form over all point sets; eigenvalues computed by a test carry rounding errors and only concern its points", "anchors": ["kerch/kernel/generic/laplacian.py: Laplacian", "kerch/kernel/statistics/exponential.py: Exponential._implicit", "kerch/kernel/statistics/logistic.py: Logistic._implicit", "kerch/kernel/statistics/silverman.py: Silverman._implicit"]}
{"id": "C157", "title": "Chi-squared kernels give positive semi-definite matrices", "statement": "The additive and the skewed chi-squared kernels give positive semi-definite kernel matrices on data whose (shifted) features are zero or not below the numerical threshold, in every dimension; and that condition matters.", "quantifier": "every dimension, every skew, every finite set of such points and all coefficients", "why_tests_cant": "a quadratic form over all point sets; eigenvalues computed by a test carry rounding errors and only concern its points", "anchors": ["kerch/kernel/vision/additive_chi_2.py: AdditiveChi2._implicit", "kerch/kernel/vision/skewed_chi_2.py: SkewedChi2._implicit"]}
{"id": "C158", "title": "Which kernels of compact support give positive semi-definite matrices", "statement": "Among the kernels of compact support (uniform, triangular, Epanechnikov, quartic, triweight, tricube), exactly the triangular kernel between numbers gives positive semi-definite kernel matrices: every other kernel, and the triangular kernel in two or more dimensions, gives matrices with a negative eigenvalue, whatever the bandwidth and the distance.", "quantifier": "every compact kernel, every distance that can be evaluated, every bandwidth, every dimension, every finite set of points and all coefficients", "why_tests_cant": "a quadratic form over all point sets, and a counterexample for every bandwidth and dimension", "anchors": ["kerch/kernel/statistics/triangular.py: Triangular._implicit", "kerch/kernel/statistics/uniform.py: Uniform._implicit", "kerch/kernel/statistics/epanechnikov.py: Epanechnikov._implicit", "kerch/kernel/statistics/quartic.py: Quartic._implicit", "kerch/kernel/statistics/triweight.py: Triweight._implicit", "kerch/kernel/statistics/tricube.py: Tricube._implicit"]}
{"id": "C159", "title": "Distance kernels with the default bandwidth do not depend on the unit of measure", "statement": "With the default bandwidth, measuring sample and data in another unit and from another origin changes no value of a distance kernel; the default bandwidth itself scales with the unit, a given bandwidth has to be converted like the data, and the order of the sample does not matter.", "quantifier": "every distance kernel, every distance, every sample and pair of points, every positive unit and all offsets, also where the value is infinite, not a number or an error", "why_tests_cant": "an identity between two runs over all data sets and all conversions", "anchors": ["kerch/kernel/distance/_distance.py: _Distance.sigma", "kerch/kernel/distance/distance.py: Distance._determine_sigma", "kerch/kernel/distance/distance_squared.py: DistanceSquared._determine_sigma", "kerch/kernel/statistics: the distance kernels"]}
{"id": "C160", "title": "Nystrom features of other points never exceed the base kernel", "statement": "On points outside the sample, the base kernel matrix minus the kernel matrix of the Nystrom features is positive semi-definite; it only shrinks when more components are kept or the threshold on the eigenvalues is lowered.", "quantifier": "every base kernel that is positive on sample and points together, every sample, every number of components, every positive threshold, all points", "why_tests_cant": "an inequality between quadratic forms over all samples and points", "anchors": ["kerch/kernel/nystrom.py: Nystrom._explicit", "kerch/kernel/nystrom.py: Nystrom._compute_decomposition", "kerch/utils/math.py: eigs"]}
{"id": "C161", "title": "Regularisation of least-squares support vector machines trades error for norm", "statement": "For every output, the squared error on the training points grows with gamma and the squared norm of the weights shrinks; whatever gamma, no constant predicts the training targets better, and the predictions have the sum of the targets.", "quantifier": "every positive semi-definite kernel matrix, all targets, any number of outputs, all positive gammas; predictions without additional scale", "why_tests_cant": "an inequality between two trainings for all data sets and all pairs of gammas", "anchors": ["kerch/level/single_view/LSSVM.py: LSSVM._solve_dual", "kerch/level/single_view/View.py: View._forward"]}
{"id": "C162", "title": "Least-squares support vector machines do not depend on conventions of the data", "statement": "Training is linear in the targets; another origin of the targets changes the bias only; the order of the training points changes no prediction; a kernel multiplied by a factor, with gamma multiplied alike, makes the same predictions.", "quantifier": "every kernel matrix with a regular system, all targets, any number of outputs, all permutations, factors and shifts, predictions on any points", "why_tests_cant": "an identity between two trainings for all data sets", "anchors": ["kerch/level/single_view/LSSVM.py: LSSVM._solve_dual", "kerch/level/single_view/View.py: View._forward"]}
{"id": "C163", "title": "Every kernel that can be created can be used in a level", "statement": "A class can be created exactly when all that it looks up is implemented, and creation raises a type error otherwise; every kernel of the documentation can be created with every distance, and whatever kernel can be created alone, of kerch or of a user, can be given to KPCA, LSSVM and Ridge, and to every user level that implements what levels declare.", "quantifier": "every program that derives further kernels, distances and levels from those of kerch; every kernel and distance", "why_tests_cant": "ranges over all class hierarchies that users can write; abstract methods are found by the resolution order of a class that is made at run time", "anchors": ["kerch/feature/module.py: Module.__new__", "kerch/level/single_view/View.py: View.__new__", "kerch/kernel/distance/select_distance.py: SelectDistance.__new__", "kerch/level/_View.py: abstract methods", "kerch/kernel/_base_kernel.py: abstract methods"]}
{"id": "C164", "title": "Every level class that is exported can be created", "statement": "Each level exported by kerch.level, apart from the base class Level, can be created with the kernels of kerch, and the views that multi-view levels are made of can be created from their parameters.", "quantifier": "every exported level, every kernel and distance, of kerch or of a user", "why_tests_cant": "whether an abstract method remains depends on the resolution order of each class that is made at run time", "anchors": ["kerch/level/__init__.pyi", "kerch/level/single_view/PPCA.py", "kerch/level/_PPCA.py", "kerch/level/single_view/View.py", "kerch/level/multi_view/MultiView.py: attach_view"]}
{"id": "C165", "title": "What a name of kerch.level stands for does not depend on what was used before", "statement": "Whatever levels were used, created through the factory or loaded before, kerch.level.KPCA, PPCA, LSSVM, Ridge, MVKPCA, Level and factory are the class or function of that name, the factory makes the level that is asked for, and what a name was once found to be it stays.", "quantifier": "every history of uses of names, calls of the factory and imports of the models", "why_tests_cant": "modules are loaded on first use and bind names in their packages as they load, so that the outcome depends on the order of all uses in the process", "anchors": ["kerch/level/__init__.py", "kerch/level/__init__.pyi", "kerch/level/single_view/__init__.pyi", "kerch/level/single_view/Ridge.py", "kerch/level/factory.py", "kerch/model/Model.py"]}
{"id": "C166", "title": "What a name of kerch.model or kerch.train stands for does not depend on what was used before", "statement": "Whatever was used before, kerch.model.Model, RKM, KPCA, LSSVM, factory and kerch.train.Trainer are the class or function of that name, and the factory makes the model that is asked for.", "quantifier": "every history of uses of names and calls of the factory", "why_tests_cant": "modules are loaded on first use and bind names in their packages as they load, so that the outcome depends on the order of all uses in the process", "anchors": ["kerch/model/__init__.pyi", "kerch/model/factory.py", "kerch/model/RKM.py", "kerch/train/Trainer.py", "kerch/opt/Optimizer.py"]}
{"id": "C167", "title": "Every kernel of kerch.kernel can be used at any time, in any order", "statement": "Every name offered by kerch.kernel is the class or function of its file, whatever names were used and whatever files of the package were imported before; every file can be imported at any time; any other name that is no file either is an AttributeError that loads nothing.", "quantifier": "every history of uses of names and imports of files", "why_tests_cant": "the order in which fifty files that import one another are first used is up to the user", "anchors": ["kerch/kernel/__init__.py", "kerch/kernel/__init__.pyi"]}
{"id": "C168", "title": "Distance kernels change continuously with the data and with the bandwidth", "statement": "For every distance kernel but the uniform one and every distance, moving the points changes a kernel value by at most a constant of the kernel times the displacement in bandwidths, and changing the bandwidth by at most a constant times the relative change, at whatever distance; hence a weighted sum of kernel values, as a dual model computes, is continuous in the input. The uniform kernel jumps, and only where the distance equals the bandwidth.", "quantifier": "every kernel, distance, bandwidth, pair of points and displacement; every sample and every weights", "why_tests_cant": "ranges over all real vectors of any dimension and all bandwidths", "anchors": ["kerch/kernel/statistics/*.py: _implicit", "kerch/kernel/generic/rbf.py", "kerch/kernel/generic/laplacian.py", "kerch/kernel/distance/*.py"]}
{"id": "C169", "title": "Standardised and rescaled data do not depend on the units of measure", "statement": "If each column of the data is measured in another unit (v becomes a v + b with a > 0), standardising or rescaling by the sample gives the same numbers, for the sample and for new data, in any state of the transform tree, provided the spread of the column exceeds the threshold in both units; the normalisation ignores a common factor; and data that are already standardised or rescaled are left unchanged by doing it again. Below the threshold the factor between the results is known exactly.", "quantifier": "every sample, unit change per column, states of the two trees, and data in or out of the sample", "why_tests_cant": "ranges over all real data sets, all unit changes and all histories of evaluations", "anchors": ["kerch/transform/all/*.py: _explicit_statistics, _explicit_sample, _explicit_oos", "kerch/transform/TransformTree.py: apply"]}
{"id": "C170", "title": "Kernels do not depend on the choice of the coordinates", "statement": "Expressing the data in other orthonormal coordinates (rotations, reflections, embeddings in a larger space) changes no value of a Euclidean distance kernel, with a given or the default bandwidth, nor of the linear, polynomial and sigmoid kernels; changing the order or the direction of the coordinates changes no value of any distance kernel. Manhattan and Chebyshev kernels do depend on the axes.", "quantifier": "every orthonormal matrix, dimension, kernel, bandwidth, sample and pair of points", "why_tests_cant": "ranges over all real vectors, all dimensions and all coordinate changes", "anchors": ["kerch/kernel/distance/*.py: _dist, _square_dist, _determine_sigma", "kerch/kernel/statistics/*.py: _implicit", "kerch/kernel/generic/*.py"]}
{"id": "C171", "title": "Asking for more components refines a principal component analysis", "statement": "Solving a KPCA level for more components keeps the first components, their eigenvalues and the latent variables of any data, never decreases the explained variance nor increases the loss; each further component explains at most as much as the previous one, and k components of n explain at least the share k/n, up to the pruning threshold for each.", "quantifier": "every matrix, decomposition, threshold and numbers of components", "why_tests_cant": "ranges over all real symmetric matrices of any size and all numbers of components", "anchors": ["kerch/level/_KPCA.py: _solve_primal, _solve_dual, model_variance, loss, h", "kerch/utils/math.py: eigs"]}
{"id": "C172", "title": "Kernel matrices of distinct points can be inverted", "statement": "With the Gaussian, the Laplacian, the logistic and the Manhattan exponential kernel and any bandwidth, the kernel matrix of a sample is positive definite exactly when no two points of the sample coincide. Any targets, one per point, are then reproduced by exactly one choice of coefficients. The same holds for the polynomial kernel with a positive offset as long as the sample has at most one point more than the degree.", "quantifier": "every sample of any size and dimension, every bandwidth, every vector of targets", "why_tests_cant": "ranges over all samples of real vectors of any size; a test inverts a few matrices in floating point", "anchors": ["kerch/kernel/generic/rbf.py: RBF", "kerch/kernel/generic/laplacian.py: Laplacian", "kerch/kernel/statistics/logistic.py: Logistic", "kerch/kernel/statistics/exponential.py: Exponential", "kerch/kernel/generic/polynomial.py: Polynomial"]}
{"id": "C173", "title": "A larger sample never makes a Nystrom kernel worse, and its order does not matter", "statement": "With a positive semi-definite base kernel, adding points to the sample of a Nystrom kernel that leaves out no positive eigenvalue never increases the error of the approximated kernel at any point, whatever the smaller run truncated. Two samples made of the same points, in whatever order and with whatever repetitions, give the same approximated kernel. If a positive eigenvalue is left out, a larger sample may be worse.", "quantifier": "every positive semi-definite base kernel, every pair of nested samples of any size, every threshold and number of components of the smaller run, every evaluation points", "why_tests_cant": "compares two runs on arbitrary nested samples at arbitrary points; a test compares a few pairs in floating point", "anchors": ["kerch/kernel/nystrom.py: Nystrom"]}
{"id": "C174", "title": "Principal components do not depend on the solver or on the order of the points", "statement": "Whatever eigendecomposition is found, and in whatever order the training points are given, a kernel principal component analysis gives the same values and explained variance. If the last component that is kept is separated from the first one left out, the reconstructions and all inner products between latent variables, and between outputs, of any points are the same too; a component whose eigenvalue is not shared is found up to its sign. Without the separation this fails.", "quantifier": "every kernel or second-moment matrix of any size, every pair of valid eigendecompositions, every permutation of the training points, every threshold and number of components, every new points", "why_tests_cant": "ranges over all decompositions a solver could return, where a test sees the one its library happens to return", "anchors": ["kerch/level/_KPCA.py: _KPCA._solve_primal", "kerch/level/_KPCA.py: _KPCA._solve_dual", "kerch/level/_KPCA.py: _KPCA.h", "kerch/utils/math.py: eigs"]}
{"id": "C175", "title": "Changing the default types takes effect", "statement": "After set_ftype, set_itype or set_eps has accepted a value, kerch.FTYPE and kerch.ITYPE give it and everything created or computed afterwards uses it, so that data and parameters always have the same type. A rejected call changes nothing.", "quantifier": "every sequence of calls of the setters and of first uses of any part of the library, in any order", "why_tests_cant": "what a module sees depends on when it was first used; a test exercises one order of imports, usually with the defaults", "anchors": ["kerch/utils/type.py: set_ftype, set_itype, set_eps", "kerch/utils/cast.py: castf, casti", "kerch/__init__.py", "kerch/level/single_view/LSSVM.py: LSSVM._solve_primal"]}
{"id": "C176", "title": "Least-squares support vector machines are stable in the targets", "statement": "Let an LS-SVM be solved in dual twice, with the same training points, a positive semi-definite kernel and a positive gamma, but with different targets. For each output, the sum of squares of the changes of the fitted values plus that of the changes of the residuals is at most the sum of squares of the changes of the targets. When a single target changes, the value fitted at this point moves in the same direction, by at least the change divided by the number of points and by at most the change. With a symmetric kernel influence is mutual: changing the target of one point moves the value fitted at another as much as the reverse.", "quantifier": "every kernel matrix, number of points and outputs, gamma, and all targets", "why_tests_cant": "tests use a few data sets; instability would show for particular kernel matrices only", "anchors": ["kerch/level/single_view/LSSVM.py: LSSVM._solve_dual", "kerch/level/_View.py: _View.forward"]}
{"id": "C177", "title": "Points that a least-squares support vector machine explains exactly do not matter", "statement": "If the dual variables of some training points of a solved LS-SVM are zero, solving without these points gives the same dual variables for the others, the same bias, and the same predictions for every input. Conversely, if the LS-SVM solved on part of the points predicts the targets of the others exactly, then solving on all gives these others zero dual variables and changes nothing else.", "quantifier": "every positive semi-definite kernel matrix, every gamma > 0, all targets and every subset of the points", "why_tests_cant": "which points have a zero dual variable depends on the data; no finite set of data settles it for every subset", "anchors": ["kerch/level/single_view/LSSVM.py: LSSVM._solve_dual", "kerch/level/single_view/View.py: View._forward"]}
{"id": "C178", "title": "The hyperparameters of a level and of its kernel are independent", "statement": "A level and its kernel are one object, but each has hyperparameters of its own: whatever level and kernel are combined, setting or reading a hyperparameter of the level does not touch those of the kernel and vice versa, the defaults of each are those of its documentation, and a level can be created with every kernel that can be created alone.", "quantifier": "every pair of a single-view level and a kernel with every distance, every value of the options and every history of assignments", "why_tests_cant": "levels are tested with one or two kernels; the failures are in particular pairs, and only show in values that nobody looks at", "anchors": ["kerch/level/single_view/View.py: View.__new__", "kerch/level/single_view/LSSVM.py: LSSVM.gamma", "kerch/kernel/time/indicator.py: Indicator.gamma", "kerch/kernel/random_features/rf_hyperbola.py: RFHyperbola.gamma", "kerch/level/single_view/PPCA.py"]}
{"id": "C179", "title": "Every error tells which object complains and why", "statement": "An error raised by kerch is of the announced class, its text starts with the name of the class of the object that complains, and continues with the message written at that place, or with that of the class of the error if there is none.", "quantifier": "every class of errors, every object and message, every way to pass them, and every place of the code where an error is raised", "why_tests_cant": "the texts of errors are not tested, and most of the places are never reached by tests", "anchors": ["kerch/utils/errors.py: KerchError.__init__", "kerch/kernel/implicit.py: Implicit.explicit_preimage", "kerch/kernel/_base_kernel.py: _BaseKernel._phi", "kerch/kernel/network/explicit_nn.py: ExplicitNN._explicit_preimage"]}
{"id": "C180", "title": "Plots show what they announce", "statement": "A plot of a matrix shows that matrix on the axes that are given, with the title and the labels of the axes if and only if labels are asked for; the plot of the eigenvalues has one bar for each of them; a scatter plot can be made of every view, with or without target, and with a heat map when the input has two dimensions.", "quantifier": "every matrix, list of eigenvalues, view, choice of labels and axes", "why_tests_cant": "plots are looked at, not tested", "anchors": ["kerch/plot/matplotlib.py: _plot_matrix, plot_eigenvalues", "kerch/monitor/module.py: scatter"]}
{"id": "C181", "title": "Every option reaches the class that reads it", "statement": "Whatever kernel or level is created, and whatever the options, each class in its chain of constructors that reads an option gets the value given by the caller, and the documented default when none is given (in particular the bias is required by default for LSSVM only); no class takes away an option that another one needs. Only the squared option of the RBF and Laplacian kernels is fixed.", "quantifier": "all kernels, with all distances, alone or in a level, all dictionaries of options; any chain of constructors of this form, including those of users", "why_tests_cant": "the combinations of classes are many and the options are passed through a dozen constructors, any of which can drop or overwrite one", "anchors": ["kerch/utils/decorators.py: kwargs_decorator", "kerch/kernel/kernel.py: Kernel.__init__", "kerch/level/single_view/LSSVM.py: LSSVM.__init__", "kerch/level/single_view/Ridge.py: Ridge.__init__"]}
{"id": "C182", "title": "Options announced as neglected are neglected", "statement": "Giving the RBF kernel squared=False, the Laplacian kernel squared=True, or the ridge regression requires_bias=True, has no other effect than a warning.", "quantifier": "all kernels and levels that are derived from these, all options", "why_tests_cant": "the case that is announced as harmless is not tested", "anchors": ["kerch/kernel/generic/rbf.py: RBF.__init__", "kerch/kernel/generic/laplacian.py: Laplacian.__init__", "kerch/level/single_view/Ridge.py: Ridge.__init__", "kerch/feature/logger.py: Logger.__init__"]}
{"id": "C183", "title": "Variances of components grow with the points and the kernel and are stable", "statement": "When kernel PCA is trained on some of its points instead of all, no component appears that is not there with all points, and the variance of each component times the number of points is at most that of the component of the same rank for all points, and at least that of the rank as many further as points were left out. A kernel that is larger (the difference of the matrices is positive) has larger variances. A change of at most e in every entry of the kernel matrix changes no variance by more than e in dual, however many points there are.", "quantifier": "all kernel matrices or features, all selections of points, all numbers of components and thresholds, any decomposition the solver returns", "why_tests_cant": "interlacing of eigenvalues holds for all matrices and selections; a test sees some of them up to rounding", "anchors": ["kerch/level/_KPCA.py: _KPCA._solve_dual, _KPCA._solve_primal, _KPCA.vals, _KPCA.model_variance", "kerch/feature/stochastic.py: Stochastic.stochastic", "kerch/utils/math.py: eigs"]}
{"id": "C184", "title": "Regularisation of LS-SVM goes from interpolation to the mean", "statement": "An LS-SVM whose kernel matrix has eigenvalues of at least lam has a training error of at most (gamma/(lam+gamma))^2 times that of the best constant, so that it interpolates its targets when gamma vanishes. For any positive kernel its prediction at any point comes as close as wanted to the mean of the targets when gamma grows, with an explicit rate, and points with close kernel values have close predictions.", "quantifier": "all kernel matrices, targets, numbers of points and outputs, all points outside the sample, all positive gamma", "why_tests_cant": "bounds over all data and limits in gamma are out of reach of tests", "anchors": ["kerch/level/single_view/LSSVM.py: LSSVM._solve_dual, LSSVM.gamma", "kerch/level/single_view/View.py: View._forward"]}
{"id": "C185", "title": "LS-SVM models of nearby kernels are close", "statement": "Two LS-SVM models with the same targets and gamma, whose kernel matrices are close (within beta as operators, for which entries within beta/n suffice), have dual variables at a squared distance of at most beta^2/gamma^4 times the squared deviation of the targets from any constant; their predictions at any point are close as well, with an explicit bound in the kernel values of that point.", "quantifier": "all pairs of positive kernel matrices of any size, all targets, all points, all positive gamma", "why_tests_cant": "a bound for all pairs of kernels and all data; tests see particular changes of a hyperparameter", "anchors": ["kerch/level/single_view/LSSVM.py: LSSVM._solve_dual", "kerch/level/single_view/View.py: View._forward"]}
{"id": "C186", "title": "LS-SVM on Nystrom features approximates the one on the base kernel", "statement": "An LS-SVM on a Nystrom kernel that keeps all eigenvalues has the dual variables, the bias and the predictions, on and outside the sample, of the LS-SVM on the base kernel. If some are left out, the dual variables move by no more than the largest of them allows.", "quantifier": "all base kernels, samples, targets, numbers of components and thresholds, any decomposition", "why_tests_cant": "equality for all inputs; tests compare particular data up to rounding", "anchors": ["kerch/kernel/nystrom.py: Nystrom._compute_decomposition, Nystrom._explicit_with_none", "kerch/level/single_view/LSSVM.py: LSSVM._solve_dual"]}
{"id": "C187", "title": "Components of nearby kernels are close", "statement": "If two kernel matrices differ by at most f (root of the summed squares; entries within f/n suffice) and the kept eigenvalues of the first exceed the others by at least g > f, the projections on the components that a kernel principal component analysis keeps differ by at most f/(g-f), and the inner products of the outputs of any two points accordingly. A component whose eigenvalue is isolated by g > f is the same up to its sign and f/(g-f), and so are the outputs. Without a separation this fails for arbitrarily close kernels.", "quantifier": "all pairs of symmetric matrices of any size, any number of components and threshold, any decompositions, all points", "why_tests_cant": "a bound for all pairs of kernels; tests see particular data, and the failure without separation looks like noise", "anchors": ["kerch/level/_KPCA.py: _KPCA._solve_dual", "kerch/utils/math.py: eigs", "kerch/level/_View.py: _View.phiw"]}
{"id": "C188", "title": "Every documented option is read", "statement": "Every option that the documentation of a kernel or level class announces is read when an object is created, by that class or one that it extends, with the value that the caller gives, and with the announced default otherwise.", "quantifier": "every kernel class, alone or in a level, every distance, all options and values", "why_tests_cant": "a misspelled option is silently ignored, so tests that use it pass; all classes and options have to be covered", "anchors": ["kerch/level/_View.py: _View.__init__", "kerch/level/_Level.py: _Level.__init__", "kerch/kernel/network/explicit_nn.py: ExplicitNN.__init__", "kerch/kernel/generic/sigmoid.py: Sigmoid.__init__", "kerch/feature/sample.py: Sample.__init__", "kerch/utils/decorators.py: kwargs_decorator"]}
{"id": "C189", "title": "Training without some of the points", "statement": "Let an LS-SVM be solved in dual on a training set, and another with the same kernel and gamma on a part of it. At the points left out, the second never has a smaller sum of squared errors than the first, for any output. At the points kept, the sum of squares of the differences between the two fits is at most a quarter of the sum of squared errors the second makes at the points left out. When a single point is left out, the error at this point of the model trained with it is a fixed share of that of the model trained without it, the share being positive, less than one and the same for all targets: leave-one-out errors can be read off without training again.", "quantifier": "every positive semi-definite kernel matrix, number of points and outputs, positive gamma, targets and selection of points", "why_tests_cant": "tests compare a few splits of a few data sets; the relation has to hold for all kernels, targets and splits", "anchors": ["kerch/level/single_view/LSSVM.py: LSSVM._solve_dual", "kerch/level/_View.py: _View.forward"]}
{"id": "C190", "title": "Generated data sets are what they announce", "statement": "A generated data set for classification supplies exactly the requested numbers of training, validation and test points; its two classes are of the same size up to one point; every point lies in the announced range; and the same point never carries two labels. Two moons satisfy this without noise and with the default separation, each class lying on its own half circle; with noise the range holds up to two standard deviations. Spirals satisfy it for the labels only up to 208 points and never for the range from 18 points on.", "quantifier": "every request of training, validation and test points, every shuffling, separation, noise level and sequence of random draws", "why_tests_cant": "tests request a few fixed sizes; the spirals meet only beyond 208 points, and the half circles only for particular separations", "anchors": ["kerch/data/datasets.py: TwoMoons.__init__", "kerch/data/datasets.py: TwoMoons._training", "kerch/data/datasets.py: Spiral.__init__", "kerch/data/datasets.py: Spiral._training", "kerch/data/_LearningSet.py: _LearningSetTrain"]}
{"id": "C191", "title": "Centered kernels and LS-SVM do not depend on the origin of the feature space", "statement": "Centering a kernel gives the same values for k(x, y) and for k(x, y) + f(x) + f(y), on the sample and on new points, hence for features or inputs seen from any other origin and for minus half the squared distances; it is the same as centering the features. An LS-SVM in dual makes the same predictions with such kernels, centered or not, only the bias changes. A symmetric kernel matrix has a positive centered version exactly if it is positive on the vectors that sum to zero, and then an LS-SVM can be trained with it.", "quantifier": "every kernel matrix, symmetric or not where said, number of points, features and outputs, functions f on the sample and on the new points, regularisation", "why_tests_cant": "an identity between two trainings for all kernels, all offsets and all new points", "anchors": ["kerch/transform/all/MeanCentering.py: MeanCentering._implicit_sample", "kerch/transform/all/MeanCentering.py: MeanCentering._implicit_oos", "kerch/transform/all/MeanCentering.py: MeanCentering._explicit_oos", "kerch/level/single_view/LSSVM.py: LSSVM._solve_dual", "kerch/level/single_view/View.py: View._forward"]}
{"id": "C192", "title": "Components of a centered KPCA have mean zero and are uncorrelated", "statement": "After solving a KPCA with a centered kernel, the outputs over the sample have mean zero and are pairwise uncorrelated, with the variance n v^2 in dual and v^2 in primal for a component of announced variance v; the latent variables have mean zero, are uncorrelated and all have the same variance, one in primal and n in dual. The components are numbered by decreasing positive variances.", "quantifier": "every symmetric kernel matrix or matrix of features, number of points and components, positive pruning threshold, and every eigendecomposition", "why_tests_cant": "for all kernel matrices and decompositions, including repeated eigenvalues", "anchors": ["kerch/level/_KPCA.py: _KPCA._solve_dual", "kerch/level/_KPCA.py: _KPCA._solve_primal", "kerch/level/_KPCA.py: _KPCA.h", "kerch/transform/all/MeanCentering.py: MeanCentering._implicit_sample"]}
{"id": "C193", "title": "An experiment file is followed to the letter", "statement": "The command that runs an experiment accepts its arguments in any order, makes the data set, the model and the trainer with exactly the options of the three sections of the file, in this order, and trains; nothing is made after a failure, nothing is skipped or made twice, and asking for a verbose run changes only what is printed. The experiment is named after its file.", "quantifier": "every list of arguments, content of the file, behaviour of the data sets, models and training, and every earlier use of the package", "why_tests_cant": "the command is not tested, and no test can cover all files and failures", "anchors": ["kerch/script/_parser.py: get_args", "kerch/script/main.py: run", "kerch/script/expe.py: run", "kerch/data/factory.py: factory", "kerch/model/factory.py: factory", "kerch/train/Trainer.py: Trainer.__init__"]}
{"id": "C194", "title": "Principal components of a Nystrom kernel", "statement": "A KPCA in dual on a Nystrom kernel finds as many components, with the same variances, as a KPCA on the base kernel asked for the smaller of the two numbers of components with the larger of the two thresholds. If the last of these components is separated from the next one, all inner products between the latent variables and between the outputs, of training points and of new points, are those of the base kernel.", "quantifier": "every base kernel matrix, number of points, numbers of components and positive thresholds of both, every decomposition found by either, and all new points", "why_tests_cant": "two decompositions of two different matrices are compared, for all kernels and all choices of the parameters", "anchors": ["kerch/kernel/nystrom.py: Nystrom._compute_decomposition", "kerch/kernel/nystrom.py: Nystrom._explicit", "kerch/utils/math.py: eigs", "kerch/level/_KPCA.py: _KPCA._solve_dual", "kerch/level/_KPCA.py: _KPCA.h"]}
{"id": "C195", "title": "Training with every point several times", "statement": "If every training point is given m times, in any order, an LS-SVM in dual with gamma multiplied by m has the same bias and makes the same predictions. A KPCA in primal decomposes the same matrix; a KPCA in dual, whose threshold is m times larger, finds as many components with the same variances, and all inner products between its latent variables and between its outputs are multiplied by m if the last component is separated from the next. Centering a kernel commutes with the repetition.", "quantifier": "every kernel matrix (positive semi-definite for the LS-SVM), number of points, copies, outputs and components, order of the copies, targets, positive gamma and threshold, every decomposition, and all new points", "why_tests_cant": "two trainings of different sizes are compared, for all data sets and all numbers of copies", "anchors": ["kerch/level/single_view/LSSVM.py: LSSVM._solve_dual", "kerch/level/_KPCA.py: _KPCA._solve_dual", "kerch/level/_KPCA.py: _KPCA._solve_primal", "kerch/transform/all/MeanCentering.py: MeanCentering._implicit_sample"]}
{"id": "C196", "title": "Pre-images and smoothing in other coordinates and in another order", "statement": "Nearest-neighbour and smoother pre-images, and smoothing a function over its own domain by a kernel, follow every affine change of the observations: same errors, same undefined points, transformed answers. A smoother keeping all observations does not depend on their order, and smoothed values follow their points into another order; a positive factor of the kernel does not matter. For neighbours, and smoothers keeping some observations, the same holds of the order when no two values of a row are equal, and fails of every choice among equal distances.", "quantifier": "all matrices of distances, coefficients and observations, all numbers kept, kernels, linear changes (also to other dimensions) and shifts, orders, and every rule choosing among equal values", "why_tests_cant": "two calls are compared for all changes of coordinates and orders, and for all tie-breaking rules of the selection routine", "anchors": ["kerch/method/_knn.py: knn", "kerch/method/_knn.py: kernel_knn", "kerch/method/_smoother.py: smoother", "kerch/method/_smoother.py: kernel_smoother"]}
{"id": "C197", "title": "Points drawn from a model resemble the training points", "statement": "The latent variables of the training points have unit second moment, like the normal variables that are drawn. Points drawn from latent variables of unit second moment have the second moment of the training points on the kept components (what is missing of the total variance is the variance left out), and mapping a drawn point back gives the latent variables it was drawn from. Primal and dual alike.", "quantifier": "every set of features or kernel matrix, number of points and components, threshold, decomposition, and all latent variables drawn", "why_tests_cant": "the drawn values are random and the domain is continuous: only the relation for all of them means something", "anchors": ["kerch/level/_KPCA.py: _KPCA.draw_h", "kerch/level/_KPCA.py: _KPCA.draw_phi", "kerch/level/_KPCA.py: _KPCA.draw_k", "kerch/level/_KPCA.py: _KPCA.h", "kerch/level/_KPCA.py: _KPCA.phi_map", "kerch/level/_KPCA.py: _KPCA.k_map"]}
{"id": "C198", "title": "Predicting the views that are not known", "statement": "A solved multi-view principal component analysis completes a point of which some views are known with the features, in the other views, of the latent variables that fit the known features best in least squares. A point of the model is completed exactly, and so are the training points when no variance is left out; a prediction is undefined exactly when some combination of components does not show in the known views. Primal and dual alike.", "quantifier": "every set of features of known and predicted views, number of points and components, threshold, decomposition, and every point to complete", "why_tests_cant": "a relation between an inverse and all latent variables, for all training sets", "anchors": ["kerch/level/multi_view/MVKPCA.py: MVKPCA._project_primal", "kerch/level/multi_view/MVKPCA.py: MVKPCA._project_dual", "kerch/level/_KPCA.py: _KPCA._solve_primal", "kerch/level/_KPCA.py: _KPCA._solve_dual"]}
{"id": "C199", "title": "The iterative method descends", "statement": "The iterative method for pre-images does the number of steps asked unless the rate falls below 1e-5 (one step for a smaller rate); the rate is not reduced during the first 52 steps and then at most once every 101 steps, so that the default call does 50 steps at the given rate and the default rate allows 2072 steps. For an objective of curvature at most L the answer is never worse than the start when the rate is at most 2/L, and when it is convex and the rate at most 1/L the answer is never farther from a better point and approaches the minimum at the classical speed. This holds of the pre-images for the linear kernel, with L twice the sum of the squares of the sample over the number of kernel values; a start with the right image is returned. Above 2/L the answer can be worse than the start.", "quantifier": "all objectives, gradients, starting points, numbers of iterations and rates; all samples and images of the linear kernel", "why_tests_cant": "an inequality between the start and the result of a loop, for all objectives and all numbers of iterations", "anchors": ["kerch/method/_iterative.py: iterative", "kerch/method/_iterative.py: iterative_preimage_k"]}
{"id": "C200", "title": "Whether the points of a sample are trained", "statement": "A parameter handed over as the sample is used as it is, with its values, its gradient and its own setting for training, while plain values keep the setting of the object and start without gradient. After any history, whether the points are trained is decided by the last parameter handed over or the last assignment of the setting, and by nothing else; the gradient is the last one handed over or deposited.", "quantifier": "every state, every way to construct, and every history of initialisations, updates, selections and assignments", "why_tests_cant": "the setting must survive every interleaving of operations, and only one of them should change it", "anchors": ["kerch/feature/sample.py: Sample.init_sample, Sample.sample_trainable, Sample.update_sample"]}
{"id": "C201", "title": "Stacked random features follow the sample", "statement": "The layers of stacked random features are fitted to the points in use: after any initialisation, update or selection of the sample, the features are those of a stack made with the same weights and the points in use, and the features of the sample are those of its points. A refused initialisation leaves a usable stack.", "quantifier": "every number of layers, weights, inner transforms and features, sample, and history of initialisations, updates and selections, accepted or refused", "why_tests_cant": "each layer keeps its own copy of a sample that depends on all preceding layers; only histories show which copies are old", "anchors": ["kerch/kernel/random_features/rf_stacked.py: RFStacked.init_sample", "kerch/kernel/random_features/rf_stacked.py: RFStacked._append", "kerch/kernel/random_features/rf_stacked.py: RFStacked._explicit", "kerch/feature/sample.py: Sample.update_sample"]}
{"id": "C202", "title": "Stacked random features can be undone", "statement": "When the activation can be inverted and every layer has weights with independent columns, a stack can be made from any sample of at least two points, gives features to every point of that width, and the explicit pre-image of the features of a point is that point, after any history of the sample and with or without standardisation of the sample.", "quantifier": "every number of layers, activation with an inverse, weights and pseudo-inverse, sample, history and point", "why_tests_cant": "an identity of real functions composed any number of times, for all points and histories", "anchors": ["kerch/kernel/random_features/rf_stacked.py: RFStacked._explicit_preimage", "kerch/kernel/random_features/random_features.py: RandomFeatures._explicit_preimage", "kerch/kernel/kernel.py: Kernel.explicit_preimage"]}
{"id": "C203", "title": "Several views and each of them alone", "statement": "A principal component analysis of several views has at least the components of each view alone, each with at least its variance, and explains at least as much variance; it explains at most what the views explain each with as many components of its own. The loss of any hidden variables is the sum of their losses in the views, and the loss of the solution is at least the sum of the losses of the views solved alone, both up to the threshold per component asked for. In primal the total variances add up. So adding a view never loses a component or variance.", "quantifier": "every number of views, points and components, positive semi-definite kernel matrices, non-negative factors kappa, threshold and decompositions", "why_tests_cant": "inequalities between eigenvalues of different matrices, for all matrices", "anchors": ["kerch/level/multi_view/MultiView.py: MultiView.K", "kerch/level/multi_view/MultiView.py: MultiView.phi", "kerch/level/single_view/View.py: View.K", "kerch/level/_KPCA.py: _KPCA._solve_dual", "kerch/level/_KPCA.py: _KPCA._solve_primal", "kerch/level/_KPCA.py: _KPCA.loss"]}
{"id": "C204", "title": "Nearby points get nearby outputs", "statement": "The predictions of a LS-SVM at two points differ at most by the norm of its weights times the distance of the points for the kernel, whatever the dual variables; after training this norm is at most the spread of the targets, around any value, over twice the root of the regularisation, and the bound is reached. The outputs of a kernel principal component analysis, each measured in the deviation of its component, differ together at most by the distance of the points, and in total by the explained deviation times this distance, in primal and in dual. Points that the kernel does not tell apart have the same outputs.", "quantifier": "every sample, new points, kernel with positive semi-definite joint matrix, targets, regularisation, threshold, number of components and decomposition", "why_tests_cant": "an inequality for all samples and points, with the same constant for all of them", "anchors": ["kerch/level/single_view/LSSVM.py: LSSVM._solve_dual", "kerch/level/_View.py: _View.phiw", "kerch/level/single_view/View.py: View.forward", "kerch/level/_KPCA.py: _KPCA._solve_dual", "kerch/level/_KPCA.py: _KPCA._solve_primal"]}
{"id": "C205", "title": "The dual of a ridge regression is the regularised least squares fit", "statement": "In dual the system of a ridge regression has exactly one solution for every positive semi-definite kernel and every gamma > 0; its weights are the only ones that minimise the squared errors plus the squared weights over gamma. A LS-SVM with the inverse regularisation is the ridge regression of the targets without their bias whose dual variables have a zero sum, and with centered kernel and targets both are the same model. When the targets change, fit and errors together change at most as much as the targets. Predictions at new points are bounded by the targets and are close at points that are close for the kernel.", "quantifier": "every sample, positive semi-definite kernel matrix, targets of any number of outputs, gamma > 0 and new points", "why_tests_cant": "existence, uniqueness and optimality over all weights cannot be tested by examples", "anchors": ["kerch/level/single_view/Ridge.py: Ridge._solve_dual", "kerch/level/single_view/LSSVM.py: LSSVM._solve_dual", "kerch/level/single_view/View.py: View.forward"]}
{"id": "C206", "title": "A ridge regression predicts alike in primal and in dual", "statement": "With explicit features, a ridge regression solved in primal predicts the same as the one solved in dual with the same gamma, as a LS-SVM does.", "quantifier": "every sample, features, targets and gamma > 0", "why_tests_cant": "equality of two linear systems of different sizes, for all features", "anchors": ["kerch/level/single_view/Ridge.py: Ridge._solve_primal", "kerch/level/single_view/Ridge.py: Ridge._solve_dual", "kerch/kernel/_base_kernel.py: _BaseKernel.C"]}
{"id": "C207", "title": "Iterative pre-images start from the most similar points of the sample", "statement": "An iterative pre-image of kernel values gives what its iterations give when started, for each row, at a point of the sample that has the largest value; from features, at a point whose features have the largest inner product. For the kernel values of points of the sample, with any kernel of a distance except the uniform one, the start is these points themselves, so that a descent that does not move from an exact solution gives them back.", "quantifier": "every sample, kernel values, features, number of iterations, choice among ties, and optimiser", "why_tests_cant": "the start is not visible in the result of the iterations; the claim is about all optimisers and all ties", "anchors": ["kerch/method/_iterative.py: iterative_preimage_k", "kerch/method/_iterative.py: iterative_preimage_phi", "kerch/method/_knn.py: knn"]}
{"id": "C208", "title": "A probabilistic PCA has the variances of its sample", "statement": "After solving in dual, the model has in each kept direction the variance of the sample, its noise is the mean of the variances left out, and its total variance (kept directions plus noise in every direction) is that of the sample; after solving in primal, the model has in each kept direction the variance of the features.", "quantifier": "every sample, feature map, eigendecomposition and number of components", "why_tests_cant": "an identity between matrices, for every decomposition; tests without left-out directions do not see the noise", "anchors": ["kerch/level/single_view/PPCA.py: PPCA._solve_dual", "kerch/level/single_view/PPCA.py: PPCA._solve_primal"]}
{"id": "C209", "title": "A probabilistic PCA has a solution for every sample in every unit", "statement": "Solving in dual on a positive semi-definite kernel matrix whose kept eigenvalues are positive gives numbers, and goes on giving numbers when the kernel is multiplied by a positive factor.", "quantifier": "every positive semi-definite kernel matrix, number of components and factor", "why_tests_cant": "the failure needs a large left-out variance; it is about all scales at once", "anchors": ["kerch/level/single_view/PPCA.py: PPCA._solve_dual"]}
{"id": "C210", "title": "The latent variables reported by a probabilistic PCA are the most likely ones", "statement": "With the weights and noise that the solver found, the latent variables given for features (or for kernel values) maximise their probability given these features, and are the only ones to do so when there is noise; the kernel values reconstructed from latent variables are those of the features reconstructed from them.", "quantifier": "every sample, feature map, point, mean, number of components and competing latent variable", "why_tests_cant": "optimality against every other latent variable", "anchors": ["kerch/level/single_view/PPCA.py: PPCA.h_map", "kerch/level/_PPCA.py: _PPCA.phi_map", "kerch/level/_PPCA.py: _PPCA.k_map"]}
{"id": "C211", "title": "Features drawn from a probabilistic PCA have its covariance", "statement": "Features drawn from the model have the covariance of the model: the product of the weights plus the noise in every direction.", "quantifier": "every weights, noise and standard draws", "why_tests_cant": "a statement on second moments for all weights; a test with diagonal covariance passes", "anchors": ["kerch/level/_PPCA.py: _PPCA.draw_phi", "kerch/level/_PPCA.py: _PPCA._B_primal"]}
{"id": "C212", "title": "A pre-image can be asked from every kernel and level by the documented methods", "statement": "Asking a kernel or a level for a pre-image of kernel values, with any of the documented methods under any capitalisation and the documented arguments of that method, uses that method; another name or argument is an error. From features the same holds when the features are known, and then the kernel's own pre-image is available too; when they are not known, this is an ExplicitError.", "quantifier": "every kernel and level class (of kerch or derived from one by a user), distance, method name and arguments", "why_tests_cant": "all strings as method name, all user classes; the failing combinations are spread over the class hierarchy", "anchors": ["kerch/kernel/_base_kernel.py: _BaseKernel.implicit_preimage", "kerch/kernel/kernel.py: Kernel.explicit_preimage", "kerch/kernel/implicit.py: Implicit.explicit_preimage", "kerch/kernel/generic/polynomial.py: Polynomial.explicit_preimage", "kerch/kernel/network/explicit_nn.py: ExplicitNN._explicit_preimage"]}
{"id": "C213", "title": "Kernel smoothing keeps the mean and never increases the spread", "statement": "Smoothing observations over their own domain by a symmetric non-negative kernel, with every point, keeps the mean of every coordinate weighted by the total similarity of the points, and never increases the spread around any value: the spread that is lost is exactly the weighted distance between smoothed values and the observations they are made of. If the kernel is positive everywhere, only constant observations keep their spread; if it is positive semi-definite, smoothed values are never opposed to the observations. Every distance kernel with a positive bandwidth except the Silverman kernel is such a kernel.", "quantifier": "every domain, observations, number of coordinates, kernel and reference value", "why_tests_cant": "an identity and inequalities over all data and kernels", "anchors": ["kerch/method/_smoother.py: kernel_smoother", "kerch/method/_smoother.py: smoother", "kerch/kernel/_base_kernel.py: _BaseKernel.K"]}
{"id": "C214", "title": "The smoother of the pre-image package is a weighted mean", "statement": "kerch.preimage.smoother returns for every point the mean of the points x weighted by its coefficients, over its num largest ones or all of them, as kerch.method.smoother does; the other functions of the package return pre-images.", "quantifier": "every matrix of coefficients, points and number of neighbours", "why_tests_cant": "the two smoothers differ only when all points are used and only for some matrices, which has to be characterised for all of them", "anchors": ["kerch/preimage/smoother.py: smoother", "kerch/preimage/knn.py: knn", "kerch/preimage/iterative.py: iterative", "kerch/preimage/ridge_regression.py: ridge_regression", "kerch/method/_smoother.py: smoother"]}
{"id": "C215", "title": "Distance kernels are similarities in floating point too", "statement": "Whatever the rounding of the operations, as long as it keeps the order and the sign and does not change zero and one, computed distance kernels are exactly symmetric, and all but the Silverman kernel give exactly one for a point and itself and values between zero and one. A larger computed distance never gives a larger value of a compact or exponential kernel, and compact kernels are exactly zero beyond the bandwidth. Without rounding the values are those of the documentation, in whatever order the coordinates are added.", "quantifier": "every rounding with these properties, every order of summation, all kernels, distances, bandwidths and points", "why_tests_cant": "tests see the rounding of one machine and a few points", "anchors": ["kerch/kernel/distance/euclidean.py: Euclidean._square_dist", "kerch/kernel/distance/manhattan.py: Manhattan._dist", "kerch/kernel/distance/chebyshev.py: Chebyshev._dist", "kerch/kernel/distance/distance.py: Distance._dist_sigma", "kerch/kernel/distance/distance_squared.py: DistanceSquared._square_dist_sigma", "kerch/kernel/statistics/exponential.py: Exponential._implicit", "kerch/kernel/statistics/tricube.py: Tricube._implicit", "kerch/kernel/statistics/logistic.py: Logistic._implicit"]}
{"id": "C216", "title": "Rounding errors of Gaussian, Laplacian and exponential kernels are bounded whatever the data", "statement": "If the operations have a relative accuracy u and the exponential v, computed values of the exponential kernels differ from the exact ones by at most v plus twice u times the number of operations (two for each addition a coordinate goes through, plus ten), whatever the points and the bandwidth. Computed matrices of the RBF and Laplacian kernels, and of the exponential kernel with the Manhattan distance, are therefore positive semi-definite up to this error times the number of points.", "quantifier": "all points in all dimensions, all bandwidths, all accuracies and orders of summation, matrices of all sizes", "why_tests_cant": "a bound that is uniform over all data and all roundings", "anchors": ["kerch/kernel/generic/rbf.py: RBF", "kerch/kernel/generic/laplacian.py: Laplacian", "kerch/kernel/statistics/exponential.py: Exponential._implicit", "kerch/kernel/distance/euclidean.py: Euclidean._square_dist", "kerch/kernel/distance/distance_squared.py: DistanceSquared._square_dist_sigma"]}
{"id": "C217", "title": "Listing a cache shows what it holds", "statement": "After every history of reads, resets, cleanings, removals and level changes, listing the names held by an object shows each of them exactly once: all of them if the private ones are asked for, and those that do not begin with an underscore otherwise, in the same order. Removing names takes exactly these out of the listing and leaves the order of the others. A read adds its name at the end when it stores a new element and leaves the listing as it was otherwise.", "quantifier": "all histories of operations, all levels, all outcomes of the computations, all names and both kinds of listing", "why_tests_cant": "the listing must agree with what is held after every history", "anchors": ["kerch/feature/cache.py: Cache.cache_keys", "kerch/feature/cache.py: Cache._get", "kerch/feature/cache.py: Cache._remove_from_cache"]}
{"id": "C218", "title": "Nystrom features approximate the base kernel as well as any features of their dimension", "statement": "The kernel matrix of Nystrom features on the sample differs from that of the base kernel, in the sum of the squared entries, by the squares of the eigenvalues left out. No matrix of rank at most the number of features kept, hence no other features of as many dimensions or fewer, comes closer to the matrix of a positive base kernel, be it in squared entries or as an operator. Compared with all matrices of the rank that was asked for, pruning costs at most the squared threshold for each dimension.", "quantifier": "all positive kernel matrices of any size, all numbers of components and thresholds, any eigendecomposition, all competing matrices or features", "why_tests_cant": "optimality is a statement about all competitors", "anchors": ["kerch/kernel/nystrom.py: Nystrom._compute_decomposition, Nystrom._explicit_with_none", "kerch/utils/math.py: eigs"]}
{"id": "C219", "title": "A principal component analysis can rebuild what it decomposed", "statement": "After solving a kernel PCA, K_reconstructed is the best approximation of the kernel matrix among the matrices of the rank kept, C_reconstructed that of the second moment, and reconstruct() returns the point of the span of the components nearest to the one given (so applying it twice changes nothing); on the sample it returns the best approximation of the features or of the kernel matrix of that rank.", "quantifier": "all histories of calls, all positive kernel matrices and features of any size, all numbers of components and thresholds, any eigendecomposition, all competing matrices, all out-of-sample rows", "why_tests_cant": "optimality is a statement about all competitors, and the absence of an attribute about all histories", "anchors": ["kerch/level/single_view/KPCA.py: KPCA.K_reconstructed, KPCA.C_reconstructed, KPCA.reconstruct", "kerch/level/_KPCA.py: _KPCA._solve_dual, _KPCA._solve_primal"]}
{"id": "C220", "title": "Points are evaluated one by one", "statement": "What kerch returns for a point does not depend on the other points of the batch it is given in: transformed features, kernel matrices with the sample or between new points, Nystrom features, predictions of a least-squares support vector machine, components of a kernel PCA and what is mapped back from them, and pre-images by a smoother or by nearest neighbours of distances without ties. Evaluating data in one or several batches gives the same rows.", "quantifier": "all samples, points, feature maps, kernels, lists of transforms, histories of calls, parameters, and all ways to split data into batches", "why_tests_cant": "there are too many ways to split data, and statistics of a batch could leak into its rows for some data only", "anchors": ["kerch/transform/TransformTree.py: TransformTree.apply", "kerch/transform/all/MeanCentering.py: MeanCentering._implicit_oos", "kerch/transform/all/Sphere.py: UnitSphereNormalization._implicit_oos", "kerch/kernel/nystrom.py: Nystrom._explicit_with_none", "kerch/level/_View.py: _View.phiw", "kerch/level/_KPCA.py: _KPCA.h, _KPCA.phi_map, _KPCA.k_map", "kerch/method/_knn.py: knn", "kerch/method/_smoother.py: smoother"]}
{"id": "C221", "title": "Iterative pre-images of several points are those of each point", "statement": "The documentation of the iterative method says that it minimises the objective for each point: the pre-image returned for a point does not depend on the number of other points whose pre-images are looked for in the same call.", "quantifier": "all objectives that are means over the points, starts, rates, numbers of steps and of points; for the linear kernel all samples and images", "why_tests_cant": "a characterisation of when the answers agree, for all data and sizes of batches", "anchors": ["kerch/method/_iterative.py: iterative, iterative_preimage_k"]}
{"id": "C222", "title": "Kernels with very small and very large bandwidths", "statement": "For every kernel of a distance and every distance offered: as the bandwidth grows all kernel values tend to the value at distance zero, the kernel matrix to a constant one and the prediction of a dual model to a constant; as it shrinks the values of distinct points tend to zero, the kernel matrix of distinct points to a multiple of the identity, and the predictions away from the sample to zero. The rates are explicit.", "quantifier": "all kernels, distances, points, samples, weights and bandwidths", "why_tests_cant": "limits are statements about infinitely many bandwidths, for all data", "anchors": ["kerch/kernel/statistics/*.py: _implicit", "kerch/kernel/generic/rbf.py", "kerch/kernel/generic/laplacian.py", "kerch/kernel/distance/*.py"]}
{"id": "C223", "title": "Smoothing with very small and very large bandwidths", "statement": "As the bandwidth of an RBF or Laplacian kernel shrinks, the smoother over all observations tends to the observation of the nearest sample, or to the mean of the observations of the nearest ones; as the bandwidth of any kernel of a distance grows, it tends to the mean of the observations. In both cases the smoothed value is defined.", "quantifier": "all distances, points, samples, observations of any dimension and bandwidths", "why_tests_cant": "limits are statements about infinitely many bandwidths, for all data", "anchors": ["kerch/method/_smoother.py: smoother, kernel_smoother", "kerch/kernel/statistics/*.py: _implicit", "kerch/kernel/generic/rbf.py", "kerch/kernel/generic/laplacian.py", "kerch/kernel/distance/*.py"]}
{"id": "C224", "title": "Least-squares support vector machines with very small and very large bandwidths", "statement": "When the kernel matrix of the sample is close to a multiple of the identity, as for a small bandwidth, the dual variables of a solved LS-SVM are close to the deviations of the targets from their mean over that multiple plus gamma, the training points are predicted between the mean and their own target and the points away from the sample at the mean. When it is close to a constant matrix, as for a large bandwidth, every point is predicted close to the mean of the targets. The bounds are explicit.", "quantifier": "all samples, positive kernels, targets of any dimension, regularisations, points and distances to the limit", "why_tests_cant": "limits are statements about infinitely many bandwidths, for all data", "anchors": ["kerch/level/single_view/LSSVM.py: LSSVM._solve_dual", "kerch/level/_View.py: _View.phiw"]}
{"id": "C225", "title": "Sequences of gradient steps add up as documented", "statement": "Off the manifold, gradient descent without momentum moves a parameter against the learning rate times the sum of the gradients and creates no buffer; with momentum (without dampening or decay) it moves by velocities in which each gradient is weighted by the momentum to the power of its age, with the variant of Nesterov looking one step ahead. On the manifold, the second optimiser keeps the exponentially weighted mean of the squared norms of the gradients, whose correction is exact for gradients of a constant norm.", "quantifier": "every parameter, learning rate, momentum and list of gradients of any length", "why_tests_cant": "sequences of steps of any length over a continuous domain", "anchors": ["kerch/opt/stiefel/stiefel_optimizer.py: SGDG.step, AdamG.step"]}
