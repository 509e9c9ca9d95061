{"id": "C01", "title": "Flattening a nested dictionary and unflattening it gives the dictionary back", "statement": "For every nested dictionary of parameters whose names are non-empty, contain no ':' and are not 'NULL' (and, because the code compares path components by identity, whose leaf name does not re-use the string object of an earlier component of its path), flattening to ':'-joined names and unflattening yields the same nested dictionary, in the same order, including empty sub-dictionaries at any depth. Without the side conditions the round trip fails.", "quantifier": "all nested dictionaries of any depth and width, all leaf values", "why_tests_cant": "tests use two or three literal dictionaries; the claim is about every tree and every name", "anchors": ["gpx/parameters/utils.py:_flatten_dict", "gpx/parameters/utils.py:_unflatten_dict"]}
{"id": "C02", "title": "Saving a model state and loading it restores every parameter value and every stored array", "statement": "For every state that save() accepts, loading the written file into any state with the same parameter names, shapes and dtypes returns a state whose parameter values and non-callable registered attributes are those that were saved, whose trainable flags, bijectors, priors, kernel and mean function are those of the loading state, and leaves callables (e.g. loss_fn) of the loading state untouched.", "quantifier": "all parameter trees, all registered attributes, all pairs of saving/loading states with matching structure", "why_tests_cant": "a test saves one state; the claim ranges over every parameter tree and every attribute set", "anchors": ["gpx/parameters/model_state.py:ModelState.save", "gpx/parameters/model_state.py:ModelState.load"]}
{"id": "C03", "title": "Loading a file that does not match the model is rejected", "statement": "load() accepts a file only if, in sorted order, its parameter arrays are as many as the model's and each has the shape and dtype of the parameter at its position, and then exactly these values are stored; otherwise it raises (KeyError when there are no parameters, ValueError otherwise) and no state is returned. (A file whose parameter names differ but whose sorted shapes agree is NOT rejected: values are assigned by position.)", "quantifier": "all states and all files", "why_tests_cant": "each test picks one mismatch; the interesting ones are permutations and renamings that agree by accident", "anchors": ["gpx/parameters/model_state.py:ModelState.load", "gpx/parameters/parameter.py:Parameter.update"]}
{"id": "C04", "title": "Updating a state is functional on the state and last-write-wins", "statement": "update(d) returns a state in which exactly the named fields have the new values, every other field is unchanged, numeric Python scalars become arrays, and the original state is observationally unchanged; updating with d1 then d2 equals updating with the right-biased union. The caller's dictionary, however, loses its 'kernel', 'mean_function' and 'params' entries, so applying the same dictionary twice is not applying it once.", "quantifier": "all states, all update dictionaries, all sequences of updates", "why_tests_cant": "frame conditions quantify over all fields not mentioned", "anchors": ["gpx/parameters/model_state.py:ModelState.update", "gpx/parameters/model_state.py:ModelState.copy", "gpx/parameters/parameter.py:Parameter.update"]}
{"id": "C05", "title": "Every reachable parameter has the shape and dtype of its prior", "statement": "After any sequence of constructions, updates, copies, pytree round trips and prior samplings that did not raise, a parameter's value has the shape and the dtype of its prior; an operation that raises changes nothing.", "quantifier": "all histories of parameter operations of any length", "why_tests_cant": "invariant over histories; a test checks one history", "anchors": ["gpx/parameters/parameter.py:Parameter.__init__", "gpx/parameters/parameter.py:Parameter.update", "gpx/parameters/utils.py:_check_same_shape", "gpx/parameters/utils.py:_check_same_dtype"]}
{"id": "C06", "title": "A model state survives JAX's flatten/unflatten", "statement": "Flattening a state to leaves and rebuilding it from these leaves gives back the same state. The leaves are exactly the parameter values in the order of the sorted names: replacing them by others of the same shapes and dtypes replaces exactly these values and keeps kernel, mean function, every registered attribute (arrays included: they are static), names, flags, bijectors and priors. A list of the wrong length or with a value of the wrong shape or dtype raises ValueError.", "quantifier": "all states and all replacement leaves", "why_tests_cant": "jit/grad rely on it for every state; positions can be permuted without a literal test noticing", "anchors": ["gpx/parameters/model_state.py:ModelState.tree_flatten", "gpx/parameters/model_state.py:ModelState.tree_unflatten", "gpx/parameters/parameter.py:Parameter.tree_flatten"]}
{"id": "C07", "title": "Randomizing a state touches only trainable values and keeps them legal", "statement": "randomize(key) keeps the tree of names, every non-trainable value, every bijector/prior/trainable flag and the kernel; every new trainable value lies in the range of its bijector; the result depends on the old state only through its non-trainable values and metadata.", "quantifier": "all states, all keys, all samplers", "why_tests_cant": "statement over all trees and all random draws", "anchors": ["gpx/parameters/model_state.py:ModelState.randomize", "gpx/parameters/parameter.py:Parameter.sample_prior"]}
{"id": "C08", "title": "Random keys are not re-used", "statement": "Inside one randomize call distinct trainable parameters draw from distinct keys, for any number of parameters. Across the restarts of one optimisation the keys are re-used: restart r+1 draws parameter j with the key restart r used for parameter j+1 (refutation of the independence of restarts).", "quantifier": "all numbers of parameters, restarts and all initial keys (keys as the free split algebra)", "why_tests_cant": "statistical independence cannot be observed by a unit test; key provenance is a global property", "anchors": ["gpx/parameters/model_state.py:ModelState.randomize", "gpx/models/utils.py:randomized_minimization"]}
{"id": "C09", "title": "Optimiser coordinates: ravel then unravel is a no-op and touches only trainables", "statement": "The optimiser vector built from a state has one entry per scalar of each trainable parameter; unravelling any vector of that length gives a state whose trainable values are the forward-transformed slices, in the same order, and whose non-trainable values are exactly the originals; ravelling it again gives the vector back up to the bijector's stated inversion error.", "quantifier": "all parameter trees, all shapes, all optimiser vectors", "why_tests_cant": "offset bookkeeping has to be right for every tree", "anchors": ["gpx/optimizers/utils.py:ravel_backward_trainables", "gpx/optimizers/utils.py:unravel_forward_trainables"]}
{"id": "C10", "title": "Any optimiser only ever evaluates the loss at legal parameter values", "statement": "Whatever points an optimiser proposes, every loss evaluation and the final state have trainable parameters strictly inside the range of their bijector and non-trainable parameters at their initial value.", "quantifier": "all optimisers (any adaptive strategy), all numbers of iterations", "why_tests_cant": "quantifies over all optimiser behaviours", "anchors": ["gpx/optimizers/scipy_optimize.py:scipy_minimize", "gpx/optimizers/utils.py:unravel_forward_trainables"]}
{"id": "C11", "title": "Randomised restarts return the best state found", "statement": "With n restarts exactly n+1 minimisations are run; the returned state is the first one attaining the minimum of the n+1 recorded losses, its recorded loss is its own loss, and the history has length n+1 with matching positions. If the first loss is NaN the NaN state is returned whatever the others are.", "quantifier": "all minimisers, losses, numbers of restarts", "why_tests_cant": "needs all loss sequences including NaN positions", "anchors": ["gpx/models/utils.py:randomized_minimization", "gpx/models/utils.py:randomized_minimization_derivs", "gpx/models/utils.py:randomized_minimization_ol"]}
{"id": "C12", "title": "The NLopt wrapper returns a state with the values found and the requested non-trainables", "statement": "After optimize on a state the trainable values are the forward transform of the optimiser's result; kernel, mean function and aux fields are those of the state passed to optimize, but every parameter's static data and the values of the non-trainable ones are those of the state the wrapper was built with. When the two states differ at most in trainable values the wrapper does what scipy_minimize does; otherwise non-trainable values of the passed state are lost (refutation).", "quantifier": "all pairs of states, all optimiser results", "why_tests_cant": "the bug is only visible when the two states differ", "anchors": ["gpx/optimizers/nlopt_optimize.py:NLoptWrapper.optimize"]}
{"id": "C13", "title": "Particle-swarm restarts keep the best trial", "statement": "Over any number of repetitions the returned optimum has the smallest recorded cost and is the first attaining it, and its trainable values are the trial's point; with no repetition, or with no cost below infinity, the function fails. With a local optimiser the result is that of scipy_minimize started from the best trial and so lies in the range of the bijectors. Without one it may lie outside (refutation): the swarm searches with identity bijectors.", "quantifier": "all cost sequences", "why_tests_cant": "all sequences", "anchors": ["gpx/optimizers/pso_optimize.py:pso_minimize"]}
{"id": "C14", "title": "Optax training keeps parameters legal and leaves frozen values where they were", "statement": "Every state visited by optax training has all parameters in the range of their bijector and keeps every static field; training runs the requested number of steps. Frozen parameters end at forward(backward(v)), i.e. within the bijector's inversion error of v, for every optimiser whose update is zero where all gradients were zero; an update with weight decay moves them (refutation). A validation input without output, or the reverse, is a ValueError. The returned history holds, step by step, the loss (on the training data, and on the validation data if given) of the legal states the run went through, and the returned state is the one after them; giving validation data changes neither the returned parameters nor the training losses; how often the progress bar is updated changes nothing, except that update_every=0 makes every run raise. The returned state is the last one: its loss need not be the lowest of the history (refutation).", "quantifier": "all losses, gradients, optimisers, data, numbers of steps", "why_tests_cant": "induction over steps", "anchors": ["gpx/optimizers/optax_optimize.py:train_with_constrained_parameters", "gpx/optimizers/optax_optimize.py:_check_validation", "gpx/optimizers/optax_optimize.py:optax_minimize", "gpx/optimizers/optax_optimize.py:_optimize", "gpx/optimizers/optax_optimize.py:_optimize_with_validation", "gpx/optimizers/optax_optimize.py:_check_optimizer"]}
{"id": "C15", "title": "Prediction is allowed exactly after the matching fit", "statement": "Over every history of init, fit, fit_derivs, fit_ol, fit_nlopt, randomize, save, load: predict (and predict_ol for GPR) answers exactly when the last successful training was fit, fit_nlopt or fit_ol, predict_derivs and predict_y_derivs exactly when it was fit_derivs, and otherwise raises RuntimeError; the answer is computed from what that fit stored. A model saved after any history and loaded by a model of the same construction, whatever its values and its own history, gives back the same parameters and the same predictions. Further claims, refuted: a failed call leaves the model unchanged; _check_is_fitted raises on an unfitted model.", "quantifier": "all operation histories of any length", "why_tests_cant": "state-machine property over histories", "anchors": ["gpx/models/gpr.py:fit", "gpx/models/gpr.py:fit_derivs", "gpx/models/gpr.py:fit_ol", "gpx/models/gpr.py:predict", "gpx/models/base.py:BaseGP", "gpx/models/base.py:BaseGP.save", "gpx/models/base.py:BaseGP.load"]}
{"id": "C16", "title": "A failed or reset model cannot serve stale predictions", "statement": "Over every history, as long as the model was neither randomised with reset=False nor put through a failing minimising fit since the last training (or since the file it was loaded from was trained), the parameters used for prediction are the ones the coefficients were computed from. In those two cases, and after m.init(...), stale predictions are served (refutations).", "quantifier": "all operation histories of any length", "why_tests_cant": "needs a relation between coefficients and parameters over histories", "anchors": ["gpx/models/base.py:BaseGP.randomize", "gpx/models/base.py:BaseGP._check_is_fitted"]}
{"id": "C17", "title": "High-level calls reach functions that accept their arguments", "statement": "For each model class and each public training method, the keyword arguments passed on are accepted by the callee. Holds for GPR and for fit_nlopt of GPR and SGPR; the losses usable in each minimising fit are exactly those of a table (GPR's default loss only with fit). Fails on every input for SGPR.fit, SGPR_RPChol.fit, their fit_derivs and fit_ol, predict_ol of the sparse classes, RBFNet.fit* and SGPR_RPChol.init without a key. Also fails on every input: predict_derivs and predict_y_derivs, with default options, of a GPR fitted to derivatives whose kernel is a sum.", "quantifier": "all model classes, all methods, all argument values", "why_tests_cant": "dispatch through tables; no test calls these methods", "anchors": ["gpx/models/base.py:BaseGP.fit", "gpx/models/sgpr.py:fit", "gpx/models/rbfnet.py:RBFNet.fit", "gpx/models/base.py:BaseGP.mse_loss", "gpx/models/_gpr.py:_predict_derivs_dense"]}
{"id": "C18", "title": "Checkpoint files never overwrite each other", "statement": "The k-th checkpoint is written to a name determined by k alone with the counter in front of the extension; names of different checkpoints differ for any number of checkpoints (also beyond 999), so a crash after k checkpoints leaves the first k files intact.", "quantifier": "all base names and all checkpoint counts, all crash points", "why_tests_cant": "all counts and names", "anchors": ["gpx/optimizers/scipy_optimize.py:StateCheckpointer"]}
{"id": "C19", "title": "The parameter-dictionary type check accepts exactly well-typed nested dictionaries", "statement": "The recursive check succeeds iff every leaf at every depth is a parameter, and otherwise reports the first ill-typed leaf in iteration order.", "quantifier": "all nested dictionaries", "why_tests_cant": "all depths", "anchors": ["gpx/models/utils.py:_check_recursive_dict_type"]}
{"id": "C20", "title": "Bijectors map every real number strictly inside their declared range", "statement": "Softplus(x)>0, SoftMin(x)>min, SoftMax(x)<max, min<SoftMinMax(x)<max when min<max, for every real x, and every value of the range (up to the 1e-300 shift) is reached.", "quantifier": "all reals, all bounds", "why_tests_cant": "unbounded real domain", "anchors": ["gpx/bijectors.py"]}
{"id": "C21", "title": "Bijector forward and backward are mutually inverse up to the 1e-300 shift", "statement": "forward(backward y) equals y up to the 1e-300 shift for every y in the range, backward(forward x) exceeds x by at most eps(1+exp(-x)); Identity is exact.", "quantifier": "all reals in the range", "why_tests_cant": "unbounded real domain", "anchors": ["gpx/bijectors.py"]}
{"id": "C22", "title": "Bijectors are strictly increasing", "statement": "x<y implies forward x < forward y (and backward likewise on the range), so constrained and unconstrained optima coincide.", "quantifier": "all pairs of reals", "why_tests_cant": "unbounded real domain", "anchors": ["gpx/bijectors.py"]}
{"id": "C23", "title": "The log prior is the log density of independent priors", "statement": "The normal/gamma log densities are the logarithms of the textbook densities; the log prior of a state is the sum over its parameters in any order and log_posterior = lml + log_prior. For an array-valued parameter the log prior is an array, not the sum over components (refutation of independence).", "quantifier": "all parameter trees and values", "why_tests_cant": "all trees", "anchors": ["gpx/priors.py", "gpx/models/gpr.py:log_prior", "gpx/models/gpr.py:log_posterior"]}
{"id": "C24", "title": "Kernels are symmetric and their Gram matrices are transposes of each other", "statement": "k(x1,x2) = k(x2,x1)^T for every pair of batches, for all kernels, sums and products of kernels.", "quantifier": "all batches of any size, dimensions, parameters, kernel expressions", "why_tests_cant": "all inputs, and induction over kernel expressions", "anchors": ["gpx/kernels/kernels.py"]}
{"id": "C25", "title": "Stationary kernels are bounded by their diagonal", "statement": "0 < k(x,x') <= 1 for SE, Matern and periodic kernels; SE and Matern kernels depend on the inputs only through the scaled distance of active features and strictly decrease with it; the single-sample SE and periodic kernels equal 1 at zero distance; the batched SE/Matern versions at zero distance are strictly below 1, by at most 1e-12 (1e-6 for Matern12).", "quantifier": "all points, dimensions, lengthscales", "why_tests_cant": "unbounded domain", "anchors": ["gpx/kernels/kernels.py:_squared_exponential_kernel", "gpx/kernels/kernels.py:_matern12_kernel", "gpx/kernels/kernels.py:_matern32_kernel", "gpx/kernels/kernels.py:_matern52_kernel"]}
{"id": "C26", "title": "Gram matrices are positive semidefinite", "statement": "For any finite set of points and any coefficients, sum_ij c_i c_j k(x_i,x_j) >= 0 for the linear, constant, polynomial (offset>=0), squared-exponential, Matern and periodic kernels and all sums and products of such kernels.", "quantifier": "all finite point sets of any size, all dimensions", "why_tests_cant": "no finite test establishes positive definiteness", "anchors": ["gpx/kernels/kernels.py", "gpx/kernels/operations.py:prod_kernels"]}
{"id": "C27", "title": "Batched kernels agree with the single-sample definition", "statement": "The fast batched kernel equals the row-by-row evaluation of the base kernel exactly for constant, linear and polynomial kernels, and up to the factor caused by the 1e-12 distance shift for SE/Matern.", "quantifier": "all batches, parameters and active_dims", "why_tests_cant": "all sizes", "anchors": ["gpx/kernels/kernels.py", "gpx/kernels/kernelizers.py:kernelize"]}
{"id": "C28", "title": "First-derivative kernels are the derivatives of the kernel, in sample-major order", "statement": "Row s*nf+f of d0k(x1,x2) is the partial derivative of k(x1_s,x2_t) with respect to feature f of x1 (true real derivative); same for d1k in columns.", "quantifier": "all batches, features, parameters", "why_tests_cant": "true derivatives at all points and layout for all sizes", "anchors": ["gpx/kernels/kernels.py:Kernel", "gpx/kernels/kernelizers.py:_grad0_kernelize", "gpx/kernels/kernelizers.py:_grad1_kernelize"]}
{"id": "C29", "title": "Mixed second-derivative kernels are the second derivatives, in sample-major order", "statement": "Entry (s*nf+f, t*nf+g) of d01k is d\u00b2k/dx1_f dx2_g at (x1_s,x2_t).", "quantifier": "all batches, features, parameters", "why_tests_cant": "true derivatives at all points and layout for all sizes", "anchors": ["gpx/kernels/kernels.py", "gpx/kernels/kernelizers.py:_grad01_kernelize"]}
{"id": "C30", "title": "Jacobian-contracted kernels obey the chain rule", "statement": "d0kj, d1kj, d01kj equal the contraction of d0k, d1k, d01k with the jacobians, in sample-major order, for the fast and the generic implementations and any active_dims.", "quantifier": "all batches, jacobians, active_dims", "why_tests_cant": "loop with slice updates for all sizes", "anchors": ["gpx/kernels/kernelizers.py:_grad0jac_kernelize", "gpx/kernels/kernelizers.py:_grad1jac_kernelize", "gpx/kernels/kernelizers.py:_grad01jac_kernelize", "gpx/kernels/kernels.py"]}
{"id": "C31", "title": "Coefficient-contracted kernels equal contraction with the stored coefficients", "statement": "Summing d0kjc / d01kjc evaluated with jaccoef = sum_v c_sv J_sfv gives the same numbers as contracting d0kj / d01kj with c, for the traced and the untraced version.", "quantifier": "all batches, jacobians, coefficients", "why_tests_cant": "loop invariants for all sizes", "anchors": ["gpx/kernels/kernelizers.py:_grad0jaccoef_kernelize", "gpx/kernels/kernelizers.py:_grad01jaccoef_kernelize", "gpx/models/gpr.py:fit_derivs"]}
{"id": "C32", "title": "Sums and products of kernels satisfy the sum and product rules for all derivative kernels", "statement": "For any nesting of sums and products, the derivative kernels of the composite are the derivatives of the composite kernel.", "quantifier": "all kernel expressions of any depth", "why_tests_cant": "induction over expressions", "anchors": ["gpx/kernels/operations.py", "gpx/kernels/kernels.py:Sum", "gpx/kernels/kernels.py:Prod"]}
{"id": "C33", "title": "Only active features matter", "statement": "Changing inactive features changes no kernel value, and the derivative with respect to an inactive feature is zero; with duplicate-free active_dims the derivative with respect to an active feature is that of the restricted kernel.", "quantifier": "all index lists, inputs", "why_tests_cant": "all index lists", "anchors": ["gpx/kernels/kernels.py"]}
{"id": "C34", "title": "Kernel centring is centring in feature space", "statement": "For a Gram matrix of inner products, kernel_center gives inner products of centred features: train/train, train/test and test/test; centred Gram matrices have zero row and column sums and stay positive semidefinite; centring twice changes nothing.", "quantifier": "all Gram matrices of all sizes", "why_tests_cant": "all sizes", "anchors": ["gpx/kernels/operations.py:kernel_center", "gpx/kernels/operations.py:kernel_center_test_test"]}
{"id": "C35", "title": "Hand-written derivative rules of the Matern kernels are right", "statement": "The custom jvp rules equal the true directional derivative of the kernel in the inputs and lengthscale (for scalar lengthscale; refuted for vector lengthscale).", "quantifier": "all points including coincident ones, all tangents", "why_tests_cant": "all points and tangents", "anchors": ["gpx/kernels/kernels.py:_matern32_kernel_base", "gpx/kernels/kernels.py:_matern52_kernel_base"]}
{"id": "C36", "title": "The periodic kernel is periodic and is the SE kernel on the circle", "statement": "Shifting any feature by the period does not change the kernel.", "quantifier": "all points, shifts", "why_tests_cant": "all points", "anchors": ["gpx/kernels/kernels.py:_expsinsquared_kernel_base"]}
{"id": "C37", "title": "Matrix-free products equal dense products", "statement": "For any row function producing stripes of height h, the matvec built by rowfun_to_matvec, with or without diagonal update, equals multiplication by the assembled matrix plus diag_value on the diagonal, for all numbers of rows and stripes.", "quantifier": "all sizes, stripe heights, vectors", "why_tests_cant": "all sizes; clamped slices", "anchors": ["gpx/operations.py:rowfun_to_matvec", "gpx/operations.py:update_row_diagonal"]}
{"id": "C38", "title": "Fitted GPR satisfies the normal equations and its training residual is the noise-scaled coefficient vector", "statement": "After fit, y - predict(x_train) = (sigma\u00b2+1e-10) c for every data set and the coefficients are unique; likewise for derivative training. This holds for every combination of the options of fit and predict.", "quantifier": "all data sets, PSD kernels, sigma", "why_tests_cant": "algebraic identity for all sizes", "anchors": ["gpx/models/_gpr.py:_fit_dense", "gpx/models/_gpr.py:_predict_dense", "gpx/models/_gpr.py:_fit_derivs_dense"]}
{"id": "C39", "title": "Dense, matrix-free and contracted predictions agree", "statement": "predict, predict_derivs and predict_y_derivs return the same numbers with iterative=True/False and with/without the pre-contracted jacobian. This holds for the public functions: fit and fit_derivs, dense or iterative, followed by any prediction that succeeds; which predictions succeed is characterised.", "quantifier": "all states, test points", "why_tests_cant": "equality over all inputs", "anchors": ["gpx/models/_gpr.py"]}
{"id": "C40", "title": "Predicted derivatives are the derivatives of the prediction", "statement": "For a model trained on derivatives, predict_derivs(x, J) is the derivative of predict_y_derivs along J, for GPR and the sparse models, whatever combination of iterative and full_covariance either call uses; predict_ol's second output is the derivative of its first.", "quantifier": "all states and test points", "why_tests_cant": "analytic identity", "anchors": ["gpx/models/_gpr.py:_predict_derivs_dense", "gpx/models/_gpr.py:_predict_y_derivs_dense", "gpx/models/_gpr.py:_predict_ol", "gpx/models/_sgpr.py:_predict_derivs_dense"]}
{"id": "C41", "title": "Posterior covariance is symmetric, positive semidefinite and never exceeds the prior", "statement": "The returned covariance equals K** - K*m A^-1 Km*, is symmetric, between 0 and the prior covariance in the Loewner order, and never increases when training points are added.", "quantifier": "all data sets, PSD kernels", "why_tests_cant": "matrix inequality for all sizes", "anchors": ["gpx/models/_gpr.py:_predict_dense"]}
{"id": "C42", "title": "The log marginal likelihood is the Gaussian log density divided by the number of rows", "statement": "m*lml = -1/2 y^T A^-1 y - 1/2 log det A - m/2 log 2pi for single output; the Cholesky-based computation equals the determinant formula; permuting the data does not change it.", "quantifier": "all data sets", "why_tests_cant": "identity for all sizes", "anchors": ["gpx/models/_gpr.py:_lml_dense"]}
{"id": "C43", "title": "The preconditioner is the exact inverse of the low-rank-plus-noise matrix", "statement": "precond(F F^T v + sigma\u00b2 v) = v for all v; it is symmetric positive definite, so preconditioned CG has the same solution.", "quantifier": "all factors, sigma", "why_tests_cant": "Woodbury identity for all sizes", "anchors": ["gpx/models/_gpr.py:_precond_rpcholesky"]}
{"id": "C44", "title": "Randomly pivoted Cholesky never over-approximates the kernel", "statement": "After any number of steps and whatever pivots are drawn among those with positive residual, K - F F^T is positive semidefinite, the running diagonal equals its diagonal and is non-negative and non-increasing; without the 1e-6 jitter the approximation is the Nystrom approximation and is exact on pivots.", "quantifier": "all kernels matrices, pivot sequences, numbers of pivots", "why_tests_cant": "induction over steps for all pivot choices", "anchors": ["gpx/kernels/approximations.py:rpcholesky", "gpx/kernels/approximations.py:rpcholesky_derivs"]}
{"id": "C45", "title": "Lanczos vectors are orthonormal and reduce the matrix to the returned tridiagonal form", "statement": "For every symmetric matrix, unit start vector and number of steps, as long as every restart (off-diagonal entry at most 1e-12) draws a vector outside the span of the previous ones: V^T V = I, the first column is the start vector, T is symmetric tridiagonal with non-negative off-diagonal entries, |V^T A V - T| <= 2e-12 entrywise. If restarts happen on vanishing residuals only, V^T A V = T, A V = V T on all columns but the last, and A^k v1 = V T^k e1 for k < m.", "quantifier": "all symmetric matrices, start vectors, draws and step counts", "why_tests_cant": "induction over steps", "anchors": ["gpx/lanczos.py:lanczos_tridiagonal", "gpx/lanczos.py:orthogonalize"]}
{"id": "C46", "title": "Stochastic log-determinant estimate is exact where theory says so", "statement": "With the eigenpairs of T, the weights (first components squared) and eigenvalues reproduce v1^T A^k v1 for all k <= 2m-1; with at least as many steps as distinct eigenvalues they reproduce v1^T f(A) v1 for every f, lanczos_logdet equals the average of s^T ln(A) s over its probes s, and its mean over independent Rademacher probes is ln det A. For multiples of the identity the estimate is exact with any probes and any number of steps. With fewer steps the estimate is, on average, never below the log-determinant.", "quantifier": "all symmetric matrices with eigenvalues >= 1e-36, probes, numbers of probes and steps", "why_tests_cant": "all probes", "anchors": ["gpx/lanczos.py:lanczos_logdet"]}
{"id": "C47", "title": "SGPR coefficients minimise the regularised least-squares objective; its likelihood is the Nystr\u00f6m likelihood", "statement": "The coefficients of SGPR.fit and fit_derivs minimise |y-K_nm c|\u00b2 + sigma\u00b2 c^T K_mm c + 1e-10 |c|\u00b2, and any other c exceeds the minimum by at least 1e-10 times its squared distance; when the inducing points are the training points the prediction at every point differs from that of GPR by an explicit multiple of sqrt(1e-10); the log marginal likelihood is the log density of N(0, K_nm (K_mm+1e-10)^-1 K_mn + sigma\u00b2 + 1e-10) divided by n; SGPR_RPChol picks training rows as inducing points for every outcome of the random pivots, and fits them optimally. With derivatives SGPR_RPChol keeps the jacobian of each drawn row, and its likelihood is that of the rows its fit draws; the likelihood of derivatives is the log density of the derivative Nystr\u00f6m covariance for one derivative per sample, and the dense function raises for more (refutation).", "quantifier": "all data sets and inducing points", "why_tests_cant": "optimality over all competitors", "anchors": ["gpx/models/_sgpr.py:_fit_dense", "gpx/models/_sgpr.py:_A_lhs", "gpx/models/_sgpr.py:_lml_dense", "gpx/models/_sgpr_rpchol.py:_fit_dense", "gpx/models/_sgpr_rpchol.py:_fit_derivs_dense", "gpx/models/_sgpr.py:_lml_derivs_dense"]}
{"id": "C48", "title": "Matrix-free SGPR equals dense SGPR", "statement": "Fit, prediction and likelihood of the matrix-free SGPR equal those of the dense one, for targets, and so do predictions of and from derivatives. For derivative training the matrix-free operators take column (c mod m) nv + c div m of K_mn K_nm in place of column c: they agree with the dense ones for one inducing point or one component and differ for two of each (refutation). The matrix-free likelihood of derivatives is the log density for one sample or one derivative per sample. predict after fit is the same function of the data for every choice of iterative and full_covariance.", "quantifier": "all sizes", "why_tests_cant": "only visible for nd>1 and m>1", "anchors": ["gpx/models/_sgpr.py:_Ax_lhs_fun", "gpx/models/_sgpr.py:_Ax_derivs_lhs_fun", "gpx/models/_sgpr.py:_Hx_derivs_fun"]}
{"id": "C49", "title": "Operations accept the shapes their documentation promises", "statement": "For all sizes, fits, predictions, covariances and likelihoods of GPR and SGPR accept the documented shapes and return arrays of the documented shapes; wrong numbers of targets raise. Refuted: derivatives of several outputs can be fitted; predict_ol returns a covariance for more than one derivative per point; SGPR trained on derivatives returns covariances, likelihoods and samples for several derivatives per point (the identity matrix has the wrong size).", "quantifier": "all sizes", "why_tests_cant": "broadcasting depends on accidental equality of sizes", "anchors": ["gpx/models/_sgpr.py", "gpx/models/utils.py:sample", "gpx/models/gpr.py:sample_prior_derivs"]}
{"id": "C50", "title": "Joint target/derivative model (GPR_TD) assembles one symmetric matrix and its matrix-free product is that matrix", "statement": "Every entry of the block matrix of values, first and second derivative blocks is the covariance of the two observations (kernel, directional derivative or mixed derivative) plus the noise variance of the row on the diagonal; the matrix is symmetric positive definite, the matrix-free version multiplies by exactly it, and the pivoted Cholesky approximation of the preconditioner never exceeds it.", "quantifier": "all sizes, with and without the second derivative block", "why_tests_cant": "block offsets for all sizes", "anchors": ["gpx/models/gpr_td.py:_A_lhs", "gpx/models/gpr_td.py:_Ax_lhs_fun"]}
{"id": "C51", "title": "GPR_TD likelihood uses the number of observations", "statement": "Without a second derivative block the dense log marginal likelihood is the log density per observation; the matrix-free one always is. With a second block the dense version forgets its rows and disagrees with the matrix-free version for every kernel and set of points (refutation), but both rank hyperparameters alike.", "quantifier": "all sizes", "why_tests_cant": "only visible with second-derivative data", "anchors": ["gpx/models/gpr_td.py:_lml_dense", "gpx/models/gpr_td.py:_lml_iter"]}
{"id": "C52", "title": "Operator-learning fit is the least-squares solution", "statement": "The coefficients of fit_ol are the only minimiser of the sum of squared value residuals and squared derivative residuals of the model's own predictions on the training set (the value residual containing (sigma^2 + 1e-10) times the coefficient), whatever singular value decomposition the library returns; mse_loss is the weighted training error of those predictions. Refuted: the covariance returned by predict_ol is the posterior covariance given the training values (it leaves the values out: when the Jacobian vanishes it is the prior covariance).", "quantifier": "all data sets", "why_tests_cant": "optimality over all competitors", "anchors": ["gpx/models/_gpr.py:_fit_ol", "gpx/models/_gpr.py:_mse"]}
{"id": "C53", "title": "Samples have the requested mean, covariance and number", "statement": "sample(key, mean, cov, n) draws n uncorrelated rows with that mean and covariance for a mean of one column; the GPR prior has mean zero and covariance K + (sigma^2 + 1e-10) I; posteriors of GPR, SGPR and of GPR derivatives have the predicted mean and the predicted covariance plus 1e-10. Refuted: samples for every output column (only the last column's come back); n samples for a one-dimensional mean (one comes back); the sparse priors have the noise variance sigma^2 (they have sigma); the derivative priors can be sampled (they raise unless there is one derivative per point).", "quantifier": "all means, covariances, data sets, kernels, keys, numbers of samples, and all random generators with uncorrelated standard draws", "why_tests_cant": "random outputs; structure of calls for all shapes", "anchors": ["gpx/models/utils.py:sample", "gpx/models/sgpr.py:sample_prior"]}
{"id": "C54", "title": "RBF network: prediction is linear in the weights and centring is consistent", "statement": "The prediction is the linear combination of kernels at the inducing points with the weights, linear in the weights and row by row; the loss is the mean squared error plus alpha/n times the squared norm of the weights, and weights with zero gradient are its unique minimiser. With centring, predictions ignore a constant added to the weights and, with as many inducing as training points, the training prediction is reproduced with the stored mean. Refuted: training with centring works for fewer inducing than training points (it raises for 1 < m < n); the loss of a fresh model can be computed (it raises).", "quantifier": "all inputs", "why_tests_cant": "all sizes", "anchors": ["gpx/models/rbfnet.py:_predict_linear", "gpx/models/rbfnet.py:_train_loss"]}
{"id": "C55", "title": "Batched squared distances equal squared distances plus the fixed jitter", "statement": "squared_distances(x1,x2)_ij = |x1_i-x2_j|\u00b2 + 1e-12 for all inputs, so it is strictly positive in exact arithmetic; euclidean_distance equals the norm and is never evaluated at a singularity.", "quantifier": "all batches", "why_tests_cant": "all inputs", "anchors": ["gpx/utils.py:squared_distances", "gpx/utils.py:euclidean_distance"]}
{"id": "C56", "title": "Derivative Gram matrices are covariance matrices", "statement": "The matrix returned by d01kj(x, x, J, J), and the joint matrix of values (k), value-derivative (d0kj, d1kj) and derivative-derivative (d01kj) blocks, is positive semidefinite for every differentiable positive semidefinite kernel, every set of points and every jacobian, exactly or up to the slack of the code's 1e-12 jitter and 1e-36 clamp, so derivative training systems with noise above the slack are solvable by Cholesky. Matern12 is the exception.", "quantifier": "all kernels expressions, points, jacobians, numbers of samples and columns", "why_tests_cant": "positive semidefiniteness for all sizes and points", "anchors": ["gpx/kernels/kernels.py", "gpx/models/_gpr.py:_A_derivs_lhs"]}
{"id": "C57", "title": "Posterior covariances are properties of the points, not of the batch", "statement": "GPR: the covariance of two test points is the same whatever other points are predicted in the same call. SGPR: the covariance is symmetric and positive semi-definite, and below the prior when sigma\u00b2 <= 1, but the system matrix is built from the test points in place of the training points: the reported uncertainty of a point decreases when more points are predicted in the same call and never sees the training data (refutation of batch independence, and monotonicity theorem).", "quantifier": "all kernels, inducing points, batches", "why_tests_cant": "relates calls with different batches, for all of them", "anchors": ["gpx/models/_sgpr.py:_predict_dense", "gpx/models/_gpr.py:_predict_dense"]}
{"id": "C58", "title": "GPR_TD: fit, predictions and derivative predictions are those of one Gaussian process", "statement": "The fitted coefficients satisfy residual = noise variance times coefficient in every block; predictions are mean plus covariance-weighted sums; derivative outputs are the derivatives of the value output along any motion of the inputs whose velocity is the given jacobian; matrix-free fit and prediction equal the dense ones.", "quantifier": "all sizes, kernels without jitter, data, with and without the second block", "why_tests_cant": "block offsets and chain rule for all inputs", "anchors": ["gpx/models/gpr_td.py:_fit_dense", "gpx/models/gpr_td.py:_fit_iter", "gpx/models/gpr_td.py:_predict_dense", "gpx/models/gpr_td.py:_predict_iter"]}
{"id": "C59", "title": "GPR_TD: dense and matrix-free prediction accept the same inputs", "statement": "Claim: prediction raises for a jacobian_2 on one side only, in both versions. Refuted: trained with and predicted without, the dense version raises and the matrix-free one answers; trained without and predicted with, the dense version returns an empty second derivative array and the matrix-free one raises.", "quantifier": "all sizes", "why_tests_cant": "combinations of optional arguments and sizes", "anchors": ["gpx/models/gpr_td.py:_predict_dense", "gpx/models/gpr_td.py:_predict_iter"]}
{"id": "C60", "title": "The likelihood computed without building the matrix is an estimate of the dense one", "statement": "For GPR (targets and derivatives), SGPR and GPR_TD the iterative log marginal likelihood differs from the dense one only by the error of the stochastic log-determinant, divided by twice the number of observations. Its mean over the random probes equals the dense value when there are at least as many Lanczos steps as distinct eigenvalues and is never above it otherwise. Claims refuted: SGPR's log_posterior is the log-likelihood of the same call plus the log-prior (it ignores key_lanczos); GPR's iterative likelihood works with the default arguments (n_pivots=None raises).", "quantifier": "all sizes, data, kernels, numbers of probes and Lanczos steps, keys", "why_tests_cant": "a statement on the mean over all random probes, for all matrices", "anchors": ["gpx/models/_gpr.py:_lml_iter", "gpx/models/_gpr.py:_lml_derivs_iter", "gpx/models/_sgpr.py:_lml_iter", "gpx/models/gpr_td.py:_lml_iter", "gpx/models/sgpr.py:log_posterior", "gpx/models/gpr.py:log_marginal_likelihood", "gpx/lanczos.py:lanczos_logdet"]}
{"id": "C61", "title": "A GPR_TD model predicts from its last successful fit and survives saving", "statement": "Whatever sequence of fit, save and load calls was made on a GPR_TD model, predict raises RuntimeError until a fit has returned and afterwards answers from the data and coefficients of the last fit that returned (or of the file loaded since), with the model's parameters; these are the parameters of that fit unless a minimising fit has failed since. The default loss accepts what fit passes to it. A model built with all its parameters can be saved after any history, and a model built alike that loads the file predicts the same. Claims refuted: every model can be saved (one built without a parameter, such as sigma_derivs2, never can); the argument key_precond of fit is used; predictions are never stale after a failed fit.", "quantifier": "all histories of fit/save/load, data with or without a second block, options, losses, optimisers, parameters", "why_tests_cant": "unboundedly many histories, including failing calls", "anchors": ["gpx/models/gpr_td.py:GPR_TD.__init__", "gpx/models/gpr_td.py:GPR_TD.fit", "gpx/models/gpr_td.py:GPR_TD.predict", "gpx/models/gpr_td.py:GPR_TD.save", "gpx/models/gpr_td.py:GPR_TD.load", "gpx/models/utils.py:randomized_minimization_ol"]}
{"id": "C62", "title": "A composite kernel reads each component's parameters from its own place", "statement": "Calling a kernel object built from the kernel classes with + and *, to any depth, or any of its derivative methods (d0k, d1k, d01k, d0kj, d1kj, d01kj, d0kjc, d01kjc), computes the kernel, respectively that derivative of the kernel, whose numbers stand at the documented paths of the parameter dictionary (kernel1/kernel2 for the operands, then lengthscale, variance, degree, offset, periodicity), and these determine it. The call raises exactly when a dictionary or Parameter on these paths is missing, KeyError naming a missing entry. Further entries and the order of entries do not matter, so the sorted dictionary kept in the model state gives the same kernel. default_params always fits the kernel and holds the documented values.", "quantifier": "all nestings of sums and products, all parameter dictionaries, all inputs", "why_tests_cant": "unboundedly many compositions and dictionaries", "anchors": ["gpx/kernels/kernels.py:Kernel.__add__", "gpx/kernels/kernels.py:Kernel.__mul__", "gpx/kernels/kernels.py:Sum", "gpx/kernels/kernels.py:Prod", "gpx/kernels/operations.py:sum_kernels", "gpx/kernels/operations.py:prod_kernels", "gpx/kernels/operations.py:prod_kernels_deriv", "gpx/kernels/operations.py:prod_kernels_deriv01_jac", "gpx/kernels/operations.py:prod_kernels_deriv01_jaccoef"]}
{"id": "C63", "title": "Optimisation and randomisation never leave the set of valid kernels", "statement": "If every kernel parameter has a value its kernel allows, and every trainable one a bijector whose range is within the allowed values, then after any sequence of minimisations and randomisations, and at every state at which the loss is evaluated on the way, the kernel can be called and its Gram matrix on any points is symmetric positive semidefinite, and positive definite once the noise is added. A GPR built with default parameters, for any composite kernel, satisfies this. Claim refuted: the same holds when the default offset of Polynomial is made trainable.", "quantifier": "all composite kernels, all runs of the optimiser and the sampler, all points", "why_tests_cant": "an invariant over unboundedly long optimisation histories", "anchors": ["gpx/kernels/kernels.py:Kernel.default_params", "gpx/models/gpr.py:init", "gpx/optimizers/scipy_optimize.py:scipy_minimize", "gpx/parameters/model_state.py:ModelState.randomize"]}
{"id": "C64", "title": "Predictions follow the units, the zero point and the order of the data", "statement": "Predictions depend linearly on the targets, so rescaling the targets rescales the predictions. With data_mean, adding a constant to all targets adds it to all predictions and leaves the likelihood unchanged, and constant targets are reproduced everywhere. Reordering the training samples (or the inducing points, or the features of a kernel without active_dims) changes neither predictions nor covariance. Moving all inputs by the same vector changes nothing for stationary kernels. With zero_mean every output is predicted as if it were alone. Holds of GPR (dense and iterative), SGPR and GPR fitted to derivatives. Claim refuted: with data_mean, several outputs are predicted as if each were alone.", "quantifier": "all kernels, data sets, permutations, scales and offsets", "why_tests_cant": "relations between two fits, over all data and all permutations", "anchors": ["gpx/models/_gpr.py:_fit_dense", "gpx/models/_gpr.py:_predict_dense", "gpx/models/_sgpr.py:_fit_dense", "gpx/mean_functions.py:data_mean"]}
{"id": "C65", "title": "Draws from a prior follow the density that logpdf states", "statement": "When the random generator draws from the standard normal (standard gamma) distribution, prior.sample of a normal (gamma) prior has the density exp(prior.logpdf) at every point of its support, keeps the prior's shape and dtype, and is positive for a gamma prior. The value randomize gives to a parameter has at forward(x) the density exp(logpdf(x)) divided by the slope of the bijector at x, which is the prior's density when the bijector is the identity. Claim refuted: the randomised values follow the density that log_prior evaluates at the value (shown false for Softplus).", "quantifier": "all priors, parameters, points and bijectors", "why_tests_cant": "densities are statements about every point and about infinitely many draws", "anchors": ["gpx/priors.py:normal_sample", "gpx/priors.py:gamma_sample", "gpx/priors.py:normal_logpdf", "gpx/priors.py:gamma_logpdf", "gpx/parameters/model_state.py:ModelState.randomize"]}
{"id": "C66", "title": "One lengthscale per feature", "statement": "With an array lengthscale, the SquaredExponential and Matern kernels equal the kernel with lengthscale 1 on samples whose active features are divided by their lengthscales; equal entries give the scalar kernel; Gram matrices are symmetric and positive semidefinite; the derivative rules of Matern32 and Matern52 in the samples and Matern52's d1k are exact. SquaredExponential's d01k and d01kj and Matern52's d0k, d01k and d01kj raise when the number of active features is neither one nor the number of samples of x2. When it is that number they return, with the lengthscale of feature t used for sample t, and the size of the error is given. Claim refuted: every derivative method that returns, returns the derivative.", "quantifier": "all lengthscale arrays, active dimensions, samples and jacobians", "why_tests_cant": "the error is silent for one shape and an exception for the others; exactness is over all inputs", "anchors": ["gpx/kernels/kernels.py:_squared_exponential_kernel_d01k", "gpx/kernels/kernels.py:_squared_exponential_kernel_d01kj", "gpx/kernels/kernels.py:_matern52_kernel_d0k", "gpx/kernels/kernels.py:_matern52_kernel_d01k", "gpx/kernels/kernels.py:_matern52_kernel_d01kj"]}
{"id": "C67", "title": "From the construction of a model, over its whole history, to the numbers it predicts", "statement": "Take a GPR, SGPR or SGPR_RPChol built from a kernel object and parameters whose bijectors keep the lengthscales and the noise positive, and any sequence of fit, fit with another optimiser, randomize, save, load, predict and state updates through the API. At every point the parameter dictionary holds a valid kernel and a positive noise. If the last call that changed parameters or data was a successful fit on (x, y), then predict on any x* of the right width, dense or matrix-free, returns an array of shape (n*, outputs) whose entries are mu + sum_t k(x*, x_t) c_t, with k read from the current parameters and c the solution of the normal equations, and, if asked for, the posterior covariance. The same for derivatives, for sparse models (inducing points are the current parameter, or the rows picked by RPCholesky; fitted to derivatives with the module function, on the state of the model), and after saving and loading into a model built alike with another history.", "quantifier": "all kernel objects, parameters, histories, optimisers, priors, data and query arrays", "why_tests_cant": "joins every layer of the library over unbounded histories; a test runs one history with one data set", "anchors": ["gpx/models/base.py:BaseGP.fit", "gpx/models/base.py:BaseGP.predict", "gpx/models/gpr.py:fit", "gpx/models/gpr.py:predict", "gpx/models/gpr.py:predict_derivs", "gpx/models/gpr.py:predict_y_derivs", "gpx/models/sgpr.py:fit", "gpx/models/sgpr.py:predict", "gpx/models/sgpr_rpchol.py:fit", "gpx/models/sgpr.py:fit_derivs", "gpx/models/sgpr.py:predict_derivs", "gpx/models/sgpr_rpchol.py:fit_derivs", "gpx/models/sgpr_rpchol.py:predict_y_derivs"]}
{"id": "C68", "title": "An RBFNet over its whole history, from construction to predictions", "statement": "Take an RBFNet built by init with any kernel, inducing points, output layer, loss function and centring, whose bijectors keep the lengthscales positive, and any sequence of fits (scipy, NLopt, optax), randomize with and without reset, save and load. At every point the parameters hold a valid kernel, inducing points and weights of the shapes of the construction, and frozen parameters keep their values. predict on n points returns an n x outputs array of sum_i k(z_i, x) w_i computed from the current parameters (minus the mean over the inducing points if centred), given to the output layer. randomize and save always succeed, load succeeds exactly for files written before, and a network built alike that loads the file predicts what the saved one did. Training, resetting and centring do what the documentation says.", "quantifier": "all kernels, parameters, layers, priors, histories, files and query arrays", "why_tests_cant": "unbounded histories over all networks; the failures (fit always raises, a failed fit breaks centred predictions, reset loses the output layer for good) depend on the order of calls", "anchors": ["gpx/models/rbfnet.py:init", "gpx/models/rbfnet.py:predict", "gpx/models/rbfnet.py:RBFNet.fit", "gpx/models/rbfnet.py:RBFNet.fit_nlopt", "gpx/models/rbfnet.py:RBFNet.fit_optax", "gpx/models/rbfnet.py:RBFNet.randomize", "gpx/models/rbfnet.py:RBFNet.save", "gpx/models/rbfnet.py:RBFNet.load", "gpx/models/rbfnet.py:RBFNet.predict"]}
{"id": "C69", "title": "Training keeps the parameters under which the data are most probable among those found", "statement": "Take a GPR, SGPR or SGPR_RPChol built by its constructor with any kernel object whose bijectors keep the parameters valid, and any history of calls. log_marginal_likelihood then returns the log density per sample of the data under the normal distribution whose covariance is built from the kernel and the noise that the parameters currently hold (Nystrom covariance with the current inducing points for the sparse models). With the library's losses and an optimiser that only proposes vectors of numbers, every value the optimiser is given is minus that score, plus the log density of the parameters under their priors for the posterior losses, of the state with the proposed parameters. A minimising fit, with any number of restarts, succeeds; the parameters it keeps have the highest score of all those found by the first minimisation and after each restart; the score is never lower than that of the same call without restarts; and the likelihood method called afterwards returns that score.", "quantifier": "all kernels, parameters, data, histories of calls, optimisers, numbers of restarts, random keys", "why_tests_cant": "quantifies over every optimiser and history; the sign of the loss, the selection among restarts and the state in which the likelihood is evaluated have to agree for all of them", "anchors": ["gpx/models/gpr.py:log_marginal_likelihood", "gpx/models/gpr.py:log_marginal_likelihood_derivs", "gpx/models/gpr.py:neg_log_marginal_likelihood", "gpx/models/gpr.py:neg_log_posterior", "gpx/models/sgpr.py:log_marginal_likelihood", "gpx/models/sgpr_rpchol.py:log_marginal_likelihood", "gpx/models/base.py:BaseGP.fit", "gpx/models/base.py:BaseGP.fit_derivs", "gpx/models/base.py:BaseGP.fit_nlopt", "gpx/models/base.py:BaseGP.log_marginal_likelihood", "gpx/models/utils.py:randomized_minimization"]}
{"id": "C70", "title": "A kernel written by the user gets all nine methods, and mixes with the library's", "statement": "Let a subclass of Kernel set _kernel_base to a function of two samples that accepts active_dims and whose derivatives autodiff computes. Then none of its methods raises where the function does not, k holds its values, d0k, d1k, d01k its first and second partial derivatives at the row and column of each feature, and d0kj, d1kj, d01kj, d0kjc, d01kjc their contractions with the given jacobians and coefficients. Sums and products of such objects with each other and with library kernels (those whose derivatives the code computes exactly) again have all of this, for the sum and product of the functions, and covariance functions stay covariance functions. grad_kernelize rejects other argnums and ignores with_jaccoef without with_jacob. The base function with the parameters x1, x2, params that the class docstring asks for makes an object whose every method raises TypeError (refutation).", "quantifier": "all user functions, parameters, points, numbers of samples, features and components, nestings of sums and products", "why_tests_cant": "quantifies over every function a user may write and every composite it may appear in", "anchors": ["gpx/kernels/kernels.py:Kernel.__init__", "gpx/kernels/kernels.py:Sum.__init__", "gpx/kernels/kernels.py:Prod.__init__", "gpx/kernels/kernelizers.py:grad_kernelize", "gpx/kernels/kernelizers.py:grad0_kernelize", "gpx/kernels/kernelizers.py:grad1_kernelize", "gpx/kernels/kernelizers.py:grad01_kernelize", "gpx/kernels/kernelizers.py:kernelize"]}
{"id": "C71", "title": "GP regression with a kernel object of any origin solves the right problem", "statement": "Take any kernel object whose methods return the values and derivatives of a covariance function k (user-written kernels, library kernels with exact derivatives, their sums and products). Fitting values gives the one coefficient array for which the residual of the prediction is (sigma^2 + 1e-10) times the coefficient, predictions are mu plus the combination of k, and the posterior covariance is symmetric, positive semidefinite, not larger than the prior and of textbook form. If k is differentiable along straight motions with continuous derivatives, the matrix of mixed derivatives is symmetric and positive semidefinite, so fitting derivatives has one solution too; the derivatives predicted from the full matrix or from the contracted jacobian are the same, and they are the derivatives of the predicted values when the new samples move along the columns of their jacobian. The dense likelihoods are log densities of the normal distribution with these covariances. Sums and products of smooth kernels are smooth. The claim that the default options work for every kernel is refuted: any sum, also with a user's kernel, raises TypeError in predict_derivs and predict_y_derivs.", "quantifier": "all kernel objects, covariance functions, parameters, data, numbers of samples, outputs, features and jacobian columns, mean functions, nestings of sums and products", "why_tests_cant": "quantifies over every kernel a user may write", "anchors": ["gpx/models/_gpr.py:_A_lhs", "gpx/models/_gpr.py:_A_derivs_lhs", "gpx/models/_gpr.py:_fit_dense", "gpx/models/_gpr.py:_fit_derivs_dense", "gpx/models/_gpr.py:_predict_dense", "gpx/models/_gpr.py:_predict_derivs_dense", "gpx/models/_gpr.py:_predict_y_derivs_dense", "gpx/models/_gpr.py:_lml_dense", "gpx/models/_gpr.py:_lml_derivs_dense", "gpx/kernels/kernels.py:Kernel.__init__"]}
{"id": "C72", "title": "Sparse GP regression with a kernel object of any origin solves the right problem", "statement": "Take any kernel object whose methods return the values and derivatives of a covariance function k. SGPR's fit returns the coefficients that minimise the squared error plus sigma^2 c^T K_mm c + 1e-10 |c|^2, and any other coefficients exceed the minimum by at least 1e-10 times their squared distance; predictions are mu plus the combination of k with the inducing points, and with inducing points equal to the training points they differ from those of GPR by an explicit bound. The covariance of the predictions is symmetric, positive semidefinite, of textbook form and not larger than the prior if sigma^2 <= 1. If k is smooth, the same holds for fits to derivatives, and predicted derivatives are the derivatives of predicted values, from the full matrix or from the contracted jacobian. The likelihoods are log densities under the Nystrom covariance; the dense likelihood of derivatives raises as soon as samples have two jacobian columns. Unlike GPR (C71), sums of kernels work with the default options.", "quantifier": "all kernel objects, covariance functions, parameters, inducing points, data, numbers of samples, outputs, features and jacobian columns, mean functions", "why_tests_cant": "quantifies over every kernel a user may write and every competitor of the fit", "anchors": ["gpx/models/_sgpr.py:_A_lhs", "gpx/models/_sgpr.py:_A_derivs_lhs", "gpx/models/_sgpr.py:_fit_dense", "gpx/models/_sgpr.py:_fit_derivs_dense", "gpx/models/_sgpr.py:_predict_dense", "gpx/models/_sgpr.py:_predict_derivs_dense", "gpx/models/_sgpr.py:_predict_y_derivs_dense", "gpx/models/_sgpr.py:_lml_dense", "gpx/models/_sgpr.py:_lml_derivs_dense"]}
{"id": "C73", "title": "The views of a state, the printed table and the accessors describe the parameters they claim to", "statement": "For every valid state, params_value, params_trainable, params_priors, params_forward_transforms, params_backward_transforms and the leaves of the pytree are lists of equal length whose i-th entries belong to the same parameter; every parameter appears exactly once, in alphabetical order of its path, and None entries never. print_params shows one line per parameter, those of the kernel first, with the data of that parameter and a name that identifies it if the names in kernel_params have no ':'; it raises KeyError without kernel_params and AttributeError for a dictionary elsewhere. After a fit, c_, mu_, x_train, y_train and jacobian_train are those of that fit; randomize(reset=True) clears c_ and mu_ of a GPR.", "quantifier": "all states, all nested dictionaries of parameters of any depth, all data and numerics of a fit", "why_tests_cant": "quantifies over all shapes and names of nested dictionaries and all states", "anchors": ["gpx/parameters/model_state.py:params_value", "gpx/parameters/model_state.py:params_trainable", "gpx/parameters/model_state.py:params_priors", "gpx/parameters/model_state.py:params_forward_transforms", "gpx/parameters/model_state.py:print_params", "gpx/models/base.py:__repr__", "gpx/models/base.py:c_", "gpx/models/base.py:mu_", "gpx/models/base.py:randomize"]}
{"id": "C74", "title": "What rounding leaves of the distances, kernels and bijectors", "statement": "Evaluated in binary64 with rounding to nearest, in any order of summation, squared_distances differs from the squared distance plus 1e-12 by at most an error proportional to the squared norms of the points; the distance of a point to itself is the number nearest to 1e-12. If the squared distance of two points exceeds that error, the squared exponential and Matern12 kernels are at most their value on the diagonal. The two computed kernels differ from the exact ones at the scaled points by at most a stated error, and a computed kernel matrix of N points is positive semidefinite once N times this error is added to its diagonal. The Matern12 kernel never exceeds 1. Softplus is positive and softmin/softmax stay within their bounds. Refuted: the computed distance is symmetric and non-negative; the computed kernels are bounded by their diagonal and their matrices positive semidefinite, for Matern12 even with jitter and noise; the bounds of softmin are strict.", "quantifier": "all numbers of features, all points, all orders of summation, all monotone implementations of exp, all non-negative implementations of logaddexp", "why_tests_cant": "quantifies over all reals, sizes and evaluation orders; the failures need particular pairs of points", "anchors": ["gpx/utils.py:squared_distances", "gpx/kernels/kernels.py:_squared_exponential_kernel", "gpx/kernels/kernels.py:_matern12_kernel", "gpx/bijectors.py:softplus", "gpx/bijectors.py:softmin", "gpx/bijectors.py:softmax"]}
{"id": "C75", "title": "One loss_kwargs dictionary for several fits", "statement": "A caller may keep one dictionary and pass it as loss_kwargs to any number of fits of any models. Afterwards it holds the caller's entries, except that iterative, n_pivots and key_precond hold the arguments of the last call that has them. A later fit, fit_derivs or GPR_TD.fit behaves as with the dictionary in its first form, and so does fit_nlopt if only fit_nlopt was called before. No call changes another model. Refuted: the dictionary is left unchanged; fit_nlopt behaves as with the dictionary in its first form after a fit. After any fit with the dictionary, training a model with a sparse loss through fit_nlopt always raises.", "quantifier": "all dictionaries, all models and losses, all sequences of calls, including calls that raise", "why_tests_cant": "quantifies over all sequences of calls on all models; each call is right by itself", "anchors": ["gpx/models/base.py:BaseGP.fit", "gpx/models/base.py:BaseGP.fit_derivs", "gpx/models/base.py:BaseGP.fit_nlopt", "gpx/models/gpr_td.py:GPR_TD.fit", "gpx/models/utils.py:loss_fn_with_args"]}
{"id": "C76", "title": "The history attributes of a trained model", "statement": "After a fit that minimised, the model was fitted from the run with the smallest loss, optimize_results_.x is the point of that run, and with return_history states_history_ and losses_history_ list every run with its loss. A fit that does not minimise leaves all three attributes, a step that raises leaves the histories. Over any sequence of fits, loads and randomisations the histories are those of the last fit with return_history since the last randomisation, or absent. The attributes never influence a fit. Refuted: the histories belong to the last training.", "quantifier": "all classes, losses, optimisers, numbers of restarts and sequences of steps", "why_tests_cant": "quantifies over all sequences of steps, all optimisers and all numbers of restarts", "anchors": ["gpx/models/base.py:BaseGP.fit", "gpx/models/base.py:BaseGP.fit_derivs", "gpx/models/base.py:BaseGP.fit_ol", "gpx/models/base.py:BaseGP.fit_nlopt", "gpx/models/base.py:BaseGP.from_state", "gpx/models/utils.py:randomized_minimization"]}
