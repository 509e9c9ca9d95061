{
 "C24": "Values, first and mixed derivative kernels. d01k away from the exact boundary of the Matern12/32 clamp max(d2,1e-36).",
 "C25": "Batched Gram diagonals of SE/Matern are strictly below 1 by at most the jitter effect; the single-sample SE and periodic kernels are exactly 1.",
 "C26": "All nine kernel classes (Matern through mixtures of Gaussians) and all sums and products.",
 "C27": "Exact for unjittered kernels, explicit error bound propagated through sums and products otherwise.",
 "C28": "Exact derivative of the batched kernel for constant, linear, polynomial, no-intercept, periodic, Matern52 and their sums/products; for SE, Matern12, Matern32 the derivative methods differentiate the single-sample kernel.",
 "C29": "As C28; SE mixed derivative is exact for the batched kernel.",
 "C31": "Exact equality for kernels without Matern52 (its d0kjc is generic while d0kj is the fast version); with Matern52 an explicit error bound.",
 "C35": "True directional derivative for scalar lengthscale; coincident points; refutation for vector lengthscales.",
 "C20": "All five bijector classes, reals.",
 "C21": "SoftMinMax: forward(backward y) away from the last 1e-300 above min (there backward is NaN, proved); backward(forward x) when the error bound is at most 1.",
 "C22": "All five bijector classes.",
 "C23": "gammaln is an argument with exp(gammaln)=Gamma; scalar parameters; array parameters refuted.",
 "C37": "General row functions, and the three operators of _gpr.py. Diagonal update needs h*rows <= columns (clamped slices otherwise).",
 "C38": "Values and derivative training, any library solve satisfying linalg_ok; uniqueness of the coefficients.",
 "C39": "Coefficients, predictions, contracted predictions. Contracted versions exact without Matern52, with an explicit error bound in general. Derivative fits also for any kernel whose noisy derivative matrix is positive definite. C39_public*: the public fit and predict functions with their options, which fail exactly where C17_predict_derivs says.",
 "C40": "Exact kernels, in every combination of options; single squared exponential with the factor exp(1e-12). fit_derivs always uses the zero mean.",
 "C41": "Values, derivatives, values from derivatives. Derivative Gram condition excludes Matern12 (see C56); values from derivatives also for products of squared exponentials when the noise exceeds the slack.",
 "C42": "Determinant is mathcomp's. Multi-output formula stated exactly; the iterative multi-output value is refuted.",
 "C43": "sigma <> 0 (the code divides by sigma^2).",
 "C44": "Any pivot rule with pivots below n; Nystrom equality with the jitter replaced by 0.",
 "C56": "Exact kernels and sums with SE: psd. Products of SE, sums with Matern32: psd up to an explicit slack (5e-12 resp. 3e-18 per unit of squared jacobian), positive definite with noise above it; joint matrix likewise. Products with Matern32 not covered. Matern12 refuted with a 2-point witness.",
 "C01": "Names non-empty, no ':', leaf not 'NULL', a leaf name cached by the interpreter not equal to an ancestor's; each side condition refuted when dropped.",
 "C02": "Parameters by path, attributes by name, other files untouched. Refuted: load without the .npz suffix, None parameters, strings, 0-d bool arrays, an attribute called 'file'.",
 "C03": "Names are not checked: proved (names_ignored) and refuted by a witness.",
 "C04": "Frame, last-write-wins composition, error cases, and what is left of the caller's dictionary, for states and parameters.",
 "C05": "Invariant over all histories of parameter and state operations; an exception leaves the variable as it was.",
 "C06": "Only parameter values are leaves; registered arrays are static data.",
 "C07": "prior.sample is an argument with assumed shape, dtype and finite entries.",
 "C08": "Keys as the free algebra of split/fold. Across restarts the independence is refuted: keys and, for equal priors and bijectors, drawn values coincide.",
 "C09": "All trees and shapes. ravel after unravel within the inversion error of each bijector.",
 "C10": "Optimiser = any adaptive strategy (ask points, see the loss, stop), including raising losses.",
 "C11": "All three randomized_minimization variants share the modelled loop; the minimiser and the loss are arguments.",
 "C12": "Refuted for states that differ in a frozen value.",
 "C13": "The swarm library is an argument (any strategy). Range claim refuted without a local optimiser.",
 "C14": "Optimiser = any function from the gradient history to updates; the gradient is any function of the state and data. Frozen values with weight decay refuted; that the best state is returned refuted. The printed progress is not modelled, only the modulo that can raise.",
 "C18": "File system as a map from names to contents; str.format on base names containing braces is not modelled.",
 "C19": "Exact characterisation of the reported leaf; dictionary subclasses are not modelled.",
 "C15": "Numerics, losses and the prior's sampler are arguments. Histories of any length over fit, fit_derivs, fit_ol, fit_nlopt, randomize, save, load, init. Failed calls leaving the model unchanged is refuted.",
 "C16": "Positive part over all histories; stale predictions after randomize(reset=False), a failing minimising fit and init are refuted with witnesses.",
 "C17": "Signatures are written down from the source; opt_kwargs are not modelled. Refutations hold for every input. C17_sum_kernel_refuted: Sum.d0kjc and d01kjc have no parameter called jaccoef.",
 "C45": "The normal draws are an argument; orthonormality and the reduction assume each restart draws a vector outside the span of the previous columns (restarts_ok). Exact real arithmetic.",
 "C46": "eigh is an argument assumed to return an eigendecomposition of T (probe_ok); restarts only on vanishing residuals. Means are finite averages over all sign vectors.",
 "C47": "cg, Cholesky, triangular solve and solve are arguments satisfying linalg_ok. Shape failures of the derivative likelihood and covariance are not represented here (see C49).",
 "C48": "C48_derivs_operator_refuted: the vmap with out_axes=2 followed by reshape exchanges the inducing point and component axes. C48_public*: the public functions.",
 "C57": "C57_sgpr_batch_refuted: finding; the covariance of _sgpr._predict_dense is built with the test points as x2 of _A_lhs.",
 "C50": "Entries and definiteness for kernels whose derivative methods are exact (exact k); the matrix-free product for every well-formed kernel.",
 "C51": "logdet is an argument of the matrix-free version, assumed equal to ln det in the density theorem. Disagreement refutes the claim for every kernel and point set.",
 "C58": "Kernels whose derivative methods are exact. One output column, as in the code.",
 "C59": "Refutations only.",
 "C52": "Least squares proved against an independently stated objective; covariance claim refuted.",
 "C54": "Prediction, linearity, pointwise dependence, loss and optimality proved; centring for 1<m<n and the loss of a fresh model refuted. jax facts assumed: arrays are unhashable as static arguments, einsum broadcasts axes of length one.",
 "C53": "jax.random.multivariate_normal is modelled as mean + chol(cov) z with z from jax.random.normal; the draws are assumed white (uncorrelated, mean 0, variance 1). Several claims refuted, see statement.",
 "C49": "Shape calculus over all sizes; library shape rules are assumed (Model/Shapes.v). Kernels are assumed to reject points with different numbers of features.",
 "C60": "Uniform independent signs are the assumed distribution of rademacher; probe_ok (restarts on vanishing residuals only, eigh diagonalises) is an hypothesis. The derivative likelihood of SGPR is not covered: C48 shows its operator is permuted.",
 "C61": "The linear algebra and the loss are arguments; arrays are assumed to survive np.savez (td_plain). A history is requested only together with a minimisation (otherwise fit raises UnboundLocalError after fitting, as C15_history_refuted shows for the other classes).",
 "C32": "Sum and product rules, and a bound on the distance of any composite's computed derivatives from the true ones.",
 "C62": "Values that are not 0-d real numbers, or degrees that are not natural numbers, give an unmodelled kernel (None) rather than an error. The derivative methods are followed by C62_methods: the closures built by operations.py return what the kernel of the parameters returns, on every dictionary that has the parameters.",
 "C63": "The optimiser is any strategy proposing real numbers; the sampler has the shape and size of the prior and gives real numbers.",
 "C64": "Stationary means built from Constant, SquaredExponential, Matern and ExpSinSquared. For derivatives the noisy derivative matrix is assumed positive definite, which C56 gives.",
 "C65": "Distributions are functions from events to numbers, of which only the value on half-lines is used; the generators' laws are hypotheses. loc, scale, concentration and rate are numbers, not arrays.",
 "C66": "The distances are off the clamp of Matern kernels in the rules, as in C35. Kernels that differentiate automatically (d0k of SE, Matern12, Matern32) are covered through the rules only.",
 "C67": "n_pivots is an integer between 0 and the number of samples when iterative. Derivative predictions in the default mode are for kernels that are no sum and contain no Matern52 (their contracted methods differ, see C31 and C17). The method fit_derivs of the sparse classes raises TypeError (C17), so their derivatives are stated for the module function fit_derivs on the state at the end of any history, without covariance; the matrix-free fit is for one inducing point or one derivative per point (otherwise it differs, see C48).",
 "C68": "The full claim is false: every fit raises for all data (the restart routine is called without loss_fn), a failed fit clears the stored mean so that a centred network raises or its predictions depend on the batch, and reset loses the output layer even when a saved file is loaded afterwards. Each is a _refuted theorem for all networks and histories; the rest is proved.",
 "C69": "For iterative=False, targets with one output, and bijectors other than SoftMinMax for the trainable parameters (C21: its inverse is undefined at the lower end). The sparse classes are trained through fit_nlopt, because their method fit raises (C17). Gradients are not modelled: the optimiser may use any.",
 "C70": "Autodiff is an argument of the model, assumed to return the partial derivatives. Library leaves: Constant, Linear, Polynomial, ExpSinSquared; for the others see C28-C31, where k and the derivatives differ by the jitter. Docstring usage refuted.",
 "C71": "Dense routines, in exact arithmetic. The hypotheses on the kernel are proved for library kernels with exact derivatives and inherited by sums and products (C70, C71_smooth_*); for the other library kernels C71_library leads back to C38-C42. The iterative routines are those of C39/C43 for library kernels only.",
 "C72": "Dense routines, in exact arithmetic; hypotheses on the kernel as in C71. C72_likelihood_derivs is for one jacobian column, the only case that runs for any number of inducing points. The iterative routines and SGPR_RPChol are covered for library kernels only (C47, C48).",
 "C73": "The cells of the table are the objects shown, not their text: str(bijector), str(prior), np.array2string and tabulate are not modelled, nor is ModelState.__repr__.",
 "C74": "binary64 without overflow and fused multiply-add. The five properties that fail with rounding are refuted with concrete points.",
 "C75": "Only the library writes to the dictionary. Two claims about the dictionary are refuted.",
 "C76": "GPR, SGPR and SGPR_RPChol through their base class; that the histories belong to the last training is refuted."
}