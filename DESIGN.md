# GPX: design of the formal model

Source: `/repo/gpx` (Molecolab-Pisa/GPX, pinned commit), read as text.
Model and proofs: `/verif/rocq/theories`, Rocq (Coq 8.16.1).

## 1. Layout

| directory | content |
|---|---|
| `Base/` | generic lemmas: finite sums over R, matrices as functions, PSD theory, lists |
| `Model/` | definitions only; every definition cites the /repo file and lines it models |
| `Spec/` | small independent specifications used in theorem statements |
| `Proofs/` | lemmas |
| `Props/` | the property theorems, each closed by `exact`, with `Print Assumptions` and an `Example` |

## 2. Modelling decisions

* **Numbers.** Array entries are Coq's classical reals (`Coq.Reals`). Floating
  point rounding is modelled for distances, two kernels and the bijectors (C74)
  and nowhere else. Overflow, NaN and dtype promotion are not modelled, except
  that the restart/argmin layer uses an abstract comparison with an explicit
  NaN element. Constants of the code (1e-10, 1e-12, 1e-300, 1e-6, 1e-36) are
  kept, so identities are stated with them.
* **Arrays.** A matrix is a function `nat -> nat -> R` with explicit sizes;
  sums are an own recursive `sum n f`. Row-major `reshape` is index arithmetic
  (`i / nd`, `i mod nd`). `lax.scan`, `fori_loop`, `dynamic_update_slice` are
  modelled as folds that update such functions. Out-of-bounds clamping of
  `dynamic_slice` is modelled where it can matter.
* **Shapes.** Failures by shape mismatch are modelled in a separate calculus
  (lists of sizes with numpy broadcasting, errors as values).
* **Python objects.** dict = insertion-ordered association list; nested dict =
  tree; exceptions = values; object identity of short strings (`is`) is
  modelled by an identity oracle.
* **External code.** PRNG = free split algebra or arbitrary functions; scipy,
  optax, nlopt, pso optimisers = arbitrary functions; `solve`, `inv`, `svd`,
  `eigh`, `cg` = arguments with a specification as hypothesis, or an actual
  Gallina algorithm (Cholesky, triangular solve) proved correct.
  Autodiff (`jacrev`, `jacfwd`) = the true derivative (Coquelicot `is_derive`).

## 3. Plan per property

| id | modelled | proof |
|---|---|---|
| C01 | `_flatten_dict`/`_unflatten_dict` on trees with ':'-split of names and identity oracle | structural induction; refutations by witness |
| C02, C03 | `save`, file = association list, `load` incl. count check and per-parameter update checks | induction over trees; refutation for renamed files |
| C04 | `ModelState.update`, `Parameter.update` returning also the mutated caller dictionary | case analysis, list induction |
| C05 | parameter operations as a transition relation | invariant by induction over histories |
| C06 | tree_flatten/unflatten of states | round trip |
| C07, C08 | `randomize` with key threading over the free split algebra | induction over the parameter list |
| C09, C10 | `ravel_backward_trainables`, `unravel_forward_trainables`, any adaptive optimiser as a strategy | induction; uses bijector ranges |
| C11, C13 | restart loops, `min`/`index` with NaN | induction |
| C12, C14 | wrappers with the optimiser as argument | refutation / induction over steps |
| C15, C16 | flags state machine | invariant over histories; two histories joined by a file; refutation |
| C17 | call-signature table: parameters accepted by each callee, also for the kernel methods called by the predictions | decision over the (finite) table, for all argument values |
| C18 | file names as strings with decimal printing | injectivity of printing |
| C19 | recursive check | induction |
| C20-C22 | bijector formulas over R | real analysis |
| C23 | prior log-densities, log prior fold | algebra; refutation for array-valued parameters |
| C24-C36 | kernels (base, fast, derivative, contracted versions), kernel expressions | algebra, `is_derive`, PSD theory (Schur product, power series) |
| C37 | `rowfun_to_matvec` with clamped slices | induction over rows |
| C38-C43 | `_gpr.py` fit/predict/lml/preconditioner, and the public functions with their options | linear algebra, PD uniqueness, Cholesky |
| C44 | rpcholesky loop with arbitrary pivots | invariant over steps |
| C45, C46 | Lanczos loop | invariant over steps |
| C47, C48 | `_sgpr.py` | optimality of normal equations; layout refutation |
| C49 | shape calculus | computation on symbolic sizes |
| C50, C51 | `gpr_td.py` | block indices; refutation |
| C52 | `_fit_ol` with SVD specification | least squares optimality |
| C53 | `sample` loop | symbolic draws; refutations |
| C54 | rbfnet prediction | algebra |
| C55 | distances | algebra |
| C56 | derivative Gram matrices and the joint value/derivative matrix | limits of second differences of Gram matrices (`Proofs/JetPSD.v`); products of squared exponentials and sums with Matern32 up to an explicit slack (`Spec/SoftSpec.v`, `Proofs/SoftPSD.v`, `Proofs/M32Gram.v`); refutation for Matern12 |
| C57 | `_predict_dense` with covariance, of `_gpr.py` and `_sgpr.py` | Schur complements, monotonicity of the inverse; refutation |
| C58, C59 | `gpr_td.py`: fit and predictions, dense and matrix-free, with block sizes as options | PD uniqueness, curve derivatives; refutations on the error cases |
| C60 | the iterative likelihoods with keys, `log_posterior` | error formula, means over sign vectors, concavity of the logarithm (C46) |
| C61 | class `GPR_TD` as a state machine over fit/save/load | invariant over histories; refutations |
| C62 | kernel objects as expressions without numbers, called with a nested dictionary | induction on the expression against a path-based reading of the dictionary; the closures built by operations.py for all nine methods, by a second induction |
| C63 | the same, inside a model state | invariant (values and bijector ranges) over runs of the optimiser and the sampler, then C26; one refutation |
| C64 | fit followed by predict, GPR, SGPR and GPR on derivatives | uniqueness of the solution of the normal equations, reindexing of sums; one refutation |
| C65 | draws of the priors, bijectors of draws | change of variables for distribution functions; one refutation |
| C66 | SE and Matern kernels and their written derivatives with an array lengthscale, with broadcasting | reduction to lengthscale 1 on rescaled samples; two refutations |
| C67 | the numerics of the public functions on arrays and parameter dictionaries, put under the class state machine | invariant (bijector ranges, frozen values, kernel readable from the dictionary) over histories, joined with C15, C38, C39, C47, C62 and C63 |
| C68 | class RBFNet: init, predict, fit, randomize, save, load on states, files and arrays | invariant over histories (shape of the state, stored mean, layer, parameters moved within bijector ranges), joined with C54 and C62; refutations of training, of centring after a fit and of reset |
| C69 | likelihood methods and library losses on arrays and parameter dictionaries, under the class state machine and the restart routine | at every state reachable by a minimisation the loss is minus the log density (C42, C47, C23 through the invariant of C67), hence the run succeeds and C11 selects the best; iterative=False only |
| C70 | Kernel.__init__ and the grad_kernelize dispatchers for any user function; autodiff results are arguments assumed to be the partial derivatives | entries of the kernelizers; product rule for the partial derivatives, contracted |
| C71 | the dense routines of _gpr.py for a kernel given by its methods only, which can raise | symmetric second differences converge to the mixed derivative: symmetry and positivity; then the linear algebra of C38-C42 |
| C72 | the dense routines of _sgpr.py for a kernel given by its methods only, which can raise | positivity of C71, then the linear algebra of C47 for any matrices K_mm, K_mn |
| C73 | the views of ModelState, print_params up to the formatting of the cells, the accessors of BaseGP | induction over nested dictionaries: the paths of a sorted tree are strictly increasing and are exactly the paths with a leaf |
| C74 | squared_distances, the squared exponential and Matern12 kernels, softplus, softmin and softmax with every operation rounded to binary64 (Flocq), sums in any order, no overflow | induction over the order of summation for the error; the Gram matrices by perturbation of C26; exact evaluation of the roundings at the witnesses |
| C75 | a dictionary shared as loss_kwargs by calls of fit, fit_derivs, fit_nlopt and GPR_TD.fit on many models | induction over the calls; later writes hide earlier ones as lists of entries |
| C76 | a model object with optimize_results_, states_history_ and losses_history_ under fits, randomisations and loads | refinement to the fits of Lifecycle; induction over restarts and steps |

## 4. Trusted base

* Coq 8.16.1's kernel, and `coqc`/`coqchk` running on this machine.
* Axioms, all from the standard library. `ASSUMPTIONS.md` gives the list Print Assumptions prints for
  each theorem (written by `tools/assumptions.py` from the compiler's output):
  - `ClassicalDedekindReals.sig_forall_dec`, `ClassicalDedekindReals.sig_not_dec` (construction of R),
  - `FunctionalExtensionality.functional_extensionality_dep`,
  - `Classical_Prop.classic` (through Coquelicot),
  - `ClassicalEpsilon.constructive_indefinite_description` (only through mathcomp's determinant over R,
    `Spec/Det.v`, i.e. the likelihood theorems).
  `coqchk` and `vcheck` also print the constants of modules that mathcomp and the standard library seal
  with a signature (`RbaseSymbolsImpl.*`, `BigOp.bigop`, `FinfunDef.finfun`, ...). These have bodies;
  they are not axioms and Print Assumptions does not list them.
* That the definitions in `Model/` say what the Python text says. Each one cites its lines. No code was run.
* Real arithmetic in place of floating point. Every theorem about numbers except those of C74 is about exact arithmetic
  with the code's own constants (1e-10, 1e-12, 1e-36, 1e-300, 1e-6). C74 takes each operation to be rounded to nearest
  even in binary64 with gradual underflow, and sqrt to be correctly rounded; its refutations take exp and logaddexp to be so too.

Assumed behaviour of code outside /repo. It enters as function arguments with hypotheses that appear in the
theorem statements; each hypothesis is shown satisfiable by an `Example`.

| hypothesis | about | where |
|---|---|---|
| `linalg_ok` | solve, inv, Cholesky, triangular solve return solutions; cg returns the solution when operator and preconditioner are symmetric positive definite | C38-C43, C47, C48, C50, C51, C53, C57, C58, C60, C64, C67-C69, C71, C72 |
| `is_svd` | the singular value decomposition is one | C52 |
| `Derive` | `jacrev`/`jacfwd` return the true derivative (custom rules excepted, which are modelled) | C28-C32, C70-C72 |
| `restarts_ok`, `probe_ok` | eigh diagonalises T; a Lanczos restart draws a vector outside the span of the previous ones | C45, C46, C60 |
| `averaging`, `white` | jax.random.normal: uncorrelated entries of mean 0 and variance 1; multivariate_normal is mean + chol(cov) z | C53 |
| uniform signs | jax.random.rademacher | C46, C60 |
| `sampler_ok` | prior.sample returns finite entries of the prior's shape and dtype (C65_sampler proves it from `source_ok`, the same of the generators) | C07, C10 |
| `standard_law` | jax.random.normal and gamma draw from the standard densities | C65 |
| free algebra | two different chains of `random.split` give different keys | C08 |
| strategies | an optimiser asks points, sees loss and gradient, stops | C10-C14 |
| written into the definitions | numpy broadcasting and the shape rules of dot, solve, svd, ... (`Model/Shapes.v`); jax flattens dicts in the order of sorted keys and treats None as an empty tree; `jnp.asarray` in 64-bit mode; np.savez/np.load keep arrays; arrays are not hashable as static arguments; einsum broadcasts axes of length one | C01-C09, C49, C54 |

### Modelled

`Model/` file by file:

| file | models |
|---|---|
| PyDict, Params, State | parameters/utils.py, parameter.py, model_state.py |
| Optim | optimizers/ (utils, scipy, nlopt, pso, optax), models/utils.py restarts, StateCheckpointer |
| Optax | optimizers/optax_optimize.py with loss history, validation data, default optimiser and progress bar |
| Checks, Calls | models/utils.py checks; Python call signatures |
| Lifecycle | models/base.py and the public fit/predict functions of gpr.py, sgpr.py, sgpr_rpchol.py, rbfnet.py down to the numerics |
| Public | fit, fit_derivs, fit_ol, predict, predict_derivs, predict_y_derivs of _gpr.py, _sgpr.py and _sgpr_rpchol.py with the options iterative, full_covariance, and the dispatch between the numerical functions |
| TDClass | class GPR_TD down to the numerics |
| KernelObj | kernel classes with `+`, `*`, the method k and default_params |
| PriorDraw | sampling half of priors.py |
| KernelMethods | the nine methods of a kernel object, as closures over the parameter dictionary built by operations.py |
| Lengthscales | the SE and Matern kernels with one lengthscale per feature |
| Concrete | Lifecycle, KernelObj and Public put together: arrays, parameter dictionaries, numbers |
| RBFClass | class RBFNet over Lifecycle, KernelObj and RBFNet |
| Training | likelihood methods, losses and log prior of the three classes on arrays and dictionaries |
| CustomKernel | kernels/kernelizers.py 400-487 and Kernel.__init__ for a user's _kernel_base |
| GPRAny | dense routines of models/_gpr.py for any kernel object, with the argument names of d0kjc and d01kjc |
| SGPRAny | dense routines of models/_sgpr.py for any kernel object |
| Views | views and table of parameters/model_state.py:63-143, 198-243, accessors of models/base.py:43-76; from_state is the identity since a model is its state |
| FloatDistances | utils.py:56-72, kernels.py:751-757 and 920-927, bijectors.py:28-47, 74-87, 105-118 with rounding; exp and logaddexp of the library are arguments; no fused multiply-add, no overflow |
| LossKwargs | base.py:441-446, 543-548, 677-680, gpr_td.py:1017-1022, utils.py:77-82 around the fits of Lifecycle and TDClass; the caller does not write to the dictionary between calls |
| History | the attributes set by base.py:389-709 beside the state, and from_state; of scipy's result only the point |
| Bijectors, Priors | bijectors.py, priors.py (log densities), log_prior, log_posterior |
| Distances, Kernels, Kernelizers, KernelOps, MaternJvp | utils.py, kernels/kernels.py, kernelizers.py, operations.py |
| Operations | operations.py: matrix-free products |
| GPR, SGPR, SGPRMore, GPRTD, OL, RBFNet | the numerics of _gpr.py, _sgpr.py, _sgpr_rpchol.py, gpr_td.py, operator learning, rbfnet.py |
| RPCholesky, Lanczos, Likelihood | kernels/approximations.py, lanczos.py, iterative likelihoods with their keys |
| Sampling | models/utils.py sample and the sample_* functions |
| Shapes | the shapes of all arrays of _gpr.py and _sgpr.py |

### Not modelled

* Floating point outside C74: rounding in solves, predictions, derivatives and the other kernels; overflow; NaN in
  arrays (NaN losses and NaN parameter values are modelled in the Python layer).
* jit, vmap, scan and checkpoint as such: they are taken not to change values. Tracing errors and static
  argument hashing are modelled only where a finding depends on them.
* Warnings, the text in the cells of `print_params` and of `ModelState.__repr__`, `opt_kwargs`, callbacks other than
  StateCheckpointer; the history attributes of GPR_TD and RBFNet (those of the other classes: C76).
* Lengthscales per feature outside C35 and C66 (models, ExpSinSquared). Polynomial degrees
  that are not natural numbers. Active dimensions out of bounds.
* The inside of scipy, optax, nlopt, pyswarm, cg, eigh, svd.
* Shapes and sizes in the numerics files: matrices there are total functions with explicit sizes; where a
  shape error is possible it is modelled in Shapes (C49) or as None in GPRTD.
* In Concrete, arrays that are not float64, of another rank or size, or with NaN: the result is that of an
  arbitrary function (`rest`), and so are the covariances of derivatives of the sparse classes.
* os.path.splitext on braces in names; file system errors other than a missing file.

## 5. Findings

What the proofs show about the code, beyond the properties that hold. Each is a `_refuted` theorem (or the
theorem named) unless marked "read", which means noticed while modelling and not stated as a theorem.

Python layer
* C01: `_unflatten_dict` compares path components with `is`. A one-letter leaf name equal to an earlier
  component of its path corrupts the result in CPython.
* C02: `load` needs the .npz suffix that `save` adds; None parameters, strings, 0-d bool arrays and an
  attribute named "file" do not survive.
* C03: `load` assigns values by position in sorted order and never compares names.
* C04: `update` removes entries from the caller's dictionary.
* C08: restart r+1 uses for parameter j the key restart r used for parameter j+1.
* C11: if the first loss is NaN the NaN state wins over all restarts.
* C12: NLoptWrapper replaces frozen parameter values by those of the state it was built with.
* C13: pso_minimize without local optimiser can leave the range of the bijectors.
* C14: optax with weight decay moves frozen parameters; optax_minimize returns the last state, not the best;
  update_every=0 raises ZeroDivisionError.
* C15: `_check_is_fitted` tests a bound method, so it never raises; return_history with minimize=False
  raises UnboundLocalError after the fit has been stored.
* C16: stale predictions after randomize(reset=False), after a failing minimising fit, after m.init(...).
* C70: the docstring of Kernel tells users to write base(x1, x2, params); every method then raises TypeError,
  because active_dims is passed by keyword. It also names self.filter_input, which does not exist (read).
* C71: a sum with a user's kernel raises TypeError in predict_derivs and predict_y_derivs with the default options,
  as sums of library kernels do (C17).
* C72: the sparse routines call d0kjc and d01kjc by position, so the sums that raise in GPR (C71) work there; the dense
  likelihood of derivatives raises for two jacobian columns, as in C47.
* C73: repr(model) prints the table and returns the text None; a parameter called a:b and a parameter b inside a are shown
  under the same name; randomize(reset=True) of the sparse classes resets y_mean, which no state has, and keeps mu; x_train, y_train
  and jacobian_train of the old fit stay; model.init returns a new state and does not reset the model, whatever its docstring says.
* C74: squared_distances has no clamp, so near 256 two points 1e-6 apart get a negative squared distance. The squared exponential
  kernel is then greater than 1. For Matern12 the clamp at 1e-36 puts such a pair at distance 1e-18 while a point is at distance 1e-6
  from itself, so the kernel matrix is indefinite by about 1e-6 and jitter 1e-10 with a noise variance up to 1.2e-7 does not repair it.
  The computed distance also depends on which point comes first.
* C75: fit, fit_derivs, fit_nlopt and GPR_TD.fit write iterative (all but fit_nlopt also n_pivots and key_precond) into the
  caller's loss_kwargs, even with minimize=False. If the same dictionary then goes to fit_nlopt, its loss gets the n_pivots and
  key_precond of the earlier fit; the losses of the sparse models raise TypeError.
* C76: a fit without return_history leaves states_history_ and losses_history_ of an earlier fit in place, so they may describe
  a training other than the last.
* C17: SGPR.fit, SGPR_RPChol.fit and their fit_derivs raise TypeError on every input (unknown keyword
  n_pivots); fit_ol and predict_ol of the sparse classes raise AttributeError; RBFNet.fit* never pass loss_fn; `mse_loss`
  of BaseGP calls an attribute no class has; SGPR_RPChol.init without key raises.
* Read: `_init_default` of the sparse classes resets `y_mean`, an attribute nobody reads, in place of `mu`.
* C61: a GPR_TD built without one of its parameters can never be saved; its fit ignores key_precond.
* C17: a GPR whose kernel is a sum, once fitted to derivatives, raises TypeError in predict_derivs and
  predict_y_derivs with the default options: `_gpr.py` passes `jaccoef=` by name, Sum's parameter is called `jacobian`.
* C64: data_mean averages over all outputs (jnp.mean without axis), so with several outputs the targets of one
  move the predictions of the others.
* C63: Polynomial's offset has the Identity bijector; once trainable, the optimiser may take it below zero, where
  the kernel is not positive semidefinite.

Numerics
* C65: log_prior takes the prior as the density of the parameter's value, randomize and sample_prior as the density
  of the value before the bijector.
* C23: the log prior of array-valued parameters is an array; two of different lengths raise.
* C27, C28: batched SE and Matern kernels are evaluated at squared distance + 1e-12, their derivative
  methods (except Matern52 and the mixed derivative of SE) are not. Read: the docstring of SE divides by l, the code by l^2.
* C31: d0kjc of Matern52 differentiates the unshifted kernel, d0kj the shifted one.
* C35: the lengthscale rule of the Matern kernels is wrong for one lengthscale per feature.
* C66: with one lengthscale per feature, d01k and d01kj of SE and d0k, d01k and d01kj of Matern52 raise unless x2
  has as many samples as there are active features; then they silently use the lengthscale of feature t for sample t.
* C42: with several outputs the determinant is counted once; the iterative version disagrees with the dense one.
* C46, C60: with fewer Lanczos steps than distinct eigenvalues the log-determinant is overestimated on
  average, so the iterative likelihood is biased low. Read: every probe restarts from the same key.
* C60: the iterative likelihood of GPR fails with its default arguments (n_pivots=None); log_posterior of
  the sparse classes drops key_lanczos.
* C48: the matrix-free operators of SGPR for derivatives exchange the axes of inducing point and component.
* C49: the covariance, likelihood and sampling functions of SGPR for derivatives build an identity matrix of
  the wrong size; predict_ol's covariance has the wrong shape.
* C51: the dense likelihood of GPR_TD forgets the second derivative block when counting rows.
* C52, C57: predict_ol's covariance ignores the training values; SGPR's covariance is built from the test
  points in place of the training points, so it depends on the batch and never sees the data.
* C53: sample() returns only the last output column, ignores n_samples for one-dimensional means; the sparse
  priors use sigma in place of sigma^2; derivative priors raise unless there is one derivative per point.
* C54: RBFNet with centring raises for 1 < m < n inducing points; the loss of a fresh model raises.
* C68: every fit of RBFNet raises, and by then has cleared the stored mean, so a centred network that predicted
  before raises afterwards; randomize with reset drops the output layer and load does not bring it back.
* C56: the mixed derivative matrix of Matern12 is not positive semidefinite.
* C59: dense and matrix-free GPR_TD disagree on which inputs are errors.
* Read: `_predict_y_derivs_dense` of SGPR_RPChol drops full_covariance; rpcholesky_TD squeezes, so one row fails;
  predict_y_derivs' covariance uses sigma^2 without the 1e-10 used in the fit.

## 6. Wrong programs

`seeded/LOG.jsonl` has one line per edit tried on a copy of the model: the definition, the edit, the claim it
breaks, the theorems whose proofs then need an axiom, the theorems tightened because of it.
