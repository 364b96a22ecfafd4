# Formal model of DRDMannTurb: design

The code under study is the Python package in `/repo/drdmannturb` (spectra fitting and
fluctuation generation).  Nothing is executed; every definition of the model cites the
lines it was read from.  The model is written in Coq 8.16.1 under `rocq/theories`.

## Layout

| files | content |
|---|---|
| `Prelude.v` | exceptions as values (`res`), extended reals, Python list primitives |
| `*Model.v` | definitions only, one per function of the code, each with a line citation |
| `*Spec.v` | small independent vocabulary used by the theorem statements |
| `*Proofs.v` | lemmas |
| `*Theorems.v` | the property theorems only: each `exact lemma.`, `Print Assumptions`, and an `Example` meeting its hypotheses |

## Conventions of the model

* numbers: numpy/torch floats are modelled by Coq's real numbers (`R`).  Rounding, overflow and
  underflow are **not** modelled.  Where the code relies on IEEE special values (division by zero in
  the simulation kernels, NaN checks in the losses, infinities at k1 = 0) the model uses extended reals
  `xr = Fin r | PInf | NInf | NaN` with IEEE-style operations on unsigned zero.
* exceptions: every function which can raise returns `res A = Ok a | Err e`, `e` naming the Python
  exception class (`ValueError`, `AttributeError`, `AssertionError`, ...).  Functions with state return the
  state also on error, so "what a failing call leaves behind" can be stated.
* arrays are lists (or functions on bounded indices where only pointwise laws matter); slices, `np.roll`,
  `linspace`, `logspace`, `trapz`, `diff`, `mean` are modelled as list functions with Python's
  negative-index conventions.
* external functions are section variables or explicit function arguments, universally quantified in the theorems: the
  hypergeometric function, the activation functions and weights of the network, the optimiser, the
  random number stream, the file system.  Nothing is assumed of them except what a theorem states.
* the Gaussian distribution itself is outside the model: statements about generated fields are for every
  noise array, and statements about averages over seeds use finite weighted ensembles of which only the
  first two moments are constrained (zero mean, unit variance, uncorrelated draws).

## Trusted base

* Coq's kernel (8.16.1), no plugin beyond those shipped with the standard library tactics.
* Axioms: only those of the standard library's classical reals, as printed by `Print Assumptions` below
  each theorem (see "Assumptions per theorem" at the end).
* Definitions of Coquelicot (derivatives, integrals, limits, complex numbers) and of Flocq (rounding to binary64, C170-C174)
  occur in statements; neither library adds an axiom to those of the standard library.
* The reading of `/repo` (line citations in the model).
* The documented behaviour of numpy/torch/FFTW primitives named above.

## Properties: what is modelled and how it is proved

| id | model | proof |
|---|---|---|
| C01 | `PowerSpectra` entries (unclipped) and Mann kernel rows, both as functions of (k, beta, E) | `field` identities after `zeta` abstraction; `s^(3/2) = sqrt(s^3)`; energy spectra identity |
| C02 | Mann kernel in extended reals with `nan_to_num` | case analysis on k1, k2, k3 = 0, identity k1 zeta1 + k2 zeta2 + k3 zeta3 = k30 |
| C03 | unclipped tensor | Phi = M M^T, quadratic form is a sum of squares |
| C04 | unclipped tensor + trapezoid rule on symmetric grid | oddness, reflection lemma by induction on the grid |
| C05 | clipped tensor | refutation: clipped values are all >= 1e-12, so the integral is strictly positive |
| C06 | tensor at beta = 0 | atan2(0, x>0) = 0, `field` |
| C07 | kernels at -k | parity lemmas including the degenerate planes |
| C08 | von Karman kernel | `ring` |
| C09 | tensor and quadrature | linearity by induction |
| C10 | three energy spectra | `Rpower` algebra, monotonicity |
| C11 | `EddyLifetime` dispatch over all five types with arbitrary network | norm and abs are sign blind |
| C12 | `Rational` | `Rpower` inequalities |
| C13 | `EddyLifetime` | `Rpower` algebra |
| C14 | OLS as closed formula, `init_mann_approximation` | exact-fit lemma for OLS by sums over lists; refutation witness L = 2 (factor L^alpha Gamma) |
| C15, C16 | log/exp of scales | `exp (ln x) = x`; refuted for log10 |
| C17, C18 | grid construction and nested trapezoid | induction on lists |
| C19 | coherence | triangle inequality for weighted cosine/sine sums |
| C20 | parameter vector as flatten/unflatten over a shape list | induction on shapes |
| C21, C22 | constructor and forward pass | induction on layer list |
| C23, C24 | epoch loop as a fold over an arbitrary optimiser | induction on fuel = nepochs |
| C25, C26 | file system as finite map | map laws; collision witness |
| C27, C28 | loss terms on lists | sums of squares vanish iff all vanish |
| C29-C32 | aggregator state machine | invariants over operation lists |
| C33, C34 | closed formulas | `Rpower` positivity; derivative (Coquelicot `is_derive`) |
| C35, C36 | constructors as decision procedures over an attribute environment | case analysis; refuted success path |
| C37-C43 | generator state machine over an abstract noise stream and correlator | slice lemmas, induction on calls |
| C44-C46 | profiles | monotonicity of ln / Rpower; refutation |
| C47 | `np.gradient` | index case analysis on arbitrary size |
| C48, C49 | DFT sampling (forward r2c, multiply, c2r) | sums over index lists, permutation of index set, characters |
| C50, C51 | generator with explicit RNG states | determinism by definition of the step relation; counterexample with global stream |
| C52-C58 | low frequency generator | ceil arithmetic, list windows, bilinear algebra, even/odd N |
| C59, C64 | coherence file loader | index lemmas; row-order witness |
| C60 | permutation of panel indices | finite computation over the 6 components |
| C61 | DRD kernel vs. calibration lifetime | witness L = 2 |
| C62 | linspace with/without end point | witness |
| C63 | meshgrid flattening | index arithmetic |
| C65 | sheared kernel as a function of the accumulated shear | Coquelicot derivative of each entry |
| C66 | `OnePointSpectra.__init__` to `TauNet.__init__` | refuted by evaluation; independence of the ignored fields |
| C67, C75 | coherence grid cache as state | refutation for every mirror-symmetric model (lower bound from a narrow grid, strict upper bound on the fresh grid) |
| C68, C69 | generator state machine; cyclic convolution with bounded support | induction on blocks; window lemmas |
| C70 | unclipped tensor | `field` |
| C71 | data generators | refuted for Kaimal |
| C72 | reloading of a fitted model | homogeneity of the tensor, exact factor |
| C73 | attribute environment of the module | induction over call histories |
| C74 | energy stored on the module | iteration of the in-place division |
| C76 | clipped vs. unclipped quadrature | monotone trapezoid rule, pointwise clipping bound |
| C77 | unclipped tensor | homogeneity |
| C78-C81 | loss aggregator | case analysis; history induction; sums of squares |
| C82 | data rows and model rows of the closure | list computation for each number of components |
| C83, C90 | a tensor is a value with an optional derivative | Coquelicot derivatives; refuted for terms computed under `no_grad` |
| C84 | content of a saved file | lower bound on the clipped spectrum shows the unsaved settings matter |
| C85 | recorded loss history and scheduler factor | induction over closure evaluations |
| C86 | loss of generated data under the delivered model | clipped model is positive, generated uv data vanish |
| C87 | mask select / mask fill | list induction |
| C88, C89 | constructor | case analysis |
| C91 | Kaimal formulas | weighted AM-GM and polynomial bounds on the two sides of n = 1/8 |
| C92 | profiles in extended reals | case analysis on the arguments |
| C93 | per-block factors | injectivity of the profile addition; two-block witness |
| C94 | DFT sampling, impulse responses | orthogonality of the modes (geometric sums of roots of unity), reindexing of the grid |
| C95 | scalar FFT and FFTW samplers | inversion of the DFT, mirror reindexing |
| C96 | interpolation with fill value | case analysis on the bounds check; refuted |
| C97 | kernel, analytical integrand, impulse responses | algebra above the guards; orthogonality of the modes |
| C98 | `_compute_c` with an arbitrary quadrature | homogeneity |
| C99 | `formatted_wind_field` with reshape=False | list lengths; refuted |
| C100 | shapes through `Sampling_*.__call__` and `sample` | numpy broadcasting on shapes; refuted |
| C101 | `VectorGaussianRandomField`, `sample` without noise | shapes; refuted |
| C102 | noise amplitude of `GaussianRandomField` | case analysis on level forms; refuted for scalar level |
| C103 | `setSamplingMethod` as a state transition | induction on later calls; refuted |
| C104 | constructor with default `grid_shape` | case analysis; refuted |
| C105 | `reseed`, `sample_noise`, `sample` over an abstract generator | induction on histories |
| C106 | domain from `grid_dimensions` | arithmetic; refuted for scalar level |
| C107 | choice of the optimiser in `calibrate` | case analysis; refuted |
| C108 | first step of Adam with the settings of `calibrate` | real analysis; refuted |
| C109 | `CosineAnnealingLR` inside the training loop | induction over epochs, any optimiser |
| C110 | model and data curves of `plot` | list lemmas; refuted |
| C111 | data selection and exceptions of `plot` | case analysis; refuted |
| C112 | stored model coherence | witness calibration; refuted |
| C113 | files written by `plot` | case analysis |
| C114 | magnitude arguments of the generator | kernel, sampler and blocks scale; simulation relation between call histories; refuted |
| C115 | streamwise spectrum of the sampler | row sums of the extended spectrum, orthogonality, C01 |
| C116 | amplitude of the sampler | covariance sum of C94; refuted with exact factor |
| C117 | stored fit of a problem object | induction over histories of operations; refinement to `calibrate` |
| C118 | stored fit vs current parameters | refuted by an assignment; true after a fit |
| C119 | exceptions during calibration | training with state on exceptions; refuted; invariant of the architecture |
| C120 | norm and number of network parameters | layout of the parameter vector, sums of squares |
| C121 | crash points of a save | steps of the save, all prefixes; refuted |
| C122 | concurrent saves | all interleavings; invariant on the last opener; refuted for one file |
| C123 | loss plots | exact panels; refuted |
| C124 | run numbers of loss plots | exact behaviour for a listing; refuted by permutation |
| C125 | quadrature | trapezoid error per cell by induction over the grid, uniform continuity of the tensor on a square, convergence in the order p1, N |
| C126 | quadrature | the same for the three integrals of the coherence, continuity of the quotient |
| C127 | quadrature | refuted by a learnable spectrum (p = 4, q = 0): the cells next to zero never shrink |
| C128 | low-frequency | refuted: polar coordinates reduce the variance to an angular integral, a quadratic lower bound of (1+y)^(-1/2) makes it exceed 2; exact at 45 degrees |
| C129 | low-frequency | the same reduction with weights sin^2 and cos^2, quadratic upper bound of y (1+y)^(-1/2) |
| C130 | low-frequency | averages over white ensembles commute with the Fourier sums; Riemann sums of a continuous even integrand |
| C131 | low-frequency | pixel geometry of the transposed array and extrema of folds |
| C132 | exported file | index arithmetic of raveled arrays, shape invariant of the accumulated field over histories |
| C133 | sharing of parameter storage | invariant over sessions (buffers of problems distinct and not held by the user), counterexample for torch tensors |
| C134 | vectors read are snapshots | invariant over sessions |
| C135 | eddy-lifetime figure | pointwise evaluation, unit directions |
| C136 | abscissa of that figure | injectivity of the power law |
| C137 | early stop | invariant over optimiser strategies, concrete run of Adam |
| C138 | value of the loss | explicit formula, all switches |
| C139 | documented misfit | refuted; ratio to the documented value |
| C140 | noise | streams of draws, bijection of draw numbers |
| C141 | delivered values | pointwise form of the block theorem |
| C142 | two-point covariance | impulse responses of the half-spectrum transform, orthogonality, full turns between angle and physical phase |
| C143 | low-frequency content | interpolation inside cells and outside the grid, combined with C141 |
| C144 | mesh study | shapes of fields against shapes of the accumulators, pool of processes |
| C145 | domain study | as C144; stable sort of the completed tasks |
| C146 | schedules | permutations of completed tasks, sort by a unique key; counter-example with a counting source |
| C147 | variances of averaged fields | expansion in impulse responses, white noise, diagonal of the covariance |
| C148 | printed variances | one-dimensional spectrum and Parseval's identity |
| C149 | averaged variances | as C147, mean field non-negative |
| C150 | anisotropy study | extremes of lists, dictionaries |
| C151 | `setSamplingMethod` | decomposition of the constructor, equality of the resulting objects |
| C152 | constructor with other numbers of dimensions | numpy broadcasting on shapes |
| C153 | `Mann` in `common.py`, `EddyLifetime` | Euler integral, hypergeometric series by a differential equation, limits |
| C154 | `TauNet`, `Rational` | homogeneity of rectified networks, norms of the layers, counterexamples |
| C155 | energy spectrum of a fresh problem | limits of power laws, uniqueness of slopes |
| C156 | `generate_von_karman_spectra` against `forward` with the von Karman energy and no shear | exchange of integrations, radial integrals over squares by differentiation in the half-width |
| C157 | `forward` and the clipping in `PowerSpectra` at large k1 | bounds of quadrature sums |
| C158 | sampler of `VectorGaussianRandomField`, calibration quadrature and von Karman data for large cross sections | midpoint rule on the DFT wave numbers |
| C159 | `recreate_fig2` with analytical and estimated spectra | induction on realisations, argmin and argmax over lists, expectations of shifted streams |
| C160 | `length_AND_grid_size_study`, `rectangular_domain_study` | induction over cells threading the random state, expectations as C149 |
| C161 | `forward`, `SpectralCoherence`, `MSE_term` as functions of the parameters | continuity calculus over uniform spaces, induction over grids and layers, extreme value theorem; a jump at vanishing shear from the sign of the uw entry on k3 = 0 |
| C162 | the two `numba.prange` loops | per-iteration invariant preserved by every step of every iteration; exact count of remaining steps |
| C163 | constructors of covariance kernels, `Covariance.eval` | case analysis on keyword lists, induction for unknown keywords |
| C164 | which parameters torch lists for a network, construction, forward pass on the current values, any history of changes (RegModel) | induction over attributes and histories, witness with PReLU |
| C165 | `analytical_spectrum` (LowModel) | comparison of integrands with powers, completeness of R |
| C166-C169 | devices and precisions of tensors: `init_device`, constructor, `parameters` getter/setter, `calibrate` up to its precision checks, `save_model`, both unpicklers, DRD branch of the generator (DevModel.v) | invariant (one precision, one device, sizes of the configuration) by induction over histories |
| C170-C174 | grids, buffers, wave numbers, positions, heights and profiles with IEEE binary64 rounding after every operation (FloModel.v) | relative error calculus over Flocq's rounding; cases computed to the last bit |
| C175 | the noise windows of successive blocks, the sampler and the crop of the centre (GenModel.v, DftModel.v) | linearity: every block is a sum of responses to single draws; second moments of the draws |
| C176 | all `add_scalar` calls of the loss terms and ratios (LogModel.v) | transparency by induction over histories; case analysis of the terms |
| C177 | records of `calibrate` with an arbitrary optimiser (LogModel.v) | induction over optimiser steps and epochs, grouping of records |
| C178 | `plot_loss_logs` applied to the records (LogModel.v, ProbModel.v) | series equal the histories up to the initial evaluation |
| C179 | directory of the writer (LogModel.v) | computation, cancellation of strings |
| C180 | balancing attributes of the aggregator (EnvModel.v) | non-interference by induction over histories |
| C181 | `int(os.environ.get(…))` and the constructor of the generator (EnvModel.v, GenModel.v) | induction over digits, against the standard library's decimal numerals |
| C182 | default of `output_directory`, `save_model`, saved figures, `os.chdir` (EnvModel.v, CalModel.v) | invariant: directories persist in every history |
| C183 | relative and empty directory names (EnvModel.v) | computation over file systems |
| C184 | `get_loss_diagnostics`, `should_adjust_learning_rate` (LossModel.v) | evaluation over the reals, first maximum by case analysis |
| C185 | the same, after any history of `eval` | histories of a switched-off term vanish by induction |
| C186 | autograd's derivatives of `OnePointSpectra.forward`, all lifetimes, networks (AutoModel.v) | each operation tracks value and derivative, composition by induction over grids and layers; Mann's lifetime by the strict monotonicity of the missing factor |
| C187 | autograd's derivative of `LossAggregator.eval` (AutoModel.v) | the same, through the penalties; the derivative of the misfit determines that of the spectrum |
| C188 | `SpectralCoherence`, graphs kept in the module (GraphModel.v) | induction over histories |
| C189 | `LossAggregator.eval` of curves of `OnePointSpectra.forward`, as a function of the magnitude | linearity of unclipped densities, sums of logarithms |
| C190 | data_generator.py L53-88; low_frequency/fluctuation_field_generator.py L744-892: element types of the arrays results are stored in. Not modelled: overflow of integers; conversion of NaN to an integer is left open | bounds on the four Kaimal functions (Bernoulli's inequality) and on the integrands, truncation towards zero |
| C191 | one-point and coherence quadratures, lifetimes and loss, all modelled before | homogeneity of the tensor (degree -2 in wave numbers), scaling of trapezoid sums, lower bound by the node at the origin, induction over the history of coherence evaluations |
| C192 | one-point and coherence quadratures, loss and Kaimal data, all modelled before | linearity of the tensor, bounds on trapezoid sums, induction over the history of coherence evaluations |
| C193 | STORM_fitting/dry_run.py L25-53; STORM_fitting/script_fit_coh.py L18-47. Not modelled: comments, blank lines and text in the file; the fit itself is that of the calibration model | case analysis on the shape of the file |
| C194, C195 | top-level statements of all 22 files of drdmannturb/, `import`, `from ... import`, `from ... import *`, sys.modules, failed modules. Not modelled: the standard library, exceptions raised by definitions, installation of the package | invariant: with all libraries a session has six states; names outside the tables by a membership argument; missing libraries by reduction to the subsets of nine |
| C196 | import statements of examples/*.py and STORM_fitting/fit_for_profiling.py; examples-unrendered/IsotropicTurbulence/IsotropicTurbulence.py L25-116; examples-unrendered/UniformShear/UniformShear.py L29-165. Not modelled: the numerical part of the two constructors (its outcome is an argument) | case analysis |
| C197 | spectra_fitting/eddy_lifetime.py: construction, attributes, calls of derived classes | invariant of the two attribute tables over assignment histories; resolution of `forward` by induction on the line of classes |

Nothing in the list is considered inexpressible; what is left out of each statement is recorded in the
`note` of `MANIFEST.json` and in the comments of the model.

## Findings: properties that are false of the code

104 of the 197 properties are false of the faithful model. For each of them the theorems below are the
counterexample (an existential witness, or a proof for all inputs that the code does something else);
the strongest true companions are listed with them in MANIFEST.json, where the note says what goes
wrong. These properties have status "partial" because the full statement cannot be proved of this
code; no proof is unfinished.

| Property | Statement that fails | Theorems |
|---|---|---|
| C05 | uv and vw one-point spectra of the delivered model vanish | `C05_uv_vw_vanish_refuted` |
| C07 | Simulation kernel yields a real field | `C07_low_refuted`, `C07_refuted` |
| C14 | Mann approximation applies the physical scales once | `C14_mann_approximation_scales_once_refuted`, `C14_time_scale_refuted` |
| C16 | Initial scales are the user's scales (stand-alone spectra model) | `C16_standalone_scales_refuted` |
| C23 | Calibration can be run without a learnable energy spectrum | `C23_calibrate_without_learnable_spectrum_refuted` |
| C26 | Saving one model does not destroy another | `C26_same_directory_refuted` |
| C35 | Custom data loader loads valid files | `C35_valid_file_refuted` |
| C36 | Domain parameters can be constructed | `C36_construction_refuted` |
| C38 | Zero time scale is handled | `C38_refuted` |
| C41 | A rejected generate call has no effect | `C41_refuted` |
| C45 | Log-law profile hits the reference speed | `C45_refuted` |
| C49 | Discrete field is spectrally divergence free | `C49_refuted` |
| C51 | A seed determines the combined 2D+3D field | `C51_refuted` |
| C54 | Low-frequency coordinates match the field | `C54_refuted` |
| C55 | Low-frequency kernel is incompressible in the plane | `C55_refuted` |
| C57 | Low-frequency contribution is continuous between generate calls | `C57_refuted` |
| C58 | Numerical low-frequency spectrum is non-negative and accounts for all wave numbers | `C58_refuted` |
| C59 | Coherence data file is read into the right cells | `C59_cells_refuted`, `C59_one_based_file_refuted` |
| C60 | Plot panels show the matching data | `C60_drawn_stored_refuted`, `C60_stored_data_panels_refuted` |
| C61 | Generation evaluates the network as training did | `C61_simulated_lifetime_is_fitted_refuted` |
| C62 | Mean profile heights match grid heights | `C62_refuted` |
| C66 | Network settings of the user reach the network | `C66_settings_reach_network_refuted` |
| C67 | Coherence prediction depends only on the current parameters | `C67_coherence_memoryless_refuted` |
| C71 | Generated data matrices are symmetric | `C71_kaimal_refuted` |
| C72 | The simulated DRD tensor has the fitted amplitude | `C72_drd_amplitude_refuted` |
| C73 | Spectral divergence diagnostic is available | `C73_get_div_available_refuted` |
| C74 | Reading the spectral tensor again gives the same tensor | `C74_power_spectra_repeatable_refuted` |
| C75 | Coherence integration settings are honoured | `C75_coherence_grid_honoured_refuted` |
| C78 | Regularisation weight is harmless without a network | `C78_regulariser_without_network_refuted` |
| C83 | The gradient used in training is the gradient of the reported loss | `C83_gradient_with_coherence_refuted` |
| C84 | A saved file determines the model | `C84_saved_file_determines_spectra_refuted` |
| C85 | Adaptive learning-rate schedule reacts to imbalance | `C85_adaptive_schedule_reacts_refuted` |
| C86 | Six-component calibration on generated data succeeds | `C86_kaimal_six_refuted`, `C86_von_karman_refuted` |
| C88 | Noise initialisation is usable | `C88_noise_initialisation_refuted` |
| C90 | Parameter sensitivities can be evaluated | `C90_parameter_sensitivity_refuted` |
| C92 | Accepted generate calls give numbers | `C92_infinite_refuted`, `C92_refuted` |
| C93 | The generated field is one realisation up to one scale factor | `C93_refuted` |
| C95 | Sampling methods are interchangeable | `C95_refuted` |
| C96 | The low-frequency field covers the requested domain | `C96_refuted` |
| C99 | Plotting without reformatting shows the same field | `C99_refuted` |
| C100 | Every documented sampling method delivers a field on the grid | `C100_refuted` |
| C101 | Vector fields can be sampled without giving noise | `C101_refuted` |
| C102 | Noise is scaled by the cell volume | `C102_refuted` |
| C103 | A rejected sampling method leaves the field unchanged | `C103_refuted` |
| C104 | Default grid shape is usable | `C104_refuted` |
| C106 | grid_dimensions determine the domain | `C106_refuted` |
| C107 | The chosen optimiser is used | `C107_refuted` |
| C108 | A stationary point of the loss is kept | `C108_refuted` |
| C110 | Giving model values to plot does not change the figure | `C110_refuted` |
| C111 | plot reports missing data as documented | `C111_flat_refuted`, `C111_refuted` |
| C112 | Coherence figure shows the calibrated model | `C112_refuted` |
| C114 | Energy scale and friction velocity set the size of the fluctuations | `C114_fitted_refuted`, `C114_refuted` |
| C116 | Variance of a sampled field does not depend on the resolution | `C116_refuted` |
| C118 | Stored fit describes the model | `C118_refuted` |
| C119 | A failed calibration leaves the problem as it was | `C119_refuted` |
| C121 | Saving over an older model is all or nothing | `C121_refuted` |
| C122 | Concurrent saves do not damage each other | `C122_same_file_refuted` |
| C123 | Loss plots show every recorded value | `C123_refuted`, `C123_single_term_refuted` |
| C124 | Run number selects the run | `C124_refuted` |
| C127 | More grid points suffice for accuracy | `C127_points_alone_refuted` |
| C128 | The low-frequency field has the configured variance | `C128_refuted` |
| C133 | Problems do not share parameters | `C133_refuted` |
| C136 | Abscissa of the eddy-lifetime figure | `C136_refuted` |
| C137 | Stopping below the tolerance means a fit below the tolerance | `C137_refuted` |
| C139 | The misfit is the documented one | `C139_refuted` |
| C143 | Low-frequency content in all of a generated field | `C143_refuted` |
| C144 | The mesh study shows every requested mesh | `C144_mesh_study_refuted` |
| C145 | The domain study shows every requested size | `C145_domain_study_refuted` |
| C146 | The domain study does not depend on scheduling | `C146_processes_refuted` |
| C147 | Variances shown by the domain study | `C147_domain_variances_refuted` |
| C148 | Variance printed from the spectrum | `C148_printed_variances_refuted` |
| C150 | The anisotropy study shows and reports each angle | `C150_single_angle_refuted` |
| C154 | Asymptotics of learned lifetimes | `C154_finite_refuted`, `C154_slopes_refuted` |
| C155 | Requested slopes of the energy spectrum | `C155_requested_refuted` |
| C157 | Spectra decay at large wave numbers | `C157_decay_refuted` |
| C158 | Sampled fields have the calibrated spectrum | `C158_scale_refuted` |
| C159 | Figure 2 compares like with like | `C159_highest_refuted`, `C159_single_refuted` |
| C161 | Spectra depend continuously on the parameters | `C161_uw_refuted` |
| C163 | Kernels keep their settings and evaluate the user's function | `C163_documented_name_refuted` |
| C164 | Every trainable number of a network takes part in a fit | `C164_activation_refuted` |
| C166 | A model saved on one machine can be read on another | `C166_refuted` |
| C167 | A saved model can be used to generate fields | `C167_cuda_refuted`, `C167_single_refuted` |
| C168 | Data can be given in single and in double precision | `C168_refuted`, `C168_reloaded_refuted` |
| C169 | The device is the requested one and other problems are unaffected | `C169_cpu_refuted`, `C169_defaults_refuted`, `C169_later_refuted`, `C169_unavailable_refuted` |
| C170 | The low-frequency grid is right in double precision | `C170_checks_refuted`, `C170_smallest_refuted` |
| C171 | Buffers and margins are right in double precision | `C171_enough_refuted`, `C171_least_refuted` |
| C177 | TensorBoard records are per epoch | `C177_duplicate_refuted`, `C177_refuted` |
| C178 | Curves of a loss plot at the same abscissa belong to the same evaluation | `C178_refuted` |
| C179 | A comment distinguishes the logs of different runs | `C179_refuted` |
| C180 | Losses can be balanced automatically | `C180_refuted` |
| C181 | Every valid OMP_NUM_THREADS is accepted | `C181_refuted` |
| C182 | By default a model is saved below ./results | `C182_missing_refuted`, `C182_refuted` |
| C183 | All models of a problem are saved in one directory | `C183_empty_refuted`, `C183_refuted` |
| C185 | A training in which nothing is wrong keeps its learning rate | `C185_refuted` |
| C186 | Derivatives of spectra reported by autograd are their derivatives | `C186_lifetime_refuted`, `C186_spectra_refuted` |
| C187 | Calibration follows the gradient of its loss | `C187_loss_refuted` |
| C188 | Every coherence computed with gradients can be differentiated | `C188_repeat_refuted` |
| C190 | Generated data depend on the wave numbers, not on their element type | `C190_refuted` |
| C191 | Predictions and fits do not depend on the unit of length | `C191_refuted` |
| C192 | Predictions and fits follow the unit of velocity | `C192_refuted` |
| C193 | The storm scripts fit every measured value in its place | `C193_dry_run_refuted`, `C193_refuted` |
| C194 | Every published name can be imported | `C194_refuted` |
| C196 | The example programs run | `C196_refuted` |
| C197 | A user-defined eddy lifetime is a torch module | `C197_refuted` |

## Parts of the code not modelled

* matplotlib/plotly layout (colours, axes, labels), byte format of VTK and TensorBoard files (what is recorded is modelled, C176-C178);
* torch autograd outside the one-point spectra and the loss (whether a tensor is tracked is modelled everywhere; values of derivatives only in C186 and C187, as directional derivatives composed of the documented formula of every operation; lifetime of graphs only in C188), and the L-BFGS update itself: an arbitrary step function stands
  for the optimiser in all theorems about calibration; of Adam the first step (C108) and whole histories of accepted steps (C137) are modelled;
* floating point rounding, except in the grids, buffers, wave numbers, positions and profiles of C170-C174, where every operation is followed by the rounding of IEEE binary64 (without overflow; all other theorems are about exact numbers); GPU computation (only on which device and in which precision tensors are, C166-C169), numba compilation (the two parallel loops are modelled with every interleaving, C162);
* the statistical distribution of random numbers (covariances are stated as identities of the linear sampling map
  applied to unit noise);
* that scipy's `hyp2f1` and the numba integration used by Mann's lifetime compute the hypergeometric function (an argument of the model; C153 assumes it equals Euler's integral, proved equal to the series in the unit disc);
* the values computed by scipy.fft's sine and cosine transforms (only the array shapes of these methods, C100);
* of the study scripts in `low_frequency/large_plot.py`: only layout (colours, axes) is
  left out.  Modelled are the mesh, domain and anisotropy studies with their worker processes (C144-C147, C150), the
  printed variances of `plot_spectra_comparison` (C148), the averaged variances (C149), `recreate_fig2` (C159), the
  study over lengths and grid sizes and the study of rectangles (C160).

## Assumptions per theorem

What `Print Assumptions` lists for each of the 611 property theorems. All are axioms of Coq's standard library:
`sig_forall_dec`, `sig_not_dec` (ClassicalDedekindReals), `functional_extensionality_dep` (FunctionalExtensionality),
`classic` (Classical_Prop).

* none (closed under the global context): C21_network_accepts_documented, C21_network_layers_chain, C21_network_parameter_count, C73_get_div_available_refuted, C20_order_of_entries, C20_network_block_length, C25_saved_file_holds_the_problem, C25_usable_directory_succeeds, C25_failure_writes_nothing, C26_same_directory_refuted, C26_distinct_type_or_directory, C59_separation_major_files, C59_incomplete_files, C60_stored_data_panels_refuted, C60_given_data_panels, C60_stored_data_panels_fewer, C64_selected_separations, C90_parameter_sensitivity_refuted, C35_valid_file_refuted, C35_missing_column, C35_missing_file, C36_construction_refuted, C36_wrong_length, C69_periodic_filters, C53_any_sizes, C53_rejects_small, C63_format, C63_bijection, C107_refuted, C107_exact_partial, C112_initial_partial, C113_names, C113_default_names, C113_no_directory, C121_refuted, C121_crash_states_partial, C121_never_a_third_model_partial, C121_completed_partial, C122_distinct_files, C122_same_content, C122_same_file_refuted, C122_sequential, C123_refuted, C123_single_term_refuted, C123_panels_partial, C124_refuted, C124_listed_partial, C124_errors_partial, C133_refuted, C133_partial, C134_snapshot, C140_once, C140_none_skipped, C159_none, C166_processor_partial, C166_gpu_partial, C166_fails, C178_panels_partial, C179_refuted, C179_default_partial, C181_number_partial, C181_foreign_partial, C181_exact_partial, C182_refuted, C182_missing_refuted, C182_import_partial, C182_after_figure_partial, C182_figure_partial, C183_refuted, C183_empty_refuted, C183_one_save_partial, C188_repeat_partial, C188_first_partial, C188_repeat_refuted, C188_once, C194_refuted, C194_names_partial, C194_star_partial, C194_definitions_partial, C194_reexports_partial, C195_any_order, C195_every_file, C195_attributes, C195_libraries, C195_retry, C196_refuted, C196_imports_partial, C196_field_partial, C196_errors_partial, C197_refuted, C197_value_partial, C197_construct_partial, C197_scales_partial

* `ClassicalDedekindReals.sig_forall_dec`: C20_read_write, C20_write_read, C20_wrong_length_raises, C25_reload_restores, C59_axes, C83_value, C69_no_seam, C103_partial, C105_reseed, C105_stream, C105_given_noise, C111_wave_numbers_partial, C193_dry_run_refuted

* `ClassicalDedekindReals.sig_forall_dec`, `FunctionalExtensionality.functional_extensionality_dep`: C17_rule_linear, C17_rule_monotone, C17_rule_exact_on_bilinear, C17_rule_reflection_invariant, C66_settings_reach_network_refuted, C66_settings_ignored, C66_built_partial, C28_regulariser, C31_average_within_range, C79_scales_bounded, C79_first_call_normalises, C79_scales_kept_between_updates, C81_coherence_misfit, C81_missing_data_raises, C32_three_phase_range, C32_three_phase_non_increasing, C32_three_phase_ends, C59_cells_refuted, C59_one_based_file_refuted, C85_adaptive_schedule_reacts_refuted, C85_supplied_history, C85_supplied_history_bounded, C87_model_coherence_per_frequency, C37_buffers_cover, C47_affine, C47_linear, C47_profile_blind, C47_rejection, C57_positions_partial, C62_refuted, C62_partial, C07_default_rows_even, C52_grid, C52_only_positive, C56_bilinear_formula, C56_nodes, C56_exact_on_bilinear, C56_range, C56_surrounding_nodes, C56_zero_outside, C56_before_generate, C63_grid, C63_components, C99_values_interleaved, C110_refuted, C110_factor_partial, C110_units_partial, C110_data_partial, C111_refuted, C111_flat_refuted, C111_success_partial, C111_components_partial, C60_drawn_given, C60_drawn_stored_partial, C60_drawn_stored_refuted, C115_generator_extents, C132_grid_array, C154_small_weights_partial, C160_square_cells, C162_estimates_finish, C163_stored, C163_rejected, C163_called_partial, C163_documented_name_refuted, C163_missing, C163_learned_kernel, C164_listed_partial, C164_counted_partial, C164_built, C164_reachable_partial, C164_frozen, C184_components

* `ClassicalDedekindReals.sig_forall_dec`, `ClassicalDedekindReals.sig_not_dec`, `FunctionalExtensionality.functional_extensionality_dep`: C32_advice_defined, C32_advice_never_increases, C32_no_advice_before_window, C32_stagnation_rule, C32_window_one_asserts, C83_gradient_with_coherence_refuted, C83_gradient_without_coherence, C07_nothing_dropped_odd_partial, C48_linear, C48_zero, C48_shift, C48_grid_only, C48_real, C49_regular_modes_partial, C49_odd_grids_partial, C94_stationary, C94_covariance, C95_factor, C95_refuted, C58_non_negative, C58_estimate_partial, C58_sum_rule_partial, C63_magnitude, C99_short_fields_raise, C99_refuted, C100_refuted, C100_outcomes, C100_vector_partial, C101_refuted, C101_given_noise_partial, C101_components_partial, C102_per_axis, C102_refuted, C103_refuted, C104_refuted, C106_per_axis, C106_refuted, C151_selected_later, C151_selected_later_vector, C152_three_dimensions, C108_refuted, C108_bound_partial, C109_start, C116_cell_factor_partial, C120_network_norm, C120_needs_network, C162_estimates, C184_rules, C184_diagnostics, C185_all_terms_partial, C193_refuted, C193_entries_partial, C193_accepted_partial

* `ClassicalDedekindReals.sig_forall_dec`, `ClassicalDedekindReals.sig_not_dec`, `Classical_Prop.classic`, `FunctionalExtensionality.functional_extensionality_dep`: C01_fit_tensor_is_simulation_covariance, C01_mann_kernel_matches_calibration, C02_mann_kernel_divergence_free, C02_drd_kernel_divergence_free, C03_tensor_positive_semidefinite, C03_tensor_schwarz, C04_tensor_mirror, C06_tensor_isotropic_limit, C06_kernel_isotropic_limit, C07_mann_kernel_hermitian, C07_vk_kernel_hermitian, C07_sheared_kernel_hermitian, C08_vk_kernel_divergence_free, C08_vk_kernel_covariance, C09_tensor_linear, C65_kernel_solves_rapid_distortion, C65_kernel_initial_state, C70_fitted_tensor_divergence_free, C10_energy_spectra_agree, C10_energy_positive_below_inertial, C10_ratio_increasing, C10_ratio_towards_one, C11_lifetime_ignores_signs, C12_rational_head_positive, C12_rational_head_bounded, C12_rational_head_lower, C12_rational_head_two_thirds, C12_rational_head_zero_argument, C13_two_thirds_homogeneous_in_k, C13_two_thirds_homogeneous_in_L, C13_linear_in_time_scale, C13_constant_lifetime, C14_mann_approximation_scales_once_refuted, C14_mann_approximation_factor, C15_calibration_scales, C15_calibration_scales_rejected, C16_standalone_scales_refuted, C16_standalone_scales_only_unit, C22_forward_shape_correct, C22_zero_weights_rational_law, C61_simulated_lifetime_is_fitted_refuted, C61_simulated_lifetime_unit_length_scale, C04_integrated_cross_spectra_vanish, C05_uv_vw_vanish_refuted, C05_uv_vw_spurious_level, C09_one_point_spectra_linear, C09_auto_spectra_nonnegative, C17_grid_sound, C18_auto_spectra_positive, C18_output_rows_positive, C19_coherence_in_unit_interval, C19_every_evaluation, C67_coherence_memoryless_refuted, C67_memoryless_with_own_grid, C72_drd_amplitude_refuted, C72_drd_amplitude_factor, C72_factor_is_one_iff, C74_power_spectra_repeatable_refuted, C74_repeated_calls_decay, C75_coherence_grid_honoured_refuted, C76_clipping_error_bounded, C77_tensor_similarity, C27_misfit_proper, C27_misfit_raises_exactly, C27_misfit_otherwise, C27_misfit_scale_invariant, C27_misfit_symmetric, C28_first_order_penalty, C28_second_order_penalty, C29_histories_are_successful_evaluations, C29_raising_leaves_state, C29_returned_total, C30_ratios_partition_unity, C30_ratios_are_shares, C31_running_averages, C78_regulariser_without_network_refuted, C80_loss_info_is_last_evaluation, C23_calibrate_without_learnable_spectrum_refuted, C23_no_epochs_no_failure, C23_learnable_spectrum_no_attribute_error, C24_at_most_nepochs_steps, C24_stops_and_returns_positive_scales, C24_nonfinite_loss_raises, C82_training_compares_like_with_like, C84_saved_file_determines_spectra_refuted, C88_noise_initialisation_refuted, C89_constructor_accepts, C89_constructor_rejects_components, C89_constructor_rejects_scales, C89_log_scales, C33_signs, C33_published_formulas, C33_friction_velocity, C33_similarity, C33_one_matrix_per_wave_number, C34_physical, C34_published_formulas, C34_isotropy, C34_magnitude, C34_length_scale, C34_zero_length_raises, C34_one_matrix_per_wave_number, C71_kaimal_refuted, C71_von_karman, C86_kaimal_six_refuted, C86_von_karman_refuted, C86_three_components_finite, C91_kaimal_coherent, C37_block_shape, C38_refuted, C39_content, C39_noise_is_one_stream, C39_noise_of_last_block, C40_appends, C40_rows, C41_refuted, C41_partial, C42_rejection, C42_zero_block, C43_energy_and_profile, C43_magnitude_free, C44_reference, C44_ground, C44_increasing, C45_refuted, C46_ground, C46_increasing, C46_near_target, C46_reversed_below_roughness, C50_seed, C57_refuted, C57_within_a_call_partial, C68_calls_compose, C92_refuted, C92_infinite_refuted, C92_partial, C93_refuted, C93_only_for_equal_energies, C07_refuted, C37_concrete_sampler, C37_concrete_usable, C48_roll, C49_kernels_solenoidal, C49_refuted, C94_odd_grids, C07_low_kernel_hermitian, C07_low_coefficients_partial, C07_low_refuted, C51_refuted, C51_partial, C51_global_state_advances, C53_window, C54_positions_partial, C54_equal_spacing_partial, C54_refuted, C55_kernel, C55_zero_mode, C55_even_amplitude, C55_zero_mean, C55_field_partial, C55_refuted, C58_refuted, C96_refuted, C97_kernel_matches_analytical, C97_integrand_is_model_spectrum, C97_covariance, C98_variance, C98_shape, C109_schedule, C109_range, C112_refuted, C114_refuted, C114_fitted_refuted, C114_sampler_partial, C115_streamwise_spectrum, C115_fitted_tensor, C116_refuted, C117_raises_until_fit, C117_prints_latest_fit, C117_returned_values, C118_refuted, C118_after_fit_partial, C118_quiet_partial, C118_assigned_partial, C119_refuted, C119_kept_partial, C125_unclipped_converges, C125_output_close, C125_output_limit, C125_lifetimes_continuous, C125_energy_continuous, C126_coherence_converges, C127_points_alone_refuted, C128_refuted, C128_isotropic_partial, C129_anisotropy, C130_estimates_defined, C130_mean_estimate, C130_estimates_converge, C131_not_generated, C131_figure, C132_export, C135_curves, C135_drawn, C135_coincide, C135_reference, C136_exact_partial, C136_refuted, C137_refuted, C137_behind_partial, C137_settled_partial, C138_value, C139_refuted, C139_ratio_partial, C140_noise, C140_sizes, C141_values, C142_any_size, C142_odd, C143_value_partial, C143_refuted, C144_mesh_study_refuted, C144_single_run_partial, C145_domain_study_refuted, C145_sizes_partial, C145_defaults_partial, C146_processes_refuted, C146_completion_order_partial, C146_one_process_each_partial, C147_domain_variances_refuted, C147_run_partial, C147_curves_partial, C148_printed_variances_refuted, C148_balance_partial, C149_delivered, C149_computational, C149_defined, C150_single_angle_refuted, C150_several_angles_partial, C153_series, C153_bounds, C153_decreasing, C153_inertial_law, C153_large_scale_law, C153_continuous, C154_slopes_partial, C154_built_partial, C154_slopes_refuted, C154_finite_refuted, C155_requested_partial, C155_learnable, C155_requested_refuted, C125_network_continuous, C156_exact_integral, C156_quadrature, C156_output, C156_identify, C157_decay_refuted, C157_bounds_partial, C158_mann_density, C158_calibrated_partial, C158_von_karman_partial, C158_scale_refuted, C159_estimates, C159_curves, C159_printed, C159_unbiased_partial, C159_highest_partial, C159_highest_refuted, C159_single_refuted, C160_table, C160_cells, C160_rectangles, C160_reports, C160_uncropped, C161_rows_partial, C161_uw_partial, C161_uw_refuted, C161_coherence, C161_closed_forms, C161_network, C161_misfit, C161_best_fit, C162_kernel, C162_kernel_finish, C164_determined_partial, C164_activation_refuted, C165_truncation, C165_limit, C165_small, C165_angle_zero, C166_refuted, C167_precision, C167_usable, C167_double_partial, C167_values, C167_single_refuted, C167_cuda_refuted, C168_fits_partial, C168_refuted, C168_reloaded_refuted, C169_defaults_partial, C169_defaults_refuted, C169_cuda_partial, C169_cpu_refuted, C169_others_partial, C169_unavailable_refuted, C169_later_refuted, C170_grid_partial, C170_checks_refuted, C170_smallest_refuted, C171_buffer_partial, C171_enough_refuted, C171_least_refuted, C172_mirror, C172_close, C172_order, C172_side, C172_low_mirror, C172_low_close, C172_low_order, C173_positions, C173_order, C174_heights, C174_heights_order, C174_ends, C174_power_reference, C174_power, C174_log, C175_within, C175_shared, C175_far, C175_centred, C176_transparent, C176_sum, C176_tags, C176_failed, C176_ratios, C177_refuted, C177_duplicate_refuted, C177_evaluations_partial, C178_refuted, C178_penalties_partial, C180_refuted, C181_refuted, C181_same_field_partial, C185_refuted, C186_spectra_partial, C186_relu_partial, C186_lifetime_refuted, C186_spectra_refuted, C187_loss_partial, C187_loss_refuted, C189_magnitude, C189_balanced, C189_unique, C161_best_fit_many, C161_mann_fit, C161_loss_fit, C190_refuted, C190_kaimal_partial, C190_floats_partial, C190_fractions_partial, C190_analytical_partial, C191_refuted, C191_spectra_partial, C191_lifetime_partial, C191_coherence_partial, C191_loss_partial, C191_fit_partial, C191_kaimal_partial, C191_von_karman_partial, C192_refuted, C192_spectra_partial, C192_coherence_partial, C192_fit_partial, C192_kaimal_partial, C14_time_scale_refuted, C14_fit_partial, C14_delivered_partial

## Seeded errors

`seeded/LOG.jsonl` records edits made to copies of the model, each a realistic bug.

- `theorems_failed` lists the theorems whose proofs no longer compile after the edit.
  A proof can stop compiling although its statement is still true of the edited model.
  The entry therefore names the claim the edit breaks as well (`claim_broken`).
- `first_failing_lemmas` names the first lemmas that failed, where they were recorded.
- `theorems_tightened` lists theorems that were added or strengthened because the edit had gone unnoticed.
  In that case the same edit was tried again, under the same id with `r` appended.
- Entries `mf01` to `mf11` were run against the files of C14 only, not against the whole build.
