{"id": "C01", "title": "Fitted tensor and simulated tensor agree", "statement": "The covariance G(k) G(k)^H of the spectral kernel used to simulate a Mann field is the spectral tensor Phi(k) that calibration integrates (before its positivity clipping): all six independent entries coincide for the same wave vector, eddy lifetime, length scale and energy scale.", "quantifier": "every wave vector with k1 != 0 and nonzero distorted wave vector, every eddy-lifetime value, every positive length and energy scale", "why_tests_cant": "Needs an identity of real-analytic expressions at every wave vector; a test samples a few points with tolerance and never compares the two modules.", "anchors": ["drdmannturb/spectra_fitting/one_point_spectra.py:OnePointSpectra.PowerSpectra", "drdmannturb/fluctuation_generation/covariance_kernels.py:MannCovariance.precompute_Spectrum"]}
{"id": "C02", "title": "Simulated Mann field is incompressible mode by mode", "statement": "Every column of the Mann simulation kernel is orthogonal to its wave vector (k . G(k) = 0), so every Fourier mode of the continuous field is divergence free, including on the degenerate wave vectors k1 = 0, k1 = k2 = 0 and k = 0 where the closed form divides by zero and nan_to_num takes over.", "quantifier": "every real wave vector (no exclusion) and every eddy-lifetime value", "why_tests_cant": "The degenerate planes are measure zero and the identity is needed exactly at every mode of every grid size.", "anchors": ["drdmannturb/fluctuation_generation/covariance_kernels.py:MannCovariance.precompute_Spectrum"]}
{"id": "C03", "title": "Spectral tensor is positive semi-definite", "statement": "The unclipped spectral tensor used in calibration is a positive semi-definite symmetric 3x3 matrix at every wave vector: the auto-spectra are non-negative and every 2x2 minor and quadratic form is non-negative (so |Phi_ij|^2 <= Phi_ii Phi_jj).", "quantifier": "every wave vector with k1 != 0 and nonzero distorted wave vector, every eddy lifetime, non-negative energy density, every real test vector", "why_tests_cant": "Universally quantified inequality over a continuum with three extra free parameters.", "anchors": ["drdmannturb/spectra_fitting/one_point_spectra.py:OnePointSpectra.PowerSpectra"]}
{"id": "C04", "title": "Spanwise mirror symmetry of the tensor", "statement": "Flipping the sign of k2 leaves Phi11, Phi22, Phi33 and Phi13 unchanged and negates Phi12 and Phi23 (before clipping), so that the uv and vw one-point cross-spectra of the unclipped model integrate to exactly zero on the symmetric quadrature grid.", "quantifier": "every wave vector, every eddy lifetime that is even in k2, every symmetric k2 grid of any size", "why_tests_cant": "Statement about all grids and all wave vectors; floating point tests cannot separate an exact zero from cancellation.", "anchors": ["drdmannturb/spectra_fitting/one_point_spectra.py:OnePointSpectra.PowerSpectra", "drdmannturb/spectra_fitting/one_point_spectra.py:OnePointSpectra.quad23", "drdmannturb/spectra_fitting/one_point_spectra.py:OnePointSpectra.__init__"]}
{"id": "C05", "title": "uv and vw one-point spectra of the delivered model vanish", "statement": "The uv and vw one-point cross-spectra returned by the model are zero, as the mirror symmetry of the spectral tensor requires.", "quantifier": "every k1 > 0 and every admissible parameter set", "why_tests_cant": "The positivity clipping acts on every grid node; whether the sum cancels depends on the whole grid.", "anchors": ["drdmannturb/spectra_fitting/one_point_spectra.py:OnePointSpectra.PowerSpectra", "drdmannturb/spectra_fitting/one_point_spectra.py:OnePointSpectra.forward"]}
{"id": "C06", "title": "Isotropic limit", "statement": "With zero eddy lifetime (no shear) the spectral tensor of calibration and the Mann simulation kernel reduce to the incompressible isotropic von Karman tensor E/(4 pi k^4) (k^2 delta_ij - k_i k_j).", "quantifier": "every wave vector with k1 != 0, every energy density", "why_tests_cant": "Identity over a continuum of wave vectors, entry by entry.", "anchors": ["drdmannturb/spectra_fitting/one_point_spectra.py:OnePointSpectra.PowerSpectra", "drdmannturb/fluctuation_generation/covariance_kernels.py:VonKarmanCovariance.precompute_Spectrum", "drdmannturb/fluctuation_generation/covariance_kernels.py:MannCovariance.precompute_Spectrum"]}
{"id": "C07", "title": "Simulation kernel yields a real field", "statement": "The Mann, von Karman and low-frequency 2D kernels are Hermitian: G(-k) is the complex conjugate of G(k), so white real noise is mapped to a real field by the half-spectrum transform without dropping an imaginary part.", "quantifier": "every wave vector and every lifetime function that is even under k -> -k", "why_tests_cant": "Must hold for every mode of every grid; a test sees only one grid and a tolerance.", "anchors": ["drdmannturb/fluctuation_generation/covariance_kernels.py:MannCovariance.precompute_Spectrum", "drdmannturb/fluctuation_generation/covariance_kernels.py:VonKarmanCovariance.precompute_Spectrum", "drdmannturb/fluctuation_generation/low_frequency/fluctuation_field_generator.py:LowFreqGenerator._generate_numba_helper"]}
{"id": "C08", "title": "Von Karman kernel is incompressible and isotropic", "statement": "The von Karman simulation kernel satisfies k . G(k) = 0 and its covariance is E0 L^{17/3} / (4 pi (1+L^2 k^2)^{17/6}) (k^2 delta_ij - k_i k_j), non-negative on the diagonal.", "quantifier": "every wave vector including k = 0, every positive length and energy scale", "why_tests_cant": "Universally quantified identity.", "anchors": ["drdmannturb/fluctuation_generation/covariance_kernels.py:VonKarmanCovariance.precompute_Spectrum"]}
{"id": "C09", "title": "Spectra are linear in the magnitude sigma", "statement": "Scaling the energy-spectrum magnitude by c scales every unclipped spectral-tensor entry and every one-point spectrum by c, and scaling it by c >= 0 keeps auto-spectra non-negative.", "quantifier": "every wave vector, every grid, every factor c, all parameter values", "why_tests_cant": "Universally quantified homogeneity over the whole quadrature.", "anchors": ["drdmannturb/spectra_fitting/one_point_spectra.py:OnePointSpectra.forward", "drdmannturb/spectra_fitting/one_point_spectra.py:OnePointSpectra.PowerSpectra", "drdmannturb/spectra_fitting/one_point_spectra.py:OnePointSpectra.quad23"]}
{"id": "C10", "title": "The two von Karman energy spectra and the learnable one agree", "statement": "VKEnergySpectrum and VKLike_EnergySpectrum are the same function on positive arguments, the learnable spectrum with exponents (4, 17/6) is that function too, all are positive for positive argument, bounded by the inertial-range law kL^(-5/3), and the ratio to that law is increasing towards 1.", "quantifier": "every positive wave number times length scale", "why_tests_cant": "Equality of two differently factored real powers at all arguments.", "anchors": ["drdmannturb/common.py:VKEnergySpectrum", "drdmannturb/common.py:VKLike_EnergySpectrum", "drdmannturb/common.py:Learnable_EnergySpectrum"]}
{"id": "C11", "title": "Eddy lifetime does not see wave-vector signs", "statement": "For every lifetime model (constant, Mann, Mann approximation, two-thirds, neural network) flipping the sign of any component of the wave vector leaves the lifetime unchanged.", "quantifier": "every wave vector, every sign pattern, every network architecture, weights and activation function", "why_tests_cant": "Quantifies over all networks and all wave vectors; the existing test checks one trained network on 50 points and one axis.", "anchors": ["drdmannturb/spectra_fitting/one_point_spectra.py:OnePointSpectra.EddyLifetime", "drdmannturb/nn_modules.py:TauNet.forward", "drdmannturb/nn_modules.py:Rational.forward", "drdmannturb/common.py:MannEddyLifetime"]}
{"id": "C12", "title": "Neural eddy lifetime stays positive with the prescribed decay", "statement": "The rational head of the network is strictly positive on nonzero input, equals |a|^(nu-2/3)/(1+a^2)^(nu/2), never exceeds |a|^(-2/3) when nu >= 0, and with nu = 0 is exactly the two-thirds law.", "quantifier": "every real nonzero argument, every exponent", "why_tests_cant": "Inequality over a continuum in two variables.", "anchors": ["drdmannturb/nn_modules.py:Rational.forward", "drdmannturb/nn_modules.py:TauNet.forward"]}
{"id": "C13", "title": "Two-thirds and constant lifetimes scale as documented", "statement": "The two-thirds lifetime is homogeneous of degree -2/3 in the wave vector and in the length scale, linear in the time scale, the constant lifetime equals the time scale everywhere.", "quantifier": "every nonzero wave vector, every positive scale factor", "why_tests_cant": "Functional equation over a continuum.", "anchors": ["drdmannturb/spectra_fitting/one_point_spectra.py:OnePointSpectra.EddyLifetime"]}
{"id": "C14", "title": "Mann approximation applies the physical scales once", "statement": "The log-linear approximation of the Mann lifetime reproduces time_scale * tau(length_scale * |k|) whenever tau is a pure power law.", "quantifier": "all length and time scales, all power laws", "why_tests_cant": "Needs the closed form of least squares for an arbitrary sample; a single calibrated comparison cannot show the factor for all scales.", "anchors": ["drdmannturb/spectra_fitting/one_point_spectra.py:OnePointSpectra.init_mann_approximation", "drdmannturb/spectra_fitting/one_point_spectra.py:OnePointSpectra.EddyLifetime", "drdmannturb/common.py:Mann_linear_exponential_approx"]}
{"id": "C15", "title": "Initial scales are the user's scales (calibration problem)", "statement": "A freshly constructed calibration problem reports length, time and magnitude scales equal to the physical parameters it was given.", "quantifier": "all positive L, Gamma, sigma", "why_tests_cant": "Exact inverse relation of exp and log for all inputs.", "anchors": ["drdmannturb/spectra_fitting/calibration.py:CalibrationProblem.__init__", "drdmannturb/spectra_fitting/calibration.py:CalibrationProblem.log_dimensional_scales", "drdmannturb/spectra_fitting/one_point_spectra.py:OnePointSpectra.exp_scales"]}
{"id": "C16", "title": "Initial scales are the user's scales (stand-alone spectra model)", "statement": "A freshly constructed one-point-spectra module reports length, time and magnitude scales equal to the arguments it was given.", "quantifier": "all positive L, Gamma, sigma", "why_tests_cant": "Needs to hold for all inputs; holds at 1, which is the value a quick test would use.", "anchors": ["drdmannturb/spectra_fitting/one_point_spectra.py:OnePointSpectra.__init__", "drdmannturb/spectra_fitting/one_point_spectra.py:OnePointSpectra.exp_scales"]}
{"id": "C17", "title": "Quadrature grid and rule are sound", "statement": "The k2 and k3 grids have 2N+1 points, are strictly increasing, symmetric about zero and contain zero; the nested trapezoid rule is linear, monotone, exact on bilinear integrands, and invariant under reflecting the integrand on the symmetric grid.", "quantifier": "every grid size N and exponent range, every integrand", "why_tests_cant": "Induction on grid size; tests fix N.", "anchors": ["drdmannturb/spectra_fitting/one_point_spectra.py:OnePointSpectra.__init__", "drdmannturb/spectra_fitting/one_point_spectra.py:OnePointSpectra.quad23"]}
{"id": "C18", "title": "One-point auto-spectra are strictly positive", "statement": "Every one-point auto-spectrum (uu, vv, ww) returned by the model is strictly positive for every positive k1, so that logarithms in the loss are defined.", "quantifier": "every k1 > 0, every grid with at least two increasing nodes, every parameter value", "why_tests_cant": "All grids and all parameter values.", "anchors": ["drdmannturb/spectra_fitting/one_point_spectra.py:OnePointSpectra.forward", "drdmannturb/spectra_fitting/one_point_spectra.py:OnePointSpectra.PowerSpectra", "drdmannturb/spectra_fitting/one_point_spectra.py:OnePointSpectra.quad23"]}
{"id": "C19", "title": "Modelled coherence is a coherence", "statement": "Spectral coherence of each component lies in [0,1], equals 1 at zero separation and is even in the separation.", "quantifier": "every frequency, every real separation, every parameter value, every quadrature grid", "why_tests_cant": "Cauchy-Schwarz type bound over all grids and separations.", "anchors": ["drdmannturb/spectra_fitting/one_point_spectra.py:OnePointSpectra.SpectralCoherence", "drdmannturb/spectra_fitting/one_point_spectra.py:OnePointSpectra._PowerSpectra_coherence"]}
{"id": "C20", "title": "Parameter vector round trip", "statement": "Reading the parameter vector and writing it back changes nothing; writing a vector of the right length and reading returns exactly that vector; writing a vector of a wrong length raises ValueError and changes nothing; the order of entries is log L, log Gamma, log sigma, (p, q), network weights, (nu).", "quantifier": "every architecture, every parameter vector", "why_tests_cant": "Quantifies over all shapes of networks and all vectors.", "anchors": ["drdmannturb/spectra_fitting/calibration.py:CalibrationProblem.parameters"]}
{"id": "C21", "title": "Network construction and parameter count", "statement": "TauNet accepts exactly the documented layer specifications, rejects every other with the documented exception, builds a chain of compatible layers from 3 inputs to 3 outputs, and the number of trainable scalars is 3h_1 + sum h_i h_{i+1} + 3h_n (+1 when nu is learned).", "quantifier": "every number of layers and every list of layer sizes", "why_tests_cant": "Induction over the layer list; the repo's test pins one number (and marks the TauNet case TODO).", "anchors": ["drdmannturb/nn_modules.py:TauNet.__init__", "drdmannturb/spectra_fitting/calibration.py:CalibrationProblem.num_trainable_params"]}
{"id": "C22", "title": "Network forward pass is shape correct and a residual map", "statement": "For every accepted specification the forward pass composes without a shape mismatch, returns a scalar per wave vector, and with all-zero weights the network reduces to the rational law of |k|.", "quantifier": "all accepted architectures, all weights, all wave vectors", "why_tests_cant": "All architectures and weights.", "anchors": ["drdmannturb/nn_modules.py:TauNet._mlp_forward", "drdmannturb/nn_modules.py:TauNet.forward"]}
{"id": "C23", "title": "Calibration can be run without a learnable energy spectrum", "statement": "Calibrating with the default (non-learnable) energy spectrum for at least one epoch returns fitted parameters instead of failing.", "quantifier": "every data set and configuration with use_learnable_spectrum = False and nepochs >= 1", "why_tests_cant": "Absence of a crash for every configuration.", "anchors": ["drdmannturb/spectra_fitting/calibration.py:CalibrationProblem.calibrate"]}
{"id": "C24", "title": "Calibration loop terminates and returns positive scales", "statement": "Calibration performs at most nepochs optimiser steps, stops at the first epoch whose loss is below tol, raises on the first non-finite loss, and what it returns is positive length, time and magnitude scales obtained from the final parameter vector.", "quantifier": "every optimiser, every loss sequence, every tolerance and epoch limit", "why_tests_cant": "Ranges over all histories of the optimiser.", "anchors": ["drdmannturb/spectra_fitting/calibration.py:CalibrationProblem.calibrate"]}
{"id": "C25", "title": "Saved models reload", "statement": "A model written by save_model and reloaded reproduces the parameter vector and configuration exactly; when no usable directory is available save_model raises ValueError and writes nothing.", "quantifier": "every model, every directory argument", "why_tests_cant": "All model contents and argument combinations.", "anchors": ["drdmannturb/spectra_fitting/calibration.py:CalibrationProblem.save_model"]}
{"id": "C26", "title": "Saving one model does not destroy another", "statement": "Two different models saved into the same directory can both be reloaded.", "quantifier": "every pair of models and history of saves", "why_tests_cant": "Requires reasoning over save histories.", "anchors": ["drdmannturb/spectra_fitting/calibration.py:CalibrationProblem.save_model"]}
{"id": "C27", "title": "Data misfit is a proper misfit", "statement": "The data loss is non-negative, zero exactly when model and data agree in absolute value at every point, invariant when model and data are multiplied by a common nonzero factor, and symmetric in model and data; it raises ValueError instead of returning when it is NaN.", "quantifier": "all spectra of any length with nonzero entries", "why_tests_cant": "Universally quantified equivalence (iff).", "anchors": ["drdmannturb/spectra_fitting/loss_functions.py:LossAggregator.MSE_term"]}
{"id": "C28", "title": "Penalty terms vanish exactly on admissible spectra", "statement": "The first-order penalty is non-negative and zero exactly when the log-spectra are non-increasing along the grid; the second-order penalty is non-negative and zero exactly when the log-log slope is non-increasing; the regulariser is non-negative and zero only for zero weights.", "quantifier": "all spectra of any length on any increasing positive grid", "why_tests_cant": "Iff-characterisations over all sequences.", "anchors": ["drdmannturb/spectra_fitting/loss_functions.py:LossAggregator.Pen1stOrder", "drdmannturb/spectra_fitting/loss_functions.py:LossAggregator.Pen2ndOrder", "drdmannturb/spectra_fitting/loss_functions.py:LossAggregator.Regularization"]}
{"id": "C29", "title": "Loss bookkeeping is consistent under every history", "statement": "After any sequence of evaluations, including ones that raise, all active histories have the same length, equal to the number of successful evaluations; total loss is the sum of the active terms; a raising evaluation leaves the histories unchanged.", "quantifier": "every finite sequence of evaluations and every parameter configuration", "why_tests_cant": "Invariant over all histories and crash points.", "anchors": ["drdmannturb/spectra_fitting/loss_functions.py:LossAggregator.eval"]}
{"id": "C30", "title": "Reported loss ratios form a partition of unity", "statement": "The component ratios reported for diagnostics are non-negative and sum to 1, and each equals its component's share of the total.", "quantifier": "every non-empty set of non-negative component losses with positive total", "why_tests_cant": "All component sets.", "anchors": ["drdmannturb/spectra_fitting/loss_functions.py:LossAggregator.log_component_ratios"]}
{"id": "C31", "title": "Running averages stay within the observed range", "statement": "Each running average lies between the minimum and maximum of the component values observed so far and is the documented exponential moving average.", "quantifier": "every finite history of component values", "why_tests_cant": "Invariant over unbounded histories.", "anchors": ["drdmannturb/spectra_fitting/loss_functions.py:LossAggregator.update_running_averages"]}
{"id": "C32", "title": "Learning-rate advice is well defined and bounded", "statement": "The adaptive advice never increases the learning rate: the factor is 1, 0.7, 0.5 or 0.3, it is 1 whenever no adjustment is advised, and before the window has filled no adjustment is advised; the three-phase schedule stays in [0.1, 2] and is non-increasing in the epoch.", "quantifier": "every loss history, every window, every epoch count", "why_tests_cant": "All histories and epochs.", "anchors": ["drdmannturb/spectra_fitting/loss_functions.py:LossAggregator.should_adjust_learning_rate", "drdmannturb/spectra_fitting/calibration.py:CalibrationProblem.get_three_phase_scheduler"]}
{"id": "C33", "title": "Kaimal data are physical", "statement": "Generated Kaimal data have positive uu, vv, ww, negative uw, zero uv and vw, scale with the square of friction velocity, and depend on k1 and zref only through their product.", "quantifier": "every positive wave number, height, friction velocity, every number of points", "why_tests_cant": "All inputs.", "anchors": ["drdmannturb/spectra_fitting/data_generator.py:generate_kaimal_spectra"]}
{"id": "C34", "title": "Von Karman data satisfy isotropy", "statement": "Generated von Karman data satisfy the isotropic relation F22 = (F11 - k1 dF11/dk1)/2 = F33, are positive, have zero cross terms, and scale with the magnitude as documented.", "quantifier": "every positive wave number and length scale", "why_tests_cant": "A differential identity at every point.", "anchors": ["drdmannturb/spectra_fitting/data_generator.py:generate_von_karman_spectra"]}
{"id": "C35", "title": "Custom data loader loads valid files", "statement": "Constructing the custom data loader with an existing file that has all required columns succeeds; a missing file raises FileNotFoundError and a missing column ValueError.", "quantifier": "every file system state, column set and component count", "why_tests_cant": "All column sets; the success path is claimed for every valid file.", "anchors": ["drdmannturb/spectra_fitting/data_generator.py:CustomDataLoader"]}
{"id": "C36", "title": "Domain parameters can be constructed", "statement": "DomainParameters accepts 3 positive dimensions with 3 grid levels and rejects wrong lengths with ValueError.", "quantifier": "every argument combination", "why_tests_cant": "Absence of a crash for every valid input.", "anchors": ["drdmannturb/parameters.py:DomainParameters.__post_init__"]}
{"id": "C37", "title": "Every generated block has the promised shape", "statement": "Each block delivered by the generator has exactly 2^level + 1 nodes per direction and 3 components, whatever buffers and margins were added around it.", "quantifier": "all grid levels and all geometries with positive buffer and margins, all block numbers", "why_tests_cant": "All sizes; depends on slice arithmetic with negative indices.", "anchors": ["drdmannturb/fluctuation_generation/fluctuation_field_generator.py:FluctuationFieldGenerator.__init__", "drdmannturb/fluctuation_generation/fluctuation_field_generator.py:FluctuationFieldGenerator._generate_block"]}
{"id": "C38", "title": "Zero time scale is handled", "statement": "A Mann field can be generated with time scale zero (isotropic limit).", "quantifier": "all grids with time scale 0", "why_tests_cant": "Boundary case of slice arithmetic on all sizes.", "anchors": ["drdmannturb/fluctuation_generation/fluctuation_field_generator.py:FluctuationFieldGenerator.__init__", "drdmannturb/fluctuation_generation/fluctuation_field_generator.py:FluctuationFieldGenerator._generate_block"]}
{"id": "C39", "title": "Consecutive blocks share one noise stream", "statement": "After any number of blocks the noise used for block t is the window of a single infinite noise stream starting at t times the block length; consecutive blocks overlap on exactly the buffer (and blend) width, so the concatenated field is a field of one noise realisation.", "quantifier": "every block count, every buffer width, every blend width, every noise stream", "why_tests_cant": "Induction on the number of blocks over all geometries.", "anchors": ["drdmannturb/fluctuation_generation/fluctuation_field_generator.py:FluctuationFieldGenerator._generate_block"]}
{"id": "C40", "title": "Total field grows by appending", "statement": "After any sequence of generate calls the total field has (nodes per block) x (number of generated blocks) rows and previously generated rows are never modified.", "quantifier": "every sequence of generate calls", "why_tests_cant": "Invariant over all call histories.", "anchors": ["drdmannturb/fluctuation_generation/fluctuation_field_generator.py:FluctuationFieldGenerator.generate"]}
{"id": "C41", "title": "A rejected generate call has no effect", "statement": "When generate raises because of invalid profile arguments, the generator's state (noise, random stream, stored field) is as before the call.", "quantifier": "every state and every invalid argument combination", "why_tests_cant": "Requires comparing states before and after each failing path.", "anchors": ["drdmannturb/fluctuation_generation/fluctuation_field_generator.py:FluctuationFieldGenerator.generate", "drdmannturb/fluctuation_generation/fluctuation_field_generator.py:FluctuationFieldGenerator._normalize_block"]}
{"id": "C42", "title": "Invalid profile requests are rejected", "statement": "For every block that contains a nonzero value, normalisation raises ValueError exactly when the profile type is unknown, or a positive profile is required and an argument is not positive, or the power law is requested without an exponent; it never returns a field in those cases.", "quantifier": "every combination of profile type, heights, reference speed and exponent", "why_tests_cant": "All argument combinations.", "anchors": ["drdmannturb/fluctuation_generation/fluctuation_field_generator.py:FluctuationFieldGenerator._normalize_block"]}
{"id": "C43", "title": "Normalisation fixes the energy", "statement": "Normalised fluctuations have root-mean-square exactly one before the mean profile is added, do not depend on the magnitude of the input, and the mean profile is added to the streamwise component only and is constant in x and y.", "quantifier": "every nonzero block of any size, every positive rescaling", "why_tests_cant": "All blocks.", "anchors": ["drdmannturb/fluctuation_generation/fluctuation_field_generator.py:FluctuationFieldGenerator._normalize_block"]}
{"id": "C44", "title": "Power-law profile hits the reference speed", "statement": "The power-law mean profile is zero at the ground, equal to the reference speed at the reference height, and strictly increasing in height.", "quantifier": "all positive reference height, speed and exponent", "why_tests_cant": "All parameters.", "anchors": ["drdmannturb/fluctuation_generation/fluctuation_field_generator.py:FluctuationFieldGenerator.power_law"]}
{"id": "C45", "title": "Log-law profile hits the reference speed", "statement": "The logarithmic mean profile equals the reference speed at the reference height.", "quantifier": "all reference heights above the roughness length", "why_tests_cant": "All parameters.", "anchors": ["drdmannturb/fluctuation_generation/fluctuation_field_generator.py:FluctuationFieldGenerator.log_law"]}
{"id": "C46", "title": "Log-law profile is monotone from zero", "statement": "The logarithmic profile is zero at the ground and strictly increasing with height whenever the reference height exceeds the roughness length, and lies within reference speed times log(2)/log(zref/z0) of the target at the reference height.", "quantifier": "all roughness lengths, reference heights above them and positive speeds", "why_tests_cant": "All parameters.", "anchors": ["drdmannturb/fluctuation_generation/fluctuation_field_generator.py:FluctuationFieldGenerator.log_law"]}
{"id": "C47", "title": "Numerical divergence is exact on affine fields and blind to the mean profile", "statement": "evaluate_divergence is linear, exact on affine fields including the boundary nodes, zero on constant fields, unaffected by adding any height-only profile to the streamwise component, and raises ValueError exactly for a spacing without 3 entries or a field without 3 components.", "quantifier": "all grid sizes >= 2, all positive spacings, all fields", "why_tests_cant": "All sizes, including one-sided boundary stencils.", "anchors": ["drdmannturb/fluctuation_generation/fluctuation_field_generator.py:FluctuationFieldGenerator.evaluate_divergence"]}
{"id": "C48", "title": "Sampling is linear and shift covariant in the noise", "statement": "The map from noise to field is linear, maps zero noise to zero, commutes with cyclic shifts of the noise, and returns a real field.", "quantifier": "every grid size, every kernel (Hermitian for reality), every noise array", "why_tests_cant": "All grid sizes; shift covariance quantifies over all shifts.", "anchors": ["drdmannturb/fluctuation_generation/sampling_methods.py:Sampling_VF_FFTW.__call__", "drdmannturb/fluctuation_generation/sampling_methods.py:Sampling_method_freq.__init__"]}
{"id": "C49", "title": "Discrete field is spectrally divergence free", "statement": "With a kernel orthogonal to every grid wave vector, the sampled field has zero discrete (spectral) divergence.", "quantifier": "every grid size, kernel orthogonal to the grid wave vectors, and noise", "why_tests_cant": "All grid sizes.", "anchors": ["drdmannturb/fluctuation_generation/sampling_methods.py:Sampling_VF_FFTW.__call__", "drdmannturb/fluctuation_generation/covariance_kernels.py:MannCovariance.precompute_Spectrum"]}
{"id": "C50", "title": "A seed determines the 3D field", "statement": "Two generators built with the same arguments and the same seed (including seed 0) deliver identical fields for the same sequence of generate calls when no low-frequency model is configured.", "quantifier": "every seed, every call sequence, every random generator", "why_tests_cant": "All seeds and call sequences.", "anchors": ["drdmannturb/fluctuation_generation/gaussian_random_fields.py:GaussianRandomField.reseed", "drdmannturb/fluctuation_generation/fluctuation_field_generator.py:FluctuationFieldGenerator.generate"]}
{"id": "C51", "title": "A seed determines the combined 2D+3D field", "statement": "Two generators built with the same arguments and the same seed deliver identical fields also when a low-frequency model is configured.", "quantifier": "every seed and call sequence", "why_tests_cant": "Depends on process-wide random state.", "anchors": ["drdmannturb/fluctuation_generation/fluctuation_field_generator.py:FluctuationFieldGenerator.__init__", "drdmannturb/fluctuation_generation/low_frequency/fluctuation_field_generator.py:LowFreqGenerator.generate"]}
{"id": "C52", "title": "Low-frequency grid is large and even enough", "statement": "The low-frequency computational grid has even node counts, at least 2 and at least as many as the user grid in each direction, covers max(user length, 5 L_2d), and is the smallest such even grid; its internal consistency checks can never fail.", "quantifier": "all positive lengths and grid exponents", "why_tests_cant": "All real geometries.", "anchors": ["drdmannturb/fluctuation_generation/low_frequency/fluctuation_field_generator.py:LowFreqGenerator._calculate_buffer_sizes"]}
{"id": "C53", "title": "Low-frequency extraction returns the centred user window", "statement": "The low-frequency field delivered has exactly the user's shape and is the centred window of the computed field; the extraction never leaves the array.", "quantifier": "all computational and user sizes", "why_tests_cant": "All sizes.", "anchors": ["drdmannturb/fluctuation_generation/low_frequency/fluctuation_field_generator.py:LowFreqGenerator._extract_field_portion", "drdmannturb/fluctuation_generation/low_frequency/fluctuation_field_generator.py:LowFreqGenerator._calculate_buffer_sizes"]}
{"id": "C54", "title": "Low-frequency coordinates match the field", "statement": "The coordinates attached to the delivered low-frequency samples are the positions at which they were computed.", "quantifier": "all user grids", "why_tests_cant": "Depends on unequal user spacings.", "anchors": ["drdmannturb/fluctuation_generation/low_frequency/fluctuation_field_generator.py:LowFreqGenerator.__init__", "drdmannturb/fluctuation_generation/low_frequency/fluctuation_field_generator.py:LowFreqGenerator._calculate_buffer_sizes"]}
{"id": "C55", "title": "Low-frequency kernel is incompressible in the plane", "statement": "The 2D kernel satisfies k1 Q1 + k2 Q2 = 0 at every wave vector, vanishes at the zero wave vector, is even in amplitude and so gives a real horizontally divergence-free field.", "quantifier": "every wave vector, every anisotropy angle and scale", "why_tests_cant": "All modes of all grids.", "anchors": ["drdmannturb/fluctuation_generation/low_frequency/fluctuation_field_generator.py:LowFreqGenerator._generate_numba_helper"]}
{"id": "C56", "title": "Low-frequency interpolation is a bounded exact interpolant", "statement": "Interpolating the low-frequency field onto a target grid reproduces nodal values, is exact on bilinear functions, stays within the range of the surrounding nodal values inside the grid, and is zero outside.", "quantifier": "all grids, all target points, all fields", "why_tests_cant": "All inputs.", "anchors": ["drdmannturb/fluctuation_generation/low_frequency/fluctuation_field_generator.py:LowFreqGenerator.interp_slice"]}
{"id": "C57", "title": "Low-frequency contribution is continuous between generate calls", "statement": "Successive generate calls on one generator continue the low-frequency field downstream.", "quantifier": "every sequence of generate calls", "why_tests_cant": "Property of call histories.", "anchors": ["drdmannturb/fluctuation_generation/fluctuation_field_generator.py:FluctuationFieldGenerator.generate"]}
{"id": "C58", "title": "Numerical low-frequency spectrum is non-negative and accounts for all wave numbers", "statement": "The estimated 1D spectra are non-negative and every non-negative wave number of the grid, including the highest, receives its energy.", "quantifier": "all grids and fields", "why_tests_cant": "All grid sizes (parity dependent).", "anchors": ["drdmannturb/fluctuation_generation/low_frequency/fluctuation_field_generator.py:LowFreqGenerator.compute_spectrum", "drdmannturb/fluctuation_generation/low_frequency/fluctuation_field_generator.py:LowFreqGenerator._compute_spectrum_numba_helper"]}
{"id": "C59", "title": "Coherence data file is read into the right cells", "statement": "For each row (separation, frequency, value) of a coherence file the loaded array holds that value in the cell of its separation and frequency.", "quantifier": "every file with distinct (separation, frequency) pairs, in any row order", "why_tests_cant": "All row orders.", "anchors": ["drdmannturb/spectra_fitting/calibration.py:CalibrationProblem.load_coherence_data"]}
{"id": "C60", "title": "Plot panels show the matching data", "statement": "In the six-component comparison plot every panel shows the data of the same component as the model curve.", "quantifier": "both data branches, all components", "why_tests_cant": "Finite but untested index permutation, needs the composed order of model, data, and panel.", "anchors": ["drdmannturb/spectra_fitting/calibration.py:CalibrationProblem.plot", "drdmannturb/spectra_fitting/calibration.py:CalibrationProblem.calibrate", "drdmannturb/spectra_fitting/one_point_spectra.py:OnePointSpectra.forward"]}
{"id": "C61", "title": "Generation evaluates the network as training did", "statement": "The eddy lifetime used to simulate a DRD field equals the one fitted during calibration at the same physical wave vector.", "quantifier": "all networks, all length scales", "why_tests_cant": "All networks.", "anchors": ["drdmannturb/fluctuation_generation/nn_covariance.py:NNCovariance.precompute_Spectrum", "drdmannturb/spectra_fitting/one_point_spectra.py:OnePointSpectra.EddyLifetime", "drdmannturb/fluctuation_generation/fluctuation_field_generator.py:FluctuationFieldGenerator.__init__"]}
{"id": "C62", "title": "Mean profile heights match grid heights", "statement": "The height at which the mean profile is evaluated for grid layer j equals the physical height j*dz of that layer.", "quantifier": "all vertical extents and levels", "why_tests_cant": "All sizes.", "anchors": ["drdmannturb/fluctuation_generation/fluctuation_field_generator.py:FluctuationFieldGenerator._normalize_block"]}
{"id": "C63", "title": "Plot grid maps indices to physical positions", "statement": "create_grid assigns to node (i,j,k) the position (i*dx, j*dy, k*dz) and format_wind_field lists components in the same order, so magnitude is attached to the right position.", "quantifier": "all shapes and spacings", "why_tests_cant": "All shapes.", "anchors": ["drdmannturb/fluctuation_generation/wind_plot.py:create_grid", "drdmannturb/fluctuation_generation/wind_plot.py:format_wind_field"]}
{"id": "C64", "title": "Selected separations for plots are valid", "statement": "The separations selected for coherence plots are valid, non-decreasing indices that include the first and last separation, and are distinct when at least four are available.", "quantifier": "any positive number of separations", "why_tests_cant": "All sizes.", "anchors": ["drdmannturb/spectra_fitting/calibration.py:CalibrationProblem.load_coherence_data"]}
{"id": "C65", "title": "The kernel solves the rapid-distortion equations", "statement": "Along the sheared wave vector (k1, k2, k30 - b k1) every column of the simulation kernel solves the linearised rapid-distortion equations of uniform shear in the accumulated shear b, starting at b = 0 from the isotropic von Karman kernel.", "quantifier": "every wave vector with k1 != 0, every amount of shear, every column", "why_tests_cant": "A differential equation over a continuum; the closed form has an arctangent with branch points.", "anchors": ["drdmannturb/fluctuation_generation/covariance_kernels.py:MannCovariance.precompute_Spectrum", "drdmannturb/spectra_fitting/one_point_spectra.py:OnePointSpectra.PowerSpectra"]}
{"id": "C66", "title": "Network settings of the user reach the network", "statement": "The hidden layer sizes and activation functions given in NNParameters are those of the network that is trained.", "quantifier": "every NNParameters value", "why_tests_cant": "All architectures; needs the composition of two constructors.", "anchors": ["drdmannturb/parameters.py:NNParameters", "drdmannturb/spectra_fitting/one_point_spectra.py:OnePointSpectra.__init__", "drdmannturb/nn_modules.py:TauNet.__init__"]}
{"id": "C67", "title": "Coherence prediction depends only on the current parameters", "statement": "The coherence computed by the model is a function of the current parameters, frequencies and separations, not of what was computed before.", "quantifier": "every history of parameter changes and coherence evaluations", "why_tests_cant": "Property of call histories.", "anchors": ["drdmannturb/spectra_fitting/one_point_spectra.py:OnePointSpectra.SpectralCoherence"]}
{"id": "C68", "title": "Block calls compose", "statement": "Generating n+m blocks in one call delivers the same total field as generating n blocks and then m blocks with the same arguments (no low-frequency model).", "quantifier": "all n, m, states and arguments", "why_tests_cant": "All call histories.", "anchors": ["drdmannturb/fluctuation_generation/fluctuation_field_generator.py:FluctuationFieldGenerator.generate"]}
{"id": "C69", "title": "Blocks join into one field when the buffer covers the correlation", "statement": "If the correlation kernel of the sampled field has support within the buffer, the concatenated blocks (before normalisation) are exactly the convolution of the kernel with one infinite noise stream: no seam.", "quantifier": "every kernel of bounded support, every number of blocks, every noise stream", "why_tests_cant": "All geometries and histories.", "anchors": ["drdmannturb/fluctuation_generation/fluctuation_field_generator.py:FluctuationFieldGenerator._generate_block", "drdmannturb/fluctuation_generation/sampling_methods.py:Sampling_VF_FFTW.__call__"]}
{"id": "C70", "title": "The fitted tensor is incompressible", "statement": "The unclipped spectral tensor integrated by calibration satisfies k . Phi(k) = 0 for every wave vector.", "quantifier": "every wave vector with k1 != 0, every lifetime, every energy density", "why_tests_cant": "Identity over a continuum with a cancelling singularity.", "anchors": ["drdmannturb/spectra_fitting/one_point_spectra.py:OnePointSpectra.PowerSpectra"]}
{"id": "C71", "title": "Generated data matrices are symmetric", "statement": "At every wave number the generated spectra form a symmetric 3x3 matrix, as a cross-spectral matrix without quadrature part must.", "quantifier": "every wave number and parameter value, both generators", "why_tests_cant": "All inputs; entries are read selectively by the code so the other triangle is never looked at.", "anchors": ["drdmannturb/spectra_fitting/data_generator.py:generate_kaimal_spectra", "drdmannturb/spectra_fitting/data_generator.py:generate_von_karman_spectra"]}
{"id": "C72", "title": "The simulated DRD tensor has the fitted amplitude", "statement": "For a fitted model with the same lifetime value, the spectral tensor of the simulated physical field is u*^2 zref^3 times the fitted non-dimensional tensor at the non-dimensional wave vector k zref.", "quantifier": "every parameter vector, friction velocity, reference height and wave vector", "why_tests_cant": "Identity over all parameters and wave vectors.", "anchors": ["drdmannturb/fluctuation_generation/fluctuation_field_generator.py:FluctuationFieldGenerator.__init__", "drdmannturb/fluctuation_generation/nn_covariance.py:NNCovariance.precompute_Spectrum", "drdmannturb/spectra_fitting/one_point_spectra.py:OnePointSpectra.forward"]}
{"id": "C73", "title": "Spectral divergence diagnostic is available", "statement": "The divergence diagnostic of the one-point-spectra module returns a value for a spectral tensor on the module's grid.", "quantifier": "every module state and argument", "why_tests_cant": "Every state of the module.", "anchors": ["drdmannturb/spectra_fitting/one_point_spectra.py:OnePointSpectra.get_div"]}
{"id": "C74", "title": "Reading the spectral tensor again gives the same tensor", "statement": "Evaluating the module's spectral tensor again, without changing parameters or wave numbers, returns the same values.", "quantifier": "every stored energy, lifetime and wave vector, every number of repeated calls", "why_tests_cant": "A statement about every number of repetitions and every stored state.", "anchors": ["drdmannturb/spectra_fitting/one_point_spectra.py:OnePointSpectra.PowerSpectra"]}
{"id": "C75", "title": "Coherence integration settings are honoured", "statement": "The coherence predicted by a calibration problem is integrated on the grid described by the coherence fields of the integration parameters it was given.", "quantifier": "every integration setting and length scale", "why_tests_cant": "Every setting; the wrong grid still produces plausible coherence values.", "anchors": ["drdmannturb/spectra_fitting/calibration.py:CalibrationProblem.__init__", "drdmannturb/spectra_fitting/one_point_spectra.py:OnePointSpectra.SpectralCoherence"]}
{"id": "C76", "title": "Positivity clipping is harmless for the fitted spectra", "statement": "Clipping changes each of the uu, vv, ww and uw one-point spectra by at most k1 * 1e-12 * (2 * 10^ops_log_max)^2.", "quantifier": "every k1 > 0, grid exponents, number of points, parameters and lifetime", "why_tests_cant": "A bound over a continuum of models.", "anchors": ["drdmannturb/spectra_fitting/one_point_spectra.py:OnePointSpectra.forward", "drdmannturb/spectra_fitting/one_point_spectra.py:OnePointSpectra.PowerSpectra"]}
{"id": "C77", "title": "Dimensional consistency of the fitted tensor", "statement": "At a fixed lifetime value the unclipped spectral tensor depends on the length scale only through L k, up to the factor L^(11/3): Phi(L, k) = L^(11/3) Phi(1, L k).", "quantifier": "every wave vector with k1 != 0, every L > 0, magnitude and lifetime value", "why_tests_cant": "Identity over a continuum.", "anchors": ["drdmannturb/spectra_fitting/one_point_spectra.py:OnePointSpectra.forward", "drdmannturb/spectra_fitting/one_point_spectra.py:OnePointSpectra.PowerSpectra"]}
{"id": "C78", "title": "Regularisation weight is harmless without a network", "statement": "Setting a positive regularisation weight while calibrating a model without a neural network leaves the loss finite: the regulariser contributes nothing.", "quantifier": "every loss configuration with beta_reg > 0, every data set, every lifetime other than the network", "why_tests_cant": "Every combination of weights, data and lifetime selection.", "anchors": ["drdmannturb/spectra_fitting/loss_functions.py:LossAggregator.eval", "drdmannturb/spectra_fitting/loss_functions.py:LossAggregator.Regularization", "drdmannturb/spectra_fitting/calibration.py:CalibrationProblem.calibrate"]}
{"id": "C79", "title": "Balancing factors stay positive and bounded", "statement": "The two balancing factors returned for the spectra and coherence losses are positive and at most 1e8 for every history of calls; the first call returns the reciprocals of the two losses; between update epochs the stored magnitudes do not change.", "quantifier": "every stored state, epoch and loss values", "why_tests_cant": "Depends on the whole history of calls.", "anchors": ["drdmannturb/spectra_fitting/loss_functions.py:LossAggregator.compute_loss_scales"]}
{"id": "C80", "title": "Loss information reports the latest successful evaluation", "statement": "The loss information dictionary is empty before the first successful evaluation and afterwards holds the component values and total of the latest successful evaluation, the moving averages and their ratio.", "quantifier": "every history of evaluations, including raising ones", "why_tests_cant": "Depends on the whole history of evaluations.", "anchors": ["drdmannturb/spectra_fitting/loss_functions.py:LossAggregator.get_current_loss_info", "drdmannturb/spectra_fitting/loss_functions.py:LossAggregator.eval"]}
{"id": "C81", "title": "Coherence misfit is a proper misfit", "statement": "The coherence loss is non-negative, zero exactly when the three model coherences equal the data, at most gamma_coherence when model and data lie in [0,1], and raises ValueError whenever the data contain NaN.", "quantifier": "every model and data grid of equal shape, every gamma_coherence > 0", "why_tests_cant": "Statement over all real grids.", "anchors": ["drdmannturb/spectra_fitting/loss_functions.py:LossAggregator.CoherenceLoss"]}
{"id": "C82", "title": "Training compares each model curve with the data of the same component", "statement": "If the data matrix at every wave number is the one-point spectrum of the model itself, the data rows used by calibration equal the model curves row by row, for 3, 4 and 6 components.", "quantifier": "every model, quadrature setting, wave-number list, number of components", "why_tests_cant": "Statement over all spectra; a test with nearly symmetric data would not notice swapped rows.", "anchors": ["drdmannturb/spectra_fitting/calibration.py:CalibrationProblem.calibrate", "drdmannturb/spectra_fitting/one_point_spectra.py:OnePointSpectra.forward"]}
{"id": "C83", "title": "The gradient used in training is the gradient of the reported loss", "statement": "In every direction of parameter space, the gradient handed to the optimiser is the derivative of the total loss that the closure returns, with and without coherence data.", "quantifier": "every differentiable spectra loss and coherence loss, every parameter value and direction", "why_tests_cant": "Derivative identity over a continuum.", "anchors": ["drdmannturb/spectra_fitting/calibration.py:CalibrationProblem.calibrate", "drdmannturb/spectra_fitting/calibration.py:CalibrationProblem._compute_model_coherence", "drdmannturb/spectra_fitting/loss_functions.py:LossAggregator.eval"]}
{"id": "C84", "title": "A saved file determines the model", "statement": "Two problems with equal saved files predict equal spectra.", "quantifier": "every problem, every wave number", "why_tests_cant": "Quantifies over all problems with the same file.", "anchors": ["drdmannturb/spectra_fitting/calibration.py:CalibrationProblem.save_model", "drdmannturb/parameters.py:IntegrationParameters"]}
{"id": "C85", "title": "Adaptive learning-rate schedule reacts to imbalance", "statement": "When recent spectra loss and coherence loss of the closure evaluations differ by more than a factor 10, the adaptive schedule halves the learning rate.", "quantifier": "every history of closure evaluations", "why_tests_cant": "Depends on the whole training history.", "anchors": ["drdmannturb/spectra_fitting/calibration.py:CalibrationProblem.get_adaptive_multi_scheduler", "drdmannturb/spectra_fitting/calibration.py:CalibrationProblem.calibrate", "drdmannturb/spectra_fitting/loss_functions.py:LossAggregator"]}
{"id": "C86", "title": "Six-component calibration on generated data succeeds", "statement": "Calibrating six components against data produced by the library's own data generators returns fitted parameters.", "quantifier": "every generated data set, initial parameter vector, optimiser", "why_tests_cant": "Every data set and optimisation path.", "anchors": ["drdmannturb/spectra_fitting/calibration.py:CalibrationProblem.calibrate", "drdmannturb/spectra_fitting/data_generator.py:generate_kaimal_spectra", "drdmannturb/spectra_fitting/data_generator.py:generate_von_karman_spectra", "drdmannturb/spectra_fitting/loss_functions.py:LossAggregator.MSE_term"]}
{"id": "C87", "title": "Model coherence is evaluated frequency by frequency", "statement": "The model coherence used in the loss is, at each frequency f above 1e-6 Hz, the coherence at wave number 2 pi f / U, and 1 at all other frequencies, in the order of the data.", "quantifier": "every list of frequencies, every model, every mean speed", "why_tests_cant": "All frequency lists, including interleaved zeros.", "anchors": ["drdmannturb/spectra_fitting/calibration.py:CalibrationProblem._compute_model_coherence"]}
{"id": "C88", "title": "Noise initialisation is usable", "statement": "Constructing a calibration problem with noise initialisation succeeds for every valid configuration.", "quantifier": "every configuration", "why_tests_cant": "Ranges over all configurations.", "anchors": ["drdmannturb/spectra_fitting/calibration.py:CalibrationProblem.initialize_parameters_with_noise", "drdmannturb/spectra_fitting/calibration.py:CalibrationProblem.__init__"]}
{"id": "C89", "title": "Calibration constructor validates its arguments", "statement": "The constructor accepts 3, 4 or 6 components with positive scales and starts from the logarithms of these scales; any other number of components raises ValueError; any non-positive scale raises AssertionError.", "quantifier": "every integer number of components and all real scales", "why_tests_cant": "All integers and reals.", "anchors": ["drdmannturb/spectra_fitting/calibration.py:CalibrationProblem.__init__", "drdmannturb/spectra_fitting/calibration.py:CalibrationProblem.log_dimensional_scales", "drdmannturb/spectra_fitting/one_point_spectra.py:OnePointSpectra.__init__"]}
{"id": "C90", "title": "Parameter sensitivities can be evaluated", "statement": "eval_grad returns the gradient of the output with respect to the parameters.", "quantifier": "every wave number and model", "why_tests_cant": "Ranges over all models.", "anchors": ["drdmannturb/spectra_fitting/calibration.py:CalibrationProblem.eval_grad"]}
{"id": "C91", "title": "Kaimal data respect the coherence bound", "statement": "At every wave number of generated Kaimal data the square of uw is at most the product of uu and ww, so the data are a possible cross-spectral matrix.", "quantifier": "every positive wave number and height, every friction velocity", "why_tests_cant": "An inequality between transcendental functions over a continuum.", "anchors": ["drdmannturb/spectra_fitting/data_generator.py:generate_kaimal_spectra"]}
{"id": "C92", "title": "Accepted generate calls give numbers", "statement": "Whenever generate accepts its arguments, every value of the returned field is a finite number.", "quantifier": "every accepted combination of profile arguments, every nonzero block, every grid", "why_tests_cant": "All real argument combinations, including equal reference height and roughness length and negative exponents.", "anchors": ["drdmannturb/fluctuation_generation/fluctuation_field_generator.py:FluctuationFieldGenerator._normalize_block", "drdmannturb/fluctuation_generation/fluctuation_field_generator.py:FluctuationFieldGenerator.log_law", "drdmannturb/fluctuation_generation/fluctuation_field_generator.py:FluctuationFieldGenerator.power_law"]}
{"id": "C93", "title": "The generated field is one realisation up to one scale factor", "statement": "The fluctuations of a field generated in several blocks are one sampled realisation multiplied by a single constant, so no jump in amplitude occurs between blocks.", "quantifier": "every generator, every number of blocks, every noise stream", "why_tests_cant": "All noise streams and block counts.", "anchors": ["drdmannturb/fluctuation_generation/fluctuation_field_generator.py:FluctuationFieldGenerator.generate", "drdmannturb/fluctuation_generation/fluctuation_field_generator.py:FluctuationFieldGenerator._normalize_block"]}
{"id": "C94", "title": "Sampled field has the prescribed covariance", "statement": "For white noise of unit variance the sampled field is stationary (its covariance depends only on the separation of the two nodes, taken around the box), and, wherever the kernel is Hermitian on the grid, its covariance is the Fourier sum of the spectral tensor G G^H over the wave vectors of the grid divided by the volume of the box.", "quantifier": "every kernel, box, grid and pair of nodes; the Fourier sum for kernels Hermitian on the grid, in particular all kernels of the package on odd extents", "why_tests_cant": "The covariance is a sum over all noise values for all pairs of nodes on all grids; a test samples it statistically.", "anchors": ["drdmannturb/fluctuation_generation/sampling_methods.py:Sampling_VF_FFTW.__call__", "drdmannturb/fluctuation_generation/sampling_methods.py:Sampling_method_freq.__init__", "drdmannturb/fluctuation_generation/gaussian_random_fields.py:GaussianRandomField.sample_noise"]}
{"id": "C95", "title": "Sampling methods are interchangeable", "statement": "The sampling methods 'fft' and 'fftw' deliver the same field for the same noise and spectrum.", "quantifier": "every grid, noise and Hermitian spectrum", "why_tests_cant": "Ranges over all grids, spectra and noise arrays.", "anchors": ["drdmannturb/fluctuation_generation/sampling_methods.py:Sampling_FFT.__call__", "drdmannturb/fluctuation_generation/sampling_methods.py:Sampling_FFTW.__call__"]}
{"id": "C96", "title": "The low-frequency field covers the requested domain", "statement": "At every position inside the requested lengths the interpolated low-frequency field takes the value of the generated plane field (not a fill value).", "quantifier": "every low-frequency configuration, every position in [0, L1] x [0, L2], every noise", "why_tests_cant": "A continuum of positions and all noise tables.", "anchors": ["drdmannturb/fluctuation_generation/low_frequency/fluctuation_field_generator.py:LowFreqGenerator.interp_slice", "drdmannturb/fluctuation_generation/low_frequency/fluctuation_field_generator.py:LowFreqGenerator.__init__"]}
{"id": "C97", "title": "Generator and analytical spectrum use the same two-dimensional spectrum", "statement": "At every resolved wave vector the squared modulus of the generating kernel times the wave-number cell per grid point equals the integrand of the analytical one-dimensional spectra, and the covariance of the field generated from white noise is the corresponding sum over the wave vectors of the grid.", "quantifier": "every set of parameters above the guards, every wave vector, every pair of grid nodes", "why_tests_cant": "Covariance over all noise tables at all pairs of nodes; continuum of wave vectors.", "anchors": ["drdmannturb/fluctuation_generation/low_frequency/fluctuation_field_generator.py:LowFreqGenerator._generate_numba_helper", "drdmannturb/fluctuation_generation/low_frequency/fluctuation_field_generator.py:LowFreqGenerator.generate", "drdmannturb/fluctuation_generation/low_frequency/fluctuation_field_generator.py:LowFreqGenerator.analytical_spectrum"]}
{"id": "C98", "title": "The low-frequency variance parameter is the variance of the spectrum", "statement": "The scale computed at construction makes the integral of the two-dimensional energy spectrum (counted for two components) equal the requested variance, and above the numerical guards the spectrum has the von-Karman-like shape with low-pass filter of the documentation.", "quantifier": "every linear quadrature, every configuration, every wave number above the guards", "why_tests_cant": "All configurations and a continuum of wave numbers.", "anchors": ["drdmannturb/fluctuation_generation/low_frequency/fluctuation_field_generator.py:LowFreqGenerator._compute_c"]}
{"id": "C99", "title": "Plotting without reformatting shows the same field", "statement": "With reshape=False the plotting functions attach to each grid position the same value as with reshape=True.", "quantifier": "every field of shape (nx, ny, nz, 3) and every spacing", "why_tests_cant": "All shapes and values.", "anchors": ["drdmannturb/fluctuation_generation/wind_plot.py:plot_velocity_components", "drdmannturb/fluctuation_generation/wind_plot.py:plot_velocity_magnitude"]}
{"id": "C100", "title": "Every documented sampling method delivers a field on the grid", "statement": "For each documented sampling_method, a random field over a grid is constructed and sample() returns an array of the shape of the grid.", "quantifier": "every documented method, every grid with more than one node, every noise stream", "why_tests_cant": "All grid shapes and all methods; array broadcasting depends on the extents.", "anchors": ["drdmannturb/fluctuation_generation/gaussian_random_fields.py:GaussianRandomField.sample", "drdmannturb/fluctuation_generation/sampling_methods.py:Sampling_FFT.__call__", "drdmannturb/fluctuation_generation/sampling_methods.py:Sampling_DST.__call__", "drdmannturb/fluctuation_generation/sampling_methods.py:Sampling_FFTW.__call__", "drdmannturb/fluctuation_generation/sampling_methods.py:Sampling_VF_FFTW.__call__"]}
{"id": "C101", "title": "Vector fields can be sampled without giving noise", "statement": "VectorGaussianRandomField.sample() without noise draws noise and returns a vector field over the grid.", "quantifier": "every grid with more than one node, every noise stream", "why_tests_cant": "All grid shapes.", "anchors": ["drdmannturb/fluctuation_generation/gaussian_random_fields.py:VectorGaussianRandomField", "drdmannturb/fluctuation_generation/gaussian_random_fields.py:GaussianRandomField.sample", "drdmannturb/fluctuation_generation/gaussian_random_fields.py:GaussianRandomField.sample_noise"]}
{"id": "C102", "title": "Noise is scaled by the cell volume", "statement": "The variance of the noise drawn for a field is the volume of one grid cell.", "quantifier": "every level, shape and dimensions of the grid", "why_tests_cant": "All real grid dimensions and all levels.", "anchors": ["drdmannturb/fluctuation_generation/gaussian_random_fields.py:GaussianRandomField.__init__", "drdmannturb/fluctuation_generation/gaussian_random_fields.py:GaussianRandomField.sample_noise"]}
{"id": "C103", "title": "A rejected sampling method leaves the field unchanged", "statement": "Selecting an unknown sampling method raises, and afterwards the field reports and behaves as before.", "quantifier": "every field, every unknown method name, every later sequence of calls", "why_tests_cant": "All call histories after the failure.", "anchors": ["drdmannturb/fluctuation_generation/gaussian_random_fields.py:GaussianRandomField.setSamplingMethod"]}
{"id": "C104", "title": "Default grid shape is usable", "statement": "A random field can be constructed without giving grid_shape.", "quantifier": "every combination of the other arguments", "why_tests_cant": "All argument combinations.", "anchors": ["drdmannturb/fluctuation_generation/gaussian_random_fields.py:GaussianRandomField.__init__"]}
{"id": "C105", "title": "Reseeding makes a random field reproducible", "statement": "After reseed(s) every later noise array and sample is the same whatever was drawn before; successive noise arrays are successive stretches of one stream; sampling given noise does not touch the random state.", "quantifier": "every call history before and after, every seed and generator state", "why_tests_cant": "Unbounded histories of calls.", "anchors": ["drdmannturb/fluctuation_generation/gaussian_random_fields.py:GaussianRandomField.reseed", "drdmannturb/fluctuation_generation/gaussian_random_fields.py:GaussianRandomField.sample_noise", "drdmannturb/fluctuation_generation/gaussian_random_fields.py:GaussianRandomField.sample"]}
{"id": "C106", "title": "grid_dimensions determine the domain", "statement": "The box spanned by the nodes of the field has the side lengths given as grid_dimensions.", "quantifier": "every level and shape of the grid, every dimensions", "why_tests_cant": "All real dimensions and levels.", "anchors": ["drdmannturb/fluctuation_generation/gaussian_random_fields.py:GaussianRandomField.__init__"]}
{"id": "C107", "title": "The chosen optimiser is used", "statement": "calibrate trains with the optimizer_class given by the caller.", "quantifier": "every optimiser class", "why_tests_cant": "Ranges over all classes of the optimisation library.", "anchors": ["drdmannturb/spectra_fitting/calibration.py:CalibrationProblem.calibrate"]}
{"id": "C108", "title": "A stationary point of the loss is kept", "statement": "When every gradient of the loss is zero, an optimiser step leaves the parameters unchanged.", "quantifier": "every learning rate and parameter vector", "why_tests_cant": "All real parameter vectors.", "anchors": ["drdmannturb/spectra_fitting/calibration.py:CalibrationProblem.calibrate"]}
{"id": "C109", "title": "Learning rate follows cosine annealing", "statement": "After a calibration the learning rate is the initial one times (1 + cos(pi n / N)) / 2 after n of N epochs, times the factors 1/2, 3/10 or 7/10 of the advice followed, at most one per fifty epochs; it never leaves the interval from 0 to the initial rate and is 0 after the last epoch.", "quantifier": "every configuration, data set, optimiser behaviour and number of epochs", "why_tests_cant": "All training histories of any length.", "anchors": ["drdmannturb/spectra_fitting/calibration.py:CalibrationProblem.calibrate", "drdmannturb/spectra_fitting/loss_functions.py:LossAggregator.should_adjust_learning_rate"]}
{"id": "C110", "title": "Giving model values to plot does not change the figure", "statement": "plot with model_vals equal to the evaluation of the model on the data draws the same figure as plot without it, with model and data in the same units.", "quantifier": "every model, data set, component count and friction velocity", "why_tests_cant": "All real values.", "anchors": ["drdmannturb/spectra_fitting/calibration.py:CalibrationProblem.plot"]}
{"id": "C111", "title": "plot reports missing data as documented", "statement": "plot without data and without earlier calibration raises ValueError; data points of the documented type are drawn.", "quantifier": "every problem, every data argument", "why_tests_cant": "All arguments and histories.", "anchors": ["drdmannturb/spectra_fitting/calibration.py:CalibrationProblem.plot"]}
{"id": "C112", "title": "Coherence figure shows the calibrated model", "statement": "After calibrate the coherence figure shows the coherence of the calibrated parameters.", "quantifier": "every configuration, optimiser and initial parameters", "why_tests_cant": "All training histories.", "anchors": ["drdmannturb/spectra_fitting/calibration.py:CalibrationProblem.calibrate", "drdmannturb/spectra_fitting/calibration.py:CalibrationProblem._plot_coherence_data"]}
{"id": "C113", "title": "Saved figures have the documented names", "statement": "plot(save=True) writes <name>_spectra.png and, when tau is plotted, <name>_tau.png in save_dir or else in output_directory, with the documented default names, and raises ValueError when neither directory is known.", "quantifier": "every directory and file name", "why_tests_cant": "All strings.", "anchors": ["drdmannturb/spectra_fitting/calibration.py:CalibrationProblem.plot"]}
{"id": "C114", "title": "Energy scale and friction velocity set the size of the fluctuations", "statement": "Fields generated with a larger energy_spectrum_scale or friction_velocity (or from a fit with a larger magnitude) have larger fluctuations; the fluctuations scale with the square root of the energy scale.", "quantifier": "every pair of generators that differ in these arguments only, every sequence of generate calls, seeded or not, with or without a low-frequency field", "why_tests_cant": "Ranges over all arguments, random streams and call histories.", "anchors": ["drdmannturb/fluctuation_generation/fluctuation_field_generator.py:FluctuationFieldGenerator.__init__", "drdmannturb/fluctuation_generation/fluctuation_field_generator.py:FluctuationFieldGenerator.generate", "drdmannturb/fluctuation_generation/fluctuation_field_generator.py:FluctuationFieldGenerator._normalize_block", "drdmannturb/fluctuation_generation/covariance_kernels.py:MannCovariance.precompute_Spectrum"]}
{"id": "C115", "title": "Sampled field has the calibrated streamwise spectrum", "statement": "Before normalisation, the expected streamwise cross-spectrum of two components along every grid line is the sum over the transverse wave numbers of the grid of the spectral tensor of the model (times nx^2 over the volume of the box); for the Mann model this is the tensor that calibration integrates to the one-point spectra.", "quantifier": "every kernel of the package, box, number of rows, odd transverse extents (always so in the generator for grid levels above 0), grid line, pair of components, and streamwise mode other than the Nyquist mode (and other than zero for the calibrated tensor)", "why_tests_cant": "An expectation over all noise arrays, on all grids; a test estimates it statistically with tolerance.", "anchors": ["drdmannturb/fluctuation_generation/gaussian_random_fields.py:GaussianRandomField.sample", "drdmannturb/fluctuation_generation/sampling_methods.py:Sampling_VF_FFTW.__call__", "drdmannturb/fluctuation_generation/covariance_kernels.py:MannCovariance.precompute_Spectrum", "drdmannturb/spectra_fitting/one_point_spectra.py:OnePointSpectra.PowerSpectra"]}
{"id": "C116", "title": "Variance of a sampled field does not depend on the resolution", "statement": "The variance of a component of the field drawn by a vector Gaussian random field is the Riemann sum of the spectral tensor over the wave vectors of the grid.", "quantifier": "every box, odd grid, node and component", "why_tests_cant": "An expectation over all noise arrays on all grids.", "anchors": ["drdmannturb/fluctuation_generation/gaussian_random_fields.py:GaussianRandomField.sample_noise", "drdmannturb/fluctuation_generation/gaussian_random_fields.py:GaussianRandomField.sample", "drdmannturb/fluctuation_generation/sampling_methods.py:Sampling_VF_FFTW.__call__"]}
{"id": "C117", "title": "Printed fit is the latest successful one", "statement": "print_calibrated_params raises ValueError as long as no call of calibrate on the problem has returned; afterwards it prints the values returned by the most recent call that returned, whatever calls (failed calibrations, assignments of parameters, prints) happened around it.", "quantifier": "every sequence of calibrate, parameter assignment and print on one problem, every optimiser, scheduler and data dictionary, with exceptions caught by the caller", "why_tests_cant": "All histories of operations on one object, including failing ones.", "anchors": ["drdmannturb/spectra_fitting/calibration.py:CalibrationProblem.print_calibrated_params", "drdmannturb/spectra_fitting/calibration.py:CalibrationProblem.calibrate"]}
{"id": "C118", "title": "Stored fit describes the model", "statement": "The values printed by print_calibrated_params are the scales (and exponents) of the current parameters of the problem.", "quantifier": "every history of operations on one problem", "why_tests_cant": "All histories.", "anchors": ["drdmannturb/spectra_fitting/calibration.py:CalibrationProblem.print_calibrated_params", "drdmannturb/spectra_fitting/calibration.py:CalibrationProblem.parameters"]}
{"id": "C119", "title": "A failed calibration leaves the problem as it was", "statement": "When calibrate raises, the parameters of the problem, its stored fit and its architecture are those from before the call.", "quantifier": "every problem, optimiser, scheduler and data dictionary for which calibrate raises", "why_tests_cant": "All points at which training can raise.", "anchors": ["drdmannturb/spectra_fitting/calibration.py:CalibrationProblem.calibrate"]}
{"id": "C120", "title": "Norm and number of network parameters", "statement": "For a network eddy lifetime eval_trainable_norm is the Euclidean norm of the part of the parameter vector behind the physical parameters (all layers and, when learned, nu): non-negative, zero exactly when all of them vanish; num_trainable_params is the length of that part. Both raise ValueError for every other eddy lifetime.", "quantifier": "every problem, architecture and parameter values", "why_tests_cant": "All parameter values and architectures.", "anchors": ["drdmannturb/spectra_fitting/calibration.py:CalibrationProblem.eval_trainable_norm", "drdmannturb/spectra_fitting/calibration.py:CalibrationProblem.num_trainable_params", "drdmannturb/spectra_fitting/calibration.py:CalibrationProblem.parameters"]}
{"id": "C121", "title": "Saving over an older model is all or nothing", "statement": "If the process stops at any point during save_model, the file holds either the previously saved model or the new one, and no other file is touched.", "quantifier": "every crash point (between directory creation, opening, and each partial write), every previous content", "why_tests_cant": "All crash points; a test observes completed calls.", "anchors": ["drdmannturb/spectra_fitting/calibration.py:CalibrationProblem.save_model"]}
{"id": "C122", "title": "Concurrent saves do not damage each other", "statement": "When two processes call save_model at the same time, every interleaving leaves complete files: both files when directory or eddy lifetime type differ, one of the two models when they agree.", "quantifier": "every interleaving of the file operations of two saves, every way the pickled bytes are split into writes", "why_tests_cant": "All schedules.", "anchors": ["drdmannturb/spectra_fitting/calibration.py:CalibrationProblem.save_model"]}
{"id": "C123", "title": "Loss plots show every recorded value", "statement": "plot_loss_logs draws, for every loss term of a log, the full recorded series.", "quantifier": "every log: any number of terms and records", "why_tests_cant": "All logs.", "anchors": ["drdmannturb/common.py:plot_loss_logs"]}
{"id": "C124", "title": "Run number selects the run", "statement": "plot_losses(run_number) shows the log of that run; it raises for a missing logging directory and for run numbers out of range.", "quantifier": "every directory content, order of directory listing, and run number", "why_tests_cant": "The order of a directory listing is arbitrary; a test sees the one of its file system.", "anchors": ["drdmannturb/spectra_fitting/calibration.py:CalibrationProblem.plot_losses", "drdmannturb/common.py:plot_loss_logs"]}
{"id": "C125", "title": "One-point spectra converge to the cross-stream integral", "statement": "The quadrature behind the one-point spectra converges: as the smallest wave number of the grid is made small and then the number of points large, the auto-spectra and the uw cross-spectrum come arbitrarily close to k1 times the integral of the spectral tensor over the square of half-width 10^p2, up to the clipping constant 1e-12 times k1 times the area; the integral exists for every model with continuous energy spectrum and lifetime, which the four closed-form lifetimes and both energy spectra are.", "quantifier": "every model with continuous energy spectrum and lifetime, every k1 > 0, outer limit and tolerance", "why_tests_cant": "A statement about limits of grids; a test evaluates finitely many grids.", "anchors": ["drdmannturb/spectra_fitting/one_point_spectra.py:OnePointSpectra.forward", "drdmannturb/spectra_fitting/one_point_spectra.py:OnePointSpectra.quad23", "drdmannturb/spectra_fitting/one_point_spectra.py:OnePointSpectra.PowerSpectra"]}
{"id": "C126", "title": "Coherence converges under grid refinement", "statement": "The squared coherence computed on the grid of the constructor converges, as the smallest wave number is made small and then the number of points large, to the coherence of the (floored) spectral density over the square of half-width 10^p2/L.", "quantifier": "every continuous model, wave number, separation, component, length scale and outer limit", "why_tests_cant": "A statement about limits of grids.", "anchors": ["drdmannturb/spectra_fitting/one_point_spectra.py:OnePointSpectra.SpectralCoherence", "drdmannturb/spectra_fitting/one_point_spectra.py:OnePointSpectra.__init__"]}
{"id": "C127", "title": "More grid points suffice for accuracy", "statement": "Increasing the number of grid points alone makes the one-point spectra converge to the cross-stream integral.", "quantifier": "every continuous model, every pair of exponents", "why_tests_cant": "A statement about all numbers of points.", "anchors": ["drdmannturb/spectra_fitting/one_point_spectra.py:OnePointSpectra.__init__", "drdmannturb/spectra_fitting/one_point_spectra.py:OnePointSpectra.quad23"]}
{"id": "C128", "title": "The low-frequency field has the configured variance", "statement": "The spectral density realised by the low-frequency generator carries the configured variance sigma2 in total (both components together), for every anisotropy angle between 0 and 90 degrees.", "quantifier": "every configuration with positive lengths, every angle", "why_tests_cant": "All angles; sample variances in a test scatter and the shipped examples use angles near 45 degrees.", "anchors": ["drdmannturb/fluctuation_generation/low_frequency/fluctuation_field_generator.py:LowFreqGenerator._compute_c", "drdmannturb/fluctuation_generation/low_frequency/fluctuation_field_generator.py:LowFreqGenerator._generate_numba_helper"]}
{"id": "C129", "title": "The anisotropy angle orders the variances", "statement": "Below 45 degrees the streamwise component of the low-frequency field has the larger variance, at 45 degrees both are equal, above 45 degrees the lateral one has the larger variance; the difference is at least |cos 2 psi|/4 times the integrated energy.", "quantifier": "every angle in (0, 90) degrees, every length, inversion height and cut-off", "why_tests_cant": "All angles and parameters.", "anchors": ["drdmannturb/fluctuation_generation/low_frequency/fluctuation_field_generator.py:LowFreqGenerator._generate_numba_helper"]}
{"id": "C130", "title": "Estimated low-frequency spectra are unbiased and converge", "statement": "On a low-frequency domain that needs no enlargement, generate followed by compute_spectrum always succeeds, the average over seeds of the estimated F11 and F22 at every reported wave number below the highest equals the Riemann sum of the integrand of analytical_spectrum over the lateral wave numbers of the grid, and this average converges to analytical_spectrum with k2_limit = pi/dy as the lateral side grows at fixed spacing.", "quantifier": "every configuration with equal spacings and sides of at least five integral scales, every white ensemble of seeds, every tolerance", "why_tests_cant": "The claim is about the average over all seeds and about a limit of domains; a test sees a few noisy estimates.", "anchors": ["drdmannturb/fluctuation_generation/low_frequency/fluctuation_field_generator.py:LowFreqGenerator.generate", "drdmannturb/fluctuation_generation/low_frequency/fluctuation_field_generator.py:LowFreqGenerator.compute_spectrum", "drdmannturb/fluctuation_generation/low_frequency/fluctuation_field_generator.py:LowFreqGenerator.analytical_spectrum"]}
{"id": "C131", "title": "The figure of the low-frequency fields shows the fields", "statement": "plot_velocity_fields raises before generate; afterwards every node's value is shown at the node's position in kilometres in the panel of its component, with one colour range shared by both panels, symmetric about zero and the smallest containing all values.", "quantifier": "every configuration, seed, node and point nearer to that node than half a spacing", "why_tests_cant": "All fields and positions; image tests compare one picture.", "anchors": ["drdmannturb/fluctuation_generation/low_frequency/fluctuation_field_generator.py:LowFreqGenerator.plot_velocity_fields"]}
{"id": "C132", "title": "Exported files hold the generated field", "statement": "After every history of generate calls, successful or not, save_to_vtk writes a file in which a reader finds, cell by cell and component by component, exactly the accumulated field, in a box with the configured transverse extents and a length of one domain length per generated block.", "quantifier": "every configuration with positive lengths and scales, every history of calls, every cell", "why_tests_cant": "All histories and grid shapes; the order of cells in the file is invisible to a test which does not read the file back.", "anchors": ["drdmannturb/fluctuation_generation/fluctuation_field_generator.py:FluctuationFieldGenerator.save_to_vtk", "drdmannturb/fluctuation_generation/fluctuation_field_generator.py:FluctuationFieldGenerator.generate"]}
{"id": "C133", "title": "Problems do not share parameters", "statement": "Problems are independent of each other and of the vectors assigned to their parameters: after assigning a vector to problem.parameters, training one problem changes neither another problem nor any array or tensor the user holds, and changing such an array or tensor changes no problem.", "quantifier": "every session of constructions, reads, assignments, optimiser steps and in-place changes, over any number of problems", "why_tests_cant": "A statement about all histories and about memory shared between objects, which shows only when one vector is used twice.", "anchors": ["drdmannturb/spectra_fitting/calibration.py:CalibrationProblem.parameters", "drdmannturb/spectra_fitting/calibration.py:CalibrationProblem.calibrate"]}
{"id": "C134", "title": "A parameter vector read from a problem is a snapshot", "statement": "The vector returned by problem.parameters keeps its values whatever happens later (training, assignments, other problems), as long as the user does not change it in place and does not assign it as a torch tensor.", "quantifier": "every session before and after the read", "why_tests_cant": "All histories.", "anchors": ["drdmannturb/spectra_fitting/calibration.py:CalibrationProblem.parameters"]}
{"id": "C135", "title": "Eddy-lifetime figure shows the current lifetime", "statement": "Each of the four model curves of the eddy-lifetime figure has fifty points, at wave numbers equidistant in the logarithm from 1/1000 to 1000, each showing the lifetime of the current model in the direction of its curve (three axes and the diagonal); for lifetime models without a network the figure can always be drawn and the four curves coincide; the Mann model with the scales given by the user lies on the reference curve.", "quantifier": "every lifetime model, scales, network, curve and point", "why_tests_cant": "All models and scales; image tests compare one picture.", "anchors": ["drdmannturb/spectra_fitting/calibration.py:CalibrationProblem.plot", "drdmannturb/spectra_fitting/one_point_spectra.py:OnePointSpectra.EddyLifetime"]}
{"id": "C136", "title": "Abscissa of the eddy-lifetime figure", "statement": "The abscissa labelled kL of the eddy-lifetime figure is the wave number times the length scale of the plotted model, so that a two-thirds lifetime is drawn as T x^(-2/3).", "quantifier": "every calibrated length scale and time scale, every point", "why_tests_cant": "All parameter values; invisible as long as the length scale is not calibrated away from its initial value.", "anchors": ["drdmannturb/spectra_fitting/calibration.py:CalibrationProblem.plot"]}
{"id": "C137", "title": "Stopping below the tolerance means a fit below the tolerance", "statement": "When calibrate ends before nepochs epochs (reporting a loss below tol), the parameters it returns have a loss below tol.", "quantifier": "every optimiser, data set, configuration and history of the training", "why_tests_cant": "All optimisers and loss landscapes; needs a step which leaves the neighbourhood.", "anchors": ["drdmannturb/spectra_fitting/calibration.py:CalibrationProblem.calibrate"]}
{"id": "C138", "title": "Value of the loss", "statement": "For spectra without zeros on increasing positive wave numbers, the loss is the mean over all spectra and wave numbers of the squared difference of the logarithms of |model| and |data|, plus alpha_pen1 times the mean squared positive log-log slope over zref, plus alpha_pen2 times the mean squared positive second derivative over zref squared, plus beta_reg times the mean squared parameter, plus gamma_coherence times the mean over the three components of the mean squared coherence error; a term counts exactly when its weight is positive and its data are given.", "quantifier": "every grid, spectra, data, weights, parameter vector, coherence data, epoch and history of earlier evaluations", "why_tests_cant": "All weights and switches at once and all previous evaluations; a test fixes one combination.", "anchors": ["drdmannturb/spectra_fitting/loss_functions.py:LossAggregator.eval", "drdmannturb/spectra_fitting/loss_functions.py:LossAggregator.MSE_term", "drdmannturb/spectra_fitting/loss_functions.py:LossAggregator.Pen1stOrder", "drdmannturb/spectra_fitting/loss_functions.py:LossAggregator.Pen2ndOrder", "drdmannturb/spectra_fitting/loss_functions.py:LossAggregator.Regularization", "drdmannturb/spectra_fitting/loss_functions.py:LossAggregator.CoherenceLoss"]}
{"id": "C139", "title": "The misfit is the documented one", "statement": "The reported misfit equals the formula in its documentation: the squared log-distances summed over the fitted spectra and averaged over the wave numbers.", "quantifier": "every grid and all spectra and data without zeros", "why_tests_cant": "All numbers of spectra; a test of equality with zero, or with one spectrum, passes.", "anchors": ["drdmannturb/spectra_fitting/loss_functions.py:LossAggregator.MSE_term"]}
{"id": "C140", "title": "Noise is the random sequence, each number used once", "statement": "The noise from which the blocks of a generator are made consists of the numbers of its random generator in order, scaled by the square root of the cell volume, plane after plane; no number is used for two places and none is skipped, whatever the calls, successful or not. Its extents are those of the block plus the least buffers and margins covering 3 Gamma L along the flow and L across it on both sides.", "quantifier": "every configuration, random generator, seed and history of calls", "why_tests_cant": "All histories; repeated or skipped numbers do not show in any single field.", "anchors": ["drdmannturb/fluctuation_generation/fluctuation_field_generator.py:FluctuationFieldGenerator.__init__", "drdmannturb/fluctuation_generation/fluctuation_field_generator.py:FluctuationFieldGenerator._generate_block", "drdmannturb/fluctuation_generation/gaussian_random_fields.py:GaussianRandomField.sample_noise"]}
{"id": "C141", "title": "Every delivered value", "statement": "Each value of a successfully generated block is the sampled value at the node behind the buffer and margin, divided by one positive factor per block, plus (first component) the mean profile at its height, plus (first two components) the low-frequency field at the position of the node, the box being centred across the low-frequency field.", "quantifier": "every generator, history of calls, block, node and component, with and without a low-frequency field", "why_tests_cant": "All histories and nodes.", "anchors": ["drdmannturb/fluctuation_generation/fluctuation_field_generator.py:FluctuationFieldGenerator.generate", "drdmannturb/fluctuation_generation/fluctuation_field_generator.py:FluctuationFieldGenerator._normalize_block"]}
{"id": "C142", "title": "Two-point covariance of the sampled field", "statement": "Between any two nodes of the noise box, the covariance of the field a constructed generator samples from unit normal numbers is the mean, over the wave vectors of the box, of the model's spectral tensor turned by k.(x - x'), with x and x' taken at the node distances of the requested grid; for an odd blending number exactly the model's tensor, otherwise with opposite modes paired as the real transform does.", "quantifier": "every model, scale, box, resolution, blending number, pair of nodes and pair of components", "why_tests_cant": "The covariance is an average over all noise; a wrong box length or amplitude changes spectra only slightly in any sample.", "anchors": ["drdmannturb/fluctuation_generation/sampling_methods.py:Sampling_VF_FFTW", "drdmannturb/fluctuation_generation/gaussian_random_fields.py:GaussianRandomField", "drdmannturb/fluctuation_generation/fluctuation_field_generator.py:FluctuationFieldGenerator.__init__"]}
{"id": "C143", "title": "Low-frequency content in all of a generated field", "statement": "With a low-frequency model configured, every generated node receives the low-frequency velocities interpolated from the field drawn for this generator.", "quantifier": "every configuration, random state, history of calls, number of blocks and node", "why_tests_cant": "All positions and numbers of blocks; nothing is reported when positions leave the low-frequency field.", "anchors": ["drdmannturb/fluctuation_generation/fluctuation_field_generator.py:FluctuationFieldGenerator.generate", "drdmannturb/fluctuation_generation/low_frequency/fluctuation_field_generator.py:LowFreqGenerator.interp_slice"]}
{"id": "C144", "title": "The mesh study shows every requested mesh", "statement": "mesh_independence_study(low, high) ends with a figure containing one point of each of its four curves for every exponent from low to high.", "quantifier": "every range of exponents, random state, assignment of tasks to worker processes and order of completion", "why_tests_cant": "Exceptions of workers are only printed; which of them occur for which sizes and schedules no run shows.", "anchors": ["drdmannturb/fluctuation_generation/low_frequency/large_plot.py:mesh_independence_study", "drdmannturb/fluctuation_generation/low_frequency/large_plot.py:_run_single_mesh"]}
{"id": "C145", "title": "The domain study shows every requested size", "statement": "domain_size_study(factors) ends with a figure containing one point of each of its four curves for every factor, in increasing order of size.", "quantifier": "every list of positive factors, random state, assignment of tasks to processes and order of completion", "why_tests_cant": "All lists and schedules; missing points are only printed.", "anchors": ["drdmannturb/fluctuation_generation/low_frequency/large_plot.py:domain_size_study", "drdmannturb/fluctuation_generation/low_frequency/large_plot.py:_run_single_domain_size"]}
{"id": "C146", "title": "The domain study does not depend on scheduling", "statement": "For a fixed random seed the figure of domain_size_study is the same whichever worker process takes which task and in whichever order the tasks complete.", "quantifier": "every list of distinct positive factors, random state and schedule", "why_tests_cant": "A property of all schedules; tests see one.", "anchors": ["drdmannturb/fluctuation_generation/low_frequency/large_plot.py:domain_size_study", "drdmannturb/fluctuation_generation/low_frequency/large_plot.py:_run_single_domain_size"]}
{"id": "C147", "title": "Variances shown by the domain study", "statement": "The variance shown for a domain size has the average of the variance of a realisation on that domain.", "quantifier": "every domain of at least five scales, every source of centred uncorrelated unit numbers and number of realisations", "why_tests_cant": "A statement on averages over all seeds.", "anchors": ["drdmannturb/fluctuation_generation/low_frequency/large_plot.py:_run_single_domain_size", "drdmannturb/fluctuation_generation/low_frequency/large_plot.py:_run_single_mesh"]}
{"id": "C148", "title": "Variance printed from the spectrum", "statement": "plot_spectra_comparison prints, for each component, a variance computed from the spectrum which agrees with the printed actual variance of the field.", "quantifier": "every configuration with at least four streamwise points and every random state", "why_tests_cant": "The factor between the numbers holds for all fields; single runs show noisy numbers.", "anchors": ["drdmannturb/fluctuation_generation/low_frequency/large_plot.py:plot_spectra_comparison", "drdmannturb/fluctuation_generation/low_frequency/fluctuation_field_generator.py:LowFreqGenerator.compute_spectrum"]}
{"id": "C149", "title": "Averaged variances are those the grid carries", "statement": "The variances averaged over realisations, as printed by the variance tables, are on average over seeds the model's two-dimensional spectra summed over the resolved modes: exactly on the computational grid, at most this on the delivered part of an enlarged grid.", "quantifier": "every configuration in the ordinary ranges of scales and angles, number of realisations and source of centred uncorrelated unit numbers", "why_tests_cant": "A statement on averages over all seeds.", "anchors": ["drdmannturb/fluctuation_generation/low_frequency/large_plot.py:length_AND_grid_size_study", "drdmannturb/fluctuation_generation/low_frequency/large_plot.py:rectangular_domain_study", "drdmannturb/fluctuation_generation/low_frequency/large_plot.py:anisotropy_study", "drdmannturb/fluctuation_generation/low_frequency/fluctuation_field_generator.py:LowFreqGenerator.generate"]}
{"id": "C150", "title": "The anisotropy study shows and reports each angle", "statement": "anisotropy_study succeeds; its result holds, under each angle, the average variances of fields generated with this angle and their sum, the row labelled with an angle shows a field generated with it, and one symmetric colour scale covers all fields shown and is attained.", "quantifier": "every list of distinct angles, valid configuration, number of realisations and random state, with and without plotting", "why_tests_cant": "All lists of angles including single ones, all random states.", "anchors": ["drdmannturb/fluctuation_generation/low_frequency/large_plot.py:anisotropy_study"]}
{"id": "C151", "title": "Selecting a sampling method later", "statement": "After setSamplingMethod with a documented method, every later call of a random field or vector field delivers what a field constructed with this method would deliver.", "quantifier": "every construction, documented method, random state and later history of calls", "why_tests_cant": "All later histories; tests inspect the object after one call.", "anchors": ["drdmannturb/fluctuation_generation/gaussian_random_fields.py:GaussianRandomField.setSamplingMethod", "drdmannturb/fluctuation_generation/gaussian_random_fields.py:VectorGaussianRandomField"]}
{"id": "C152", "title": "Only three-dimensional fields are constructed", "statement": "As documented, the number of dimensions is forced: for every number of dimensions other than three the construction of a random field raises.", "quantifier": "every combination of constructor arguments with a number of dimensions other than three", "why_tests_cant": "All combinations of levels, shapes, dimensions and methods.", "anchors": ["drdmannturb/fluctuation_generation/gaussian_random_fields.py:GaussianRandomField.__init__", "drdmannturb/fluctuation_generation/covariance_kernels.py:VonKarmanCovariance.precompute_Spectrum"]}
{"id": "C153", "title": "Asymptotics of Mann's lifetime", "statement": "Mann's lifetime, evaluated with the hypergeometric function, is positive, decreases with the wave number, never falls below the two-thirds law, approaches the two-thirds law at large wave numbers and follows 1/k at small ones.", "quantifier": "every length and time scale, direction and wave number", "why_tests_cant": "Laws for arbitrarily large and small wave numbers; tests sample finitely many.", "anchors": ["drdmannturb/common.py:Mann", "drdmannturb/spectra_fitting/one_point_spectra.py:OnePointSpectra.EddyLifetime"]}
{"id": "C154", "title": "Asymptotics of learned lifetimes", "statement": "Whatever the weights and activations, the lifetime computed by a network is finite at non-zero wave vectors, decays with exponent -2/3 at large wave numbers and follows nu - 2/3 at small ones.", "quantifier": "every network, weights, activation, nu, scale and direction", "why_tests_cant": "All weights reachable by training and arbitrarily large wave numbers.", "anchors": ["drdmannturb/nn_modules.py:TauNet", "drdmannturb/nn_modules.py:Rational", "drdmannturb/spectra_fitting/one_point_spectra.py:OnePointSpectra.EddyLifetime"]}
{"id": "C155", "title": "Requested slopes of the energy spectrum", "statement": "The energy spectrum of a problem has the low- and high-frequency slopes requested by alpha_low and alpha_high; with a learnable spectrum it has the slopes given by its exponents.", "quantifier": "every request, scale, direction of the wave vector", "why_tests_cant": "Asymptotic slopes concern arbitrarily small and large wave numbers.", "anchors": ["drdmannturb/parameters.py:PhysicalParameters", "drdmannturb/parameters.py:ProblemParameters", "drdmannturb/spectra_fitting/one_point_spectra.py:OnePointSpectra.forward", "drdmannturb/spectra_fitting/calibration.py:CalibrationProblem"]}
{"id": "C156", "title": "Generated von Karman data are spectra of the model", "statement": "The data made by the von Karman generator with length scale L and magnitude C are the one-point spectra of the model with that length scale and magnitude, the von Karman energy spectrum and no shear: the exact cross-stream integral of every tensor entry times k1 is the generated value up to an explicit bound that vanishes for wide squares, the quadrature approaches it on wide and fine grids, and the values of the uu spectrum at two wave numbers determine L and C.", "quantifier": "every length scale, magnitude, non-zero wave number, tensor entry, width and resolution of the grid", "why_tests_cant": "Equality of an improper double integral with a closed formula, for all parameters; a test compares finitely many quadratures within a tolerance.", "anchors": ["drdmannturb/spectra_fitting/data_generator.py:generate_von_karman_spectra", "drdmannturb/spectra_fitting/one_point_spectra.py:OnePointSpectra.forward", "drdmannturb/spectra_fitting/one_point_spectra.py:OnePointSpectra.quad23", "drdmannturb/common.py:VKLike_EnergySpectrum"]}
{"id": "C157", "title": "Spectra decay at large wave numbers", "statement": "The weighted auto-spectra k1 F returned for a model with a bounded energy spectrum tend to zero as the streamwise wave number grows.", "quantifier": "every model, grid and large wave number", "why_tests_cant": "A limit at arbitrarily large wave numbers, for every model.", "anchors": ["drdmannturb/spectra_fitting/one_point_spectra.py:OnePointSpectra.forward", "drdmannturb/spectra_fitting/one_point_spectra.py:OnePointSpectra.PowerSpectra", "drdmannturb/spectra_fitting/one_point_spectra.py:OnePointSpectra.quad23"]}
{"id": "C158", "title": "Sampled fields have the calibrated spectrum", "statement": "For a fixed spacing and a growing number of points across, the expected spectral density along the rows of a field drawn by the Gaussian random field sampler tends to the cross-stream integral of the spectral tensor that the calibration fits (with the same length scale, lifetime and magnitude), so that k1 times it meets the quadrature of the calibration and, without shear, the von Karman data, in the units of the data.", "quantifier": "every component pair, length scale, magnitude, streamwise mode, spacing and large odd numbers of points across", "why_tests_cant": "A limit over unboundedly large grids of an expectation over all noise arrays; a test draws a few fields on one grid.", "anchors": ["drdmannturb/fluctuation_generation/sampling_methods.py:Sampling_VF_FFTW", "drdmannturb/fluctuation_generation/gaussian_random_fields.py:VectorGaussianRandomField.sample", "drdmannturb/fluctuation_generation/covariance_kernels.py:MannCovariance.precompute_Spectrum", "drdmannturb/fluctuation_generation/covariance_kernels.py:VonKarmanCovariance.precompute_Spectrum", "drdmannturb/spectra_fitting/one_point_spectra.py:OnePointSpectra.forward", "drdmannturb/spectra_fitting/data_generator.py:generate_von_karman_spectra"]}
{"id": "C159", "title": "Figure 2 compares like with like", "statement": "Recreating figure 2 with n realisations of two generators draws, for each, the premultiplied analytical spectra on the announced range and the premultiplied averages of the spectra estimated from n successive fields; the printed comparisons are the points nearest to the announced abscissae and the highest points of these curves; and averaged over the seeds the numerical curves are the lateral sums of the analytical integrand at every wave number shown, for every generator that can be built.", "quantifier": "every two generators, number of realisations, random state and wave number", "why_tests_cant": "Expectation over all random states, all grids and all numbers of realisations; a test sees one seed and two fixed grids.", "anchors": ["drdmannturb/fluctuation_generation/low_frequency/large_plot.py:recreate_fig2", "drdmannturb/fluctuation_generation/low_frequency/fluctuation_field_generator.py:LowFreqGenerator.compute_spectrum", "drdmannturb/fluctuation_generation/low_frequency/fluctuation_field_generator.py:LowFreqGenerator.generate"]}
{"id": "C160", "title": "Tables over domain and grid sizes", "statement": "In the study over lengths and grid sizes the cell of an exponent and a factor (printed, drawn and labelled) is the average over realisations of a generator with this exponent and this factor; over the seeds it averages to the variance carried by the wave numbers of the grid when nothing has to be cut, and to no more otherwise. In the study of rectangles the reports belong to the ten rectangles in order, all with square cells; the fields before cutting average to the carried variance, the delivered fields to no more, and the two lines agree exactly for rectangles which need no cutting.", "quantifier": "every base configuration, number of realisations, cell, rectangle and random state", "why_tests_cant": "Fifty generators sharing one random stream, and expectations over all seeds; a test would compare single realisations.", "anchors": ["drdmannturb/fluctuation_generation/low_frequency/large_plot.py:length_AND_grid_size_study", "drdmannturb/fluctuation_generation/low_frequency/large_plot.py:rectangular_domain_study", "drdmannturb/fluctuation_generation/low_frequency/fluctuation_field_generator.py:LowFreqGenerator.generate"]}
{"id": "C161", "title": "Spectra depend continuously on the parameters", "statement": "The one-point spectra, auto-coherences and the misfit of a fit to the three auto-spectra depend continuously and jointly on length scale, time scale, magnitude, the exponents of the energy spectrum and, for learned lifetimes, on every weight of the network and its exponent; along any interval of one parameter a best fit exists.", "quantifier": "every family of models with continuous ingredients (parameters in any uniform space), every grid, wave number and row", "why_tests_cant": "Continuity quantifies over all small changes of all parameters; a test perturbs one parameter by one amount and the jumps are of the size of the clipping threshold.", "anchors": ["drdmannturb/spectra_fitting/one_point_spectra.py:OnePointSpectra.forward", "drdmannturb/spectra_fitting/one_point_spectra.py:OnePointSpectra.PowerSpectra", "drdmannturb/spectra_fitting/one_point_spectra.py:OnePointSpectra.SpectralCoherence", "drdmannturb/spectra_fitting/one_point_spectra.py:OnePointSpectra.EddyLifetime", "drdmannturb/nn_modules.py:TauNet.forward", "drdmannturb/spectra_fitting/loss_functions.py:LossAggregator.MSE_term"]}
{"id": "C162", "title": "Parallel loops do not depend on thread scheduling", "statement": "The low-frequency generator computes its kernel and its estimated spectra in parallel loops. However the iterations are distributed over threads and interleaved, and whatever the result arrays held before, the arrays handed back are the same: every entry is the value of its own iteration. No schedule that keeps serving every iteration fails to finish.", "quantifier": "every interleaving of the steps of all iterations, every array size, field, tolerance and initial memory", "why_tests_cant": "A test observes one interleaving on one machine; the statement is about all of them.", "anchors": ["drdmannturb/fluctuation_generation/low_frequency/fluctuation_field_generator.py:LowFreqGenerator._generate_numba_helper", "drdmannturb/fluctuation_generation/low_frequency/fluctuation_field_generator.py:LowFreqGenerator._compute_spectrum_numba_helper", "drdmannturb/fluctuation_generation/low_frequency/fluctuation_field_generator.py:LowFreqGenerator.compute_spectrum"]}
{"id": "C163", "title": "Kernels keep their settings and evaluate the user's function", "statement": "A covariance kernel keeps the length scale, energy and shear it is constructed with and refuses any number of dimensions but three. An evaluation function supplied to the constructor under its documented name is what evaluating the kernel computes.", "quantifier": "every keyword argument list, user function (with effects and exceptions), argument and state", "why_tests_cant": "The statement ranges over all user functions and all sets of keywords, including ignored ones.", "anchors": ["drdmannturb/fluctuation_generation/covariance_kernels.py:Covariance.__init__", "drdmannturb/fluctuation_generation/covariance_kernels.py:Covariance.eval", "drdmannturb/fluctuation_generation/covariance_kernels.py:VonKarmanCovariance.__init__", "drdmannturb/fluctuation_generation/covariance_kernels.py:MannCovariance.__init__", "drdmannturb/fluctuation_generation/nn_covariance.py:NNCovariance.__init__"]}
{"id": "C164", "title": "Every trainable number of a network takes part in a fit", "statement": "The weights of a lifetime network, its exponent when it is to be learned, and the trainable parameters of the activation modules given by the user are all counted, contained in the parameter vector and adapted by a fit; the vector determines the lifetime; constructing the network changes nothing else and gives the exponent the requested initial value up to the documented noise.", "quantifier": "every accepted network, every activation modules with or without parameters, every sequence of changes of the parameters and every random initialisation", "why_tests_cant": "A test fits one network with one activation; the statement is about all histories of a fit and all activation modules.", "anchors": ["drdmannturb/nn_modules.py:TauNet.__init__", "drdmannturb/nn_modules.py:TauNet.forward", "drdmannturb/nn_modules.py:Rational.__init__", "drdmannturb/spectra_fitting/calibration.py:CalibrationProblem.num_trainable_params"]}
{"id": "C165", "title": "Analytical low-frequency spectra approximate the documented integrals", "statement": "For every angle strictly between zero and a right angle the analytical spectra increase with the lateral limit and converge to the integrals over all lateral wave numbers; what the limit cuts off is bounded by an explicit power of the limit. Towards small wave numbers the transverse spectrum vanishes quadratically.", "quantifier": "every generator that can be built, every wave number and pair of limits", "why_tests_cant": "A limit and bounds for all real limits and wave numbers; a test compares finitely many values with another quadrature.", "anchors": ["drdmannturb/fluctuation_generation/low_frequency/fluctuation_field_generator.py:LowFreqGenerator.analytical_spectrum", "drdmannturb/fluctuation_generation/low_frequency/fluctuation_field_generator.py:LowFreqGenerator.__init__"]}
{"id": "C166", "title": "A model saved on one machine can be read on another", "statement": "A file written by save_model is read by the DRD generator on every machine, with or without a GPU, and gives the same configuration and parameters. False of the code: files whose configuration holds tensors of a GPU cannot be read on a machine without one, because the unpickler which moves tensors to the processor is used only on machines that have a GPU. All other combinations work and preserve all numbers.", "quantifier": "every file and every machine", "why_tests_cant": "Needs machines with and without a GPU; a test runs on one machine.", "anchors": ["drdmannturb/fluctuation_generation/fluctuation_field_generator.py:FluctuationFieldGenerator.__init__", "drdmannturb/common.py:CPU_Unpickler.find_class", "drdmannturb/spectra_fitting/calibration.py:CalibrationProblem.save_model"]}
{"id": "C167", "title": "A saved model can be used to generate fields", "statement": "A calibrated network, saved at any moment, can be given to the field generator, which then evaluates exactly the saved parameters. False of the code for models in single precision (torch's default, and always for models fitted on a GPU): the frequencies are in double precision and the network raises RuntimeError. True exactly when the parameters were last given, or the model built, in double precision and the file can be read.", "quantifier": "every configuration, every history of fits, parameter assignments and changes of the default precision, every machine that reads the file", "why_tests_cant": "Histories and machines are unbounded; a test runs in one process with one default precision.", "anchors": ["drdmannturb/fluctuation_generation/fluctuation_field_generator.py:FluctuationFieldGenerator.__init__", "drdmannturb/fluctuation_generation/nn_covariance.py:NNCovariance.precompute_Spectrum", "drdmannturb/spectra_fitting/calibration.py:CalibrationProblem.save_model", "drdmannturb/spectra_fitting/calibration.py:CalibrationProblem.parameters"]}
{"id": "C168", "title": "Data can be given in single and in double precision", "statement": "A problem can be fitted to data in single precision and to data in double precision, also after parameters in either precision have been loaded. False of the code: the wave numbers must have the precision and device which were the defaults when the problem was built; otherwise, and after loading parameters of the other precision, every fit raises RuntimeError.", "quantifier": "every problem, every history, all data", "why_tests_cant": "All histories of loads and fits; a test tries two cases.", "anchors": ["drdmannturb/spectra_fitting/calibration.py:CalibrationProblem.calibrate", "drdmannturb/spectra_fitting/one_point_spectra.py:OnePointSpectra.forward", "drdmannturb/spectra_fitting/calibration.py:CalibrationProblem.parameters"]}
{"id": "C169", "title": "The device is the requested one and other problems are unaffected", "statement": "A problem built for a device has its parameters there, and building it does not change how other tensors of the process are created. False of the code: on a machine with a GPU the device \"cuda\" makes single precision on the GPU the default of the whole process, so a later problem for the processor lies on the GPU; without a GPU, \"cuda\" is accepted and ignored. For other devices, and without a GPU, the defaults of the process are unchanged.", "quantifier": "every machine, default and documented device, every configuration", "why_tests_cant": "Needs machines with and without a GPU and effects on later, unrelated objects.", "anchors": ["drdmannturb/spectra_fitting/calibration.py:CalibrationProblem.init_device", "drdmannturb/spectra_fitting/calibration.py:CalibrationProblem.__init__"]}
{"id": "C170", "title": "The low-frequency grid is right in double precision", "statement": "Computed in IEEE double precision, the computational grid of the low-frequency generator covers the requested lengths, has an even number of nodes which is the smallest that does so, keeps the spacing asked for, and its consistency checks never fail. False of the code in the last bits: on domains of thousands of kilometres the absolute tolerance of the check is smaller than the rounding error and the generator raises RuntimeError, and two nodes too many can be taken. For domains below 2^23 m the checks never fail, lengths and spacings are right to 50 bits and the counts are at most two above the smallest.", "quantifier": "all doubles between 2^-100 and 2^100 for length scale and factors, exponents up to 40", "why_tests_cant": "Rounding errors occur at isolated inputs among 2^64; a test tries a few.", "anchors": ["drdmannturb/fluctuation_generation/low_frequency/fluctuation_field_generator.py:LowFreqGenerator.__init__", "drdmannturb/fluctuation_generation/low_frequency/fluctuation_field_generator.py:LowFreqGenerator._calculate_buffer_sizes"]}
{"id": "C171", "title": "Buffers and margins are right in double precision", "statement": "The buffer computed in double precision covers 3 Gamma L and the margins cover L with the smallest number of cells. False in the last bit: with Gamma = 3.9, L = 59 m and 690.3 m in 9 nodes the buffer is 9 cells and shorter than 3 Gamma L; with Gamma = 3.5, L = 50 m and 75 m in 65 nodes it is 456 cells where 455 are exactly 3 Gamma L. Always, the numbers of cells are at most one off and right to a relative error of 2^-49.", "quantifier": "all doubles between 2^-100 and 2^100, levels up to 40", "why_tests_cant": "All floating point inputs; the error shows up at isolated ones.", "anchors": ["drdmannturb/fluctuation_generation/fluctuation_field_generator.py:FluctuationFieldGenerator.__init__"]}
{"id": "C172", "title": "Wave numbers are mirrored, ordered and accurate in double precision", "statement": "The wave numbers computed in double precision, of the sampler and of the low-frequency grid, are exactly antisymmetric (the mode n-k has minus the wave number of the mode k, to the last bit), zero only for the mean mode, in the order of the exact ones, and differ from these by a relative error of at most 2^-49.", "quantifier": "all box sizes and spacings between 2^-100 and 2^100, grids of up to 2^40 nodes per direction, all modes", "why_tests_cant": "All floating point inputs and grid sizes.", "anchors": ["drdmannturb/fluctuation_generation/sampling_methods.py:Sampling_FFTW.__init__", "drdmannturb/fluctuation_generation/gaussian_random_fields.py:GaussianRandomField.__init__", "drdmannturb/fluctuation_generation/low_frequency/fluctuation_field_generator.py:LowFreqGenerator.__init__"]}
{"id": "C173", "title": "Positions of successive blocks are in order in double precision", "statement": "The positions along the wind at which the low-frequency field is evaluated are, in double precision, strictly increasing within and across blocks, and right to a relative error of 2^-49 of the distance travelled, as long as the number of rows generated is below 2^47.", "quantifier": "every domain length, number of nodes, block and row", "why_tests_cant": "Cancellation in x_end - x_start grows with the number of blocks, which is unbounded.", "anchors": ["drdmannturb/fluctuation_generation/fluctuation_field_generator.py:FluctuationFieldGenerator.generate"]}
{"id": "C174", "title": "Heights and wind profiles are exact where they must be in double precision", "statement": "In double precision the heights start at exactly zero, end exactly at the top, increase strictly and are right to 49 bits. The power law gives exactly the reference speed at the reference height, both profiles are exactly zero at the ground and never decrease with height, for every implementation of the power and logarithm that is monotone and exact at one (and zero).", "quantifier": "all heights, levels, reference values and monotone power and logarithm functions", "why_tests_cant": "All floating point inputs.", "anchors": ["drdmannturb/fluctuation_generation/fluctuation_field_generator.py:FluctuationFieldGenerator._normalize_block", "drdmannturb/fluctuation_generation/fluctuation_field_generator.py:FluctuationFieldGenerator.power_law", "drdmannturb/fluctuation_generation/fluctuation_field_generator.py:FluctuationFieldGenerator.log_law"]}
{"id": "C175", "title": "Over random seeds the blocks have the prescribed covariance", "statement": "Over seeds whose draws are uncorrelated with unit mean square, the product of two components at two nodes of the same block, before the block is divided by its standard deviation, averages to the covariance prescribed by the model for their separation: the same in every block and everywhere in the block. Two blocks are correlated exactly through the noise both use, blocks further apart than the noise array is long are uncorrelated, and the values have mean zero if the draws have.", "quantifier": "all constructed generators, blocks, pairs of nodes and components, and all ensembles of seeds with uncorrelated draws", "why_tests_cant": "A statement about averages over all seeds; a test sees a few realisations.", "anchors": ["drdmannturb/fluctuation_generation/fluctuation_field_generator.py:FluctuationFieldGenerator._generate_block", "drdmannturb/fluctuation_generation/fluctuation_field_generator.py:FluctuationFieldGenerator.__init__", "drdmannturb/fluctuation_generation/gaussian_random_fields.py:VectorGaussianRandomField.sample"]}
{"id": "C176", "title": "The records of an evaluation add up to the loss", "statement": "Recording does not change any computed value. The records of one evaluation of the loss carry one step, begin with the misfit, hold no tag twice, hold exactly the terms which are switched on, and the recorded terms add up to the value returned. An evaluation which raises leaves records ending at the term that is not a number, no component ratios, and an unchanged history. Over any history of evaluations the recorded component ratios are exactly those of the running averages.", "quantifier": "all histories of loss evaluations with all terms on or off, including those that raise", "why_tests_cant": "Quantifies over all histories and failures; TensorBoard files are not read by the tests.", "anchors": ["drdmannturb/spectra_fitting/loss_functions.py:LossAggregator.eval", "drdmannturb/spectra_fitting/loss_functions.py:LossAggregator.log_component_ratios", "drdmannturb/spectra_fitting/loss_functions.py:LossAggregator.MSE_term", "drdmannturb/spectra_fitting/loss_functions.py:LossAggregator.CoherenceLoss"]}
{"id": "C177", "title": "TensorBoard records are per epoch", "statement": "The records of a calibration are written once per epoch, under the number of the epoch (documented: writes results per epoch; epoch: Epoch number). In fact they are written once per evaluation of the loss, under the number of evaluations made by the optimiser so far: an optimiser which evaluates twice per step leaves records with steps beyond the last epoch, and step 0 is used both for the initial evaluation and for the first one of the optimiser. The records split into one group per evaluation whose terms add up to the loss the optimiser saw.", "quantifier": "all data, optimisers, schedules, numbers of epochs and failures", "why_tests_cant": "Depends on how often an optimiser evaluates the loss, for every optimiser.", "anchors": ["drdmannturb/spectra_fitting/calibration.py:CalibrationProblem.calibrate", "drdmannturb/spectra_fitting/loss_functions.py:LossAggregator.eval"]}
{"id": "C178", "title": "Curves of a loss plot at the same abscissa belong to the same evaluation", "statement": "In the figure of the recorded losses all curves at one abscissa come from the same evaluation. In fact the coherence curve is one evaluation ahead of the misfit, because the initial evaluation has no coherence data and series are drawn by position; misfit and penalties are aligned.", "quantifier": "all calibrations with coherence data, optimisers and numbers of epochs", "why_tests_cant": "Quantifies over all calibration histories.", "anchors": ["drdmannturb/common.py:plot_loss_logs", "drdmannturb/spectra_fitting/calibration.py:CalibrationProblem.calibrate", "drdmannturb/spectra_fitting/loss_functions.py:LossAggregator.eval"]}
{"id": "C179", "title": "A comment distinguishes the logs of different runs", "statement": "Calibrations with different comments write their logs to different places (documented: useful for distinguishing between architectures and hyperparameters). In fact the comment is ignored as soon as a logging directory is given; without one, different comments give different directories.", "quantifier": "all logging directories, comments, times and hosts", "why_tests_cant": "All argument combinations.", "anchors": ["drdmannturb/spectra_fitting/calibration.py:CalibrationProblem.calibrate", "drdmannturb/spectra_fitting/loss_functions.py:LossAggregator.__init__"]}
{"id": "C180", "title": "Losses can be balanced automatically", "statement": "With auto_balance_losses the terms of the loss are rescaled every balance_freq epochs. In fact no history of evaluations depends on either option: all returned values and histories are the same, no scale is ever computed, and the stored period is always 10.", "quantifier": "all coefficients, options and histories of evaluations", "why_tests_cant": "Quantifies over all histories of evaluations.", "anchors": ["drdmannturb/parameters.py:LossParameters", "drdmannturb/spectra_fitting/loss_functions.py:LossAggregator.__init__", "drdmannturb/spectra_fitting/loss_functions.py:LossAggregator.eval", "drdmannturb/spectra_fitting/loss_functions.py:LossAggregator.compute_loss_scales"]}
{"id": "C181", "title": "Every valid OMP_NUM_THREADS is accepted", "statement": "A generator can be constructed for every value of OMP_NUM_THREADS allowed by OpenMP, and uses that many threads. In fact a list such as 4,2 raises ValueError although the same generator can be constructed without the variable. A single number with surrounding space gives that many threads, and the same generator as without the variable; any character that does not occur in numbers raises ValueError.", "quantifier": "all values of the environment variable and all generator arguments", "why_tests_cant": "Quantifies over all strings; tests run in one environment.", "anchors": ["drdmannturb/fluctuation_generation/sampling_methods.py:Sampling_VF_FFTW.__init__", "drdmannturb/fluctuation_generation/fluctuation_field_generator.py:FluctuationFieldGenerator.__init__"]}
{"id": "C182", "title": "By default a model is saved below ./results", "statement": "A problem constructed without output_directory saves its model in the directory results below the working directory, which is created if needed. In fact it is the working directory at the time the package was imported: after any history ending in another working directory nothing is written to ./results; and if the directory is missing save_model raises ValueError and writes nothing, though the same name given as a str is created. After one saved figure every later save_model succeeds, whatever happens in between.", "quantifier": "all histories of changing directory, saving models and saving figures, all file systems", "why_tests_cant": "Histories of calls and working directories.", "anchors": ["drdmannturb/spectra_fitting/calibration.py:CalibrationProblem.__init__", "drdmannturb/spectra_fitting/calibration.py:CalibrationProblem.save_model", "drdmannturb/spectra_fitting/calibration.py:CalibrationProblem.plot"]}
{"id": "C183", "title": "All models of a problem are saved in one directory", "statement": "A problem constructed with an output_directory saves all its models there. In fact a relative str is interpreted at every save: after a change of directory the second model goes elsewhere and the first one stays; and the empty str means the root of the file system rather than the working directory. A single save with a relative str writes exactly one file, below the working directory.", "quantifier": "all directory names, file systems and working directories", "why_tests_cant": "Histories of calls and working directories.", "anchors": ["drdmannturb/spectra_fitting/calibration.py:CalibrationProblem.save_model", "drdmannturb/spectra_fitting/calibration.py:CalibrationProblem.__init__"]}
{"id": "C184", "title": "The advice on the learning rate follows fixed rules", "statement": "Once a full window of finite losses is recorded, should_adjust_learning_rate advises, in this order: to halve the rate when the relative improvement of the total over the window is below 1 %; to multiply it by 0.3 when the standard deviation of the total, relative to its mean, makes the stability fall below 0.3; to multiply it by 0.7, naming the first component with the largest average, when this average exceeds a hundred times the smallest one (or 1e-8 if larger); and otherwise to keep it. get_loss_diagnostics reports exactly these four quantities.", "quantifier": "all recorded losses, window lengths of at least two and epochs not before the window", "why_tests_cant": "The recorded losses form an unbounded family of real sequences; a test fixes one history.", "anchors": ["drdmannturb/spectra_fitting/loss_functions.py:LossAggregator.get_loss_diagnostics", "drdmannturb/spectra_fitting/loss_functions.py:LossAggregator.should_adjust_learning_rate"]}
{"id": "C185", "title": "A training in which nothing is wrong keeps its learning rate", "statement": "When the total loss improves steadily and without oscillation, the advice is to keep the learning rate. In fact a term that is switched off has average zero, so its presence makes the dominance ratio a comparison with 1e-8: if any of the terms is switched off and some other one averages more than 1e-6, the rate is always reduced by at least 30 %. It is kept when all terms are active and none averages more than a hundred times another one.", "quantifier": "all loss parameters, all histories of evaluations, window lengths and epochs", "why_tests_cant": "Histories of evaluations of arbitrary length for every choice of weights.", "anchors": ["drdmannturb/spectra_fitting/loss_functions.py:LossAggregator.get_loss_diagnostics", "drdmannturb/spectra_fitting/loss_functions.py:LossAggregator.should_adjust_learning_rate", "drdmannturb/spectra_fitting/calibration.py:CalibrationProblem.calibrate"]}
{"id": "C186", "title": "Derivatives of spectra reported by autograd are their derivatives", "statement": "The derivative which backward reports for a one-point spectrum, with respect to any combination of the trainable parameters, is the derivative of that spectrum as a function of those parameters. In fact for EddyLifetimeType.MANN the dependence of the lifetime on the length scale leaves torch, so the reported derivatives of the lifetime, and of the spectra, with respect to the length scale are wrong. For all other lifetimes they are right wherever no density sits exactly on the lower bound applied to the spectra and the activations of the network are differentiable.", "quantifier": "all parameters, all directions in the space of parameters, networks of every width and depth, grids of every size, all k1 other than zero", "why_tests_cant": "A finite-difference test checks one point with a tolerance; the claim is about every point and direction.", "anchors": ["drdmannturb/spectra_fitting/one_point_spectra.py:OnePointSpectra.forward", "drdmannturb/spectra_fitting/one_point_spectra.py:OnePointSpectra.PowerSpectra", "drdmannturb/spectra_fitting/one_point_spectra.py:OnePointSpectra.EddyLifetime", "drdmannturb/common.py:Mann_linear_exponential_approx", "drdmannturb/common.py:MannEddyLifetime", "drdmannturb/nn_modules.py:TauNet.forward"]}
{"id": "C187", "title": "Calibration follows the gradient of its loss", "statement": "The gradient which the calibration hands to its optimizer is the gradient of the loss, including curvature, magnitude and parameter penalties. In fact for EddyLifetimeType.MANN it is not, for any measured value other than the one the model already has. For all other lifetimes it is, wherever the spectra are differentiable and no modelled or measured value vanishes.", "quantifier": "all parameters, data, penalties, wave number grids and directions in the space of parameters", "why_tests_cant": "The claim is about every point of the parameter space and every data set.", "anchors": ["drdmannturb/spectra_fitting/calibration.py:CalibrationProblem.calibrate", "drdmannturb/spectra_fitting/loss_functions.py:LossAggregator.eval", "drdmannturb/spectra_fitting/one_point_spectra.py:OnePointSpectra.forward", "drdmannturb/common.py:MannEddyLifetime"]}
{"id": "C188", "title": "Every coherence computed with gradients can be differentiated", "statement": "A coherence computed while gradients are recorded can be differentiated once, whatever was computed and differentiated before. In fact a module built with use_coherence=False keeps the wave-number tensors of its first coherence together with the recorded graph: if that first computation recorded gradients, then after one backward every other one raises RuntimeError, of results already held and of results computed later. It holds for modules built with use_coherence=True, and for those whose first coherence is computed without gradients.", "quantifier": "all histories of coherence computations, with and without gradients, and backward calls", "why_tests_cant": "Quantifies over all histories of calls.", "anchors": ["drdmannturb/spectra_fitting/one_point_spectra.py:OnePointSpectra.SpectralCoherence", "drdmannturb/spectra_fitting/one_point_spectra.py:OnePointSpectra.__init__"]}
{"id": "C189", "title": "The fitted magnitude balances modelled and measured values", "statement": "With everything else fixed, the loss including its penalties is a quadratic function of the logarithm of the magnitude. So there is one best magnitude, and it is the one for which the geometric mean of all modelled values equals that of all measured values; every other one is worse by the square of the logarithm of the ratio, whatever the penalty weights are.", "quantifier": "all models, data, penalty weights and grids for fits of the components uu, vv, ww and uw, as long as no density falls below the bound applied to the spectra", "why_tests_cant": "The claim compares the loss at every magnitude, for every model and data set.", "anchors": ["drdmannturb/spectra_fitting/loss_functions.py:LossAggregator.eval", "drdmannturb/spectra_fitting/loss_functions.py:LossAggregator.MSE_term", "drdmannturb/spectra_fitting/one_point_spectra.py:OnePointSpectra.forward"]}
{"id": "C190", "title": "Generated data depend on the wave numbers, not on their element type", "statement": "Kaimal data and analytical low-frequency spectra at given wave numbers are the same whether the array of wave numbers holds integers or floating-point numbers. In fact both are stored in an array of the element type given: for integers, none negative, the Kaimal data are zero throughout, for every height and friction velocity, and the analytical spectra lose their fractions, so that they are zero beyond an explicit wave number. Floating-point wave numbers give the documented values.", "quantifier": "all arrays of integer or floating-point wave numbers, heights, friction velocities, low-frequency generators and integration limits", "why_tests_cant": "The loss of the values concerns every integer array; a test with floating-point wave numbers does not see it.", "anchors": ["drdmannturb/spectra_fitting/data_generator.py:generate_kaimal_spectra", "drdmannturb/fluctuation_generation/low_frequency/fluctuation_field_generator.py:LowFreqGenerator.analytical_spectrum"]}
{"id": "C191", "title": "Predictions and fits do not depend on the unit of length", "statement": "Expressing every length (length scale, height, separations, reciprocal wave numbers, and the magnitude accordingly) in another unit describes the same turbulence: the predicted one-point spectra k1*F, the coherences and the loss of a model on the same data keep their values, so a fit made with metres and a fit made with millimetres give the same curves.", "quantifier": "every model, every unit, every wave number and separation, every history of coherence evaluations, every data set and weighting of the loss", "why_tests_cant": "A test compares a few units; that no choice of unit changes the values, or that the nodes of the integration and the penalties single out one unit, concerns all units and models.", "anchors": ["drdmannturb/spectra_fitting/one_point_spectra.py:OnePointSpectra.__init__", "drdmannturb/spectra_fitting/one_point_spectra.py:OnePointSpectra.forward", "drdmannturb/spectra_fitting/one_point_spectra.py:OnePointSpectra.SpectralCoherence", "drdmannturb/spectra_fitting/one_point_spectra.py:OnePointSpectra.EddyLifetime", "drdmannturb/spectra_fitting/loss_functions.py:LossAggregator.Pen1stOrder", "drdmannturb/spectra_fitting/loss_functions.py:LossAggregator.Pen2ndOrder", "drdmannturb/parameters.py:IntegrationParameters"]}
{"id": "C192", "title": "Predictions and fits follow the unit of velocity", "statement": "Expressing velocities in another unit multiplies the magnitude, the data and every predicted spectrum by the same factor and leaves coherences as they are; the loss of a model on the data keeps its value with all penalties, so a fit made with metres per second and one made with centimetres per second describe the same turbulence. Kaimal data follow the friction velocity in the same way.", "quantifier": "every model, every unit, every wave number and separation, every grid, every history of coherence evaluations, every data set and weighting of the loss", "why_tests_cant": "A test compares a few units; that a bound in absolute units spoils the relation for every model once the unit is coarse enough, and nowhere else, concerns all units and models.", "anchors": ["drdmannturb/spectra_fitting/one_point_spectra.py:OnePointSpectra.forward", "drdmannturb/spectra_fitting/one_point_spectra.py:OnePointSpectra.PowerSpectra", "drdmannturb/spectra_fitting/one_point_spectra.py:OnePointSpectra.SpectralCoherence", "drdmannturb/spectra_fitting/loss_functions.py:LossAggregator.eval", "drdmannturb/spectra_fitting/data_generator.py:generate_kaimal_spectra"]}
{"id": "C193", "title": "The storm scripts fit every measured value in its place", "statement": "The scripts which fit storm data read a file of frequencies and six spectra: every line of the file becomes one data point, its wave number is 2 pi f / U, and the six spectra become the data of uu, vv, ww, uw (with the opposite sign), vw and uv, in the documented order; a well-formed file leads to a fit.", "quantifier": "every file of numbers: all numbers of lines and columns and all values", "why_tests_cant": "The scripts are run with one file; that a column is never used or that the first line is lost whatever it holds concerns all files.", "anchors": ["STORM_fitting/script_fit_coh.py:k1_domain", "STORM_fitting/script_fit_coh.py:ops_data", "STORM_fitting/dry_run.py:ops_data", "STORM_fitting/dry_run.py:CustomDataFormatter", "drdmannturb/spectra_fitting/data_generator.py:CustomDataLoader.__init__"]}
{"id": "C194", "title": "Every published name can be imported", "statement": "Every name a module of the package lists as public can be imported from it and is the class or function defined for it; `from module import *` binds exactly the listed names. This holds whatever was imported before, successfully or not.", "quantifier": "every module of the package, every selection of its public names in every order, every preceding sequence of import statements, every environment with the required libraries", "why_tests_cant": "The tests import the names they need, each in a new interpreter; that all published names exist and stay the same objects after every sequence of imports is a statement about all of them.", "anchors": ["drdmannturb/__init__.py:__all__", "drdmannturb/fluctuation_generation/__init__.py:__all__", "drdmannturb/spectra_fitting/__init__.py:__all__", "drdmannturb/common.py:__all__", "drdmannturb/parameters.py:__all__"]}
{"id": "C195", "title": "Imports do not depend on what was imported before", "statement": "With the required libraries installed every file of the package can be imported, and an import statement gives the same objects or the same error whichever part of the package was imported first and whatever was imported, or failed to be imported, before; no cycle of imports stands in the way. In an environment in which a required library is missing, the first import of any part of the package reports a missing library, and so does every later `import` statement, however many attempts were made before.", "quantifier": "every sequence of import statements of any modules and names, existing or not, and every set of installed libraries", "why_tests_cant": "A test starts from one order of imports in one environment; cycles show up only in particular orders.", "anchors": ["drdmannturb/__init__.py:*", "drdmannturb/fluctuation_generation/__init__.py:*", "drdmannturb/spectra_fitting/__init__.py:*", "drdmannturb/fluctuation_generation/fluctuation_field_generator.py:*", "drdmannturb/fluctuation_generation/low_frequency/large_plot.py:*"]}
{"id": "C196", "title": "The example programs run", "statement": "The example programs of the project work with the package they are shipped with: their import statements succeed, and the two example classes which produce wind fields can be constructed for each of their models.", "quantifier": "all example programs, every environment, every set of arguments of the two classes and every content of the parameter file", "why_tests_cant": "The examples are not part of the tests; that a class cannot be constructed with any arguments concerns all of them.", "anchors": ["examples/01_basic_mann_parameters_fit.py:*", "examples/04_eddy-lifetime_fit_gelu.py:*", "examples/05_custom_noisy_data_fit.py:*", "STORM_fitting/fit_for_profiling.py:*", "examples-unrendered/IsotropicTurbulence/IsotropicTurbulence.py:GenerateWindTurbulence.__init__", "examples-unrendered/UniformShear/UniformShear.py:GenerateWind.__init__", "drdmannturb/fluctuation_generation/gaussian_random_fields.py:VectorGaussianRandomField.__init__"]}
{"id": "C197", "title": "A user-defined eddy lifetime is a torch module", "statement": "A class derived from EddyLifetimeFunction that defines forward, itself or through an ancestor, can be constructed with any length and time scale (none, a number, a trainable parameter); a class without forward cannot. The object keeps the scales, lets them be changed, lists exactly the trainable ones among its parameters, and calling it on a wave vector gives what forward of the most derived class gives and runs the hooks registered on it, as for every torch module.", "quantifier": "every line of derived classes, every forward, all scales, every sequence of assignments to them, every list of hooks and every wave vector", "why_tests_cant": "The classes are written by users, and which attributes are registered depends on the history of assignments; the project has no derived class at all.", "anchors": ["drdmannturb/spectra_fitting/eddy_lifetime.py:EddyLifetimeFunction.__init__", "drdmannturb/spectra_fitting/eddy_lifetime.py:EddyLifetimeFunction.forward", "drdmannturb/spectra_fitting/eddy_lifetime.py:EddyLifetimeFunction.__call__"]}
