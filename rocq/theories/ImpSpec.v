(** Specification vocabulary of the import properties (C194, C195, C196). *)

From Coq Require Import List String Bool.
From Verif Require Import ImpModel.
Import ListNotations.
Open Scope string_scope.

(** The libraries the modules of the package import when they are loaded
    (drdmannturb/common.py L19-23, drdmannturb/spectra_fitting/one_point_spectra.py L12,
    drdmannturb/spectra_fitting/data_generator.py L12,
    drdmannturb/fluctuation_generation/low_frequency/fluctuation_field_generator.py L11,
    drdmannturb/fluctuation_generation/wind_plot.py L4). *)
Definition needed : list string :=
  ["matplotlib"; "numpy"; "torch"; "scipy"; "tensorboard"; "sklearn"; "polars"; "numba"; "plotly"].

(** All of them are installed (drdmannturb/common.py L19-23). *)
Definition complete (inst : string -> bool) : Prop := forall lib, In lib needed -> inst lib = true.

(** The root package and its submodules (drdmannturb/__init__.py). *)
Definition root : mname := ["drdmannturb"].
(** drdmannturb/NAME.py (drdmannturb/__init__.py L10-45). *)
Definition top (n : string) : mname := [n; "drdmannturb"].
(** drdmannturb/spectra_fitting/NAME.py (drdmannturb/spectra_fitting/__init__.py L12-15). *)
Definition fitting (n : string) : mname := n :: top "spectra_fitting".
(** drdmannturb/fluctuation_generation/NAME.py
    (drdmannturb/fluctuation_generation/__init__.py L32-50). *)
Definition fluct (n : string) : mname := n :: top "fluctuation_generation".
(** drdmannturb/fluctuation_generation/low_frequency/NAME.py
    (drdmannturb/fluctuation_generation/fluctuation_field_generator.py L18). *)
Definition lowfreq (n : string) : mname := n :: fluct "low_frequency".

(** The module files of /repo/drdmannturb. *)
Definition files : list mname :=
  [root; top "common"; top "enums"; top "nn_modules"; top "parameters";
   top "spectra_fitting"; fitting "calibration"; fitting "data_generator"; fitting "eddy_lifetime";
   fitting "loss_functions"; fitting "one_point_spectra";
   top "fluctuation_generation"; fluct "cmap_util"; fluct "covariance_kernels"; fluct "fluctuation_field_generator";
   fluct "gaussian_random_fields"; fluct "nn_covariance"; fluct "sampling_methods"; fluct "wind_plot";
   fluct "low_frequency"; lowfreq "fluctuation_field_generator"; lowfreq "large_plot"].

(** The names published by the root package which exist, with the module each is defined in
    (drdmannturb/__init__.py L55-106 and the files named). *)
Definition published : list (string * mname) :=
  [("CPU_Unpickler", top "common"); ("Mann_linear_exponential_approx", top "common"); ("MannEddyLifetime", top "common");
   ("VKEnergySpectrum", top "common"); ("plot_loss_logs", top "common"); ("EddyLifetimeType", top "enums");
   ("Covariance", fluct "covariance_kernels"); ("MannCovariance", fluct "covariance_kernels");
   ("VonKarmanCovariance", fluct "covariance_kernels");
   ("FluctuationFieldGenerator", fluct "fluctuation_field_generator");
   ("GaussianRandomField", fluct "gaussian_random_fields"); ("VectorGaussianRandomField", fluct "gaussian_random_fields");
   ("NNCovariance", fluct "nn_covariance");
   ("Sampling_DCT", fluct "sampling_methods"); ("Sampling_DST", fluct "sampling_methods");
   ("Sampling_FFT", fluct "sampling_methods"); ("Sampling_FFTW", fluct "sampling_methods");
   ("Sampling_method_base", fluct "sampling_methods"); ("Sampling_method_freq", fluct "sampling_methods");
   ("Sampling_VF_FFTW", fluct "sampling_methods");
   ("create_grid", fluct "wind_plot"); ("format_wind_field", fluct "wind_plot");
   ("plot_velocity_components", fluct "wind_plot"); ("plot_velocity_magnitude", fluct "wind_plot");
   ("Rational", top "nn_modules"); ("TauNet", top "nn_modules");
   ("IntegrationParameters", top "parameters"); ("LossParameters", top "parameters"); ("NNParameters", top "parameters");
   ("PhysicalParameters", top "parameters"); ("ProblemParameters", top "parameters");
   ("CalibrationProblem", fitting "calibration"); ("CustomDataLoader", fitting "data_generator");
   ("generate_kaimal_spectra", fitting "data_generator"); ("generate_von_karman_spectra", fitting "data_generator");
   ("LossAggregator", fitting "loss_functions"); ("OnePointSpectra", fitting "one_point_spectra")].

(** The names published by the root package which do not exist
    (drdmannturb/__init__.py L84-91). *)
Definition phantom : list string :=
  ["extract_x_spectra"; "interp_spectra"; "interpolate"; "CustomMLP"; "CustomNet"; "SimpleNN"].

(** The names published by the other modules, with the module each is defined in
    (drdmannturb/common.py L6-12, drdmannturb/enums.py L3, drdmannturb/nn_modules.py L3,
    drdmannturb/parameters.py L12, drdmannturb/spectra_fitting/__init__.py L3-10,
    drdmannturb/fluctuation_generation/__init__.py L11-30). *)
Definition published_by (m : mname) : option (list (string * mname)) :=
  if meqb m (top "common") then
    Some (map (fun n => (n, top "common"))
            ["VKEnergySpectrum"; "VKLike_EnergySpectrum"; "MannEddyLifetime"; "Mann_linear_exponential_approx"; "Learnable_EnergySpectrum"])
  else if meqb m (top "enums") then Some [("EddyLifetimeType", top "enums")]
  else if meqb m (top "nn_modules") then Some [("TauNet", top "nn_modules")]
  else if meqb m (top "parameters") then
    Some (map (fun n => (n, top "parameters"))
            ["IntegrationParameters"; "ProblemParameters"; "PhysicalParameters"; "NNParameters"; "LossParameters"])
  else if meqb m (top "spectra_fitting") then
    Some [("CalibrationProblem", fitting "calibration"); ("CustomDataLoader", fitting "data_generator");
          ("generate_kaimal_spectra", fitting "data_generator"); ("generate_von_karman_spectra", fitting "data_generator");
          ("LossAggregator", fitting "loss_functions"); ("OnePointSpectra", fitting "one_point_spectra")]
  else if meqb m (top "fluctuation_generation") then
    Some [("Covariance", fluct "covariance_kernels"); ("VonKarmanCovariance", fluct "covariance_kernels");
          ("MannCovariance", fluct "covariance_kernels"); ("GaussianRandomField", fluct "gaussian_random_fields");
          ("VectorGaussianRandomField", fluct "gaussian_random_fields");
          ("FluctuationFieldGenerator", fluct "fluctuation_field_generator"); ("NNCovariance", fluct "nn_covariance");
          ("Sampling_method_base", fluct "sampling_methods"); ("Sampling_method_freq", fluct "sampling_methods");
          ("Sampling_FFTW", fluct "sampling_methods"); ("Sampling_VF_FFTW", fluct "sampling_methods");
          ("Sampling_FFT", fluct "sampling_methods"); ("Sampling_DST", fluct "sampling_methods");
          ("Sampling_DCT", fluct "sampling_methods");
          ("create_grid", fluct "wind_plot"); ("format_wind_field", fluct "wind_plot");
          ("plot_velocity_components", fluct "wind_plot"); ("plot_velocity_magnitude", fluct "wind_plot")]
  else None.

(** The objects such a list of names stands for (drdmannturb/__init__.py L10-53). *)
Definition objects (l : list (string * mname)) : list (string * obj) := map (fun p => (fst p, OObj (snd p) (fst p))) l.
