(** Importing the package: the module files of /repo/drdmannturb as lists of their
    top-level statements, and the machine which executes import statements on them.
    Modelled: which names a module binds and to what, the order of the statements, the
    table of loaded modules, parents loaded before their submodules, failed modules
    removed from the table, submodules found by `from package import name`, `__all__`.
    Simplified: definitions of classes and functions always succeed; other libraries are
    either installed or not; modules of the standard library are installed and their names
    are left out; a dotted name is written with its last component first. *)

From Coq Require Import List String Bool.
Import ListNotations.
Open Scope string_scope.

(** Dotted module name, last component first: `drdmannturb.common` of
    drdmannturb/__init__.py L10 is ["common"; "drdmannturb"]. *)
Definition mname : Type := list string.

(** What a name of a module is bound to: an object defined at the top level of a module of
    the package (drdmannturb/common.py L84), a module of the package (the attribute set by
    loading a submodule, drdmannturb/__init__.py L10), or something of another library
    (drdmannturb/common.py L20). *)
Inductive obj : Type :=
| OObj (m : mname) (n : string)
| OMod (m : mname)
| OLib (lib : string).

(** Exceptions of import statements: ModuleNotFoundError with the missing module,
    ImportError of `from m import n`, AttributeError of `from m import *`
    (drdmannturb/__init__.py L10-106); the last one stands for a recursion deeper than the
    bound of the machine, which is never reached. *)
Inductive iexn : Type :=
| NoModule (m : mname)
| NoName (m : mname) (n : string)
| NoAttr (m : mname) (n : string)
| TooDeep.

(** Top-level statement of a module: import of another library binding a name
    (drdmannturb/common.py L20), definition (drdmannturb/common.py L84), `from m import a as b`
    (drdmannturb/fluctuation_generation/gaussian_random_fields.py L15), `import m as b`
    (drdmannturb/fluctuation_generation/low_frequency/large_plot.py L8), `__all__ = ...`
    (drdmannturb/common.py L6). *)
Inductive istmt : Type :=
| SLib (lib n : string)
| SDef (n : string)
| SFrom (m : mname) (ns : list (string * string))
| SImportAs (m : mname) (n : string)
| SAll (ns : list string).

(** Module file: its name, whether it is a package (an __init__.py), its statements
    (drdmannturb/__init__.py L1-106, drdmannturb/common.py L1-20). *)
Record msrc : Type := { ms_name : mname; ms_pkg : bool; ms_body : list istmt }.

(** Names imported under their own names (drdmannturb/__init__.py L10-16). *)
Definition same (ns : list string) : list (string * string) := map (fun n => (n, n)) ns.

(** drdmannturb/__init__.py L10-106: imports of the subpackages and the published names. *)
Definition src_root : msrc :=
  {| ms_name := ["drdmannturb"]; ms_pkg := true; ms_body :=
    [SFrom ["common"; "drdmannturb"] (same ["CPU_Unpickler"; "Mann_linear_exponential_approx"; "MannEddyLifetime"; "VKEnergySpectrum"; "plot_loss_logs"]);
     SFrom ["enums"; "drdmannturb"] (same ["EddyLifetimeType"]);
     SFrom ["fluctuation_generation"; "drdmannturb"] (same ["Covariance"; "FluctuationFieldGenerator"; "GaussianRandomField"; "MannCovariance"; "NNCovariance"; "Sampling_DCT"; "Sampling_DST"; "Sampling_FFT"; "Sampling_FFTW"; "Sampling_method_base"; "Sampling_method_freq"; "Sampling_VF_FFTW"; "VectorGaussianRandomField"; "VonKarmanCovariance"; "create_grid"; "format_wind_field"; "plot_velocity_components"; "plot_velocity_magnitude"]);
     SFrom ["nn_modules"; "drdmannturb"] (same ["Rational"; "TauNet"]);
     SFrom ["parameters"; "drdmannturb"] (same ["IntegrationParameters"; "LossParameters"; "NNParameters"; "PhysicalParameters"; "ProblemParameters"]);
     SFrom ["spectra_fitting"; "drdmannturb"] (same ["CalibrationProblem"; "CustomDataLoader"; "LossAggregator"; "OnePointSpectra"; "generate_kaimal_spectra"; "generate_von_karman_spectra"]);
     SAll ["CPU_Unpickler"; "Mann_linear_exponential_approx"; "MannEddyLifetime"; "VKEnergySpectrum"; "plot_loss_logs"; "EddyLifetimeType"; "Covariance"; "FluctuationFieldGenerator"; "GaussianRandomField"; "MannCovariance"; "NNCovariance"; "Sampling_DCT"; "Sampling_DST"; "Sampling_FFT"; "Sampling_FFTW"; "Sampling_method_base"; "Sampling_method_freq"; "Sampling_VF_FFTW"; "VectorGaussianRandomField"; "VonKarmanCovariance"; "create_grid"; "format_wind_field"; "plot_velocity_components"; "plot_velocity_magnitude"; "extract_x_spectra"; "interp_spectra"; "interpolate"; "CustomMLP"; "CustomNet"; "Rational"; "SimpleNN"; "TauNet"; "IntegrationParameters"; "LossParameters"; "NNParameters"; "PhysicalParameters"; "ProblemParameters"; "CalibrationProblem"; "CustomDataLoader"; "generate_kaimal_spectra"; "generate_von_karman_spectra"; "LossAggregator"; "OnePointSpectra"]] |}.

(** drdmannturb/common.py L6-168: statements at the top level. *)
Definition src_common : msrc :=
  {| ms_name := ["common"; "drdmannturb"]; ms_pkg := false; ms_body :=
    [SAll ["VKEnergySpectrum"; "VKLike_EnergySpectrum"; "MannEddyLifetime"; "Mann_linear_exponential_approx"; "Learnable_EnergySpectrum"];
     SLib "matplotlib" "plt";
     SLib "numpy" "np";
     SLib "torch" "torch";
     SLib "scipy" "hyp2f1";
     SLib "tensorboard" "EventAccumulator";
     SDef "VKEnergySpectrum";
     SDef "VKLike_EnergySpectrum";
     SDef "Learnable_EnergySpectrum";
     SDef "MannEddyLifetime";
     SDef "Mann_linear_exponential_approx";
     SDef "CPU_Unpickler";
     SDef "plot_loss_logs"] |}.

(** drdmannturb/enums.py L3-6: statements at the top level. *)
Definition src_enums : msrc :=
  {| ms_name := ["enums"; "drdmannturb"]; ms_pkg := false; ms_body :=
    [SAll ["EddyLifetimeType"];
     SDef "EddyLifetimeType"] |}.

(** drdmannturb/nn_modules.py L3-68: statements at the top level. *)
Definition src_nn : msrc :=
  {| ms_name := ["nn_modules"; "drdmannturb"]; ms_pkg := false; ms_body :=
    [SAll ["TauNet"];
     SLib "torch" "torch";
     SLib "torch" "nn";
     SDef "Rational";
     SDef "TauNet"] |}.

(** drdmannturb/parameters.py L6-273: statements at the top level. *)
Definition src_par : msrc :=
  {| ms_name := ["parameters"; "drdmannturb"]; ms_pkg := false; ms_body :=
    [SLib "numpy" "np";
     SLib "torch" "torch";
     SLib "torch" "nn";
     SFrom ["enums"; "drdmannturb"] (same ["EddyLifetimeType"]);
     SAll ["IntegrationParameters"; "ProblemParameters"; "PhysicalParameters"; "NNParameters"; "LossParameters"];
     SDef "ProblemParameters";
     SDef "PhysicalParameters";
     SDef "LossParameters";
     SDef "NNParameters";
     SDef "DomainParameters";
     SDef "LowFreqParameters";
     SDef "IntegrationParameters"] |}.

(** drdmannturb/spectra_fitting/__init__.py L3-15: statements at the top level. *)
Definition src_sf : msrc :=
  {| ms_name := ["spectra_fitting"; "drdmannturb"]; ms_pkg := true; ms_body :=
    [SAll ["CalibrationProblem"; "CustomDataLoader"; "generate_kaimal_spectra"; "generate_von_karman_spectra"; "LossAggregator"; "OnePointSpectra"];
     SFrom ["calibration"; "spectra_fitting"; "drdmannturb"] (same ["CalibrationProblem"]);
     SFrom ["data_generator"; "spectra_fitting"; "drdmannturb"] (same ["CustomDataLoader"; "generate_kaimal_spectra"; "generate_von_karman_spectra"]);
     SFrom ["loss_functions"; "spectra_fitting"; "drdmannturb"] (same ["LossAggregator"]);
     SFrom ["one_point_spectra"; "spectra_fitting"; "drdmannturb"] (same ["OnePointSpectra"])] |}.

(** drdmannturb/spectra_fitting/calibration.py L9-27: statements at the top level. *)
Definition src_cal : msrc :=
  {| ms_name := ["calibration"; "spectra_fitting"; "drdmannturb"]; ms_pkg := false; ms_body :=
    [SLib "matplotlib" "plt";
     SLib "numpy" "np";
     SLib "torch" "torch";
     SLib "torch" "parameters_to_vector";
     SLib "torch" "vector_to_parameters";
     SFrom ["common"; "drdmannturb"] (same ["MannEddyLifetime"]);
     SFrom ["enums"; "drdmannturb"] (same ["EddyLifetimeType"]);
     SFrom ["parameters"; "drdmannturb"] (same ["IntegrationParameters"; "LossParameters"; "NNParameters"; "PhysicalParameters"; "ProblemParameters"]);
     SFrom ["loss_functions"; "spectra_fitting"; "drdmannturb"] (same ["LossAggregator"]);
     SFrom ["one_point_spectra"; "spectra_fitting"; "drdmannturb"] (same ["OnePointSpectra"]);
     SDef "CalibrationProblem"] |}.

(** drdmannturb/spectra_fitting/data_generator.py L11-89: statements at the top level. *)
Definition src_data : msrc :=
  {| ms_name := ["data_generator"; "spectra_fitting"; "drdmannturb"]; ms_pkg := false; ms_body :=
    [SLib "numpy" "np";
     SLib "polars" "pl";
     SLib "torch" "torch";
     SDef "generate_von_karman_spectra";
     SDef "generate_kaimal_spectra";
     SDef "CustomDataLoader"] |}.

(** drdmannturb/spectra_fitting/eddy_lifetime.py L6-12: statements at the top level. *)
Definition src_eddy : msrc :=
  {| ms_name := ["eddy_lifetime"; "spectra_fitting"; "drdmannturb"]; ms_pkg := false; ms_body :=
    [SLib "torch" "torch";
     SLib "torch" "nn";
     SDef "EddyLifetimeFunction"] |}.

(** drdmannturb/spectra_fitting/loss_functions.py L3-9: statements at the top level; `torch.utils.tensorboard` needs both libraries. *)
Definition src_loss : msrc :=
  {| ms_name := ["loss_functions"; "spectra_fitting"; "drdmannturb"]; ms_pkg := false; ms_body :=
    [SLib "torch" "torch";
     SLib "tensorboard" "SummaryWriter";
     SFrom ["parameters"; "drdmannturb"] (same ["LossParameters"]);
     SDef "LossAggregator"] |}.

(** drdmannturb/spectra_fitting/one_point_spectra.py L9-25: statements at the top level. *)
Definition src_ops : msrc :=
  {| ms_name := ["one_point_spectra"; "spectra_fitting"; "drdmannturb"]; ms_pkg := false; ms_body :=
    [SLib "numpy" "np";
     SLib "torch" "torch";
     SLib "torch" "nn";
     SLib "sklearn" "LinearRegression";
     SFrom ["common"; "drdmannturb"] (same ["Learnable_EnergySpectrum"; "Mann_linear_exponential_approx"; "MannEddyLifetime"; "VKLike_EnergySpectrum"]);
     SFrom ["enums"; "drdmannturb"] (same ["EddyLifetimeType"]);
     SFrom ["nn_modules"; "drdmannturb"] (same ["TauNet"]);
     SFrom ["parameters"; "drdmannturb"] (same ["IntegrationParameters"; "NNParameters"; "PhysicalParameters"]);
     SDef "OnePointSpectra"] |}.

(** drdmannturb/fluctuation_generation/__init__.py L11-50: statements at the top level. *)
Definition src_fg : msrc :=
  {| ms_name := ["fluctuation_generation"; "drdmannturb"]; ms_pkg := true; ms_body :=
    [SAll ["Covariance"; "VonKarmanCovariance"; "MannCovariance"; "GaussianRandomField"; "VectorGaussianRandomField"; "FluctuationFieldGenerator"; "NNCovariance"; "Sampling_method_base"; "Sampling_method_freq"; "Sampling_FFTW"; "Sampling_VF_FFTW"; "Sampling_FFT"; "Sampling_DST"; "Sampling_DCT"; "create_grid"; "format_wind_field"; "plot_velocity_components"; "plot_velocity_magnitude"];
     SFrom ["covariance_kernels"; "fluctuation_generation"; "drdmannturb"] (same ["Covariance"; "MannCovariance"; "VonKarmanCovariance"]);
     SFrom ["fluctuation_field_generator"; "fluctuation_generation"; "drdmannturb"] (same ["FluctuationFieldGenerator"]);
     SFrom ["gaussian_random_fields"; "fluctuation_generation"; "drdmannturb"] (same ["GaussianRandomField"; "VectorGaussianRandomField"]);
     SFrom ["nn_covariance"; "fluctuation_generation"; "drdmannturb"] (same ["NNCovariance"]);
     SFrom ["sampling_methods"; "fluctuation_generation"; "drdmannturb"] (same ["Sampling_DCT"; "Sampling_DST"; "Sampling_FFT"; "Sampling_FFTW"; "Sampling_method_base"; "Sampling_method_freq"; "Sampling_VF_FFTW"]);
     SFrom ["wind_plot"; "fluctuation_generation"; "drdmannturb"] (same ["create_grid"; "format_wind_field"; "plot_velocity_components"; "plot_velocity_magnitude"])] |}.

(** drdmannturb/fluctuation_generation/cmap_util.py L3: statements at the top level. *)
Definition src_cmap : msrc :=
  {| ms_name := ["cmap_util"; "fluctuation_generation"; "drdmannturb"]; ms_pkg := false; ms_body :=
    [SDef "FIELD_COLORSCALE"] |}.

(** drdmannturb/fluctuation_generation/covariance_kernels.py L6-122: statements at the top level. *)
Definition src_cov : msrc :=
  {| ms_name := ["covariance_kernels"; "fluctuation_generation"; "drdmannturb"]; ms_pkg := false; ms_body :=
    [SLib "numpy" "np";
     SLib "scipy" "hyp2f1";
     SDef "Covariance";
     SDef "VonKarmanCovariance";
     SDef "MannCovariance"] |}.

(** drdmannturb/fluctuation_generation/fluctuation_field_generator.py L10-22: statements at the top level. *)
Definition src_ffg : msrc :=
  {| ms_name := ["fluctuation_field_generator"; "fluctuation_generation"; "drdmannturb"]; ms_pkg := false; ms_body :=
    [SLib "numpy" "np";
     SLib "torch" "torch";
     SFrom ["common"; "drdmannturb"] (same ["CPU_Unpickler"]);
     SFrom ["parameters"; "drdmannturb"] (same ["IntegrationParameters"]);
     SFrom ["spectra_fitting"; "drdmannturb"] (same ["CalibrationProblem"]);
     SFrom ["covariance_kernels"; "fluctuation_generation"; "drdmannturb"] (same ["MannCovariance"; "VonKarmanCovariance"]);
     SFrom ["gaussian_random_fields"; "fluctuation_generation"; "drdmannturb"] (same ["VectorGaussianRandomField"]);
     SFrom ["fluctuation_field_generator"; "low_frequency"; "fluctuation_generation"; "drdmannturb"] (same ["LowFreqGenerator"]);
     SFrom ["nn_covariance"; "fluctuation_generation"; "drdmannturb"] (same ["NNCovariance"]);
     SDef "FluctuationFieldGenerator"] |}.

(** drdmannturb/fluctuation_generation/gaussian_random_fields.py L13-245: statements at the top level. *)
Definition src_grf : msrc :=
  {| ms_name := ["gaussian_random_fields"; "fluctuation_generation"; "drdmannturb"]; ms_pkg := false; ms_body :=
    [SLib "numpy" "np";
     SFrom ["covariance_kernels"; "fluctuation_generation"; "drdmannturb"] [("Covariance", "covariance_metaclass")];
     SFrom ["sampling_methods"; "fluctuation_generation"; "drdmannturb"] (same ["METHOD_DCT"; "METHOD_DST"; "METHOD_FFT"; "METHOD_FFTW"; "METHOD_VF_FFTW"; "Sampling_DCT"; "Sampling_DST"; "Sampling_FFT"; "Sampling_FFTW"; "Sampling_VF_FFTW"]);
     SDef "SamplingMethod";
     SDef "GaussianRandomField";
     SDef "VectorGaussianRandomField"] |}.

(** drdmannturb/fluctuation_generation/nn_covariance.py L3-10: statements at the top level. *)
Definition src_nnc : msrc :=
  {| ms_name := ["nn_covariance"; "fluctuation_generation"; "drdmannturb"]; ms_pkg := false; ms_body :=
    [SLib "numpy" "np";
     SLib "torch" "torch";
     SFrom ["spectra_fitting"; "drdmannturb"] (same ["OnePointSpectra"]);
     SFrom ["covariance_kernels"; "fluctuation_generation"; "drdmannturb"] (same ["Covariance"]);
     SDef "NNCovariance"] |}.

(** drdmannturb/fluctuation_generation/sampling_methods.py L5-188: statements at the top level. *)
Definition src_sm : msrc :=
  {| ms_name := ["sampling_methods"; "fluctuation_generation"; "drdmannturb"]; ms_pkg := false; ms_body :=
    [SLib "numpy" "np";
     SLib "scipy" "fft";
     SDef "METHOD_DST";
     SDef "METHOD_DCT";
     SDef "METHOD_FFT";
     SDef "METHOD_FFTW";
     SDef "METHOD_VF_FFTW";
     SDef "Sampling_method_base";
     SDef "Sampling_method_freq";
     SDef "Sampling_FFTW";
     SDef "Sampling_VF_FFTW";
     SDef "Sampling_FFT";
     SDef "Sampling_DST";
     SDef "Sampling_DCT"] |}.

(** drdmannturb/fluctuation_generation/wind_plot.py L3-166: statements at the top level. *)
Definition src_wp : msrc :=
  {| ms_name := ["wind_plot"; "fluctuation_generation"; "drdmannturb"]; ms_pkg := false; ms_body :=
    [SLib "numpy" "np";
     SLib "plotly" "go";
     SLib "plotly" "make_subplots";
     SFrom ["cmap_util"; "fluctuation_generation"; "drdmannturb"] (same ["FIELD_COLORSCALE"]);
     SDef "create_grid";
     SDef "format_wind_field";
     SDef "plot_velocity_components";
     SDef "plot_velocity_magnitude"] |}.

(** drdmannturb/fluctuation_generation/low_frequency/__init__.py L1: no statements. *)
Definition src_lf : msrc :=
  {| ms_name := ["low_frequency"; "fluctuation_generation"; "drdmannturb"]; ms_pkg := true; ms_body :=
    [] |}.

(** drdmannturb/fluctuation_generation/low_frequency/fluctuation_field_generator.py L10-17: statements at the top level. *)
Definition src_lfg : msrc :=
  {| ms_name := ["fluctuation_field_generator"; "low_frequency"; "fluctuation_generation"; "drdmannturb"]; ms_pkg := false; ms_body :=
    [SLib "matplotlib" "plt";
     SLib "numba" "numba";
     SLib "numpy" "np";
     SLib "scipy" "integrate";
     SLib "scipy" "RegularGridInterpolator";
     SDef "LowFreqGenerator"] |}.

(** drdmannturb/fluctuation_generation/low_frequency/large_plot.py L5-716: statements at the top level. *)
Definition src_lp : msrc :=
  {| ms_name := ["large_plot"; "low_frequency"; "fluctuation_generation"; "drdmannturb"]; ms_pkg := false; ms_body :=
    [SLib "matplotlib" "plt";
     SLib "numpy" "np";
     SImportAs ["fluctuation_field_generator"; "low_frequency"; "fluctuation_generation"; "drdmannturb"] "ffg";
     SDef "_run_single_mesh";
     SDef "mesh_independence_study";
     SDef "_run_single_domain_size";
     SDef "domain_size_study";
     SDef "plot_spectra_comparison";
     SDef "recreate_fig2";
     SDef "length_AND_grid_size_study";
     SDef "rectangular_domain_study";
     SDef "anisotropy_study"] |}.

(** All module files of the package (all files of drdmannturb, from drdmannturb/__init__.py L1-106
    on). *)
Definition sources : list msrc :=
  [src_root; src_common; src_enums; src_nn; src_par; src_sf; src_cal; src_data; src_eddy; src_loss; src_ops; src_fg; src_cmap; src_cov; src_ffg; src_grf; src_nnc; src_sm; src_wp; src_lf; src_lfg; src_lp].

(** Equality of dotted names (the lookup of a module, drdmannturb/__init__.py L10). *)
Fixpoint meqb (a b : mname) : bool :=
  match a, b with
  | [], [] => true
  | x :: a', y :: b' => String.eqb x y && meqb a' b'
  | _, _ => false
  end.

(** The file of a module, if there is one (the module finder, drdmannturb/__init__.py L10). *)
Definition find_src (m : mname) : option msrc := find (fun s => meqb (ms_name s) m) sources.

(** Loaded module: the names bound so far, the latest first, and `__all__`
    (drdmannturb/__init__.py L10-106). *)
Record ment : Type := { me_env : list (string * obj); me_all : option (list string) }.

(** Table of loaded modules (`sys.modules`, restricted to the package; filled by
    drdmannturb/__init__.py L10-53). *)
Definition mtab : Type := list (mname * ment).

(** Entry of a loaded module (drdmannturb/__init__.py L10). *)
Fixpoint entry (t : mtab) (m : mname) : option ment :=
  match t with
  | [] => None
  | (q, e) :: t' => if meqb q m then Some e else entry t' m
  end.

(** Whether a module is loaded (drdmannturb/__init__.py L10). *)
Definition loaded (t : mtab) (m : mname) : bool := match entry t m with Some _ => true | None => false end.

(** Change of the entry of a module (every statement of a module body,
    drdmannturb/__init__.py L10-106). *)
Definition upd (t : mtab) (m : mname) (f : ment -> ment) : mtab :=
  map (fun p => if meqb (fst p) m then (fst p, f (snd p)) else p) t.

(** Value of a name, the latest binding (drdmannturb/__init__.py L10-53). *)
Definition lookup (e : list (string * obj)) (n : string) : option obj :=
  option_map snd (find (fun p => String.eqb (fst p) n) e).

(** Binding of a name in a module (drdmannturb/__init__.py L10-53). *)
Definition bindn (n : string) (o : obj) (e : ment) : ment := {| me_env := (n, o) :: me_env e; me_all := me_all e |}.

(** `__all__ = ...` (drdmannturb/__init__.py L55-106). *)
Definition setall (ns : list string) (e : ment) : ment := {| me_env := me_env e; me_all := Some ns |}.

(** New module, added to the table before its body runs (drdmannturb/__init__.py L10). *)
Definition fresh : ment := {| me_env := []; me_all := None |}.

(** Removal of a module whose body raised (drdmannturb/__init__.py L10-53). *)
Definition drop (t : mtab) (m : mname) : mtab := filter (fun p => negb (meqb (fst p) m)) t.

(** Outcome of an import: the table afterwards and an exception or none
    (drdmannturb/__init__.py L10-53). *)
Definition out : Type := (mtab * option iexn)%type.

Section Machine.

(** The installed libraries (drdmannturb/common.py L19-23). *)
Variable inst : string -> bool.

(** Attribute of a loaded module, or its submodule of that name, loaded if need be: the
    value of a name in `from m import n` (drdmannturb/__init__.py L10-53). A missing
    submodule is an ImportError; a submodule which fails to load raises its own exception.
    The argument [imp] imports a module. *)
Definition getn (imp : mname -> mtab -> out) (m : mname) (n : string) (t : mtab) : mtab * (obj + iexn) :=
  match entry t m with
  | None => (t, inr (NoModule m))
  | Some e =>
    match lookup (me_env e) n with
    | Some o => (t, inl o)
    | None =>
      match find_src m with
      | Some s =>
        if ms_pkg s then
          match imp (n :: m) t with
          | (t', None) => (t', inl (OMod (n :: m)))
          | (t', Some x) => (t', inr (match x with NoModule q => if meqb q (n :: m) then NoName m n else x | _ => x end))
          end
        else (t, inr (NoName m n))
      | None => (t, inr (NoName m n))
      end
    end
  end.

(** The names of one `from m import ...` in turn, bound in module [self]
    (drdmannturb/__init__.py L10-16). *)
Fixpoint fromn (imp : mname -> mtab -> out) (self m : mname) (ns : list (string * string)) (t : mtab) : out :=
  match ns with
  | [] => (t, None)
  | (n, b) :: ns' =>
    match getn imp m n t with
    | (t', inl o) => fromn imp self m ns' (upd t' self (bindn b o))
    | (t', inr x) => (t', Some x)
    end
  end.

(** One statement of the body of module [self] (drdmannturb/__init__.py L10-106). *)
Definition stmt (imp : mname -> mtab -> out) (self : mname) (s : istmt) (t : mtab) : out :=
  match s with
  | SLib lib n => if inst lib then (upd t self (bindn n (OLib lib)), None) else (t, Some (NoModule [lib]))
  | SDef n => (upd t self (bindn n (OObj self n)), None)
  | SFrom m ns => match imp m t with (t', None) => fromn imp self m ns t' | r => r end
  | SImportAs m n => match imp m t with (t', None) => (upd t' self (bindn n (OMod m)), None) | r => r end
  | SAll ns => (upd t self (setall ns), None)
  end.

(** Body of a module, up to the first exception (drdmannturb/__init__.py L10-106). *)
Fixpoint body (imp : mname -> mtab -> out) (self : mname) (ss : list istmt) (t : mtab) : out :=
  match ss with
  | [] => (t, None)
  | s :: ss' => match stmt imp self s t with (t', None) => body imp self ss' t' | r => r end
  end.

(** Loading of a module which is not in the table and whose parent is: its body runs with
    the module in the table; afterwards it is an attribute of its parent; if the body
    raises, the module is removed (drdmannturb/__init__.py L10-53). *)
Definition load (imp : mname -> mtab -> out) (n : string) (par : mname) (t : mtab) : out :=
  match find_src (n :: par) with
  | None => (t, Some (NoModule (n :: par)))
  | Some s =>
    match body imp (n :: par) (ms_body s) ((n :: par, fresh) :: t) with
    | (t', None) => (upd t' par (bindn n (OMod (n :: par))), None)
    | (t', Some x) => (drop t' (n :: par), Some x)
    end
  end.

(** Import of a module: nothing if it is loaded, otherwise its parent, and then the module
    unless the parent loaded it (`from .common import ...`, drdmannturb/__init__.py L10).
    The first argument bounds the nesting of module bodies. *)
Fixpoint import (d : nat) (m : mname) (t : mtab) {struct d} : out :=
  match d with
  | O => (t, Some TooDeep)
  | S d' =>
    (fix ensure (m : mname) (t : mtab) {struct m} : out :=
       match m with
       | [] => (t, None)
       | n :: par =>
         if loaded t m then (t, None)
         else match ensure par t with
              | (t', None) => if loaded t' m then (t', None) else load (import d') n par t'
              | r => r
              end
       end) m t
  end.

(** The bound used: more than the number of module files (drdmannturb/__init__.py L1-106). *)
Definition depth : nat := S (List.length sources).

(** Import statements of a user: `import m` (STORM_fitting/dry_run.py L9), `from m import n, ...`
    (examples/01_basic_mann_parameters_fit.py L31-38), `from m import *` (the use of `__all__`,
    drdmannturb/__init__.py L55), and `import lib` for another library
    (examples/01_basic_mann_parameters_fit.py L29). *)
Inductive ustmt : Type :=
| UImport (m : mname)
| UFrom (m : mname) (ns : list string)
| UStar (m : mname)
| ULib (lib : string).

(** Values of the names of a `from` statement in the order of the statement
    (examples/01_basic_mann_parameters_fit.py L31-38). *)
Fixpoint ufrom (m : mname) (ns : list string) (t : mtab) : mtab * (list (string * obj) + iexn) :=
  match ns with
  | [] => (t, inl [])
  | n :: ns' =>
    match getn (import depth) m n t with
    | (t', inl o) => match ufrom m ns' t' with
                     | (t'', inl l) => (t'', inl ((n, o) :: l))
                     | r => r
                     end
    | (t', inr x) => (t', inr x)
    end
  end.

(** Names bound by `from m import *`: those of `__all__`, or without it those not starting
    with an underscore (drdmannturb/__init__.py L55). *)
Definition star_names (e : ment) : list string :=
  match me_all e with
  | Some ns => ns
  | None => nodup string_dec (filter (fun n => negb (String.prefix "_" n)) (map fst (me_env e)))
  end.

(** One import statement of a user: the table afterwards, and the bindings made or the
    exception. `from m import *` with a listed name which does not exist is an
    AttributeError (drdmannturb/__init__.py L55-106). The name bound by `import m` is the
    first component of m. *)
Definition user (u : ustmt) (t : mtab) : mtab * (list (string * obj) + iexn) :=
  match u with
  | UImport m =>
    match import depth m t with
    | (t', None) => match import depth [last m ""] t' with
                    | (t'', None) => (t'', inl [(last m "", OMod [last m ""])])
                    | (t'', Some x) => (t'', inr x)
                    end
    | (t', Some x) => (t', inr x)
    end
  | UFrom m ns =>
    match import depth m t with
    | (t', None) => ufrom m ns t'
    | (t', Some x) => (t', inr x)
    end
  | UStar m =>
    match import depth m t with
    | (t', None) =>
      match entry t' m with
      | Some e => match ufrom m (star_names e) t' with
                  | (t'', inr (NoName q n)) => (t'', inr (NoAttr q n))
                  | r => r
                  end
      | None => (t', inr (NoModule m))
      end
    | (t', Some x) => (t', inr x)
    end
  | ULib lib => if inst lib then (t, inl [(lib, OLib lib)]) else (t, inr (NoModule [lib]))
  end.

(** An interactive session: every statement runs, whatever happened to those before (the
    histories under which drdmannturb/__init__.py L1-106 is run). *)
Fixpoint session (us : list ustmt) (t : mtab) : mtab :=
  match us with
  | [] => t
  | u :: us' => session us' (fst (user u t))
  end.

(** A program: the statements in turn until one raises
    (examples/01_basic_mann_parameters_fit.py L29-38). *)
Fixpoint program (us : list ustmt) (t : mtab) : mtab * (list (string * obj) + iexn) :=
  match us with
  | [] => (t, inl [])
  | u :: us' =>
    match user u t with
    | (t', inl l) => match program us' t' with
                     | (t'', inl l') => (t'', inl (l ++ l')%list)
                     | r => r
                     end
    | r => r
    end
  end.

End Machine.

(** Import statements of examples/01_basic_mann_parameters_fit.py L29-38. *)
Definition prog_01 : list ustmt :=
  [ULib "torch";
   UFrom ["drdmannturb"] ["EddyLifetimeType"];
   UFrom ["parameters"; "drdmannturb"] ["LossParameters"; "NNParameters"; "PhysicalParameters"; "ProblemParameters"];
   UFrom ["spectra_fitting"; "drdmannturb"] ["CalibrationProblem"; "OnePointSpectraDataGenerator"]].

(** Import statements of examples/02_eddy-lifetime_fit.py L23-34. *)
Definition prog_02 : list ustmt :=
  [ULib "numpy";
   ULib "torch";
   UFrom ["drdmannturb"] ["EddyLifetimeType"];
   UFrom ["parameters"; "drdmannturb"] ["LossParameters"; "NNParameters"; "PhysicalParameters"; "ProblemParameters"];
   UFrom ["spectra_fitting"; "drdmannturb"] ["CalibrationProblem"; "generate_kaimal_spectra"]].

(** Import statements of examples/03_eddy-lifetime_fit_3term_loss.py L18-27. *)
Definition prog_03 : list ustmt :=
  [ULib "torch";
   UFrom ["parameters"; "drdmannturb"] ["LossParameters"; "NNParameters"; "PhysicalParameters"; "ProblemParameters"];
   UFrom ["spectra_fitting"; "drdmannturb"] ["CalibrationProblem"; "generate_kaimal_spectra"]].

(** Import statements of examples/04_eddy-lifetime_fit_gelu.py L21-30. *)
Definition prog_04 : list ustmt :=
  [ULib "torch";
   UFrom ["parameters"; "drdmannturb"] ["LossParameters"; "NNParameters"; "PhysicalParameters"; "ProblemParameters"];
   UFrom ["spectra_fitting"; "drdmannturb"] ["CalibrationProblem"; "OnePointSpectraDataGenerator"]].

(** Import statements of examples/05_custom_noisy_data_fit.py L26-37. *)
Definition prog_05 : list ustmt :=
  [ULib "numpy";
   ULib "torch";
   UFrom ["enums"; "drdmannturb"] ["DataType"];
   UFrom ["parameters"; "drdmannturb"] ["LossParameters"; "NNParameters"; "PhysicalParameters"; "ProblemParameters"];
   UFrom ["spectra_fitting"; "drdmannturb"] ["CalibrationProblem"; "OnePointSpectraDataGenerator"]].

(** Import statements of examples/07_mann_linear_regression.py L31-41. *)
Definition prog_07 : list ustmt :=
  [ULib "torch";
   UFrom ["drdmannturb"] ["EddyLifetimeType"];
   UFrom ["parameters"; "drdmannturb"] ["LossParameters"; "NNParameters"; "PhysicalParameters"; "ProblemParameters"];
   UFrom ["spectra_fitting"; "drdmannturb"] ["CalibrationProblem"; "generate_kaimal_spectra"]].

(** Import statements of examples/08_mann_box_generation_IEC.py L26-32. *)
Definition prog_08 : list ustmt :=
  [ULib "numpy";
   ULib "torch";
   UFrom ["fluctuation_generation"; "drdmannturb"] ["FluctuationFieldGenerator"; "plot_velocity_magnitude"]].

(** Import statements of examples/09_drd_box.py L25-31. *)
Definition prog_09 : list ustmt :=
  [ULib "numpy";
   ULib "torch";
   UFrom ["fluctuation_generation"; "drdmannturb"] ["FluctuationFieldGenerator"; "plot_velocity_magnitude"]].

(** Import statements of examples/10_mann_2d_plus_3d.py L19-21. *)
Definition prog_10 : list ustmt :=
  [ULib "numpy";
   UFrom ["fluctuation_field_generator"; "fluctuation_generation"; "drdmannturb"] ["FluctuationFieldGenerator"]].

(** Import statements of STORM_fitting/fit_for_profiling.py L5-16. *)
Definition prog_profiling : list ustmt :=
  [ULib "numpy";
   ULib "torch";
   UFrom ["enums"; "drdmannturb"] ["DataType"];
   UFrom ["parameters"; "drdmannturb"] ["LossParameters"; "NNParameters"; "PhysicalParameters"; "ProblemParameters"];
   UFrom ["spectra_fitting"; "drdmannturb"] ["CalibrationProblem"; "OnePointSpectraDataGenerator"]].
