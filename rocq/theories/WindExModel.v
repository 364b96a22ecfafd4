(** Constructors of the two classes of /repo/examples-unrendered which produce wind fields, as
    far as the calls which decide whether an object comes into being. Simplified: the
    outcome of the numerical part (buffers, margins, shapes) is an argument, likewise the
    outcomes of opening and reading the parameter file. *)

From Coq Require Import List String Bool.
From Verif Require Import Prelude.
Import ListNotations.
Open Scope string_scope.

(** Value of an additional keyword argument: a string, None or anything else
    (examples-unrendered/UniformShear/UniformShear.py L39, L43). *)
Inductive kwval : Type :=
| KStr (s : string)
| KNone
| KOther.

(** The additional keyword arguments (`**kwargs`,
    examples-unrendered/UniformShear/UniformShear.py L37). *)
Definition kwargs : Type := list (string * kwval).

(** `kwargs.get(k, default)` (examples-unrendered/UniformShear/UniformShear.py L39). *)
Definition kwget (k : string) (d : kwval) (kw : kwargs) : kwval :=
  match find (fun p => String.eqb (fst p) k) kw with Some p => snd p | None => d end.

(** Argument grid_level: a number, a numpy array, a Python list
    (drdmannturb/fluctuation_generation/gaussian_random_fields.py L102). *)
Inductive level_arg : Type :=
| LNumber
| LArray
| LList.

(** The parameters of GaussianRandomField
    (drdmannturb/fluctuation_generation/gaussian_random_fields.py L63-71). *)
Definition grf_params : list string :=
  ["Covariance"; "grid_level"; "grid_shape"; "grid_dimensions"; "ndim"; "sampling_method"].

(** The keyword arguments the two classes write out: all parameters of GaussianRandomField
    (examples-unrendered/UniformShear/UniformShear.py L114-122). *)
Definition written : list string :=
  ["ndim"; "grid_level"; "grid_dimensions"; "sampling_method"; "grid_shape"; "Covariance"].

(** Body of the constructor of GaussianRandomField for a list of three shapes and an array of
    three dimensions: a number is refused because the shape is none, `2**grid_level` of a list
    is a TypeError (drdmannturb/fluctuation_generation/gaussian_random_fields.py L98-141). *)
Definition grf_body (g : level_arg) : res unit :=
  match g with
  | LNumber => Err ValueError
  | LArray => Ok tt
  | LList => Err TypeError
  end.

(** `VectorGaussianRandomField( **kwargs, ndim=3, ...)`: a keyword given twice is a TypeError,
    `vdim` is its own parameter, all others are handed to GaussianRandomField, which does not
    take keywords it does not know (drdmannturb/fluctuation_generation/gaussian_random_fields.py L63-71,
    L252-264; examples-unrendered/UniformShear/UniformShear.py L114-122). *)
Definition vgrf_call (kw : kwargs) (g : level_arg) : res unit :=
  if existsb (fun p => existsb (String.eqb (fst p)) written) kw then Err TypeError
  else
    let rest := filter (fun p => negb (String.eqb (fst p) "vdim")) kw in
    if forallb (fun p => existsb (String.eqb (fst p)) grf_params) rest then grf_body g else Err TypeError.

(** Constructor of GenerateWindTurbulence: the levels are made a list (L46), the additional
    keywords, the model among them, are handed on; for another model there is no random field
    and `self.RF` raises (examples-unrendered/IsotropicTurbulence/IsotropicTurbulence.py L25-116). *)
Definition iso_init (geom : res unit) (kw : kwargs) : res unit :=
  bind geom (fun _ =>
    match kwget "model" (KStr "VK") kw with
    | KStr s => if String.eqb s "VK" then vgrf_call kw LList
                else if String.eqb s "Mann" then vgrf_call kw LList
                else Err AttributeError
    | _ => Err AttributeError
    end).

(** Content of a parameter file: whether it unpickles to five values, whether the first is a
    mapping, and the outcome of `CalibrationProblem( **config)` and of setting its parameters
    (examples-unrendered/UniformShear/UniformShear.py L44-48). *)
Record pfile : Type := { pf_five : bool; pf_mapping : bool; pf_problem : res unit }.

(** The model "NN": the file is opened and read, the problem constructed, and then
    `pb.OPS.update_scales()`, which the class OnePointSpectra does not have, raises
    (examples-unrendered/UniformShear/UniformShear.py L42-49;
    drdmannturb/spectra_fitting/one_point_spectra.py L172). *)
Definition nn_scales (path : kwval) (file : res pfile) : res unit :=
  match path with
  | KNone => Err TypeError
  | _ =>
    bind file (fun f =>
      if pf_five f then
        if pf_mapping f then bind (pf_problem f) (fun _ => Err AttributeError)
        else Err TypeError
      else Err ValueError)
  end.

(** Constructor of GenerateWind (examples-unrendered/UniformShear/UniformShear.py L29-165); for
    the model "FPDE_RDT" the keywords are replaced by two others (L136); for the model "NN" the
    kernel NNCovariance is called with a keyword it does not have, `OnePointSpectra` (L147-154). *)
Definition shear_init (geom : res unit) (file : res pfile) (kw : kwargs) : res unit :=
  match kwget "model" (KStr "NN") kw with
  | KStr s =>
    if String.eqb s "NN" then
      bind (nn_scales (kwget "path_to_parameters" KNone kw) file) (fun _ => bind geom (fun _ => Err TypeError))
    else
      bind geom (fun _ =>
        if String.eqb s "VK" then vgrf_call kw LList
        else if String.eqb s "Mann" then vgrf_call kw LList
        else if String.eqb s "FPDE_RDT" then vgrf_call [("correlation_length", KOther); ("E0", KOther)] LList
        else Err AttributeError)
  | _ => bind geom (fun _ => Err AttributeError)
  end.
