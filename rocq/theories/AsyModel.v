(** Model of the way the asymptotic slopes requested in PhysicalParameters and the
    exponents of ProblemParameters reach the energy spectrum. *)

From Coq Require Import Reals.
From Verif Require Import Prelude RdtModel SpectraModel.
Open Scope R_scope.

(** drdmannturb/parameters.py L73-123: the fields of PhysicalParameters which
    describe the energy spectrum (the others are not used here). *)
Record phys_settings : Type := Phys
  { ph_L : R; ph_Gamma : R; ph_sigma : R;
    ph_alpha_low : R; ph_alpha_high : R; ph_transition : R }.

(** parameters.py L68-70: the fields of ProblemParameters which describe the
    energy spectrum. *)
Record prob_settings : Type := Prob
  { pr_learnable : bool; pr_p : R; pr_q : R }.

(** drdmannturb/spectra_fitting/calibration.py L112-123 and
    one_point_spectra.py L147-150, L246-251: the shape of the spectrum of a fresh
    problem, a function of the scaled wave number. *)
Definition problem_shape (ph : phys_settings) (pr : prob_settings) : R -> R :=
  if pr_learnable pr then learnable_energy (pr_p pr) (pr_q pr) else vklike_energy.

(** one_point_spectra.py L243-253 with the scales written by calibration.py
    L124-129: energy spectrum of a fresh problem as a function of the wave number
    (without shear, so that the distorted wave vector is the wave vector). *)
Definition problem_energy (ph : phys_settings) (pr : prob_settings) (k1 k2 k3 : R) : res R :=
  bind (calib_initial_params (ph_L ph) (ph_Gamma ph) (ph_sigma ph)) (fun p =>
  match exp_scales p with
  | (L, _, M) => Ok (forward_energy (problem_shape ph pr) M L 0 k1 k2 k3)
  end).
