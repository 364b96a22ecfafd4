(** Model of the eddy-lifetime figure drawn by `plot`
    (/repo/drdmannturb/spectra_fitting/calibration.py L930-1030).  Labels, colours and
    axes are not modelled. *)

From Coq Require Import Reals List Arith.
From Verif Require Import Prelude RdtModel SpectraModel.
Import ListNotations.
Open Scope R_scope.

(** Wave numbers of the figure (calibration.py L934, again at L1014). *)
Definition tau_wave_numbers : list R := logspace (-3) 3 50.

(** Wave vectors of the four model curves at wave number [k] (calibration.py L936-939,
    again at L1015-1018). *)
Definition tau_vector (j : nat) (k : R) : R * R * R :=
  match j with
  | O => (k, 0 * k, 0 * k)
  | 1%nat => (0 * k, k, 0 * k)
  | 2%nat => (0 * k, 0 * k, k)
  | _ => (k / sqrt 3, k / sqrt 3, k / sqrt 3)
  end.

(** The lifetimes along a list of wave vectors (one_point_spectra.py L465-514 on a
    batch, called at calibration.py L950-953): an exception for one is an exception
    for all. *)
Fixpoint lifetimes (env : lifetime_env) (ks : list (R * R * R)) : res (list R) :=
  match ks with
  | [] => Ok []
  | (k1, k2, k3) :: ks' =>
      bind (eddy_lifetime env k1 k2 k3) (fun t => bind (lifetimes env ks') (fun ts => Ok (t :: ts)))
  end.

(** The figure: abscissae, four model curves, reference curve (calibration.py
    L940-992). *)
Record tau_figure : Type := TauFigure { tf_x : list R; tf_model : list (list R); tf_ref : list R }.

(** calibration.py L933-992: [L0] and [Gamma0] are `phys_params.L` and
    `phys_params.Gamma`, [env] the module with its current scales (`EddyLifetime`
    refreshes them, one_point_spectra.py L489-490).  The second evaluation
    (calibration.py L1012-1025) redraws the same four curves with the same values. *)
Definition plot_tau (env : lifetime_env) (L0 Gamma0 : R) : res tau_figure :=
  let ks := tau_wave_numbers in
  bind (lifetimes env (map (tau_vector 0) ks)) (fun c1 =>
  bind (lifetimes env (map (tau_vector 1) ks)) (fun c2 =>
  bind (lifetimes env (map (tau_vector 2) ks)) (fun c3 =>
  bind (lifetimes env (map (tau_vector 3) ks)) (fun c4 =>
  Ok (TauFigure (map (fun k => k * L0) ks) [c1; c2; c3; c4]
       (map (fun k => Gamma0 * mann_lifetime (le_hyp env) (L0 * k)) ks)))))).
