(** Specification vocabulary for the optimiser, its schedule and the plots
    (drdmannturb/spectra_fitting/calibration.py). *)

From Coq Require Import String Reals List Arith ZArith Bool.
From Verif Require Import Prelude RdtModel SpectraModel OpsModel LossModel CalModel PlotModel.
Import ListNotations.
Open Scope R_scope.

(** Half a cosine wave from [lr] at n = 0 to 0 at n = T. *)
Definition annealed (lr : R) (T n : nat) : R := lr * ((1 + cos (PI * INR n / INR T)) / 2).

(** Product of the factors of the advice given so far. *)
Definition product (l : list R) : R := fold_right Rmult 1 l.

(** The factors an advice can ask for. *)
Definition advice_factor (f : R) : Prop := f = 1/2 \/ f = 3/10 \/ f = 7/10.

(** Entry n of curve i. *)
Definition curve_at (l : list (list R)) (i n : nat) : option R := nth_error (nth i l []) n.

(** Value drawn by the model curve (the data markers) of a panel at abscissa n. *)
Definition drawn_model (fig : list panel) (i n : nat) : option R :=
  match nth_error fig i with Some p => nth_error (pn_model p) n | None => None end.
Definition drawn_data (fig : list panel) (i n : nat) : option R :=
  match nth_error fig i with
  | Some p => match pn_data p with Some l => nth_error l n | None => None end
  | None => None
  end.

(** Matrix entries named by the labels of the six panels. *)
Definition labelled : list (ix * ix) := [(X1, X1); (X2, X2); (X3, X3); (X1, X3); (X2, X3); (X1, X2)].

(** The marker of entry (a, b) at abscissa n in units of [u] squared, F13 with its sign changed. *)
Definition marker (d : nat -> ix -> ix -> R) (u : R) (i n : nat) (a b : ix) : R :=
  (if (i =? 3)%nat then - d n a b else d n a b) / u ^ 2.
