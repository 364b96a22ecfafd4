(** Vocabulary for the statements about the eddy-lifetime figure. *)

From Coq Require Import Reals List Arith.
From Verif Require Import Prelude RdtModel SpectraModel TauPlotModel.
Import ListNotations.
Open Scope R_scope.

(** Number [n] of the 50 wave numbers, equidistant in the logarithm from 1/1000 to
    1000. *)
Definition wave_number (n : nat) : R := Rpower 10 (-3 + 6 * INR n / 49).

(** Point [n] of model curve [j]: abscissa and ordinate. *)
Definition drawn_lifetime (f : tau_figure) (j n : nat) : option (R * R) :=
  match nth_error (tf_x f) n, nth_error (nth j (tf_model f) []) n with
  | Some x, Some y => Some (x, y)
  | _, _ => None
  end.

(** Point [n] of the reference curve. *)
Definition drawn_reference (f : tau_figure) (n : nat) : option (R * R) :=
  match nth_error (tf_x f) n, nth_error (tf_ref f) n with
  | Some x, Some y => Some (x, y)
  | _, _ => None
  end.

(** Directions of the four curves: the axes and the diagonal. *)
Definition direction (j : nat) : R * R * R :=
  match j with O => (1, 0, 0) | 1%nat => (0, 1, 0) | 2%nat => (0, 0, 1) | _ => (/ sqrt 3, / sqrt 3, / sqrt 3) end.

(** Lifetime models without a network. *)
Definition closed_form (env : lifetime_env) : Prop := le_type env <> TAUNET.
