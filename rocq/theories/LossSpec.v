(** Independent vocabulary for the statements about losses. *)

From Coq Require Import Reals List Sorted.
From Verif Require Import Prelude LossModel.
Import ListNotations.
Open Scope R_scope.

(** Strictly increasing positive wave numbers. *)
Definition wave_grid (k : list R) : Prop := StronglySorted Rlt k /\ Forall (fun x => 0 < x) k.

(** Spectra whose absolute value never increases along the grid. *)
Definition nonincreasing_abs (y : list R) : Prop := Sorted (fun a b => Rabs b <= Rabs a) y.

(** Log-log slopes between neighbouring grid points. *)
Fixpoint slopes (k y : list R) : list R :=
  match k, y with
  | k0 :: ((k1 :: _) as k'), y0 :: ((y1 :: _) as y') =>
      (ln (Rabs y1) - ln (Rabs y0)) / (ln k1 - ln k0) :: slopes k' y'
  | _, _ => []
  end.

(** Non-increasing sequence. *)
Definition nonincreasing (l : list R) : Prop := Sorted Rge l.

(** Curves on the grid without zeros. *)
Definition regular_curves (k : list R) (y : list (list R)) : Prop :=
  y <> [] /\ Forall (fun row => length row = length k /\ Forall (fun v => v <> 0) row) y.

(** Exponential moving average with decay 0.9, started at the first value. *)
Definition moving_average (l : list R) : R :=
  match l with
  | [] => 0
  | x :: l' => fold_left (fun a v => 9/10 * a + 1/10 * v) l' x
  end.

(** The five term values of the evaluations of a history which did not raise, in
    order. *)
Definition successes (p : loss_params) (k : list R) (zref : R) (h : list eval_args)
    : list (xr * xr * xr * xr * xr) :=
  flat_map (fun a => match eval_terms p k zref a with Ok t => [t] | Err _ => [] end) h.

(** Components of a five-tuple. *)
Definition t_mse (t : xr * xr * xr * xr * xr) : xr := match t with (a, _, _, _, _) => a end.
(** Coherence term. *)
Definition t_coh (t : xr * xr * xr * xr * xr) : xr := match t with (_, a, _, _, _) => a end.
(** First-order penalty. *)
Definition t_pen1 (t : xr * xr * xr * xr * xr) : xr := match t with (_, _, a, _, _) => a end.
(** Second-order penalty. *)
Definition t_pen2 (t : xr * xr * xr * xr * xr) : xr := match t with (_, _, _, a, _) => a end.
(** Regulariser. *)
Definition t_reg (t : xr * xr * xr * xr * xr) : xr := match t with (_, _, _, _, a) => a end.
(** Sum of the five terms. *)
Definition t_sum (t : xr * xr * xr * xr * xr) : xr :=
  match t with (a, b, c, d, e) => xadd (xadd (xadd (xadd a b) c) d) e end.

(** Finite extended real. *)
Definition finite (x : xr) : Prop := exists r, x = Fin r.

(** Both lists vanish at a common position. *)
Inductive common_zero : list R -> list R -> Prop :=
| cz_here : forall l m, common_zero (0 :: l) (0 :: m)
| cz_later : forall a b l m, common_zero l m -> common_zero (a :: l) (b :: m).

(** All five terms finite. *)
Definition all_finite (t : xr * xr * xr * xr * xr) : Prop :=
  finite (t_mse t) /\ finite (t_coh t) /\ finite (t_pen1 t) /\ finite (t_pen2 t) /\ finite (t_reg t).
