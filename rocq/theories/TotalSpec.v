(** Independent vocabulary for the value of the loss. *)

From Coq Require Import Reals List.
From Verif Require Import Prelude LossModel LossSpec.
Import ListNotations.
Open Scope R_scope.

(** Squared logarithmic distances between two curves. *)
Fixpoint sq_log_distances (m t : list R) : list R :=
  match m, t with
  | a :: m', b :: t' => (ln (Rabs b) - ln (Rabs a))^2 :: sq_log_distances m' t'
  | _, _ => []
  end.

(** The same for several pairs of curves, all points in one list. *)
Fixpoint sq_log_distances_all (ms ts : list (list R)) : list R :=
  match ms, ts with
  | m :: ms', t :: ts' => sq_log_distances m t ++ sq_log_distances_all ms' ts'
  | _, _ => []
  end.

(** Arithmetic mean. *)
Definition average (l : list R) : R := fold_right Rplus 0 l / INR (length l).

(** The misfit as the documentation defines it: summed over the curves, averaged over
    the grid points. *)
Definition documented_misfit (k : list R) (ms ts : list (list R)) : R :=
  1 / INR (length k) * fold_right Rplus 0 (sq_log_distances_all ms ts).

(** Second derivatives on the logarithmic grid, by differences of neighbouring
    slopes over the distance of the mid points of their intervals. *)
Fixpoint bends (k y : list R) : list R :=
  match k, y with
  | k0 :: ((k1 :: k2 :: _) as k'), y0 :: ((y1 :: y2 :: _) as y') =>
      ((ln (Rabs y2) - ln (Rabs y1)) / (ln k2 - ln k1) - (ln (Rabs y1) - ln (Rabs y0)) / (ln k1 - ln k0))
      / ((ln k2 - ln k0) / 2) :: bends k' y'
  | _, _ => []
  end.

(** Average squared positive part. *)
Definition mean_sq_excess (l : list R) : R := average (map (fun v => (Rmax 0 v)^2) l).

(** Average squared difference of two lists of one length. *)
Definition mean_sq_difference (m d : list R) : R :=
  average (map (fun p => (fst p - snd p)^2) (combine m d)).

(** A coherence component: model and data values, of one length, not empty. *)
Definition proper_component (c : list R * list R) : Prop := length (fst c) = length (snd c) /\ fst c <> [].

(** A weighted term counts only when its weight is positive. *)
Definition weighted_term (w v : R) : R := if Rlt_dec 0 w then w * v else 0.

(** The value of the loss for model curves [ys], data curves [ds], parameters [th]
    (None: not given) and coherence components (None: no coherence data). *)
Definition loss_value (p : loss_params) (k : list R) (zref : R) (ys ds : list (list R)) (th : option (list R))
    (coh : option ((list R * list R) * (list R * list R) * (list R * list R))) : R :=
  average (sq_log_distances_all ys ds)
  + match coh with
    | Some ((mu, du), (mv, dv), (mw, dw)) =>
        weighted_term (gamma_coherence p)
          ((mean_sq_difference mu du + mean_sq_difference mv dv + mean_sq_difference mw dw) / 3)
    | None => 0
    end
  + weighted_term (alpha_pen1 p) (mean_sq_excess (flat_map (slopes k) ys) / zref)
  + weighted_term (alpha_pen2 p) (mean_sq_excess (flat_map (bends k) ys) / zref^2)
  + match th with
    | Some t => weighted_term (beta_reg p) (average (map (fun v => v^2) t))
    | None => 0
    end.

(** Coherence components as the loss receives them. *)
Definition as_argument (c : list R * list R) : list R * list xr := (fst c, map Fin (snd c)).
