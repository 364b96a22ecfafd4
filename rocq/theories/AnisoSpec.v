(** Vocabulary for the variance of the low-frequency field: integrals over the
    wave-number plane in polar coordinates. *)

From Coq Require Import Reals.
From Coquelicot Require Import Coquelicot.
From Verif Require Import LowModel LowSpec.
Open Scope R_scope.

(** Integral in polar coordinates over the region around the origin whose boundary
    is at distance [edge t] in the direction [t]. *)
Definition polar (f : R -> R -> R) (edge : R -> R) : R :=
  RInt (fun t => RInt (fun r => f (r * cos t) (r * sin t) * r) 0 (edge t)) 0 (2 * PI).

(** Both iterated integrals exist. *)
Definition polar_integrable (f : R -> R -> R) (edge : R -> R) : Prop :=
  (forall t, ex_RInt (fun r => f (r * cos t) (r * sin t) * r) 0 (edge t)) /\
  ex_RInt (fun t => RInt (fun r => f (r * cos t) (r * sin t) * r) 0 (edge t)) 0 (2 * PI).

(** Boundary of the region kappa <= K. *)
Definition kappa_edge (psi K t : R) : R := K / kappa_of psi (cos t) (sin t).

(** Spectral densities of the two velocity components. *)
Definition density1 (c L psi zi k1 k2 : R) : R := planar c L psi zi k1 k2 * (k2^2 / (k1^2 + k2^2)).
Definition density2 (c L psi zi k1 k2 : R) : R := planar c L psi zi k1 k2 * (k1^2 / (k1^2 + k2^2)).

(** Variance of the components carried by the wave vectors with kappa <= K. *)
Definition variance1 (c L psi zi K : R) : R := polar (density1 c L psi zi) (kappa_edge psi K).
Definition variance2 (c L psi zi K : R) : R := polar (density2 c L psi zi) (kappa_edge psi K).

(** The improper integral over the positive half-line of a non-negative function: least upper bound
    of the integrals up to K. *)
Definition half_line_integral (f : R -> R) (S : R) : Prop :=
  is_lub (fun v => exists K, 0 <= K /\ v = RInt f 0 K) S.
