(** Vocabulary for the statements about the studies of the low-frequency generator. *)

From Coq Require Import Reals List ZArith.
From Coquelicot Require Import Complex.
From Verif Require Import Prelude DftModel DftSpec LowModel LowSpec.
Import ListNotations.
Open Scope R_scope.

(** Variances of the two components which a grid of [n1] by [n2] points with sides
    [L1], [L2] can carry: the two-dimensional spectra of the model summed over the
    resolved modes, without the lateral (streamwise) mode of highest number, times the
    area of a mode. *)
Definition carried1 (c : R) (cfg : low_config) (L1 L2 : R) (n1 n2 : nat) : R :=
  Rsum (map (fun k => let '(a, b, _) := k in
               if (2 * b =? n2)%nat then 0
               else integrand11 c (lc_L cfg) (lc_psi cfg) (lc_zi cfg) (physical_k L1 n1 a) (physical_k L2 n2 b) * ((2 * PI / L1) * (2 * PI / L2)))
            (nodes_of (n1, n2, 1%nat))).
Definition carried2 (c : R) (cfg : low_config) (L1 L2 : R) (n1 n2 : nat) : R :=
  Rsum (map (fun k => let '(a, b, _) := k in
               if (2 * a =? n1)%nat then 0
               else integrand22 c (lc_L cfg) (lc_psi cfg) (lc_zi cfg) (physical_k L1 n1 a) (physical_k L2 n2 b) * ((2 * PI / L1) * (2 * PI / L2)))
            (nodes_of (n1, n2, 1%nat))).

(** Ranges of scales and angles for which the guards of the code against division by
    small numbers do not act. *)
Definition ordinary (cfg : low_config) (L1 L2 dx dy : R) : Prop :=
  0 <= lc_sigma2 cfg /\ lc_L cfg <= 10^6 /\ L1 <= 10^8 /\ L2 <= 10^8 /\ / 10^16 <= dx * dy
  /\ / 100 <= Rabs (cos (lc_psi cfg)) /\ / 100 <= Rabs (sin (lc_psi cfg)).

(** A field obtained from a fresh generator of a given configuration. *)
Definition drawn_with {G : Type} (gauss : G -> R * G) (quad : (R -> R) -> R) (cfg : low_config) (u : list (list R) * list (list R)) : Prop :=
  exists w w' g g', low_construct quad cfg = Ok w /\ low_generate gauss w g = (Ok w', g') /\ lw_u w' = Some u.

(** The values of a pair of fields. *)
Definition values_of (u : list (list R) * list (list R)) : list R := concat (fst u) ++ concat (snd u).
