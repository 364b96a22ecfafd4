(** Vocabulary for the comparison of sampled fields with the calibrated spectra. *)

From Coq Require Import Reals.
From Coquelicot Require Import Coquelicot.
From Verif Require Import Prelude RdtModel DftModel DftSpec EndSpec.
Open Scope R_scope.

(** The exact iterated integral over the rectangle [-By, By] x [-Bz, Bz]. *)
Definition rect_integral (f : R -> R -> R) (By Bz : R) : R :=
  RInt (fun x => RInt (fun y => f x y) (- Bz) Bz) (- By) By.

(** Spectral density (per unit wave number) of a row of the image of unit white noise, at
    streamwise mode number [a], for a row of length [Lx]: the expected product of the
    Fourier sums over the row divided by the number of points, times Lx / (2 pi). *)
Definition row_density (Lx : R) (d : extents) (T : (ix -> node -> R) -> ix -> node -> R) (i j : ix) (a q r : nat) : C :=
  let '(nx, _, _) := d in
  Cmult (RtoC (Lx / (2 * PI * INR nx ^ 2))) (row_spectrum d T i j a q r).
