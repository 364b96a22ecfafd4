(** Independent vocabulary for the statements about the samplers: trigonometric
    coefficients, wave vectors, shifts and covariances of grid functions, written
    without the transforms of the model (only nodes, extents and index types are
    shared). *)

From Coq Require Import Reals List ZArith.
From Coquelicot Require Import Complex.
From Verif Require Import Prelude DftModel.
Import ListNotations.
Open Scope R_scope.

(** A node inside the grid. *)
Definition on_grid (d : extents) (x : node) : Prop :=
  let '(nx, ny, nz) := d in let '(p, q, r) := x in (p < nx)%nat /\ (q < ny)%nat /\ (r < nz)%nat.

(** Every extent positive, and every extent odd. *)
Definition nonempty (d : extents) : Prop := let '(nx, ny, nz) := d in (0 < nx)%nat /\ (0 < ny)%nat /\ (0 < nz)%nat.
Definition all_odd (d : extents) : Prop := let '(nx, ny, nz) := d in Nat.Odd nx /\ Nat.Odd ny /\ Nat.Odd nz.

(** Fourier coefficient of a real grid function:
    sum over the grid of u(x) exp(-2 pi i (a p/nx + b q/ny + c r/nz)). *)
Definition angle (d : extents) (k x : node) : R :=
  let '(nx, ny, nz) := d in let '(a, b, c) := k in let '(p, q, r) := x in
  2 * PI * (INR (a * p) / INR nx) + 2 * PI * (INR (b * q) / INR ny) + 2 * PI * (INR (c * r) / INR nz).
Definition nodes_of (d : extents) : list node :=
  let '(nx, ny, nz) := d in
  flat_map (fun p => flat_map (fun q => map (fun r => (p, q, r)) (seq 0 nz)) (seq 0 ny)) (seq 0 nx).
Definition fourier (d : extents) (u : node -> R) (k : node) : C :=
  (Rsum (map (fun x => u x * cos (angle d k x)) (nodes_of d)),
   - Rsum (map (fun x => u x * sin (angle d k x)) (nodes_of d))).

(** Physical wave number of mode number [a] out of [n] on a side of length [L]:
    the representative of smallest magnitude, the negative one in case of a tie. *)
Definition physical_k (L : R) (n a : nat) : R :=
  if (2 * a <? n)%nat then 2 * PI * INR a / L else - (2 * PI * (INR n - INR a) / L).

(** Divergence of a vector field in Fourier space (up to the factor i). *)
Definition spectral_divergence (L : R * R * R) (d : extents) (u : ix -> node -> R) (k : node) : C :=
  let '(Lx, Ly, Lz) := L in
  let '(nx, ny, nz) := d in
  let '(a, b, c) := k in
  Cplus (Cplus (Cmult (RtoC (physical_k Lx nx a)) (fourier d (u X1) k))
               (Cmult (RtoC (physical_k Ly ny b)) (fourier d (u X2) k)))
        (Cmult (RtoC (physical_k Lz nz c)) (fourier d (u X3) k)).

(** A mode is regular when no index is at the Nyquist wave number n/2. *)
Definition regular (d : extents) (k : node) : Prop :=
  let '(nx, ny, nz) := d in let '(a, b, c) := k in (2 * a <> nx)%nat /\ (2 * b <> ny)%nat /\ (2 * c <> nz)%nat.

(** The sides of a box are positive. *)
Definition positive_box (L : R * R * R) : Prop := let '(Lx, Ly, Lz) := L in 0 < Lx /\ 0 < Ly /\ 0 < Lz.

(** A kernel maps into the plane orthogonal to the wave vector. *)
Definition solenoidal (G : kernel) : Prop := forall k1 k2 k3 j,
  Cplus (Cplus (Cmult (RtoC k1) (G k1 k2 k3 X1 j)) (Cmult (RtoC k2) (G k1 k2 k3 X2 j))) (Cmult (RtoC k3) (G k1 k2 k3 X3 j)) = RtoC 0.

(** Cyclic translation of a node and of a grid function. *)
Definition translate (d : extents) (s x : node) : node :=
  let '(nx, ny, nz) := d in let '(a, b, c) := s in let '(p, q, r) := x in
  (((p + a) mod nx)%nat, ((q + b) mod ny)%nat, ((r + c) mod nz)%nat).

(** The value at a node of the trigonometric sum with given coefficients over all
    modes. *)
Definition full_sum (d : extents) (h : node -> C) (x : node) : C :=
  fold_right (fun k acc => Cplus (Cmult (h k) (cos (angle d k x), sin (angle d k x))) acc) (RtoC 0) (nodes_of d).

(** Mode with the opposite wave vector. *)
Definition mirror (d : extents) (k : node) : node :=
  let '(nx, ny, nz) := d in let '(a, b, c) := k in
  (((nx - a) mod nx)%nat, ((ny - b) mod ny)%nat, ((nz - c) mod nz)%nat).

(** Noise that is 1 in component [l] at node [y] and 0 elsewhere. *)
Definition impulse (l : ix) (y : node) : ix -> node -> R := fun i x =>
  let '(a, b, c) := y in let '(p, q, r) := x in
  if ((p =? a) && (q =? b) && (r =? c))%nat%bool then delta i l else 0.

(** Covariance at two nodes of the image of unit white noise under a linear map:
    the sum over all noise values of the products of their contributions. *)
Definition white_covariance (d : extents) (T : (ix -> node -> R) -> ix -> node -> R) (i j : ix) (x x' : node) : R :=
  Rsum (map (fun y => sum3 (fun l => T (impulse l y) i x * T (impulse l y) j x')) (nodes_of d)).

(** A kernel at the wave vector of a mode. *)
Definition kernel_at (G : kernel) (L : R * R * R) (d : extents) (k : node) : ix -> ix -> C :=
  let '(Lx, Ly, Lz) := L in let '(nx, ny, nz) := d in let '(a, b, c) := k in
  G (physical_k Lx nx a) (physical_k Ly ny b) (physical_k Lz nz c).
