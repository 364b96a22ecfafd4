(** Independent vocabulary for the statements about spectral tensors and
    kernels: textbook notions written without any helper of the model (only the
    record of six tensor entries is shared). *)

From Coq Require Import Reals.
From Coquelicot Require Import Complex.
From Verif Require Import Prelude RdtModel.
Open Scope R_scope.

(** A wave vector as a function of the index. *)
Definition vec (k1 k2 k3 : R) : ix -> R := fun i =>
  match i with X1 => k1 | X2 => k2 | X3 => k3 end.

(** Symmetric matrix with the given six entries. *)
Definition entry (t : tensor6) (i j : ix) : R :=
  match i, j with
  | X1, X1 => phi11 t
  | X2, X2 => phi22 t
  | X3, X3 => phi33 t
  | X1, X3 | X3, X1 => phi13 t
  | X2, X3 | X3, X2 => phi23 t
  | X1, X2 | X2, X1 => phi12 t
  end.

(** The complex array `A * 1j` delivered by the code for a real array [A]. *)
Definition times_1j (A : ix -> ix -> R) : ix -> ix -> C :=
  fun i j => Cmult (RtoC (A i j)) Ci.

(** Complex sum over the three indices. *)
Definition csum3 (f : ix -> C) : C := Cplus (Cplus (f X1) (f X2)) (f X3).

(** Covariance G G^H of a kernel. *)
Definition covariance (G : ix -> ix -> C) (i j : ix) : C :=
  csum3 (fun m => Cmult (G i m) (Cconj (G j m))).

(** Divergence (k . G)_j of a kernel in Fourier space, up to the factor i. *)
Definition kernel_div (k : ix -> R) (G : ix -> ix -> C) (j : ix) : C :=
  csum3 (fun i => Cmult (RtoC (k i)) (G i j)).

(** Squared norm. *)
Definition normsq (k : ix -> R) : R := sum3 (fun i => k i * k i).

(** Incompressible isotropic tensor with energy density [E]. *)
Definition iso_tensor (E : R) (k : ix -> R) (i j : ix) : R :=
  E / (4 * PI * (normsq k * normsq k)) * (normsq k * delta i j - k i * k j).

(** Quadratic form of a matrix. *)
Definition quad_form (A : ix -> ix -> R) (x : ix -> R) : R :=
  sum3 (fun i => sum3 (fun j => x i * A i j * x j)).

(** The kernel maps real noise to a real field: Hermitian symmetry. *)
Definition hermitian_kernel (G : R -> R -> R -> ix -> ix -> C) : Prop :=
  forall k1 k2 k3 i j, G (- k1) (- k2) (- k3) i j = Cconj (G k1 k2 k3 i j).

(** Linearised rapid-distortion equations for uniform shear dU/dz = 1 along one
    column Z of the distortion, the shear [b] being the time: the wave vector is
    k(b) = (k1, k2, k30 - b k1) and
    dZ_1/db = -Z_3 + 2 k1^2/k^2 Z_3,  dZ_2/db = 2 k1 k2/k^2 Z_3,
    dZ_3/db = 2 k1 k3/k^2 Z_3. *)
Definition rdt_rhs (k : ix -> R) (Z3 : R) (i : ix) : R :=
  2 * k X1 * k i / normsq k * Z3 - (match i with X1 => Z3 | _ => 0 end).
