(** Independent vocabulary for the statements about the low-frequency generator:
    plane waves, cells of a grid, window of an array, energies. *)

From Coq Require Import Reals List ZArith.
From Coquelicot Require Import Complex.
From Verif Require Import Prelude DftModel DftSpec LowModel.
Import ListNotations.
Open Scope R_scope.

(** Positive lengths: the integral scale and the side factors. *)
Definition positive_lengths (cfg : low_config) : Prop := 0 < lc_L cfg /\ 0 < lc_f1 cfg /\ 0 < lc_f2 cfg.

(** Sides and spacings the user asked for. *)
Definition asked_L1 (cfg : low_config) : R := lc_f1 cfg * lc_L cfg.
Definition asked_L2 (cfg : low_config) : R := lc_f2 cfg * lc_L cfg.
Definition asked_dx (cfg : low_config) : R := asked_L1 cfg / 2 ^ lc_e1 cfg.
Definition asked_dy (cfg : low_config) : R := asked_L2 cfg / 2 ^ lc_e2 cfg.

(** An array of n rows of length m. *)
Definition shape2 {A : Type} (n m : nat) (f : list (list A)) : Prop := length f = n /\ List.Forall (fun r => length r = m) f.

(** Entry of an array, if any. *)
Definition entry {A : Type} (f : list (list A)) (p q : nat) : option A :=
  match nth_error f p with Some r => nth_error r q | None => None end.

(** Sum of plane waves on the computational domain, as a function of position: the
    wave numbers are those of a periodic box with the computational sides. *)
Definition plane_waves (g : low_grid) (h : node -> C) (x y : R) : R :=
  / (INR (lg_cN1 g) * INR (lg_cN2 g)) *
  Rsum (map (fun k => let '(a, b, _) := k in
                      let phase := physical_k (lg_cL1 g) (lg_cN1 g) a * x + physical_k (lg_cL2 g) (lg_cN2 g) b * y in
                      Re (h k) * cos phase - Im (h k) * sin phase)
            (nodes_of (lg_cN1 g, lg_cN2 g, 1%nat))).

(** Fourier coefficients prescribed by a kernel and the noise. *)
Definition prescribed (Q : R -> R -> C) (g : low_grid) (noise : node -> R) (k : node) : C :=
  let '(a, b, _) := k in
  Cmult (Q (physical_k (lg_cL1 g) (lg_cN1 g) a) (physical_k (lg_cL2 g) (lg_cN2 g) b))
        (fourier (lg_cN1 g, lg_cN2 g, 1%nat) noise k).

(** Horizontal divergence in Fourier space (up to the factor i). *)
Definition horizontal_divergence (g : low_grid) (u1 u2 : node -> R) (k : node) : C :=
  let '(a, b, _) := k in
  let d := (lg_cN1 g, lg_cN2 g, 1%nat) in
  Cplus (Cmult (RtoC (physical_k (lg_cL1 g) (lg_cN1 g) a)) (fourier d u1 k))
        (Cmult (RtoC (physical_k (lg_cL2 g) (lg_cN2 g) b)) (fourier d u2 k)).

(** Strictly increasing coordinates. *)
Definition increasing (xs : list R) : Prop := forall i j, (i < j < length xs)%nat -> nth i xs 0 < nth j xs 0.

(** The cell [i] of a coordinate list contains the point. *)
Definition in_cell (xs : list R) (i : nat) (x : R) : Prop :=
  (S i < length xs)%nat /\ nth i xs 0 <= x <= nth (S i) xs 0.

(** Relative position of a point between two values. *)
Definition between (a b x : R) : R := (x - a) / (b - a).

(** Value of an array at a pair of indices. *)
Definition value (V : list (list R)) (i j : nat) : R := nth j (nth i V []) 0.

(** A point outside the range of the coordinates. *)
Definition outside (xs : list R) (x : R) : Prop := x < nth 0 xs 0 \/ nth (length xs - 1) xs 0 < x.

(** Energy of a grid function at streamwise mode number [a]: the squared moduli of its
    Fourier coefficients summed over the lateral modes. *)
Definition mode_energy (n1 n2 : nat) (u : node -> R) (a : nat) : R :=
  Rsum (map (fun b => let z := fourier (n1, n2, 1%nat) u (a, b, 0%nat) in (Re z)^2 + (Im z)^2) (seq 0 n2)).

(** Two-dimensional spectrum of the model at a wave vector, E(kappa)/(pi k), with
    kappa^2 = 2 (k1^2 cos^2 psi + k2^2 sin^2 psi). *)
Definition E_exact (c L zi kappa : R) : R := c * kappa^3 / (Rpower (/ L^2 + kappa^2) (7/3) * (1 + kappa^2 * zi^2)).
Definition kappa_of (psi k1 k2 : R) : R := sqrt (2 * ((k1 * cos psi)^2 + (k2 * sin psi)^2)).
Definition planar (c L psi zi k1 k2 : R) : R :=
  let k := sqrt (k1^2 + k2^2) in E_exact c L zi (kappa_of psi k1 k2) / (PI * k).

(** Unit noise at one node of a plane. *)
Definition spike (y : node) : node -> R := fun x =>
  let '(a, b, c) := y in let '(p, q, r) := x in if ((p =? a) && (q =? b) && (r =? c))%nat%bool then 1 else 0.

(** Covariance at two nodes of the image of unit white noise under a linear map. *)
Definition plane_covariance (d : extents) (T : (node -> R) -> node -> R) (x x' : node) : R :=
  Rsum (map (fun y => T (spike y) x * T (spike y) x') (nodes_of d)).
