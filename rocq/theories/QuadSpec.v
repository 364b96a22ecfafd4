(** Vocabulary for the statements about the numerical integration over the
    cross-stream wave numbers: the exact integral over a square and continuity in
    the plane. *)

From Coq Require Import Reals List.
From Coquelicot Require Import Coquelicot.
From Verif Require Import RdtModel OpsModel.
Import ListNotations.
Open Scope R_scope.

(** The exact iterated integral over the square [-B, B] x [-B, B]. *)
Definition box_integral (f : R -> R -> R) (B : R) : R :=
  RInt (fun x => RInt (fun y => f x y) (- B) B) (- B) B.

(** The iterated integral exists (the inner one at every outer point). *)
Definition box_integrable (f : R -> R -> R) (B : R) : Prop :=
  (forall x, - B <= x <= B -> ex_RInt (fun y => f x y) (- B) B) /\
  ex_RInt (fun x => RInt (fun y => f x y) (- B) B) (- B) B.

(** Jointly continuous in the whole plane. *)
Definition plane_continuous (f : R -> R -> R) : Prop :=
  forall x y, continuity_2d_pt f x y.

(** A model with continuous ingredients: the energy spectrum at positive
    arguments, the lifetime jointly in the two cross-stream wave numbers. *)
Definition smooth_model (e : ops_env) (k1 : R) : Prop :=
  0 < oe_L e /\
  (forall x, 0 < x -> continuity_pt (oe_spec e) x) /\
  plane_continuous (oe_beta e k1).

(** A quantity [V] computed on the grid with exponents [p1], [p2] and [N] points
    per side approaches [S] when first the smallest node is taken small and
    then the number of nodes large. *)
Definition refines_to (V : R -> nat -> R) (S : R) : Prop :=
  forall eps, 0 < eps ->
  exists P, forall p1, p1 <= P ->
  exists N0, forall N, (N0 <= N)%nat -> Rabs (V p1 N - S) <= eps.

(** Values below a floor are raised to it. *)
Definition floored (eps : R) (f : R -> R -> R) : R -> R -> R := fun x y => Rmax (f x y) eps.

(** Squared coherence of two points a spanwise distance [r] apart when the
    wave numbers range over the square of half-width [B] and [W] is the
    spectral density: squared modulus of the phase-weighted integral over the
    square of the plain one. *)
Definition exact_coherence (W : R -> R -> R) (B r : R) : R :=
  (box_integral (fun x y => W x y * cos (x * r)) B ^ 2 + box_integral (fun x y => W x y * sin (x * r)) B ^ 2)
  / box_integral W B ^ 2.
