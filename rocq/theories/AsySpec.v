(** Vocabulary for asymptotic power laws. *)

From Coq Require Import Reals List.
From Verif Require Import Prelude.
Open Scope R_scope.

(** Limits from the right at 0 and at infinity. *)
Definition tends_at_zero (f : R -> R) (l : R) : Prop :=
  forall eps, 0 < eps -> exists d, 0 < d /\ forall x, 0 < x < d -> Rabs (f x - l) < eps.

Definition tends_at_infinity (f : R -> R) (l : R) : Prop :=
  forall eps, 0 < eps -> exists M, 0 < M /\ forall x, M < x -> Rabs (f x - l) < eps.

(** f x ~ c x^a for small and for large x. *)
Definition law_at_zero (f : R -> R) (a c : R) : Prop := tends_at_zero (fun x => f x / Rpower x a) c.

Definition law_at_infinity (f : R -> R) (a c : R) : Prop := tends_at_infinity (fun x => f x / Rpower x a) c.

(** The slopes of f in a log-log diagram. *)
Definition slope_at_zero (f : R -> R) (a : R) : Prop := exists c, 0 < c /\ law_at_zero f a c.

Definition slope_at_infinity (f : R -> R) (a : R) : Prop := exists c, 0 < c /\ law_at_infinity f a c.

(** Length of a wave vector. *)
Definition wave_number (k1 k2 k3 : R) : R := sqrt (k1^2 + k2^2 + k3^2).

(** The values delivered along a ray of wave vectors. *)
Definition along_ray (F : R -> R -> R -> res R) (k1 k2 k3 : R) (t : R -> R) : Prop :=
  forall c, 0 < c -> F (c * k1) (c * k2) (c * k3) = Ok (t c).

(** The activation max(0, x). *)
Definition is_relu (f : R -> R) : Prop := forall x, f x = Rmax 0 x.

(** Some component differs from 0. *)
Definition nonzero_vector (a : list R) : Prop := exists x, In x a /\ x <> 0.

(** Largest absolute row sum of a matrix. *)
Definition row_norm (W : list (list R)) : R := fold_right (fun r m => Rmax (Rsum (map Rabs r)) m) 0 W.
