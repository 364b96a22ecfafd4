(** Vocabulary for the statements about double precision. *)

From Coq Require Import Reals List ZArith.
From Flocq Require Import Core.
From Verif Require Import Prelude.
Import ListNotations.
Open Scope R_scope.

(** Numbers representable in double precision (normal, subnormal or zero). *)
Definition is_dbl (x : R) : Prop := generic_format radix2 (FLT_exp (-1074) 53) x.

(** A double between 2^-100 (about 10^-30) and 2^100 (about 10^30). *)
Definition moderate (x : R) : Prop := is_dbl x /\ / 2 ^ 100 <= x <= 2 ^ 100.

(** One direction of a computational grid: [t] is the length to be covered, [D] the spacing
    asked for and [n] the user's nodes; [N], [c], [cd] are the nodes, length and spacing
    found.  The count is even, not below the user's, at most two above the smallest even
    count which covers [t]; length and spacing are right to 50 bits. *)
Definition adequate (t D : R) (n N : nat) (c cd : R) : Prop :=
  Nat.Even N /\ (2 <= N)%nat /\ (n <= N)%nat /\ t * (1 - / 2 ^ 50) <= c
  /\ (forall m, Nat.Even m -> t <= INR m * D -> (N <= m + 2)%nat)
  /\ Rabs (cd - D) <= D * / 2 ^ 50.

(** [n] cells for [W]: right up to a relative error of 2^-49 of [W], and at most one off the
    smallest number of cells which covers [W]. *)
Definition cells_for (W : R) (n : Z) : Prop :=
  W * (1 - / 2 ^ 49) <= IZR n < W * (1 + / 2 ^ 49) + 1
  /\ forall m : Z, IZR m - 1 < W <= IZR m -> (Z.abs (n - m) <= 1)%Z.
