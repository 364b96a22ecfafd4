(** Independent vocabulary for the statements about the plotted data. *)

From Coq Require Import Reals List.
From Verif Require Import Prelude GenModel GenSpec.
Import ListNotations.
Open Scope R_scope.

(** Entry of a three-dimensional array. *)
Definition entry3 {A : Type} (a : list (list (list A))) (i j k : nat) : option A :=
  match nth_error a i with
  | None => None
  | Some p => match nth_error p j with None => None | Some r => nth_error r k end
  end.

(** Position of node (i, j, k) in the flattened array of extents (nx, ny, nz). *)
Definition flat (ny nz i j k : nat) : nat := ((i * ny + j) * nz + k)%nat.
