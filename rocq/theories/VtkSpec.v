(** How an image file is read: vocabulary for the statements about exported fields. *)

From Coq Require Import Reals List Arith ZArith.
From Verif Require Import Prelude GenModel VtkModel.
Import ListNotations.
Open Scope R_scope.

(** Component [c] of the vector in cell (i, j, k), as a reader of the format finds it:
    cells are numbered with the first index fastest, three numbers per cell. *)
Definition cell_component (t : vti) (i j k c : nat) (v : xr) : Prop :=
  let '(nx, ny, nz) := vt_cells t in
  (i < nx)%nat /\ (j < ny)%nat /\ (k < nz)%nat /\ (c < 3)%nat
  /\ nth_error (vt_wind t) (3 * (i + nx * (j + ny * k)) + c) = Some v.

(** Component of a vector by number. *)
Definition component (v : xr * xr * xr) (c : nat) : option xr :=
  match v, c with (a, _, _), 0%nat => Some a | (_, b, _), 1%nat => Some b | (_, _, d), 2%nat => Some d | _, _ => None end.

(** Entry of a vector field. *)
Definition vector_at (f : field xr) (i j k : nat) : option (xr * xr * xr) :=
  match nth_error f i with Some p => match nth_error p j with Some c => nth_error c k | None => None end | None => None end.

(** Physical size of the box described by a file. *)
Definition box_size (t : vti) : R * R * R :=
  let '(nx, ny, nz) := vt_cells t in let '(dx, dy, dz) := vt_spacing t in (INR nx * dx, INR ny * dy, INR nz * dz).

(** Number of blocks requested by a list of calls. *)
Definition requested (calls : list (Z * profile_args)) : nat := list_sum (map (fun c => Z.to_nat (fst c)) calls).
