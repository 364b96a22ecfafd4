(** Independent vocabulary for the single values of a generated field. *)

From Coq Require Import Reals List ZArith.
From Verif Require Import Prelude GenModel GenSpec.
Import ListNotations.
Open Scope R_scope.

(** The vector at one node of a field. *)
Definition node_value {A : Type} (f : field A) (x y z : nat) : option (A * A * A) :=
  match nth_error f x with
  | Some p => match nth_error p y with Some c => nth_error c z | None => None end
  | None => None
  end.

(** Number of the random draw used for component [c] of the noise at node [z] of
    column [y] of plane [x], when planes have [ny] columns of [nz] nodes. *)
Definition draw_number (ny nz x y z c : nat) : nat := (3 * ((x * ny + y) * nz + z) + c)%nat.

(** Planes [a], ..., [a + n - 1] of white noise of amplitude [std] made from a sequence
    of random numbers [d], in order. *)
Definition white_noise (d : nat -> R) (std : R) (ny nz a n : nat) : field R :=
  map (fun x => map (fun y => map (fun z =>
         (d (draw_number ny nz (a + x) y z 0) * std,
          d (draw_number ny nz (a + x) y z 1) * std,
          d (draw_number ny nz (a + x) y z 2) * std)) (seq 0 nz)) (seq 0 ny)) (seq 0 n).

(** Low-frequency contribution at a position, none without a low-frequency field. *)
Definition low_value (low : option low_view) (x y : R) : R * R :=
  match low with
  | Some lv => match lv_interp lv with Some h => h x y | None => (0, 0) end
  | None => (0, 0)
  end.

(** Transverse position of a column relative to a low-frequency field of width
    [L2]: the box is centred in it. *)
Definition centred (L2 Ly : R) (ny q : nat) : R := (L2 - Ly) / 2 + INR q * (Ly / INR ny).

(** Width of the low-frequency field (zero without one). *)
Definition low_width (low : option low_view) : R := match low with Some lv => lv_L2 lv | None => 0 end.
