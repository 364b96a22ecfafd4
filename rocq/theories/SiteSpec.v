(** Independent vocabulary for fields at physical positions. *)

From Coq Require Import Reals List ZArith.
From Coquelicot Require Import Complex.
From Verif Require Import Prelude RdtModel GenModel DftModel DftSpec NodeSpec.
Import ListNotations.
Open Scope R_scope.

(** The array of given extents holding a vector-valued grid function. *)
Definition laid_out (d : extents) (u : ix -> node -> R) : field R :=
  let '(nx, ny, nz) := d in
  map (fun p => map (fun q => map (fun r => (u X1 (p, q, r), u X2 (p, q, r), u X3 (p, q, r))) (seq 0 nz)) (seq 0 ny)) (seq 0 nx).

(** A component of an array at a node, zero outside the array. *)
Definition component_at (f : field R) (i : ix) (x : node) : R :=
  let '(p, q, r) := x in
  match node_value f p q r with
  | Some (a, b, c) => match i with X1 => a | X2 => b | X3 => c end
  | None => 0
  end.

(** Phase k . (x - x') of a wave between two nodes: [h] are the distances of
    neighbouring nodes, the wave vector is the one of mode [m] of a periodic box of as
    many cells as there are nodes. *)
Definition wave_phase (h : R * R * R) (d : extents) (m x x' : node) : R :=
  let '(hx, hy, hz) := h in let '(nx, ny, nz) := d in
  let '(a, b, c) := m in let '(p, q, r) := x in let '(p', q', r') := x' in
  physical_k (hx * INR nx) nx a * ((INR p - INR p') * hx)
  + physical_k (hy * INR ny) ny b * ((INR q - INR q') * hy)
  + physical_k (hz * INR nz) nz c * ((INR r - INR r') * hz).

(** Mean over all modes of a spectral density, turned by the phase of the separation. *)
Definition phase_mean (h : R * R * R) (d : extents) (Phi : node -> C) (x x' : node) : C :=
  let '(nx, ny, nz) := d in
  Cmult (RtoC (/ INR (nx * ny * nz)))
    (fold_right (fun m acc => Cplus (Cmult (Phi m) (cos (wave_phase h d m x x'), sin (wave_phase h d m x x'))) acc)
      (RtoC 0) (nodes_of d)).

(** Sizes of the periodic box which has the given distances and numbers of nodes. *)
Definition periodic_box (h : R * R * R) (d : extents) : R * R * R :=
  let '(hx, hy, hz) := h in let '(nx, ny, nz) := d in (hx * INR nx, hy * INR ny, hz * INR nz).

(** What a transform that stores one half of the modes along the third axis makes of a
    kernel: the other half is the conjugate of the opposite modes, and modes which are
    their own opposite along this axis take the mean of both. *)
Definition paired (d : extents) (K : node -> ix -> ix -> C) (m : node) (i j : ix) : C :=
  let here := K m i j in
  let opposite := Cconj (K (mirror d m) i j) in
  if ((snd m =? 0) || (2 * snd m =? snd d))%nat%bool then Cmult (RtoC (/ 2)) (Cplus here opposite)
  else if (2 * snd m <? snd d)%nat then here else opposite.

(** Bilinear interpolation in cell (i, j) of a table of values with spacings [dx], [dy]
    starting at the origin. *)
Definition bilinear (V : list (list R)) (dx dy : R) (i j : nat) (x y : R) : R :=
  let t := x / dx - INR i in
  let s := y / dy - INR j in
  let v p q := nth q (nth p V []) 0 in
  (1 - t) * ((1 - s) * v i j + s * v i (S j)) + t * ((1 - s) * v (S i) j + s * v (S i) (S j)).
