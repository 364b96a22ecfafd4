(** Specification notions for the end-to-end properties of generated fields. *)

From Coq Require Import String Reals List ZArith.
From Coquelicot Require Import Complex.
From Verif Require Import Prelude RdtModel GenModel DftModel DftSpec.
Import ListNotations.
Open Scope R_scope.

(** Two argument lists with the same box, grid, seed and blending. *)
Definition same_setup (a a' : gen_args) : Prop :=
  ga_dims a = ga_dims a' /\ ga_levels a = ga_levels a' /\ ga_blend a = ga_blend a' /\ ga_seed a = ga_seed a'.

(** Two constructions which fail alike, or deliver generators returning the same
    arrays (or the same errors) for every sequence of calls. *)
Definition same_outputs (G : Type) (gauss : G -> R * G) (r r' : res (generator G * world G)) : Prop :=
  match r, r' with
  | Ok (gn, w), Ok (gn', w') => w = w' /\ forall calls, fst (gen_calls G gauss calls gn) = fst (gen_calls G gauss calls gn')
  | Err e, Err e' => e = e'
  | _, _ => False
  end.

(** Expected streamwise cross-spectrum, at mode number [a], of the image of unit
    white noise under a linear map, on the row of nodes (., q, r): the double Fourier
    sum over the row of the covariance. *)
Definition row_spectrum (d : extents) (T : (ix -> node -> R) -> ix -> node -> R) (i j : ix) (a q r : nat) : C :=
  let '(nx, ny, nz) := d in
  fold_right (fun p acc => Cplus
    (fold_right (fun p' acc' => Cplus
       (Cmult (RtoC (white_covariance d T i j (p, q, r) (p', q, r)))
              (cos (2 * PI * INR a * (INR p' - INR p) / INR nx), sin (2 * PI * INR a * (INR p' - INR p) / INR nx))) acc')
       (RtoC 0) (seq 0 nx)) acc) (RtoC 0) (seq 0 nx).

(** Sum of a spectral tensor over the transverse wave numbers of the grid, at
    streamwise mode number [a]. *)
Definition transverse_sum (d : extents) (Phi : node -> C) (a : nat) : C :=
  let '(nx, ny, nz) := d in
  fold_right (fun b acc => Cplus (fold_right (fun c acc' => Cplus (Phi (a, b, c)) acc') (RtoC 0) (seq 0 nz)) acc) (RtoC 0) (seq 0 ny).

(** Covariance at two nodes of the image, under a map, of white noise of standard
    deviation [s]. *)
Definition noise_covariance (s : R) (d : extents) (T : (ix -> node -> R) -> ix -> node -> R) (i j : ix) (x x' : node) : R :=
  Rsum (map (fun y => sum3 (fun l => T (fun m z => s * impulse l y m z) i x * T (fun m z => s * impulse l y m z) j x')) (nodes_of d)).

(** Riemann sum over the wave vectors of a periodic box: every wave vector stands for
    the volume (2 pi)^3 / (Lx Ly Lz) of wave-number space. *)
Definition riemann_sum (L : R * R * R) (d : extents) (f : node -> R) : R :=
  let '(Lx, Ly, Lz) := L in (2 * PI / Lx) * (2 * PI / Ly) * (2 * PI / Lz) * Rsum (map f (nodes_of d)).
