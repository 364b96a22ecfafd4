(** Vocabulary for averages of generated blocks over random seeds. *)

From Coq Require Import Reals List ZArith.
From Verif Require Import Prelude GenModel GenSpec DftModel DftSpec SiteSpec.
Import ListNotations.
Open Scope R_scope.

(** A node of a delivered block. *)
Definition in_block (geo : geometry) (x : node) : Prop :=
  let '(p, q, r) := x in (p < g_Nx geo)%nat /\ (q < g_Ny geo)%nat /\ (r < g_Nz geo)%nat.

(** Component [i] at node [x] of the fluctuations of block number [t], before they are
    divided by their standard deviation, when the random stream starts at [g]. *)
Definition block_value {G : Type} (gauss : G -> R * G) (gn : generator G) (t : nat) (i : ix) (x : node) (g : G) : R :=
  component_at (raw_block gauss (gen_geo G gn) (gen_std G gn) (gen_correlate G gn) g t) i x.

(** Number of random numbers behind the blocks up to number [t]. *)
Definition draws_until (geo : geometry) (t : nat) : nat := (3 * ((t * g_Nx geo + rows geo) * cols geo * layers geo))%nat.

(** The noise array of a block. *)
Definition noise_grid (geo : geometry) : extents := (rows geo, cols geo, layers geo).

(** What noise of the strength of the generator, concentrated in component [l] at node
    [y] of the noise array, contributes to component [i] at node [x] of the block. *)
Definition response {G : Type} (gn : generator G) (l : ix) (y : node) (i : ix) (x : node) : R :=
  let geo := gen_geo G gn in
  let '(p, q, r) := x in
  component_at (gen_correlate G gn (laid_out (noise_grid geo) (fun m z => gen_std G gn * impulse l y m z))) i
    (Z.to_nat (g_nb geo) + p, Z.to_nat (g_my geo) + q, r)%nat.

(** A node [s] rows further on. *)
Definition rows_on (s : nat) (y : node) : node := let '(a, b, c) := y in (s + a, b, c)%nat.

(** The row of a node. *)
Definition row_of (y : node) : nat := let '(a, _, _) := y in a.
