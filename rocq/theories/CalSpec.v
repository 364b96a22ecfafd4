(** Independent vocabulary for the statements about calibration. *)

From Coq Require Import String Reals List Arith ZArith Bool Sorted.
From Coquelicot Require Import Coquelicot.
From Verif Require Import Prelude RdtModel SpectraModel OpsModel LossModel CalModel.
Import ListNotations.
Open Scope R_scope.

(** The network weights have the layer shapes of a network configuration, and nu is
    present exactly when it is learned. *)
Definition net_matches {A : Type} (c : taunet_cfg A) (net : list weights * option R) : Prop :=
  Forall2 (fun p W => has_shape (snd p) (fst p) W) (tc_layers c) (fst net)
  /\ (tc_learn_nu c = true <-> snd net <> None).

(** Shapes of all rows of all layers. *)
Definition layer_rows (Ws : list weights) : list (list nat) := map (map (@length R)) Ws.

(** Two modules with the same architecture: the same optional parameters and the
    same weight shapes. *)
Definition same_architecture (s t : module_params) : Prop :=
  (mp_pq s = None <-> mp_pq t = None)
  /\ match mp_net s, mp_net t with
     | None, None => True
     | Some (Ws, nu), Some (Vs, mu) => layer_rows Ws = layer_rows Vs /\ (nu = None <-> mu = None)
     | _, _ => False
     end.

(** A finite loss which is not below the tolerance. *)
Definition not_converged (tol : R) (x : xr) : Prop := exists r, x = Fin r /\ tol <= r.

(** [a] is the rank of [k] among the distinct keys in [l]: exactly [a] distinct
    keys of [l] are smaller. *)
Definition rank_of (k : Z) (l : list Z) (a : nat) : Prop :=
  In k l /\ exists small, NoDup small /\ length small = a /\ forall x, In x small <-> In x l /\ (x < k)%Z.

(** The cell (a, b) belongs to a row of a coherence file: a is the rank of its
    separation index, b the rank of its frequency index. *)
Definition cell_of (rows : list crow) (r : crow) (a b : nat) : Prop :=
  rank_of (cr_i r) (map cr_i rows) a /\ rank_of (cr_j r) (map cr_j rows) b.

(** A complete file in separation-major order: for increasing separation keys and,
    within each, for increasing frequency keys. *)
Definition separation_major (is js : list Z) (val : Z -> Z -> R) (rows : list crow) : Prop :=
  map (fun r => (cr_i r, cr_j r, cr_val r)) rows
  = flat_map (fun i => map (fun j => (i, j, val i j)) js) is.

(** Zero-based contiguous keys: exactly 0, ..., n-1 occur. *)
Definition zero_based (l : list Z) (n : nat) : Prop :=
  forall z, In z l <-> (0 <= z < Z.of_nat n)%Z.

(** Rows with equal separation (frequency) index carry the same separation
    (frequency). *)
Definition consistent (rows : list crow) : Prop :=
  forall r r', In r rows -> In r' rows ->
    (cr_i r = cr_i r' -> cr_sep r = cr_sep r') /\ (cr_j r = cr_j r' -> cr_freq r = cr_freq r').

(** Entry of the spectral tensor for a pair of directions. *)
Definition entry (i j : ix) : tensor6 -> R :=
  match i, j with
  | X1, X1 => phi11 | X2, X2 => phi22 | X3, X3 => phi33
  | X1, X3 | X3, X1 => phi13
  | X2, X3 | X3, X2 => phi23
  | X1, X2 | X2, X1 => phi12
  end.

(** Directory in effect for a save: the argument, or the problem's own when the
    argument is None. *)
Definition save_target (save_dir output_dir : dir_arg) : dir_arg :=
  match save_dir with DNone => output_dir | d => d end.

(** The directory named by an argument, if it is usable as one. *)
Definition usable_dir {A : Type} (f : fs A) (d : dir_arg) (s : string) : Prop :=
  (d = DStr s /\ (fs_dir f s = true \/ fs_creatable f s = true)) \/ (d = DPath s /\ fs_dir f s = true).

(** Value of a term of the loss, zero when it is switched off. *)
Definition at_or_zero (t : option ((R -> R) * (R -> R))) (x : R) : R :=
  match t with Some (f, _) => f x | None => 0 end.

(** Derivative that goes with a term, zero when it is switched off. *)
Definition slope_or_zero (t : option ((R -> R) * (R -> R))) (x : R) : R :=
  match t with Some (_, f') => f' x | None => 0 end.

(** The second function is the derivative of the first one. *)
Definition smooth_at (t : option ((R -> R) * (R -> R))) (x : R) : Prop :=
  match t with Some (f, f') => is_derive f x (f' x) | None => True end.
