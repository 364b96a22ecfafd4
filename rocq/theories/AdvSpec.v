(** Vocabulary for the advice on the learning rate. *)

From Coq Require Import Reals List.
From Verif Require Import Prelude LossModel LossSpec.
Import ListNotations.
Open Scope R_scope.

(** Recorded values of a component. *)
Definition history (s : agg) (c : comp) : list xr :=
  match c with Cmse => h_mse s | Ccoh => h_coh s | Cpen1 => h_pen1 s | Cpen2 => h_pen2 s | Creg => h_reg s end.

(** Order in which the components are listed. *)
Definition rank (c : comp) : nat := match c with Cmse => 0 | Ccoh => 1 | Cpen1 => 2 | Cpen2 => 3 | Creg => 4 end.

(** The last [w] values of the components and of the total, all of them finite. *)
Definition window_of (w : nat) (s : agg) (vals : comp -> list R) (tot : list R) : Prop :=
  (forall c, length (vals c) = w /\ exists pre, history s c = pre ++ map Fin (vals c))
  /\ length tot = w /\ exists pre, h_total s = pre ++ map Fin tot.

(** Root mean square deviation from the mean. *)
Definition deviation (l : list R) : R := sqrt (Rmean (map (fun x => (x - Rmean l)^2) l)).

(** Relative decrease from the first to the second half of a window. *)
Definition improvement (l : list R) : R :=
  let n := (length l / 2)%nat in
  (Rmean (firstn n l) - Rmean (skipn n l)) / Rmax (Rmean (firstn n l)) (/ 10^8).

(** A component with the largest mean, the first one of them. *)
Definition dominant (mean : comp -> R) (c : comp) : Prop :=
  (forall d, mean d <= mean c) /\ forall d, (rank d < rank c)%nat -> mean d < mean c.

(** The smallest mean. *)
Definition smallest (mean : comp -> R) (x : R) : Prop := (exists d, x = mean d) /\ forall d, x <= mean d.

(** A term which is switched off. *)
Definition switched_off (p : loss_params) (c : comp) : Prop :=
  match c with
  | Cmse => False
  | Ccoh => gamma_coherence p <= 0
  | Cpen1 => alpha_pen1 p <= 0
  | Cpen2 => alpha_pen2 p <= 0
  | Creg => beta_reg p <= 0
  end.
