(** Model of Adam as the optimiser of the training loop
    (/repo/drdmannturb/spectra_fitting/calibration.py L413-420, L493). *)

From Coq Require Import Reals List Arith.
From Verif Require Import Prelude RdtModel SpectraModel OpsModel LossModel CalModel PlotModel.
Import ListNotations.
Open Scope R_scope.

(** State of Adam after steps taken at the vectors [vs] with [n] coordinates
    (calibration.py L413-420, L493); the learning rate does not enter the state. *)
Definition adam_replay (grad : list R -> list R) (vs : list (list R)) (n : nat) : adam_state :=
  fold_left (fun st v => snd (adam_step 0 (grad v) v st)) vs (adam_init n).

(** `optimizer.step(closure)` for Adam (calibration.py L493): the closure is evaluated
    once, at the current parameters, then the parameters are moved.  [grad] is the
    gradient computed by `backward` (L481).  The vectors evaluated so far are those at
    which earlier steps were taken. *)
Definition adam_opt (grad : list R -> list R) (_ : nat) (s : tstate) : strategy :=
  let v := get_parameters (ts_mod s) in
  Ask v (fun _ => Finish (fst (adam_step (ts_lr s) (grad v) v (adam_replay grad (map fst (ts_seen s)) (length v))))).
