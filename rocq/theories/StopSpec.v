(** Vocabulary for the statements about stopping the training. *)

From Coq Require Import Reals List Arith.
From Verif Require Import Prelude RdtModel SpectraModel OpsModel LossModel CalModel PlotModel StopModel.
Import ListNotations.
Open Scope R_scope.

(** Loss of a module, as the closure computes it at its evaluation number [n]. *)
Definition loss_at (c : train_cfg) (m : module_params) (n : nat) : res xr :=
  fst (agg_eval (tg_loss c) (tg_k1 c) (tg_zref c) agg_init (tg_args c m n)).

(** An optimiser step which leaves the vector it evaluated last. *)
Fixpoint settled (last : option (list R)) (t : strategy) : Prop :=
  match t with
  | Finish v => last = Some v
  | Ask v k => forall l, settled (Some v) (k l)
  end.

(** Adam's state (step count and moments) after one step at each of the vectors [vs], the
    oldest first, starting from a new optimiser for [n] coordinates. *)
Definition adam_history (grad : list R -> list R) (n : nat) (vs : list (list R)) : adam_state :=
  fold_right (fun v st => snd (adam_step 0 (grad v) v st)) (adam_init n) (rev vs).
