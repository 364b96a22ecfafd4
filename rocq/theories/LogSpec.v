(** Vocabulary for the records of a calibration. *)

From Coq Require Import String Reals List Arith Bool.
From Verif Require Import Prelude LossModel CalModel LogModel.
Import ListNotations.
Open Scope R_scope.

(** Tags under which the terms of a loss are recorded. *)
Definition term_tags : list string :=
  ["MSE Loss"; "Coherence Loss/Total"; "1st Order Penalty"; "2nd Order Penalty"; "Regularization"]%string.

(** Recorded values of the terms, in the order they were written. *)
Definition recorded_terms (w : list event) : list xr :=
  map ev_value (filter (fun e => existsb (String.eqb (ev_tag e)) term_tags) w).

(** Sum of recorded values. *)
Definition total_of (l : list xr) : xr := fold_left xadd l (Fin 0).

(** Which terms take part in an evaluation. *)
Definition uses_coherence (p : loss_params) (a : eval_args) : Prop := ea_coh a <> None /\ 0 < gamma_coherence p.
Definition uses_regularization (p : loss_params) (a : eval_args) : Prop := ea_theta a <> ThNone /\ 0 < beta_reg p.

(** Records of one evaluation: they carry one step, and the misfit comes first. *)
Definition of_evaluation (n : nat) (b : list event) : Prop :=
  (forall e, In e b -> ev_step e = n) /\ exists v b', b = Event "MSE Loss" v n :: b'.

(** An optimiser step which evaluates the loss at least [k] times. *)
Fixpoint asks_at_least (k : nat) (t : strategy) : Prop :=
  match k, t with
  | O, _ => True
  | S k', Finish _ => False
  | S k', Ask _ f => forall l, asks_at_least k' (f l)
  end.

(** The arguments `calibrate` gives to the evaluations: step 0 and no coherence data at
    first, then the number of evaluations made by the optimiser so far. *)
Definition counted (c : train_cfg) : Prop :=
  (forall m, ea_epoch (tg_args0 c m) = 0%nat /\ ea_coh (tg_args0 c m) = None) /\ (forall m n, ea_epoch (tg_args c m n) = n).

(** Shares of the loss, by kind, and the tags under which they are recorded. *)
Definition ratio_field (k : nat) (q : nat * (xr * xr * xr * xr)) : xr :=
  let '(_, (a, b, c, d)) := q in match k with 0 => a | 1 => b | 2 => c | _ => d end%nat.

Definition ratio_tag (k : nat) : string :=
  match k with 0 => "Component_Ratios/MSE" | 1 => "Component_Ratios/Coherence" | 2 => "Component_Ratios/Penalties" | _ => "Component_Ratios/Regularization" end%string%nat.
