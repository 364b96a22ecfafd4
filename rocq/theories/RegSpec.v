(** Vocabulary for the parameters of a network (C164). *)

From Coq Require Import Reals List Arith.
From Verif Require Import Prelude SpectraModel RegModel.
Import ListNotations.

(** The activation modules the caller passes, and the default one. *)
Definition given (relu : act_mod) (act : act_arg act_mod) (a : act_mod) : Prop :=
  a = relu \/ act = ActOne a \/ exists l, act = ActList l /\ In (ActModule a) l.

(** They exist before the network is built: their parameters have identities in use. *)
Definition exist_before (relu : act_mod) (act : act_arg act_mod) (nxt : nat) : Prop :=
  forall a i, given relu act a -> In i (am_params a) -> (i < nxt)%nat.

(** The exponent, when it is a parameter. *)
Definition nu_param (t : tau_net) : list nat := match nt_nu t with inl i => [i] | inr _ => [] end.

(** Every number a calibration could adapt: weights, exponent, parameters of the activations. *)
Definition trainable (t : tau_net) (i : nat) : Prop :=
  In i (nt_weights t) \/ In i (nu_param t) \/ exists a, In a (nt_acts t) /\ In i (am_params a).

(** Two states give the listed parameters values of the same sizes. *)
Definition same_sizes (t : tau_net) (h h' : heap) : Prop :=
  forall i, In i (parameters (net_obj t)) -> map (@length R) (h i) = map (@length R) (h' i).
