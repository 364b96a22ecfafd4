(** Vocabulary for the statements about continuous dependence on the parameters. *)

From Coq Require Import Reals List.
From Coquelicot Require Import Coquelicot.
From Verif Require Import Prelude SpectraModel OpsModel.
Import ListNotations.
Open Scope R_scope.

(** A family of models whose ingredients depend continuously on a parameter (a point of any
    uniform space) at [p]: length scale, magnitude, energy spectrum (jointly with its argument) and
    lifetime at every wave vector with first component [k1]. *)
Definition steady {U : UniformSpace} (e : U -> ops_env) (k1 : R) (p : U) : Prop :=
  0 < oe_L (e p) /\ continuous (fun q => oe_L (e q)) p /\ continuous (fun q => oe_M (e q)) p
  /\ (forall x, 0 < x -> continuous (fun z : U * R => oe_spec (e (fst z)) (snd z)) (p, x))
  /\ forall k2 k3, continuous (fun q => oe_beta (e q) k1 k2 k3) p.

(** The layers of a network whose weights are functions of a parameter. *)
Definition weights_at {U : Type} (WF : list (list (list (U -> R)))) (q : U) : list weights :=
  map (map (map (fun f => f q))) WF.

(** All weights depend continuously on the parameter. *)
Definition steady_weights {U : UniformSpace} (WF : list (list (list (U -> R)))) (p : U) : Prop :=
  forall W r f, In W WF -> In r W -> In f r -> continuous f p.
