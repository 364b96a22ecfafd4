(** Vocabulary for the statements about the magnitude of a fitted model. *)

From Coq Require Import Reals List.
From Verif Require Import Prelude RdtModel OpsModel OpsSpec.
Import ListNotations.
Open Scope R_scope.

(** Product of a list. *)
Definition product (l : list R) : R := fold_right Rmult 1 l.

(** Product of the absolute values of all points of several curves. *)
Definition product_of (ys : list (list R)) : R := product (map Rabs (concat ys)).

(** A density which is delivered as it is: above the bound 1e-12, for uw in absolute value. *)
Definition kept (sel : tensor6 -> R) (x : R) : Prop :=
  (auto sel /\ / 10^12 <= x) \/ (sel = phi13 /\ / 10^12 <= Rabs x).

(** No density which enters the curves is replaced by a bound. *)
Definition all_kept (e : ops_env) (p1 p2 : R) (N : nat) (curves : list (tensor6 -> R)) (ks : list R) : Prop :=
  forall sel k1 k2 k3, In sel curves -> In k1 ks -> In k2 (sym_grid p1 p2 N) -> In k3 (sym_grid p1 p2 N) ->
  kept sel (undelivered sel e k1 k2 k3).

(** The curves of a model. *)
Definition curves_of (e : ops_env) (p1 p2 : R) (N : nat) (curves : list (tensor6 -> R)) (ks : list R) : list (list R) :=
  map (fun sel => map (ops_forward sel e p1 p2 N) ks) curves.
