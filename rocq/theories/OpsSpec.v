(** Independent vocabulary for the statements about quadrature, one-point spectra
    and coherence. *)

From Coq Require Import Reals List Sorted.
From Verif Require Import RdtModel OpsModel.
Import ListNotations.
Open Scope R_scope.

(** Strictly increasing grid. *)
Definition increasing (g : list R) : Prop := StronglySorted Rlt g.

(** Grid symmetric about zero. *)
Definition symmetric (g : list R) : Prop := map Ropp (rev g) = g.

(** First node of a grid. *)
Definition first_node (g : list R) : R := hd 0 g.

(** Last node of a grid. *)
Definition last_node (g : list R) : R := last g 0.

(** The six tensor entries. *)
Definition selector (sel : tensor6 -> R) : Prop :=
  sel = phi11 \/ sel = phi22 \/ sel = phi33 \/ sel = phi13 \/ sel = phi23 \/ sel = phi12.

(** The three diagonal entries. *)
Definition auto (sel : tensor6 -> R) : Prop := sel = phi11 \/ sel = phi22 \/ sel = phi33.

(** The same model with its magnitude multiplied by [c]. *)
Definition scale_M (c : R) (e : ops_env) : ops_env :=
  OpsEnv (oe_L e) (c * oe_M e) (oe_spec e) (oe_beta e).

(** Physically sensible model: non-negative energy spectrum and magnitude,
    positive length. *)
Definition sensible (e : ops_env) : Prop :=
  (forall x, 0 < x -> 0 <= oe_spec e x) /\ 0 <= oe_M e /\ 0 < oe_L e.

(** Lifetime which does not see the sign of the spanwise wave number. *)
Definition spanwise_even (e : ops_env) : Prop :=
  forall k1 k2 k3, oe_beta e k1 (- k2) k3 = oe_beta e k1 k2 k3.
