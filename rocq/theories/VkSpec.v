(** Vocabulary for the comparison of the generated von Karman data with the
    model: the model without shear distortion. *)

From Coq Require Import Reals.
From Verif Require Import SpectraModel OpsModel.
Open Scope R_scope.

(** Length scale [L], magnitude [C], the von Karman energy spectrum and a
    lifetime of zero at the streamwise wave number [k1]. *)
Definition shear_free_model (e : ops_env) (L C k1 : R) : Prop :=
  oe_L e = L /\ oe_M e = C /\ (forall x, 0 < x -> oe_spec e x = vklike_energy x) /\
  (forall k2 k3, oe_beta e k1 k2 k3 = 0).
