(** Vocabulary for statements about the unit of length.  A length of [x] units is a length of
    [x * s] units of the s-th part; velocities keep their unit. *)

From Coq Require Import Reals List.
From Verif Require Import Prelude RdtModel SpectraModel OpsModel OpsSpec LossModel.
Import ListNotations.
Open Scope R_scope.

(** The same model with lengths in the other unit: wave numbers are divided by [s], and the
    magnitude, whose dimension is velocity^2 length^(-2/3), is multiplied by s^(-2/3). *)
Definition in_unit (s : R) (e : ops_env) : ops_env :=
  OpsEnv (oe_L e * s) (oe_M e * Rpower s (-2/3)) (oe_spec e) (fun k1 k2 k3 => oe_beta e (k1 * s) (k2 * s) (k3 * s)).

(** The same parameters of a lifetime with lengths in the other unit. *)
Definition lifetime_in_unit (s : R) (env : lifetime_env) : lifetime_env :=
  LEnv (le_type env) (le_L env * s) (le_T env) (le_hyp env) (le_coef env) (le_icpt env) (le_net env).

(** The model [e] has the length scale and the lifetime given by [env]. *)
Definition has_lifetime (e : ops_env) (env : lifetime_env) : Prop :=
  oe_L e = le_L env /\ forall k1 k2 k3, eddy_lifetime env k1 k2 k3 = Ok (oe_beta e k1 k2 k3).

(** Wave numbers in the other unit. *)
Definition waves_in_unit (s : R) (ks : list R) : list R := map (fun k => k / s) ks.

(** A coherence evaluation (model, wave number, separation) in the other unit. *)
Definition query_in_unit (s : R) (q : ops_env * R * R) : ops_env * R * R :=
  match q with (e, k1, r) => (in_unit s e, k1 / s, r * s) end.

(** No density which enters a coherence is replaced by the bound 1e-32. *)
Definition coh_kept (g : list R) (sel : tensor6 -> R) (e : ops_env) (k1 : R) : Prop :=
  forall k2 k3, In k2 g -> In k3 g -> / 10^32 <= undelivered sel e k1 k2 k3.

(** The same weights except that those of the two penalties are multiplied. *)
Definition reweighted (a b : R) (p : loss_params) : loss_params :=
  LossParams (a * alpha_pen1 p) (b * alpha_pen2 p) (beta_reg p) (gamma_coherence p).
