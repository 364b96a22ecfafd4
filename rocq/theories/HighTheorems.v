(** Property theorems about the delivered spectra at large streamwise wave numbers. *)

From Coq Require Import Reals List Lra Lia.
From Coquelicot Require Import Coquelicot.
From Verif Require Import Prelude RdtModel SpectraModel OpsModel RdtSpec OpsSpec QuadSpec RdtProofs HighProofs.
Open Scope R_scope.

(** C157: the delivered auto-spectra of every model on every grid exceed any level at
    large wave numbers instead of decaying. *)
Theorem C157_decay_refuted : forall sel e p1 p2 N M, auto sel -> p1 < p2 -> (2 <= N)%nat ->
  exists K, forall k1, K <= k1 -> M <= ops_forward sel e p1 p2 N k1.
Proof. exact spectra_grow. Qed.
Print Assumptions C157_decay_refuted.

(** C157 (partial: the vertical component of every model and all three components
    without shear; missing: the decay itself, which is false): what grows is the
    clipping constant times the area, the rest is at most of order 1 / k1. *)
Theorem C157_bounds_partial : forall sel e p1 p2 N k1 S,
  sel = phi33 \/ (auto sel /\ forall k2 k3, oe_beta e k1 k2 k3 = 0) ->
  sensible e -> p1 < p2 -> (2 <= N)%nat -> 0 < k1 -> (forall x, 0 < x -> oe_spec e x <= S) ->
  k1 * (/ 10^12 * (2 * Rpower 10 p2)^2) <= ops_forward sel e p1 p2 N k1
  <= k1 * (/ 10^12 * (2 * Rpower 10 p2)^2)
     + oe_M e * Rpower (oe_L e) (5/3) * S / (4 * PI) * (2 * Rpower 10 p2)^2 / k1.
Proof. exact spectra_bounds. Qed.
Print Assumptions C157_bounds_partial.

(** The von Karman energy is at most 1: a model with unit parameters on the default
    grid (exponents -3 and 3, 100 points), at k1 = 2 and for every lifetime. *)
Example C157_case : forall beta,
  let e := OpsEnv 1 1 vklike_energy beta in
  2 * (/ 10^12 * (2 * Rpower 10 3)^2) <= ops_forward phi33 e (-3) 3 100 2
  <= 2 * (/ 10^12 * (2 * Rpower 10 3)^2) + 1 * Rpower 1 (5/3) * 1 / (4 * PI) * (2 * Rpower 10 3)^2 / 2.
Proof.
  intros beta e.
  apply (C157_bounds_partial phi33 e (-3) 3 100 2 1); try lra; try lia.
  - left. reflexivity.
  - split; [|split; simpl; lra]. intros x Hx. left. unfold e, vklike_energy; simpl.
    apply Rmult_lt_0_compat; apply exp_pos.
  - intros x Hx. simpl. rewrite vklike_form by exact Hx. unfold vk_energy.
    assert (Hp : (1 + x^2)^2 <= Rpower (1 + x^2) (17/6)).
    { rewrite <- (Rpower_pow 2 (1 + x^2)) by nra. apply Rle_Rpower; [nra | simpl; lra]. }
    assert (0 < (1 + x^2)^2) by (apply pow_lt; nra).
    apply Rmult_le_reg_r with (Rpower (1 + x^2) (17/6)); [lra|].
    unfold Rdiv. rewrite Rmult_assoc, Rinv_l by lra. nra.
Qed.
