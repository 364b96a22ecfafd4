(** Property theorems about the magnitude of a fitted model (C189). *)

From Coq Require Import Reals Lra Lia List Sorted.
From Verif Require Import Prelude RdtModel SpectraModel OpsModel OpsSpec LossModel LossSpec TotalSpec BalSpec BalProofs AutoModel AutoSpec AutoCases BalCases.
Import ListNotations.
Open Scope R_scope.

(** C189: the loss, with all penalties, is a quadratic function of the logarithm of the
    magnitude, whose linear term is the logarithm of the ratio of the products of all modelled
    and all measured values. *)
Theorem C189_magnitude : forall p ks zref th p1 p2 N curves data e, ks <> [] ->
  regular_curves ks (curves_of e p1 p2 N curves ks) -> regular_curves ks data -> length curves = length data ->
  forall c, 0 < c -> all_kept e p1 p2 N curves ks -> all_kept (scale_M c e) p1 p2 N curves ks ->
  let model := curves_of e p1 p2 N curves ks in
  loss_value p ks zref (curves_of (scale_M c e) p1 p2 N curves ks) data th None
  = loss_value p ks zref model data th None
    + 2 * ln c * (ln (product_of model / product_of data) / INR (length (concat data))) + (ln c)^2.
Proof. exact magnitude_value. Qed.
Print Assumptions C189_magnitude.

(** C189: if no other magnitude fits better, the products of all modelled and of all measured
    values are equal. *)
Theorem C189_balanced : forall p ks zref th p1 p2 N curves data e, ks <> [] ->
  regular_curves ks (curves_of e p1 p2 N curves ks) -> regular_curves ks data -> length curves = length data ->
  forall c0, 0 < c0 < 1 -> all_kept (scale_M c0 e) p1 p2 N curves ks ->
  let model := curves_of e p1 p2 N curves ks in
  (forall c, c0 <= c -> loss_value p ks zref model data th None
                        <= loss_value p ks zref (curves_of (scale_M c e) p1 p2 N curves ks) data th None) ->
  product_of model = product_of data.
Proof. exact best_is_balanced. Qed.
Print Assumptions C189_balanced.

(** C189: conversely a magnitude with this property is better than every other one. *)
Theorem C189_unique : forall p ks zref th p1 p2 N curves data e, ks <> [] ->
  regular_curves ks (curves_of e p1 p2 N curves ks) -> regular_curves ks data -> length curves = length data ->
  all_kept e p1 p2 N curves ks ->
  let model := curves_of e p1 p2 N curves ks in product_of model = product_of data ->
  forall c, 0 < c -> c <> 1 -> all_kept (scale_M c e) p1 p2 N curves ks ->
  loss_value p ks zref model data th None < loss_value p ks zref (curves_of (scale_M c e) p1 p2 N curves ks) data th None.
Proof. exact balanced_is_best. Qed.
Print Assumptions C189_unique.

(** Twice the magnitude of a model whose densities are kept; data which differ from it. *)
Example C189_case : let e := scale_M 2 (model_at (demo_setting TWOTHIRD) demo_params 0) in
  let v k := ops_forward phi33 e (-3) (-2) 1 k in
  let data := [[2 * v 1; v 2 / 2]] in
  let loss c := loss_value (LossParams 1 2 0 0) [1; 2] 1 (curves_of (scale_M c e) (-3) (-2) 1 [phi33] [1; 2]) data None None in
  regular_curves [1; 2] (curves_of e (-3) (-2) 1 [phi33] [1; 2]) /\ regular_curves [1; 2] data
  /\ all_kept (scale_M (1/2) e) (-3) (-2) 1 [phi33] [1; 2]
  /\ (forall c, 1/2 <= c -> loss_value (LossParams 1 2 0 0) [1; 2] 1 (curves_of e (-3) (-2) 1 [phi33] [1; 2]) data None None <= loss c)
  /\ loss 3 = loss_value (LossParams 1 2 0 0) [1; 2] 1 (curves_of e (-3) (-2) 1 [phi33] [1; 2]) data None None + (ln 3)^2.
Proof.
  intros e v data loss. destruct bal_case as (K & P1 & P2). fold e in K, P1, P2. fold (v 1) in P1. fold (v 2) in P2.
  assert (RM : regular_curves [1; 2] (curves_of e (-3) (-2) 1 [phi33] [1; 2])).
  { split; [discriminate|]. repeat constructor; fold (v 1); fold (v 2); lra. }
  assert (RD : regular_curves [1; 2] data) by (split; [discriminate|]; repeat constructor; lra).
  assert (B : product_of (curves_of e (-3) (-2) 1 [phi33] [1; 2]) = product_of data).
  { unfold product_of, product, curves_of, data. cbn [map concat app fold_right]. fold (v 1). fold (v 2).
    rewrite !Rabs_pos_eq by lra. field. }
  assert (K1 : all_kept e (-3) (-2) 1 [phi33] [1; 2]) by (apply scale_one, (kept_more (1/2) 1); [lra|exact K]).
  assert (KC : forall c, 1/2 <= c -> all_kept (scale_M c e) (-3) (-2) 1 [phi33] [1; 2]) by (intros c C; apply (kept_more (1/2)); [lra|exact K]).
  assert (Q : product_of (curves_of e (-3) (-2) 1 [phi33] [1; 2]) / product_of data = 1).
  { rewrite B. unfold Rdiv. apply Rinv_r. unfold product_of, product, data. cbn [map concat app fold_right].
    rewrite !Rabs_pos_eq by lra. assert (0 < v 1 * v 2) by (apply Rmult_lt_0_compat; assumption). lra. }
  assert (L : forall c, 1/2 <= c -> loss c = loss_value (LossParams 1 2 0 0) [1; 2] 1 (curves_of e (-3) (-2) 1 [phi33] [1; 2]) data None None + (ln c)^2).
  { intros c C. unfold loss.
    rewrite C189_magnitude by (try assumption; try reflexivity; try discriminate; try lra; auto).
    cbv zeta. rewrite Q, ln_1. unfold Rdiv. ring. }
  split; [exact RM|]. split; [exact RD|]. split; [exact K|]. split.
  - intros c C. rewrite L by exact C. pose proof (pow2_ge_0 (ln c)). lra.
  - apply L. lra.
Qed.
