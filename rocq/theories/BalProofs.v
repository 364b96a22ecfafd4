(** Proofs about the magnitude of a fitted model. *)

From Coq Require Import Reals Lra Lia List Arith Sorted Psatz.
From Coquelicot Require Import Coquelicot.
From Verif Require Import Prelude RdtModel RdtSpec SpectraModel OpsModel OpsSpec OpsProofs LossModel LossSpec TotalSpec BalSpec.
Import ListNotations.
Open Scope R_scope.

Lemma kept_delivered : forall sel e k1 k2 k3, kept sel (undelivered sel e k1 k2 k3) ->
  delivered sel e k1 k2 k3 = undelivered sel e k1 k2 k3.
Proof.
  intros sel e k1 k2 k3 K. unfold delivered. unfold undelivered in *. cbv zeta in *. unfold power_spectra, clip6.
  set (t := power_spectra_raw _ _ _ _ _) in *.
  assert (C : forall x, / 10^12 <= x -> clip_low eps_ops x = x) by (intros x H; unfold clip_low, eps_ops; destruct (Rlt_dec x (/ 10^12)); lra).
  assert (S : forall x, / 10^12 <= Rabs x -> clip_signed eps_ops x = x) by (intros x H; unfold clip_signed, eps_ops; destruct (Rlt_dec (Rabs x) (/ 10^12)); lra).
  destruct K as [[[->|[->| ->]] K]|[-> K]]; cbn [phi11 phi22 phi33 phi13]; auto.
Qed.

Lemma kept_selector : forall sel x, kept sel x -> selector sel.
Proof. intros sel x [[[->|[->| ->]] _]|[-> _]]; unfold selector; tauto. Qed.

Lemma forward_kept : forall sel e p1 p2 N k1,
  (forall k2 k3, In k2 (sym_grid p1 p2 N) -> In k3 (sym_grid p1 p2 N) -> kept sel (undelivered sel e k1 k2 k3)) ->
  ops_forward sel e p1 p2 N k1 = ops_forward_raw sel e p1 p2 N k1.
Proof.
  intros sel e p1 p2 N k1 K. unfold ops_forward, ops_forward_raw. cbv zeta. f_equal. apply quad23_ext.
  intros k2 k3 I2 I3. apply kept_delivered. apply K; assumption.
Qed.

Lemma zero_in : forall p1 p2 N, In 0 (sym_grid p1 p2 N).
Proof. intros p1 p2 N. unfold sym_grid. apply in_or_app. right. left. reflexivity. Qed.

Lemma curves_scale : forall c e p1 p2 N curves ks, all_kept e p1 p2 N curves ks -> all_kept (scale_M c e) p1 p2 N curves ks ->
  curves_of (scale_M c e) p1 p2 N curves ks = map (map (Rmult c)) (curves_of e p1 p2 N curves ks).
Proof.
  intros c e p1 p2 N curves ks K1 K2. unfold curves_of. rewrite map_map. apply map_ext_in. intros sel Is.
  rewrite map_map. apply map_ext_in. intros k1 Ik.
  rewrite !forward_kept by (intros k2 k3 I2 I3; first [apply K1|apply K2]; assumption).
  apply forward_raw_linear. apply (kept_selector sel _ (K1 sel k1 0 0 Is Ik (zero_in _ _ _) (zero_in _ _ _))).
Qed.

Lemma ln_scale : forall c v, 0 < c -> v <> 0 -> ln (Rabs (c * v)) = ln c + ln (Rabs v).
Proof. intros c v C V. rewrite Rabs_mult, (Rabs_pos_eq c) by lra. apply ln_mult; [exact C|apply Rabs_pos_lt; exact V]. Qed.

Lemma slopes_scale : forall c, 0 < c -> forall k y, List.Forall (fun v => v <> 0) y -> slopes k (map (Rmult c) y) = slopes k y.
Proof.
  intros c C k. induction k as [|k0 k IH]; intros y H; [reflexivity|]. destruct k as [|k1 k]; [reflexivity|].
  destruct y as [|y0 [|y1 y]]; [reflexivity|reflexivity|].
  inversion H as [|? ? H0 H1]; subst. inversion H1 as [|? ? H2 H3]; subst.
  change (slopes (k0 :: k1 :: k) (map (Rmult c) (y0 :: y1 :: y)))
    with ((ln (Rabs (c * y1)) - ln (Rabs (c * y0))) / (ln k1 - ln k0) :: slopes (k1 :: k) (map (Rmult c) (y1 :: y))).
  rewrite (IH (y1 :: y) H1), !ln_scale by assumption.
  change (slopes (k0 :: k1 :: k) (y0 :: y1 :: y)) with ((ln (Rabs y1) - ln (Rabs y0)) / (ln k1 - ln k0) :: slopes (k1 :: k) (y1 :: y)).
  f_equal. f_equal. ring.
Qed.

Lemma bends_scale : forall c, 0 < c -> forall k y, List.Forall (fun v => v <> 0) y -> bends k (map (Rmult c) y) = bends k y.
Proof.
  intros c C k. induction k as [|k0 k IH]; intros y H; [reflexivity|]. destruct k as [|k1 [|k2 k]]; [reflexivity|destruct y as [|? [|? ?]]; reflexivity|].
  destruct y as [|y0 [|y1 [|y2 y]]]; [reflexivity|reflexivity|reflexivity|].
  inversion H as [|? ? H0 H1]; subst. inversion H1 as [|? ? H2 H3]; subst. inversion H3 as [|? ? H4 H5]; subst.
  change (bends (k0 :: k1 :: k2 :: k) (map (Rmult c) (y0 :: y1 :: y2 :: y)))
    with (((ln (Rabs (c * y2)) - ln (Rabs (c * y1))) / (ln k2 - ln k1) - (ln (Rabs (c * y1)) - ln (Rabs (c * y0))) / (ln k1 - ln k0))
      / ((ln k2 - ln k0) / 2) :: bends (k1 :: k2 :: k) (map (Rmult c) (y1 :: y2 :: y))).
  rewrite (IH (y1 :: y2 :: y) H1), !ln_scale by assumption.
  change (bends (k0 :: k1 :: k2 :: k) (y0 :: y1 :: y2 :: y))
    with (((ln (Rabs y2) - ln (Rabs y1)) / (ln k2 - ln k1) - (ln (Rabs y1) - ln (Rabs y0)) / (ln k1 - ln k0))
      / ((ln k2 - ln k0) / 2) :: bends (k1 :: k2 :: k) (y1 :: y2 :: y)).
  f_equal. f_equal. f_equal; f_equal; ring.
Qed.

Lemma flat_map_scale : forall (f : list R -> list R) c ys,
  (forall y, In y ys -> f (map (Rmult c) y) = f y) -> flat_map f (map (map (Rmult c)) ys) = flat_map f ys.
Proof.
  intros f c ys. induction ys as [|y ys IH]; intros H; [reflexivity|]. cbn [map flat_map].
  rewrite H by (left; reflexivity). rewrite IH; [reflexivity|]. intros z I. apply H. right. exact I.
Qed.

(** Sum and number of squared distances. *)
Lemma distances_scale : forall c, 0 < c -> forall m t, length m = length t -> List.Forall (fun v => v <> 0) m -> List.Forall (fun v => v <> 0) t ->
  fold_right Rplus 0 (sq_log_distances (map (Rmult c) m) t)
  = fold_right Rplus 0 (sq_log_distances m t) + 2 * ln c * (ln (product (map Rabs m)) - ln (product (map Rabs t))) + INR (length t) * (ln c)^2
  /\ length (sq_log_distances (map (Rmult c) m) t) = length t /\ length (sq_log_distances m t) = length t
  /\ 0 < product (map Rabs m) /\ 0 < product (map Rabs t).
Proof.
  intros c C m. induction m as [|a m IH]; intros [|b t] L Hm Ht; try discriminate.
  - cbn. rewrite ln_1. repeat split; try lra.
  - inversion Hm as [|? ? A1 A2]; subst. inversion Ht as [|? ? B1 B2]; subst.
    destruct (IH t) as (S & L1 & L2 & P1 & P2); [cbn in L; congruence|exact A2|exact B2|].
    assert (Pa := Rabs_pos_lt a A1). assert (Pb := Rabs_pos_lt b B1).
    cbn [map sq_log_distances fold_right length product]. fold (product (map Rabs m)). fold (product (map Rabs t)).
    split; [|split; [rewrite L1; reflexivity|split; [rewrite L2; reflexivity|split; apply Rmult_lt_0_compat; assumption]]].
    rewrite S, ln_scale, !ln_mult, S_INR by assumption. ring.
Qed.

Lemma distances_all_scale : forall c, 0 < c -> forall ms ts,
  List.Forall2 (fun m t => length m = length t) ms ts ->
  List.Forall (List.Forall (fun v => v <> 0)) ms -> List.Forall (List.Forall (fun v => v <> 0)) ts ->
  fold_right Rplus 0 (sq_log_distances_all (map (map (Rmult c)) ms) ts)
  = fold_right Rplus 0 (sq_log_distances_all ms ts) + 2 * ln c * (ln (product_of ms) - ln (product_of ts)) + INR (length (concat ts)) * (ln c)^2
  /\ length (sq_log_distances_all (map (map (Rmult c)) ms) ts) = length (concat ts) /\ length (sq_log_distances_all ms ts) = length (concat ts)
  /\ 0 < product_of ms /\ 0 < product_of ts.
Proof.
  intros c C ms ts L. unfold product_of. induction L as [|m t ms ts L1 L IH]; intros Hm Ht.
  - cbn. rewrite ln_1. repeat split; lra.
  - inversion Hm as [|? ? A1 A2]; subst. inversion Ht as [|? ? B1 B2]; subst.
    destruct (IH A2 B2) as (S & N1 & N2 & P1 & P2). destruct (distances_scale c C m t L1 A1 B1) as (S' & N1' & N2' & P1' & P2').
    assert (PA : forall l l', product (l ++ l') = product l * product l').
    { intros l l'. induction l as [|x l IHl]; [cbn [app]; unfold product at 2; cbn [fold_right]; ring|]. change (x * product (l ++ l') = x * product l * product l'). rewrite IHl. ring. }
    assert (SA : forall l l', fold_right Rplus 0 (l ++ l') = fold_right Rplus 0 l + fold_right Rplus 0 l').
    { intros l l'. induction l as [|x l IHl]; cbn [app fold_right]; [ring|]. rewrite IHl. ring. }
    cbn [map sq_log_distances_all concat]. rewrite !map_app, !PA, !app_length, !SA.
    split; [|split; [rewrite N1, N1'; reflexivity|split; [rewrite N2, N2'; reflexivity|split; apply Rmult_lt_0_compat; assumption]]].
    rewrite S, S', !ln_mult, plus_INR by assumption. ring.
Qed.

Lemma loss_scale : forall c, 0 < c -> forall p ks zref ms ts th,
  List.Forall2 (fun m t => length m = length t) ms ts ->
  List.Forall (List.Forall (fun v => v <> 0)) ms -> List.Forall (List.Forall (fun v => v <> 0)) ts -> concat ts <> [] ->
  loss_value p ks zref (map (map (Rmult c)) ms) ts th None
  = loss_value p ks zref ms ts th None + 2 * ln c * (ln (product_of ms) - ln (product_of ts)) / INR (length (concat ts)) + (ln c)^2.
Proof.
  intros c C p ks zref ms ts th L Hm Ht NE. destruct (distances_all_scale c C ms ts L Hm Ht) as (S & N1 & N2 & _ & _).
  unfold loss_value. unfold average at 1 3. rewrite S, N1, N2.
  rewrite (flat_map_scale (slopes ks)), (flat_map_scale (bends ks)).
  - assert (INR (length (concat ts)) <> 0) by (apply not_0_INR; destruct (concat ts); [congruence|discriminate]). field. assumption.
  - intros y I. apply bends_scale; [exact C|]. rewrite List.Forall_forall in Hm. apply Hm. exact I.
  - intros y I. apply slopes_scale; [exact C|]. rewrite List.Forall_forall in Hm. apply Hm. exact I.
Qed.

Lemma undelivered_scale : forall sel c e k1 k2 k3, selector sel -> undelivered sel (scale_M c e) k1 k2 k3 = c * undelivered sel e k1 k2 k3.
Proof.
  intros sel c e k1 k2 k3 S. unfold undelivered. cbn [oe_beta oe_M oe_L oe_spec scale_M]. cbv zeta.
  replace (forward_energy (oe_spec e) (c * oe_M e) (oe_L e) (oe_beta e k1 k2 k3) k1 k2 k3)
    with (c * forward_energy (oe_spec e) (oe_M e) (oe_L e) (oe_beta e k1 k2 k3) k1 k2 k3) by (unfold forward_energy; ring).
  destruct S as [->|[->|[->|[->|[->| ->]]]]]; unfold power_spectra_raw; cbn [phi11 phi22 phi33 phi13 phi23 phi12]; unfold Rdiv; ring.
Qed.

Lemma kept_more : forall c d e p1 p2 N curves ks, 0 < c <= d -> all_kept (scale_M c e) p1 p2 N curves ks -> all_kept (scale_M d e) p1 p2 N curves ks.
Proof.
  intros c d e p1 p2 N curves ks H K sel k1 k2 k3 I1 I2 I3 I4. specialize (K sel k1 k2 k3 I1 I2 I3 I4).
  pose proof (kept_selector sel _ K) as S. rewrite undelivered_scale in * by exact S. set (x := undelivered sel e k1 k2 k3) in *.
  assert (P : 0 < / 10^12) by (apply Rinv_0_lt_compat, pow_lt; lra).
  destruct K as [[A K]|[A K]]; [left|right]; (split; [exact A|]).
  - assert (0 < x) by nra. nra.
  - rewrite Rabs_mult, Rabs_pos_eq in * by lra. pose proof (Rabs_pos x). nra.
Qed.

Lemma scale_one : forall e p1 p2 N curves ks, all_kept (scale_M 1 e) p1 p2 N curves ks -> all_kept e p1 p2 N curves ks.
Proof.
  intros e p1 p2 N curves ks K sel k1 k2 k3 I1 I2 I3 I4. specialize (K sel k1 k2 k3 I1 I2 I3 I4).
  pose proof (kept_selector sel _ K) as S. rewrite undelivered_scale, Rmult_1_l in K by exact S. exact K.
Qed.

Section Fit.
  Variables (p : loss_params) (ks : list R) (zref : R) (th : option (list R)) (p1 p2 : R) (N : nat).
  Variables (curves : list (tensor6 -> R)) (data : list (list R)) (e : ops_env).
  Hypothesis some : ks <> [].
  Hypothesis regular_model : regular_curves ks (curves_of e p1 p2 N curves ks).
  Hypothesis regular_data : regular_curves ks data.
  Hypothesis sizes : length curves = length data.

  Let model := curves_of e p1 p2 N curves ks.
  Let loss c := loss_value p ks zref (curves_of (scale_M c e) p1 p2 N curves ks) data th None.

  Lemma shapes : List.Forall2 (fun m t => length m = length t) model data /\ List.Forall (List.Forall (fun v => v <> 0)) model
    /\ List.Forall (List.Forall (fun v => v <> 0)) data /\ concat data <> [].
  Proof.
    destruct regular_model as [NM RM]. destruct regular_data as [ND RD]. fold model in NM, RM.
    assert (L : length model = length data) by (unfold model, curves_of; rewrite map_length; exact sizes). split; [|split; [|split]].
    - clear NM ND. revert L RM RD. generalize model data. intros ms. induction ms as [|m ms IH]; intros [|t ts] L RM RD; try discriminate; [constructor|].
      inversion RM as [|? ? [A _] A2]; subst. inversion RD as [|? ? [B _] B2]; subst. apply List.Forall2_cons; [congruence|].
      apply IH; [cbn in L; congruence|assumption|assumption].
    - eapply List.Forall_impl; [|exact RM]. cbv beta. tauto.
    - eapply List.Forall_impl; [|exact RD]. cbv beta. tauto.
    - destruct data as [|t ts]; [congruence|]. inversion RD as [|? ? [A _] A2]; subst. cbn [concat]. destruct t; [|discriminate].
      destruct ks; [congruence|discriminate].
  Qed.

  Lemma magnitude_value : forall c, 0 < c -> all_kept e p1 p2 N curves ks -> all_kept (scale_M c e) p1 p2 N curves ks ->
    loss c = loss_value p ks zref model data th None
             + 2 * ln c * (ln (product_of model / product_of data) / INR (length (concat data))) + (ln c)^2.
  Proof.
    intros c C K1 K2. unfold loss. rewrite curves_scale by assumption. fold model. destruct shapes as (L & A & B & D).
    rewrite loss_scale by assumption. destruct (distances_all_scale c C model data L A B) as (_ & _ & _ & P1 & P2).
    unfold Rdiv at 3. rewrite ln_mult, ln_Rinv by (try apply Rinv_0_lt_compat; assumption). unfold Rdiv. ring.
  Qed.

  Lemma best_is_balanced : forall c0, 0 < c0 < 1 -> all_kept (scale_M c0 e) p1 p2 N curves ks ->
    (forall c, c0 <= c -> loss_value p ks zref model data th None <= loss c) -> product_of model = product_of data.
  Proof.
    intros c0 C0 K B. destruct shapes as (L & A1 & A2 & D). destruct (distances_all_scale 1 Rlt_0_1 model data L A1 A2) as (_ & _ & _ & P1 & P2).
    assert (K1 : all_kept e p1 p2 N curves ks) by (apply scale_one, (kept_more c0 1); [lra|exact K]).
    set (d := ln (product_of model / product_of data) / INR (length (concat data))).
    assert (Q : forall u, ln c0 <= u -> 0 <= 2 * u * d + u^2).
    { intros u Hu. assert (C : c0 <= exp u).
      { destruct Hu as [Hu| <-]; [left; rewrite <- (exp_ln c0) by lra; apply exp_increasing; exact Hu|right; symmetry; apply exp_ln; lra]. }
      pose proof (B _ C) as G. rewrite magnitude_value in G; [|apply exp_pos|exact K1|apply (kept_more c0); [lra|exact K]].
      rewrite ln_exp in G. fold d in G. lra. }
    assert (N0 : ln c0 < 0) by (rewrite <- ln_1; apply ln_increasing; lra).
    assert (Z : d = 0).
    { destruct (Rle_dec (ln c0) (- d)) as [H|H].
      - pose proof (Q (- d) H). assert (0 <= - d^2) by (replace (- d^2) with (2 * - d * d + (- d)^2) by ring; assumption). nra.
      - pose proof (Q (ln c0) (Rle_refl _)). nra. }
    assert (I : INR (length (concat data)) <> 0) by (apply not_0_INR; destruct (concat data); [congruence|discriminate]).
    assert (E : ln (product_of model / product_of data) = 0).
    { unfold d, Rdiv in Z. apply Rmult_integral in Z. destruct Z as [Z|Z]; [exact Z|]. exfalso. revert Z. apply Rinv_neq_0_compat. exact I. }
    rewrite <- ln_1 in E. apply ln_inv in E; [|apply Rdiv_lt_0_compat; assumption|lra].
    apply (Rmult_eq_reg_r (/ product_of data)); [|apply Rinv_neq_0_compat; lra]. rewrite Rinv_r by lra. exact E.
  Qed.

  Lemma balanced_is_best : all_kept e p1 p2 N curves ks -> product_of model = product_of data ->
    forall c, 0 < c -> c <> 1 -> all_kept (scale_M c e) p1 p2 N curves ks -> loss_value p ks zref model data th None < loss c.
  Proof.
    intros K1 E c C N1 K2. rewrite magnitude_value by assumption. rewrite E. destruct shapes as (L & A1 & A2 & D).
    destruct (distances_all_scale 1 Rlt_0_1 model data L A1 A2) as (_ & _ & _ & P1 & P2).
    unfold Rdiv at 2. rewrite Rinv_r by lra. rewrite ln_1.
    assert (ln c <> 0) by (intros Z; apply N1; rewrite <- ln_1 in Z; apply ln_inv in Z; lra).
    assert (0 < (ln c)^2) by (apply pow2_gt_0; assumption). unfold Rdiv. lra.
  Qed.
End Fit.
