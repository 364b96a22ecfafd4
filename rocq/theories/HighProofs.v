(** Delivered spectra at large streamwise wave numbers. *)

From Coq Require Import Reals List Lra Lia.
From Coquelicot Require Import Coquelicot.
From Verif Require Import Prelude RdtModel SpectraModel OpsModel RdtSpec RdtProofs SpectraProofs OpsSpec OpsProofs
  QuadSpec QuadProofs QuadTensor QuadMore.
Open Scope R_scope.

Lemma auto_low : forall sel, auto sel -> low_clipped sel.
Proof. intros sel [->|[->| ->]]; unfold low_clipped; auto. Qed.

Lemma grid_area : forall p1 p2 N, (2 <= N)%nat ->
  last_node (sym_grid p1 p2 N) - first_node (sym_grid p1 p2 N) = 2 * Rpower 10 p2.
Proof. intros p1 p2 N HN. rewrite sym_grid_last, sym_grid_first by exact HN. ring. Qed.

Lemma floor_level : forall sel e p1 p2 N k1, auto sel -> p1 < p2 -> (2 <= N)%nat -> 0 < k1 ->
  k1 * (/ 10^12 * (2 * Rpower 10 p2)^2) <= ops_forward sel e p1 p2 N k1.
Proof.
  intros sel e p1 p2 N k1 Ha Hp HN Hk1. unfold ops_forward. cbv zeta.
  apply Rmult_le_compat_l; [lra|].
  assert (H := quad23_lower (sym_grid p1 p2 N) (sym_grid p1 p2 N) (fun k2 k3 => delivered sel e k1 k2 k3) (/ 10^12)
    (sym_grid_sorted p1 p2 N Hp) (sym_grid_sorted p1 p2 N Hp)).
  rewrite grid_area in H by exact HN.
  replace (/ 10^12 * (2 * Rpower 10 p2)^2) with (/ 10^12 * (2 * Rpower 10 p2) * (2 * Rpower 10 p2)) by ring.
  apply H. intros x y _ _. rewrite delivered_clip by (apply auto_low; exact Ha).
  rewrite clip_low_max. unfold eps_ops. eapply Rle_trans; [|apply Rmax_r]. lra.
Qed.

Lemma spectra_grow : forall sel e p1 p2 N M, auto sel -> p1 < p2 -> (2 <= N)%nat ->
  exists K, forall k1, K <= k1 -> M <= ops_forward sel e p1 p2 N k1.
Proof.
  intros sel e p1 p2 N M Ha Hp HN.
  set (c := / 10^12 * (2 * Rpower 10 p2)^2).
  assert (Hc : 0 < c).
  { unfold c. apply Rmult_lt_0_compat; [apply Rinv_0_lt_compat, pow_lt; lra|].
    apply pow_lt. pose proof (Rpower10_pos p2). lra. }
  exists (Rmax 1 (M / c)). intros k1 Hk1.
  assert (H1 : 1 <= k1) by (eapply Rle_trans; [apply Rmax_l | exact Hk1]).
  assert (H2 : M / c <= k1) by (eapply Rle_trans; [apply Rmax_r | exact Hk1]).
  eapply Rle_trans; [|apply (floor_level sel e p1 p2 N k1 Ha Hp HN); lra].
  fold c. apply Rmult_le_reg_r with (/ c); [apply Rinv_0_lt_compat; exact Hc|].
  replace (k1 * c * / c) with k1 by (field; lra). exact H2.
Qed.

Lemma entry_bound : forall sel e k1 k2 k3 S, sel = phi33 \/ (auto sel /\ forall k2 k3, oe_beta e k1 k2 k3 = 0) ->
  sensible e -> k1 <> 0 -> (forall x, 0 < x -> oe_spec e x <= S) ->
  undelivered sel e k1 k2 k3 <= oe_M e * Rpower (oe_L e) (5/3) * S / (4 * PI) / k1^2.
Proof.
  intros sel e k1 k2 k3 S Hsel (Hpos & HM & HL) Hk1 HS.
  pose proof PI_RGT_0 as Hpi.
  set (b := oe_beta e k1 k2 k3).
  set (E := forward_energy (oe_spec e) (oe_M e) (oe_L e) b k1 k2 k3).
  assert (Hq : 0 < k1^2) by nra.
  assert (Hkk : 0 < kk_of k1 k2 k3) by (unfold kk_of; nra).
  assert (Hk1kk : k1^2 <= kk_of k1 k2 k3) by (unfold kk_of; nra).
  assert (Hkk0 : 0 < kk0_of b k1 k2 k3) by (unfold kk0_of; nra).
  assert (Harg : 0 < oe_L e * sqrt (kk0_of b k1 k2 k3)) by (apply Rmult_lt_0_compat; [exact HL | apply sqrt_lt_R0; exact Hkk0]).
  assert (Hw : 0 <= oe_M e * Rpower (oe_L e) (5/3)) by (apply Rmult_le_pos; [exact HM | left; apply exp_pos]).
  assert (HE0 : 0 <= E) by (unfold E, forward_energy; cbv zeta; apply Rmult_le_pos; [exact Hw | apply Hpos; exact Harg]).
  assert (HE1 : E <= oe_M e * Rpower (oe_L e) (5/3) * S)
    by (unfold E, forward_energy; cbv zeta; apply Rmult_le_compat_l; [exact Hw | apply HS; exact Harg]).
  assert (Hgen : forall w, 0 <= w <= kk_of k1 k2 k3 -> E / (4 * PI) / kk_of k1 k2 k3 ^ 2 * w
     <= oe_M e * Rpower (oe_L e) (5/3) * S / (4 * PI) / k1^2).
  { intros w Hwk.
    apply Rle_trans with (E / (4 * PI) / kk_of k1 k2 k3 ^ 2 * kk_of k1 k2 k3).
    - apply Rmult_le_compat_l; [|lra].
      apply Rdiv_le_0_compat; [apply Rdiv_le_0_compat; lra | apply pow_lt; lra].
    - replace (E / (4 * PI) / kk_of k1 k2 k3 ^ 2 * kk_of k1 k2 k3) with (E / (4 * PI) * / kk_of k1 k2 k3) by (field; lra).
      unfold Rdiv. apply Rmult_le_compat.
      + apply Rdiv_le_0_compat; lra.
      + left. apply Rinv_0_lt_compat. exact Hkk.
      + apply Rmult_le_compat_r; [left; apply Rinv_0_lt_compat; lra | exact HE1].
      + apply Rinv_le_contravar; [exact Hq | exact Hk1kk]. }
  destruct Hsel as [-> | [Ha Hb]].
  - unfold undelivered. cbv zeta. fold b. fold E. unfold power_spectra_raw. cbv zeta. cbn [phi33].
    apply Hgen. unfold kk_of. nra.
  - assert (Hb0 : b = 0) by apply Hb.
    assert (Hi : exists i, sel = (fun t => entry t i i)).
    { destruct Ha as [->|[->| ->]]; [exists X1 | exists X2 | exists X3]; reflexivity. }
    destruct Hi as [i ->].
    unfold undelivered. cbv zeta. fold b. fold E. rewrite Hb0. rewrite raw_isotropic by exact Hk1.
    unfold iso_tensor.
    assert (Hn : normsq (vec k1 k2 k3) = kk_of k1 k2 k3) by (unfold normsq, kk_of, sum3, vec; ring).
    rewrite Hn.
    replace (E / (4 * PI * (kk_of k1 k2 k3 * kk_of k1 k2 k3)) * (kk_of k1 k2 k3 * delta i i - vec k1 k2 k3 i * vec k1 k2 k3 i))
      with (E / (4 * PI) / kk_of k1 k2 k3 ^ 2 * (kk_of k1 k2 k3 * delta i i - vec k1 k2 k3 i * vec k1 k2 k3 i)) by (field; lra).
    apply Hgen. unfold kk_of. destruct i; unfold delta, vec; simpl; nra.
Qed.

Lemma spectra_bounds : forall sel e p1 p2 N k1 S,
  sel = phi33 \/ (auto sel /\ forall k2 k3, oe_beta e k1 k2 k3 = 0) ->
  sensible e -> p1 < p2 -> (2 <= N)%nat -> 0 < k1 -> (forall x, 0 < x -> oe_spec e x <= S) ->
  k1 * (/ 10^12 * (2 * Rpower 10 p2)^2) <= ops_forward sel e p1 p2 N k1
  <= k1 * (/ 10^12 * (2 * Rpower 10 p2)^2)
     + oe_M e * Rpower (oe_L e) (5/3) * S / (4 * PI) * (2 * Rpower 10 p2)^2 / k1.
Proof.
  intros sel e p1 p2 N k1 S Hsel He Hp HN Hk1 HS.
  assert (Ha : auto sel) by (destruct Hsel as [-> | [H _]]; [right; right; reflexivity | exact H]).
  split; [apply floor_level; assumption|].
  set (U := oe_M e * Rpower (oe_L e) (5/3) * S / (4 * PI)).
  unfold ops_forward. cbv zeta.
  replace (k1 * (/ 10^12 * (2 * Rpower 10 p2)^2) + U * (2 * Rpower 10 p2)^2 / k1)
    with (k1 * ((/ 10^12 + U / k1^2) * (2 * Rpower 10 p2) * (2 * Rpower 10 p2))) by (field; lra).
  apply Rmult_le_compat_l; [lra|].
  rewrite <- (grid_area p1 p2 N HN). rewrite <- quad23_const.
  apply quad23_mono; try (apply sym_grid_sorted; exact Hp).
  intros x y _ _. rewrite delivered_clip by (apply auto_low; exact Ha). rewrite clip_low_max.
  assert (Hub := entry_bound sel e k1 x y S Hsel He ltac:(lra) HS). fold U in Hub.
  assert (H0 : 0 <= undelivered sel e k1 x y).
  { destruct He as (Hpos & HM & HL).
    assert (Hi : exists i, sel = (fun t => entry t i i)).
    { destruct Ha as [->|[->| ->]]; [exists X1 | exists X2 | exists X3]; reflexivity. }
    destruct Hi as [i ->]. unfold undelivered. cbv zeta.
    apply (raw_schwarz _ _ _ _ _ i i); [lra|].
    unfold forward_energy. cbv zeta. apply Rmult_le_pos; [apply Rmult_le_pos; [exact HM | left; apply exp_pos]|].
    apply Hpos. apply Rmult_lt_0_compat; [exact HL|]. apply sqrt_lt_R0. unfold kk0_of. nra. }
  unfold eps_ops. apply Rmax_lub.
  - assert (0 < / 10^12) by (apply Rinv_0_lt_compat, pow_lt; lra). lra.
  - assert (0 <= U / k1^2) by lra. lra.
Qed.
