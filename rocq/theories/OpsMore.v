From Coq Require Import String Reals Lra Lia Psatz List Arith ZArith Sorted.
From Coquelicot Require Import Complex.
From Verif Require Import Prelude RdtModel SpectraModel RdtSpec RdtProofs SpectraProofs OpsModel OpsSpec OpsProofs
  CohProofs DrdProofs.
Import ListNotations.
Open Scope R_scope.

(** Combinations of the lemmas of OpsProofs, CohProofs and DrdProofs in the form
    used by the theorems. *)

Lemma eps_ops_val : eps_ops = / 1000000000000.
Proof. unfold eps_ops. lra. Qed.

Lemma cross_vanish : forall e p1 p2 N k1, spanwise_even e -> k1 <> 0 ->
  ops_forward_raw phi12 e p1 p2 N k1 = 0 /\ ops_forward_raw phi23 e p1 p2 N k1 = 0.
Proof. intros. split; apply forward_raw_zero; auto. Qed.

Lemma cross_level : forall e p1 p2 N k1, p1 < p2 -> (2 <= N)%nat -> 0 < k1 ->
  k1 * (/ 1000000000000 * (2 * Rpower 10 p2)^2) <= ops_forward phi12 e p1 p2 N k1
  /\ k1 * (/ 1000000000000 * (2 * Rpower 10 p2)^2) <= ops_forward phi23 e p1 p2 N k1.
Proof.
  intros. rewrite <- eps_ops_val. split; apply forward_lower; try assumption; unfold low_clipped; tauto.
Qed.

Lemma cross_never_vanish : forall e p1 p2 N k1, p1 < p2 -> (2 <= N)%nat -> 0 < k1 ->
  ops_forward phi12 e p1 p2 N k1 <> 0 /\ ops_forward phi23 e p1 p2 N k1 <> 0.
Proof.
  intros. split; apply Rgt_not_eq; apply forward_positive; try assumption; unfold low_clipped; tauto.
Qed.

Lemma scaled_auto_nonneg : forall sel c e p1 p2 N k1, auto sel ->
  0 < k1 -> p1 < p2 -> sensible e -> 0 <= c ->
  0 <= ops_forward_raw sel (scale_M c e) p1 p2 N k1.
Proof.
  intros sel c e p1 p2 N k1 Ha Hk Hp (H1 & H2 & H3) Hc. apply forward_raw_nonneg; try assumption.
  simpl. apply Rmult_le_pos; assumption.
Qed.

Lemma grid_sound : forall p1 p2 N, p1 < p2 ->
  let g := sym_grid p1 p2 N in
  length g = (2 * N + 1)%nat /\ increasing g /\ symmetric g /\ In 0 g
  /\ ((2 <= N)%nat -> first_node g = - Rpower 10 p2 /\ last_node g = Rpower 10 p2).
Proof.
  intros p1 p2 N H g. unfold g. split; [apply sym_grid_length|]. split; [apply sym_grid_sorted; assumption|].
  split; [apply sym_grid_symmetric|]. split; [apply sym_grid_zero|].
  intro HN. split; [apply sym_grid_first|apply sym_grid_last]; assumption.
Qed.

Lemma quad23_reflect : forall g2 g3 f, symmetric g2 -> symmetric g3 ->
  quad23 g2 g3 (fun x y => f (- x) y) = quad23 g2 g3 f
  /\ quad23 g2 g3 (fun x y => f x (- y)) = quad23 g2 g3 f.
Proof. intros. split; [apply quad23_reflect2|apply quad23_reflect3]; assumption. Qed.

Lemma auto_positive : forall sel e p1 p2 N k1, auto sel ->
  p1 < p2 -> (2 <= N)%nat -> 0 < k1 ->
  0 < k1 * (/ 1000000000000 * (2 * Rpower 10 p2)^2) <= ops_forward sel e p1 p2 N k1.
Proof.
  intros sel e p1 p2 N k1 Ha Hp HN Hk. rewrite <- eps_ops_val. split.
  - pose proof eps_ops_pos. pose proof (Rpower_pos 10 p2).
    apply Rmult_lt_0_compat; [assumption|]. apply Rmult_lt_0_compat; [assumption|]. apply pow_lt. lra.
  - apply forward_lower; try assumption. apply auto_low. assumption.
Qed.

Lemma output_positive : forall e p1 p2 N k1s i x,
  p1 < p2 -> (2 <= N)%nat -> (forall k, In k k1s -> 0 < k) -> (i < 3)%nat ->
  In x (nth i (ops_output e p1 p2 N k1s) []) -> 0 < x.
Proof.
  intros e p1 p2 N k1s i x Hp HN Hk Hi Hx.
  assert (H : exists sel, auto sel /\ In x (map (ops_forward sel e p1 p2 N) k1s)).
  { destruct i as [|[|[|i]]]; [exists phi11|exists phi22|exists phi33|lia]; unfold auto; split; auto. }
  destruct H as [sel [Ha Hin]]. apply in_map_iff in Hin. destruct Hin as [k [<- Hkin]].
  apply forward_positive; auto using auto_low.
Qed.

Lemma coherence_laws : forall g sel e k1 r,
  increasing g -> (2 <= length g)%nat -> auto sel ->
  0 <= coherence_on g sel e k1 r <= 1
  /\ coherence_on g sel e k1 0 = 1
  /\ coherence_on g sel e k1 (- r) = coherence_on g sel e k1 r.
Proof.
  intros. split; [apply coherence_range; assumption|]. split; [apply coherence_zero_sep; assumption|].
  apply coherence_even.
Qed.

Lemma coh_run_first : forall h c, c = None ->
  (forall e' k' r', In (e', k', r') h -> 0 < oe_L e') ->
  coh_run c h = None \/ exists L, 0 < L /\ coh_run c h = Some (coh_grid_for None L).
Proof.
  intros [|[[e k] r] h] c -> H; [left; reflexivity|]. right. exists (oe_L e). split.
  - apply (H e k r). left. reflexivity.
  - change (coh_run None ((e, k, r) :: h)) with (coh_run (Some (coh_grid_for None (oe_L e))) h).
    apply coh_run_fixed.
Qed.

Lemma coherence_any_history : forall q1 q2 N L0 h sel e k1 r,
  (forall e' k' r', In (e', k', r') h -> 0 < oe_L e') -> 0 < oe_L e -> auto sel ->
  0 <= fst (spectral_coherence (coh_run (calib_coh_cache q1 q2 N L0) h) sel e k1 r) <= 1.
Proof.
  intros q1 q2 N L0 h sel e k1 r Hh He Ha.
  destruct (coh_run_first h (calib_coh_cache q1 q2 N L0) eq_refl Hh) as [->|[L [HL ->]]];
    unfold spectral_coherence; cbv zeta; cbn [fst].
  - destruct (grid_for_ok (oe_L e) He) as [Hs [Hl _]]. apply coherence_range; assumption.
  - destruct (grid_for_ok L HL) as [Hs [Hl _]].
    change (coh_grid_for (Some (coh_grid_for None L)) (oe_L e)) with (coh_grid_for None L).
    apply coherence_range; assumption.
Qed.

Lemma settings_ignored :
  exists (p : nn_params nat) cfg, ops_network 0%nat p true = Ok cfg
  /\ tc_sizes cfg <> map Z.to_nat (hidden_layer_sizes p) /\ tc_acts cfg <> nn_activations p.
Proof.
  exists (NNP (IsInt 2) 10%Z [3%Z; 5%Z] [1%nat; 2%nat]). eexists. split; [reflexivity|].
  split; cbn; discriminate.
Qed.

Lemma coherence_remembers : forall q1 q2 N L0 e k1,
  0 < oe_L e -> k1 <> 0 -> spanwise_even e ->
  exists r h,
    fst (spectral_coherence (coh_run (calib_coh_cache q1 q2 N L0) h) phi11 e k1 r)
    <> fst (spectral_coherence (calib_coh_cache q1 q2 N L0) phi11 e k1 r).
Proof. intros. apply coherence_history; assumption. Qed.

Lemma coherence_own_grid : forall q1 q2 N L0 h sel e k1 r,
  spectral_coherence (coh_run (coh_cache_init true q1 q2 N L0) h) sel e k1 r
  = spectral_coherence (coh_cache_init true q1 q2 N L0) sel e k1 r.
Proof. intros. apply coherence_settled. discriminate. Qed.

Lemma repeated_calls : forall n E0 beta k1 k2 k3,
  fst (power_spectra_call (Nat.iter n (fun E => snd (power_spectra_call E beta k1 k2 k3)) E0) beta k1 k2 k3)
  = power_spectra (E0 / (4 * PI) ^ n) beta k1 k2 k3.
Proof.
  intros n E0 beta k1 k2 k3. unfold power_spectra_call. cbn [fst snd]. f_equal.
  pose proof PI_RGT_0. induction n as [|n IH]; [simpl; field|].
  cbn [Nat.iter nat_rect]. unfold Nat.iter in IH. rewrite IH. simpl pow. field.
  split; [apply pow_nonzero; lra|lra].
Qed.

Lemma power_spectra_not_repeatable :
  exists E0 beta k1 k2 k3, 0 < k1 /\
  fst (power_spectra_call (snd (power_spectra_call E0 beta k1 k2 k3)) beta k1 k2 k3)
  <> fst (power_spectra_call E0 beta k1 k2 k3).
Proof.
  exists (4 * PI), 0, 1, 0, 0. split; [lra|]. unfold power_spectra_call. cbn [fst snd]. intro H.
  pose proof PI_RGT_0 as Hpi. pose proof PI2_1. pose proof PI_4 as Hpi4.
  apply (f_equal phi33) in H. unfold power_spectra, clip6, power_spectra_raw in H. cbv zeta in H. cbn [phi33] in H.
  unfold kk_of in H.
  replace (4 * PI / (4 * PI) / (4 * PI) / (1 ^ 2 + 0 ^ 2 + 0 ^ 2) ^ 2 * (1 ^ 2 + 0 ^ 2)) with (/ (4 * PI)) in H
    by (field; lra).
  replace (4 * PI / (4 * PI) / (1 ^ 2 + 0 ^ 2 + 0 ^ 2) ^ 2 * (1 ^ 2 + 0 ^ 2)) with 1 in H by (field; lra).
  assert (Hb : / 16 <= / (4 * PI) <= / 4).
  { split; apply Rinv_le_contravar; lra. }
  unfold clip_low, eps_ops in H. destruct (Rlt_dec (/ (4 * PI)) _) in H; destruct (Rlt_dec 1 _) in H; lra.
Qed.

Lemma requested_grid_ignored : forall q1 q2 N L0 L, N <> 100%nat ->
  coh_grid_for (calib_coh_cache q1 q2 N L0) L <> map (fun x => x / L0) (sym_grid q1 q2 N)
  /\ coh_grid_for (calib_coh_cache q1 q2 N L0) L = map (fun x => x * (1 / L)) (sym_grid (-3) 3 100).
Proof.
  intros q1 q2 N L0 L HN. split; [|reflexivity]. intro H. apply (f_equal (@length R)) in H.
  change (coh_grid_for (calib_coh_cache q1 q2 N L0) L) with (map (fun x => x * (1 / L)) (sym_grid (-3) 3 100)) in H.
  rewrite !map_length, !sym_grid_length in H. lia.
Qed.

Lemma clip_error : forall sel e p1 p2 N k1,
  (auto sel \/ sel = phi13) -> 0 < k1 -> p1 < p2 -> (2 <= N)%nat -> sensible e ->
  Rabs (ops_forward sel e p1 p2 N k1 - ops_forward_raw sel e p1 p2 N k1)
  <= k1 * (/ 1000000000000 * (2 * Rpower 10 p2)^2).
Proof.
  intros sel e p1 p2 N k1 Hs Hk Hp HN (H1 & H2 & H3). rewrite <- eps_ops_val.
  apply forward_clip_error; assumption.
Qed.

Lemma tensor_similarity : forall M L beta k1 k2 k3 i j, 0 < L -> k1 <> 0 ->
  entry (power_spectra_raw (forward_energy vklike_energy M L beta k1 k2 k3) beta k1 k2 k3) i j
  = Rpower L (11/3)
    * entry (power_spectra_raw (forward_energy vklike_energy M 1 beta (k1*L) (k2*L) (k3*L))
                               beta (k1*L) (k2*L) (k3*L)) i j.
Proof.
  intros M L beta k1 k2 k3 i j HL Hk. rewrite raw_homogeneous by assumption.
  rewrite energy_scale by assumption.
  replace (forward_energy vklike_energy M L beta k1 k2 k3)
    with (Rpower L (5/3) * (M * Rpower 1 (5/3) * vklike_energy (1 * L * sqrt (kk0_of beta k1 k2 k3)))).
  - rewrite raw_linear. replace (11/3) with (5/3 + INR 2) by (simpl; field).
    rewrite Rpower_plus, Rpower_pow by assumption. field. lra.
  - unfold forward_energy. cbv zeta. rewrite Rpower_1_base, Rmult_1_l. ring.
Qed.
