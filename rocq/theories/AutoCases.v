(** Concrete models which meet the hypotheses of AutoTheorems.v. *)

From Coq Require Import Reals Lra Lia List Arith Psatz Sorted.
From Coquelicot Require Import Coquelicot.
From Verif Require Import Prelude RdtModel SpectraModel RdtSpec RdtProofs RdtOde SpectraProofs OpsModel OpsSpec OpsProofs HypSpec HypProofs AsySpec AsyProofs AsyMore AsyFinal LossModel LossSpec TotalSpec AutoModel AutoSpec AutoProofs AutoNet AutoSpectra AutoLoss AutoMann.
Import ListNotations.
Open Scope R_scope.

(** Unit scales but a time scale of exp(-2), moved in every coordinate; a network with one
    hidden unit. *)
Definition demo_params : params :=
  Params (Dual 0 1) (Dual (-2) (1/2)) (Dual 0 (-1)) (Dual 4 1) (Dual 3 2) (Dual 0 1)
         [[[Dual 1 1; Dual 1 0; Dual 1 2]]; [[Dual 1 3]; [Dual 1 0]; [Dual 1 (-1)]]].

Definition demo_setting (ty : eddy_type) : setting := Setting ty false euler_integral (-1) 0 [relu_act].

Lemma demo_grid : forall x, In x (sym_grid (-3) (-2) 1) -> - (1/100) <= x <= 1/100.
Proof.
  intros x H. assert (E : Rpower 10 (-3) <= 1/100).
  { replace (-3) with (- INR 3) by (simpl; ring). rewrite Rpower_Ropp, Rpower_pow by lra. lra. }
  pose proof (power_gt0 10 (-3)).
  assert (G : forall v, In v (logspace (-3) (-2) 1) -> v = Rpower 10 (-3)).
  { intros v Hv. unfold logspace, linspace in Hv. cbn in Hv. destruct Hv as [<-|[]]. f_equal. unfold Rdiv. ring. }
  unfold sym_grid in H. cbv zeta in H. apply in_app_or in H. destruct H as [H|H].
  - apply in_map_iff in H. destruct H as (v & <- & Hv). apply in_rev in Hv. apply G in Hv. lra.
  - destruct H as [<-|H]; [lra|]. apply G in H. lra.
Qed.

Lemma vk_lower : forall x, 1 <= x -> x^2 <= 34 -> / 43000 <= vklike_energy x.
Proof.
  intros x H1 H2. rewrite vklike_product by lra.
  replace (Rpower x 4) with (x^4) by (replace 4 with (INR 4) by (simpl; ring); rewrite Rpower_pow by lra; reflexivity).
  assert (Q : Rpower (1 + x^2) (17/6) <= 43000).
  { apply Rle_trans with (Rpower (1 + x^2) (INR 3)).
    - apply Rle_Rpower; [nra|simpl; lra].
    - rewrite Rpower_pow by nra. apply Rle_trans with (35^3); [|lra]. apply pow_incr. nra. }
  assert (P : 1 <= x^4) by (replace (x^4) with ((x^2)^2) by ring; assert (1 <= x^2) by nra; nra).
  pose proof (power_gt0 (1 + x^2) (17/6)) as R.
  apply Rle_trans with (1 / Rpower (1 + x^2) (17/6)).
  - unfold Rdiv. rewrite Rmult_1_l. apply Rinv_le_contravar; assumption.
  - apply Rmult_le_compat_r; [left; apply Rinv_0_lt_compat; exact R|exact P].
Qed.

Lemma ww_lower : forall b k1 k2 k3, 0 <= b <= 1 -> 1 <= k1 <= 4 -> - (1/100) <= k2 <= 1/100 -> - (1/100) <= k3 <= 1/100 ->
  / 10^12 < phi33 (power_spectra_raw (forward_energy vklike_energy (exp 0) (exp 0) b k1 k2 k3) b k1 k2 k3).
Proof.
  intros b k1 k2 k3 Hb H1 H2 H3. unfold power_spectra_raw, forward_energy. cbv zeta. cbn [phi33]. rewrite exp_0, !Rmult_1_l.
  replace (Rpower 1 (5/3)) with 1 by (unfold Rpower; rewrite ln_1, Rmult_0_r, exp_0; reflexivity). rewrite Rmult_1_l.
  assert (Q1 : 1 <= k1^2 <= 16) by (split; nra). assert (Q2 : 0 <= k2^2 <= 1/100) by (split; nra). assert (Q3 : 0 <= k3^2 <= 1/100) by (split; nra).
  assert (K3 : - (1/100) <= k30_of b k1 k3 <= 4 + 1/100) by (unfold k30_of; split; nra).
  assert (K0 : 1 <= kk0_of b k1 k2 k3 <= 34).
  { unfold kk0_of. assert (0 <= k30_of b k1 k3 ^2 <= 17) by (split; nra). lra. }
  assert (V : / 43000 <= vklike_energy (sqrt (kk0_of b k1 k2 k3))).
  { apply vk_lower; [rewrite <- sqrt_1; apply sqrt_le_1_alt; lra|]. rewrite pow2_sqrt by lra. lra. }
  assert (KK : 0 < kk_of k1 k2 k3 <= 17) by (unfold kk_of; lra).
  pose proof PI_RGT_0 as P0. pose proof PI_4 as P4.
  assert (A : / 43000 * / 16 <= vklike_energy (sqrt (kk0_of b k1 k2 k3)) / (4 * PI)).
  { apply Rmult_le_compat; [lra|lra|exact V|]. apply Rinv_le_contravar; lra. }
  assert (B : / 43000 * / 16 * / 17^2 <= vklike_energy (sqrt (kk0_of b k1 k2 k3)) / (4 * PI) / kk_of k1 k2 k3 ^ 2).
  { apply Rmult_le_compat; [lra|lra|exact A|]. apply Rinv_le_contravar; [apply pow_lt; lra|]. apply pow_incr. lra. }
  assert (C : 1 <= k1^2 + k2^2) by lra.
  apply Rlt_le_trans with (/ 43000 * / 16 * / 17^2 * 1); [lra|]. apply Rmult_le_compat; [lra|lra|exact B|exact C].
Qed.

Lemma exp_m2 : 1/9 <= exp (-2) <= 1/4.
Proof.
  replace (-2) with (- (1 + 1)) by ring. rewrite exp_Ropp, exp_plus. pose proof exp_le_3. pose proof (exp_ineq1 1 ltac:(lra)) as E.
  assert (4 <= exp 1 * exp 1) by nra. assert (exp 1 * exp 1 <= 9) by nra. split.
  - unfold Rdiv. rewrite Rmult_1_l. apply Rinv_le_contravar; lra.
  - unfold Rdiv. rewrite Rmult_1_l. apply Rinv_le_contravar; lra.
Qed.

Lemma power_le_1 : forall x a, 1 <= x -> a <= 0 -> 0 < Rpower x a <= 1.
Proof.
  intros x a H A. split; [apply power_gt0|]. rewrite <- (Rpower_O x) by lra. apply Rle_Rpower; assumption.
Qed.

Lemma demo_twothird : forall k1 k2 k3, 1 <= k1 ->
  0 <= oe_beta (model_at (demo_setting TWOTHIRD) demo_params 0) k1 k2 k3 <= 1.
Proof.
  intros k1 k2 k3 H1. unfold moved. cbn. unfold moved. cbn [val der]. rewrite !Rmult_0_l, !Rplus_0_r, exp_0, Rmult_1_l.
  assert (S : 1 <= sqrt (kk_of k1 k2 k3)) by (rewrite <- sqrt_1; apply sqrt_le_1_alt; unfold kk_of; nra).
  destruct (power_le_1 _ (-2/3) S ltac:(lra)). pose proof exp_m2. split; nra.
Qed.

Lemma demo_learned_out : forall k1 k2 k3, 1 <= k1 -> exists a1 a2 a3, 1 <= a1
  /\ mlp_forward [[[1; 1; 1]]; [[1]; [1]; [1]]] [(fun x => Rmax 0 x)] [Rabs k1; Rabs k2; Rabs k3] = Ok [a1; a2; a3].
Proof.
  intros k1 k2 k3 H1. cbn. do 3 eexists. split; [|reflexivity].
  rewrite (Rabs_pos_eq k1) by lra. pose proof (Rabs_pos k2). pose proof (Rabs_pos k3). rewrite Rmax_right by lra. lra.
Qed.

Lemma norm_ge1 : forall a1 a2 a3, 1 <= a1 -> 1 <= vnorm [a1; a2; a3].
Proof.
  intros. unfold vnorm, Rsum. cbn [map fold_right]. rewrite <- sqrt_1. apply sqrt_le_1_alt. nra.
Qed.

Lemma demo_network : forall k1 k2 k3, 1 <= k1 ->
  0 <= oe_beta (model_at (demo_setting TAUNET) demo_params 0) k1 k2 k3 <= 1.
Proof.
  intros k1 k2 k3 H1. destruct (demo_learned_out k1 k2 k3 H1) as (a1 & a2 & a3 & Ha & E).
  cbn [oe_beta model_at]. unfold eddy_lifetime, lifetime_at.
  cbn [le_type le_L le_T le_net demo_setting st_type demo_params pa_logL pa_logT pa_weights pa_nu st_acts map].
  unfold moved. cbn [val der]. rewrite !Rmult_0_l, !Rplus_0_r, exp_0.
  unfold taunet_forward. cbn [map act_fun relu_act]. rewrite !Rmult_1_r, E. cbn [bind].
  pose proof (norm_ge1 a1 a2 a3 Ha) as N. unfold rational. cbv zeta. rewrite Rabs_pos_eq by lra.
  replace (Rpower (1 + vnorm [a1; a2; a3] ^ 2) (0 / 2)) with 1 by (replace (0 / 2) with 0 by field; rewrite Rpower_O; nra).
  destruct (power_le_1 _ (0 - 2/3) N ltac:(lra)) as [P1 P2]. unfold Rdiv. rewrite Rinv_1, Rmult_1_r. pose proof exp_m2. split; nra.
Qed.

Lemma demo_smooth : forall k1 k2 k3, 1 <= k1 -> smooth_network (demo_setting TAUNET) demo_params k1 k2 k3.
Proof.
  intros k1 k2 k3 H1. destruct (demo_learned_out k1 k2 k3 H1) as (a1 & a2 & a3 & Ha & E).
  unfold smooth_network. cbv zeta. cbn [demo_setting st_acts demo_params pa_logL pa_weights map val]. rewrite exp_0, !Rmult_1_r. split.
  - cbn [smooth_layers]. split; [|split].
    + intros r [<-|[]]. reflexivity.
    + intros r [<-|[]]. cbn [dot relu_act act_fun act_der]. rewrite (Rabs_pos_eq k1) by lra.
      set (x := 1 * k1 + _). assert (Px : 0 < x) by (unfold x; pose proof (Rabs_pos k2); pose proof (Rabs_pos k3); lra).
      destruct (Rlt_dec 0 x); [|lra]. apply (is_derive_ext_loc (fun v => v)); [|apply @is_derive_id].
      apply (filter_imp (fun v => 0 < v)); [|apply (open_gt 0); exact Px]. intros v Hv. rewrite Rmax_right; lra.
    + intros r Hr. cbn in Hr. destruct Hr as [<-|[<-|[<-|[]]]]; reflexivity.
  - exists [a1; a2; a3]. split; [exact E|]. pose proof (norm_ge1 a1 a2 a3 Ha). lra.
Qed.

Lemma demo_ww : forall ty k1 k2 k3, 1 <= k1 <= 4 -> In k2 (sym_grid (-3) (-2) 1) -> In k3 (sym_grid (-3) (-2) 1) ->
  0 <= oe_beta (model_at (demo_setting ty) demo_params 0) k1 k2 k3 <= 1 ->
  / 10^12 < undelivered phi33 (model_at (demo_setting ty) demo_params 0) k1 k2 k3.
Proof.
  intros ty k1 k2 k3 H1 I2 I3 B. unfold undelivered. cbv zeta. cbn [oe_L oe_M oe_spec model_at demo_setting st_learnable demo_params pa_logL pa_logM].
  unfold moved at 1 2. cbn [val der]. rewrite !Rmult_0_l, !Rplus_0_r. apply ww_lower; [exact B|exact H1|apply demo_grid; exact I2|apply demo_grid; exact I3].
Qed.

Lemma demo_bounds : forall ty k1 k2 k3, ty = TWOTHIRD \/ ty = TAUNET -> 1 <= k1 ->
  0 <= oe_beta (model_at (demo_setting ty) demo_params 0) k1 k2 k3 <= 1.
Proof. intros ty k1 k2 k3 [->| ->] H; [apply demo_twothird|apply demo_network]; exact H. Qed.

Lemma demo_off : forall ty k1, ty = TWOTHIRD \/ ty = TAUNET -> 1 <= k1 <= 4 ->
  off_bound phi33 (model_at (demo_setting ty) demo_params 0) (-3) (-2) 1 k1.
Proof.
  intros ty k1 Ht Hk k2 k3 I2 I3.
  pose proof (demo_ww ty k1 k2 k3 Hk I2 I3 (demo_bounds ty k1 k2 k3 Ht (proj1 Hk))) as W. split.
  - assert (0 < / 10^12) by (apply Rinv_0_lt_compat, pow_lt; lra). rewrite Rabs_pos_eq by lra. lra.
  - intros C. exfalso. assert (Q : phi33 (T6 0 0 1 0 0 0) = phi13 (T6 0 0 1 0 0 0)) by (rewrite <- C; reflexivity). cbn in Q. lra.
Qed.

Lemma demo_differentiable : forall ty k1, ty = TWOTHIRD \/ ty = TAUNET -> 1 <= k1 ->
  differentiable_lifetime (demo_setting ty) demo_params (-3) (-2) 1 k1.
Proof.
  intros ty k1 Ht Hk. split; [destruct Ht as [->| ->]; discriminate|]. intros E k2 k3 _ _. cbn in E. subst ty. apply demo_smooth. exact Hk.
Qed.

Lemma demo_rising : rising (model_at (demo_setting MANN) demo_params 0) (-3) (-2) 1 1.
Proof.
  intros k2 k3 I2 I3. cbv zeta.
  assert (HE : hypergeometric euler_integral) by (intros z _; reflexivity).
  pose proof (demo_grid k2 I2) as G2. pose proof (demo_grid k3 I3) as G3.
  set (b := oe_beta _ 1 k2 k3).
  assert (B : 1/20 <= b <= 1).
  { unfold b. rewrite model_form by reflexivity. unfold beta_at, moved. cbn [demo_params pa_logT pa_logL val der demo_setting st_hyp].
    rewrite !Rmult_0_l, !Rplus_0_r, exp_0, Rmult_1_l.
    set (x := sqrt (kk_of 1 k2 k3)).
    assert (Q2 : 0 <= k2^2 <= 1/100) by (split; nra). assert (Q3 : 0 <= k3^2 <= 1/100) by (split; nra).
    assert (X : 1 <= x <= 2).
    { unfold x. split; [replace 1 with (sqrt 1) at 1 by apply sqrt_1; apply sqrt_le_1_alt; unfold kk_of; lra|].
      rewrite <- (sqrt_pow2 2) by lra. apply sqrt_le_1_alt. unfold kk_of. lra. }
    destruct (mann_bounds euler_integral x HE ltac:(lra)) as [M1 M2].
    destruct (power_le_1 x (-2/3) ltac:(lra) ltac:(lra)) as [P1 P2].
    assert (P3 : / 2 <= Rpower x (-2/3)).
    { apply Rle_trans with (Rpower x (- INR 1)).
      - rewrite Rpower_Ropp, Rpower_pow by lra. rewrite pow_1. apply Rinv_le_contravar; lra.
      - apply Rle_Rpower; [lra|simpl; lra]. }
    assert (P4 : Rpower (1 + / x^2) (17/12) <= 4).
    { assert (Q : 0 < / x^2 <= 1).
      { split; [apply Rinv_0_lt_compat; nra|]. rewrite <- Rinv_1. apply Rinv_le_contravar; nra. }
      apply Rle_trans with (Rpower (1 + / x^2) (INR 2)); [apply Rle_Rpower; [lra|simpl; lra]|].
      rewrite Rpower_pow by lra. apply Rle_trans with (2^2); [|lra]. apply pow_incr. lra. }
    pose proof exp_m2 as [E1 E2]. pose proof (power_gt0 (1 + / x^2) (17/12)).
    assert (mann_lifetime euler_integral x <= 4) by nra.
    split; nra. }
  split; [lra|]. split.
  - cbn [oe_L model_at demo_params pa_logL]. unfold moved. cbn [val der]. rewrite Rmult_0_l, Rplus_0_r, exp_0. nra.
  - apply demo_ww; [lra|exact I2|exact I3|]. fold b. lra.
Qed.

Lemma demo_positive : forall ty k1, ty = TWOTHIRD \/ ty = TAUNET -> 1 <= k1 <= 4 ->
  0 < ops_forward phi33 (model_at (demo_setting ty) demo_params 0) (-3) (-2) 1 k1.
Proof.
  intros ty k1 Ht Hk. unfold ops_forward. cbv zeta. set (g := sym_grid (-3) (-2) 1).
  assert (Gs : increasing g) by (apply sym_grid_sorted; lra).
  assert (Gl : (2 <= length g)%nat) by (unfold g; rewrite sym_grid_length; lia).
  pose proof (increasing_two g Gs Gl) as G.
  apply Rmult_lt_0_compat; [lra|].
  apply Rlt_le_trans with (/ 10^12 * (last_node g - first_node g) * (last_node g - first_node g)).
  - apply Rmult_lt_0_compat; [apply Rmult_lt_0_compat; [apply Rinv_0_lt_compat, pow_lt; lra|lra]|lra].
  - apply quad23_lower; [exact Gs|exact Gs|]. intros k2 k3 I2 I3. unfold delivered, power_spectra. cbv zeta. cbn [phi33].
    assert (C : forall x, / 10^12 <= clip_low eps_ops x) by (intros x; unfold clip_low, eps_ops; destruct (Rlt_dec x (/ 10^12)); lra). apply C.
Qed.

Lemma spectra_right : forall s P sel p1 p2 N k1, selector sel -> k1 <> 0 ->
  differentiable_lifetime s P p1 p2 N k1 -> off_bound sel (model_at s P 0) p1 p2 N k1 ->
  val (ad_forward sel s P p1 p2 N k1) = ops_forward sel (model_at s P 0) p1 p2 N k1
  /\ is_derive (fun t => ops_forward sel (model_at s P t) p1 p2 N k1) 0 (der (ad_forward sel s P p1 p2 N k1)).
Proof.
  intros s P sel p1 p2 N k1 H1 H2 H3 H4. destruct (forward_tracks s P sel p1 p2 N k1 H1 H2 H3 H4) as [V D].
  split; [symmetry; exact V|exact D].
Qed.

Lemma row_values : forall s P p1 p2 N curves k1s,
  (forall sel k1, In sel curves -> In k1 k1s ->
     tracks (fun t => ops_forward sel (model_at s P t) p1 p2 N k1) (ad_forward sel s P p1 p2 N k1)) ->
  map (map val) (ad_rows s P p1 p2 N curves k1s) = rows_at s P p1 p2 N curves k1s 0.
Proof.
  intros s P p1 p2 N curves k1s H. unfold ad_rows, rows_at. rewrite map_map. apply map_ext_in. intros sel I1.
  rewrite map_map. apply map_ext_in. intros k1 I2. destruct (H sel k1 I1 I2) as [V _]. symmetry. exact V.
Qed.

Lemma loss_right : forall s P p ks zref curves data theta p1 p2 N,
  wave_grid ks -> 0 < zref ->
  (forall sel k1, In sel curves -> In k1 ks -> selector sel /\ differentiable_lifetime s P p1 p2 N k1
     /\ off_bound sel (model_at s P 0) p1 p2 N k1) ->
  regular_curves ks (rows_at s P p1 p2 N curves ks 0) -> regular_curves ks data -> length curves = length data ->
  let grad := ad_loss p ks zref (ad_rows s P p1 p2 N curves ks) data theta in
  let loss := fun t => loss_value p ks zref (rows_at s P p1 p2 N curves ks t) data (option_map (map (moved t)) theta) None in
  val grad = loss 0 /\ is_derive loss 0 (der grad).
Proof.
  intros s P p ks zref curves data theta p1 p2 N [S Pk] Hz HC [_ RM] [_ RD] HL grad loss.
  assert (TR : forall sel k1, In sel curves -> In k1 ks ->
     tracks (fun t => ops_forward sel (model_at s P t) p1 p2 N k1) (ad_forward sel s P p1 p2 N k1)).
  { intros sel k1 I1 I2. destruct (HC sel k1 I1 I2) as (A & B & C). apply forward_tracks; try assumption.
    rewrite List.Forall_forall in Pk. specialize (Pk k1 I2). lra. }
  assert (T : tracks loss grad).
  { apply loss_tracks; [exact S|exact Pk|lra|apply rows_tracks; exact TR| | |].
    - rewrite <- (row_values s P p1 p2 N curves ks TR) in RM. apply List.Forall_forall. intros ds I. apply List.Forall_forall. intros d J.
      rewrite List.Forall_forall in RM. destruct (RM (map val ds) (in_map _ _ _ I)) as [_ RM2]. rewrite List.Forall_forall in RM2.
      apply RM2. apply in_map. exact J.
    - eapply List.Forall_impl; [|exact RD]. intros r [_ Hr]. exact Hr.
    - unfold ad_rows. clear - RD HL. revert data RD HL. induction curves as [|c cs IH]; intros [|d ds] RD HL; try discriminate; [constructor|].
      inversion RD as [|? ? [L1 _] RD']; subst. cbn [map]. apply List.Forall2_cons; [rewrite map_length; symmetry; exact L1|].
      apply IH; [exact RD'|cbn in HL; lia]. }
  destruct T as [V D]. split; [symmetry; exact V|exact D].
Qed.
