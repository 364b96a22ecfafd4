(** The derivative of the misfit determines that of the spectrum. *)

From Coq Require Import Reals Lra Lia List Arith Psatz.
From Coquelicot Require Import Coquelicot.
From Verif Require Import Prelude RdtModel SpectraModel RdtSpec RdtProofs RdtOde SpectraProofs OpsModel OpsSpec OpsProofs HypSpec HypProofs AsySpec AsyProofs AsyMore AsyFinal SensSpec SensProofs SensFinal LossModel LossSpec TotalSpec AutoModel AutoSpec AutoProofs AutoNet AutoSpectra AutoLoss AutoMann.
Import ListNotations.
Open Scope R_scope.

Lemma misfit_back : forall (J : R -> R) m c, continuous J 0 -> J 0 = val m -> 0 < val m -> 0 < c -> c <> val m ->
  is_derive (fun t => (ln (Rabs c) - ln (Rabs (J t)))^2) 0 (der (dsq (dln (dabs (ddiv m (const c)))))) ->
  is_derive J 0 (der m).
Proof.
  intros J m c CJ V Pm Pc N D. rewrite (Rabs_pos_eq c) in D by lra.
  set (s := ln c - ln (val m)). set (D0 := der (dsq (dln (dabs (ddiv m (const c)))))) in *.
  assert (Hs : s <> 0) by (unfold s; intros Q; apply N; apply ln_inv; lra).
  assert (Q : D0 = - (2 * s * (der m / val m))).
  { unfold D0. cbn [der val dsq dln dabs ddiv const]. rewrite Rmult_0_l, Rminus_0_r.
    assert (0 < val m / c) by (apply Rdiv_lt_0_compat; assumption).
    rewrite (Rabs_pos_eq (val m / c)) by lra. unfold Rsign. destruct (Rlt_dec 0 (val m / c)); [|lra].
    replace (ln (val m / c)) with (- s).
    - field. lra.
    - unfold Rdiv, s. rewrite ln_mult, ln_Rinv by (try apply Rinv_0_lt_compat; assumption). ring. }
  assert (JP : locally 0 (fun t => 0 < J t)) by (apply (CJ (fun u => 0 < u)); apply (open_gt 0); rewrite V; exact Pm).
  assert (T0 : tracks (fun t => (ln c - ln (Rabs (J t)))^2) (Dual (s^2) D0)).
  { split; [|exact D]. cbn [val]. rewrite V, Rabs_pos_eq by lra. reflexivity. }
  assert (P2 : 0 < val (Dual (s^2) D0)) by (cbn [val]; apply sq_pos; exact Hs).
  pose proof (tracks_sqrt _ _ P2 T0) as TS.
  destruct (Rlt_dec 0 s) as [S|S].
  - assert (TJ : tracks J (dexp (dsub (const (ln c)) (dsqrt (Dual (s^2) D0))))).
    { apply (tracks_loc (fun t => exp (ln c - sqrt ((ln c - ln (Rabs (J t)))^2)))).
      - rewrite V, (Rabs_pos_eq (val m)) by lra. fold s. rewrite sqrt_pow2 by lra. unfold s. replace (ln c - (ln c - ln (val m))) with (ln (val m)) by ring. apply exp_ln. exact Pm.
      - assert (JC : locally 0 (fun t => J t < c)).
        { apply (CJ (fun u => u < c)). apply (open_lt c). rewrite V. apply ln_lt_inv; [exact Pm|exact Pc|]. unfold s in S. lra. }
        apply (filter_imp (fun t => 0 < J t /\ J t < c)); [|apply filter_and; assumption]. intros t [A B].
        rewrite (Rabs_pos_eq (J t)) by lra. rewrite sqrt_pow2 by (pose proof (ln_increasing (J t) c A B); lra).
        replace (ln c - (ln c - ln (J t))) with (ln (J t)) by ring. apply exp_ln. exact A.
      - apply tracks_exp, tracks_sub; [apply tracks_const|exact TS]. }
    destruct TJ as [V1 D1]. evar_last; [exact D1|]. cbn [val dexp dsub const dsqrt] in V1. cbn [der dexp dsub const dsqrt val].
    rewrite <- V1, V, Q, sqrt_pow2 by lra. field. split; lra.
  - assert (S' : s < 0) by lra.
    assert (TJ : tracks J (dexp (dadd (const (ln c)) (dsqrt (Dual (s^2) D0))))).
    { apply (tracks_loc (fun t => exp (ln c + sqrt ((ln c - ln (Rabs (J t)))^2)))).
      - rewrite V, (Rabs_pos_eq (val m)) by lra. fold s. replace (s^2) with ((- s)^2) by ring. rewrite sqrt_pow2 by lra. unfold s. replace (ln c + - (ln c - ln (val m))) with (ln (val m)) by ring. apply exp_ln. exact Pm.
      - assert (JC : locally 0 (fun t => c < J t)).
        { apply (CJ (fun u => c < u)). apply (open_gt c). rewrite V. apply ln_lt_inv; [exact Pc|exact Pm|]. unfold s in S'. lra. }
        apply (filter_imp (fun t => 0 < J t /\ c < J t)); [|apply filter_and; assumption]. intros t [A B].
        rewrite (Rabs_pos_eq (J t)) by lra. replace ((ln c - ln (J t))^2) with ((ln (J t) - ln c)^2) by ring.
        rewrite sqrt_pow2 by (pose proof (ln_increasing c (J t) Pc B); lra).
        replace (ln c + (ln (J t) - ln c)) with (ln (J t)) by ring. apply exp_ln. exact A.
      - apply tracks_exp, tracks_add; [apply tracks_const|exact TS]. }
    destruct TJ as [V1 D1]. evar_last; [exact D1|]. cbn [val dexp dadd const dsqrt] in V1. cbn [der dexp dadd const dsqrt val].
    replace (sqrt (s^2)) with (- s) in * by (replace (s^2) with ((- s)^2) by ring; rewrite sqrt_pow2; lra).
    rewrite <- V1, V, Q. field. split; lra.
Qed.

Lemma loss_wrong : forall s P, st_type s = MANN -> hypergeometric (st_hyp s) -> st_learnable s = false ->
  forall p1 p2 N k1 zref c, 0 < k1 -> p1 < p2 -> (1 <= N)%nat -> der (pa_logL P) <> 0 -> rising (model_at s P 0) p1 p2 N k1 ->
  0 < c -> c <> ops_forward phi33 (model_at s P 0) p1 p2 N k1 ->
  ~ is_derive (fun t => loss_value (LossParams 0 0 0 0) [k1] zref (rows_at s P p1 p2 N [phi33] [k1] t) [[c]] None None) 0
              (der (ad_loss (LossParams 0 0 0 0) [k1] zref (ad_rows s P p1 p2 N [phi33] [k1]) [[c]] None)).
Proof.
  intros s P HT HH HV p1 p2 N k1 zref c Hk Hp HN HL HR Hc Hne D.
  assert (Hk' : k1 <> 0) by lra. set (g := sym_grid p1 p2 N).
  assert (Gs : increasing g) by (apply sym_grid_sorted; exact Hp).
  assert (Gl : (2 <= length g)%nat) by (unfold g; rewrite sym_grid_length; lia).
  pose proof (increasing_two g Gs Gl) as G.
  assert (PV : val (ad_forward phi33 s P p1 p2 N k1) = ops_forward phi33 (model_at s P 0) p1 p2 N k1).
  { unfold ad_forward, ops_forward. cbv zeta. cbn [val dmul const]. f_equal. apply quad23_ext. intros k2 k3 _ _.
    unfold ad_delivered, delivered. rewrite (ad_value s P HT), (model_form s P HT). cbv zeta. rewrite HV.
    cbn [oe_L oe_M oe_spec model_at]. rewrite HV.
    assert (Vb : val (dmul (dexp (pa_logT P)) (const (mann_lifetime (st_hyp s) (exp (val (pa_logL P)) * sqrt (kk_of k1 k2 k3))))) = beta_at s P 0 k1 k2 k3)
      by (unfold beta_at, moved; cbn [val dmul dexp const]; rewrite !Rmult_0_l, !Rplus_0_r; reflexivity).
    set (db := dmul (dexp (pa_logT P)) _) in *. rewrite <- Vb.
    unfold entry, ad_power_spectra, power_spectra, clip6, power_spectra_raw, forward_energy. cbv zeta. cbn [fst pack phi33].
    unfold ad_clip_low, clip_low. cbn [val dmul ddiv dexp dpow dsq const].
    unfold moved. rewrite !Rmult_0_l, !Rplus_0_r.
    assert (VK : val (ad_vklike (dmul (dexp (pa_logL P)) (dnorm [const k1; const k2; dadd (const k3) (dmul db (const k1))])))
      = vklike_energy (exp (val (pa_logL P)) * sqrt (kk0_of (val db) k1 k2 k3))).
    { symmetry.
      cbn [val ad_vklike dmul dpow ddiv dsqrt dadd const dsq dexp]. unfold vklike_energy.
      replace (val (dnorm [const k1; const k2; dadd (const k3) (dmul db (const k1))])) with (sqrt (kk0_of (val db) k1 k2 k3)); [reflexivity|].
      unfold dnorm. cbn [val]. unfold Rsum. cbn [map fold_right val const dadd dmul]. f_equal. unfold kk0_of, k30_of. ring. }
    rewrite VK. match goal with |- val (if Rlt_dec ?x ?e then _ else _) = (if Rlt_dec ?y _ then _ else _) => change y with x; destruct (Rlt_dec x e) end; [reflexivity|]. cbn [val dmul ddiv dexp dpow dsq const]. rewrite VK. reflexivity. }
  assert (PP : 0 < ops_forward phi33 (model_at s P 0) p1 p2 N k1).
  { unfold ops_forward. cbv zeta. fold g. apply Rmult_lt_0_compat; [lra|].
    apply Rlt_le_trans with (/ 10^12 * (last_node g - first_node g) * (last_node g - first_node g)).
    - apply Rmult_lt_0_compat; [apply Rmult_lt_0_compat; [apply Rinv_0_lt_compat, pow_lt; lra|lra]|lra].
    - apply quad23_lower; [exact Gs|exact Gs|]. intros k2 k3 I2 I3. unfold delivered, power_spectra. cbv zeta. cbn [phi33].
      assert (C : forall x, / 10^12 <= clip_low eps_ops x) by (intros x; unfold clip_low, eps_ops; destruct (Rlt_dec x (/ 10^12)); lra). apply C. }
  apply (spectra_wrong s P HT HH HV p1 p2 N k1 Hk Hp HN HL HR).
  apply (misfit_back _ _ c).
  - apply (rows_steady R_UniformSpace (fun t => model_at s P t) 0 phi33 p1 p2 N k1); [left; right; right; reflexivity| |exact Hk'].
    assert (E := beta_cont s P HH). split; [apply exp_pos|]. split; [apply (tracks_cont _ (dexp (pa_logL P))), tracks_exp, tracks_moved|].
    split; [apply (tracks_cont _ (dexp (pa_logM P))), tracks_exp, tracks_moved|]. split.
    + intros x Hx. cbn [oe_spec model_at]. rewrite HV.
      apply (continuous_comp (fun z : R * R => snd z) vklike_energy); [apply continuous_snd|].
      apply (ex_derive_continuous (K := R_AbsRing) (V := R_NormedModule)). eexists. apply vk_derive. exact Hx.
    + intros k2 k3. apply (continuous_ext (fun t => beta_at s P t k1 k2 k3)); [intros t; symmetry; apply (model_form s P HT)|]. apply E. exact Hk'.
  - rewrite PV. reflexivity.
  - rewrite PV. exact PP.
  - exact Hc.
  - rewrite PV. exact Hne.
  - evar_last; [apply (is_derive_ext _ (fun t => (ln (Rabs c) - ln (Rabs (ops_forward phi33 (model_at s P t) p1 p2 N k1)))^2)) in D; [exact D|]|].
    + intros t. unfold loss_value, rows_at, average, weighted_term. cbn [map sq_log_distances_all sq_log_distances app fold_right length INR alpha_pen1 alpha_pen2 beta_reg].
      destruct (Rlt_dec 0 0); [lra|]. match goal with |- ?a = ?b => change (@eq R a b) end. field.
    + unfold ad_loss, ad_rows, ad_mse, dmean, Rltb. cbn [alpha_pen1 alpha_pen2 beta_reg map concat app zip_with]. destruct (Rlt_dec 0 0); [lra|].
      cbn [der dadd const map]. unfold Rsum. cbn [fold_right length INR map]. match goal with |- ?a = ?b => change (@eq R a b) end. field.
Qed.
