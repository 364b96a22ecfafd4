(** Lemmas about the unit of length (C191). *)

From Coq Require Import Reals Lra Lia List Sorted.
From Coquelicot Require Import Complex.
From Coq Require Import List.
From Verif Require Import Prelude RdtModel RdtSpec RdtProofs SpectraModel OpsModel OpsSpec OpsProofs OpsMore DrdProofs LossModel LossSpec TotalSpec BalSpec BalProofs UnitSpec.
Import ListNotations.
Open Scope R_scope.

Section Unit.

Variable s : R.
Hypothesis Hs : 0 < s.

Lemma raw_sel_homogeneous : forall sel E0 b k1 k2 k3, selector sel -> k1 <> 0 ->
  sel (power_spectra_raw E0 b k1 k2 k3) = s^2 * sel (power_spectra_raw E0 b (k1 * s) (k2 * s) (k3 * s)).
Proof.
  intros sel E0 b k1 k2 k3 H Hk.
  destruct H as [->|[->|[->|[->|[->| ->]]]]].
  - pose proof (raw_homogeneous s E0 b k1 k2 k3 X1 X1 Hs Hk) as E. cbn [entry] in E. rewrite E. field. lra.
  - pose proof (raw_homogeneous s E0 b k1 k2 k3 X2 X2 Hs Hk) as E. cbn [entry] in E. rewrite E. field. lra.
  - pose proof (raw_homogeneous s E0 b k1 k2 k3 X3 X3 Hs Hk) as E. cbn [entry] in E. rewrite E. field. lra.
  - pose proof (raw_homogeneous s E0 b k1 k2 k3 X1 X3 Hs Hk) as E. cbn [entry] in E. rewrite E. field. lra.
  - pose proof (raw_homogeneous s E0 b k1 k2 k3 X2 X3 Hs Hk) as E. cbn [entry] in E. rewrite E. field. lra.
  - pose proof (raw_homogeneous s E0 b k1 k2 k3 X1 X2 Hs Hk) as E. cbn [entry] in E. rewrite E. field. lra.
Qed.

Lemma energy_unit : forall spec M L b k1 k2 k3, 0 < L ->
  forward_energy spec (M * Rpower s (-2/3)) (L * s) b k1 k2 k3 = s * forward_energy spec M L b (k1 * s) (k2 * s) (k3 * s).
Proof.
  intros spec M L b k1 k2 k3 HL. unfold forward_energy. cbv zeta.
  rewrite kk0_scale, sqrt_scale2 by (try apply kk0_nonneg; assumption).
  replace (L * s * sqrt (kk0_of b k1 k2 k3)) with (L * (sqrt (kk0_of b k1 k2 k3) * s)) by ring.
  replace (L * (s * sqrt (kk0_of b k1 k2 k3))) with (L * (sqrt (kk0_of b k1 k2 k3) * s)) by ring.
  rewrite <- (Rpower_mult_distr L s) by assumption.
  assert (E : Rpower s (-2/3) * Rpower s (5/3) = s).
  { rewrite <- Rpower_plus. replace (-2/3 + 5/3) with 1 by lra. apply Rpower_1. exact Hs. }
  set (x := spec _).
  transitivity (Rpower s (-2/3) * Rpower s (5/3) * (M * Rpower L (5/3) * x)); [ring|]. rewrite E. ring.
Qed.

Lemma undelivered_unit : forall sel e k1 k2 k3, selector sel -> 0 < oe_L e -> k1 <> 0 ->
  undelivered sel (in_unit s e) k1 k2 k3 = s^3 * undelivered sel e (k1 * s) (k2 * s) (k3 * s).
Proof.
  intros sel e k1 k2 k3 H HL Hk. unfold undelivered. cbv zeta. cbn [oe_beta oe_L oe_M oe_spec in_unit].
  rewrite energy_unit, raw_sel_linear, raw_sel_homogeneous by assumption. ring.
Qed.

Lemma undelivered_at : forall sel e k1 k2 k3, selector sel -> 0 < oe_L e -> k1 <> 0 ->
  undelivered sel (in_unit s e) (k1 / s) (k2 / s) (k3 / s) = s^3 * undelivered sel e k1 k2 k3.
Proof.
  intros sel e k1 k2 k3 H HL Hk. rewrite undelivered_unit; [|exact H|exact HL|].
  - f_equal. f_equal; field; lra.
  - unfold Rdiv. apply Rmult_integral_contrapositive_currified; [exact Hk|]. apply Rinv_neq_0_compat. lra.
Qed.

(** ** Grids *)

Lemma T_unit : forall g f, T (map (fun x => x / s) g) f = T g (fun x => f (x / s)) / s.
Proof.
  induction g as [|x g IH]; intros f; [unfold T; cbn; field; lra|]. destruct g as [|y g]; [unfold T; cbn; field; lra|].
  cbn [map]. rewrite !T_cons2. cbn [map] in IH. rewrite IH. field. lra.
Qed.

Lemma quad_unit : forall g2 g3 f, quad23 (waves_in_unit s g2) (waves_in_unit s g3) f = quad23 g2 g3 (fun x y => f (x / s) (y / s)) / s^2.
Proof.
  intros g2 g3 f. unfold waves_in_unit. rewrite !quad23_T, T_unit.
  rewrite (T_ext g2 _ (fun k2 => / s * T g3 (fun k3 => f (k2 / s) (k3 / s)))) by (intros x _; rewrite T_unit; field; lra).
  rewrite T_scal. field. lra.
Qed.

Lemma logspace_unit : forall p1 p2 N, logspace (p1 - log10 s) (p2 - log10 s) N = map (fun x => x / s) (logspace p1 p2 N).
Proof.
  intros p1 p2 N. unfold logspace, linspace. rewrite !map_map. apply map_ext. intros i.
  replace (p2 - log10 s - (p1 - log10 s)) with (p2 - p1) by ring.
  replace (p1 - log10 s + INR i * ((p2 - p1) / INR (N - 1))) with (p1 + INR i * ((p2 - p1) / INR (N - 1)) + - log10 s) by ring.
  assert (H : 0 < ln 10) by (rewrite <- ln_1; apply ln_increasing; lra).
  assert (E : Rpower 10 (log10 s) = s).
  { unfold Rpower, log10. replace (ln s / ln 10 * ln 10) with (ln s) by (field; lra). apply exp_ln. exact Hs. }
  rewrite Rpower_plus, Rpower_Ropp, E. reflexivity.
Qed.

Lemma grid_unit : forall p1 p2 N, sym_grid (p1 - log10 s) (p2 - log10 s) N = waves_in_unit s (sym_grid p1 p2 N).
Proof.
  intros p1 p2 N. unfold sym_grid, waves_in_unit. cbv zeta. rewrite logspace_unit, !map_app, <- map_rev, !map_map. cbn [map].
  f_equal; [apply map_ext; intros x; field; lra|]. f_equal. f_equal. field. lra.
Qed.

Lemma forward_raw_unit : forall sel e p1 p2 N k1, selector sel -> 0 < oe_L e -> k1 <> 0 ->
  ops_forward_raw sel (in_unit s e) (p1 - log10 s) (p2 - log10 s) N (k1 / s) = ops_forward_raw sel e p1 p2 N k1.
Proof.
  intros sel e p1 p2 N k1 H HL Hk. unfold ops_forward_raw. cbv zeta. rewrite grid_unit, quad_unit.
  rewrite (quad23_ext _ _ _ (fun k2 k3 => s^3 * undelivered sel e k1 k2 k3)) by (intros x y _ _; apply undelivered_at; assumption).
  rewrite (quad23_scal _ _ (fun k2 k3 => undelivered sel e k1 k2 k3)). field. lra.
Qed.

Lemma forward_unit : forall sel e p1 p2 N k1, selector sel -> 0 < oe_L e -> k1 <> 0 ->
  (forall k2 k3, In k2 (sym_grid p1 p2 N) -> In k3 (sym_grid p1 p2 N) ->
     kept sel (undelivered sel e k1 k2 k3) /\ kept sel (s^3 * undelivered sel e k1 k2 k3)) ->
  ops_forward sel (in_unit s e) (p1 - log10 s) (p2 - log10 s) N (k1 / s) = ops_forward sel e p1 p2 N k1.
Proof.
  intros sel e p1 p2 N k1 H HL Hk K. rewrite forward_kept, forward_kept.
  - apply forward_raw_unit; assumption.
  - intros k2 k3 I2 I3. apply K; assumption.
  - intros k2 k3 I2 I3. rewrite grid_unit in I2, I3. apply in_map_iff in I2, I3. destruct I2 as (x & <- & I2). destruct I3 as (y & <- & I3).
    rewrite undelivered_at by assumption. apply K; assumption.
Qed.

(** ** The fixed grid *)

Lemma T_node : forall f a b l r, increasing (l ++ a :: 0 :: b :: r) -> (forall x, In x (l ++ a :: 0 :: b :: r) -> 0 <= f x) ->
  (b - a) / 2 * f 0 <= T (l ++ a :: 0 :: b :: r) f.
Proof.
  intros f a b l r. induction l as [|c l IH]; intros HI Hf.
  - cbn [app] in *. rewrite !T_cons2. pose proof (increasing_head _ _ _ HI) as H1.
    pose proof (increasing_head _ _ _ (increasing_tail _ _ HI)) as H2.
    assert (0 <= T (b :: r) f).
    { apply T_nonneg; [apply (increasing_tail 0), (increasing_tail a); exact HI|]. intros x Hx. apply Hf. right. right. exact Hx. }
    assert (0 <= f a) by (apply Hf; left; reflexivity).
    assert (0 <= f b) by (apply Hf; right; right; left; reflexivity). nra.
  - cbn [app] in *. assert (J := IH (increasing_tail _ _ HI) (fun x Hx => Hf x (or_intror Hx))).
    destruct (l ++ a :: 0 :: b :: r) as [|d m] eqn:E; [destruct l; discriminate|].
    rewrite T_cons2. pose proof (increasing_head _ _ _ HI).
    assert (0 <= f c) by (apply Hf; left; reflexivity). assert (0 <= f d) by (apply Hf; right; left; reflexivity). nra.
Qed.

Lemma sym_grid_middle : forall p1 p2 N, (1 <= N)%nat -> exists l r, sym_grid p1 p2 N = l ++ - Rpower 10 p1 :: 0 :: Rpower 10 p1 :: r.
Proof.
  intros p1 p2 N HN. unfold sym_grid. cbv zeta. unfold logspace, linspace.
  destruct N as [|n]; [lia|]. cbn [seq map]. set (m := map _ (map _ (seq 1 n))).
  replace (p1 + INR 0 * ((p2 - p1) / INR (S n - 1))) with p1 by (cbn; ring).
  exists (map Ropp (rev m)), m. cbn [rev]. rewrite map_app, <- app_assoc. reflexivity.
Qed.

Lemma quad_node : forall p1 p2 N f, p1 < p2 -> (1 <= N)%nat -> (forall x y, 0 <= f x y) ->
  Rpower 10 p1 ^ 2 * f 0 0 <= quad23 (sym_grid p1 p2 N) (sym_grid p1 p2 N) f.
Proof.
  intros p1 p2 N f Hp HN Hf. rewrite quad23_T. pose proof (sym_grid_sorted p1 p2 N Hp) as HI.
  destruct (sym_grid_middle p1 p2 N HN) as (l & r & E). rewrite E in *.
  assert (P : 0 < Rpower 10 p1) by (unfold Rpower; apply exp_pos).
  pose proof (T_node (fun k2 => T (l ++ - Rpower 10 p1 :: 0 :: Rpower 10 p1 :: r) (fun k3 => f k2 k3)) _ _ _ _ HI) as A.
  pose proof (T_node (fun k3 => f 0 k3) _ _ _ _ HI ltac:(intros; apply Hf)) as B.
  assert (C : forall x, In x (l ++ - Rpower 10 p1 :: 0 :: Rpower 10 p1 :: r) -> 0 <= T (l ++ - Rpower 10 p1 :: 0 :: Rpower 10 p1 :: r) (fun k3 => f x k3)).
  { intros x _. apply T_nonneg; [exact HI|]. intros y _. apply Hf. }
  specialize (A C). cbv beta in A. replace ((Rpower 10 p1 - - Rpower 10 p1) / 2) with (Rpower 10 p1) in A, B by field.
  eapply Rle_trans; [|exact A]. replace (Rpower 10 p1 ^ 2 * f 0 0) with (Rpower 10 p1 * (Rpower 10 p1 * f 0 0)) by ring.
  apply Rmult_le_compat_l; lra.
Qed.

Lemma clip_above : forall eps x, x <= clip_low eps x.
Proof. intros eps x. unfold clip_low. destruct (Rlt_dec x eps); lra. Qed.

Lemma delivered_above : forall sel e k1 k2 k3, auto sel -> undelivered sel e k1 k2 k3 <= delivered sel e k1 k2 k3 /\ 0 <= delivered sel e k1 k2 k3.
Proof.
  intros sel e k1 k2 k3 H. unfold delivered, undelivered. cbv zeta. unfold power_spectra, clip6.
  assert (E : 0 < eps_ops) by (unfold eps_ops; apply Rinv_0_lt_compat; lra).
  destruct H as [->|[->| ->]]; cbn [phi11 phi22 phi33]; (split; [apply clip_above|]); (apply Rle_trans with eps_ops; [lra | apply clip_low_ge]).
Qed.

Lemma origin_positive : forall sel e k1, sel = phi22 \/ sel = phi33 -> 0 < k1 ->
  (forall x, 0 < x -> 0 < oe_spec e x) -> 0 < oe_M e -> 0 < oe_L e -> 0 < undelivered sel e k1 0 0.
Proof.
  intros sel e k1 H Hk HS HM HL. unfold undelivered. cbv zeta. set (b := oe_beta e k1 0 0).
  assert (K0 : 0 < kk0_of b k1 0 0) by (apply kk0_pos; lra). assert (K : 0 < kk_of k1 0 0) by (apply kk_pos; lra).
  assert (E : 0 < forward_energy (oe_spec e) (oe_M e) (oe_L e) b k1 0 0).
  { unfold forward_energy. cbv zeta. apply Rmult_lt_0_compat; [apply Rmult_lt_0_compat; [exact HM | unfold Rpower; apply exp_pos]|].
    apply HS. apply Rmult_lt_0_compat; [exact HL | apply sqrt_lt_R0; exact K0]. }
  pose proof PI_RGT_0 as HPI. assert (E4 : 0 < forward_energy (oe_spec e) (oe_M e) (oe_L e) b k1 0 0 / (4 * PI)) by (apply Rdiv_lt_0_compat; lra).
  unfold power_spectra_raw. cbv zeta. destruct H as [->| ->]; cbn [phi22 phi33].
  - apply Rmult_lt_0_compat; [apply Rdiv_lt_0_compat; [exact E4 | apply pow_lt; exact K0]|].
    pose proof (pow2_ge_0 (fit_zeta2 b k1 0 0)). pose proof (pow2_ge_0 k1).
    assert (0 <= (k1^2 + 0^2) * fit_zeta2 b k1 0 0 ^ 2) by (apply Rmult_le_pos; lra). lra.
  - apply Rmult_lt_0_compat; [apply Rdiv_lt_0_compat; [exact E4 | apply pow_lt; exact K]|]. nra.
Qed.

Lemma unit_growth : forall sel e p1 p2 N k1, sel = phi22 \/ sel = phi33 -> p1 < p2 -> (1 <= N)%nat -> 0 < k1 ->
  (forall x, 0 < x -> 0 < oe_spec e x) -> 0 < oe_M e -> 0 < oe_L e ->
  0 < k1 * (Rpower 10 p1 ^ 2 * undelivered sel e k1 0 0)
  /\ s^2 * (k1 * (Rpower 10 p1 ^ 2 * undelivered sel e k1 0 0)) <= ops_forward sel (in_unit s e) p1 p2 N (k1 / s).
Proof.
  intros sel e p1 p2 N k1 H Hp HN Hk HS HM HL.
  assert (P : 0 < Rpower 10 p1) by (unfold Rpower; apply exp_pos).
  pose proof (origin_positive sel e k1 H Hk HS HM HL) as HO.
  assert (Ha : auto sel) by (unfold auto; tauto). assert (Hsel : selector sel) by (unfold selector; tauto).
  split; [apply Rmult_lt_0_compat; [exact Hk | apply Rmult_lt_0_compat; [apply pow_lt; exact P | exact HO]]|].
  assert (Q := quad_node p1 p2 N (fun k2 k3 => delivered sel (in_unit s e) (k1 / s) k2 k3) Hp HN
                 ltac:(intros x y; apply delivered_above; exact Ha)). cbv beta in Q.
  assert (D : s^3 * undelivered sel e k1 0 0 <= delivered sel (in_unit s e) (k1 / s) 0 0).
  { rewrite <- (undelivered_at sel e k1 0 0) by (try assumption; lra). replace (0 / s) with 0 by (field; lra). apply delivered_above. exact Ha. }
  unfold ops_forward. cbv zeta. assert (Hks : 0 < k1 / s) by (apply Rdiv_lt_0_compat; assumption).
  apply Rle_trans with (k1 / s * (Rpower 10 p1 ^ 2 * (s^3 * undelivered sel e k1 0 0))).
  - right. field. lra.
  - apply Rmult_le_compat_l; [lra|]. eapply Rle_trans; [|exact Q]. apply Rmult_le_compat_l; [left; apply pow_lt; exact P | exact D].
Qed.

(** ** Coherence *)

Lemma coh_kept_entry : forall sel e k1 k2 k3, auto sel -> / 10^32 <= undelivered sel e k1 k2 k3 -> coh_entry sel e k1 k2 k3 = undelivered sel e k1 k2 k3.
Proof.
  intros sel e k1 k2 k3 H K. unfold coh_entry. unfold undelivered in *. cbv zeta in *. unfold power_spectra_coherence, clip6.
  set (t := power_spectra_raw _ _ _ _ _) in *.
  assert (C : forall x, / 10^32 <= x -> clip_low eps_coh x = x) by (intros x Hx; unfold clip_low, eps_coh; destruct (Rlt_dec x (/ 10^32)); lra).
  destruct H as [->|[->| ->]]; cbn [phi11 phi22 phi33]; apply C; exact K.
Qed.

Lemma scaled_re : forall a z, fst (Cmult (RtoC a) z) = a * fst z.
Proof. intros a z. unfold Cmult, RtoC. cbn [fst snd]. ring. Qed.

Lemma scaled_im : forall a z, snd (Cmult (RtoC a) z) = a * snd z.
Proof. intros a z. unfold Cmult, RtoC. cbn [fst snd]. ring. Qed.

Lemma coherence_unit : forall g sel e k1 r, auto sel -> 0 < oe_L e -> k1 <> 0 ->
  coh_kept g sel e k1 -> coh_kept (waves_in_unit s g) sel (in_unit s e) (k1 / s) ->
  coherence_on (waves_in_unit s g) sel (in_unit s e) (k1 / s) (r * s) = coherence_on g sel e k1 r.
Proof.
  intros g sel e k1 r Ha HL Hk K K'.
  assert (Hsel : selector sel) by (unfold selector; destruct Ha as [->|[->| ->]]; tauto).
  assert (EE : forall x y, In x g -> In y g -> coh_entry sel (in_unit s e) (k1 / s) (x / s) (y / s) = s^3 * coh_entry sel e k1 x y).
  { intros x y Ix Iy. rewrite (coh_kept_entry sel e) by (try assumption; apply K; assumption).
    rewrite coh_kept_entry; [apply undelivered_at; assumption | exact Ha |]. apply K'; unfold waves_in_unit; apply in_map_iff; eexists; split; try reflexivity; assumption. }
  assert (PH : forall x, phase (x / s) (r * s) = phase x r) by (intros x; unfold phase; replace (x / s * (r * s)) with (x * r) by (field; lra); reflexivity).
  unfold coherence_on. cbv zeta.
  assert (S0 : quad23 (waves_in_unit s g) (waves_in_unit s g) (fun k2 k3 => coh_entry sel (in_unit s e) (k1 / s) k2 k3)
               = s * quad23 g g (fun k2 k3 => coh_entry sel e k1 k2 k3)).
  { rewrite quad_unit, (quad23_ext _ _ _ (fun x y => s^3 * coh_entry sel e k1 x y)) by (intros; apply EE; assumption).
    rewrite (quad23_scal _ _ (fun x y => coh_entry sel e k1 x y)). field. lra. }
  assert (Sr : quad23C (waves_in_unit s g) (waves_in_unit s g) (fun k2 k3 => Cmult (RtoC (coh_entry sel (in_unit s e) (k1 / s) k2 k3)) (phase k2 (r * s)))
               = Cmult (RtoC s) (quad23C g g (fun k2 k3 => Cmult (RtoC (coh_entry sel e k1 k2 k3)) (phase k2 r)))).
  { apply injective_projections.
    - transitivity (s * fst (quad23C g g (fun k2 k3 => Cmult (RtoC (coh_entry sel e k1 k2 k3)) (phase k2 r)))).
      + rewrite !quad23C_re, quad_unit.
        rewrite (quad23_ext _ _ _ (fun x y => s^3 * fst (Cmult (RtoC (coh_entry sel e k1 x y)) (phase x r)))).
        * rewrite (quad23_scal _ _ (fun x y => fst (Cmult (RtoC (coh_entry sel e k1 x y)) (phase x r)))). field. lra.
        * intros x y Ix Iy. rewrite EE, PH by assumption. unfold Cmult, RtoC. cbn [fst snd]. ring.
      + symmetry. apply scaled_re.
    - transitivity (s * snd (quad23C g g (fun k2 k3 => Cmult (RtoC (coh_entry sel e k1 k2 k3)) (phase k2 r)))).
      + rewrite !quad23C_im, quad_unit.
        rewrite (quad23_ext _ _ _ (fun x y => s^3 * snd (Cmult (RtoC (coh_entry sel e k1 x y)) (phase x r)))).
        * rewrite (quad23_scal _ _ (fun x y => snd (Cmult (RtoC (coh_entry sel e k1 x y)) (phase x r)))). field. lra.
        * intros x y Ix Iy. rewrite EE, PH by assumption. unfold Cmult, RtoC. cbn [fst snd]. ring.
      + symmetry. apply scaled_im. }
  rewrite S0, Sr, Cmod_mult, Cmod_R, Rabs_mult. assert (Hr : 0 < Rabs s) by (apply Rabs_pos_lt; lra).
  set (a := Cmod _). set (b := Rabs (quad23 _ _ _)).
  destruct (Req_dec b 0) as [Eb|Eb].
  - rewrite Eb. unfold Rdiv. rewrite Rmult_0_r, pow_i by lia. rewrite !Rinv_0. ring.
  - field. split; [exact Eb | lra].
Qed.

Lemma coh_grid_unit : forall c L, 0 < L ->
  coh_grid_for (option_map (waves_in_unit s) c) (L * s) = waves_in_unit s (coh_grid_for c L).
Proof.
  intros c L HL. destruct c as [g|]; [reflexivity|]. unfold coh_grid_for, waves_in_unit. cbn [option_map]. rewrite map_map.
  apply map_ext. intros x. field. lra.
Qed.

Lemma coh_init_unit : forall b q1 q2 N L, 0 < L ->
  coh_cache_init b q1 q2 N (L * s) = option_map (waves_in_unit s) (coh_cache_init b q1 q2 N L).
Proof.
  intros b q1 q2 N L HL. unfold coh_cache_init. destruct b; [|reflexivity]. cbn [option_map]. f_equal. unfold waves_in_unit. rewrite map_map.
  apply map_ext. intros x. field. lra.
Qed.

Lemma coh_run_unit : forall h c, List.Forall (fun q => 0 < oe_L (fst (fst q))) h ->
  coh_run (option_map (waves_in_unit s) c) (map (query_in_unit s) h) = option_map (waves_in_unit s) (coh_run c h).
Proof.
  unfold coh_run. induction h as [|[[e k1] r] h IH]; intros c HL; [reflexivity|].
  inversion HL as [|? ? H1 H2]; subst. cbn [fst] in H1. cbn [map fold_left query_in_unit].
  unfold spectral_coherence at 2 4. cbn [snd oe_L in_unit]. rewrite coh_grid_unit by exact H1.
  apply (IH (Some (coh_grid_for c (oe_L e))) H2).
Qed.

Lemma coherence_history_unit : forall b q1 q2 N L0 h e sel k1 r, 0 < L0 -> auto sel -> k1 <> 0 -> 0 < oe_L e ->
  List.Forall (fun q => 0 < oe_L (fst (fst q))) h ->
  let c := coh_run (coh_cache_init b q1 q2 N L0) h in
  let c' := coh_run (coh_cache_init b q1 q2 N (L0 * s)) (map (query_in_unit s) h) in
  coh_kept (coh_grid_for c (oe_L e)) sel e k1 -> coh_kept (coh_grid_for c' (oe_L e * s)) sel (in_unit s e) (k1 / s) ->
  fst (spectral_coherence c' sel (in_unit s e) (k1 / s) (r * s)) = fst (spectral_coherence c sel e k1 r).
Proof.
  intros b q1 q2 N L0 h e sel k1 r H0 Ha Hk HL Hh c c' K K'.
  assert (E : c' = option_map (waves_in_unit s) c) by (unfold c, c'; rewrite coh_init_unit by exact H0; apply coh_run_unit; exact Hh).
  rewrite E in *. unfold spectral_coherence. cbn [fst oe_L in_unit]. rewrite coh_grid_unit in * by exact HL.
  apply coherence_unit; assumption.
Qed.

(** ** Lifetimes *)

Lemma lifetime_unit : forall env e, le_type env <> MANN_APPROX -> has_lifetime e env -> has_lifetime (in_unit s e) (lifetime_in_unit s env).
Proof.
  intros env e Ht [HL HB]. split; [cbn; rewrite HL; reflexivity|]. intros k1 k2 k3. cbn [oe_beta in_unit]. rewrite <- HB.
  unfold eddy_lifetime, lifetime_in_unit. cbn [le_type le_L le_T le_hyp le_coef le_icpt le_net]. cbv zeta.
  assert (E : le_L env * s * sqrt (kk_of k1 k2 k3) = le_L env * sqrt (kk_of (k1 * s) (k2 * s) (k3 * s))).
  { rewrite kk_scale, sqrt_scale2 by (try exact Hs; unfold kk_of; nra). ring. }
  rewrite E. destruct (le_type env); try reflexivity; try contradiction.
  replace (k1 * (le_L env * s)) with (k1 * s * le_L env) by ring. replace (k2 * (le_L env * s)) with (k2 * s * le_L env) by ring.
  replace (k3 * (le_L env * s)) with (k3 * s * le_L env) by ring. reflexivity.
Qed.

(** ** The loss *)

Lemma ln_unit : forall k, 0 < k -> ln (k / s) = ln k - ln s.
Proof. intros k Hk. unfold Rdiv. rewrite ln_mult, ln_Rinv by (try apply Rinv_0_lt_compat; assumption). ring. Qed.

Lemma slopes_unit : forall k y, List.Forall (fun v => 0 < v) k -> slopes (waves_in_unit s k) y = slopes k y.
Proof.
  induction k as [|a k IH]; intros y Hp; [reflexivity|]. destruct k as [|b k]; [reflexivity|].
  destruct y as [|y0 [|y1 y]]; [reflexivity|reflexivity|].
  inversion Hp as [|? ? H1 H2]; subst. inversion H2 as [|? ? H3 H4]; subst.
  change (slopes (waves_in_unit s (a :: b :: k)) (y0 :: y1 :: y))
    with ((ln (Rabs y1) - ln (Rabs y0)) / (ln (b / s) - ln (a / s)) :: slopes (waves_in_unit s (b :: k)) (y1 :: y)).
  rewrite (IH (y1 :: y) H2), !ln_unit by assumption.
  change (slopes (a :: b :: k) (y0 :: y1 :: y)) with ((ln (Rabs y1) - ln (Rabs y0)) / (ln b - ln a) :: slopes (b :: k) (y1 :: y)).
  f_equal. f_equal. ring.
Qed.

Lemma bends_unit : forall k y, List.Forall (fun v => 0 < v) k -> bends (waves_in_unit s k) y = bends k y.
Proof.
  induction k as [|a k IH]; intros y Hp; [reflexivity|]. destruct k as [|b [|c k]]; [reflexivity|destruct y as [|? [|? ?]]; reflexivity|].
  destruct y as [|y0 [|y1 [|y2 y]]]; [reflexivity|reflexivity|reflexivity|].
  inversion Hp as [|? ? H1 H2]; subst. inversion H2 as [|? ? H3 H4]; subst. inversion H4 as [|? ? H5 H6]; subst.
  change (bends (waves_in_unit s (a :: b :: c :: k)) (y0 :: y1 :: y2 :: y))
    with (((ln (Rabs y2) - ln (Rabs y1)) / (ln (c / s) - ln (b / s)) - (ln (Rabs y1) - ln (Rabs y0)) / (ln (b / s) - ln (a / s)))
      / ((ln (c / s) - ln (a / s)) / 2) :: bends (waves_in_unit s (b :: c :: k)) (y1 :: y2 :: y)).
  rewrite (IH (y1 :: y2 :: y) H2), !ln_unit by assumption.
  change (bends (a :: b :: c :: k) (y0 :: y1 :: y2 :: y))
    with (((ln (Rabs y2) - ln (Rabs y1)) / (ln c - ln b) - (ln (Rabs y1) - ln (Rabs y0)) / (ln b - ln a))
      / ((ln c - ln a) / 2) :: bends (b :: c :: k) (y1 :: y2 :: y)).
  f_equal. replace (ln c - ln s - (ln b - ln s)) with (ln c - ln b) by ring.
  replace (ln b - ln s - (ln a - ln s)) with (ln b - ln a) by ring. replace (ln c - ln s - (ln a - ln s)) with (ln c - ln a) by ring. reflexivity.
Qed.

Lemma weighted_times : forall c w v, 0 < c -> weighted_term (c * w) v = c * weighted_term w v.
Proof.
  intros c w v Hc. unfold weighted_term. destruct (Rlt_dec 0 (c * w)) as [H|H]; destruct (Rlt_dec 0 w) as [H'|H'].
  - ring.
  - exfalso. apply H'. apply Rmult_lt_reg_l with c; lra.
  - exfalso. apply H. apply Rmult_lt_0_compat; assumption.
  - ring.
Qed.

Lemma weighted_factor : forall c w v, weighted_term w (c * v) = c * weighted_term w v.
Proof. intros c w v. unfold weighted_term. destruct (Rlt_dec 0 w); ring. Qed.

Lemma flat_map_same : forall (A B : Type) (f g : A -> list B) l, (forall x, f x = g x) -> flat_map f l = flat_map g l.
Proof. intros A B f g l H. induction l as [|x l IH]; [reflexivity|]. cbn. rewrite H, IH. reflexivity. Qed.

Lemma loss_unit : forall p ks zref ys ds th coh, List.Forall (fun k => 0 < k) ks -> zref <> 0 ->
  loss_value p (waves_in_unit s ks) (zref * s) ys ds th coh = loss_value (reweighted (/ s) (/ s^2) p) ks zref ys ds th coh.
Proof.
  intros p ks zref ys ds th coh Hk Hz. unfold loss_value, reweighted. cbn [alpha_pen1 alpha_pen2 beta_reg gamma_coherence].
  rewrite (flat_map_same _ _ (slopes (waves_in_unit s ks)) (slopes ks)) by (intros y; apply slopes_unit; exact Hk).
  rewrite (flat_map_same _ _ (bends (waves_in_unit s ks)) (bends ks)) by (intros y; apply bends_unit; exact Hk).
  set (m1 := mean_sq_excess _). set (m2 := mean_sq_excess _).
  assert (I1 : 0 < / s) by (apply Rinv_0_lt_compat; exact Hs). assert (I2 : 0 < / s^2) by (apply Rinv_0_lt_compat, pow_lt; exact Hs).
  rewrite !weighted_times by assumption.
  replace (m1 / (zref * s)) with (/ s * (m1 / zref)) by (field; lra). replace (m2 / (zref * s)^2) with (/ s^2 * (m2 / zref^2)) by (field; lra).
  rewrite !weighted_factor. reflexivity.
Qed.

Lemma fit_unit : forall p ks zref th p1 p2 N curves data e coh, List.Forall (fun k => 0 < k) ks -> zref <> 0 -> 0 < oe_L e ->
  all_kept e p1 p2 N curves ks -> all_kept (in_unit s e) (p1 - log10 s) (p2 - log10 s) N curves (waves_in_unit s ks) ->
  loss_value (reweighted s (s^2) p) (waves_in_unit s ks) (zref * s)
    (curves_of (in_unit s e) (p1 - log10 s) (p2 - log10 s) N curves (waves_in_unit s ks)) data th coh
  = loss_value p ks zref (curves_of e p1 p2 N curves ks) data th coh.
Proof.
  intros p ks zref th p1 p2 N curves data e coh Hk Hz HL K K'. rewrite loss_unit by assumption.
  replace (reweighted (/ s) (/ s^2) (reweighted s (s^2) p)) with p.
  2: { destruct p as [a1 a2 b g]. unfold reweighted. cbn [alpha_pen1 alpha_pen2 beta_reg gamma_coherence]. f_equal; field; lra. }
  f_equal. unfold curves_of. apply map_ext_in. intros sel Is. unfold waves_in_unit. rewrite map_map. apply map_ext_in. intros k1 Ik.
  rewrite List.Forall_forall in Hk. specialize (Hk k1 Ik).
  assert (Hsel : selector sel) by (apply (kept_selector sel _ (K sel k1 0 0 Is Ik (zero_in _ _ _) (zero_in _ _ _)))).
  assert (Hn : k1 <> 0) by lra.
  apply forward_unit; try assumption. intros k2 k3 I2 I3. split; [apply K; assumption|].
  rewrite <- undelivered_at by assumption. apply K'; try assumption.
  - unfold waves_in_unit. apply in_map_iff. exists k1. split; [reflexivity | exact Ik].
  - rewrite grid_unit. unfold waves_in_unit. apply in_map_iff. exists k2. split; [reflexivity | exact I2].
  - rewrite grid_unit. unfold waves_in_unit. apply in_map_iff. exists k3. split; [reflexivity | exact I3].
Qed.

Lemma kept_unit : forall e p1 p2 N curves ks, 1 <= s -> 0 < oe_L e -> List.Forall (fun k => 0 < k) ks ->
  all_kept e p1 p2 N curves ks -> all_kept (in_unit s e) (p1 - log10 s) (p2 - log10 s) N curves (waves_in_unit s ks).
Proof.
  intros e p1 p2 N curves ks H1 HL Hk K sel k1 k2 k3 Is I1 I2 I3. rewrite grid_unit in I2, I3.
  apply in_map_iff in I1, I2, I3. destruct I1 as (x & <- & I1). destruct I2 as (y & <- & I2). destruct I3 as (z & <- & I3).
  pose proof (K sel x y z Is I1 I2 I3) as Kx. rewrite List.Forall_forall in Hk. specialize (Hk x I1).
  rewrite undelivered_at by (try exact (kept_selector _ _ Kx); try exact HL; lra).
  assert (S3 : 1 <= s^3) by (replace 1 with (1^3) by ring; apply pow_incr; lra).
  assert (T0 : 0 < / 10^12) by (apply Rinv_0_lt_compat, pow_lt; lra).
  destruct Kx as [[A B]|[A B]]; [left|right]; (split; [exact A|]).
  - nra.
  - rewrite Rabs_mult, (Rabs_pos_eq (s^3)) by lra. nra.
Qed.

Lemma coh_kept_unit : forall g sel e k1, 1 <= s -> auto sel -> 0 < oe_L e -> k1 <> 0 ->
  coh_kept g sel e k1 -> coh_kept (waves_in_unit s g) sel (in_unit s e) (k1 / s).
Proof.
  intros g sel e k1 H1 Ha HL Hk K k2 k3 I2 I3. apply in_map_iff in I2, I3. destruct I2 as (y & <- & I2). destruct I3 as (z & <- & I3).
  assert (Hsel : selector sel) by (unfold selector; destruct Ha as [->|[->| ->]]; tauto).
  rewrite undelivered_at by assumption. pose proof (K y z I2 I3).
  assert (S3 : 1 <= s^3) by (replace 1 with (1^3) by ring; apply pow_incr; lra).
  assert (T0 : 0 < / 10^32) by (apply Rinv_0_lt_compat, pow_lt; lra). nra.
Qed.

End Unit.

Lemma unit_unbounded : forall sel e p1 p2 N k1, sel = phi22 \/ sel = phi33 -> p1 < p2 -> (1 <= N)%nat -> 0 < k1 ->
  (forall x, 0 < x -> 0 < oe_spec e x) -> 0 < oe_M e -> 0 < oe_L e ->
  forall B, exists s0, 0 < s0 /\ forall s, s0 <= s -> B < ops_forward sel (in_unit s e) p1 p2 N (k1 / s).
Proof.
  intros sel e p1 p2 N k1 H Hp HN Hk HS HM HL B. set (c := k1 * (Rpower 10 p1 ^ 2 * undelivered sel e k1 0 0)).
  assert (Hc : 0 < c) by (apply (unit_growth 1 Rlt_0_1 sel e p1 p2 N k1); assumption).
  exists (1 + Rabs B / c). assert (Q : 0 <= Rabs B / c) by (apply Rmult_le_pos; [apply Rabs_pos | left; apply Rinv_0_lt_compat; exact Hc]).
  split; [lra|]. intros s Hs. assert (Hs0 : 0 < s) by lra.
  destruct (unit_growth s Hs0 sel e p1 p2 N k1 H Hp HN Hk HS HM HL) as [_ G]. fold c in G.
  eapply Rlt_le_trans; [|exact G].
  assert (E : Rabs B = Rabs B / c * c) by (field; lra). pose proof (Rle_abs B).
  assert (F : Rabs B / c * c < s * c) by (apply Rmult_lt_compat_r; lra). rewrite <- E in F.
  assert (s * c <= s^2 * c) by (apply Rmult_le_compat_r; [lra|nra]). lra.
Qed.
