(** Continuous dependence of spectra, coherences and lifetimes on the parameters. *)

From Coq Require Import Reals List Arith Lra Lia.
From Coquelicot Require Import Coquelicot.
From Verif Require Import Prelude RdtModel SpectraModel OpsModel RdtProofs SpectraProofs OpsSpec OpsProofs QuadSpec QuadProofs QuadTensor QuadMore SpectraSpec AsySpec AsyProofs AsyMore AsyFinal SensSpec.
Import ListNotations.
Open Scope R_scope.

Section Family.
Context {U : UniformSpace}.
Variables (k1 k2 k3 : R) (b E : U -> R) (p : U).
Hypothesis Hk : k1 <> 0.
Hypothesis Hb : continuous b p.
Hypothesis HE : continuous E p.

Lemma f_k30 : continuous (fun q => k30_of (b q) k1 k3) p.
Proof. unfold k30_of. apply c_plus; [apply c_const|]. apply c_mult; [exact Hb|apply c_const]. Qed.

Lemma f_kk0 : continuous (fun q => kk0_of (b q) k1 k2 k3) p.
Proof. unfold kk0_of. apply c_plus; [apply c_const|apply c_pow, f_k30]. Qed.

Ltac cs := repeat first [ exact Hb | exact HE | exact f_k30 | exact f_kk0 | apply c_const | apply c_pow | apply c_opp | apply c_mult | apply c_plus | apply c_minus ].

Lemma f_C1 : continuous (fun q => fit_C1 (b q) k1 k2 k3) p.
Proof.
  unfold fit_C1. cbv zeta. apply c_div; [cs|cs|].
  apply Rmult_integral_contrapositive_currified; apply Rgt_not_eq; [apply kk_pos|apply s_pos]; exact Hk.
Qed.

Lemma f_C2 : continuous (fun q => fit_C2 (b q) k1 k2 k3) p.
Proof.
  unfold fit_C2. cbv zeta. pose proof (s_pos k1 k2 Hk) as Hs. apply c_mult.
  - apply c_div; [cs|apply c_const|]. apply Rgt_not_eq, sqrt_lt_R0, pow_lt. exact Hs.
  - apply c_atan2; [cs|cs|]. destruct (Req_dec (b p) 0) as [E0|E0].
    + right. rewrite E0. pose proof (kk0_pos 0 k1 k2 k3 Hk). lra.
    + left. apply Rmult_integral_contrapositive_currified; [apply Rmult_integral_contrapositive_currified; assumption|]. apply Rgt_not_eq, sqrt_lt_R0. exact Hs.
Qed.

Lemma f_z1 : continuous (fun q => fit_zeta1 (b q) k1 k2 k3) p.
Proof. unfold fit_zeta1. apply c_minus; [exact f_C1|]. apply c_mult; [apply c_const|exact f_C2]. Qed.

Lemma f_z2 : continuous (fun q => fit_zeta2 (b q) k1 k2 k3) p.
Proof. unfold fit_zeta2. apply c_plus; [|exact f_C2]. apply c_div; [apply c_mult; [exact f_C1|apply c_const]|apply c_const|exact Hk]. Qed.

Ltac cz := repeat first [ exact f_z1 | exact f_z2 | exact Hb | exact HE | exact f_k30 | exact f_kk0 | apply c_const | apply c_pow | apply c_opp | apply c_mult | apply c_plus | apply c_minus ].

Lemma f_raw : forall sel, selector sel -> continuous (fun q => sel (power_spectra_raw (E q) (b q) k1 k2 k3)) p.
Proof.
  assert (HE4 : continuous (fun q => E q / (4 * PI)) p) by (apply c_div; [exact HE|apply c_const|exact four_pi]).
  assert (K0 : kk0_of (b p) k1 k2 k3 <> 0) by (apply Rgt_not_eq, kk0_pos, Hk). assert (K1 : kk_of k1 k2 k3 <> 0) by (apply Rgt_not_eq, kk_pos, Hk).
  intros sel [->|[->|[->|[->|[->| ->]]]]]; cbn [power_spectra_raw phi11 phi22 phi33 phi13 phi23 phi12];
    (apply c_mult; [apply c_div; [exact HE4| |]|cz]); try (apply pow_nonzero; assumption); try (apply Rmult_integral_contrapositive_currified; assumption); cz.
Qed.

End Family.

Lemma f_energy : forall (U : UniformSpace) (e : U -> ops_env) p k1 k2 k3, steady e k1 p -> k1 <> 0 ->
  continuous (fun q => forward_energy (oe_spec (e q)) (oe_M (e q)) (oe_L (e q)) (oe_beta (e q) k1 k2 k3) k1 k2 k3) p.
Proof.
  intros U e p k1 k2 k3 (HL & CL & CM & CS & CB) Hk. unfold forward_energy. cbv zeta.
  apply c_mult; [apply c_mult; [exact CM|apply c_Rpower; assumption]|].
  set (x := fun q => oe_L (e q) * sqrt (kk0_of (oe_beta (e q) k1 k2 k3) k1 k2 k3)).
  assert (Hx : continuous x p). { apply c_mult; [exact CL|]. apply c_sqrt; [apply f_kk0; apply CB|]. apply kk0_nonneg. }
  assert (Px : 0 < x p) by (apply Rmult_lt_0_compat; [exact HL|apply sqrt_lt_R0, kk0_pos, Hk]).
  apply (continuous_comp_2 (fun q : U => q) x (fun q t => oe_spec (e q) t)); [apply continuous_id|exact Hx|]. apply CS. exact Px.
Qed.

Lemma undelivered_steady : forall (U : UniformSpace) (e : U -> ops_env) p sel k1 k2 k3, selector sel -> steady e k1 p -> k1 <> 0 ->
  continuous (fun q => undelivered sel (e q) k1 k2 k3) p.
Proof.
  intros U e p sel k1 k2 k3 Hsel HS Hk. unfold undelivered. cbv zeta.
  apply (f_raw k1 k2 k3 (fun q => oe_beta (e q) k1 k2 k3)); [exact Hk|apply HS|apply f_energy; assumption|exact Hsel].
Qed.

Lemma T_steady : forall (U : UniformSpace) g (f : U -> R -> R) p, (forall x, In x g -> continuous (fun q => f q x) p) -> continuous (fun q => T g (f q)) p.
Proof.
  intros U. induction g as [|a g IH]; intros f p H; [apply c_const|]. destruct g as [|b g]; [apply c_const|].
  apply (continuous_ext (fun q => (b - a) * (f q a + f q b) / 2 + T (b :: g) (f q))); [reflexivity|].
  apply c_plus; [|apply IH; intros x Hx; apply H; right; exact Hx].
  unfold Rdiv. apply c_mult; [|apply c_const]. apply c_mult; [apply c_const|]. apply c_plus; apply H; [left; reflexivity|right; left; reflexivity].
Qed.

Lemma quad_steady : forall (U : UniformSpace) g2 g3 (f : U -> R -> R -> R) p, (forall x y, In x g2 -> In y g3 -> continuous (fun q => f q x y) p) -> continuous (fun q => quad23 g2 g3 (f q)) p.
Proof.
  intros U g2 g3 f p H. apply (continuous_ext (fun q => T g2 (fun x => T g3 (fun y => f q x y)))); [intros q; symmetry; apply quad23_T|].
  apply (T_steady U g2 (fun q x => T g3 (fun y => f q x y))). intros x Hx. apply (T_steady U g3 (fun q y => f q x y)). intros y Hy. apply H; assumption.
Qed.

Lemma low_selector : forall sel, low_clipped sel -> selector sel.
Proof. unfold low_clipped, selector. tauto. Qed.

Lemma rows_steady : forall (U : UniformSpace) (e : U -> ops_env) p sel p1 p2 N k1, (auto sel \/ sel = phi12 \/ sel = phi23) -> steady e k1 p -> k1 <> 0 ->
  continuous (fun q => ops_forward sel (e q) p1 p2 N k1) p.
Proof.
  intros U e p sel p1 p2 N k1 Hsel HS Hk. assert (HL : low_clipped sel) by (unfold low_clipped, auto in *; tauto). unfold ops_forward. cbv zeta.
  apply c_mult; [apply c_const|]. apply (quad_steady U _ _ (fun q k2 k3 => delivered sel (e q) k1 k2 k3)). intros k2 k3 _ _.
  apply (continuous_ext (fun q => clip_low eps_ops (undelivered sel (e q) k1 k2 k3))); [intros q; symmetry; apply delivered_clip; exact HL|].
  apply c_clip_low. apply undelivered_steady; [apply low_selector; exact HL|exact HS|exact Hk].
Qed.

Lemma raw_rows_steady : forall (U : UniformSpace) (e : U -> ops_env) p sel p1 p2 N k1, selector sel -> steady e k1 p -> k1 <> 0 ->
  continuous (fun q => ops_forward_raw sel (e q) p1 p2 N k1) p.
Proof.
  intros U e p sel p1 p2 N k1 Hsel HS Hk. unfold ops_forward_raw. cbv zeta. apply c_mult; [apply c_const|].
  apply (quad_steady U _ _ (fun q k2 k3 => undelivered sel (e q) k1 k2 k3)). intros k2 k3 _ _. apply undelivered_steady; assumption.
Qed.

Lemma uw_steady : forall (U : UniformSpace) (e : U -> ops_env) p p1 p2 N k1, steady e k1 p -> 0 < k1 -> p1 < p2 -> (2 <= N)%nat ->
  forall eta, 0 < eta -> locally p (fun q => Rabs (ops_forward phi13 (e q) p1 p2 N k1 - ops_forward phi13 (e p) p1 p2 N k1) <= eta + 2 * (k1 * (/ 10^12 * (2 * Rpower 10 p2)^2))).
Proof.
  intros U e p p1 p2 N k1 HS Hk Hp HN eta He.
  assert (HC : continuous (fun q => ops_forward_raw phi13 (e q) p1 p2 N k1) p) by (apply raw_rows_steady; [unfold selector; tauto|exact HS|lra]).
  assert (HD : forall q, Rabs (ops_forward phi13 (e q) p1 p2 N k1 - ops_forward_raw phi13 (e q) p1 p2 N k1) <= k1 * (/ 10^12 * (2 * Rpower 10 p2)^2)).
  { intros q. unfold ops_forward, ops_forward_raw. cbv zeta. rewrite <- Rmult_minus_distr_l, Rabs_mult, (Rabs_right k1) by lra. apply Rmult_le_compat_l; [lra|].
    rewrite !quad23_T. set (g := sym_grid p1 p2 N). assert (HG : increasing g) by (apply sym_grid_sorted; exact Hp).
    assert (EL : last_node g - first_node g = 2 * Rpower 10 p2) by (unfold g; rewrite sym_grid_last, sym_grid_first by assumption; ring).
    replace (/ 10^12 * (2 * Rpower 10 p2)^2) with ((/ 10^12 * (last_node g - first_node g)) * (last_node g - first_node g)) by (rewrite EL; ring).
    apply (T_close g _ _ _ HG). intros x _. apply (T_close g _ _ _ HG). intros y _. apply clip_signed_close. apply Rinv_0_lt_compat. lra. }
  assert (HL : locally p (fun q => Rabs (ops_forward_raw phi13 (e q) p1 p2 N k1 - ops_forward_raw phi13 (e p) p1 p2 N k1) < eta)).
  { apply (HC (fun t => Rabs (t - ops_forward_raw phi13 (e p) p1 p2 N k1) < eta)). exists (mkposreal eta He). intros t Ht. exact Ht. }
  revert HL. apply filter_imp. intros q Hq. pose proof (HD q) as D1. pose proof (HD p) as D2.
  set (B := k1 * (/ 10^12 * (2 * Rpower 10 p2)^2)) in *. unfold Rabs in *. repeat destruct (Rcase_abs _); lra.
Qed.

Lemma coherence_steady : forall (U : UniformSpace) (e : U -> ops_env) p sel g k1 r, auto sel -> steady e k1 p -> k1 <> 0 -> increasing g -> (2 <= length g)%nat ->
  continuous (fun q => fst (spectral_coherence (Some g) sel (e q) k1 r)) p.
Proof.
  intros U e p sel g k1 r Hsel HS Hk HG Hlen. cbn [spectral_coherence coh_grid_for fst]. assert (HL := auto_low sel Hsel).
  apply (continuous_ext (fun q => (quad23 g g (fun k2 k3 => coh_weight sel (e q) k1 k2 k3 * cos (k2 * r)) ^ 2
     + quad23 g g (fun k2 k3 => coh_weight sel (e q) k1 k2 k3 * sin (k2 * r)) ^ 2) / quad23 g g (fun k2 k3 => coh_weight sel (e q) k1 k2 k3) ^ 2)); [intros q; symmetry; apply coherence_parts; exact HL|].
  assert (CW : forall k2 k3, continuous (fun q => coh_weight sel (e q) k1 k2 k3) p).
  { intros k2 k3. apply (continuous_ext (fun q => clip_low eps_coh (undelivered sel (e q) k1 k2 k3))); [intros q; apply clip_low_max|]. apply c_clip_low. apply undelivered_steady; [apply low_selector; exact HL|exact HS|exact Hk]. }
  assert (CQ : forall w : R -> R, continuous (fun q => quad23 g g (fun k2 k3 => coh_weight sel (e q) k1 k2 k3 * w k2)) p).
  { intros w. apply (quad_steady U g g (fun q k2 k3 => coh_weight sel (e q) k1 k2 k3 * w k2)). intros x y _ _. apply c_mult; [apply CW|apply c_const]. }
  apply c_div.
  - apply c_plus; apply c_pow; [apply (CQ (fun x => cos (x * r)))|apply (CQ (fun x => sin (x * r)))].
  - apply c_pow. apply (quad_steady U g g (fun q k2 k3 => coh_weight sel (e q) k1 k2 k3)). intros x y _ _. apply CW.
  - apply pow_nonzero, Rgt_not_eq. rewrite (quad23_ext g g _ (fun k2 k3 => coh_entry sel (e p) k1 k2 k3)) by (intros x y _ _; unfold coh_weight; rewrite coh_entry_clip by exact HL; symmetry; apply clip_low_max).
    apply coh_S0_pos; assumption.
Qed.

(** ** Ingredients *)

Lemma c_Rpower2 : forall (U : UniformSpace) (f a : U -> R) p, continuous f p -> continuous a p -> 0 < f p -> continuous (fun q => Rpower (f q) (a q)) p.
Proof. intros U f a p Hf Ha H0. unfold Rpower. apply c_exp. apply c_mult; [exact Ha|apply c_ln; assumption]. Qed.

Lemma spectra_steady : forall (U : UniformSpace) (a b : U -> R) p x, continuous a p -> continuous b p -> 0 < x ->
  continuous (fun z : U * R => vklike_energy (snd z)) (p, x) /\ continuous (fun z : U * R => learnable_energy (a (fst z)) (b (fst z)) (snd z)) (p, x).
Proof.
  intros U a b p x Ha Hb Hx. assert (Cs : continuous (fun z : U * R => snd z) (p, x)) by apply continuous_snd. split.
  - apply (c_comp (fun z : U * R => snd z) vklike_energy); [exact Cs|]. apply (energy_continuous 0 0 x Hx).
  - unfold learnable_energy.
    assert (Ca : continuous (fun z : U * R => a (fst z)) (p, x)) by (apply (continuous_comp (fun z : U * R => fst z) a); [apply continuous_fst|exact Ha]).
    assert (Cb : continuous (fun z : U * R => b (fst z)) (p, x)) by (apply (continuous_comp (fun z : U * R => fst z) b); [apply continuous_fst|exact Hb]).
    assert (P1 : 0 < 1 + x ^ 2) by (pose proof (pow2_ge_0 x); lra).
    apply c_div; [apply c_Rpower2; [exact Cs|exact Ca|exact Hx]| |apply Rgt_not_eq, exp_pos].
    apply c_Rpower2; [apply c_plus; [apply c_const|apply c_pow; exact Cs]|exact Cb|exact P1].
Qed.

Lemma lifetimes_steady : forall (U : UniformSpace) ty (L T coef icpt : U -> R) hyp net p k1 k2 k3 (beta : U -> R), ty <> TAUNET -> 0 < L p -> k1 <> 0 ->
  continuous L p -> continuous T p -> continuous coef p -> continuous icpt p ->
  (ty = MANN -> forall t, t < 0 -> continuity_pt hyp t /\ 0 < hyp t) ->
  (forall q, eddy_lifetime (LEnv ty (L q) (T q) hyp (coef q) (icpt q) net) k1 k2 k3 = Ok (beta q)) -> continuous beta p.
Proof.
  intros U ty L T coef icpt hyp net p k1 k2 k3 beta Hty HL Hk CL CT CC CI Hh HB.
  assert (CK : continuous (fun q => L q * sqrt (kk_of k1 k2 k3)) p) by (apply c_mult; [exact CL|apply c_const]).
  assert (PK : 0 < L p * sqrt (kk_of k1 k2 k3)) by (apply Rmult_lt_0_compat; [exact HL|apply sqrt_lt_R0, kk_pos, Hk]).
  unfold eddy_lifetime in HB. cbn [le_type le_L le_T le_hyp le_coef le_icpt le_net] in HB. cbv zeta in HB. destruct ty; cbn [bind] in HB.
  - apply (continuous_ext (fun q => T q * Rpower (L q * sqrt (kk_of k1 k2 k3)) (-2/3))); [intros q; specialize (HB q); injection HB as HB; exact HB|]. apply c_mult; [exact CT|apply c_Rpower; assumption].
  - contradiction.
  - apply (continuous_ext (fun q => T q * mann_lifetime hyp (L q * sqrt (kk_of k1 k2 k3)))); [intros q; specialize (HB q); injection HB as HB; exact HB|]. apply c_mult; [exact CT|]. unfold mann_lifetime.
    assert (Hn : - Rpower (L p * sqrt (kk_of k1 k2 k3)) (-2) < 0) by (apply Ropp_lt_gt_0_contravar, exp_pos). destruct (Hh eq_refl _ Hn) as [H1 H2].
    apply c_div; [apply c_Rpower; assumption| |apply Rgt_not_eq, sqrt_lt_R0; exact H2].
    apply c_sqrt; [|left; exact H2]. apply (c_comp (fun q => - Rpower (L q * sqrt (kk_of k1 k2 k3)) (-2)) hyp); [|exact H1]. apply c_opp, c_Rpower; assumption.
  - apply (continuous_ext (fun q => T q * mann_linear_approx (L q * sqrt (kk_of k1 k2 k3)) (coef q) (icpt q))); [intros q; specialize (HB q); injection HB as HB; exact HB|]. apply c_mult; [exact CT|]. unfold mann_linear_approx.
    apply c_exp, c_plus; [|exact CI]. apply c_mult; [exact CC|apply c_ln; assumption].
  - apply (continuous_ext (fun q => T q * 1)); [intros q; specialize (HB q); injection HB as HB; exact HB|]. apply c_mult; [exact CT|apply c_const].
Qed.

(** ** Networks *)

Section Net.
Context {U : UniformSpace}.
Variable p : U.

Definition vals (xs : list (U -> R)) (q : U) : list R := map (fun f => f q) xs.

Lemma dot_steady : forall (r xs : list (U -> R)), List.Forall (fun f => continuous f p) r -> List.Forall (fun f => continuous f p) xs ->
  continuous (fun q => dot (vals r q) (vals xs q)) p.
Proof.
  induction r as [|a r IH]; intros [|x xs] Hr Hx; try apply c_const. inversion Hr; inversion Hx; subst.
  apply (continuous_ext (fun q => a q * x q + dot (vals r q) (vals xs q))); [reflexivity|]. apply c_plus; [apply c_mult; assumption|apply IH; assumption].
Qed.

Lemma linear_steady : forall (W : list (list (U -> R))) xs, (forall r, In r W -> List.Forall (fun f => continuous f p) r) -> List.Forall (fun f => continuous f p) xs ->
  (exists e, forall q, linear (map (map (fun f => f q)) W) (vals xs q) = Err e)
  \/ exists ys, List.Forall (fun f => continuous f p) ys /\ forall q, linear (map (map (fun f => f q)) W) (vals xs q) = Ok (vals ys q).
Proof.
  intros W xs HW Hx. unfold linear.
  assert (EL : forall q, length (vals xs q) = length xs) by (intros q; apply map_length).
  assert (EF : forall q, forallb (fun r : list R => (length r =? length (vals xs q))%nat) (map (map (fun f => f q)) W) = forallb (fun r => (length r =? length xs)%nat) W).
  { intros q. rewrite EL. clear. induction W as [|r W IH]; [reflexivity|]. cbn [map forallb]. rewrite map_length. f_equal. exact IH. }
  destruct (forallb (fun r => (length r =? length xs)%nat) W) eqn:Ef.
  - right. exists (map (fun r q => dot (vals r q) (vals xs q)) W). split.
    + apply Forall_forall. intros f Hf. apply in_map_iff in Hf. destruct Hf as (r & <- & Hr). apply dot_steady; [apply HW; exact Hr|exact Hx].
    + intros q. rewrite EF. f_equal. unfold vals. rewrite !map_map. apply map_ext. intros r. reflexivity.
  - left. exists RuntimeError. intros q. rewrite EF. reflexivity.
Qed.

Lemma layers_steady : forall (WF : list (list (list (U -> R)))) acts xs, steady_weights WF p -> List.Forall (fun f => forall x, continuity_pt f x) acts -> List.Forall (fun f => continuous f p) xs ->
  (exists e, forall q, mlp_layers (weights_at WF q) acts (vals xs q) = Err e)
  \/ exists ys, List.Forall (fun f => continuous f p) ys /\ forall q, mlp_layers (weights_at WF q) acts (vals xs q) = Ok (vals ys q).
Proof.
  induction WF as [|W WF IH]; intros acts xs HW Ha Hx; [left; exists IndexError; reflexivity|].
  assert (HW1 : forall r, In r W -> List.Forall (fun f => continuous f p) r) by (intros r Hr; apply Forall_forall; intros f Hf; apply (HW W r f); [left; reflexivity|exact Hr|exact Hf]).
  assert (HW2 : steady_weights WF p) by (intros W' r f H1 H2 H3; apply (HW W' r f); [right; exact H1|exact H2|exact H3]).
  destruct WF as [|W' WF].
  { apply linear_steady; assumption. }
  destruct acts as [|f acts]; [left; exists IndexError; reflexivity|]. inversion Ha as [|? ? Ha1 Ha2]; subst.
  destruct (linear_steady W xs HW1 Hx) as [[e He]|[ys [Hy Ey]]].
  - left. exists e. intros q. change (bind (linear (map (map (fun f => f q)) W) (vals xs q)) (fun y => mlp_layers (weights_at (W' :: WF) q) acts (map f y)) = Err e). rewrite He. reflexivity.
  - destruct (IH acts (map (fun g q => f (g q)) ys) HW2 Ha2) as [[e He]|[zs [Hz Ez]]].
    + apply Forall_forall. intros g Hg. apply in_map_iff in Hg. destruct Hg as (g' & <- & Hg'). apply c_comp; [|apply Ha1]. rewrite Forall_forall in Hy. apply Hy. exact Hg'.
    + left. exists e. intros q. change (bind (linear (map (map (fun f => f q)) W) (vals xs q)) (fun y => mlp_layers (weights_at (W' :: WF) q) acts (map f y)) = Err e).
      rewrite Ey. cbn [bind]. specialize (He q). unfold vals in *. rewrite map_map in He |- *. exact He.
    + right. exists zs. split; [exact Hz|]. intros q. change (bind (linear (map (map (fun f => f q)) W) (vals xs q)) (fun y => mlp_layers (weights_at (W' :: WF) q) acts (map f y)) = Ok (vals zs q)).
      rewrite Ey. cbn [bind]. rewrite <- Ez. f_equal. unfold vals. rewrite !map_map. reflexivity.
Qed.

Lemma vadd_steady : forall xs ys, List.Forall (fun f => continuous f p) xs -> List.Forall (fun f => continuous f p) ys ->
  (exists e, forall q, vadd (vals xs q) (vals ys q) = Err e)
  \/ exists rs, List.Forall (fun f => continuous f p) rs /\ forall q, vadd (vals xs q) (vals ys q) = Ok (vals rs q).
Proof.
  induction xs as [|x xs IH]; intros [|y ys] Hx Hy; [right; exists []; split; [constructor|reflexivity]|left; exists RuntimeError; reflexivity|left; exists RuntimeError; reflexivity|].
  inversion Hx as [|? ? Hx1 Hx2]; inversion Hy as [|? ? Hy1 Hy2]; subst. destruct (IH ys Hx2 Hy2) as [[e He]|[rs [Hr Er]]].
  - left. exists e. intros q. cbn. unfold vals in He. rewrite He. reflexivity.
  - right. exists ((fun q => x q + y q) :: rs). split; [constructor; [apply c_plus; assumption|exact Hr]|]. intros q. cbn. unfold vals in Er. rewrite Er. reflexivity.
Qed.

Lemma sum_sq_steady : forall rs, List.Forall (fun f => continuous f p) rs -> continuous (fun q => Rsum (map (fun a => a^2) (vals rs q))) p.
Proof.
  induction rs as [|r rs IH]; intros H; [apply c_const|]. inversion H; subst.
  apply (continuous_ext (fun q => r q ^ 2 + Rsum (map (fun a => a^2) (vals rs q)))); [reflexivity|]. apply c_plus; [apply c_pow; assumption|apply IH; assumption].
Qed.

End Net.

Lemma network_steady : forall (U : UniformSpace) WF acts (nu L T : U -> R) hyp coef icpt p k1 k2 k3 (beta : U -> R),
  steady_weights WF p -> List.Forall (fun f => forall x, continuity_pt f x) acts -> continuous nu p -> continuous L p -> continuous T p ->
  (forall a, mlp_forward (weights_at WF p) acts [Rabs (k1 * L p); Rabs (k2 * L p); Rabs (k3 * L p)] = Ok a -> nonzero_vector a) ->
  (forall q, eddy_lifetime (LEnv TAUNET (L q) (T q) hyp coef icpt (taunet_forward (weights_at WF q) acts (nu q))) k1 k2 k3 = Ok (beta q)) -> continuous beta p.
Proof.
  intros U WF acts nu L T hyp coef icpt p k1 k2 k3 beta HW Ha Cn CL CT Hz HB.
  set (xs := [fun q => Rabs (k1 * L q); fun q => Rabs (k2 * L q); fun q => Rabs (k3 * L q)]).
  assert (Hxs : List.Forall (fun f : U -> R => continuous f p) xs).
  { repeat constructor; (apply (c_comp (fun q => _ * L q) Rabs); [apply c_mult; [apply c_const|exact CL]|apply abs_cont]). }
  assert (V : forall q, exists a, mlp_forward (weights_at WF q) acts (vals xs q) = Ok a /\ beta q = T q * rational (nu q) (vnorm a)).
  { intros q. specialize (HB q). unfold eddy_lifetime in HB. cbn [le_type le_L le_T le_net] in HB. unfold taunet_forward in HB.
    change (map Rabs [k1 * L q; k2 * L q; k3 * L q]) with (vals xs q) in HB. destruct (mlp_forward (weights_at WF q) acts (vals xs q)) as [a|x]; [|discriminate]. cbn [bind] in HB. injection HB as <-. exists a. split; [reflexivity|ring]. }
  unfold mlp_forward in V.
  destruct (layers_steady p WF acts xs HW Ha Hxs) as [[e He]|[ys [Hy Ey]]]; [exfalso; destruct (V p) as (a & Hpa & _); rewrite He in Hpa; discriminate|].
  destruct (vadd_steady p xs ys Hxs Hy) as [[e He]|[rs [Hr Er]]]; [exfalso; destruct (V p) as (a & Hpa & _); rewrite Ey in Hpa; cbn [bind] in Hpa; rewrite He in Hpa; discriminate|].
  assert (Bq : forall q, beta q = T q * rational (nu q) (vnorm (vals rs q))).
  { intros q. destruct (V q) as (a & Ha' & ->). rewrite Ey in Ha'. cbn [bind] in Ha'. rewrite Er in Ha'. injection Ha' as <-. reflexivity. }
  assert (Hpos : 0 < vnorm (vals rs p)). { apply vnorm_pos. apply Hz. unfold mlp_forward. change [Rabs (k1 * L p); Rabs (k2 * L p); Rabs (k3 * L p)] with (vals xs p). rewrite Ey. cbn [bind]. apply Er. }
  assert (Cv : continuous (fun q => vnorm (vals rs q)) p). { unfold vnorm. apply c_sqrt; [apply sum_sq_steady; exact Hr|]. apply Rsum_nonneg. intros. apply pow2_ge_0. }
  apply (continuous_ext (fun q => T q * rational (nu q) (vnorm (vals rs q)))); [intros q; symmetry; apply Bq|]. apply c_mult; [exact CT|]. unfold rational. cbv zeta.
  assert (Cr : continuous (fun q => Rabs (vnorm (vals rs q))) p) by (apply (c_comp _ Rabs); [exact Cv|apply abs_cont]).
  assert (Pr : 0 < Rabs (vnorm (vals rs p))) by (apply Rabs_pos_lt; lra).
  apply c_div; [apply c_Rpower2; [exact Cr|apply c_minus; [exact Cn|apply c_const]|exact Pr]| |apply Rgt_not_eq, exp_pos].
  apply c_Rpower2; [apply c_plus; [apply c_const|apply c_pow; exact Cr]|unfold Rdiv; apply c_mult; [exact Cn|apply c_const]|pose proof (pow2_ge_0 (Rabs (vnorm (vals rs p)))); lra].
Qed.
