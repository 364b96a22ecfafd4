(** The integrands of the one-point spectra and of the coherence are continuous
    in the cross-stream wave numbers, so their quadratures converge. *)

From Coq Require Import Reals List Arith Lra Lia.
From Coquelicot Require Import Coquelicot.
From Verif Require Import Prelude RdtModel SpectraModel OpsModel RdtProofs RdtOde SpectraProofs OpsSpec OpsProofs
  QuadSpec QuadProofs.
Import ListNotations.
Open Scope R_scope.

(** ** Continuity calculus on a uniform space *)

Section Calculus.
Context {U : UniformSpace}.
Implicit Types f g : U -> R.

Lemma c_plus : forall f g p, continuous f p -> continuous g p -> continuous (fun q => f q + g q) p.
Proof. intros f g p Hf Hg. apply (@continuous_plus U R_AbsRing R_NormedModule); assumption. Qed.

Lemma c_minus : forall f g p, continuous f p -> continuous g p -> continuous (fun q => f q - g q) p.
Proof. intros f g p Hf Hg. apply (@continuous_minus U R_AbsRing R_NormedModule); assumption. Qed.

Lemma c_opp : forall f p, continuous f p -> continuous (fun q => - f q) p.
Proof. intros f p Hf. apply (@continuous_opp U R_AbsRing R_NormedModule); assumption. Qed.

Lemma c_mult : forall f g p, continuous f p -> continuous g p -> continuous (fun q => f q * g q) p.
Proof. intros f g p Hf Hg. apply (@continuous_mult U R_AbsRing); assumption. Qed.

Lemma c_const : forall (a : R) (p : U), continuous (fun _ => a) p.
Proof. intros a p. apply continuous_const. Qed.

Lemma c_pow : forall f n p, continuous f p -> continuous (fun q => f q ^ n) p.
Proof. intros f n p Hf. induction n as [|n IH]; cbn [pow]; [apply c_const|apply c_mult; assumption]. Qed.

Lemma c_comp : forall f (g : R -> R) p, continuous f p -> continuity_pt g (f p) -> continuous (fun q => g (f q)) p.
Proof. intros f g p Hf Hg. apply (continuous_comp f g); [exact Hf|]. apply continuity_pt_filterlim. exact Hg. Qed.

Lemma c_div : forall f g p, continuous f p -> continuous g p -> g p <> 0 -> continuous (fun q => f q / g q) p.
Proof.
  intros f g p Hf Hg H0. unfold Rdiv. apply c_mult; [exact Hf|].
  apply (c_comp g Rinv p Hg). apply continuity_pt_inv; [apply continuity_pt_id|exact H0].
Qed.

Lemma c_sqrt : forall f p, continuous f p -> 0 <= f p -> continuous (fun q => sqrt (f q)) p.
Proof. intros f p Hf H0. apply (c_comp f sqrt p Hf). apply continuity_pt_sqrt. exact H0. Qed.

Lemma continuity_ln_pos : forall x, 0 < x -> continuity_pt ln x.
Proof. intros x Hx. apply derivable_continuous_pt. exists (/ x). apply derivable_pt_lim_ln. exact Hx. Qed.

Lemma c_ln : forall f p, continuous f p -> 0 < f p -> continuous (fun q => ln (f q)) p.
Proof. intros f p Hf H0. apply (c_comp f ln p Hf). apply continuity_ln_pos. exact H0. Qed.

Lemma c_exp : forall f p, continuous f p -> continuous (fun q => exp (f q)) p.
Proof. intros f p Hf. apply (c_comp f exp p Hf). apply derivable_continuous_pt, derivable_pt_exp. Qed.

Lemma c_Rpower : forall f a p, continuous f p -> 0 < f p -> continuous (fun q => Rpower (f q) a) p.
Proof.
  intros f a p Hf H0. unfold Rpower. apply c_exp. apply c_mult; [apply c_const|apply c_ln; assumption].
Qed.

Lemma c_atan : forall f p, continuous f p -> continuous (fun q => atan (f q)) p.
Proof. intros f p Hf. apply (c_comp f atan p Hf). apply derivable_continuous_pt, derivable_pt_atan. Qed.

Lemma c_atan2 : forall f g p, continuous f p -> continuous g p -> (f p <> 0 \/ 0 < g p) ->
  continuous (fun q => atan2 (f q) (g q)) p.
Proof.
  intros f g p Hf Hg H.
  destruct (Rlt_dec 0 (g p)) as [Hx|Hx].
  - apply (continuous_ext_loc _ (fun q => atan (f q / g q))).
    + assert (L : locally p (fun q => 0 < g q)) by (apply (Hg (fun t => 0 < t)); apply (open_gt 0); exact Hx).
      revert L. apply filter_imp. intros q Hq. symmetry. apply atan2_pos. exact Hq.
    + apply c_atan, c_div; [exact Hf|exact Hg|lra].
  - assert (Hy : f p <> 0) by (destruct H; [assumption|contradiction]).
    destruct (Rlt_dec 0 (f p)) as [Hp|Hp].
    + apply (continuous_ext_loc _ (fun q => PI / 2 - atan (g q / f q))).
      * assert (L : locally p (fun q => 0 < f q)) by (apply (Hf (fun t => 0 < t)); apply (open_gt 0); exact Hp).
        revert L. apply filter_imp. intros q Hq. symmetry. apply atan2_ypos. exact Hq.
      * apply c_minus; [apply c_const|]. apply c_atan, c_div; assumption.
    + apply (continuous_ext_loc _ (fun q => - (PI / 2) - atan (g q / f q))).
      * assert (Hn : f p < 0) by lra.
        assert (L : locally p (fun q => f q < 0)) by (apply (Hf (fun t => t < 0)); apply (open_lt 0); exact Hn).
        revert L. apply filter_imp. intros q Hq. symmetry. apply atan2_yneg. exact Hq.
      * apply c_minus; [apply c_const|]. apply c_atan, c_div; assumption.
Qed.

Lemma c_clip_low : forall eps f p, continuous f p -> continuous (fun q => clip_low eps (f q)) p.
Proof.
  intros eps f p Hf. apply (c_comp f (clip_low eps) p Hf). apply continuity_pt_locally. intros d.
  exists d. intros t Ht. change (Rabs (t - f p) < d) in Ht.
  unfold clip_low. destruct (Rlt_dec t eps); destruct (Rlt_dec (f p) eps);
    unfold Rabs in *; repeat destruct (Rcase_abs _); pose proof (cond_pos d); lra.
Qed.

End Calculus.

(** ** The tensor *)

Lemma plane_cont : forall f, plane_continuous f <-> forall x y, continuous (fun z : R * R => f (fst z) (snd z)) (x, y).
Proof.
  intros f. split; intros H x y; [apply (proj1 (continuity_2d_pt_filterlim f x y)), H
                                 |apply (proj2 (continuity_2d_pt_filterlim f x y)), H].
Qed.

Section Tensor.
Variables (k1 : R) (b : R * R -> R) (E : R * R -> R) (x y : R).
Hypothesis Hk : k1 <> 0.
Hypothesis Hb : continuous b (x, y).
Hypothesis HE : continuous E (x, y).

Let c2 : continuous (fun z : R * R => fst z) (x, y) := continuous_fst x y.
Let c3 : continuous (fun z : R * R => snd z) (x, y) := continuous_snd x y.

Lemma c_k30 : continuous (fun z => k30_of (b z) k1 (snd z)) (x, y).
Proof. unfold k30_of. apply c_plus; [exact c3|]. apply c_mult; [exact Hb|apply c_const]. Qed.

Lemma c_s : continuous (fun z : R * R => s_of k1 (fst z)) (x, y).
Proof. unfold s_of. apply c_plus; [apply c_const|apply c_pow, c2]. Qed.

Lemma c_kk : continuous (fun z : R * R => kk_of k1 (fst z) (snd z)) (x, y).
Proof. unfold kk_of. apply c_plus; [apply c_plus; [apply c_const|apply c_pow, c2]|apply c_pow, c3]. Qed.

Lemma c_kk0 : continuous (fun z => kk0_of (b z) k1 (fst z) (snd z)) (x, y).
Proof. unfold kk0_of. apply c_plus; [apply c_plus; [apply c_const|apply c_pow, c2]|apply c_pow, c_k30]. Qed.

Ltac cs := repeat first [ exact c2 | exact c3 | exact Hb | exact HE | exact c_k30 | exact c_s | exact c_kk | exact c_kk0
  | apply c_const | apply c_pow | apply c_opp | apply c_mult | apply c_plus | apply c_minus ].

Lemma c_C1 : continuous (fun z => fit_C1 (b z) k1 (fst z) (snd z)) (x, y).
Proof.
  unfold fit_C1. cbv zeta. apply c_div.
  - cs.
  - cs.
  - cbn [fst snd]. apply Rmult_integral_contrapositive_currified; apply Rgt_not_eq; [apply kk_pos|apply s_pos]; exact Hk.
Qed.

Lemma c_C2 : continuous (fun z => fit_C2 (b z) k1 (fst z) (snd z)) (x, y).
Proof.
  unfold fit_C2. cbv zeta. pose proof (s_pos k1 x Hk) as Hs. apply c_mult.
  - apply c_div.
    + cs.
    + apply c_sqrt; [cs|]. cbn [fst]. left. apply pow_lt; exact Hs.
    + cbn [fst]. apply Rgt_not_eq, sqrt_lt_R0, pow_lt. exact Hs.
  - apply c_atan2.
    + apply c_mult; [cs|]. apply c_sqrt; [exact c_s|]. cbn [fst]. lra.
    + cs.
    + cbn [fst snd]. destruct (Req_dec (b (x, y)) 0) as [E0|E0].
      * right. rewrite E0. pose proof (kk0_pos 0 k1 x y Hk). lra.
      * left. apply Rmult_integral_contrapositive_currified.
        -- apply Rmult_integral_contrapositive_currified; assumption.
        -- apply Rgt_not_eq, sqrt_lt_R0. exact Hs.
Qed.

Lemma c_z1 : continuous (fun z => fit_zeta1 (b z) k1 (fst z) (snd z)) (x, y).
Proof.
  unfold fit_zeta1. apply c_minus; [exact c_C1|]. apply c_mult; [|exact c_C2].
  apply c_div; [exact c2|apply c_const|exact Hk].
Qed.

Lemma c_z2 : continuous (fun z => fit_zeta2 (b z) k1 (fst z) (snd z)) (x, y).
Proof.
  unfold fit_zeta2. apply c_plus; [|exact c_C2].
  apply c_div; [apply c_mult; [exact c_C1|exact c2]|apply c_const|exact Hk].
Qed.

Ltac cz := repeat first [ exact c_z1 | exact c_z2 | exact c2 | exact c3 | exact Hb | exact HE | exact c_k30 | exact c_s | exact c_kk | exact c_kk0
  | apply c_const | apply c_pow | apply c_opp | apply c_mult | apply c_plus | apply c_minus ].

Lemma four_pi : 4 * PI <> 0.
Proof. pose proof PI_RGT_0. lra. Qed.

Lemma kk0_sq : kk0_of (b (x, y)) k1 x y ^ 2 <> 0.
Proof. apply pow_nonzero, Rgt_not_eq, kk0_pos, Hk. Qed.

Lemma kk_sq : kk_of k1 x y ^ 2 <> 0.
Proof. apply pow_nonzero, Rgt_not_eq, kk_pos, Hk. Qed.

Lemma kkkk0 : kk_of k1 x y * kk0_of (b (x, y)) k1 x y <> 0.
Proof. apply Rmult_integral_contrapositive_currified; apply Rgt_not_eq; [apply kk_pos|apply kk0_pos]; exact Hk. Qed.

Lemma c_raw : forall sel, selector sel ->
  continuous (fun z => sel (power_spectra_raw (E z) (b z) k1 (fst z) (snd z))) (x, y).
Proof.
  assert (HE4 : continuous (fun z => E z / (4 * PI)) (x, y)) by (apply c_div; [exact HE|apply c_const|exact four_pi]).
  intros sel [->|[->|[->|[->|[->| ->]]]]]; cbn [power_spectra_raw phi11 phi22 phi33 phi13 phi23 phi12];
    (apply c_mult; [apply c_div; [exact HE4| |]|cz]); cbn [fst snd];
    first [exact kk0_sq | exact kk_sq | exact kkkk0 | cz].
Qed.

End Tensor.

Lemma c_energy : forall spec M L k1 b x y, k1 <> 0 -> 0 < L -> continuous b (x, y) ->
  (forall t, 0 < t -> continuity_pt spec t) ->
  continuous (fun z : R * R => forward_energy spec M L (b z) k1 (fst z) (snd z)) (x, y).
Proof.
  intros spec M L k1 b x y Hk HL Hb Hs. unfold forward_energy. cbv zeta.
  apply c_mult; [apply c_const|].
  apply (c_comp (fun z : R * R => L * sqrt (kk0_of (b z) k1 (fst z) (snd z))) spec).
  - apply c_mult; [apply c_const|]. apply c_sqrt; [apply c_kk0; exact Hb|]. apply kk0_nonneg.
  - apply Hs. cbn [fst snd]. apply Rmult_lt_0_compat; [exact HL|]. apply sqrt_lt_R0, kk0_pos, Hk.
Qed.

Lemma undelivered_continuous : forall sel e k1, selector sel -> k1 <> 0 -> smooth_model e k1 ->
  plane_continuous (fun k2 k3 => undelivered sel e k1 k2 k3).
Proof.
  intros sel e k1 Hsel Hk [HL [Hs Hb]]. apply plane_cont. intros x y.
  pose proof (proj1 (plane_cont _) Hb x y) as Hbc. cbv beta in Hbc.
  unfold undelivered. cbv zeta.
  apply (c_raw k1 (fun z => oe_beta e k1 (fst z) (snd z))
           (fun z => forward_energy (oe_spec e) (oe_M e) (oe_L e) (oe_beta e k1 (fst z) (snd z)) k1 (fst z) (snd z)) x y Hk Hbc).
  - apply (c_energy (oe_spec e) (oe_M e) (oe_L e) k1 (fun z => oe_beta e k1 (fst z) (snd z)) x y Hk HL Hbc Hs).
  - exact Hsel.
Qed.

Lemma raw_converges : forall sel e p2 k1, selector sel -> k1 <> 0 -> smooth_model e k1 ->
  box_integrable (fun k2 k3 => undelivered sel e k1 k2 k3) (Rpower 10 p2) /\
  refines_to (fun p1 N => ops_forward_raw sel e p1 p2 N k1)
             (k1 * box_integral (fun k2 k3 => undelivered sel e k1 k2 k3) (Rpower 10 p2)).
Proof.
  intros sel e p2 k1 Hsel Hk Hm. pose proof (undelivered_continuous sel e k1 Hsel Hk Hm) as Hc. split.
  - apply box_ex; [left; apply Rpower10_pos|exact Hc].
  - unfold ops_forward_raw. cbv zeta. apply refines_scal. apply quad_converges. exact Hc.
Qed.

Lemma clipped_continuous : forall sel eps e k1, low_clipped sel -> k1 <> 0 -> smooth_model e k1 ->
  plane_continuous (fun k2 k3 => clip_low eps (undelivered sel e k1 k2 k3)).
Proof.
  intros sel eps e k1 Hsel Hk Hm.
  assert (Hs : selector sel) by (destruct Hsel as [->|[->|[->|[->| ->]]]]; unfold selector; tauto).
  apply plane_cont. intros x y. apply c_clip_low.
  apply (proj1 (plane_cont _) (undelivered_continuous sel e k1 Hs Hk Hm)).
Qed.

Lemma delivered_clip : forall sel e k1 k2 k3, low_clipped sel ->
  delivered sel e k1 k2 k3 = clip_low eps_ops (undelivered sel e k1 k2 k3).
Proof. intros sel e k1 k2 k3 [->|[->|[->|[->| ->]]]]; reflexivity. Qed.

Lemma coh_entry_clip : forall sel e k1 k2 k3, low_clipped sel ->
  coh_entry sel e k1 k2 k3 = clip_low eps_coh (undelivered sel e k1 k2 k3).
Proof. intros sel e k1 k2 k3 [->|[->|[->|[->| ->]]]]; reflexivity. Qed.

Lemma clip_low_max : forall eps x, clip_low eps x = Rmax x eps.
Proof. intros eps x. unfold clip_low, Rmax. destruct (Rlt_dec x eps); destruct (Rle_dec x eps); lra. Qed.

Lemma box_ext : forall f g B, (forall x y, f x y = g x y) -> box_integral f B = box_integral g B.
Proof. intros f g B H. unfold box_integral. apply RInt_ext. intros x _. apply RInt_ext. intros y _. apply H. Qed.

Lemma output_converges : forall sel e p2 k1, low_clipped sel -> k1 <> 0 -> smooth_model e k1 ->
  refines_to (fun p1 N => ops_forward sel e p1 p2 N k1)
             (k1 * box_integral (fun k2 k3 => Rmax (undelivered sel e k1 k2 k3) eps_ops) (Rpower 10 p2)).
Proof.
  intros sel e p2 k1 Hsel Hk Hm. unfold ops_forward. cbv zeta. apply refines_scal.
  intros eps He.
  destruct (quad_converges _ p2 (clipped_continuous sel eps_ops e k1 Hsel Hk Hm) eps He) as [P HP].
  exists P. intros p1 Hp. destruct (HP p1 Hp) as [N0 HN]. exists N0. intros N HNN. specialize (HN N HNN). cbv zeta in HN.
  rewrite (quad23_ext _ _ _ (fun k2 k3 => clip_low eps_ops (undelivered sel e k1 k2 k3)))
    by (intros; apply delivered_clip; exact Hsel).
  rewrite (box_ext _ (fun k2 k3 => clip_low eps_ops (undelivered sel e k1 k2 k3)))
    by (intros; symmetry; apply clip_low_max). exact HN.
Qed.

Lemma output_near : forall sel e p2 k1, (auto sel \/ sel = phi13) -> 0 < k1 -> smooth_model e k1 -> sensible e ->
  forall eps, 0 < eps -> exists P, forall p1, p1 <= P -> exists N0, forall N, (N0 <= N)%nat ->
  Rabs (ops_forward sel e p1 p2 N k1 - k1 * box_integral (fun k2 k3 => undelivered sel e k1 k2 k3) (Rpower 10 p2))
  <= eps + k1 * (eps_ops * (2 * Rpower 10 p2)^2).
Proof.
  intros sel e p2 k1 Hsel Hk Hm [Hs1 [Hs2 Hs3]] eps He.
  assert (Hs : selector sel) by (unfold selector, auto in *; tauto).
  destruct (raw_converges sel e p2 k1 Hs ltac:(lra) Hm) as [_ HR].
  destruct (HR eps He) as [P HP]. exists (Rmin P (p2 - 1)). intros p1 Hp.
  destruct (HP p1 ltac:(eapply Rle_trans; [exact Hp|apply Rmin_l])) as [N0 HN].
  assert (Hlt : p1 < p2) by (assert (p1 <= p2 - 1) by (eapply Rle_trans; [exact Hp|apply Rmin_r]); lra).
  exists (Nat.max N0 2). intros N HNN. specialize (HN N ltac:(lia)).
  pose proof (forward_clip_error sel e p1 p2 N k1 Hsel Hk Hlt ltac:(lia) Hs1 Hs2 Hs3) as HC.
  set (a := ops_forward sel e p1 p2 N k1) in *. set (r := ops_forward_raw sel e p1 p2 N k1) in *.
  set (I := k1 * box_integral (fun k2 k3 => undelivered sel e k1 k2 k3) (Rpower 10 p2)) in *.
  replace (a - I) with ((a - r) + (r - I)) by ring.
  eapply Rle_trans; [apply Rabs_triang|]. lra.
Qed.

(** ** The lifetimes *)

Lemma c_kL : forall L k1 x y, continuous (fun z : R * R => L * sqrt (kk_of k1 (fst z) (snd z))) (x, y).
Proof. intros L k1 x y. apply c_mult; [apply c_const|]. apply c_sqrt; [apply c_kk|apply kk_nonneg]. Qed.

Lemma kL_pos : forall L k1 x y, 0 < L -> k1 <> 0 -> 0 < L * sqrt (kk_of k1 x y).
Proof. intros L k1 x y HL Hk. apply Rmult_lt_0_compat; [exact HL|]. apply sqrt_lt_R0, kk_pos, Hk. Qed.

Lemma lifetime_continuous : forall env k1 (beta : R -> R -> R), le_type env <> TAUNET -> 0 < le_L env -> k1 <> 0 ->
  (le_type env = MANN -> forall t, t < 0 -> continuity_pt (le_hyp env) t /\ 0 < le_hyp env t) ->
  (forall k2 k3, eddy_lifetime env k1 k2 k3 = Ok (beta k2 k3)) ->
  plane_continuous beta.
Proof.
  intros env k1 beta Ht HL Hk Hh Hb. apply plane_cont. intros x y.
  pose proof (c_kL (le_L env) k1 x y) as Hc. pose proof (kL_pos (le_L env) k1 x y HL Hk) as Hp.
  unfold eddy_lifetime in Hb. cbv zeta in Hb.
  destruct (le_type env) eqn:Et; cbn [bind] in Hb.
  - apply (continuous_ext (fun z : R * R => le_T env * Rpower (le_L env * sqrt (kk_of k1 (fst z) (snd z))) (-2/3))).
    + intros z. specialize (Hb (fst z) (snd z)). injection Hb as Hb. exact Hb.
    + apply c_mult; [apply c_const|]. apply c_Rpower; [exact Hc|exact Hp].
  - contradiction.
  - apply (continuous_ext (fun z : R * R => le_T env * mann_lifetime (le_hyp env) (le_L env * sqrt (kk_of k1 (fst z) (snd z))))).
    + intros z. specialize (Hb (fst z) (snd z)). injection Hb as Hb. exact Hb.
    + apply c_mult; [apply c_const|]. unfold mann_lifetime.
      assert (Hn : - Rpower (le_L env * sqrt (kk_of k1 x y)) (-2) < 0)
        by (apply Ropp_lt_gt_0_contravar, exp_pos).
      destruct (Hh eq_refl _ Hn) as [H1 H2].
      apply c_div; [apply c_Rpower; [exact Hc|exact Hp]| |].
      * apply c_sqrt; [|cbn [fst snd]; lra].
        apply (c_comp (fun z : R * R => - Rpower (le_L env * sqrt (kk_of k1 (fst z) (snd z))) (-2)) (le_hyp env)); [|exact H1].
        apply c_opp. apply c_Rpower; [exact Hc|exact Hp].
      * cbn [fst snd]. apply Rgt_not_eq, sqrt_lt_R0. exact H2.
  - apply (continuous_ext (fun z : R * R => le_T env * mann_linear_approx (le_L env * sqrt (kk_of k1 (fst z) (snd z))) (le_coef env) (le_icpt env))).
    + intros z. specialize (Hb (fst z) (snd z)). injection Hb as Hb. exact Hb.
    + apply c_mult; [apply c_const|]. unfold mann_linear_approx. apply c_exp.
      apply c_plus; [|apply c_const]. apply c_mult; [apply c_const|]. apply c_ln; [exact Hc|exact Hp].
  - apply (continuous_ext (fun _ : R * R => le_T env * 1)).
    + intros z. specialize (Hb (fst z) (snd z)). injection Hb as Hb. exact Hb.
    + apply c_const.
Qed.

Lemma energy_continuous : forall p q x, 0 < x -> continuity_pt vklike_energy x /\ continuity_pt (learnable_energy p q) x.
Proof.
  intros p q x Hx.
  assert (Hi : continuous (fun t : R => t) x) by apply continuous_id.
  assert (H1 : 0 < 1 + x^2) by nra.
  assert (Hq : continuous (fun t => 1 + t^2) x) by (apply c_plus; [apply c_const|apply c_pow, Hi]).
  split; apply continuity_pt_filterlim.
  - change (continuous (fun t : R => Rpower t (-5/3) * Rpower (t / sqrt (1 + t^2)) (17/3)) x).
    apply c_mult; [apply c_Rpower; [exact Hi|exact Hx]|].
    apply c_Rpower.
    + apply c_div; [exact Hi|apply c_sqrt; [exact Hq|lra]|apply Rgt_not_eq, sqrt_lt_R0, H1].
    + apply Rdiv_lt_0_compat; [exact Hx|apply sqrt_lt_R0, H1].
  - change (continuous (fun t : R => Rpower t p / Rpower (1 + t^2) q) x). apply c_div.
    + apply c_Rpower; [exact Hi|exact Hx].
    + apply c_Rpower; [exact Hq|exact H1].
    + apply Rgt_not_eq, exp_pos.
Qed.

(** ** Coherence *)

Definition coh_weight (sel : tensor6 -> R) (e : ops_env) (k1 k2 k3 : R) : R :=
  Rmax (undelivered sel e k1 k2 k3) eps_coh.

Lemma weight_continuous : forall sel e k1, low_clipped sel -> k1 <> 0 -> smooth_model e k1 ->
  plane_continuous (fun k2 k3 => coh_weight sel e k1 k2 k3).
Proof.
  intros sel e k1 Hsel Hk Hm.
  pose proof (clipped_continuous sel eps_coh e k1 Hsel Hk Hm) as H. apply plane_cont. intros x y.
  apply (continuous_ext (fun z : R * R => clip_low eps_coh (undelivered sel e k1 (fst z) (snd z)))).
  - intros z. apply clip_low_max.
  - apply (proj1 (plane_cont _) H).
Qed.

Lemma weighted_continuous : forall sel e k1 (w : R -> R), low_clipped sel -> k1 <> 0 -> smooth_model e k1 ->
  (forall t, continuity_pt w t) ->
  plane_continuous (fun k2 k3 => coh_weight sel e k1 k2 k3 * w k2).
Proof.
  intros sel e k1 w Hsel Hk Hm Hw.
  pose proof (weight_continuous sel e k1 Hsel Hk Hm) as H. apply plane_cont. intros x y.
  apply c_mult; [apply (proj1 (plane_cont _) H)|].
  apply (c_comp (fun z : R * R => fst z) w); [apply continuous_fst|apply Hw].
Qed.

Lemma cos_mul_cont : forall r t, continuity_pt (fun k => cos (k * r)) t.
Proof.
  intros r t. apply (continuity_pt_comp (fun k => k * r) cos); [|apply continuity_cos].
  apply continuity_pt_mult; [apply continuity_pt_id|apply continuity_pt_const; intros a b; reflexivity].
Qed.

Lemma sin_mul_cont : forall r t, continuity_pt (fun k => sin (k * r)) t.
Proof.
  intros r t. apply (continuity_pt_comp (fun k => k * r) sin); [|apply continuity_sin].
  apply continuity_pt_mult; [apply continuity_pt_id|apply continuity_pt_const; intros a b; reflexivity].
Qed.

Lemma Cmod_sq : forall z : C, Cmod z ^ 2 = fst z ^ 2 + snd z ^ 2.
Proof. intros z. unfold Cmod. rewrite pow2_sqrt; [reflexivity|]. nra. Qed.

Lemma coherence_parts : forall g sel e k1 r, low_clipped sel ->
  coherence_on g sel e k1 r
  = (quad23 g g (fun k2 k3 => coh_weight sel e k1 k2 k3 * cos (k2 * r)) ^ 2
     + quad23 g g (fun k2 k3 => coh_weight sel e k1 k2 k3 * sin (k2 * r)) ^ 2)
    / quad23 g g (fun k2 k3 => coh_weight sel e k1 k2 k3) ^ 2.
Proof.
  intros g sel e k1 r Hsel. unfold coherence_on. cbv zeta.
  rewrite Cmod_sq, quad23C_re, quad23C_im, pow2_abs.
  assert (W : forall k2 k3, coh_entry sel e k1 k2 k3 = coh_weight sel e k1 k2 k3)
    by (intros; unfold coh_weight; rewrite coh_entry_clip by exact Hsel; apply clip_low_max).
  rewrite (quad23_ext g g (fun k2 k3 => fst (Cmult (RtoC (coh_entry sel e k1 k2 k3)) (phase k2 r)))
             (fun k2 k3 => coh_weight sel e k1 k2 k3 * cos (k2 * r))) by (intros k2 k3 _ _; cbn; rewrite W; ring).
  rewrite (quad23_ext g g (fun k2 k3 => snd (Cmult (RtoC (coh_entry sel e k1 k2 k3)) (phase k2 r)))
             (fun k2 k3 => coh_weight sel e k1 k2 k3 * sin (k2 * r))) by (intros k2 k3 _ _; cbn; rewrite W; ring).
  rewrite (quad23_ext g g (fun k2 k3 => coh_entry sel e k1 k2 k3)
             (fun k2 k3 => coh_weight sel e k1 k2 k3)) by (intros k2 k3 _ _; apply W).
  reflexivity.
Qed.

Lemma RInt_lower : forall f a b m, a <= b -> ex_RInt f a b -> (forall x, a < x < b -> m <= f x) -> m * (b - a) <= RInt f a b.
Proof.
  intros f a b m Hab He H.
  replace (m * (b - a)) with (RInt (fun _ => m) a b).
  - apply RInt_le; [exact Hab|apply ex_RInt_const|exact He|exact H].
  - rewrite RInt_const. unfold scal; cbn; unfold mult; cbn. ring.
Qed.

Lemma box_lower : forall f B m, 0 <= B -> plane_continuous f -> (forall x y, m <= f x y) ->
  m * (2 * B) ^ 2 <= box_integral f B.
Proof.
  intros f B m HB Hf H. destruct (box_ex f B HB Hf) as [H1 H2].
  replace (m * (2 * B)^2) with ((m * (B - - B)) * (B - - B)) by ring.
  unfold box_integral. apply RInt_lower; [lra|exact H2|].
  intros x Hx. apply RInt_lower; [lra|apply H1; lra|]. intros y _. apply H.
Qed.

Lemma weight_box_pos : forall sel e k1 B, low_clipped sel -> k1 <> 0 -> smooth_model e k1 -> 0 < B ->
  0 < box_integral (fun k2 k3 => coh_weight sel e k1 k2 k3) B.
Proof.
  intros sel e k1 B Hsel Hk Hm HB.
  eapply Rlt_le_trans; [|apply (box_lower _ B eps_coh); [lra|apply weight_continuous; assumption|]].
  - apply Rmult_lt_0_compat; [apply eps_coh_pos|]. apply pow_lt. lra.
  - intros x y. apply Rmax_r.
Qed.

Lemma coherence_converges : forall sel e L p2 k1 r, low_clipped sel -> k1 <> 0 -> 0 < L -> smooth_model e k1 ->
  refines_to (fun p1 N => coherence_on (map (fun x => x / L) (sym_grid p1 p2 N)) sel e k1 r)
    ((box_integral (fun k2 k3 => coh_weight sel e k1 k2 k3 * cos (k2 * r)) (Rpower 10 p2 / L) ^ 2
      + box_integral (fun k2 k3 => coh_weight sel e k1 k2 k3 * sin (k2 * r)) (Rpower 10 p2 / L) ^ 2)
     / box_integral (fun k2 k3 => coh_weight sel e k1 k2 k3) (Rpower 10 p2 / L) ^ 2).
Proof.
  intros sel e L p2 k1 r Hsel Hk HL Hm.
  assert (HB : 0 < Rpower 10 p2 / L) by (apply Rdiv_lt_0_compat; [apply Rpower10_pos|exact HL]).
  pose proof (weight_box_pos sel e k1 _ Hsel Hk Hm HB) as HS.
  pose proof (quad_converges_scaled _ p2 L HL (weight_continuous sel e k1 Hsel Hk Hm)) as Q0.
  pose proof (quad_converges_scaled _ p2 L HL (weighted_continuous sel e k1 _ Hsel Hk Hm (cos_mul_cont r))) as Qc.
  pose proof (quad_converges_scaled _ p2 L HL (weighted_continuous sel e k1 _ Hsel Hk Hm (sin_mul_cont r))) as Qs.
  set (S0 := box_integral (fun k2 k3 => coh_weight sel e k1 k2 k3) (Rpower 10 p2 / L)) in *.
  set (Sc := box_integral (fun k2 k3 => coh_weight sel e k1 k2 k3 * cos (k2 * r)) (Rpower 10 p2 / L)) in *.
  set (Ss := box_integral (fun k2 k3 => coh_weight sel e k1 k2 k3 * sin (k2 * r)) (Rpower 10 p2 / L)) in *.
  assert (Cn : forall a b : R, continuity_2d_pt (fun u v => u ^ 2 + v ^ 2) a b).
  { intros a b. apply (proj2 (continuity_2d_pt_filterlim _ a b)). apply (@c_plus (prod_UniformSpace R_UniformSpace R_UniformSpace)).
    - apply c_pow, continuous_fst.
    - apply c_pow, continuous_snd. }
  assert (Cd : continuity_2d_pt (fun u v => u / v ^ 2) (Sc ^ 2 + Ss ^ 2) S0).
  { apply (proj2 (continuity_2d_pt_filterlim _ _ _)). apply (@c_div (prod_UniformSpace R_UniformSpace R_UniformSpace)).
    - apply continuous_fst.
    - apply c_pow, continuous_snd.
    - cbn [snd]. apply pow_nonzero. lra. }
  pose proof (refines_pair _ _ _ _ (fun u v => u / v ^ 2)
                (refines_pair _ _ _ _ (fun u v => u ^ 2 + v ^ 2) Qc Qs (Cn Sc Ss)) Q0 Cd) as Q.
  intros eps He. destruct (Q eps He) as [P HP]. exists P. intros p1 Hp. destruct (HP p1 Hp) as [N0 HN].
  exists N0. intros N HNN. specialize (HN N HNN). cbv zeta beta in HN.
  rewrite coherence_parts by exact Hsel. exact HN.
Qed.
