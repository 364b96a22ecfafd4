(** The clipping of the uw entry breaks continuity at vanishing shear; complete families. *)

From Coq Require Import Reals List Arith Lra Lia.
From Coquelicot Require Import Coquelicot.
From Verif Require LossModel LossSpec LossProofs OpsMore.
From Verif Require Import Prelude RdtModel SpectraModel OpsModel RdtProofs SpectraProofs OpsSpec OpsProofs QuadSpec QuadProofs QuadTensor QuadMore SpectraSpec AsySpec AsyProofs AsyMore AsyFinal SensSpec SensProofs.
Import ListNotations.
Open Scope R_scope.

Lemma T_pos : forall g f x, increasing g -> (2 <= length g)%nat -> (forall y, In y g -> 0 <= f y) -> In x g -> 0 < f x -> 0 < T g f.
Proof.
  induction g as [|a g IH]; intros f x HG Hl Hf Hx Hp; [destruct Hx|]. destruct g as [|b g]; [cbn in Hl; lia|].
  rewrite T_cons2. assert (Hab : a < b) by (eapply increasing_head; exact HG). assert (HG' : increasing (b :: g)) by (eapply increasing_tail; exact HG).
  assert (N : 0 <= T (b :: g) f) by (apply T_nonneg; [exact HG'|intros y Hy; apply Hf; right; exact Hy]).
  assert (Ha : 0 <= f a) by (apply Hf; left; reflexivity). assert (Hb : 0 <= f b) by (apply Hf; right; left; reflexivity).
  assert (N1 : 0 <= (b - a) * (f a + f b) / 2) by (unfold Rdiv; apply Rmult_le_pos; [apply Rmult_le_pos; lra|lra]).
  assert (Q : 0 < f a + f b -> 0 < (b - a) * (f a + f b) / 2) by (intros Q; unfold Rdiv; apply Rmult_lt_0_compat; [apply Rmult_lt_0_compat; lra|lra]).
  destruct Hx as [<-|[<-|Hx]]; [assert (0 < (b - a) * (f a + f b) / 2) by (apply Q; lra); lra|assert (0 < (b - a) * (f a + f b) / 2) by (apply Q; lra); lra|].
  assert (0 < T (b :: g) f); [|lra]. apply (IH f x HG'); [destruct g; [destruct Hx|cbn; lia]|intros y Hy; apply Hf; right; exact Hy|right; exact Hx|exact Hp].
Qed.

Lemma quad_pos : forall g f x y, increasing g -> (2 <= length g)%nat -> (forall u v, In u g -> In v g -> 0 <= f u v) -> In x g -> In y g -> 0 < f x y -> 0 < quad23 g g f.
Proof.
  intros g f x y HG Hl Hf Hx Hy Hp. rewrite quad23_T. apply (T_pos g _ x HG Hl); [intros u Hu; apply T_nonneg; [exact HG|intros v Hv; apply Hf; assumption]|exact Hx|].
  apply (T_pos g _ y HG Hl); [intros v Hv; apply Hf; assumption|exact Hy|exact Hp].
Qed.

Lemma clip_signed_cont : forall (U : UniformSpace) (f : U -> R) eps p, f p <> 0 -> continuous f p -> continuous (fun q => clip_signed eps (f q)) p.
Proof.
  intros U f eps p H0 Hf. apply (c_comp f (clip_signed eps) p Hf). destruct (Rtotal_order (f p) 0) as [Hn|[Hz|Hp]]; [|contradiction|].
  - apply (continuity_pt_ext_loc (fun t => Rmin t (- eps))).
    + assert (Hd : 0 < - f p) by lra. exists (mkposreal _ Hd). intros t Ht. change (Rabs (t - f p) < - f p) in Ht. assert (t < 0) by (apply Rabs_def2 in Ht; lra).
      unfold clip_signed, Rsign. rewrite Rabs_left by assumption. destruct (Rlt_dec (- t) eps); [destruct (Rlt_dec 0 t); [lra|]; destruct (Rlt_dec t 0); [|lra]; rewrite Rmin_right by lra; lra|rewrite Rmin_left by lra; reflexivity].
    + apply continuity_pt_locally. intros d. exists d. intros t Ht. change (Rabs (t - f p) < d) in Ht. unfold Rmin. repeat destruct (Rle_dec _ _); unfold Rabs in *; repeat destruct (Rcase_abs _); pose proof (cond_pos d); lra.
  - apply (continuity_pt_ext_loc (fun t => Rmax t eps)).
    + exists (mkposreal _ Hp). intros t Ht. change (Rabs (t - f p) < f p) in Ht. assert (0 < t) by (apply Rabs_def2 in Ht; lra).
      unfold clip_signed, Rsign. rewrite (Rabs_right t) by lra. destruct (Rlt_dec t eps); [destruct (Rlt_dec 0 t); [|lra]; rewrite Rmax_right by lra; lra|rewrite Rmax_left by lra; reflexivity].
    + apply continuity_pt_locally. intros d. exists d. intros t Ht. change (Rabs (t - f p) < d) in Ht. unfold Rmax. repeat destruct (Rle_dec _ _); unfold Rabs in *; repeat destruct (Rcase_abs _); pose proof (cond_pos d); lra.
Qed.

(** The bracket of the uw entry on the plane k3 = 0 and without shear. *)
Lemma uw_bracket_plane : forall b k1 k2, k1 <> 0 ->
  - k1 * k30_of b k1 0 + (k1^2 + k2^2) * fit_zeta1 b k1 k2 0
  = - (k2^2 / k1) * (s_of k1 k2 * kk0_of b k1 k2 0 / sqrt (s_of k1 k2 ^ 3)) * atan2 (b * k1 * sqrt (s_of k1 k2)) (s_of k1 k2).
Proof.
  intros b k1 k2 Hk. pose proof (s_pos k1 k2 Hk) as Hs. assert (Hs3 : sqrt (s_of k1 k2 ^ 3) <> 0) by (apply Rgt_not_eq, sqrt_lt_R0, pow_lt; exact Hs).
  unfold fit_zeta1, fit_C1, fit_C2. cbv zeta.
  replace (kk0_of b k1 k2 0 - k30_of b k1 0 * k1 * b) with (s_of k1 k2) by (unfold kk0_of, k30_of, s_of; ring).
  replace (b * k1^2 * (kk0_of b k1 k2 0 - 2 * k30_of b k1 0 ^ 2 + b * k1 * k30_of b k1 0) / (kk_of k1 k2 0 * s_of k1 k2)) with (b * k1^2 / s_of k1 k2).
  - set (A := atan2 _ _). set (D := sqrt (s_of k1 k2 ^ 3)) in *. set (K := kk0_of b k1 k2 0). unfold k30_of. unfold s_of in *. field. repeat split; [exact Hs3|exact Hk|lra].
  - replace (kk_of k1 k2 0) with (s_of k1 k2) by (unfold kk_of, s_of; ring). replace (kk0_of b k1 k2 0 - 2 * k30_of b k1 0 ^ 2 + b * k1 * k30_of b k1 0) with (s_of k1 k2) by (unfold kk0_of, k30_of, s_of; ring). field. lra.
Qed.

Lemma uw_bracket_still : forall k1 k2 k3, k1 <> 0 -> - k1 * k30_of 0 k1 k3 + (k1^2 + k2^2) * fit_zeta1 0 k1 k2 k3 = - k1 * k3.
Proof.
  intros k1 k2 k3 Hk. unfold fit_zeta1, fit_C1, fit_C2. cbv zeta. rewrite !Rmult_0_l, Rmult_0_r, Rminus_0_r, atan2_0_pos by (apply kk0_pos; exact Hk). unfold k30_of, Rdiv. ring.
Qed.

Section Uw.
Variables (L M : R) (spec : R -> R) (tau : R -> R -> R -> R).
Hypothesis HL : 0 < L.
Hypothesis HM : 0 < M.
Hypothesis HS : forall x, 0 < x -> 0 < spec x /\ continuity_pt spec x.
Hypothesis Ht : forall k1 k2 k3, k1 <> 0 -> 0 < tau k1 k2 k3.

Definition scaled (t : R) : ops_env := OpsEnv L M spec (fun k1 k2 k3 => t * tau k1 k2 k3).

Lemma scaled_steady : forall k1 t, steady scaled k1 t.
Proof.
  intros k1 t. unfold steady, scaled. cbn [oe_L oe_M oe_spec oe_beta]. split; [exact HL|]. split; [apply c_const|]. split; [apply c_const|]. split.
  - intros x Hx. apply (c_comp (fun z : R * R => snd z) spec (t, x)); [apply continuous_snd|apply HS; exact Hx].
  - intros k2 k3. apply c_mult; [apply continuous_id|apply c_const].
Qed.

Lemma front_pos : forall t k1 k2 k3, k1 <> 0 -> 0 < forward_energy spec M L t k1 k2 k3 / (4 * PI) / (kk_of k1 k2 k3 * kk0_of t k1 k2 k3).
Proof.
  intros t k1 k2 k3 Hk. pose proof PI_RGT_0. pose proof (kk0_pos t k1 k2 k3 Hk). pose proof (kk_pos k1 k2 k3 Hk). apply Rdiv_lt_0_compat; [|apply Rmult_lt_0_compat; assumption]. apply Rdiv_lt_0_compat; [|lra].
  unfold forward_energy. cbv zeta. apply Rmult_lt_0_compat; [apply Rmult_lt_0_compat; [exact HM|apply exp_pos]|]. apply HS. apply Rmult_lt_0_compat; [exact HL|apply sqrt_lt_R0; assumption].
Qed.

Lemma uw_still : forall k1 k2 k3, k1 <> 0 -> k3 <> 0 -> undelivered phi13 (scaled 0) k1 k2 k3 <> 0.
Proof.
  intros k1 k2 k3 Hk H3. unfold undelivered, scaled. cbn [oe_L oe_M oe_spec oe_beta power_spectra_raw phi13]. rewrite !Rmult_0_l. apply Rmult_integral_contrapositive_currified; [apply Rgt_not_eq, front_pos; exact Hk|].
  rewrite uw_bracket_still by exact Hk. apply Rmult_integral_contrapositive_currified; lra.
Qed.

Lemma uw_plane_zero : forall k1 k2, k1 <> 0 -> undelivered phi13 (scaled 0) k1 k2 0 = 0.
Proof.
  intros k1 k2 Hk. unfold undelivered, scaled. cbn [oe_L oe_M oe_spec oe_beta power_spectra_raw phi13]. rewrite !Rmult_0_l. rewrite uw_bracket_still by exact Hk. ring.
Qed.

Lemma uw_plane_neg : forall t k1 k2, 0 < k1 -> 0 < t -> (k2 <> 0 -> undelivered phi13 (scaled t) k1 k2 0 < 0) /\ undelivered phi13 (scaled t) k1 k2 0 <= 0.
Proof.
  intros t k1 k2 Hk Hp. assert (Hk' : k1 <> 0) by lra. unfold undelivered, scaled. cbn [oe_L oe_M oe_spec oe_beta power_spectra_raw phi13].
  set (b := t * tau k1 k2 0). assert (Hb : 0 < b) by (apply Rmult_lt_0_compat; [exact Hp|apply Ht; exact Hk']).
  rewrite uw_bracket_plane by exact Hk'. pose proof (front_pos b k1 k2 0 Hk') as F. set (F0 := _ / _ / _) in *.
  pose proof (s_pos k1 k2 Hk') as Hs. pose proof (kk0_pos b k1 k2 0 Hk') as H0.
  assert (G : 0 < s_of k1 k2 * kk0_of b k1 k2 0 / sqrt (s_of k1 k2 ^ 3)) by (apply Rdiv_lt_0_compat; [apply Rmult_lt_0_compat; assumption|apply sqrt_lt_R0, pow_lt; exact Hs]). set (G0 := _ / sqrt _) in *.
  assert (A : 0 < atan2 (b * k1 * sqrt (s_of k1 k2)) (s_of k1 k2)).
  { rewrite atan2_pos by exact Hs. rewrite <- atan_0. apply atan_increasing. apply Rdiv_lt_0_compat; [|exact Hs]. apply Rmult_lt_0_compat; [apply Rmult_lt_0_compat; assumption|apply sqrt_lt_R0; exact Hs]. } set (A0 := atan2 _ _) in *.
  replace (F0 * (- (k2^2 / k1) * G0 * A0)) with (- (F0 * (k2^2 / k1) * (G0 * A0))) by ring.
  assert (GA : 0 < G0 * A0) by (apply Rmult_lt_0_compat; assumption). split.
  - intros H2. assert (0 < k2^2) by (apply pow2_gt_0; exact H2). assert (0 < F0 * (k2^2 / k1) * (G0 * A0)); [|lra]. apply Rmult_lt_0_compat; [|exact GA]. apply Rmult_lt_0_compat; [exact F|]. apply Rdiv_lt_0_compat; assumption.
  - assert (0 <= k2^2) by apply pow2_ge_0. assert (0 <= F0 * (k2^2 / k1) * (G0 * A0)); [|lra]. apply Rmult_le_pos; [|lra]. apply Rmult_le_pos; [lra|]. unfold Rdiv. apply Rmult_le_pos; [assumption|]. left. apply Rinv_0_lt_compat. exact Hk.
Qed.

Lemma clip_signed_neg : forall eps u, 0 < eps -> (u < 0 -> clip_signed eps u <= - eps) /\ (u <= 0 -> clip_signed eps u <= 0).
Proof.
  intros eps u He. unfold clip_signed, Rsign. split; intros Hu; destruct (Rlt_dec (Rabs u) eps) as [H|H]; destruct (Rlt_dec 0 u); destruct (Rlt_dec u 0); try lra; rewrite Rabs_left in H by assumption; lra.
Qed.

Lemma eps_pos' : 0 < eps_ops.
Proof. unfold eps_ops. apply Rinv_0_lt_compat. lra. Qed.

Lemma uw_jump : forall p1 p2 N k1, 0 < k1 -> p1 < p2 -> (2 <= N)%nat -> ~ continuous (fun t => ops_forward phi13 (scaled t) p1 p2 N k1) 0.
Proof.
  intros p1 p2 N k1 Hk Hp HN HC. assert (Hk' : k1 <> 0) by lra. set (g := sym_grid p1 p2 N) in *. assert (HG : increasing g) by (apply sym_grid_sorted; exact Hp).
  assert (Hlen : (2 <= length g)%nat) by (unfold g; rewrite sym_grid_length; lia).
  set (del := fun t k2 k3 => delivered phi13 (scaled t) k1 k2 k3).
  assert (ED : forall t k2 k3, del t k2 k3 = clip_signed eps_ops (undelivered phi13 (scaled t) k1 k2 k3)) by reflexivity.
  set (W := fun t => quad23 g g (fun k2 k3 => if Req_EM_T k3 0 then 0 else del t k2 k3)).
  set (D := fun t => quad23 g g (fun k2 k3 => if Req_EM_T k3 0 then del t k2 k3 else 0)).
  assert (Split : forall t, D t = / k1 * ops_forward phi13 (scaled t) p1 p2 N k1 - W t).
  { intros t. unfold ops_forward. cbv zeta. fold g. rewrite <- Rmult_assoc, Rinv_l, Rmult_1_l by exact Hk'.
    replace (quad23 g g (fun k2 k3 => delivered phi13 (scaled t) k1 k2 k3) - W t) with (1 * quad23 g g (fun k2 k3 => del t k2 k3) + -1 * W t) by (unfold del; ring).
    unfold W, D. rewrite <- quad23_linear. apply quad23_ext. intros x y _ _. destruct (Req_EM_T y 0); ring. }
  assert (CWc : continuous W 0).
  { apply (quad_steady R_UniformSpace g g (fun t k2 k3 => if Req_EM_T k3 0 then 0 else del t k2 k3)). intros x y _ _. destruct (Req_EM_T y 0) as [E|E]; [apply c_const|].
    apply (continuous_ext (fun t => clip_signed eps_ops (undelivered phi13 (scaled t) k1 x y))); [reflexivity|].
    apply (clip_signed_cont R_UniformSpace (fun t => undelivered phi13 (scaled t) k1 x y)); [apply uw_still; assumption|]. apply (undelivered_steady R_UniformSpace scaled); [unfold selector; tauto|apply scaled_steady|exact Hk']. }
  assert (CD : continuous D 0). { apply (continuous_ext (fun t => / k1 * ops_forward phi13 (scaled t) p1 p2 N k1 - W t)); [intros t; symmetry; apply Split|]. apply c_minus; [apply c_mult; [apply c_const|exact HC]|exact CWc]. }
  assert (D0 : D 0 = 0).
  { unfold D. rewrite (quad23_ext _ _ _ (fun _ _ => 0)); [rewrite quad23_const; ring|]. intros x y _ _. destruct (Req_EM_T y 0) as [->|_]; [|reflexivity]. rewrite ED, uw_plane_zero by exact Hk'. unfold clip_signed, Rsign. destruct (Rlt_dec (Rabs 0) eps_ops); [|reflexivity]. destruct (Rlt_dec 0 0); lra. }
  set (B := Rpower 10 p2) in *. assert (PB : 0 < B) by apply exp_pos. assert (IB : In B g).
  { unfold B. rewrite <- (sym_grid_last p1 p2 N HN). fold g. unfold last_node. clearbody g. destruct (@exists_last R g) as [g' [z ->]]; [intros ->; cbn in Hlen; lia|]. rewrite last_last. apply in_or_app. right. left. reflexivity. }
  set (w := quad23 g g (fun k2 k3 => if Req_EM_T k3 0 then if Req_EM_T k2 B then eps_ops else 0 else 0)).
  pose proof eps_pos' as PE.
  assert (Pw : 0 < w).
  { unfold w. apply (quad_pos g _ B 0 HG Hlen); [intros u v _ _; destruct (Req_EM_T v 0); [|lra]; destruct (Req_EM_T u B); lra|exact IB|apply sym_grid_zero|]. destruct (Req_EM_T 0 0); [|lra]. destruct (Req_EM_T B B); [exact PE|lra]. }
  assert (Neg : forall t, 0 < t -> D t <= - w).
  { intros t Hpt. replace (- w) with (-1 * w) by ring. unfold w, D. rewrite <- quad23_scal. apply quad23_mono; [exact HG|exact HG|]. intros x y _ _. destruct (Req_EM_T y 0) as [->|_]; [|lra]. rewrite ED.
    destruct (uw_plane_neg t k1 x Hk Hpt) as [U1 U2]. destruct (clip_signed_neg eps_ops (undelivered phi13 (scaled t) k1 x 0) PE) as [V1 V2].
    destruct (Req_EM_T x B) as [->|_]; [assert (B <> 0) by lra; specialize (V1 (U1 H)); lra|specialize (V2 U2); lra]. }
  assert (LD : locally 0 (fun t => Rabs (D t - D 0) < w)). { apply (CD (fun v => Rabs (v - D 0) < w)). exists (mkposreal w Pw). intros v Hv. exact Hv. }
  destruct LD as [d Hd]. pose proof (cond_pos d) as Pd. assert (Hd2 := Hd (d / 2)). assert (BB : ball 0 d (d / 2)) by (change (Rabs (d / 2 - 0) < d); rewrite Rabs_right; lra).
  specialize (Hd2 BB). rewrite D0 in Hd2. specialize (Neg (d / 2)). assert (D (d / 2) <= - w) by (apply Neg; lra). apply Rabs_def2 in Hd2. lra.
Qed.

End Uw.

(** ** Complete families *)

Lemma drd_steady : forall (U : UniformSpace) WF acts (nu L T M a b : U -> R) hyp coef icpt (beta : U -> R -> R -> R -> R) p k1,
  0 < L p -> steady_weights WF p -> List.Forall (fun f => forall x, continuity_pt f x) acts ->
  continuous nu p -> continuous L p -> continuous T p -> continuous M p -> continuous a p -> continuous b p ->
  (forall k2 k3 v, mlp_forward (weights_at WF p) acts [Rabs (k1 * L p); Rabs (k2 * L p); Rabs (k3 * L p)] = Ok v -> nonzero_vector v) ->
  (forall q k2 k3, eddy_lifetime (LEnv TAUNET (L q) (T q) hyp coef icpt (taunet_forward (weights_at WF q) acts (nu q))) k1 k2 k3 = Ok (beta q k1 k2 k3)) ->
  steady (fun q => OpsEnv (L q) (M q) (learnable_energy (a q) (b q)) (beta q)) k1 p
  /\ steady (fun q => OpsEnv (L q) (M q) vklike_energy (beta q)) k1 p.
Proof.
  intros U WF acts nu L T M a b hyp coef icpt beta p k1 HL HW Ha Cn CL CT CM Ca Cb Hz HB.
  assert (CB : forall k2 k3, continuous (fun q => beta q k1 k2 k3) p).
  { intros k2 k3. apply (network_steady U WF acts nu L T hyp coef icpt p k1 k2 k3 (fun q => beta q k1 k2 k3) HW Ha Cn CL CT (Hz k2 k3)). intros q. apply HB. }
  split; (split; [exact HL|]; split; [exact CL|]; split; [exact CM|]; split; [|exact CB]); intros x Hx; apply (spectra_steady U a b p x Ca Cb Hx).
Qed.

Lemma mann_steady : forall (U : UniformSpace) ty (L T M coef icpt a b : U -> R) hyp net (beta : U -> R -> R -> R -> R) p k1,
  ty <> TAUNET -> 0 < L p -> k1 <> 0 -> continuous L p -> continuous T p -> continuous M p -> continuous coef p -> continuous icpt p -> continuous a p -> continuous b p ->
  (ty = MANN -> forall t, t < 0 -> continuity_pt hyp t /\ 0 < hyp t) ->
  (forall q k2 k3, eddy_lifetime (LEnv ty (L q) (T q) hyp (coef q) (icpt q) net) k1 k2 k3 = Ok (beta q k1 k2 k3)) ->
  steady (fun q => OpsEnv (L q) (M q) (learnable_energy (a q) (b q)) (beta q)) k1 p
  /\ steady (fun q => OpsEnv (L q) (M q) vklike_energy (beta q)) k1 p.
Proof.
  intros U ty L T M coef icpt a b hyp net beta p k1 Hty HL Hk CL CT CM CC CI Ca Cb Hh HB.
  assert (CB : forall k2 k3, continuous (fun q => beta q k1 k2 k3) p).
  { intros k2 k3. apply (lifetimes_steady U ty L T coef icpt hyp net p k1 k2 k3 (fun q => beta q k1 k2 k3) Hty HL Hk CL CT CC CI Hh). intros q. apply HB. }
  split; (split; [exact HL|]; split; [exact CL|]; split; [exact CM|]; split; [|exact CB]); intros x Hx; apply (spectra_steady U a b p x Ca Cb Hx).
Qed.

(** ** Misfit of the fits of three components *)

Lemma zip_steady : forall (U : UniformSpace) (m : list (U -> R)) t p, length m = length t -> (forall f, In f m -> continuous f p /\ f p <> 0) ->
  (forall v, In v t -> v <> 0) ->
  continuous (fun q => Rsum (LossModel.zip_with (fun a b => ln (Rabs a / Rabs b) * ln (Rabs a / Rabs b)) (map (fun f => f q) m) t)) p.
Proof.
  induction m as [|f m IH]; intros [|v t] p Hl Hm Htz; try discriminate; [apply c_const|].
  apply (continuous_ext (fun q => ln (Rabs (f q) / Rabs v) * ln (Rabs (f q) / Rabs v) + Rsum (LossModel.zip_with (fun a b => ln (Rabs a / Rabs b) * ln (Rabs a / Rabs b)) (map (fun f => f q) m) t))); [reflexivity|].
  destruct (Hm f (or_introl eq_refl)) as [Cf Nf]. assert (Nv : 0 < Rabs v) by (apply Rabs_pos_lt, Htz; left; reflexivity).
  assert (CL : continuous (fun q => ln (Rabs (f q) / Rabs v)) p).
  { apply c_ln; [|apply Rdiv_lt_0_compat; [apply Rabs_pos_lt; exact Nf|exact Nv]]. apply c_div; [apply (c_comp f Rabs); [exact Cf|apply abs_cont]|apply c_const|lra]. }
  apply c_plus; [apply c_mult; exact CL|]. apply IH; [cbn in Hl; lia|intros g Hg; apply Hm; right; exact Hg|intros w Hw; apply Htz; right; exact Hw].
Qed.

Lemma misfit_steady : forall (U : UniformSpace) (e : U -> ops_env) p p1 p2 N ks target, ks <> [] ->
  (forall k, In k ks -> 0 < k /\ steady e k p) -> p1 < p2 -> (2 <= N)%nat ->
  length target = (3 * length ks)%nat -> (forall v, In v target -> v <> 0) ->
  exists v : U -> R, continuous v p /\ forall q,
    LossModel.mse_term (concat (map (fun sel => map (fun k => ops_forward sel (e q) p1 p2 N k) ks) [phi11; phi22; phi33])) target = Ok (Fin (v q)).
Proof.
  intros U e p p1 p2 N ks target Hne Hks Hp HN Hlen Htz.
  set (m := flat_map (fun sel => map (fun k (q : U) => ops_forward sel (e q) p1 p2 N k) ks) [phi11; phi22; phi33]).
  assert (Em : forall q, concat (map (fun sel => map (fun k => ops_forward sel (e q) p1 p2 N k) ks) [phi11; phi22; phi33]) = map (fun f => f q) m).
  { intros q. unfold m. cbn [map concat flat_map]. rewrite !app_nil_r, !map_app, !map_map. reflexivity. }
  assert (Lm : length m = length target) by (unfold m; cbn [flat_map]; rewrite !app_length, !map_length; cbn; lia).
  assert (Hm : forall f, In f m -> exists sel k, auto sel /\ In k ks /\ f = fun q => ops_forward sel (e q) p1 p2 N k).
  { intros f Hf. unfold m in Hf. apply in_flat_map in Hf. destruct Hf as (sel & Hsel & Hf). apply in_map_iff in Hf. destruct Hf as (k & <- & Hk). exists sel, k. split; [|split; [exact Hk|reflexivity]]. unfold auto. cbn in Hsel. destruct Hsel as [<-|[<-|[<-|[]]]]; tauto. }
  assert (Pm : forall f q, In f m -> 0 < f q).
  { intros f q Hf. destruct (Hm f Hf) as (sel & k & Hsel & Hk & ->). destruct (OpsMore.auto_positive sel (e q) p1 p2 N k Hsel Hp HN (proj1 (Hks k Hk))). lra. }
  exists (fun q => Rmean (LossModel.zip_with (fun a b => ln (Rabs a / Rabs b) * ln (Rabs a / Rabs b)) (map (fun f => f q) m) target)). split.
  - unfold Rmean. apply (continuous_ext (fun q => Rsum (LossModel.zip_with (fun a b => ln (Rabs a / Rabs b) * ln (Rabs a / Rabs b)) (map (fun f => f q) m) target) / INR (length m))).
    + intros q. rewrite LossProofs.zip_with_length by (rewrite map_length; exact Lm). rewrite map_length. reflexivity.
    + apply c_div; [apply zip_steady; [exact Lm| |exact Htz]|apply c_const|].
      * intros f Hf. split; [|apply Rgt_not_eq, Pm; exact Hf]. destruct (Hm f Hf) as (sel & k & Hsel & Hk & ->). apply rows_steady; [left; exact Hsel|apply Hks; exact Hk|apply Rgt_not_eq, Hks; exact Hk].
      * apply not_0_INR. rewrite Lm, Hlen. destruct ks; [contradiction|cbn; lia].
  - intros q. rewrite Em. unfold LossModel.mse_term. rewrite LossProofs.sq_ratio_list; [|rewrite map_length; exact Lm| |apply List.Forall_forall; exact Htz].
    + rewrite LossProofs.xmean_fin; [reflexivity|]. intros E0. apply (f_equal (@length R)) in E0. rewrite LossProofs.zip_with_length in E0 by (rewrite map_length; exact Lm). rewrite map_length, Lm, Hlen in E0. destruct ks; [contradiction|cbn in E0; lia].
    + apply List.Forall_forall. intros v Hv. apply in_map_iff in Hv. destruct Hv as (f & <- & Hf). apply Rgt_not_eq, Pm. exact Hf.
Qed.

Lemma misfit_minimum : forall (e : R -> ops_env) a b p1 p2 N ks target, a <= b -> ks <> [] ->
  (forall k p, In k ks -> a <= p <= b -> 0 < k /\ steady e k p) -> p1 < p2 -> (2 <= N)%nat ->
  length target = (3 * length ks)%nat -> (forall v, In v target -> v <> 0) ->
  let rows q := map (fun sel => map (fun k => ops_forward sel (e q) p1 p2 N k) ks) [phi11; phi22; phi33] in
  exists best low, a <= best <= b /\ LossModel.mse_term (concat (rows best)) target = Ok (Fin low)
  /\ forall q, a <= q <= b -> exists v, LossModel.mse_term (concat (rows q)) target = Ok (Fin v) /\ low <= v.
Proof.
  intros e a b p1 p2 N ks target Hab Hne Hks Hp HN Hlen Htz. cbv zeta.
  assert (H : forall p, a <= p <= b -> exists v : R -> R, continuous v p /\ forall q, LossModel.mse_term (concat (map (fun sel => map (fun k => ops_forward sel (e q) p1 p2 N k) ks) [phi11; phi22; phi33])) target = Ok (Fin (v q))).
  { intros p Hpab. apply (misfit_steady R_UniformSpace); try assumption. intros k Hk. apply Hks; assumption. }
  destruct (H a (conj (Rle_refl a) Hab)) as (v & _ & Hv).
  assert (Cv : forall p, a <= p <= b -> continuity_pt v p).
  { intros p Hpab. destruct (H p Hpab) as (w & Cw & Hw). apply continuity_pt_filterlim. apply (continuous_ext w); [|exact Cw]. intros q. specialize (Hw q). rewrite Hv in Hw. injection Hw as Hw. symmetry. exact Hw. }
  destruct (continuity_ab_min v a b Hab Cv) as (best & Hmin & Hin). exists best, (v best). split; [exact Hin|]. split; [apply Hv|]. intros q Hq. exists (v q). split; [apply Hv|apply Hmin; exact Hq].
Qed.
