(** Derivatives of the spectral tensor and of the one-point spectra. *)

From Coq Require Import Reals Lra Lia List Arith.
From Coquelicot Require Import Coquelicot.
From Verif Require Import Prelude RdtModel SpectraModel RdtSpec RdtProofs RdtOde SpectraProofs OpsModel OpsSpec OpsProofs LossModel TotalSpec AutoModel AutoSpec AutoProofs AutoNet.
Import ListNotations.
Open Scope R_scope.

Lemma clip_low_tracks : forall f d eps, val d <> eps -> tracks f d -> tracks (fun t => clip_low eps (f t)) (ad_clip_low eps d).
Proof.
  intros f d eps N H. unfold ad_clip_low. destruct (Rlt_dec (val d) eps) as [L|L].
  - apply (tracks_loc (fun _ => eps)); [| |apply tracks_const].
    + unfold clip_low. destruct H as [V _]. rewrite V. destruct (Rlt_dec (val d) eps); [reflexivity|contradiction].
    + generalize (near_lt f d eps H L). apply filter_imp. intros t Ht. unfold clip_low. destruct (Rlt_dec (f t) eps); [reflexivity|contradiction].
  - assert (G : eps < val d) by lra.
    apply (tracks_loc f); [| |exact H].
    + unfold clip_low. destruct H as [V _]. rewrite V. destruct (Rlt_dec (val d) eps); [contradiction|reflexivity].
    + generalize (near_gt f d eps H G). apply filter_imp. intros t Ht. unfold clip_low. destruct (Rlt_dec (f t) eps); [lra|reflexivity].
Qed.

Lemma clip_signed_tracks : forall f d eps, 0 < eps -> Rabs (val d) <> eps -> (val d = 0 -> forall t, f t = 0) ->
  tracks f d -> tracks (fun t => clip_signed eps (f t)) (ad_clip_signed eps d).
Proof.
  intros f d eps P N Z H. unfold ad_clip_signed. destruct (Rlt_dec (Rabs (val d)) eps) as [L|L].
  - destruct (Req_dec (val d) 0) as [E|E].
    + apply (tracks_ext (fun _ => eps * Rsign (val d))); [|apply tracks_const].
      intros t. rewrite (Z E t), E. unfold clip_signed. rewrite Rabs_R0. destruct (Rlt_dec 0 eps); [reflexivity|contradiction].
    + assert (C : locally 0 (fun t => Rabs (f t) < eps /\ Rsign (f t) = Rsign (val d))).
      { apply Rabs_def2 in L. destruct L as [L1 L2].
        destruct (Rlt_dec 0 (val d)) as [Q|Q].
        - generalize (filter_and _ _ (near_lt f d eps H L1) (near_gt f d 0 H Q)). apply filter_imp. intros t [A B].
          split; [rewrite Rabs_pos_eq; lra|]. unfold Rsign. destruct (Rlt_dec 0 (f t)), (Rlt_dec 0 (val d)); try contradiction; reflexivity.
        - assert (Q' : val d < 0) by lra.
          generalize (filter_and _ _ (near_gt f d (- eps) H L2) (near_lt f d 0 H Q')). apply filter_imp. intros t [A B].
          split; [rewrite Rabs_left; lra|]. unfold Rsign.
          destruct (Rlt_dec 0 (f t)), (Rlt_dec 0 (val d)), (Rlt_dec (f t) 0), (Rlt_dec (val d) 0); try lra; reflexivity. }
      apply (tracks_loc (fun _ => eps * Rsign (val d))); [| |apply tracks_const].
      * destruct H as [V _]. rewrite V. unfold clip_signed. destruct (Rlt_dec (Rabs (val d)) eps); [reflexivity|contradiction].
      * generalize C. apply filter_imp. intros t [A B]. unfold clip_signed. destruct (Rlt_dec (Rabs (f t)) eps); [rewrite B; reflexivity|contradiction].
  - assert (G : eps < Rabs (val d)) by lra.
    assert (NZ : val d <> 0) by (intros E; rewrite E, Rabs_R0 in G; lra).
    assert (T := tracks_abs f d NZ H).
    apply (tracks_loc f); [| |exact H].
    + unfold clip_signed. destruct H as [V _]. rewrite V. destruct (Rlt_dec (Rabs (val d)) eps); [contradiction|reflexivity].
    + generalize (near_gt _ _ eps T G). apply filter_imp. intros t Ht. unfold clip_signed. destruct (Rlt_dec (Rabs (f t)) eps); [lra|reflexivity].
Qed.

Section Tensor.
Variables (E b : R -> R) (dE db : dual) (k1 k2 k3 : R).
Hypothesis (HE : tracks E dE) (Hb : tracks b db) (Hk : k1 <> 0).

Let dk30 := dadd (const k3) (dmul db (const k1)).
Let dkk0 := dadd (const (k1^2 + k2^2)) (dsq dk30).
Let dC1 := ddiv (dmul (dmul db (const (k1^2)))
                      (dadd (dsub dkk0 (dmul (const 2) (dsq dk30))) (dmul (dmul db (const k1)) dk30)))
                (dmul (const (kk_of k1 k2 k3)) (const (s_of k1 k2))).
Let dC2 := dmul (ddiv (dmul (const k2) dkk0) (const (sqrt (s_of k1 k2 ^ 3))))
                (datan2 (dmul (dmul db (const k1)) (const (sqrt (s_of k1 k2))))
                        (dsub dkk0 (dmul (dmul dk30 (const k1)) db))).
Let dz1 := dsub dC1 (dmul (const (k2 / k1)) dC2).
Let dz2 := dadd (ddiv (dmul dC1 (const k2)) (const k1)) dC2.

Lemma s_gt0 : 0 < s_of k1 k2.
Proof. unfold s_of. pose proof (sq_pos k1 Hk). pose proof (pow2_ge_0 k2). lra. Qed.

Lemma kk0_val : val dkk0 = kk0_of (val db) k1 k2 k3.
Proof. reflexivity. Qed.

Lemma kk0_gt0 : 0 < val dkk0.
Proof. rewrite kk0_val. unfold kk0_of. pose proof (sq_pos k1 Hk). pose proof (pow2_ge_0 k2). pose proof (pow2_ge_0 (k30_of (val db) k1 k3)). lra. Qed.

Lemma t_k30 : tracks (fun t => k30_of (b t) k1 k3) dk30.
Proof. unfold k30_of. apply tracks_add; [apply tracks_const|]. apply tracks_mul; [exact Hb|apply tracks_const]. Qed.

Lemma t_kk0 : tracks (fun t => kk0_of (b t) k1 k2 k3) dkk0.
Proof. unfold kk0_of. apply tracks_add; [apply tracks_const|]. apply tracks_sq. exact t_k30. Qed.

Lemma t_C1 : tracks (fun t => fit_C1 (b t) k1 k2 k3) dC1.
Proof.
  unfold fit_C1. cbv zeta. apply tracks_div.
  - cbn [val dmul const]. pose proof s_gt0. pose proof (kk_pos k1 k2 k3 Hk). nra.
  - apply tracks_mul; [apply tracks_mul; [exact Hb|apply tracks_const]|].
    apply tracks_add; [apply tracks_sub; [exact t_kk0|apply tracks_mul; [apply tracks_const|apply tracks_sq; exact t_k30]]|].
    apply tracks_mul; [apply tracks_mul; [exact Hb|apply tracks_const]|exact t_k30].
  - apply tracks_mul; apply tracks_const.
Qed.

Lemma t_C2 : tracks (fun t => fit_C2 (b t) k1 k2 k3) dC2.
Proof.
  pose proof s_gt0 as Ps. assert (Q : 0 < sqrt (s_of k1 k2)) by (apply sqrt_lt_R0; exact Ps).
  unfold fit_C2. cbv zeta. apply tracks_mul.
  - apply tracks_div; [cbn [val const]; apply Rgt_not_eq, sqrt_lt_R0, pow_lt; exact Ps| |apply tracks_const].
    apply tracks_mul; [apply tracks_const|exact t_kk0].
  - apply tracks_atan2.
    + destruct (Req_dec (val db) 0) as [Z|Z].
      * right. cbn [val dsub dmul const]. rewrite Z, Rmult_0_r. pose proof kk0_gt0. lra.
      * left. cbn [val dmul const]. apply Rmult_integral_contrapositive_currified; [apply Rmult_integral_contrapositive_currified; assumption|lra].
    + apply tracks_mul; [apply tracks_mul; [exact Hb|apply tracks_const]|apply tracks_const].
    + apply tracks_sub; [exact t_kk0|]. apply tracks_mul; [apply tracks_mul; [exact t_k30|apply tracks_const]|exact Hb].
Qed.

Lemma t_z1 : tracks (fun t => fit_zeta1 (b t) k1 k2 k3) dz1.
Proof. unfold fit_zeta1. apply tracks_sub; [exact t_C1|]. apply tracks_mul; [apply tracks_const|exact t_C2]. Qed.

Lemma t_z2 : tracks (fun t => fit_zeta2 (b t) k1 k2 k3) dz2.
Proof.
  unfold fit_zeta2. apply tracks_add; [|exact t_C2]. apply tracks_div; [exact Hk| |apply tracks_const].
  apply tracks_mul; [exact t_C1|apply tracks_const].
Qed.

Lemma t_E : tracks (fun t => E t / (4 * PI)) (ddiv dE (const (4 * PI))).
Proof. apply tracks_div; [cbn [val const]; pose proof PI_RGT_0; lra|exact HE|apply tracks_const]. Qed.

Lemma tensor_tracks : forall sel, selector sel ->
  Rabs (sel (power_spectra_raw (E 0) (b 0) k1 k2 k3)) <> / 10^12 ->
  (sel = phi13 -> sel (power_spectra_raw (E 0) (b 0) k1 k2 k3) <> 0) ->
  tracks (fun t => sel (power_spectra (E t) (b t) k1 k2 k3)) (entry sel (ad_power_spectra dE db k1 k2 k3)).
Proof.
  intros sel Hsel N Z.
  pose proof kk0_gt0 as P0. pose proof (kk_pos k1 k2 k3 Hk) as Pk.
  assert (TQ : tracks (fun t => E t / (4 * PI) / kk0_of (b t) k1 k2 k3 ^ 2) (ddiv (ddiv dE (const (4 * PI))) (dsq dkk0))).
  { apply tracks_div; [cbn [val dsq]; apply pow_nonzero; lra|exact t_E|apply tracks_sq; exact t_kk0]. }
  assert (TX : tracks (fun t => E t / (4 * PI) / (kk_of k1 k2 k3 * kk0_of (b t) k1 k2 k3)) (ddiv (ddiv dE (const (4 * PI))) (dmul (const (kk_of k1 k2 k3)) dkk0))).
  { apply tracks_div; [cbn [val dmul const]; apply Rmult_integral_contrapositive_currified; lra|exact t_E|].
    apply tracks_mul; [apply tracks_const|exact t_kk0]. }
  assert (low : forall f d, tracks f d -> Rabs (f 0) <> / 10^12 -> tracks (fun t => clip_low eps_ops (f t)) (ad_clip_low eps_ops d)).
  { intros f d T Hn. apply clip_low_tracks; [|exact T]. destruct T as [V _]. rewrite <- V. intros Q. apply Hn. rewrite Q.
    unfold eps_ops. apply Rabs_pos_eq. left. apply Rinv_0_lt_compat, pow_lt. lra. }
  destruct Hsel as [->|[->|[->|[->|[->| ->]]]]].
  - apply (low (fun t => phi11 (power_spectra_raw (E t) (b t) k1 k2 k3))); [|exact N].
    apply tracks_mul; [exact TQ|]. apply tracks_add; [|apply tracks_mul; [apply tracks_const|apply tracks_sq; exact t_z1]].
    apply tracks_sub; [apply tracks_sub; [exact t_kk0|apply tracks_const]|].
    apply tracks_mul; [apply tracks_mul; [apply tracks_const|exact t_k30]|exact t_z1].
  - apply (low (fun t => phi22 (power_spectra_raw (E t) (b t) k1 k2 k3))); [|exact N].
    apply tracks_mul; [exact TQ|]. apply tracks_add; [|apply tracks_mul; [apply tracks_const|apply tracks_sq; exact t_z2]].
    apply tracks_sub; [apply tracks_sub; [exact t_kk0|apply tracks_const]|].
    apply tracks_mul; [apply tracks_mul; [apply tracks_const|exact t_k30]|exact t_z2].
  - apply (low (fun t => phi33 (power_spectra_raw (E t) (b t) k1 k2 k3))); [|exact N].
    apply tracks_mul; [|apply tracks_const]. apply tracks_div; [cbn [val dsq const]; apply pow_nonzero; lra|exact t_E|].
    apply tracks_sq, tracks_const.
  - assert (T : tracks (fun t => phi13 (power_spectra_raw (E t) (b t) k1 k2 k3))
        (dmul (ddiv (ddiv dE (const (4 * PI))) (dmul (const (kk_of k1 k2 k3)) dkk0)) (dadd (dmul (const (- k1)) dk30) (dmul (const (k1^2 + k2^2)) dz1)))).
    { apply tracks_mul; [exact TX|]. apply tracks_add; [apply tracks_mul; [apply tracks_const|exact t_k30]|].
      apply tracks_mul; [apply tracks_const|exact t_z1]. }
    apply (clip_signed_tracks (fun t => phi13 (power_spectra_raw (E t) (b t) k1 k2 k3))).
    + unfold eps_ops. apply Rinv_0_lt_compat, pow_lt. lra.
    + destruct T as [V _]. fold dk30 dkk0 dC1 dC2 dz1. rewrite <- V. exact N.
    + intros Q. exfalso. apply (Z eq_refl). destruct T as [V _]. fold dk30 dkk0 dC1 dC2 dz1 in Q. rewrite <- V in Q. exact Q.
    + exact T.
  - apply (low (fun t => phi23 (power_spectra_raw (E t) (b t) k1 k2 k3))); [|exact N].
    apply tracks_mul; [exact TX|]. apply tracks_add; [apply tracks_mul; [apply tracks_const|exact t_k30]|].
    apply tracks_mul; [apply tracks_const|exact t_z2].
  - apply (low (fun t => phi12 (power_spectra_raw (E t) (b t) k1 k2 k3))); [|exact N].
    apply tracks_mul; [exact TQ|].
    apply tracks_add; [|apply tracks_mul; [apply tracks_mul; [apply tracks_const|exact t_z1]|exact t_z2]].
    apply tracks_sub; [apply tracks_sub; [apply tracks_const|]|].
    + apply tracks_mul; [apply tracks_mul; [apply tracks_const|exact t_k30]|exact t_z2].
    + apply tracks_mul; [apply tracks_mul; [apply tracks_const|exact t_k30]|exact t_z1].
Qed.
End Tensor.

Lemma vklike_tracks : forall f d, 0 < val d -> tracks f d -> tracks (fun t => vklike_energy (f t)) (ad_vklike d).
Proof.
  intros f d P H. unfold vklike_energy, ad_vklike. pose proof (pow2_ge_0 (val d)) as Q.
  assert (S : 0 < val (dadd (const 1) (dsq d))) by (cbn [val dadd const dsq]; lra).
  assert (TS : tracks (fun t => sqrt (1 + f t ^ 2)) (dsqrt (dadd (const 1) (dsq d)))).
  { apply tracks_sqrt; [exact S|]. apply tracks_add; [apply tracks_const|apply tracks_sq; exact H]. }
  assert (PS : 0 < val (dsqrt (dadd (const 1) (dsq d)))) by (cbn [val dsqrt]; apply sqrt_lt_R0; exact S).
  apply tracks_mul; [apply tracks_pow; assumption|]. apply tracks_pow.
  - cbn [val ddiv]. apply Rdiv_lt_0_compat; assumption.
  - apply tracks_div; [apply Rgt_not_eq; exact PS|exact H|exact TS].
Qed.

Lemma learnable_tracks : forall f p q d dp dq, 0 < val d -> tracks f d -> tracks p dp -> tracks q dq ->
  tracks (fun t => learnable_energy (p t) (q t) (f t)) (ad_learnable dp dq d).
Proof.
  intros f p q d dp dq P H Hp Hq. unfold learnable_energy, ad_learnable. pose proof (pow2_ge_0 (val d)) as Q.
  apply tracks_div; [apply Rgt_not_eq, exp_pos|apply tracks_powt; assumption|].
  apply tracks_powt; [cbn [val dadd const dsq]; lra| |exact Hq].
  apply tracks_add; [apply tracks_const|apply tracks_sq; exact H].
Qed.

Lemma density_tracks : forall s P sel k1 k2 k3 b db, selector sel -> k1 <> 0 -> tracks b db ->
  let e := fun t => OpsEnv (exp (moved t (pa_logL P))) (exp (moved t (pa_logM P)))
             (if st_learnable s then learnable_energy (moved t (pa_p P)) (moved t (pa_q P)) else vklike_energy)
             (fun _ _ _ => b t) in
  Rabs (undelivered sel (e 0) k1 k2 k3) <> / 10^12 ->
  (sel = phi13 -> undelivered sel (e 0) k1 k2 k3 <> 0) ->
  let k0L := dmul (dexp (pa_logL P)) (dnorm [const k1; const k2; dadd (const k3) (dmul db (const k1))]) in
  tracks (fun t => delivered sel (e t) k1 k2 k3)
         (entry sel (ad_power_spectra (dmul (dmul (dexp (pa_logM P)) (dpow (dexp (pa_logL P)) (5/3)))
                                            (if st_learnable s then ad_learnable (pa_p P) (pa_q P) k0L else ad_vklike k0L)) db k1 k2 k3)).
Proof.
  intros s P sel k1 k2 k3 b db Hsel Hk Tb e N Z k0L.
  unfold e, k0L, delivered, undelivered in *. cbn [oe_L oe_M oe_spec oe_beta] in *. cbv zeta in *.
  set (spec := fun t => if st_learnable s then learnable_energy (moved t (pa_p P)) (moved t (pa_q P)) else vklike_energy).
  set (l := fun t => exp (moved t (pa_logL P))).
  assert (TL : tracks l (dexp (pa_logL P))) by (apply tracks_exp, tracks_moved).
  assert (PL : 0 < val (dexp (pa_logL P))) by apply exp_pos.
  set (d0 := dnorm [const k1; const k2; dadd (const k3) (dmul db (const k1))]).
  assert (T0 : tracks (fun t => sqrt (kk0_of (b t) k1 k2 k3)) d0).
  { apply (tracks_ext (fun t => vnorm (ats [(fun _ => k1); (fun _ => k2); (fun t => k3 + b t * k1)] t))).
    - intros t. unfold vnorm, ats, Rsum, kk0_of, k30_of. cbn [map fold_right]. f_equal. ring.
    - apply tracks_norm.
      + apply List.Forall2_cons; [apply tracks_const|]. apply List.Forall2_cons; [apply tracks_const|].
        apply List.Forall2_cons; [|apply List.Forall2_nil]. apply (t_k30 b db k1 k3 Tb).
      + unfold vnorm, Rsum. cbn [map fold_right val const dadd dmul]. apply Rgt_not_eq, sqrt_lt_R0.
        pose proof (sq_pos k1 Hk). pose proof (pow2_ge_0 k2). pose proof (pow2_ge_0 (k3 + val db * k1)). lra. }
  assert (P0 : 0 < val d0).
  { destruct T0 as [V _]. rewrite <- V. apply sqrt_lt_R0. unfold kk0_of. pose proof (sq_pos k1 Hk). pose proof (pow2_ge_0 k2). pose proof (pow2_ge_0 (k30_of (b 0) k1 k3)). lra. }
  assert (TK : tracks (fun t => l t * sqrt (kk0_of (b t) k1 k2 k3)) (dmul (dexp (pa_logL P)) d0)) by (apply tracks_mul; assumption).
  assert (PK : 0 < val (dmul (dexp (pa_logL P)) d0)) by (cbn [val dmul]; apply Rmult_lt_0_compat; assumption).
  set (E := fun t => forward_energy (spec t) (exp (moved t (pa_logM P))) (l t) (b t) k1 k2 k3).
  refine (tensor_tracks E b _ db k1 k2 k3 _ Tb Hk sel Hsel N Z).
  unfold E, forward_energy. cbv zeta. apply tracks_mul.
  - apply tracks_mul; [apply tracks_exp, tracks_moved|]. apply tracks_pow; assumption.
  - unfold spec. destruct (st_learnable s).
    + apply learnable_tracks; [exact PK|exact TK|apply tracks_moved|apply tracks_moved].
    + apply vklike_tracks; assumption.
Qed.

Lemma delivered_tracks : forall s P sel k1 k2 k3, selector sel -> k1 <> 0 -> st_type s <> MANN ->
  (st_type s = TAUNET -> smooth_network s P k1 k2 k3) ->
  Rabs (undelivered sel (model_at s P 0) k1 k2 k3) <> / 10^12 ->
  (sel = phi13 -> undelivered sel (model_at s P 0) k1 k2 k3 <> 0) ->
  tracks (fun t => delivered sel (model_at s P t) k1 k2 k3) (ad_delivered sel s P k1 k2 k3).
Proof.
  intros s P sel k1 k2 k3 Hsel Hk HM HN N Z.
  destruct (lifetime_tracks s P k1 k2 k3 Hk HM HN) as (db & Eb & Tb).
  unfold ad_delivered. rewrite Eb. cbv zeta.
  exact (density_tracks s P sel k1 k2 k3 _ db Hsel Hk Tb N Z).
Qed.

Lemma trapz_tracks : forall g (f : R -> R -> R) (d : R -> dual), (forall x, In x g -> tracks (fun t => f t x) (d x)) ->
  tracks (fun t => trapz g (map (f t) g)) (Dual (trapz g (map (fun x => val (d x)) g)) (trapz g (map (fun x => der (d x)) g))).
Proof.
  induction g as [|a g IH]; intros f d H; [apply (tracks_const 0)|]. destruct g as [|c g]; [apply (tracks_const 0)|].
  assert (T := IH f d (fun x Hx => H x (or_intror Hx))).
  assert (Ta := H a (or_introl eq_refl)). assert (Tc := H c (or_intror (or_introl eq_refl))).
  apply (tracks_eq _ (dadd (ddiv (dmul (const (c - a)) (dadd (d a) (d c))) (const 2))
                           (Dual (trapz (c :: g) (map (fun x => val (d x)) (c :: g))) (trapz (c :: g) (map (fun x => der (d x)) (c :: g)))))).
  - reflexivity.
  - cbn [der dadd ddiv dmul const val map trapz]. field.
  - change (tracks (fun t => (c - a) * (f t a + f t c) / 2 + trapz (c :: g) (map (f t) (c :: g)))
       (dadd (ddiv (dmul (const (c - a)) (dadd (d a) (d c))) (const 2))
             (Dual (trapz (c :: g) (map (fun x => val (d x)) (c :: g))) (trapz (c :: g) (map (fun x => der (d x)) (c :: g)))))).
    apply tracks_add; [|exact T]. apply tracks_div; [cbn; lra| |apply tracks_const].
    apply tracks_mul; [apply tracks_const|]. apply tracks_add; assumption.
Qed.

Lemma quad_tracks : forall g2 g3 (f : R -> R -> R -> R) (d : R -> R -> dual),
  (forall x y, In x g2 -> In y g3 -> tracks (fun t => f t x y) (d x y)) ->
  tracks (fun t => quad23 g2 g3 (f t)) (Dual (quad23 g2 g3 (fun x y => val (d x y))) (quad23 g2 g3 (fun x y => der (d x y)))).
Proof.
  intros g2 g3 f d H.
  apply (trapz_tracks g2 (fun t x => trapz g3 (map (fun y => f t x y) g3))
           (fun x => Dual (trapz g3 (map (fun y => val (d x y)) g3)) (trapz g3 (map (fun y => der (d x y)) g3)))).
  intros x Hx. apply (trapz_tracks g3 (fun t y => f t x y) (d x)). intros y Hy. apply H; assumption.
Qed.

Lemma forward_tracks : forall s P sel p1 p2 N k1, selector sel -> k1 <> 0 ->
  differentiable_lifetime s P p1 p2 N k1 -> off_bound sel (model_at s P 0) p1 p2 N k1 ->
  tracks (fun t => ops_forward sel (model_at s P t) p1 p2 N k1) (ad_forward sel s P p1 p2 N k1).
Proof.
  intros s P sel p1 p2 N k1 Hsel Hk [HM HN] HB. unfold ops_forward, ad_forward. cbv zeta.
  apply tracks_mul; [apply tracks_const|].
  apply (quad_tracks _ _ (fun t k2 k3 => delivered sel (model_at s P t) k1 k2 k3) (fun k2 k3 => ad_delivered sel s P k1 k2 k3)).
  intros k2 k3 H2 H3. destruct (HB k2 k3 H2 H3) as [B1 B2].
  apply delivered_tracks; try assumption. intros HT. apply HN; assumption.
Qed.
