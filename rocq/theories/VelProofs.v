(** Lemmas about the unit of velocity (C192) and about generated data in other units. *)

From Coq Require Import Reals Lra Lia List Sorted.
From Coquelicot Require Import Complex.
From Coq Require Import List.
From Verif Require Import Prelude RdtModel RdtSpec RdtProofs SpectraModel OpsModel OpsSpec OpsProofs DataModel LossModel LossSpec TotalSpec BalSpec BalProofs UnitSpec UnitProofs.
Import ListNotations.
Open Scope R_scope.

(** ** Generated data *)

Lemma kaimal_unit : forall s, 0 < s -> forall zref ustar k1 i j, kaimal_at (zref * s) ustar (k1 / s) i j = kaimal_at zref ustar k1 i j.
Proof.
  intros s Hs zref ustar k1 i j. unfold kaimal_at. cbv zeta.
  replace (1 / (2 * PI) * (k1 / s) * (zref * s)) with (1 / (2 * PI) * k1 * zref).
  - reflexivity.
  - pose proof PI_RGT_0. field. lra.
Qed.

Lemma xscale : forall c x u, 0 < c -> xmul x (Fin (c * u)) = xmul (Fin c) (xmul x (Fin u)).
Proof.
  intros c x u Hc.
  assert (S : xsign (Fin (c * u)) = xsign (Fin u)).
  { unfold xsign, Rltb. destruct (Rtotal_order u 0) as [B|[B|B]].
    - assert (c * u < 0) by nra. destruct (Rlt_dec 0 (c * u)), (Rlt_dec 0 u), (Rlt_dec (c * u) 0), (Rlt_dec u 0); try lra; reflexivity.
    - rewrite B, Rmult_0_r. reflexivity.
    - assert (0 < c * u) by nra. destruct (Rlt_dec 0 (c * u)), (Rlt_dec 0 u); try lra; reflexivity. }
  assert (P : xsign (Fin c) = Some true) by (unfold xsign, Rltb; destruct (Rlt_dec 0 c); [reflexivity|lra]).
  destruct x as [a| | |]; cbn [xmul]; [f_equal; ring| | |reflexivity]; rewrite S;
    destruct (xsign (Fin u)) as [[|]|]; cbn [xinf xsign Bool.eqb xmul]; cbn [xsign] in P; rewrite ?P; reflexivity.
Qed.

Lemma kaimal_velocity : forall c, 0 < c -> forall zref ustar k1 i j,
  kaimal_at zref (c * ustar) k1 i j = xmul (Fin (c^2)) (kaimal_at zref ustar k1 i j).
Proof.
  intros c Hc zref ustar k1 i j. unfold kaimal_at. cbv zeta. replace ((c * ustar)^2) with (c^2 * ustar^2) by ring.
  apply xscale. apply pow_lt. exact Hc.
Qed.

Lemma xdiv_fin : forall a b, 0 < b -> xdiv (Fin a) (Fin b) = Fin (a / b).
Proof. intros a b Hb. unfold xdiv, Reqb. destruct (Req_EM_T b 0) as [E|_]; [lra|]. reflexivity. Qed.

Lemma xpow_pos : forall x p, 0 < x -> xpow x p = Fin (Rpower x p).
Proof. intros x p Hx. unfold xpow. destruct (Rlt_dec 0 x); [reflexivity|lra]. Qed.

Lemma Rpower_unit : forall s, 0 < s -> forall D a, 0 < D -> Rpower (D / s^2) a = Rpower D a * Rpower s (- (2 * a)).
Proof.
  intros s Hs D a HD. unfold Rdiv. rewrite <- Rpower_mult_distr by (try exact HD; apply Rinv_0_lt_compat, pow_lt; exact Hs).
  f_equal. rewrite <- (Rpower_pow 2 s) by exact Hs. rewrite <- Rpower_Ropp, Rpower_mult. f_equal. simpl. ring.
Qed.

Lemma von_karman_unit : forall s, 0 < s -> forall L C k1, L <> 0 ->
  exists m m', von_karman_at L C k1 = Ok m /\ von_karman_at (L * s) (C * Rpower s (-2/3)) (k1 / s) = Ok m' /\ forall i j, m' i j = m i j.
Proof.
  intros s Hs L C k1 HL. unfold von_karman_at, Reqb.
  destruct (Req_EM_T L 0) as [E|_]; [contradiction|].
  destruct (Req_EM_T (L * s) 0) as [E|_]; [apply Rmult_integral in E; destruct E; [contradiction|lra]|].
  eexists. eexists. split; [reflexivity|]. split; [reflexivity|]. cbv beta zeta.
  assert (HD : 0 < / L^2 + k1^2).
  { assert (0 < / L^2) by (apply Rinv_0_lt_compat; nra). pose proof (pow2_ge_0 k1). lra. }
  assert (E1 : / (L * s)^2 + (k1 / s)^2 = (/ L^2 + k1^2) / s^2) by (field; lra).
  assert (E2 : 3 * / (L * s)^2 + 8 * (k1 / s)^2 = (3 * / L^2 + 8 * k1^2) / s^2) by (field; lra).
  rewrite E1, E2. assert (HD' : 0 < (/ L^2 + k1^2) / s^2) by (apply Rdiv_lt_0_compat; [exact HD|apply pow_lt; exact Hs]).
  rewrite !xpow_pos, !xdiv_fin by (try assumption; unfold Rpower; apply exp_pos).
  rewrite !Rpower_unit by assumption. set (D := / L^2 + k1^2) in *.
  assert (R1 : Rpower s (-2/3) = / s * Rpower s (1/3)).
  { rewrite <- (Rpower_1 s) at 2 by exact Hs. rewrite <- Rpower_Ropp, <- Rpower_plus. f_equal. lra. }
  assert (R2 : Rpower s (- (2 * (5/6))) = / s^2 * Rpower s (1/3)).
  { rewrite <- (Rpower_pow 2 s) by exact Hs. rewrite <- Rpower_Ropp, <- Rpower_plus. f_equal. simpl. lra. }
  assert (R3 : Rpower s (- (2 * (11/6))) = / s^4 * Rpower s (1/3)).
  { rewrite <- (Rpower_pow 4 s) by exact Hs. rewrite <- Rpower_Ropp, <- Rpower_plus. f_equal. simpl. lra. }
  rewrite R1, R2, R3. set (q := Rpower s (1/3)). assert (Hq : 0 < q) by (unfold q, Rpower; apply exp_pos).
  set (d5 := Rpower D (5/6)). assert (H5 : 0 < d5) by (unfold d5, Rpower; apply exp_pos).
  set (d11 := Rpower D (11/6)). assert (H11 : 0 < d11) by (unfold d11, Rpower; apply exp_pos).
  intros [] []; cbn [xmul]; f_equal; field; repeat split; lra.
Qed.

(** ** Spectra *)

Lemma delivered_bound : forall sel e k1 k2 k3, auto sel -> eps_ops <= delivered sel e k1 k2 k3.
Proof. intros sel e k1 k2 k3 H. unfold delivered. cbv zeta. unfold power_spectra, clip6. destruct H as [->|[->| ->]]; cbn [phi11 phi22 phi33]; apply clip_low_ge. Qed.

Lemma forward_bound : forall sel e p1 p2 N k1, auto sel -> p1 < p2 -> (1 <= N)%nat -> 0 < k1 ->
  k1 * (Rpower 10 p1 ^ 2 * eps_ops) <= ops_forward sel e p1 p2 N k1.
Proof.
  intros sel e p1 p2 N k1 H Hp HN Hk. unfold ops_forward. cbv zeta. apply Rmult_le_compat_l; [lra|].
  assert (E : 0 < eps_ops) by (unfold eps_ops; apply Rinv_0_lt_compat; lra).
  eapply Rle_trans; [|apply quad_node; try assumption].
  - apply Rmult_le_compat_l; [apply pow2_ge_0|]. apply delivered_bound. exact H.
  - intros x y. pose proof (delivered_bound sel e k1 x y H). lra.
Qed.

Lemma velocity_wrong : forall sel e p1 p2 N k1, auto sel -> p1 < p2 -> (1 <= N)%nat -> 0 < k1 ->
  exists c0, 0 < c0 /\ forall c, 0 < c < c0 -> c * ops_forward sel e p1 p2 N k1 < ops_forward sel (scale_M c e) p1 p2 N k1.
Proof.
  intros sel e p1 p2 N k1 H Hp HN Hk. set (m := k1 * (Rpower 10 p1 ^ 2 * eps_ops)).
  assert (Hm : 0 < m).
  { unfold m. apply Rmult_lt_0_compat; [exact Hk|]. apply Rmult_lt_0_compat; [apply pow_lt; unfold Rpower; apply exp_pos|].
    unfold eps_ops. apply Rinv_0_lt_compat. lra. }
  pose proof (forward_bound sel e p1 p2 N k1 H Hp HN Hk) as F. fold m in F.
  set (f := ops_forward sel e p1 p2 N k1) in *. exists (m / f). split; [apply Rdiv_lt_0_compat; lra|].
  intros c [C1 C2]. apply Rlt_le_trans with m.
  - apply Rmult_lt_compat_r with (r := f) in C2; [|lra]. replace (m / f * f) with m in C2 by (field; lra). exact C2.
  - apply forward_bound; assumption.
Qed.

Lemma velocity_spectra : forall sel e p1 p2 N k1 c, selector sel ->
  (forall k2 k3, In k2 (sym_grid p1 p2 N) -> In k3 (sym_grid p1 p2 N) ->
     kept sel (undelivered sel e k1 k2 k3) /\ kept sel (c * undelivered sel e k1 k2 k3)) ->
  ops_forward sel (scale_M c e) p1 p2 N k1 = c * ops_forward sel e p1 p2 N k1.
Proof.
  intros sel e p1 p2 N k1 c S K. rewrite !forward_kept.
  - apply forward_raw_linear. exact S.
  - intros k2 k3 I2 I3. apply K; assumption.
  - intros k2 k3 I2 I3. rewrite undelivered_scale by exact S. apply K; assumption.
Qed.

(** ** Coherence *)

Lemma velocity_coherence : forall g sel e k1 r c, 0 < c -> auto sel -> coh_kept g sel e k1 -> coh_kept g sel (scale_M c e) k1 ->
  coherence_on g sel (scale_M c e) k1 r = coherence_on g sel e k1 r.
Proof.
  intros g sel e k1 r c Hc Ha K K'.
  assert (Hsel : selector sel) by (unfold selector; destruct Ha as [->|[->| ->]]; tauto).
  assert (EE : forall x y, In x g -> In y g -> coh_entry sel (scale_M c e) k1 x y = c * coh_entry sel e k1 x y).
  { intros x y Ix Iy. rewrite (coh_kept_entry sel e), (coh_kept_entry sel (scale_M c e)) by (try assumption; first [apply K|apply K']; assumption).
    apply undelivered_scale. exact Hsel. }
  unfold coherence_on. cbv zeta.
  assert (S0 : quad23 g g (fun k2 k3 => coh_entry sel (scale_M c e) k1 k2 k3) = c * quad23 g g (fun k2 k3 => coh_entry sel e k1 k2 k3)).
  { rewrite (quad23_ext _ _ _ (fun x y => c * coh_entry sel e k1 x y)) by (intros; apply EE; assumption).
    apply (quad23_scal _ _ (fun x y => coh_entry sel e k1 x y)). }
  assert (Sr : quad23C g g (fun k2 k3 => Cmult (RtoC (coh_entry sel (scale_M c e) k1 k2 k3)) (phase k2 r))
               = Cmult (RtoC c) (quad23C g g (fun k2 k3 => Cmult (RtoC (coh_entry sel e k1 k2 k3)) (phase k2 r)))).
  { apply injective_projections.
    - rewrite scaled_re, !quad23C_re.
      rewrite (quad23_ext _ _ _ (fun x y => c * fst (Cmult (RtoC (coh_entry sel e k1 x y)) (phase x r)))).
      + apply (quad23_scal _ _ (fun x y => fst (Cmult (RtoC (coh_entry sel e k1 x y)) (phase x r)))).
      + intros x y Ix Iy. rewrite EE by assumption. unfold Cmult, RtoC. cbn [fst snd]. ring.
    - rewrite scaled_im, !quad23C_im.
      rewrite (quad23_ext _ _ _ (fun x y => c * snd (Cmult (RtoC (coh_entry sel e k1 x y)) (phase x r)))).
      + apply (quad23_scal _ _ (fun x y => snd (Cmult (RtoC (coh_entry sel e k1 x y)) (phase x r)))).
      + intros x y Ix Iy. rewrite EE by assumption. unfold Cmult, RtoC. cbn [fst snd]. ring. }
  rewrite S0, Sr, Cmod_mult, Cmod_R, Rabs_mult. assert (Hr : 0 < Rabs c) by (apply Rabs_pos_lt; lra).
  set (a := Cmod _). set (b := Rabs (quad23 _ _ _)).
  destruct (Req_dec b 0) as [Eb|Eb].
  - rewrite Eb. unfold Rdiv. rewrite Rmult_0_r, pow_i by lia. rewrite !Rinv_0. ring.
  - field. split; [exact Eb | lra].
Qed.

Lemma velocity_run : forall cs h c, coh_run c (map (fun q => (scale_M cs (fst (fst q)), snd (fst q), snd q)) h) = coh_run c h.
Proof.
  intros cs. unfold coh_run. induction h as [|[[e k1] r] h IH]; intros c; [reflexivity|]. cbn [map fold_left fst snd].
  unfold spectral_coherence at 2 4. cbn [snd oe_L scale_M]. apply IH.
Qed.

Lemma velocity_history : forall b q1 q2 N L0 h e sel k1 r c, 0 < c -> auto sel ->
  let g := coh_run (coh_cache_init b q1 q2 N L0) h in
  let g' := coh_run (coh_cache_init b q1 q2 N L0) (map (fun q => (scale_M c (fst (fst q)), snd (fst q), snd q)) h) in
  coh_kept (coh_grid_for g (oe_L e)) sel e k1 -> coh_kept (coh_grid_for g (oe_L e)) sel (scale_M c e) k1 ->
  fst (spectral_coherence g' sel (scale_M c e) k1 r) = fst (spectral_coherence g sel e k1 r).
Proof.
  intros b q1 q2 N L0 h e sel k1 r c Hc Ha g g' K K'. unfold g'. rewrite velocity_run. fold g. unfold spectral_coherence. cbn [fst oe_L scale_M].
  apply velocity_coherence; assumption.
Qed.

(** ** The loss *)

Lemma distances_same : forall c, 0 < c -> forall m t, List.Forall (fun v => v <> 0) m -> List.Forall (fun v => v <> 0) t ->
  sq_log_distances (map (Rmult c) m) (map (Rmult c) t) = sq_log_distances m t.
Proof.
  intros c C m. induction m as [|a m IH]; intros [|b t] Hm Ht; try reflexivity.
  inversion Hm as [|? ? A1 A2]; subst. inversion Ht as [|? ? B1 B2]; subst. cbn [map sq_log_distances]. rewrite IH, !ln_scale by assumption.
  f_equal. ring.
Qed.

Lemma distances_all_same : forall c, 0 < c -> forall ms ts,
  List.Forall (List.Forall (fun v => v <> 0)) ms -> List.Forall (List.Forall (fun v => v <> 0)) ts ->
  sq_log_distances_all (map (map (Rmult c)) ms) (map (map (Rmult c)) ts) = sq_log_distances_all ms ts.
Proof.
  intros c C ms. induction ms as [|m ms IH]; intros [|t ts] Hm Ht; try reflexivity.
  inversion Hm as [|? ? A1 A2]; subst. inversion Ht as [|? ? B1 B2]; subst. cbn [map sq_log_distances_all]. rewrite IH, distances_same by assumption. reflexivity.
Qed.

Lemma velocity_fit : forall c, 0 < c -> forall p ks zref th p1 p2 N curves data e coh,
  regular_curves ks (curves_of e p1 p2 N curves ks) -> regular_curves ks data ->
  all_kept e p1 p2 N curves ks -> all_kept (scale_M c e) p1 p2 N curves ks ->
  loss_value p ks zref (curves_of (scale_M c e) p1 p2 N curves ks) (map (map (Rmult c)) data) th coh
  = loss_value p ks zref (curves_of e p1 p2 N curves ks) data th coh.
Proof.
  intros c C p ks zref th p1 p2 N curves data e coh [_ RM] [_ RD] K K'. rewrite curves_scale by assumption.
  set (ms := curves_of e p1 p2 N curves ks) in *.
  assert (HM : List.Forall (List.Forall (fun v => v <> 0)) ms) by (eapply List.Forall_impl; [|exact RM]; cbv beta; tauto).
  assert (HD : List.Forall (List.Forall (fun v => v <> 0)) data) by (eapply List.Forall_impl; [|exact RD]; cbv beta; tauto).
  unfold loss_value. rewrite distances_all_same by assumption.
  rewrite (flat_map_scale (slopes ks)), (flat_map_scale (bends ks)); [reflexivity| |].
  - intros y I. apply bends_scale; [exact C|]. rewrite List.Forall_forall in HM. apply HM. exact I.
  - intros y I. apply slopes_scale; [exact C|]. rewrite List.Forall_forall in HM. apply HM. exact I.
Qed.
