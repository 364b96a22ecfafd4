(** Lemmas behind the statements about the studies of the low-frequency generator. *)

From Coq Require Import String Reals List ZArith Bool Lia Lra Permutation.
From Coquelicot Require Import Coquelicot.
From Verif Require Import Prelude GenModel GenSpec GenProofs DftModel DftSpec DftProofs DftMore DftCov LowModel LowSpec LowProofs LowFourier LowMore LowSpectrum LowCov LowApi EstSpec EstProofs StudyModel StudySpec StudyProofs StudyPool StudyStats StudyAverages.
Import ListNotations.
Open Scope R_scope.

(** ** Fields which are not zero *)

Lemma list_nonzero : forall A (l : list A) (f : A -> R), (exists x, In x l /\ f x <> 0) \/ (forall x, In x l -> f x = 0).
Proof.
  intros A l f. induction l as [|a l [(x & Hx & Nx)|IH]].
  - right. intros x [].
  - left. exists x. split; [right; exact Hx|exact Nx].
  - destruct (Req_dec (f a) 0) as [E|N].
    + right. intros x [<-|Hx]; [exact E|apply IH; exact Hx].
    + left. exists a. split; [left; reflexivity|exact N].
Qed.

Lemma fourier_nonzero : forall d u k, fourier d u k <> RtoC 0 -> exists x, on_grid d x /\ u x <> 0.
Proof.
  intros d u k HN. destruct (list_nonzero _ (nodes_of d) u) as [(x & Hx & Nx)|HZ].
  - exists x. split; [apply nodes_of_In; exact Hx|exact Nx].
  - exfalso. apply HN. rewrite fourier_fftn. unfold fftn. rewrite <- (csum_zero _ (grid d)). apply csum_ext. intros x Hx. rewrite HZ; [ring|]. apply nodes_of_In, grid_In, Hx.
Qed.

Lemma spike_fourier : forall d k, nonempty d -> Cmod (fourier d (spike (0, 0, 0)%nat) k) = 1.
Proof.
  intros [[a b] c] k Hd. rewrite fourier_fftn, spike_hat by exact Hd. unfold cis, Cmod. cbn [fst snd]. rewrite <- sqrt_1. f_equal. pose proof (sin2_cos2 (- theta (a, b, c) k (0, 0, 0)%nat)) as S. unfold Rsqr in S. lra.
Qed.

Lemma mode_one : forall L n, 0 < L -> L <= 10^8 -> (4 <= n)%nat -> / 10^20 <= (physical_k L n 1)^2 /\ physical_k L n 1 <> 0.
Proof.
  intros L n HL H8 Hn. unfold physical_k. destruct (2 * 1 <? n)%nat eqn:E; [|apply Nat.ltb_ge in E; lia]. cbn [INR].
  pose proof PI2_1 as P. assert (HB : / 10^10 <= 2 * PI / L).
  { apply Rle_trans with (/ L); [apply Rinv_le_contravar; [exact HL|lra]|]. unfold Rdiv. pose proof (Rinv_0_lt_compat L HL). nra. }
  assert (P10 : 0 < / 10^10) by (apply Rinv_0_lt_compat; lra). split.
  - replace (/ 10^20) with ((/ 10^10)^2) by (rewrite pow_inv; f_equal; lra). apply pow_incr. split; [lra|]. replace (2 * PI * 1 / L) with (2 * PI / L) by (unfold Rdiv; ring). lra.
  - replace (2 * PI * 1 / L) with (2 * PI / L) by (unfold Rdiv; ring). lra.
Qed.

Lemma field_active : forall quad cfg w, positive_lengths cfg -> low_construct quad cfg = Ok w -> 0 < lc_sigma2 cfg -> lc_L cfg <= 10^6 ->
  let g := lw_grid w in let d := (lg_cN1 g, lg_cN2 g, 1%nat) in
  (lg_cL2 g <= 10^8 -> (4 <= lg_cN2 g)%nat -> exists x, on_grid d x /\ low_sample (gen_Q1 w) g (spike (0, 0, 0)%nat) x <> 0)
  /\ (lg_cL1 g <= 10^8 -> (4 <= lg_cN1 g)%nat -> exists x, on_grid d x /\ low_sample (gen_Q2 w) g (spike (0, 0, 0)%nat) x <> 0).
Proof.
  intros quad cfg w HP HC Hs H6 g d. destruct (low_constructed quad cfg w HC HP) as (EC & F & HQ & Ec & _). fold g in F.
  assert (P16 : 0 < / 10^16) by (apply Rinv_0_lt_compat; lra).
  assert (Hc : 0 < lw_c w) by (rewrite Ec; apply Rdiv_lt_0_compat; lra).
  pose proof (gf_21 _ _ F) as H21. pose proof (gf_22 _ _ F) as H22. pose proof (gf_dpos _ _ F) as DP. destruct (gf_d _ _ F) as [D1 D2].
  assert (I1 : 0 < INR (lg_cN1 g)) by (apply lt_0_INR; lia). assert (I2 : 0 < INR (lg_cN2 g)) by (apply lt_0_INR; lia).
  assert (HcL1 : 0 < lg_cL1 g) by (rewrite (gf_c1 _ _ F); apply Rmult_lt_0_compat; [exact I1|rewrite D1; exact DP]).
  assert (HcL2 : 0 < lg_cL2 g) by (rewrite (gf_c2 _ _ F); apply Rmult_lt_0_compat; [exact I2|rewrite D2; exact DP]).
  assert (Hd : nonempty d) by (unfold d, nonempty; lia).
  assert (HN : forall q z k, q <> 0 -> z = Cmult (Cmult (RtoC q) Ci) (fourier d (spike (0, 0, 0)%nat) k) -> z <> RtoC 0).
  { intros q z k Hq -> E. apply (f_equal Cmod) in E. rewrite !Cmod_mult, (spike_fourier d k Hd), Cmod_0 in E. rewrite Cmod_R in E. unfold Cmod at 1 in E. cbn [fst snd Ci] in E. replace (0^2 + 1^2) with 1 in E by ring. rewrite sqrt_1 in E.
    apply Rabs_no_R0 in Hq. lra. }
  destruct HP as (HL & HF). assert (HP : positive_lengths cfg) by (split; assumption). split; intros H8 H4.
  - destruct (mode_one _ _ HcL2 H8 H4) as [K1 K2]. apply (fourier_nonzero d _ (0, 1, 0)%nat). destruct (coefficients_api quad cfg w (spike (0, 0, 0)%nat) 0 1 HP HC ltac:(fold g; lia) ltac:(fold g; lia)) as [E _]. fold g d in E. rewrite E.
    destruct (Nat.eqb_spec (2 * 1) (lg_cN2 g)) as [EB|_]; [lia|]. unfold prescribed. fold d.
    apply (HN (low_phi (lw_c w) (lc_L cfg) (lc_psi cfg) (lc_zi cfg) (lg_cdx g) (lg_cdy g) (physical_k (lg_cL1 g) (lg_cN1 g) 0) (physical_k (lg_cL2 g) (lg_cN2 g) 1) * physical_k (lg_cL2 g) (lg_cN2 g) 1) _ (0, 1, 0)%nat).
    + assert (0 < low_phi (lw_c w) (lc_L cfg) (lc_psi cfg) (lc_zi cfg) (lg_cdx g) (lg_cdy g) (physical_k (lg_cL1 g) (lg_cN1 g) 0) (physical_k (lg_cL2 g) (lg_cN2 g) 1)).
      { apply low_phi_pos; try assumption. pose proof (pow2_ge_0 (physical_k (lg_cL1 g) (lg_cN1 g) 0)). lra. }
      apply Rmult_integral_contrapositive_currified; [lra|exact K2].
    + f_equal. unfold gen_Q1, low_Q1. rewrite EC. fold g. apply Cmult_comm.
  - destruct (mode_one _ _ HcL1 H8 H4) as [K1 K2]. apply (fourier_nonzero d _ (1, 0, 0)%nat). destruct (coefficients_api quad cfg w (spike (0, 0, 0)%nat) 1 0 HP HC ltac:(fold g; lia) ltac:(fold g; lia)) as [_ E]. fold g d in E. rewrite E.
    destruct (Nat.eqb_spec (2 * 1) (lg_cN1 g)) as [EB|_]; [lia|]. unfold prescribed. fold d.
    apply (HN (low_phi (lw_c w) (lc_L cfg) (lc_psi cfg) (lc_zi cfg) (lg_cdx g) (lg_cdy g) (physical_k (lg_cL1 g) (lg_cN1 g) 1) (physical_k (lg_cL2 g) (lg_cN2 g) 0) * (-1 * physical_k (lg_cL1 g) (lg_cN1 g) 1)) _ (1, 0, 0)%nat).
    + assert (0 < low_phi (lw_c w) (lc_L cfg) (lc_psi cfg) (lc_zi cfg) (lg_cdx g) (lg_cdy g) (physical_k (lg_cL1 g) (lg_cN1 g) 1) (physical_k (lg_cL2 g) (lg_cN2 g) 0)).
      { apply low_phi_pos; try assumption. pose proof (pow2_ge_0 (physical_k (lg_cL2 g) (lg_cN2 g) 0)). lra. }
      apply Rmult_integral_contrapositive_currified; [lra|lra].
    + f_equal. unfold gen_Q2, low_Q2. rewrite EC. fold g. apply Cmult_comm.
Qed.

Lemma Rsum_ge_term : forall A (l : list A) f x, (forall y, In y l -> 0 <= f y) -> In x l -> f x <= Rsum (map f l).
Proof.
  intros A l f x. induction l as [|a l IH]; intros H []; unfold Rsum in *; cbn [map fold_right].
  - subst a. assert (0 <= fold_right Rplus 0 (map f l)) by (apply (Rsum_nonneg A l f); intros y Hy; apply H; right; exact Hy). lra.
  - pose proof (IH ltac:(intros y Hy; apply H; right; exact Hy) H0). pose proof (H a (or_introl eq_refl)). lra.
Qed.

Lemma carried_pos : forall quad cfg w, positive_lengths cfg -> low_construct quad cfg = Ok w -> 0 < lc_sigma2 cfg ->
  let g := lw_grid w in
  ordinary cfg (lg_cL1 g) (lg_cL2 g) (lg_cdx g) (lg_cdy g) -> (4 <= lg_cN1 g)%nat -> (4 <= lg_cN2 g)%nat ->
  0 < carried1 (lw_c w) cfg (lg_cL1 g) (lg_cL2 g) (lg_cN1 g) (lg_cN2 g) /\ 0 < carried2 (lw_c w) cfg (lg_cL1 g) (lg_cL2 g) (lg_cN1 g) (lg_cN2 g).
Proof.
  intros quad cfg w HP HC Hs g HO H4 H4'. pose proof HO as (O1 & O2 & O3 & O4 & _). destruct (field_active quad cfg w HP HC Hs O2) as [A1 A2]. fold g in A1, A2.
  assert (HG : on_grid (lg_cN1 g, lg_cN2 g, 1%nat) (0, 0, 0)%nat) by (unfold on_grid; lia).
  assert (HQ : forall T x, T (spike (0, 0, 0)%nat) x <> 0 -> 0 < plane_covariance (lg_cN1 g, lg_cN2 g, 1%nat) T x x).
  { intros T x NZ. unfold plane_covariance. pose proof (Rsum_ge_term _ (nodes_of (lg_cN1 g, lg_cN2 g, 1%nat)) (fun y => T (spike y) x * T (spike y) x) (0, 0, 0)%nat) as GE.
    cbv beta in GE. pose proof (GE ltac:(intros y _; apply Rle_0_sqr) ltac:(apply nodes_of_In; exact HG)) as GE'. pose proof (Rlt_0_sqr _ NZ) as PS. unfold Rsqr in PS. lra. }
  destruct (A1 O4 H4') as (x1 & X1 & N1). destruct (A2 O3 H4) as (x2 & X2 & N2).
  destruct (diagonal quad cfg w x1 HP HC HO X1) as [E1 _]. destruct (diagonal quad cfg w x2 HP HC HO X2) as [_ E2]. fold g in E1, E2. rewrite <- E1, <- E2. split; apply HQ; assumption.
Qed.

(** ** Averages of variances *)

Lemma Rmean_scaled : forall (l : list nat) (f : nat -> R), (0 < length l)%nat -> Rmean (map f l) = / INR (length l) * Rsum (map f l).
Proof. intros l f H. unfold Rmean. rewrite map_length. unfold Rdiv. ring. Qed.

Section Averages.

Variables (G : Type) (gauss : G -> R * G) (ens : list (R * G)) (quad : (R -> R) -> R) (cfg : low_config) (w : low_gen) (n : nat).
Hypothesis HP : positive_lengths cfg.
Hypothesis HC : low_construct quad cfg = Ok w.
Hypothesis Hn : (1 <= n)%nat.
Let g := lw_grid w.
Let d := (lg_cN1 g, lg_cN2 g, 1%nat).
Hypothesis HO : ordinary cfg (lg_cL1 g) (lg_cL2 g) (lg_cdx g) (lg_cdy g).
Hypothesis HW : white gauss (n * (lg_cN1 g * lg_cN2 g)) ens.
Let V1 := carried1 (lw_c w) cfg (lg_cL1 g) (lg_cL2 g) (lg_cN1 g) (lg_cN2 g).
Let V2 := carried2 (lw_c w) cfg (lg_cL1 g) (lg_cL2 g) (lg_cN1 g) (lg_cN2 g).

Lemma avg_bound : forall r, In r (seq 0 n) -> (S r * (lg_cN1 g * lg_cN2 g) <= n * (lg_cN1 g * lg_cN2 g))%nat.
Proof. intros r Hr. apply in_seq in Hr. apply Nat.mul_le_mono_r. lia. Qed.

Lemma avg_value : forall (f : nat -> G -> R) (v : G -> R), (forall x, v x = Rmean (map (fun r => f r x) (seq 0 n))) ->
  mean ens v = / INR n * Rsum (map (fun r => mean ens (f r)) (seq 0 n)).
Proof.
  intros f v E. rewrite (mean_ext _ _ _ _ E). rewrite (mean_ext _ _ _ (fun x => / INR n * Rsum (map (fun r => f r x) (seq 0 n)))).
  - rewrite mean_scal, (mean_Rsum G ens nat (seq 0 n) (fun x r => f r x)). reflexivity.
  - intros x. rewrite (Rmean_scaled (seq 0 n)) by (rewrite seq_length; lia). rewrite seq_length. reflexivity.
Qed.

Lemma delivered_on : forall x, In x (delivered g) -> on_grid d x.
Proof.
  intros x Hx. destruct (low_constructed quad cfg w HC HP) as (EC & F & _). fold g in F. unfold delivered in Hx. apply in_map_iff in Hx. destruct Hx as ([[p q] r] & <- & Hx). apply nodes_of_In in Hx. destruct Hx as (H1 & H2 & H3).
  pose proof (gf_u1 _ _ F). pose proof (gf_u2 _ _ F). pose proof (Nat.mul_div_le (lg_cN1 g - lg_N1 g) 2 ltac:(lia)). pose proof (Nat.mul_div_le (lg_cN2 g - lg_N2 g) 2 ltac:(lia)).
  unfold d, on_grid. repeat split; lia.
Qed.

Lemma avg_positive : (0 < lg_cN1 g)%nat /\ (0 < lg_cN2 g)%nat /\ (0 < lg_N1 g)%nat /\ (0 < lg_N2 g)%nat.
Proof.
  destruct (low_constructed quad cfg w HC HP) as (EC & F & _). fold g in F. pose proof (gf_21 _ _ F). pose proof (gf_22 _ _ F). rewrite (gf_N1 _ _ F), (gf_N2 _ _ F).
  pose proof (Nat.pow_nonzero 2 (lc_e1 cfg) ltac:(lia)). pose proof (Nat.pow_nonzero 2 (lc_e2 cfg) ltac:(lia)). lia.
Qed.

Lemma delivered_length : (0 < length (delivered g))%nat.
Proof. unfold delivered. rewrite map_length, nodes_length. destruct avg_positive as (_ & _ & A & B). nia. Qed.

Lemma Rsum_bound : forall (l : list nat) f v, (forall r, In r l -> f r <= v) -> Rsum (map f l) <= INR (length l) * v.
Proof.
  intros l f v H. induction l as [|a l IH]; [cbn; lra|]. cbn [map length]. rewrite S_INR, Rsum_cons. pose proof (H a (or_introl eq_refl)). pose proof (IH ltac:(intros r Hr; apply H; right; exact Hr)). lra.
Qed.

(** Average over the delivered fields: at most what the grid carries, and exactly that
    without enlargement of the domain. *)
Lemma average_delivered : forall (st : G -> R * R), (forall x, fst (average_variances gauss n w x) = Ok (st x)) ->
  (mean ens (fun x => fst (st x)) <= V1 /\ mean ens (fun x => snd (st x)) <= V2)
  /\ (plain_domain cfg -> mean ens (fun x => fst (st x)) = V1 /\ mean ens (fun x => snd (st x)) = V2).
Proof.
  intros st HS. destruct (low_constructed quad cfg w HC HP) as (EC & F & _). fold g in F. destruct avg_positive as (P1 & P2 & _).
  assert (E : forall x, st x = (Rmean (map (fun r => spread (delivered g) (low_sample (gen_Q1 w) g (noise_of gauss (lg_cN1 g) (lg_cN2 g) x r))) (seq 0 n)),
                                Rmean (map (fun r => spread (delivered g) (low_sample (gen_Q2 w) g (noise_of gauss (lg_cN1 g) (lg_cN2 g) x r))) (seq 0 n)))).
  { intros x. specialize (HS x). unfold average_variances in HS. rewrite (realisation_list G gauss cfg w HP EC F n w x eq_refl eq_refl eq_refl) in HS. cbn [bind fst] in HS. rewrite !map_map in HS. cbn [fst snd] in HS.
    apply (f_equal (fun r => match r with Ok y => y | Err _ => st x end)) in HS. symmetry. exact HS. }
  destruct (component_kernels quad cfg w HP HC) as (A1 & A2 & HT1 & HT2). fold g in HT1, HT2.
  pose proof (fun x Hx => proj1 (diagonal quad cfg w x HP HC HO Hx)) as D1. pose proof (fun x Hx => proj2 (diagonal quad cfg w x HP HC HO Hx)) as D2. fold g V1 in D1. fold g V2 in D2.
  assert (IN : 0 < INR n) by (apply lt_0_INR; lia).
  rewrite (avg_value (fun r x => spread (delivered g) (low_sample (gen_Q1 w) g (noise_of gauss (lg_cN1 g) (lg_cN2 g) x r))) (fun x => fst (st x))) by (intros x; rewrite E; reflexivity).
  rewrite (avg_value (fun r x => spread (delivered g) (low_sample (gen_Q2 w) g (noise_of gauss (lg_cN1 g) (lg_cN2 g) x r))) (fun x => snd (st x))) by (intros x; rewrite E; reflexivity).
  assert (HB : forall f v, (forall r, In r (seq 0 n) -> f r <= v) -> / INR n * Rsum (map f (seq 0 n)) <= v).
  { intros f v H. pose proof (Rsum_bound (seq 0 n) f v H) as B. rewrite seq_length in B. apply (Rmult_le_reg_l (INR n)); [exact IN|]. rewrite <- Rmult_assoc, Rinv_r, Rmult_1_l by lra. exact B. }
  assert (HE : forall f v, (forall r, In r (seq 0 n) -> f r = v) -> / INR n * Rsum (map f (seq 0 n)) = v).
  { intros f v H. rewrite (Rsum_ext _ (seq 0 n) f (fun _ => v) H), Rsum_constant, seq_length. field. lra. }
  split.
  - split; apply HB; intros r Hr.
    + exact (spread_le (lg_cN1 g) (lg_cN2 g) P1 P2 _ A1 HT1 V1 D1 (delivered g) delivered_on delivered_length G gauss ens _ r HW (avg_bound r Hr)).
    + exact (spread_le (lg_cN1 g) (lg_cN2 g) P1 P2 _ A2 HT2 V2 D2 (delivered g) delivered_on delivered_length G gauss ens _ r HW (avg_bound r Hr)).
  - intros HD. destruct (plain_counts cfg g HP HD F) as (C1 & C2 & _).
    assert (EDn : delivered g = nodes_of d).
    { unfold delivered, d. rewrite (gf_N1 _ _ F), (gf_N2 _ _ F), C1, C2, !Nat.sub_diag. cbn [Nat.div Nat.divmod fst]. rewrite <- (map_id (nodes_of _)) at 2. apply map_ext. intros [[p q] r]. f_equal. f_equal; lia. }
    split; apply HE; intros r Hr.
    + apply (spread_eq (lg_cN1 g) (lg_cN2 g) P1 P2 _ A1 HT1 V1 D1 (delivered g) delivered_on delivered_length G gauss ens _ r HW (avg_bound r Hr)). intros noise. rewrite EDn. exact (proj1 (mean_api quad cfg w noise HP HC)).
    + apply (spread_eq (lg_cN1 g) (lg_cN2 g) P1 P2 _ A2 HT2 V2 D2 (delivered g) delivered_on delivered_length G gauss ens _ r HW (avg_bound r Hr)). intros noise. rewrite EDn. exact (proj2 (mean_api quad cfg w noise HP HC)).
Qed.

(** Average over the fields on the computational grid. *)
Lemma average_full : forall (st : G -> R * R), (forall x, fst (average_full_variances gauss n w x) = Ok (st x)) ->
  mean ens (fun x => fst (st x)) = V1 /\ mean ens (fun x => snd (st x)) = V2.
Proof.
  intros st HS. destruct (low_constructed quad cfg w HC HP) as (EC & F & _). fold g in F. destruct avg_positive as (P1 & P2 & _).
  assert (E : forall x, st x = (Rmean (map (fun r => spread (nodes_of d) (low_sample (gen_Q1 w) g (noise_of gauss (lg_cN1 g) (lg_cN2 g) x r))) (seq 0 n)),
                                Rmean (map (fun r => spread (nodes_of d) (low_sample (gen_Q2 w) g (noise_of gauss (lg_cN1 g) (lg_cN2 g) x r))) (seq 0 n)))).
  { intros x. specialize (HS x). unfold average_full_variances in HS. rewrite (full_list G gauss cfg w HP EC F n w x eq_refl eq_refl eq_refl) in HS. cbn [bind fst] in HS. rewrite !map_map in HS. cbn [fst snd] in HS.
    apply (f_equal (fun r => match r with Ok y => y | Err _ => st x end)) in HS. symmetry. exact HS. }
  destruct (component_kernels quad cfg w HP HC) as (A1 & A2 & HT1 & HT2). fold g in HT1, HT2.
  pose proof (fun x Hx => proj1 (diagonal quad cfg w x HP HC HO Hx)) as D1. pose proof (fun x Hx => proj2 (diagonal quad cfg w x HP HC HO Hx)) as D2. fold g V1 in D1. fold g V2 in D2.
  assert (IN : 0 < INR n) by (apply lt_0_INR; lia).
  rewrite (avg_value (fun r x => spread (nodes_of d) (low_sample (gen_Q1 w) g (noise_of gauss (lg_cN1 g) (lg_cN2 g) x r))) (fun x => fst (st x))) by (intros x; rewrite E; reflexivity).
  rewrite (avg_value (fun r x => spread (nodes_of d) (low_sample (gen_Q2 w) g (noise_of gauss (lg_cN1 g) (lg_cN2 g) x r))) (fun x => snd (st x))) by (intros x; rewrite E; reflexivity).
  assert (HE : forall f v, (forall r, In r (seq 0 n) -> f r = v) -> / INR n * Rsum (map f (seq 0 n)) = v).
  { intros f v H. rewrite (Rsum_ext _ (seq 0 n) f (fun _ => v) H), Rsum_constant, seq_length. field. lra. }
  assert (ON : forall x, In x (nodes_of d) -> on_grid d x) by (intros x Hx; apply nodes_of_In; exact Hx).
  assert (LN : (0 < length (nodes_of d))%nat) by (unfold d; rewrite nodes_length; nia).
  split; apply HE; intros r Hr.
  + apply (spread_eq (lg_cN1 g) (lg_cN2 g) P1 P2 _ A1 HT1 V1 D1 (nodes_of d) ON LN G gauss ens _ r HW (avg_bound r Hr)). intros noise. exact (proj1 (mean_api quad cfg w noise HP HC)).
  + apply (spread_eq (lg_cN1 g) (lg_cN2 g) P1 P2 _ A2 HT2 V2 D2 (nodes_of d) ON LN G gauss ens _ r HW (avg_bound r Hr)). intros noise. exact (proj2 (mean_api quad cfg w noise HP HC)).
Qed.

End Averages.

Lemma averages_defined : forall G (gauss : G -> R * G) quad cfg w n g, positive_lengths cfg -> low_construct quad cfg = Ok w ->
  is_ok (fst (average_variances gauss n w g)) /\ is_ok (fst (average_full_variances gauss n w g)).
Proof.
  intros G gauss quad cfg w n g HP HC. destruct (low_constructed quad cfg w HC HP) as (EC & F & _). unfold average_variances, average_full_variances.
  rewrite (realisation_list G gauss cfg w HP EC F n w g eq_refl eq_refl eq_refl), (full_list G gauss cfg w HP EC F n w g eq_refl eq_refl eq_refl). split; eexists; reflexivity.
Qed.

(** ** Printed variances *)

Lemma list_by_nth : forall (l : list R) m (f : nat -> R), length l = m -> (forall a, (1 <= a)%nat -> (a <= m)%nat -> nth (a - 1) l 0 = f a) -> l = map f (seq 1 m).
Proof.
  intros l m f HL H. apply (nth_ext _ _ 0 0); [rewrite map_length, seq_length; exact HL|]. intros i Hi. rewrite <- seq_shift, map_map, nth_map_seq by lia. rewrite <- H by lia. f_equal. lia.
Qed.

Lemma printed_identity : forall w u1 u2 tol m, lw_u w = Some (u1, u2) ->
  let g := lw_grid w in
  shape2 (lg_N1 g) (lg_N2 g) u1 -> shape2 (lg_N1 g) (lg_N2 g) u2 ->
  0 < lg_L1 g -> lg_N1 g = (2 * m)%nat -> (2 <= m)%nat -> (0 < lg_N2 g)%nat -> lg_dx g = lg_L1 g / INR (lg_N1 g) -> 0 < tol < 2 * PI / lg_L1 g ->
  let N := INR (lg_N1 g) * INR (lg_N2 g) in
  let rest u := (mode_energy (2 * m) (lg_N2 g) (at2 u) 0 + mode_energy (2 * m) (lg_N2 g) (at2 u) m) / N^2 - (Rsum (map (at2 u) (nodes_of (lg_N1 g, lg_N2 g, 1%nat))) / N)^2 in
  exists s1 s2, printed_variances w tol = Ok (var2 u1, s1, (var2 u2, s2)) /\ 2 * s1 + rest u1 = var2 u1 /\ 2 * s2 + rest u2 = var2 u2 /\ 0 <= s1 /\ 0 <= s2.
Proof.
  intros w u1 u2 tol m HU g S1 S2 HL HN Hm HN2 Hdx Ht N rest.
  destruct (compute_spectrum_spec w u1 u2 tol HU HL ltac:(fold g; lia) Hdx Ht) as (ks & F1 & F2 & ES & Lk & L1 & L2 & HV). fold g in Lk, L1, L2, HV.
  assert (HD : (lg_N1 g / 2 = m)%nat) by (rewrite HN, Nat.mul_comm; apply Nat.div_mul; lia). rewrite HD in *.
  assert (Ek : dk1_of ks = 2 * PI / lg_L1 g).
  { destruct ks as [|k0 [|k1 ks]]; cbn in Lk; [lia|lia|]. cbn [dk1_of]. destruct (HV 1%nat ltac:(lia) ltac:(lia)) as [K1 _]. destruct (HV 2%nat ltac:(lia) ltac:(lia)) as [K2 _]. cbn in K1, K2. rewrite K1, K2. field. lra. }
  assert (PK : 0 < 2 * PI / lg_L1 g) by (apply Rdiv_lt_0_compat; [pose proof PI_RGT_0; lra|exact HL]).
  assert (IN : 0 < N) by (unfold N; apply Rmult_lt_0_compat; apply lt_0_INR; lia).
  assert (HS : forall u F, shape2 (lg_N1 g) (lg_N2 g) u -> length F = m ->
    (forall a, (1 <= a)%nat -> (a <= m)%nat -> nth (a - 1) F 0 = (if (2 * a <? lg_N1 g)%nat then lg_L1 g / (2 * PI) * (mode_energy (lg_N1 g) (lg_N2 g) (at2 u) a / (INR (lg_N1 g) * INR (lg_N2 g))^2) else 0)) ->
    2 * var_from_spectrum ks F + rest u = var2 u /\ 0 <= var_from_spectrum ks F).
  { intros u F St LF HF. unfold var_from_spectrum. rewrite Ek, (proj2 (Rltb_true _ _) PK). rewrite (list_by_nth F m _ LF HF).
    assert (EM : Rsum (map (fun a => if (2 * a <? lg_N1 g)%nat then lg_L1 g / (2 * PI) * (mode_energy (lg_N1 g) (lg_N2 g) (at2 u) a / (INR (lg_N1 g) * INR (lg_N2 g))^2) else 0) (seq 1 m)) * (2 * PI / lg_L1 g)
      = Rsum (map (fun a => lg_L1 g / (2 * PI) * (mode_energy (2 * m) (lg_N2 g) (at2 u) a / (INR (2 * m) * INR (lg_N2 g))^2) * (2 * PI / lg_L1 g)) (seq 1 (m - 1)))).
    { replace m with (S (m - 1)) at 1 by lia. rewrite Rsum_seq_S. destruct (Nat.ltb_spec (2 * (1 + (m - 1))) (lg_N1 g)) as [Q|_]; [lia|]. rewrite Rplus_0_r, Rmult_comm, <- Rsum_scal. apply Rsum_ext. intros a Ha. apply in_seq in Ha.
      destruct (Nat.ltb_spec (2 * a) (lg_N1 g)) as [_|Q]; [|lia]. rewrite HN. ring. }
    rewrite EM. split.
    - pose proof (sum_rule m (lg_N2 g) (lg_L1 g) (at2 u) ltac:(lia) HN2 HL) as SR. cbv zeta in SR. rewrite SR, (var2_nodes (lg_N1 g) (lg_N2 g) u St ltac:(lia) HN2). unfold rest, N. rewrite !HN. field.
      rewrite <- HN. split; apply not_0_INR; lia.
    - apply Rsum_nonneg. intros a _. pose proof (mode_energy_nonneg (2 * m) (lg_N2 g) (at2 u) a). pose proof PI_RGT_0.
      apply Rmult_le_pos; [|lra]. apply Rmult_le_pos; [left; apply Rdiv_lt_0_compat; lra|]. apply Rmult_le_pos; [assumption|]. left. apply Rinv_0_lt_compat. apply pow_lt. rewrite <- HN. exact IN. }
  destruct (HS u1 F1 S1 L1 (fun a A B => proj1 (proj2 (HV a A B)))) as [R1 N1]. destruct (HS u2 F2 S2 L2 (fun a A B => proj2 (proj2 (HV a A B)))) as [R2 N2].
  exists (var_from_spectrum ks F1), (var_from_spectrum ks F2). unfold printed_variances. rewrite ES. cbn [bind]. rewrite HU. repeat split; assumption.
Qed.

(** The rest is never negative. *)
Lemma rest_nonneg : forall m n2 (u : node -> R), (0 < m)%nat -> (0 < n2)%nat ->
  let N := INR (2 * m) * INR n2 in
  (Rsum (map u (nodes_of (2 * m, n2, 1)%nat)) / N)^2 <= (mode_energy (2 * m) n2 u 0 + mode_energy (2 * m) n2 u m) / N^2.
Proof.
  intros m n2 u Hm Hn N. assert (IN : 0 < N) by (unfold N; apply Rmult_lt_0_compat; apply lt_0_INR; lia).
  assert (E0 : (Rsum (map u (nodes_of (2 * m, n2, 1)%nat)))^2 <= mode_energy (2 * m) n2 u 0).
  { unfold mode_energy. apply Rle_trans with (let z := fourier (2 * m, n2, 1)%nat u (0, 0, 0)%nat in (Re z)^2 + (Im z)^2).
    - cbv zeta. assert (ER : Re (fourier (2 * m, n2, 1)%nat u (0, 0, 0)%nat) = Rsum (map u (nodes_of (2 * m, n2, 1)%nat))).
      { unfold fourier. cbn [Re fst]. apply Rsum_ext. intros [[p q] r] _. replace (angle (2 * m, n2, 1)%nat (0, 0, 0)%nat (p, q, r)) with 0; [rewrite cos_0; ring|]. unfold angle, Rdiv. rewrite !Nat.mul_0_l. change (INR 0) with 0. ring. }
      rewrite ER. pose proof (pow2_ge_0 (Im (fourier (2 * m, n2, 1)%nat u (0, 0, 0)%nat))). lra.
    - apply (Rsum_ge_term _ (seq 0 n2) (fun b => let z := fourier (2 * m, n2, 1)%nat u (0%nat, b, 0%nat) in (Re z)^2 + (Im z)^2) 0%nat).
      + intros b _. cbv zeta. pose proof (pow2_ge_0 (Re (fourier (2 * m, n2, 1)%nat u (0%nat, b, 0%nat)))). pose proof (pow2_ge_0 (Im (fourier (2 * m, n2, 1)%nat u (0%nat, b, 0%nat)))). lra.
      + apply in_seq. lia. }
  pose proof (mode_energy_nonneg (2 * m) n2 u m) as EM. replace ((Rsum (map u (nodes_of (2 * m, n2, 1)%nat)) / N)^2) with ((Rsum (map u (nodes_of (2 * m, n2, 1)%nat)))^2 / N^2) by (field; lra).
  unfold Rdiv. apply Rmult_le_compat_r; [left; apply Rinv_0_lt_compat, pow_lt; exact IN|lra].
Qed.
