(** Proofs about the low-frequency generator: construction and generation as a whole,
    positions of the delivered samples, energies, spectra. *)

From Coq Require Import Reals List ZArith Bool Lia Lra.
From Coquelicot Require Import Complex.
From Verif Require Import Prelude GenModel GenSpec GenProofs DftModel DftSpec DftProofs DftMore DftCov LowModel LowSpec LowProofs LowFourier.
Import ListNotations.
Open Scope R_scope.

(** ** Arrays *)

Lemma tabulate2_shape : forall n m u, shape2 n m (tabulate2 n m u).
Proof.
  intros n m u. unfold shape2, tabulate2. split; [rewrite map_length, seq_length; reflexivity|].
  apply List.Forall_map, List.Forall_forall. intros p _. rewrite map_length, seq_length. reflexivity.
Qed.

Lemma nth_error_seq : forall n a i, (i < n)%nat -> nth_error (seq a n) i = Some (a + i)%nat.
Proof. intros n a i Hi. rewrite nth_error_nth' with (d := O) by (rewrite seq_length; exact Hi). rewrite seq_nth by exact Hi. reflexivity. Qed.

Lemma entry_tabulate2 : forall n m u p q, (p < n)%nat -> (q < m)%nat -> entry (tabulate2 n m u) p q = Some (u (p, q, 0%nat)).
Proof.
  intros n m u p q Hp Hq. unfold entry, tabulate2. rewrite nth_error_map, nth_error_seq by exact Hp. cbn [option_map].
  rewrite nth_error_map, nth_error_seq by exact Hq. reflexivity.
Qed.

Lemma entry_value : forall f p q v, entry f p q = Some v -> value f p q = v.
Proof.
  intros f p q v H. unfold entry in H. unfold value. destruct (nth_error f p) as [r|] eqn:E; [|discriminate].
  rewrite (nth_error_nth f p [] E). apply nth_error_nth. exact H.
Qed.

Lemma at2_tabulate2 : forall n m u x, on_grid (n, m, 1%nat) x -> at2 (tabulate2 n m u) x = u x.
Proof.
  intros n m u [[p q] r] (Hp & Hq & Hr). unfold at2. assert (r = 0%nat) by lia. subst r.
  apply (entry_value (tabulate2 n m u) p q). apply entry_tabulate2; assumption.
Qed.

(** ** Construction and generation *)

Lemma low_constructed : forall quad cfg w, low_construct quad cfg = Ok w -> positive_lengths cfg ->
  lw_cfg w = cfg /\ grid_facts cfg (lw_grid w) /\ / 10^16 <= quad (low_shape (lc_L cfg) (lc_zi cfg))
  /\ lw_c w = lc_sigma2 cfg / (2 * quad (low_shape (lc_L cfg) (lc_zi cfg))) /\ lw_u w = None.
Proof.
  intros quad cfg w H HP. unfold low_construct, compute_c in H.
  destruct (Reqb (lc_L cfg) 0); [discriminate|]. destruct (Rltb _ _) eqn:E in H; [discriminate|]. apply Rltb_false in E.
  cbn [bind] in H. destruct (make_low_grid_ok cfg HP) as (g & Eg & Hg). rewrite Eg in H. cbn [bind] in H. injection H as <-.
  cbn [lw_cfg lw_grid lw_c lw_u]. tauto.
Qed.

Lemma low_construct_ok : forall quad cfg, positive_lengths cfg -> / 10^16 <= quad (low_shape (lc_L cfg) (lc_zi cfg)) ->
  exists w, low_construct quad cfg = Ok w.
Proof.
  intros quad cfg HP Hq. unfold low_construct, compute_c. destruct HP as (HL & HP).
  unfold Reqb. destruct (Req_EM_T (lc_L cfg) 0) as [E|_]; [lra|].
  rewrite (proj2 (Rltb_false _ _) Hq). cbn [bind]. destruct (make_low_grid_ok cfg (conj HL HP)) as (g & Eg & _). rewrite Eg. cbn [bind].
  eexists. reflexivity.
Qed.

Definition ready (w : low_gen) : Prop := exists cfg, positive_lengths cfg /\ grid_facts cfg (lw_grid w).

Lemma low_generated : forall G (gauss : G -> R * G) w cfg g0, grid_facts cfg (lw_grid w) ->
  let gr := lw_grid w in
  let noise := fst (normal2 gauss (lg_cN1 gr) (lg_cN2 gr) g0) in
  let s1 := ((lg_cN1 gr - lg_N1 gr) / 2)%nat in
  let s2 := ((lg_cN2 gr - lg_N2 gr) / 2)%nat in
  exists u1 u2, low_generate gauss w g0 = (Ok (LowGen (lw_cfg w) (lw_c w) gr (Some (u1, u2))), snd (normal2 gauss (lg_cN1 gr) (lg_cN2 gr) g0))
  /\ shape2 (lg_N1 gr) (lg_N2 gr) u1 /\ shape2 (lg_N1 gr) (lg_N2 gr) u2
  /\ forall i j, (i < lg_N1 gr)%nat -> (j < lg_N2 gr)%nat ->
       entry u1 i j = entry (fst (low_full w noise)) (i + s1) (j + s2) /\ entry u2 i j = entry (snd (low_full w noise)) (i + s1) (j + s2)
       /\ entry u1 i j = Some (low_sample (gen_Q1 w) gr (at2 noise) ((i + s1)%nat, (j + s2)%nat, 0%nat))
       /\ entry u2 i j = Some (low_sample (gen_Q2 w) gr (at2 noise) ((i + s1)%nat, (j + s2)%nat, 0%nat)).
Proof.
  intros G gauss w cfg g0 F gr noise s1 s2. fold gr in F.
  pose proof (gf_21 _ _ F) as A1. pose proof (gf_22 _ _ F) as A2. pose proof (gf_u1 _ _ F) as B1. pose proof (gf_u2 _ _ F) as B2.
  set (T1 := tabulate2 (lg_cN1 gr) (lg_cN2 gr) (low_sample (gen_Q1 w) gr (at2 noise))).
  set (T2 := tabulate2 (lg_cN1 gr) (lg_cN2 gr) (low_sample (gen_Q2 w) gr (at2 noise))).
  destruct (extract_window (lg_cN1 gr) (lg_cN2 gr) (lg_N1 gr) (lg_N2 gr) T1) as (u1 & X1 & S1 & V1); [apply tabulate2_shape|lia|exact B1|exact B2|].
  destruct (extract_window (lg_cN1 gr) (lg_cN2 gr) (lg_N1 gr) (lg_N2 gr) T2) as (u2 & X2 & S2 & V2); [apply tabulate2_shape|lia|exact B1|exact B2|].
  exists u1, u2. split; [|split; [exact S1|split; [exact S2|]]].
  - unfold low_generate. fold gr. unfold noise in T1, T2. destruct (normal2 gauss (lg_cN1 gr) (lg_cN2 gr) g0) as [nz g1]. cbn [fst snd] in *.
    unfold low_full. fold gr. fold T1 T2. rewrite X1. cbn [bind]. rewrite X2. reflexivity.
  - intros i j Hi Hj. cbn [low_full fst snd]. fold gr. fold T1 T2. fold s1 s2 in V1, V2.
    assert (P1 : (i + s1 < lg_cN1 gr)%nat) by (unfold s1; pose proof (Nat.div_le_upper_bound (lg_cN1 gr - lg_N1 gr) 2 (lg_cN1 gr - lg_N1 gr)); lia).
    assert (P2 : (j + s2 < lg_cN2 gr)%nat) by (unfold s2; pose proof (Nat.div_le_upper_bound (lg_cN2 gr - lg_N2 gr) 2 (lg_cN2 gr - lg_N2 gr)); lia).
    rewrite V1, V2 by assumption. split; [reflexivity|]. split; [reflexivity|].
    split; unfold T1, T2; rewrite entry_tabulate2 by assumption; reflexivity.
Qed.

Lemma window_positions : forall G (gauss : G -> R * G) w cfg g0, grid_facts cfg (lw_grid w) ->
  let gr := lw_grid w in
  let noise := at2 (fst (normal2 gauss (lg_cN1 gr) (lg_cN2 gr) g0)) in
  let dl := Rmin (asked_dx cfg) (asked_dy cfg) in
  let x0 := INR ((lg_cN1 gr - lg_N1 gr) / 2) * dl in
  let y0 := INR ((lg_cN2 gr - lg_N2 gr) / 2) * dl in
  exists w' g1 u1 u2, low_generate gauss w g0 = (Ok w', g1) /\ lw_u w' = Some (u1, u2) /\ lw_grid w' = gr
  /\ forall i j, (i < 2 ^ lc_e1 cfg)%nat -> (j < 2 ^ lc_e2 cfg)%nat ->
       entry u1 i j = Some (plane_waves gr (prescribed (gen_Q1 w) gr noise) (x0 + INR i * dl) (y0 + INR j * dl))
       /\ entry u2 i j = Some (plane_waves gr (prescribed (gen_Q2 w) gr noise) (x0 + INR i * dl) (y0 + INR j * dl)).
Proof.
  intros G gauss w cfg g0 F gr noise dl x0 y0. fold gr in F. destruct (low_generated G gauss w cfg g0 F) as (u1 & u2 & EG & S1 & S2 & V).
  fold gr in EG, S1, S2, V. do 4 eexists.
  split; [exact EG|]. split; [reflexivity|]. split; [reflexivity|]. intros i j Hi Hj.
  rewrite <- (gf_N1 _ _ F) in Hi. rewrite <- (gf_N2 _ _ F) in Hj. destruct (V i j Hi Hj) as (_ & _ & V1 & V2). fold noise in V1, V2.
  rewrite V1, V2. destruct (gf_d _ _ F) as [D1 D2]. fold dl in D1, D2. pose proof (gf_dpos _ _ F) as DP. fold dl in DP.
  pose proof (gf_21 _ _ F). pose proof (gf_22 _ _ F).
  rewrite !low_sample_waves by (try lia; try (rewrite ?D1, ?D2; exact DP); try apply (gf_c1 _ _ F); try apply (gf_c2 _ _ F)).
  rewrite D1, D2, !plus_INR, !Rmult_plus_distr_r, !(Rplus_comm (INR i * dl)), !(Rplus_comm (INR j * dl)). split; reflexivity.
Qed.

(** With equal spacings the delivered values belong to their coordinates, up to one
    constant offset. *)
Lemma equal_spacing_positions : forall w cfg, positive_lengths cfg -> grid_facts cfg (lw_grid w) -> asked_dx cfg = asked_dy cfg ->
  let gr := lw_grid w in
  exists x0 y0, forall G (gauss : G -> R * G) g0,
  let noise := at2 (fst (normal2 gauss (lg_cN1 gr) (lg_cN2 gr) g0)) in
  exists w' g1, low_generate gauss w g0 = (Ok w', g1)
  /\ forall i j, (i < 2 ^ lc_e1 cfg)%nat -> (j < 2 ^ lc_e2 cfg)%nat ->
       let x := INR i * asked_dx cfg in let y := INR j * asked_dy cfg in
       low_interp w' x y = Ok (plane_waves gr (prescribed (gen_Q1 w) gr noise) (x0 + x) (y0 + y),
                               plane_waves gr (prescribed (gen_Q2 w) gr noise) (x0 + x) (y0 + y)).
Proof.
  intros w cfg HP F HE gr. fold gr in F. do 2 eexists. intros G gauss g0 noise.
  destruct (window_positions G gauss w cfg g0 F) as (w' & g1 & u1 & u2 & EG & EU & EGr & V). fold gr in EGr, V. fold noise in V.
  exists w', g1. split; [exact EG|]. intros i j Hi Hj x y. destruct (V i j Hi Hj) as [V1 V2].
  unfold low_interp. rewrite EU, EGr. destruct HP as (HL & HF1 & HF2).
  assert (A1 : 0 < lg_L1 gr) by (rewrite (gf_L1 _ _ F); apply Rmult_lt_0_compat; assumption).
  assert (A2 : 0 < lg_L2 gr) by (rewrite (gf_L2 _ _ F); apply Rmult_lt_0_compat; assumption).
  assert (Ex : x = nth i (user_coords (lg_L1 gr) (lg_N1 gr)) 0).
  { rewrite user_coords_nth by (rewrite (gf_N1 _ _ F); exact Hi). unfold x, asked_dx. rewrite (gf_L1 _ _ F), (gf_N1 _ _ F), pow2_INR. reflexivity. }
  assert (Ey : y = nth j (user_coords (lg_L2 gr) (lg_N2 gr)) 0).
  { rewrite user_coords_nth by (rewrite (gf_N2 _ _ F); exact Hj). unfold y, asked_dy. rewrite (gf_L2 _ _ F), (gf_N2 _ _ F), pow2_INR. reflexivity. }
  assert (HI : forall u, interpolate (user_coords (lg_L1 gr) (lg_N1 gr)) (user_coords (lg_L2 gr) (lg_N2 gr)) u x y = value u i j).
  { intros u. rewrite Ex, Ey. apply interpolate_node; try (apply user_coords_increasing; assumption);
      rewrite user_coords_length, ?(gf_N1 _ _ F), ?(gf_N2 _ _ F); assumption. }
  rewrite !HI.
  rewrite (entry_value _ _ _ _ V1), (entry_value _ _ _ _ V2). unfold x, y.
  rewrite <- HE, Rmin_left by lra. reflexivity.
Qed.

(** Unequal spacings: coordinates and samples drift apart. *)
Lemma unequal_spacing : forall cfg, asked_dx cfg <> asked_dy cfg -> (1 <= lc_e1 cfg)%nat -> (1 <= lc_e2 cfg)%nat ->
  let dl := Rmin (asked_dx cfg) (asked_dy cfg) in
  forall x0 y0, exists i j, (i < 2 ^ lc_e1 cfg)%nat /\ (j < 2 ^ lc_e2 cfg)%nat /\
    ~ (INR i * asked_dx cfg = x0 + INR i * dl /\ INR j * asked_dy cfg = y0 + INR j * dl).
Proof.
  intros cfg Hne H1 H2 dl x0 y0.
  assert (P : forall e, (1 <= e)%nat -> (1 < 2 ^ e)%nat) by (intros e He; destruct e; [lia|]; apply Nat.pow_gt_1; lia).
  destruct (Req_dec x0 0) as [->|Hx].
  - destruct (Req_dec y0 0) as [->|Hy].
    + exists 1%nat, 1%nat. split; [apply P; exact H1|]. split; [apply P; exact H2|]. cbn [INR]. intros [A B]. apply Hne. lra.
    + exists 0%nat, 0%nat. split; [pose proof (P _ H1); lia|]. split; [pose proof (P _ H2); lia|]. cbn [INR]. intros [A B]. apply Hy. lra.
  - exists 0%nat, 0%nat. split; [pose proof (P _ H1); lia|]. split; [pose proof (P _ H2); lia|]. cbn [INR]. intros [A B]. apply Hx. lra.
Qed.

(** ** Size of the kernel *)

Lemma Rpower_7_3_ge : forall x, / 10^12 <= x -> / 10^28 <= Rpower x (7/3).
Proof.
  intros x Hx. assert (P : 0 < / 10^12) by (apply Rinv_0_lt_compat; lra).
  apply Rle_trans with (Rpower (/ 10^12) (7/3)).
  - right. assert (E : / 10^12 = Rpower 10 (- INR 12)) by (rewrite Rpower_Ropp, Rpower_pow by lra; reflexivity).
    rewrite E, Rpower_mult. replace (- INR 12 * (7/3)) with (- INR 28) by (cbn [INR]; lra).
    rewrite Rpower_Ropp, Rpower_pow by lra. reflexivity.
  - apply Rle_Rpower_l; [lra|split; lra].
Qed.

Lemma denominator_ge : forall L zi x, 0 < L -> L <= 10^6 -> 0 <= x -> / 10^30 <= Rpower (/ L^2 + x) (7/3) * (1 + x * zi^2).
Proof.
  intros L zi x HL HL6 Hx.
  assert (H12 : / 10^12 <= / L^2).
  { apply Rinv_le_contravar; [apply pow_lt; exact HL|]. replace (10^12) with ((10^6)^2) by ring. apply pow_incr. lra. }
  pose proof (Rpower_7_3_ge (/ L^2 + x) ltac:(lra)) as HR.
  assert (Hz : 0 <= x * zi^2) by (apply Rmult_le_pos; [exact Hx|apply pow2_ge_0]).
  assert (P28 : 0 < / 10^28) by (apply Rinv_0_lt_compat; lra).
  apply Rle_trans with (/ 10^28 * 1); [|apply Rmult_le_compat; lra].
  rewrite Rmult_1_r. apply Rinv_le_contravar; lra.
Qed.

Lemma low_kappa2_nonneg : forall psi k1 k2, 0 <= low_kappa2 psi k1 k2.
Proof. intros. unfold low_kappa2. pose proof (pow2_ge_0 (k1 * cos psi)). pose proof (pow2_ge_0 (k2 * sin psi)). lra. Qed.

Lemma grid_scale_pos : forall dx dy, 0 < grid_scale dx dy.
Proof.
  intros. unfold grid_scale. apply Rdiv_lt_0_compat; [pose proof PI_RGT_0; lra|]. apply sqrt_lt_R0.
  apply Rlt_le_trans with (/ 10^16); [apply Rinv_0_lt_compat; lra|apply Rmax_r].
Qed.

Lemma low_phi_pos : forall c L psi zi dx dy k1 k2, 0 < c -> 0 < L -> L <= 10^6 -> / 10^20 <= k1^2 + k2^2 -> 0 < low_phi c L psi zi dx dy k1 k2.
Proof.
  intros c L psi zi dx dy k1 k2 Hc HL HL6 Hk. unfold low_phi. cbv zeta. rewrite (proj2 (Rltb_false _ _) Hk).
  assert (P20 : 0 < / 10^20) by (apply Rinv_0_lt_compat; lra). assert (P30 : 0 < / 10^30) by (apply Rinv_0_lt_compat; lra).
  pose proof (denominator_ge L zi _ HL HL6 (low_kappa2_nonneg psi k1 k2)) as HD. rewrite (proj2 (Rltb_false _ _) HD).
  apply Rmult_lt_0_compat; [|apply grid_scale_pos]. apply sqrt_lt_R0.
  assert (HK : 0 < sqrt (Rmax (low_kappa2 psi k1 k2) (/ 10^20))) by (apply sqrt_lt_R0, Rlt_le_trans with (/ 10^20); [exact P20|apply Rmax_r]).
  assert (HS : 0 < sqrt (k1^2 + k2^2)) by (apply sqrt_lt_R0; lra).
  eapply Rlt_le_trans; [|apply Rmax_l]. apply Rdiv_lt_0_compat.
  - apply Rdiv_lt_0_compat; [apply Rmult_lt_0_compat; [exact Hc|apply pow_lt; exact HK]|lra].
  - apply Rmult_lt_0_compat; [apply PI_RGT_0|apply pow_lt; exact HS].
Qed.

Lemma Q1_nonzero : forall c L psi zi dx dy k1 k2, 0 < c -> 0 < L -> L <= 10^6 -> / 10^20 <= k1^2 + k2^2 -> k2 <> 0 -> low_Q1 c L psi zi dx dy k1 k2 <> RtoC 0.
Proof.
  intros c L psi zi dx dy k1 k2 Hc HL HL6 Hk Hk2 E. pose proof (low_phi_pos c L psi zi dx dy k1 k2 Hc HL HL6 Hk) as HP.
  unfold low_Q1 in E. apply (f_equal snd) in E. cbn in E. assert (E' : low_phi c L psi zi dx dy k1 k2 * k2 = 0) by lra.
  apply Rmult_integral in E'. lra.
Qed.

(** ** Spikes *)

Lemma spike_at : forall y x, spike y x = if eqn x y then 1 else 0.
Proof. intros [[a b] c] [[p q] r]. reflexivity. Qed.

Lemma spike_hat : forall d y k, on_grid d y -> fftn d (fun x => RtoC (spike y x)) k = cis (- theta d k y).
Proof.
  intros d y k Hy. unfold fftn. rewrite (csum_pick _ (grid d) y).
  - rewrite spike_at. destruct (eqn_spec y y) as [_|H]; [|contradiction]. ring.
  - apply grid_NoDup.
  - apply grid_In. exact Hy.
  - intros x _ Hx. rewrite spike_at. destruct (eqn_spec x y) as [E|_]; [contradiction|]. ring.
Qed.

Lemma spike_origin : forall d k, nonempty d -> fourier d (spike (0, 0, 0)%nat) k = RtoC 1.
Proof.
  intros [[nx ny] nz] k (H1 & H2 & H3). rewrite fourier_fftn, spike_hat by (unfold on_grid; lia). rewrite <- cis_0. f_equal.
  destruct k as [[a b] c]. unfold theta. cbn [INR]. unfold Rdiv. ring.
Qed.

(** The highest streamwise wave number of the generated field violates the
    divergence condition. *)
Lemma nyquist_divergence : forall quad cfg w, positive_lengths cfg -> low_construct quad cfg = Ok w -> 0 < lc_sigma2 cfg -> lc_L cfg <= 10^6 ->
  (4 <= lg_cN2 (lw_grid w))%nat -> lg_cL2 (lw_grid w) <= 10^10 ->
  let g := lw_grid w in
  let noise := spike (0, 0, 0)%nat in
  let k := ((lg_cN1 g / 2)%nat, 1%nat, 0%nat) in
  horizontal_divergence g (low_sample (gen_Q1 w) g noise) (low_sample (gen_Q2 w) g noise) k <> RtoC 0
  /\ fourier (lg_cN1 g, lg_cN2 g, 1%nat) (low_sample (gen_Q2 w) g noise) k = RtoC 0
  /\ prescribed (gen_Q2 w) g noise k <> RtoC 0
  /\ fourier (lg_cN1 g, lg_cN2 g, 1%nat) (low_sample (gen_Q1 w) g noise) k <> RtoC 0.
Proof.
  intros quad cfg w HP HC Hs HL6 HN2 HL10 g noise k. destruct (low_constructed quad cfg w HC HP) as (EC & F & HQ & Ec & _). fold g in F, HN2, HL10.
  destruct HP as (HL & HF1 & HF2).
  assert (P16 : 0 < / 10^16) by (apply Rinv_0_lt_compat; lra).
  assert (Hc : 0 < lw_c w) by (rewrite Ec; apply Rdiv_lt_0_compat; lra).
  destruct (gf_e1 _ _ F) as [m Hm]. pose proof (gf_21 _ _ F) as H21. pose proof (gf_22 _ _ F) as H22.
  assert (Em : (lg_cN1 g / 2 = m)%nat) by (rewrite Hm, Nat.mul_comm; apply Nat.div_mul; lia).
  unfold k. rewrite Em. destruct (gf_d _ _ F) as [D1 D2]. pose proof (gf_dpos _ _ F) as DP.
  set (k1 := physical_k (lg_cL1 g) (lg_cN1 g) m). set (k2 := physical_k (lg_cL2 g) (lg_cN2 g) 1).
  assert (HcL1 : 0 < lg_cL1 g) by (rewrite (gf_c1 _ _ F), D1; apply Rmult_lt_0_compat; [apply lt_0_INR; lia|exact DP]).
  assert (HcL2 : 0 < lg_cL2 g) by (rewrite (gf_c2 _ _ F), D2; apply Rmult_lt_0_compat; [apply lt_0_INR; lia|exact DP]).
  assert (K1 : k1 <> 0).
  { unfold k1, physical_k. destruct (Nat.ltb_spec (2 * m) (lg_cN1 g)) as [H|_]; [lia|]. apply Ropp_neq_0_compat.
    apply Rgt_not_eq. apply Rdiv_lt_0_compat; [|exact HcL1]. apply Rmult_lt_0_compat; [pose proof PI_RGT_0; lra|].
    assert (INR m < INR (lg_cN1 g)) by (apply lt_INR; lia). lra. }
  assert (K2v : k2 = 2 * PI / lg_cL2 g).
  { unfold k2, physical_k. destruct (Nat.ltb_spec (2 * 1) (lg_cN2 g)) as [_|H]; [|lia]. cbn [INR]. unfold Rdiv. ring. }
  assert (K2 : / 10^10 <= k2).
  { rewrite K2v. apply Rle_trans with (/ lg_cL2 g); [apply Rinv_le_contravar; assumption|].
    unfold Rdiv. rewrite <- (Rmult_1_l (/ lg_cL2 g)) at 1. apply Rmult_le_compat_r; [left; apply Rinv_0_lt_compat; exact HcL2|]. pose proof PI2_1. lra. }
  assert (P10 : 0 < / 10^10) by (apply Rinv_0_lt_compat; lra).
  assert (KK : / 10^20 <= k1^2 + k2^2).
  { assert (/ 10^20 = (/ 10^10)^2) by (rewrite pow_inv; f_equal; ring). pose proof (pow2_ge_0 k1). pose proof (pow_incr (/ 10^10) k2 2 ltac:(lra)). lra. }
  assert (HPQ : prescribed (gen_Q1 w) g noise (m, 1%nat, 0%nat) = gen_Q1 w k1 k2).
  { unfold prescribed. unfold noise. rewrite spike_origin by (unfold nonempty; lia). fold k1 k2. ring. }
  assert (HPQ2 : prescribed (gen_Q2 w) g noise (m, 1%nat, 0%nat) = gen_Q2 w k1 k2).
  { unfold prescribed. unfold noise. rewrite spike_origin by (unfold nonempty; lia). fold k1 k2. ring. }
  assert (HQ1 : gen_Q1 w k1 k2 <> RtoC 0) by (unfold gen_Q1; rewrite EC; apply Q1_nonzero; try assumption; lra).
  assert (HQ2 : gen_Q2 w k1 k2 <> RtoC 0).
  { unfold gen_Q2. rewrite EC. intros E. pose proof (low_phi_pos (lw_c w) (lc_L cfg) (lc_psi cfg) (lc_zi cfg) (lg_cdx (lw_grid w)) (lg_cdy (lw_grid w)) k1 k2 Hc HL HL6 KK) as HPh.
    unfold low_Q2 in E. apply (f_equal snd) in E. cbn in E.
    set (f := low_phi _ _ _ _ _ _ _ _) in *. assert (E' : f * k1 = 0) by lra. apply Rmult_integral in E'. destruct E' as [E'|E']; [lra|contradiction]. }
  assert (N2 : (2 * 1 <> lg_cN2 g)%nat) by lia.
  pose proof (divergence_nyquist g ltac:(lia) ltac:(lia) (gf_c1 _ _ F) (gf_c2 _ _ F) (lw_c w) (lc_L (lw_cfg w)) (lc_psi (lw_cfg w)) (lc_zi (lw_cfg w)) noise m 1 ltac:(lia) ltac:(lia) ltac:(lia) N2) as HD.
  fold g in HPQ. unfold gen_Q1, gen_Q2 in *. fold g in HPQ, HPQ2, HQ1, HQ2 |- *. split; [|split; [|split]].
  - rewrite HD, HPQ. fold k1. apply Cmult_neq_0; [|exact HQ1]. intros E. apply (f_equal fst) in E. cbn in E. contradiction.
  - rewrite coefficients2 by (try lia; try apply (gf_c1 _ _ F); try apply (gf_c2 _ _ F)). rewrite (proj2 (Nat.eqb_eq (2 * m) (lg_cN1 g))) by lia. reflexivity.
  - rewrite HPQ2. exact HQ2.
  - rewrite coefficients1 by (try lia; try apply (gf_c1 _ _ F); try apply (gf_c2 _ _ F)). rewrite (proj2 (Nat.eqb_neq (2 * 1) (lg_cN2 g)) N2). rewrite HPQ. exact HQ1.
Qed.
