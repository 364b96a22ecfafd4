(** Covariance of the sampled field, the Nyquist modes of even grids, and the scalar
    samplers. *)

From Coq Require Import String Reals List ZArith Lia Lra Permutation Bool.
From Coquelicot Require Import Complex.
From Verif Require Import Prelude RdtModel RdtSpec RdtProofs GenModel DftModel DftSpec DftProofs DftMore.
Import ListNotations.
Open Scope R_scope.

(** ** Impulses *)

Lemma impulse_at : forall l y i x, impulse l y i x = if eqn x y then delta i l else 0.
Proof. intros l [[a b] c] i [[p q] r]. reflexivity. Qed.

Lemma impulse_hat : forall d l y i k, on_grid d y ->
  fftn d (fun x => RtoC (impulse l y i x)) k = Cmult (RtoC (delta i l)) (cis (- theta d k y)).
Proof.
  intros d l y i k Hy. unfold fftn. rewrite (csum_pick _ _ y).
  - rewrite impulse_at. destruct (eqn_spec y y) as [_|H]; [reflexivity|congruence].
  - apply grid_NoDup.
  - apply grid_In; exact Hy.
  - intros x _ Hne. rewrite impulse_at. destruct (eqn_spec x y) as [H|_]; [congruence|]. ring.
Qed.

Lemma impulse_correlated : forall G L d l y i k, on_grid d y ->
  correlated G L d (impulse l y) i k = Cmult (Cmult (spectrum_at G L d k i l) (RtoC (sqrt (count d)))) (cis (- theta d k y)).
Proof.
  intros G L d l y i k Hy. unfold correlated. rewrite !impulse_hat by exact Hy. destruct l; cbn [delta]; ring.
Qed.

(** ** Covariance *)

Lemma Rsum_RtoC : forall A (l : list A) f, RtoC (Rsum (map f l)) = csum l (fun x => RtoC (f x)).
Proof.
  induction l as [|a l IH]; intros f; [reflexivity|]. cbn [map csum fold_right]. unfold Rsum; cbn [fold_right].
  rewrite RtoC_plus. f_equal. apply IH.
Qed.

Lemma sample_impulse : forall G L d l y i x, nonempty d -> on_grid d y ->
  (forall k i j, on_grid d k -> spectrum_at G L d (mirror d k) i j = Cconj (spectrum_at G L d k i j)) ->
  RtoC (sample_vf G L d (impulse l y) i x)
  = Cmult (RtoC (/ (count d * transform_norm L) * sqrt (count d)))
      (csum (grid d) (fun k => Cmult (Cmult (spectrum_at G L d k i l) (cis (theta d k x))) (cis (- theta d k y)))).
Proof.
  intros G L d l y i x Hd Hy HG. rewrite nothing_dropped by assumption. rewrite full_sum_csum, RtoC_mult, <- Cmult_assoc. f_equal.
  rewrite <- csum_scal. apply csum_ext. intros k _. rewrite impulse_correlated by exact Hy. ring.
Qed.

Lemma covariance_sum : forall G L d i j x x', nonempty d -> positive_box L ->
  (forall k i j, on_grid d k -> spectrum_at G L d (mirror d k) i j = Cconj (spectrum_at G L d k i j)) ->
  RtoC (white_covariance d (sample_vf G L d) i j x x')
  = Cmult (RtoC (/ (transform_norm L)^2))
      (csum (grid d) (fun k => Cmult (covariance (spectrum_at G L d k) i j) (cis (theta d k x - theta d k x')))).
Proof.
  intros G L d i j x x' Hd HL HG. unfold white_covariance. rewrite Rsum_RtoC, csum_nodes_of.
  pose proof (count_pos d Hd) as HN.
  assert (HT : 0 < transform_norm L).
  { destruct L as [[Lx Ly] Lz], HL as (H1 & H2 & H3). unfold transform_norm. apply sqrt_lt_R0.
    apply Rmult_lt_0_compat; [apply Rmult_lt_0_compat|]; assumption. }
  set (c := / (count d * transform_norm L) * sqrt (count d)).
  set (A := fun (i l : ix) (x : node) (y k : node) => Cmult (Cmult (spectrum_at G L d k i l) (cis (theta d k x))) (cis (- theta d k y))).
  assert (Hterm : forall y l, on_grid d y -> RtoC (sample_vf G L d (impulse l y) i x * sample_vf G L d (impulse l y) j x')
      = Cmult (RtoC (c * c)) (csum (grid d) (fun k => csum (grid d) (fun k' => Cmult (A i l x y k) (Cconj (A j l x' y k')))))).
  { intros y l Hy. rewrite RtoC_mult, RtoC_mult.
    rewrite <- (Cconj_R (sample_vf G L d (impulse l y) j x')).
    rewrite !sample_impulse by assumption. fold c. rewrite Cconj_mult, Cconj_R, csum_conj.
    transitivity (Cmult (Cmult (RtoC c) (RtoC c)) (Cmult (csum (grid d) (A i l x y)) (csum (grid d) (fun k' => Cconj (A j l x' y k'))))).
    - unfold A. ring.
    - f_equal. rewrite <- csum_scal_r. apply csum_ext. intros k _. rewrite <- csum_scal. reflexivity. }
  rewrite (csum_ext _ _ _ (fun y => Cmult (RtoC (c * c)) (csum (grid d) (fun k => csum (grid d) (fun k' =>
      Cmult (Cmult (csum3 (fun l => Cmult (spectrum_at G L d k i l) (Cconj (spectrum_at G L d k' j l)))) (cis (theta d k x - theta d k' x')))
        (Cmult (cis (theta d k' y)) (cis (- theta d k y)))))))).
  2:{ intros y Hy. rewrite grid_In in Hy. unfold sum3. rewrite !RtoC_plus, !Hterm by exact Hy.
      rewrite <- !Cmult_plus_distr_l. f_equal. rewrite <- !csum_plus. apply csum_ext. intros k _. rewrite <- !csum_plus.
      apply csum_ext. intros k' _. unfold A, csum3. rewrite !Cconj_mult.
      rewrite <- !(cis_neg (theta d k' x')), <- !(cis_neg (- theta d k' y)), Ropp_involutive.
      unfold Rminus. rewrite cis_plus. ring. }
  rewrite csum_scal.
  assert (Hcc : c * c = / (transform_norm L)^2 * / count d).
  { unfold c. rewrite <- (sqrt_sqrt (count d)) at 2 4 by lra.
    assert (Hs : 0 < sqrt (count d)) by (apply sqrt_lt_R0; exact HN).
    rewrite sqrt_sqrt by lra. transitivity (/ count d * / transform_norm L * (/ count d * / transform_norm L) * (sqrt (count d) * sqrt (count d))).
    - rewrite Rinv_mult. ring.
    - rewrite sqrt_sqrt by lra. field. lra. }
  rewrite Hcc, RtoC_mult, <- Cmult_assoc. f_equal.
  rewrite csum_swap. rewrite <- csum_scal. apply csum_ext. intros k Hk. rewrite csum_swap.
  rewrite (csum_ext _ _ _ (fun k' => Cmult (Cmult (csum3 (fun l => Cmult (spectrum_at G L d k i l) (Cconj (spectrum_at G L d k' j l)))) (cis (theta d k x - theta d k' x')))
      (if eqn k' k then RtoC (count d) else RtoC 0))).
  2:{ intros k' Hk'. rewrite csum_scal. f_equal. rewrite grid_In in Hk, Hk'. apply orthogonality; assumption. }
  rewrite (csum_pick _ _ k).
  - destruct (eqn_spec k k) as [_|H]; [|congruence]. rewrite RtoC_inv by lra. unfold covariance. field.
    intros H. apply RtoC_inj in H. lra.
  - apply grid_NoDup.
  - exact Hk.
  - intros k' _ Hne. destruct (eqn_spec k' k) as [H|_]; [congruence|]. ring.
Qed.

Lemma norm_squared : forall Lx Ly Lz, 0 < Lx -> 0 < Ly -> 0 < Lz -> (transform_norm (Lx, Ly, Lz))^2 = Lx * Ly * Lz.
Proof.
  intros. unfold transform_norm. rewrite pow2_sqrt; [reflexivity|]. left. apply Rmult_lt_0_compat; [apply Rmult_lt_0_compat|]; assumption.
Qed.

(** ** The Nyquist modes of an even grid *)

Section Nyquist.

Variables E0 Lk Lx Ly Lz : R.
Variables m ny nz : nat.
Hypothesis HE : 0 < E0.
Hypothesis HLk : 0 < Lk.
Hypothesis Hx : 0 < Lx.
Hypothesis Hy : 0 < Ly.
Hypothesis Hz : 0 < Lz.
Hypothesis Hm : (0 < m)%nat.
Hypothesis Hny : (3 <= ny)%nat.
Hypothesis Hnz : (0 < nz)%nat.

Let d : extents := ((2 * m)%nat, ny, nz).
Let L : R * R * R := (Lx, Ly, Lz).
Let G : kernel := fun k1 k2 k3 => times_1j (vk_kernel E0 Lk k1 k2 k3).
Let k : node := (m, 1%nat, 0%nat).
Let noise : ix -> node -> R := impulse X3 (0, 0, 0)%nat.
Let K1 : R := wave_number Lx (2 * m) m.
Let K2 : R := wave_number Ly ny 1.

Lemma nyq_nonempty : nonempty d.
Proof. unfold d, nonempty. lia. Qed.
Lemma nyq_on_grid : on_grid d k.
Proof. unfold d, k, on_grid. lia. Qed.
Lemma nyq_origin : on_grid d (0, 0, 0)%nat.
Proof. unfold d, on_grid. lia. Qed.

Lemma nyq_mirror : mirror d k = (m, (ny - 1)%nat, 0%nat).
Proof.
  unfold mirror, d, k. replace (2 * m - m)%nat with m by lia. rewrite Nat.sub_0_r, Nat.mod_same, !Nat.mod_small by lia. reflexivity.
Qed.

Lemma nyq_K1 : K1 < 0.
Proof.
  unfold K1. rewrite wave_number_physical by lia. unfold physical_k. destruct (Nat.ltb_spec (2 * m) (2 * m)) as [H|_]; [lia|].
  rewrite mult_INR. apply lt_INR in Hm. cbn [INR] in *. pose proof PI_RGT_0.
  apply Ropp_lt_gt_0_contravar, Rdiv_lt_0_compat; [|exact Hx]. nra.
Qed.

Lemma nyq_K2 : 0 < K2.
Proof.
  unfold K2. rewrite wave_number_physical by lia. unfold physical_k. destruct (Nat.ltb_spec (2 * 1) ny) as [_|H]; [|lia].
  pose proof PI_RGT_0. apply Rdiv_lt_0_compat; [|exact Hy]. cbn [INR]. lra.
Qed.

Lemma nyq_wave3 : wave_number Lz nz 0 = 0.
Proof. rewrite wave_number_physical by exact Hnz. unfold physical_k. destruct (Nat.ltb_spec (2 * 0) nz) as [_|H]; [|lia]. cbn [INR]. unfold Rdiv. ring. Qed.

Lemma nyq_spectrum : forall i j, spectrum_at G L d k i j = G K1 K2 0 i j.
Proof. intros. unfold spectrum_at, wave_vector, L, d, k. rewrite nyq_wave3. reflexivity. Qed.

Lemma nyq_spectrum_mirror : forall i j, spectrum_at G L d (mirror d k) i j = G K1 (- K2) 0 i j.
Proof.
  intros. rewrite nyq_mirror. unfold spectrum_at, wave_vector, L, d. rewrite nyq_wave3.
  pose proof (wave_number_mirror Ly ny 1 ltac:(lia) ltac:(lia)) as H. rewrite Nat.mod_small in H by lia. rewrite H. reflexivity.
Qed.

Lemma nyq_hat : forall q, correlated G L d noise q k = Cmult (G K1 K2 0 q X3) (RtoC (sqrt (count d))).
Proof.
  intros q. unfold noise. rewrite impulse_correlated by apply nyq_origin. rewrite nyq_spectrum.
  replace (- theta d k (0, 0, 0)%nat) with 0; [rewrite cis_0; ring|].
  unfold theta, d, k. cbn [INR]. unfold Rdiv. ring.
Qed.

Lemma nyq_hat_mirror : forall q, correlated G L d noise q (mirror d k) = Cmult (G K1 (- K2) 0 q X3) (RtoC (sqrt (count d))).
Proof.
  intros q. unfold noise. rewrite impulse_correlated by apply nyq_origin. rewrite nyq_spectrum_mirror.
  replace (- theta d (mirror d k) (0, 0, 0)%nat) with 0; [rewrite cis_0; ring|].
  rewrite nyq_mirror. unfold theta, d. cbn [INR]. unfold Rdiv. ring.
Qed.

Let c : R := kernel_const E0 Lk (kk_of K1 K2 0).

Lemma nyq_c : 0 < c.
Proof.
  unfold c, kernel_const. apply sqrt_lt_R0. pose proof PI_RGT_0. apply Rdiv_lt_0_compat.
  - apply Rdiv_lt_0_compat; [|lra]. apply Rmult_lt_0_compat; [exact HE|]. apply exp_pos.
  - apply exp_pos.
Qed.

Lemma nyq_G : forall q, G K1 K2 0 q X3 = Cmult (RtoC (match q with X1 => c * K2 | X2 => - c * K1 | X3 => 0 end)) Ci.
Proof. intros q. unfold G, times_1j, vk_kernel, cross_mat. fold c. destruct q; reflexivity. Qed.

Lemma nyq_G_mirror : forall q, G K1 (- K2) 0 q X3 = Cmult (RtoC (match q with X1 => - (c * K2) | X2 => - c * K1 | X3 => 0 end)) Ci.
Proof.
  intros q. unfold G, times_1j, vk_kernel, cross_mat.
  replace (kk_of K1 (- K2) 0) with (kk_of K1 K2 0) by (unfold kk_of; ring). fold c. destruct q; try reflexivity.
  f_equal. f_equal. ring.
Qed.

Lemma nyq_sqrt : 0 < sqrt (count d).
Proof. apply sqrt_lt_R0, count_pos, nyq_nonempty. Qed.

Lemma nyq_norm : 0 < transform_norm L.
Proof. unfold transform_norm, L. apply sqrt_lt_R0. apply Rmult_lt_0_compat; [apply Rmult_lt_0_compat|]; assumption. Qed.

Lemma nyq_divergence : spectral_divergence L d (sample_vf G L d noise) k <> RtoC 0.
Proof.
  rewrite spectral_divergence_wave by apply nyq_nonempty. rewrite !fourier_sample by (apply nyq_nonempty || apply nyq_on_grid).
  unfold extended. rewrite !nyq_hat, !nyq_hat_mirror, !nyq_G, !nyq_G_mirror.
  replace (share (snd d) (snd k)) with (/ 2) by (unfold d, k, share, weight; cbn; lra).
  replace (share (snd d) (snd (mirror d k))) with (/ 2) by (rewrite nyq_mirror; unfold d, share, weight; cbn; lra).
  change (wave_vector L d k X1) with K1. change (wave_vector L d k X2) with K2. 
  replace (wave_vector L d k X3) with 0 by (symmetry; apply nyq_wave3).
  intros H. apply (f_equal snd) in H.
  pose proof nyq_K1. pose proof nyq_K2. pose proof nyq_c. pose proof nyq_sqrt. pose proof nyq_norm.
  set (s := sqrt (count d)) in *. set (t := transform_norm L) in *.
  unfold Cplus, Cmult, Cconj, RtoC, Ci in H; cbn [fst snd] in H.
  assert (Hz0 : K1 * K2 * c * s * / t = 0) by (etransitivity; [|exact H]; field; lra).
  assert (Hn : K1 * K2 * c * s * / t <> 0).
  { clear H Hz0. clearbody s t c. clearbody K1 K2. repeat apply Rmult_integral_contrapositive_currified; try lra. apply Rinv_neq_0_compat. lra. }
  contradiction.
Qed.

Lemma nyq_imaginary : ~ (forall x, on_grid d x -> Im (full_sum d (correlated G L d noise X2) x) = 0).
Proof.
  intros H. set (h := correlated G L d noise X2) in *.
  assert (Hr : forall x, on_grid d x -> ifftn d h x = RtoC (Re (ifftn d h x))).
  { intros x Hxx. specialize (H x Hxx). rewrite full_sum_csum in H. unfold ifftn. apply C_eq; cbn [fst snd RtoC Re].
    - reflexivity.
    - rewrite Cmult_RtoC_snd. unfold Im in H. rewrite H. ring. }
  assert (Hh : h (mirror d k) = Cconj (h k)).
  { assert (E : forall l, fftn d (ifftn d h) l = fftn d (fun x => RtoC (Re (ifftn d h x))) l).
    { intros l. unfold fftn. apply csum_ext. intros x Hxx. rewrite grid_In in Hxx. rewrite <- Hr by exact Hxx. reflexivity. }
    transitivity (fftn d (ifftn d h) (mirror d k)).
    - symmetry. apply fftn_ifftn; [apply nyq_nonempty|apply mirror_on_grid, nyq_nonempty].
    - rewrite E, fftn_real_mirror by (apply nyq_nonempty || apply nyq_on_grid). rewrite <- E. f_equal.
      apply fftn_ifftn; [apply nyq_nonempty|apply nyq_on_grid]. }
  unfold h in Hh. rewrite nyq_hat, nyq_hat_mirror, nyq_G, nyq_G_mirror in Hh.
  apply (f_equal snd) in Hh. unfold Cplus, Cmult, Cconj, RtoC, Ci in Hh; cbn [fst snd] in Hh.
  pose proof nyq_K1. pose proof nyq_c. pose proof nyq_sqrt. set (s := sqrt (count d)) in *.
  assert (Hz0 : K1 * c * s = 0) by lra.
  assert (Hn : K1 * c * s <> 0) by (clear Hh Hz0; clearbody s c; clearbody K1 K2; repeat apply Rmult_integral_contrapositive_currified; lra).
  contradiction.
Qed.

End Nyquist.

(** ** Scalar samplers *)

Lemma fft_white : forall L d n x, nonempty d -> on_grid d x -> sample_fft (fun _ => RtoC 1) L d n x = n x / transform_norm L.
Proof.
  intros L d n x Hd Hx. unfold sample_fft. f_equal.
  transitivity (Re (fftn d (ifftn d (fun y => RtoC (n y))) x)).
  - f_equal. unfold fftn. apply csum_ext. intros k _. ring.
  - rewrite fftn_ifftn by assumption. reflexivity.
Qed.

Lemma fftw_fft : forall S L d n x, nonempty d -> (forall k, on_grid d k -> S (mirror d k) = Cconj (S k)) ->
  sample_fftw S L d n x = sqrt (count d) * sample_fft (fun k => Cconj (S k)) L d n x.
Proof.
  intros S L d n x Hd HS. unfold sample_fftw, sample_fft. unfold Rdiv. rewrite <- Rmult_assoc. f_equal.
  set (h := fun k => Cmult (fftn d (fun y => RtoC (n y)) k) (Cmult (S k) (RtoC (sqrt (count d))))).
  assert (Hh : hermitian_modes d h).
  { intros k Hk. unfold h. rewrite HS, fftn_real_mirror by assumption. rewrite !Cconj_mult, Cconj_R. reflexivity. }
  pose proof (irfftn_hermitian d h x Hd Hh) as E. apply (f_equal Re) in E. cbn [Re RtoC fst] in E. change (irfftn d h x = Re (ifftn d h x)) in E. rewrite E.
  unfold ifftn, fftn at 1. unfold Re. rewrite Cmult_RtoC_fst.
  rewrite <- (csum_mirror d (fun k => Cmult (h k) (cis (theta d k x))) Hd).
  rewrite <- Cmult_RtoC_fst, <- Cmult_RtoC_fst, <- !csum_scal. f_equal. apply csum_ext. intros k Hk. rewrite grid_In in Hk.
  rewrite cis_mirror, (theta_sym d x k) by assumption. unfold h. rewrite HS by exact Hk.
  assert (Ef : fftn d (fun y => RtoC (n y)) (mirror d k) = csum (grid d) (fun y => Cmult (RtoC (n y)) (cis (theta d y k)))).
  { unfold fftn. apply csum_ext. intros y _. f_equal. rewrite cis_neg, cis_mirror, <- cis_neg, Ropp_involutive by assumption. rewrite theta_sym. reflexivity. }
  rewrite Ef. unfold ifftn. ring.
Qed.

(** ** Statements in terms of the specification *)

Lemma kernel_at_spectrum : forall G L d k, nonempty d -> kernel_at G L d k = spectrum_at G L d k.
Proof.
  intros G [[Lx Ly] Lz] [[nx ny] nz] [[a b] c] (Hx & Hy & Hz). unfold kernel_at, spectrum_at, wave_vector.
  rewrite !wave_number_physical by assumption. reflexivity.
Qed.

Lemma covariance_spec : forall G Lx Ly Lz d i j x x', nonempty d -> 0 < Lx -> 0 < Ly -> 0 < Lz ->
  (forall k i j, on_grid d k -> kernel_at G (Lx, Ly, Lz) d (mirror d k) i j = Cconj (kernel_at G (Lx, Ly, Lz) d k i j)) ->
  RtoC (white_covariance d (sample_vf G (Lx, Ly, Lz) d) i j x x')
  = Cmult (RtoC (/ (Lx * Ly * Lz)))
      (fold_right (fun k acc => Cplus (Cmult (covariance (kernel_at G (Lx, Ly, Lz) d k) i j)
                                             (cos (angle d k x - angle d k x'), sin (angle d k x - angle d k x'))) acc)
                  (RtoC 0) (nodes_of d)).
Proof.
  intros G Lx Ly Lz d i j x x' Hd H1 H2 H3 HG. rewrite covariance_sum.
  - rewrite norm_squared by assumption. f_equal. rewrite <- csum_nodes_of. unfold csum. induction (nodes_of d) as [|k l IH]; [reflexivity|].
    cbn [fold_right]. rewrite IH, kernel_at_spectrum, !angle_theta by exact Hd. reflexivity.
  - exact Hd.
  - repeat split; assumption.
  - intros k i' j' Hk. rewrite <- !kernel_at_spectrum by exact Hd. apply HG. exact Hk.
Qed.

Lemma Rsum_reindex : forall d s f, nonempty d -> Rsum (map (fun y => f (translate d s y)) (nodes_of d)) = Rsum (map f (nodes_of d)).
Proof.
  intros d s f Hd. apply RtoC_inj. rewrite !Rsum_RtoC, !csum_nodes_of. apply (csum_translate d s (fun y => RtoC (f y)) Hd).
Qed.

Lemma translate_inj : forall d s x y, on_grid d x -> on_grid d y -> translate d s x = translate d s y -> x = y.
Proof.
  intros [[nx ny] nz] [[a b] c] [[p q] r] [[p' q'] r'] (Hp & Hq & Hr) (Hp' & Hq' & Hr') H. unfold translate in H.
  pose proof (proj1 (mod_back nx a p Hp)). pose proof (proj1 (mod_back nx a p' Hp')). pose proof (proj1 (mod_back ny b q Hq)).
  pose proof (proj1 (mod_back ny b q' Hq')). pose proof (proj1 (mod_back nz c r Hr)). pose proof (proj1 (mod_back nz c r' Hr')).
  assert ((p + a) mod nx = (p' + a) mod nx)%nat by congruence. assert ((q + b) mod ny = (q' + b) mod ny)%nat by congruence.
  assert ((r + c) mod nz = (r' + c) mod nz)%nat by congruence.
  assert (p = p') by congruence. assert (q = q') by congruence. assert (r = r') by congruence. congruence.
Qed.

Lemma covariance_stationary : forall G L d s i j x x', nonempty d ->
  white_covariance d (sample_vf G L d) i j (translate d s x) (translate d s x') = white_covariance d (sample_vf G L d) i j x x'.
Proof.
  intros G L d s i j x x' Hd. unfold white_covariance. rewrite <- (Rsum_reindex d s (fun y => sum3 _) Hd). f_equal.
  apply map_ext_in. intros y Hy. rewrite nodes_of_In in Hy. unfold sum3.
  assert (E : forall l q z, sample_vf G L d (impulse l (translate d s y)) q (translate d s z) = sample_vf G L d (impulse l y) q z).
  { intros l q z. rewrite <- sample_shift by exact Hd. apply sample_ext. intros jj w Hw. rewrite !impulse_at.
    destruct (eqn_spec (translate d s w) (translate d s y)) as [H|H], (eqn_spec w y) as [H'|H']; try reflexivity.
    - apply translate_inj in H; [contradiction|assumption|assumption].
    - subst. contradiction. }
  rewrite !E. reflexivity.
Qed.
