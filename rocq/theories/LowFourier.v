(** Proofs about the low-frequency generator: Fourier coefficients of the generated
    fields, positions of the samples, divergence. *)

From Coq Require Import Reals List ZArith Bool Lia Lra.
From Coquelicot Require Import Complex.
From Verif Require Import Prelude GenModel DftModel DftSpec DftProofs DftMore DftCov LowModel LowSpec LowProofs.
Import ListNotations.
Open Scope R_scope.

(** ** Real part of an inverse transform *)

Definition symm (d : extents) (h : node -> C) (k : node) : C := Cmult (RtoC (/ 2)) (Cplus (h k) (Cconj (h (mirror d k)))).

Lemma RtoC_Re : forall z, RtoC (Re z) = Cmult (RtoC (/ 2)) (Cplus z (Cconj z)).
Proof. intros z. rewrite <- Re_half, <- RtoC_mult. f_equal. field. Qed.

Lemma ifftn_conj : forall d h x, nonempty d -> Cconj (ifftn d h x) = ifftn d (fun k => Cconj (h (mirror d k))) x.
Proof.
  intros d h x Hd. unfold ifftn. rewrite Cconj_mult, Cconj_R. f_equal. rewrite csum_conj.
  rewrite <- (csum_mirror d (fun k => Cconj (Cmult (h k) (cis (theta d k x)))) Hd).
  apply csum_ext. intros k Hk. rewrite grid_In in Hk. rewrite Cconj_mult. f_equal.
  rewrite cis_mirror, cis_neg, Cconj_conj by assumption. reflexivity.
Qed.

Lemma ifftn_Re : forall d h x, nonempty d -> RtoC (Re (ifftn d h x)) = ifftn d (symm d h) x.
Proof.
  intros d h x Hd. rewrite RtoC_Re, ifftn_conj by exact Hd. unfold ifftn, symm.
  rewrite <- Cmult_plus_distr_l, <- csum_plus. rewrite Cmult_assoc, (Cmult_comm (RtoC (/ 2))), <- Cmult_assoc. f_equal.
  rewrite <- csum_scal. apply csum_ext. intros k _. ring.
Qed.

Lemma fourier_Re : forall d h k, nonempty d -> on_grid d k -> fourier d (fun x => Re (ifftn d h x)) k = symm d h k.
Proof.
  intros d h k Hd Hk. rewrite fourier_fftn. rewrite <- (fftn_ifftn d (symm d h) k Hd Hk).
  unfold fftn at 1 2. apply csum_ext. intros x _. rewrite ifftn_Re by exact Hd. reflexivity.
Qed.

Lemma fourier_ext : forall d u v k, (forall x, on_grid d x -> u x = v x) -> fourier d u k = fourier d v k.
Proof.
  intros d u v k H. rewrite !fourier_fftn. unfold fftn. apply csum_ext. intros x Hx. rewrite grid_In in Hx. rewrite H by exact Hx. reflexivity.
Qed.

(** ** Wave numbers *)

Lemma low_wave_physical : forall N d L a, (0 < N)%nat -> L = INR N * d -> low_wave N d a = physical_k L N a.
Proof.
  intros N d L a HN ->. unfold low_wave, physical_k, signed_mode. destruct (2 * a <? N)%nat.
  - rewrite <- INR_IZR_INZ. unfold Rdiv. ring.
  - rewrite minus_IZR, <- !INR_IZR_INZ. unfold Rdiv. ring.
Qed.

Lemma physical_k_mirror : forall L N a, (a < N)%nat -> (2 * a <> N)%nat -> physical_k L N ((N - a) mod N) = - physical_k L N a.
Proof. intros L N a Ha Hn. rewrite <- !wave_number_physical by lia. apply wave_number_mirror; assumption. Qed.

Lemma physical_k_self : forall L N a, (2 * a = N)%nat -> (0 < a)%nat -> physical_k L N ((N - a) mod N) = physical_k L N a.
Proof. intros L N a Ha Hp. rewrite Nat.mod_small by lia. replace (N - a)%nat with a by lia. reflexivity. Qed.

(** ** Kernel *)

Lemma low_kappa2_even : forall psi k1 k2, low_kappa2 psi (- k1) k2 = low_kappa2 psi k1 k2 /\ low_kappa2 psi k1 (- k2) = low_kappa2 psi k1 k2.
Proof. intros. unfold low_kappa2. split; ring. Qed.

Lemma low_phi_even1 : forall c L psi zi dx dy k1 k2, low_phi c L psi zi dx dy (- k1) k2 = low_phi c L psi zi dx dy k1 k2.
Proof. intros. unfold low_phi. rewrite (proj1 (low_kappa2_even psi k1 k2)). replace ((- k1)^2) with (k1^2) by ring. reflexivity. Qed.
Lemma low_phi_even2 : forall c L psi zi dx dy k1 k2, low_phi c L psi zi dx dy k1 (- k2) = low_phi c L psi zi dx dy k1 k2.
Proof. intros. unfold low_phi. rewrite (proj2 (low_kappa2_even psi k1 k2)). replace ((- k2)^2) with (k2^2) by ring. reflexivity. Qed.

Lemma low_phi_nonneg : forall c L psi zi dx dy k1 k2, 0 <= low_phi c L psi zi dx dy k1 k2.
Proof.
  intros. unfold low_phi. cbv zeta. destruct (Rltb _ _); [lra|]. apply Rmult_le_pos; [apply sqrt_pos|].
  unfold grid_scale. apply Rmult_le_pos; [pose proof PI_RGT_0; lra|]. left. apply Rinv_0_lt_compat. apply sqrt_lt_R0.
  apply Rlt_le_trans with (/ 10^16); [apply Rinv_0_lt_compat; lra|apply Rmax_r].
Qed.

Lemma Q1_minus2 : forall c L psi zi dx dy k1 k1' k2, k1' = k1 \/ k1' = - k1 -> low_Q1 c L psi zi dx dy k1' (- k2) = Cconj (low_Q1 c L psi zi dx dy k1 k2).
Proof.
  intros c L psi zi dx dy k1 k1' k2 H. unfold low_Q1. rewrite Cconj_mult, Cconj_R.
  assert (E : low_phi c L psi zi dx dy k1' (- k2) = low_phi c L psi zi dx dy k1 k2) by (destruct H as [-> | ->]; rewrite ?low_phi_even1, ?low_phi_even2; reflexivity).
  rewrite E. ceq; lra.
Qed.
Lemma Q1_same2 : forall c L psi zi dx dy k1 k1' k2, k1' = k1 \/ k1' = - k1 -> low_Q1 c L psi zi dx dy k1' k2 = low_Q1 c L psi zi dx dy k1 k2.
Proof. intros c L psi zi dx dy k1 k1' k2 [-> | ->]; unfold low_Q1; rewrite ?low_phi_even1; reflexivity. Qed.
Lemma Q2_minus1 : forall c L psi zi dx dy k1 k2 k2', k2' = k2 \/ k2' = - k2 -> low_Q2 c L psi zi dx dy (- k1) k2' = Cconj (low_Q2 c L psi zi dx dy k1 k2).
Proof.
  intros c L psi zi dx dy k1 k2 k2' H. unfold low_Q2. rewrite Cconj_mult, Cconj_R.
  assert (E : low_phi c L psi zi dx dy (- k1) k2' = low_phi c L psi zi dx dy k1 k2) by (destruct H as [-> | ->]; rewrite ?low_phi_even1, ?low_phi_even2; reflexivity).
  rewrite E. ceq; lra.
Qed.
Lemma Q2_same1 : forall c L psi zi dx dy k1 k2 k2', k2' = k2 \/ k2' = - k2 -> low_Q2 c L psi zi dx dy k1 k2' = low_Q2 c L psi zi dx dy k1 k2.
Proof. intros c L psi zi dx dy k1 k2 k2' [-> | ->]; unfold low_Q2; rewrite ?low_phi_even2; reflexivity. Qed.

Lemma Q1_imag : forall c L psi zi dx dy k1 k2, Cconj (low_Q1 c L psi zi dx dy k1 k2) = Copp (low_Q1 c L psi zi dx dy k1 k2).
Proof. intros. unfold low_Q1. ceq; lra. Qed.
Lemma Q2_imag : forall c L psi zi dx dy k1 k2, Cconj (low_Q2 c L psi zi dx dy k1 k2) = Copp (low_Q2 c L psi zi dx dy k1 k2).
Proof. intros. unfold low_Q2. ceq; lra. Qed.

Lemma Q_solenoidal : forall c L psi zi dx dy k1 k2,
  Cplus (Cmult (RtoC k1) (low_Q1 c L psi zi dx dy k1 k2)) (Cmult (RtoC k2) (low_Q2 c L psi zi dx dy k1 k2)) = RtoC 0.
Proof. intros. unfold low_Q1, low_Q2. set (f := low_phi _ _ _ _ _ _ _ _). ceq; ring. Qed.

Lemma Q_zero : forall c L psi zi dx dy, low_Q1 c L psi zi dx dy 0 0 = RtoC 0 /\ low_Q2 c L psi zi dx dy 0 0 = RtoC 0.
Proof. intros. unfold low_Q1, low_Q2. split; ceq; ring. Qed.

(** ** Fields on the computational grid *)

Section Full.

Variable g : low_grid.
Hypothesis H1 : (0 < lg_cN1 g)%nat.
Hypothesis H2 : (0 < lg_cN2 g)%nat.
Hypothesis E1 : lg_cL1 g = INR (lg_cN1 g) * lg_cdx g.
Hypothesis E2 : lg_cL2 g = INR (lg_cN2 g) * lg_cdy g.

Let d := (lg_cN1 g, lg_cN2 g, 1%nat).

Lemma low_nonempty : nonempty d.
Proof. unfold nonempty, d. lia. Qed.

Lemma low_sample_prescribed : forall Q noise x, low_sample Q g noise x = Re (ifftn d (prescribed Q g noise) x).
Proof.
  intros Q noise x. unfold low_sample, comp_extents, ifftn. fold d. f_equal. f_equal. apply csum_ext. intros [[a b] c] _.
  f_equal. unfold prescribed. rewrite (low_wave_physical _ _ _ a H1 E1), (low_wave_physical _ _ _ b H2 E2). f_equal.
  fold d. rewrite fourier_fftn. reflexivity.
Qed.

Lemma phase_node : forall L n dl a p, (0 < n)%nat -> L = INR n * dl -> 0 < dl -> forall t,
  cis (physical_k L n a * (INR p * dl) + t) = cis (2 * PI * (INR a * INR p / INR n) + t).
Proof.
  intros L n dl a p Hn HL Hd t. apply lt_0_INR in Hn. unfold physical_k. destruct (2 * a <? n)%nat.
  - f_equal. rewrite HL. field. lra.
  - rewrite <- (cis_period (- Z.of_nat p) (2 * PI * (INR a * INR p / INR n) + t)). f_equal. rewrite opp_IZR, <- INR_IZR_INZ, HL. field. lra.
Qed.

Lemma low_sample_waves : forall Q noise p q, 0 < lg_cdx g -> 0 < lg_cdy g ->
  low_sample Q g noise (p, q, 0%nat) = plane_waves g (prescribed Q g noise) (INR p * lg_cdx g) (INR q * lg_cdy g).
Proof.
  intros Q noise p q Hdx Hdy. rewrite low_sample_prescribed. unfold plane_waves. fold d. set (h := prescribed Q g noise).
  unfold ifftn. assert (EC : count d = INR (lg_cN1 g) * INR (lg_cN2 g)) by (unfold count, d; cbn; ring). rewrite EC.
  set (r := / _). rewrite <- csum_nodes_of. unfold Re at 1. rewrite Cmult_RtoC_fst. f_equal.
  change (fst (csum (nodes_of d) ?f)) with (Re (csum (nodes_of d) f)). rewrite csum_Re. f_equal. apply map_ext. intros [[a b] c].
  assert (EP : cis (physical_k (lg_cL1 g) (lg_cN1 g) a * (INR p * lg_cdx g) + physical_k (lg_cL2 g) (lg_cN2 g) b * (INR q * lg_cdy g))
               = cis (theta d (a, b, c) (p, q, 0%nat))).
  { rewrite (phase_node _ _ _ _ _ H1 E1 Hdx). rewrite Rplus_comm, (phase_node _ _ _ _ _ H2 E2 Hdy). f_equal. unfold theta, d. cbn [INR]. unfold Rdiv. ring. }
  unfold Re at 1. rewrite <- EP. cbn [cis Cmult fst snd]. reflexivity.
Qed.

Lemma on_grid_2 : forall k, on_grid d k -> exists a b, k = (a, b, 0%nat) /\ (a < lg_cN1 g)%nat /\ (b < lg_cN2 g)%nat.
Proof. intros [[a b] c] (Ha & Hb & Hc). exists a, b. unfold d in *. split; [f_equal; lia|tauto]. Qed.

Lemma mirror_2 : forall a b, mirror d (a, b, 0%nat) = (((lg_cN1 g - a) mod lg_cN1 g)%nat, ((lg_cN2 g - b) mod lg_cN2 g)%nat, 0%nat).
Proof. reflexivity. Qed.

Lemma mirror_cases : forall L n a, (a < n)%nat -> physical_k L n ((n - a) mod n) = physical_k L n a \/ physical_k L n ((n - a) mod n) = - physical_k L n a.
Proof.
  intros L n a Ha. destruct (Nat.eq_dec (2 * a) n) as [E|E].
  - left. destruct a as [|a]; [lia|]. apply physical_k_self; lia.
  - right. apply physical_k_mirror; assumption.
Qed.

Variables c L psi zi : R.
Let Q1 := low_Q1 c L psi zi (lg_cdx g) (lg_cdy g).
Let Q2 := low_Q2 c L psi zi (lg_cdx g) (lg_cdy g).

Lemma coefficients1 : forall noise a b, (a < lg_cN1 g)%nat -> (b < lg_cN2 g)%nat ->
  fourier d (low_sample Q1 g noise) (a, b, 0%nat) = if (2 * b =? lg_cN2 g)%nat then RtoC 0 else prescribed Q1 g noise (a, b, 0%nat).
Proof.
  intros noise a b Ha Hb. assert (Hk : on_grid d (a, b, 0%nat)) by (unfold on_grid, d; lia).
  rewrite (fourier_ext d _ (fun x => Re (ifftn d (prescribed Q1 g noise) x))) by (intros x _; apply low_sample_prescribed).
  rewrite fourier_Re by (try exact Hk; apply low_nonempty). unfold symm. rewrite mirror_2. unfold prescribed.
  fold d. rewrite <- mirror_2. rewrite !fourier_fftn. rewrite fftn_real_mirror by (try exact Hk; apply low_nonempty).
  set (hat := fftn d (fun x => RtoC (noise x)) (a, b, 0%nat)). rewrite Cconj_mult, Cconj_conj.
  set (k1 := physical_k (lg_cL1 g) (lg_cN1 g) a). set (k2 := physical_k (lg_cL2 g) (lg_cN2 g) b).
  pose proof (mirror_cases (lg_cL1 g) (lg_cN1 g) a Ha) as HM. fold k1 in HM. set (k1' := physical_k (lg_cL1 g) (lg_cN1 g) ((lg_cN1 g - a) mod lg_cN1 g)) in *.
  destruct (Nat.eqb_spec (2 * b) (lg_cN2 g)) as [E|E].
  - assert (EK : physical_k (lg_cL2 g) (lg_cN2 g) ((lg_cN2 g - b) mod lg_cN2 g) = k2) by (apply physical_k_self; lia).
    rewrite EK. unfold Q1. rewrite (Q1_same2 c L psi zi _ _ k1 k1' k2 HM). rewrite Q1_imag. ring.
  - rewrite physical_k_mirror by assumption. fold k2. unfold Q1. rewrite (Q1_minus2 c L psi zi _ _ k1 k1' k2 HM), Cconj_conj.
    set (w := Cmult (low_Q1 _ _ _ _ _ _ _ _) hat). clearbody w. destruct w as [wr wi]. ceq; field.
Qed.

Lemma coefficients2 : forall noise a b, (a < lg_cN1 g)%nat -> (b < lg_cN2 g)%nat ->
  fourier d (low_sample Q2 g noise) (a, b, 0%nat) = if (2 * a =? lg_cN1 g)%nat then RtoC 0 else prescribed Q2 g noise (a, b, 0%nat).
Proof.
  intros noise a b Ha Hb. assert (Hk : on_grid d (a, b, 0%nat)) by (unfold on_grid, d; lia).
  rewrite (fourier_ext d _ (fun x => Re (ifftn d (prescribed Q2 g noise) x))) by (intros x _; apply low_sample_prescribed).
  rewrite fourier_Re by (try exact Hk; apply low_nonempty). unfold symm. rewrite mirror_2. unfold prescribed.
  fold d. rewrite <- mirror_2. rewrite !fourier_fftn. rewrite fftn_real_mirror by (try exact Hk; apply low_nonempty).
  set (hat := fftn d (fun x => RtoC (noise x)) (a, b, 0%nat)). rewrite Cconj_mult, Cconj_conj.
  set (k1 := physical_k (lg_cL1 g) (lg_cN1 g) a). set (k2 := physical_k (lg_cL2 g) (lg_cN2 g) b).
  pose proof (mirror_cases (lg_cL2 g) (lg_cN2 g) b Hb) as HM. fold k2 in HM. set (k2' := physical_k (lg_cL2 g) (lg_cN2 g) ((lg_cN2 g - b) mod lg_cN2 g)) in *.
  destruct (Nat.eqb_spec (2 * a) (lg_cN1 g)) as [E|E].
  - assert (EK : physical_k (lg_cL1 g) (lg_cN1 g) ((lg_cN1 g - a) mod lg_cN1 g) = k1) by (apply physical_k_self; lia).
    rewrite EK. unfold Q2. rewrite (Q2_same1 c L psi zi _ _ k1 k2 k2' HM). rewrite Q2_imag. ring.
  - rewrite physical_k_mirror by assumption. fold k1. unfold Q2. rewrite (Q2_minus1 c L psi zi _ _ k1 k2 k2' HM), Cconj_conj.
    set (w := Cmult (low_Q2 _ _ _ _ _ _ _ _) hat). clearbody w. destruct w as [wr wi]. ceq; field.
Qed.

Lemma divergence_regular : forall noise a b, (a < lg_cN1 g)%nat -> (b < lg_cN2 g)%nat -> (2 * a <> lg_cN1 g)%nat -> (2 * b <> lg_cN2 g)%nat ->
  horizontal_divergence g (low_sample Q1 g noise) (low_sample Q2 g noise) (a, b, 0%nat) = RtoC 0.
Proof.
  intros noise a b Ha Hb Na Nb. unfold horizontal_divergence. fold d. rewrite coefficients1, coefficients2 by assumption.
  destruct (Nat.eqb_spec (2 * a) (lg_cN1 g)) as [E|_]; [contradiction|]. destruct (Nat.eqb_spec (2 * b) (lg_cN2 g)) as [E|_]; [contradiction|].
  unfold prescribed. rewrite !Cmult_assoc, <- Cmult_plus_distr_r. unfold Q1, Q2. rewrite Q_solenoidal. ring.
Qed.

(** At the highest streamwise wave number only the first component survives. *)
Lemma divergence_nyquist : forall noise a b, (a < lg_cN1 g)%nat -> (b < lg_cN2 g)%nat -> (2 * a = lg_cN1 g)%nat -> (2 * b <> lg_cN2 g)%nat ->
  horizontal_divergence g (low_sample Q1 g noise) (low_sample Q2 g noise) (a, b, 0%nat)
  = Cmult (RtoC (physical_k (lg_cL1 g) (lg_cN1 g) a)) (prescribed Q1 g noise (a, b, 0%nat)).
Proof.
  intros noise a b Ha Hb Na Nb. unfold horizontal_divergence. fold d. rewrite coefficients1, coefficients2 by assumption.
  destruct (Nat.eqb_spec (2 * a) (lg_cN1 g)) as [_|E]; [|contradiction]. destruct (Nat.eqb_spec (2 * b) (lg_cN2 g)) as [E|_]; [contradiction|]. ring.
Qed.

End Full.

(** ** Size of the kernel *)

Lemma Rmax_lr : forall x y, y <= x -> Rmax x y = x.
Proof. intros. apply Rmax_left. exact H. Qed.

Lemma grid_scale_sq : forall dx dy, / 10^16 <= dx * dy -> (grid_scale dx dy)^2 = (2 * PI)^2 / (dx * dy).
Proof.
  intros dx dy H. unfold grid_scale. rewrite Rmax_lr by exact H.
  assert (P : 0 < / 10^16) by (apply Rinv_0_lt_compat; lra). assert (Hp : 0 < dx * dy) by lra.
  unfold Rdiv. rewrite Rpow_mult_distr, pow_inv by (try (apply Rgt_not_eq, sqrt_lt_R0); exact Hp). rewrite pow2_sqrt by lra. reflexivity.
Qed.
