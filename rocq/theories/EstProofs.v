(** Lemmas about the estimated spectra of the low-frequency fields. *)

From Coq Require Import String Reals List ZArith Bool Lia Lra Sorted.
From Coquelicot Require Import Coquelicot.
From Verif Require Import Prelude GenModel GenSpec GenProofs DftModel DftSpec DftProofs DftCov LowModel LowSpec LowProofs LowFourier LowMore LowSpectrum LowCov LowApi EstSpec.
Import ListNotations.
Open Scope R_scope.

(** ** Averages *)

Lemma mean_ext : forall G (ens : list (R * G)) f g, (forall x, f x = g x) -> mean ens f = mean ens g.
Proof. intros G ens f g H. unfold mean. f_equal. apply map_ext. intros s. rewrite H. reflexivity. Qed.

Lemma mean_plus : forall G (ens : list (R * G)) f g, mean ens (fun x => f x + g x) = mean ens f + mean ens g.
Proof.
  intros G ens f g. unfold mean, Rsum. induction ens as [|s ens IH]; cbn [map fold_right]; [ring|]. rewrite IH. ring.
Qed.

Lemma mean_scal : forall G (ens : list (R * G)) c f, mean ens (fun x => c * f x) = c * mean ens f.
Proof.
  intros G ens c f. unfold mean, Rsum. induction ens as [|s ens IH]; cbn [map fold_right]; [ring|]. rewrite IH. ring.
Qed.

Lemma mean_Rsum : forall G (ens : list (R * G)) A (l : list A) f, mean ens (fun g => Rsum (map (f g) l)) = Rsum (map (fun x => mean ens (fun g => f g x)) l).
Proof.
  intros G ens A l f. induction l as [|x l IH].
  - rewrite (mean_ext _ _ _ (fun _ => 0 * 0)) by (intros; unfold Rsum; cbn; ring). rewrite mean_scal. unfold Rsum. cbn. ring.
  - cbn [map]. rewrite (mean_ext _ _ _ (fun g => f g x + Rsum (map (f g) l))) by (intros; reflexivity). rewrite mean_plus, IH. reflexivity.
Qed.

(** Mean square of a linear combination of uncorrelated unit variables. *)
Lemma mean_square : forall G (ens : list (R * G)) A (u : G -> A -> R) (c : A -> R) l, NoDup l ->
  (forall x, In x l -> mean ens (fun g => u g x * u g x) = 1) ->
  (forall x y, In x l -> In y l -> x <> y -> mean ens (fun g => u g x * u g y) = 0) ->
  mean ens (fun g => (Rsum (map (fun x => u g x * c x) l))^2) = Rsum (map (fun x => (c x)^2) l).
Proof.
  intros G ens A u c l HD H1 H0. induction HD as [|x l Hx HD IH].
  - cbn [map]. rewrite (mean_ext _ _ _ (fun _ => 0 * 0)) by (intros; unfold Rsum; cbn; ring). rewrite mean_scal. unfold Rsum. cbn. ring.
  - cbn [map]. change (Rsum ((c x)^2 :: map (fun x => (c x)^2) l)) with ((c x)^2 + Rsum (map (fun x => (c x)^2) l)).
    rewrite (mean_ext _ _ _ (fun g => (c x)^2 * (u g x * u g x) + (2 * c x * Rsum (map (fun y => c y * (u g x * u g y)) l) + (Rsum (map (fun y => u g y * c y) l))^2))).
    + rewrite !mean_plus, !mean_scal, IH, H1, mean_Rsum; [|left; reflexivity|intros y Hy; apply H1; right; exact Hy|intros y z Hy Hz; apply H0; right; assumption].
      rewrite (Rsum_ext _ _ _ (fun _ => 0)); [rewrite Rsum_zero; ring|]. intros y Hy. rewrite mean_scal, H0; [ring|left; reflexivity|right; exact Hy|].
      intros E. apply Hx. rewrite E. exact Hy.
    + intros g. change (Rsum (u g x * c x :: map (fun x0 => u g x0 * c x0) l)) with (u g x * c x + Rsum (map (fun y => u g y * c y) l)).
      rewrite (Rsum_ext _ l (fun y => c y * (u g x * u g y)) (fun y => u g x * (u g y * c y))) by (intros; ring). rewrite Rsum_scal. ring.
Qed.

(** ** The drawn array *)

Lemma normal2_at : forall G (gauss : G -> R * G) n m g p q, (p < n)%nat -> (q < m)%nat ->
  at2 (fst (normal2 gauss n m g)) (p, q, 0%nat) = stream gauss g (p * m + q).
Proof.
  intros G gauss n m g p q Hp Hq. unfold normal2. rewrite draw_many_window. cbn [fst]. unfold at2, window.
  rewrite (nth_indep _ [] (stream (draw_many gauss m) g (0 + 0))) by (rewrite map_length, seq_length; exact Hp).
  rewrite (map_nth (fun i => stream (draw_many gauss m) g (0 + i)) (seq 0 n) 0%nat p), seq_nth by exact Hp. cbn [Nat.add].
  assert (HS : forall p g, stream (draw_many gauss m) g p = window (stream gauss g) (p * m) m).
  { clear. intros p. induction p as [|p IH]; intros g; cbn [stream]; rewrite draw_many_window; cbn [fst snd]; [reflexivity|].
    rewrite IH. unfold window. apply map_ext. intros i. rewrite stream_after. f_equal. cbn [Nat.mul]. lia. }
  rewrite HS. unfold window. rewrite (nth_indep _ 0 (stream gauss g (p * m + 0))) by (rewrite map_length, seq_length; exact Hq).
  rewrite (map_nth (fun i => stream gauss g (p * m + i)) (seq 0 m) 0%nat q), seq_nth by exact Hq. reflexivity.
Qed.

Lemma Rsum_nodes_grid : forall d f, Rsum (map f (nodes_of d)) = Rsum (map f (grid d)).
Proof. intros d f. apply RtoC_inj. rewrite !Rsum_RtoC. apply csum_nodes_of. Qed.

Lemma Rsum_one : forall A (l : list A), Rsum (map (fun _ => 1) l) = INR (length l).
Proof.
  intros A l. induction l as [|x l IH]; [reflexivity|]. cbn [map length]. change (Rsum (1 :: map (fun _ => 1) l)) with (1 + Rsum (map (fun _ : A => 1) l)).
  rewrite IH, S_INR. ring.
Qed.

Lemma Rsum_plus : forall A (l : list A) f h, Rsum (map (fun x => f x + h x) l) = Rsum (map f l) + Rsum (map h l).
Proof. intros A l f h. unfold Rsum. induction l as [|x l IH]; cbn [map fold_right]; [ring|]. rewrite IH. ring. Qed.

(** Mean square modulus of every Fourier coefficient of the noise. *)
Lemma white_fourier : forall G (gauss : G -> R * G) n m ens k, white gauss (n * m) ens ->
  mean ens (fun g => let z := fourier (n, m, 1%nat) (at2 (fst (normal2 gauss n m g))) k in (Re z)^2 + (Im z)^2) = INR n * INR m.
Proof.
  intros G gauss n m ens k HW. set (d := (n, m, 1%nat)). set (u := fun g => at2 (fst (normal2 gauss n m g))).
  assert (HM : forall x y, In x (grid d) -> In y (grid d) -> x = y \/ mean ens (fun g => u g x * u g y) = 0).
  { intros [[p q] r] [[p' q'] r'] Hx Hy. apply grid_In in Hx, Hy. destruct Hx as (Hp & Hq & Hr), Hy as (Hp' & Hq' & Hr').
    assert (r = 0%nat) by lia. assert (r' = 0%nat) by lia. subst r r'.
    rewrite (mean_ext _ _ _ (fun g => stream gauss g (p * m + q) * stream gauss g (p' * m + q'))) by (intros g; unfold u; rewrite !normal2_at by assumption; reflexivity).
    rewrite HW by nia. destruct (Nat.eqb_spec (p * m + q) (p' * m + q')) as [E|_]; [|right; reflexivity].
    left. assert (p = p').
    { assert (E1 : ((p * m + q) / m = (p' * m + q') / m)%nat) by (f_equal; exact E).
      rewrite !Nat.div_add_l, !Nat.div_small in E1 by lia. lia. }
    subst p'. assert (q = q') by lia. subst. reflexivity. }
  assert (H1 : forall x, In x (grid d) -> mean ens (fun g => u g x * u g x) = 1).
  { intros [[p q] r] Hx. apply grid_In in Hx. destruct Hx as (Hp & Hq & Hr). assert (r = 0%nat) by lia. subst r.
    rewrite (mean_ext _ _ _ (fun g => stream gauss g (p * m + q) * stream gauss g (p * m + q))) by (intros g; unfold u; rewrite !normal2_at by assumption; reflexivity).
    rewrite HW by nia. rewrite Nat.eqb_refl. reflexivity. }
  assert (H0 : forall x y, In x (grid d) -> In y (grid d) -> x <> y -> mean ens (fun g => u g x * u g y) = 0).
  { intros x y Hx Hy N. destruct (HM x y Hx Hy) as [E|E]; [contradiction|exact E]. }
  rewrite (mean_ext _ _ _ (fun g => (Rsum (map (fun x => u g x * cos (angle d k x)) (grid d)))^2 + (Rsum (map (fun x => u g x * sin (angle d k x)) (grid d)))^2)).
  - rewrite mean_plus, !mean_square by (try apply grid_NoDup; assumption).
    transitivity (Rsum (map (fun _ : node => 1) (grid d))).
    + rewrite (Rsum_ext _ (grid d) (fun _ => 1) (fun x => (cos (angle d k x))^2 + (sin (angle d k x))^2)).
      * rewrite Rsum_plus. reflexivity.
      * intros x _. pose proof (sin2_cos2 (angle d k x)) as E. unfold Rsqr in E. lra.
    + rewrite Rsum_one. unfold d, grid. rewrite !prod_length, !seq_length, Nat.mul_1_r, mult_INR. reflexivity.
  - intros g. unfold fourier. cbv zeta. unfold Re, Im. cbn [fst snd]. rewrite !Rsum_nodes_grid. fold (u g). fold d. ring.
Qed.

(** ** Domains which need no enlargement *)

Lemma pow2_INR : forall n, INR (2 ^ n) = 2 ^ n.
Proof. intros n. rewrite pow_INR. reflexivity. Qed.

Lemma count_exact : forall (N e : nat) d, 0 < d -> Nat.Even N -> (1 <= e)%nat -> (INR N - 2) * d < 2 ^ e * d -> 2 ^ e * d <= INR N * d -> N = (2 ^ e)%nat.
Proof.
  intros N e d Hd [m ->] He H1 H2. rewrite <- pow2_INR in H1, H2. apply Rmult_lt_reg_r in H1; [|exact Hd]. apply Rmult_le_reg_r in H2; [|exact Hd].
  apply INR_le in H2. assert (H3 : INR (2 * m) < INR (2 ^ e + 2)) by (rewrite plus_INR; cbn [INR] in *; lra). apply INR_lt in H3.
  destruct e as [|e]; [lia|]. rewrite Nat.pow_succ_r' in *. lia.
Qed.

Lemma plain_counts : forall cfg g, positive_lengths cfg -> plain_domain cfg -> grid_facts cfg g ->
  lg_cN1 g = (2 ^ lc_e1 cfg)%nat /\ lg_cN2 g = (2 ^ lc_e2 cfg)%nat /\ lg_cdx g = asked_dx cfg /\ lg_cdy g = asked_dx cfg
  /\ lg_cL1 g = asked_L1 cfg /\ lg_cL2 g = asked_L2 cfg /\ 0 < asked_dx cfg /\ asked_L1 cfg = 2 ^ lc_e1 cfg * asked_dx cfg /\ asked_L2 cfg = 2 ^ lc_e2 cfg * asked_dx cfg.
Proof.
  intros cfg g (HL & Hf1 & Hf2) (HD & H1 & H2 & He1 & He2) F.
  assert (P1 : 0 < 2 ^ lc_e1 cfg) by (apply pow_lt; lra). assert (P2 : 0 < 2 ^ lc_e2 cfg) by (apply pow_lt; lra).
  assert (A1 : asked_L1 cfg = 2 ^ lc_e1 cfg * asked_dx cfg) by (unfold asked_dx; field; lra).
  assert (A2 : asked_L2 cfg = 2 ^ lc_e2 cfg * asked_dx cfg) by (rewrite HD; unfold asked_dy; field; lra).
  assert (DP : 0 < asked_dx cfg) by (unfold asked_dx, asked_L1; apply Rdiv_lt_0_compat; [apply Rmult_lt_0_compat; lra|lra]).
  destruct (gf_d _ _ F) as [D1 D2]. rewrite <- HD, Rmin_left in D1, D2 by lra.
  assert (M1 : Rmax (asked_L1 cfg) (5 * lc_L cfg) = asked_L1 cfg) by (apply Rmax_left; unfold asked_L1; apply Rmult_le_compat_r; lra).
  assert (M2 : Rmax (asked_L2 cfg) (5 * lc_L cfg) = asked_L2 cfg) by (apply Rmax_left; unfold asked_L2; apply Rmult_le_compat_r; lra).
  pose proof (gf_t1 _ _ F) as T1. pose proof (gf_t2 _ _ F) as T2. pose proof (gf_s1 _ _ F) as S1. pose proof (gf_s2 _ _ F) as S2.
  rewrite M1, (gf_c1 _ _ F), D1, A1 in T1. rewrite M2, (gf_c2 _ _ F), D2, A2 in T2. rewrite M1, D1, A1 in S1. rewrite M2, D2, A2 in S2.
  pose proof (count_exact _ _ _ DP (gf_e1 _ _ F) He1 S1 T1) as N1. pose proof (count_exact _ _ _ DP (gf_e2 _ _ F) He2 S2 T2) as N2.
  rewrite (gf_c1 _ _ F), (gf_c2 _ _ F), N1, N2, D1, D2, !pow2_INR. repeat split; try assumption; symmetry; assumption.
Qed.

Lemma mode_energy_ext : forall n m u v a, (forall x, on_grid (n, m, 1%nat) x -> u x = v x) -> mode_energy n m u a = mode_energy n m v a.
Proof. intros n m u v a H. unfold mode_energy. apply Rsum_ext. intros b _. rewrite (fourier_ext _ u v) by exact H. reflexivity. Qed.

(** With no enlargement the delivered fields are the sampled ones. *)
Lemma plain_generated : forall quad cfg w G (gauss : G -> R * G) g0, positive_lengths cfg -> low_construct quad cfg = Ok w -> plain_domain cfg ->
  let gr := lw_grid w in
  let noise := at2 (fst (normal2 gauss (lg_cN1 gr) (lg_cN2 gr) g0)) in
  exists u1 u2 g1, low_generate gauss w g0 = (Ok (LowGen (lw_cfg w) (lw_c w) gr (Some (u1, u2))), g1)
  /\ (forall x, on_grid (lg_cN1 gr, lg_cN2 gr, 1%nat) x -> at2 u1 x = low_sample (gen_Q1 w) gr noise x)
  /\ (forall x, on_grid (lg_cN1 gr, lg_cN2 gr, 1%nat) x -> at2 u2 x = low_sample (gen_Q2 w) gr noise x).
Proof.
  intros quad cfg w G gauss g0 HP HC HD gr noise. destruct (low_constructed quad cfg w HC HP) as (_ & F & _).
  destruct (low_generated G gauss w cfg g0 F) as (u1 & u2 & E & S1 & S2 & V). fold gr in F, E, S1, S2, V.
  destruct (plain_counts cfg gr HP HD F) as (N1 & N2 & _). exists u1, u2. eexists. split; [exact E|].
  assert (Z1 : (lg_cN1 gr - lg_N1 gr = 0)%nat) by (rewrite N1, (gf_N1 _ _ F); lia).
  assert (Z2 : (lg_cN2 gr - lg_N2 gr = 0)%nat) by (rewrite N2, (gf_N2 _ _ F); lia).
  rewrite Z1, Z2 in V. change (0 / 2)%nat with 0%nat in V. rewrite (gf_N1 _ _ F), (gf_N2 _ _ F), <- N1, <- N2 in V.
  split; intros [[p q] r] (Hp & Hq & Hr); assert (r = 0%nat) by lia; subst r; destruct (V p q Hp Hq) as (_ & _ & V1 & V2); rewrite !Nat.add_0_r in *;
    unfold at2; apply entry_value; assumption.
Qed.

(** ** The average estimate *)

Lemma resolved : forall L1 n1 a psi k2, 0 < L1 <= 10^8 -> (1 <= a)%nat -> (2 * a < n1)%nat -> / 100 <= Rabs (cos psi) ->
  let k1 := physical_k L1 n1 a in / 10^20 <= k1^2 + k2^2 /\ / 10^20 <= low_kappa2 psi k1 k2.
Proof.
  intros L1 n1 a psi k2 HL Ha Hn HC k1.
  assert (E : k1 = 2 * PI * INR a / L1) by (unfold k1, physical_k; destruct (Nat.ltb_spec (2 * a) n1); [reflexivity|lia]).
  assert (A : 1 <= INR a) by (apply (le_INR 1); exact Ha). pose proof PI_RGT_0. pose proof PI2_3_2.
  assert (K : / 10^8 <= k1).
  { rewrite E. unfold Rdiv. apply Rle_trans with (/ L1); [apply Rinv_le_contravar; lra|]. rewrite <- (Rmult_1_l (/ L1)) at 1.
    apply Rmult_le_compat_r; [left; apply Rinv_0_lt_compat; lra|]. apply Rle_trans with (2 * PI * 1); [lra|]. apply Rmult_le_compat_l; lra. }
  assert (P8 : 0 < / 10^8) by (apply Rinv_0_lt_compat; lra).
  assert (K2 : / 10^16 <= k1^2).
  { replace (/ 10^16) with (/ 10^8 * / 10^8) by (field; lra). replace (k1^2) with (k1 * k1) by ring. apply Rmult_le_compat; lra. }
  assert (Hc : / 10^4 <= (cos psi)^2).
  { replace (/ 10^4) with (/ 100 * / 100) by field. rewrite <- (pow2_abs (cos psi)). replace (Rabs (cos psi) ^ 2) with (Rabs (cos psi) * Rabs (cos psi)) by ring.
    apply Rmult_le_compat; lra. }
  assert (O : / 10^20 <= / 10^16) by (apply Rinv_le_contravar; lra).
  split; [pose proof (pow2_ge_0 k2); lra|]. unfold low_kappa2. pose proof (pow2_ge_0 (k2 * sin psi)).
  replace ((k1 * cos psi)^2) with (k1^2 * (cos psi)^2) by ring.
  assert (P : / 10^16 * / 10^4 <= k1^2 * (cos psi)^2) by (apply Rmult_le_compat; try lra; left; apply Rinv_0_lt_compat; lra).
  replace (/ 10^16 * / 10^4) with (/ 10^20) in P by (field; lra). assert (0 < / 10^20) by (apply Rinv_0_lt_compat; lra). lra.
Qed.

Lemma Cmod_sq : forall z, (Re z)^2 + (Im z)^2 = (Cmod z)^2.
Proof. intros z. unfold Cmod. rewrite pow2_sqrt; [reflexivity|]. unfold Re, Im. pose proof (pow2_ge_0 (fst z)). pose proof (pow2_ge_0 (snd z)). lra. Qed.

(** Wave numbers in increasing order. *)
Lemma wave_order : forall L m f, (0 < m)%nat ->
  Rsum (map (fun b => f (physical_k L (2 * m) b)) (seq 0 (2 * m))) = Rsum (map (fun j => f (2 * PI / L * (INR j - INR m))) (seq 0 (2 * m))).
Proof.
  intros L m f Hm. replace (2 * m)%nat with (m + m)%nat by lia. rewrite seq_app, !Rsum_app. rewrite Rplus_comm. cbn [Nat.add].
  assert (SH : forall n, seq n m = map (fun i => (i + n)%nat) (seq 0 m)).
  { intros n. clear. revert n. induction m as [|k IH]; intros n; [reflexivity|]. rewrite seq_S, IH, (seq_S k 0), map_app. cbn [map]. f_equal. f_equal. lia. }
  f_equal.
  - rewrite (SH m), map_map. apply Rsum_ext. intros i Hi. apply in_seq in Hi. f_equal. unfold physical_k. destruct (Nat.ltb_spec (2 * (i + m)) (m + m)); [lia|].
    rewrite !plus_INR. unfold Rdiv. ring.
  - rewrite (SH m), map_map. apply Rsum_ext. intros i Hi. apply in_seq in Hi. f_equal. unfold physical_k. destruct (Nat.ltb_spec (2 * i) (m + m)); [|lia].
    rewrite !plus_INR. unfold Rdiv. ring.
Qed.

Lemma seq_first : forall n, (0 < n)%nat -> seq 0 n = 0%nat :: seq 1 (n - 1).
Proof. intros [|n] H; [lia|]. cbn [seq Nat.sub]. rewrite Nat.sub_0_r. reflexivity. Qed.

Section Average.
Context {G : Type}.
Variables (gauss : G -> R * G) (quad : (R -> R) -> R) (cfg : low_config) (w : low_gen) (ens : list (R * G)) (tol : R).
Hypothesis HP : positive_lengths cfg.
Hypothesis HC : low_construct quad cfg = Ok w.
Hypothesis HD : plain_domain cfg.
Hypothesis Hs : 0 <= lc_sigma2 cfg.
Hypothesis HL : lc_L cfg <= 10^6.
Hypothesis HL1 : asked_L1 cfg <= 10^8.
Hypothesis Hdx : / 10^8 <= asked_dx cfg.
Hypothesis Hpsi : / 100 <= Rabs (cos (lc_psi cfg)).
Hypothesis Ht : 0 < tol < 2 * PI / asked_L1 cfg.
Hypothesis HW : white gauss (2 ^ lc_e1 cfg * 2 ^ lc_e2 cfg) ens.

Let N1 := (2 ^ lc_e1 cfg)%nat.
Let N2 := (2 ^ lc_e2 cfg)%nat.
Let f1 := integrand11 (lw_c w) (lc_L cfg) (lc_psi cfg) (lc_zi cfg).
Let f2 := integrand22 (lw_c w) (lc_L cfg) (lc_psi cfg) (lc_zi cfg).

Lemma dk_pos : 0 < 2 * PI / asked_L2 cfg.
Proof.
  destruct HP as (HLp & _ & Hf2). pose proof PI_RGT_0. apply Rdiv_lt_0_compat; [lra|]. unfold asked_L2. apply Rmult_lt_0_compat; assumption.
Qed.

Lemma estimate_defined : forall g, exists ks F1 F2, estimated gauss w tol g ks F1 F2
  /\ length ks = (N1 / 2)%nat /\ length F1 = (N1 / 2)%nat /\ length F2 = (N1 / 2)%nat
  /\ forall a, (1 <= a)%nat -> (2 * a < N1)%nat ->
    let noise := at2 (fst (normal2 gauss N1 N2 g)) in
    let e k := let z := fourier (N1, N2, 1%nat) noise k in (Re z)^2 + (Im z)^2 in
    let k1 := 2 * PI * INR a / asked_L1 cfg in
    nth (a - 1) ks 0 = k1
    /\ nth (a - 1) F1 0 = 2 * PI / asked_L2 cfg * Rsum (map (fun b => (if (2 * b =? N2)%nat then 0 else f1 k1 (physical_k (asked_L2 cfg) N2 b)) * e (a, b, 0%nat)) (seq 0 N2)) / (INR N1 * INR N2)
    /\ nth (a - 1) F2 0 = 2 * PI / asked_L2 cfg * Rsum (map (fun b => f2 k1 (physical_k (asked_L2 cfg) N2 b) * e (a, b, 0%nat)) (seq 0 N2)) / (INR N1 * INR N2).
Proof.
  intros g. destruct (low_constructed quad cfg w HC HP) as (EC & F & HQ & Ec & _). destruct (plain_counts cfg (lw_grid w) HP HD F) as (C1 & C2 & D1 & D2 & L1 & L2 & DP & A1 & A2).
  destruct (plain_generated quad cfg w G gauss g HP HC HD) as (u1 & u2 & g1 & EG & V1 & V2).
  set (gr := lw_grid w) in *. set (w' := LowGen (lw_cfg w) (lw_c w) gr (Some (u1, u2))) in *.
  assert (P1 : 0 < 2 ^ lc_e1 cfg) by (apply pow_lt; lra). assert (P2 : 0 < 2 ^ lc_e2 cfg) by (apply pow_lt; lra).
  assert (LP1 : 0 < asked_L1 cfg) by (rewrite A1; apply Rmult_lt_0_compat; lra).
  assert (LP2 : 0 < asked_L2 cfg) by (rewrite A2; apply Rmult_lt_0_compat; lra).
  destruct HP as (HLp & _).
  assert (NP1 : (0 < N1)%nat) by (unfold N1; pose proof (Nat.pow_nonzero 2 (lc_e1 cfg)); lia).
  assert (NP2 : (0 < N2)%nat) by (unfold N2; pose proof (Nat.pow_nonzero 2 (lc_e2 cfg)); lia).
  destruct (compute_spectrum_spec w' u1 u2 tol eq_refl) as (ks & F1 & F2 & ES & K0 & K1 & K2 & V).
  { cbn [lw_grid w']. rewrite (gf_L1 _ _ F). exact LP1. }
  { cbn [lw_grid w']. rewrite (gf_N1 _ _ F). exact NP1. }
  { cbn [lw_grid w']. rewrite (gf_N1 _ _ F), (gf_dx _ _ F), (gf_L1 _ _ F), pow2_INR. reflexivity. }
  { cbn [lw_grid w']. rewrite (gf_L1 _ _ F). exact Ht. }
  cbn [lw_grid w'] in K0, K1, K2, V. rewrite (gf_N1 _ _ F), (gf_N2 _ _ F), (gf_L1 _ _ F) in *. fold N1 N2 in K0, K1, K2, V, C1, C2.
  exists ks, F1, F2. split; [exists w', g1; split; assumption|]. do 3 (split; [assumption|]).
  intros a Ha Hn noise e k1. assert (Hn2 : (a <= N1 / 2)%nat) by (apply Nat.div_le_lower_bound; lia).
  destruct (V a Ha Hn2) as (Q0 & Q1 & Q2). destruct (Nat.ltb_spec (2 * a) N1) as [_|X]; [|lia]. split; [exact Q0|].
  rewrite Q1, Q2. clear V Q1 Q2. rewrite C1, C2 in V1, V2. rewrite (mode_energy_ext N1 N2 (at2 u1) _ a V1), (mode_energy_ext N1 N2 (at2 u2) _ a V2). fold noise.
  assert (cpos : 0 <= lw_c w).
  { rewrite Ec. assert (0 < / 10^16) by (apply Rinv_0_lt_compat; lra). unfold Rdiv. apply Rmult_le_pos; [exact Hs|]. left. apply Rinv_0_lt_compat. lra. }
  assert (dd : / 10^16 <= lg_cdx gr * lg_cdy gr).
  { rewrite D1, D2. replace (/ 10^16) with (/ 10^8 * / 10^8) by (field; lra). assert (0 < / 10^8) by (apply Rinv_0_lt_compat; lra). apply Rmult_le_compat; lra. }
  assert (Ek : k1 = physical_k (asked_L1 cfg) N1 a) by (unfold k1, physical_k; destruct (Nat.ltb_spec (2 * a) N1); [reflexivity|lia]).
  assert (I1 : 0 < INR N1) by (apply lt_0_INR; exact NP1). assert (I2 : 0 < INR N2) by (apply lt_0_INR; exact NP2).
  assert (KI : forall b, (Cmod (gen_Q1 w k1 (physical_k (asked_L2 cfg) N2 b)))^2 = (2 * PI)^2 / (asked_dx cfg * asked_dx cfg) * f1 k1 (physical_k (asked_L2 cfg) N2 b)
                      /\ (Cmod (gen_Q2 w k1 (physical_k (asked_L2 cfg) N2 b)))^2 = (2 * PI)^2 / (asked_dx cfg * asked_dx cfg) * f2 k1 (physical_k (asked_L2 cfg) N2 b)).
  { intros b. destruct (resolved (asked_L1 cfg) N1 a (lc_psi cfg) (physical_k (asked_L2 cfg) N2 b)) as (R1 & R2); [lra|exact Ha|exact Hn|exact Hpsi|]. rewrite <- Ek in R1, R2.
    unfold gen_Q1, gen_Q2, f1, f2. rewrite EC. fold gr. rewrite D1, D2. rewrite D1, D2 in dd. apply kernel_integrand; assumption. }
  assert (ME : forall Q f (c : nat -> bool),
    (forall b, (b < N2)%nat -> fourier (N1, N2, 1%nat) (low_sample Q gr noise) (a, b, 0%nat) = if c b then RtoC 0 else prescribed Q gr noise (a, b, 0%nat)) ->
    (forall b, (Cmod (Q k1 (physical_k (asked_L2 cfg) N2 b)))^2 = (2 * PI)^2 / (asked_dx cfg * asked_dx cfg) * f k1 (physical_k (asked_L2 cfg) N2 b)) ->
    asked_L1 cfg / (2 * PI) * (mode_energy N1 N2 (low_sample Q gr noise) a / (INR N1 * INR N2)^2)
    = 2 * PI / asked_L2 cfg * Rsum (map (fun b => (if c b then 0 else f k1 (physical_k (asked_L2 cfg) N2 b)) * e (a, b, 0%nat)) (seq 0 N2)) / (INR N1 * INR N2)).
  { intros Q f c H1 H2. unfold mode_energy.
    rewrite (Rsum_ext _ _ _ (fun b => (2 * PI)^2 / (asked_dx cfg * asked_dx cfg) * ((if c b then 0 else f k1 (physical_k (asked_L2 cfg) N2 b)) * e (a, b, 0%nat)))).
    - rewrite Rsum_scal. rewrite A1, A2. replace (INR N1) with (2 ^ lc_e1 cfg) by (unfold N1; rewrite pow2_INR; reflexivity).
      replace (INR N2) with (2 ^ lc_e2 cfg) by (unfold N2; rewrite pow2_INR; reflexivity). pose proof PI_RGT_0. field. repeat split; lra.
    - intros b Hb. apply in_seq in Hb. cbv zeta. rewrite H1 by lia. destruct (c b).
      + cbn. ring.
      + unfold prescribed. rewrite L1, L2, C1, C2, <- Ek. rewrite Cmod_sq, Cmod_mult, Rpow_mult_distr, H2. unfold e. rewrite Cmod_sq. ring. }
  split.
  - apply (ME (gen_Q1 w) f1 (fun b => (2 * b =? N2)%nat)); [|intros b; apply KI].
    intros b Hb. destruct (coefficients_api quad cfg w noise a b HP HC) as (E1 & _); fold gr; rewrite ?C1, ?C2; [lia|exact Hb|]. fold gr in E1. rewrite C1, C2 in E1. exact E1.
  - rewrite (ME (gen_Q2 w) f2 (fun _ => false)); [reflexivity| |intros b; apply KI].
    intros b Hb. destruct (coefficients_api quad cfg w noise a b HP HC) as (_ & E2); fold gr; rewrite ?C1, ?C2; [lia|exact Hb|]. fold gr in E2. rewrite C1, C2 in E2. rewrite E2.
    destruct (Nat.eqb_spec (2 * a) N1); [lia|reflexivity].
Qed.

(** Average of the estimates over the seeds: Riemann sums of the model spectrum. *)
Lemma mean_estimates : forall est1 est2 a, (1 <= a)%nat -> (2 * a < N1)%nat ->
  (forall g, exists ks F1 F2, estimated gauss w tol g ks F1 F2 /\ nth_error F1 (a - 1) = Some (est1 g) /\ nth_error F2 (a - 1) = Some (est2 g)) ->
  let k1 := 2 * PI * INR a / asked_L1 cfg in
  let dk := 2 * PI / asked_L2 cfg in
  mean ens est1 = Rsum (map (fun j => f1 k1 (dk * (INR j - INR N2 / 2)) * dk) (seq 1 (N2 - 1)))
  /\ mean ens est2 = Rsum (map (fun j => f2 k1 (dk * (INR j - INR N2 / 2)) * dk) (seq 0 N2)).
Proof.
  intros est1 est2 a Ha Hn HE k1 dk.
  set (e := fun g k => let z := fourier (N1, N2, 1%nat) (at2 (fst (normal2 gauss N1 N2 g))) k in (Re z)^2 + (Im z)^2).
  assert (HV : forall g,
    est1 g = 2 * PI / asked_L2 cfg * Rsum (map (fun b => (if (2 * b =? N2)%nat then 0 else f1 k1 (physical_k (asked_L2 cfg) N2 b)) * e g (a, b, 0%nat)) (seq 0 N2)) / (INR N1 * INR N2)
    /\ est2 g = 2 * PI / asked_L2 cfg * Rsum (map (fun b => f2 k1 (physical_k (asked_L2 cfg) N2 b) * e g (a, b, 0%nat)) (seq 0 N2)) / (INR N1 * INR N2)).
  { intros g. destruct (HE g) as (ks & F1 & F2 & (w1 & g1 & E1 & E2) & Q1 & Q2).
    destruct (estimate_defined g) as (ks' & F1' & F2' & (w1' & g1' & E1' & E2') & _ & _ & _ & V).
    rewrite E1 in E1'. injection E1' as <- <-. rewrite E2 in E2'. injection E2' as <- <- <-.
    destruct (V a Ha Hn) as (_ & V1 & V2). rewrite (nth_error_nth _ _ 0 Q1) in V1. rewrite (nth_error_nth _ _ 0 Q2) in V2. split; assumption. }
  assert (NP1 : (0 < N1)%nat) by lia.
  assert (NP2 : (0 < N2)%nat) by (unfold N2; pose proof (Nat.pow_nonzero 2 (lc_e2 cfg)); lia).
  assert (I1 : 0 < INR N1) by (apply lt_0_INR; exact NP1). assert (I2 : 0 < INR N2) by (apply lt_0_INR; exact NP2).
  assert (HEv : exists m, N2 = (2 * m)%nat /\ (0 < m)%nat).
  { destruct HD as (_ & _ & _ & _ & He2). unfold N2. destruct (lc_e2 cfg) as [|n]; [lia|]. exists (2 ^ n)%nat. rewrite Nat.pow_succ_r'. pose proof (Nat.pow_nonzero 2 n). lia. }
  destruct HEv as (m & Em & Hm).
  assert (HM : forall h : nat -> R, mean ens (fun g => 2 * PI / asked_L2 cfg * Rsum (map (fun b => h b * e g (a, b, 0%nat)) (seq 0 N2)) / (INR N1 * INR N2))
               = dk * Rsum (map h (seq 0 N2))).
  { intros h. rewrite (mean_ext _ _ _ (fun g => (dk / (INR N1 * INR N2)) * Rsum (map (fun b => h b * e g (a, b, 0%nat)) (seq 0 N2)))) by (intros g; unfold dk, Rdiv; ring).
    rewrite mean_scal, mean_Rsum. rewrite (Rsum_ext _ _ _ (fun b => (INR N1 * INR N2) * h b)).
    - rewrite Rsum_scal. field. lra.
    - intros b _. rewrite mean_scal. unfold e. rewrite white_fourier by exact HW. ring. }
  assert (Eh : INR N2 / 2 = INR m) by (rewrite Em, mult_INR; cbn [INR]; lra). split.
  - rewrite (mean_ext _ _ _ _ (fun g => proj1 (HV g))), HM.
    rewrite (Rsum_ext _ _ _ (fun b => (fun x => if Req_EM_T x (- (dk * INR m)) then 0 else f1 k1 x) (physical_k (asked_L2 cfg) N2 b))).
    + rewrite Em, (wave_order (asked_L2 cfg) m (fun x => if Req_EM_T x (- (dk * INR m)) then 0 else f1 k1 x) Hm), <- Em. fold dk.
      rewrite (seq_first N2 NP2). cbn [map].
      assert (HC0 : forall x l, Rsum (x :: l) = x + Rsum l) by reflexivity. rewrite HC0.
      destruct (Req_EM_T (dk * (INR 0 - INR m)) (- (dk * INR m))) as [_|X]; [|exfalso; apply X; cbn [INR]; ring].
      rewrite Rplus_0_l, <- Rsum_scal. apply Rsum_ext. intros j Hj. apply in_seq in Hj. rewrite Eh.
      destruct (Req_EM_T (dk * (INR j - INR m)) (- (dk * INR m))) as [X|_]; [exfalso|ring].
      assert (J : 0 < INR j) by (apply lt_0_INR; lia). pose proof dk_pos as DKP. fold dk in DKP. assert (0 < dk * INR j) by (apply Rmult_lt_0_compat; lra). lra.
    + intros b Hb. apply in_seq in Hb. cbv beta. pose proof dk_pos as DKP. fold dk in DKP.
      assert (HK : physical_k (asked_L2 cfg) N2 b = dk * (if (2 * b <? N2)%nat then INR b else INR b - INR N2)).
      { unfold physical_k, dk. destruct (2 * b <? N2)%nat; unfold Rdiv; ring. }
      destruct (Nat.eqb_spec (2 * b) N2) as [E|E]; destruct (Req_EM_T (physical_k (asked_L2 cfg) N2 b) (- (dk * INR m))) as [X|X]; try reflexivity; exfalso.
      * apply X. rewrite HK. destruct (Nat.ltb_spec (2 * b) N2); [lia|]. assert (b = m) by lia. subst b. rewrite Em, mult_INR. cbn [INR]. ring.
      * rewrite HK in X. replace (- (dk * INR m)) with (dk * (- INR m)) in X by ring. apply Rmult_eq_reg_l in X; [|lra].
        destruct (Nat.ltb_spec (2 * b) N2); [pose proof (pos_INR b); assert (0 < INR m) by (apply lt_0_INR; lia); lra|].
        apply E. rewrite Em. apply INR_eq. rewrite Em in X. rewrite !mult_INR in *. cbn [INR] in *. lra.
  - rewrite (mean_ext _ _ _ _ (fun g => proj2 (HV g))), HM. rewrite Em, (wave_order (asked_L2 cfg) m (f2 k1) Hm), <- Em. fold dk.
    rewrite <- Rsum_scal. apply Rsum_ext. intros j _. rewrite Eh. ring.
Qed.
End Average.
