(** Lemmas about averages of variances over realisations of the low-frequency generator. *)

From Coq Require Import String Reals List ZArith Bool Lia Lra.
From Coquelicot Require Import Coquelicot.
From Verif Require Import Prelude GenModel GenSpec GenProofs DftModel DftSpec DftProofs DftMore DftCov LowModel LowSpec LowProofs LowFourier LowMore LowSpectrum LowCov LowApi EstSpec EstProofs StudyModel StudySpec StudyProofs StudyStats.
Import ListNotations.
Open Scope R_scope.

Lemma noise_square : forall n1 n2 G (gauss : G -> R * G) ens M r (c : node -> R), (0 < n1)%nat -> (0 < n2)%nat -> white gauss M ens -> (S r * (n1 * n2) <= M)%nat ->
  mean ens (fun g => (Rsum (map (fun y => noise_of gauss n1 n2 g r y * c y) (grid (n1, n2, 1%nat))))^2) = Rsum (map (fun y => (c y)^2) (grid (n1, n2, 1%nat))).
Proof.
  intros n1 n2 G gauss ens M r c H1 H2 HW HM.
  assert (EI : forall y, In y (grid (n1, n2, 1%nat)) -> exists p q, y = (p, q, 0%nat) /\ (p < n1)%nat /\ (q < n2)%nat /\ (r * (n1 * n2) + p * n2 + q < M)%nat).
  { intros [[p q] z] Hy. apply grid_In in Hy. destruct Hy as (Hp & Hq & Hz). assert (z = 0)%nat by lia. subst z. exists p, q. repeat split; try lia. pose proof (Nat.mul_le_mono_r (S p) n1 n2 ltac:(lia)). lia. }
  apply (mean_square G ens node (fun g y => noise_of gauss n1 n2 g r y) c (grid (n1, n2, 1%nat)) (grid_NoDup _)).
  - intros y Hin. destruct (EI y Hin) as (p & q & -> & Hp & Hq & HB). unfold noise_of. rewrite HW by exact HB. rewrite Nat.eqb_refl. reflexivity.
  - intros y y' Hin Hin' NE. destruct (EI y Hin) as (p & q & -> & Hp & Hq & HB). destruct (EI y' Hin') as (p' & q' & -> & Hp' & Hq' & HB'). unfold noise_of. rewrite HW by assumption.
    destruct (Nat.eqb_spec (r * (n1 * n2) + p * n2 + q) (r * (n1 * n2) + p' * n2 + q')) as [E|_]; [|reflexivity]. exfalso. apply NE.
    assert (E' : (p * n2 + q = p' * n2 + q')%nat) by lia.
    assert (EQ : (q = q')%nat) by (rewrite <- (Nat.mod_small q n2), <- (Nat.mod_small q' n2) by assumption; rewrite <- (Nat.mod_add q p n2), <- (Nat.mod_add q' p' n2) by lia; f_equal; lia).
    assert (EP : (p = p')%nat) by (apply (Nat.mul_cancel_r _ _ n2); lia). subst. reflexivity.
Qed.

(** Variance of the values of a field at listed nodes. *)
Definition spread (l : list node) (u : node -> R) : R := Rsum (map (fun x => (u x)^2) l) / INR (length l) - (Rsum (map u l) / INR (length l))^2.

Lemma spread_ext : forall l u v, (forall x, u x = v x) -> spread l u = spread l v.
Proof. intros l u v H. unfold spread. rewrite (Rsum_ext _ l (fun x => (u x)^2) (fun x => (v x)^2)), (Rsum_ext _ l u v) by (intros; rewrite ?H; reflexivity). reflexivity. Qed.

Section Spread.

Variables n1 n2 : nat.
Hypothesis (H1 : (0 < n1)%nat) (H2 : (0 < n2)%nat).
Notation d := (n1, n2, 1%nat).
Variable T : (node -> R) -> node -> R.
Variable A : node -> C.
Hypothesis HT : forall noise k, on_grid d k -> fourier d (T noise) k = Cmult (A k) (fourier d noise k).
Variable V : R.
Hypothesis HV : forall x, on_grid d x -> plane_covariance d T x x = V.
Variable l : list node.
Hypothesis Hl : forall x, In x l -> on_grid d x.
Hypothesis Hne : (0 < length l)%nat.

Lemma spread_mean : forall G (gauss : G -> R * G) ens M r, white gauss M ens -> (S r * (n1 * n2) <= M)%nat ->
  mean ens (fun g => spread l (T (noise_of gauss n1 n2 g r)))
  = V - Rsum (map (fun y => (Rsum (map (fun x => T (spike y) x) l) / INR (length l))^2) (grid d)).
Proof.
  intros G gauss ens M r HW HM. set (N := INR (length l)). assert (PN : 0 < N) by (apply lt_0_INR; exact Hne).
  rewrite (mean_ext _ _ _ (fun g => / N * Rsum (map (fun x => (T (noise_of gauss n1 n2 g r) x)^2) l)
    + (-1) * (Rsum (map (fun y => noise_of gauss n1 n2 g r y * (Rsum (map (fun x => T (spike y) x) l) / N)) (grid d)))^2)).
  2:{ intros g. unfold spread. fold N.
      assert (E : Rsum (map (T (noise_of gauss n1 n2 g r)) l) / N = Rsum (map (fun y => noise_of gauss n1 n2 g r y * (Rsum (map (fun x => T (spike y) x) l) / N)) (grid d))).
      { rewrite (Rsum_ext _ l _ (fun x => Rsum (map (fun y => noise_of gauss n1 n2 g r y * T (spike y) x) (grid d)))).
        - rewrite Rsum_interchange. unfold Rdiv. rewrite (Rmult_comm _ (/ N)), <- Rsum_scal. apply Rsum_ext. intros y _. rewrite Rsum_scal, (Rmult_comm (/ N)), Rmult_assoc. reflexivity.
        - intros x Hx. rewrite (expansion d (plane_nonempty n1 n2 H1 H2) T A HT _ x (Hl x Hx)). apply Rsum_nodes_grid. }
      rewrite E. unfold Rdiv. ring. }
  rewrite mean_plus, !mean_scal, (noise_square n1 n2 G gauss ens M r _ H1 H2 HW HM).
  rewrite (mean_Rsum G ens node l (fun g x => (T (noise_of gauss n1 n2 g r) x)^2)). rewrite (Rsum_ext _ l _ (fun _ => V)).
  2:{ intros x Hx. rewrite (mean_square_one n1 n2 H1 H2 T A HT G gauss ens M r x HW HM (Hl x Hx)). apply HV, Hl, Hx. }
  rewrite Rsum_constant. fold N. field. lra.
Qed.

Lemma spread_le : forall G (gauss : G -> R * G) ens M r, white gauss M ens -> (S r * (n1 * n2) <= M)%nat ->
  mean ens (fun g => spread l (T (noise_of gauss n1 n2 g r))) <= V.
Proof.
  intros G gauss ens M r HW HM. rewrite (spread_mean G gauss ens M r HW HM).
  assert (0 <= Rsum (map (fun y => (Rsum (map (fun x => T (spike y) x) l) / INR (length l))^2) (grid d))) by (apply Rsum_nonneg; intros y _; apply pow2_ge_0). lra.
Qed.

Lemma spread_eq : forall G (gauss : G -> R * G) ens M r, white gauss M ens -> (S r * (n1 * n2) <= M)%nat -> (forall noise, Rsum (map (T noise) l) = 0) ->
  mean ens (fun g => spread l (T (noise_of gauss n1 n2 g r))) = V.
Proof.
  intros G gauss ens M r HW HM HZ. rewrite (spread_mean G gauss ens M r HW HM). rewrite (Rsum_ext _ (grid d) _ (fun _ => 0)).
  - rewrite Rsum_constant. ring.
  - intros y _. change (Rsum (map (fun x => T (spike y) x) l)) with (Rsum (map (T (spike y)) l)). rewrite HZ. unfold Rdiv. ring.
Qed.

End Spread.

(** ** Realisations *)

(** The nodes of the computational grid which a field delivers. *)
Definition delivered (g : low_grid) : list node :=
  map (fun x => let '(p, q, r) := x in ((p + (lg_cN1 g - lg_N1 g) / 2)%nat, (q + (lg_cN2 g - lg_N2 g) / 2)%nat, r)) (nodes_of (lg_N1 g, lg_N2 g, 1%nat)).

Lemma var2_spread : forall n m (u : plane) (h : node -> node) v, shape2 n m u -> (0 < n)%nat -> (0 < m)%nat ->
  (forall x, on_grid (n, m, 1%nat) x -> at2 u x = v (h x)) -> var2 u = spread (map h (nodes_of (n, m, 1%nat))) v.
Proof.
  intros n m u h v HS Hn Hm HV. rewrite (var2_nodes n m u HS Hn Hm). unfold spread. rewrite map_length, nodes_length, mult_INR, !map_map.
  rewrite (Rsum_ext _ (nodes_of (n, m, 1%nat)) (fun x => (at2 u x)^2) (fun x => (v (h x))^2)) by (intros x Hx; rewrite HV by (apply nodes_of_In; exact Hx); reflexivity).
  rewrite (Rsum_ext _ (nodes_of (n, m, 1%nat)) (at2 u) (fun x => v (h x))) by (intros x Hx; apply HV, nodes_of_In, Hx). reflexivity.
Qed.

Lemma Rsum_cons : forall x l, Rsum (x :: l) = x + Rsum l.
Proof. reflexivity. Qed.

Section Realisations.

Variables (G : Type) (gauss : G -> R * G) (cfg : low_config) (w : low_gen).
Hypothesis HP : positive_lengths cfg.
Hypothesis EC : lw_cfg w = cfg.
Hypothesis F : grid_facts cfg (lw_grid w).
Let gr := lw_grid w.
Let N1 := lg_cN1 gr.
Let N2 := lg_cN2 gr.

Lemma realisation_list : forall n w0 g, lw_cfg w0 = lw_cfg w -> lw_c w0 = lw_c w -> lw_grid w0 = lw_grid w ->
  realisation_variances gauss n w0 g
  = (Ok (map (fun r => (spread (delivered gr) (low_sample (gen_Q1 w) gr (noise_of gauss N1 N2 g r)), spread (delivered gr) (low_sample (gen_Q2 w) gr (noise_of gauss N1 N2 g r)))) (seq 0 n)),
     after gauss g (n * (N1 * N2))).
Proof.
  induction n as [|n IH]; intros w0 g E1 E2 E3; [reflexivity|]. cbn [realisation_variances].
  destruct (realisation G gauss cfg w w0 g HP EC F E1 E2 E3) as (u1 & u2 & EG & S1 & S2 & VV). fold gr N1 N2 in EG, S1, S2, VV. rewrite EG. cbn [lw_u].
  rewrite IH by reflexivity. cbn [bind]. f_equal.
  - f_equal. cbn [seq map]. rewrite <- seq_shift, map_map. f_equal.
    + assert (P1 : (0 < lg_N1 gr)%nat) by (unfold gr; rewrite (gf_N1 _ _ F); pose proof (Nat.pow_nonzero 2 (lc_e1 cfg)); lia). assert (P2 : (0 < lg_N2 gr)%nat) by (unfold gr; rewrite (gf_N2 _ _ F); pose proof (Nat.pow_nonzero 2 (lc_e2 cfg)); lia).
      unfold delivered. f_equal; apply (var2_spread (lg_N1 gr) (lg_N2 gr)); try assumption; intros [[p q] z] (Hp & Hq & Hz); replace z with 0%nat by lia; [exact (proj1 (VV p q Hp Hq))|exact (proj2 (VV p q Hp Hq))].
    + apply map_ext. intros r. f_equal; apply spread_ext; intros x; apply low_sample_ext; intros y _; apply noise_shift.
  - rewrite after_after. reflexivity.
Qed.

Lemma full_list : forall n w0 g, lw_cfg w0 = lw_cfg w -> lw_c w0 = lw_c w -> lw_grid w0 = lw_grid w ->
  full_variances gauss n w0 g
  = (Ok (map (fun r => (spread (nodes_of (N1, N2, 1%nat)) (low_sample (gen_Q1 w) gr (noise_of gauss N1 N2 g r)), spread (nodes_of (N1, N2, 1%nat)) (low_sample (gen_Q2 w) gr (noise_of gauss N1 N2 g r)))) (seq 0 n)),
     after gauss g (n * (N1 * N2))).
Proof.
  assert (P1 : (0 < N1)%nat) by (unfold N1, gr; pose proof (gf_21 _ _ F); lia). assert (P2 : (0 < N2)%nat) by (unfold N2, gr; pose proof (gf_22 _ _ F); lia).
  induction n as [|n IH]; intros w0 g E1 E2 E3; [reflexivity|]. cbn [full_variances]. rewrite E3. fold gr N1 N2.
  destruct (realisation G gauss cfg w w0 g HP EC F E1 E2 E3) as (u1 & u2 & EG & _). fold gr N1 N2 in EG. rewrite EG.
  destruct (low_full w0 (fst (normal2 gauss N1 N2 g))) as [f1 f2] eqn:EF. rewrite IH by reflexivity. cbn [bind].
  assert (EF' : f1 = tabulate2 N1 N2 (low_sample (gen_Q1 w) gr (at2 (fst (normal2 gauss N1 N2 g)))) /\ f2 = tabulate2 N1 N2 (low_sample (gen_Q2 w) gr (at2 (fst (normal2 gauss N1 N2 g))))).
  { unfold low_full in EF. unfold gen_Q1, gen_Q2 in *. rewrite E1, E2, E3 in EF. injection EF as <- <-. split; reflexivity. }
  destruct EF' as [-> ->]. f_equal.
  - f_equal. cbn [seq map]. rewrite <- seq_shift, map_map. f_equal.
    + rewrite <- (map_id (nodes_of (N1, N2, 1%nat))). f_equal; apply (var2_spread N1 N2 _ (fun x => x)); try assumption; try apply tabulate2_shape; intros x Hx; rewrite at2_tabulate2 by exact Hx;
        apply low_sample_ext; intros y Hy; apply (normal2_noise G gauss N1 N2 g 0 y); exact Hy.
    + apply map_ext. intros r. f_equal; apply spread_ext; intros x; apply low_sample_ext; intros y _; apply noise_shift.
  - rewrite after_after. reflexivity.
Qed.

End Realisations.
