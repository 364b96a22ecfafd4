(** Lemmas about the variances reported by the studies of the low-frequency generator. *)

From Coq Require Import String Reals List ZArith Bool Lia Lra.
From Coquelicot Require Import Coquelicot.
From Verif Require Import Prelude GenModel GenSpec GenProofs DftModel DftSpec DftProofs DftMore DftCov LowModel LowSpec LowProofs LowFourier LowMore LowSpectrum LowCov LowApi EstSpec EstProofs StudyModel StudySpec StudyProofs.
Import ListNotations.
Open Scope R_scope.

(** ** Arrays as functions of the node *)

Lemma nth_map_seq : forall A (f : nat -> A) n p d, (p < n)%nat -> nth p (map f (seq 0 n)) d = f p.
Proof.
  intros A f n p d Hp. rewrite (nth_indep (map f (seq 0 n)) d (f 0%nat)) by (rewrite map_length, seq_length; exact Hp). rewrite map_nth, seq_nth by exact Hp. reflexivity.
Qed.

Lemma shape2_tabulate : forall n m (u : plane), shape2 n m u -> u = tabulate2 n m (at2 u).
Proof.
  intros n m u [HL HF]. unfold tabulate2. apply (nth_ext _ _ [] []).
  - rewrite map_length, seq_length. exact HL.
  - intros p Hp. rewrite nth_map_seq by lia. rewrite List.Forall_forall in HF. pose proof (HF _ (nth_In u [] Hp)) as HR.
    apply (nth_ext _ _ 0 0); [rewrite map_length, seq_length; exact HR|]. intros q Hq. rewrite nth_map_seq by lia. reflexivity.
Qed.

Lemma concat_tabulate : forall n m f, concat (tabulate2 n m f) = map f (nodes_of (n, m, 1%nat)).
Proof.
  intros n m f. unfold tabulate2, nodes_of. rewrite <- flat_map_concat_map. generalize (seq 0 n) as l. induction l as [|p l IH]; [reflexivity|].
  cbn [flat_map]. rewrite map_app, IH. f_equal. generalize (seq 0 m) as l'. induction l' as [|q l' IH']; [reflexivity|]. cbn. f_equal. exact IH'.
Qed.

Lemma concat_nodes : forall n m (u : plane), shape2 n m u -> concat u = map (at2 u) (nodes_of (n, m, 1%nat)).
Proof. intros n m u H. rewrite (shape2_tabulate n m u H) at 1. apply concat_tabulate. Qed.

Lemma nodes_length : forall n m, length (nodes_of (n, m, 1%nat)) = (n * m)%nat.
Proof.
  intros n m. rewrite <- (map_length (fun _ => 0)), <- (concat_tabulate n m (fun _ => 0)). pose proof (tabulate2_shape n m (fun _ => 0)) as [HL HF].
  revert HL HF. generalize (tabulate2 n m (fun _ => 0)). intros t HL HF. subst n. induction HF as [|r t Hr HF IH]; [reflexivity|]. cbn [concat length]. rewrite app_length, IH, Hr. lia.
Qed.

Lemma Rsum_map_add : forall A (l : list A) f h, Rsum (map (fun x => f x + h x) l) = Rsum (map f l) + Rsum (map h l).
Proof. exact Rsum_plus. Qed.

(** The variance is the mean square less the squared mean. *)
Lemma variance_list : forall A (l : list A) (v : A -> R), (0 < length l)%nat ->
  let N := INR (length l) in
  Rmean (map (fun x => (x - Rmean (map v l))^2) (map v l)) = Rsum (map (fun x => (v x)^2) l) / N - (Rsum (map v l) / N)^2.
Proof.
  intros A l v HN N. assert (PN : 0 < N) by (apply lt_0_INR; exact HN). unfold Rmean. rewrite !map_length. fold N. rewrite map_map.
  set (mu := Rsum (map v l) / N).
  assert (ES : forall mu, Rsum (map (fun x => (v x - mu)^2) l) = Rsum (map (fun x => (v x)^2) l) - 2 * mu * Rsum (map v l) + mu^2 * N).
  { intros c. unfold N. clear. induction l as [|x l IH]; [cbn; ring|]. cbn [map length]. rewrite S_INR. unfold Rsum in *. cbn [fold_right]. rewrite IH. ring. }
  rewrite ES. unfold mu. field. lra.
Qed.

Lemma var2_nodes : forall n m (u : plane), shape2 n m u -> (0 < n)%nat -> (0 < m)%nat ->
  var2 u = Rsum (map (fun x => (at2 u x)^2) (nodes_of (n, m, 1%nat))) / (INR n * INR m) - (Rsum (map (at2 u) (nodes_of (n, m, 1%nat))) / (INR n * INR m))^2.
Proof.
  intros n m u HS Hn Hm. unfold var2. cbv zeta. rewrite (concat_nodes n m u HS). pose proof (variance_list _ (nodes_of (n, m, 1%nat)) (at2 u)) as V. rewrite nodes_length, mult_INR in V. apply V. nia.
Qed.

Lemma sum_sq_nodes : forall n m (u : plane), shape2 n m u -> sum_sq u = Rsum (map (fun x => (at2 u x)^2) (nodes_of (n, m, 1%nat))).
Proof. intros n m u HS. unfold sum_sq. rewrite (concat_nodes n m u HS), map_map. reflexivity. Qed.

Lemma div2_shape : forall n m (u : plane) c, shape2 n m u -> shape2 n m (div2 u c).
Proof.
  intros n m u c [HL HF]. unfold div2. split; [rewrite map_length; exact HL|]. apply List.Forall_forall. intros r Hr. apply in_map_iff in Hr. destruct Hr as (r0 & <- & Hr0).
  rewrite map_length. rewrite List.Forall_forall in HF. exact (HF r0 Hr0).
Qed.

Lemma div2_at : forall n m (u : plane) c x, shape2 n m u -> on_grid (n, m, 1%nat) x -> at2 (div2 u c) x = at2 u x / INR c.
Proof.
  intros n m u c [[p q] r] [HL HF] (Hp & Hq & _). unfold div2, at2. rewrite (nth_indep _ [] (map (fun v => v / INR c) [])) by (rewrite map_length; lia). rewrite map_nth.
  rewrite List.Forall_forall in HF. assert (HR : length (nth p u []) = m) by (apply HF, nth_In; lia).
  rewrite (nth_indep _ 0 ((fun v => v / INR c) 0)) by (rewrite map_length; lia). rewrite (map_nth (fun v => v / INR c)). reflexivity.
Qed.

(** ** Expansion of a field in the noise *)

Section Linear.

Variable d : extents.
Hypothesis Hd : nonempty d.
Variable T : (node -> R) -> node -> R.
Variable A : node -> C.
Hypothesis HT : forall noise k, on_grid d k -> fourier d (T noise) k = Cmult (A k) (fourier d noise k).

Lemma expansion : forall noise x, on_grid d x -> T noise x = Rsum (map (fun y => noise y * T (spike y) x) (nodes_of d)).
Proof.
  intros noise x Hx. apply RtoC_inj. rewrite Rsum_RtoC, csum_nodes_of. rewrite (T_inverse d Hd T A HT noise x Hx). unfold ifftn. symmetry.
  rewrite (csum_ext _ (grid d) _ (fun y => Cmult (RtoC (/ count d)) (csum (grid d) (fun k => Cmult (RtoC (noise y)) (Cmult (Cmult (A k) (cis (theta d k x))) (cis (- theta d k y))))))).
  2:{ intros y Hy. rewrite grid_In in Hy. rewrite RtoC_mult, (response d Hd T A HT x y Hx Hy), csum_scal. ring. }
  rewrite csum_scal. f_equal. rewrite csum_swap. apply csum_ext. intros k _. rewrite fourier_fftn. unfold fftn. symmetry.
  rewrite <- csum_scal, <- csum_scal_r. apply csum_ext. intros y _. ring.
Qed.

End Linear.

Section Plane.

Variables n1 n2 : nat.
Hypothesis (H1 : (0 < n1)%nat) (H2 : (0 < n2)%nat).
Notation d := (n1, n2, 1%nat).
Variable T : (node -> R) -> node -> R.
Variable A : node -> C.
Hypothesis HT : forall noise k, on_grid d k -> fourier d (T noise) k = Cmult (A k) (fourier d noise k).

Lemma plane_nonempty : nonempty d.
Proof. unfold nonempty. lia. Qed.

(** Mean square of a sum of realisations with independent noise. *)
Lemma mean_square_sum : forall G (gauss : G -> R * G) ens M n x, white gauss M ens -> (n * (n1 * n2) <= M)%nat -> on_grid d x ->
  mean ens (fun g => (Rsum (map (fun r => T (noise_of gauss n1 n2 g r) x) (seq 0 n)))^2) = INR n * plane_covariance d T x x.
Proof.
  intros G gauss ens M n x HW HM Hx.
  pose (l := list_prod (seq 0 n) (grid d)).
  rewrite (mean_ext _ _ _ (fun g => (Rsum (map (fun ry => noise_of gauss n1 n2 g (fst ry) (snd ry) * T (spike (snd ry)) x) l))^2)).
  2:{ intros g. f_equal. unfold l. clear HM. generalize (seq 0 n) as rs. induction rs as [|r rs IH]; [reflexivity|]. cbn [list_prod map].
      rewrite map_app, map_map. cbn [fst snd]. unfold Rsum at 1. cbn [fold_right]. fold (Rsum (map (fun r => T (noise_of gauss n1 n2 g r) x) rs)). rewrite IH.
      rewrite (expansion d plane_nonempty T A HT _ x Hx). rewrite Rsum_nodes_grid.
      generalize (map (fun ry : nat * node => noise_of gauss n1 n2 g (fst ry) (snd ry) * T (spike (snd ry)) x) (list_prod rs (grid d))) as b.
      generalize (map (fun y : node => noise_of gauss n1 n2 g r y * T (spike y) x) (grid d)) as a. clear.
      induction a as [|v a IH]; intros b; unfold Rsum in *; cbn; [ring|]. rewrite <- IH. ring. }
  assert (EI : forall r y, In (r, y) l -> exists p q, y = (p, q, 0%nat) /\ (r < n)%nat /\ (p < n1)%nat /\ (q < n2)%nat /\ (r * (n1 * n2) + p * n2 + q < M)%nat).
  { intros r [[p q] z] Hin. unfold l in Hin. apply in_prod_iff in Hin. destruct Hin as [Hr Hy]. apply in_seq in Hr. apply grid_In in Hy. destruct Hy as (Hp & Hq & Hz).
    assert (z = 0)%nat by lia. subst z. exists p, q. repeat split; try lia.
    pose proof (Nat.mul_le_mono_r (S r) n (n1 * n2) ltac:(lia)). pose proof (Nat.mul_le_mono_r (S p) n1 n2 ltac:(lia)). lia. }
  rewrite (mean_square G ens (nat * node) (fun g ry => noise_of gauss n1 n2 g (fst ry) (snd ry)) (fun ry => T (spike (snd ry)) x) l).
  - unfold l, plane_covariance. clear HM EI l. rewrite (Rsum_nodes_grid d (fun y => T (spike y) x * T (spike y) x)).
    rewrite <- (seq_length n 0) at 2. generalize (seq 0 n) as rs. induction rs as [|r rs IH]; [cbn; ring|]. cbn [list_prod length]. rewrite S_INR, map_app, map_map. cbn [snd].
    transitivity (Rsum (map (fun y => T (spike y) x * T (spike y) x) (grid d)) + Rsum (map (fun ry : nat * node => T (spike (snd ry)) x ^ 2) (list_prod rs (grid d)))).
    + generalize (map (fun ry : nat * node => T (spike (snd ry)) x ^ 2) (list_prod rs (grid d))) as b. generalize (grid d) as a. clear.
      induction a as [|v a IH]; intros b; unfold Rsum in *; cbn [map app fold_right]; [ring|]. rewrite IH. ring.
    + rewrite IH. ring.
  - unfold l. apply NoDup_list_prod; [apply seq_NoDup|apply grid_NoDup].
  - intros [r y] Hin. destruct (EI r y Hin) as (p & q & -> & Hr & Hp & Hq & HB). cbn [fst snd]. unfold noise_of. rewrite HW by exact HB. rewrite Nat.eqb_refl. reflexivity.
  - intros [r y] [r' y'] Hin Hin' NE. destruct (EI r y Hin) as (p & q & -> & Hr & Hp & Hq & HB). destruct (EI r' y' Hin') as (p' & q' & -> & Hr' & Hp' & Hq' & HB'). cbn [fst snd]. unfold noise_of. rewrite HW by assumption.
    destruct (Nat.eqb_spec (r * (n1 * n2) + p * n2 + q) (r' * (n1 * n2) + p' * n2 + q')) as [E|_]; [|reflexivity]. exfalso. apply NE.
    assert (E' : ((r * n1 + p) * n2 + q = (r' * n1 + p') * n2 + q')%nat) by lia.
    assert (EQ : (q = q')%nat) by (rewrite <- (Nat.mod_small q n2), <- (Nat.mod_small q' n2) by assumption; rewrite <- (Nat.mod_add q (r * n1 + p) n2), <- (Nat.mod_add q' (r' * n1 + p') n2) by lia; f_equal; lia).
    assert (EP : ((r * n1 + p) = (r' * n1 + p'))%nat) by (apply (Nat.mul_cancel_r _ _ n2); lia).
    assert (EP' : (p = p')%nat) by (rewrite <- (Nat.mod_small p n1), <- (Nat.mod_small p' n1) by assumption; rewrite <- (Nat.mod_add p r n1), <- (Nat.mod_add p' r' n1) by lia; f_equal; lia).
    assert (ER : (r = r')%nat) by (apply (Nat.mul_cancel_r _ _ n1); lia). subst. reflexivity.
Qed.

Lemma mean_square_one : forall G (gauss : G -> R * G) ens M r x, white gauss M ens -> ((S r) * (n1 * n2) <= M)%nat -> on_grid d x ->
  mean ens (fun g => (T (noise_of gauss n1 n2 g r) x)^2) = plane_covariance d T x x.
Proof.
  intros G gauss ens M r x HW HM Hx.
  rewrite (mean_ext _ _ _ (fun g => (Rsum (map (fun y => noise_of gauss n1 n2 g r y * T (spike y) x) (grid d)))^2)).
  2:{ intros g. f_equal. rewrite (expansion d plane_nonempty T A HT _ x Hx). apply Rsum_nodes_grid. }
  assert (EI : forall y, In y (grid d) -> exists p q, y = (p, q, 0%nat) /\ (p < n1)%nat /\ (q < n2)%nat /\ (r * (n1 * n2) + p * n2 + q < M)%nat).
  { intros [[p q] z] Hy. apply grid_In in Hy. destruct Hy as (Hp & Hq & Hz). assert (z = 0)%nat by lia. subst z. exists p, q. repeat split; try lia. pose proof (Nat.mul_le_mono_r (S p) n1 n2 ltac:(lia)). lia. }
  rewrite (mean_square G ens node (fun g y => noise_of gauss n1 n2 g r y) (fun y => T (spike y) x) (grid d) (grid_NoDup d)).
  - unfold plane_covariance. rewrite (Rsum_nodes_grid d (fun y => T (spike y) x * T (spike y) x)). apply Rsum_ext. intros y _. ring.
  - intros y Hin. destruct (EI y Hin) as (p & q & -> & Hp & Hq & HB). unfold noise_of. rewrite HW by exact HB. rewrite Nat.eqb_refl. reflexivity.
  - intros y y' Hin Hin' NE. destruct (EI y Hin) as (p & q & -> & Hp & Hq & HB). destruct (EI y' Hin') as (p' & q' & -> & Hp' & Hq' & HB'). unfold noise_of. rewrite HW by assumption.
    destruct (Nat.eqb_spec (r * (n1 * n2) + p * n2 + q) (r * (n1 * n2) + p' * n2 + q')) as [E|_]; [|reflexivity]. exfalso. apply NE.
    assert (E' : (p * n2 + q = p' * n2 + q')%nat) by lia.
    assert (EQ : (q = q')%nat) by (rewrite <- (Nat.mod_small q n2), <- (Nat.mod_small q' n2) by assumption; rewrite <- (Nat.mod_add q p n2), <- (Nat.mod_add q' p' n2) by lia; f_equal; lia).
    assert (EP : (p = p')%nat) by (apply (Nat.mul_cancel_r _ _ n2); lia). subst. reflexivity.
Qed.

End Plane.

(** ** The two components *)

Lemma component_kernels : forall quad cfg w, positive_lengths cfg -> low_construct quad cfg = Ok w ->
  let g := lw_grid w in let d := (lg_cN1 g, lg_cN2 g, 1%nat) in
  exists A1 A2, (forall noise k, on_grid d k -> fourier d (low_sample (gen_Q1 w) g noise) k = Cmult (A1 k) (fourier d noise k))
  /\ (forall noise k, on_grid d k -> fourier d (low_sample (gen_Q2 w) g noise) k = Cmult (A2 k) (fourier d noise k)).
Proof.
  intros quad cfg w HP HC g d. destruct (low_constructed quad cfg w HC HP) as (EC & F & _). fold g in F. pose proof (gf_21 _ _ F) as H21. pose proof (gf_22 _ _ F) as H22.
  exists (fun k : node => let '(a, b, _) := k in if (2 * b =? lg_cN2 g)%nat then RtoC 0 else gen_Q1 w (physical_k (lg_cL1 g) (lg_cN1 g) a) (physical_k (lg_cL2 g) (lg_cN2 g) b)),
    (fun k : node => let '(a, b, _) := k in if (2 * a =? lg_cN1 g)%nat then RtoC 0 else gen_Q2 w (physical_k (lg_cL1 g) (lg_cN1 g) a) (physical_k (lg_cL2 g) (lg_cN2 g) b)).
  split; intros noise k Hk; apply (on_grid_2 g ltac:(lia) ltac:(lia)) in Hk; destruct Hk as (a & b & -> & Ha & Hb).
  - unfold gen_Q1. rewrite EC. fold g. unfold d. rewrite (coefficients1 g ltac:(lia) ltac:(lia) (gf_c1 _ _ F) (gf_c2 _ _ F)) by assumption. destruct (2 * b =? lg_cN2 g)%nat; [ring|reflexivity].
  - unfold gen_Q2. rewrite EC. fold g. unfold d. rewrite (coefficients2 g ltac:(lia) ltac:(lia) (gf_c1 _ _ F) (gf_c2 _ _ F)) by assumption. destruct (2 * a =? lg_cN1 g)%nat; [ring|reflexivity].
Qed.

Lemma diagonal : forall quad cfg w x, positive_lengths cfg -> low_construct quad cfg = Ok w ->
  let g := lw_grid w in let d := (lg_cN1 g, lg_cN2 g, 1%nat) in
  ordinary cfg (lg_cL1 g) (lg_cL2 g) (lg_cdx g) (lg_cdy g) -> on_grid d x ->
  plane_covariance d (low_sample (gen_Q1 w) g) x x = carried1 (lw_c w) cfg (lg_cL1 g) (lg_cL2 g) (lg_cN1 g) (lg_cN2 g)
  /\ plane_covariance d (low_sample (gen_Q2 w) g) x x = carried2 (lw_c w) cfg (lg_cL1 g) (lg_cL2 g) (lg_cN1 g) (lg_cN2 g).
Proof.
  intros quad cfg w x HP HC g d (O1 & O2 & O3 & O4 & O5 & O6 & O7) Hx.
  destruct (low_covariance quad cfg w x x HP HC O1 O2 O3 O4 O5 O6 O7 Hx Hx) as [E1 E2]. fold g d in E1, E2. rewrite E1, E2. unfold carried1, carried2. fold d.
  split; apply Rsum_ext; intros [[a b] c] _; rewrite Rminus_diag_eq by reflexivity; rewrite cos_0, Rmult_1_r; reflexivity.
Qed.

Lemma Rsum_constant : forall A (l : list A) c, Rsum (map (fun _ => c) l) = INR (length l) * c.
Proof. intros A l c. induction l as [|x l IH]; [cbn; ring|]. cbn [map length]. rewrite S_INR. unfold Rsum in *. cbn [fold_right]. rewrite IH. ring. Qed.

Lemma Rsum_interchange : forall A B (l : list A) (m : list B) (f : A -> B -> R),
  Rsum (map (fun x => Rsum (map (f x) m)) l) = Rsum (map (fun y => Rsum (map (fun x => f x y) l)) m).
Proof.
  intros A B l m f. induction l as [|x l IH].
  - cbn. symmetry. induction m as [|y m IHm]; [reflexivity|]. unfold Rsum in *. cbn in *. rewrite IHm. ring.
  - cbn [map]. unfold Rsum at 1. cbn [fold_right]. fold (Rsum (map (fun x => Rsum (map (f x) m)) l)). rewrite IH, <- Rsum_plus. apply Rsum_ext. intros y _. reflexivity.
Qed.

(** ** Single runs of the studies *)

Lemma mean_run : forall G (gauss : G -> R * G) ens quad cfg w n (st : G -> stats), positive_lengths cfg -> low_construct quad cfg = Ok w -> plain_domain cfg -> (1 <= n)%nat ->
  ordinary cfg (asked_L1 cfg) (asked_L2 cfg) (asked_dx cfg) (asked_dx cfg) ->
  let N1 := (2 ^ lc_e1 cfg)%nat in let N2 := (2 ^ lc_e2 cfg)%nat in
  let V1 := carried1 (lw_c w) cfg (asked_L1 cfg) (asked_L2 cfg) N1 N2 in
  let V2 := carried2 (lw_c w) cfg (asked_L1 cfg) (asked_L2 cfg) N1 N2 in
  white gauss (n * (N1 * N2)) ens ->
  (forall g, fst (run_single gauss quad cfg n g) = Ok (st g)) ->
  mean ens (fun g => fst (fst (fst (st g)))) = V1 / INR n * (asked_L1 cfg * asked_L2 cfg)
  /\ mean ens (fun g => snd (fst (fst (st g)))) = V2 / INR n * (asked_L1 cfg * asked_L2 cfg)
  /\ mean ens (fun g => snd (fst (st g))) = V1 / INR n /\ mean ens (fun g => snd (st g)) = V2 / INR n.
Proof.
  intros G gauss ens quad cfg w n st HP HC HD Hn HO N1 N2 V1 V2 HW HS.
  destruct (low_constructed quad cfg w HC HP) as (EC & F & _). destruct (plain_counts cfg (lw_grid w) HP HD F) as (C1 & C2 & C3 & C4 & C5 & C6 & C7 & C8 & C9). fold N1 in C1. fold N2 in C2.
  assert (P1 : (0 < N1)%nat) by (pose proof (gf_21 _ _ F); lia). assert (P2 : (0 < N2)%nat) by (pose proof (gf_22 _ _ F); lia).
  assert (IN1 : 0 < INR N1) by (apply lt_0_INR; exact P1). assert (IN2 : 0 < INR N2) by (apply lt_0_INR; exact P2). assert (INn : 0 < INR n) by (apply lt_0_INR; lia).
  destruct (component_kernels quad cfg w HP HC) as (A1 & A2 & HT1 & HT2). rewrite C1, C2 in HT1, HT2.
  assert (HDG : forall x, on_grid (N1, N2, 1%nat) x -> plane_covariance (N1, N2, 1%nat) (low_sample (gen_Q1 w) (lw_grid w)) x x = V1 /\ plane_covariance (N1, N2, 1%nat) (low_sample (gen_Q2 w) (lw_grid w)) x x = V2).
  { intros x Hx. pose proof (diagonal quad cfg w x HP HC) as DG. cbv zeta in DG. rewrite C1, C2, C3, C4, C5, C6 in DG. exact (DG HO Hx). }
  assert (HM : forall noise, Rsum (map (low_sample (gen_Q1 w) (lw_grid w) noise) (nodes_of (N1, N2, 1%nat))) = 0 /\ Rsum (map (low_sample (gen_Q2 w) (lw_grid w) noise) (nodes_of (N1, N2, 1%nat))) = 0).
  { intros noise. pose proof (mean_api quad cfg w noise HP HC) as MA. cbv zeta in MA. rewrite C1, C2 in MA. exact MA. }
  (* the statistics of one state *)
  assert (HV : forall T, (T = low_sample (gen_Q1 w) (lw_grid w) \/ T = low_sample (gen_Q2 w) (lw_grid w)) -> forall g (t : plane), shape2 N1 N2 t ->
    (forall x, on_grid (N1, N2, 1%nat) x -> at2 t x = Rsum (map (fun r => T (noise_of gauss N1 N2 g r) x) (seq 0 n))) ->
    sum_sq (div2 t n) = / (INR n)^2 * Rsum (map (fun x => (Rsum (map (fun r => T (noise_of gauss N1 N2 g r) x) (seq 0 n)))^2) (nodes_of (N1, N2, 1%nat)))
    /\ var2 (div2 t n) = sum_sq (div2 t n) / (INR N1 * INR N2)).
  { intros T HTT g t St Vt. split.
    - rewrite (sum_sq_nodes N1 N2) by (apply div2_shape; exact St). rewrite <- Rsum_scal. apply Rsum_ext. intros x Hx. apply nodes_of_In in Hx. rewrite (div2_at N1 N2) by assumption. rewrite Vt by exact Hx. field. lra.
    - rewrite (var2_nodes N1 N2) by (assumption || (apply div2_shape; exact St)). rewrite (sum_sq_nodes N1 N2) by (apply div2_shape; exact St).
      rewrite (Rsum_ext _ (nodes_of (N1, N2, 1%nat)) (at2 (div2 t n)) (fun x => / INR n * Rsum (map (fun r => T (noise_of gauss N1 N2 g r) x) (seq 0 n)))).
      2:{ intros x Hx. apply nodes_of_In in Hx. rewrite (div2_at N1 N2) by assumption. rewrite Vt by exact Hx. unfold Rdiv. ring. }
      rewrite Rsum_scal, Rsum_interchange. rewrite (Rsum_ext _ (seq 0 n) _ (fun _ => 0)).
      2:{ intros r _. destruct HTT as [->| ->]; apply HM. }
      rewrite Rsum_constant. field. lra. }
  assert (HMean : forall T A V, (forall noise k, on_grid (N1, N2, 1%nat) k -> fourier (N1, N2, 1%nat) (T noise) k = Cmult (A k) (fourier (N1, N2, 1%nat) noise k)) ->
    (forall x, on_grid (N1, N2, 1%nat) x -> plane_covariance (N1, N2, 1%nat) T x x = V) ->
    mean ens (fun g => / (INR n)^2 * Rsum (map (fun x => (Rsum (map (fun r => T (noise_of gauss N1 N2 g r) x) (seq 0 n)))^2) (nodes_of (N1, N2, 1%nat)))) = V / INR n * (INR N1 * INR N2)).
  { intros T A V HT HVc. rewrite mean_scal. rewrite (mean_Rsum G ens node (nodes_of (N1, N2, 1%nat)) (fun g x => (Rsum (map (fun r => T (noise_of gauss N1 N2 g r) x) (seq 0 n)))^2)).
    rewrite (Rsum_ext _ (nodes_of (N1, N2, 1%nat)) _ (fun _ => INR n * V)).
    2:{ intros x Hx. apply nodes_of_In in Hx. rewrite (mean_square_sum N1 N2 P1 P2 T A HT G gauss ens _ n x HW (le_n _) Hx). rewrite HVc by exact Hx. reflexivity. }
    rewrite Rsum_constant, nodes_length, mult_INR. field. lra. }
  assert (E : forall g, st g = (/ (INR n)^2 * Rsum (map (fun x => (Rsum (map (fun r => low_sample (gen_Q1 w) (lw_grid w) (noise_of gauss N1 N2 g r) x) (seq 0 n)))^2) (nodes_of (N1, N2, 1%nat))) * (asked_dx cfg * asked_dy cfg),
     / (INR n)^2 * Rsum (map (fun x => (Rsum (map (fun r => low_sample (gen_Q2 w) (lw_grid w) (noise_of gauss N1 N2 g r) x) (seq 0 n)))^2) (nodes_of (N1, N2, 1%nat))) * (asked_dx cfg * asked_dy cfg),
     / (INR n)^2 * Rsum (map (fun x => (Rsum (map (fun r => low_sample (gen_Q1 w) (lw_grid w) (noise_of gauss N1 N2 g r) x) (seq 0 n)))^2) (nodes_of (N1, N2, 1%nat))) / (INR N1 * INR N2),
     / (INR n)^2 * Rsum (map (fun x => (Rsum (map (fun r => low_sample (gen_Q2 w) (lw_grid w) (noise_of gauss N1 N2 g r) x) (seq 0 n)))^2) (nodes_of (N1, N2, 1%nat))) / (INR N1 * INR N2))).
  { intros g. destruct (run_single_plain G gauss quad cfg w n g HP HC HD) as (t1 & t2 & S1 & S2 & ER & VV). fold N1 N2 in S1, S2, ER, VV. specialize (HS g). rewrite ER in HS. cbn [fst] in HS.
    apply (f_equal (fun r => match r with Ok x => x | Err _ => st g end)) in HS. rewrite <- HS.
    destruct (HV _ (or_introl eq_refl) g t1 S1 (fun x Hx => proj1 (VV x Hx))) as [Q1 Q1']. destruct (HV _ (or_intror eq_refl) g t2 S2 (fun x Hx => proj2 (VV x Hx))) as [Q2 Q2'].
    rewrite Q1', Q2', Q1, Q2. f_equal; f_equal; f_equal; ring. }
  assert (EA : asked_dx cfg * asked_dy cfg * (INR N1 * INR N2) = asked_L1 cfg * asked_L2 cfg).
  { unfold asked_dx, asked_dy, N1, N2. rewrite !pow2_INR. field. split; apply pow_nonzero; lra. }
  pose proof (HMean _ A1 V1 HT1 (fun x Hx => proj1 (HDG x Hx))) as M1. pose proof (HMean _ A2 V2 HT2 (fun x Hx => proj2 (HDG x Hx))) as M2.
  repeat split.
  - rewrite (mean_ext _ _ _ _ (fun g => f_equal (fun s => fst (fst (fst s))) (E g))). cbn [fst snd].
    rewrite (mean_ext _ _ _ (fun g => (asked_dx cfg * asked_dy cfg) * (/ (INR n)^2 * Rsum (map (fun x => (Rsum (map (fun r => low_sample (gen_Q1 w) (lw_grid w) (noise_of gauss N1 N2 g r) x) (seq 0 n)))^2) (nodes_of (N1, N2, 1%nat)))))) by (intros g; ring).
    rewrite mean_scal, M1, <- EA. ring.
  - rewrite (mean_ext _ _ _ _ (fun g => f_equal (fun s => snd (fst (fst s))) (E g))). cbn [fst snd].
    rewrite (mean_ext _ _ _ (fun g => (asked_dx cfg * asked_dy cfg) * (/ (INR n)^2 * Rsum (map (fun x => (Rsum (map (fun r => low_sample (gen_Q2 w) (lw_grid w) (noise_of gauss N1 N2 g r) x) (seq 0 n)))^2) (nodes_of (N1, N2, 1%nat)))))) by (intros g; ring).
    rewrite mean_scal, M2, <- EA. ring.
  - rewrite (mean_ext _ _ _ _ (fun g => f_equal (fun s => snd (fst s)) (E g))). cbn [fst snd].
    rewrite (mean_ext _ _ _ (fun g => / (INR N1 * INR N2) * (/ (INR n)^2 * Rsum (map (fun x => (Rsum (map (fun r => low_sample (gen_Q1 w) (lw_grid w) (noise_of gauss N1 N2 g r) x) (seq 0 n)))^2) (nodes_of (N1, N2, 1%nat)))))) by (intros g; unfold Rdiv; ring).
    rewrite mean_scal, M1. field. lra.
  - rewrite (mean_ext _ _ _ _ (fun g => f_equal (fun s => snd s) (E g))). cbn [fst snd].
    rewrite (mean_ext _ _ _ (fun g => / (INR N1 * INR N2) * (/ (INR n)^2 * Rsum (map (fun x => (Rsum (map (fun r => low_sample (gen_Q2 w) (lw_grid w) (noise_of gauss N1 N2 g r) x) (seq 0 n)))^2) (nodes_of (N1, N2, 1%nat)))))) by (intros g; unfold Rdiv; ring).
    rewrite mean_scal, M2. field. lra.
Qed.
