(** Lemmas about the studies of the low-frequency generator: shapes, sums of
    realisations, schedules. *)

From Coq Require Import String Reals List ZArith Bool Lia Lra Permutation Sorted.
From Coquelicot Require Import Coquelicot.
From Verif Require Import Prelude GenModel GenSpec GenProofs DftModel DftSpec DftProofs DftCov LowModel LowSpec LowProofs LowFourier LowMore LowSpectrum LowCov LowApi EstSpec EstProofs StudyModel.
Import ListNotations.
Open Scope R_scope.

(** ** Arrays *)

Lemma tabulate2_hd : forall n m u, (0 < n)%nat -> length (hd [] (tabulate2 n m u)) = m.
Proof. intros n m u H. apply (shape2_hd n m); [apply tabulate2_shape|exact H]. Qed.

Lemma iadd2_ok : forall n m a b, shape2 n m a -> shape2 n m b -> (0 < n)%nat ->
  exists s, iadd2 a b = Ok s /\ shape2 n m s /\ forall x, on_grid (n, m, 1%nat) x -> at2 s x = at2 a x + at2 b x.
Proof.
  intros n m a b Ha Hb Hn. unfold iadd2. rewrite (shape2_hd n m a Ha Hn), (shape2_hd n m b Hb Hn). destruct Ha as [La Fa]. destruct Hb as [Lb Fb]. rewrite La, Lb, !Nat.eqb_refl.
  cbn [orb andb]. eexists. split; [reflexivity|]. split; [apply tabulate2_shape|]. intros x Hx. rewrite at2_tabulate2 by exact Hx.
  destruct x as [[p q] r]. destruct Hx as (Hp & Hq & Hr).
  destruct (Nat.eqb_spec n 1) as [->|_]; destruct (Nat.eqb_spec m 1) as [->|_]; repeat f_equal; lia.
Qed.

Lemma iadd2_err : forall n m n' m' a b, shape2 n m a -> shape2 n' m' b -> (0 < n)%nat -> (2 <= n')%nat -> (2 <= m')%nat -> (n' <> n \/ m' <> m) ->
  iadd2 a b = Err ValueError.
Proof.
  intros n m n' m' a b Ha Hb Hn Hn' Hm' HD. unfold iadd2. rewrite (shape2_hd n m a Ha Hn), (shape2_hd n' m' b Hb) by lia. destruct Ha as [-> _]. destruct Hb as [-> _].
  destruct (Nat.eqb_spec n' n); destruct (Nat.eqb_spec n' 1); destruct (Nat.eqb_spec m' m); destruct (Nat.eqb_spec m' 1); cbn; try lia; reflexivity.
Qed.

Lemma iadd2_broadcast : forall n m a b, shape2 n m a -> shape2 1 1 b -> (0 < n)%nat -> is_ok (iadd2 a b).
Proof.
  intros n m a b Ha Hb Hn. unfold iadd2. rewrite (shape2_hd 1 1 b Hb) by lia. destruct Hb as [-> _]. cbn. rewrite !orb_true_r. cbn. eexists. reflexivity.
Qed.

(** ** When the two grids coincide *)

Lemma counts_plain : forall cfg g, positive_lengths cfg -> grid_facts cfg g -> (1 <= lc_e1 cfg)%nat -> (1 <= lc_e2 cfg)%nat ->
  lg_cN1 g = lg_N1 g -> lg_cN2 g = lg_N2 g -> plain_domain cfg.
Proof.
  intros cfg g (HL & H1 & H2) F E1 E2 C1 C2. destruct (gf_d _ _ F) as [D1 D2]. pose proof (gf_dpos _ _ F) as DP.
  pose proof (gf_t1 _ _ F) as T1. pose proof (gf_t2 _ _ F) as T2. rewrite (gf_c1 _ _ F), C1, (gf_N1 _ _ F), D1, pow2_INR in T1. rewrite (gf_c2 _ _ F), C2, (gf_N2 _ _ F), D2, pow2_INR in T2.
  assert (P1 : 0 < 2 ^ lc_e1 cfg) by (apply pow_lt; lra). assert (P2 : 0 < 2 ^ lc_e2 cfg) by (apply pow_lt; lra).
  assert (X1 : 2 ^ lc_e1 cfg * asked_dx cfg = asked_L1 cfg) by (unfold asked_dx; field; lra).
  assert (X2 : 2 ^ lc_e2 cfg * asked_dy cfg = asked_L2 cfg) by (unfold asked_dy; field; lra).
  pose proof (Rmin_l (asked_dx cfg) (asked_dy cfg)) as M1. pose proof (Rmin_r (asked_dx cfg) (asked_dy cfg)) as M2.
  set (d := Rmin (asked_dx cfg) (asked_dy cfg)) in *.
  pose proof (Rmax_l (asked_L1 cfg) (5 * lc_L cfg)). pose proof (Rmax_r (asked_L1 cfg) (5 * lc_L cfg)).
  pose proof (Rmax_l (asked_L2 cfg) (5 * lc_L cfg)). pose proof (Rmax_r (asked_L2 cfg) (5 * lc_L cfg)).
  assert (Y1 : 2 ^ lc_e1 cfg * d <= 2 ^ lc_e1 cfg * asked_dx cfg) by (apply Rmult_le_compat_l; lra).
  assert (Y2 : 2 ^ lc_e2 cfg * d <= 2 ^ lc_e2 cfg * asked_dy cfg) by (apply Rmult_le_compat_l; lra).
  unfold plain_domain. split; [|split; [|split; [|split; assumption]]].
  - assert (2 ^ lc_e1 cfg * d = 2 ^ lc_e1 cfg * asked_dx cfg) as Z1 by lra. assert (2 ^ lc_e2 cfg * d = 2 ^ lc_e2 cfg * asked_dy cfg) as Z2 by lra.
    apply Rmult_eq_reg_l in Z1; [|lra]. apply Rmult_eq_reg_l in Z2; [|lra]. lra.
  - apply (Rmult_le_reg_r (lc_L cfg)); [exact HL|]. unfold asked_L1 in *. lra.
  - apply (Rmult_le_reg_r (lc_L cfg)); [exact HL|]. unfold asked_L2 in *. lra.
Qed.

(** ** Noise of successive realisations *)

Lemma normal2_after : forall G (gauss : G -> R * G) n m g, snd (normal2 gauss n m g) = after gauss g (n * m).
Proof.
  intros G gauss n m. unfold normal2. induction n as [|n IH]; intros g; [reflexivity|]. cbn [draw_many]. rewrite (draw_many_window _ _ gauss m g).
  specialize (IH (after gauss g m)). destruct (draw_many (draw_many gauss m) n (after gauss g m)) as [l g2]. cbn [snd] in *. rewrite IH, after_after. reflexivity.
Qed.

(** The noise of the realisation number [r] at a node. *)
Definition noise_of {G : Type} (gauss : G -> R * G) (n m : nat) (g : G) (r : nat) (x : node) : R :=
  let '(p, q, _) := x in stream gauss g (r * (n * m) + p * m + q).

Lemma normal2_noise : forall G (gauss : G -> R * G) n m g r x, on_grid (n, m, 1%nat) x ->
  at2 (fst (normal2 gauss n m (after gauss g (r * (n * m))))) x = noise_of gauss n m g r x.
Proof.
  intros G gauss n m g r [[p q] t] (Hp & Hq & Ht). assert (t = 0%nat) as -> by lia. rewrite normal2_at by assumption. rewrite stream_after. unfold noise_of. f_equal. lia.
Qed.

Lemma low_sample_ext : forall Q g n1 n2 x, (forall y, on_grid (comp_extents g) y -> n1 y = n2 y) -> low_sample Q g n1 x = low_sample Q g n2 x.
Proof.
  intros Q g n1 n2 x H. unfold low_sample. f_equal. unfold ifftn. f_equal. apply csum_ext. intros [[a b] c] _. f_equal. f_equal.
  unfold fftn. apply csum_ext. intros y Hy. rewrite grid_In in Hy. rewrite H by exact Hy. reflexivity.
Qed.

Lemma generate_same : forall G (gauss : G -> R * G) w w' g, lw_cfg w' = lw_cfg w -> lw_c w' = lw_c w -> lw_grid w' = lw_grid w ->
  low_generate gauss w' g = low_generate gauss w g.
Proof. intros G gauss [c1 c2 c3 c4] [d1 d2 d3 d4] g. cbn. intros -> -> ->. reflexivity. Qed.

(** A realisation on the user's grid: state and shape for any grid. *)
Lemma realisation : forall G (gauss : G -> R * G) cfg w w0 g, positive_lengths cfg -> lw_cfg w = cfg -> grid_facts cfg (lw_grid w) ->
  lw_cfg w0 = lw_cfg w -> lw_c w0 = lw_c w -> lw_grid w0 = lw_grid w ->
  let gr := lw_grid w in
  exists u1 u2, low_generate gauss w0 g = (Ok (LowGen (lw_cfg w) (lw_c w) gr (Some (u1, u2))), after gauss g (lg_cN1 gr * lg_cN2 gr))
  /\ shape2 (lg_N1 gr) (lg_N2 gr) u1 /\ shape2 (lg_N1 gr) (lg_N2 gr) u2
  /\ forall i j, (i < lg_N1 gr)%nat -> (j < lg_N2 gr)%nat ->
       let s1 := ((lg_cN1 gr - lg_N1 gr) / 2)%nat in
       let s2 := ((lg_cN2 gr - lg_N2 gr) / 2)%nat in
       at2 u1 (i, j, 0%nat) = low_sample (gen_Q1 w) gr (noise_of gauss (lg_cN1 gr) (lg_cN2 gr) g 0) ((i + s1)%nat, (j + s2)%nat, 0%nat)
       /\ at2 u2 (i, j, 0%nat) = low_sample (gen_Q2 w) gr (noise_of gauss (lg_cN1 gr) (lg_cN2 gr) g 0) ((i + s1)%nat, (j + s2)%nat, 0%nat).
Proof.
  intros G gauss cfg w w0 g HP EC F E1 E2 E3 gr. rewrite (generate_same _ _ w w0 g E1 E2 E3).
  destruct (low_generated G gauss w cfg g F) as (u1 & u2 & EG & S1 & S2 & V). exists u1, u2. rewrite EG, normal2_after. split; [reflexivity|]. split; [exact S1|]. split; [exact S2|].
  intros i j Hi Hj s1 s2. destruct (V i j Hi Hj) as (_ & _ & V1 & V2). apply entry_value in V1. apply entry_value in V2. unfold at2. unfold value in V1, V2. rewrite V1, V2.
  assert (X : forall y, on_grid (comp_extents gr) y -> at2 (fst (normal2 gauss (lg_cN1 gr) (lg_cN2 gr) g)) y = noise_of gauss (lg_cN1 gr) (lg_cN2 gr) g 0 y).
  { intros y Hy. rewrite <- (normal2_noise _ gauss _ _ g 0 y Hy). reflexivity. }
  split; apply low_sample_ext; exact X.
Qed.

(** ** Sums of realisations *)

Lemma Rsum_last : forall n (f : nat -> R), Rsum (map f (seq 0 (S n))) = Rsum (map (fun r => f (S r)) (seq 0 n)) + f 0%nat.
Proof.
  intros n f. cbn [seq map]. change (Rsum (f 0%nat :: map f (seq 1 n))) with (f 0%nat + Rsum (map f (seq 1 n))). rewrite <- seq_shift, map_map. ring.
Qed.

Lemma noise_shift : forall G (gauss : G -> R * G) n m g r x, noise_of gauss n m (after gauss g (n * m)) r x = noise_of gauss n m g (S r) x.
Proof. intros G gauss n m g r [[p q] t]. unfold noise_of. rewrite stream_after. f_equal. cbn [Nat.mul]. lia. Qed.

Lemma accumulate_sum : forall G (gauss : G -> R * G) cfg w n w0 (s1 s2 : plane) g, positive_lengths cfg -> lw_cfg w = cfg -> grid_facts cfg (lw_grid w) ->
  lw_cfg w0 = lw_cfg w -> lw_c w0 = lw_c w -> lw_grid w0 = lw_grid w ->
  let gr := lw_grid w in
  let N1 := lg_cN1 gr in let N2 := lg_cN2 gr in
  lg_N1 gr = N1 -> lg_N2 gr = N2 -> shape2 N1 N2 s1 -> shape2 N1 N2 s2 ->
  exists t1 t2 : plane, accumulate gauss n w0 (s1, s2) g = (Ok (t1, t2), after gauss g (n * (N1 * N2)))
  /\ shape2 N1 N2 t1 /\ shape2 N1 N2 t2
  /\ forall x, on_grid (N1, N2, 1%nat) x ->
     at2 t1 x = at2 s1 x + Rsum (map (fun r => low_sample (gen_Q1 w) gr (noise_of gauss N1 N2 g r) x) (seq 0 n))
     /\ at2 t2 x = at2 s2 x + Rsum (map (fun r => low_sample (gen_Q2 w) gr (noise_of gauss N1 N2 g r) x) (seq 0 n)).
Proof.
  intros G gauss cfg w n. induction n as [|n IH]; intros w0 s1 s2 g HP EC F E1 E2 E3 gr N1 N2 U1 U2 S1 S2.
  - exists s1, s2. split; [reflexivity|]. split; [exact S1|]. split; [exact S2|]. intros x _. unfold Rsum. cbn. split; ring.
  - cbn [accumulate]. destruct (realisation G gauss cfg w w0 g HP EC F E1 E2 E3) as (u1 & u2 & EG & T1 & T2 & V). rewrite EG. cbn [lw_u].
    fold gr in T1, T2, V. rewrite U1, U2 in T1, T2, V. fold N1 N2 in T1, T2, V. rewrite !Nat.sub_diag in V. change (0 / 2)%nat with 0%nat in V.
    assert (NP : (0 < N1)%nat) by (pose proof (gf_21 _ _ F); unfold N1, gr; lia).
    destruct (iadd2_ok N1 N2 s1 u1 S1 T1 NP) as (a1 & A1 & B1 & C1). destruct (iadd2_ok N1 N2 s2 u2 S2 T2 NP) as (a2 & A2 & B2 & C2). cbn [fst snd]. rewrite A1, A2.
    destruct (IH (LowGen (lw_cfg w) (lw_c w) (lw_grid w) (Some (u1, u2))) a1 a2 (after gauss g (N1 * N2)) HP EC F eq_refl eq_refl eq_refl U1 U2 B1 B2) as (t1 & t2 & EA & D1 & D2 & W).
    fold gr in EA. fold N1 N2 in EA. exists t1, t2. fold gr. fold N1 N2. split; [etransitivity; [exact EA|]; rewrite after_after; reflexivity|]. split; [exact D1|]. split; [exact D2|]. intros x Hx. destruct (W x Hx) as (W1 & W2).
    rewrite W1, W2, (C1 x Hx), (C2 x Hx), !Rsum_last.
    assert (VX : at2 u1 x = low_sample (gen_Q1 w) gr (noise_of gauss N1 N2 g 0) x /\ at2 u2 x = low_sample (gen_Q2 w) gr (noise_of gauss N1 N2 g 0) x).
    { destruct x as [[p q] r]. destruct Hx as (Hp & Hq & Hr). assert (r = 0%nat) as -> by lia. pose proof (V p q Hp Hq) as V'. cbv zeta in V'. rewrite !Nat.add_0_r in V'. exact V'. }
    destruct VX as [-> ->].
    assert (SH : forall Q, Rsum (map (fun r => low_sample Q gr (noise_of gauss N1 N2 (after gauss g (N1 * N2)) r) x) (seq 0 n))
                         = Rsum (map (fun r => low_sample Q gr (noise_of gauss N1 N2 g (S r)) x) (seq 0 n))).
    { intros Q. apply Rsum_ext. intros r _. apply low_sample_ext. intros y _. apply noise_shift. }
    rewrite !SH. split; ring.
Qed.

Lemma accumulate_mismatch : forall G (gauss : G -> R * G) cfg w n g, positive_lengths cfg -> lw_cfg w = cfg -> grid_facts cfg (lw_grid w) ->
  let gr := lw_grid w in
  (2 <= lg_N1 gr)%nat -> (2 <= lg_N2 gr)%nat -> (lg_N1 gr <> lg_cN1 gr \/ lg_N2 gr <> lg_cN2 gr) -> (1 <= n)%nat ->
  exists g1, accumulate gauss n w (zeros2 (lg_cN1 gr) (lg_cN2 gr), zeros2 (lg_cN1 gr) (lg_cN2 gr)) g = (Err ValueError, g1).
Proof.
  intros G gauss cfg w n g HP EC F gr H1 H2 HD Hn. destruct n as [|n]; [lia|]. cbn [accumulate].
  destruct (realisation G gauss cfg w w g HP EC F eq_refl eq_refl eq_refl) as (u1 & u2 & EG & T1 & T2 & _). rewrite EG. cbn [lw_u fst].
  rewrite (iadd2_err (lg_cN1 gr) (lg_cN2 gr) (lg_N1 gr) (lg_N2 gr)); [eexists; reflexivity| | | | | |exact HD]; try assumption; [apply tabulate2_shape|].
  pose proof (gf_21 _ _ F). unfold gr. lia.
Qed.

(** Outcome of a single run. *)
Lemma run_single_plain : forall G (gauss : G -> R * G) quad cfg w n g, positive_lengths cfg -> low_construct quad cfg = Ok w -> plain_domain cfg ->
  let gr := lw_grid w in
  let N1 := (2 ^ lc_e1 cfg)%nat in let N2 := (2 ^ lc_e2 cfg)%nat in
  exists t1 t2 : plane, shape2 N1 N2 t1 /\ shape2 N1 N2 t2
  /\ run_single gauss quad cfg n g = (Ok (sum_sq (div2 t1 n) * asked_dx cfg * asked_dy cfg, sum_sq (div2 t2 n) * asked_dx cfg * asked_dy cfg, var2 (div2 t1 n), var2 (div2 t2 n)),
                                      after gauss g (n * (N1 * N2)))
  /\ forall x, on_grid (N1, N2, 1%nat) x ->
     at2 t1 x = Rsum (map (fun r => low_sample (gen_Q1 w) gr (noise_of gauss N1 N2 g r) x) (seq 0 n))
     /\ at2 t2 x = Rsum (map (fun r => low_sample (gen_Q2 w) gr (noise_of gauss N1 N2 g r) x) (seq 0 n)).
Proof.
  intros G gauss quad cfg w n g HP HC HD gr N1 N2. destruct (low_constructed quad cfg w HC HP) as (EC & F & _).
  destruct (plain_counts cfg (lw_grid w) HP HD F) as (C1 & C2 & _). fold N1 N2 gr in C1, C2.
  assert (U1 : lg_N1 gr = lg_cN1 gr) by (rewrite C1; exact (gf_N1 _ _ F)). assert (U2 : lg_N2 gr = lg_cN2 gr) by (rewrite C2; exact (gf_N2 _ _ F)).
  destruct (accumulate_sum G gauss cfg w n w (zeros2 (lg_cN1 gr) (lg_cN2 gr)) (zeros2 (lg_cN1 gr) (lg_cN2 gr)) g HP EC F eq_refl eq_refl eq_refl U1 U2 (tabulate2_shape _ _ _) (tabulate2_shape _ _ _))
    as (t1 & t2 & EA & S1 & S2 & V). fold gr in EA, S1, S2, V. exists t1, t2. rewrite C1, C2 in S1, S2, V. split; [exact S1|]. split; [exact S2|].
  unfold run_single. rewrite HC. fold gr. rewrite EA, C1, C2. split.
  - unfold gr. rewrite (gf_dx _ _ F), (gf_dy _ _ F). reflexivity.
  - intros x Hx. destruct (V x Hx) as [-> ->]. unfold zeros2. rewrite at2_tabulate2 by exact Hx. split; ring.
Qed.

Lemma pow2_ge : forall e, (1 <= e)%nat -> (2 <= 2 ^ e)%nat.
Proof. intros [|e] H; [lia|]. rewrite Nat.pow_succ_r'. pose proof (Nat.pow_nonzero 2 e). lia. Qed.

Lemma run_single_iff : forall G (gauss : G -> R * G) quad cfg n g, positive_lengths cfg -> / 10^16 <= quad (low_shape (lc_L cfg) (lc_zi cfg)) ->
  (1 <= lc_e1 cfg)%nat -> (1 <= lc_e2 cfg)%nat -> (1 <= n)%nat ->
  (plain_domain cfg -> is_ok (fst (run_single gauss quad cfg n g))) /\ (~ plain_domain cfg -> fst (run_single gauss quad cfg n g) = Err ValueError).
Proof.
  intros G gauss quad cfg n g HP HQ E1 E2 Hn. destruct (low_construct_ok quad cfg HP HQ) as (w & HC). split; intros HD.
  - destruct (run_single_plain G gauss quad cfg w n g HP HC HD) as (t1 & t2 & _ & _ & -> & _). eexists. reflexivity.
  - destruct (low_constructed quad cfg w HC HP) as (EC & F & _). unfold run_single. rewrite HC.
    destruct (accumulate_mismatch G gauss cfg w n g HP EC F) as (g1 & EA); [rewrite (gf_N1 _ _ F); apply pow2_ge; exact E1|rewrite (gf_N2 _ _ F); apply pow2_ge; exact E2| |exact Hn|rewrite EA; reflexivity].
    destruct (Nat.eq_dec (lg_N1 (lw_grid w)) (lg_cN1 (lw_grid w))) as [Q1|Q1]; [|left; exact Q1].
    destruct (Nat.eq_dec (lg_N2 (lw_grid w)) (lg_cN2 (lw_grid w))) as [Q2|Q2]; [|right; exact Q2].
    exfalso. apply HD. apply (counts_plain cfg (lw_grid w)); congruence || assumption.
Qed.

Lemma run_single_fails : forall G (gauss : G -> R * G) quad cfg n g, positive_lengths cfg -> ~ plain_domain cfg ->
  (1 <= lc_e1 cfg)%nat -> (1 <= lc_e2 cfg)%nat -> (1 <= n)%nat -> exists e, fst (run_single gauss quad cfg n g) = Err e.
Proof.
  intros G gauss quad cfg n g HP HD E1 E2 Hn. destruct (low_construct quad cfg) as [w|e] eqn:HC.
  - destruct (low_constructed quad cfg w HC HP) as (_ & _ & HQ & _). exists ValueError. apply run_single_iff; assumption.
  - exists e. unfold run_single. rewrite HC. reflexivity.
Qed.

Lemma square_plain : forall cfg f e, lc_f1 cfg = f -> lc_f2 cfg = f -> lc_e1 cfg = e -> lc_e2 cfg = e -> (1 <= e)%nat -> plain_domain cfg <-> 5 <= f.
Proof.
  intros cfg f e H1 H2 H3 H4 He. unfold plain_domain, asked_dx, asked_dy, asked_L1, asked_L2. rewrite H1, H2, H3, H4. split; [tauto|]. intros H. repeat split; lra || lia.
Qed.
