(** A concrete low-frequency generator, used as a witness: four by four nodes with
    spacing 5/2, integral scale 1. *)

From Coq Require Import String Reals List ZArith Bool Lia Lra.
From Coquelicot Require Import Complex.
From Verif Require Import Prelude GenModel GenSpec GenProofs GenMore GenApi GenPhys GenSeam GenDemo DftModel DftSpec DftProofs DftMore DftCov LowModel LowSpec LowProofs LowFourier LowMore LowSpectrum LowCov.
Import ListNotations.
Open Scope R_scope.

Definition plane_cfg : low_config := LowConfig 1 1 (PI / 4) 1 10 10 2 2.

(** A stand-in for the quadrature. *)
Definition unit_quad (f : R -> R) : R := 1.

Lemma plane_positive : positive_lengths plane_cfg.
Proof. unfold positive_lengths, plane_cfg. cbn. lra. Qed.

Lemma plane_spacing : asked_dx plane_cfg = 5 / 2 /\ asked_dy plane_cfg = 5 / 2.
Proof. unfold asked_dx, asked_dy, asked_L1, asked_L2, plane_cfg. cbn. split; field. Qed.

Record plane_facts (w : low_gen) : Prop :=
  { pl_cfg : lw_cfg w = plane_cfg;
    pl_c : 0 < lw_c w;
    pl_facts : grid_facts plane_cfg (lw_grid w);
    pl_c1 : lg_cN1 (lw_grid w) = 4%nat;
    pl_c2 : lg_cN2 (lw_grid w) = 4%nat;
    pl_n1 : lg_N1 (lw_grid w) = 4%nat;
    pl_n2 : lg_N2 (lw_grid w) = 4%nat;
    pl_dx : lg_cdx (lw_grid w) = 5 / 2;
    pl_dy : lg_cdy (lw_grid w) = 5 / 2;
    pl_L1 : lg_L1 (lw_grid w) = 10;
    pl_L2 : lg_L2 (lw_grid w) = 10;
    pl_cL1 : lg_cL1 (lw_grid w) = 10;
    pl_cL2 : lg_cL2 (lw_grid w) = 10;
    pl_none : lw_u w = None }.

Lemma four : forall n, (2 <= n)%nat -> Nat.Even n -> 10 <= INR n * (5 / 2) -> (INR n - 2) * (5 / 2) < 10 -> n = 4%nat.
Proof.
  intros n H2 [m ->] HA HB. assert (A : (3 < 2 * m)%nat) by (apply INR_lt; cbn [INR]; lra).
  assert (B : (2 * m < 6)%nat) by (apply INR_lt; cbn [INR]; lra). lia.
Qed.

Lemma plane_constructed : forall quad w, low_construct quad plane_cfg = Ok w -> plane_facts w.
Proof.
  intros quad w HC. destruct (low_constructed quad plane_cfg w HC plane_positive) as (EC & F & HQ & Ec & HU).
  destruct plane_spacing as [D1 D2]. destruct (gf_d _ _ F) as [C1 C2]. rewrite D1, D2, Rmin_left in C1, C2 by lra.
  assert (P16 : 0 < / 10^16) by (apply Rinv_0_lt_compat; lra).
  assert (A1 : asked_L1 plane_cfg = 10) by (unfold asked_L1, plane_cfg; cbn; lra).
  assert (A2 : asked_L2 plane_cfg = 10) by (unfold asked_L2, plane_cfg; cbn; lra).
  assert (M : Rmax 10 (5 * lc_L plane_cfg) = 10) by (unfold plane_cfg; cbn; apply Rmax_left; lra).
  pose proof (gf_t1 _ _ F) as T1. pose proof (gf_t2 _ _ F) as T2. pose proof (gf_s1 _ _ F) as S1. pose proof (gf_s2 _ _ F) as S2.
  rewrite A1, M in T1, S1. rewrite A2, M in T2, S2. rewrite (gf_c1 _ _ F), C1 in T1. rewrite (gf_c2 _ _ F), C2 in T2. rewrite C1 in S1. rewrite C2 in S2.
  pose proof (four _ (gf_21 _ _ F) (gf_e1 _ _ F) T1 S1) as N1. pose proof (four _ (gf_22 _ _ F) (gf_e2 _ _ F) T2 S2) as N2.
  constructor; try assumption.
  - rewrite Ec. apply Rdiv_lt_0_compat; [cbn; lra|lra].
  - rewrite (gf_N1 _ _ F). reflexivity.
  - rewrite (gf_N2 _ _ F). reflexivity.
  - rewrite (gf_L1 _ _ F). exact A1.
  - rewrite (gf_L2 _ _ F). exact A2.
  - rewrite (gf_c1 _ _ F), N1, C1. cbn [INR]. lra.
  - rewrite (gf_c2 _ _ F), N2, C2. cbn [INR]. lra.
Qed.

Lemma plane_exists : exists w, low_construct unit_quad plane_cfg = Ok w.
Proof.
  apply low_construct_ok; [exact plane_positive|]. unfold unit_quad. apply Rle_trans with (/ 1); [apply Rinv_le_contravar; lra|lra].
Qed.

(** ** Fields for two noise arrays *)

Section Fields.

Variable w : low_gen.
Hypothesis P : plane_facts w.

Lemma plane_waves_here : forall Q noise x, on_grid (4, 4, 1)%nat x ->
  low_sample Q (lw_grid w) noise x
  = let '(p, q, _) := x in plane_waves (lw_grid w) (prescribed Q (lw_grid w) noise) (INR p * (5/2)) (INR q * (5/2)).
Proof.
  intros Q noise [[p q] r] (Hp & Hq & Hr). pose proof (pl_facts w P) as F. assert (r = 0%nat) as -> by lia.
  rewrite (low_sample_waves (lw_grid w)).
  - rewrite (pl_dx w P), (pl_dy w P). reflexivity.
  - rewrite (pl_c1 w P). lia.
  - rewrite (pl_c2 w P). lia.
  - apply (gf_c1 _ _ F).
  - apply (gf_c2 _ _ F).
  - rewrite (pl_dx w P). lra.
  - rewrite (pl_dy w P). lra.
Qed.

Lemma spike_wave : forall p q,
  plane_waves (lw_grid w) (prescribed (gen_Q2 w) (lw_grid w) (spike (0, 0, 0)%nat)) p q
  = / 16 * Rsum (map (fun k => let '(a, b, _) := k in
      let k1 := physical_k 10 4 a in let k2 := physical_k 10 4 b in
      low_phi (lw_c w) 1 (PI / 4) 1 (5/2) (5/2) k1 k2 * (k1 * sin (k1 * p + k2 * q))) (nodes_of (4, 4, 1)%nat)).
Proof.
  intros p q. unfold plane_waves. rewrite (pl_c1 w P), (pl_c2 w P), (pl_cL1 w P), (pl_cL2 w P).
  replace (INR 4 * INR 4) with 16 by (cbn [INR]; lra). f_equal. apply Rsum_ext. intros [[a b] c] Hk. unfold prescribed.
  rewrite (pl_c1 w P), (pl_c2 w P), (pl_cL1 w P), (pl_cL2 w P). rewrite spike_origin by (unfold nonempty; lia).
  unfold gen_Q2, low_Q2. rewrite (pl_cfg w P), (pl_dx w P), (pl_dy w P). cbv zeta. cbn [plane_cfg lc_L lc_psi lc_zi]. set (f := low_phi _ _ _ _ _ _ _ _). cbn. ring.
Qed.

Lemma k1_values : forall a, (a < 4)%nat -> - (2 * PI / 5) <= physical_k 10 4 a <= 2 * PI / 5.
Proof. intros a Ha. pose proof PI_RGT_0. destruct a as [|[|[|[|a]]]]; [| | | |lia]; unfold physical_k; cbn [Nat.ltb Nat.leb Nat.mul Nat.add INR]; lra. Qed.

Lemma ksin_nonneg : forall k, - (2 * PI / 5) <= k <= 2 * PI / 5 -> 0 <= k * sin (k * (5/2)).
Proof.
  intros k [A B]. pose proof PI_RGT_0. destruct (Rle_dec 0 k) as [C|C].
  - apply Rmult_le_pos; [exact C|]. apply sin_ge_0; [lra|lra].
  - replace (k * sin (k * (5/2))) with ((- k) * sin (- (k * (5/2)))) by (rewrite sin_neg; ring).
    apply Rmult_le_pos; [lra|]. apply sin_ge_0; lra.
Qed.

Lemma spike_u2 : low_sample (gen_Q2 w) (lw_grid w) (spike (0, 0, 0)%nat) (0, 0, 0)%nat = 0
  /\ 0 < low_sample (gen_Q2 w) (lw_grid w) (spike (0, 0, 0)%nat) (1, 0, 0)%nat.
Proof.
  split.
  - rewrite plane_waves_here by (unfold on_grid; lia). rewrite spike_wave. cbn [INR].
    rewrite (Rsum_ext _ _ _ (fun _ => 0)); [rewrite Rsum_zero; ring|]. intros [[a b] c] _. cbv zeta. rewrite !Rmult_0_l, !Rmult_0_r, Rplus_0_r, sin_0. ring.
  - rewrite plane_waves_here by (unfold on_grid; lia). rewrite spike_wave. apply Rmult_lt_0_compat; [lra|]. cbn [INR].
    pose proof PI_RGT_0 as HPI.
    assert (HE : forall a b, physical_k 10 4 a * (1 * (5/2)) + physical_k 10 4 b * (0 * (5/2)) = physical_k 10 4 a * (5/2)) by (intros; ring).
    apply (Rsum_pos _ _ _ (1, 0, 0)%nat).
    + intros [[a b] c] Hk. apply nodes_of_In in Hk. destruct Hk as (Ha & _). cbv zeta. rewrite HE.
      apply Rmult_le_pos; [apply low_phi_nonneg|]. apply ksin_nonneg, k1_values. exact Ha.
    + apply nodes_of_In. unfold on_grid. lia.
    + cbv zeta. rewrite HE. replace (physical_k 10 4 1) with (PI / 5) by (unfold physical_k; cbn [Nat.ltb Nat.leb Nat.mul Nat.add INR]; lra).
      replace (PI / 5 * (5 / 2)) with (PI / 2) by lra. rewrite sin_PI2.
      apply Rmult_lt_0_compat; [|lra]. apply low_phi_pos; [apply (pl_c w P)|lra|lra|].
      assert (/ 10^20 <= (/ 5)^2) by (rewrite pow_inv; apply Rinv_le_contravar; lra).
      assert ((/ 5)^2 <= (PI / 5)^2) by (apply pow_incr; pose proof PI2_1; lra). pose proof (pow2_ge_0 (physical_k 10 4 0)). lra.
Qed.

(** A constant added to the noise does not change the field. *)
Lemma prescribed_shift : forall Q noise r k, Q 0 0 = RtoC 0 -> on_grid (4, 4, 1)%nat k ->
  prescribed Q (lw_grid w) (fun x => noise x + r) k = prescribed Q (lw_grid w) noise k.
Proof.
  intros Q noise r [[a b] c] HQ Hk. unfold prescribed. rewrite (pl_c1 w P), (pl_c2 w P), (pl_cL1 w P), (pl_cL2 w P).
  assert (Hd : nonempty (4, 4, 1)%nat) by (unfold nonempty; lia).
  assert (H0 : on_grid (4, 4, 1)%nat (0, 0, 0)%nat) by (unfold on_grid; lia).
  assert (EF : fourier (4, 4, 1)%nat (fun x => noise x + r) (a, b, c) = Cplus (fourier (4, 4, 1)%nat noise (a, b, c)) (Cmult (RtoC r) (csum (grid (4, 4, 1)%nat) (fun x => cis (- theta (4, 4, 1)%nat (a, b, c) x))))).
  { rewrite !fourier_fftn. unfold fftn. rewrite <- csum_scal, <- csum_plus. apply csum_ext. intros x _. rewrite RtoC_plus. ring. }
  rewrite EF. destruct (Nat.eq_dec a 0) as [Ea|Na]; [destruct (Nat.eq_dec b 0) as [Eb|Nb]|].
  - subst a b. rewrite !physical_k_0 by lia. rewrite HQ. ring.
  - rewrite (csum_ext _ _ _ (fun x => Cmult (cis (theta (4, 4, 1)%nat (0, 0, 0)%nat x)) (cis (- theta (4, 4, 1)%nat (a, b, c) x)))).
    + rewrite (orthogonality _ _ _ Hd H0 Hk). destruct (eqn_spec (0, 0, 0)%nat (a, b, c)) as [E|_]; [congruence|ring].
    + intros [[x y] z] _. replace (theta (4, 4, 1)%nat (0, 0, 0)%nat (x, y, z)) with 0 by (unfold theta; cbn [INR]; unfold Rdiv; ring). rewrite cis_0. ring.
  - rewrite (csum_ext _ _ _ (fun x => Cmult (cis (theta (4, 4, 1)%nat (0, 0, 0)%nat x)) (cis (- theta (4, 4, 1)%nat (a, b, c) x)))).
    + rewrite (orthogonality _ _ _ Hd H0 Hk). destruct (eqn_spec (0, 0, 0)%nat (a, b, c)) as [E|_]; [congruence|ring].
    + intros [[x y] z] _. replace (theta (4, 4, 1)%nat (0, 0, 0)%nat (x, y, z)) with 0 by (unfold theta; cbn [INR]; unfold Rdiv; ring). rewrite cis_0. ring.
Qed.

Lemma sample_shift : forall Q noise r x, Q 0 0 = RtoC 0 -> on_grid (4, 4, 1)%nat x ->
  low_sample Q (lw_grid w) (fun y => noise y + r) x = low_sample Q (lw_grid w) noise x.
Proof.
  intros Q noise r [[p q] s] HQ Hx. rewrite !plane_waves_here by exact Hx. unfold plane_waves. f_equal. apply Rsum_ext. intros k Hk.
  apply nodes_of_In in Hk. rewrite (pl_c1 w P), (pl_c2 w P) in Hk. rewrite prescribed_shift by assumption. reflexivity.
Qed.

Lemma zero_field : forall Q x, on_grid (4, 4, 1)%nat x -> low_sample Q (lw_grid w) (fun _ => 0) x = 0.
Proof.
  intros Q [[p q] r] Hx. rewrite plane_waves_here by exact Hx. unfold plane_waves.
  rewrite (Rsum_ext _ _ _ (fun _ => 0)); [rewrite Rsum_zero; ring|]. intros [[a b] c] _. unfold prescribed.
  replace (fourier _ (fun _ => 0) (a, b, c)) with (RtoC 0).
  - cbv zeta. rewrite Cmult_0_r. cbn. ring.
  - symmetry. rewrite fourier_fftn. unfold fftn. rewrite (csum_ext _ _ _ (fun _ => RtoC 0)) by (intros; ring). induction (grid _) as [|y l IH]; [reflexivity|].
    cbn [csum fold_right]. change (fold_right _ _ l) with (csum l (fun _ => RtoC 0)). rewrite IH. ring.
Qed.

Lemma sample_ext : forall Q n1 n2 x, on_grid (4, 4, 1)%nat x -> (forall y, on_grid (4, 4, 1)%nat y -> n1 y = n2 y) ->
  low_sample Q (lw_grid w) n1 x = low_sample Q (lw_grid w) n2 x.
Proof.
  intros Q n1 n2 [[p q] r] Hx HE. rewrite !plane_waves_here by exact Hx. unfold plane_waves. f_equal. apply Rsum_ext. intros [[a b] c] _.
  unfold prescribed. rewrite (pl_c1 w P), (pl_c2 w P). rewrite (fourier_ext (4, 4, 1)%nat n1 n2) by exact HE. reflexivity.
Qed.

(** The random stream: two at position 0, one afterwards. *)
Definition plane_gauss (n : nat) : R * nat := (if (n =? 0)%nat then 2 else 1, S n).

Lemma noise_spike : forall y, on_grid (4, 4, 1)%nat y -> at2 (fst (normal2 plane_gauss 4 4 0%nat)) y = spike (0, 0, 0)%nat y + 1.
Proof.
  intros [[p q] r] (Hp & Hq & Hr). assert (r = 0%nat) as -> by lia.
  destruct p as [|[|[|[|p]]]]; [| | | |lia]; (destruct q as [|[|[|[|q]]]]; [| | | |lia]); cbn; lra.
Qed.

Lemma noise_one : forall y, on_grid (4, 4, 1)%nat y -> at2 (fst (normal2 plane_gauss 4 4 1%nat)) y = 0 + 1.
Proof.
  intros [[p q] r] (Hp & Hq & Hr).
  destruct p as [|[|[|[|p]]]]; [| | | |lia]; (destruct q as [|[|[|[|q]]]]; [| | | |lia]); cbn; lra.
Qed.

Lemma plane_generated : forall g0, exists u1 u2 g1,
  low_generate plane_gauss w g0 = (Ok (LowGen (lw_cfg w) (lw_c w) (lw_grid w) (Some (u1, u2))), g1)
  /\ shape2 4 4 u1 /\ shape2 4 4 u2
  /\ forall i j, (i < 4)%nat -> (j < 4)%nat ->
       value u1 i j = low_sample (gen_Q1 w) (lw_grid w) (at2 (fst (normal2 plane_gauss 4 4 g0))) (i, j, 0%nat)
       /\ value u2 i j = low_sample (gen_Q2 w) (lw_grid w) (at2 (fst (normal2 plane_gauss 4 4 g0))) (i, j, 0%nat).
Proof.
  intros g0. destruct (low_generated nat plane_gauss w plane_cfg g0 (pl_facts w P)) as (u1 & u2 & E & S1 & S2 & V).
  rewrite (pl_c1 w P), (pl_c2 w P), (pl_n1 w P), (pl_n2 w P) in *. do 3 eexists. split; [exact E|]. split; [exact S1|]. split; [exact S2|].
  intros i j Hi Hj. destruct (V i j Hi Hj) as (_ & _ & V1 & V2). apply entry_value in V1. apply entry_value in V2. rewrite V1, V2.
  replace (i + (4 - 4) / 2)%nat with i by (cbn; lia). replace (j + (4 - 4) / 2)%nat with j by (cbn; lia). split; reflexivity.
Qed.

Lemma coords_10 : user_coords 10 4 = [0; 5/2; 5; 15/2].
Proof. unfold user_coords. cbn [seq map INR]. repeat (f_equal; try lra). Qed.

Lemma interpolate_row0 : forall V x, 0 <= x <= 5/2 ->
  interpolate (user_coords 10 4) (user_coords 10 4) V x 0 = (1 - x / (5/2)) * value V 0 0 + x / (5/2) * value V 1 0.
Proof.
  intros V x Hx. 
  assert (Hinc : increasing (user_coords 10 4)) by (apply user_coords_increasing; lra).
  assert (C1 : in_cell (user_coords 10 4) 0 x) by (rewrite coords_10; unfold in_cell; cbn; split; [lia|lra]).
  assert (C2 : in_cell (user_coords 10 4) 0 0) by (rewrite coords_10; unfold in_cell; cbn; split; [lia|lra]).
  rewrite (interpolate_cell _ _ V x 0 0 0 Hinc Hinc C1 C2). unfold between. rewrite coords_10. cbn [nth]. field.
Qed.

End Fields.

(** ** The low-frequency part of a combined generator *)

Lemma plane_view : forall g0, exists w u1 u2 g1, plane_facts w
  /\ make_low plane_gauss unit_quad plane_cfg g0
     = Ok (LowView 10 (Some (fun x y => (interpolate (user_coords 10 4) (user_coords 10 4) u1 x y, interpolate (user_coords 10 4) (user_coords 10 4) u2 x y))), g1)
  /\ forall i j, (i < 4)%nat -> (j < 4)%nat ->
       value u2 i j = low_sample (gen_Q2 w) (lw_grid w) (at2 (fst (normal2 plane_gauss 4 4 g0))) (i, j, 0%nat).
Proof.
  intros g0. destruct plane_exists as (w & HC). pose proof (plane_constructed _ _ HC) as P.
  destruct (plane_generated w P g0) as (u1 & u2 & g1 & EG & _ & _ & V). exists w, u1, u2, g1. split; [exact P|]. split.
  - unfold make_low. rewrite HC. cbn [bind]. rewrite EG. unfold view_of, low_interp. cbn [lw_grid lw_u].
    rewrite (pl_L1 w P), (pl_L2 w P), (pl_n1 w P), (pl_n2 w P). reflexivity.
  - intros i j Hi Hj. apply (V i j Hi Hj).
Qed.

Lemma gen_Q2_zero : forall w, gen_Q2 w 0 0 = RtoC 0.
Proof. intros w. apply Q_zero. Qed.

Lemma views_differ : exists i0 i1 g0 g1,
  make_low plane_gauss unit_quad plane_cfg 0%nat = Ok (LowView 10 (Some i0), g0)
  /\ make_low plane_gauss unit_quad plane_cfg 1%nat = Ok (LowView 10 (Some i1), g1)
  /\ forall x, 0 < x <= 5/2 -> snd (i1 x 0) = 0 /\ 0 < snd (i0 x 0).
Proof.
  destruct (plane_view 0%nat) as (w & u1 & u2 & g0 & P & E0 & V0). destruct (plane_view 1%nat) as (w' & u1' & u2' & g1 & P' & E1 & V1).
  do 4 eexists. split; [exact E0|]. split; [exact E1|]. intros x Hx. cbn [snd].
  assert (O0 : on_grid (4, 4, 1)%nat (0, 0, 0)%nat) by (unfold on_grid; lia). assert (O1 : on_grid (4, 4, 1)%nat (1, 0, 0)%nat) by (unfold on_grid; lia).
  rewrite !interpolate_row0 by lra. rewrite (V0 0%nat 0%nat), (V0 1%nat 0%nat), (V1 0%nat 0%nat), (V1 1%nat 0%nat) by lia.
  rewrite !(sample_ext w P _ _ _ _ O0 noise_spike), !(sample_ext w P _ _ _ _ O1 noise_spike).
  rewrite !(sample_ext w' P' _ _ _ _ O0 noise_one), !(sample_ext w' P' _ _ _ _ O1 noise_one).
  rewrite !(sample_shift w P _ (spike (0,0,0)%nat)), !(sample_shift w' P' _ (fun _ => 0)) by (try apply gen_Q2_zero; assumption).
  rewrite !(zero_field w' P') by assumption. destruct (spike_u2 w P) as [-> Hp]. split; [ring|].
  rewrite Rmult_0_r, Rplus_0_l. apply Rmult_lt_0_compat; [lra|exact Hp].
Qed.

(** ** Nonzero noise *)

Lemma nonzero_noise_block : forall G (gauss : G -> R * G) geo std g0 t, sound geo -> std <> 0 -> (forall g, fst (gauss g) <> 0) ->
  nonzero (raw_block gauss geo std (fun x => x) g0 t).
Proof.
  intros G gauss geo std g0 t Hs Hd HG. set (good := fun v : R * R * R => fst (fst v) <> 0).
  assert (PL : forall r, List.Forall (List.Forall good) (noise_stream gauss geo std g0 r)).
  { intros r. apply (stream_In G _ _ (List.Forall (List.Forall good))). intros g. unfold draw_plane.
    apply draw_many_Forall. intros g'. apply draw_many_Forall. intros g''. unfold draw_point. pose proof (HG g'') as H1. destruct (gauss g'') as [a g1].
    destruct (gauss g1) as [b g2]. destruct (gauss g2) as [c g3]. unfold good. cbn [fst] in *. intros E. apply Rmult_integral in E. tauto. }
  pose proof (delivered_shaped G gauss geo std (fun x => x) g0 t Hs (fun _ _ _ f H => H)) as [Hl Hp].
  change (delivered_block G gauss geo std (fun x => x) g0 t) with (raw_block gauss geo std (fun x => x) g0 t) in Hl, Hp.
  assert (PR : List.Forall (List.Forall (List.Forall good)) (raw_block gauss geo std (fun x => x) g0 t)).
  { unfold raw_block. rewrite block_form; [|exact Hs|apply window_shaped]. apply List.Forall_forall. intros p Hin. apply in_map_iff in Hin.
    destruct Hin as (q & <- & Hq). assert (Hq' : In q (window (noise_stream gauss geo std g0) (t * g_Nx geo) (rows geo))).
    { rewrite <- (firstn_skipn (Z.to_nat (g_nb geo)) (window _ _ _)). apply in_or_app. right.
      rewrite <- (firstn_skipn (g_Nx geo) (skipn _ _)). apply in_or_app. left. exact Hq. }
    unfold window in Hq'. apply in_map_iff in Hq'. destruct Hq' as (r & <- & _). unfold crop.
    pose proof (Forall_firstn _ _ (g_Ny geo) _ (Forall_skipn _ _ (Z.to_nat (g_my geo)) _ (PL (t * g_Nx geo + r)%nat))) as H.
    apply List.Forall_forall. intros c Hc. apply in_map_iff in Hc. destruct Hc as (c' & <- & Hc'). apply Forall_firstn. rewrite List.Forall_forall in H. apply H. exact Hc'. }
  destruct Hs as (H1 & H2 & H3 & _). destruct (raw_block gauss geo std (fun x => x) g0 t) as [|p f] eqn:EB; [cbn in Hl; lia|].
  inversion Hp as [|? ? [Hpl Hpc] _]. subst. inversion PR as [|? ? PR' _]. subst. destruct p as [|c p]; [cbn in Hpl; lia|].
  inversion Hpc as [|? ? Hc _]. subst. inversion PR' as [|? ? PR'' _]. subst. pose proof (nodes_ge (g_lz geo)). destruct c as [|v c]; [cbn in Hc; lia|].
  inversion PR'' as [|? ? Hv _]. subst. exists (fst (fst v)). split; [|exact Hv]. unfold entries. cbn. destruct v as [[v1 v2] v3]. left. reflexivity.
Qed.

(** ** The combined generator depends on the global random state *)

Definition combo_args : gen_args := GenArgs 1 1 (2, 10, 2) (1%nat, 1%nat, 1%nat) "Mann" (Some 1) (Some 1) (Some 1) None (Some 0%Z) 3.

Lemma normalized_second : forall g a block b i j k v, normalize_block g a block = Ok b ->
  nth_error b i = Some j -> nth_error j k = Some v -> List.Forall (fun x : xr * xr * xr => exists r, snd (fst x) = Fin r) v.
Proof.
  intros g a block b i j k v H Hi Hj. unfold normalize_block in H.
  destruct (negb (any_nonzero block)); [discriminate|]. destruct (negb _); [discriminate|]. destruct (_ || _)%bool; [discriminate|].
  destruct (_ && _)%bool; [discriminate|]. destruct (mean_profile g a) as [prof|e]; [|discriminate]. cbn [bind] in H.
  destruct (forallb _ block); [|discriminate]. injection H as <-. set (sd := sqrt _) in *. clearbody sd.
  rewrite nth_error_map in Hi. destruct (nth_error block i) as [p|]; [|discriminate]. injection Hi as <-.
  rewrite nth_error_map in Hj. destruct (nth_error p k) as [c|]; [|discriminate]. injection Hj as <-.
  clear. revert prof. induction c as [|[[x y] z] c IH]; intros [|m prof]; cbn [add_profile]; try constructor; [|apply IH].
  cbn. eexists. reflexivity.
Qed.

Lemma slice_at : forall interp xs ys (f : field xr) i j x y row col,
  nth_error xs i = Some x -> nth_error ys j = Some y -> nth_error f i = Some row -> nth_error row j = Some col ->
  exists row', nth_error (add_slice interp xs ys f) i = Some row'
  /\ nth_error row' j = Some (map (fun v : xr * xr * xr => match v with (a, b, d) => (xadd a (Fin (fst (interp x y))), xadd b (Fin (snd (interp x y))), d) end) col).
Proof.
  intros interp xs ys f i j x y row col Hx Hy Hf Hr. unfold add_slice.
  assert (HC : forall A B (l : list A) (m : list B) i a b, nth_error l i = Some a -> nth_error m i = Some b -> nth_error (combine l m) i = Some (a, b)).
  { intros A B l. induction l as [|u l IH]; intros [|v m] [|n] a b Ha Hb; try discriminate; cbn in *; [congruence|]. apply IH; assumption. }
  eexists. split; [rewrite nth_error_map, (HC _ _ xs f i x row Hx Hf); reflexivity|]. cbn [fst snd].
  rewrite nth_error_map, (HC _ _ ys row j y col Hy Hr). reflexivity.
Qed.

Lemma combined_depends : forall stored,
  exists gn0 gn1 wa wb f0 f1,
    construct stored nat (fun _ => 5%nat) (fun _ _ _ x => x) low_config (make_low plane_gauss unit_quad) combo_args (Some plane_cfg) (World nat 0%nat 9%nat) = Ok (gn0, wa)
    /\ construct stored nat (fun _ => 5%nat) (fun _ _ _ x => x) low_config (make_low plane_gauss unit_quad) combo_args (Some plane_cfg) (World nat 1%nat 9%nat) = Ok (gn1, wb)
    /\ fst (gen_call nat plane_gauss 2 demo_args gn0) = Ok f0
    /\ fst (gen_call nat plane_gauss 2 demo_args gn1) = Ok f1
    /\ f0 <> f1.
Proof.
  intros stored. destruct views_differ as (i0 & i1 & g0 & g1 & E0 & E1 & HV).
  assert (HS : exists cs, scales_of stored combo_args = Ok cs /\ cs_L cs = 1 /\ cs_Gamma cs = 1).
  { unfold scales_of, combo_args. cbn [ga_model ga_href ga_L ga_T ga_E ga_ustar]. unfold xpow. destruct (Rlt_dec 0 1); [|exfalso; lra].
    cbn. eexists. split; [reflexivity|]. split; reflexivity. }
  destruct HS as (cs & HS & C1 & C2).
  destruct (geometry_sound 2 10 2 1 1 1 1 1 3) as (geo & Eg & Hs & N1 & N2 & N3 & _ & ED & _); try lra.
  pose (std := noise_std (2, 10, 2) (1%nat, 1%nat, 1%nat)).
  pose (mk := fun i => Generator nat geo std (fun x => x) (Some (LowView 10 (Some i))) (GState None [] 5%nat None)).
  assert (HC : forall n i g, make_low plane_gauss unit_quad plane_cfg n = Ok (LowView 10 (Some i), g) ->
    construct stored nat (fun _ => 5%nat) (fun _ _ _ x => x) low_config (make_low plane_gauss unit_quad) combo_args (Some plane_cfg) (World nat n 9%nat) = Ok (mk i, World nat g 9%nat)).
  { intros n i g E. unfold construct. rewrite HS. cbn [bind]. rewrite C1, C2. cbn [combo_args ga_dims ga_levels ga_blend ga_seed ga_model]. rewrite Eg. cbn [bind w_global]. rewrite E. reflexivity. }
  assert (Hstd : std <> 0).
  { unfold std, noise_std. apply Rgt_not_eq. apply sqrt_lt_R0. pose proof (nodes_INR 1).
    assert (0 < 2 / INR (nodes 1)) by (apply Rdiv_lt_0_compat; lra). assert (0 < 10 / INR (nodes 1)) by (apply Rdiv_lt_0_compat; lra).
    apply Rmult_lt_0_compat; [apply Rmult_lt_0_compat|]; assumption. }
  assert (HG : forall g, fst (plane_gauss g) <> 0) by (intros g; unfold plane_gauss; cbn [fst]; destruct (g =? 0)%nat; lra).
  assert (HU : forall i, usable (mk i)) by (intros i; split; [exact Hs|intros nx ny nz f H; exact H]).
  assert (HN : forall t, nonzero (raw_block plane_gauss geo std (fun x => x) 5%nat t)) by (intros t; apply nonzero_noise_block; assumption).
  destruct (low_restart nat plane_gauss (mk i0) _ i0 5%nat demo_args (HU i0) eq_refl eq_refl eq_refl demo_args_ok (HN 0%nat) (HN 1%nat))
    as (b0 & b1 & S0 & S1 & M0 & M1 & F0 & _).
  destruct (low_restart nat plane_gauss (mk i1) _ i1 5%nat demo_args (HU i1) eq_refl eq_refl eq_refl demo_args_ok (HN 0%nat) (HN 1%nat))
    as (b0' & b1' & S0' & S1' & M0' & M1' & F1 & _).
  cbn [mk gen_geo gen_std gen_correlate lv_L2] in *. rewrite M0 in M0'. injection M0' as <-.
  exists (mk i0), (mk i1), (World nat g0 9%nat), (World nat g1 9%nat). do 2 eexists.
  split; [apply HC; exact E0|]. split; [apply HC; exact E1|]. split; [exact F0|]. split; [exact F1|].
  intros HE. apply app_len_inj in HE.
  - destruct HE as [HE _]. rewrite N1, N2, N3 in *. change (nodes 1) with 3%nat in *.
    destruct S0 as [L0 R0]. destruct (nth_error b0 1) as [row|] eqn:ER; [|apply nth_error_None in ER; lia].
    pose proof (nth_error_In _ _ ER) as HI. rewrite List.Forall_forall in R0. destruct (R0 _ HI) as [LR CR].
    destruct (nth_error row 0) as [col|] eqn:EC; [|apply nth_error_None in EC; lia].
    pose proof (nth_error_In _ _ EC) as HIC. rewrite List.Forall_forall in CR. pose proof (CR _ HIC) as LC.
    pose proof (normalized_second _ _ _ _ _ _ _ _ M0 ER EC) as HF.
    assert (HX : nth_error (block_x geo 0 3) 1 = Some (2 / 3)).
    { unfold block_x. cbn [seq map nth_error]. rewrite ED, N1. cbn [fst]. change (nodes 1) with 3%nat. f_equal. cbn [INR]. field. }
    assert (HY : nth_error (block_y geo 10) 0 = Some 0).
    { unfold block_y. rewrite N2, ED. cbn [fst snd]. change (nodes 1) with 3%nat. cbn [seq map nth_error]. f_equal. cbn [INR]. field. }
    destruct (slice_at i0 _ _ b0 1 0 _ _ row col HX HY ER EC) as (r0 & A0 & B0).
    destruct (slice_at i1 _ _ b0 1 0 _ _ row col HX HY ER EC) as (r1 & A1 & B1).
    rewrite HE, A1 in A0. injection A0 as <-. rewrite B1 in B0. injection B0 as B0.
    destruct col as [|[[a b] d] col]; [cbn in LC; lia|]. apply List.Forall_inv in HF. destruct HF as [r Hr]. cbn [fst snd] in Hr. subst b.
    cbn [map] in B0. inversion B0 as [[Q1 Q2 Q3]]. destruct (HV (2/3) ltac:(lra)) as [V1 V0]. lra.
  - pose proof (add_slice_shaped i0 _ _ (g_Nx geo) (g_Ny geo) (g_Nz geo) b0 (block_x_length geo 0 (g_Nx geo)) (block_y_length geo 10) S0) as [X _].
    pose proof (add_slice_shaped i1 _ _ (g_Nx geo) (g_Ny geo) (g_Nz geo) b0 (block_x_length geo 0 (g_Nx geo)) (block_y_length geo 10) S0) as [Y _].
    rewrite X, Y. reflexivity.
Qed.

(** Equal global states give equal fields. *)
Lemma combined_same_global : forall stored G (gauss : G -> R * G) (seeded : Z -> G) sampler quad a cfg wa wb s,
  ga_seed a = Some s -> w_global G wa = w_global G wb ->
  match construct stored G seeded sampler low_config (make_low gauss quad) a (Some cfg) wa,
        construct stored G seeded sampler low_config (make_low gauss quad) a (Some cfg) wb with
  | Ok (gn1, _), Ok (gn2, _) => forall calls, fst (gen_calls G gauss calls gn1) = fst (gen_calls G gauss calls gn2)
  | Err e1, Err e2 => e1 = e2
  | _, _ => False
  end.
Proof.
  intros stored G gauss seeded sampler quad a cfg wa wb s Hs Hw. unfold construct. rewrite Hs, Hw.
  destruct (scales_of stored a) as [cs|e]; [|reflexivity]. cbn [bind].
  destruct (make_geometry _ _ _ _ _) as [g|e]; [|reflexivity]. cbn [bind].
  destruct (make_low gauss quad cfg (w_global G wb)) as [[lv g']|e]; [|reflexivity]. cbn [bind fst snd]. reflexivity.
Qed.

(** Constructing the combined generator advances the global random state by the
    noise of the low-frequency field. *)
Lemma combined_consumes : forall stored G (gauss : G -> R * G) (seeded : Z -> G) sampler quad a cfg wa gn wb,
  construct stored G seeded sampler low_config (make_low gauss quad) a (Some cfg) wa = Ok (gn, wb) ->
  exists w, low_construct quad cfg = Ok w
  /\ w_global G wb = snd (normal2 gauss (lg_cN1 (lw_grid w)) (lg_cN2 (lw_grid w)) (w_global G wa)) /\ w_entropy G wb = w_entropy G wa.
Proof.
  intros stored G gauss seeded sampler quad a cfg wa gn wb H. unfold construct in H.
  destruct (scales_of stored a) as [cs|e]; [|discriminate]. cbn [bind] in H.
  destruct (make_geometry _ _ _ _ _) as [g|e]; [|discriminate]. cbn [bind] in H.
  destruct (make_low gauss quad cfg (w_global G wa)) as [[lv g']|e] eqn:E; [|discriminate]. cbn [bind fst snd] in H. injection H as _ <-.
  unfold make_low in E. destruct (low_construct quad cfg) as [w|e]; [|discriminate]. cbn [bind] in E. exists w. split; [reflexivity|]. cbn [w_global w_entropy].
  unfold low_generate in E. destruct (normal2 gauss _ _ _) as [noise g1]. destruct (low_full w noise) as [f1 f2].
  destruct (bind _ _) as [w1|e]; [|discriminate]. injection E as _ <-. split; reflexivity.
Qed.

(** ** Energy at the highest wave number of the spectrum *)

Lemma nyquist_unreported : forall w u1 u2 tol g1, low_construct unit_quad plane_cfg = Ok w ->
  low_generate plane_gauss w 0%nat = (Ok (LowGen (lw_cfg w) (lw_c w) (lw_grid w) (Some (u1, u2))), g1) -> 0 < tol < 2 * PI / 10 ->
  0 < mode_energy 4 4 (at2 u1) 2
  /\ exists ks F1 F2, compute_spectrum (LowGen (lw_cfg w) (lw_c w) (lw_grid w) (Some (u1, u2))) tol = Ok (ks, F1, F2)
     /\ nth 1 ks 0 = 2 * PI * 2 / 10 /\ nth 1 F1 0 = 0.
Proof.
  intros w u1 u2 tol g1 HC HG Ht. pose proof (plane_constructed _ _ HC) as P. pose proof (pl_facts w P) as F. split.
  - destruct (nyquist_divergence unit_quad plane_cfg w plane_positive HC) as (_ & _ & _ & HN).
    { cbn. lra. } { cbn. lra. } { rewrite (pl_c2 w P). lia. } { rewrite (pl_cL2 w P). lra. }
    rewrite (pl_c1 w P), (pl_c2 w P) in HN. change (4 / 2)%nat with 2%nat in HN.
    destruct (plane_generated w P 0%nat) as (v1 & v2 & g2 & EG & _ & _ & V). rewrite HG in EG. injection EG as <- <- <-.
    assert (HE : forall k, fourier (4, 4, 1)%nat (at2 u1) k = fourier (4, 4, 1)%nat (low_sample (gen_Q1 w) (lw_grid w) (spike (0, 0, 0)%nat)) k).
    { intros k. apply fourier_ext. intros [[p q] r] Hx. assert (r = 0%nat) as -> by (unfold on_grid in Hx; lia).
      change (at2 u1 (p, q, 0%nat)) with (value u1 p q). destruct (V p q) as [-> _]; [unfold on_grid in Hx; lia|unfold on_grid in Hx; lia|].
      rewrite (sample_ext w P _ _ _ _ Hx noise_spike). apply (sample_shift w P _ (spike (0, 0, 0)%nat) 1 (p, q, 0%nat)); [|exact Hx]. apply Q_zero. }
    unfold mode_energy. apply (Rsum_pos _ _ _ 1%nat).
    + intros b _. cbv zeta. pose proof (pow2_ge_0 (Re (fourier (4, 4, 1)%nat (at2 u1) (2%nat, b, 0%nat)))). pose proof (pow2_ge_0 (Im (fourier (4, 4, 1)%nat (at2 u1) (2%nat, b, 0%nat)))). lra.
    + apply in_seq. lia.
    + cbv zeta. rewrite HE. set (z := fourier _ _ _) in *. clearbody z. destruct z as [x y]. cbn [Re Im fst snd].
      assert (x <> 0 \/ y <> 0) as [Hx|Hy].
      { destruct (Req_dec x 0) as [->|Hx]; [|left; exact Hx]. right. intros ->. apply HN. reflexivity. }
      * assert (0 < x^2) by (replace (x^2) with (Rsqr x) by (unfold Rsqr; ring); apply Rsqr_pos_lt; exact Hx). pose proof (pow2_ge_0 y). lra.
      * assert (0 < y^2) by (replace (y^2) with (Rsqr y) by (unfold Rsqr; ring); apply Rsqr_pos_lt; exact Hy). pose proof (pow2_ge_0 x). lra.
  - destruct (compute_spectrum_spec (LowGen (lw_cfg w) (lw_c w) (lw_grid w) (Some (u1, u2))) u1 u2 tol eq_refl) as (ks & F1 & F2 & EQ & _ & _ & _ & H);
      cbn [lw_grid] in *.
    { rewrite (pl_L1 w P). lra. } { rewrite (pl_n1 w P). lia. }
    { rewrite (gf_dx _ _ F), (pl_L1 w P), (pl_n1 w P). destruct plane_spacing as [-> _]. cbn [INR]. lra. }
    { rewrite (pl_L1 w P). exact Ht. }
    exists ks, F1, F2. split; [exact EQ|]. rewrite (pl_n1 w P), (pl_n2 w P), (pl_L1 w P) in H. change (4 / 2)%nat with 2%nat in H.
    destruct (H 2%nat ltac:(lia) ltac:(lia)) as (K & V1 & _). split; [exact K|exact V1].
Qed.

(** ** The far end of the domain *)

Lemma far_end_zero : forall w u1 u2 x y, lw_u w = Some (u1, u2) -> 0 < lg_L1 (lw_grid w) -> (0 < lg_N1 (lw_grid w))%nat ->
  INR (lg_N1 (lw_grid w) - 1) * (lg_L1 (lw_grid w) / INR (lg_N1 (lw_grid w))) < x -> low_interp w x y = Ok (0, 0).
Proof.
  intros w u1 u2 x y HU HL HN Hx. unfold low_interp. rewrite HU.
  assert (HO : outside (user_coords (lg_L1 (lw_grid w)) (lg_N1 (lw_grid w))) x).
  { right. rewrite user_coords_length, user_coords_nth by lia. exact Hx. }
  rewrite !interpolate_outside by (left; exact HO). reflexivity.
Qed.
