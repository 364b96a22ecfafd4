(** Statements about double precision in the form of the properties. *)

From Coq Require Import Reals List ZArith Bool Lia Lra.
From Flocq Require Import Core.
From Verif Require Import Prelude GenModel GenProofs DftModel LowModel LowSpec LowProofs LowApi FloModel FloSpec FloBase FloGrid FloErr FloCases FloGeo FloWave FloPos.
Import ListNotations.
Open Scope R_scope.

Lemma wide_refused : moderate (lc_L wide_cfg) /\ moderate (lc_f1 wide_cfg) /\ moderate (lc_f2 wide_cfg)
  /\ flo_low_grid wide_cfg = Err RuntimeError /\ exists g, make_low_grid wide_cfg = Ok g.
Proof.
  split; [apply mant_moderate; lia|]. split; [apply int_moderate; lia|]. split; [apply int_moderate; lia|]. split; [exact wide_raises|].
  destruct (grid_api wide_cfg) as (g & H & _); [|exists g; exact H]. unfold positive_lengths, wide_cfg. cbn [lc_L lc_f1 lc_f2]. repeat split; lra.
Qed.

Lemma plain_more : exists g, flo_low_grid plain_cfg = Ok g /\ lg_cN2 g = 322%nat
  /\ Rmax (lc_f2 plain_cfg) 5 * lc_L plain_cfg
     <= 320 * Rmin (lc_f1 plain_cfg * lc_L plain_cfg / 2 ^ lc_e1 plain_cfg) (lc_f2 plain_cfg * lc_L plain_cfg / 2 ^ lc_e2 plain_cfg)
  /\ exists g', make_low_grid plain_cfg = Ok g' /\ lg_cN2 g' = 320%nat.
Proof.
  destruct plain_count as (g & g' & A & B & C & D). exists g. split; [exact A|]. split; [exact C|]. split; [|exists g'; split; assumption].
  unfold plain_cfg. cbn [lc_L lc_f1 lc_f2 lc_e1 lc_e2]. rewrite Rmax_left by lra. rewrite Rmin_left by lra. lra.
Qed.

Lemma one_dbl : is_dbl 1.
Proof. apply (is_int 1). lia. Qed.

(** The power function on non-negative numbers, for positive exponents. *)
Definition pow_case (x a : R) : R := if Req_EM_T x 0 then 0 else Rpower x a.

Lemma pow_case_ok : forall a, 0 < a -> pow_case 1 a = 1 /\ pow_case 0 a = 0 /\ forall x y, 0 <= x <= y -> pow_case x a <= pow_case y a.
Proof.
  intros a Ha. unfold pow_case. split; [|split].
  - destruct (Req_EM_T 1 0); [lra|]. unfold Rpower. rewrite ln_1, Rmult_0_r. apply exp_0.
  - destruct (Req_EM_T 0 0); [reflexivity|lra].
  - intros x y H. destruct (Req_EM_T x 0) as [E|E], (Req_EM_T y 0) as [F|F]; try lra.
    + left. apply exp_pos.
    + apply Rle_Rpower_l; lra.
Qed.

Lemma grow' : forall a b c, 0 < c -> c <= a -> 1 <= b -> c <= a * b.
Proof. intros a b c H A B. nra. Qed.

Lemma side_close : forall Lx level n, is_dbl Lx -> / 2 ^ 50 <= Lx <= 2 ^ 50 -> (level <= 40)%nat -> (1 <= n <= 2 ^ 40)%nat ->
  moderate (flo_side Lx level n)
  /\ Rabs (flo_side Lx level n - Lx / INR (2 ^ level + 1) * INR n) <= Lx / INR (2 ^ level + 1) * INR n * / 2 ^ 49.
Proof.
  intros Lx level n HD HB HL Hn. assert (RL : range 50 Lx) by exact HB. pose proof (range_pos _ _ RL) as PL.
  destruct (nodes_range level HL) as [RN EN]. unfold flo_side. rewrite EN, (dbl_nat n 40) by lia.
  assert (Rn : range 40 (INR n)) by (apply range_nat; lia). pose proof (range_pos _ _ Rn) as Pn. pose proof (range_pos _ _ RN) as PN.
  pose proof (range_div _ _ _ _ RL RN) as R1. cbn [Nat.add] in R1. pose proof (range_pos _ _ R1) as P1.
  assert (N1 : near 1 (Lx / INR (nodes level)) (dbl (Lx / INR (nodes level)))) by (apply near_dbl_one, range_low with 91%nat; [lia|exact R1]).
  (* at most 2^90, at least 2^-91 *)
  assert (A1 : / 2 ^ 91 <= dbl (Lx / INR (nodes level)) * INR n).
  { apply grow'; [apply Rinv_0_lt_compat, pow_lt; lra|destruct (range_dbl 91 _ ltac:(lia) R1) as [H _]; exact H|change 1 with (INR 1); apply le_INR; lia]. }
  assert (A2 : dbl (Lx / INR (nodes level)) * INR n <= 2 ^ 90).
  { change 90%nat with (50 + 40)%nat. rewrite pow_add. apply Rmult_le_compat; [apply dbl_pos; lra|lra| |destruct Rn; assumption].
    apply dbl_high; [apply is_pow|]. apply Rmult_le_reg_r with (INR (nodes level)); [exact PN|]. unfold Rdiv. rewrite Rmult_assoc, Rinv_l, Rmult_1_r by lra.
    assert (1 <= INR (nodes level)) by (change 1 with (INR 1); apply le_INR; unfold nodes; lia). nra. }
  split; [split; [apply dbl_is|split]|].
  - apply Rle_trans with (/ 2 ^ 91); [apply pow_inv_mono; lia|]. apply dbl_low; [apply is_inv_pow; lia|exact A1].
  - apply Rle_trans with (2 ^ 90); [|apply Rle_pow; [lra|lia]]. apply dbl_high; [apply is_pow|exact A2].
  - assert (N2 : near 2 (Lx / INR (nodes level) * INR n) (dbl (dbl (Lx / INR (nodes level)) * INR n))).
    { apply (prod 1 _ _ _ _ 0 91 N1 (near_refl _)); [exact P1|exact Pn| |lia]. split; [exact A1|]. apply Rle_trans with (1 := A2). apply Rle_pow; [lra|lia]. }
    fold (nodes level). assert (P2 : 0 < Lx / INR (nodes level) * INR n) by (apply Rmult_lt_0_compat; assumption).
    pose proof (near_bounds 2 _ _ ltac:(lia) P2 N2) as [B1 B2]. apply Rabs_le. lra.
Qed.

Lemma heights_ends : forall Lz level, moderate Lz -> (level <= 40)%nat ->
  nth 0 (flo_heights Lz level) 0 = 0 /\ nth (2 ^ level) (flo_heights Lz level) 0 = Lz /\ length (flo_heights Lz level) = (2 ^ level + 1)%nat.
Proof.
  intros Lz level ML HL. destruct (height_at Lz level ML HL 0 ltac:(lia)) as (_ & A & B). split; [exact A|]. split; [exact B|].
  unfold flo_heights. rewrite app_length, map_length, seq_length. reflexivity.
Qed.

Lemma power_profile : forall powf zref uref a, 0 < zref -> 0 <= uref -> powf 0 a = 0 ->
  (forall x y, 0 <= x <= y -> powf x a <= powf y a) ->
  flo_power_law powf zref uref a 0 = 0 /\
  forall z z', 0 <= z <= z' -> flo_power_law powf zref uref a z <= flo_power_law powf zref uref a z'.
Proof. intros powf zref uref a Hz Hu H0 HM. split; [apply power_ground; exact H0|exact (power_increasing powf zref uref a Hz Hu HM)]. Qed.

Lemma log_profile : forall logf z0 zref uref, 0 < z0 -> 0 <= uref -> logf 1 = 0 -> 0 < logf (dbl (zref / z0)) ->
  (forall x y, 1 <= x <= y -> logf x <= logf y) ->
  flo_log_law logf z0 zref uref 0 = 0 /\
  forall z z', 0 <= z <= z' -> flo_log_law logf z0 zref uref z <= flo_log_law logf z0 zref uref z'.
Proof. intros logf z0 zref uref Hz Hu H0 HR HM. split; [apply log_ground; exact H0|exact (log_increasing logf z0 zref uref Hz Hu HR HM)]. Qed.

Lemma ln_ok : ln 1 = 0 /\ 0 < ln (dbl (100 / (1 / 8))) /\ forall x y, 1 <= x <= y -> ln x <= ln y.
Proof.
  split; [apply ln_1|]. split.
  - rewrite (dbl_id (100 / (1 / 8))) by (replace (100 / (1 / 8)) with (IZR 800) by field; apply is_int; lia). rewrite <- ln_1. apply ln_increasing; lra.
  - intros x y [A [B| ->]]; [left; apply ln_increasing; lra|lra].
Qed.
