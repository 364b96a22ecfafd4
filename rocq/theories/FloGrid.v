(** Lemmas about the low-frequency grid in double precision. *)

From Coq Require Import Reals List ZArith Bool Lia Lra.
From Flocq Require Import Core.
From Verif Require Import Prelude GenModel GenProofs DftModel LowModel LowProofs FloModel FloSpec FloBase.
Import ListNotations.
Open Scope R_scope.

Local Notation Zceil := GenModel.Zceil.

Lemma u_facts : 0 < uro /\ uro <= / 10 ^ 15 /\ uro * 2 ^ 53 = 1.
Proof. split; [exact uro_pos|]. split; [exact uro_small|]. unfold uro. apply Rinv_l. apply pow_nonzero. lra. Qed.

Lemma ceil_bounds : forall x, x <= IZR (Zceil x) < x + 1.
Proof. intros x. unfold Zceil. rewrite opp_IZR. pose proof (base_Int_part (- x)). lra. Qed.

Lemma even_facts : forall n, (0 < n)%Z -> Z.Even (even_count n) /\ (2 <= even_count n)%Z /\ (n <= even_count n <= n + 1)%Z.
Proof.
  intros n H. unfold even_count. destruct (Z.ltb_spec 0 n) as [_|]; [|lia].
  pose proof (Z.mod_pos_bound n 2 ltac:(lia)) as B. pose proof (Z.div_mod n 2 ltac:(lia)) as D.
  assert (E : (n + n mod 2 = 2 * (n / 2 + n mod 2))%Z) by lia.
  assert (GE : (2 <= n + n mod 2)%Z) by lia.
  rewrite Z.max_l by lia. split; [exists (n / 2 + n mod 2)%Z; exact E|]. lia.
Qed.

(** One direction of the grid: [T] is the length asked for, [d] the spacing. *)
Section Direction.
  Variables T d : R.
  Hypothesis HT : is_dbl T.
  Hypothesis Hd : / 2 ^ 500 <= d.
  Hypothesis H1 : 1 <= T / d <= 2 ^ 50.

  Let q := dbl (T / d).
  Let N := even_count (Zceil q).
  Let c := dbl (dbl (IZR N) * d).

  Lemma d_pos : 0 < d.
  Proof. assert (0 < / 2 ^ 500) by (apply Rinv_0_lt_compat, pow_lt; lra). lra. Qed.

  Lemma T_quot : T = T / d * d.
  Proof. field. pose proof d_pos. lra. Qed.

  Lemma small_one : / 2 ^ 1022 <= 1.
  Proof. replace 1 with (/ 2 ^ 0) by (rewrite pow_O; apply Rinv_1). apply pow_inv_mono. lia. Qed.

  Lemma q_bounds : 1 <= q <= 2 ^ 50 /\ T / d * (1 - uro) <= q <= T / d * (1 + uro).
  Proof.
    split.
    - split; [apply dbl_low; [apply (is_int 1); reflexivity|lra]|apply dbl_high; [apply is_pow|lra]].
    - apply dbl_bounds. pose proof small_one. lra.
  Qed.

  Lemma N_facts : Z.Even N /\ (2 <= N)%Z /\ (Zceil q <= N <= Zceil q + 1)%Z /\ (Zceil q <= 2 ^ 50)%Z.
  Proof.
    destruct q_bounds as [[Q1 Q2] _]. pose proof (ceil_bounds q) as C.
    assert (P : (0 < Zceil q)%Z) by (apply lt_IZR; lra).
    destruct (even_facts _ P) as (E & G & B). split; [exact E|]. split; [exact G|]. split; [exact B|].
    apply Z.lt_succ_r. apply lt_IZR. rewrite succ_IZR. replace (IZR (2 ^ 50)) with (2 ^ 50); [lra|]. rewrite <- (Z2Nat.id 50) by lia. rewrite <- pow_IZR. reflexivity.
  Qed.

  Lemma N_exact : dbl (IZR N) = IZR N.
  Proof. apply dbl_id, is_int. destruct N_facts as (_ & G & B & C). lia. Qed.

  Lemma N_covers : T * (1 - uro) <= IZR N * d.
  Proof.
    destruct q_bounds as [_ [Q _]]. destruct N_facts as (_ & _ & [B _] & _). apply IZR_le in B. pose proof (ceil_bounds q) as C. pose proof d_pos as D.
    assert (S : T / d * (1 - uro) <= IZR N) by lra. rewrite T_quot at 1. nra.
  Qed.

  Lemma N_at_least : forall m, (0 <= m < 2 ^ 53)%Z -> IZR m <= T / d -> (m <= N)%Z.
  Proof.
    intros m HM HL. destruct N_facts as (_ & _ & [B _] & _). pose proof (ceil_bounds q) as C.
    assert (S : IZR m <= q) by (apply dbl_low; [apply is_int; lia|exact HL]). apply Z.le_trans with (2 := B). apply le_IZR. lra.
  Qed.

  Lemma N_high : IZR N < T / d * (1 + uro) + 2.
  Proof. destruct q_bounds as [_ [_ Q]]. destruct N_facts as (_ & _ & [_ B] & _). apply IZR_le in B. rewrite plus_IZR in B. pose proof (ceil_bounds q). lra. Qed.

  Lemma Nd_normal : / 2 ^ 1022 <= IZR N * d.
  Proof.
    destruct N_facts as (_ & G & _). apply IZR_le in G. pose proof (pow_inv_mono 500 1022 ltac:(lia)). pose proof d_pos. nra.
  Qed.

  Lemma c_bounds : IZR N * d * (1 - uro) <= c <= IZR N * d * (1 + uro).
  Proof. unfold c. rewrite N_exact. apply dbl_bounds, Nd_normal. Qed.

  Lemma c_covers : T * (1 - uro) ^ 2 <= c.
  Proof. pose proof c_bounds as [B _]. pose proof N_covers as C. pose proof u_facts as (U1 & U2 & _). assert (0 < 1 - uro) by lra. nra. Qed.

  Lemma check_passes : T <= 2 ^ 23 -> Rleb (dbl (T - dbl (/ 10 ^ 9))) c = true.
  Proof.
    intros HB. apply Rleb_true. unfold c. rewrite N_exact. apply dbl_le.
    assert (TL : / 2 ^ 30 <= dbl (/ 10 ^ 9)) by (apply dbl_low; [apply is_inv_pow; lia|apply Rinv_le_contravar; lra]).
    pose proof N_covers as C. pose proof u_facts as (U1 & _ & U3).
    assert (TU : T * uro <= / 2 ^ 30).
    { unfold uro. replace (/ 2 ^ 30) with (2 ^ 23 * / 2 ^ 53); [|change 53%nat with (23 + 30)%nat; rewrite pow_add, Rinv_mult; field; apply pow_nonzero; lra].
      apply Rmult_le_compat_r; [|exact HB]. left. exact U1. }
    lra.
  Qed.

  Lemma spacing : Rabs (dbl (c / dbl (IZR N)) - d) <= d * / 2 ^ 51.
  Proof.
    rewrite N_exact. destruct N_facts as (_ & G & _). apply IZR_le in G. pose proof c_bounds as [B1 B2]. pose proof d_pos as D. pose proof u_facts as (U1 & U2 & _).
    assert (P : 0 < IZR N) by lra.
    assert (Q1 : d * (1 - uro) <= c / IZR N) by (apply Rmult_le_reg_r with (IZR N); [exact P|]; replace (c / IZR N * IZR N) with c by (field; lra); lra).
    assert (Q2 : c / IZR N <= d * (1 + uro)) by (apply Rmult_le_reg_r with (IZR N); [exact P|]; replace (c / IZR N * IZR N) with c by (field; lra); lra).
    assert (NO : / 2 ^ 1022 <= c / IZR N).
    { apply Rle_trans with (2 := Q1). apply Rle_trans with (/ 2 ^ 501); [apply pow_inv_mono; lia|]. change 501%nat with (S 500). cbn [pow]. rewrite Rinv_mult.
      assert (0 < / 2 ^ 500) by (apply Rinv_0_lt_compat, pow_lt; lra). nra. }
    pose proof (dbl_bounds _ NO) as [E1 E2].
    assert (U : / 2 ^ 51 = 4 * uro) by (unfold uro; change 53%nat with (2 + 51)%nat; rewrite pow_add, Rinv_mult; field; apply pow_nonzero; lra).
    rewrite U. apply Rabs_le. split; nra.
  Qed.
End Direction.

(** One direction, in terms of the exact lengths. *)
Section Exact.
  Variables l L D d : R.
  Variables e : nat.
  Let t := Rmax l (5 * L).
  Let T := Rmax (dbl l) (dbl (5 * L)).
  Hypothesis Hl : / 2 ^ 200 <= l.
  Hypothesis HD1 : D <= l / 2 ^ e.
  Hypothesis HDT : t <= 2 ^ 49 * D.
  Hypothesis HDd : D * (1 - uro) <= d <= D * (1 + uro).
  Hypothesis Hdl : d <= dbl l / 2 ^ e.
  Hypothesis Hd : / 2 ^ 500 <= d.
  Hypothesis He : (e <= 40)%nat.
  Hypothesis Ht : t <= 2 ^ 23.

  Lemma T_round : T = dbl t.
  Proof.
    unfold T, t. destruct (Rle_dec l (5 * L)) as [H|H].
    - rewrite (Rmax_right l) by exact H. apply Rmax_right, dbl_le, H.
    - rewrite (Rmax_left l) by lra. apply Rmax_left, dbl_le. lra.
  Qed.

  Lemma t_ge : l <= t. Proof. apply Rmax_l. Qed.

  Lemma t_pos : 0 < t.
  Proof. pose proof t_ge. assert (0 < / 2 ^ 200) by (apply Rinv_0_lt_compat, pow_lt; lra). lra. Qed.

  Lemma T_bounds : t * (1 - uro) <= T <= t * (1 + uro).
  Proof. rewrite T_round. apply dbl_bounds. pose proof t_ge. pose proof (pow_inv_mono 200 1022 ltac:(lia)). lra. Qed.

  Lemma D_pos : 0 < D.
  Proof. pose proof t_pos. assert (0 < 2 ^ 49) by (apply pow_lt; lra). nra. Qed.

  Lemma quot_at_least : 2 ^ e <= T / d.
  Proof.
    assert (P : 0 < d) by (assert (0 < / 2 ^ 500) by (apply Rinv_0_lt_compat, pow_lt; lra); lra).
    assert (P2 : 0 < 2 ^ e) by (apply pow_lt; lra).
    apply Rmult_le_reg_r with d; [exact P|]. replace (T / d * d) with T by (field; lra).
    apply Rle_trans with (dbl l); [|apply Rmax_l].
    replace (dbl l) with (2 ^ e * (dbl l / 2 ^ e)) by (field; lra). apply Rmult_le_compat_l; lra.
  Qed.

  Lemma quot_range : 1 <= T / d <= 2 ^ 50.
  Proof.
    assert (P : 0 < d) by (assert (0 < / 2 ^ 500) by (apply Rinv_0_lt_compat, pow_lt; lra); lra).
    split.
    - apply Rle_trans with (2 := quot_at_least). apply pow_R1_Rle. lra.
    - apply Rmult_le_reg_r with d; [exact P|]. replace (T / d * d) with T by (field; lra).
      pose proof T_bounds as [_ B]. pose proof u_facts as (U1 & U2 & _). pose proof D_pos.
      apply Rle_trans with (2 ^ 49 * D * (1 + uro)); [nra|]. rewrite (tech_pow_Rmult 2 49 : 2 ^ 50 = 2 * 2 ^ 49) || replace (2 ^ 50) with (2 * 2 ^ 49) by reflexivity.
      assert (H0 : 0 < 2 ^ 49) by (apply pow_lt; lra).
      assert (E : D * (1 + uro) <= 2 * d) by nra. clear -E H0. set (p := 2 ^ 49) in *. nra.
  Qed.
  Let q := dbl (T / d).
  Let N := even_count (Zceil q).
  Let c := dbl (dbl (IZR N) * d).

  Lemma exact_check : Rleb (dbl (T - dbl (/ 10 ^ 9))) c = true.
  Proof.
    apply (check_passes T d Hd quot_range). rewrite T_round. apply dbl_high; [apply is_pow|exact Ht].
  Qed.

  Lemma exact_N2 : (2 <= N)%Z.
  Proof. apply (N_facts T d quot_range). Qed.

  Lemma exact_spacing : Rabs (dbl (c / dbl (IZR N)) - d) <= d * / 2 ^ 51.
  Proof. apply (spacing T d Hd quot_range). Qed.

  Lemma exact_adequate : adequate t D (2 ^ e) (Z.to_nat N) c (dbl (c / dbl (IZR N))).
  Proof.
    pose proof u_facts as (U1 & U2 & U3). pose proof D_pos as DP. pose proof t_pos as TP. pose proof T_bounds as [TB1 TB2].
    destruct (N_facts T d quot_range) as (EV & G2 & BN & B50). fold q N in EV, G2, BN, B50.
    assert (U51 : / 2 ^ 51 = 4 * uro) by (unfold uro; change 53%nat with (2 + 51)%nat; rewrite pow_add, Rinv_mult; field; apply pow_nonzero; lra).
    assert (U50 : / 2 ^ 50 = 8 * uro) by (unfold uro; change 53%nat with (3 + 50)%nat; rewrite pow_add, Rinv_mult; field; apply pow_nonzero; lra).
    unfold adequate. split; [|split; [|split; [|split; [|split]]]].
    - destruct EV as [k EK]. exists (Z.to_nat k). lia.
    - lia.
    - assert (LE : (Z.of_nat (2 ^ e) <= N)%Z); [|lia].
      apply (N_at_least T d quot_range); [|rewrite <- INR_IZR_INZ, INR_pow2; exact quot_at_least].
      rewrite Nat2Z.inj_pow. change (Z.of_nat 2) with 2%Z. split; [apply Z.pow_nonneg; lia|]. apply Z.pow_lt_mono_r; lia.
    - pose proof (c_covers T d Hd quot_range) as C. fold q N c in C. rewrite U50. nra.
    - intros m [k EK] HM.
      assert (QB : q <= INR m + / 2).
      { destruct (q_bounds T d quot_range) as [_ [_ Q]]. fold q in Q.
        assert (P : 0 < d) by (assert (0 < / 2 ^ 500) by (apply Rinv_0_lt_compat, pow_lt; lra); lra).
        assert (R1 : T / d <= t / D * (1 + 3 * uro)).
        { apply Rmult_le_reg_r with d; [exact P|]. replace (T / d * d) with T by (field; lra).
          apply Rle_trans with (1 := TB2).
          apply Rle_trans with (t / D * (1 + 3 * uro) * (D * (1 - uro))).
          - replace (t / D * (1 + 3 * uro) * (D * (1 - uro))) with (t * ((1 + 3 * uro) * (1 - uro))) by (field; lra). apply Rmult_le_compat_l; [lra|]. nra.
          - apply Rmult_le_compat_l; [|lra]. apply Rmult_le_pos; [|lra]. apply Rlt_le, Rdiv_lt_0_compat; lra. }
        assert (R2 : t / D <= 2 ^ 49) by (apply Rmult_le_reg_r with D; [exact DP|]; replace (t / D * D) with t by (field; lra); exact HDT).
        assert (R3 : t / D <= INR m) by (apply Rmult_le_reg_r with D; [exact DP|]; replace (t / D * D) with t by (field; lra); exact HM).
        assert (R0 : 0 < t / D) by (apply Rdiv_lt_0_compat; lra).
        assert (R4 : t / D * uro <= / 16).
        { apply Rle_trans with (2 ^ 49 * uro); [apply Rmult_le_compat_r; lra|]. replace (2 ^ 53) with (16 * 2 ^ 49) in U3 by (change 53%nat with (4 + 49)%nat; rewrite pow_add; ring). lra. }
        apply Rle_trans with (1 := Q). apply Rle_trans with (t / D * (1 + 3 * uro) * (1 + uro)); [apply Rmult_le_compat_r; lra|].
        set (x := t / D) in *. assert (0 <= x * uro) by nra. nra. }
      pose proof (ceil_bounds q) as [_ CB]. assert (CZ : (Zceil q < Z.of_nat m + 2)%Z) by (apply lt_IZR; rewrite plus_IZR, <- INR_IZR_INZ; lra).
      lia.
    - pose proof exact_spacing as S. apply Rabs_le_inv in S. rewrite U51 in S. rewrite U50. apply Rabs_le. split; nra.
  Qed.
End Exact.

(** ** The constructor *)

Lemma prod_moderate : forall a b, moderate a -> moderate b -> / 2 ^ 200 <= a * b.
Proof.
  intros a b [_ [A _]] [_ [B _]]. change 200%nat with (100 + 100)%nat. rewrite pow_add, Rinv_mult.
  assert (0 < / 2 ^ 100) by (apply Rinv_0_lt_compat, pow_lt; lra). apply Rmult_le_compat; lra.
Qed.

Lemma pow_nat_exact : forall e, (e <= 40)%nat -> dbl (INR (2 ^ e)) = 2 ^ e.
Proof. intros e H. rewrite INR_pow2. apply dbl_id, is_pow. Qed.

Lemma spacing_exact : forall l e, / 2 ^ 200 <= l -> (e <= 40)%nat ->
  dbl (dbl l / dbl (INR (2 ^ e))) = dbl l / 2 ^ e /\ / 2 ^ 240 <= dbl l / 2 ^ e
  /\ l / 2 ^ e * (1 - uro) <= dbl l / 2 ^ e <= l / 2 ^ e * (1 + uro).
Proof.
  intros l e Hl He. rewrite pow_nat_exact by exact He.
  assert (P : 0 < 2 ^ e) by (apply pow_lt; lra).
  assert (PI0 : 0 < / 2 ^ e) by (apply Rinv_0_lt_compat; exact P).
  assert (LB : / 2 ^ 200 <= dbl l) by (apply dbl_low; [apply is_inv_pow; lia|exact Hl]).
  assert (P2 : 0 < / 2 ^ 200) by (apply Rinv_0_lt_compat, pow_lt; lra).
  assert (B : / 2 ^ 240 <= dbl l / 2 ^ e).
  { change 240%nat with (200 + 40)%nat. rewrite pow_add, Rinv_mult. unfold Rdiv. apply Rmult_le_compat; [lra| |exact LB|apply pow_inv_mono; exact He].
    left. apply Rinv_0_lt_compat, pow_lt. lra. }
  split; [|split; [exact B|]].
  - apply dbl_id, is_scaled; [apply dbl_is|]. rewrite Rabs_right by lra. pose proof (pow_inv_mono 240 1022 ltac:(lia)). lra.
  - pose proof (dbl_bounds l) as E. pose proof (pow_inv_mono 200 1022 ltac:(lia)). specialize (E ltac:(lra)). unfold Rdiv.
    split; [replace (l * / 2 ^ e * (1 - uro)) with (l * (1 - uro) * / 2 ^ e) by ring|replace (l * / 2 ^ e * (1 + uro)) with (l * (1 + uro) * / 2 ^ e) by ring]; apply Rmult_le_compat_r; lra.
Qed.

Lemma min_bounds : forall a b a' b' u, 0 < u < 1 -> a * (1 - u) <= a' <= a * (1 + u) -> b * (1 - u) <= b' <= b * (1 + u) ->
  Rmin a b * (1 - u) <= Rmin a' b' <= Rmin a b * (1 + u).
Proof.
  intros a b a' b' u HU HA HB. split.
  - apply Rmin_glb; [apply Rle_trans with (a * (1 - u)); [apply Rmult_le_compat_r; [lra|apply Rmin_l]|lra]|apply Rle_trans with (b * (1 - u)); [apply Rmult_le_compat_r; [lra|apply Rmin_r]|lra]].
  - destruct (Rle_dec a b) as [H|H].
    + rewrite (Rmin_left a b H). apply Rle_trans with a'; [apply Rmin_l|lra].
    + rewrite (Rmin_right a b) by lra. apply Rle_trans with b'; [apply Rmin_r|lra].
Qed.

Lemma isclose_near : forall a b d, / 2 ^ 300 <= d -> Rabs (a - d) <= d * / 2 ^ 51 -> Rabs (b - d) <= d * / 2 ^ 51 -> flo_isclose a b = true.
Proof.
  intros a b d Hd HA HB. unfold flo_isclose. apply Rleb_true. rewrite dbl_abs. apply dbl_le.
  assert (P : 0 < / 2 ^ 300) by (apply Rinv_0_lt_compat, pow_lt; lra).
  assert (U51 : / 2 ^ 51 <= / 10 ^ 15) by (apply Rinv_le_contravar; lra). assert (U0 : 0 < / 2 ^ 51) by (apply Rinv_0_lt_compat, pow_lt; lra).
  pose proof (Rabs_le_inv _ _ HA) as A. pose proof (Rabs_le_inv _ _ HB) as B.
  assert (BP : d / 2 <= b) by nra. rewrite (Rabs_right b) by lra.
  assert (A0 : 0 <= dbl (/ 10 ^ 8)) by (apply dbl_pos; left; apply Rinv_0_lt_compat, pow_lt; lra).
  assert (T5 : / 10 ^ 6 <= dbl (/ 10 ^ 5)).
  { pose proof (dbl_bounds (/ 10 ^ 5)) as E. assert (S : / 2 ^ 1022 <= / 10 ^ 5) by (apply Rle_trans with (/ 2 ^ 20); [apply pow_inv_mono; lia|apply Rinv_le_contravar; lra]).
    specialize (E S). pose proof u_facts as (U1 & U2 & _). lra. }
  assert (S2 : / 2 ^ 1022 <= dbl (/ 10 ^ 5) * b).
  { apply Rle_trans with (/ 2 ^ 321); [apply pow_inv_mono; lia|]. change 321%nat with (20 + 301)%nat. rewrite pow_add, Rinv_mult. apply Rmult_le_compat.
    - left. apply Rinv_0_lt_compat, pow_lt. lra.
    - left. apply Rinv_0_lt_compat, pow_lt. lra.
    - apply Rle_trans with (2 := T5). apply Rinv_le_contravar; lra.
    - change 301%nat with (S 300). cbn [pow]. rewrite Rinv_mult. fold (2 ^ 300). lra. }
  pose proof (dbl_bounds _ S2) as [E _]. pose proof u_facts as (U1 & U2 & _).
  assert (F : d / 10 ^ 7 <= dbl (dbl (/ 10 ^ 5) * b)).
  { apply Rle_trans with (2 := E). assert (d / 2 * / 10 ^ 6 <= dbl (/ 10 ^ 5) * b) by (rewrite (Rmult_comm (d / 2)); apply Rmult_le_compat; lra).
    set (y := dbl (/ 10 ^ 5) * b) in *. assert (y * (1 / 2) <= y * (1 - uro)) by (apply Rmult_le_compat_l; lra). lra. }
  apply Rabs_le. split; nra.
Qed.

Lemma flo_grid : forall cfg, moderate (lc_L cfg) -> moderate (lc_f1 cfg) -> moderate (lc_f2 cfg) ->
  (lc_e1 cfg <= 40)%nat -> (lc_e2 cfg <= 40)%nat ->
  let t1 := Rmax (lc_f1 cfg) 5 * lc_L cfg in let t2 := Rmax (lc_f2 cfg) 5 * lc_L cfg in
  let D := Rmin (lc_f1 cfg * lc_L cfg / 2 ^ lc_e1 cfg) (lc_f2 cfg * lc_L cfg / 2 ^ lc_e2 cfg) in
  t1 <= 2 ^ 23 -> t2 <= 2 ^ 23 -> t1 <= 2 ^ 49 * D -> t2 <= 2 ^ 49 * D ->
  exists g, flo_low_grid cfg = Ok g
    /\ adequate t1 D (2 ^ lc_e1 cfg) (lg_cN1 g) (lg_cL1 g) (lg_cdx g)
    /\ adequate t2 D (2 ^ lc_e2 cfg) (lg_cN2 g) (lg_cL2 g) (lg_cdy g).
Proof.
  intros cfg ML M1 M2 E1 E2 t1 t2 D HT1 HT2 HQ1 HQ2. set (L := lc_L cfg) in *. set (f1 := lc_f1 cfg) in *. set (f2 := lc_f2 cfg) in *.
  set (e1 := lc_e1 cfg) in *. set (e2 := lc_e2 cfg) in *.
  assert (PL : 0 < L) by (destruct ML as [_ [ML _]]; assert (0 < / 2 ^ 100) by (apply Rinv_0_lt_compat, pow_lt; lra); lra).
  assert (R1 : t1 = Rmax (f1 * L) (5 * L)) by (unfold t1; rewrite !(Rmult_comm _ L); symmetry; apply RmaxRmult; lra).
  assert (R2 : t2 = Rmax (f2 * L) (5 * L)) by (unfold t2; rewrite !(Rmult_comm _ L); symmetry; apply RmaxRmult; lra).
  pose proof (prod_moderate _ _ M1 ML) as N1. pose proof (prod_moderate _ _ M2 ML) as N2. fold f1 L in N1. fold f2 L in N2.
  destruct (spacing_exact _ e1 N1 E1) as (X1 & G1 & B1). destruct (spacing_exact _ e2 N2 E2) as (X2 & G2 & B2).
  pose proof u_facts as (U1 & U2 & _).
  assert (BD : D * (1 - uro) <= Rmin (dbl (f1 * L) / 2 ^ e1) (dbl (f2 * L) / 2 ^ e2) <= D * (1 + uro)) by (apply min_bounds; [lra|exact B1|exact B2]).
  unfold flo_low_grid, flo_buffer_sizes. fold L f1 f2 e1 e2. rewrite X1, X2.
  set (d := Rmin (dbl (f1 * L) / 2 ^ e1) (dbl (f2 * L) / 2 ^ e2)) in *.
  assert (D240 : / 2 ^ 240 <= d) by (apply Rmin_glb; assumption).
  assert (D500 : / 2 ^ 500 <= d) by (pose proof (pow_inv_mono 240 500 ltac:(lia)); lra).
  assert (D300 : / 2 ^ 300 <= d) by (pose proof (pow_inv_mono 240 300 ltac:(lia)); lra).
  assert (DP : 0 < d) by (assert (0 < / 2 ^ 240) by (apply Rinv_0_lt_compat, pow_lt; lra); lra).
  rewrite R1 in HT1, HQ1. rewrite R2 in HT2, HQ2.
  assert (DL1 : D <= f1 * L / 2 ^ e1) by apply Rmin_l. assert (DL2 : D <= f2 * L / 2 ^ e2) by apply Rmin_r.
  assert (dL1 : d <= dbl (f1 * L) / 2 ^ e1) by apply Rmin_l. assert (dL2 : d <= dbl (f2 * L) / 2 ^ e2) by apply Rmin_r.
  unfold Reqb. destruct (Req_EM_T d 0) as [EZ|_]; [lra|].
  rewrite (exact_check (f1 * L) L D d e1 N1 HQ1 BD dL1 D500 E1 HT1), (exact_check (f2 * L) L D d e2 N2 HQ2 BD dL2 D500 E2 HT2). cbn [andb bind].
  pose proof (exact_N2 (f1 * L) L D d e1 N1 HQ1 BD dL1 D500 E1) as G21. pose proof (exact_N2 (f2 * L) L D d e2 N2 HQ2 BD dL2 D500 E2) as G22.
  pose proof (exact_spacing (f1 * L) L D d e1 N1 HQ1 BD dL1 D500 E1) as S1. pose proof (exact_spacing (f2 * L) L D d e2 N2 HQ2 BD dL2 D500 E2) as S2.
  pose proof (exact_adequate (f1 * L) L D d e1 N1 HQ1 BD dL1 D500 E1 HT1) as A1. pose proof (exact_adequate (f2 * L) L D d e2 N2 HQ2 BD dL2 D500 E2 HT2) as A2.
  cbv zeta in *. rewrite <- R1 in A1. rewrite <- R2 in A2.
  set (Na := even_count (Zceil (dbl (Rmax (dbl (f1 * L)) (dbl (5 * L)) / d)))) in *.
  set (Nb := even_count (Zceil (dbl (Rmax (dbl (f2 * L)) (dbl (5 * L)) / d)))) in *.
  destruct (Z.eqb_spec Na 0) as [|_]; [lia|]. destruct (Z.eqb_spec Nb 0) as [|_]; [lia|]. cbn [orb].
  rewrite (isclose_near _ _ d D300 S1 S2). eexists. split; [reflexivity|]. cbn [lg_cN1 lg_cN2 lg_cL1 lg_cL2 lg_cdx lg_cdy]. split; [exact A1|exact A2].
Qed.
