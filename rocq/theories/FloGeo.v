(** Buffers and margins of the block generator in double precision. *)

From Coq Require Import Reals List ZArith Bool Lia Lra.
From Flocq Require Import Core.
From Verif Require Import Prelude GenModel GenProofs DftModel LowModel LowProofs FloModel FloSpec FloBase FloGrid FloErr FloCases.
Import ListNotations.
Open Scope R_scope.

Local Notation Zceil := GenModel.Zceil.

Lemma cells : forall k W q, (k <= 7)%nat -> 0 < W -> W <= 2 ^ 48 -> near k W q -> cells_for W (Zceil q).
Proof.
  intros k W q Hk HW HB N. pose proof (near_bounds _ _ _ Hk HW N) as [A B]. pose proof (ceil_bounds q) as [C D].
  split; [lra|]. intros m [M1 M2].
  assert (E : W * / 2 ^ 49 <= / 2) by (apply Rle_trans with (2 ^ 48 * / 2 ^ 49); [apply Rmult_le_compat_r; [left; apply Rinv_0_lt_compat, pow_lt; lra|exact HB]|lra]).
  assert (Zceil q < m + 2)%Z by (apply lt_IZR; rewrite plus_IZR; lra).
  assert (m - 2 < Zceil q)%Z by (apply lt_IZR; rewrite minus_IZR; lra). lia.
Qed.

Lemma nodes_range : forall l, (l <= 40)%nat -> range 41 (INR (nodes l)) /\ dbl (INR (nodes l)) = INR (nodes l).
Proof.
  intros l H. unfold nodes.
  assert (B : (2 ^ l + 1 <= 2 ^ 41)%nat).
  { change 41%nat with (S 40). rewrite Nat.pow_succ_r'. assert (2 ^ l <= 2 ^ 40)%nat by (apply Nat.pow_le_mono_r; lia). assert (2 ^ 0 <= 2 ^ 40)%nat by (apply Nat.pow_le_mono_r; lia). rewrite Nat.pow_0_r in *. lia. }
  split; [apply range_nat; lia|]. apply dbl_nat with 41%nat; [lia|exact B].
Qed.

Lemma spacing : forall X l, moderate X -> (l <= 40)%nat ->
  near 1 (X / INR (nodes l)) (dbl (X / dbl (INR (nodes l)))) /\ range 141 (dbl (X / dbl (INR (nodes l)))) /\ 0 < X / INR (nodes l).
Proof.
  intros X l M H. destruct (nodes_range l H) as [R E]. rewrite E. pose proof (range_moderate _ M) as RX.
  pose proof (range_div _ _ _ _ RX R) as RQ. cbn [Nat.add] in RQ.
  split; [apply near_dbl_one, range_low with 141%nat; [lia|exact RQ]|]. split; [apply range_dbl; [lia|exact RQ]|].
  apply range_pos with 141%nat. exact RQ.
Qed.

Lemma Reqb_no : forall x, 0 < x -> Reqb x 0 = false.
Proof. intros x H. unfold Reqb. destruct (Req_EM_T x 0); [lra|reflexivity]. Qed.

Lemma flo_geometry_ok : forall Lx Ly Lz lx ly lz L Gamma blend,
  moderate Lx -> moderate Ly -> moderate Lz -> moderate L -> moderate Gamma ->
  (lx <= 40)%nat -> (ly <= 40)%nat -> (lz <= 40)%nat ->
  let Wx := 3 * Gamma * L / (Lx / INR (2 ^ lx + 1)) in
  let Wy := L / (Ly / INR (2 ^ ly + 1)) in
  let Wz := L / (Lz / INR (2 ^ lz + 1)) in
  Wx <= 2 ^ 48 -> Wy <= 2 ^ 48 -> Wz <= 2 ^ 48 ->
  exists g, flo_geometry (Lx, Ly, Lz) (lx, ly, lz) L Gamma blend = Ok g
    /\ cells_for Wx (g_nb g) /\ cells_for Wy (g_my g) /\ cells_for Wz (g_mz g).
Proof.
  intros Lx Ly Lz lx ly lz L Gamma blend MX MY MZ ML MG HX HY HZ Wx Wy Wz BX BY BZ.
  destruct (spacing Lx lx MX HX) as (NX & RX & PX). destruct (spacing Ly ly MY HY) as (NY & RY & PY). destruct (spacing Lz lz MZ HZ) as (NZ & RZ & PZ).
  pose proof (range_moderate _ ML) as RL. pose proof (range_moderate _ MG) as RG. pose proof (range_pos _ _ RL) as PL. pose proof (range_pos _ _ RG) as PG.
  unfold flo_geometry. rewrite !Reqb_no by (apply range_pos with 141%nat; assumption).
  eexists. split; [reflexivity|]. cbn [g_nb g_my g_mz].
  set (dx := dbl (Lx / dbl (INR (nodes lx)))) in *. set (dy := dbl (Ly / dbl (INR (nodes ly)))) in *. set (dz := dbl (Lz / dbl (INR (nodes lz)))) in *.
  assert (R3 : range 2 3) by (split; cbn [pow]; lra).
  assert (RW1 : range 102 (dbl (3 * Gamma))) by (apply range_dbl; [lia|]; change 102%nat with (2 + 100)%nat; apply range_mul; assumption).
  assert (RW2 : range 202 (dbl (dbl (3 * Gamma) * L))) by (apply range_dbl; [lia|]; change 202%nat with (102 + 100)%nat; apply range_mul; assumption).
  assert (NW1 : near 1 (3 * Gamma) (dbl (3 * Gamma))) by (apply near_dbl_one, range_low with 102%nat; [lia|]; change 102%nat with (2 + 100)%nat; apply range_mul; assumption).
  assert (NW2 : near 2 (3 * Gamma * L) (dbl (dbl (3 * Gamma) * L))).
  { apply (prod 1 _ _ _ _ 0 202 NW1 (near_refl L)); [lra|lra| |lia]. change 202%nat with (102 + 100)%nat. apply range_mul; assumption. }
  split; [|split].
  - apply cells with 4%nat; [lia| |exact BX|].
    + unfold Wx. apply Rdiv_lt_0_compat; [apply Rmult_lt_0_compat; lra|exact PX].
    + apply (quot 2 _ _ _ _ 1 343 NW2 NX); [apply Rmult_lt_0_compat; lra|exact PX| |lia]. change 343%nat with (202 + 141)%nat. apply range_div; assumption.
  - apply cells with 2%nat; [lia|unfold Wy; apply Rdiv_lt_0_compat; assumption|exact BY|].
    apply (quot 0 _ _ _ _ 1 241 (near_refl L) NY); [exact PL|exact PY| |lia]. change 241%nat with (100 + 141)%nat. apply range_div; assumption.
  - apply cells with 2%nat; [lia|unfold Wz; apply Rdiv_lt_0_compat; assumption|exact BZ|].
    apply (quot 0 _ _ _ _ 1 241 (near_refl L) NZ); [exact PL|exact PZ| |lia]. change 241%nat with (100 + 141)%nat. apply range_div; assumption.
Qed.

(** Gamma = 3.9, L = 59 and 690.3 m with 9 nodes: the buffer of 9 cells is shorter than
    3 Gamma L; the exact computation takes 10. *)
Lemma buffer_short : exists g g', let Gamma := 8782019273372467 / 2 ^ 51 in let Lx := 6071943013230182 / 2 ^ 43 in
  flo_geometry (Lx, 100, 100) (3%nat, 5%nat, 5%nat) 59 Gamma 0 = Ok g
  /\ make_geometry (Lx, 100, 100) (3%nat, 5%nat, 5%nat) 59 Gamma 0 = Ok g'
  /\ g_nb g = 9%Z /\ g_nb g' = 10%Z /\ IZR (g_nb g) * (Lx / 9) < 3 * Gamma * 59.
Proof.
  assert (D3 : forall x l, x <> 0 -> Reqb (x / INR (nodes l)) 0 = false).
  { intros x l H. unfold Reqb. destruct (Req_EM_T (x / INR (nodes l)) 0) as [E|_]; [|reflexivity]. exfalso. apply H.
    assert (INR (nodes l) <> 0) by (apply not_0_INR; unfold nodes; lia). apply Rmult_eq_reg_r with (/ INR (nodes l)); [|apply Rinv_neq_0_compat; assumption]. unfold Rdiv in E. lra. }
  assert (MX : moderate (6071943013230182 / 2 ^ 43)) by (apply mant_moderate; lia).
  assert (M1 : moderate 100) by (apply int_moderate; lia).
  destruct (spacing _ 3 MX ltac:(lia)) as (_ & RX & _). destruct (spacing _ 5 M1 ltac:(lia)) as (_ & RY & _).
  cbv zeta. eexists. eexists. split; [|split; [|split; [|split]]].
  - unfold flo_geometry. rewrite !Reqb_no by (apply range_pos with 141%nat; assumption). reflexivity.
  - unfold make_geometry. rewrite !D3 by lra. reflexivity.
  - cbn [g_nb]. destruct (nodes_range 3 ltac:(lia)) as [_ ->]. change (nodes 3) with 9%nat. rewrite (INR_IZR_INZ 9). simpl (Z.of_nat 9).
    assert (E1 : dbl (3 * (8782019273372467 / 2 ^ 51)) = 6586514455029350 / 2 ^ 49) by (val 6586514455029350%Z (-49)%Z).
    assert (E2 : dbl (6586514455029350 / 2 ^ 49 * 59) = 6071943013230182 / 2 ^ 43) by (val 6071943013230182%Z (-43)%Z).
    assert (E3 : dbl (6071943013230182 / 2 ^ 43 / 9) = 5397282678426828 / 2 ^ 46) by (val 5397282678426828%Z (-46)%Z).
    assert (E4 : dbl (6071943013230182 / 2 ^ 43 / (5397282678426828 / 2 ^ 46)) = 9) by (val 5066549580791808%Z (-49)%Z).
    rewrite E1, E2, E3, E4. apply ceil_int.
  - cbn [g_nb]. change (nodes 3) with 9%nat. rewrite (INR_IZR_INZ 9). simpl (Z.of_nat 9).
    match goal with |- Zceil ?x = _ => pose proof (ceil_bounds x) as [A B]; assert (C : 9 < x <= 10) by lra; set (z := Zceil x) in * end.
    assert (9 < z)%Z by (apply lt_IZR; lra). assert (z < 11)%Z by (apply lt_IZR; lra). lia.
  - cbn [g_nb]. match goal with |- IZR (Zceil ?x) * _ < _ => idtac end.
    match goal with |- IZR ?z * _ < _ => assert (Z9 : z = 9%Z) end.
    { destruct (nodes_range 3 ltac:(lia)) as [_ ->]. change (nodes 3) with 9%nat. rewrite (INR_IZR_INZ 9). simpl (Z.of_nat 9).
      assert (E1 : dbl (3 * (8782019273372467 / 2 ^ 51)) = 6586514455029350 / 2 ^ 49) by (val 6586514455029350%Z (-49)%Z).
      assert (E2 : dbl (6586514455029350 / 2 ^ 49 * 59) = 6071943013230182 / 2 ^ 43) by (val 6071943013230182%Z (-43)%Z).
      assert (E3 : dbl (6071943013230182 / 2 ^ 43 / 9) = 5397282678426828 / 2 ^ 46) by (val 5397282678426828%Z (-46)%Z).
      assert (E4 : dbl (6071943013230182 / 2 ^ 43 / (5397282678426828 / 2 ^ 46)) = 9) by (val 5066549580791808%Z (-49)%Z).
      rewrite E1, E2, E3, E4. apply ceil_int. }
    rewrite Z9. lra.
Qed.

(** Gamma = 3.5, L = 50 and 75 m with 65 nodes: 455 cells are 525 m exactly, 456 are taken. *)
Lemma buffer_long : exists g g', flo_geometry (75, 100, 100) (6%nat, 5%nat, 5%nat) 50 (7 / 2) 0 = Ok g
  /\ make_geometry (75, 100, 100) (6%nat, 5%nat, 5%nat) 50 (7 / 2) 0 = Ok g' /\ g_nb g = 456%Z /\ g_nb g' = 455%Z.
Proof.
  assert (D3 : forall x l, x <> 0 -> Reqb (x / INR (nodes l)) 0 = false).
  { intros x l H. unfold Reqb. destruct (Req_EM_T (x / INR (nodes l)) 0) as [E|_]; [|reflexivity]. exfalso. apply H.
    assert (INR (nodes l) <> 0) by (apply not_0_INR; unfold nodes; lia). apply Rmult_eq_reg_r with (/ INR (nodes l)); [|apply Rinv_neq_0_compat; assumption]. unfold Rdiv in E. lra. }
  assert (MX : moderate 75) by (apply int_moderate; lia).
  assert (M1 : moderate 100) by (apply int_moderate; lia).
  destruct (spacing _ 6 MX ltac:(lia)) as (_ & RX & _). destruct (spacing _ 5 M1 ltac:(lia)) as (_ & RY & _).
  eexists. eexists. split; [|split; [|split]].
  - unfold flo_geometry. rewrite !Reqb_no by (apply range_pos with 141%nat; assumption). reflexivity.
  - unfold make_geometry. rewrite !D3 by lra. reflexivity.
  - cbn [g_nb]. destruct (nodes_range 6 ltac:(lia)) as [_ ->]. change (nodes 6) with 65%nat. rewrite (INR_IZR_INZ 65). simpl (Z.of_nat 65).
    assert (E1 : dbl (3 * (7 / 2)) = 21 / 2) by (val 5910974510923776%Z (-49)%Z).
    assert (E2 : dbl (21 / 2 * 50) = 525) by (val 4617948836659200%Z (-43)%Z).
    assert (E3 : dbl (75 / 65) = 5196461108504418 / 2 ^ 52) by (val 5196461108504418%Z (-52)%Z).
    assert (E4 : dbl (525 / (5196461108504418 / 2 ^ 52)) = 8004444650209281 / 2 ^ 44) by (val 8004444650209281%Z (-44)%Z).
    rewrite E1, E2, E3, E4.
    match goal with |- Zceil ?x = _ => pose proof (ceil_bounds x) as [A B]; assert (C : 455 < x <= 456) by lra; set (z := Zceil x) in * end.
    assert (455 < z)%Z by (apply lt_IZR; lra). assert (z < 457)%Z by (apply lt_IZR; lra). lia.
  - cbn [g_nb]. change (nodes 6) with 65%nat. rewrite (INR_IZR_INZ 65). simpl (Z.of_nat 65).
    replace (3 * (7 / 2) * 50 / (75 / 65)) with (IZR 455) by field. apply ceil_int.
Qed.
