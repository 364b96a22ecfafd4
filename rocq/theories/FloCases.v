(** Low-frequency grids in double precision: two configurations computed to the last bit. *)

From Coq Require Import Reals List ZArith Bool Lia Lra.
From Flocq Require Import Core.
From Verif Require Import Prelude GenModel GenProofs DftModel LowModel LowProofs FloModel FloSpec FloBase FloGrid.
Import ListNotations.
Open Scope R_scope.

Local Notation Zceil := GenModel.Zceil.

(** L_2d = 16384.00000000005, factors 1155 and 35, 2048 by 64 nodes. *)
Definition wide_cfg : low_config := LowConfig 1 (4503599627370510 / 2 ^ 38) (3/4) 500 1155 35 11 6.
(** L_2d = 4096.000000000001, factors 5 and 25, 64 by 256 nodes. *)
Definition plain_cfg : low_config := LowConfig 1 (4503599627370497 / 2 ^ 40) (3/4) 500 5 25 6 8.

Lemma ceil_int : forall z, Zceil (IZR z) = z.
Proof.
  intros z. pose proof (ceil_bounds (IZR z)) as [A B]. apply le_IZR in A.
  assert (Zceil (IZR z) < z + 1)%Z by (apply lt_IZR; rewrite plus_IZR; exact B). lia.
Qed.

Ltac bp := repeat match goal with
  | |- context [bpow radix2 ?e] => let v := eval cbv in (Z.pow 2 (Z.abs e)) in
      match e with
      | Zneg _ => change (bpow radix2 e) with (/ IZR v)
      | _ => change (bpow radix2 e) with (IZR v)
      end
  end.
Ltac val m e := rewrite (dbl_val _ m e); [bp; lra|lia|cbn [Z.add Z.opp Pos.add]; simpl (_ + _)%Z; bp; lra|simpl (- _)%Z; bp; apply Rabs_def1; lra].

Lemma wide_L1 : dbl (1155 * (4503599627370510 / 2 ^ 38)) = 5079743720325136 / 2 ^ 28.
Proof. val 5079743720325136%Z (-28)%Z. Qed.

Lemma wide_L2 : dbl (35 * (4503599627370510 / 2 ^ 38)) = 4925812092436495 / 2 ^ 33.
Proof. val 4925812092436495%Z (-33)%Z. Qed.

Lemma plain_L1 : dbl (5 * (4503599627370497 / 2 ^ 40)) = 5629499534213121 / 2 ^ 38.
Proof. val 5629499534213121%Z (-38)%Z. Qed.

Lemma plain_L2 : dbl (25 * (4503599627370497 / 2 ^ 40)) = 7036874417766402 / 2 ^ 36.
Proof. val 7036874417766402%Z (-36)%Z. Qed.

Lemma mant_moderate : forall m k, (0 < m < 2 ^ 53)%Z -> (k <= 100)%nat -> moderate (IZR m / 2 ^ k).
Proof.
  intros m k HM HK. assert (P : 0 < 2 ^ k) by (apply pow_lt; lra). assert (PI0 : 0 < / 2 ^ k) by (apply Rinv_0_lt_compat; exact P).
  split; [|split].
  - unfold Rdiv. rewrite <- bpow_neg. apply is_mant; lia.
  - assert (1 <= IZR m) by (apply IZR_le; lia). pose proof (pow_inv_mono k 100 HK). unfold Rdiv. nra.
  - assert (M : IZR m <= 2 ^ 100).
    { apply Rle_trans with (2 ^ 53); [|apply Rle_pow; [lra|lia]]. replace (2 ^ 53) with (IZR (2 ^ 53)); [apply IZR_le; lia|].
      change 53%Z with (Z.of_nat 53). rewrite <- pow_IZR. reflexivity. }
    assert (/ 2 ^ k <= 1) by (replace 1 with (/ 2 ^ 0) by (rewrite pow_O; apply Rinv_1); apply pow_inv_mono; lia).
    assert (0 < IZR m) by (apply IZR_lt; lia). unfold Rdiv. nra.
Qed.

Lemma int_moderate : forall m, (0 < m < 2 ^ 53)%Z -> moderate (IZR m).
Proof. intros m H. replace (IZR m) with (IZR m / 2 ^ 0) by (rewrite pow_O; field). apply mant_moderate; [exact H|lia]. Qed.

Lemma wide_raises : flo_low_grid wide_cfg = Err RuntimeError.
Proof.
  unfold flo_low_grid, wide_cfg. cbn [lc_L lc_f1 lc_f2 lc_e1 lc_e2]. rewrite wide_L1, wide_L2, !pow_nat_exact by lia.
  assert (DX : dbl (5079743720325136 / 2 ^ 28 / 2 ^ 11) = 5079743720325136 / 2 ^ 39) by (val 5079743720325136%Z (-39)%Z).
  assert (DY : dbl (4925812092436495 / 2 ^ 33 / 2 ^ 6) = 4925812092436495 / 2 ^ 39) by (val 4925812092436495%Z (-39)%Z).
  rewrite DX, DY. unfold flo_buffer_sizes. rewrite (Rmin_right (5079743720325136 / 2 ^ 39)) by lra.
  assert (F5 : dbl (5 * (4503599627370510 / 2 ^ 38)) <= 5079743720325136 / 2 ^ 28).
  { rewrite <- wide_L1. apply dbl_le. lra. }
  rewrite (Rmax_left (5079743720325136 / 2 ^ 28)) by exact F5.
  unfold Reqb. destruct (Req_EM_T (4925812092436495 / 2 ^ 39) 0) as [E|_]; [lra|].
  assert (Q : dbl (5079743720325136 / 2 ^ 28 / (4925812092436495 / 2 ^ 39)) = IZR 2112).
  { val 4644337115725824%Z (-41)%Z. }
  rewrite Q, ceil_int. change (even_count 2112) with 2112%Z. rewrite (dbl_id (IZR 2112)) by (apply is_int; reflexivity).
  assert (C : dbl (2112 * (4925812092436495 / 2 ^ 39)) = 5079743720325135 / 2 ^ 28) by (val 5079743720325135%Z (-28)%Z).
  rewrite C.
  assert (TOL : 0 <= dbl (/ 10 ^ 9) <= 11 / 10 ^ 10).
  { pose proof u_facts as (U1 & U2 & _). assert (S : / 2 ^ 1022 <= / 10 ^ 9) by (apply Rle_trans with (/ 2 ^ 30); [apply pow_inv_mono; lia|]; apply Rle_trans with (/ 10 ^ 9); [|lra]; apply Rinv_le_contravar; lra).
    pose proof (dbl_bounds _ S) as [_ B]. split; [apply dbl_pos; lra|]. lra. }
  set (tol := dbl (/ 10 ^ 9)) in *.
  assert (A : dbl (5079743720325136 / 2 ^ 28 - tol) = 5079743720325136 / 2 ^ 28) by (val 5079743720325136%Z (-28)%Z).
  rewrite A.
  destruct (Rleb (5079743720325136 / 2 ^ 28) (5079743720325135 / 2 ^ 28)) eqn:EL; [apply Rleb_true in EL; lra|]. reflexivity.
Qed.

Lemma grid_count : forall cfg g, flo_low_grid cfg = Ok g ->
  let L1 := dbl (lc_f1 cfg * lc_L cfg) in let L2 := dbl (lc_f2 cfg * lc_L cfg) in
  let d := Rmin (dbl (L1 / dbl (INR (2 ^ lc_e1 cfg)))) (dbl (L2 / dbl (INR (2 ^ lc_e2 cfg)))) in
  lg_cN2 g = Z.to_nat (even_count (Zceil (dbl (Rmax L2 (dbl (5 * lc_L cfg)) / d)))).
Proof.
  intros cfg g H. cbv zeta. unfold flo_low_grid, flo_buffer_sizes in H.
  destruct (Reqb _ 0); [discriminate|]. destruct (_ && _)%bool; [|discriminate]. cbn [bind] in H.
  destruct (_ || _)%bool; [discriminate|]. destruct (flo_isclose _ _); [|discriminate]. injection H as <-. reflexivity.
Qed.

Lemma plain_hyps : moderate (lc_L plain_cfg) /\ moderate (lc_f1 plain_cfg) /\ moderate (lc_f2 plain_cfg)
  /\ (lc_e1 plain_cfg <= 40)%nat /\ (lc_e2 plain_cfg <= 40)%nat
  /\ let t1 := Rmax (lc_f1 plain_cfg) 5 * lc_L plain_cfg in let t2 := Rmax (lc_f2 plain_cfg) 5 * lc_L plain_cfg in
     let D := Rmin (lc_f1 plain_cfg * lc_L plain_cfg / 2 ^ lc_e1 plain_cfg) (lc_f2 plain_cfg * lc_L plain_cfg / 2 ^ lc_e2 plain_cfg) in
     t1 <= 2 ^ 23 /\ t2 <= 2 ^ 23 /\ t1 <= 2 ^ 49 * D /\ t2 <= 2 ^ 49 * D.
Proof.
  unfold plain_cfg. cbn [lc_L lc_f1 lc_f2 lc_e1 lc_e2]. split; [apply mant_moderate; lia|]. split; [apply int_moderate; lia|]. split; [apply int_moderate; lia|].
  split; [lia|]. split; [lia|]. cbv zeta. rewrite (Rmax_left 25) by lra. rewrite (Rmax_left 5) by lra. rewrite Rmin_left by lra. repeat split; lra.
Qed.

(** The exact computation gives 64 by 320 nodes, the one in double precision 322. *)
Lemma plain_count : exists g g', flo_low_grid plain_cfg = Ok g /\ make_low_grid plain_cfg = Ok g' /\ lg_cN2 g = 322%nat /\ lg_cN2 g' = 320%nat.
Proof.
  destruct plain_hyps as (ML & M1 & M2 & E1 & E2 & T1 & T2 & Q1 & Q2).
  destruct (flo_grid plain_cfg ML M1 M2 E1 E2 T1 T2 Q1 Q2) as (g & HG & _). exists g.
  assert (HE : exists g', make_low_grid plain_cfg = Ok g' /\ lg_cN2 g' = 320%nat).
  { unfold make_low_grid, plain_cfg, buffer_sizes. cbn [lc_L lc_f1 lc_f2 lc_e1 lc_e2].
    rewrite !INR_pow2. rewrite (Rmin_left (5 * _ / _)) by lra. rewrite !Rmax_left by lra.
    unfold Reqb at 1. destruct (Req_EM_T (5 * (4503599627370497 / 2 ^ 40) / 2 ^ 6) 0) as [E|_]; [lra|].
    replace (5 * (4503599627370497 / 2 ^ 40) / (5 * (4503599627370497 / 2 ^ 40) / 2 ^ 6)) with (IZR 64) by (field; lra).
    replace (25 * (4503599627370497 / 2 ^ 40) / (5 * (4503599627370497 / 2 ^ 40) / 2 ^ 6)) with (IZR 320) by (field; lra).
    rewrite !ceil_int. change (even_count 64) with 64%Z. change (even_count 320) with 320%Z.
    replace (Rleb (5 * (4503599627370497 / 2 ^ 40) - / 10 ^ 9) (64 * (5 * (4503599627370497 / 2 ^ 40) / 2 ^ 6))) with true by (symmetry; apply Rleb_true; lra).
    replace (Rleb (25 * (4503599627370497 / 2 ^ 40) - / 10 ^ 9) (320 * (5 * (4503599627370497 / 2 ^ 40) / 2 ^ 6))) with true by (symmetry; apply Rleb_true; lra).
    cbn [andb bind Z.eqb orb]. unfold isclose.
    match goal with |- context [Rleb ?a ?b] => replace (Rleb a b) with true end; [eexists; split; reflexivity|].
    symmetry. apply Rleb_true. match goal with |- Rabs ?x <= _ => replace x with 0 by lra end. rewrite Rabs_R0.
    pose proof (Rabs_pos (320 * (5 * (4503599627370497 / 2 ^ 40) / 2 ^ 6) / 320)). assert (0 < / 10 ^ 5) by lra. assert (0 < / 10 ^ 8) by lra. nra. }
  destruct HE as (g' & HG' & C'). exists g'. split; [exact HG|]. split; [exact HG'|]. split; [|exact C'].
  rewrite (grid_count _ _ HG). unfold plain_cfg. cbn [lc_L lc_f1 lc_f2 lc_e1 lc_e2]. rewrite plain_L1, plain_L2, !pow_nat_exact by lia.
  assert (DX : dbl (5629499534213121 / 2 ^ 38 / 2 ^ 6) = 5629499534213121 / 2 ^ 44) by (val 5629499534213121%Z (-44)%Z).
  assert (DY : dbl (7036874417766402 / 2 ^ 36 / 2 ^ 8) = 7036874417766402 / 2 ^ 44) by (val 7036874417766402%Z (-44)%Z).
  rewrite DX, DY. rewrite Rmin_left by lra. rewrite Rmax_left by lra.
  assert (Q : dbl (7036874417766402 / 2 ^ 36 / (5629499534213121 / 2 ^ 44)) = 5629499534213121 / 2 ^ 44) by (val 5629499534213121%Z (-44)%Z).
  rewrite Q. set (x := 5629499534213121 / 2 ^ 44).
  assert (Z321 : Zceil x = 321%Z).
  { pose proof (ceil_bounds x) as [A B]. assert (320 < x <= 321) by (unfold x; lra).
    assert (320 < Zceil x)%Z by (apply lt_IZR; lra). assert (Zceil x < 322)%Z by (apply lt_IZR; lra). lia. }
  rewrite Z321. reflexivity.
Qed.
