(** Positions, heights and wind profiles in double precision. *)

From Coq Require Import Reals List ZArith Bool Lia Lra.
From Flocq Require Import Core.
From Verif Require Import Prelude GenModel GenProofs DftModel LowModel FloModel FloSpec FloBase FloGrid FloErr FloWave.
Import ListNotations.
Open Scope R_scope.

Local Notation Zceil := GenModel.Zceil.

Lemma near_abs : forall k x y e, 0 <= e -> 0 < x -> near k x y -> oneup ^ k <= 1 + e -> e <= 1 -> Rabs (y - x) <= e * x.
Proof.
  intros k x y e He Hx N Hk H1. pose proof (near_pos _ _ _ N Hx) as Hy. destruct N as [A B]. apply Rabs_le. split.
  - assert (x <= y * (1 + e)) by (apply Rle_trans with (1 := A); apply Rmult_le_compat_l; lra). assert (x * (1 - e) <= y * (1 + e) * (1 - e)) by (apply Rmult_le_compat_r; lra). nra.
  - assert (y <= x * (1 + e)) by (apply Rle_trans with (1 := B); apply Rmult_le_compat_l; lra). lra.
Qed.

Lemma dbl_err : forall x, / 2 ^ 1022 <= x \/ x = 0 -> Rabs (dbl x - x) <= uro * x.
Proof.
  intros x [H| ->].
  - pose proof (dbl_bounds x H). apply Rabs_le. lra.
  - rewrite dbl_0, Rminus_0_r, Rabs_R0. lra.
Qed.

Lemma nth_map_seq : forall (f : nat -> R) n p, (p < n)%nat -> nth p (map f (seq 0 n)) 0 = f p.
Proof.
  intros f n p Hp. rewrite (nth_indep _ 0 (f 0%nat)) by (rewrite map_length, seq_length; exact Hp). rewrite map_nth, seq_nth by exact Hp. reflexivity.
Qed.

Lemma grow : forall a b c, 0 < c -> 1 <= a -> c <= b -> c <= a * b.
Proof. intros a b c H A B. nra. Qed.

Lemma shrink : forall t d b, 0 <= t <= 1 -> 0 <= d -> d <= b -> t * d <= b.
Proof. intros t d b H A B. nra. Qed.

Section Block.
Variables (Lx : R) (Nx nx i : nat).
Hypothesis ML : moderate Lx.
Hypothesis Hnx : (1 <= nx <= Nx)%nat.
Hypothesis HB : INR (S i) * INR Nx <= 2 ^ 47.

Let S0 := INR (S i) * Lx.
Let X (p : nat) := INR i * Lx + INR p * (Lx / INR Nx).

Lemma Nx_big : 1 <= INR nx <= INR Nx /\ 1 <= INR (S i) /\ INR Nx <= 2 ^ 47 /\ INR (S i) <= 2 ^ 47.
Proof.
  assert (A : 1 <= INR nx) by (change 1 with (INR 1); apply le_INR; lia). assert (B : INR nx <= INR Nx) by (apply le_INR; lia).
  assert (C : 1 <= INR (S i)) by (change 1 with (INR 1) at 1; apply le_INR; lia). repeat split; try lra; try exact A; try exact B; nra.
Qed.

Lemma pow_nat_le : forall n k, INR n <= 2 ^ k -> (n <= 2 ^ k)%nat.
Proof. intros n k H. apply INR_le. rewrite INR_pow2. exact H. Qed.

Lemma block_pos : forall p, (p < nx)%nat -> Rabs (nth p (flo_block_x Lx Nx nx i) 0 - X p) <= / 2 ^ 49 * S0.
Proof.
  intros p Hp. destruct Nx_big as ([A1 A2] & A3 & A4 & A5). pose proof u_facts as (U1 & U2 & U3).
  pose proof (range_moderate _ ML) as RL. pose proof (range_pos _ _ RL) as PL.
  assert (B1 : (Nx <= 2 ^ 47)%nat) by (apply pow_nat_le; exact A4). assert (B2 : (S i <= 2 ^ 47)%nat) by (apply pow_nat_le; exact A5).
  unfold flo_block_x, flo_linspace. rewrite (dbl_nat nx 47), (dbl_nat Nx 47), (dbl_nat i 47) by lia.
  rewrite nth_map_seq by exact Hp.
  assert (RNx : range 47 (INR Nx)) by (apply range_nat; lia). assert (Rnx : range 47 (INR nx)) by (apply range_nat; lia).
  (* block length *)
  set (len := Lx * (INR nx / INR Nx)).
  assert (R1 : range 94 (INR nx / INR Nx)) by (change 94%nat with (47 + 47)%nat; apply range_div; assumption).
  assert (R2 : range 194 (Lx * dbl (INR nx / INR Nx))) by (change 194%nat with (100 + 94)%nat; apply range_mul; [exact RL|apply range_dbl; [lia|exact R1]]).
  assert (Plen : 0 < len) by (unfold len; apply Rmult_lt_0_compat; [exact PL|apply range_pos with 94%nat; exact R1]).
  assert (N1 : near 2 len (dbl (Lx * dbl (INR nx / INR Nx)))).
  { apply (prod 0 _ _ _ _ 1 194 (near_refl Lx)); [apply near_dbl_one, range_low with 94%nat; [lia|exact R1]|exact PL|apply range_pos with 94%nat; exact R1|exact R2|lia]. }
  set (bl := dbl (Lx * dbl (INR nx / INR Nx))) in *.
  assert (E1 : Rabs (bl - len) <= 5 * uro * len).
  { apply near_abs with 2%nat; [lra|exact Plen|exact N1| |lra]. apply Rle_trans with (1 := oneup_small 2 ltac:(lia)). simpl (INR 2). lra. }
  assert (LEN : len * INR Nx = Lx * INR nx) by (unfold len; field; lra).
  assert (LL : len <= Lx) by (apply Rmult_le_reg_r with (INR Nx); [lra|rewrite LEN; apply Rmult_le_compat_l; lra]).
  assert (LN : len / INR nx = Lx / INR Nx) by (unfold len; field; split; lra).
  (* start *)
  assert (E2 : Rabs (dbl (INR i * Lx) - INR i * Lx) <= uro * (INR i * Lx)).
  { apply dbl_err. destruct (Nat.eq_dec i 0) as [->|Hi]; [right; simpl; ring|left].
    apply range_low with 147%nat; [lia|]. change 147%nat with (47 + 100)%nat. apply range_mul; [apply range_nat; lia|exact RL]. }
  assert (x0p : 0 <= INR i * Lx) by (apply Rmult_le_pos; [apply pos_INR|lra]).
  assert (x0d : 0 <= dbl (INR i * Lx)) by (apply dbl_pos; exact x0p).
  set (x0 := dbl (INR i * Lx)) in *. apply Rabs_le_inv in E1. apply Rabs_le_inv in E2.
  assert (SE : S0 = INR i * Lx + Lx) by (unfold S0; rewrite S_INR; ring).
  set (w := INR i * Lx) in *.
  (* small quantities *)
  assert (PS : 0 < S0) by lra.
  assert (US : uro * S0 * INR nx <= len * / 2 ^ 6).
  { apply Rmult_le_reg_r with (INR Nx); [lra|].
    replace (uro * S0 * INR nx * INR Nx) with (Lx * INR nx * (uro * (INR (S i) * INR Nx))) by (unfold S0; ring).
    replace (len * / 2 ^ 6 * INR Nx) with (len * INR Nx * / 2 ^ 6) by ring. rewrite LEN.
    apply Rmult_le_compat_l; [apply Rmult_le_pos; lra|]. apply Rle_trans with (uro * 2 ^ 47); [apply Rmult_le_compat_l; lra|].
    apply Rmult_le_reg_r with (2 ^ 6); [lra|]. replace (uro * 2 ^ 47 * 2 ^ 6) with (uro * 2 ^ 53) by (rewrite Rmult_assoc, <- pow_add; reflexivity). lra. }
  assert (US1 : uro * S0 <= len * / 2 ^ 6) by (apply Rle_trans with (2 := US); rewrite <- (Rmult_1_r (uro * S0)) at 1; apply Rmult_le_compat_l; [nra|lra]).
  assert (ULw : uro * w <= uro * S0) by (apply Rmult_le_compat_l; lra).
  assert (ULl : uro * len <= uro * S0) by (apply Rmult_le_compat_l; lra).
  assert (UU : uro * (uro * S0) <= / 10 ^ 15 * (uro * S0)) by (apply Rmult_le_compat_r; [nra|lra]).
  assert (LEN200 : / 2 ^ 200 <= len).
  { assert (R3 : range 194 len) by (unfold len; change 194%nat with (100 + 94)%nat; apply range_mul; assumption). destruct R3 as [R3 _]. pose proof (pow_inv_mono 194 200 ltac:(lia)). lra. }
  assert (P200 : 0 < / 2 ^ 200) by (apply Rinv_0_lt_compat, pow_lt; lra).
  assert (P210 : / 2 ^ 210 = / 2 ^ 200 * / 2 ^ 10) by (rewrite <- Rinv_mult, <- pow_add; reflexivity).
  assert (P300 : / 2 ^ 300 = / 2 ^ 200 * (/ 2 ^ 47 * / 2 ^ 53)) by (rewrite <- !Rinv_mult, <- !pow_add; reflexivity).
  (* end of the block *)
  assert (Q1 : / 2 ^ 1022 <= x0 + bl).
  { apply Rle_trans with (/ 2 ^ 210); [apply pow_inv_mono; lia|]. rewrite P210. lra. }
  assert (E3 : Rabs (dbl (x0 + bl) - (x0 + bl)) <= uro * (x0 + bl)) by (apply dbl_err; left; exact Q1).
  apply Rabs_le_inv in E3. set (xe := dbl (x0 + bl)) in *.
  assert (XB : uro * (x0 + bl) <= uro * S0 * (1 + / 10 ^ 10)).
  { assert (x0 + bl <= S0 + 6 * (uro * S0)) by lra. assert (uro * (x0 + bl) <= uro * (S0 + 6 * (uro * S0))) by (apply Rmult_le_compat_l; lra). lra. }
  assert (D1 : Rabs (xe - x0 - len) <= 7 * (uro * S0)) by (apply Rabs_le; lra). apply Rabs_le_inv in D1.
  assert (LP : len * / 2 <= xe - x0 <= 2 * len) by lra.
  assert (Q2 : / 2 ^ 1022 <= xe - x0) by (apply Rle_trans with (/ 2 ^ 210); [apply pow_inv_mono; lia|]; rewrite P210; lra).
  pose proof (dbl_err (xe - x0) (or_introl Q2)) as E4. apply Rabs_le_inv in E4. set (df := dbl (xe - x0)) in *.
  assert (UD : uro * (xe - x0) <= 2 * (uro * len)) by (replace (2 * (uro * len)) with (uro * (2 * len)) by ring; apply Rmult_le_compat_l; lra).
  assert (UD2 : uro * (xe - x0) <= uro * S0 + 7 * (uro * (uro * S0))).
  { replace (uro * S0 + 7 * (uro * (uro * S0))) with (uro * (S0 + 7 * (uro * S0))) by ring. apply Rmult_le_compat_l; lra. }
  assert (D2 : Rabs (df - len) <= (8 + / 10 ^ 10) * (uro * S0)) by (apply Rabs_le; lra). apply Rabs_le_inv in D2.
  assert (DP : len * / 2 <= df <= 2 * len) by lra.
  (* step *)
  assert (NI : 0 < / INR nx <= 1) by (split; [apply Rinv_0_lt_compat; lra|rewrite <- Rinv_1; apply Rinv_le_contravar; lra]).
  assert (Q3 : / 2 ^ 1022 <= df / INR nx).
  { apply Rle_trans with (/ 2 ^ 300); [apply pow_inv_mono; lia|]. rewrite P300. unfold Rdiv.
    assert (/ 2 ^ 47 <= / INR nx) by (apply Rinv_le_contravar; lra).
    apply Rle_trans with (/ 2 ^ 200 * / 2 * / 2 ^ 47); [|apply Rmult_le_compat; lra].
    assert (0 < / 2 ^ 200 * / 2 ^ 47) by (apply Rmult_lt_0_compat; [lra|apply Rinv_0_lt_compat, pow_lt; lra]).
    replace (/ 2 ^ 200 * / 2 * / 2 ^ 47) with (/ 2 ^ 200 * / 2 ^ 47 * / 2) by ring. rewrite <- Rmult_assoc. apply Rmult_le_compat_l; lra. }
  pose proof (dbl_err _ (or_introl Q3)) as E5. apply Rabs_le_inv in E5. set (st := dbl (df / INR nx)) in *.
  assert (STP : 0 < df / INR nx) by (apply Rdiv_lt_0_compat; lra).
  assert (Q3' : / 2 ^ 1022 <= st).
  { unfold st. apply dbl_low; [apply is_inv_pow; lia|exact Q3]. }
  (* displacement *)
  assert (P0 : 0 <= INR p) by apply pos_INR. assert (P1 : INR p + 1 <= INR nx) by (change 1 with (INR 1); rewrite <- plus_INR; apply le_INR; lia).
  assert (E6 : Rabs (dbl (INR p * st) - INR p * st) <= uro * (INR p * st)).
  { apply dbl_err. destruct (Nat.eq_dec p 0) as [->|Hp0]; [right; simpl; ring|left].
    assert (1 <= INR p) by (change 1 with (INR 1); apply le_INR; lia). apply grow; [apply Rinv_0_lt_compat, pow_lt; lra|assumption|exact Q3']. }
  apply Rabs_le_inv in E6.
  set (t := INR p / INR nx). assert (T0 : 0 <= t) by (unfold t, Rdiv; apply Rmult_le_pos; lra).
  assert (T1 : t <= 1) by (unfold t; apply Rmult_le_reg_r with (INR nx); [lra|]; unfold Rdiv; rewrite Rmult_assoc, Rinv_l by lra; lra).
  assert (TD : INR p * (df / INR nx) = t * df) by (unfold t, Rdiv; ring).
  assert (TL : INR p * (Lx / INR Nx) = t * len) by (rewrite <- LN; unfold t, Rdiv; ring).
  assert (G1 : Rabs (INR p * st - t * df) <= uro * (t * df)).
  { rewrite <- TD. apply Rabs_le. assert (INR p * (st - df / INR nx) <= INR p * (uro * (df / INR nx))) by (apply Rmult_le_compat_l; lra).
    assert (INR p * (- (uro * (df / INR nx))) <= INR p * (st - df / INR nx)) by (apply Rmult_le_compat_l; lra). lra. }
  apply Rabs_le_inv in G1.
  assert (TDP : 0 <= t * df <= 2 * len) by (split; [apply Rmult_le_pos; lra|apply Rle_trans with (1 * df); [apply Rmult_le_compat_r; lra|lra]]).
  assert (TD2 : t * df <= df) by (rewrite <- (Rmult_1_l df) at 2; apply Rmult_le_compat_r; lra).
  assert (UDF : uro * df <= uro * S0 * (1 + / 10 ^ 10)).
  { assert (uro * df <= uro * (S0 + 9 * (uro * S0))) by (apply Rmult_le_compat_l; lra). lra. }
  assert (UTD : uro * (t * df) <= uro * S0 * (1 + / 10 ^ 10)) by (apply Rle_trans with (2 := UDF); apply Rmult_le_compat_l; lra).
  assert (G2 : Rabs (t * df - t * len) <= (8 + / 10 ^ 10) * (uro * S0)).
  { replace (t * df - t * len) with (t * (df - len)) by ring. rewrite Rabs_mult, (Rabs_right t) by lra.
    assert (Rabs (df - len) <= (8 + / 10 ^ 10) * (uro * S0)) by (apply Rabs_le; lra). apply shrink; [split; assumption|apply Rabs_pos|assumption]. }
  apply Rabs_le_inv in G2.
  assert (PST : 0 <= INR p * st) by (apply Rmult_le_pos; [exact P0|]; pose proof uro_pos; assert (0 < / 2 ^ 1022) by (apply Rinv_0_lt_compat, pow_lt; lra); lra).
  assert (UPS : uro * (INR p * st) <= uro * S0 * (1 + / 10 ^ 9)).
  { assert (uro * (INR p * st) <= uro * (t * df + uro * (t * df))) by (apply Rmult_le_compat_l; lra).
    assert (uro * (uro * (t * df)) <= uro * (uro * S0 * (1 + / 10 ^ 10))) by (apply Rmult_le_compat_l; lra). lra. }
  set (ds := dbl (INR p * st)) in *.
  assert (DS : Rabs (ds - t * len) <= (10 + / 10 ^ 8) * (uro * S0)) by (apply Rabs_le; lra). apply Rabs_le_inv in DS.
  (* position *)
  assert (DSP : 0 <= ds) by (apply dbl_pos; exact PST).
  assert (TLL : t * len <= Lx) by (apply Rle_trans with (1 * len); [apply Rmult_le_compat_r; lra|lra]).
  assert (E7 : Rabs (dbl (ds + x0) - (ds + x0)) <= uro * (ds + x0)).
  { apply dbl_err. destruct (Nat.eq_dec p 0) as [Ep|Hp0].
    - assert (ds = 0) as -> by (unfold ds; rewrite Ep; simpl (INR 0); rewrite Rmult_0_l; apply dbl_0).
      destruct (Nat.eq_dec i 0) as [Ei|Hi]; [right; unfold x0, w; rewrite Ei; simpl (INR 0); rewrite Rmult_0_l, dbl_0; ring|left].
      rewrite Rplus_0_l. apply range_low with 147%nat; [lia|]. apply range_dbl; [lia|]. change 147%nat with (47 + 100)%nat. apply range_mul; [apply range_nat; lia|exact RL].
    - left. assert (1 <= INR p) by (change 1 with (INR 1); apply le_INR; lia). assert (0 < / 2 ^ 1022) by (apply Rinv_0_lt_compat, pow_lt; lra).
      assert (/ 2 ^ 1022 <= ds) by (unfold ds; apply dbl_low; [apply is_inv_pow; lia|apply grow; assumption]). lra. }
  apply Rabs_le_inv in E7. unfold X. fold w. rewrite TL.
  assert (UF : uro * (ds + x0) <= uro * S0 * (1 + / 10 ^ 9)).
  { assert (uro * (ds + x0) <= uro * (S0 + 12 * (uro * S0))) by (apply Rmult_le_compat_l; lra). lra. }
  assert (E49 : / 2 ^ 49 = 16 * uro) by (apply Rmult_eq_reg_r with (2 ^ 53); [|apply pow_nonzero; lra]; replace (16 * uro * 2 ^ 53) with (16 * (uro * 2 ^ 53)) by ring; rewrite U3; lra).
  rewrite E49. apply Rabs_le. lra.
Qed.
End Block.

Lemma block_increasing : forall Lx Nx nx i j p q, moderate Lx -> (1 <= nx <= Nx)%nat ->
  INR (S i) * INR Nx <= 2 ^ 47 -> INR (S j) * INR Nx <= 2 ^ 47 -> (p < nx)%nat -> (q < nx)%nat ->
  ((i < j)%nat \/ (i = j /\ (p < q)%nat)) ->
  nth p (flo_block_x Lx Nx nx i) 0 < nth q (flo_block_x Lx Nx nx j) 0.
Proof.
  intros Lx Nx nx i j p q ML Hn Hi Hj Hp Hq H.
  pose proof (block_pos Lx Nx nx i ML Hn Hi p Hp) as A. pose proof (block_pos Lx Nx nx j ML Hn Hj q Hq) as B. cbv zeta in A, B. apply Rabs_le_inv in A. apply Rabs_le_inv in B.
  pose proof (range_pos _ _ (range_moderate _ ML)) as PL.
  assert (N1 : 1 <= INR Nx) by (change 1 with (INR 1); apply le_INR; lia).
  set (h := Lx / INR Nx) in *. assert (Ph : 0 < h) by (apply Rdiv_lt_0_compat; lra). assert (EL : Lx = INR Nx * h) by (unfold h; field; lra).
  assert (SM : forall k, INR (S k) * INR Nx <= 2 ^ 47 -> / 2 ^ 49 * (INR (S k) * Lx) <= h * / 4).
  { intros k Hk. rewrite EL. replace (/ 2 ^ 49 * (INR (S k) * (INR Nx * h))) with (INR (S k) * INR Nx * (/ 2 ^ 49 * h)) by ring.
    apply Rle_trans with (2 ^ 47 * (/ 2 ^ 49 * h)); [apply Rmult_le_compat_r; [|exact Hk]|lra]. apply Rmult_le_pos; [left; apply Rinv_0_lt_compat, pow_lt; lra|lra]. }
  pose proof (SM i Hi) as SI. pose proof (SM j Hj) as SJ.
  assert (G : INR i * Lx + INR p * h + h <= INR j * Lx + INR q * h).
  { rewrite EL. replace (INR i * (INR Nx * h) + INR p * h + h) with ((INR i * INR Nx + INR p + 1) * h) by ring.
    replace (INR j * (INR Nx * h) + INR q * h) with ((INR j * INR Nx + INR q) * h) by ring. apply Rmult_le_compat_r; [lra|].
    rewrite <- !mult_INR, <- !plus_INR. change 1 with (INR 1). rewrite <- plus_INR. apply le_INR. destruct H as [H|[-> H]]; [nia|lia]. }
  lra.
Qed.

(** ** Heights *)

Section Heights.
Variables (Lz : R) (level : nat).
Hypothesis ML : moderate Lz.
Hypothesis HL : (level <= 40)%nat.

Let n := (2 ^ level)%nat.
Let h := Lz / 2 ^ level.

Lemma height_at : forall q, (q <= n)%nat -> near 1 (INR q * h) (nth q (flo_heights Lz level) 0) /\ nth 0 (flo_heights Lz level) 0 = 0 /\ nth n (flo_heights Lz level) 0 = Lz.
Proof.
  pose proof (range_moderate _ ML) as RL. pose proof (range_pos _ _ RL) as PL.
  assert (RN : range 40 (2 ^ level)) by (rewrite <- INR_pow2; apply range_nat; [|apply Nat.pow_le_mono_r; lia]; assert (2 ^ level <> 0)%nat by (apply Nat.pow_nonzero; lia); lia).
  pose proof (range_div _ _ _ _ RL RN) as RH. cbn [Nat.add] in RH. fold h in RH.
  assert (EH : dbl (Lz / dbl (INR (2 ^ level))) = h).
  { rewrite pow_nat_exact by exact HL. apply dbl_id. destruct ML as [MD _]. apply is_scaled; [exact MD|]. rewrite Rabs_right by lra. apply range_low with 140%nat; [lia|exact RH]. }
  assert (N0 : (0 < n)%nat) by (assert (2 ^ level <> 0)%nat by (apply Nat.pow_nonzero; lia); unfold n; lia).
  assert (E0 : forall q, (q < n)%nat -> nth q (flo_heights Lz level) 0 = dbl (INR q * h)).
  { intros q Hq. unfold flo_heights. rewrite EH. rewrite app_nth1 by (rewrite map_length, seq_length; exact Hq).
    exact (nth_map_seq (fun i => dbl (INR i * h)) _ q Hq). }
  assert (EN : nth n (flo_heights Lz level) 0 = Lz).
  { unfold flo_heights. rewrite app_nth2; rewrite map_length, seq_length; [|unfold n; lia]. unfold n. rewrite Nat.sub_diag. reflexivity. }
  intros q Hq. split; [|split; [|exact EN]].
  - destruct (Nat.eq_dec q n) as [->|Hn].
    + rewrite EN. assert (EX : INR n * h = Lz) by (unfold n, h; rewrite INR_pow2; field; apply pow_nonzero; lra). rewrite EX.
      apply near_up with 0%nat; [lia|exact PL|apply near_refl].
    + rewrite E0 by lia. destruct (Nat.eq_dec q 0) as [->|H0].
      * simpl (INR 0). rewrite Rmult_0_l, dbl_0. split; lra.
      * apply near_dbl_one. apply range_low with 180%nat; [lia|]. change 180%nat with (40 + 140)%nat. apply range_mul; [apply range_nat; [lia|]|exact RH].
        apply Nat.le_trans with (1 := Hq). apply Nat.pow_le_mono_r; lia.
  - rewrite E0 by exact N0. simpl (INR 0). rewrite Rmult_0_l. apply dbl_0.
Qed.

Lemma heights_close : forall q, (q <= n)%nat -> Rabs (nth q (flo_heights Lz level) 0 - INR q * (Lz / INR n)) <= INR q * (Lz / INR n) * / 2 ^ 49.
Proof.
  intros q Hq. unfold n at 1 2. rewrite INR_pow2. fold h. destruct (height_at q Hq) as [N [Z _]].
  pose proof (range_pos _ _ (range_moderate _ ML)) as PL. assert (Ph : 0 < h) by (unfold h; apply Rdiv_lt_0_compat; [lra|apply pow_lt; lra]).
  destruct (Nat.eq_dec q 0) as [->|H0].
  - rewrite Z. simpl (INR 0). rewrite !Rmult_0_l, Rminus_0_r, Rabs_R0. lra.
  - assert (1 <= INR q) by (change 1 with (INR 1); apply le_INR; lia). assert (P : 0 < INR q * h) by nra.
    pose proof (near_bounds 1 _ _ ltac:(lia) P N) as B. apply Rabs_le. lra.
Qed.

Lemma heights_increasing : forall p q, (p < q <= n)%nat -> nth p (flo_heights Lz level) 0 < nth q (flo_heights Lz level) 0.
Proof.
  intros p q H. pose proof (heights_close p ltac:(lia)) as A. pose proof (heights_close q ltac:(lia)) as B. apply Rabs_le_inv in A. apply Rabs_le_inv in B.
  pose proof (range_pos _ _ (range_moderate _ ML)) as PL. assert (N0 : 0 < INR n) by (unfold n; rewrite INR_pow2; apply pow_lt; lra).
  set (k := Lz / INR n) in *. assert (Pk : 0 < k) by (apply Rdiv_lt_0_compat; lra).
  assert (Q40 : INR q <= 2 ^ 40). { rewrite <- INR_pow2. apply le_INR. apply Nat.le_trans with n; [lia|]. apply Nat.pow_le_mono_r; lia. }
  assert (PQ : INR p + 1 <= INR q) by (change 1 with (INR 1); rewrite <- plus_INR; apply le_INR; lia). pose proof (pos_INR p) as P0.
  assert (T : forall x, 0 <= x -> x <= 2 ^ 40 -> x * k * / 2 ^ 49 <= k * / 4).
  { intros x X0 X1. replace (x * k * / 2 ^ 49) with (k * (x * / 2 ^ 49)) by ring. apply Rmult_le_compat_l; [lra|]. apply Rle_trans with (2 ^ 40 * / 2 ^ 49); [apply Rmult_le_compat_r; [left; apply Rinv_0_lt_compat, pow_lt; lra|exact X1]|lra]. }
  pose proof (T (INR p) ltac:(lra) ltac:(lra)) as T1. pose proof (T (INR q) ltac:(lra) ltac:(lra)) as T2.
  assert ((INR p + 1) * k <= INR q * k) by (apply Rmult_le_compat_r; lra). lra.
Qed.
End Heights.

(** ** Wind profiles *)

Lemma power_reference : forall powf zref uref a, zref <> 0 -> is_dbl uref -> powf 1 a = 1 -> flo_power_law powf zref uref a zref = uref.
Proof.
  intros powf zref uref a Hz Hu HP. unfold flo_power_law. unfold Rdiv. rewrite Rinv_r by exact Hz.
  rewrite (dbl_id 1) by (change 1 with (INR 1); apply is_nat; pose proof (Nat.pow_le_mono_r 2 0 52 ltac:(lia) ltac:(lia)); rewrite Nat.pow_0_r in *; lia).
  rewrite HP, Rmult_1_r. apply dbl_id. exact Hu.
Qed.

Lemma power_ground : forall powf zref uref a, powf 0 a = 0 -> flo_power_law powf zref uref a 0 = 0.
Proof. intros powf zref uref a HP. unfold flo_power_law, Rdiv. rewrite Rmult_0_l, dbl_0, HP, Rmult_0_r. apply dbl_0. Qed.

Lemma power_increasing : forall powf zref uref a, 0 < zref -> 0 <= uref ->
  (forall x y, 0 <= x <= y -> powf x a <= powf y a) ->
  forall z z', 0 <= z <= z' -> flo_power_law powf zref uref a z <= flo_power_law powf zref uref a z'.
Proof.
  intros powf zref uref a Hz Hu HP z z' H. unfold flo_power_law. apply dbl_le, Rmult_le_compat_l; [exact Hu|]. apply HP.
  assert (0 < / zref) by (apply Rinv_0_lt_compat; exact Hz). split; [apply dbl_pos; unfold Rdiv; nra|apply dbl_le; unfold Rdiv; apply Rmult_le_compat_r; lra].
Qed.

Lemma log_ground : forall logf z0 zref uref, logf 1 = 0 -> flo_log_law logf z0 zref uref 0 = 0.
Proof.
  intros logf z0 zref uref HL. unfold flo_log_law. replace (0 / z0) with 0 by (unfold Rdiv; ring). rewrite dbl_0, Rplus_0_l.
  rewrite (dbl_id 1) by (change 1 with (INR 1); apply is_nat; pose proof (Nat.pow_le_mono_r 2 0 52 ltac:(lia) ltac:(lia)); rewrite Nat.pow_0_r in *; lia).
  rewrite HL, Rmult_0_r, dbl_0. unfold Rdiv. rewrite Rmult_0_l. apply dbl_0.
Qed.

Lemma log_increasing : forall logf z0 zref uref, 0 < z0 -> 0 <= uref -> 0 < logf (dbl (zref / z0)) ->
  (forall x y, 1 <= x <= y -> logf x <= logf y) ->
  forall z z', 0 <= z <= z' -> flo_log_law logf z0 zref uref z <= flo_log_law logf z0 zref uref z'.
Proof.
  intros logf z0 zref uref Hz Hu HR HL z z' H. unfold flo_log_law. assert (0 < / z0) by (apply Rinv_0_lt_compat; exact Hz).
  apply dbl_le. unfold Rdiv at 1 3. apply Rmult_le_compat_r; [left; apply Rinv_0_lt_compat; exact HR|]. apply dbl_le, Rmult_le_compat_l; [exact Hu|]. apply HL.
  assert (P : 0 <= dbl (z / z0)) by (apply dbl_pos; unfold Rdiv; nra).
  split; [|apply dbl_le, Rplus_le_compat_r, dbl_le; unfold Rdiv; apply Rmult_le_compat_r; lra].
  apply dbl_low; [change 1 with (INR 1); apply is_nat; pose proof (Nat.pow_le_mono_r 2 0 52 ltac:(lia) ltac:(lia)); rewrite Nat.pow_0_r in *; lia|lra].
Qed.
