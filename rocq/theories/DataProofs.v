(** Lemmas about generated data, data files and domain parameters. *)

From Coq Require Import String Reals Lra Lia List ZArith Bool.
From Coquelicot Require Import Coquelicot.
From Coq Require Import List.
From Verif Require Import Prelude RdtModel SpectraModel SpectraProofs OpsModel OpsSpec OpsProofs OpsMore
  LossModel LossSpec LossProofs LossMore CalModel CalSpec CalProofs CalMore DataModel DataSpec.
Import ListNotations.
Open Scope R_scope.

Lemma Fin_inj : forall a b, Fin a = Fin b -> a = b.
Proof. intros a b H. congruence. Qed.

Lemma xdiv_fin : forall a b, b <> 0 -> xdiv (Fin a) (Fin b) = Fin (a / b).
Proof. intros a b H. unfold xdiv, Reqb. destruct (Req_EM_T b 0); [contradiction|reflexivity]. Qed.

Lemma xpow_pos_base : forall x p, 0 < x -> xpow x p = Fin (Rpower x p).
Proof. intros x p H. unfold xpow. destruct (Rlt_dec 0 x); [reflexivity|contradiction]. Qed.

(** ** Kaimal *)

Definition kuu (n : R) : R := 525 / 10 * n / Rpower (1 + 33 * n) (5/3).
Definition kvv (n : R) : R := 85 / 10 * n / Rpower (1 + 95 / 10 * n) (5/3).
Definition kww (n : R) : R := 105 / 100 * n / (1 + 53 / 10 * Rpower n (5/3)).
Definition kuw (n : R) : R := - 7 * n / Rpower (1 + 96 / 10 * n) (12/5).
Definition kmat (n : R) (i j : ix) : R :=
  match i, j with X1, X1 => kuu n | X2, X2 => kvv n | X3, X3 => kww n | X1, X3 => kuw n | _, _ => 0 end.

Lemma kaimal_n_pos : forall k1 zref, 0 < k1 -> 0 < zref -> 0 < 1 / (2 * PI) * k1 * zref.
Proof.
  intros k1 zref Hk Hz. pose proof PI_RGT_0. apply Rmult_lt_0_compat; [|exact Hz].
  apply Rmult_lt_0_compat; [|exact Hk]. apply Rdiv_lt_0_compat; lra.
Qed.

Lemma kaimal_form : forall zref ustar k1, 0 < k1 -> 0 < zref ->
  forall i j, kaimal_at zref ustar k1 i j = Fin (kmat (1 / (2 * PI) * k1 * zref) i j * ustar^2).
Proof.
  intros zref ustar k1 Hk Hz i j. unfold kaimal_at. pose proof (kaimal_n_pos k1 zref Hk Hz) as Hn.
  set (n := 1 / (2 * PI) * k1 * zref) in *. cbv zeta.
  rewrite !xpow_pos_base by lra. cbn [xmul xadd].
  pose proof (Rpower_pos (1 + 33 * n) (5/3)). pose proof (Rpower_pos (1 + 95/10 * n) (5/3)).
  pose proof (Rpower_pos n (5/3)). pose proof (Rpower_pos (1 + 96/10 * n) (12/5)).
  rewrite !xdiv_fin by lra. destruct i, j; reflexivity.
Qed.

Lemma kaimal_signs : forall zref ustar k1, 0 < k1 -> 0 < zref -> ustar <> 0 ->
  exists f, finite_matrix (kaimal_at zref ustar k1) f
  /\ 0 < f X1 X1 /\ 0 < f X2 X2 /\ 0 < f X3 X3 /\ f X1 X3 < 0 /\ f X1 X2 = 0 /\ f X2 X3 = 0.
Proof.
  intros zref ustar k1 Hk Hz Hu. eexists. split; [intros i j; apply kaimal_form; assumption|].
  pose proof (kaimal_n_pos k1 zref Hk Hz) as Hn. set (n := 1 / (2 * PI) * k1 * zref) in *.
  assert (U : 0 < ustar^2) by (apply pow2_gt_0; exact Hu).
  cbn [kmat]. unfold kuu, kvv, kww, kuw.
  pose proof (Rpower_pos (1 + 33 * n) (5/3)). pose proof (Rpower_pos (1 + 95/10 * n) (5/3)).
  pose proof (Rpower_pos n (5/3)). pose proof (Rpower_pos (1 + 96/10 * n) (12/5)).
  repeat split.
  - apply Rmult_lt_0_compat; [apply Rdiv_lt_0_compat; lra|exact U].
  - apply Rmult_lt_0_compat; [apply Rdiv_lt_0_compat; lra|exact U].
  - apply Rmult_lt_0_compat; [apply Rdiv_lt_0_compat; lra|exact U].
  - apply Ropp_lt_cancel. rewrite Ropp_0. replace (- (-7 * n / Rpower (1 + 96 / 10 * n) (12 / 5) * ustar ^ 2))
      with (7 * n / Rpower (1 + 96 / 10 * n) (12 / 5) * ustar ^ 2) by (field; lra).
    apply Rmult_lt_0_compat; [apply Rdiv_lt_0_compat; lra|exact U].
  - ring.
  - ring.
Qed.

Lemma kaimal_ustar : forall zref ustar c k1 f, 0 < k1 -> 0 < zref -> finite_matrix (kaimal_at zref ustar k1) f ->
  finite_matrix (kaimal_at zref (c * ustar) k1) (fun i j => c^2 * f i j).
Proof.
  intros zref ustar c k1 f Hk Hz H i j. specialize (H i j). rewrite kaimal_form in H |- * by assumption.
  apply Fin_inj in H. rewrite <- H. f_equal. ring.
Qed.

Lemma kaimal_similar : forall zref zref' ustar k1 k1', k1 * zref = k1' * zref' ->
  forall i j, kaimal_at zref ustar k1 i j = kaimal_at zref' ustar k1' i j.
Proof.
  intros zref zref' ustar k1 k1' H i j. unfold kaimal_at.
  replace (1 / (2 * PI) * k1 * zref) with (1 / (2 * PI) * k1' * zref'); [reflexivity|].
  rewrite !Rmult_assoc, H. reflexivity.
Qed.

Lemma kaimal_rows : forall zref ustar k1s i, nth_error (kaimal zref ustar k1s) i = option_map (kaimal_at zref ustar) (nth_error k1s i).
Proof. intros. unfold kaimal. apply nth_error_map. Qed.

(** Coherence between u and w. *)

Lemma weighted_am_gm : forall a b, 0 < a -> 0 < b -> 8 * ln a + 5 * ln b <= 13 * ln ((8 * a + 5 * b) / 13).
Proof.
  intros a b Ha Hb. set (m := (8 * a + 5 * b) / 13). assert (Hm : 0 < m) by (unfold m; lra).
  assert (T : forall x, 0 < x -> ln x <= x / m - 1 + ln m).
  { intros x Hx. assert (Q : 0 < x / m) by (apply Rdiv_lt_0_compat; assumption).
    replace (ln x) with (ln (x / m) + ln m) by (rewrite <- ln_mult by assumption; f_equal; field; lra).
    apply Rplus_le_compat_r. pose proof (exp_ineq1_le (ln (x / m))) as E. rewrite exp_ln in E by exact Q. lra. }
  pose proof (T a Ha). pose proof (T b Hb).
  assert (8 * (a / m) + 5 * (b / m) = 13) by (unfold m; field; lra). lra.
Qed.

Lemma ln_le_mono : forall x y, 0 < x -> x <= y -> ln x <= ln y.
Proof. intros x y Hx [H|H]; [left; apply ln_increasing; assumption|right; rewrite H; reflexivity]. Qed.

Lemma cross_small : forall n, 0 < n -> n <= 1/8 ->
  ln (8/9) + 5/3 * ln (1 + 33 * n) + ln (1 + 53/10 * Rpower n (5/3)) <= 24/5 * ln (1 + 96/10 * n).
Proof.
  intros n Hn H8.
  assert (P : Rpower n (5/3) <= n / 4).
  { replace (5/3) with (1 + 2/3) by lra. rewrite Rpower_plus, Rpower_1 by exact Hn.
    assert (Q : Rpower n (2/3) <= 1/4).
    { eapply Rle_trans; [apply (Rpower_le_base n (1/8)); lra|].
      replace (1/8) with (Rpower (1/2) 3) by (replace 3 with (INR 3) by (simpl; lra); rewrite Rpower_pow by lra; lra).
      rewrite Rpower_mult. replace (3 * (2/3)) with (INR 2) by (simpl; lra). rewrite Rpower_pow by lra. lra. }
    nra. }
  pose proof (Rpower_pos n (5/3)) as P0.
  assert (A : ln (1 + 53/10 * Rpower n (5/3)) <= ln (1 + 1325/1000 * n)) by (apply ln_le_mono; lra).
  assert (B : 5 * ln (1 + 1325/1000 * n) <= ln (1 + 96/10 * n)).
  { replace (5 * ln (1 + 1325/1000 * n)) with (ln ((1 + 1325/1000 * n)^5)).
    - apply ln_le_mono; [apply pow_lt; lra|]. set (t := 1325/1000 * n).
      assert (T : 0 < t <= 1656/10000 + 1/10000) by (unfold t; lra).
      replace (1 + 96/10 * n) with (1 + 9600/1325 * t) by (unfold t; field).
      assert (t^2 <= 1657/10000 * t) by nra. assert (t^3 <= 276/10000 * t) by nra.
      assert (t^4 <= 46/10000 * t) by nra. assert (t^5 <= 8/10000 * t) by nra.
      replace ((1 + t)^5) with (1 + 5 * t + 10 * t^2 + 10 * t^3 + 5 * t^4 + t^5) by ring. lra.
    - rewrite <- Rpower_pow by lra. unfold Rpower. rewrite ln_exp. simpl. ring. }
  assert (C : 3 * ln (8/9) + 5 * ln (1 + 33 * n) <= 13 * ln (1 + 96/10 * n)).
  { pose proof (weighted_am_gm (1014/880) (416/550 * (1 + 33 * n)) ltac:(lra) ltac:(lra)) as W.
    replace ((8 * (1014/880) + 5 * (416/550 * (1 + 33 * n))) / 13) with (1 + 96/10 * n) in W by field.
    rewrite (ln_mult (416/550)) in W by lra.
    assert (K : 3 * ln (8/9) <= 8 * ln (1014/880) + 5 * ln (416/550)).
    { assert (L : forall k x, 0 < x -> INR k * ln x = ln (x^k)).
      { intros k x Hx. rewrite <- Rpower_pow by exact Hx. unfold Rpower. rewrite ln_exp. reflexivity. }
      replace 3 with (INR 3) by (simpl; lra). replace 8 with (INR 8) at 2 by (simpl; lra). replace 5 with (INR 5) by (simpl; lra).
      rewrite !L by lra. rewrite <- ln_mult by (apply pow_lt; lra).
      apply ln_le_mono; [apply pow_lt; lra|]. lra. }
    lra. }
  assert (D : 0 <= ln (1 + 96/10 * n)) by (rewrite <- ln_1; apply ln_le_mono; lra).
  lra.
Qed.

Lemma cross_large : forall n, 1/8 <= n ->
  8/9 * Rpower (1 + 33 * n) (5/3) * (1 + 53/10 * Rpower n (5/3)) <= Rpower (1 + 96/10 * n) (24/5).
Proof.
  intros n H8. set (X := 1 + 96/10 * n). assert (HX : 22/10 <= X) by (unfold X; lra).
  set (P := Rpower X (5/3)). assert (HP : 0 < P) by apply Rpower_pos.
  assert (Cube : forall x y, 0 < x -> 0 < y -> x^5 <= y^3 -> Rpower x (5/3) <= y).
  { intros x y Hx Hy H. replace y with (Rpower (y^3) (1/3)).
    - replace (5/3) with (INR 5 * (1/3)) by (simpl; lra). rewrite <- Rpower_mult, Rpower_pow by exact Hx.
      apply Rpower_le_base; [apply pow_lt; exact Hx|exact H|lra].
    - rewrite <- Rpower_pow by exact Hy. rewrite Rpower_mult. replace (INR 3 * (1/3)) with 1 by (simpl; lra). apply Rpower_1. exact Hy. }
  assert (A : Rpower (1 + 33 * n) (5/3) <= 784/100 * P).
  { eapply Rle_trans; [apply (Rpower_le_base _ (55/16 * X)); unfold X; lra|].
    rewrite <- Rpower_mult_distr by lra. apply Rmult_le_compat_r; [lra|]. apply Cube; lra. }
  assert (B : Rpower n (5/3) <= 231/10000 * P).
  { eapply Rle_trans; [apply (Rpower_le_base _ (10/96 * X)); unfold X; lra|].
    rewrite <- Rpower_mult_distr by lra. apply Rmult_le_compat_r; [lra|]. apply Cube; lra. }
  assert (C : 1 <= 27/100 * P).
  { assert (Rpower (10/22) (5/3) <= 27/100) by (apply Cube; lra).
    assert (1 <= Rpower (10/22) (5/3) * P).
    { unfold P. rewrite Rpower_mult_distr by lra. rewrite <- (Rpower_1_base (5/3)) at 1.
      apply Rpower_le_base; lra. }
    nra. }
  assert (D : Rpower X (24/5) >= 28/10 * (P * P)).
  { unfold P. rewrite <- Rpower_plus. replace (24/5) with (22/15 + (5/3 + 5/3)) by lra. rewrite Rpower_plus.
    apply Rle_ge. apply Rmult_le_compat_r; [left; apply Rpower_pos|].
    eapply Rle_trans; [|apply (Rpower_le_base (22/10)); lra].
    eapply Rle_trans; [|apply (Rle_Rpower (22/10) (4/3)); lra].
    assert (E : Rpower (28/10) 1 <= Rpower (22/10) (4/3)).
    { replace 1 with (INR 3 * (1/3)) by (simpl; lra). replace (4/3) with (INR 4 * (1/3)) by (simpl; lra).
      rewrite <- !Rpower_mult, !Rpower_pow by lra. apply Rpower_le_base; lra. }
    rewrite Rpower_1 in E by lra. exact E. }
  pose proof (Rpower_pos (1 + 33 * n) (5/3)) as Y0. pose proof (Rpower_pos n (5/3)) as N0.
  assert (F : 1 + 53/10 * Rpower n (5/3) <= 39243/100000 * P) by lra.
  assert (G : 8/9 * Rpower (1 + 33 * n) (5/3) * (1 + 53/10 * Rpower n (5/3)) <= 8/9 * (784/100 * P) * (39243/100000 * P)).
  { apply Rmult_le_compat; [nra|lra|lra|exact F]. }
  nra.
Qed.

Lemma cross_all : forall n, 0 < n ->
  8/9 * Rpower (1 + 33 * n) (5/3) * (1 + 53/10 * Rpower n (5/3)) <= Rpower (1 + 96/10 * n) (24/5).
Proof.
  intros n Hn. destruct (Rle_dec n (1/8)) as [H|H]; [|apply cross_large; lra].
  pose proof (cross_small n Hn H) as E. pose proof (Rpower_pos n (5/3)) as N0.
  unfold Rpower at 1 3. rewrite <- (exp_ln (8/9)) at 1 by lra.
  rewrite <- (exp_ln (1 + 53/10 * Rpower n (5/3))) by lra. rewrite <- !exp_plus.
  destruct E as [E|E]; [left; apply exp_increasing; exact E|right; rewrite E; reflexivity].
Qed.

Lemma kaimal_cauchy_schwarz : forall n, 0 < n -> kuw n ^ 2 <= kuu n * kww n.
Proof.
  intros n Hn. pose proof (cross_all n Hn) as H. unfold kuw, kuu, kww.
  set (A := Rpower (1 + 33 * n) (5/3)) in *. set (B := 1 + 53/10 * Rpower n (5/3)) in *.
  set (D := Rpower (1 + 96/10 * n) (12/5)).
  assert (HA : 0 < A) by apply Rpower_pos. assert (HD : 0 < D) by apply Rpower_pos.
  assert (HB : 0 < B) by (unfold B; pose proof (Rpower_pos n (5/3)); lra).
  assert (E : Rpower (1 + 96/10 * n) (24/5) = D * D).
  { unfold D. rewrite <- Rpower_plus. f_equal. lra. }
  rewrite E in H.
  replace ((-7 * n / D)^2) with (49 * n^2 * / (D * D)) by (field; lra).
  replace (525/10 * n / A * (105/100 * n / B)) with (49 * n^2 * / (8/9 * A * B)) by (field; lra).
  apply Rmult_le_compat_l; [nra|]. apply Rinv_le_contravar; [|exact H]. 
  apply Rmult_lt_0_compat; [lra|exact HB].
Qed.

Lemma kaimal_coherent : forall zref ustar k1 f, 0 < k1 -> 0 < zref -> finite_matrix (kaimal_at zref ustar k1) f ->
  (f X1 X3)^2 <= f X1 X1 * f X3 X3.
Proof.
  intros zref ustar k1 f Hk Hz H.
  assert (E : forall i j, f i j = kmat (1 / (2 * PI) * k1 * zref) i j * ustar^2).
  { intros i j. specialize (H i j). rewrite kaimal_form in H by assumption. apply Fin_inj in H. symmetry. exact H. }
  rewrite !E. cbn [kmat]. pose proof (kaimal_cauchy_schwarz _ (kaimal_n_pos k1 zref Hk Hz)) as C.
  set (n := 1 / (2 * PI) * k1 * zref) in *. replace ((kuw n * ustar^2)^2) with (kuw n ^2 * (ustar^2 * ustar^2)) by ring.
  replace (kuu n * ustar^2 * (kww n * ustar^2)) with (kuu n * kww n * (ustar^2 * ustar^2)) by ring.
  apply Rmult_le_compat_r; [nra|exact C].
Qed.

Lemma kaimal_not_symmetric : forall zref ustar k1, 0 < k1 -> 0 < zref -> ustar <> 0 -> ~ symmetric_matrix (kaimal_at zref ustar k1).
Proof.
  intros zref ustar k1 Hk Hz Hu S. destruct (kaimal_signs zref ustar k1 Hk Hz Hu) as (f & F & _ & _ & _ & N & _).
  pose proof (S X1 X3) as E. rewrite (F X1 X3) in E. rewrite kaimal_form in E by assumption. cbn [kmat] in E.
  apply Fin_inj in E. rewrite Rmult_0_l in E. lra.
Qed.

(** ** Von Karman *)

Definition vk_uu (L C k : R) : R := 9/55 * C / Rpower (/ L^2 + k^2) (5/6).
Definition vk_vv (L C k : R) : R := 3/110 * C * (3 * / L^2 + 8 * k^2) / Rpower (/ L^2 + k^2) (11/6).

Lemma vk_den_pos : forall L k, L <> 0 -> 0 < / L^2 + k^2.
Proof.
  intros L k H. assert (0 < / L^2) by (apply Rinv_0_lt_compat; apply pow2_gt_0; exact H). pose proof (pow2_ge_0 k). lra.
Qed.

Lemma vk_form : forall L C k1, L <> 0 -> exists m, von_karman_at L C k1 = Ok m
  /\ finite_matrix m (fun i j => match i, j with
       | X1, X1 => vk_uu L C k1 * k1 | X2, X2 | X3, X3 => vk_vv L C k1 * k1 | _, _ => 0 end).
Proof.
  intros L C k1 HL. unfold von_karman_at, Reqb. destruct (Req_EM_T L 0); [contradiction|].
  eexists. split; [reflexivity|]. pose proof (vk_den_pos L k1 HL) as D. intros i j.
  rewrite !xpow_pos_base by exact D. pose proof (Rpower_pos (/ L^2 + k1^2) (5/6)). pose proof (Rpower_pos (/ L^2 + k1^2) (11/6)).
  rewrite !xdiv_fin by lra.
  destruct i, j; cbn [xmul]; f_equal; unfold vk_uu, vk_vv; ring.
Qed.

Lemma vk_zero_length : forall C k1, von_karman_at 0 C k1 = Err ZeroDivisionError.
Proof. intros. unfold von_karman_at, Reqb. destruct (Req_EM_T 0 0); [reflexivity|contradiction]. Qed.

Lemma vk_physical : forall L C k1, L <> 0 -> 0 < C -> 0 < k1 ->
  exists m f, von_karman_at L C k1 = Ok m /\ finite_matrix m f
  /\ 0 < f X1 X1 /\ 0 < f X2 X2 /\ f X3 X3 = f X2 X2
  /\ f X1 X2 = 0 /\ f X2 X1 = 0 /\ f X1 X3 = 0 /\ f X3 X1 = 0 /\ f X2 X3 = 0 /\ f X3 X2 = 0.
Proof.
  intros L C k1 HL HC Hk. destruct (vk_form L C k1 HL) as (m & E & F).
  exists m. eexists. split; [exact E|]. split; [exact F|]. cbv beta.
  pose proof (Rpower_pos (/ L^2 + k1^2) (5/6)). pose proof (Rpower_pos (/ L^2 + k1^2) (11/6)).
  assert (0 < / L^2) by (apply Rinv_0_lt_compat; apply pow2_gt_0; exact HL). pose proof (pow2_gt_0 k1 ltac:(lra)).
  split; [|split; [|repeat split]].
  - unfold vk_uu. apply Rmult_lt_0_compat; [apply Rdiv_lt_0_compat; lra|exact Hk].
  - unfold vk_vv. apply Rmult_lt_0_compat; [|exact Hk]. apply Rdiv_lt_0_compat; [|assumption].
    apply Rmult_lt_0_compat; lra.
Qed.

Lemma vk_uu_derive : forall L C k, L <> 0 ->
  is_derive (vk_uu L C) k (- (9/55 * C) * (5/3) * k / Rpower (/ L^2 + k^2) (11/6)).
Proof.
  intros L C k HL. pose proof (vk_den_pos L k HL) as D.
  apply (is_derive_ext (fun k => 9/55 * C * exp (- (5/6) * ln (/ L^2 + k^2)))).
  { intros t. unfold vk_uu, Rpower. rewrite Ropp_mult_distr_l_reverse, exp_Ropp. reflexivity. }
  evar (d : R). replace (- (9/55 * C) * (5/3) * k / Rpower (/ L^2 + k^2) (11/6)) with d.
  - unfold d. auto_derive; [exact D|reflexivity].
  - unfold d. cbn [pow].
    replace (Rpower (/ (L * (L * 1)) + k * (k * 1)) (11/6))
      with ((/ (L * (L * 1)) + k * (k * 1)) * Rpower (/ (L * (L * 1)) + k * (k * 1)) (5/6)).
    + cbn [pow] in D. set (q := / (L * (L * 1)) + k * (k * 1)) in *.
      assert (Q : exp (- (5/6) * ln q) = / exp (5/6 * ln q)).
      { rewrite <- exp_Ropp. f_equal. ring. }
      rewrite Q. unfold Rpower. pose proof (exp_pos (5/6 * ln q)). set (e := exp _) in *. field. split; lra.
    + cbn [pow] in D. rewrite <- (Rpower_1 (/ (L * (L * 1)) + k * (k * 1))) at 1 by exact D.
      rewrite <- Rpower_plus. f_equal. lra.
Qed.

Lemma vk_isotropic : forall L C k1, L <> 0 -> 0 < k1 ->
  exists d, is_derive (vk_uu L C) k1 d /\ vk_vv L C k1 = (vk_uu L C k1 - k1 * d) / 2.
Proof.
  intros L C k1 HL Hk. eexists. split; [apply vk_uu_derive; exact HL|]. unfold vk_uu, vk_vv.
  pose proof (vk_den_pos L k1 HL) as D.
  replace (Rpower (/ L^2 + k1^2) (11/6)) with ((/ L^2 + k1^2) * Rpower (/ L^2 + k1^2) (5/6)).
  - pose proof (Rpower_pos (/ L^2 + k1^2) (5/6)). set (e := Rpower _ _) in *.
    assert (0 < / L^2) by (apply Rinv_0_lt_compat; apply pow2_gt_0; exact HL). set (q := / L^2) in *. field. split; lra.
  - rewrite <- (Rpower_1 (/ L^2 + k1^2)) at 1 by exact D. rewrite <- Rpower_plus. f_equal. lra.
Qed.

(** Unweighted data as a function of the wave number. *)
Lemma vk_data_eq : forall L C k, L <> 0 -> k <> 0 -> vk_data L C X1 X1 k = vk_uu L C k /\ vk_data L C X2 X2 k = vk_vv L C k.
Proof.
  intros L C k HL Hk. unfold vk_data. destruct (vk_form L C k HL) as (m & -> & F). rewrite !F. split; field; exact Hk.
Qed.

Lemma vk_isotropic_data : forall L C k1, L <> 0 -> 0 < k1 ->
  exists d, is_derive (vk_data L C X1 X1) k1 d
  /\ vk_data L C X2 X2 k1 = (vk_data L C X1 X1 k1 - k1 * d) / 2.
Proof.
  intros L C k1 HL Hk. destruct (vk_isotropic L C k1 HL Hk) as (d & D & E).
  destruct (vk_data_eq L C k1 HL ltac:(lra)) as [E1 E2]. exists d. split; [|rewrite E1, E2; exact E].
  eapply is_derive_ext_loc; [|exact D]. exists (mkposreal k1 Hk). intros t Ht. symmetry. apply vk_data_eq; [exact HL|].
  change (Rabs (t - k1) < k1) in Ht. apply Rabs_def2 in Ht. lra.
Qed.

Lemma vk_magnitude : forall L C c k1 m f, L <> 0 -> von_karman_at L C k1 = Ok m -> finite_matrix m f ->
  exists m', von_karman_at L (c * C) k1 = Ok m' /\ finite_matrix m' (fun i j => c * f i j).
Proof.
  intros L C c k1 m f HL E F. destruct (vk_form L C k1 HL) as (m0 & E0 & F0). rewrite E in E0. injection E0 as <-.
  destruct (vk_form L (c * C) k1 HL) as (m' & E' & F'). exists m'. split; [exact E'|]. intros i j. rewrite (F' i j).
  f_equal. pose proof (F i j) as G. rewrite (F0 i j) in G. apply Fin_inj in G. rewrite <- G. clear G.
  pose proof (Rpower_pos (/ L^2 + k1^2) (5/6)). pose proof (Rpower_pos (/ L^2 + k1^2) (11/6)).
  destruct i, j; unfold vk_uu, vk_vv; field; repeat split; try lra; exact HL.
Qed.

Lemma vk_similar : forall L C k1 m f, 0 < L -> von_karman_at L C k1 = Ok m -> finite_matrix m f ->
  exists m', von_karman_at 1 C (L * k1) = Ok m' /\ forall i j, exists v, m' i j = Fin v /\ f i j = Rpower L (2/3) * v.
Proof.
  intros L C k1 m f HL E F. destruct (vk_form L C k1 ltac:(lra)) as (m0 & E0 & F0). rewrite E in E0. injection E0 as <-.
  destruct (vk_form 1 C (L * k1) ltac:(lra)) as (m' & E' & F'). exists m'. split; [exact E'|]. intros i j.
  eexists. split; [apply F'|]. pose proof (F i j) as G. rewrite (F0 i j) in G. apply Fin_inj in G. rewrite <- G. clear G.
  assert (Q : forall p, Rpower (/ L^2 + k1^2) p = Rpower L (-2 * p) * Rpower (/ 1^2 + (L * k1)^2) p).
  { intros p. replace (/ L^2 + k1^2) with (/ (L^2) * (/ 1^2 + (L * k1)^2)) by (field; lra).
    rewrite <- Rpower_mult_distr.
    - f_equal. rewrite Rpower_inv_base by (apply pow_lt; exact HL). rewrite <- Rpower_pow by exact HL.
      rewrite Rpower_mult, <- Rpower_Ropp. f_equal. simpl. lra.
    - apply Rinv_0_lt_compat. apply pow_lt. exact HL.
    - apply vk_den_pos. lra. }
  assert (Q5 := Q (5/6)). assert (Q11 := Q (11/6)).
  pose proof (Rpower_pos (/ 1^2 + (L * k1)^2) (5/6)) as P5. pose proof (Rpower_pos (/ 1^2 + (L * k1)^2) (11/6)) as P11.
  assert (W5 : Rpower L (-2 * (5/6)) * (Rpower L (2/3) * L) = 1).
  { rewrite <- (Rpower_1 L) at 3 by exact HL. rewrite <- !Rpower_plus. replace (-2 * (5/6) + (2/3 + 1)) with 0 by lra. apply Rpower_O. exact HL. }
  assert (W11 : Rpower L (-2 * (11/6)) * (Rpower L (2/3) * L) * L^2 = 1).
  { rewrite <- Rpower_pow by exact HL. rewrite <- (Rpower_1 L) at 3 by exact HL. rewrite <- !Rpower_plus.
    replace (-2 * (11/6) + (2/3 + 1) + INR 2) with 0 by (simpl; lra). apply Rpower_O. exact HL. }
  pose proof (Rpower_pos L (-2 * (5/6))) as R5. pose proof (Rpower_pos L (-2 * (11/6))) as R11.
  destruct i, j; unfold vk_uu, vk_vv; rewrite ?Q5, ?Q11; try ring.
  - replace (Rpower L (2/3)) with (/ (Rpower L (-2 * (5/6)) * L)).
    + set (p := Rpower _ (5/6)) in *. set (r := Rpower L (-2 * (5/6))) in *. field. repeat split; lra.
    + apply (Rmult_eq_reg_l (Rpower L (-2 * (5/6)) * L)); [|nra]. rewrite Rinv_r by nra. lra.
  - replace (Rpower L (2/3)) with (/ (Rpower L (-2 * (11/6)) * L * L^2)).
    + set (p := Rpower _ (11/6)) in *. set (r := Rpower L (-2 * (11/6))) in *. field. repeat split; lra.
    + assert (0 < L^2) by (apply pow_lt; exact HL).
      apply (Rmult_eq_reg_l (Rpower L (-2 * (11/6)) * L * L^2)).
      * rewrite Rinv_r; [lra|]. apply Rgt_not_eq. apply Rlt_gt. repeat apply Rmult_lt_0_compat; (assumption || lra).
      * apply Rgt_not_eq. apply Rlt_gt. repeat apply Rmult_lt_0_compat; (assumption || lra).
  - replace (Rpower L (2/3)) with (/ (Rpower L (-2 * (11/6)) * L * L^2)).
    + set (p := Rpower _ (11/6)) in *. set (r := Rpower L (-2 * (11/6))) in *. field. repeat split; lra.
    + assert (0 < L^2) by (apply pow_lt; exact HL).
      apply (Rmult_eq_reg_l (Rpower L (-2 * (11/6)) * L * L^2)).
      * rewrite Rinv_r; [lra|]. apply Rgt_not_eq. apply Rlt_gt. repeat apply Rmult_lt_0_compat; (assumption || lra).
      * apply Rgt_not_eq. apply Rlt_gt. repeat apply Rmult_lt_0_compat; (assumption || lra).
Qed.

Lemma vk_symmetric : forall L C k1 m, von_karman_at L C k1 = Ok m -> symmetric_matrix m.
Proof.
  intros L C k1 m H i j. unfold von_karman_at in H. destruct (Reqb L 0); [discriminate|]. injection H as <-.
  destruct i, j; reflexivity.
Qed.

Lemma vk_list : forall L C k1s, L <> 0 ->
  exists l, von_karman L C k1s = Ok l /\ Forall2 (fun k1 m => von_karman_at L C k1 = Ok m) k1s l.
Proof.
  intros L C k1s HL. unfold von_karman. unfold Reqb. destruct (Req_EM_T L 0); [contradiction|].
  induction k1s as [|k ks (l & E & F)]; [exists []; split; [reflexivity|constructor]|].
  cbn [fold_right]. rewrite E. destruct (vk_form L C k HL) as (m & Em & _). rewrite Em. cbn [bind].
  exists (m :: l). split; [reflexivity|]. constructor; assumption.
Qed.

(** ** Files *)

Lemma has_col_In : forall cols name, has_col cols name = true <-> In name cols.
Proof.
  intros cols name. unfold has_col. rewrite existsb_exists. split.
  - intros (x & H & E). apply String.eqb_eq in E. subst. exact H.
  - intros H. exists name. split; [exact H|apply String.eqb_refl].
Qed.

Lemma loader_never : forall f n, custom_loader f n <> Ok tt.
Proof.
  intros f n. destruct f as [| |cols]; cbn [custom_loader]; try discriminate.
  repeat match goal with |- context [if ?b then _ else _] => destruct b end; discriminate.
Qed.

Lemma loader_value_error : forall cols n,
  (custom_loader (Table cols) n = Err ValueError <-> exists name, required n name /\ ~ In name cols)
  /\ ((forall name, required n name -> In name cols) -> custom_loader (Table cols) n = Err AttributeError).
Proof.
  intros cols n. cbn [custom_loader]. unfold required.
  destruct (has_col cols "uu") eqn:E1; [apply has_col_In in E1|]; cbn [negb].
  2: { split; [split; [intros _; exists "uu"%string; split; [tauto|rewrite <- has_col_In, E1; discriminate]|reflexivity]|].
       intros H. exfalso. assert (K := H "uu"%string ltac:(tauto)). apply has_col_In in K. congruence. }
  destruct (has_col cols "vv") eqn:E2; [apply has_col_In in E2|]; cbn [negb].
  2: { split; [split; [intros _; exists "vv"%string; split; [tauto|rewrite <- has_col_In, E2; discriminate]|reflexivity]|].
       intros H. exfalso. assert (K := H "vv"%string ltac:(tauto)). apply has_col_In in K. congruence. }
  destruct (has_col cols "ww") eqn:E3; [apply has_col_In in E3|]; cbn [negb].
  2: { split; [split; [intros _; exists "ww"%string; split; [tauto|rewrite <- has_col_In, E3; discriminate]|reflexivity]|].
       intros H. exfalso. assert (K := H "ww"%string ltac:(tauto)). apply has_col_In in K. congruence. }
  destruct (3 <? n)%Z eqn:E4; [apply Z.ltb_lt in E4|apply Z.ltb_ge in E4]; cbn [andb].
  - destruct (has_col cols "uw") eqn:E5; [apply has_col_In in E5|]; cbn [negb].
    2: { split; [split; [intros _; exists "uw"%string; split; [tauto|rewrite <- has_col_In, E5; discriminate]|reflexivity]|].
         intros H. exfalso. assert (K := H "uw"%string ltac:(tauto)). apply has_col_In in K. congruence. }
    destruct (n =? 6)%Z eqn:E6; [apply Z.eqb_eq in E6|apply Z.eqb_neq in E6]; cbn [andb].
    + destruct (has_col cols "vw") eqn:E7; [apply has_col_In in E7|]; cbn [negb].
      2: { split; [split; [intros _; exists "vw"%string; split; [tauto|rewrite <- has_col_In, E7; discriminate]|reflexivity]|].
           intros H. exfalso. assert (K := H "vw"%string ltac:(tauto)). apply has_col_In in K. congruence. }
      destruct (has_col cols "uv") eqn:E8; [apply has_col_In in E8|]; cbn [negb].
      2: { split; [split; [intros _; exists "uv"%string; split; [tauto|rewrite <- has_col_In, E8; discriminate]|reflexivity]|].
           intros H. exfalso. assert (K := H "uv"%string ltac:(tauto)). apply has_col_In in K. congruence. }
      split; [|reflexivity]. split; [discriminate|]. intros (x & [[->|[->| ->]]|[[_ ->]|[_ [->| ->]]]] & K); contradiction.
    + split; [|reflexivity]. split; [discriminate|]. intros (x & [[->|[->| ->]]|[[_ ->]|[Q _]]] & K); contradiction.
  - destruct (n =? 6)%Z eqn:E6; [apply Z.eqb_eq in E6; lia|apply Z.eqb_neq in E6]; cbn [andb].
    split; [|reflexivity]. split; [discriminate|]. intros (x & [[->|[->| ->]]|[[Q _]|[Q _]]] & K); try contradiction; lia.
Qed.

(** ** Domain parameters *)

Lemma domain_never : forall d l v, domain_parameters d l <> Ok v.
Proof. intros d l v. unfold domain_parameters. destruct (andb _ _); discriminate. Qed.

Lemma domain_wrong_length : forall k dims l, k <> KTuple ->
  (domain_parameters (k, dims) l = Err ValueError <-> length dims <> 3%nat).
Proof.
  intros k dims l Hk. unfold domain_parameters. cbn [fst snd].
  destruct k; [contradiction| |]; cbn [andb]; destruct (length dims =? 3)%nat eqn:E; cbn [negb];
    (apply Nat.eqb_eq in E || apply Nat.eqb_neq in E); split; intros K; try discriminate; try congruence; reflexivity.
Qed.

(** ** Six-component calibration on generated data *)

Lemma xsum_finite : forall l v, xsum l = Fin v -> Forall (fun x => xfinite x = true) l.
Proof.
  induction l as [|x l IH]; intros v H; [constructor|]. unfold xsum in *. cbn [fold_right] in H.
  destruct (fold_right xadd (Fin 0) l) as [w| | |] eqn:E; destruct x; try discriminate H.
  constructor; [reflexivity|]. eapply IH. reflexivity.
Qed.

Lemma xmean_finite : forall l v, xmean l = Fin v -> Forall (fun x => xfinite x = true) l.
Proof.
  intros l v H. unfold xmean in H. destruct (xsum l) as [w| | |] eqn:E; [eapply xsum_finite; exact E| | |];
    unfold xdiv, Reqb in H; destruct (Req_EM_T (INR (length l)) 0); cbn in H;
    unfold xinf, xsign in H; repeat match type of H with context [if ?b then _ else _] => destruct b end; discriminate.
Qed.

Lemma mse_finite : forall m t v, mse_term m t = Ok (Fin v) -> forall i a b,
  nth_error m i = Some a -> nth_error t i = Some b -> a <> 0 /\ b <> 0.
Proof.
  intros m t v H. unfold mse_term, nan_guard in H. destruct (xisnan _); [discriminate|]. injection H as H.
  apply xmean_finite in H. rewrite map_zip in H. revert t H. induction m as [|x m IH]; intros [|y t] H i a b Ha Hb;
    try (destruct i; discriminate). cbn [zip_with] in H. inversion H as [|z l H1 H2]; subst.
  destruct i as [|i]; [|eapply IH; eassumption]. cbn in Ha, Hb. injection Ha as <-. injection Hb as <-.
  destruct (sq_log_ratio_cases x y) as [(_ & _ & E)|[(A & B & _)|(_ & E)]]; try (rewrite E in H1; discriminate H1). tauto.
Qed.

Lemma total_finite : forall m c p1 p2 r v, xadd (xadd (xadd (xadd m c) p1) p2) r = Fin v -> exists w, m = Fin w.
Proof.
  intros m c p1 p2 r v H. destruct m; [eauto| | |]; destruct c, p1, p2, r; discriminate H.
Qed.

Lemma eval_finite : forall p k z s a v s', agg_eval p k z s a = (Ok (Fin v), s') ->
  exists w, mse_term (concat (ea_y a)) (concat (ea_data a)) = Ok (Fin w).
Proof.
  intros p k z s a v s' H. unfold agg_eval in H. destruct (eval_terms p k z a) as [[[[[m c] p1] p2] r]|e] eqn:E; [|discriminate].
  injection H as H _. apply total_finite in H. destruct H as (w & ->). exists w.
  unfold eval_terms in E. destruct (mse_term _ _) as [x|]; [|discriminate]. cbn [bind] in E.
  repeat match type of E with bind ?t _ = _ => destruct t; [|discriminate E]; cbn [bind] in E end.
  injection E as -> _. reflexivity.
Qed.

(** A spectrum against which the delivered model can never be compared: some entry
    is zero in the data but not in the model, or zero in both. *)
Definition hopeless (a : eval_args) : Prop :=
  exists i x, nth_error (concat (ea_y a)) i = Some x /\ nth_error (concat (ea_data a)) i = Some 0.

Lemma hopeless_eval : forall p k z s a l s', hopeless a -> agg_eval p k z s a = (Ok l, s') -> xfinite l = false.
Proof.
  intros p k z s a l s' (i & x & Hy & Hd) E. destruct l as [v| | |]; try reflexivity.
  destruct (eval_finite _ _ _ _ _ _ _ E) as (w & M). destruct (mse_finite _ _ _ M i x 0 Hy Hd) as [_ K]. contradiction.
Qed.

Lemma hopeless_run : forall c t s s', (forall m n, hopeless (tg_args c m n)) -> xfinite (ts_loss s) = false ->
  run_strategy c t s = Ok s' -> xfinite (ts_loss s') = false.
Proof.
  intros c t. induction t as [v|v k IH]; intros s s' Hc Hl H; cbn [run_strategy] in H.
  - injection H as <-. exact Hl.
  - unfold closure_eval in H.
    destruct (agg_eval _ _ _ _ _) as [[l|e] a] eqn:E; [|discriminate]. eapply IH; [exact Hc| |exact H].
    cbn [ts_loss]. eapply hopeless_eval; [apply Hc|exact E].
Qed.

Lemma hopeless_calibrate : forall c opt sched m, (1 <= tg_nepochs c)%nat ->
  (forall m, hopeless (tg_args0 c m)) -> (forall m n, hopeless (tg_args c m n)) ->
  forall v, fst (calibrate c opt sched m) <> Ok v.
Proof.
  intros c opt sched m Hn H0 H1 v K. unfold calibrate in K.
  destruct (agg_eval _ _ _ _ _) as [[l|e] a] eqn:E; [|discriminate].
  pose proof (hopeless_eval _ _ _ _ _ _ _ (H0 m) E) as Hl.
  destruct (tg_nepochs c) as [|n]; [lia|]. cbn [train] in K.
  destruct (run_strategy c _ _) as [s0|e] eqn:R; [|discriminate].
  assert (Hs : xfinite (ts_loss s0) = false) by (eapply hopeless_run; [exact H1| |exact R]; exact Hl). cbn [ts_mod ts_loss] in K.
  destruct (mp_pq (ts_mod s0)); [|discriminate]. rewrite Hs in K. discriminate.
Qed.

Lemma nth_error_concat_row : forall (ls : list (list R)) i j row x, nth_error ls i = Some row -> nth_error row j = Some x ->
  nth_error (concat ls) (length (concat (firstn i ls)) + j) = Some x.
Proof.
  induction ls as [|l ls IH]; intros i j row x Hi Hj; [destruct i; discriminate|].
  destruct i as [|i]; cbn [nth_error firstn concat] in *.
  - injection Hi as ->. cbn [length Nat.add]. rewrite nth_error_app1; [exact Hj|]. apply nth_error_Some. congruence.
  - rewrite app_length, nth_error_app2 by lia.
    replace (length l + length (concat (firstn i ls)) + j - length l)%nat with (length (concat (firstn i ls)) + j)%nat by lia.
    eapply IH; eassumption.
Qed.

Lemma rows_len : forall (ls : list (list R)) nk, Forall (fun r => length r = nk) ls -> length (concat ls) = (nk * length ls)%nat.
Proof.
  intros ls nk H. induction H as [|r ls Hr _ IH]; [cbn; lia|]. cbn [concat length]. rewrite app_length, Hr, IH. lia.
Qed.

Lemma data_rows_6 : forall nk d, data_rows 6 nk d = Some (map (fun ij => map (fun n => d n (fst ij) (snd ij)) (seq 0 nk)) model_order).
Proof. reflexivity. Qed.

Lemma six_hopeless : forall e p1 p2 N k1s d rows a, (1 <= length k1s)%nat ->
  data_rows 6 (length k1s) d = Some rows -> (forall n, (n < length k1s)%nat -> d n X1 X2 = 0) ->
  ea_y a = model_rows 6 (ops_output e p1 p2 N k1s) -> ea_data a = rows -> hopeless a.
Proof.
  intros e p1 p2 N k1s d rows a Hk Hr Hd Hy Ha. destruct k1s as [|k ks]; [cbn in Hk; lia|].
  assert (Hr' : rows = map (fun ij => map (fun n => d n (fst ij) (snd ij)) (seq 0 (length (k :: ks)))) model_order)
    by (rewrite data_rows_6 in Hr; congruence). rewrite Hr' in Ha. clear Hr Hr'.
  exists (length (concat (firstn 5 (ea_data a))) + 0)%nat, (ops_forward phi12 e p1 p2 N k). split.
  - replace (length (concat (firstn 5 (ea_data a)))) with (length (concat (firstn 5 (ea_y a)))).
    + apply (nth_error_concat_row _ 5 0 (map (ops_forward phi12 e p1 p2 N) (k :: ks))); rewrite ?Hy; reflexivity.
    + rewrite Hy, Ha. unfold model_rows, ops_output, model_order.
      rewrite (rows_len _ (length (k :: ks))), (rows_len _ (length (k :: ks))); [reflexivity| |];
        cbn [map firstn fst snd]; repeat apply Forall_cons; try apply Forall_nil; try (rewrite map_length; apply seq_length);
        cbn [length]; rewrite map_length; reflexivity.
  - apply (nth_error_concat_row _ 5 0 (map (fun n => d n X1 X2) (seq 0 (length (k :: ks))))); rewrite ?Ha; [reflexivity|].
    cbn [length seq map nth_error]. rewrite Hd by (cbn; lia). reflexivity.
Qed.

Lemma four_hopeless : forall e p1 p2 N k1s d rows a, (1 <= length k1s)%nat ->
  data_rows 4 (length k1s) d = Some rows -> (forall n, (n < length k1s)%nat -> d n X1 X3 = 0) ->
  ea_y a = model_rows 4 (ops_output e p1 p2 N k1s) -> ea_data a = rows -> hopeless a.
Proof.
  intros e p1 p2 N k1s d rows a Hk Hr Hd Hy Ha. destruct k1s as [|k ks]; [cbn in Hk; lia|].
  assert (Hr' : rows = map (fun ij => map (fun n => d n (fst ij) (snd ij)) (seq 0 (length (k :: ks)))) (firstn 4 model_order))
    by (injection Hr as <-; reflexivity). rewrite Hr' in Ha. clear Hr Hr'.
  exists (length (concat (firstn 3 (ea_data a))) + 0)%nat, (ops_forward phi13 e p1 p2 N k). split.
  - replace (length (concat (firstn 3 (ea_data a)))) with (length (concat (firstn 3 (ea_y a)))).
    + apply (nth_error_concat_row _ 3 0 (map (ops_forward phi13 e p1 p2 N) (k :: ks))); rewrite ?Hy; reflexivity.
    + rewrite Hy, Ha. unfold model_rows, ops_output, model_order.
      rewrite (rows_len _ (length (k :: ks))), (rows_len _ (length (k :: ks))); [reflexivity| |];
        cbn [map firstn fst snd]; repeat apply Forall_cons; try apply Forall_nil; try (rewrite map_length; apply seq_length);
        cbn [length]; rewrite map_length; reflexivity.
  - apply (nth_error_concat_row _ 3 0 (map (fun n => d n X1 X3) (seq 0 (length (k :: ks))))); rewrite ?Ha; [reflexivity|].
    cbn [length seq map nth_error]. rewrite Hd by (cbn; lia). reflexivity.
Qed.

Lemma zero_entry_calibrate : forall c opt sched m nc env p1 p2 N k1s d rows,
  (1 <= tg_nepochs c)%nat -> (1 <= length k1s)%nat ->
  data_rows (Z.of_nat nc) (length k1s) d = Some rows -> calibrates_against c nc env p1 p2 N k1s rows ->
  (nc = 6%nat /\ (forall n, (n < length k1s)%nat -> d n X1 X2 = 0)) \/ (nc = 4%nat /\ (forall n, (n < length k1s)%nat -> d n X1 X3 = 0)) ->
  forall v, fst (calibrate c opt sched m) <> Ok v.
Proof.
  intros c opt sched m nc env p1 p2 N k1s d rows Hn Hk Hr [C0 C1] H.
  apply hopeless_calibrate; [exact Hn| |].
  - intros m'. destruct (C0 m') as [A B]. destruct H as [[-> H]|[-> H]].
    + exact (six_hopeless (env m') p1 p2 N k1s d rows _ Hk Hr H A B).
    + exact (four_hopeless (env m') p1 p2 N k1s d rows _ Hk Hr H A B).
  - intros m' n. destruct (C1 m' n) as [A B]. destruct H as [[-> H]|[-> H]].
    + exact (six_hopeless (env m') p1 p2 N k1s d rows _ Hk Hr H A B).
    + exact (four_hopeless (env m') p1 p2 N k1s d rows _ Hk Hr H A B).
Qed.

Lemma kaimal_six : forall c opt sched m env p1 p2 N k1s zref ustar d rows,
  (1 <= tg_nepochs c)%nat -> (1 <= length k1s)%nat -> holds (kaimal zref ustar k1s) d ->
  data_rows 6 (length k1s) d = Some rows -> calibrates_against c 6 env p1 p2 N k1s rows ->
  forall v, fst (calibrate c opt sched m) <> Ok v.
Proof.
  intros c opt sched m env p1 p2 N k1s zref ustar d rows Hn Hk Hd Hr Hc.
  apply (zero_entry_calibrate c opt sched m 6 env p1 p2 N k1s d rows Hn Hk Hr Hc). left. split; [reflexivity|].
  intros n Hl. destruct (nth_error k1s n) as [k|] eqn:E; [|apply nth_error_None in E; lia].
  assert (K : nth_error (kaimal zref ustar k1s) n = Some (kaimal_at zref ustar k)) by (rewrite kaimal_rows, E; reflexivity).
  pose proof (Hd n _ K X1 X2) as F. unfold kaimal_at in F. cbn [xmul] in F. apply Fin_inj in F. lra.
Qed.

Lemma vk_four_six : forall c opt sched m nc env p1 p2 N k1s L C mats d rows,
  (1 <= tg_nepochs c)%nat -> (1 <= length k1s)%nat -> (nc = 4 \/ nc = 6)%nat ->
  von_karman L C k1s = Ok mats -> holds mats d ->
  data_rows (Z.of_nat nc) (length k1s) d = Some rows -> calibrates_against c nc env p1 p2 N k1s rows ->
  forall v, fst (calibrate c opt sched m) <> Ok v.
Proof.
  intros c opt sched m nc env p1 p2 N k1s L C mats d rows Hn Hk Hnc Hv Hd Hr Hc.
  assert (HL : L <> 0).
  { intros ->. unfold von_karman, Reqb in Hv. destruct (Req_EM_T 0 0); [discriminate|contradiction]. }
  destruct (vk_list L C k1s HL) as (l & E & F). rewrite Hv in E. injection E as <-.
  assert (Z0 : forall n, (n < length k1s)%nat -> d n X1 X2 = 0 /\ d n X1 X3 = 0).
  { intros n Hl. destruct (nth_error mats n) as [mt|] eqn:En.
    - destruct (nth_error k1s n) as [k|] eqn:Ek; [|apply nth_error_None in Ek; lia].
      assert (V : von_karman_at L C k = Ok mt).
      { clear - F En Ek. revert n En Ek. induction F as [|x y xs ys H F IH]; intros [|n] En Ek; try discriminate.
        - cbn in En, Ek. injection En as <-. injection Ek as <-. exact H.
        - eapply IH; eassumption. }
      destruct (vk_form L C k HL) as (m' & V' & G). rewrite V in V'. injection V' as <-.
      pose proof (Hd n mt En X1 X2) as A. pose proof (Hd n mt En X1 X3) as B. rewrite G in A, B.
      apply Fin_inj in A. apply Fin_inj in B. split; symmetry; assumption.
    - apply nth_error_None in En. assert (length k1s = length mats) by (clear - F; induction F; cbn; congruence). lia. }
  eapply zero_entry_calibrate; [exact Hn|exact Hk|exact Hr|exact Hc|].
  destruct Hnc as [->| ->]; [right|left]; (split; [reflexivity|]); intros n Hl; apply Z0; exact Hl.
Qed.

Lemma three_finite : forall e p1 p2 N k1s d rows, p1 < p2 -> (2 <= N)%nat -> (1 <= length k1s)%nat ->
  (forall k, In k k1s -> 0 < k) ->
  (forall n, (n < length k1s)%nat -> d n X1 X1 <> 0 /\ d n X2 X2 <> 0 /\ d n X3 X3 <> 0) ->
  data_rows 3 (length k1s) d = Some rows ->
  exists v, mse_term (concat (model_rows 3 (ops_output e p1 p2 N k1s))) (concat rows) = Ok (Fin v) /\ 0 <= v.
Proof.
  intros e p1 p2 N k1s d rows Hp HN Hk Hpos Hd Hr.
  assert (Hr' : rows = [map (fun n => d n X1 X1) (seq 0 (length k1s)); map (fun n => d n X2 X2) (seq 0 (length k1s));
                        map (fun n => d n X3 X3) (seq 0 (length k1s))]) by (injection Hr as <-; reflexivity).
  clear Hr. subst rows. unfold model_rows, ops_output. cbn [map firstn concat].
  set (A := map (ops_forward phi11 e p1 p2 N) k1s ++ map (ops_forward phi22 e p1 p2 N) k1s ++ map (ops_forward phi33 e p1 p2 N) k1s ++ []).
  set (B := map (fun n => d n X1 X1) (seq 0 (length k1s)) ++ map (fun n => d n X2 X2) (seq 0 (length k1s)) ++ map (fun n => d n X3 X3) (seq 0 (length k1s)) ++ []).
  destruct (mse_proper A B) as (v & E & V & _).
  - unfold A, B. rewrite !app_length, !map_length, !seq_length. reflexivity.
  - unfold A. destruct k1s as [|k ks]; [cbn in Hk; lia|]. discriminate.
  - assert (P : forall sel, low_clipped sel -> Forall (fun v => v <> 0) (map (ops_forward sel e p1 p2 N) k1s)).
    { intros sel Hs. apply Forall_forall. intros x Hx. apply in_map_iff in Hx. destruct Hx as (k & <- & Ik).
      apply Rgt_not_eq. apply forward_positive; auto. }
    unfold A, low_clipped in *. repeat (apply Forall_app; split); try apply P; try tauto. constructor.
  - assert (P : forall i, (forall n, (n < length k1s)%nat -> d n i i <> 0) -> Forall (fun v => v <> 0) (map (fun n => d n i i) (seq 0 (length k1s)))).
    { intros i Hi. apply Forall_forall. intros x Hx. apply in_map_iff in Hx. destruct Hx as (n & <- & In'). apply in_seq in In'. apply Hi. lia. }
    unfold B. repeat (apply Forall_app; split); try (apply P; intros n Hn; apply Hd; exact Hn). constructor.
  - exists v. split; [exact E|exact V].
Qed.

Lemma kaimal_published : forall zref ustar k1, 0 < k1 -> 0 < zref ->
  let n := k1 * zref / (2 * PI) in
  finite_matrix (kaimal_at zref ustar k1) (fun i j => ustar^2 *
    match i, j with
    | X1, X1 => 52.5 * n / Rpower (1 + 33 * n) (5/3)
    | X2, X2 => 8.5 * n / Rpower (1 + 9.5 * n) (5/3)
    | X3, X3 => 1.05 * n / (1 + 5.3 * Rpower n (5/3))
    | X1, X3 => - (7 * n / Rpower (1 + 9.6 * n) 2.4)
    | _, _ => 0
    end).
Proof.
  intros zref ustar k1 Hk Hz n i j. rewrite kaimal_form by assumption.
  replace (1 / (2 * PI) * k1 * zref) with n by (unfold n; pose proof PI_RGT_0; field; lra).
  f_equal. rewrite Rmult_comm. f_equal. unfold kmat, kuu, kvv, kww, kuw.
  replace (12/5) with 2.4 by lra. replace (96/10) with 9.6 by lra. replace (525/10) with 52.5 by lra. replace (95/10) with 9.5 by lra.
  replace (85/10) with 8.5 by lra. replace (105/100) with 1.05 by lra. replace (53/10) with 5.3 by lra.
  destruct i, j; try reflexivity. unfold Rdiv. ring.
Qed.

Lemma vk_published : forall L C k1, L <> 0 -> exists m, von_karman_at L C k1 = Ok m
  /\ finite_matrix m (fun i j => k1 * match i, j with
     | X1, X1 => 9/55 * C / Rpower (/ L^2 + k1^2) (5/6)
     | X2, X2 | X3, X3 => 3/110 * C * (3 / L^2 + 8 * k1^2) / Rpower (/ L^2 + k1^2) (11/6)
     | _, _ => 0 end).
Proof.
  intros L C k1 HL. destruct (vk_form L C k1 HL) as (m & E & F). exists m. split; [exact E|].
  intros i j. rewrite F. f_equal. unfold vk_uu, vk_vv, Rdiv. destruct i, j; ring.
Qed.
