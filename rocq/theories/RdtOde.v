(** The sheared kernel as a solution of the rapid-distortion equations. *)
From Coq Require Import Reals Lra Lia Psatz.
From Coquelicot Require Import Coquelicot.
From Verif Require Import Prelude RdtModel SpectraModel RdtSpec RdtProofs.
Open Scope R_scope.

Lemma atan2_ypos : forall y x, 0 < y -> atan2 y x = PI/2 - atan (x / y).
Proof.
  intros y x Hy. unfold atan2. destruct (Rlt_dec 0 x) as [Hx|Hx].
  - replace (y / x) with (/ (x / y)) by (field; lra).
    apply atan_inv. apply Rdiv_lt_0_compat; assumption.
  - destruct (Rlt_dec x 0) as [Hx'|Hx'].
    + destruct (Rlt_dec y 0); [lra|].
      replace (y / x) with (- (/ (- x / y))) by (field; lra).
      rewrite atan_opp, atan_inv by (apply Rdiv_lt_0_compat; lra).
      replace (- x / y) with (- (x / y)) by (field; lra). rewrite atan_opp. lra.
    + destruct (Rlt_dec 0 y); [|lra].
      replace x with 0 by lra. replace (0 / y) with 0 by (field; lra). rewrite atan_0. lra.
Qed.

Lemma atan2_yneg : forall y x, y < 0 -> atan2 y x = - (PI/2) - atan (x / y).
Proof.
  intros y x Hy. replace y with (- (- y)) at 1 by ring.
  rewrite atan2_opp by (left; lra). rewrite atan2_ypos by lra.
  replace (x / - y) with (- (x / y)) by (field; lra). rewrite atan_opp. lra.
Qed.

Lemma locally_gt : forall (f : R -> R) b l, is_derive f b l -> 0 < f b -> locally b (fun t => 0 < f t).
Proof.
  intros f b l Hd Hp.
  assert (Hc : continuous f b).
  { apply (@ex_derive_continuous R_AbsRing R_NormedModule f b). exists l. exact Hd. }
  apply (Hc (fun u => 0 < u)). apply (open_gt 0). exact Hp.
Qed.

Lemma locally_lt : forall (f : R -> R) b l, is_derive f b l -> f b < 0 -> locally b (fun t => f t < 0).
Proof.
  intros f b l Hd Hp.
  assert (Hc : continuous f b).
  { apply (@ex_derive_continuous R_AbsRing R_NormedModule f b). exists l. exact Hd. }
  apply (Hc (fun u => u < 0)). apply (open_lt 0). exact Hp.
Qed.

Lemma is_derive_atan : forall x, is_derive atan x (/ (1 + x^2)).
Proof.
  intro x. apply is_derive_Reals.
  apply derivable_pt_lim_atan.
Qed.

Lemma is_derive_atan2 : forall (y x : R -> R) b dy dx,
  is_derive y b dy -> is_derive x b dx -> (y b <> 0 \/ 0 < x b) ->
  is_derive (fun t => atan2 (y t) (x t)) b ((x b * dy - y b * dx) / (x b ^ 2 + y b ^ 2)).
Proof.
  intros y x b dy dx Hy Hx Hcase.
  assert (Hquot : forall (u v : R -> R) du dv, is_derive u b du -> is_derive v b dv -> v b <> 0 ->
     is_derive (fun t => atan (u t / v t)) b ((v b * du - u b * dv) / (v b ^ 2 + u b ^ 2))).
  { intros u v du dv Hu Hv Hne.
    replace ((v b * du - u b * dv) / (v b ^ 2 + u b ^ 2))
      with (scal ((du * v b - u b * dv) / (v b)^2) (/ (1 + (u b / v b)^2))).
    - apply (is_derive_comp atan (fun t => u t / v t)).
      + apply is_derive_atan.
      + evar_last; [apply is_derive_div; eassumption|]. reflexivity.
    - unfold scal; simpl; unfold mult; simpl. pose proof (sq_pos _ Hne). pose proof (pow2_ge_0 (u b)).
      field. split; [lra|]. simpl in *. nra. }
  destruct (Rlt_dec 0 (x b)) as [Hp|Hp].
  - apply (is_derive_ext_loc (fun t => atan (y t / x t))).
    + generalize (locally_gt x b dx Hx Hp). apply filter_imp. intros t Ht. symmetry. apply atan2_pos. assumption.
    + apply Hquot; [assumption|assumption|lra].
  - destruct Hcase as [Hyb|?]; [|contradiction].
    destruct (Rlt_dec 0 (y b)) as [Hyp|Hyp].
    + apply (is_derive_ext_loc (fun t => PI/2 - atan (x t / y t))).
      * generalize (locally_gt y b dy Hy Hyp). apply filter_imp. intros t Ht. symmetry. apply atan2_ypos. assumption.
      * evar_last.
        { apply @is_derive_minus; [apply @is_derive_const|]. apply Hquot; eassumption. }
        unfold minus, plus, zero, opp; simpl. pose proof (sq_pos _ Hyb). pose proof (pow2_ge_0 (x b)).
        field. simpl in *. repeat split; nra.
    + assert (Hyn : y b < 0) by lra.
      apply (is_derive_ext_loc (fun t => - (PI/2) - atan (x t / y t))).
      * generalize (locally_lt y b dy Hy Hyn). apply filter_imp. intros t Ht. symmetry. apply atan2_yneg. assumption.
      * evar_last.
        { apply @is_derive_minus; [apply @is_derive_const|]. apply Hquot; eassumption. }
        unfold minus, plus, zero, opp; simpl. pose proof (sq_pos _ Hyb). pose proof (pow2_ge_0 (x b)).
        field. simpl in *. repeat split; nra.
Qed.

Section Shear.
Variables (k1 k2 k30 : R).
Hypothesis Hk1 : k1 <> 0.

Let s := k1^2 + k2^2.
Let kk0 := k1^2 + k2^2 + k30^2.
Let kk (b : R) := k1^2 + k2^2 + (k30 - b*k1)^2.

Lemma s_gt : 0 < s. Proof. unfold s. pose proof (sq_pos k1 Hk1). nra. Qed.
Lemma kk0_gt : 0 < kk0. Proof. unfold kk0. pose proof (sq_pos k1 Hk1). nra. Qed.
Lemma kk_gt : forall b, 0 < kk b. Proof. intro b. unfold kk. pose proof (sq_pos k1 Hk1). pose proof (pow2_ge_0 k2). pose proof (pow2_ge_0 (k30 - b*k1)). lra. Qed.

Lemma theta_derive : forall b,
  is_derive (fun t => atan2 (t * k1 * sqrt s) (kk0 - k30 * k1 * t)) b (k1 * sqrt s / kk b).
Proof.
  intro b. pose proof s_gt. pose proof kk0_gt. pose proof (kk_gt b).
  assert (Hq : 0 < sqrt s) by (apply sqrt_lt_R0; assumption).
  evar_last.
  - apply (is_derive_atan2 (fun t => t * k1 * sqrt s) (fun t => kk0 - k30 * k1 * t) b (k1 * sqrt s) (- k30 * k1)).
    + auto_derive; [trivial|ring].
    + auto_derive; [trivial|ring].
    + destruct (Req_dec b 0) as [->|Hb].
      * right. simpl. lra.
      * left. apply Rmult_integral_contrapositive_currified; [|lra].
        apply Rmult_integral_contrapositive_currified; assumption.
  - replace ((kk0 - k30 * k1 * b) ^ 2 + (b * k1 * sqrt s) ^ 2) with (kk0 * kk b).
    + field_simplify_eq; [|split; lra]. ring.
    + replace ((b * k1 * sqrt s)^2) with (b^2 * k1^2 * (sqrt s)^2) by ring.
      rewrite pow2_sqrt by lra. unfold kk0, kk, s. ring.
Qed.

Let C1 (b : R) := b * k1^2 * (kk0 - 2 * k30^2 + b * k1 * k30) / (kk b * s).
Let C2 (b : R) := k2 * kk0 / sqrt (s^3) * atan2 (b * k1 * sqrt s) (kk0 - k30 * k1 * b).

Lemma sqrt_s3 : sqrt (s^3) = s * sqrt s.
Proof.
  pose proof s_gt. replace (s^3) with (s * s * s) by ring.
  rewrite sqrt_mult by nra. rewrite sqrt_square by lra. reflexivity.
Qed.

Lemma C2_derive : forall b, is_derive C2 b (k1 * k2 * kk0 / (s * kk b)).
Proof.
  intro b. pose proof s_gt. pose proof (kk_gt b).
  assert (Hq : 0 < sqrt s) by (apply sqrt_lt_R0; assumption).
  unfold C2. evar_last.
  - apply @is_derive_scal. apply theta_derive.
  - rewrite sqrt_s3. simpl. unfold mult; simpl. field. repeat split; lra.
Qed.

Lemma C1_derive : forall b, is_derive C1 b
  (k1^2 * (kk0 - 2*k30^2 + 2*b*k1*k30) / (kk b * s)
   + 2 * k1 * (k30 - b*k1) * (b * k1^2 * (kk0 - 2*k30^2 + b*k1*k30)) / (kk b ^ 2 * s)).
Proof.
  intro b. pose proof s_gt. pose proof (kk_gt b) as Hkb.
  unfold C1, kk in *. auto_derive.
  - apply Rmult_integral_contrapositive_currified; simpl in *; lra.
  - simpl in *. field. repeat split; try lra.
Qed.

Lemma fixed_k0 : forall b, k30_of b k1 (k30 - b*k1) = k30.
Proof. intro. unfold k30_of. ring. Qed.
Lemma fixed_kk0 : forall b, kk0_of b k1 k2 (k30 - b*k1) = kk0.
Proof. intro. unfold kk0_of, kk0. rewrite fixed_k0. reflexivity. Qed.

Lemma zeta1_derive : forall b,
  is_derive (fun t => fit_zeta1 t k1 k2 (k30 - t*k1)) b ((2*k1^2/kk b - 1) * (kk0 / kk b)).
Proof.
  intro b. pose proof s_gt as Hs. pose proof (kk_gt b) as Hk.
  apply (is_derive_ext (fun t => C1 t - k2/k1 * C2 t)).
  - intro t. unfold fit_zeta1, fit_C1, fit_C2. cbv zeta.
    rewrite fixed_kk0, fixed_k0. reflexivity.
  - evar_last.
    + apply @is_derive_minus; [apply C1_derive|]. apply @is_derive_scal. apply C2_derive.
    + unfold minus, plus, opp, scal; simpl; unfold mult; simpl.
      unfold kk0, kk, s in *. simpl in *. field. repeat split; lra.
Qed.

Lemma zeta2_derive : forall b,
  is_derive (fun t => fit_zeta2 t k1 k2 (k30 - t*k1)) b (2*k1*k2/kk b * (kk0 / kk b)).
Proof.
  intro b. pose proof s_gt as Hs. pose proof (kk_gt b) as Hk.
  apply (is_derive_ext (fun t => k2/k1 * C1 t + C2 t)).
  - intro t. unfold fit_zeta2, fit_C1, fit_C2. cbv zeta.
    rewrite fixed_kk0, fixed_k0. unfold C1, C2, kk_of, s_of, kk, s, Rdiv.
    match goal with |- @eq _ ?a ?b => change (@eq R a b) end. ring.
  - evar_last.
    + apply @is_derive_plus; [apply @is_derive_scal; apply C1_derive|apply C2_derive].
    + unfold minus, plus, opp, scal; simpl; unfold mult; simpl.
      unfold kk0, kk, s in *. simpl in *. field. repeat split; lra.
Qed.

Lemma zeta3_derive : forall b,
  is_derive (fun t => kk0 / kk t) b (2*k1*(k30 - b*k1)/kk b * (kk0 / kk b)).
Proof.
  intro b. pose proof (kk_gt b) as Hk. unfold kk in *. auto_derive.
  - simpl in *; lra.
  - simpl in *. field. lra.
Qed.

Lemma sheared_solves : forall E0 L b i j,
  is_derive (fun t => sheared_kernel E0 L t k1 k2 (k30 - t*k1) i j) b
    (rdt_rhs (vec k1 k2 (k30 - b*k1)) (sheared_kernel E0 L b k1 k2 (k30 - b*k1) X3 j) i).
Proof.
  intros E0 L b i j.
  set (c := kernel_const E0 L kk0).
  assert (Hn : normsq (vec k1 k2 (k30 - b*k1)) = kk b) by (unfold normsq, sum3, vec, kk; ring).
  pose proof (kk_gt b) as Hk.
  unfold rdt_rhs. rewrite Hn.
  rewrite (sheared_rows E0 L b k1 k2 (k30 - b*k1) X3 j Hk1). cbv zeta.
  rewrite fixed_kk0, fixed_k0. fold c.
  destruct i.
  - apply (is_derive_ext (fun t => cross_mat c k1 k2 k30 X1 j + cross_mat c k1 k2 k30 X3 j * fit_zeta1 t k1 k2 (k30 - t*k1))).
    + intro t. rewrite sheared_rows by assumption. cbv zeta. rewrite fixed_kk0, fixed_k0.
      match goal with |- @eq _ ?a ?b => change (@eq R a b) end. fold c. unfold kk, kk_of. ring.
    + evar_last.
      * apply @is_derive_plus; [apply @is_derive_const|]. apply @is_derive_scal. apply zeta1_derive.
      * unfold plus, zero, scal; simpl; unfold mult; simpl.
        replace (kk_of k1 k2 (k30 - b*k1)) with (kk b) by reflexivity. field. lra.
  - apply (is_derive_ext (fun t => cross_mat c k1 k2 k30 X2 j + cross_mat c k1 k2 k30 X3 j * fit_zeta2 t k1 k2 (k30 - t*k1))).
    + intro t. rewrite sheared_rows by assumption. cbv zeta. rewrite fixed_kk0, fixed_k0.
      match goal with |- @eq _ ?a ?b => change (@eq R a b) end. fold c. unfold kk, kk_of. ring.
    + evar_last.
      * apply @is_derive_plus; [apply @is_derive_const|]. apply @is_derive_scal. apply zeta2_derive.
      * unfold plus, zero, scal; simpl; unfold mult; simpl.
        replace (kk_of k1 k2 (k30 - b*k1)) with (kk b) by reflexivity. field. lra.
  - apply (is_derive_ext (fun t => cross_mat c k1 k2 k30 X3 j * (kk0 / kk t))).
    + intro t. rewrite sheared_rows by assumption. cbv zeta. rewrite fixed_kk0, fixed_k0.
      match goal with |- @eq _ ?a ?b => change (@eq R a b) end. fold c. unfold kk, kk_of. ring.
    + evar_last.
      * apply @is_derive_scal. apply zeta3_derive.
      * unfold plus, zero, scal; simpl; unfold mult; simpl.
        replace (kk_of k1 k2 (k30 - b*k1)) with (kk b) by reflexivity. field. lra.
Qed.
End Shear.
