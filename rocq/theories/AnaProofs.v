(** Truncation of the analytical low-frequency spectra (C165). *)

From Coq Require Import String Reals List ZArith Bool Lia Lra.
From Coquelicot Require Import Coquelicot.
From Verif Require Import Prelude GenModel GenSpec DftModel DftSpec LowModel LowSpec LowProofs LowMore LowSpectrum LowCov LowDemo QuadTensor AnisoProofs EstSpec EstProofs EstRiemann EstLimit.
Import ListNotations.
Open Scope R_scope.

(** ** Integrals of even functions *)

Lemma power_int : forall p B B', 0 < p -> 0 < B -> B <= B' ->
  is_RInt (fun x => Rpower x (- p - 1)) B B' ((Rpower B (- p) - Rpower B' (- p)) / p).
Proof.
  intros p B B' Hp HB HBB.
  replace ((Rpower B (- p) - Rpower B' (- p)) / p) with (minus (- Rpower B' (- p) / p) (- Rpower B (- p) / p))
    by (unfold minus, plus, opp; cbn; field; lra).
  apply (is_RInt_derive (fun x => - Rpower x (- p) / p)).
  - intros x Hx. rewrite Rmin_left, Rmax_right in Hx by lra. unfold Rpower. auto_derive; [lra|].
    replace ((- p - 1) * ln x) with (- p * ln x + - ln x) by ring. rewrite exp_plus, exp_Ropp, exp_ln by lra. field. lra.
  - intros x Hx. rewrite Rmin_left, Rmax_right in Hx by lra.
    apply (c_Rpower (fun x => x) (- p - 1)); [apply continuous_id | lra].
Qed.

Lemma even_piece : forall (f : R -> R) B B', (forall x, continuous f x) -> (forall x, f (- x) = f x) ->
  RInt f (- B') (- B) = RInt f B B'.
Proof.
  intros f B B' Hc He.
  assert (Hx : forall a b, ex_RInt f a b) by (intros a b; apply (@ex_RInt_continuous R_CompleteNormedModule); intros z _; apply Hc).
  transitivity (- RInt f (- B) (- B')).
  { symmetry. apply (opp_RInt_swap f). apply Hx. }
  assert (HI : is_RInt (fun y => opp (f (- y))) B B' (RInt f (- B) (- B'))) by (apply (is_RInt_comp_opp f), (RInt_correct f), Hx).
  assert (HE : is_RInt (fun y => opp (f y)) B B' (opp (RInt f B B'))) by (apply (is_RInt_opp f), (RInt_correct f), Hx).
  apply (is_RInt_ext _ (fun y => opp (f y))) in HI; [|intros x _; rewrite He; reflexivity].
  pose proof (is_RInt_unique _ _ _ _ HI) as U1. pose proof (is_RInt_unique _ _ _ _ HE) as U2.
  rewrite U2 in U1. rewrite <- U1. unfold opp. cbn. ring.
Qed.

Lemma even_split : forall (f : R -> R) B B', (forall x, continuous f x) -> (forall x, f (- x) = f x) ->
  RInt f (- B') B' = RInt f (- B) B + 2 * RInt f B B'.
Proof.
  intros f B B' Hc He.
  assert (Hx : forall a b, ex_RInt f a b) by (intros a b; apply (@ex_RInt_continuous R_CompleteNormedModule); intros z _; apply Hc).
  rewrite <- (RInt_Chasles f (- B') (- B) B') by apply Hx. rewrite <- (RInt_Chasles f (- B) B B') by apply Hx.
  rewrite (even_piece f B B' Hc He). unfold plus. cbn. ring.
Qed.

Lemma even_tail : forall (f : R -> R) M p B B', (forall x, continuous f x) -> (forall x, f (- x) = f x) -> (forall x, 0 <= f x) ->
  0 < p -> 0 < B -> B <= B' -> (forall x, B <= x -> f x <= M * Rpower x (- p - 1)) -> 0 <= M ->
  RInt f (- B) B <= RInt f (- B') B' <= RInt f (- B) B + 2 * M / p * Rpower B (- p).
Proof.
  intros f M p B B' Hc He Hp0 Hp HB HBB Hb HM.
  assert (Hx : forall a b, ex_RInt f a b) by (intros a b; apply (@ex_RInt_continuous R_CompleteNormedModule); intros z _; apply Hc).
  rewrite (even_split f B B' Hc He).
  assert (H0 : 0 <= RInt f B B') by (apply RInt_ge_0; [exact HBB | apply Hx | intros x _; apply Hp0]).
  assert (H1 : RInt f B B' <= M * ((Rpower B (- p) - Rpower B' (- p)) / p)).
  { pose proof (power_int p B B' Hp HB HBB) as HI.
    assert (HI2 : is_RInt (fun x => M * Rpower x (- p - 1)) B B' (M * ((Rpower B (- p) - Rpower B' (- p)) / p))).
    { apply (is_RInt_scal (fun x => Rpower x (- p - 1)) B B' M). exact HI. }
    rewrite <- (is_RInt_unique _ _ _ _ HI2). apply RInt_le; [exact HBB | apply Hx | eexists; exact HI2 |].
    intros x Hxx. apply Hb. lra. }
  assert (H2 : 0 < Rpower B' (- p)) by (unfold Rpower; apply exp_pos).
  assert (H3 : M * ((Rpower B (- p) - Rpower B' (- p)) / p) <= M / p * Rpower B (- p)).
  { replace (M * ((Rpower B (- p) - Rpower B' (- p)) / p)) with (M / p * Rpower B (- p) - M / p * Rpower B' (- p)) by (field; lra).
    assert (0 <= M / p) by (apply Rmult_le_pos; [exact HM | left; apply Rinv_0_lt_compat; exact Hp]). nra. }
  split; [lra|]. replace (2 * M / p * Rpower B (- p)) with (2 * (M / p * Rpower B (- p))) by (field; lra). lra.
Qed.

(** ** Bounds of the integrands *)

Lemma E_bound : forall c L zi x, 0 <= c -> 0 < L -> 0 < x -> 0 <= E_exact c L zi x <= c * Rpower x (-5/3).
Proof.
  intros c L zi x Hc HL Hx. unfold E_exact.
  assert (HL2 : 0 < / L^2) by (apply Rinv_0_lt_compat, pow_lt; exact HL).
  assert (Hx2 : 0 < x^2) by (apply pow_lt; exact Hx). assert (Hx3 : 0 < x^3) by (apply pow_lt; exact Hx).
  assert (HD1 : Rpower x (14/3) <= Rpower (/ L^2 + x^2) (7/3)).
  { replace (Rpower x (14/3)) with (Rpower (x^2) (7/3)).
    - apply Rle_Rpower_l; lra.
    - replace (x^2) with (Rpower x 2) by (replace 2 with (INR 2) by reflexivity; rewrite Rpower_pow by exact Hx; reflexivity).
      rewrite Rpower_mult. f_equal. lra. }
  assert (HP : 0 < Rpower x (14/3)) by (unfold Rpower; apply exp_pos).
  assert (Hz : 1 <= 1 + x^2 * zi^2) by (pose proof (pow2_ge_0 zi); nra).
  assert (HD : Rpower x (14/3) <= Rpower (/ L^2 + x^2) (7/3) * (1 + x^2 * zi^2)).
  { rewrite <- (Rmult_1_r (Rpower x (14/3))). apply Rmult_le_compat; lra. }
  split.
  - apply Rmult_le_pos; [apply Rmult_le_pos; lra | left; apply Rinv_0_lt_compat; lra].
  - unfold Rdiv. rewrite Rmult_assoc. apply Rmult_le_compat_l; [exact Hc|].
    apply Rle_trans with (x^3 * / Rpower x (14/3)).
    + apply Rmult_le_compat_l; [lra|]. apply Rinv_le_contravar; assumption.
    + right. replace (x^3) with (Rpower x 3) by (replace 3 with (INR 3) by (cbn; lra); rewrite Rpower_pow by exact Hx; reflexivity).
      rewrite <- Rpower_Ropp, <- Rpower_plus. f_equal. lra.
Qed.

Lemma kappa_ge : forall psi k1 x, 0 <= x -> sqrt 2 * Rabs (sin psi) * x <= kappa_of psi k1 x.
Proof.
  intros psi k1 x Hx. unfold kappa_of.
  replace (sqrt 2 * Rabs (sin psi) * x) with (sqrt (2 * (x * sin psi)^2)).
  - apply sqrt_le_1_alt. pose proof (pow2_ge_0 (k1 * cos psi)). lra.
  - rewrite sqrt_mult by (try lra; apply pow2_ge_0). rewrite Rmult_assoc. f_equal.
    replace ((x * sin psi)^2) with (Rsqr (x * sin psi)) by (unfold Rsqr; ring).
    rewrite sqrt_Rsqr_abs, Rabs_mult, (Rabs_pos_eq x) by exact Hx. ring.
Qed.

Section Bounds.
Variables (c L psi zi k1 : R).
Hypotheses (Hc : 0 <= c) (HL : 0 < L) (HL6 : L <= 10^6) (Hk : / 10^10 <= Rabs k1) (Hkc : / 10^10 <= Rabs (k1 * cos psi)).

Let f1 := integrand11 c L psi zi k1.
Let f2 := integrand22 c L psi zi k1.

Lemma sq_ge : forall y, / 10^10 <= Rabs y -> / 10^20 <= y^2.
Proof.
  intros y Hy. rewrite <- (pow2_abs y). assert (P : 0 < / 10^10) by (apply Rinv_0_lt_compat; lra).
  replace (/ 10^20) with (/ 10^10 * / 10^10) by (field; lra). replace (Rabs y ^ 2) with (Rabs y * Rabs y) by ring.
  apply Rmult_le_compat; lra.
Qed.

Lemma resolved_here : / 10^20 <= k1^2 /\ forall x, / 10^20 <= low_kappa2 psi k1 x.
Proof.
  split; [apply sq_ge; exact Hk|]. intros x. pose proof (sq_ge _ Hkc) as Q. unfold low_kappa2.
  pose proof (pow2_ge_0 (x * sin psi)). assert (0 < / 10^20) by (apply Rinv_0_lt_compat; lra). lra.
Qed.

Lemma here_planar : forall x, f1 x = planar c L psi zi k1 x * (x^2 / (k1^2 + x^2)) /\ f2 x = planar c L psi zi k1 x * (k1^2 / (k1^2 + x^2)).
Proof.
  intros x. destruct resolved_here as [R1 R2]. pose proof tiny_order as TO. apply integrands_planar; [exact HL | exact HL6 | |].
  - pose proof (pow2_ge_0 x). lra.
  - specialize (R2 x). lra.
Qed.

Lemma here_continuous : forall x, continuous f1 x /\ continuous f2 x.
Proof. intros x. destruct resolved_here as [R1 R2]. apply integrand_continuous; assumption. Qed.

Lemma here_even : forall x, f1 (- x) = f1 x /\ f2 (- x) = f2 x.
Proof. intros x. apply integrand_even. Qed.

Lemma here_kappa : forall x, 0 < kappa_of psi k1 x.
Proof.
  intros x. destruct resolved_here as [_ R2]. specialize (R2 x). assert (0 < / 10^20) by (apply Rinv_0_lt_compat; lra).
  unfold kappa_of. apply sqrt_lt_R0. unfold low_kappa2 in R2. lra.
Qed.

Lemma here_ks : forall x, 0 < k1^2 + x^2.
Proof. intros x. destruct resolved_here as [R1 _]. assert (0 < / 10^20) by (apply Rinv_0_lt_compat; lra). pose proof (pow2_ge_0 x). lra. Qed.

Lemma planar_nonneg : forall x, 0 <= planar c L psi zi k1 x.
Proof.
  intros x. unfold planar. pose proof (E_bound c L zi _ Hc HL (here_kappa x)) as [E0 _]. pose proof PI_RGT_0.
  apply Rmult_le_pos; [exact E0 | left; apply Rinv_0_lt_compat, Rmult_lt_0_compat; [lra | apply sqrt_lt_R0, here_ks]].
Qed.

Lemma here_nonneg : forall x, 0 <= f1 x /\ 0 <= f2 x.
Proof.
  intros x. destruct (here_planar x) as [-> ->]. pose proof (planar_nonneg x). pose proof (Rinv_0_lt_compat _ (here_ks x)).
  pose proof (pow2_ge_0 x). pose proof (pow2_ge_0 k1).
  split; apply Rmult_le_pos; try assumption; apply Rmult_le_pos; lra.
Qed.

Hypothesis (Hs : sin psi <> 0).
Let a := sqrt 2 * Rabs (sin psi).

Lemma a_pos : 0 < a.
Proof. apply Rmult_lt_0_compat; [apply sqrt_lt_R0; lra | apply Rabs_pos_lt; exact Hs]. Qed.

Lemma planar_tail : forall x, 0 < x -> planar c L psi zi k1 x <= c * Rpower a (-5/3) / PI * Rpower x (-5/3 - 1).
Proof.
  intros x Hx. unfold planar. pose proof PI_RGT_0 as HP. pose proof (here_kappa x) as Kp.
  destruct (E_bound c L zi _ Hc HL Kp) as [E0 E1].
  assert (Hax : 0 < a * x) by (apply Rmult_lt_0_compat; [apply a_pos | exact Hx]).
  assert (E2 : Rpower (kappa_of psi k1 x) (-5/3) <= Rpower a (-5/3) * Rpower x (-5/3)).
  { rewrite Rpower_mult_distr by (first [apply a_pos | exact Hx]).
    pose proof (kappa_ge psi k1 x (Rlt_le _ _ Hx)) as Kg. fold a in Kg.
    replace (-5/3) with (- (5/3)) by lra. rewrite !Rpower_Ropp. apply Rinv_le_contravar; [unfold Rpower; apply exp_pos|].
    apply Rle_Rpower_l; lra. }
  assert (Hsq : x <= sqrt (k1^2 + x^2)).
  { rewrite <- (sqrt_pow2 x) at 1 by lra. apply sqrt_le_1_alt. pose proof (pow2_ge_0 k1). lra. }
  assert (Ex : Rpower x (-5/3 - 1) = Rpower x (-5/3) * / x).
  { unfold Rminus. rewrite Rpower_plus, Rpower_Ropp, Rpower_1 by exact Hx. reflexivity. }
  rewrite Ex.
  apply Rle_trans with (c * Rpower a (-5/3) * Rpower x (-5/3) * / (PI * x)).
  - unfold Rdiv. apply Rmult_le_compat.
    + exact E0.
    + left. apply Rinv_0_lt_compat, Rmult_lt_0_compat; [lra|]. lra.
    + rewrite Rmult_assoc. eapply Rle_trans; [exact E1|]. apply Rmult_le_compat_l; assumption.
    + apply Rinv_le_contravar; [apply Rmult_lt_0_compat; lra | apply Rmult_le_compat_l; lra].
  - right. field. lra.
Qed.

Lemma tails : forall x, 0 < x ->
  f1 x <= c * Rpower a (-5/3) / PI * Rpower x (- (5/3) - 1)
  /\ f2 x <= c * Rpower a (-5/3) * k1^2 / PI * Rpower x (- (11/3) - 1).
Proof.
  intros x Hx. destruct (here_planar x) as [-> ->]. pose proof (planar_tail x Hx) as Pt. pose proof (planar_nonneg x) as P0.
  pose proof (here_ks x) as Ks. pose proof (pow2_ge_0 k1) as K0. assert (X2 : 0 < x^2) by (apply pow_lt; exact Hx).
  replace (- (5/3) - 1) with (-5/3 - 1) by lra.
  split.
  - apply Rle_trans with (planar c L psi zi k1 x * 1); [|rewrite Rmult_1_r; exact Pt].
    apply Rmult_le_compat_l; [exact P0|]. apply Rmult_le_reg_r with (k1^2 + x^2); [exact Ks|].
    unfold Rdiv. rewrite Rmult_assoc, Rinv_l by lra. lra.
  - apply Rle_trans with ((c * Rpower a (-5/3) / PI * Rpower x (-5/3 - 1)) * (k1^2 * / x^2)).
    + apply Rmult_le_compat; [exact P0 | | exact Pt |].
      * apply Rmult_le_pos; [exact K0 | left; apply Rinv_0_lt_compat; exact Ks].
      * unfold Rdiv. apply Rmult_le_compat_l; [exact K0|]. apply Rinv_le_contravar; lra.
    + right. replace (Rpower x (- (11/3) - 1)) with (Rpower x (-5/3 - 1) * / x^2).
      * pose proof PI_RGT_0. field. lra.
      * replace (/ x^2) with (Rpower x (Ropp 2)).
        -- rewrite <- Rpower_plus. f_equal. lra.
        -- rewrite Rpower_Ropp. f_equal. replace 2 with (INR 2) by reflexivity. rewrite Rpower_pow by exact Hx. reflexivity.
Qed.

Lemma truncated : forall B B', 0 < B -> B <= B' ->
  RInt f1 (- B) B <= RInt f1 (- B') B' <= RInt f1 (- B) B + 6 / (5 * PI) * c * Rpower (a * B) (-5/3)
  /\ RInt f2 (- B) B <= RInt f2 (- B') B' <= RInt f2 (- B) B + 6 / (11 * PI) * c * (k1 / B)^2 * Rpower (a * B) (-5/3).
Proof.
  intros B B' HB HBB. pose proof PI_RGT_0 as HP.
  assert (Ha : 0 < Rpower a (-5/3)) by (unfold Rpower; apply exp_pos).
  assert (Hip : 0 < / PI) by (apply Rinv_0_lt_compat; exact HP).
  assert (HM1 : 0 <= c * Rpower a (-5/3) / PI) by (apply Rmult_le_pos; [apply Rmult_le_pos|]; lra).
  assert (HM2 : 0 <= c * Rpower a (-5/3) * k1^2 / PI).
  { apply Rmult_le_pos; [apply Rmult_le_pos; [apply Rmult_le_pos; lra | apply pow2_ge_0] | lra]. }
  assert (T1 := even_tail f1 _ (5/3) B B' (fun x => proj1 (here_continuous x)) (fun x => proj1 (here_even x)) (fun x => proj1 (here_nonneg x))
     ltac:(lra) HB HBB (fun x Hx => proj1 (tails x (Rlt_le_trans _ _ _ HB Hx))) HM1).
  assert (T2 := even_tail f2 _ (11/3) B B' (fun x => proj2 (here_continuous x)) (fun x => proj2 (here_even x)) (fun x => proj2 (here_nonneg x))
     ltac:(lra) HB HBB (fun x Hx => proj2 (tails x (Rlt_le_trans _ _ _ HB Hx))) HM2).
  rewrite <- Rpower_mult_distr by (first [apply a_pos | exact HB]).
  split.
  - replace (6 / (5 * PI) * c * (Rpower a (-5/3) * Rpower B (-5/3))) with (2 * (c * Rpower a (-5/3) / PI) / (5/3) * Rpower B (- (5/3))); [exact T1|].
    replace (- (5/3)) with (-5/3) by lra. field. lra.
  - replace (6 / (11 * PI) * c * (k1 / B)^2 * (Rpower a (-5/3) * Rpower B (-5/3)))
      with (2 * (c * Rpower a (-5/3) * k1^2 / PI) / (11/3) * Rpower B (- (11/3))); [exact T2|].
    replace (Rpower B (- (11/3))) with (Rpower B (-5/3) * / B^2).
    + field. lra.
    + replace (/ B^2) with (Rpower B (Ropp 2)).
      * rewrite <- Rpower_plus. f_equal. lra.
      * rewrite Rpower_Ropp. f_equal. replace 2 with (INR 2) by reflexivity. rewrite Rpower_pow by exact HB. reflexivity.
Qed.
End Bounds.
