(** Lemmas about rounding to doubles. *)

From Coq Require Import Reals List ZArith Bool Lia Lra.
From Flocq Require Import Core Relative Mult_error.
From Verif Require Import Prelude FloModel FloSpec.
Open Scope R_scope.

Local Notation fexp := (FLT_exp (-1074) 53).

#[global] Instance prec53 : Prec_gt_0 53.
Proof. reflexivity. Qed.

Lemma dbl_le : forall x y, x <= y -> dbl x <= dbl y.
Proof. intros x y H. apply round_le; [apply FLT_exp_valid; reflexivity|apply valid_rnd_N|exact H]. Qed.

Lemma dbl_id : forall x, is_dbl x -> dbl x = x.
Proof. intros x H. apply round_generic; [apply valid_rnd_N|exact H]. Qed.

Lemma dbl_is : forall x, is_dbl (dbl x).
Proof. intros x. apply generic_format_round; [apply FLT_exp_valid; reflexivity|apply valid_rnd_N]. Qed.

Lemma dbl_opp : forall x, dbl (- x) = - dbl x.
Proof. intros x. apply round_NE_opp. Qed.

Lemma is_opp : forall x, is_dbl x -> is_dbl (- x).
Proof. intros x H. apply generic_format_opp. exact H. Qed.

Lemma is_0 : is_dbl 0.
Proof. apply generic_format_0. Qed.

Lemma dbl_0 : dbl 0 = 0.
Proof. apply dbl_id, is_0. Qed.

Lemma dbl_low : forall x y, is_dbl x -> x <= y -> x <= dbl y.
Proof. intros x y H L. rewrite <- (dbl_id x H). apply dbl_le. exact L. Qed.

Lemma dbl_high : forall x y, is_dbl y -> x <= y -> dbl x <= y.
Proof. intros x y H L. rewrite <- (dbl_id y H). apply dbl_le. exact L. Qed.

Lemma dbl_pos : forall x, 0 <= x -> 0 <= dbl x.
Proof. intros x H. apply dbl_low; [apply is_0|exact H]. Qed.

(** Numbers with a 53-bit mantissa. *)
Lemma is_mant : forall m e, (Z.abs m < 2 ^ 53)%Z -> (-1074 <= e)%Z -> is_dbl (IZR m * bpow radix2 e).
Proof. intros m e H1 H2. apply generic_format_FLT. exists (Float radix2 m e); [reflexivity|exact H1|exact H2]. Qed.

Lemma is_int : forall z, (Z.abs z < 2 ^ 53)%Z -> is_dbl (IZR z).
Proof. intros z H. replace (IZR z) with (IZR z * bpow radix2 0) by (change (bpow radix2 0) with 1; ring). apply is_mant; [exact H|lia]. Qed.

Lemma is_bpow : forall e, (-1074 <= e)%Z -> is_dbl (bpow radix2 e).
Proof. intros e H. replace (bpow radix2 e) with (IZR 1 * bpow radix2 e) by ring. apply is_mant; [lia|exact H]. Qed.

Lemma bpow_nat : forall n, bpow radix2 (Z.of_nat n) = 2 ^ n.
Proof. intros n. rewrite bpow_powerRZ, <- pow_powerRZ. reflexivity. Qed.

Lemma bpow_neg : forall n, bpow radix2 (- Z.of_nat n) = / 2 ^ n.
Proof. intros n. rewrite bpow_opp, bpow_nat. reflexivity. Qed.

Lemma dbl_rel : forall x, / 2 ^ 1022 <= Rabs x -> Rabs (dbl x - x) <= / 2 ^ 53 * Rabs x.
Proof.
  intros x H. rewrite <- bpow_neg in H. pose proof (relative_error_N_FLT radix2 (-1074) 53 eq_refl (fun x => negb (Z.even x)) x H) as E. unfold dbl.
  change (bpow radix2 (Z.opp 53 + 1)) with (bpow radix2 (- Z.of_nat 52)) in E. rewrite bpow_neg, <- Rinv_mult in E. exact E.
Qed.

(** Exact value of a rounding. *)
Lemma dbl_val : forall x m e, (-1074 <= e)%Z -> bpow radix2 (e + 52) <= x < bpow radix2 (e + 53) ->
  Rabs (x * bpow radix2 (- e) - IZR m) < / 2 -> dbl x = IZR m * bpow radix2 e.
Proof.
  intros x m e HE HX HM. assert (HP : 0 < x) by (pose proof (bpow_gt_0 radix2 (e + 52)); lra).
  assert (EM : mag radix2 x = (e + 53)%Z :> Z) by (apply mag_unique_pos; replace (e + 53 - 1)%Z with (e + 52)%Z by lia; exact HX).
  assert (EC : cexp radix2 fexp x = e) by (unfold cexp; rewrite EM; unfold FLT_exp; lia).
  unfold dbl, round, scaled_mantissa, F2R. rewrite EC. cbn [Fnum Fexp]. rewrite (Znearest_imp _ _ m HM). reflexivity.
Qed.

(** Halving is exact. *)
Lemma is_scaled : forall x k, is_dbl x -> / 2 ^ 1022 <= Rabs x / 2 ^ k -> is_dbl (x / 2 ^ k).
Proof.
  intros x k H HX. assert (P : 0 < 2 ^ k) by (apply pow_lt; lra).
  unfold Rdiv. rewrite <- bpow_neg. apply (mult_bpow_exact_FLT radix2 (-1074) 53); [exact H|].
  assert (HB : bpow radix2 (-1022 + Z.of_nat k) <= Rabs x).
  { rewrite bpow_plus, bpow_nat. change (-1022)%Z with (- Z.of_nat 1022)%Z. rewrite bpow_neg.
    apply Rmult_le_reg_r with (/ 2 ^ k); [apply Rinv_0_lt_compat; exact P|]. rewrite Rmult_assoc, Rinv_r by lra. unfold Rdiv in HX. lra. }
  assert (HM : (-1022 + Z.of_nat k < mag radix2 x)%Z); [|lia].
  apply (lt_bpow radix2). apply Rle_lt_trans with (1 := HB). apply bpow_mag_gt.
Qed.

(** ** Bounds in terms of the unit roundoff *)

Definition uro : R := / 2 ^ 53.

Lemma uro_pos : 0 < uro.
Proof. apply Rinv_0_lt_compat, pow_lt. lra. Qed.

Lemma pow_inv_mono : forall a b, (a <= b)%nat -> / 2 ^ b <= / 2 ^ a.
Proof. intros a b H. apply Rinv_le_contravar; [apply pow_lt; lra|apply Rle_pow; [lra|exact H]]. Qed.

Lemma uro_small : uro <= / 10 ^ 15.
Proof. unfold uro. apply Rinv_le_contravar; lra. Qed.

Lemma dbl_bounds : forall x, / 2 ^ 1022 <= x -> x * (1 - uro) <= dbl x <= x * (1 + uro).
Proof.
  intros x H. assert (P : 0 < / 2 ^ 1022) by (apply Rinv_0_lt_compat, pow_lt; lra).
  assert (E : Rabs x = x) by (apply Rabs_right; lra). pose proof (dbl_rel x) as D. rewrite E in D. specialize (D H). apply Rabs_le_inv in D. fold uro in D. lra.
Qed.

Lemma dbl_abs : forall x, Rabs (dbl x) = dbl (Rabs x).
Proof. intros x. symmetry. apply round_NE_abs. apply FLT_exp_valid. reflexivity. Qed.

Lemma is_pow : forall n, is_dbl (2 ^ n).
Proof. intros n. rewrite <- bpow_nat. apply is_bpow. lia. Qed.

Lemma is_inv_pow : forall n, (n <= 1074)%nat -> is_dbl (/ 2 ^ n).
Proof. intros n H. rewrite <- bpow_neg. apply is_bpow. lia. Qed.

Lemma is_nat : forall n, (n <= 2 ^ 52)%nat -> is_dbl (INR n).
Proof.
  intros n H. rewrite INR_IZR_INZ. apply is_int. rewrite Z.abs_eq by lia. apply Nat2Z.inj_le in H. rewrite Nat2Z.inj_pow in H.
  change (Z.of_nat 2) with 2%Z in H. change (Z.of_nat 52) with 52%Z in H. lia.
Qed.

Lemma INR_pow2 : forall n, INR (2 ^ n) = 2 ^ n.
Proof. intros n. rewrite pow_INR. reflexivity. Qed.
