(** Relative errors accumulated by operations in double precision. *)

From Coq Require Import Reals List ZArith Bool Lia Lra.
From Flocq Require Import Core.
From Verif Require Import Prelude GenModel GenProofs DftModel LowModel FloModel FloSpec FloBase FloGrid.
Import ListNotations.
Open Scope R_scope.

Local Notation Zceil := GenModel.Zceil.

(** One rounding changes a number by a factor between 1 / [oneup] and [oneup]. *)
Definition oneup : R := 1 + 2 * uro.

Definition near (k : nat) (x y : R) : Prop := x <= y * oneup ^ k /\ y <= x * oneup ^ k.

Definition range (k : nat) (x : R) : Prop := / 2 ^ k <= x <= 2 ^ k.

Lemma oneup_1 : 1 < oneup.
Proof. unfold oneup. pose proof u_facts as (U & _). lra. Qed.

Lemma oneup_pos : forall k, 0 < oneup ^ k.
Proof. intros k. apply pow_lt. pose proof oneup_1. lra. Qed.

Lemma oneup_small : forall k, (k <= 100)%nat -> oneup ^ k <= 1 + 2 * INR k * uro + INR k * INR k * uro * / 10 ^ 12.
Proof.
  pose proof u_facts as (U1 & U2 & _).
  induction k as [|k IH]; intros Hk; [cbn [pow INR]; nra|].
  specialize (IH ltac:(lia)). assert (K : INR k <= 100) by (rewrite <- (INR_IZR_INZ 100) || idtac; replace 100 with (INR 100) by (simpl; lra); apply le_INR; lia).
  pose proof (pos_INR k) as K0. rewrite S_INR. change (oneup ^ S k) with (oneup * oneup ^ k). unfold oneup at 1.
  set (x := INR k) in *. set (y := oneup ^ k) in *.
  assert (Y : y <= 2) by nra.
  assert (A1 : 2 * uro * y <= 2 * uro * (1 + 2 * x * uro + x * x * uro * / 10 ^ 12)) by (apply Rmult_le_compat_l; lra).
  assert (A2 : uro * (x * uro) <= uro * (x * / 10 ^ 15)) by (apply Rmult_le_compat_l; [lra|apply Rmult_le_compat_l; lra]).
  assert (A3 : uro * (x * x * uro) <= uro * (x * x * / 10 ^ 15)) by (apply Rmult_le_compat_l; [lra|apply Rmult_le_compat_l; nra]).
  assert (X2 : x * x <= 100 * x) by nra.
  assert (A4 : uro * (x * x) <= uro * (100 * x)) by (apply Rmult_le_compat_l; lra).
  assert (A5 : 0 <= uro * x) by nra. assert (A6 : 0 <= uro * (x * x)) by nra. lra.
Qed.

Lemma near_refl : forall x, near 0 x x.
Proof. intros x. split; cbn [pow]; lra. Qed.

Lemma near_pos : forall k x y, near k x y -> 0 < x -> 0 < y.
Proof. intros k x y [A _] H. pose proof (oneup_pos k) as P. destruct (Rle_dec y 0) as [N|N]; [|lra]. nra. Qed.

Lemma near_mul : forall k l x y a b, 0 < x -> 0 < a -> near k x y -> near l a b -> near (k + l) (x * a) (y * b).
Proof.
  intros k l x y a b Hx Ha N M. pose proof (near_pos _ _ _ N Hx). pose proof (near_pos _ _ _ M Ha). destruct N as [N1 N2], M as [M1 M2].
  split; rewrite pow_add.
  - replace (y * b * (oneup ^ k * oneup ^ l)) with ((y * oneup ^ k) * (b * oneup ^ l)) by ring. apply Rmult_le_compat; lra.
  - replace (x * a * (oneup ^ k * oneup ^ l)) with ((x * oneup ^ k) * (a * oneup ^ l)) by ring. apply Rmult_le_compat; lra.
Qed.

Lemma near_inv : forall l a b, 0 < a -> near l a b -> near l (/ a) (/ b).
Proof.
  intros l a b Ha M. pose proof (near_pos _ _ _ M Ha) as Hb. destruct M as [M1 M2]. pose proof (oneup_pos l) as P. split.
  - apply Rmult_le_reg_r with (a * b); [nra|]. replace (/ a * (a * b)) with b by (field; lra). replace (/ b * oneup ^ l * (a * b)) with (a * oneup ^ l) by (field; lra). exact M2.
  - apply Rmult_le_reg_r with (a * b); [nra|]. replace (/ b * (a * b)) with a by (field; lra). replace (/ a * oneup ^ l * (a * b)) with (b * oneup ^ l) by (field; lra). exact M1.
Qed.

Lemma near_div : forall k l x y a b, 0 < x -> 0 < a -> near k x y -> near l a b -> near (k + l) (x / a) (y / b).
Proof. intros k l x y a b Hx Ha N M. apply near_mul; [exact Hx|apply Rinv_0_lt_compat; exact Ha|exact N|apply near_inv; assumption]. Qed.

Lemma near_trans : forall k l x y z, near k x y -> near l y z -> near (k + l) x z.
Proof.
  intros k l x y z [A B] [C D]. pose proof (oneup_pos k) as P. pose proof (oneup_pos l) as Q. split; rewrite pow_add.
  - apply Rle_trans with (1 := A). replace (z * (oneup ^ k * oneup ^ l)) with (z * oneup ^ l * oneup ^ k) by ring. apply Rmult_le_compat_r; lra.
  - apply Rle_trans with (1 := D). rewrite <- Rmult_assoc. apply Rmult_le_compat_r; lra.
Qed.

Lemma near_dbl_one : forall x, / 2 ^ 1022 <= x -> near 1 x (dbl x).
Proof.
  intros x H. assert (0 < / 2 ^ 1022) by (apply Rinv_0_lt_compat, pow_lt; lra). pose proof (dbl_bounds x H) as [A B]. pose proof u_facts as (U1 & U2 & _).
  unfold near, oneup. rewrite pow_1. split; [|nra].
  apply Rle_trans with (x * (1 - uro) * (1 + 2 * uro)); [|apply Rmult_le_compat_r; lra].
  assert (1 <= (1 - uro) * (1 + 2 * uro)) by nra. rewrite Rmult_assoc. rewrite <- (Rmult_1_r x) at 1. apply Rmult_le_compat_l; lra.
Qed.

Lemma near_dbl : forall k x y, near k x y -> / 2 ^ 1022 <= y -> near (k + 1) x (dbl y).
Proof. intros k x y N H. apply near_trans with y; [exact N|apply near_dbl_one; exact H]. Qed.

Lemma near_bounds : forall k x y, (k <= 7)%nat -> 0 < x -> near k x y -> x * (1 - / 2 ^ 49) <= y <= x * (1 + / 2 ^ 49).
Proof.
  intros k x y Hk Hx N. pose proof (near_pos _ _ _ N Hx) as Hy. destruct N as [A B]. pose proof u_facts as (U1 & U2 & U3).
  assert (S : oneup ^ k <= 1 + 15 * uro).
  { apply Rle_trans with (1 := oneup_small k ltac:(lia)). assert (INR k <= 7) by (replace 7 with (INR 7) by (simpl; lra); apply le_INR; exact Hk). pose proof (pos_INR k).
    assert (INR k * INR k <= 49) by nra. assert (uro * INR k <= uro * 7) by (apply Rmult_le_compat_l; lra).
    assert (uro * (INR k * INR k) <= uro * 49) by (apply Rmult_le_compat_l; lra). lra. }
  assert (E : / 2 ^ 49 = 16 * uro) by (apply Rmult_eq_reg_r with (2 ^ 53); [|apply pow_nonzero; lra]; replace (16 * uro * 2 ^ 53) with (16 * (uro * 2 ^ 53)) by ring; rewrite U3; lra).
  rewrite E. assert (P : 0 < oneup ^ k) by apply oneup_pos. split.
  - apply Rmult_le_reg_r with (1 + 15 * uro); [lra|]. apply Rle_trans with x.
    + rewrite Rmult_assoc. rewrite <- (Rmult_1_r x) at 2. apply Rmult_le_compat_l; [lra|]. nra.
    + apply Rle_trans with (1 := A). apply Rmult_le_compat_l; lra.
  - apply Rle_trans with (1 := B). apply Rmult_le_compat_l; lra.
Qed.

Lemma range_pos : forall k x, range k x -> 0 < x.
Proof. intros k x [A _]. assert (0 < / 2 ^ k) by (apply Rinv_0_lt_compat, pow_lt; lra). lra. Qed.

Lemma range_mul : forall k l x y, range k x -> range l y -> range (k + l) (x * y).
Proof.
  intros k l x y A B. pose proof (range_pos _ _ A). pose proof (range_pos _ _ B). destruct A as [A1 A2], B as [B1 B2]. split; rewrite pow_add.
  - rewrite Rinv_mult. assert (0 < / 2 ^ k) by (apply Rinv_0_lt_compat, pow_lt; lra). assert (0 < / 2 ^ l) by (apply Rinv_0_lt_compat, pow_lt; lra). apply Rmult_le_compat; lra.
  - apply Rmult_le_compat; lra.
Qed.

Lemma range_inv : forall k x, range k x -> range k (/ x).
Proof.
  intros k x A. pose proof (range_pos _ _ A). destruct A as [A1 A2]. split.
  - apply Rinv_le_contravar; assumption.
  - rewrite <- (Rinv_inv (2 ^ k)). apply Rinv_le_contravar; [apply Rinv_0_lt_compat, pow_lt; lra|exact A1].
Qed.

Lemma range_div : forall k l x y, range k x -> range l y -> range (k + l) (x / y).
Proof. intros k l x y A B. apply range_mul; [exact A|apply range_inv; exact B]. Qed.

Lemma range_dbl : forall k x, (k <= 1000)%nat -> range k x -> range k (dbl x).
Proof. intros k x H [A B]. split; [apply dbl_low; [apply is_inv_pow; lia|exact A]|apply dbl_high; [apply is_pow|exact B]]. Qed.

Lemma range_low : forall k x, (k <= 1000)%nat -> range k x -> / 2 ^ 1022 <= x.
Proof. intros k x H [A _]. pose proof (pow_inv_mono k 1022 ltac:(lia)). lra. Qed.

Lemma range_up : forall k l x, (k <= l)%nat -> range k x -> range l x.
Proof. intros k l x H [A B]. split; [pose proof (pow_inv_mono k l H); lra|apply Rle_trans with (1 := B); apply Rle_pow; [lra|exact H]]. Qed.

Lemma range_moderate : forall x, moderate x -> range 100 x.
Proof. intros x [_ H]. exact H. Qed.

Lemma range_nat : forall n k, (1 <= n)%nat -> (n <= 2 ^ k)%nat -> range k (INR n).
Proof.
  intros n k A B. split; [|rewrite <- INR_pow2; apply le_INR; exact B].
  apply Rle_trans with 1; [|change 1 with (INR 1); apply le_INR; exact A]. rewrite <- Rinv_1. apply Rinv_le_contravar; [lra|]. apply pow_R1_Rle. lra.
Qed.

Lemma range_1 : range 1 1.
Proof. split; cbn [pow]; lra. Qed.

Lemma dbl_nat : forall n k, (k <= 52)%nat -> (n <= 2 ^ k)%nat -> dbl (INR n) = INR n.
Proof. intros n k A B. apply dbl_id, is_nat. apply Nat.le_trans with (1 := B). apply Nat.pow_le_mono_r; [lia|exact A]. Qed.

(** A quotient and its rounding. *)
Lemma quot : forall k x y a b l m, near k x y -> near l a b -> 0 < x -> 0 < a -> range m (y / b) -> (m <= 1000)%nat -> near (k + l + 1) (x / a) (dbl (y / b)).
Proof. intros k x y a b l m N M Hx Ha R H. apply near_dbl; [apply near_div; assumption|apply range_low with m; assumption]. Qed.

Lemma prod : forall k x y a b l m, near k x y -> near l a b -> 0 < x -> 0 < a -> range m (y * b) -> (m <= 1000)%nat -> near (k + l + 1) (x * a) (dbl (y * b)).
Proof. intros k x y a b l m N M Hx Ha R H. apply near_dbl; [apply near_mul; assumption|apply range_low with m; assumption]. Qed.
