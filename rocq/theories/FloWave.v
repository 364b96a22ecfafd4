(** Wave numbers in double precision. *)

From Coq Require Import Reals List ZArith Bool Lia Lra.
From Flocq Require Import Core.
From Verif Require Import Prelude GenModel GenProofs DftModel LowModel FloModel FloSpec FloBase FloGrid FloErr.
Import ListNotations.
Open Scope R_scope.

Local Notation Zceil := GenModel.Zceil.

(** An odd function of the integers which follows the multiples of [c]. *)
Lemma odd_follow : forall (f : Z -> R) c, 0 < c -> f 0%Z = 0 -> (forall s, f (- s)%Z = - f s) ->
  (forall s, (0 < s <= 2 ^ 40)%Z -> near 7 (c * IZR s) (f s)) ->
  (forall s, (Z.abs s <= 2 ^ 40)%Z -> Rabs (f s - c * IZR s) <= Rabs (c * IZR s) * / 2 ^ 49)
  /\ (forall s t, (Z.abs s <= 2 ^ 40)%Z -> (Z.abs t <= 2 ^ 40)%Z -> (s < t)%Z -> f s < f t).
Proof.
  intros f c Hc F0 FO FN.
  assert (P49 : 0 < / 2 ^ 49) by (apply Rinv_0_lt_compat, pow_lt; lra).
  assert (B : forall s, (0 < s <= 2 ^ 40)%Z -> c * IZR s * (1 - / 2 ^ 49) <= f s <= c * IZR s * (1 + / 2 ^ 49)).
  { intros s Hs. assert (0 < IZR s) by (apply IZR_lt; lia). apply near_bounds with 7%nat; [lia|nra|apply FN; exact Hs]. }
  assert (S40 : forall s, (s <= 2 ^ 40)%Z -> IZR s <= 2 ^ 40).
  { intros s Hs. apply IZR_le in Hs. change (2 ^ 40)%Z with 1099511627776%Z in Hs. lra. }
  assert (INC : forall s t, (0 <= s)%Z -> (s < t <= 2 ^ 40)%Z -> f s < f t).
  { intros s t Hs Ht. assert (T : 0 < IZR t) by (apply IZR_lt; lia). pose proof (B t ltac:(lia)) as [BT _].
    destruct (Z.eq_dec s 0) as [->|Hn].
    - rewrite F0. apply Rlt_le_trans with (2 := BT). apply Rmult_lt_0_compat; [nra|lra].
    - pose proof (B s ltac:(lia)) as [_ BS]. apply Rle_lt_trans with (1 := BS). apply Rlt_le_trans with (2 := BT).
      rewrite !Rmult_assoc. apply Rmult_lt_compat_l; [exact Hc|].
      assert (IZR s + 1 <= IZR t) by (rewrite <- plus_IZR; apply IZR_le; lia). pose proof (S40 t ltac:(lia)) as T40. pose proof (S40 s ltac:(lia)) as S4.
      assert (0 <= IZR s) by (apply IZR_le; lia).
      assert (IZR t * / 2 ^ 49 <= 2 ^ 40 * / 2 ^ 49) by (apply Rmult_le_compat_r; lra).
      assert (IZR s * / 2 ^ 49 <= 2 ^ 40 * / 2 ^ 49) by (apply Rmult_le_compat_r; lra). lra. }
  split.
  - assert (G : forall s, (0 <= s <= 2 ^ 40)%Z -> Rabs (f s - c * IZR s) <= Rabs (c * IZR s) * / 2 ^ 49).
    { intros s Hs. destruct (Z.eq_dec s 0) as [->|Hn].
      - rewrite F0, Rmult_0_r, Rminus_0_r, Rabs_R0. lra.
      - pose proof (B s ltac:(lia)) as [B1 B2]. assert (0 < IZR s) by (apply IZR_lt; lia). assert (0 < c * IZR s) by nra.
        rewrite (Rabs_right (c * IZR s)) by lra. apply Rabs_le. lra. }
    intros s Hs. destruct (Z_le_dec 0 s) as [H|H]; [apply G; lia|].
    specialize (G (- s)%Z ltac:(lia)). rewrite FO, opp_IZR in G. replace (c * - IZR s) with (- (c * IZR s)) in G by ring.
    rewrite Rabs_Ropp in G. replace (- f s - - (c * IZR s)) with (- (f s - c * IZR s)) in G by ring. rewrite Rabs_Ropp in G. exact G.
  - intros s t Hs Ht H. destruct (Z_le_dec 0 s) as [H0|H0]; [apply INC; lia|].
    destruct (Z_le_dec t 0) as [H1|H1].
    + pose proof (INC (- t)%Z (- s)%Z ltac:(lia) ltac:(lia)) as I. rewrite !FO in I. lra.
    + pose proof (INC 0%Z (- s)%Z ltac:(lia) ltac:(lia)) as I. pose proof (INC 0%Z t ltac:(lia) ltac:(lia)) as J. rewrite FO, F0 in I. rewrite F0 in J. lra.
Qed.

Lemma signed_bound : forall n k, (k < n)%nat -> (n <= 2 ^ 40)%nat -> (Z.abs (signed_mode n k) <= 2 ^ 40)%Z.
Proof.
  intros n k Hk Hn. apply Nat2Z.inj_le in Hn. rewrite Nat2Z.inj_pow in Hn. change (Z.of_nat 2) with 2%Z in Hn. change (Z.of_nat 40) with 40%Z in Hn.
  unfold signed_mode. destruct (Nat.ltb_spec (2 * k) n); lia.
Qed.

Lemma range_Z : forall s, (0 < s <= 2 ^ 40)%Z -> range 40 (IZR s).
Proof.
  intros s H. replace s with (Z.of_nat (Z.to_nat s)) by lia. rewrite <- INR_IZR_INZ. apply range_nat; [lia|].
  apply Nat2Z.inj_le. rewrite Nat2Z.inj_pow. change (Z.of_nat 2) with 2%Z. change (Z.of_nat 40) with 40%Z. lia.
Qed.

Lemma range_PI : range 2 PI.
Proof. pose proof PI_4. pose proof PI2_1. split; cbn [pow]; lra. Qed.

Lemma two_pi : near 2 (2 * PI) (dbl (2 * dbl PI)) /\ range 3 (dbl (2 * dbl PI)).
Proof.
  assert (R2 : range 1 2) by (split; cbn [pow]; lra). pose proof range_PI as RP. pose proof (range_dbl 2 _ ltac:(lia) RP) as RD.
  pose proof (range_mul _ _ _ _ R2 RD) as R3. cbn [Nat.add] in R3.
  split; [|apply range_dbl; [lia|exact R3]].
  apply (prod 0 2 2 PI (dbl PI) 1 3); [apply near_refl|apply near_dbl_one, range_low with 2%nat; [lia|exact RP]|lra|exact PI_RGT_0|exact R3|lia].
Qed.

(** Wave number of the signed mode [s]. *)
Definition wave_of (L : R) (n : nat) (s : Z) : R :=
  dbl (dbl (dbl (2 * dbl PI) / L) * dbl (dbl (INR n) * dbl (IZR s * dbl (1 / dbl (dbl (INR n) * 1))))).

Definition low_of (n : nat) (d : R) (s : Z) : R :=
  dbl (dbl (2 * dbl PI) * dbl (IZR s * dbl (1 / dbl (dbl (INR n) * d)))).

Lemma wave_follow : forall L n s, moderate L -> (1 <= n <= 2 ^ 40)%nat -> (0 < s <= 2 ^ 40)%Z -> near 7 (2 * PI / L * IZR s) (wave_of L n s).
Proof.
  intros L n s ML Hn Hs. unfold wave_of. rewrite (dbl_nat n 40) by lia. rewrite Rmult_1_r, (dbl_nat n 40) by lia.
  destruct two_pi as [NP RP]. pose proof (range_moderate _ ML) as RL. pose proof (range_Z s Hs) as RS.
  assert (RN : range 40 (INR n)) by (apply range_nat; lia).
  pose proof (range_div _ _ _ _ RP RL) as R1. cbn [Nat.add] in R1.
  pose proof (range_pos _ _ RL) as PL. pose proof (range_pos _ _ RN) as PN. pose proof (range_pos _ _ RS) as PS. pose proof PI_RGT_0 as PP.
  assert (N1 : near 3 (2 * PI / L) (dbl (dbl (2 * dbl PI) / L))) by (apply (quot 2 _ _ _ _ 0 103 NP (near_refl L)); [lra|exact PL|exact R1|lia]).
  pose proof (range_div _ _ _ _ range_1 RN) as R2. cbn [Nat.add] in R2.
  assert (N2 : near 1 (1 / INR n) (dbl (1 / INR n))) by (apply near_dbl_one, range_low with 41%nat; [lia|exact R2]).
  pose proof (range_dbl 41 _ ltac:(lia) R2) as R3. pose proof (range_mul _ _ _ _ RS R3) as R4. cbn [Nat.add] in R4.
  assert (PI1 : 0 < 1 / INR n) by (apply range_pos with 41%nat; exact R2).
  assert (N3 : near 2 (IZR s * (1 / INR n)) (dbl (IZR s * dbl (1 / INR n)))) by (apply (prod 0 _ _ _ _ 1 81 (near_refl _) N2); [exact PS|exact PI1|exact R4|lia]).
  pose proof (range_dbl 81 _ ltac:(lia) R4) as R5. pose proof (range_mul _ _ _ _ RN R5) as R6. cbn [Nat.add] in R6.
  assert (N4 : near 3 (INR n * (IZR s * (1 / INR n))) (dbl (INR n * dbl (IZR s * dbl (1 / INR n))))) by (apply (prod 0 _ _ _ _ 2 121 (near_refl _) N3); [exact PN|apply Rmult_lt_0_compat; assumption|exact R6|lia]).
  pose proof (range_dbl 121 _ ltac:(lia) R6) as R7. pose proof (range_dbl 103 _ ltac:(lia) R1) as R8. pose proof (range_mul _ _ _ _ R8 R7) as R9. cbn [Nat.add] in R9.
  replace (2 * PI / L * IZR s) with (2 * PI / L * (INR n * (IZR s * (1 / INR n)))) by (field; lra).
  apply (prod 3 _ _ _ _ 3 224 N1 N4); [apply Rdiv_lt_0_compat; lra|apply Rmult_lt_0_compat; [lra|apply Rmult_lt_0_compat; lra]|exact R9|lia].
Qed.

Lemma near_up : forall k l x y, (k <= l)%nat -> 0 < x -> near k x y -> near l x y.
Proof.
  intros k l x y H Hx N. pose proof (near_pos _ _ _ N Hx) as Hy. destruct N as [A B].
  assert (oneup ^ k <= oneup ^ l) by (apply Rle_pow; [left; apply oneup_1|exact H]). split; [apply Rle_trans with (1 := A)|apply Rle_trans with (1 := B)]; apply Rmult_le_compat_l; lra.
Qed.

Lemma low_follow : forall n d s, moderate d -> (1 <= n <= 2 ^ 40)%nat -> (0 < s <= 2 ^ 40)%Z -> near 7 (2 * PI / (INR n * d) * IZR s) (low_of n d s).
Proof.
  intros n d s ML Hn Hs. unfold low_of. rewrite (dbl_nat n 40) by lia.
  destruct two_pi as [NP RP]. pose proof (range_moderate _ ML) as RL. pose proof (range_Z s Hs) as RS.
  assert (RN : range 40 (INR n)) by (apply range_nat; lia).
  pose proof (range_pos _ _ RL) as PL. pose proof (range_pos _ _ RN) as PN. pose proof (range_pos _ _ RS) as PS. pose proof PI_RGT_0 as PP.
  pose proof (range_mul _ _ _ _ RN RL) as R1. cbn [Nat.add] in R1. pose proof (range_pos _ _ R1) as P1.
  assert (N1 : near 1 (INR n * d) (dbl (INR n * d))) by (apply near_dbl_one, range_low with 140%nat; [lia|exact R1]).
  pose proof (range_div _ _ _ _ range_1 (range_dbl 140 _ ltac:(lia) R1)) as R2. cbn [Nat.add] in R2.
  assert (N2 : near 2 (1 / (INR n * d)) (dbl (1 / dbl (INR n * d)))) by (apply (quot 0 _ _ _ _ 1 141 (near_refl _) N1); [lra|exact P1|exact R2|lia]).
  pose proof (range_dbl 141 _ ltac:(lia) R2) as R3. pose proof (range_mul _ _ _ _ RS R3) as R4. cbn [Nat.add] in R4.
  assert (P2 : 0 < 1 / (INR n * d)) by (apply Rdiv_lt_0_compat; lra).
  assert (N3 : near 3 (IZR s * (1 / (INR n * d))) (dbl (IZR s * dbl (1 / dbl (INR n * d))))) by (apply (prod 0 _ _ _ _ 2 181 (near_refl _) N2); [exact PS|exact P2|exact R4|lia]).
  pose proof (range_dbl 181 _ ltac:(lia) R4) as R5. pose proof (range_mul _ _ _ _ RP R5) as R6. cbn [Nat.add] in R6.
  replace (2 * PI / (INR n * d) * IZR s) with (2 * PI * (IZR s * (1 / (INR n * d)))) by (field; split; lra).
  apply near_up with 6%nat; [lia|apply Rmult_lt_0_compat; [lra|apply Rmult_lt_0_compat; lra]|].
  apply (prod 2 _ _ _ _ 3 184 NP N3); [lra|apply Rmult_lt_0_compat; lra|exact R6|lia].
Qed.

Lemma wave_odd : forall L n s, wave_of L n (- s) = - wave_of L n s.
Proof. intros L n s. unfold wave_of. rewrite opp_IZR. rewrite <- !Ropp_mult_distr_l, dbl_opp, <- Ropp_mult_distr_r, dbl_opp, <- Ropp_mult_distr_r. apply dbl_opp. Qed.

Lemma low_odd : forall n d s, low_of n d (- s) = - low_of n d s.
Proof. intros n d s. unfold low_of. rewrite opp_IZR. rewrite <- !Ropp_mult_distr_l, dbl_opp, <- Ropp_mult_distr_r. apply dbl_opp. Qed.

Lemma wave_zero : forall L n, wave_of L n 0 = 0.
Proof. intros L n. unfold wave_of. rewrite Rmult_0_l, dbl_0, Rmult_0_r, dbl_0, Rmult_0_r. apply dbl_0. Qed.

Lemma low_zero : forall n d, low_of n d 0 = 0.
Proof. intros n d. unfold low_of. rewrite Rmult_0_l, dbl_0, Rmult_0_r. apply dbl_0. Qed.

Lemma signed_mirror : forall n k, (0 < k < n)%nat -> (2 * k <> n)%nat -> signed_mode n (n - k) = (- signed_mode n k)%Z.
Proof. intros n k H N. unfold signed_mode. destruct (Nat.ltb_spec (2 * (n - k)) n), (Nat.ltb_spec (2 * k) n); lia. Qed.

Lemma wave_mirror : forall L n k, (0 < k < n)%nat -> (2 * k <> n)%nat -> flo_wave_number L n (n - k) = - flo_wave_number L n k.
Proof. intros L n k H N. unfold flo_wave_number, flo_fftfreq. rewrite (signed_mirror n k H N). exact (wave_odd L n (signed_mode n k)). Qed.

Lemma low_mirror : forall d n k, (0 < k < n)%nat -> (2 * k <> n)%nat -> flo_low_wave n d (n - k) = - flo_low_wave n d k.
Proof. intros d n k H N. unfold flo_low_wave, flo_fftfreq. rewrite (signed_mirror n k H N). exact (low_odd n d (signed_mode n k)). Qed.

Lemma wave_close : forall L n k, moderate L -> (k < n <= 2 ^ 40)%nat ->
  Rabs (flo_wave_number L n k - wave_number L n k) <= Rabs (wave_number L n k) * / 2 ^ 49.
Proof.
  intros L n k ML H. assert (PL : 0 < L) by (apply range_pos with 100%nat, range_moderate, ML). assert (PN : 0 < INR n) by (apply lt_0_INR; lia).
  replace (wave_number L n k) with (2 * PI / L * IZR (signed_mode n k)) by (unfold wave_number; field; lra).
  apply (proj1 (odd_follow (wave_of L n) (2 * PI / L) ltac:(apply Rdiv_lt_0_compat; [pose proof PI_RGT_0; lra|exact PL]) (wave_zero L n) (wave_odd L n) ltac:(intros s Hs; apply wave_follow; [exact ML|lia|exact Hs]))).
  apply signed_bound; lia.
Qed.

Lemma wave_order : forall L n j k, moderate L -> (j < n)%nat -> (k < n)%nat -> (n <= 2 ^ 40)%nat ->
  wave_number L n j < wave_number L n k -> flo_wave_number L n j < flo_wave_number L n k.
Proof.
  intros L n j k ML Hj Hk Hn. assert (PL : 0 < L) by (apply range_pos with 100%nat, range_moderate, ML). assert (PN : 0 < INR n) by (apply lt_0_INR; lia).
  assert (E : forall i, wave_number L n i = 2 * PI / L * IZR (signed_mode n i)) by (intros i; unfold wave_number; field; lra). rewrite !E. intros H.
  assert (PC : 0 < 2 * PI / L) by (apply Rdiv_lt_0_compat; [pose proof PI_RGT_0; lra|exact PL]).
  apply (proj2 (odd_follow (wave_of L n) (2 * PI / L) PC (wave_zero L n) (wave_odd L n) ltac:(intros s Hs; apply wave_follow; [exact ML|lia|exact Hs]))); try (apply signed_bound; lia).
  apply lt_IZR. apply Rmult_lt_reg_l with (2 * PI / L); assumption.
Qed.

Lemma low_close : forall n d k, moderate d -> (k < n <= 2 ^ 40)%nat ->
  Rabs (flo_low_wave n d k - low_wave n d k) <= Rabs (low_wave n d k) * / 2 ^ 49.
Proof.
  intros n d k ML H. assert (PL : 0 < d) by (apply range_pos with 100%nat, range_moderate, ML). assert (PN : 0 < INR n) by (apply lt_0_INR; lia).
  replace (low_wave n d k) with (2 * PI / (INR n * d) * IZR (signed_mode n k)) by (unfold low_wave; field; split; lra).
  apply (proj1 (odd_follow (low_of n d) (2 * PI / (INR n * d)) ltac:(apply Rdiv_lt_0_compat; [pose proof PI_RGT_0; lra|nra]) (low_zero n d) (low_odd n d) ltac:(intros s Hs; apply low_follow; [exact ML|lia|exact Hs]))).
  apply signed_bound; lia.
Qed.

Lemma low_order : forall n d j k, moderate d -> (j < n)%nat -> (k < n)%nat -> (n <= 2 ^ 40)%nat ->
  low_wave n d j < low_wave n d k -> flo_low_wave n d j < flo_low_wave n d k.
Proof.
  intros n d j k ML Hj Hk Hn. assert (PL : 0 < d) by (apply range_pos with 100%nat, range_moderate, ML). assert (PN : 0 < INR n) by (apply lt_0_INR; lia).
  assert (E : forall i, low_wave n d i = 2 * PI / (INR n * d) * IZR (signed_mode n i)) by (intros i; unfold low_wave; field; split; lra). rewrite !E. intros H.
  assert (PC : 0 < 2 * PI / (INR n * d)) by (apply Rdiv_lt_0_compat; [pose proof PI_RGT_0; lra|nra]).
  apply (proj2 (odd_follow (low_of n d) _ PC (low_zero n d) (low_odd n d) ltac:(intros s Hs; apply low_follow; [exact ML|lia|exact Hs]))); try (apply signed_bound; lia).
  apply lt_IZR. apply Rmult_lt_reg_l with (2 * PI / (INR n * d)); assumption.
Qed.
