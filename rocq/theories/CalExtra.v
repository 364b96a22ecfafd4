(** Recent halves of recorded histories, and writing the scales. *)

From Coq Require Import Reals List Arith ZArith Bool Lra Lia.
From Verif Require Import Prelude SpectraModel OpsModel CalModel CalSpec CalProofs CalMore.
Import ListNotations.
Open Scope R_scope.

Lemma last5_recent : forall older recent, length recent = 5%nat -> last5 (older ++ recent) = recent.
Proof.
  intros older recent H. unfold last5. rewrite app_length, H. replace (length older + 5 - 5)%nat with (length older) by lia.
  rewrite skipn_app, skipn_all, Nat.sub_diag. reflexivity.
Qed.

Lemma adaptive_cases : forall ops1 ops2 coh1 coh2 epoch, length ops2 = 5%nat -> length coh2 = 5%nat ->
  let ratio := Rmean ops2 / (Rmean coh2 + / 10^8) in
  ((length ops1 < 5)%nat -> adaptive_factor (ops1 ++ ops2) (coh1 ++ coh2) epoch = 1)
  /\ ((5 <= length ops1)%nat -> 10 < ratio \/ ratio < 1/10 -> adaptive_factor (ops1 ++ ops2) (coh1 ++ coh2) epoch = 1/2)
  /\ ((5 <= length ops1)%nat -> 1/10 <= ratio <= 10 -> adaptive_factor (ops1 ++ ops2) (coh1 ++ coh2) epoch = powerRZ (95/100) (Z.of_nat epoch - 10)).
Proof.
  intros ops1 ops2 coh1 coh2 epoch H1 H2. cbv zeta. unfold adaptive_factor. rewrite !last5_recent by assumption. rewrite app_length, H1.
  replace (/ 100000000) with (/ 10^8) by (f_equal; lra). set (r := Rmean ops2 / (Rmean coh2 + / 10^8)).
  split; [|split]; intros Hl.
  - replace (length ops1 + 5 <? 10)%nat with true by (symmetry; apply Nat.ltb_lt; lia). reflexivity.
  - intros Hr. replace (length ops1 + 5 <? 10)%nat with false by (symmetry; apply Nat.ltb_ge; lia). destruct (Rlt_dec 10 r); [reflexivity|]. destruct (Rlt_dec r (1/10)); [reflexivity|lra].
  - intros Hr. replace (length ops1 + 5 <? 10)%nat with false by (symmetry; apply Nat.ltb_ge; lia). destruct (Rlt_dec 10 r); [lra|]. destruct (Rlt_dec r (1/10)); [lra|reflexivity].
Qed.

Lemma log_scales_written : forall L G S l t m pq net, 
  (0 < L -> 0 < G -> 0 < S -> write_log_scales L G S (MP l t m pq net) = (Ok tt, MP (ln L) (ln G) (ln S) pq net))
  /\ (L <= 0 \/ G <= 0 \/ S <= 0 -> write_log_scales L G S (MP l t m pq net) = (Err ValueError, MP l t m pq net)).
Proof.
  intros L G S l t m pq net. unfold write_log_scales. split.
  - intros HL HG HS. unfold Rltb. destruct (Rlt_dec 0 L); [|lra]. destruct (Rlt_dec 0 G); [|lra]. destruct (Rlt_dec 0 S); [|lra]. cbn [andb].
    set (s := MP l t m pq net).
    assert (Hl : get_parameters s = l :: t :: m :: skipn 3 (get_parameters s)) by (unfold s; rewrite get_parameters_layout; reflexivity).
    assert (Hv : ln L :: ln G :: ln S :: skipn 3 (get_parameters s) = get_parameters (MP (ln L) (ln G) (ln S) pq net)) by (unfold s; rewrite !get_parameters_layout; reflexivity).
    unfold set_parameters. rewrite Hl at 2. cbn [length]. rewrite Nat.eqb_refl. cbn [negb].
    rewrite Hv. rewrite <- (vtp_get (MP (ln L) (ln G) (ln S) pq net)) at 2. reflexivity.
  - intros H. unfold Rltb. destruct (Rlt_dec 0 L); [|reflexivity]. destruct (Rlt_dec 0 G); [|reflexivity]. destruct (Rlt_dec 0 S); [lra|reflexivity].
Qed.
