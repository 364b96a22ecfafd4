(** Property theorems: advice on the learning rate (C184, C185). *)

From Coq Require Import Reals List Arith Bool Lra Lia.
From Verif Require Import Prelude LossModel LossSpec AdvSpec AdvProofs AdvCases.
Import ListNotations.
Open Scope R_scope.

(** C184 *)

Theorem C184_rules : forall e w s vals tot c x, (2 <= w <= e)%nat -> window_of w s vals tot ->
  dominant (fun k => Rmean (vals k)) c -> smallest (fun k => Rmean (vals k)) x ->
  should_adjust e w s
  = if Rlt_dec (improvement tot) (1/100) then Ok (Reduce Stagnation (1/2))
    else if Rlt_dec (7/3) (deviation tot) then Ok (Reduce Instability (3/10))
    else if Rlt_dec 100 (Rmean (vals c) / Rmax x (/ 10^8)) then Ok (Reduce (ComponentDominance c) (7/10))
    else Ok (Keep HealthyTraining).
Proof. exact advice_rules. Qed.
Print Assumptions C184_rules.

Theorem C184_diagnostics : forall w s vals tot c x, (2 <= w)%nat -> window_of w s vals tot ->
  dominant (fun k => Rmean (vals k)) c -> smallest (fun k => Rmean (vals k)) x ->
  get_loss_diagnostics w s = Ok (Some (Diag c (Fin (Rmean (vals c) / Rmax x (/ 10^8))) (Some (Fin (improvement tot))) (Some (Fin (1 / (1 + deviation tot)))))).
Proof. exact diagnostics_value. Qed.
Print Assumptions C184_diagnostics.

Theorem C184_components : forall mean : comp -> R, (exists c, dominant mean c) /\ exists x, smallest mean x.
Proof. exact (fun mean => conj (first_largest mean) (some_smallest mean)). Qed.
Print Assumptions C184_components.

Example C184_case : window_of 2 even (fun _ => [2; 1]) [3; 1] /\ improvement [3; 1] = 2/3 /\ deviation [3; 1] = 1
  /\ dominant (fun _ => Rmean [2; 1]) Cmse /\ smallest (fun _ : comp => Rmean [2; 1]) (Rmean [2; 1]).
Proof.
  split; [exact even_window|]. split; [apply even_measures|]. split; [apply even_measures|].
  split; split; [intros d; lra|intros d H; cbn in H; lia|exists Cmse; reflexivity|intros d; lra].
Qed.

(** C185 *)

Theorem C185_refuted : forall p k zref h e w vals tot off big, let s := agg_run p k zref agg_init h in
  (2 <= w <= e)%nat -> window_of w s vals tot -> switched_off p off -> / 10^6 < Rmean (vals big) ->
  exists r f, should_adjust e w s = Ok (Reduce r f) /\ f <= 7/10.
Proof. exact never_healthy. Qed.
Print Assumptions C185_refuted.

Theorem C185_all_terms_partial : forall e w s vals tot, (2 <= w <= e)%nat -> window_of w s vals tot ->
  1/100 <= improvement tot -> deviation tot <= 7/3 ->
  (forall c d, / 10^8 <= Rmean (vals d) /\ Rmean (vals c) <= 100 * Rmean (vals d)) ->
  should_adjust e w s = Ok (Keep HealthyTraining).
Proof. exact healthy_kept. Qed.
Print Assumptions C185_all_terms_partial.

Example C185_case : should_adjust 2 2 even = Ok (Keep HealthyTraining)
  /\ (exists r f, should_adjust 2 2 falling = Ok (Reduce r f) /\ f <= 7/10) /\ switched_off misfit_only Ccoh.
Proof.
  assert (Z : / 10^8 <= 1) by lra.
  assert (Y : / 10^6 < 5/8) by lra.
  split; [|split].
  - destruct even_measures as (I & D).
    apply (C185_all_terms_partial 2 2 even (fun _ => [2; 1]) [3; 1]); [lia|exact even_window|lra|lra|]. intros c d. unfold Rmean. cbn. lra.
  - apply (C185_refuted misfit_only [1] 40 [off_by 1; off_by (1/2)] 2 2 _ _ Ccoh Cmse ltac:(lia) falling_window); [cbn; lra|].
    unfold Rmean. cbn. lra.
  - cbn. lra.
Qed.
