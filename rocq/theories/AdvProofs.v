(** Proofs about the advice on the learning rate. *)

From Coq Require Import Reals List Arith Bool Lra Lia.
From Verif Require Import Prelude LossModel LossSpec LossProofs LossMore AdvSpec.
Import ListNotations.
Open Scope R_scope.

Lemma Rltb_true : forall a b, a < b -> Rltb a b = true.
Proof. intros a b H. unfold Rltb. destruct (Rlt_dec a b); [reflexivity|contradiction]. Qed.

Lemma Rltb_false : forall a b, b <= a -> Rltb a b = false.
Proof. intros a b H. unfold Rltb. destruct (Rlt_dec a b); [lra|reflexivity]. Qed.

Lemma last_window : forall w (h : list xr) pre l, (2 <= w)%nat -> h = pre ++ map Fin l -> length l = w -> last_n w h = map Fin l.
Proof.
  intros w h pre l Hw -> Hl. unfold last_n. replace (w =? 0)%nat with false by (symmetry; apply Nat.eqb_neq; lia).
  rewrite app_length, map_length. replace (length pre + length l - w)%nat with (length pre) by lia.
  rewrite skipn_app, skipn_all, Nat.sub_diag. reflexivity.
Qed.

Lemma window_mean : forall w (h : list xr) pre l, (2 <= w)%nat -> h = pre ++ map Fin l -> length l = w -> xmean (last_n w h) = Fin (Rmean l).
Proof.
  intros w h pre l Hw Hh Hl. rewrite (last_window w h pre l) by assumption. apply xmean_fin. intros ->. cbn in Hl. lia.
Qed.

Lemma xstd_fin : forall l, l <> [] -> xstd (map Fin l) = Fin (deviation l).
Proof.
  intros l N. unfold xstd, deviation. rewrite xmean_fin by exact N. rewrite map_map.
  rewrite (map_ext _ (fun x => Fin ((x - Rmean l)^2))).
  - rewrite <- (map_map (fun x => (x - Rmean l)^2) Fin). rewrite xsum_fin. cbn [xdiv]. unfold Reqb.
    assert (P : INR (length (map Fin l)) <> 0). { rewrite map_length. apply not_0_INR. destruct l; [congruence|discriminate]. }
    destruct (Req_EM_T (INR (length (map Fin l))) 0) as [E|_]; [contradiction|]. cbn [xsqrt]. unfold Rmean at 2. rewrite !map_length. reflexivity.
  - intros x. cbn [xsub xadd xopp xmul]. f_equal. ring.
Qed.

Lemma dominant_item : forall mean c, dominant mean c ->
  pymax_item (Cmse, Fin (mean Cmse)) [(Ccoh, Fin (mean Ccoh)); (Cpen1, Fin (mean Cpen1)); (Cpen2, Fin (mean Cpen2)); (Creg, Fin (mean Creg))]
  = (c, Fin (mean c)).
Proof.
  intros mean c (M & F). unfold pymax_item. cbn [fold_left snd].
  pose proof (M Cmse) as M0. pose proof (M Ccoh) as M1. pose proof (M Cpen1) as M2. pose proof (M Cpen2) as M3. pose proof (M Creg) as M4.
  assert (F0 : (0 < rank c)%nat -> mean Cmse < mean c) by (intros H; apply F; exact H).
  assert (F1 : (1 < rank c)%nat -> mean Ccoh < mean c) by (intros H; apply F; exact H).
  assert (F2 : (2 < rank c)%nat -> mean Cpen1 < mean c) by (intros H; apply F; exact H).
  assert (F3 : (3 < rank c)%nat -> mean Cpen2 < mean c) by (intros H; apply F; exact H).
  clear M F.
  destruct c; cbn [rank] in *;
    try (assert (G0 := F0 ltac:(lia)); clear F0); try (assert (G1 := F1 ltac:(lia)); clear F1);
    try (assert (G2 := F2 ltac:(lia)); clear F2); try (assert (G3 := F3 ltac:(lia)); clear F3); cbn [xltb snd]; unfold Rltb;
    repeat (match goal with |- context [Rlt_dec ?a ?b] => destruct (Rlt_dec a b) end; cbn [snd xltb]; try unfold Rltb; try (exfalso; lra)); reflexivity.
Qed.

Lemma smallest_item : forall mean x, smallest mean x ->
  pymin (Fin (mean Cmse)) [Fin (mean Ccoh); Fin (mean Cpen1); Fin (mean Cpen2); Fin (mean Creg)] = Fin x.
Proof.
  intros mean x ((d & E) & M). unfold pymin. cbn [fold_left].
  pose proof (M Cmse) as M0. pose proof (M Ccoh) as M1. pose proof (M Cpen1) as M2. pose proof (M Cpen2) as M3. pose proof (M Creg) as M4. clear M.
  cbn [xltb]. unfold Rltb.
  destruct d; repeat (match goal with |- context [Rlt_dec ?a ?b] => destruct (Rlt_dec a b) end; cbn [xltb]; try unfold Rltb; try (exfalso; lra)); f_equal; lra.
Qed.

Lemma diagnostics_value : forall w s vals tot c x, (2 <= w)%nat -> window_of w s vals tot ->
  dominant (fun k => Rmean (vals k)) c -> smallest (fun k => Rmean (vals k)) x ->
  get_loss_diagnostics w s = Ok (Some (Diag c (Fin (Rmean (vals c) / Rmax x (/ 10^8))) (Some (Fin (improvement tot))) (Some (Fin (1 / (1 + deviation tot)))))).
Proof.
  intros w s vals tot c x Hw (V & T & (pre & P)) D S.
  assert (M : forall k, xmean (last_n w (history s k)) = Fin (Rmean (vals k))).
  { intros k. destruct (V k) as (L & q & E). apply (window_mean w _ q); assumption. }
  assert (Z : / 10^8 = / 100000000) by (f_equal; lra).
  unfold get_loss_diagnostics. replace (length (h_total s) <? w)%nat with false by (symmetry; apply Nat.ltb_ge; rewrite P, app_length, map_length; lia).
  pose proof (last_window w _ pre tot Hw P T) as HT. rewrite HT.
  pose proof (M Cmse) as M0. pose proof (M Ccoh) as M1. pose proof (M Cpen1) as M2. pose proof (M Cpen2) as M3. pose proof (M Creg) as M4.
  cbn [history] in *. rewrite M0, M1, M2, M3, M4. cbn [tl map snd].
  rewrite (dominant_item (fun k => Rmean (vals k)) c D). rewrite (smallest_item (fun k => Rmean (vals k)) x S). cbn [fst snd].
  destruct (improvement_ok w (map Fin tot) Hw ltac:(rewrite map_length; assumption)) as (y & HY & EY).
  assert (N : map Fin tot <> []) by (destruct tot; [cbn in T; lia|discriminate]).
  replace (2 <=? length (map Fin tot))%nat with true by (symmetry; apply Nat.leb_le; rewrite map_length; lia).
  rewrite HY. cbn [bind]. rewrite xstd_fin by (destruct tot; [cbn in T; lia|discriminate]).
  destruct (half_bounds w Hw) as [B1 B2].
  assert (Hf : firstn (w / 2) tot <> []).
  { intro E. apply (f_equal (@length R)) in E. rewrite firstn_length_le in E by lia. cbn [length] in E. lia. }
  assert (Hsk : skipn (w / 2) tot <> []).
  { intro E. apply (f_equal (@length R)) in E. rewrite skipn_length in E. cbn [length] in E. lia. }
  rewrite firstn_map, skipn_map, !xmean_fin in EY by assumption. rewrite pymax2_fin in EY. rewrite pymax2_fin.
  assert (Pos : forall a, Rmax a (/ 100000000) <> 0).
  { intros a. apply Rgt_not_eq. apply Rlt_gt. apply Rlt_le_trans with (/ 100000000); [lra|apply Rmax_r]. }
  assert (DV : 0 <= deviation tot) by apply sqrt_pos.
  cbn [xsub xadd xopp xdiv] in EY |- *. unfold Reqb in *.
  destruct (Req_EM_T (Rmax x (/ 100000000)) 0) as [E|_]; [exfalso; exact (Pos _ E)|].
  destruct (Req_EM_T (Rmax (Rmean (firstn (w / 2) tot)) (/ 100000000)) 0) as [E|_]; [exfalso; exact (Pos _ E)|].
  destruct (Req_EM_T (1 + deviation tot) 0) as [E|_]; [exfalso; lra|].
  rewrite EY. unfold improvement. rewrite T, Z. unfold Rminus. destruct tot; [cbn in T; lia|]. reflexivity.
Qed.

Lemma advice_rules : forall e w s vals tot c x, (2 <= w <= e)%nat -> window_of w s vals tot ->
  dominant (fun k => Rmean (vals k)) c -> smallest (fun k => Rmean (vals k)) x ->
  should_adjust e w s
  = if Rlt_dec (improvement tot) (1/100) then Ok (Reduce Stagnation (1/2))
    else if Rlt_dec (7/3) (deviation tot) then Ok (Reduce Instability (3/10))
    else if Rlt_dec 100 (Rmean (vals c) / Rmax x (/ 10^8)) then Ok (Reduce (ComponentDominance c) (7/10))
    else Ok (Keep HealthyTraining).
Proof.
  intros e w s vals tot c x (Hw & He) W D S. unfold should_adjust.
  replace (e <? w)%nat with false by (symmetry; apply Nat.ltb_ge; assumption).
  rewrite (diagnostics_value w s vals tot c x Hw W D S). cbn [bind d_improvement d_stability d_dominance d_dominant xltb]. unfold Rltb.
  destruct (Rlt_dec (improvement tot) (1/100)); [reflexivity|].
  assert (DV : 0 <= deviation tot) by apply sqrt_pos.
  destruct (Rlt_dec (1 / (1 + deviation tot)) (3/10)) as [H|H]; destruct (Rlt_dec (7/3) (deviation tot)) as [G|G]; [reflexivity| | |].
  - exfalso. apply G. apply (Rmult_lt_compat_r (1 + deviation tot)) in H; [|lra]. unfold Rdiv at 1 in H. rewrite Rmult_assoc, Rinv_l in H by lra. lra.
  - exfalso. apply H. apply (Rmult_lt_reg_r (1 + deviation tot)); [lra|]. unfold Rdiv at 1. rewrite Rmult_assoc, Rinv_l by lra. lra.
  - destruct (Rlt_dec 100 (Rmean (vals c) / Rmax x (/ 10^8))); reflexivity.
Qed.

Lemma first_largest : forall mean : comp -> R, exists c, dominant mean c.
Proof.
  intros mean.
  assert (C : forall n, (n <= 5)%nat -> (1 <= n)%nat -> exists c, (rank c < n)%nat /\ (forall d, (rank d < n)%nat -> mean d <= mean c)
    /\ forall d, (rank d < rank c)%nat -> mean d < mean c).
  { intros n. induction n as [|n IH]; intros B P; [lia|]. destruct n as [|n].
    - exists Cmse. split; [cbn; lia|]. split; [intros d H; destruct d; cbn in H; try lia; lra|intros d H; cbn in H; lia].
    - destruct IH as (c & R1 & R2 & R3); [lia|lia|].
      assert (X : exists y, rank y = S n).
      { destruct n as [|[|[|[|n]]]]; [exists Ccoh|exists Cpen1|exists Cpen2|exists Creg|lia]; reflexivity. }
      destruct X as (y & Y).
      assert (Q : forall d, (rank d < S (S n))%nat -> (rank d < S n)%nat \/ d = y).
      { intros d H. destruct (Nat.eq_dec (rank d) (S n)) as [E|E]; [right|left; lia]. destruct d, y; cbn in *; congruence || lia. }
      destruct (Rlt_dec (mean c) (mean y)) as [L|L].
      + exists y. split; [lia|]. split.
        * intros d H. destruct (Q d H) as [H'| ->]; [pose proof (R2 d H'); lra|lra].
        * intros d H. rewrite Y in H. pose proof (R2 d H). lra.
      + exists c. split; [lia|]. split; [|exact R3]. intros d H. destruct (Q d H) as [H'| ->]; [apply R2; exact H'|lra]. }
  destruct (C 5%nat) as (c & _ & R2 & R3); [lia|lia|]. exists c. split; [|exact R3]. intros d. apply R2. destruct d; cbn; lia.
Qed.

Lemma some_smallest : forall mean : comp -> R, exists x, smallest mean x.
Proof.
  intros mean. destruct (first_largest (fun c => - mean c)) as (c & M & _). exists (mean c). split; [exists c; reflexivity|].
  intros d. pose proof (M d). lra.
Qed.

Lemma off_history : forall p k zref h c, switched_off p c ->
  Forall (fun v => v = Fin 0) (history (agg_run p k zref agg_init h) c).
Proof.
  intros p k zref h c O. destruct (run_histories p k zref h) as (_ & H1 & H2 & H3 & H4 & _).
  assert (G : Forall (fun t => (gamma_coherence p <= 0 -> t_coh t = Fin 0) /\ (alpha_pen1 p <= 0 -> t_pen1 t = Fin 0)
     /\ (alpha_pen2 p <= 0 -> t_pen2 t = Fin 0) /\ (beta_reg p <= 0 -> t_reg t = Fin 0)) (successes p k zref h)).
  { apply Forall_forall. intros t I. unfold successes in I. apply in_flat_map in I. destruct I as (a & _ & I).
    destruct (eval_terms p k zref a) as [t'|e] eqn:E; [|destruct I]. destruct I as [->|[]].
    unfold eval_terms in E.
    destruct (mse_term _ _) as [m|e]; [|discriminate E]. cbn [bind] in E.
    match type of E with bind ?X _ = _ => destruct X as [cc|e] eqn:E1 end; [|discriminate E]. cbn [bind] in E.
    match type of E with bind ?X _ = _ => destruct X as [q1|e] eqn:E2 end; [|discriminate E]. cbn [bind] in E.
    match type of E with bind ?X _ = _ => destruct X as [q2|e] eqn:E3 end; [|discriminate E]. cbn [bind] in E.
    match type of E with bind ?X _ = _ => destruct X as [q3|e] eqn:E4 end; [|discriminate E]. cbn [bind] in E.
    injection E as <-. cbn [t_coh t_pen1 t_pen2 t_reg].
    split; [|split; [|split]]; intros Z.
    - rewrite (Rltb_false 0 _ Z) in E1. destruct (ea_coh a) as [[[u v] w]|]; injection E1 as <-; reflexivity.
    - rewrite (Rltb_false 0 _ Z) in E2. injection E2 as <-. reflexivity.
    - rewrite (Rltb_false 0 _ Z) in E3. injection E3 as <-. reflexivity.
    - rewrite (Rltb_false 0 _ Z) in E4. injection E4 as <-. reflexivity. }
  cbv zeta in H1, H2, H3, H4.
  destruct c; cbn [history switched_off] in *; [contradiction|rewrite H1|rewrite H2|rewrite H3|rewrite H4];
    apply Forall_map; (eapply Forall_impl; [|exact G]); cbn beta; intros t (G1 & G2 & G3 & G4); auto.
Qed.

Lemma off_mean : forall p k zref h c w vals tot, switched_off p c -> (2 <= w)%nat -> window_of w (agg_run p k zref agg_init h) vals tot -> Rmean (vals c) = 0.
Proof.
  intros p k zref h c w vals tot O Hw (V & _). destruct (V c) as (L & pre & E). pose proof (off_history p k zref h c O) as F.
  rewrite E in F. apply Forall_app in F. destruct F as [_ F]. apply -> Forall_map in F.
  unfold Rmean. rewrite (sum_all_zero (vals c)); [lra|]. eapply Forall_impl; [|exact F]. cbn beta. intros v H. injection H as H. exact H.
Qed.

Lemma never_healthy : forall p k zref h e w vals tot off big, let s := agg_run p k zref agg_init h in
  (2 <= w <= e)%nat -> window_of w s vals tot -> switched_off p off -> / 10^6 < Rmean (vals big) ->
  exists r f, should_adjust e w s = Ok (Reduce r f) /\ f <= 7/10.
Proof.
  intros p k zref h e w vals tot off big s B W O G.
  destruct (first_largest (fun c => Rmean (vals c))) as (c & D). destruct (some_smallest (fun c => Rmean (vals c))) as (x & S).
  rewrite (advice_rules e w s vals tot c x B W D S).
  destruct (Rlt_dec (improvement tot) (1/100)); [do 2 eexists; split; [reflexivity|lra]|].
  destruct (Rlt_dec (7/3) (deviation tot)); [do 2 eexists; split; [reflexivity|lra]|].
  assert (X : x <= 0). { rewrite <- (off_mean p k zref h off w vals tot O (proj1 B) W). apply (proj2 S). }
  assert (Y : / 10^6 < Rmean (vals c)). { apply Rlt_le_trans with (Rmean (vals big)); [exact G|]. apply (proj1 D). }
  destruct (Rlt_dec 100 (Rmean (vals c) / Rmax x (/ 10^8))) as [_|N]; [do 2 eexists; split; [reflexivity|lra]|].
  exfalso. apply N. assert (Z : 0 < / 10^8) by (apply Rinv_0_lt_compat; lra). rewrite Rmax_right by lra.
  unfold Rdiv. rewrite Rinv_inv. lra.
Qed.

Lemma healthy_kept : forall e w s vals tot, (2 <= w <= e)%nat -> window_of w s vals tot ->
  1/100 <= improvement tot -> deviation tot <= 7/3 ->
  (forall c d, / 10^8 <= Rmean (vals d) /\ Rmean (vals c) <= 100 * Rmean (vals d)) ->
  should_adjust e w s = Ok (Keep HealthyTraining).
Proof.
  intros e w s vals tot B W I D Q.
  destruct (first_largest (fun c => Rmean (vals c))) as (c & HD). destruct (some_smallest (fun c => Rmean (vals c))) as (x & HS).
  rewrite (advice_rules e w s vals tot c x B W HD HS).
  destruct (Rlt_dec (improvement tot) (1/100)); [lra|]. destruct (Rlt_dec (7/3) (deviation tot)); [lra|].
  destruct HS as ((d & ->) & _). destruct (Q c d) as (Q1 & Q2).
  destruct (Rlt_dec 100 (Rmean (vals c) / Rmax (Rmean (vals d)) (/ 10^8))) as [N|_]; [|reflexivity].
  exfalso. assert (Z : 0 < / 10^8) by (apply Rinv_0_lt_compat; lra). rewrite Rmax_left in N by exact Q1.
  apply (Rmult_lt_compat_r (Rmean (vals d))) in N; [|lra]. unfold Rdiv in N. rewrite Rmult_assoc, Rinv_l in N by lra. lra.
Qed.
