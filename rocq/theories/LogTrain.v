(** Lemmas about the records of whole calibrations. *)

From Coq Require Import String Reals Lra Lia List Arith ZArith Bool.
From Verif Require Import Prelude LossModel LossProofs CalModel CalProofs ProbModel ProbProofs ProbFiles LogModel LogSpec LogProofs.
Import ListNotations.
Open Scope R_scope.

(** ** Blocks of records *)

Definition chain (n : nat) (blocks : list (list event)) (new : list (list R * xr)) : Prop :=
  (forall i b, nth_error blocks i = Some b -> of_evaluation (n + i) b)
  /\ (forall i b v l, nth_error blocks i = Some b -> nth_error new i = Some (v, l) -> total_of (recorded_terms b) = l).

Lemma chain_app : forall n b1 n1 b2 n2, chain n b1 n1 -> length b1 = length n1 -> chain (n + length n1) b2 n2 -> chain n (b1 ++ b2) (n1 ++ n2).
Proof.
  intros n b1 n1 b2 n2 (A1 & A2) L (B1 & B2). split.
  - intros i b H. destruct (Nat.lt_ge_cases i (length b1)) as [K|K].
    + rewrite nth_error_app1 in H by exact K. apply A1. exact H.
    + rewrite nth_error_app2 in H by exact K. apply B1 in H. replace (n + i)%nat with (n + length n1 + (i - length b1))%nat by lia. exact H.
  - intros i b v l H H'. destruct (Nat.lt_ge_cases i (length b1)) as [K|K].
    + rewrite nth_error_app1 in H by exact K. rewrite nth_error_app1 in H' by lia. apply (A2 i b v l H H').
    + rewrite nth_error_app2 in H by exact K. rewrite nth_error_app2 in H' by lia. rewrite <- L in H'. apply (B2 _ b v l H H').
Qed.

Lemma chain_nil : forall n, chain n [] [].
Proof. intros n. split; intros [|i]; cbn; discriminate. Qed.

Lemma eval_any : forall p k1 zref s a w r s', eval_log p k1 zref s a = (w, (r, s')) ->
  of_evaluation (ea_epoch a) w /\ (forall l, r = Ok l -> total_of (recorded_terms w) = l).
Proof.
  intros p k1 zref s a w [l|e] s' H.
  - apply evaluation_records in H. destruct H as (H1 & H2 & _). split; [exact H1|]. intros l' E. injection E as <-. exact H2.
  - apply failed_evaluation in H. destruct H as (_ & H & _). split; [exact H|]. discriminate.
Qed.

Definition blocks_of (w : list event) (r : res unit) (s s' : tstate) : Prop :=
  exists blocks new, w = concat blocks /\ chain (ts_ecount s) blocks new /\ ts_seen s' = ts_seen s ++ new
  /\ ts_ecount s' = (ts_ecount s + length new)%nat /\ (r = Ok tt -> length blocks = length new)
  /\ (length new <= length blocks <= S (length new))%nat.

Lemma closure_blocks : forall c v s w r s', counted c -> closure_log c v s = (w, (r, s')) -> blocks_of w r s s'.
Proof.
  intros c v s w r s' (_ & HC) H. unfold closure_log in H. cbv zeta in H.
  destruct (eval_log _ _ _ _ _) as [w0 [[l|e] a]] eqn:E; apply eval_any in E; destruct E as (E1 & E2); rewrite HC in E1; injection H as <- <- <-.
  - exists [w0], [(v, l)]. cbn [concat ts_seen ts_ecount length]. rewrite app_nil_r. split; [reflexivity|]. split; [|split; [reflexivity|]; split; [lia|]; split; [reflexivity|lia]].
    split.
    + intros [|[|i]] b H; cbn in H; try discriminate H. injection H as <-. rewrite Nat.add_0_r. exact E1.
    + intros [|[|i]] b v' l' H H'; cbn in H, H'; try discriminate H. injection H as <-. injection H' as <- <-. apply E2. reflexivity.
  - exists [w0], []. cbn [concat ts_seen ts_ecount length]. rewrite !app_nil_r. split; [reflexivity|]. split; [|split; [reflexivity|]; split; [lia|]; split; [discriminate|lia]].
    split.
    + intros [|[|i]] b H; cbn in H; try discriminate H. injection H as <-. rewrite Nat.add_0_r. exact E1.
    + intros [|[|i]] b v' l' H H'; cbn in H, H'; discriminate.
Qed.

Lemma blocks_app : forall w1 w2 r s s1 s2, blocks_of w1 (Ok tt) s s1 -> blocks_of w2 r s1 s2 -> blocks_of (w1 ++ w2) r s s2.
Proof.
  intros w1 w2 r s s1 s2 (b1 & n1 & -> & C1 & S1 & E1 & L1 & _) (b2 & n2 & -> & C2 & S2 & E2 & L2 & M2).
  exists (b1 ++ b2), (n1 ++ n2). specialize (L1 eq_refl). split; [symmetry; apply concat_app|]. rewrite E1 in C2. split; [apply chain_app; assumption|].
  split; [rewrite S2, S1, app_assoc; reflexivity|]. rewrite !app_length. split; [lia|]. split; [intros E; rewrite L2 by exact E; lia|lia].
Qed.

Lemma blocks_none : forall r s s', ts_seen s' = ts_seen s -> ts_ecount s' = ts_ecount s -> blocks_of [] r s s'.
Proof.
  intros r s s' H1 H2. exists [], []. cbn [concat length]. rewrite H1, H2, app_nil_r, Nat.add_0_r. split; [reflexivity|]. split; [apply chain_nil|]. split; [reflexivity|]. split; [reflexivity|]. split; [reflexivity|lia].
Qed.

Lemma strategy_blocks : forall c, counted c -> forall t s w r s', strategy_log c t s = (w, (r, s')) -> blocks_of w r s s'.
Proof.
  intros c HC t. induction t as [v|v k IH]; intros s w r s' H; cbn [strategy_log] in H.
  - injection H as <- <- <-. apply blocks_none; reflexivity.
  - destruct (closure_log c v s) as [w1 [[[]|e] s1]] eqn:E; apply (closure_blocks _ _ _ _ _ _ HC) in E.
    + destruct (strategy_log c (k (ts_loss s1)) s1) as [w2 [r2 s2]] eqn:E2. injection H as <- <- <-. apply (blocks_app _ _ _ _ s1); [exact E|apply (IH _ _ _ _ _ E2)].
    + injection H as <- <- <-. exact E.
Qed.

Lemma blocks_r : forall w r r' s s1 s2, blocks_of w r s s1 -> (r' = Ok tt -> r = Ok tt) -> ts_seen s2 = ts_seen s1 -> ts_ecount s2 = ts_ecount s1 -> blocks_of w r' s s2.
Proof.
  intros w r r' s s1 s2 (b & n & W & C & S1 & E1 & L & M) HR H1 H2. exists b, n. rewrite H1, H2. split; [exact W|]. split; [exact C|]. split; [exact S1|]. split; [exact E1|].
  split; [intros E; apply L; apply HR; exact E|exact M].
Qed.

Lemma lr_check_same : forall e s s', lr_check e s = Ok s' -> ts_seen s' = ts_seen s /\ ts_ecount s' = ts_ecount s /\ ts_agg s' = ts_agg s /\ ts_mod s' = ts_mod s.
Proof.
  intros e s s' H. unfold lr_check in H. destruct (e mod 50 =? 0)%nat.
  - destruct (should_adjust e 50 (ts_agg s)); [|discriminate H]. cbn [bind] in H. injection H as <-. auto.
  - injection H as <-. auto.
Qed.

Lemma train_blocks : forall c opt sched, counted c -> forall left epoch s w r s', train_log c opt sched epoch left s = (w, (r, s')) -> blocks_of w r s s'.
Proof.
  intros c opt sched HC left. induction left as [|n IH]; intros epoch s w r s' H; cbn [train_log] in H.
  - injection H as <- <- <-. apply blocks_none; reflexivity.
  - destruct (strategy_log c (opt epoch s) s) as [w1 [[[]|e] s0]] eqn:E; apply (strategy_blocks _ HC) in E.
    2:{ injection H as <- <- <-. exact E. }
    cbv zeta in H. cbn [ts_mod ts_loss] in H.
    assert (K : forall r0, blocks_of w1 r0 s (TS (ts_mod s0) (ts_loss s0) (ts_agg s0) (ts_ecount s0) (sched epoch (ts_lr s0)) (ts_seen s0)))
      by (intros r0; apply (blocks_r _ (Ok tt) _ _ s0); auto).
    destruct (mp_pq (ts_mod s0)); [|injection H as <- <- <-; apply K].
    destruct (negb (xfinite (ts_loss s0))); [injection H as <- <- <-; apply K|].
    destruct (xltb (ts_loss s0) (Fin (tg_tol c))); [injection H as <- <- <-; apply K|].
    destruct (lr_check _ _) as [s2|e] eqn:EL; [|injection H as <- <- <-; apply K].
    destruct (train_log c opt sched (S epoch) n s2) as [w2 [r2 s3]] eqn:E2. injection H as <- <- <-.
    apply lr_check_same in EL. destruct EL as (L1 & L2 & _). apply (blocks_app _ _ _ _ s2); [|apply (IH _ _ _ _ _ E2)].
    apply (blocks_r _ (Ok tt) _ _ s0); auto.
Qed.

Lemma calibration_blocks : forall c opt sched m w r s, counted c -> calibrate_log c opt sched m = (w, (r, Some s)) ->
  exists first blocks, w = first ++ concat blocks /\ of_evaluation 0 first
  /\ (forall i b, nth_error blocks i = Some b -> of_evaluation i b)
  /\ (forall i b v l, nth_error blocks i = Some b -> nth_error (ts_seen s) i = Some (v, l) -> total_of (recorded_terms b) = l)
  /\ ts_ecount s = length (ts_seen s) /\ (r = Ok tt -> length blocks = length (ts_seen s))
  /\ (length (ts_seen s) <= length blocks <= S (length (ts_seen s)))%nat.
Proof.
  intros c opt sched m w r s HC H. unfold calibrate_log in H. destruct (eval_log _ _ _ _ _) as [w0 [[l|e] a]] eqn:E; [|discriminate H].
  destruct (train_log _ _ _ _ _ _) as [w1 [r1 s1]] eqn:ET. injection H as <- <- <-.
  apply eval_any in E. destruct E as (E & _). destruct HC as (HC0 & HC1). rewrite (proj1 (HC0 m)) in E.
  apply (train_blocks _ _ _ (conj HC0 HC1)) in ET. destruct ET as (b & n & -> & (C1 & C2) & S1 & E1 & L & M). cbn [ts_seen ts_ecount app Nat.add] in S1, E1, C1. subst n.
  exists w0, b. split; [reflexivity|]. split; [exact E|]. split; [exact C1|]. split; [exact C2|]. split; [exact E1|]. split; [exact L|exact M].
Qed.

(** ** Evaluations per epoch *)

Lemma asks_count : forall c k t s s', asks_at_least k t -> run_strategy c t s = Ok s' -> (ts_ecount s + k <= ts_ecount s')%nat.
Proof.
  intros c k t. revert k. induction t as [v|v f IH]; intros [|k] s s' HA H; cbn [run_strategy] in H.
  - injection H as <-. cbn. lia.
  - destruct HA.
  - pose proof (run_strategy_counts c (Ask v f) s s' H) as (_ & K & _). lia.
  - destruct (closure_eval c v s) as [s1|e] eqn:E; [|discriminate H].
    apply (IH (ts_loss s1) k) in H; [|apply HA]. unfold closure_eval in E. destruct (agg_eval _ _ _ _ _) as [[l|e] a]; [|discriminate E]. injection E as <-. cbn in H. lia.
Qed.

Lemma train_count : forall c opt sched k, (forall e s, asks_at_least k (opt e s)) -> forall left epoch s s' ls,
  train c opt sched epoch left s = (Ok s', ls) -> (ts_ecount s + length ls * k <= ts_ecount s')%nat.
Proof.
  intros c opt sched k HK left. induction left as [|n IH]; intros epoch s s' ls H; cbn [train] in H.
  - injection H as <- <-. cbn. lia.
  - destruct (run_strategy c (opt epoch s) s) as [s0|e] eqn:E; [|discriminate H]. apply (asks_count c k) in E; [|apply HK].
    cbv zeta in H. cbn [ts_mod ts_loss] in H. destruct (mp_pq (ts_mod s0)); [|discriminate H].
    destruct (negb (xfinite (ts_loss s0))); [discriminate H|].
    destruct (xltb (ts_loss s0) (Fin (tg_tol c))); [injection H as <- <-; cbn; lia|].
    destruct (lr_check _ _) as [s2|e] eqn:EL; [|discriminate H]. apply lr_check_same in EL. destruct EL as (_ & L2 & _). cbn [ts_ecount] in L2.
    destruct (train c opt sched (S epoch) n s2) as [r2 l2] eqn:E2. cbn [fst snd] in H. injection H as -> <-. apply IH in E2. cbn [length]. lia.
Qed.

Lemma calibrate_agree : forall c opt sched m v s ls, calibrate c opt sched m = (Ok (v, s), ls) ->
  exists w, calibrate_log c opt sched m = (w, (Ok tt, Some s)).
Proof.
  intros c opt sched m v s ls H. unfold calibrate in H. unfold calibrate_log.
  pose proof (eval_log_snd (tg_loss c) (tg_k1 c) (tg_zref c) agg_init (tg_args0 c m)) as ES.
  destruct (eval_log _ _ _ _ _) as [w0 rr]. cbn [snd] in ES. subst rr.
  destruct (agg_eval _ _ _ _ _) as [[l|e] a]; [|discriminate H]. cbv zeta in H.
  pose proof (train_log_snd c opt sched (tg_nepochs c) 1 (TS m l a 0 (tg_lr c) [])) as ET.
  pose proof (train_run_refines c opt sched (tg_nepochs c) 1 (TS m l a 0 (tg_lr c) [])) as TR. rewrite <- ET in TR.
  destruct (train_log _ _ _ _ _ _) as [w1 [r1 s1]]. cbn [snd] in TR.
  destruct (train c opt sched 1 (tg_nepochs c) _) as [r2 l2]. cbn [fst snd] in *. rewrite TR in H. destruct r1 as [[]|e]; [|discriminate H].
  cbn [bind] in H. destruct (calibrated_params (ts_mod s1)) as [v1|e]; [|discriminate H]. cbn [bind] in H. injection H as _ <- _. eexists. reflexivity.
Qed.

Lemma steps_exceed : forall c opt sched m v s ls k, counted c -> (forall e s, asks_at_least k (opt e s)) ->
  calibrate c opt sched m = (Ok (v, s), ls) -> (1 <= length ls * k)%nat ->
  exists e, In e (fst (calibrate_log c opt sched m)) /\ (length ls * k <= S (ev_step e))%nat.
Proof.
  intros c opt sched m v s ls k HC HK H HL. destruct (calibrate_agree _ _ _ _ _ _ _ H) as (w & EW). rewrite EW. cbn [fst].
  destruct (calibration_blocks _ _ _ _ _ _ _ HC EW) as (first & blocks & -> & _ & HB & _ & EC & L & _). specialize (L eq_refl).
  unfold calibrate in H. destruct (agg_eval _ _ _ _ _) as [[l|e] a]; [|discriminate H]. cbv zeta in H.
  destruct (train c opt sched 1 (tg_nepochs c) _) as [[s1|e] l2] eqn:ET; [|discriminate H]. cbn [fst snd bind] in H.
  destruct (calibrated_params (ts_mod s1)) as [v1|e]; [|discriminate H]. cbn [bind] in H. injection H as _ -> ->. apply (train_count _ _ _ k HK) in ET. cbn [ts_ecount] in ET.
  assert (HN : (length blocks - 1 < length blocks)%nat) by lia. apply nth_error_Some in HN.
  destruct (nth_error blocks (length blocks - 1)) as [b|] eqn:EB; [|congruence]. destruct (HB _ _ EB) as (HS & v0 & b' & ->).
  exists (Event "MSE Loss" v0 (length blocks - 1)). split; [|cbn; lia]. apply in_or_app. right. apply in_concat. eexists. split; [apply nth_error_In in EB; exact EB|left; reflexivity].
Qed.

Lemma step_zero_twice : forall c opt sched m w r s, counted c -> calibrate_log c opt sched m = (w, (r, Some s)) -> (1 <= ts_ecount s)%nat ->
  ~ NoDup (map (fun e => (ev_tag e, ev_step e)) w).
Proof.
  intros c opt sched m w r s HC H HE. destruct (calibration_blocks _ _ _ _ _ _ _ HC H) as (first & blocks & -> & (_ & v & f' & ->) & HB & _ & EC & _ & HL).
  destruct blocks as [|b blocks]; [cbn in HL; lia|]. destruct (HB 0%nat b eq_refl) as (_ & v' & b' & ->). cbn [concat app map ev_tag ev_step].
  intros HN. inversion HN as [|x l HI HN']; subst. apply HI. rewrite map_app. apply in_or_app. right. left. reflexivity.
Qed.

(** ** Series *)

Lemma scalars_app : forall t w1 w2, scalars t (w1 ++ w2) = scalars t w1 ++ scalars t w2.
Proof. intros t w1 w2. unfold scalars. rewrite filter_app, map_app. reflexivity. Qed.

Lemma record_histories : forall s n m c p1 p2 r, let s' := record_eval s n m c p1 p2 r in
  h_mse s' = h_mse s ++ [m] /\ h_coh s' = h_coh s ++ [c] /\ h_pen1 s' = h_pen1 s ++ [p1] /\ h_pen2 s' = h_pen2 s ++ [p2] /\ h_reg s' = h_reg s ++ [r].
Proof.
  intros s n m c p1 p2 r. cbv zeta. unfold record_eval, log_component_ratios, update_running_averages. cbv zeta.
  destruct (0 <? n)%nat; [|auto]. destruct (xltb (Fin 0) (total_avg _)); auto.
Qed.

(** What an evaluation adds to the histories and to the series. *)
Lemma eval_series : forall p k1 zref s a w l s', eval_log p k1 zref s a = (w, (Ok l, s')) ->
  h_mse s' = h_mse s ++ scalars "MSE Loss" w /\ length (scalars "MSE Loss" w) = 1%nat
  /\ (uses_coherence p a -> h_coh s' = h_coh s ++ scalars "Coherence Loss/Total" w)
  /\ (~ uses_coherence p a -> scalars "Coherence Loss/Total" w = [] /\ h_coh s' = h_coh s ++ [Fin 0])
  /\ (0 < alpha_pen1 p -> h_pen1 s' = h_pen1 s ++ scalars "1st Order Penalty" w)
  /\ (0 < alpha_pen2 p -> h_pen2 s' = h_pen2 s ++ scalars "2nd Order Penalty" w)
  /\ (uses_regularization p a -> h_reg s' = h_reg s ++ scalars "Regularization" w)
  /\ length (h_coh s') = (length (h_coh s) + 1)%nat.
Proof.
  intros p k1 zref s a w l s' H. apply eval_ok in H. cbv zeta in H.
  destruct H as (m & c & p1 & p2 & r & wc & w1 & w2 & wr & -> & HC & H1 & H2 & HR & _ & ES).
  destruct (record_histories s (ea_epoch a) m c p1 p2 r) as (M1 & M2 & M3 & M4 & M5). rewrite <- ES in M1, M2, M3, M4, M5. rewrite M1, M2, M3, M4, M5.
  rewrite app_length.
  destruct HC as [(HC & x & y & z & ->)|(HC & -> & ->)]; destruct H1 as [(H1 & ->)|(H1 & -> & ->)]; destruct H2 as [(H2 & ->)|(H2 & -> & ->)];
  destruct HR as [(HR & ->)|(HR & -> & ->)]; destruct (ratio_shape (ea_epoch a) s') as [->|(ra & rb & rc & rd & ->)]; cbn; tauto.
Qed.

(** The same over a training. *)
Definition grown (p : loss_params) (coh reg : Prop) (w : list event) (a a' : agg) : Prop :=
  h_mse a' = h_mse a ++ scalars "MSE Loss" w
  /\ (coh -> h_coh a' = h_coh a ++ scalars "Coherence Loss/Total" w)
  /\ (0 < alpha_pen1 p -> h_pen1 a' = h_pen1 a ++ scalars "1st Order Penalty" w)
  /\ (0 < alpha_pen2 p -> h_pen2 a' = h_pen2 a ++ scalars "2nd Order Penalty" w)
  /\ (reg -> h_reg a' = h_reg a ++ scalars "Regularization" w)
  /\ length (h_coh a') = (length (h_coh a) + length (scalars "MSE Loss" w))%nat.

Lemma grown_app : forall p coh reg w1 w2 a a1 a2, grown p coh reg w1 a a1 -> grown p coh reg w2 a1 a2 -> grown p coh reg (w1 ++ w2) a a2.
Proof.
  intros p coh reg w1 w2 a a1 a2 (A1 & A2 & A3 & A4 & A5 & A6) (B1 & B2 & B3 & B4 & B5 & B6). unfold grown. rewrite !scalars_app, !app_assoc.
  split; [rewrite B1, A1; reflexivity|]. split; [intros K; rewrite B2, A2 by exact K; reflexivity|]. split; [intros K; rewrite B3, A3 by exact K; reflexivity|].
  split; [intros K; rewrite B4, A4 by exact K; reflexivity|]. split; [intros K; rewrite B5, A5 by exact K; reflexivity|]. rewrite B6, A6, app_length. lia.
Qed.

Lemma grown_none : forall p coh reg a, grown p coh reg [] a a.
Proof. intros p coh reg a. unfold grown. cbn. rewrite !app_nil_r, Nat.add_0_r. auto 10. Qed.

Section Series.
Variables (c : train_cfg) (opt : nat -> tstate -> strategy) (sched : nat -> R -> R).
Let coh := forall m n, uses_coherence (tg_loss c) (tg_args c m n).
Let reg := forall m n, uses_regularization (tg_loss c) (tg_args c m n).

Lemma closure_series : forall v s w s', closure_log c v s = (w, (Ok tt, s')) ->
  grown (tg_loss c) coh reg w (ts_agg s) (ts_agg s') /\ length (scalars "MSE Loss" w) = 1%nat /\ ts_ecount s' = S (ts_ecount s).
Proof.
  intros v s w s' H. unfold closure_log in H. cbv zeta in H. destruct (eval_log _ _ _ _ _) as [w0 [[l|e] a]] eqn:E; [|discriminate H]. injection H as <- <-.
  apply eval_series in E. destruct E as (E1 & E2 & E3 & _ & E5 & E6 & E7 & E8). cbn [ts_agg ts_ecount]. split; [|auto]. unfold grown.
  split; [exact E1|]. split; [intros K; apply E3; apply K|]. split; [exact E5|]. split; [exact E6|]. split; [intros K; apply E7; apply K|]. rewrite E2. exact E8.
Qed.

Lemma strategy_series : forall t s w s', strategy_log c t s = (w, (Ok tt, s')) ->
  grown (tg_loss c) coh reg w (ts_agg s) (ts_agg s') /\ (ts_ecount s + length (scalars "MSE Loss" w) = ts_ecount s')%nat.
Proof.
  intros t. induction t as [v|v k IH]; intros s w s' H; cbn [strategy_log] in H.
  - injection H as <- <-. cbn [ts_agg ts_ecount]. split; [apply grown_none|cbn; lia].
  - destruct (closure_log c v s) as [w1 [[[]|e] s1]] eqn:E; [|discriminate H]. destruct (strategy_log c (k (ts_loss s1)) s1) as [w2 [r2 s2]] eqn:E2. injection H as <- -> <-.
    apply closure_series in E. apply IH in E2. destruct E as (E & L & C), E2 as (E2 & L2). split; [apply (grown_app _ _ _ _ _ _ (ts_agg s1)); assumption|].
    rewrite scalars_app, app_length. lia.
Qed.

Lemma train_series : forall left epoch s w s', train_log c opt sched epoch left s = (w, (Ok tt, s')) ->
  grown (tg_loss c) coh reg w (ts_agg s) (ts_agg s') /\ (ts_ecount s + length (scalars "MSE Loss" w) = ts_ecount s')%nat.
Proof.
  intros left. induction left as [|n IH]; intros epoch s w s' H; cbn [train_log] in H.
  - injection H as <- <-. split; [apply grown_none|cbn; lia].
  - destruct (strategy_log c (opt epoch s) s) as [w1 [[[]|e] s0]] eqn:E; [|discriminate H]. apply strategy_series in E. destruct E as (E & L).
    cbv zeta in H. cbn [ts_mod ts_loss] in H. destruct (mp_pq (ts_mod s0)); [|discriminate H].
    destruct (negb (xfinite (ts_loss s0))); [discriminate H|].
    destruct (xltb (ts_loss s0) (Fin (tg_tol c))); [injection H as <- <-; split; [exact E|exact L]|].
    destruct (lr_check _ _) as [s2|e] eqn:EL; [|discriminate H]. apply lr_check_same in EL. destruct EL as (_ & L2 & L3 & _). cbn [ts_ecount ts_agg] in L2, L3.
    destruct (train_log c opt sched (S epoch) n s2) as [w2 [r2 s3]] eqn:E2. injection H as <- -> <-. apply IH in E2. destruct E2 as (E2 & LL). rewrite L3 in E2.
    split; [apply (grown_app _ _ _ _ _ _ (ts_agg s0)); assumption|]. rewrite scalars_app, app_length. lia.
Qed.

Lemma calibration_series : forall m w s, (forall m, ea_coh (tg_args0 c m) = None) -> calibrate_log c opt sched m = (w, (Ok tt, Some s)) ->
  scalars "MSE Loss" w = h_mse (ts_agg s) /\ length (h_mse (ts_agg s)) = S (ts_ecount s)
  /\ (coh -> h_coh (ts_agg s) = Fin 0 :: scalars "Coherence Loss/Total" w)
  /\ (0 < alpha_pen1 (tg_loss c) -> scalars "1st Order Penalty" w = h_pen1 (ts_agg s))
  /\ (0 < alpha_pen2 (tg_loss c) -> scalars "2nd Order Penalty" w = h_pen2 (ts_agg s))
  /\ (reg -> uses_regularization (tg_loss c) (tg_args0 c m) -> scalars "Regularization" w = h_reg (ts_agg s))
  /\ length (h_coh (ts_agg s)) = S (ts_ecount s).
Proof.
  intros m w s HN H. unfold calibrate_log in H. destruct (eval_log _ _ _ _ _) as [w0 [[l|e] a]] eqn:E; [|discriminate H].
  destruct (train_log _ _ _ _ _ _) as [w1 [r1 s1]] eqn:ET. injection H as <- -> <-. apply train_series in ET. destruct ET as ((A1 & A2 & A3 & A4 & A5 & A6) & L).
  apply eval_series in E. destruct E as (E1 & E2 & _ & E4 & E5 & E6 & E7 & E8). cbn [ts_agg ts_ecount agg_init h_mse h_coh h_pen1 h_pen2 h_reg app] in *. rewrite !scalars_app.
  assert (NC : ~ uses_coherence (tg_loss c) (tg_args0 c m)) by (intros (K & _); apply K; apply HN). destruct (E4 NC) as (E4a & E4b).
  split; [rewrite A1, E1; reflexivity|]. split; [rewrite A1, E1, app_length, E2; lia|]. split; [intros K; rewrite A2, E4a, E4b by exact K; reflexivity|].
  split; [intros K; rewrite A3, E5 by exact K; reflexivity|]. split; [intros K; rewrite A4, E6 by exact K; reflexivity|]. split; [intros K K0; rewrite A5, E7 by assumption; reflexivity|]. rewrite A6, E8. cbn. lia.
Qed.

End Series.

(** ** What is drawn *)

Lemma tags_from_In : forall w seen t, In t (tags_from seen w) <-> In t (map ev_tag w) /\ ~ In t seen.
Proof.
  intros w. induction w as [|e w IH]; intros seen t; [cbn; tauto|]. cbn [tags_from map].
  destruct (existsb (String.eqb (ev_tag e)) seen) eqn:E.
  - apply existsb_exists in E. destruct E as (x & HI & E). apply String.eqb_eq in E. subst x. rewrite IH. cbn. split; [tauto|]. intros ([<-|K] & N); [contradiction|auto].
  - assert (NI : ~ In (ev_tag e) seen).
    { intros K. assert (X : existsb (String.eqb (ev_tag e)) seen = true) by (apply existsb_exists; exists (ev_tag e); split; [exact K|apply String.eqb_refl]). congruence. }
    cbn [In]. rewrite IH. cbn [In]. split.
    + intros [<-|(K & N)]; [auto|]. tauto.
    + intros ([<-|K] & N); [auto|]. destruct (String.string_dec (ev_tag e) t) as [<-|D]; [auto|]. right. tauto.
Qed.

Lemma scalars_nonempty : forall t w, In t (map ev_tag w) -> scalars t w <> [].
Proof.
  intros t w H. apply in_map_iff in H. destruct H as (e & E & HI). unfold scalars. intros K. apply map_eq_nil in K.
  assert (X : In e (filter (fun e => String.eqb (ev_tag e) t) w)) by (apply filter_In; split; [exact HI|rewrite E; apply String.eqb_refl]). rewrite K in X. destruct X.
Qed.

Lemma two_in : forall A (l : list A) a b, In a l -> In b l -> a <> b -> (2 <= length l)%nat.
Proof. intros A [|x [|y l]] a b HA HB N; cbn in *; [tauto| |lia]. exfalso. apply N. intuition congruence. Qed.

Lemma drawn_tag : forall w t t', In t (map ev_tag w) -> In t' (map ev_tag w) -> t <> t' ->
  exists drawn, plot_loss_logs (series_of w) = Ok drawn /\ In (t, skipn 2 (scalars t w)) drawn /\ In (t', skipn 2 (scalars t' w)) drawn
  /\ forall x v, In (x, v) drawn -> v = skipn 2 (scalars x w).
Proof.
  intros w t t' H H' N. exists (rev (map (fun s => (fst s, skipn 2 (snd s))) (series_of w))).
  assert (IT : forall u, In u (map ev_tag w) -> In (u, skipn 2 (scalars u w)) (rev (map (fun s => (fst s, skipn 2 (snd s))) (series_of w)))).
  { intros u K. apply in_rev. rewrite rev_involutive. unfold series_of. rewrite map_map. cbn [fst snd]. apply (in_map (fun t => (t, skipn 2 (scalars t w)))). apply tags_from_In. auto. }
  split; [apply curves_value|split; [apply IT; exact H|split; [apply IT; exact H'|]]].
  - unfold series_of. rewrite map_length. apply (two_in _ _ t t'); [apply tags_from_In; auto|apply tags_from_In; auto|exact N].
  - unfold series_of. apply List.Forall_forall. intros [u v] K. apply in_map_iff in K. destruct K as (u' & E & K). injection E as <- <-. cbn [snd].
    apply scalars_nonempty. apply tags_from_In in K. tauto.
  - intros x v K. apply in_rev in K. unfold series_of in K. rewrite map_map in K. apply in_map_iff in K. destruct K as (u & E & _). cbn [fst snd] in E. injection E as <- <-. reflexivity.
Qed.

Lemma scalars_In : forall t w, scalars t w <> [] -> In t (map ev_tag w).
Proof.
  intros t w H. unfold scalars in H. destruct (filter (fun e => String.eqb (ev_tag e) t) w) as [|e l] eqn:E; [contradiction H; reflexivity|].
  assert (K : In e (filter (fun e => String.eqb (ev_tag e) t) w)) by (rewrite E; left; reflexivity). apply filter_In in K. destruct K as (K & ET). apply String.eqb_eq in ET. subst t.
  apply in_map. exact K.
Qed.

Lemma shifted_curves : forall c opt sched m w s, counted c -> (forall m n, uses_coherence (tg_loss c) (tg_args c m n)) ->
  calibrate_log c opt sched m = (w, (Ok tt, Some s)) -> (1 <= ts_ecount s)%nat ->
  exists drawn, plot_loss_logs (series_of w) = Ok drawn
  /\ In ("MSE Loss"%string, skipn 2 (h_mse (ts_agg s))) drawn /\ In ("Coherence Loss/Total"%string, skipn 3 (h_coh (ts_agg s))) drawn.
Proof.
  intros c opt sched m w s (HC & _) HU H HE. destruct (calibration_series c opt sched m w s (fun m => proj2 (HC m)) H) as (S1 & S2 & S3 & _ & _ & _ & HL). specialize (S3 HU).
  destruct (drawn_tag w "MSE Loss" "Coherence Loss/Total") as (drawn & D1 & D2 & D3 & _).
  - apply scalars_In. rewrite S1. intros K. rewrite K in S2. discriminate S2.
  - apply scalars_In. intros K. rewrite S3, K in HL. cbn in HL. lia.
  - discriminate.
  - exists drawn. split; [exact D1|]. rewrite S1 in D2. split; [exact D2|]. rewrite S3. exact D3.
Qed.

Lemma aligned_curves : forall c opt sched m w s, counted c -> 0 < alpha_pen1 (tg_loss c) -> 0 < alpha_pen2 (tg_loss c) ->
  calibrate_log c opt sched m = (w, (Ok tt, Some s)) ->
  exists drawn, plot_loss_logs (series_of w) = Ok drawn
  /\ In ("MSE Loss"%string, skipn 2 (h_mse (ts_agg s))) drawn /\ In ("1st Order Penalty"%string, skipn 2 (h_pen1 (ts_agg s))) drawn
  /\ In ("2nd Order Penalty"%string, skipn 2 (h_pen2 (ts_agg s))) drawn.
Proof.
  intros c opt sched m w s (HC & _) P1 P2 H. destruct (calibration_series c opt sched m w s (fun m => proj2 (HC m)) H) as (S1 & S2 & _ & S4 & S5 & _).
  assert (T : In "MSE Loss"%string (map ev_tag w) /\ In "1st Order Penalty"%string (map ev_tag w) /\ In "2nd Order Penalty"%string (map ev_tag w)).
  { unfold calibrate_log in H. destruct (eval_log _ _ _ _ _) as [w0 [[l|e] a]] eqn:E; [|discriminate H].
    destruct (train_log _ _ _ _ _ _) as [w1 [r1 s1]]. injection H as <- _ _. rewrite map_app. 
    pose proof (evaluation_records _ _ _ _ _ _ _ _ E) as ((_ & v & b & EB) & _). apply tag_present in E. destruct E as (_ & E1 & E2 & _).
    split; [apply in_or_app; left; rewrite EB; left; reflexivity|]. split; apply in_or_app; left; tauto. }
  destruct T as (T1 & T2 & T3).
  destruct (drawn_tag w "MSE Loss" "1st Order Penalty" T1 T2) as (drawn & D1 & D2 & D3 & _); [discriminate|].
  destruct (drawn_tag w "MSE Loss" "2nd Order Penalty" T1 T3) as (drawn' & D1' & _ & D4 & _); [discriminate|]. rewrite D1 in D1'. injection D1' as <-.
  exists drawn. rewrite S1 in D2. rewrite S4 in D3 by exact P1. rewrite S5 in D4 by exact P2. auto.
Qed.

(** ** Ratios *)

Lemma eval_ratios : forall p k1 zref s a w r s' k, eval_log p k1 zref s a = (w, (r, s')) -> (k < 4)%nat ->
  map (ratio_field k) (la_ratios s') = map (ratio_field k) (la_ratios s) ++ scalars (ratio_tag k) w.
Proof.
  intros p k1 zref s a w [l|e] s' k H Hk.
  - apply eval_ok in H. cbv zeta in H. destruct H as (m & c & p1 & p2 & r & wc & w1 & w2 & wr & -> & HC & H1 & H2 & HR & _ & ES).
    rewrite scalars_app.
    assert (E0 : scalars (ratio_tag k) (Event "MSE Loss" m (ea_epoch a) :: wc ++ w1 ++ w2 ++ wr) = []).
    { destruct HC as [(HC & x & y & z & ->)|(HC & -> & ->)]; destruct H1 as [(H1 & ->)|(H1 & -> & ->)]; destruct H2 as [(H2 & ->)|(H2 & -> & ->)];
      destruct HR as [(HR & ->)|(HR & -> & ->)]; destruct k as [|[|[|k]]]; reflexivity. }
    rewrite E0. cbn [app]. unfold record_eval in ES. cbv zeta in ES. unfold log_component_ratios in ES. unfold ratio_events.
    destruct (0 <? ea_epoch a)%nat.
    + cbv zeta in ES |- *. match type of ES with (_ = if xltb _ (total_avg ?x) then _ else _) => set (s3 := x) in ES end.
      assert (ET : total_avg s' = total_avg s3) by (destruct (xltb (Fin 0) (total_avg s3)); subst s'; reflexivity).
      rewrite ET. destruct (xltb (Fin 0) (total_avg s3)).
      * rewrite ES. cbn [la_ratios r_mse r_coh r_pen1 r_pen2 r_reg]. rewrite map_app. destruct k as [|[|[|[|k]]]]; [| | | |lia]; reflexivity.
      * rewrite ES. rewrite app_nil_r. reflexivity.
    + rewrite ES. rewrite app_nil_r. reflexivity.
  - apply failed_evaluation in H. destruct H as (-> & _ & HT & _).
    assert (E : scalars (ratio_tag k) w = []).
    { destruct (scalars (ratio_tag k) w) eqn:E; [reflexivity|]. exfalso. apply (HT (ratio_tag k)); [apply scalars_In; congruence|]. destruct k as [|[|[|k]]]; cbn; tauto. }
    rewrite E, app_nil_r. reflexivity.
Qed.

Lemma run_ratios : forall p k1 zref h s k, (k < 4)%nat ->
  map (ratio_field k) (la_ratios (agg_run p k1 zref s h)) = map (ratio_field k) (la_ratios s) ++ scalars (ratio_tag k) (fst (run_log p k1 zref s h)).
Proof.
  intros p k1 zref h s k Hk. rewrite <- run_log_snd. revert s. induction h as [|a h IH]; intros s; [cbn; rewrite app_nil_r; reflexivity|]. cbn [run_log].
  destruct (eval_log p k1 zref s a) as [w [r s1]] eqn:E. pose proof (IH s1) as IH1. destruct (run_log p k1 zref s1 h) as [w' s2]. cbn [fst snd] in *.
  rewrite IH1, (eval_ratios _ _ _ _ _ _ _ _ _ E Hk), scalars_app, app_assoc. reflexivity.
Qed.
