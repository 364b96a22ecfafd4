(** Lemmas about stopping the training. *)

From Coq Require Import Reals List Arith ZArith Bool Lia Lra.
From Verif Require Import Prelude RdtModel SpectraModel OpsModel LossModel LossProofs CalModel CalProofs CalMore PlotModel PlotProofs StopModel StopSpec.
Import ListNotations.
Open Scope R_scope.

Lemma fill_rows_idem : forall W v, fill_rows (fst (fill_rows W v)) v = fill_rows W v.
Proof.
  induction W as [|r W IH]; intros v; [reflexivity|]. cbn [fill_rows fst snd]. rewrite firstn_length.
  assert (F : firstn (Nat.min (length r) (length v)) v = firstn (length r) v).
  { destruct (Nat.le_gt_cases (length r) (length v)); [rewrite Nat.min_l by lia; reflexivity|]. rewrite Nat.min_r by lia. rewrite firstn_all, firstn_all2 by lia. reflexivity. }
  assert (S : skipn (Nat.min (length r) (length v)) v = skipn (length r) v).
  { destruct (Nat.le_gt_cases (length r) (length v)); [rewrite Nat.min_l by lia; reflexivity|]. rewrite Nat.min_r by lia. rewrite skipn_all, skipn_all2 by lia. reflexivity. }
  rewrite F, S, IH. reflexivity.
Qed.

Lemma fill_layers_idem : forall Ws v, fill_layers (fst (fill_layers Ws v)) v = fill_layers Ws v.
Proof.
  induction Ws as [|W Ws IH]; intros v; [reflexivity|]. cbn [fill_layers fst snd]. rewrite fill_rows_idem, IH. reflexivity.
Qed.

Lemma vtp_idem : forall m v, vector_to_parameters (vector_to_parameters m v) v = vector_to_parameters m v.
Proof.
  intros [a b c pq net] v. unfold vector_to_parameters. cbn [mp_pq mp_net]. destruct pq as [x|], net as [[Ws [nu|]]|]; cbn [fst snd]; rewrite ?fill_layers_idem; reflexivity.
Qed.

Lemma agg_loss_state : forall p k z a b args, fst (agg_eval p k z a args) = fst (agg_eval p k z b args).
Proof. intros p k z a b args. unfold agg_eval. destruct (eval_terms p k z args) as [[[[[m c] p1] p2] r]|e]; reflexivity. Qed.

Lemma closure_seen : forall c v s s1, closure_eval c v s = Ok s1 -> ts_seen s1 = ts_seen s ++ [(v, ts_loss s1)].
Proof.
  intros c v s s1 H. unfold closure_eval in H.
  destruct (agg_eval (tg_loss c) (tg_k1 c) (tg_zref c) (ts_agg s) (tg_args c (vector_to_parameters (ts_mod s) v) (ts_ecount s))) as [[l|e] a]; [|discriminate].
  injection H as <-. reflexivity.
Qed.

Lemma adam_history_replay : forall grad n vs, adam_replay grad vs n = adam_history grad n vs.
Proof.
  intros grad n vs. unfold adam_replay. induction vs as [|v vs IH] using rev_ind; [reflexivity|].
  rewrite fold_left_app. cbn [fold_left]. rewrite IH. unfold adam_history. rewrite rev_app_distr. reflexivity.
Qed.

Lemma closure_loss : forall c v s s1, closure_eval c v s = Ok s1 ->
  ts_mod s1 = vector_to_parameters (ts_mod s) v /\ loss_at c (ts_mod s1) (ts_ecount s) = Ok (ts_loss s1).
Proof.
  intros c v s s1 H. unfold closure_eval in H. unfold loss_at.
  destruct (agg_eval (tg_loss c) (tg_k1 c) (tg_zref c) (ts_agg s) (tg_args c (vector_to_parameters (ts_mod s) v) (ts_ecount s))) as [[l|e] a] eqn:E; [|discriminate].
  injection H as <-. cbn [ts_mod ts_loss]. split; [reflexivity|]. rewrite (agg_loss_state _ _ _ agg_init (ts_agg s)), E. reflexivity.
Qed.

Lemma settled_loss : forall c t last s s1, settled last t -> run_strategy c t s = Ok s1 ->
  (forall v, last = Some v -> vector_to_parameters (ts_mod s) v = ts_mod s /\ exists n, loss_at c (ts_mod s) n = Ok (ts_loss s)) ->
  exists n, loss_at c (ts_mod s1) n = Ok (ts_loss s1).
Proof.
  intros c t. induction t as [v|v k IH]; intros last s s1 HS HR HI.
  - cbn in HS, HR. injection HR as <-. cbn [ts_mod ts_loss]. destruct (HI v HS) as (-> & n & Hn). exists n. exact Hn.
  - cbn [settled] in HS. cbn [run_strategy] in HR. destruct (closure_eval c v s) as [s2|e] eqn:E; [|discriminate].
    apply (IH (ts_loss s2) (Some v) s2 s1 (HS _) HR). intros w Hw. injection Hw as <-. destruct (closure_loss c v s s2 E) as (M & L). split; [rewrite M; apply vtp_idem|exists (ts_ecount s); exact L].
Qed.

(** What a run of the loop leaves, for any property of the state after an epoch. *)
Lemma train_last : forall (P : tstate -> Prop) c opt sched left epoch s s1 ls,
  (forall e s0 s2, run_strategy c (opt e s0) s0 = Ok s2 -> forall lr, P (TS (ts_mod s2) (ts_loss s2) (ts_agg s2) (ts_ecount s2) lr (ts_seen s2))) ->
  train c opt sched epoch left s = (Ok s1, ls) -> ls <> [] -> P s1.
Proof.
  intros P c opt sched left. induction left as [|left IH]; intros epoch s s1 ls HP H HL; cbn [train] in H; [injection H as _ <-; contradiction|].
  destruct (run_strategy c (opt epoch s) s) as [s0|e] eqn:E; [|discriminate]. pose proof (HP _ _ _ E) as HS.
  cbn [ts_mod ts_loss] in H. destruct (mp_pq (ts_mod s0)); [|discriminate]. destruct (negb (xfinite (ts_loss s0))); [discriminate|].
  destruct (xltb (ts_loss s0) (Fin (tg_tol c))); [injection H as <- _; apply HS|].
  set (st := TS (ts_mod s0) (ts_loss s0) (ts_agg s0) (ts_ecount s0) (sched epoch (ts_lr s0)) (ts_seen s0)) in H.
  destruct (lr_check epoch st) as [s2|e] eqn:E2; [|discriminate].
  assert (P2 : P s2).
  { unfold lr_check in E2. destruct (epoch mod 50 =? 0)%nat; [|injection E2 as <-; apply HS]. destruct (should_adjust epoch 50 (ts_agg st)) as [a|]; [|discriminate]. injection E2 as <-. apply HS. }
  destruct (train c opt sched (S epoch) left s2) as [r ls2] eqn:E3. cbn [fst snd] in H. injection H as -> <-.
  destruct ls2 as [|x ls2].
  - destruct left; cbn [train] in E3; [injection E3 as <-; exact P2|]. destruct (run_strategy c (opt (S epoch) s2) s2) as [s3|e3]; [|discriminate]. cbn [ts_mod ts_loss] in E3.
    destruct (mp_pq (ts_mod s3)); [|discriminate]. destruct (negb (xfinite (ts_loss s3))); [discriminate|]. destruct (xltb (ts_loss s3) (Fin (tg_tol c))); [discriminate|].
    destruct (lr_check (S epoch) _); discriminate.
  - apply (IH _ _ _ _ HP E3). discriminate.
Qed.

Lemma calibrate_last : forall (P : tstate -> Prop) c opt sched m v s ls,
  (forall e s0 s2, run_strategy c (opt e s0) s0 = Ok s2 -> forall lr, P (TS (ts_mod s2) (ts_loss s2) (ts_agg s2) (ts_ecount s2) lr (ts_seen s2))) ->
  calibrate c opt sched m = (Ok (v, s), ls) -> ls <> [] -> P s.
Proof.
  intros P c opt sched m v s ls HP H HL. unfold calibrate in H.
  destruct (agg_eval _ _ _ _ _) as [[l|e] a]; [|discriminate].
  match type of H with (bind (fst ?t) _, _) = _ => destruct t as [r ls'] eqn:ET end.
  cbn [fst snd] in H. destruct r as [s1|e]; cbn [bind] in H; [|discriminate].
  destruct (calibrated_params (ts_mod s1)) as [w|e]; cbn [bind] in H; [|discriminate]. injection H as _ <- <-.
  exact (train_last P c opt sched _ _ _ _ _ HP ET HL).
Qed.

Lemma settled_stop : forall c opt sched m v s ls, (forall e s0, settled None (opt e s0)) ->
  calibrate c opt sched m = (Ok (v, s), ls) -> (length ls < tg_nepochs c)%nat ->
  exists n r, loss_at c (ts_mod s) n = Ok (Fin r) /\ r < tg_tol c.
Proof.
  intros c opt sched m v s ls HS H HL. pose proof (calibrate_ok _ _ _ _ _ _ _ H) as (_ & A2 & A3 & _).
  assert (HN : ls <> []) by (intros ->; rewrite (A2 eq_refl) in HL; cbn in HL; lia).
  assert (HP : exists n, loss_at c (ts_mod s) n = Ok (ts_loss s)).
  { apply (calibrate_last (fun s => exists n, loss_at c (ts_mod s) n = Ok (ts_loss s)) c opt sched m v s ls); [|exact H|exact HN].
    intros e s0 s2 HR lr. cbn [ts_mod ts_loss]. apply (settled_loss c (opt e s0) None s0 s2 (HS e s0) HR). discriminate. }
  destruct (exists_last HN) as (pre & l & E). destruct (A3 pre l E) as (_ & L & r & -> & [HR|HR]); [|lia].
  destruct HP as (n & Hn). exists n, r. split; [rewrite Hn, L; reflexivity|exact HR].
Qed.

Lemma adam_behind : forall c grad sched m v s ls, calibrate c (adam_opt grad) sched m = (Ok (v, s), ls) -> ls <> [] ->
  exists m1 n lr vs, loss_at c m1 n = Ok (ts_loss s) /\ map fst (ts_seen s) = vs ++ [get_parameters m1]
    /\ ts_mod s = vector_to_parameters m1 (fst (adam_step lr (grad (get_parameters m1)) (get_parameters m1)
         (adam_history grad (length (get_parameters m1)) vs))).
Proof.
  intros c grad sched m v s ls H HN.
  apply (calibrate_last (fun s => exists m1 n lr vs, loss_at c m1 n = Ok (ts_loss s) /\ map fst (ts_seen s) = vs ++ [get_parameters m1]
    /\ ts_mod s = vector_to_parameters m1 (fst (adam_step lr (grad (get_parameters m1)) (get_parameters m1)
         (adam_history grad (length (get_parameters m1)) vs)))) c (adam_opt grad) sched m v s ls); [|exact H|exact HN].
  intros e s0 s2 HR lr. cbn [ts_mod ts_loss ts_seen]. unfold adam_opt in HR. cbn [run_strategy] in HR.
  destruct (closure_eval c (get_parameters (ts_mod s0)) s0) as [s1|x] eqn:E; [|discriminate]. injection HR as <-. cbn [ts_mod ts_loss ts_seen].
  destruct (closure_loss _ _ _ _ E) as (M & L). pose proof (closure_seen _ _ _ _ E) as SE. rewrite vtp_get in M. exists (ts_mod s1), (ts_ecount s0), (ts_lr s0), (map fst (ts_seen s0)).
  rewrite M in *. split; [exact L|]. split; [rewrite SE, map_app; reflexivity|]. rewrite <- adam_history_replay. reflexivity.
Qed.

(** A one-parameter fit: the model is exp(log L), the datum 1, the loss (log L)^2. *)
Definition square_cfg : train_cfg :=
  TCfg (LossParams 0 0 0 0) [1] 1 1 5 10 (fun m => EvalArgs [[exp (mp_logL m)]] [[1]] ThNone 0 None)
       (fun m _ => EvalArgs [[exp (mp_logL m)]] [[1]] ThNone 0 None).

Definition square_grad (v : list R) : list R := match v with a :: rest => 2 * a :: repeat 0 (length rest) | [] => [] end.

Lemma square_terms : forall m, eval_terms (LossParams 0 0 0 0) [1] 1 (EvalArgs [[exp (mp_logL m)]] [[1]] ThNone 0 None) = Ok (Fin (mp_logL m ^ 2), Fin 0, Fin 0, Fin 0, Fin 0).
Proof.
  intros m. unfold eval_terms. cbn [ea_y ea_data ea_theta ea_coh alpha_pen1 alpha_pen2 beta_reg concat app].
  unfold mse_term. pose proof (exp_pos (mp_logL m)) as P. rewrite sq_ratio_list; [|reflexivity|repeat constructor; lra|repeat constructor; lra].
  cbn [zip_with]. rewrite xmean_fin by discriminate. unfold Rmean, Rsum. cbn [fold_right length INR nan_guard bind].
  rewrite Rabs_R1, (Rabs_right (exp _)) by lra. assert (E : ln (exp (mp_logL m) / 1) = mp_logL m) by (unfold Rdiv; rewrite Rinv_1, Rmult_1_r; apply ln_exp). rewrite !E.
  replace (Rltb 0 0) with false; [|symmetry; unfold Rltb; destruct (Rlt_dec 0 0); [lra|reflexivity]]. unfold nan_guard. cbn [bind]. replace ((mp_logL m * mp_logL m + 0) / 1) with (mp_logL m ^ 2) by field. reflexivity.
Qed.

Lemma square_loss : forall m n, loss_at square_cfg m n = Ok (Fin (mp_logL m ^ 2)).
Proof.
  intros m n. unfold loss_at, agg_eval. cbn [square_cfg tg_loss tg_k1 tg_zref tg_args]. rewrite square_terms. cbn [fst xadd]. do 2 f_equal. ring.
Qed.

Lemma square_closure : forall v s, exists s1, closure_eval square_cfg v s = Ok s1 /\ ts_mod s1 = vector_to_parameters (ts_mod s) v /\ ts_loss s1 = Fin (nth 0 v 0 ^ 2).
Proof.
  intros v s. unfold closure_eval. cbn [square_cfg tg_loss tg_k1 tg_zref tg_args]. unfold agg_eval. rewrite square_terms. eexists. split; [reflexivity|].
  cbn [ts_mod ts_loss xadd vector_to_parameters mp_logL]. split; [reflexivity|]. f_equal. ring.
Qed.

Lemma adam_overshoots : exists v s, calibrate square_cfg (adam_opt square_grad) (cosine_sched 5 10) (MP (1/2) 0 0 (Some (4, 2)) None) = (Ok (v, s), [Fin ((1/2) ^ 2)])
  /\ mp_logL (ts_mod s) <= -9.
Proof.
  unfold calibrate. cbn [square_cfg tg_loss tg_k1 tg_zref tg_args0 tg_nepochs tg_lr]. fold square_cfg. unfold agg_eval. rewrite square_terms.
  set (s0 := TS _ _ _ _ _ _).
  assert (ET : exists s, train square_cfg (adam_opt square_grad) (cosine_sched 5 10) 1 5 s0 = (Ok s, [Fin ((1/2)^2)]) /\ mp_logL (ts_mod s) <= -9).
  2:{ destruct ET as (s & -> & HL). cbn [fst snd bind]. destruct (calibrated_always (ts_mod s)) as [v EC]. rewrite EC. exists v, s. split; [reflexivity|exact HL]. }
  cbn [train]. unfold adam_opt at 1. cbn [run_strategy].
  destruct (square_closure (get_parameters (ts_mod s0)) s0) as (s1 & -> & M & L). cbn [run_strategy ts_mod ts_loss]. rewrite M, L.
  set (w := fst (adam_step (ts_lr s0) _ _ _)).
  assert (W : nth 0 w 0 <= -9).
  { subst w. cbn [s0 ts_mod get_parameters tensors concat app nth mp_logL mp_logT mp_logM mp_pq mp_net ts_seen map ts_lr adam_replay fold_left].
    change (nth 0 (fst (adam_step 10 (square_grad [1/2; 0; 0; 4; 2]) [1/2; 0; 0; 4; 2] (adam_init 5))) 0 <= -9).
    unfold adam_step. cbn [adam_init square_grad repeat length combine map ad_t ad_m ad_v fst nth]. rewrite adam_first.
    replace (2 * (1/2) + 1/100000 * (1/2)) with (200001/200000) by lra. rewrite Rabs_right by lra. lra. }
  assert (Q : mp_pq (vector_to_parameters (vector_to_parameters (ts_mod s0) (get_parameters (ts_mod s0))) w) <> None) by (cbn; discriminate).
  change (mp_logL (vector_to_parameters (vector_to_parameters (ts_mod s0) (get_parameters (ts_mod s0))) w) <= -9) in W.
  set (m1 := vector_to_parameters (vector_to_parameters (ts_mod s0) (get_parameters (ts_mod s0))) w) in *.
  destruct (mp_pq m1) as [x|]; [|contradiction]. change (nth 0 (get_parameters (ts_mod s0)) 0) with (1/2). cbn [xfinite negb xltb square_cfg tg_tol].
  replace (Rltb ((1/2)^2) 1) with true; [|symmetry; unfold Rltb; destruct (Rlt_dec ((1/2)^2) 1); [reflexivity|lra]].
  eexists. split; [reflexivity|]. exact W.
Qed.

Lemma stop_false :
  (forall a b d p q n, loss_at square_cfg (MP a b d (Some (p, q)) None) n = Ok (Fin (a ^ 2)) /\ square_grad [a; b; d; p; q] = [2 * a; 0; 0; 0; 0])
  /\ exists v s l l', calibrate square_cfg (adam_opt square_grad) (cosine_sched 5 10) (MP (1/2) 0 0 (Some (4, 2)) None) = (Ok (v, s), [Fin l])
    /\ l < tg_tol square_cfg /\ (1 < tg_nepochs square_cfg)%nat
    /\ (forall n, loss_at square_cfg (ts_mod s) n = Ok (Fin l')) /\ 81 * tg_tol square_cfg <= l'.
Proof.
  split.
  - intros a b d p q n. split; [apply square_loss|reflexivity].
  - destruct adam_overshoots as (v & s & H & HL). exists v, s, ((1/2)^2), (mp_logL (ts_mod s) ^ 2). split; [exact H|].
    cbn [square_cfg tg_tol tg_nepochs]. split; [lra|]. split; [lia|]. split; [intros n; apply square_loss|]. fold square_cfg. nra.
Qed.
