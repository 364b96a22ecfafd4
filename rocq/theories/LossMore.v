(** Aggregator: histories, averages, ratios and advice. *)

From Coq Require Import Reals Lra Lia Psatz List Arith ZArith Sorted Bool.
From Verif Require Import Prelude SpectraProofs LossModel LossSpec LossProofs.
Import ListNotations.
Open Scope R_scope.

(** ** Histories *)

Lemma agg_run_snoc : forall p k z s h a,
  agg_run p k z s (h ++ [a]) = snd (agg_eval p k z (agg_run p k z s h) a).
Proof. intros. unfold agg_run. rewrite fold_left_app. reflexivity. Qed.

Lemma successes_snoc : forall p k z h a,
  successes p k z (h ++ [a])
  = successes p k z h ++ match eval_terms p k z a with Ok t => [t] | Err _ => [] end.
Proof. intros. unfold successes. rewrite flat_map_app. simpl. rewrite app_nil_r. reflexivity. Qed.

Definition xema (l : list xr) : xr :=
  match l with [] => Fin 0 | x :: l' => fold_left ema l' x end.

Lemma xema_snoc : forall l x, xema (l ++ [x]) = match l with [] => x | _ => ema (xema l) x end.
Proof. intros [|a l] x; simpl; [reflexivity|]. rewrite fold_left_app. reflexivity. Qed.

Lemma log_fields : forall e s,
  let s' := log_component_ratios e s in
  h_mse s' = h_mse s /\ h_coh s' = h_coh s /\ h_pen1 s' = h_pen1 s /\ h_pen2 s' = h_pen2 s
  /\ h_reg s' = h_reg s /\ h_total s' = h_total s
  /\ r_mse s' = r_mse s /\ r_coh s' = r_coh s /\ r_pen1 s' = r_pen1 s /\ r_pen2 s' = r_pen2 s
  /\ r_reg s' = r_reg s.
Proof.
  intros e s s'. unfold s', log_component_ratios.
  destruct (0 <? e)%nat; [destruct (xltb (Fin 0) (total_avg s))|]; repeat split.
Qed.

Definition columns (s : agg) (t : list (xr * xr * xr * xr * xr)) : Prop :=
  (h_mse s = map t_mse t /\ h_coh s = map t_coh t /\ h_pen1 s = map t_pen1 t /\ h_pen2 s = map t_pen2 t
   /\ h_reg s = map t_reg t /\ h_total s = map t_sum t)
  /\ (r_mse s = xema (map t_mse t) /\ r_coh s = xema (map t_coh t) /\ r_pen1 s = xema (map t_pen1 t)
      /\ r_pen2 s = xema (map t_pen2 t) /\ r_reg s = xema (map t_reg t)).

Lemma upd_xema : forall l x (old : xr), old = xema l ->
  (if (length (l ++ [x]) =? 1)%nat then x else ema old x) = xema (l ++ [x]).
Proof.
  intros l x old ->. rewrite xema_snoc, app_length. destruct l as [|a l]; [reflexivity|].
  simpl length. replace (S (length l) + 1 =? 1)%nat with false by (symmetry; apply Nat.eqb_neq; lia). reflexivity.
Qed.

Lemma record_columns : forall s t e m c p1 p2 r, columns s t ->
  columns (record_eval s e m c p1 p2 r) (t ++ [(m, c, p1, p2, r)]).
Proof.
  intros s t e m c p1 p2 r [(H1 & H2 & H3 & H4 & H5 & H6) (H7 & H8 & H9 & H10 & H11)].
  unfold record_eval. cbv zeta.
  match goal with |- columns (log_component_ratios e ?x) _ => set (s3 := x) end;
  destruct (log_fields e s3) as (E1 & E2 & E3 & E4 & E5 & E6 & E7 & E8 & E9 & E10 & E11).
  unfold columns. rewrite E1, E2, E3, E4, E5, E6, E7, E8, E9, E10, E11. unfold s3, update_running_averages.
  cbn [h_mse h_coh h_pen1 h_pen2 h_reg h_total r_mse r_coh r_pen1 r_pen2 r_reg].
  rewrite !map_app, H1, H2, H3, H4, H5, H6. cbn [map t_mse t_coh t_pen1 t_pen2 t_reg t_sum].
  repeat split.
  - apply upd_xema; assumption.
  - rewrite <- (upd_xema (map t_coh t) c _ H8), !app_length, !map_length. reflexivity.
  - rewrite <- (upd_xema (map t_pen1 t) p1 _ H9), !app_length, !map_length. reflexivity.
  - rewrite <- (upd_xema (map t_pen2 t) p2 _ H10), !app_length, !map_length. reflexivity.
  - rewrite <- (upd_xema (map t_reg t) r _ H11), !app_length, !map_length. reflexivity.
Qed.

Lemma run_columns : forall p k z h, columns (agg_run p k z agg_init h) (successes p k z h).
Proof.
  intros p k z h. induction h as [|a h IH] using rev_ind; [repeat split|].
  rewrite agg_run_snoc, successes_snoc. unfold agg_eval.
  destruct (eval_terms p k z a) as [t|e]; [|simpl; rewrite app_nil_r; exact IH].
  destruct t as [[[[m c] p1] p2] r]. simpl snd. apply record_columns. exact IH.
Qed.

Lemma run_histories : forall p k z h,
  let s := agg_run p k z agg_init h in let t := successes p k z h in
  h_mse s = map t_mse t /\ h_coh s = map t_coh t /\ h_pen1 s = map t_pen1 t /\ h_pen2 s = map t_pen2 t
  /\ h_reg s = map t_reg t /\ h_total s = map t_sum t.
Proof. intros. apply (run_columns p k z h). Qed.

Lemma eval_raises_unchanged : forall p k z s a e, fst (agg_eval p k z s a) = Err e -> snd (agg_eval p k z s a) = s.
Proof.
  intros p k z s a e. unfold agg_eval. destruct (eval_terms p k z a) as [[[[[m c] p1] p2] r]|x]; simpl; [discriminate|reflexivity].
Qed.

Lemma eval_returns : forall p k z s a v, fst (agg_eval p k z s a) = Ok v ->
  exists t, eval_terms p k z a = Ok t /\ v = t_sum t /\ h_total (snd (agg_eval p k z s a)) = h_total s ++ [v].
Proof.
  intros p k z s a v. unfold agg_eval. destruct (eval_terms p k z a) as [[[[[m c] p1] p2] r]|x]; simpl; [|discriminate].
  intro H. injection H as <-. eexists. split; [reflexivity|]. split; [reflexivity|].
  unfold record_eval. cbv zeta.
  match goal with |- h_total (log_component_ratios ?e ?x) = _ =>
    destruct (log_fields e x) as (_ & _ & _ & _ & _ & E & _) end.
  rewrite E. reflexivity.
Qed.

(** ** Moving averages *)

Lemma ema_fin : forall a b, ema (Fin a) (Fin b) = Fin (9/10 * a + 1/10 * b).
Proof. intros. unfold ema, ema_decay, xmul, xadd. f_equal. lra. Qed.

Lemma fold_ema_fin : forall l a, fold_left ema (map Fin l) (Fin a)
  = Fin (fold_left (fun a v => 9/10 * a + 1/10 * v) l a).
Proof. induction l as [|x l IH]; intro a; [reflexivity|]. cbn [map fold_left]. rewrite ema_fin. apply IH. Qed.

Lemma xema_fin : forall l, xema (map Fin l) = Fin (moving_average l).
Proof. intros [|a l]; [reflexivity|]. simpl. apply fold_ema_fin. Qed.

Lemma fold_ema_range : forall l a lo hi, lo <= a <= hi -> Forall (fun x => lo <= x <= hi) l ->
  lo <= fold_left (fun a v => 9/10 * a + 1/10 * v) l a <= hi.
Proof.
  induction l as [|x l IH]; intros a lo hi Ha Hl; [assumption|]. inversion Hl; subst. simpl.
  apply IH; [lra|assumption].
Qed.

Lemma moving_average_range : forall l lo hi, l <> [] -> Forall (fun x => lo <= x <= hi) l ->
  lo <= moving_average l <= hi.
Proof. intros [|a l] lo hi Hne Hl; [contradiction|]. inversion Hl; subst. apply fold_ema_range; assumption. Qed.

Lemma moving_average_nonneg : forall l, Forall (fun x => 0 <= x) l -> 0 <= moving_average l.
Proof.
  intros [|a l] Hl; [simpl; lra|]. inversion Hl; subst.
  clear Hl. simpl. revert a H1 H2. induction l as [|x l IH]; intros a Ha Hl; [assumption|].
  inversion Hl; subst. simpl. apply IH; [lra|assumption].
Qed.

(** Which running average, which history. *)
Lemma run_average : forall p k z h,
  let s := agg_run p k z agg_init h in
  (forall l, h_mse s = map Fin l -> r_mse s = Fin (moving_average l))
  /\ (forall l, h_coh s = map Fin l -> r_coh s = Fin (moving_average l))
  /\ (forall l, h_pen1 s = map Fin l -> r_pen1 s = Fin (moving_average l))
  /\ (forall l, h_pen2 s = map Fin l -> r_pen2 s = Fin (moving_average l))
  /\ (forall l, h_reg s = map Fin l -> r_reg s = Fin (moving_average l)).
Proof.
  intros p k z h s. destruct (run_columns p k z h) as [(H1 & H2 & H3 & H4 & H5 & _) (E1 & E2 & E3 & E4 & E5)].
  fold s in H1, H2, H3, H4, H5, E1, E2, E3, E4, E5.
  repeat split; intros l Hl.
  - rewrite E1, <- H1, Hl. apply xema_fin.
  - rewrite E2, <- H2, Hl. apply xema_fin.
  - rewrite E3, <- H3, Hl. apply xema_fin.
  - rewrite E4, <- H4, Hl. apply xema_fin.
  - rewrite E5, <- H5, Hl. apply xema_fin.
Qed.

(** ** Signs of the terms *)

Definition xclass (x : xr) : Prop := x = NaN \/ xnn x.

Lemma xsquare_class : forall x, xclass (xsquare x).
Proof. intros [r| | |]; unfold xclass, xsquare; simpl; auto. right. apply Rle_0_sqr. Qed.

Lemma xadd_class : forall x y, xclass x -> xclass y -> xclass (xadd x y).
Proof.
  intros x y [->|Hx] [->|Hy]; [left; reflexivity|left; reflexivity|left; apply xadd_nan_r|].
  right. destruct x; destruct y; simpl in *; tauto || lra.
Qed.

Lemma xsum_class : forall l, Forall xclass l -> xclass (xsum l).
Proof.
  induction 1 as [|x l Hx Hl IH]; [right; simpl; lra|]. apply (xadd_class _ _ Hx IH).
Qed.

Lemma xdiv_pos_class : forall x n, xclass x -> 0 < n -> xclass (xdiv x (Fin n)).
Proof. intros x n [->|Hx] Hn; [left; reflexivity|right; apply xdiv_pos_nn; assumption]. Qed.

Lemma xmul_pos_class : forall a x, 0 < a -> xclass x -> xclass (xmul (Fin a) x).
Proof.
  intros a x Ha [->|Hx]; [left; reflexivity|]. right. destruct x; simpl in *; try contradiction; [nra|].
  unfold xsign, Reqb, Rltb. repeat (destruct (Req_EM_T _ _) || destruct (Rlt_dec _ _)); simpl; auto; lra.
Qed.

Lemma xmean_class : forall l, Forall xclass l -> xclass (xmean l).
Proof.
  intros [|a l] H; [left; apply xmean_nil|]. unfold xmean. apply xdiv_pos_class; [apply xsum_class; assumption|].
  apply lt_0_INR. simpl. lia.
Qed.

Lemma map_square_class : forall l, Forall xclass (map xsquare l).
Proof. intro l. apply Forall_forall. intros x H. apply in_map_iff in H. destruct H as [y [<- _]]. apply xsquare_class. Qed.

Lemma map_relu_class : forall l, Forall xclass (map (fun v => xsquare (xrelu v)) l).
Proof. intro l. apply Forall_forall. intros x H. apply in_map_iff in H. destruct H as [y [<- _]]. apply xsquare_class. Qed.

Lemma guard_nn : forall x v, xclass x -> nan_guard x = Ok v -> xnn v.
Proof.
  intros x v [->|Hx] H; [discriminate|]. unfold nan_guard in H. rewrite (xnn_not_nan _ Hx) in H.
  injection H as <-. exact Hx.
Qed.

Lemma bind_ok : forall A B (x : res A) (f : A -> res B) v, bind x f = Ok v -> exists a, x = Ok a /\ f a = Ok v.
Proof. intros A B [a|e] f v H; [eauto|discriminate]. Qed.

Lemma eval_terms_nn : forall p k z a m c p1 p2 r, 0 < z ->
  eval_terms p k z a = Ok (m, c, p1, p2, r) -> xnn m /\ xnn c /\ xnn p1 /\ xnn p2 /\ xnn r.
Proof.
  intros p k z a m c p1 p2 r Hz H. unfold eval_terms in H.
  apply bind_ok in H. destruct H as [m' [Hm H]]. apply bind_ok in H. destruct H as [c' [Hc H]].
  apply bind_ok in H. destruct H as [q1 [H1 H]]. apply bind_ok in H. destruct H as [q2 [H2 H]].
  apply bind_ok in H. destruct H as [r' [Hr H]]. injection H as -> -> -> -> ->.
  assert (Hzero : forall v, @Ok xr (Fin 0) = Ok v -> xnn v) by (intros v G; injection G as <-; simpl; lra).
  split; [|split; [|split; [|split]]].
  - unfold mse_term in Hm. eapply guard_nn; [|exact Hm]. apply xmean_class, map_square_class.
  - destruct (ea_coh a) as [[[u v] w]|]; [|apply Hzero; assumption].
    unfold Rltb in Hc. destruct (Rlt_dec 0 (gamma_coherence p)) as [Hg|Hg]; [|apply Hzero; assumption].
    eapply guard_nn; [|exact Hc]. apply xmul_pos_class; [assumption|]. apply xdiv_pos_class; [|lra].
    apply xadd_class; [apply xadd_class|]; apply xmean_class, map_square_class.
  - unfold Rltb in H1. destruct (Rlt_dec 0 (alpha_pen1 p)) as [Hg|Hg]; [|apply Hzero; assumption].
    eapply guard_nn; [|exact H1]. apply xdiv_pos_class; [|assumption]. apply xmul_pos_class; [assumption|].
    apply xmean_class, map_relu_class.
  - unfold Rltb in H2. destruct (Rlt_dec 0 (alpha_pen2 p)) as [Hg|Hg]; [|apply Hzero; assumption].
    eapply guard_nn; [|exact H2]. apply xdiv_pos_class; [|apply pow_lt; assumption]. apply xmul_pos_class; [assumption|].
    apply xmean_class, map_relu_class.
  - unfold Rltb in Hr. destruct (Rlt_dec 0 (beta_reg p)) as [Hg|Hg]; [|apply Hzero; assumption].
    destruct (ea_theta a) as [t|f|]; [|discriminate|apply Hzero; assumption].
    eapply guard_nn; [|exact Hr]. apply xmul_pos_class; [assumption|]. apply xmean_class.
    apply Forall_forall. intros x Hx. apply in_map_iff in Hx. destruct Hx as [y [<- _]]. apply xsquare_class.
Qed.

(** ** Ratios *)

Lemma success_in : forall p k z h t, In t (successes p k z h) -> exists a, In a h /\ eval_terms p k z a = Ok t.
Proof.
  intros p k z h t H. unfold successes in H. apply in_flat_map in H. destruct H as [a [Ha H]].
  destruct (eval_terms p k z a) as [t'|e] eqn:E; [|contradiction]. destruct H as [<-|[]]. eauto.
Qed.

Lemma column_fin : forall (f : xr * xr * xr * xr * xr -> xr) l, Forall (fun t => finite (f t)) l ->
  (forall t, In t l -> xnn (f t)) ->
  exists m, map f l = map Fin m /\ Forall (fun x => 0 <= x) m.
Proof.
  intros f l. induction 1 as [|t l [r Hr] Hl IH]; intro Hn; [exists []; split; [reflexivity|constructor]|].
  destruct IH as [m [Hm Hp]]; [intros; apply Hn; right; assumption|].
  exists (r :: m). simpl. rewrite Hr, Hm. split; [reflexivity|]. constructor; [|assumption].
  specialize (Hn t (or_introl eq_refl)). rewrite Hr in Hn. exact Hn.
Qed.

Lemma Forall_weaken : forall A (P Q : A -> Prop) l, (forall x, P x -> Q x) -> Forall P l -> Forall Q l.
Proof. intros A P Q l H. rewrite !Forall_forall. auto. Qed.

Lemma run_columns_fin : forall p k z h, 0 < z -> Forall all_finite (successes p k z h) ->
  exists lm lc l1 l2 lr,
  let s := agg_run p k z agg_init h in
  (h_mse s = map Fin lm /\ h_coh s = map Fin lc /\ h_pen1 s = map Fin l1 /\ h_pen2 s = map Fin l2 /\ h_reg s = map Fin lr)
  /\ (Forall (fun x => 0 <= x) lm /\ Forall (fun x => 0 <= x) lc /\ Forall (fun x => 0 <= x) l1
      /\ Forall (fun x => 0 <= x) l2 /\ Forall (fun x => 0 <= x) lr).
Proof.
  intros p k z h Hz Hf. set (t := successes p k z h) in *.
  assert (Hn : forall x, In x t -> xnn (t_mse x) /\ xnn (t_coh x) /\ xnn (t_pen1 x) /\ xnn (t_pen2 x) /\ xnn (t_reg x)).
  { intros x Hx. apply success_in in Hx. destruct Hx as [a [_ E]]. destruct x as [[[[m c] p1] p2] r].
    apply (eval_terms_nn p k z a); assumption. }
  destruct (run_columns p k z h) as [(H1 & H2 & H3 & H4 & H5 & _) _]. fold t in H1, H2, H3, H4, H5.
  destruct (column_fin t_mse t) as [lm [Em Pm]]; [eapply Forall_weaken; [|exact Hf]; intros x Hx; apply Hx|intros x Hx; apply (Hn x Hx)|].
  destruct (column_fin t_coh t) as [lc [Ec Pc]]; [eapply Forall_weaken; [|exact Hf]; intros x Hx; apply Hx|intros x Hx; apply (Hn x Hx)|].
  destruct (column_fin t_pen1 t) as [l1 [E1 P1]]; [eapply Forall_weaken; [|exact Hf]; intros x Hx; apply Hx|intros x Hx; apply (Hn x Hx)|].
  destruct (column_fin t_pen2 t) as [l2 [E2 P2]]; [eapply Forall_weaken; [|exact Hf]; intros x Hx; apply Hx|intros x Hx; apply (Hn x Hx)|].
  destruct (column_fin t_reg t) as [lr [Er Pr]]; [eapply Forall_weaken; [|exact Hf]; intros x Hx; apply Hx|intros x Hx; apply (Hn x Hx)|].
  exists lm, lc, l1, l2, lr. cbv zeta. rewrite H1, H2, H3, H4, H5. repeat split; assumption.
Qed.

Definition shares (e : nat) (m c p1 p2 r : R) : nat * (xr * xr * xr * xr) :=
  let t := m + c + p1 + p2 + r in (e, (Fin (m / t), Fin (c / t), Fin ((p1 + p2) / t), Fin (r / t))).

Lemma record_ratios : forall s e m c p1 p2 r,
  let s' := record_eval s e m c p1 p2 r in
  forall am ac a1 a2 ar, r_mse s' = Fin am -> r_coh s' = Fin ac -> r_pen1 s' = Fin a1 -> r_pen2 s' = Fin a2 -> r_reg s' = Fin ar ->
  la_ratios s' = la_ratios s ++ (if (0 <? e)%nat then if Rltb 0 (am + ac + a1 + a2 + ar) then [shares e am ac a1 a2 ar] else [] else []).
Proof.
  intros s e m c p1 p2 r s' am ac a1 a2 ar. unfold s', record_eval. cbv zeta.
  match goal with |- r_mse (log_component_ratios e ?x) = _ -> _ => set (s3 := x) end;
  destruct (log_fields e s3) as (_ & _ & _ & _ & _ & _ & E7 & E8 & E9 & E10 & E11).
  rewrite E7, E8, E9, E10, E11. intros H1 H2 H3 H4 H5.
  unfold log_component_ratios. destruct (0 <? e)%nat; [|simpl; rewrite app_nil_r; reflexivity].
  unfold total_avg. fold s3. rewrite H1, H2, H3, H4, H5. cbn [xadd xltb].
  destruct (Rltb 0 (am + ac + a1 + a2 + ar)) eqn:E; [|rewrite app_nil_r; reflexivity].
  cbn [la_ratios]. unfold shares, xdiv, Reqb. unfold Rltb in E.
  destruct (Rlt_dec 0 (am + ac + a1 + a2 + ar)); [|discriminate].
  destruct (Req_EM_T (am + ac + a1 + a2 + ar) 0); [lra|]. reflexivity.
Qed.

Definition partition (x : nat * (xr * xr * xr * xr)) : Prop :=
  match x with
  | (e, (a, b, c, d)) =>
      (0 < e)%nat /\ exists ra rb rc rd, a = Fin ra /\ b = Fin rb /\ c = Fin rc /\ d = Fin rd
      /\ 0 <= ra /\ 0 <= rb /\ 0 <= rc /\ 0 <= rd /\ ra + rb + rc + rd = 1
  end.

Lemma shares_partition : forall e m c p1 p2 r, (0 < e)%nat -> 0 <= m -> 0 <= c -> 0 <= p1 -> 0 <= p2 -> 0 <= r ->
  0 < m + c + p1 + p2 + r -> partition (shares e m c p1 p2 r).
Proof.
  intros e m c p1 p2 r He Hm Hc H1 H2 Hr Ht. unfold shares, partition. cbv zeta. split; [assumption|].
  assert (Hi : 0 < / (m + c + p1 + p2 + r)) by (apply Rinv_0_lt_compat; assumption).
  do 4 eexists. repeat split; unfold Rdiv; try (apply Rmult_le_pos; lra). field. lra.
Qed.

Lemma run_ratios : forall p k z h, 0 < z -> Forall all_finite (successes p k z h) ->
  Forall partition (la_ratios (agg_run p k z agg_init h)).
Proof.
  intros p k z h Hz. induction h as [|a h IH] using rev_ind; intro Hf; [constructor|].
  pose proof Hf as Hf'. rewrite successes_snoc, Forall_app in Hf'. destruct Hf' as [Hf1 Hf2]. specialize (IH Hf1).
  destruct (run_columns_fin p k z (h ++ [a]) Hz Hf) as (lm & lc & l1 & l2 & lr & (C1 & C2 & C3 & C4 & C5) & (P1 & P2 & P3 & P4 & P5)).
  destruct (run_average p k z (h ++ [a])) as (A1 & A2 & A3 & A4 & A5).
  specialize (A1 _ C1). specialize (A2 _ C2). specialize (A3 _ C3). specialize (A4 _ C4). specialize (A5 _ C5).
  rewrite agg_run_snoc in *. unfold agg_eval in *. destruct (eval_terms p k z a) as [[[[[m c] p1] p2] r]|e]; [|exact IH].
  cbn [snd] in *. rewrite (record_ratios _ _ _ _ _ _ _ _ _ _ _ _ A1 A2 A3 A4 A5). apply Forall_app. split; [exact IH|].
  destruct (0 <? ea_epoch a)%nat eqn:He; [|constructor]. apply Nat.ltb_lt in He.
  unfold Rltb. destruct (Rlt_dec 0 _) as [Ht|Ht]; [|constructor]. constructor; [|constructor].
  apply shares_partition; try assumption; apply moving_average_nonneg; assumption.
Qed.

Lemma last_ratio : forall p k z h a, 0 < z -> Forall all_finite (successes p k z (h ++ [a])) ->
  (exists v, fst (agg_eval p k z (agg_run p k z agg_init h) a) = Ok v) -> (0 < ea_epoch a)%nat ->
  exists m c p1 p2 r,
  let s := agg_run p k z agg_init (h ++ [a]) in
  h_mse s = map Fin m /\ h_coh s = map Fin c /\ h_pen1 s = map Fin p1 /\ h_pen2 s = map Fin p2 /\ h_reg s = map Fin r /\
  let M := moving_average in
  let T := M m + M c + M p1 + M p2 + M r in
  (0 < T -> la_ratios s = la_ratios (agg_run p k z agg_init h)
     ++ [(ea_epoch a, (Fin (M m / T), Fin (M c / T), Fin ((M p1 + M p2) / T), Fin (M r / T)))]).
Proof.
  intros p k z h a Hz Hf [v Hv] He.
  destruct (run_columns_fin p k z (h ++ [a]) Hz Hf) as (lm & lc & l1 & l2 & lr & (C1 & C2 & C3 & C4 & C5) & _).
  destruct (run_average p k z (h ++ [a])) as (A1 & A2 & A3 & A4 & A5).
  specialize (A1 _ C1). specialize (A2 _ C2). specialize (A3 _ C3). specialize (A4 _ C4). specialize (A5 _ C5).
  exists lm, lc, l1, l2, lr. cbv zeta. repeat split; try assumption. intro Ht.
  rewrite agg_run_snoc in *. unfold agg_eval in *. destruct (eval_terms p k z a) as [[[[[m c] p1] p2] r]|e]; [|discriminate].
  cbn [snd] in *. rewrite (record_ratios _ _ _ _ _ _ _ _ _ _ _ _ A1 A2 A3 A4 A5).
  replace (0 <? ea_epoch a)%nat with true by (symmetry; apply Nat.ltb_lt; assumption).
  unfold Rltb. destruct (Rlt_dec 0 _) as [Ht'|Ht']; [reflexivity|contradiction].
Qed.

(** ** Advice *)

Lemma last_n_length : forall A w (l : list A), (0 < w <= length l)%nat -> length (last_n w l) = w.
Proof.
  intros A w l H. unfold last_n. replace (w =? 0)%nat with false by (symmetry; apply Nat.eqb_neq; lia).
  rewrite skipn_length. lia.
Qed.

Lemma half_bounds : forall w, (2 <= w)%nat -> (1 <= w / 2 /\ w / 2 < w)%nat.
Proof.
  intros w H. split; [|apply Nat.div_lt; lia].
  change 1%nat with (2 / 2)%nat. apply Nat.div_le_mono; lia.
Qed.

Lemma improvement_ok : forall w total, (2 <= w)%nat -> length total = w -> exists x,
  improvement_ratio w total = Ok x
  /\ x = xdiv (xsub (xmean (firstn (w / 2) total)) (xmean (skipn (w / 2) total)))
              (pymax2 (xmean (firstn (w / 2) total)) (Fin (/ 100000000))).
Proof.
  intros w total Hw Hl. destruct (half_bounds w Hw) as [H1 H2]. unfold improvement_ratio.
  assert (F : length (firstn (w / 2) total) = (w / 2)%nat) by (apply firstn_length_le; lia).
  assert (S : length (skipn (w / 2) total) = (w - w / 2)%nat) by (rewrite skipn_length; lia).
  destruct (firstn (w / 2) total) as [|a f]; [cbn [length] in F; lia|].
  destruct (skipn (w / 2) total) as [|b g]; [cbn [length] in S; lia|].
  eexists. split; reflexivity.
Qed.

Lemma diagnostics_ok : forall w s, (2 <= w)%nat -> (w <= length (h_total s))%nat -> exists d imp st,
  get_loss_diagnostics w s = Ok (Some d) /\ d_improvement d = Some imp /\ d_stability d = Some st
  /\ improvement_ratio w (last_n w (h_total s)) = Ok imp
  /\ st = xdiv (Fin 1) (xadd (Fin 1) (xstd (last_n w (h_total s)))).
Proof.
  intros w s Hw Hl. unfold get_loss_diagnostics.
  replace (length (h_total s) <? w)%nat with false by (symmetry; apply Nat.ltb_ge; assumption).
  pose proof (last_n_length _ w (h_total s) ltac:(lia)) as Hn.
  destruct (improvement_ok w (last_n w (h_total s)) Hw Hn) as [x [Hx _]].
  destruct (last_n w (h_total s)) as [|a l] eqn:E; [simpl in Hn; lia|].
  replace (2 <=? length (a :: l))%nat with true by (symmetry; apply Nat.leb_le; lia).
  rewrite Hx. cbn [bind]. eexists. exists x. eexists. repeat split.
Qed.

Lemma diagnostics_short : forall w s, (length (h_total s) < w)%nat -> get_loss_diagnostics w s = Ok None.
Proof.
  intros w s H. unfold get_loss_diagnostics. replace (length (h_total s) <? w)%nat with true; [reflexivity|].
  symmetry. apply Nat.ltb_lt. assumption.
Qed.

Lemma advice_before_window : forall e w s, ((e < w)%nat \/ (length (h_total s) < w)%nat) ->
  exists r, should_adjust e w s = Ok (Keep r).
Proof.
  intros e w s H. unfold should_adjust. destruct (e <? w)%nat eqn:E; [eauto|]. apply Nat.ltb_ge in E.
  destruct H as [H|H]; [lia|]. rewrite diagnostics_short by assumption. simpl. eauto.
Qed.

Lemma advice_total : forall e w s, (2 <= w)%nat ->
  exists a, should_adjust e w s = Ok a
  /\ match a with Keep _ => True | Reduce _ f => f = 1/2 \/ f = 3/10 \/ f = 7/10 end.
Proof.
  intros e w s Hw. destruct (Nat.lt_ge_cases (length (h_total s)) w) as [H|H].
  { destruct (advice_before_window e w s (or_intror H)) as [r ->]. exists (Keep r). split; [reflexivity|exact I]. }
  unfold should_adjust. destruct (e <? w)%nat; [exists (Keep InsufficientData); split; [reflexivity|exact I]|].
  destruct (diagnostics_ok w s Hw H) as (d & imp & st & -> & Hi & Hs & _). cbn [bind]. rewrite Hi, Hs.
  destruct (xltb imp (Fin (1/100))); [eexists; split; [reflexivity|simpl; auto]|].
  destruct (xltb st (Fin (3/10))); [eexists; split; [reflexivity|simpl; auto]|].
  destruct (xltb (Fin 100) (d_dominance d)); [eexists; split; [reflexivity|simpl; auto]|].
  eexists; split; [reflexivity|exact I].
Qed.

Lemma advice_lr : forall e w s a lr, (2 <= w)%nat -> should_adjust e w s = Ok a -> 0 < lr ->
  3/10 * lr <= apply_advice lr a <= lr /\ (apply_advice lr a = lr <-> exists r, a = Keep r).
Proof.
  intros e w s a lr Hw H Hlr. destruct (advice_total e w s Hw) as [a' [E Ha]]. rewrite E in H. injection H as ->.
  destruct a as [r|r f]; simpl; [split; [lra|split; eauto]|].
  split; [destruct Ha as [->|[->| ->]]; lra|]. split; [|intros [x Hx]; discriminate].
  intro G. destruct Ha as [->|[->| ->]]; lra.
Qed.

Lemma window_one_asserts : forall e s, (1 <= e)%nat -> h_total s <> [] -> should_adjust e 1 s = Err AssertionError.
Proof.
  intros e s He Hs. unfold should_adjust. replace (e <? 1)%nat with false by (symmetry; apply Nat.ltb_ge; lia).
  unfold get_loss_diagnostics.
  assert (Hl : (1 <= length (h_total s))%nat) by (destruct (h_total s); [contradiction|simpl; lia]).
  replace (length (h_total s) <? 1)%nat with false by (symmetry; apply Nat.ltb_ge; assumption).
  pose proof (last_n_length _ 1%nat (h_total s) ltac:(lia)) as Hn.
  destruct (last_n 1 (h_total s)) as [|a [|b l]]; simpl in Hn; try discriminate. reflexivity.
Qed.

Lemma pymax2_fin : forall a b, pymax2 (Fin a) (Fin b) = Fin (Rmax a b).
Proof.
  intros a b. unfold pymax2, xltb, Rltb. destruct (Rlt_dec a b).
  - rewrite Rmax_right by lra. reflexivity.
  - rewrite Rmax_left by lra. reflexivity.
Qed.

Lemma skipn_map : forall A B (f : A -> B) n l, skipn n (map f l) = map f (skipn n l).
Proof. induction n as [|n IH]; intros [|a l]; simpl; auto. Qed.

Lemma stagnation_rule : forall e w s pre l, (2 <= w <= e)%nat -> h_total s = pre ++ map Fin l -> length l = w ->
  let early := Rmean (firstn (w / 2) l) in let late := Rmean (skipn (w / 2) l) in
  (should_adjust e w s = Ok (Reduce Stagnation (1/2))
   <-> (early - late) / Rmax early (/ 100000000) < 1/100).
Proof.
  intros e w s pre l [Hw He] Ht Hl early late.
  assert (Hlen : (w <= length (h_total s))%nat) by (rewrite Ht, app_length, map_length; lia).
  assert (Hlast : last_n w (h_total s) = map Fin l).
  { unfold last_n. replace (w =? 0)%nat with false by (symmetry; apply Nat.eqb_neq; lia).
    rewrite Ht, app_length, map_length. replace (length pre + length l - w)%nat with (length pre) by lia.
    rewrite skipn_app, skipn_all, Nat.sub_diag. reflexivity. }
  destruct (diagnostics_ok w s Hw Hlen) as (d & imp & st & Hd & Hi & Hs & Himp & _).
  rewrite Hlast in Himp. destruct (improvement_ok w (map Fin l) Hw ltac:(rewrite map_length; assumption)) as [x [Hx Ex]].
  rewrite Himp in Hx. injection Hx as <-.
  destruct (half_bounds w Hw) as [H1 H2].
  assert (Hf : firstn (w / 2) l <> []).
  { intro E. apply (f_equal (@length R)) in E. rewrite firstn_length_le in E by lia. cbn [length] in E. lia. }
  assert (Hsk : skipn (w / 2) l <> []).
  { intro E. apply (f_equal (@length R)) in E. rewrite skipn_length in E. cbn [length] in E. lia. }
  rewrite firstn_map, skipn_map, !xmean_fin in Ex by assumption. rewrite pymax2_fin in Ex. fold early late in Ex.
  assert (Hm : 0 < Rmax early (/ 100000000)) by (apply Rlt_le_trans with (/ 100000000); [lra|apply Rmax_r]).
  cbn [xsub xadd xopp xdiv] in Ex. unfold Reqb in Ex.
  destruct (Req_EM_T (Rmax early (/ 100000000)) 0) as [E0|_]; [lra|].
  unfold should_adjust. replace (e <? w)%nat with false by (symmetry; apply Nat.ltb_ge; assumption).
  rewrite Hd. cbn [bind]. rewrite Hi, Hs, Ex. cbn [xltb]. unfold Rltb.
  change (early + - late) with (early - late).
  destruct (Rlt_dec ((early - late) / Rmax early (/ 100000000)) (1/100)) as [G|G]; [tauto|].
  split; [|tauto]. intro H. exfalso. revert H. cbv zeta. repeat match goal with |- (if ?b then _ else _) = _ -> _ => destruct b; try discriminate end.
Qed.

(** ** Information, regulariser without network, balancing *)

Lemma info_spec : forall p k z h,
  let s := agg_run p k z agg_init h in
  (successes p k z h = [] -> get_current_loss_info s = None)
  /\ (forall t0 t, successes p k z h = t0 ++ [t] ->
      exists rm rc q, get_current_loss_info s = Some (t_mse t, t_coh t, t_sum t, rm, rc, q)
      /\ (forall l, map t_mse (t0 ++ [t]) = map Fin l -> rm = Fin (moving_average l))
      /\ (forall l, map t_coh (t0 ++ [t]) = map Fin l -> rc = Fin (moving_average l))
      /\ (forall a b, rm = Fin a -> rc = Fin b -> q = Fin (a / Rmax b (/ 100000000)))).
Proof.
  intros p k z h s. destruct (run_columns p k z h) as [(H1 & H2 & _ & _ & _ & H6) (E1 & E2 & _)]. fold s in H1, H2, H6, E1, E2.
  split.
  - intro E. unfold get_current_loss_info. rewrite H6, E. reflexivity.
  - intros t0 t E. unfold get_current_loss_info. rewrite H6, H1, H2, E, !map_app. cbn [map].
    rewrite !last_last. destruct (map t_sum t0 ++ [t_sum t]) eqn:G; [destruct (map t_sum t0); discriminate|].
    do 3 eexists. split; [reflexivity|]. rewrite E, map_app in E1, E2. cbn [map] in E1, E2.
    repeat split.
    + intros l0 Hl. rewrite E1, Hl. apply xema_fin.
    + intros l0 Hl. rewrite E2, Hl. apply xema_fin.
    + intros a b Ha Hb. rewrite Ha, Hb, pymax2_fin. unfold xdiv, Reqb.
      assert (0 < Rmax b (/ 100000000)) by (apply Rlt_le_trans with (/ 100000000); [lra|apply Rmax_r]).
      destruct (Req_EM_T _ 0); [lra|reflexivity].
Qed.

Lemma float_theta_fails : forall p k z s a x, 0 < beta_reg p -> ea_theta a = ThFloat x ->
  forall v, fst (agg_eval p k z s a) <> Ok v.
Proof.
  intros p k z s a x Hb Hx v. unfold agg_eval, eval_terms. rewrite Hx. unfold Rltb at 4.
  destruct (Rlt_dec 0 (beta_reg p)); [|contradiction].
  destruct (mse_term _ _); simpl; [|discriminate].
  match goal with |- context [bind ?y _] => destruct y; simpl; [|discriminate] end.
  match goal with |- context [bind ?y _] => destruct y; simpl; [|discriminate] end.
  match goal with |- context [bind ?y _] => destruct y; simpl; [|discriminate] end.
  discriminate.
Qed.

Lemma scales_bounds : forall st e m c,
  let '((a, b), _) := compute_loss_scales st e m c in 0 < a <= 100000000 /\ 0 < b <= 100000000.
Proof.
  intros st e m c. unfold compute_loss_scales. cbv zeta.
  match goal with |- context [1 / Rmax (fst ?x) _] => set (y := x) end.
  assert (G : forall v, 0 < 1 / Rmax v (/ 100000000) <= 100000000).
  { intro v. assert (H : / 100000000 <= Rmax v (/ 100000000)) by apply Rmax_r.
    assert (Hp : 0 < / 100000000) by lra. split; [apply Rdiv_lt_0_compat; lra|].
    unfold Rdiv. rewrite Rmult_1_l. pose proof (Rinv_le_contravar _ _ Hp H) as Hq. rewrite Rinv_inv in Hq. exact Hq. }
  split; apply G.
Qed.

Lemma scales_first : forall e m c, / 100000000 <= m -> / 100000000 <= c ->
  compute_loss_scales None e m (Some c) = ((1 / m, 1 / c), Some (m, c)).
Proof.
  intros e m c Hm Hc. unfold compute_loss_scales. cbv zeta. unfold Reqb.
  destruct (Req_EM_T c 0); [lra|]. cbn [fst snd]. rewrite !Rmax_left by assumption. reflexivity.
Qed.

Lemma scales_between : forall m0 c0 e m c, (e mod 10 <> 0)%nat ->
  snd (compute_loss_scales (Some (m0, c0)) e m c) = Some (m0, c0).
Proof.
  intros m0 c0 e m c H. unfold compute_loss_scales. cbv zeta. apply Nat.eqb_neq in H. rewrite H. reflexivity.
Qed.
