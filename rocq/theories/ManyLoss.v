(** Continuity of the whole loss in the parameters, and its minimum on boxes. *)

From Coq Require Import Reals Lra Lia List Sorted.
From Coquelicot Require Import Coquelicot.
From Verif Require Import Prelude RdtModel SpectraModel OpsModel OpsSpec LossModel LossSpec TotalSpec TotalProofs BalSpec
  QuadTensor SensSpec SensProofs SensFinal ManySpec ManyProofs.
Import ListNotations.
Open Scope R_scope.

Section Lists.
  Variable U : UniformSpace.
  Variable p : U.

  (** A list which is given by continuous functions. *)
  Definition clist (l : U -> list R) : Prop := exists F : list (U -> R), (forall q, l q = at_point q F) /\ continuous_list F p.

  Lemma clist_nil : clist (fun _ => []).
  Proof. exists []. split; [reflexivity|]. intros f []. Qed.

  Lemma clist_cons : forall (f : U -> R) l, continuous f p -> clist l -> clist (fun q => f q :: l q).
  Proof.
    intros f l Cf (F & E & C). exists (f :: F). split; [intros q; rewrite E; reflexivity|]. intros g [<-|Hg]; [exact Cf|apply C; exact Hg].
  Qed.

  Lemma clist_app : forall l m, clist l -> clist m -> clist (fun q => l q ++ m q).
  Proof.
    intros l m (F & E & C) (G & E' & C'). exists (F ++ G). split.
    - intros q. rewrite E, E'. unfold at_point. rewrite map_app. reflexivity.
    - intros f Hf. apply in_app_or in Hf. destruct Hf; [apply C|apply C']; assumption.
  Qed.

  Lemma clist_map : forall (g : R -> R) l, (forall x, continuity_pt g x) -> clist l -> clist (fun q => map g (l q)).
  Proof.
    intros g l Cg (F & E & C). exists (map (fun f q => g (f q)) F). split.
    - intros q. rewrite E. unfold at_point. rewrite !map_map. reflexivity.
    - intros f Hf. apply in_map_iff in Hf. destruct Hf as (h & <- & Hh). apply (c_comp h g p); [apply C; exact Hh|apply Cg].
  Qed.

  Lemma clist_const : forall v, clist (fun _ => v).
  Proof. induction v as [|x v IH]; [apply clist_nil|]. apply (clist_cons (fun _ => x)); [apply c_const|exact IH]. Qed.

  Lemma clist_ext : forall l m, (forall q, l q = m q) -> clist l -> clist m.
  Proof. intros l m H (F & E & C). exists F. split; [intros q; rewrite <- H; apply E|exact C]. Qed.

  Lemma sum_cont : forall F, continuous_list F p -> continuous (fun q => fold_right Rplus 0 (at_point q F)) p.
  Proof.
    induction F as [|f F IH]; intros C; [apply c_const|]. apply (c_plus f (fun q => fold_right Rplus 0 (at_point q F)) p).
    - apply C. left. reflexivity.
    - apply IH. intros g Hg. apply C. right. exact Hg.
  Qed.

  Lemma average_cont : forall l, clist l -> continuous (fun q => average (l q)) p.
  Proof.
    intros l (F & E & C). apply (continuous_ext (fun q => / INR (length F) * fold_right Rplus 0 (at_point q F))).
    - intros q. rewrite E. unfold average, Rdiv, at_point. rewrite map_length. apply Rmult_comm.
    - apply (c_mult (fun _ => / INR (length F))); [apply c_const|apply sum_cont; exact C].
  Qed.

  Lemma square_cont : forall x, continuity_pt (fun v => v ^ 2) x.
  Proof. intros x. apply derivable_continuous_pt. apply (derivable_pt_pow 2). Qed.

  Lemma max0_cont : forall x, continuity_pt (Rmax 0) x.
  Proof. intros x. apply AsyFinal.relu_cont. Qed.

  Lemma excess_cont : forall l, clist l -> continuous (fun q => mean_sq_excess (l q)) p.
  Proof.
    intros l C. unfold mean_sq_excess. apply average_cont. apply clist_map; [|exact C]. intros x.
    apply continuity_pt_comp with (f1 := Rmax 0) (f2 := fun v => v ^ 2); [apply max0_cont|apply square_cont].
  Qed.

  Lemma difference_cont : forall (m : list (U -> R)) d, continuous_list m p -> continuous (fun q => mean_sq_difference (at_point q m) d) p.
  Proof.
    intros m d C. unfold mean_sq_difference. apply average_cont. revert d C. induction m as [|f m IH]; intros [|x d] C; try apply clist_nil.
    apply (clist_cons (fun q => (f q - x) ^ 2)).
    - apply (c_pow (fun q => f q - x) 2). apply (c_minus f (fun _ => x)); [apply C; left; reflexivity|apply c_const].
    - apply IH. intros g Hg. apply C. right. exact Hg.
  Qed.

  (** Curves without zeros. *)
  Definition ccurve (F : list (U -> R)) : Prop := forall f, In f F -> continuous f p /\ f p <> 0.

  Lemma ln_cont : forall f : U -> R, continuous f p -> f p <> 0 -> continuous (fun q => ln (Rabs (f q))) p.
  Proof.
    intros f C N. apply (c_ln (fun q => Rabs (f q))); [apply (c_comp f Rabs); [exact C|apply AsyFinal.abs_cont]|]. apply Rabs_pos_lt. exact N.
  Qed.

  Lemma distances_cont : forall F t, ccurve F -> clist (fun q => sq_log_distances (at_point q F) t).
  Proof.
    induction F as [|f F IH]; intros [|x t] C; try apply clist_nil. destruct (C f (or_introl eq_refl)) as [Cf Nf].
    apply (clist_cons (fun q => (ln (Rabs x) - ln (Rabs (f q))) ^ 2)).
    - apply (c_pow (fun q => ln (Rabs x) - ln (Rabs (f q))) 2). apply (c_minus (fun _ => ln (Rabs x))); [apply c_const|apply ln_cont; assumption].
    - apply IH. intros g Hg. apply C. right. exact Hg.
  Qed.

  Lemma all_distances_cont : forall Fs ts, (forall F, In F Fs -> ccurve F) -> clist (fun q => sq_log_distances_all (map (at_point q) Fs) ts).
  Proof.
    induction Fs as [|F Fs IH]; intros [|t ts] C; try apply clist_nil.
    apply (clist_app (fun q => sq_log_distances (at_point q F) t)); [apply distances_cont, C; left; reflexivity|].
    apply IH. intros G HG. apply C. right. exact HG.
  Qed.

  Lemma slope_cont : forall (f g : U -> R) c, continuous f p -> f p <> 0 -> continuous g p -> g p <> 0 ->
    continuous (fun q => (ln (Rabs (g q)) - ln (Rabs (f q))) / c) p.
  Proof.
    intros f g c Cf Nf Cg Ng. apply (c_mult (fun q => ln (Rabs (g q)) - ln (Rabs (f q))) (fun _ => / c)); [|apply c_const].
    apply (c_minus (fun q => ln (Rabs (g q)))); apply ln_cont; assumption.
  Qed.

  Lemma slopes_cont : forall F k, ccurve F -> clist (fun q => slopes k (at_point q F)).
  Proof.
    induction F as [|f F IH]; intros k C; [destruct k as [|? [|? ?]]; apply clist_nil|].
    destruct k as [|k0 [|k1 k]]; try apply clist_nil. destruct F as [|g F]; [apply clist_nil|].
    destruct (C f (or_introl eq_refl)) as [Cf Nf]. destruct (C g (or_intror (or_introl eq_refl))) as [Cg Ng].
    apply (clist_cons (fun q => (ln (Rabs (g q)) - ln (Rabs (f q))) / (ln k1 - ln k0)) (fun q => slopes (k1 :: k) (at_point q (g :: F)))).
    - apply slope_cont; assumption.
    - apply IH. intros h Hh. apply C. right. exact Hh.
  Qed.

  Lemma bends_cont : forall F k, ccurve F -> clist (fun q => bends k (at_point q F)).
  Proof.
    induction F as [|f F IH]; intros k C; [destruct k as [|? [|? [|? ?]]]; apply clist_nil|].
    destruct k as [|k0 [|k1 [|k2 k]]]; try apply clist_nil. destruct F as [|g [|h F]]; [apply clist_nil|apply clist_nil|].
    destruct (C f (or_introl eq_refl)) as [Cf Nf]. destruct (C g (or_intror (or_introl eq_refl))) as [Cg Ng].
    destruct (C h (or_intror (or_intror (or_introl eq_refl)))) as [Ch Nh].
    apply (clist_cons (fun q => ((ln (Rabs (h q)) - ln (Rabs (g q))) / (ln k2 - ln k1) - (ln (Rabs (g q)) - ln (Rabs (f q))) / (ln k1 - ln k0)) / ((ln k2 - ln k0) / 2))
             (fun q => bends (k1 :: k2 :: k) (at_point q (g :: h :: F)))).
    - apply (c_mult (fun q => (ln (Rabs (h q)) - ln (Rabs (g q))) / (ln k2 - ln k1) - (ln (Rabs (g q)) - ln (Rabs (f q))) / (ln k1 - ln k0)) (fun _ => / ((ln k2 - ln k0) / 2))); [|apply c_const].
      apply (c_minus (fun q => (ln (Rabs (h q)) - ln (Rabs (g q))) / (ln k2 - ln k1))); apply slope_cont; assumption.
    - apply IH. intros w Hw. apply C. right. exact Hw.
  Qed.

  Lemma flat_cont : forall (D : list R -> list R) Fs, (forall F, In F Fs -> clist (fun q => D (at_point q F))) ->
    clist (fun q => flat_map D (map (at_point q) Fs)).
  Proof.
    intros D. induction Fs as [|F Fs IH]; intros C; [apply clist_nil|].
    apply (clist_app (fun q => D (at_point q F))); [apply C; left; reflexivity|]. apply IH. intros G HG. apply C. right. exact HG.
  Qed.

  Lemma term_cont : forall w v, continuous v p -> continuous (fun q => weighted_term w (v q)) p.
  Proof.
    intros w v C. unfold weighted_term. destruct (Rlt_dec 0 w); [|apply c_const]. apply (c_mult (fun _ => w)); [apply c_const|exact C].
  Qed.

  Lemma over_cont : forall v c, continuous v p -> continuous (fun q => v q / c) p.
  Proof. intros v c C. apply (c_mult v (fun _ => / c)); [exact C|apply c_const]. Qed.

  (** Parameters and coherences at a point. *)
  Definition theta_at (th : option (list (U -> R))) (q : U) : option (list R) := option_map (at_point q) th.
  Definition pairs_at (coh : option ((list (U -> R) * list R) * (list (U -> R) * list R) * (list (U -> R) * list R))) (q : U) :=
    option_map (fun c => match c with ((mu, du), (mv, dv), (mw, dw)) => ((at_point q mu, du), (at_point q mv, dv), (at_point q mw, dw)) end) coh.

  Lemma loss_cont : forall prm k zref Fs ds th coh, (forall F, In F Fs -> ccurve F) ->
    (forall t, th = Some t -> continuous_list t p) ->
    (forall u v w, coh = Some (u, v, w) -> continuous_list (fst u) p /\ continuous_list (fst v) p /\ continuous_list (fst w) p) ->
    continuous (fun q => loss_value prm k zref (map (at_point q) Fs) ds (theta_at th q) (pairs_at coh q)) p.
  Proof.
    intros prm k zref Fs ds th coh CF Ct Cc. unfold loss_value.
    apply (c_plus (fun q => average (sq_log_distances_all (map (at_point q) Fs) ds)
       + match pairs_at coh q with
         | Some ((mu, du), (mv, dv), (mw, dw)) => weighted_term (gamma_coherence prm) ((mean_sq_difference mu du + mean_sq_difference mv dv + mean_sq_difference mw dw) / 3)
         | None => 0 end
       + weighted_term (alpha_pen1 prm) (mean_sq_excess (flat_map (slopes k) (map (at_point q) Fs)) / zref)
       + weighted_term (alpha_pen2 prm) (mean_sq_excess (flat_map (bends k) (map (at_point q) Fs)) / zref ^ 2))).
    2:{ destruct th as [t|]; [|apply c_const]. cbn [theta_at option_map]. apply (term_cont (beta_reg prm) (fun q => average (map (fun v => v ^ 2) (at_point q t)))).
        apply average_cont. apply clist_map; [apply square_cont|]. exists t. split; [reflexivity|apply Ct; reflexivity]. }
    apply (c_plus (fun q => average (sq_log_distances_all (map (at_point q) Fs) ds)
       + match pairs_at coh q with
         | Some ((mu, du), (mv, dv), (mw, dw)) => weighted_term (gamma_coherence prm) ((mean_sq_difference mu du + mean_sq_difference mv dv + mean_sq_difference mw dw) / 3)
         | None => 0 end
       + weighted_term (alpha_pen1 prm) (mean_sq_excess (flat_map (slopes k) (map (at_point q) Fs)) / zref))).
    2:{ apply (term_cont _ (fun q => mean_sq_excess (flat_map (bends k) (map (at_point q) Fs)) / zref ^ 2)). apply over_cont, excess_cont, flat_cont. intros F HF. apply bends_cont, CF. exact HF. }
    apply (c_plus (fun q => average (sq_log_distances_all (map (at_point q) Fs) ds)
       + match pairs_at coh q with
         | Some ((mu, du), (mv, dv), (mw, dw)) => weighted_term (gamma_coherence prm) ((mean_sq_difference mu du + mean_sq_difference mv dv + mean_sq_difference mw dw) / 3)
         | None => 0 end)).
    2:{ apply (term_cont _ (fun q => mean_sq_excess (flat_map (slopes k) (map (at_point q) Fs)) / zref)). apply over_cont, excess_cont, flat_cont. intros F HF. apply slopes_cont, CF. exact HF. }
    apply (c_plus (fun q => average (sq_log_distances_all (map (at_point q) Fs) ds))).
    - apply average_cont, all_distances_cont. exact CF.
    - destruct coh as [[[[mu du] [mv dv]] [mw dw]]|]; [|apply c_const]. cbn [pairs_at option_map].
      destruct (Cc _ _ _ eq_refl) as (Hu & Hv & Hw). cbn [fst] in Hu, Hv, Hw.
      apply (term_cont _ (fun q => (mean_sq_difference (at_point q mu) du + mean_sq_difference (at_point q mv) dv + mean_sq_difference (at_point q mw) dw) / 3)).
      apply (over_cont (fun q => mean_sq_difference (at_point q mu) du + mean_sq_difference (at_point q mv) dv + mean_sq_difference (at_point q mw) dw)).
      apply (c_plus (fun q => mean_sq_difference (at_point q mu) du + mean_sq_difference (at_point q mv) dv)); [|apply difference_cont; exact Hw].
      apply (c_plus (fun q => mean_sq_difference (at_point q mu) du)); apply difference_cont; assumption.
  Qed.
End Lists.

(** The spectra as functions of the parameters. *)
Lemma auto_curves : forall (U : UniformSpace) (e : U -> ops_env) p1 p2 N curves ks q,
  curves_of (e q) p1 p2 N curves ks = map (at_point q) (map (fun sel => map (fun k q => ops_forward sel (e q) p1 p2 N k) ks) curves).
Proof. intros U e p1 p2 N curves ks q. unfold curves_of, at_point. rewrite map_map. apply map_ext. intros sel. rewrite map_map. reflexivity. Qed.

Lemma loss_box : forall n (e : vectors n -> ops_env) th coh prm a b p1 p2 N ks zref curves data s epoch,
  (exists y, in_box n a b y) -> wave_grid ks -> (3 <= length ks)%nat -> (forall sel, In sel curves -> auto sel) ->
  curves <> [] -> regular_curves ks data -> length curves = length data -> 0 < zref -> p1 < p2 -> (2 <= N)%nat ->
  (forall k q, In k ks -> in_box n a b q -> steady e k q) ->
  (forall t, th = Some t -> t <> [] /\ forall q, in_box n a b q -> continuous_list t q) ->
  (forall u v w, coh = Some (u, v, w) -> matching u /\ matching v /\ matching w
     /\ forall q, in_box n a b q -> continuous_list (fst u) q /\ continuous_list (fst v) q /\ continuous_list (fst w) q) ->
  let loss q := fst (agg_eval prm ks zref s (EvalArgs (curves_of (e q) p1 p2 N curves ks) data
                       (match th with Some t => ThVec (at_point q t) | None => ThNone end) epoch (coherence_at q coh))) in
  exists best low, in_box n a b best /\ loss best = Ok (Fin low)
  /\ forall q, in_box n a b q -> exists v, loss q = Ok (Fin v) /\ low <= v.
Proof.
  intros n e th coh prm a b p1 p2 N ks zref curves data s epoch (y & Hy) Hk H3 Hauto Hne Hd Hl Hz Hp HN Hst Hth Hcoh. cbv zeta.
  pose proof (box_in n a b y Hy) as Hab.
  set (Fs := map (fun sel => map (fun k (q : vectors n) => ops_forward sel (e q) p1 p2 N k) ks) curves).
  set (L := fun q => loss_value prm ks zref (map (at_point q) Fs) data (theta_at _ th q) (pairs_at _ coh q)).
  assert (Pos : forall sel k q, In sel curves -> In k ks -> 0 < ops_forward sel (e q) p1 p2 N k).
  { intros sel k q Hs Hin. destruct Hk as [_ Hk]. rewrite List.Forall_forall in Hk.
    destruct (OpsMore.auto_positive sel (e q) p1 p2 N k (Hauto sel Hs) Hp HN (Hk k Hin)). lra. }
  assert (E : forall q, fst (agg_eval prm ks zref s (EvalArgs (curves_of (e q) p1 p2 N curves ks) data
                       (match th with Some t => ThVec (at_point q t) | None => ThNone end) epoch (coherence_at q coh))) = Ok (Fin (L q))).
  { intros q. unfold L. rewrite <- (total_value prm ks zref s (map (at_point q) Fs) data (theta_at _ th q) epoch (pairs_at _ coh q)).
    - rewrite auto_curves. do 3 f_equal; [destruct th; reflexivity|]. destruct coh as [[[[mu du] [mv dv]] [mw dw]]|]; reflexivity.
    - exact Hk.
    - exact H3.
    - split.
      + unfold Fs. destruct curves; [contradiction|discriminate].
      + apply List.Forall_forall. intros r Hr. unfold Fs in Hr. rewrite map_map in Hr. apply in_map_iff in Hr. destruct Hr as (sel & <- & Hs).
        unfold at_point. rewrite map_map, map_length. split; [reflexivity|]. apply List.Forall_forall. intros v Hv. apply in_map_iff in Hv.
        destruct Hv as (k & <- & Hin). apply Rgt_not_eq. apply Pos; assumption.
    - exact Hd.
    - unfold Fs. rewrite !map_length. exact Hl.
    - exact Hz.
    - intros t Ht. destruct th as [t0|]; [|discriminate]. injection Ht as <-. destruct (Hth t0 eq_refl) as [Hn _]. unfold at_point. destruct t0; [contradiction|discriminate].
    - intros u v w Hc. destruct coh as [[[[mu du] [mv dv]] [mw dw]]|]; [|discriminate]. injection Hc as <- <- <-.
      destruct (Hcoh _ _ _ eq_refl) as ((Lu & Nu) & (Lv & Nv) & (Lw & Nw) & _). cbn [fst snd] in *.
      unfold proper_component, at_point. cbn [fst snd]. rewrite !map_length.
      split; [split; [exact Lu|destruct mu; [contradiction|discriminate]]|]. split; [split; [exact Lv|destruct mv; [contradiction|discriminate]]|].
      split; [exact Lw|destruct mw; [contradiction|discriminate]]. }
  assert (C : forall q, in_box n a b q -> continuous L q).
  { intros q Hq. apply loss_cont.
    - intros F HF f Hf. unfold Fs in HF. apply in_map_iff in HF. destruct HF as (sel & <- & Hs). apply in_map_iff in Hf. destruct Hf as (k & <- & Hin).
      split; [|apply Rgt_not_eq, Pos; assumption]. apply rows_steady; [left; apply Hauto; exact Hs|apply Hst; assumption|].
      destruct Hk as [_ Hk]. rewrite List.Forall_forall in Hk. apply Rgt_not_eq, Hk. exact Hin.
    - intros t Ht. apply (Hth t Ht). exact Hq.
    - intros u v w Hc. apply (Hcoh u v w Hc). exact Hq. }
  destruct (box_minimum n L a b Hab C) as (best & Hin & Hmin). exists best, (L best). split; [exact Hin|]. split; [apply E|].
  intros q Hq. exists (L q). split; [apply E|apply Hmin; exact Hq].
Qed.
