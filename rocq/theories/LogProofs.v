(** Lemmas about the records of a calibration. *)

From Coq Require Import String Reals Lra Lia List Arith ZArith Bool.
From Verif Require Import Prelude LossModel LossProofs CalModel CalProofs ProbModel ProbProofs LogModel LogSpec.
Import ListNotations.
Open Scope R_scope.

(** ** Recording does not interfere *)

Lemma then_log_snd : forall A B (x : logged A) (f : A -> logged B), snd (then_log x f) = bind (snd x) (fun a => snd (f a)).
Proof. intros A B [w [a|e]] f; [|reflexivity]. unfold then_log. cbn [snd bind]. destruct (f a) as [w' r]. reflexivity. Qed.

Lemma bind_ext : forall A B (x : res A) (f g : A -> res B), (forall a, f a = g a) -> bind x f = bind x g.
Proof. intros A B [a|e] f g H; [apply H|reflexivity]. Qed.

Lemma log_terms_snd : forall p k1 zref a, snd (log_terms p k1 zref a) = eval_terms p k1 zref a.
Proof.
  intros p k1 zref a. unfold log_terms, eval_terms. rewrite then_log_snd. apply bind_ext. intros m.
  rewrite then_log_snd. assert (E1 : forall A B (x y : res A) (f g : A -> res B), x = y -> (forall a, f a = g a) -> bind x f = bind y g)
    by (intros A B x y f g -> H; apply bind_ext; exact H).
  apply E1; [destruct (ea_coh a) as [[[u v] w]|]; [destruct (Rltb 0 (gamma_coherence p))|]; reflexivity|]. intros c.
  rewrite then_log_snd. apply E1; [destruct (Rltb 0 (alpha_pen1 p)); reflexivity|]. intros p1.
  rewrite then_log_snd. apply E1; [destruct (Rltb 0 (alpha_pen2 p)); reflexivity|]. intros p2.
  rewrite then_log_snd. apply E1; [destruct (Rltb 0 (beta_reg p)); [destruct (ea_theta a)|]; reflexivity|]. reflexivity.
Qed.

Lemma eval_log_snd : forall p k1 zref s a, snd (eval_log p k1 zref s a) = agg_eval p k1 zref s a.
Proof.
  intros p k1 zref s a. unfold eval_log, agg_eval. rewrite <- log_terms_snd.
  destruct (log_terms p k1 zref a) as [w [[[[[m c] p1] p2] r]|e]]; reflexivity.
Qed.

Lemma run_log_snd : forall p k1 zref h s, snd (run_log p k1 zref s h) = agg_run p k1 zref s h.
Proof.
  intros p k1 zref h. induction h as [|a h IH]; intros s; [reflexivity|]. cbn [run_log]. unfold agg_run in *. cbn [fold_left].
  rewrite <- eval_log_snd, <- IH. destruct (eval_log p k1 zref s a) as [w [r s1]]. cbn [snd].
  destruct (run_log p k1 zref s1 h) as [w' s2]. reflexivity.
Qed.

Lemma closure_log_snd : forall c v s, snd (closure_log c v s) = closure_run c v s.
Proof.
  intros c v s. unfold closure_log, closure_run. rewrite <- eval_log_snd. destruct (eval_log _ _ _ _ _) as [w [[l|e] a]]; reflexivity.
Qed.

Lemma strategy_log_snd : forall c t s, snd (strategy_log c t s) = strategy_run c t s.
Proof.
  intros c t. induction t as [v|v k IH]; intros s; [reflexivity|]. cbn [strategy_log strategy_run]. rewrite <- closure_log_snd.
  destruct (closure_log c v s) as [w [[u|e] s1]]; [|reflexivity]. cbn [snd]. rewrite <- IH. destruct (strategy_log c (k (ts_loss s1)) s1). reflexivity.
Qed.

Lemma train_log_snd : forall c opt sched left epoch s, snd (train_log c opt sched epoch left s) = train_run c opt sched epoch left s.
Proof.
  intros c opt sched left. induction left as [|n IH]; intros epoch s; [reflexivity|]. cbn [train_log train_run]. rewrite <- strategy_log_snd.
  destruct (strategy_log c (opt epoch s) s) as [w [[u|e] s0]]; [|reflexivity]. cbn [snd]. cbv zeta. cbn [ts_mod ts_loss].
  destruct (mp_pq (ts_mod s0)); [|reflexivity].
  destruct (negb (xfinite (ts_loss s0))); [reflexivity|].
  destruct (xltb (ts_loss s0) (Fin (tg_tol c))); [reflexivity|].
  destruct (lr_check _ _) as [s2|e]; [|reflexivity]. rewrite <- IH. destruct (train_log c opt sched (S epoch) n s2). reflexivity.
Qed.

(** ** Records of one evaluation *)

Lemma then_log_ok : forall A B (x : logged A) (f : A -> logged B) w b, then_log x f = (w, Ok b) ->
  exists w1 a w2, x = (w1, Ok a) /\ f a = (w2, Ok b) /\ w = w1 ++ w2.
Proof.
  intros A B [w1 [a|e]] f w b H; [|discriminate H]. unfold then_log in H. destruct (f a) as [w2 r] eqn:E. injection H as <- ->.
  exists w1, a, w2. auto.
Qed.

Lemma then_log_err : forall A B (x : logged A) (f : A -> logged B) w e, then_log x f = (w, Err e) ->
  x = (w, Err e) \/ exists w1 a w2, x = (w1, Ok a) /\ f a = (w2, Err e) /\ w = w1 ++ w2.
Proof.
  intros A B [w1 [a|e1]] f w e H; unfold then_log in H.
  - destruct (f a) as [w2 r] eqn:E. injection H as <- ->. right. exists w1, a, w2. auto.
  - injection H as -> ->. left. reflexivity.
Qed.

Lemma guard_ok : forall x v, nan_guard x = Ok v -> x = v /\ v <> NaN.
Proof. intros x v H. unfold nan_guard in H. destruct x; cbn in H; try discriminate H; injection H as <-; split; try reflexivity; discriminate. Qed.

Lemma guard_err : forall x e, nan_guard x = Err e -> x = NaN /\ e = ValueError.
Proof. intros x e H. unfold nan_guard in H. destruct x; cbn in H; try discriminate H. injection H as <-. auto. Qed.

(** A term with its records: nothing if switched off, else its value under its tag. *)
Definition coh_extra (u v w : coh_pair) (epoch : nat) : list event :=
  [Event "Coherence Loss/U-component" (coh_mse u) epoch; Event "Coherence Loss/V-component" (coh_mse v) epoch;
   Event "Coherence Loss/W-component" (coh_mse w) epoch].

Lemma Rltb_pos : forall x, Rltb 0 x = true <-> 0 < x.
Proof. intros x. unfold Rltb. destruct (Rlt_dec 0 x); split; intros; try discriminate; try reflexivity; try assumption; contradiction. Qed.

Definition plain (tag : string) (on : Prop) (v : xr) (n : nat) (w : list event) : Prop :=
  (on /\ w = [Event tag v n]) \/ (~ on /\ w = [] /\ v = Fin 0).

Lemma terms_ok : forall p k1 zref a w m c p1 p2 r, log_terms p k1 zref a = (w, Ok (m, c, p1, p2, r)) ->
  let n := ea_epoch a in
  exists wc w1 w2 wr, w = Event "MSE Loss" m n :: wc ++ w1 ++ w2 ++ wr
  /\ ((uses_coherence p a /\ exists x y z, wc = Event "Coherence Loss/Total" c n :: coh_extra x y z n) \/ (~ uses_coherence p a /\ wc = [] /\ c = Fin 0))
  /\ plain "1st Order Penalty" (0 < alpha_pen1 p) p1 n w1
  /\ plain "2nd Order Penalty" (0 < alpha_pen2 p) p2 n w2
  /\ plain "Regularization" (uses_regularization p a) r n wr.
Proof.
  intros p k1 zref a w m c p1 p2 r H. cbv zeta. unfold log_terms in H.
  apply then_log_ok in H. destruct H as (u1 & a1 & v1 & M & H & ->).
  apply then_log_ok in H. destruct H as (u2 & a2 & v2 & C & H & ->).
  apply then_log_ok in H. destruct H as (u3 & a3 & v3 & P1 & H & ->).
  apply then_log_ok in H. destruct H as (u4 & a4 & v4 & P2 & H & ->).
  apply then_log_ok in H. destruct H as (u5 & a5 & v5 & Rg & H & ->).
  unfold silent in H. injection H as <- -> -> -> -> ->.
  unfold log_mse in M. injection M as <- M. apply guard_ok in M. destruct M as [M _]. rewrite M.
  exists u2, u3, u4, u5. split; [rewrite app_nil_r; reflexivity|]. split; [|split; [|split]].
  - unfold uses_coherence. destruct (ea_coh a) as [[[x y] z]|].
    + destruct (Rltb 0 (gamma_coherence p)) eqn:E.
      * left. split; [split; [discriminate|apply Rltb_pos; exact E]|]. unfold log_coherence in C. injection C as <- C. apply guard_ok in C. destruct C as [C _].
        exists x, y, z. rewrite C. reflexivity.
      * right. unfold silent in C. injection C as <- <-. split; [|auto]. intros (_ & G). apply Rltb_pos in G. congruence.
    + right. unfold silent in C. injection C as <- <-. split; [|auto]. intros (G & _). apply G. reflexivity.
  - unfold plain. destruct (Rltb 0 (alpha_pen1 p)) eqn:E.
    + left. split; [apply Rltb_pos; exact E|]. unfold log_pen1 in P1. injection P1 as <- P1. apply guard_ok in P1. destruct P1 as [P1 _]. rewrite P1. reflexivity.
    + right. unfold silent in P1. injection P1 as <- <-. split; [|auto]. intros G. apply Rltb_pos in G. congruence.
  - unfold plain. destruct (Rltb 0 (alpha_pen2 p)) eqn:E.
    + left. split; [apply Rltb_pos; exact E|]. unfold log_pen2 in P2. injection P2 as <- P2. apply guard_ok in P2. destruct P2 as [P2 _]. rewrite P2. reflexivity.
    + right. unfold silent in P2. injection P2 as <- <-. split; [|auto]. intros G. apply Rltb_pos in G. congruence.
  - unfold plain, uses_regularization. destruct (Rltb 0 (beta_reg p)) eqn:E.
    + destruct (ea_theta a) as [t|t|]; unfold log_reg in Rg.
      * left. split; [split; [discriminate|apply Rltb_pos; exact E]|]. injection Rg as <- Rg. apply guard_ok in Rg. destruct Rg as [Rg _]. rewrite Rg. reflexivity.
      * discriminate Rg.
      * right. unfold silent in Rg. injection Rg as <- <-. split; [|auto]. intros (G & _). apply G. reflexivity.
    + right. unfold silent in Rg. injection Rg as <- <-. split; [|auto]. intros (_ & G). apply Rltb_pos in G. congruence.
Qed.

Lemma ratio_shape : forall n s, ratio_events n s = [] \/ exists a b c d,
  ratio_events n s = [Event "Component_Ratios/MSE" a n; Event "Component_Ratios/Coherence" b n; Event "Component_Ratios/Penalties" c n; Event "Component_Ratios/Regularization" d n].
Proof.
  intros n s. unfold ratio_events. destruct (0 <? n)%nat; [|left; reflexivity]. cbv zeta. destruct (xltb (Fin 0) (total_avg s)); [|left; reflexivity].
  right. do 4 eexists. reflexivity.
Qed.

Lemma eval_ok : forall p k1 zref s a w l s', eval_log p k1 zref s a = (w, (Ok l, s')) ->
  let n := ea_epoch a in
  exists m c p1 p2 r wc w1 w2 wr, w = (Event "MSE Loss" m n :: wc ++ w1 ++ w2 ++ wr) ++ ratio_events n s'
  /\ ((uses_coherence p a /\ exists x y z, wc = Event "Coherence Loss/Total" c n :: coh_extra x y z n) \/ (~ uses_coherence p a /\ wc = [] /\ c = Fin 0))
  /\ plain "1st Order Penalty" (0 < alpha_pen1 p) p1 n w1
  /\ plain "2nd Order Penalty" (0 < alpha_pen2 p) p2 n w2
  /\ plain "Regularization" (uses_regularization p a) r n wr
  /\ l = xadd (xadd (xadd (xadd m c) p1) p2) r /\ s' = record_eval s n m c p1 p2 r.
Proof.
  intros p k1 zref s a w l s' H. cbv zeta. unfold eval_log in H.
  destruct (log_terms p k1 zref a) as [w0 [[[[[m c] p1] p2] r]|e]] eqn:E; [|discriminate H].
  cbv zeta in H. injection H as <- <- <-. apply terms_ok in E. cbv zeta in E. destruct E as (wc & w1 & w2 & wr & -> & Hc & H1 & H2 & Hr).
  exists m, c, p1, p2, r, wc, w1, w2, wr. auto 10.
Qed.

Ltac cases_ok H :=
  let m := fresh "m" in
  apply eval_ok in H; cbv zeta in H;
  destruct H as (m & c & p1 & p2 & r & wc & w1 & w2 & wr & -> & [(Hc & x & y & z & ->)|(Hc & -> & ->)]
    & [(H1 & ->)|(H1 & -> & ->)] & [(H2 & ->)|(H2 & -> & ->)] & [(Hr & ->)|(Hr & -> & ->)] & -> & ES).

Lemma xadd_0_l : forall x, xadd (Fin 0) x = x.
Proof. intros [r| | |]; cbn; try reflexivity. f_equal. ring. Qed.
Lemma xadd_0_r : forall x, xadd x (Fin 0) = x.
Proof. intros [r| | |]; cbn; try reflexivity. f_equal. ring. Qed.

Lemma evaluation_records : forall p k1 zref s a w l s', eval_log p k1 zref s a = (w, (Ok l, s')) ->
  of_evaluation (ea_epoch a) w /\ total_of (recorded_terms w) = l /\ NoDup (map ev_tag w).
Proof.
  intros p k1 zref s a w l s' H. 
  cases_ok H; destruct (ratio_shape (ea_epoch a) s') as [->|(ra & rb & rc & rd & ->)];
    (split; [split; [intros ev HI; cbn in HI; repeat (destruct HI as [<-|HI]; [reflexivity|]); destruct HI|do 2 eexists; reflexivity]
     |split; [cbn -[xadd]; rewrite ?xadd_0_l, ?xadd_0_r; reflexivity|cbn; repeat constructor; cbn; intuition discriminate]]).
Qed.

Lemma tag_present : forall p k1 zref s a w l s', eval_log p k1 zref s a = (w, (Ok l, s')) ->
  (In "Coherence Loss/Total"%string (map ev_tag w) <-> uses_coherence p a)
  /\ (In "1st Order Penalty"%string (map ev_tag w) <-> 0 < alpha_pen1 p)
  /\ (In "2nd Order Penalty"%string (map ev_tag w) <-> 0 < alpha_pen2 p)
  /\ (In "Regularization"%string (map ev_tag w) <-> uses_regularization p a).
Proof.
  intros p k1 zref s a w l s' H.
  cases_ok H; destruct (ratio_shape (ea_epoch a) s') as [->|(ra & rb & rc & rd & ->)]; cbn; intuition discriminate.
Qed.

(** ** Failed evaluations *)

Lemma failed_terms : forall p k1 zref a w e, log_terms p k1 zref a = (w, Err e) ->
  (forall ev, In ev w -> ev_step ev = ea_epoch a) /\ (exists v w', w = Event "MSE Loss" v (ea_epoch a) :: w')
  /\ (forall t, In t (map ev_tag w) -> ~ In t ["Component_Ratios/MSE"; "Component_Ratios/Coherence"; "Component_Ratios/Penalties"; "Component_Ratios/Regularization"]%string)
  /\ ((e = ValueError /\ exists ev, In ev w /\ ev_value ev = NaN /\ In (ev_tag ev) term_tags)
      \/ (e = AttributeError /\ (exists x, ea_theta a = ThFloat x) /\ 0 < beta_reg p /\ ~ In "Regularization"%string (map ev_tag w))).
Proof.
  intros p k1 zref a w e H. unfold log_terms in H.
  assert (KM : exists v, fst (log_mse (concat (ea_y a)) (concat (ea_data a)) (ea_epoch a)) = [Event "MSE Loss" v (ea_epoch a)]) by (eexists; reflexivity).
  assert (OC : forall w1 b, (match ea_coh a with Some (u, v, w) => if Rltb 0 (gamma_coherence p) then log_coherence p u v w (ea_epoch a) else silent (Fin 0) | None => silent (Fin 0) end) = (w1, b) ->
     w1 = [] \/ exists l x y z, w1 = Event "Coherence Loss/Total" l (ea_epoch a) :: coh_extra x y z (ea_epoch a)).
  { intros w1 b E. destruct (ea_coh a) as [[[u v] z]|]; [destruct (Rltb 0 (gamma_coherence p))|]; unfold log_coherence, silent in E; injection E as <- _;
      [right; do 4 eexists; reflexivity|left; reflexivity|left; reflexivity]. }
  assert (O1 : forall w1 b, (if Rltb 0 (alpha_pen1 p) then log_pen1 p k1 zref (ea_y a) (ea_epoch a) else silent (Fin 0)) = (w1, b) ->
     w1 = [] \/ exists l, w1 = [Event "1st Order Penalty" l (ea_epoch a)]).
  { intros w1 b E. destruct (Rltb 0 (alpha_pen1 p)); unfold log_pen1, silent in E; injection E as <- _; [right; eexists; reflexivity|left; reflexivity]. }
  assert (O2 : forall w1 b, (if Rltb 0 (alpha_pen2 p) then log_pen2 p k1 zref (ea_y a) (ea_epoch a) else silent (Fin 0)) = (w1, b) ->
     w1 = [] \/ exists l, w1 = [Event "2nd Order Penalty" l (ea_epoch a)]).
  { intros w1 b E. destruct (Rltb 0 (alpha_pen2 p)); unfold log_pen2, silent in E; injection E as <- _; [right; eexists; reflexivity|left; reflexivity]. }
  assert (STEP : forall wl, (exists v, wl = [Event "MSE Loss" v (ea_epoch a)]
      \/ exists wc w1 w2, (wc = [] \/ exists l x y z, wc = Event "Coherence Loss/Total" l (ea_epoch a) :: coh_extra x y z (ea_epoch a))
          /\ (w1 = [] \/ exists l, w1 = [Event "1st Order Penalty" l (ea_epoch a)]) /\ (w2 = [] \/ exists l, w2 = [Event "2nd Order Penalty" l (ea_epoch a)])
          /\ exists wr, (wr = [] \/ exists l, wr = [Event "Regularization" l (ea_epoch a)]) /\ wl = Event "MSE Loss" v (ea_epoch a) :: wc ++ w1 ++ w2 ++ wr) ->
     (forall ev, In ev wl -> ev_step ev = ea_epoch a) /\ (exists v w', wl = Event "MSE Loss" v (ea_epoch a) :: w')
     /\ (forall t, In t (map ev_tag wl) -> ~ In t ["Component_Ratios/MSE"; "Component_Ratios/Coherence"; "Component_Ratios/Penalties"; "Component_Ratios/Regularization"]%string)).
  { intros wl (v & [->|(wc & w1 & w2 & [->|(l & x & y & z & ->)] & [->|(l1 & ->)] & [->|(l2 & ->)] & wr & [->|(lr & ->)] & ->)]);
      (split; [intros ev HI; cbn in HI; repeat (destruct HI as [<-|HI]; [reflexivity|]); destruct HI
       |split; [do 2 eexists; reflexivity|intros t HI; cbn in HI; repeat (destruct HI as [<-|HI]; [cbn; intuition discriminate|]); destruct HI]]). }
  apply then_log_err in H. destruct H as [H|(u1 & a1 & v1 & M & H & ->)].
  - unfold log_mse in H. injection H as <- H. apply guard_err in H. destruct H as [H ->].
    destruct (STEP [Event "MSE Loss" (xmean (map xsquare (zip_with log_ratio (concat (ea_y a)) (concat (ea_data a))))) (ea_epoch a)]) as (S1 & S2 & S3); [eexists; left; reflexivity|].
    split; [exact S1|]. split; [exact S2|]. split; [exact S3|]. left. split; [reflexivity|]. eexists. split; [left; reflexivity|]. split; [exact H|cbn; tauto].
  - unfold log_mse in M. injection M as <- M. set (mv := xmean _) in *. clearbody mv. clear M KM.
    apply then_log_err in H. destruct H as [H|(u2 & a2 & v2 & C & H & ->)].
    + destruct (OC _ _ H) as [->|(l & x & y & z & ->)].
      * exfalso. destruct (ea_coh a) as [[[u v] z]|]; [destruct (Rltb 0 (gamma_coherence p))|]; unfold log_coherence, silent in H; discriminate H.
      * destruct (STEP ([Event "MSE Loss" mv (ea_epoch a)] ++ Event "Coherence Loss/Total" l (ea_epoch a) :: coh_extra x y z (ea_epoch a))) as (S1 & S2 & S3).
        { exists mv. right. exists (Event "Coherence Loss/Total" l (ea_epoch a) :: coh_extra x y z (ea_epoch a)), [], []. split; [right; do 4 eexists; reflexivity|].
          split; [left; reflexivity|]. split; [left; reflexivity|]. exists []. split; [left; reflexivity|]. reflexivity. }
        split; [exact S1|]. split; [exact S2|]. split; [exact S3|]. left.
        destruct (ea_coh a) as [[[u v] z']|]; [destruct (Rltb 0 (gamma_coherence p))|]; unfold log_coherence, silent in H; try discriminate H.
        injection H as H' _ _ _ H. apply guard_err in H. destruct H as [H ->]. split; [reflexivity|]. eexists. split; [right; left; reflexivity|]. split; [cbn [ev_value]; rewrite <- H'; exact H|cbn; tauto].
    + apply then_log_err in H. destruct H as [H|(u3 & a3 & v3 & P1 & H & ->)].
      * destruct (STEP ([Event "MSE Loss" mv (ea_epoch a)] ++ u2 ++ v2)) as (S1 & S2 & S3).
        { exists mv. right. exists u2, v2, []. split; [exact (OC _ _ C)|]. split; [exact (O1 _ _ H)|]. split; [left; reflexivity|]. exists []. split; [left; reflexivity|].
          rewrite !app_nil_r. reflexivity. }
        split; [exact S1|]. split; [exact S2|]. split; [exact S3|]. left. destruct (Rltb 0 (alpha_pen1 p)); [|discriminate H]. unfold log_pen1 in H. injection H as <- H.
        apply guard_err in H. destruct H as [H ->]. split; [reflexivity|]. eexists. split; [apply in_or_app; right; apply in_or_app; right; left; reflexivity|]. split; [exact H|cbn; tauto].
      * apply then_log_err in H. destruct H as [H|(u4 & a4 & v4 & P2 & H & ->)].
        -- destruct (STEP ([Event "MSE Loss" mv (ea_epoch a)] ++ u2 ++ u3 ++ v3)) as (S1 & S2 & S3).
           { exists mv. right. exists u2, u3, v3. split; [exact (OC _ _ C)|]. split; [exact (O1 _ _ P1)|]. split; [exact (O2 _ _ H)|]. exists []. split; [left; reflexivity|].
             rewrite !app_nil_r. reflexivity. }
           split; [exact S1|]. split; [exact S2|]. split; [exact S3|]. left. destruct (Rltb 0 (alpha_pen2 p)); [|discriminate H]. unfold log_pen2 in H. injection H as <- H.
           apply guard_err in H. destruct H as [H ->]. split; [reflexivity|]. eexists. split; [apply in_or_app; right; apply in_or_app; right; apply in_or_app; right; left; reflexivity|]. split; [exact H|cbn; tauto].
        -- apply then_log_err in H. destruct H as [H|(u5 & a5 & v5 & Rg & H & ->)]; [|unfold silent in H; discriminate H].
           destruct (Rltb 0 (beta_reg p)) eqn:EB; [|discriminate H].
           destruct (ea_theta a) as [t|t|] eqn:ET; unfold log_reg, silent in H; [| |discriminate H].
           ++ injection H as <- H. apply guard_err in H. destruct H as [H ->]. 
              destruct (STEP ([Event "MSE Loss" mv (ea_epoch a)] ++ u2 ++ u3 ++ u4 ++ [Event "Regularization" (xmul (Fin (beta_reg p)) (xmean (map (fun v => xsquare (Fin v)) t))) (ea_epoch a)])) as (S1 & S2 & S3).
              { exists mv. right. exists u2, u3, u4. split; [exact (OC _ _ C)|]. split; [exact (O1 _ _ P1)|]. split; [exact (O2 _ _ P2)|]. eexists. split; [right; eexists; reflexivity|]. reflexivity. }
              split; [exact S1|]. split; [exact S2|]. split; [exact S3|]. left. split; [reflexivity|]. eexists.
              split; [do 4 (apply in_or_app; right); left; reflexivity|]. split; [exact H|cbn; tauto].
           ++ injection H as <- <-.
              destruct (STEP ([Event "MSE Loss" mv (ea_epoch a)] ++ u2 ++ u3 ++ u4 ++ [])) as (S1 & S2 & S3).
              { exists mv. right. exists u2, u3, u4. split; [exact (OC _ _ C)|]. split; [exact (O1 _ _ P1)|]. split; [exact (O2 _ _ P2)|]. exists []. split; [left; reflexivity|]. reflexivity. }
              split; [exact S1|]. split; [exact S2|]. split; [exact S3|]. right. split; [reflexivity|]. split; [exists t; reflexivity|]. split; [apply Rltb_pos; exact EB|].
              destruct (OC _ _ C) as [->|(l & x & y & z & ->)], (O1 _ _ P1) as [->|(l1 & ->)], (O2 _ _ P2) as [->|(l2 & ->)]; cbn; intuition discriminate.
Qed.

Lemma failed_evaluation : forall p k1 zref s a w e s', eval_log p k1 zref s a = (w, (Err e, s')) ->
  s' = s /\ of_evaluation (ea_epoch a) w
  /\ (forall t, In t (map ev_tag w) -> ~ In t ["Component_Ratios/MSE"; "Component_Ratios/Coherence"; "Component_Ratios/Penalties"; "Component_Ratios/Regularization"]%string)
  /\ ((e = ValueError /\ exists ev, In ev w /\ ev_value ev = NaN /\ In (ev_tag ev) term_tags)
      \/ (e = AttributeError /\ (exists x, ea_theta a = ThFloat x) /\ 0 < beta_reg p /\ ~ In "Regularization"%string (map ev_tag w))).
Proof.
  intros p k1 zref s a w e s' H. unfold eval_log in H. destruct (log_terms p k1 zref a) as [w0 [[[[[m c] p1] p2] r]|e0]] eqn:E; [discriminate H|].
  injection H as <- <- <-. apply failed_terms in E. destruct E as (S1 & (v & w' & S2) & S3 & S4). split; [reflexivity|].
  split; [split; [exact S1|exists v, w'; exact S2]|]. split; [exact S3|exact S4].
Qed.
