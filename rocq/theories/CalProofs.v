(** Lemmas about the calibration problem: parameter vector, training, saving. *)

From Coq Require Import String Ascii Reals Lra Lia List Arith ZArith Bool.
From Verif Require Import Prelude RdtModel SpectraModel OpsModel LossModel LossSpec CalModel CalSpec.
Import ListNotations.
Open Scope R_scope.

(** ** Parameter vector *)

Lemma fill_rows_get : forall W v, fill_rows W (concat W ++ v) = (W, v).
Proof.
  induction W as [|r W IH]; intros v; [reflexivity|].
  cbn [fill_rows concat]. rewrite <- app_assoc.
  rewrite skipn_app, skipn_all, Nat.sub_diag, skipn_O, firstn_app, firstn_all, Nat.sub_diag, firstn_O, app_nil_r.
  cbn [app]. rewrite IH. reflexivity.
Qed.

Lemma fill_layers_get : forall Ws v, fill_layers Ws (concat (map (@concat R) Ws) ++ v) = (Ws, v).
Proof.
  induction Ws as [|W Ws IH]; intros v; [reflexivity|].
  cbn [fill_layers concat map]. rewrite <- app_assoc, fill_rows_get. cbn [fst snd]. rewrite IH. reflexivity.
Qed.

Lemma fill_rows_set : forall W v, (length (concat W) <= length v)%nat ->
  concat (fst (fill_rows W v)) ++ snd (fill_rows W v) = v
  /\ map (@length R) (fst (fill_rows W v)) = map (@length R) W
  /\ length (snd (fill_rows W v)) = (length v - length (concat W))%nat.
Proof.
  induction W as [|r W IH]; intros v Hv; cbn [fill_rows concat fst snd map].
  - repeat split. cbn [length]. lia.
  - cbn [concat] in Hv. rewrite app_length in Hv |- *.
    destruct (IH (skipn (length r) v)) as (H1 & H2 & H3); [rewrite skipn_length; lia|].
    repeat split.
    + rewrite <- app_assoc, H1. apply firstn_skipn.
    + rewrite H2, firstn_length. f_equal. lia.
    + rewrite H3, skipn_length. lia.
Qed.

Lemma fill_layers_set : forall Ws v, (length (concat (map (@concat R) Ws)) <= length v)%nat ->
  concat (map (@concat R) (fst (fill_layers Ws v))) ++ snd (fill_layers Ws v) = v
  /\ layer_rows (fst (fill_layers Ws v)) = layer_rows Ws
  /\ length (snd (fill_layers Ws v)) = (length v - length (concat (map (@concat R) Ws)))%nat.
Proof.
  induction Ws as [|W Ws IH]; intros v Hv; cbn [fill_layers concat fst snd map].
  - repeat split. cbn [length]. lia.
  - cbn [concat map] in Hv. rewrite app_length in Hv |- *.
    destruct (fill_rows_set W v) as (A1 & A2 & A3); [lia|].
    destruct (IH (snd (fill_rows W v))) as (H1 & H2 & H3); [lia|].
    repeat split.
    + rewrite <- app_assoc, H1. exact A1.
    + unfold layer_rows in *. cbn [map]. rewrite H2, A2. reflexivity.
    + rewrite H3, A3. lia.
Qed.

Lemma get_parameters_layout : forall a b c pq net,
  get_parameters (MP a b c pq net)
  = [a; b; c] ++ match pq with Some (p, q) => [p; q] | None => [] end
    ++ match net with
       | Some (Ws, nu) => concat (map (@concat R) Ws) ++ match nu with Some v => [v] | None => [] end
       | None => []
       end.
Proof.
  intros a b c pq net. unfold get_parameters, tensors. cbn [mp_logL mp_logT mp_logM mp_pq mp_net].
  repeat rewrite concat_app. f_equal. f_equal.
  - destruct pq as [[p q]|]; reflexivity.
  - destruct net as [[Ws nu]|]; [|reflexivity]. rewrite concat_app. destruct nu; reflexivity.
Qed.

Lemma vtp_get : forall s, vector_to_parameters s (get_parameters s) = s.
Proof.
  intros [a b c pq net]. rewrite get_parameters_layout. unfold vector_to_parameters. cbn [mp_pq mp_net].
  assert (N : match net with
              | Some (Ws, nu) =>
                 let z := fill_layers Ws match net with
                   | Some (Ws, nu) => concat (map (@concat R) Ws) ++ match nu with Some v => [v] | None => [] end
                   | None => [] end in
                 Some (fst z, match nu with Some _ => Some (nth 0 (snd z) 0) | None => None end)
              | None => None end = net).
  { destruct net as [[Ws nu]|]; [|reflexivity]. cbn zeta. rewrite fill_layers_get. destruct nu; reflexivity. }
  destruct pq as [[p q]|]; cbn [app nth skipn]; f_equal; exact N.
Qed.

Lemma set_get : forall s, set_parameters s (get_parameters s) = (Ok tt, s).
Proof. intros s. unfold set_parameters. rewrite Nat.eqb_refl. cbn [negb]. rewrite vtp_get. reflexivity. Qed.

Lemma len1 : forall (l : list R), length l = 1%nat -> [nth 0 l 0] = l.
Proof. intros [|a [|b l]] H; try discriminate. reflexivity. Qed.

Lemma vtp_tail : forall (net : option (list weights * option R)) v5,
  length v5 = length (concat (match net with
     | Some (Ws, nu) => map (@concat R) Ws ++ match nu with Some v => [[v]] | None => [] end
     | None => [] end)) ->
  let net' := match net with
             | Some (Ws, nu) =>
                 let a := fill_layers Ws v5 in
                 Some (fst a, match nu with Some _ => Some (nth 0 (snd a) 0) | None => None end)
             | None => None
             end in
  concat (match net' with
     | Some (Ws, nu) => map (@concat R) Ws ++ match nu with Some v => [[v]] | None => [] end
     | None => [] end) = v5
  /\ match net, net' with
     | None, None => True
     | Some (Ws, nu), Some (Vs, mu) => layer_rows Ws = layer_rows Vs /\ (nu = None <-> mu = None)
     | _, _ => False
     end.
Proof.
  intros [[Ws nu]|] v5 H; cbn zeta.
  - rewrite concat_app, app_length in H.
    destruct (fill_layers_set Ws v5) as (H1 & H2 & H3); [lia|].
    split; [|split; [symmetry; exact H2|destruct nu; split; congruence]].
    rewrite concat_app. destruct nu as [v|].
    + cbn [concat app]. cbn [concat app length] in H. rewrite len1 by lia. exact H1.
    + cbn [concat app] in *. cbn [length] in H. rewrite app_nil_r.
      assert (Hn : snd (fill_layers Ws v5) = []) by (apply length_zero_iff_nil; lia).
      rewrite Hn, app_nil_r in H1. exact H1.
  - cbn [concat length] in H. apply length_zero_iff_nil in H. subst v5. split; [reflexivity|exact I].
Qed.

Lemma vtp_set : forall s v, length v = length (get_parameters s) ->
  get_parameters (vector_to_parameters s v) = v /\ same_architecture s (vector_to_parameters s v).
Proof.
  intros [a b c pq net] v H. unfold get_parameters, tensors in H.
  cbn [mp_logL mp_logT mp_logM mp_pq mp_net] in H.
  destruct v as [|x [|y [|z v]]]; try (cbn [app concat length] in H; lia).
  unfold get_parameters, tensors, vector_to_parameters, same_architecture.
  cbn [mp_logL mp_logT mp_logM mp_pq mp_net nth skipn].
  destruct pq as [[p q]|].
  - destruct v as [|p' [|q' v]]; try (cbn [app concat length] in H; lia).
    cbn [skipn nth].
    destruct (vtp_tail net v) as [H1 H2]; [cbn [app concat length] in H; lia|].
    cbn zeta in H1, H2. split.
    + cbn [app concat]. rewrite H1. reflexivity.
    + split; [split; discriminate|exact H2].
  - destruct (vtp_tail net v) as [H1 H2]; [cbn [app concat length] in H; lia|].
    cbn zeta in H1, H2. split.
    + cbn [app concat]. rewrite H1. reflexivity.
    + split; [tauto|exact H2].
Qed.

Lemma get_set : forall s v, length v = length (get_parameters s) ->
  exists t, set_parameters s v = (Ok tt, t) /\ get_parameters t = v /\ same_architecture s t.
Proof.
  intros s v H. exists (vector_to_parameters s v). split; [|apply vtp_set; exact H].
  unfold set_parameters. rewrite H, Nat.eqb_refl. reflexivity.
Qed.

Lemma set_wrong_length : forall s v, length v <> length (get_parameters s) ->
  set_parameters s v = (Err ValueError, s).
Proof. intros s v H. unfold set_parameters. apply Nat.eqb_neq in H. rewrite H. reflexivity. Qed.

Lemma has_shape_length : forall W r c, has_shape r c W -> length (concat W) = (r * c)%nat.
Proof.
  induction W as [|x W IH]; intros r c [H1 H2]; cbn [length concat] in *; subst r; [reflexivity|].
  inversion H2; subst. rewrite app_length, (IH (length W) (length x)); [lia|split; auto].
Qed.

Lemma net_length : forall A (c : taunet_cfg A) Ws nu, net_matches c (Ws, nu) ->
  length (concat (map (@concat R) Ws) ++ match nu with Some v => [v] | None => [] end) = num_params c.
Proof.
  intros A c Ws nu [H1 H2]. cbn [fst snd] in *. rewrite app_length. unfold num_params. f_equal.
  - induction H1 as [|p W ls Ws Hp HF IH]; [reflexivity|].
    cbn [map concat fold_right]. rewrite app_length, IH, (has_shape_length _ _ _ Hp). lia.
  - destruct (tc_learn_nu c); destruct nu; try reflexivity; exfalso.
    + destruct H2 as [H2 _]. exact (H2 eq_refl eq_refl).
    + destruct H2 as [_ H2]. discriminate H2. discriminate.
Qed.

Lemma construct_ok : forall nc L G S pq net, (nc = 3 \/ nc = 4 \/ nc = 6)%Z -> 0 < L -> 0 < G -> 0 < S ->
  calib_construct nc false L G S pq net = Ok (MP (ln L) (ln G) (ln S) pq net).
Proof.
  intros nc L G S pq net Hn HL HG HS. unfold calib_construct.
  assert (E : existsb (Z.eqb nc) [3; 4; 6]%Z = true) by (destruct Hn as [ -> |[ -> | -> ]]; reflexivity).
  rewrite E. unfold ops_initial_params.
  assert (T : forall x, 0 < x -> Rltb 0 x = true).
  { intros x Hx. unfold Rltb. destruct (Rlt_dec 0 x); [reflexivity|contradiction]. }
  rewrite (T L HL), (T G HG), (T S HS). cbn [bind]. unfold write_log_scales. rewrite (T L HL), (T G HG), (T S HS). cbn [andb].
  set (s := MP (log10 L) (log10 G) (log10 S) pq net).
  assert (Hl : get_parameters s = log10 L :: log10 G :: log10 S :: skipn 3 (get_parameters s)).
  { unfold s. rewrite get_parameters_layout. reflexivity. }
  assert (Hv : ln L :: ln G :: ln S :: skipn 3 (get_parameters s) = get_parameters (MP (ln L) (ln G) (ln S) pq net)).
  { unfold s. rewrite !get_parameters_layout. reflexivity. }
  unfold set_parameters. rewrite Hl at 2. cbn [length]. rewrite Nat.eqb_refl. cbn [negb].
  rewrite Hv. rewrite <- (vtp_get (MP (ln L) (ln G) (ln S) pq net)) at 2. reflexivity.
Qed.

Lemma construct_bad_components : forall nc noise L G S pq net, ~ (nc = 3 \/ nc = 4 \/ nc = 6)%Z ->
  calib_construct nc noise L G S pq net = Err ValueError.
Proof.
  intros nc noise L G S pq net H. unfold calib_construct.
  destruct (existsb (Z.eqb nc) [3; 4; 6]%Z) eqn:E; [|reflexivity].
  exfalso. apply existsb_exists in E. destruct E as (x & Hx & E). apply Z.eqb_eq in E. subst x.
  cbn [In] in Hx. lia.
Qed.

Lemma construct_bad_scale : forall nc noise L G S pq net, (nc = 3 \/ nc = 4 \/ nc = 6)%Z ->
  (L <= 0 \/ G <= 0 \/ S <= 0) -> calib_construct nc noise L G S pq net = Err AssertionError.
Proof.
  intros nc noise L G S pq net Hn H. unfold calib_construct.
  assert (E : existsb (Z.eqb nc) [3; 4; 6]%Z = true) by (destruct Hn as [ -> |[ -> | -> ]]; reflexivity).
  rewrite E. unfold ops_initial_params, Rltb.
  destruct (Rlt_dec 0 L); [|reflexivity]. destruct (Rlt_dec 0 G); [|reflexivity].
  destruct (Rlt_dec 0 S); [lra|reflexivity].
Qed.

Lemma construct_noise : forall nc L G S pq net s, calib_construct nc true L G S pq net <> Ok s.
Proof.
  intros nc L G S pq net s. unfold calib_construct. destruct (existsb _ _); [|discriminate].
  destruct (ops_initial_params L G S) as [[[a b] c]|e]; discriminate.
Qed.

(** ** Training *)

Lemma vtp_pq : forall s v, mp_pq (vector_to_parameters s v) = None <-> mp_pq s = None.
Proof. intros s v. unfold vector_to_parameters. cbn [mp_pq]. destruct (mp_pq s); split; congruence. Qed.

Lemma run_strategy_pq : forall c t s s', run_strategy c t s = Ok s' ->
  (mp_pq (ts_mod s') = None <-> mp_pq (ts_mod s) = None).
Proof.
  intros c t. induction t as [v|v k IH]; intros s s' H; cbn [run_strategy] in H.
  - inversion H; subst. cbn [ts_mod]. apply vtp_pq.
  - unfold closure_eval in H. destruct (agg_eval _ _ _ _ _) as [[l|e] a]; [|discriminate].
    apply IH in H. cbn [ts_mod] in H. rewrite H. apply vtp_pq.
Qed.

Lemma lr_check_mod : forall n s s', lr_check n s = Ok s' -> ts_mod s' = ts_mod s /\ ts_loss s' = ts_loss s.
Proof.
  intros n s s' H. unfold lr_check in H. destruct (_ =? _)%nat.
  - destruct (should_adjust n 50 (ts_agg s)) as [a|e]; cbn [bind] in H; inversion H; subst. split; reflexivity.
  - inversion H; subst. split; reflexivity.
Qed.

Lemma train_not_learnable : forall c opt sched n left s, mp_pq (ts_mod s) = None -> (1 <= left)%nat ->
  forall s', fst (train c opt sched n left s) <> Ok s'.
Proof.
  intros c opt sched n left s Hs Hl s'. destruct left as [|left]; [lia|]. cbn [train].
  destruct (run_strategy c (opt n s) s) as [s0|e] eqn:E; [|discriminate].
  cbn [ts_mod]. apply run_strategy_pq in E. destruct (mp_pq (ts_mod s0)); [|discriminate].
  destruct E as [_ E]. specialize (E Hs). discriminate E.
Qed.

Lemma train_not_learnable_exact : forall c opt sched n left s s0, mp_pq (ts_mod s) = None ->
  run_strategy c (opt n s) s = Ok s0 ->
  fst (train c opt sched n (S left) s) = Err AttributeError.
Proof.
  intros c opt sched n left s s0 Hs E. cbn [train]. rewrite E. cbn [ts_mod].
  apply run_strategy_pq in E. destruct (mp_pq (ts_mod s0)); [|reflexivity].
  destruct E as [_ E]. specialize (E Hs). discriminate E.
Qed.

Lemma xltb_fin_false : forall x t, xfinite x = true -> xltb x (Fin t) = false -> not_converged t x.
Proof.
  intros [r| | |] t Hf H; try discriminate. exists r. split; [reflexivity|].
  cbn [xltb] in H. unfold Rltb in H. destruct (Rlt_dec r t); [discriminate|lra].
Qed.

(** Shape of a run that ends normally. *)
Lemma train_ok : forall c opt sched left n s s' ls, train c opt sched n left s = (Ok s', ls) ->
  (length ls <= left)%nat
  /\ (ls = [] -> left = 0%nat /\ s' = s)
  /\ forall pre l, ls = pre ++ [l] ->
       Forall (not_converged (tg_tol c)) pre /\ ts_loss s' = l
       /\ exists r, l = Fin r /\ (r < tg_tol c \/ length ls = left).
Proof.
  intros c opt sched. induction left as [|left IH]; intros n s s' ls H; cbn [train] in H.
  - inversion H; subst. split; [cbn; lia|]. split; [auto|]. intros pre l E. destruct pre; discriminate.
  - destruct (run_strategy c (opt n s) s) as [s0|e]; [|discriminate].
    cbn [ts_mod ts_loss] in H. destruct (mp_pq (ts_mod s0)); [|discriminate].
    destruct (xfinite (ts_loss s0)) eqn:F; cbn [negb] in H; [|discriminate].
    destruct (xltb (ts_loss s0) (Fin (tg_tol c))) eqn:C.
    + inversion H; subst. cbn [ts_loss]. split; [cbn; lia|]. split; [discriminate|].
      intros pre l E. destruct pre as [|x pre].
      * inversion E; subst. split; [constructor|]. split; [reflexivity|].
        destruct (ts_loss s0) as [r| | |]; try discriminate. exists r. split; [reflexivity|]. left.
        cbn [xltb] in C. unfold Rltb in C. destruct (Rlt_dec r (tg_tol c)); [assumption|discriminate].
      * inversion E. destruct pre; discriminate.
    + match type of H with match lr_check n ?x with _ => _ end = _ => destruct (lr_check n x) as [s2|e] eqn:E2 end; [|discriminate].
      apply lr_check_mod in E2. cbn [ts_mod ts_loss] in E2. destruct E2 as [Em El].
      destruct (train c opt sched (S n) left s2) as [r' ls'] eqn:ET. cbn [fst snd] in H. inversion H; subst.
      apply IH in ET. destruct ET as (L1 & L2 & L3).
      split; [cbn [length]; lia|]. split; [discriminate|].
      intros pre l E. destruct pre as [|x pre].
      * inversion E; subst. destruct L2 as [L2 L2']; [reflexivity|]. subst left s'.
        split; [constructor|]. split; [exact El|].
        destruct (ts_loss s0) as [r| | |]; try discriminate. exists r. split; [reflexivity|]. right. reflexivity.
      * cbn [app] in E. inversion E; subst. destruct (L3 pre l eq_refl) as (P1 & P2 & P3).
        split; [constructor; [|exact P1]|]. { apply xltb_fin_false; assumption. }
        split; [exact P2|]. destruct P3 as (r & P3 & P4). exists r. split; [exact P3|].
        destruct P4 as [P4|P4]; [left; exact P4|right]. cbn [length]. f_equal. exact P4.
Qed.

(** Shape of a run that raises. *)
Lemma train_err : forall c opt sched left n s e ls, train c opt sched n left s = (Err e, ls) ->
  (length ls <= left)%nat /\
  forall pre l, ls = pre ++ [l] -> Forall (not_converged (tg_tol c)) pre
    /\ (xfinite l = false -> mp_pq (ts_mod s) <> None -> e = RuntimeError).
Proof.
  intros c opt sched. induction left as [|left IH]; intros n s e ls H; cbn [train] in H; [discriminate|].
  destruct (run_strategy c (opt n s) s) as [s0|e0] eqn:ER.
  2:{ inversion H; subst. split; [cbn; lia|]. intros pre l E. destruct pre; discriminate. }
  cbn [ts_mod ts_loss] in H. apply run_strategy_pq in ER. destruct (mp_pq (ts_mod s0)) eqn:EP.
  2:{ inversion H; subst. split; [cbn; lia|]. intros pre l E. destruct pre as [|x pre]; inversion E; [subst|destruct pre; discriminate].
      split; [constructor|]. intros _ G. exfalso. apply G. apply ER. reflexivity. }
  destruct (xfinite (ts_loss s0)) eqn:F; cbn [negb] in H.
  2:{ inversion H; subst. split; [cbn; lia|]. intros pre l E. destruct pre as [|x pre]; inversion E; [subst|destruct pre; discriminate].
      split; [constructor|]. reflexivity. }
  destruct (xltb (ts_loss s0) (Fin (tg_tol c))) eqn:C; [discriminate|].
  match type of H with match lr_check n ?x with _ => _ end = _ => destruct (lr_check n x) as [s2|e2] eqn:E2 end.
  - apply lr_check_mod in E2. cbn [ts_mod ts_loss] in E2. destruct E2 as [Em El].
    destruct (train c opt sched (S n) left s2) as [r' ls'] eqn:ET. cbn [fst snd] in H. inversion H; subst.
    apply IH in ET. destruct ET as (L1 & L3). split; [cbn [length]; lia|].
    intros pre l E. destruct pre as [|x pre].
    + inversion E; subst. split; [constructor|]. intros G. exfalso.
      congruence.
    + cbn [app] in E. inversion E; subst. destruct (L3 pre l eq_refl) as (P1 & P2).
      split; [constructor; [apply xltb_fin_false; assumption|exact P1]|].
      intros G K. apply P2; [exact G|]. rewrite Em, EP. discriminate.
  - inversion H; subst. split; [cbn; lia|]. intros pre l E. destruct pre as [|x pre]; inversion E; [subst|destruct pre; discriminate].
    split; [constructor|]. congruence.
Qed.

Lemma calibrated_form : forall m v, calibrated_params m = Ok v ->
  v = map exp (firstn 3 (get_parameters m)) ++ match mp_pq m with Some (p, q) => [p; q] | None => [] end.
Proof.
  intros [a b c pq net] v H. unfold calibrated_params in H. rewrite get_parameters_layout in *.
  cbn [mp_pq app] in *. destruct pq as [[p q]|]; cbn [app] in H; inversion H; reflexivity.
Qed.

Lemma calibrated_always : forall m, exists v, calibrated_params m = Ok v.
Proof.
  intros [a b c pq net]. unfold calibrated_params. rewrite get_parameters_layout. cbn [mp_pq app].
  destruct pq as [[p q]|]; cbn [app]; eauto.
Qed.

Lemma calibrate_ok : forall c opt sched m v s' ls, calibrate c opt sched m = (Ok (v, s'), ls) ->
  (length ls <= tg_nepochs c)%nat
  /\ (ls = [] -> tg_nepochs c = 0%nat)
  /\ (forall pre l, ls = pre ++ [l] ->
        Forall (not_converged (tg_tol c)) pre /\ ts_loss s' = l
        /\ exists r, l = Fin r /\ (r < tg_tol c \/ length ls = tg_nepochs c))
  /\ v = map exp (firstn 3 (get_parameters (ts_mod s')))
         ++ match mp_pq (ts_mod s') with Some (p, q) => [p; q] | None => [] end
  /\ exists L G S rest, v = L :: G :: S :: rest /\ 0 < L /\ 0 < G /\ 0 < S.
Proof.
  intros c opt sched m v s' ls H. unfold calibrate in H.
  destruct (agg_eval _ _ _ _ _) as [[l|e] a]; [|discriminate].
  match type of H with (bind (fst ?t) _, _) = _ => destruct t as [r ls'] eqn:ET end.
  cbn [fst snd] in H. destruct r as [s1|e]; cbn [bind] in H; [|discriminate].
  destruct (calibrated_params (ts_mod s1)) as [w|e] eqn:EC; cbn [bind] in H; [|discriminate].
  inversion H; subst. apply train_ok in ET. destruct ET as (L1 & L2 & L3).
  split; [exact L1|]. split; [intros K; apply L2; exact K|]. split; [exact L3|].
  pose proof (calibrated_form _ _ EC) as Ev. split; [exact Ev|].
  destruct (ts_mod s') as [a1 b1 c1 pq net]. rewrite get_parameters_layout in Ev. cbn [app firstn map] in Ev.
  exists (exp a1), (exp b1), (exp c1). eexists. split; [exact Ev|]. repeat split; apply exp_pos.
Qed.

Lemma calibrate_nonfinite : forall c opt sched m r pre l, mp_pq m <> None ->
  calibrate c opt sched m = (r, pre ++ [l]) ->
  Forall (not_converged (tg_tol c)) pre /\ (xfinite l = false -> r = Err RuntimeError).
Proof.
  intros c opt sched m r pre l Hm H. unfold calibrate in H.
  destruct (agg_eval _ _ _ _ _) as [[l0|e] a]; [|destruct pre; discriminate].
  match type of H with (bind (fst ?t) _, _) = _ => destruct t as [r' ls'] eqn:ET end.
  cbn [fst snd] in H. destruct r' as [s1|e]; cbn [bind] in H.
  - destruct (calibrated_always (ts_mod s1)) as [w EC]. rewrite EC in H. cbn [bind] in H. inversion H; subst.
    apply train_ok in ET. destruct ET as (L1 & L2 & L3). destruct (L3 pre l eq_refl) as (P1 & P2 & x & P3 & P4).
    split; [exact P1|]. rewrite P3. intros K. discriminate K.
  - inversion H; subst. apply train_err in ET. destruct ET as (L1 & L3).
    destruct (L3 pre l eq_refl) as (P1 & P2). split; [exact P1|]. intros G. f_equal. apply P2; [exact G|].
    exact Hm.
Qed.

Lemma calibrate_steps : forall c opt sched m, (length (snd (calibrate c opt sched m)) <= tg_nepochs c)%nat.
Proof.
  intros c opt sched m. unfold calibrate. destruct (agg_eval _ _ _ _ _) as [[l|e] a]; [|cbn; lia].
  cbn [snd]. match goal with |- (length (snd ?t) <= _)%nat => destruct t as [[s1|e] ls'] eqn:ET end.
  - apply train_ok in ET. apply ET.
  - apply train_err in ET. apply ET.
Qed.

Lemma calibrate_not_learnable : forall c opt sched m, mp_pq m = None -> (1 <= tg_nepochs c)%nat ->
  forall v, fst (calibrate c opt sched m) <> Ok v.
Proof.
  intros c opt sched m Hm Hn v. unfold calibrate. destruct (agg_eval _ _ _ _ _) as [[l|e] a]; [|discriminate].
  cbn [fst]. match goal with |- bind (fst ?t) _ <> _ => destruct (fst t) as [s1|e] eqn:ET end; [|discriminate].
  exfalso. revert ET. apply train_not_learnable; assumption.
Qed.

Lemma calibrate_no_epochs : forall c opt sched m l, tg_nepochs c = 0%nat ->
  fst (agg_eval (tg_loss c) (tg_k1 c) (tg_zref c) agg_init (tg_args0 c m)) = Ok l ->
  exists v s, calibrate c opt sched m = (Ok (v, s), []) /\ ts_mod s = m.
Proof.
  intros c opt sched m l Hn H. unfold calibrate. destruct (agg_eval _ _ _ _ _) as [[l'|e] a]; [|discriminate].
  rewrite Hn. cbn [train fst snd bind ts_mod]. destruct (calibrated_always m) as [w ->]. cbn [bind].
  eexists. eexists. split; reflexivity.
Qed.

Lemma train_no_attribute_error : forall c opt sched left n s,
  mp_pq (ts_mod s) <> None ->
  (forall n s e, run_strategy c (opt n s) s = Err e -> e <> AttributeError) ->
  fst (train c opt sched n left s) <> Err AttributeError.
Proof.
  intros c opt sched. induction left as [|left IH]; intros n s Hs Ho; cbn [train]; [discriminate|].
  destruct (run_strategy c (opt n s) s) as [s0|e] eqn:E.
  2:{ cbn [fst]. specialize (Ho _ _ _ E). congruence. }
  cbn [ts_mod ts_loss]. apply run_strategy_pq in E. destruct (mp_pq (ts_mod s0)) eqn:EP; [|tauto].
  destruct (negb _); [discriminate|]. destruct (xltb _ _); [discriminate|].
  match goal with |- fst (match lr_check n ?x with _ => _ end) <> _ => destruct (lr_check n x) as [s2|e2] eqn:E2 end.
  - apply lr_check_mod in E2. cbn [ts_mod] in E2. destruct E2 as [Em _]. cbn [fst]. apply IH; [|exact Ho].
    rewrite Em, EP. discriminate.
  - cbn [fst]. unfold lr_check in E2. destruct (_ =? _)%nat; [|discriminate].
    cbn [ts_agg] in E2. destruct (should_adjust n 50 (ts_agg s0)) as [ad|e] eqn:EA; cbn [bind] in E2; [discriminate|].
    inversion E2; subst. unfold should_adjust in EA. destruct (_ <? _)%nat; [discriminate|].
    unfold get_loss_diagnostics in EA. destruct (_ <? _)%nat; [discriminate|].
    destruct (last_n 50 (h_total (ts_agg s0))) as [|x l]; [discriminate|].
    destruct (2 <=? length (x :: l))%nat.
    + unfold improvement_ratio in EA.
      destruct (firstn (50 / 2) (x :: l)); [cbn [bind] in EA; inversion EA; discriminate|].
      destruct (skipn (50 / 2) (x :: l)); [cbn [bind] in EA; inversion EA; discriminate|].
      cbn [bind] in EA. cbn [d_improvement] in EA.
      repeat match type of EA with (if ?b then _ else _) = _ => destruct b; try discriminate end.
    + cbn [bind d_improvement] in EA. inversion EA. discriminate.
Qed.

(** ** Evaluation counting *)

Lemma run_strategy_counts : forall c t s s', run_strategy c t s = Ok s' ->
  length (ts_seen s') = (length (ts_seen s) + (ts_ecount s' - ts_ecount s))%nat
  /\ (ts_ecount s <= ts_ecount s')%nat
  /\ exists new, ts_seen s' = ts_seen s ++ new.
Proof.
  intros c t. induction t as [v|v k IH]; intros s s' H; cbn [run_strategy] in H.
  - inversion H; subst. cbn [ts_seen ts_ecount]. split; [lia|]. split; [lia|]. exists []. rewrite app_nil_r. reflexivity.
  - unfold closure_eval in H. destruct (agg_eval _ _ _ _ _) as [[l|e] a]; [|discriminate].
    apply IH in H. cbn [ts_seen ts_ecount] in H. rewrite app_length in H. cbn [length] in H.
    destruct H as (H1 & H2 & new & H3). split; [lia|]. split; [lia|].
    exists ((v, l) :: new). rewrite H3, <- app_assoc. reflexivity.
Qed.
