(** Lemmas about problem objects, model files and loss plots. *)

From Coq Require Import String Reals List Arith ZArith Bool Lra Lia Permutation.
From Verif Require Import Prelude RdtModel SpectraModel OpsModel LossModel CalModel ProbModel.
From Verif Require Import CalSpec ProbSpec CalProofs CalMore.
Import ListNotations.
Open Scope R_scope.

(** ** Refinement to the model of training *)

Lemma closure_run_refines : forall c v s,
  closure_eval c v s = match closure_run c v s with (Ok _, s') => Ok s' | (Err e, _) => Err e end.
Proof.
  intros c v s. unfold closure_eval, closure_run.
  destruct (agg_eval _ _ _ _ _) as [[l|e] a]; reflexivity.
Qed.

Lemma strategy_run_refines : forall c t s,
  run_strategy c t s = match strategy_run c t s with (Ok _, s') => Ok s' | (Err e, _) => Err e end.
Proof.
  intros c t. induction t as [v|v k IH]; intros s; [reflexivity|].
  cbn [run_strategy strategy_run]. rewrite closure_run_refines.
  destruct (closure_run c v s) as [[u|e] s1]; [apply IH|reflexivity].
Qed.

Lemma train_run_refines : forall c opt sched left epoch s,
  fst (train c opt sched epoch left s)
  = match train_run c opt sched epoch left s with (Ok _, s') => Ok s' | (Err e, _) => Err e end.
Proof.
  intros c opt sched left. induction left as [|n IH]; intros epoch s; [reflexivity|].
  cbn [train train_run]. rewrite strategy_run_refines.
  destruct (strategy_run c (opt epoch s) s) as [[u|e] s0]; [|reflexivity].
  cbv zeta. cbn [ts_mod ts_loss].
  destruct (mp_pq (ts_mod s0)); [|reflexivity].
  destruct (negb (xfinite (ts_loss s0))); [reflexivity|].
  destruct (xltb (ts_loss s0) (Fin (tg_tol c))); [reflexivity|].
  destruct (lr_check _ _) as [s2|e]; [|reflexivity]. cbn [fst]. apply IH.
Qed.

Section Sessions.
  Variable D : Type.
  Variable prepare : D -> module_params -> res train_cfg.

  (** The returned values are those of the model of `calibrate`. *)
  Lemma calibrate_op_refines : forall opt sched d o,
    fst (calibrate_op prepare opt sched d o)
    = bind (prepare d (ob_mod o)) (fun c => bind (fst (calibrate c opt sched (ob_mod o))) (fun r => Ok (fst r))).
  Proof.
    intros opt sched d o. unfold calibrate_op, calibrate. destruct (prepare d (ob_mod o)) as [c|e]; [|reflexivity].
    cbn [bind]. destruct (agg_eval _ _ _ _ _) as [[l|e] a]; [|reflexivity]. cbv zeta. cbn [fst].
    rewrite train_run_refines. destruct (train_run _ _ _ _ _ _) as [[u|e] s]; [|reflexivity].
    cbn [bind]. destruct (calibrated_params (ts_mod s)); reflexivity.
  Qed.

  Lemma calibrate_op_module : forall opt sched d o v o',
    calibrate_op prepare opt sched d o = (Ok v, o') ->
    exists c s ls, prepare d (ob_mod o) = Ok c /\ calibrate c opt sched (ob_mod o) = (Ok (v, s), ls) /\ ob_mod o' = ts_mod s.
  Proof.
    intros opt sched d o v o' H. unfold calibrate_op in H. destruct (prepare d (ob_mod o)) as [c|e] eqn:P; [|discriminate].
    unfold calibrate. destruct (agg_eval _ _ _ _ _) as [[l|e] a] eqn:A; [|discriminate].
    pose proof (train_run_refines c opt sched (tg_nepochs c) 1 (TS (ob_mod o) l a 0 (tg_lr c) [])) as T.
    destruct (train_run _ _ _ _ _ _) as [[u|e] s]; [|discriminate].
    destruct (calibrated_params (ts_mod s)) as [w|e] eqn:C; [|discriminate]. inversion H; subst.
    exists c, s. eexists. split; [reflexivity|]. rewrite A. cbv zeta. rewrite T. cbn [bind]. rewrite C. split; reflexivity.
  Qed.

  (** ** What each operation does to the object *)

  Lemma calibrate_op_stored : forall opt sched d o r o',
    calibrate_op prepare opt sched d o = (r, o') ->
    ob_type o' = ob_type o /\ ob_data o' = Some d
    /\ ob_calibrated o' = match r with Ok v => Some v | Err _ => ob_calibrated o end.
  Proof.
    intros opt sched d o r o' H. unfold calibrate_op in H. destruct (prepare d (ob_mod o)) as [c|e];
      [|inversion H; subst; repeat split; reflexivity].
    destruct (agg_eval _ _ _ _ _) as [[l|e] a]; [|inversion H; subst; repeat split; reflexivity].
    destruct (train_run _ _ _ _ _ _) as [[u|e] s]; [|inversion H; subst; repeat split; reflexivity].
    destruct (calibrated_params (ts_mod s)); inversion H; subst; repeat split; reflexivity.
  Qed.

  Lemma run_op_stored : forall p (o : object D) r o', run_op prepare p o = (r, o') ->
    ob_calibrated o' = match p, r with Calibrate _ _ _, Ok v => Some v | _, _ => ob_calibrated o end.
  Proof.
    intros p o r o' H. destruct p as [opt sched d|v|]; cbn [run_op] in H.
    - apply calibrate_op_stored in H. destruct H as (_ & _ & H). exact H.
    - unfold assign_op in H. destruct (set_parameters (ob_mod o) v) as [[u|e] m]; inversion H; reflexivity.
    - inversion H; subst. reflexivity.
  Qed.

  Lemma session_no_fit : forall l (o : object D) rs o', session prepare l o = (rs, o') -> no_fit l rs ->
    ob_calibrated o' = ob_calibrated o.
  Proof.
    induction l as [|p l IH]; intros o rs o' H N; cbn [session] in H; [inversion H; reflexivity|].
    destruct (run_op prepare p o) as [r o1] eqn:E. destruct (session prepare l o1) as [rs1 o2] eqn:E2.
    inversion H; subst. inversion N; subst. rewrite (IH _ _ _ E2) by assumption.
    rewrite (run_op_stored _ _ _ _ E). destruct p; try reflexivity.
    match goal with K : exists e, r = Err e |- _ => destruct K as (e & ->) end. reflexivity.
  Qed.

  Lemma session_app : forall l1 l2 (o : object D),
    session prepare (l1 ++ l2) o
    = (fst (session prepare l1 o) ++ fst (session prepare l2 (snd (session prepare l1 o))),
       snd (session prepare l2 (snd (session prepare l1 o)))).
  Proof.
    induction l1 as [|p l1 IH]; intros l2 o; [cbn [session app fst snd]; destruct (session prepare l2 o); reflexivity|].
    cbn [session app]. destruct (run_op prepare p o) as [r o1]. rewrite IH.
    destruct (session prepare l1 o1) as [rs1 o2]. reflexivity.
  Qed.

  Lemma session_length : forall l (o : object D), length (fst (session prepare l o)) = length l.
  Proof.
    induction l as [|p l IH]; intros o; [reflexivity|]. cbn [session].
    destruct (run_op prepare p o) as [r o1]. specialize (IH o1). destruct (session prepare l o1). cbn in *. lia.
  Qed.

  Lemma print_before_fit : forall l (o : object D) rs o', ob_calibrated o = None ->
    session prepare l o = (rs, o') -> (print_op o' = Err ValueError <-> no_fit l rs).
  Proof.
    intros l o rs o' N H. split.
    - revert o rs N H. induction l as [|p l IH]; intros o rs N H P; cbn [session] in H; [inversion H; constructor|].
      destruct (run_op prepare p o) as [r o1] eqn:E. destruct (session prepare l o1) as [rs1 o2] eqn:E2.
      inversion H; subst. clear H.
      pose proof (run_op_stored _ _ _ _ E) as S.
      assert (G : forall (l : list (op D)) o v o2 rs1, ob_calibrated o = Some v -> session prepare l o = (rs1, o2) -> ob_calibrated o2 <> None).
      { clear. induction l as [|p l IH]; intros o v o2 rs1 C H; cbn [session] in H; [inversion H; subst; congruence|].
        destruct (run_op prepare p o) as [r o1] eqn:E. destruct (session prepare l o1) as [rs2 o3] eqn:E2.
        inversion H; subst. pose proof (run_op_stored _ _ _ _ E) as S.
        destruct p as [opt sched d|w|]; [destruct r as [w|e]|..]; eapply IH; try exact E2; rewrite S; try eassumption; reflexivity. }
      assert (Z : ob_calibrated o' = None) by (unfold print_op in P; destruct (ob_calibrated o'); [discriminate|reflexivity]).
      destruct p as [opt sched d|w|].
      + destruct r as [v|e]; [exfalso; exact (G _ _ _ _ _ S E2 Z)|].
        constructor; [exists e; reflexivity|]. eapply IH; [|exact E2|exact P]. congruence.
      + constructor; [exact I|]. eapply IH; [|exact E2|exact P]. congruence.
      + constructor; [exact I|]. eapply IH; [|exact E2|exact P]. congruence.
    - intros F. unfold print_op. rewrite (session_no_fit _ _ _ _ H F), N. reflexivity.
  Qed.

  Lemma print_last_fit : forall before opt sched d after (o : object D) rs1 v rs2 o',
    session prepare (before ++ Calibrate opt sched d :: after) o = (rs1 ++ Ok v :: rs2, o') ->
    length rs1 = length before -> no_fit after rs2 -> print_op o' = Ok v.
  Proof.
    intros before opt sched d after o rs1 v rs2 o' H L N. rewrite session_app in H.
    pose proof (session_length before o) as L2. destruct (session prepare before o) as [ra oa]. cbn [fst snd] in *.
    cbn [session] in H. destruct (run_op prepare (Calibrate opt sched d) oa) as [r ob] eqn:E.
    destruct (session prepare after ob) as [rb oc] eqn:E2. cbn [fst snd] in H. inversion H as [[A B]].
    assert (A2 : ra = rs1 /\ r :: rb = Ok v :: rs2).
    { clear - A L L2. revert rs1 A L. rewrite <- L2. clear L2. induction ra as [|x ra IH]; intros [|y rs1] A L; try discriminate; [split; [reflexivity|exact A]|].
      cbn in *. inversion A; subst. destruct (IH rs1) as (-> & ->); [assumption|lia|]. split; reflexivity. }
    destruct A2 as (_ & A2). inversion A2; subst. unfold print_op. rewrite (session_no_fit _ _ _ _ E2 N).
    rewrite (run_op_stored _ _ _ _ E). reflexivity.
  Qed.

  Lemma calibrated_describes : forall m v, calibrated_params m = Ok v -> describes v m.
  Proof.
    intros m v H. apply calibrated_form in H. subst v. unfold describes. destruct m as [a b c pq net].
    cbn [mp_pq]. destruct pq as [(p, q)|]; reflexivity.
  Qed.

  Lemma fit_describes : forall opt sched d (o : object D) v o',
    calibrate_op prepare opt sched d o = (Ok v, o') -> describes v (ob_mod o').
  Proof.
    intros opt sched d o v o' H. unfold calibrate_op in H. destruct (prepare d (ob_mod o)) as [c|e]; [|discriminate].
    destruct (agg_eval _ _ _ _ _) as [[l|e] a]; [|discriminate].
    destruct (train_run _ _ _ _ _ _) as [[u|e] s]; [|discriminate].
    destruct (calibrated_params (ts_mod s)) eqn:E; inversion H; subst. apply calibrated_describes. exact E.
  Qed.

  (** Operations which raise without training, and printing, keep the module. *)
  Lemma quiet_ops : forall l (o : object D) rs o', session prepare l o = (rs, o') ->
    Forall2 (fun p r => match p with
                        | Calibrate _ _ d => exists e, forall m, prepare d m = Err e
                        | Assign _ => exists e, r = Err e
                        | Print => True end) l rs ->
    ob_mod o' = ob_mod o /\ ob_calibrated o' = ob_calibrated o.
  Proof.
    induction l as [|p l IH]; intros o rs o' H F; cbn [session] in H; [inversion H; split; reflexivity|].
    destruct (run_op prepare p o) as [r o1] eqn:E. destruct (session prepare l o1) as [rs1 o2] eqn:E2.
    inversion H; subst. inversion F as [|? ? ? ? K F']; subst. destruct (IH _ _ _ E2 F') as (-> & ->).
    destruct p as [opt sched d|w|]; cbn [run_op] in E.
    - destruct K as (e & K). unfold calibrate_op in E. rewrite K in E. inversion E; subst. split; reflexivity.
    - destruct K as (e & ->). unfold assign_op, set_parameters in E. destruct (negb _); inversion E; subst. split; reflexivity.
    - inversion E; subst. split; reflexivity.
  Qed.

  (** Assignment after a fit: the printed values stay, the model changes. *)
  Lemma assigned_last : forall l w (o : object D) rs o',
    session prepare (l ++ [Assign w]) o = (rs ++ [Ok []], o') -> get_parameters (ob_mod o') = w.
  Proof.
    intros l w o rs o' H. rewrite session_app in H. injection H as H1 H2. cbn [session run_op] in H1, H2.
    set (o1 := snd (session prepare l o)) in *. destruct (assign_op w o1) as [r o2] eqn:EA. cbn [fst snd] in H1, H2.
    apply app_inj_tail in H1. destruct H1 as [_ ->]. subst o2. unfold assign_op in EA.
    destruct (set_parameters (ob_mod o1) w) as [[u|e] m] eqn:ES; [|discriminate]. injection EA as <-. cbn [ob_mod].
    destruct (Nat.eq_dec (length w) (length (get_parameters (ob_mod o1)))) as [L|L].
    - destruct (get_set (ob_mod o1) w L) as (m' & E & G & _). rewrite E in ES. injection ES as _ <-. exact G.
    - exfalso. unfold set_parameters in ES. apply Nat.eqb_neq in L. rewrite L in ES. cbn [negb] in ES. discriminate.
  Qed.

  Lemma assign_stale : forall opt sched d (o : object D) v o1 w,
    calibrate_op prepare opt sched d o = (Ok v, o1) -> length w = length (get_parameters (ob_mod o1)) ->
    firstn 3 w <> firstn 3 (get_parameters (ob_mod o1)) ->
    exists o2, assign_op w o1 = (Ok [], o2) /\ get_parameters (ob_mod o2) = w
      /\ print_op o2 = Ok v /\ ~ describes v (ob_mod o2).
  Proof.
    intros opt sched d o v o1 w H L N. destruct (get_set (ob_mod o1) w L) as (m & E & G & S).
    pose proof (fit_describes _ _ _ _ _ _ H) as F. apply calibrate_op_stored in H. destruct H as (_ & _ & H).
    eexists. split; [unfold assign_op; rewrite E; reflexivity|]. cbn [ob_mod]. split; [exact G|].
    split; [unfold print_op; cbn [ob_calibrated]; rewrite H; reflexivity|].
    intros K. apply N. unfold describes in *. rewrite F in K.
    assert (A : forall a b x y : list R, length a = length b -> a ++ x = b ++ y -> a = b).
    { clear. induction a as [|u a IH]; intros [|u' b] x y HL HE; try discriminate; [reflexivity|].
      cbn in *. inversion HE; subst. f_equal. eapply IH; [lia|eassumption]. }
    apply A in K; [|rewrite !map_length, !firstn_length, G, L; reflexivity].
    rewrite G in K. clear - K. revert K. generalize (firstn 3 w), (firstn 3 (get_parameters (ob_mod o1))).
    induction l as [|a l IH]; intros [|b l0] K; try discriminate; [reflexivity|]. cbn in K. inversion K.
    f_equal; [apply exp_inv; congruence|]. apply IH. assumption.
  Qed.

  (** ** A calibration that raises *)

  Lemma failed_moves : forall opt sched d (o : object D) c l a v,
    prepare d (ob_mod o) = Ok c -> mp_pq (ob_mod o) = None -> (1 <= tg_nepochs c)%nat ->
    agg_eval (tg_loss c) (tg_k1 c) (tg_zref c) agg_init (tg_args0 c (ob_mod o)) = (Ok l, a) ->
    (forall s, opt 1%nat s = Finish v) -> length v = length (get_parameters (ob_mod o)) ->
    exists o', calibrate_op prepare opt sched d o = (Err AttributeError, o') /\ get_parameters (ob_mod o') = v.
  Proof.
    intros opt sched d o c l a v P Q E A O L. unfold calibrate_op. rewrite P, A.
    destruct (tg_nepochs c) as [|n]; [lia|]. cbn [train_run]. rewrite O. cbn [strategy_run ts_mod ts_loss ts_agg ts_ecount ts_lr ts_seen].
    assert (Q2 : mp_pq (vector_to_parameters (ob_mod o) v) = None) by (apply vtp_pq; exact Q).
    rewrite Q2. eexists. split; [reflexivity|]. cbn [ob_mod ts_mod]. apply vtp_set. exact L.
  Qed.

  Lemma same_arch_refl : forall m, same_architecture m m.
  Proof.
    intros m. split; [reflexivity|]. destruct (mp_net m) as [(Ws, nu)|]; [split; reflexivity|exact I].
  Qed.

  Lemma same_arch_trans : forall a b c, same_architecture a b -> same_architecture b c -> same_architecture a c.
  Proof.
    intros a b c (P & Q) (P' & Q'). split; [rewrite P; exact P'|].
    destruct (mp_net a) as [(Wa, na)|], (mp_net b) as [(Wb, nb)|], (mp_net c) as [(Wc, nc)|]; try tauto.
    destruct Q as (Q1 & Q2), Q' as (Q3 & Q4). split; [congruence|]. rewrite Q2. exact Q4.
  Qed.

  Definition fits (n : nat) (m0 m : module_params) : Prop := same_architecture m0 m /\ length (get_parameters m) = n.

  Lemma fits_vtp : forall n m0 m v, fits n m0 m -> length v = n -> fits n m0 (vector_to_parameters m v).
  Proof.
    intros n m0 m v (S & L) V. destruct (vtp_set m v) as (G & S2); [congruence|].
    split; [exact (same_arch_trans _ _ _ S S2)|]. rewrite G. exact V.
  Qed.

  Lemma strategy_run_fits : forall n m0 c t s r s', keeps_length n t -> fits n m0 (ts_mod s) ->
    strategy_run c t s = (r, s') -> fits n m0 (ts_mod s').
  Proof.
    intros n m0 c t. induction t as [v|v k IH]; intros s r s' K F H.
    - cbn [strategy_run] in H. inversion H; subst. cbn [ts_mod]. apply fits_vtp; [exact F|exact K].
    - cbn [strategy_run] in H. destruct K as (K & K2). unfold closure_run in H.
      destruct (agg_eval _ _ _ _ _) as [[l|e] a].
      + eapply IH; [apply K2| |exact H]. cbn [ts_mod]. apply fits_vtp; first [assumption | reflexivity].
      + inversion H; subst. cbn [ts_mod]. apply fits_vtp; first [assumption | reflexivity].
  Qed.

  Lemma train_run_fits : forall n m0 c opt sched left epoch s r s',
    (forall e s, keeps_length n (opt e s)) -> fits n m0 (ts_mod s) ->
    train_run c opt sched epoch left s = (r, s') -> fits n m0 (ts_mod s').
  Proof.
    intros n m0 c opt sched left. induction left as [|k IH]; intros epoch s r s' K F H;
      [inversion H; subst; exact F|]. cbn [train_run] in H.
    destruct (strategy_run c (opt epoch s) s) as [[u|e] s0] eqn:E;
      pose proof (strategy_run_fits _ _ _ _ _ _ _ (K epoch s) F E) as F0; [|inversion H; subst; exact F0].
    cbv zeta in H. cbn [ts_mod ts_loss] in H.
    destruct (mp_pq (ts_mod s0)); [|inversion H; subst; exact F0].
    destruct (negb (xfinite (ts_loss s0))); [inversion H; subst; exact F0|].
    destruct (xltb (ts_loss s0) (Fin (tg_tol c))); [inversion H; subst; exact F0|].
    unfold lr_check in H. destruct (epoch mod 50 =? 0)%nat.
    - destruct (should_adjust _ _ _) as [x|e]; cbn [bind] in H; [|inversion H; subst; exact F0].
      eapply IH; [exact K| |exact H]. exact F0.
    - eapply IH; [exact K| |exact H]. exact F0.
  Qed.

  Lemma failed_keeps : forall opt sched d (o : object D) e o',
    calibrate_op prepare opt sched d o = (Err e, o') ->
    (forall n s, keeps_length (length (get_parameters (ob_mod o))) (opt n s)) ->
    ob_type o' = ob_type o /\ print_op o' = print_op o /\ ob_data o' = Some d
    /\ same_architecture (ob_mod o) (ob_mod o')
    /\ length (get_parameters (ob_mod o')) = length (get_parameters (ob_mod o)).
  Proof.
    intros opt sched d o e o' H K. pose proof (calibrate_op_stored _ _ _ _ _ _ H) as (T & Dd & C).
    split; [exact T|]. split; [unfold print_op; rewrite C; reflexivity|]. split; [exact Dd|].
    assert (G : fits (length (get_parameters (ob_mod o))) (ob_mod o) (ob_mod o')); [|exact G].
    assert (F : fits (length (get_parameters (ob_mod o))) (ob_mod o) (ob_mod o)) by (split; [apply same_arch_refl|reflexivity]).
    unfold calibrate_op in H. destruct (prepare d (ob_mod o)) as [c|e0]; [|inversion H; subst; exact F].
    destruct (agg_eval _ _ _ _ _) as [[l|e0] a]; [|inversion H; subst; exact F].
    destruct (train_run _ _ _ _ _ _) as [[u|e0] s] eqn:E;
      (eapply train_run_fits in E; [|exact K|exact F]); [|inversion H; subst; exact E].
    destruct (calibrated_params (ts_mod s)); inversion H; subst. exact E.
  Qed.

End Sessions.

(** ** Norm of the network parameters *)

Lemma network_block : forall m, network_vector m = skipn (physical_count m) (get_parameters m).
Proof.
  intros [a b c pq net]. unfold network_vector, physical_count, get_parameters, tensors. cbn [mp_pq mp_net mp_logL mp_logT mp_logM].
  destruct pq as [(p, q)|]; cbn [app concat skipn]; (destruct net as [(Ws, [nu|])|];
    [rewrite concat_app; reflexivity|rewrite !app_nil_r; reflexivity|reflexivity]).
Qed.

Lemma sum_squares_zero : forall l, Rsum (map (fun v => v^2) l) = 0 <-> List.Forall (fun v => v = 0) l.
Proof.
  assert (N : forall l, 0 <= Rsum (map (fun v => v^2) l)).
  { induction l as [|a l IH]; cbn [map Rsum fold_right]; [unfold Rsum; cbn; lra|].
    change (0 <= a^2 + Rsum (map (fun v => v^2) l)). pose proof (pow2_ge_0 a). lra. }
  induction l as [|a l IH].
  - split; [constructor|]. intros _. reflexivity.
  - change (Rsum (map (fun v => v^2) (a :: l))) with (a^2 + Rsum (map (fun v => v^2) l)).
    specialize (N l). pose proof (pow2_ge_0 a). split; intros H0.
    + constructor; [|apply IH; lra]. assert (Z : a^2 = 0) by lra. nra.
    + inversion H0; subst. rewrite (proj2 IH) by assumption. ring.
Qed.

Lemma sum_squares_nonneg : forall l, 0 <= Rsum (map (fun v => v^2) l).
Proof.
  induction l as [|a l IH]; [unfold Rsum; cbn; lra|].
  change (0 <= a^2 + Rsum (map (fun v => v^2) l)). pose proof (pow2_ge_0 a). lra.
Qed.

Lemma norm_value : forall D (o : object D), ob_type o = TAUNET ->
  exists x, norm_op o = Ok x
    /\ x = sqrt (Rsum (map (fun v => v^2) (skipn (physical_count (ob_mod o)) (get_parameters (ob_mod o)))))
    /\ 0 <= x
    /\ (x = 0 <-> List.Forall (fun v => v = 0) (skipn (physical_count (ob_mod o)) (get_parameters (ob_mod o))))
    /\ count_op o = Ok (length (get_parameters (ob_mod o)) - physical_count (ob_mod o))%nat.
Proof.
  intros D o T. eexists. unfold norm_op, count_op. rewrite T. split; [reflexivity|]. rewrite network_block.
  split; [reflexivity|]. split; [apply sqrt_pos|]. split; [|rewrite skipn_length; reflexivity].
  rewrite <- sum_squares_zero. split; [|intros ->; apply sqrt_0].
  apply sqrt_eq_0. apply sum_squares_nonneg.
Qed.

Lemma norm_needs_network : forall D (o : object D), ob_type o <> TAUNET ->
  norm_op o = Err ValueError /\ count_op o = Err ValueError.
Proof. intros D o T. unfold norm_op, count_op. destruct (ob_type o); try (split; reflexivity). congruence. Qed.

(** Scaling. *)
Lemma norm_scale : forall (k : R) l, sqrt (Rsum (map (fun v => v^2) (map (fun v => k * v) l))) = Rabs k * sqrt (Rsum (map (fun v => v^2) l)).
Proof.
  intros k l. assert (E : Rsum (map (fun v => v^2) (map (fun v => k * v) l)) = k^2 * Rsum (map (fun v => v^2) l)).
  { induction l as [|a l IH]; [unfold Rsum; cbn; ring|].
    change (Rsum (map (fun v => v^2) (map (fun v => k * v) (a :: l)))) with ((k * a)^2 + Rsum (map (fun v => v^2) (map (fun v => k * v) l))).
    change (Rsum (map (fun v => v^2) (a :: l))) with (a^2 + Rsum (map (fun v => v^2) l)). rewrite IH. ring. }
  rewrite E, sqrt_mult_alt by apply pow2_ge_0. rewrite <- Rsqr_pow2, sqrt_Rsqr_abs. reflexivity.
Qed.
