(** The statements of C166 to C169, put together from DevProofs. *)

From Coq Require Import Reals List Arith Bool Lia Lra.
From Verif Require Import Prelude DevModel DevSpec DevProofs.
Import ListNotations.
Open Scope R_scope.

Lemma double_usable : forall w d c rnd w1 q1 l w2 q2 n s,
  construct w d c rnd = Ok (w1, q1) -> acts (w1, q1) l = (w2, q2) -> only_calibrated l ->
  built_precision w d = F64 -> c_net c = Some (n :: s) ->
  exists f, save_model q2 = Ok f /\
    forall v rnd2, (p_gpu v = true \/ on_processor f) ->
    exists v' q', drd_generator v f rnd2 = Ok (v', q') /\ get_parameters q' = get_parameters q2.
Proof.
  intros w d c rnd w1 q1 l w2 q2 n s H1 H2 Ho Hb Hn.
  destruct (saved_precision _ _ _ _ _ _ _ _ _ H1 H2) as (f & Hf & _).
  exists f. split; [exact Hf|]. intros v rnd2 Hv.
  assert (U : exists r, drd_generator v f rnd2 = Ok r).
  { apply (usable _ _ _ _ _ _ _ _ _ _ _ _ _ _ H1 H2 Hf Hn). split; [|exact Hv].
    rewrite last_only by exact Ho. exact Hb. }
  destruct U as [[v' q'] U]. exists v', q'. split; [exact U|].
  exact (generator_values _ _ _ _ _ _ _ _ _ _ _ _ _ _ H1 H2 Hf U).
Qed.

Lemma gpu_single : forall w, p_gpu w = true -> built_precision w N_cuda = F32.
Proof. intros w H. unfold built_precision. rewrite H. reflexivity. Qed.

Lemma cuda_unusable : forall w c rnd w1 q1 l w2 q2 n s,
  p_gpu w = true -> construct w N_cuda c rnd = Ok (w1, q1) -> acts (w1, q1) l = (w2, q2) ->
  only_calibrated l -> c_net c = Some (n :: s) ->
  exists f, save_model q2 = Ok f /\ forall v rnd2, drd_generator v f rnd2 = Err RuntimeError.
Proof.
  intros w c rnd w1 q1 l w2 q2 n s G H1 H2 Ho Hn.
  exact (single_unusable _ _ _ _ _ _ _ _ _ _ _ H1 H2 Ho (gpu_single w G) Hn).
Qed.

Lemma other_precision : forall w d c rnd w1 q1 l w2 q2 k1 opt n s,
  construct w d c rnd = Ok (w1, q1) -> acts (w1, q1) l = (w2, q2) -> c_net c = Some (n :: s) ->
  t_dt k1 <> built_precision w d -> calibrate k1 opt q2 = Err RuntimeError.
Proof. intros. eapply calibrate_precision; eauto. Qed.

Lemma reloaded : forall w d c rnd w1 q1 v w2 q2 n s,
  construct w d c rnd = Ok (w1, q1) -> c_net c = Some (n :: s) ->
  length (vector_val v) = count c -> vector_dt v <> built_precision w d ->
  acts (w1, q1) [SetParameters v] = (w2, q2) ->
  forall k1 opt, calibrate k1 opt q2 = Err RuntimeError.
Proof.
  intros w d c rnd w1 q1 v w2 q2 n s H1 Hn Hl Hd H2 k1 opt.
  eapply calibrate_precision; eauto. right. cbn [last_precision].
  rewrite Hl, Nat.eqb_refl. exact Hd.
Qed.

Lemma defaults_changed : exists w c rnd w' q,
  construct w N_cuda c rnd = Ok (w', q) /\ p_dt w = F64 /\ p_dt w' = F32 /\
  p_dev w = CPU /\ p_dev w' = CUDA.
Proof.
  destruct (demo_construct (Process true F64 CPU) N_cuda CPU) as (w' & q & C); [discriminate|].
  exists (Process true F64 CPU), (demo CPU), (fun _ => 0), w', q.
  split; [exact C|]. destruct (construct_inv _ _ _ _ _ _ C) as (Hi & _).
  simpl in Hi. injection Hi as <-. auto.
Qed.

Lemma lives_one : forall e e' q c d x, inv c d x q -> lives_on e q -> lives_on e' q -> e = e'.
Proof.
  intros e e' q c d x I H1 H2. destruct (own_nonempty _ _ _ _ I) as (t & l & E).
  unfold lives_on, ops_parameters in *. rewrite E in H1, H2. simpl in H1, H2.
  inversion H1; subst. inversion H2; subst. congruence.
Qed.

Lemma requested_there : forall w d c rnd w' q e, construct w d c rnd = Ok (w', q) ->
  requested d = Some e -> (lives_on e q <-> (built_device w d = e)).
Proof.
  intros w d c rnd w' q e H R. pose proof (built_there _ _ _ _ _ _ H) as B.
  destruct (construct_inv _ _ _ _ _ _ H) as (_ & _ & I & _). split.
  - intros L. exact (lives_one _ _ _ _ _ _ I B L).
  - intros <-. exact B.
Qed.

Lemma cuda_there : forall w c rnd w' q, p_gpu w = true ->
  construct w N_cuda c rnd = Ok (w', q) -> lives_on CUDA q.
Proof.
  intros w c rnd w' q G H. pose proof (built_there _ _ _ _ _ _ H) as B.
  unfold built_device in B. rewrite G in B. exact B.
Qed.

Lemma cpu_there : forall w d c rnd w' q, d <> N_cuda ->
  construct w d c rnd = Ok (w', q) -> lives_on (p_dev w) q.
Proof.
  intros w d c rnd w' q D H. pose proof (built_there _ _ _ _ _ _ H) as B.
  unfold built_device in B. destruct d; try exact B. contradiction.
Qed.

(** A machine with a GPU, a problem on it, then one on the processor: the second one is on the
    GPU as well. *)
Lemma cpu_after_cuda : exists w c rnd w1 q1 w2 q2,
  p_dev w = CPU /\ construct w N_cuda c rnd = Ok (w1, q1) /\
  construct w1 N_cpu c rnd = Ok (w2, q2) /\ lives_on CUDA q2 /\ ~ lives_on CPU q2.
Proof.
  destruct (demo_construct (Process true F64 CPU) N_cuda CPU) as (w1 & q1 & C1); [discriminate|].
  destruct (demo_construct w1 N_cpu CPU) as (w2 & q2 & C2); [discriminate|].
  destruct (construct_inv _ _ _ _ _ _ C1) as (Hi & _). simpl in Hi.
  exists (Process true F64 CPU), (demo CPU), (fun _ => 0), w1, q1, w2, q2.
  split; [reflexivity|]. split; [exact C1|]. split; [exact C2|].
  assert (L : lives_on CUDA q2).
  { assert (D : N_cpu <> N_cuda) by discriminate.
    pose proof (cpu_there _ _ _ _ _ _ D C2) as L. injection Hi as <-. exact L. }
  split; [exact L|]. intros L2.
  destruct (construct_inv _ _ _ _ _ _ C2) as (_ & _ & I & _).
  discriminate (lives_one _ _ _ _ _ _ I L L2).
Qed.

(** Without a GPU the device "cuda" is accepted and the problem is on the processor. *)
Lemma cuda_ignored : forall w c rnd w' q, p_gpu w = false -> p_dev w = CPU ->
  construct w N_cuda c rnd = Ok (w', q) -> ~ lives_on CUDA q.
Proof.
  intros w c rnd w' q G D H L. pose proof (built_there _ _ _ _ _ _ H) as B.
  unfold built_device in B. rewrite G, D in B.
  destruct (construct_inv _ _ _ _ _ _ H) as (_ & _ & I & _).
  discriminate (lives_one _ _ _ _ _ _ I B L).
Qed.

Lemma demo_history : forall w d, d <> N_other -> exists w1 q1 w2 q2,
  construct w d (demo CPU) (fun _ => 0) = Ok (w1, q1) /\
  acts (w1, q1) [Calibrate (Tensor (built_precision w d) (built_device w d) [1; 2]) (fun _ v => v);
                 SetDefault F32] = (w2, q2) /\
  calibrate (Tensor (built_precision w d) (built_device w d) [1; 2]) (fun _ v => v) q1 = Ok q2.
Proof.
  intros w d H. destruct (demo_construct w d CPU H) as (w1 & q1 & C).
  assert (K : exists q', calibrate (Tensor (built_precision w d) (built_device w d) [1; 2]) (fun _ v => v) q1 = Ok q').
  { apply (calibrate_fits _ _ _ _ _ _ [] _ _ _ _ C eq_refl); [constructor|discriminate|split; reflexivity]. }
  destruct K as [q' K]. exists w1, q1. unfold acts. cbn [fold_left act]. rewrite K.
  eexists _, q'. split; [exact C|]. split; reflexivity.
Qed.

Lemma act_process : forall w q a, p_gpu w = true ->
  p_gpu (fst (act (w, q) a)) = true /\
  (p_dev w = CUDA \/ (exists c rnd, a = Build N_cuda c rnd) -> p_dev (fst (act (w, q) a)) = CUDA).
Proof.
  intros w q a G. destruct a as [d|n c rnd|v|k1 opt]; cbn [act].
  - simpl. split; [exact G|]. intros [H|(c & rnd & H)]; [exact H|discriminate].
  - destruct n; cbn [init_device]; rewrite ?G; simpl; (split; [auto|]); auto;
      intros [H|(c' & rnd' & H)]; try exact H; discriminate.
  - destruct (set_parameters w v q); simpl; (split; [exact G|]);
      intros [H|(c & rnd & H)]; try exact H; discriminate.
  - destruct (calibrate k1 opt q); simpl; (split; [exact G|]);
      intros [H|(c & rnd & H)]; try exact H; discriminate.
Qed.

Lemma lasting : forall l w q c rnd, p_gpu w = true -> In (Build N_cuda c rnd) l ->
  p_dev (fst (acts (w, q) l)) = CUDA.
Proof.
  assert (K : forall l w q, p_gpu w = true -> p_dev w = CUDA -> p_dev (fst (acts (w, q) l)) = CUDA).
  { induction l as [|a l IH]; intros w q G D; [exact D|].
    unfold acts. cbn [fold_left]. destruct (act_process w q a G) as [G1 D1].
    destruct (act (w, q) a) as [w1 q1]. apply IH; [exact G1|]. apply D1. left. exact D. }
  induction l as [|a l IH]; intros w q c rnd G H; [contradiction|].
  unfold acts. cbn [fold_left]. destruct (act_process w q a G) as [G1 D1].
  destruct (act (w, q) a) as [w1 q1]. simpl in G1, D1. destruct H as [->|H].
  - apply K; [exact G1|]. apply D1. right. eauto.
  - exact (IH w1 q1 c rnd G1 H).
Qed.

(** Every later problem for the processor is on the GPU. *)
Lemma lasting_refuted : forall l w q c rnd c2 rnd2 w2 q2, p_gpu w = true -> In (Build N_cuda c rnd) l ->
  construct (fst (acts (w, q) l)) N_cpu c2 rnd2 = Ok (w2, q2) -> lives_on CUDA q2.
Proof.
  intros l w q c rnd c2 rnd2 w2 q2 G H C.
  assert (D : N_cpu <> N_cuda) by discriminate.
  pose proof (cpu_there _ _ _ _ _ _ D C) as L. rewrite (lasting l w q c rnd G H) in L. exact L.
Qed.
