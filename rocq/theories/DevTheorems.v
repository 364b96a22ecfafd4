(** Theorems C166 to C169: saved models on other machines, precisions, devices. *)

From Coq Require Import Reals List Arith Bool Lia Lra.
From Verif Require Import Prelude DevModel DevSpec DevProofs DevFinal.
Import ListNotations.
Open Scope R_scope.

(** Missing from the full statement: files with tensors of a GPU, read on a machine without one
    (see C166_refuted). *)
Theorem C166_processor_partial : forall w f, on_processor f -> load_parameters w f = Ok f.
Proof. exact load_processor. Qed.
Print Assumptions C166_processor_partial.

(** Missing: machines without a GPU (see C166_refuted). *)
Theorem C166_gpu_partial : forall w f, p_gpu w = true ->
  exists g, load_parameters w f = Ok g /\ same_content f g /\ on_processor g.
Proof. exact load_gpu. Qed.
Print Assumptions C166_gpu_partial.

Theorem C166_fails : forall w f e,
  load_parameters w f = Err e <-> e = RuntimeError /\ p_gpu w = false /\ ~ on_processor f.
Proof. exact load_fails. Qed.
Print Assumptions C166_fails.

Theorem C166_refuted : exists w c rnd w1 q1 f,
  p_gpu w = true /\ construct w N_cuda c rnd = Ok (w1, q1) /\ save_model q1 = Ok f /\
  forall v rnd2, p_gpu v = false ->
    load_parameters v f = Err RuntimeError /\ drd_generator v f rnd2 = Err RuntimeError.
Proof. exact load_refuted. Qed.
Print Assumptions C166_refuted.

(** A file with a domain on the processor, and one with a domain on the GPU. *)
Example C166_case :
  on_processor (Saved (demo CPU) (Array F64 [1])) /\ ~ on_processor (Saved (demo CUDA) (Array F64 [1])).
Proof.
  unfold on_processor. simpl. split.
  - constructor; [reflexivity|constructor].
  - intros H. inversion H as [|? ? H1 _]; subst. discriminate.
Qed.

Theorem C167_precision : forall w d c rnd w1 q1 l w2 q2,
  construct w d c rnd = Ok (w1, q1) -> acts (w1, q1) l = (w2, q2) ->
  exists f, save_model q2 = Ok f /\ s_cfg f = c /\
    a_dt (s_vec f) = last_precision (count c) (built_precision w d) l /\
    length (a_val (s_vec f)) = count c.
Proof. exact saved_precision. Qed.
Print Assumptions C167_precision.

Theorem C167_usable : forall w d c rnd w1 q1 l w2 q2 f n s v rnd2,
  construct w d c rnd = Ok (w1, q1) -> acts (w1, q1) l = (w2, q2) ->
  save_model q2 = Ok f -> c_net c = Some (n :: s) ->
  (exists r, drd_generator v f rnd2 = Ok r) <->
  (last_precision (count c) (built_precision w d) l = F64 /\ (p_gpu v = true \/ on_processor f)).
Proof. exact usable. Qed.
Print Assumptions C167_usable.

(** Missing from the full statement: models in single precision (see C167_single_refuted). *)
Theorem C167_double_partial : forall w d c rnd w1 q1 l w2 q2 n s,
  construct w d c rnd = Ok (w1, q1) -> acts (w1, q1) l = (w2, q2) -> only_calibrated l ->
  built_precision w d = F64 -> c_net c = Some (n :: s) ->
  exists f, save_model q2 = Ok f /\
    forall v rnd2, (p_gpu v = true \/ on_processor f) ->
    exists v' q', drd_generator v f rnd2 = Ok (v', q') /\ get_parameters q' = get_parameters q2.
Proof. exact double_usable. Qed.
Print Assumptions C167_double_partial.

Theorem C167_values : forall w d c rnd w1 q1 l w2 q2 f v rnd2 v' q',
  construct w d c rnd = Ok (w1, q1) -> acts (w1, q1) l = (w2, q2) -> save_model q2 = Ok f ->
  drd_generator v f rnd2 = Ok (v', q') -> get_parameters q' = get_parameters q2.
Proof. exact generator_values. Qed.
Print Assumptions C167_values.

Theorem C167_single_refuted : forall w d c rnd w1 q1 l w2 q2 n s,
  construct w d c rnd = Ok (w1, q1) -> acts (w1, q1) l = (w2, q2) -> only_calibrated l ->
  built_precision w d = F32 -> c_net c = Some (n :: s) ->
  exists f, save_model q2 = Ok f /\ forall v rnd2, drd_generator v f rnd2 = Err RuntimeError.
Proof. exact single_unusable. Qed.
Print Assumptions C167_single_refuted.

Theorem C167_cuda_refuted : forall w c rnd w1 q1 l w2 q2 n s,
  p_gpu w = true -> construct w N_cuda c rnd = Ok (w1, q1) -> acts (w1, q1) l = (w2, q2) ->
  only_calibrated l -> c_net c = Some (n :: s) ->
  exists f, save_model q2 = Ok f /\ forall v rnd2, drd_generator v f rnd2 = Err RuntimeError.
Proof. exact cuda_unusable. Qed.
Print Assumptions C167_cuda_refuted.

(** A network fitted once, in either precision and also on a GPU: the hypotheses hold. *)
Example C167_case : forall w d, d <> N_other -> exists w1 q1 w2 q2,
  construct w d (demo CPU) (fun _ => 0) = Ok (w1, q1) /\
  acts (w1, q1) [Calibrate (Tensor (built_precision w d) (built_device w d) [1; 2]) (fun _ v => v);
                 SetDefault F32] = (w2, q2) /\
  calibrate (Tensor (built_precision w d) (built_device w d) [1; 2]) (fun _ v => v) q1 = Ok q2.
Proof. exact demo_history. Qed.

(** Missing from the full statement: data in another precision than the default one, or on
    another device (see C168_refuted). *)
Theorem C168_fits_partial : forall w d c rnd w1 q1 l w2 q2 k1 opt,
  construct w d c rnd = Ok (w1, q1) -> acts (w1, q1) l = (w2, q2) -> only_calibrated l ->
  c_net c <> Some [] ->
  ((exists q', calibrate k1 opt q2 = Ok q') <->
   t_dt k1 = built_precision w d /\ t_dev k1 = built_device w d).
Proof. exact calibrate_fits. Qed.
Print Assumptions C168_fits_partial.

Theorem C168_refuted : forall w d c rnd w1 q1 l w2 q2 k1 opt n s,
  construct w d c rnd = Ok (w1, q1) -> acts (w1, q1) l = (w2, q2) -> c_net c = Some (n :: s) ->
  t_dt k1 <> built_precision w d -> calibrate k1 opt q2 = Err RuntimeError.
Proof. exact other_precision. Qed.
Print Assumptions C168_refuted.

Theorem C168_reloaded_refuted : forall w d c rnd w1 q1 v w2 q2 n s,
  construct w d c rnd = Ok (w1, q1) -> c_net c = Some (n :: s) ->
  length (vector_val v) = count c -> vector_dt v <> built_precision w d ->
  acts (w1, q1) [SetParameters v] = (w2, q2) ->
  forall k1 opt, calibrate k1 opt q2 = Err RuntimeError.
Proof. exact reloaded. Qed.
Print Assumptions C168_reloaded_refuted.

(** A vector of the right length in the other precision. *)
Example C168_case : forall e,
  length (vector_val (VArray (Array F64 (repeat 0 17)))) = count (demo e) /\
  vector_dt (VArray (Array F64 (repeat 0 17))) <> built_precision (Process false F32 CPU) N_cpu.
Proof. intros e. split; [reflexivity|discriminate]. Qed.

(** Missing from the full statement: "cuda" on a machine with a GPU (see C169_defaults_refuted). *)
Theorem C169_defaults_partial : forall w d c rnd w' q, construct w d c rnd = Ok (w', q) ->
  (d <> N_cuda \/ p_gpu w = false) -> w' = w.
Proof. exact defaults_kept. Qed.
Print Assumptions C169_defaults_partial.

Theorem C169_defaults_refuted : exists w c rnd w' q,
  construct w N_cuda c rnd = Ok (w', q) /\ p_dt w = F64 /\ p_dt w' = F32 /\
  p_dev w = CPU /\ p_dev w' = CUDA.
Proof. exact defaults_changed. Qed.
Print Assumptions C169_defaults_refuted.

(** Missing: processes in which the GPU has become the default (see C169_cpu_refuted). *)
Theorem C169_cuda_partial : forall w c rnd w' q, p_gpu w = true ->
  construct w N_cuda c rnd = Ok (w', q) -> lives_on CUDA q.
Proof. exact cuda_there. Qed.
Print Assumptions C169_cuda_partial.

Theorem C169_cpu_refuted : exists w c rnd w1 q1 w2 q2,
  p_dev w = CPU /\ construct w N_cuda c rnd = Ok (w1, q1) /\
  construct w1 N_cpu c rnd = Ok (w2, q2) /\ lives_on CUDA q2 /\ ~ lives_on CPU q2.
Proof. exact cpu_after_cuda. Qed.
Print Assumptions C169_cpu_refuted.

Theorem C169_others_partial : forall w d c rnd w' q, d <> N_cuda ->
  construct w d c rnd = Ok (w', q) -> lives_on (p_dev w) q.
Proof. exact cpu_there. Qed.
Print Assumptions C169_others_partial.

Theorem C169_unavailable_refuted : forall w c rnd w' q, p_gpu w = false -> p_dev w = CPU ->
  construct w N_cuda c rnd = Ok (w', q) -> ~ lives_on CUDA q.
Proof. exact cuda_ignored. Qed.
Print Assumptions C169_unavailable_refuted.

Theorem C169_later_refuted : forall l w q c rnd c2 rnd2 w2 q2,
  p_gpu w = true -> In (Build N_cuda c rnd) l ->
  construct (fst (acts (w, q) l)) N_cpu c2 rnd2 = Ok (w2, q2) -> lives_on CUDA q2.
Proof. exact lasting_refuted. Qed.
Print Assumptions C169_later_refuted.

(** Problems are built for every documented device, on every machine. *)
Example C169_case : forall w d e, d <> N_other ->
  exists w' q, construct w d (demo e) (fun _ => 0) = Ok (w', q).
Proof. exact demo_construct. Qed.
