(** Constructors of the covariance kernels, and their evaluation function (C163). *)

From Coq Require Import String Reals List Bool Lra.
From Verif Require Import Prelude CovModel CovProofs.
Import ListNotations.
Open Scope string_scope.
Open Scope R_scope.

(** C163: the kernels keep the scales they are built with, whatever further keywords are given. *)
Theorem C163_stored : forall F (L E G : R) (rest : kwds F) ops h,
  (exists c, von_karman_init (("ndim", CNum 3) :: ("length_scale", CNum L) :: ("E0", CNum E) :: rest) = Ok c
     /\ cv_ndim c = 3 /\ cv_L c = CNum L /\ cv_E0 c = CNum E /\ cv_Gamma c = None)
  /\ (exists c, mann_init (("ndim", CNum 3) :: ("length_scale", CNum L) :: ("E0", CNum E) :: ("Gamma", CNum G) :: rest) = Ok c
     /\ cv_ndim c = 3 /\ cv_L c = CNum L /\ cv_E0 c = CNum E /\ cv_Gamma c = Some (CNum G))
  /\ (exists c, nn_init [("ndim", CNum 3); ("length_scale", CNum L); ("E0", CNum E); ("Gamma", CNum G); ("ops", ops); ("h_ref", h)] = Ok (c : cov F)
     /\ cv_ndim c = 3 /\ cv_L c = CNum L /\ cv_E0 c = CNum E /\ cv_Gamma c = Some (CNum G))
  /\ (exists c, mann_init ([] : kwds F) = Ok c /\ cv_ndim c = 3 /\ cv_L c = CNum 1 /\ cv_E0 c = CNum 1 /\ cv_Gamma c = Some (CNum 1)).
Proof. exact stored. Qed.
Print Assumptions C163_stored.

(** C163: no kernel is built for a number of dimensions other than three. *)
Theorem C163_rejected : forall F (kw : kwds F) (d : cov_val F), kw_get "ndim" kw = Some d -> d <> CNum 3 ->
  (forall c, von_karman_init kw <> Ok c) /\ mann_init kw = Err ValueError /\ (forall c, nn_init kw <> Ok c)
  /\ (kw_get "length_scale" kw <> None -> kw_get "E0" kw <> None -> von_karman_init kw = Err ValueError).
Proof. exact rejected. Qed.
Print Assumptions C163_rejected.

(** C163: a function given as `func` is called once per evaluation, and its exceptions reach the
    caller.  Missing: its value never does. *)
Theorem C163_called_partial : forall F A V S (call : F -> A -> S -> res V * S) (f : F) kw c a s,
  kw_get "func" kw = Some (CFun f) -> (von_karman_init kw = Ok c \/ mann_init kw = Ok c) ->
  snd (cov_eval call c a s) = snd (call f a s)
  /\ (forall e, fst (cov_eval call c a s) = Err e <-> fst (call f a s) = Err e)
  /\ forall v, fst (cov_eval call c a s) <> Ok (Some v).
Proof. exact eval_called. Qed.
Print Assumptions C163_called_partial.

(** C163 fails: a function given under the documented name is ignored and evaluation raises. *)
Theorem C163_documented_name_refuted : forall F A V S (call : F -> A -> S -> res V * S) (f : F) L E,
  exists c, von_karman_init [("ndim", CNum 3); ("length_scale", CNum L); ("E0", CNum E); ("eval_func", CFun f)] = Ok c
  /\ forall a s, cov_eval call c a s = (Err TypeError, s).
Proof. exact eval_documented. Qed.
Print Assumptions C163_documented_name_refuted.

(** C163: without a function evaluation raises; the learned kernel accepts none. *)
Theorem C163_missing : forall F A V S (call : F -> A -> S -> res V * S) kw c a s,
  kw_get "func" kw = None -> (von_karman_init kw = Ok c \/ mann_init kw = Ok c) -> cov_eval call c a s = (Err TypeError, s).
Proof. exact eval_missing. Qed.
Print Assumptions C163_missing.

Theorem C163_learned_kernel : forall F (kw : kwds F) v, kw_get "func" kw = Some v -> nn_init kw = Err TypeError.
Proof. exact nn_no_function. Qed.
Print Assumptions C163_learned_kernel.

(** A function which counts its calls and returns its argument. *)
Example C163_case : exists c, mann_init [("func", CFun tt); ("ndim", CNum 3)] = Ok c
  /\ cov_eval (fun _ a n => (Ok a, S n)) c true 4%nat = (Ok (None : option bool), 5%nat).
Proof. unfold mann_init, optional. cbn. rewrite Reqb_refl3. eexists. split; reflexivity. Qed.

Example C163_rejected_case : mann_init [("ndim", @CNum unit 2)] = Err ValueError.
Proof. apply (C163_rejected unit [("ndim", CNum 2)] (CNum 2) eq_refl). intros H. injection H. lra. Qed.
