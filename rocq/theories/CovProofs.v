(** Constructors of the covariance kernels, and their evaluation function. *)

From Coq Require Import String Reals List Bool Lra.
From Verif Require Import Prelude CovModel.
Import ListNotations.
Open Scope string_scope.
Open Scope R_scope.

Lemma Reqb_refl3 : Reqb 3 3 = true.
Proof. unfold Reqb. destruct (Req_EM_T 3 3); [reflexivity|contradiction]. Qed.

Lemma stored : forall F (L E G : R) (rest : kwds F) ops h,
  (exists c, von_karman_init (("ndim", CNum 3) :: ("length_scale", CNum L) :: ("E0", CNum E) :: rest) = Ok c
     /\ cv_ndim c = 3 /\ cv_L c = CNum L /\ cv_E0 c = CNum E /\ cv_Gamma c = None)
  /\ (exists c, mann_init (("ndim", CNum 3) :: ("length_scale", CNum L) :: ("E0", CNum E) :: ("Gamma", CNum G) :: rest) = Ok c
     /\ cv_ndim c = 3 /\ cv_L c = CNum L /\ cv_E0 c = CNum E /\ cv_Gamma c = Some (CNum G))
  /\ (exists c, nn_init [("ndim", CNum 3); ("length_scale", CNum L); ("E0", CNum E); ("Gamma", CNum G); ("ops", ops); ("h_ref", h)] = Ok (c : cov F)
     /\ cv_ndim c = 3 /\ cv_L c = CNum L /\ cv_E0 c = CNum E /\ cv_Gamma c = Some (CNum G))
  /\ (exists c, mann_init ([] : kwds F) = Ok c /\ cv_ndim c = 3 /\ cv_L c = CNum 1 /\ cv_E0 c = CNum 1 /\ cv_Gamma c = Some (CNum 1)).
Proof.
  intros F L E G rest ops h.
  unfold von_karman_init, mann_init, nn_init, required, optional. cbn. rewrite Reqb_refl3. repeat split; eexists; (split; [reflexivity|repeat split]).
Qed.

Lemma rejected : forall F (kw : kwds F) (d : cov_val F), kw_get "ndim" kw = Some d -> d <> CNum 3 ->
  (forall c, von_karman_init kw <> Ok c) /\ mann_init kw = Err ValueError /\ (forall c, nn_init kw <> Ok c)
  /\ (kw_get "length_scale" kw <> None -> kw_get "E0" kw <> None -> von_karman_init kw = Err ValueError).
Proof.
  intros F kw d Hd Hn. assert (T : is_three d = false).
  { destruct d as [r|f|]; [|reflexivity|reflexivity]. cbn. unfold Reqb. destruct (Req_EM_T r 3) as [->|]; [contradiction Hn; reflexivity|reflexivity]. }
  unfold von_karman_init, mann_init, nn_init, required, optional. rewrite Hd. cbn [bind].
  destruct (kw_get "length_scale" kw) as [v1|]; destruct (kw_get "E0" kw) as [v2|]; cbn [bind]; rewrite ?T;
    (split; [intros c0; discriminate|]; split; [reflexivity|]; split; [|intros A B; try reflexivity; contradiction]);
    intros c0; destruct (forallb _ _); try discriminate; destruct (kw_get "Gamma" kw) as [v3|]; try discriminate; cbn [bind]; destruct (kw_get "ops" kw) as [v4|]; try discriminate; cbn [bind]; destruct (kw_get "h_ref" kw); discriminate.
Qed.

Lemma eval_called : forall F A V S (call : F -> A -> S -> res V * S) (f : F) kw c a s,
  kw_get "func" kw = Some (CFun f) -> (von_karman_init kw = Ok c \/ mann_init kw = Ok c) ->
  snd (cov_eval call c a s) = snd (call f a s)
  /\ (forall e, fst (cov_eval call c a s) = Err e <-> fst (call f a s) = Err e)
  /\ forall v, fst (cov_eval call c a s) <> Ok (Some v).
Proof.
  intros F A V S call f kw c a s Hf HC. assert (E : cv_func c = Some (CFun f)).
  { destruct HC as [H|H].
    - unfold von_karman_init, required in H. destruct (kw_get "ndim" kw); [|discriminate]. cbn [bind] in H. destruct (kw_get "length_scale" kw); [|discriminate]. cbn [bind] in H. destruct (kw_get "E0" kw); [|discriminate]. cbn [bind] in H. destruct (is_three _); [|discriminate]. injection H as <-. exact Hf.
    - unfold mann_init in H. destruct (is_three _); [|discriminate]. injection H as <-. exact Hf. }
  unfold cov_eval. rewrite E. destruct (call f a s) as [[v|e] s']; cbn [fst snd]; (split; [reflexivity|]); (split; [|intros w; discriminate]); intros e'; split; intros H; first [discriminate | injection H as <-; reflexivity].
Qed.

Lemma eval_missing : forall F A V S (call : F -> A -> S -> res V * S) kw c a s,
  kw_get "func" kw = None -> (von_karman_init kw = Ok c \/ mann_init kw = Ok c) -> cov_eval call c a s = (Err TypeError, s).
Proof.
  intros F A V S call kw c a s Hf HC. assert (E : cv_func c = None).
  { destruct HC as [H|H].
    - unfold von_karman_init, required in H. destruct (kw_get "ndim" kw); [|discriminate]. cbn [bind] in H. destruct (kw_get "length_scale" kw); [|discriminate]. cbn [bind] in H. destruct (kw_get "E0" kw); [|discriminate]. cbn [bind] in H. destruct (is_three _); [|discriminate]. injection H as <-. exact Hf.
    - unfold mann_init in H. destruct (is_three _); [|discriminate]. injection H as <-. exact Hf. }
  unfold cov_eval. rewrite E. reflexivity.
Qed.

Lemma eval_documented : forall F A V S (call : F -> A -> S -> res V * S) (f : F) L E,
  exists c, von_karman_init [("ndim", CNum 3); ("length_scale", CNum L); ("E0", CNum E); ("eval_func", CFun f)] = Ok c
  /\ forall a s, cov_eval call c a s = (Err TypeError, s).
Proof.
  intros F A V S call f L E. unfold von_karman_init, required. cbn. rewrite Reqb_refl3. eexists. split; [reflexivity|]. reflexivity.
Qed.

Lemma nn_no_function : forall F (kw : kwds F) v, kw_get "func" kw = Some v -> nn_init kw = Err TypeError.
Proof.
  intros F kw v H. unfold nn_init. replace (forallb _ kw) with false; [reflexivity|]. symmetry. induction kw as [|[n w] kw IH]; [discriminate|].
  cbn [kw_get] in H. cbn [forallb fst]. destruct (String.eqb_spec n "func") as [->|Hn]; [reflexivity|]. rewrite IH by exact H. apply andb_false_r.
Qed.
