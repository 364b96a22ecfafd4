(** Property theorems about stopping the training (C137). *)

From Coq Require Import Reals List Arith Lia Lra.
From Verif Require Import Prelude RdtModel SpectraModel OpsModel LossModel CalModel CalMore PlotModel StopModel StopSpec StopProofs.
Import ListNotations.
Open Scope R_scope.

(** C137: when calibrate ends early because the loss fell below the tolerance, the
    returned parameters have a loss below the tolerance.  False of the code: with Adam
    a fit with loss (log L)^2, gradient 2 log L and tolerance 1 ends with the message of
    success after one epoch and returns parameters with a loss of at least 81. *)
Theorem C137_refuted :
  (forall a b d p q n, loss_at square_cfg (MP a b d (Some (p, q)) None) n = Ok (Fin (a ^ 2)) /\ square_grad [a; b; d; p; q] = [2 * a; 0; 0; 0; 0])
  /\ exists v s l l', calibrate square_cfg (adam_opt square_grad) (cosine_sched 5 10) (MP (1/2) 0 0 (Some (4, 2)) None) = (Ok (v, s), [Fin l])
    /\ l < tg_tol square_cfg /\ (1 < tg_nepochs square_cfg)%nat
    /\ (forall n, loss_at square_cfg (ts_mod s) n = Ok (Fin l')) /\ 81 * tg_tol square_cfg <= l'.
Proof. exact stop_false. Qed.
Print Assumptions C137_refuted.

(** The cause: with Adam the loss which is compared with the tolerance belongs to the
    parameters before the last step. *)
Theorem C137_behind_partial : forall c grad sched m v s ls, calibrate c (adam_opt grad) sched m = (Ok (v, s), ls) -> ls <> [] ->
  exists m1 n lr vs, loss_at c m1 n = Ok (ts_loss s) /\ map fst (ts_seen s) = vs ++ [get_parameters m1]
    /\ ts_mod s = vector_to_parameters m1 (fst (adam_step lr (grad (get_parameters m1)) (get_parameters m1)
         (adam_history grad (length (get_parameters m1)) vs))).
Proof. exact adam_behind. Qed.
Print Assumptions C137_behind_partial.

(** The true part: for an optimiser whose steps end at the vector they evaluated last,
    an early end means a loss below the tolerance. *)
Theorem C137_settled_partial : forall c opt sched m v s ls, (forall e s0, settled None (opt e s0)) ->
  calibrate c opt sched m = (Ok (v, s), ls) -> (length ls < tg_nepochs c)%nat ->
  exists n r, loss_at c (ts_mod s) n = Ok (Fin r) /\ r < tg_tol c.
Proof. exact settled_stop. Qed.
Print Assumptions C137_settled_partial.

Example C137_case : (forall e s0, settled None (lazy_opt e s0))
  /\ exists v s ls, calibrate (easy 5) lazy_opt (fun _ r => r) demo = (Ok (v, s), ls) /\ (length ls < tg_nepochs (easy 5))%nat.
Proof.
  split; [intros e s0 l; reflexivity|]. destruct easy_run as (s & E). do 3 eexists. split; [exact E|]. cbn. lia.
Qed.
