(** The compiled parallel loops do not depend on their schedule (C162). *)

From Coq Require Import Reals List Arith Bool Lra Lia.
From Verif Require Import Prelude GenModel DftModel LowModel ParModel ParProofs.
Import ListNotations.
Open Scope R_scope.

(** C162: once every iteration has finished, the estimated spectra are those of
    compute_spectrum, for every interleaving and whatever the memory held before. *)
Theorem C162_estimates : forall w u1 u2 tol A11 A22 schedule, lw_u w = Some (u1, u2) ->
  let ks := k1_positive (lg_N1 (lw_grid w)) (lg_dx (lw_grid w)) tol in
  let t := est_of (lw_grid w) u1 u2 tol A11 A22 schedule in
  (forall i, (i < length ks)%nat -> es_pc t i = EstDone) ->
  compute_spectrum w tol = Ok (ks, fst (est_result ks t), snd (est_result ks t)).
Proof. exact est_generator. Qed.
Print Assumptions C162_estimates.

(** C162: the loop is finished exactly when every iteration has been given one step for each
    cell and three more, in any order. *)
Theorem C162_estimates_finish : forall p1 p2 kg cells ks scale tol A11 A22 schedule,
  (forall i, (i < length ks)%nat -> es_pc (est_run p1 p2 kg cells ks scale tol A11 A22 schedule) i = EstDone)
  <-> forall i, (i < length ks)%nat -> (length cells + 3 <= count_occ Nat.eq_dec schedule i)%nat.
Proof. exact est_finish. Qed.
Print Assumptions C162_estimates_finish.

(** C162: an entry of the kernel is the documented value once its iteration has finished,
    whatever the others are doing. *)
Theorem C162_kernel : forall c L psi zi dx dy N1 N2 k1 k2 A schedule i j,
  kr_pc (ker_run c L psi zi dx dy N1 N2 k1 k2 A schedule) i j = KerDone ->
  kr_phi (ker_run c L psi zi dx dy N1 N2 k1 k2 A schedule) i j = low_phi c L psi zi dx dy (k1 i j) (k2 i j).
Proof. exact ker_final. Qed.
Print Assumptions C162_kernel.

(** C162: three steps suffice for each entry. *)
Theorem C162_kernel_finish : forall c L psi zi dx dy N1 N2 k1 k2 A schedule i j, (i < N1)%nat -> (j < N2)%nat ->
  (3 <= count_occ pair_dec schedule (i, j))%nat ->
  kr_pc (ker_run c L psi zi dx dy N1 N2 k1 k2 A schedule) i j = KerDone.
Proof. exact ker_finish. Qed.
Print Assumptions C162_kernel_finish.

(** Two iterations over two cells, interleaved. *)
Example C162_case : let t := est_run (fun _ => 1) (fun _ => 2) (fun x => INR (fst (fst x))) [(1, 0, 0); (2, 0, 0)]%nat [1; 2] 3 (1/2)
    (fun _ => 7) (fun _ => 8) [0; 1; 1; 0; 1; 0; 0; 0; 1; 1]%nat in
  (forall i, (i < 2)%nat -> es_pc t i = EstDone) /\ fst (est_result [1; 2] t) = [3; 3].
Proof.
  cbv zeta. assert (F : forall i, (i < length [1%R; 2%R])%nat -> es_pc (est_run (fun _ => 1) (fun _ => 2) (fun x => INR (fst (fst x))) [(1, 0, 0); (2, 0, 0)]%nat [1; 2] 3 (1/2) (fun _ => 7) (fun _ => 8) [0; 1; 1; 0; 1; 0; 0; 0; 1; 1]%nat) i = EstDone).
  { refine (proj2 (C162_estimates_finish _ _ _ _ _ _ _ _ _ _) _). intros i Hi. cbn [length] in Hi. destruct i as [|[|i]]; [cbn; lia|cbn; lia|lia]. }
  split; [exact F|]. rewrite est_final by exact F. unfold part, Rsum. cbn [fst snd map fold_right INR].
  assert (Y : forall a b, a = b -> Rltb (Rabs (a - b)) (1/2) = true) by (intros a b ->; unfold Rltb; rewrite Rminus_diag_eq, Rabs_R0 by reflexivity; destruct (Rlt_dec 0 (1/2)); [reflexivity|lra]).
  assert (N : forall a b, 1 <= Rabs (a - b) -> Rltb (Rabs (a - b)) (1/2) = false) by (intros a b H; unfold Rltb; destruct (Rlt_dec _ _); [lra|reflexivity]).
  rewrite (Y 1 1), (Y (1 + 1) 2), (N (1 + 1) 1), (N 1 2); [|rewrite Rabs_left; lra|rewrite Rabs_right; lra|lra|reflexivity]. f_equal; [ring|f_equal; ring].
Qed.

Example C162_kernel_case : kr_pc (ker_run 1 1 0 1 1 1 1 2 (fun _ _ => 1) (fun _ _ => 0) (fun _ _ => 9) [(0, 1); (0, 0); (0, 1); (0, 0); (0, 1); (0, 0)]%nat) 0 1 = KerDone.
Proof. apply C162_kernel_finish; [lia|lia|]. cbn. lia. Qed.
