(** Property theorems about the data preparation of the STORM scripts (C193). *)

From Coq Require Import Reals List Arith Lia Lra.
From Verif Require Import Prelude StormModel StormProofs.
Import ListNotations.
Open Scope R_scope.

(** C193: of every file the first line is lost, whatever it holds, and the uv data are the
    values of the column of vw; the column of uv is not used. *)
Theorem C193_refuted : forall U lines D, script_data U lines = Ok D ->
  length D = (length lines - 1)%nat
  /\ forall i f f11 f22 f33 f13 f23 f12 rest, nth_error lines (S i) = Some (f :: f11 :: f22 :: f33 :: f13 :: f23 :: f12 :: rest) ->
     exists d, nth_error D i = Some d /\ d_ops d X1 X2 = f23.
Proof. exact script_wrong. Qed.
Print Assumptions C193_refuted.

(** Three lines of measurements with the uv value 7. *)
Example C193_refuted_case : exists D d, script_data 21 [[1; 2; 3; 4; 5; 6; 7]; [1; 2; 3; 4; 5; 6; 7]; [1; 2; 3; 4; 5; 6; 7]] = Ok D
  /\ length D = 2%nat /\ nth_error D 0 = Some d /\ d_ops d X1 X2 = 6.
Proof. eexists. eexists. split; [reflexivity|]. split; [reflexivity|]. split; reflexivity. Qed.

(** C193: of all other lines the wave number and the other five entries are those of the
    documented columns, uw with the opposite sign. *)
Theorem C193_entries_partial : forall U lines D, script_data U lines = Ok D -> forall i f f11 f22 f33 f13 f23 rest,
  nth_error lines (S i) = Some (f :: f11 :: f22 :: f33 :: f13 :: f23 :: rest) ->
  exists d, nth_error D i = Some d /\ d_k1 d = 2 * PI * f / U
  /\ d_ops d X1 X1 = f11 /\ d_ops d X2 X2 = f22 /\ d_ops d X3 X3 = f33 /\ d_ops d X1 X3 = - f13 /\ d_ops d X2 X3 = f23.
Proof. exact script_right. Qed.
Print Assumptions C193_entries_partial.

Example C193_entries_case : exists D d, script_data 21 [[0]; [1; 2; 3; 4; 5; 6; 7]; [1; 2; 3; 4; 9; 6; 7]] = Ok D
  /\ nth_error D 1 = Some d /\ d_ops d X1 X3 = - (9).
Proof.
  assert (E : is_ok (script_data 21 [[0]; [1; 2; 3; 4; 5; 6; 7]; [1; 2; 3; 4; 9; 6; 7]])) by (eexists; reflexivity).
  destruct E as (D & E). exists D. destruct (C193_entries_partial _ _ _ E 1%nat 1 2 3 4 9 6 [7] eq_refl) as (d & N & H). exists d. tauto.
Qed.

(** C193: exactly the files with at least three lines, all but the first of one length, at
    least six, are accepted. *)
Theorem C193_accepted_partial : forall U lines, is_ok (script_data U lines) <->
  (3 <= length lines)%nat /\ exists n, (6 <= n)%nat /\ List.Forall (fun q => length q = n) (tl lines).
Proof. exact script_accepts. Qed.
Print Assumptions C193_accepted_partial.

Example C193_accepted_case : is_ok (script_data 21 [[]; [1; 2; 3; 4; 5; 6]; [6; 5; 4; 3; 2; 1]])
  /\ ~ is_ok (script_data 21 [[1; 2; 3; 4; 5; 6]; [6; 5; 4; 3; 2; 1]]).
Proof.
  split; [apply C193_accepted_partial; split; [cbn; lia|]; exists 6%nat; split; [lia|]; repeat constructor|].
  rewrite C193_accepted_partial. intros [H _]. cbn in H. lia.
Qed.

(** C193: the dry run raises for every file before a fit starts; and its wave numbers would be
    the frequencies. *)
Theorem C193_dry_run_refuted : forall lines,
  (exists e, dry_run lines = Err e
   /\ ((3 <= length lines)%nat -> (exists n, (6 <= n)%nat /\ List.Forall (fun q => length q = n) (tl lines)) -> e = TypeError))
  /\ forall D, dry_run_data lines = Ok D -> forall i f rest, nth_error lines (S i) = Some (f :: rest) ->
     exists d, nth_error D i = Some d /\ d_k1 d = f.
Proof. exact (fun lines => conj (dry_run_raises lines) (frequencies_kept lines)). Qed.
Print Assumptions C193_dry_run_refuted.

Example C193_dry_run_case : dry_run [[0]; [1; 2; 3; 4; 5; 6; 7]; [1; 2; 3; 4; 9; 6; 7]] = Err TypeError.
Proof. reflexivity. Qed.
