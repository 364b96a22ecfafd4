(** Lemmas about the data preparation of the STORM scripts (C193). *)

From Coq Require Import Reals List Arith Lia Lra.
From Verif Require Import Prelude StormModel.
Import ListNotations.
Open Scope R_scope.

Lemma read_ok : forall lines rows, read_lines lines = Ok rows <->
  rows = tl lines /\ (3 <= length lines)%nat /\ exists n, (6 <= n)%nat /\ List.Forall (fun q => length q = n) (tl lines).
Proof.
  intros lines rows. unfold read_lines. destruct lines as [|l [|r [|r' ls]]]; cbn [tl].
  - split; [discriminate|]. intros (_ & H & _). cbn in H. lia.
  - split; [discriminate|]. intros (_ & H & _). cbn in H. lia.
  - split; [discriminate|]. intros (_ & H & _). cbn in H. lia.
  - destruct (forallb _ _) eqn:F.
    + rewrite forallb_forall in F. destruct (length r <? 6)%nat eqn:L.
      * apply Nat.ltb_lt in L. split; [discriminate|]. intros (_ & _ & n & H1 & H2). inversion H2; subst. lia.
      * apply Nat.ltb_ge in L. split.
        -- intros E. injection E as <-. split; [reflexivity|]. split; [cbn; lia|]. exists (length r). split; [exact L|].
           apply Forall_forall. intros q I. apply Nat.eqb_eq. apply F. exact I.
        -- intros (-> & _ & _). reflexivity.
    + split; [discriminate|]. intros (_ & _ & n & _ & H). exfalso.
      assert (T : forallb (fun q => (length q =? length r)%nat) (r :: r' :: ls) = true).
      { apply forallb_forall. intros q I. apply Nat.eqb_eq. inversion H; subst. rewrite Forall_forall in H. apply H. exact I. }
      congruence.
Qed.

Lemma script_result : forall U lines D, script_data U lines = Ok D ->
  D = map (fun row => Datum (2 * PI * nth 0 row 0 / U) (entries row)) (tl lines).
Proof.
  intros U lines D H. unfold script_data in H. destruct (read_lines lines) as [rows|] eqn:E; [|discriminate]. cbn in H. injection H as <-.
  apply read_ok in E. destruct E as (-> & _). reflexivity.
Qed.

Lemma nth_map_tl : forall (f : list R -> datum) lines i row, nth_error lines (S i) = Some row -> nth_error (map f (tl lines)) i = Some (f row).
Proof. intros f [|l ls] i row H; [discriminate|]. cbn [tl nth_error] in *. apply map_nth_error. exact H. Qed.

Lemma script_right : forall U lines D, script_data U lines = Ok D -> forall i f f11 f22 f33 f13 f23 rest,
  nth_error lines (S i) = Some (f :: f11 :: f22 :: f33 :: f13 :: f23 :: rest) ->
  exists d, nth_error D i = Some d /\ d_k1 d = 2 * PI * f / U
  /\ d_ops d X1 X1 = f11 /\ d_ops d X2 X2 = f22 /\ d_ops d X3 X3 = f33 /\ d_ops d X1 X3 = - f13 /\ d_ops d X2 X3 = f23.
Proof.
  intros U lines D H i f f11 f22 f33 f13 f23 rest N. rewrite (script_result _ _ _ H). eexists. split; [apply nth_map_tl; exact N|].
  cbn [d_k1 d_ops entries nth]. repeat split; try reflexivity. ring.
Qed.

Lemma script_wrong : forall U lines D, script_data U lines = Ok D ->
  length D = (length lines - 1)%nat
  /\ forall i f f11 f22 f33 f13 f23 f12 rest, nth_error lines (S i) = Some (f :: f11 :: f22 :: f33 :: f13 :: f23 :: f12 :: rest) ->
     exists d, nth_error D i = Some d /\ d_ops d X1 X2 = f23.
Proof.
  intros U lines D H. rewrite (script_result _ _ _ H). split.
  - rewrite map_length. destruct lines; cbn; lia.
  - intros i f f11 f22 f33 f13 f23 f12 rest N. eexists. split; [apply nth_map_tl; exact N|]. reflexivity.
Qed.

Lemma script_accepts : forall U lines, is_ok (script_data U lines) <->
  (3 <= length lines)%nat /\ exists n, (6 <= n)%nat /\ List.Forall (fun q => length q = n) (tl lines).
Proof.
  intros U lines. unfold is_ok, script_data. split.
  - intros (D & H). destruct (read_lines lines) as [rows|] eqn:E; [|discriminate]. apply read_ok in E. tauto.
  - intros H. assert (E : read_lines lines = Ok (tl lines)) by (apply read_ok; tauto). rewrite E. eexists. reflexivity.
Qed.

Lemma dry_run_raises : forall lines, exists e, dry_run lines = Err e
  /\ ((3 <= length lines)%nat -> (exists n, (6 <= n)%nat /\ List.Forall (fun q => length q = n) (tl lines)) -> e = TypeError).
Proof.
  intros lines. unfold dry_run, dry_run_data. destruct (read_lines lines) as [rows|e] eqn:E.
  - exists TypeError. split; reflexivity.
  - exists e. split; [reflexivity|]. intros H1 H2.
    assert (E' : read_lines lines = Ok (tl lines)) by (apply read_ok; tauto). congruence.
Qed.

Lemma frequencies_kept : forall lines D, dry_run_data lines = Ok D -> forall i f rest, nth_error lines (S i) = Some (f :: rest) ->
  exists d, nth_error D i = Some d /\ d_k1 d = f.
Proof.
  intros lines D H i f rest N. unfold dry_run_data in H. destruct (read_lines lines) as [rows|] eqn:E; [|discriminate]. cbn in H. injection H as <-.
  apply read_ok in E. destruct E as (-> & _). eexists. split; [apply nth_map_tl; exact N|]. reflexivity.
Qed.
