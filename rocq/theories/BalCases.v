(** A concrete model whose densities are kept. *)

From Coq Require Import Reals Lra Lia List.
From Coquelicot Require Import Coquelicot.
From Verif Require Import Prelude RdtModel SpectraModel OpsModel OpsSpec OpsProofs BalSpec BalProofs AutoModel AutoSpec AutoCases.
Import ListNotations.
Open Scope R_scope.

Lemma bal_case : let e := scale_M 2 (model_at (demo_setting TWOTHIRD) demo_params 0) in
  all_kept (scale_M (1/2) e) (-3) (-2) 1 [phi33] [1; 2]
  /\ 0 < ops_forward phi33 e (-3) (-2) 1 1 /\ 0 < ops_forward phi33 e (-3) (-2) 1 2.
Proof.
  intros e. set (m := model_at (demo_setting TWOTHIRD) demo_params 0) in *.
  assert (U : forall k1 k2 k3, 1 <= k1 <= 4 -> In k2 (sym_grid (-3) (-2) 1) -> In k3 (sym_grid (-3) (-2) 1) -> / 10^12 < undelivered phi33 m k1 k2 k3).
  { intros k1 k2 k3 H I2 I3. apply demo_ww; [exact H|exact I2|exact I3|]. apply demo_bounds; [tauto|lra]. }
  assert (S : selector phi33) by (unfold selector; tauto).
  assert (K : all_kept (scale_M (1/2) e) (-3) (-2) 1 [phi33] [1; 2]).
  { intros sel k1 k2 k3 [<-|[]] I1 I2 I3. left. split; [unfold auto; tauto|]. unfold e. rewrite !undelivered_scale by exact S.
    assert (1 <= k1 <= 4) by (destruct I1 as [<-|[<-|[]]]; lra). pose proof (U k1 k2 k3 H I2 I3). lra. }
  assert (KM : all_kept m (-3) (-2) 1 [phi33] [1; 2]).
  { intros sel k1 k2 k3 [<-|[]] I1 I2 I3. left. split; [unfold auto; tauto|].
    assert (1 <= k1 <= 4) by (destruct I1 as [<-|[<-|[]]]; lra). pose proof (U k1 k2 k3 H I2 I3). lra. }
  assert (KE : all_kept e (-3) (-2) 1 [phi33] [1; 2]) by (apply scale_one, (kept_more (1/2) 1); [lra|exact K]).
  assert (P : forall k, In k [1; 2] -> 0 < ops_forward phi33 e (-3) (-2) 1 k).
  { intros k I. assert (Hk : 1 <= k <= 4) by (destruct I as [<-|[<-|[]]]; lra).
    rewrite (forward_kept phi33 e) by (intros k2 k3 I2 I3; apply KE; [left; reflexivity|exact I|exact I2|exact I3]).
    unfold e. rewrite forward_raw_linear by exact S.
    rewrite <- (forward_kept phi33 m) by (intros k2 k3 I2 I3; apply KM; [left; reflexivity|exact I|exact I2|exact I3]).
    apply Rmult_lt_0_compat; [lra|]. apply demo_positive; [tauto|exact Hk]. }
  split; [exact K|]. split; apply P; cbn; tauto.
Qed.
