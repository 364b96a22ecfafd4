(** Property theorems about the derivatives used by calibration (C186, C187). *)

From Coq Require Import Reals Lra Lia List.
From Coquelicot Require Import Coquelicot.
From Verif Require Import Prelude RdtModel SpectraModel OpsModel OpsSpec OpsProofs HypSpec HypProofs LossModel LossSpec TotalSpec AutoModel AutoSpec AutoLoss AutoMann AutoCases AutoFit AutoRelu.
Import ListNotations.
Open Scope R_scope.

(** C186: autograd's derivative of every spectrum, in every direction of the space of
    trainable parameters, is its derivative, for all lifetimes but Mann's. *)
Theorem C186_spectra_partial : forall s P sel p1 p2 N k1, selector sel -> k1 <> 0 ->
  differentiable_lifetime s P p1 p2 N k1 -> off_bound sel (model_at s P 0) p1 p2 N k1 ->
  val (ad_forward sel s P p1 p2 N k1) = ops_forward sel (model_at s P 0) p1 p2 N k1
  /\ is_derive (fun t => ops_forward sel (model_at s P t) p1 p2 N k1) 0 (der (ad_forward sel s P p1 p2 N k1)).
Proof. exact spectra_right. Qed.
Print Assumptions C186_spectra_partial.

Example C186_spectra_case :
  is_derive (fun t => ops_forward phi33 (model_at (demo_setting TAUNET) demo_params t) (-3) (-2) 1 2) 0
            (der (ad_forward phi33 (demo_setting TAUNET) demo_params (-3) (-2) 1 2))
  /\ is_derive (fun t => ops_forward phi33 (model_at (demo_setting TWOTHIRD) demo_params t) (-3) (-2) 1 3) 0
            (der (ad_forward phi33 (demo_setting TWOTHIRD) demo_params (-3) (-2) 1 3)).
Proof.
  split; (apply C186_spectra_partial; [right; right; left; reflexivity|lra|apply demo_differentiable; [tauto|lra]|apply demo_off; [tauto|lra]]).
Qed.

(** C186: the derivative applied for the ReLU activation is right exactly at inputs other than
    zero; at zero the function has none. *)
Theorem C186_relu_partial : forall x, is_derive (act_fun relu_act) x (act_der relu_act x) <-> x <> 0.
Proof. exact relu_right. Qed.
Print Assumptions C186_relu_partial.

Example C186_relu_case : is_derive (act_fun relu_act) (-3) 0 /\ is_derive (act_fun relu_act) 3 1 /\ act_der relu_act 0 = 0.
Proof.
  pose proof (proj2 (C186_relu_partial (-3)) ltac:(lra)) as A. pose proof (proj2 (C186_relu_partial 3) ltac:(lra)) as B.
  cbn [act_der relu_act] in *. destruct (Rlt_dec 0 (-3)) as [C|_] in A; [lra|]. destruct (Rlt_dec 0 3) as [_|C] in B; [|lra].
  split; [exact A|]. split; [exact B|]. destruct (Rlt_dec 0 0) as [C|_]; [lra|reflexivity].
Qed.

(** C186 fails for Mann's lifetime: whatever the scales and the wave vector, the derivative of
    the lifetime is wrong in every direction which moves the length scale. *)
Theorem C186_lifetime_refuted : forall s P, st_type s = MANN -> hypergeometric (st_hyp s) ->
  forall k1 k2 k3, k1 <> 0 -> der (pa_logL P) <> 0 ->
  exists d, ad_lifetime s P k1 k2 k3 = Ok d
  /\ ~ is_derive (fun t => match eddy_lifetime (lifetime_at s P t) k1 k2 k3 with Ok b => b | Err _ => 0 end) 0 (der d).
Proof. exact lifetime_wrong. Qed.
Print Assumptions C186_lifetime_refuted.

Example C186_lifetime_case :
  exists d, ad_lifetime (demo_setting MANN) demo_params 1 2 3 = Ok d
  /\ ~ is_derive (fun t => match eddy_lifetime (lifetime_at (demo_setting MANN) demo_params t) 1 2 3 with Ok b => b | Err _ => 0 end) 0 (der d).
Proof.
  apply C186_lifetime_refuted; [reflexivity|intros z _; reflexivity|lra|cbn; lra].
Qed.

(** C186 fails for Mann's lifetime also in the delivered spectra. *)
Theorem C186_spectra_refuted : forall s P, st_type s = MANN -> hypergeometric (st_hyp s) -> st_learnable s = false ->
  forall p1 p2 N k1, 0 < k1 -> p1 < p2 -> (1 <= N)%nat -> der (pa_logL P) <> 0 -> rising (model_at s P 0) p1 p2 N k1 ->
  ~ is_derive (fun t => ops_forward phi33 (model_at s P t) p1 p2 N k1) 0 (der (ad_forward phi33 s P p1 p2 N k1)).
Proof. exact spectra_wrong. Qed.
Print Assumptions C186_spectra_refuted.

Example C186_spectra_refuted_case :
  ~ is_derive (fun t => ops_forward phi33 (model_at (demo_setting MANN) demo_params t) (-3) (-2) 1 1) 0
              (der (ad_forward phi33 (demo_setting MANN) demo_params (-3) (-2) 1 1)).
Proof.
  apply C186_spectra_refuted; [reflexivity|intros z _; reflexivity|reflexivity|lra|lra|lia|cbn; lra|exact demo_rising].
Qed.

(** C187: autograd's derivative of the loss, with all penalties, in every direction of the
    space of trainable parameters is the derivative of the loss. *)
Theorem C187_loss_partial : forall s P p ks zref curves data theta p1 p2 N,
  wave_grid ks -> 0 < zref ->
  (forall sel k1, In sel curves -> In k1 ks -> selector sel /\ differentiable_lifetime s P p1 p2 N k1
     /\ off_bound sel (model_at s P 0) p1 p2 N k1) ->
  regular_curves ks (rows_at s P p1 p2 N curves ks 0) -> regular_curves ks data -> length curves = length data ->
  let grad := ad_loss p ks zref (ad_rows s P p1 p2 N curves ks) data theta in
  let loss := fun t => loss_value p ks zref (rows_at s P p1 p2 N curves ks t) data (option_map (map (moved t)) theta) None in
  val grad = loss 0 /\ is_derive loss 0 (der grad).
Proof. exact loss_right. Qed.
Print Assumptions C187_loss_partial.

Example C187_loss_case : forall ty, ty = TWOTHIRD \/ ty = TAUNET ->
  is_derive (fun t => loss_value (LossParams 1 2 3 0) [1; 2; 4] 1 (rows_at (demo_setting ty) demo_params (-3) (-2) 1 [phi33] [1; 2; 4] t)
                        [[1; 2; 1]] (Some (map (moved t) [Dual 1 1; Dual 2 (-1)])) None) 0
            (der (ad_loss (LossParams 1 2 3 0) [1; 2; 4] 1 (ad_rows (demo_setting ty) demo_params (-3) (-2) 1 [phi33] [1; 2; 4])
                    [[1; 2; 1]] (Some [Dual 1 1; Dual 2 (-1)]))).
Proof.
  intros ty Ht.
  apply (C187_loss_partial (demo_setting ty) demo_params (LossParams 1 2 3 0) [1; 2; 4] 1 [phi33] [[1; 2; 1]] (Some [Dual 1 1; Dual 2 (-1)]) (-3) (-2) 1).
  - split; [repeat constructor; lra|]. repeat constructor; lra.
  - lra.
  - intros sel k1 [<-|[]] I. assert (1 <= k1 <= 4) by (destruct I as [<-|[<-|[<-|[]]]]; lra).
    split; [right; right; left; reflexivity|]. split; [apply demo_differentiable; [exact Ht|lra]|apply demo_off; [exact Ht|lra]].
  - split; [discriminate|]. apply List.Forall_forall. intros r [<-|[]]. split; [reflexivity|].
    apply List.Forall_forall. intros v I. apply in_map_iff in I. destruct I as (k1 & <- & I).
    apply Rgt_not_eq, demo_positive; [exact Ht|]. destruct I as [<-|[<-|[<-|[]]]]; lra.
  - split; [discriminate|]. repeat constructor; lra.
  - reflexivity.
Qed.

(** C187 fails for Mann's lifetime: the gradient followed by calibration is not that of the
    misfit, for any measured value but the one the model already has. *)
Theorem C187_loss_refuted : forall s P, st_type s = MANN -> hypergeometric (st_hyp s) -> st_learnable s = false ->
  forall p1 p2 N k1 zref c, 0 < k1 -> p1 < p2 -> (1 <= N)%nat -> der (pa_logL P) <> 0 -> rising (model_at s P 0) p1 p2 N k1 ->
  0 < c -> c <> ops_forward phi33 (model_at s P 0) p1 p2 N k1 ->
  ~ is_derive (fun t => loss_value (LossParams 0 0 0 0) [k1] zref (rows_at s P p1 p2 N [phi33] [k1] t) [[c]] None None) 0
              (der (ad_loss (LossParams 0 0 0 0) [k1] zref (ad_rows s P p1 p2 N [phi33] [k1]) [[c]] None)).
Proof. exact loss_wrong. Qed.
Print Assumptions C187_loss_refuted.

Example C187_loss_refuted_case : exists c, 0 < c /\
  ~ is_derive (fun t => loss_value (LossParams 0 0 0 0) [1] 1 (rows_at (demo_setting MANN) demo_params (-3) (-2) 1 [phi33] [1] t) [[c]] None None) 0
              (der (ad_loss (LossParams 0 0 0 0) [1] 1 (ad_rows (demo_setting MANN) demo_params (-3) (-2) 1 [phi33] [1]) [[c]] None)).
Proof.
  set (v := ops_forward phi33 (model_at (demo_setting MANN) demo_params 0) (-3) (-2) 1 1).
  exists (Rabs v + 1). pose proof (Rabs_pos v). pose proof (Rle_abs v). split; [lra|].
  apply C187_loss_refuted; [reflexivity|intros z _; reflexivity|reflexivity|lra|lra|lia|cbn; lra|exact demo_rising|lra|fold v; lra].
Qed.
