(** Best fits in several parameters at a time (C161). *)

From Coq Require Import Reals List Lra Lia.
From Coquelicot Require Import Coquelicot.
From Verif Require LossModel SensTheorems.
From Verif Require Import Prelude RdtModel SpectraModel OpsModel OpsSpec SpectraSpec HypSpec SensSpec LossSpec BalSpec ManySpec ManyProofs ManyLoss.
Import ListNotations.
Open Scope R_scope.

(** C161: over every box of parameters, of whatever dimension, on which the ingredients are
    continuous, there is a best fit of the three auto-spectra to non-zero data. *)
Theorem C161_best_fit_many : forall n (e : vectors n -> ops_env) a b p1 p2 N ks target,
  (exists y, in_box n a b y) -> ks <> [] ->
  (forall k q, In k ks -> in_box n a b q -> 0 < k /\ steady e k q) -> p1 < p2 -> (2 <= N)%nat ->
  length target = (3 * length ks)%nat -> (forall v, In v target -> v <> 0) ->
  let rows q := map (fun sel => map (fun k => ops_forward sel (e q) p1 p2 N k) ks) [phi11; phi22; phi33] in
  exists best low, in_box n a b best /\ LossModel.mse_term (concat (rows best)) target = Ok (Fin low)
  /\ forall q, in_box n a b q -> exists v, LossModel.mse_term (concat (rows q)) target = Ok (Fin v) /\ low <= v.
Proof. exact misfit_box. Qed.
Print Assumptions C161_best_fit_many.

(** C161: in particular the Mann model has a best fit between any limits on the logarithms of
    its length scale, time scale and magnitude. *)
Theorem C161_mann_fit : forall hyp (beta : vectors 2 -> R -> R -> R -> R) a b p1 p2 N ks target, hypergeometric hyp ->
  (forall q k1 k2 k3, k1 <> 0 ->
    eddy_lifetime (LEnv MANN (exp (fst q)) (exp (fst (snd q))) hyp 0 0 (fun _ => Err RuntimeError)) k1 k2 k3 = Ok (beta q k1 k2 k3)) ->
  (exists y, in_box 2 a b y) -> ks <> [] -> (forall k, In k ks -> 0 < k) -> p1 < p2 -> (2 <= N)%nat ->
  length target = (3 * length ks)%nat -> (forall v, In v target -> v <> 0) ->
  let rows q := map (fun sel => map (fun k =>
    ops_forward sel (OpsEnv (exp (fst q)) (exp (snd (snd q))) vklike_energy (beta q)) p1 p2 N k) ks) [phi11; phi22; phi33] in
  exists best low, in_box 2 a b best /\ LossModel.mse_term (concat (rows best)) target = Ok (Fin low)
  /\ forall q, in_box 2 a b q -> exists v, LossModel.mse_term (concat (rows q)) target = Ok (Fin v) /\ low <= v.
Proof. exact mann_box. Qed.
Print Assumptions C161_mann_fit.

(** The length scale is between e^-1 and e, the time scale between 1 and e^2, the magnitude
    between e^-5 and 1; the data are six values at two wavenumbers. *)
Example C161_best_fit_many_case :
  exists beta : vectors 2 -> R -> R -> R -> R,
    (forall q k1 k2 k3, k1 <> 0 ->
      eddy_lifetime (LEnv MANN (exp (fst q)) (exp (fst (snd q))) euler_integral 0 0 (fun _ => Err RuntimeError)) k1 k2 k3 = Ok (beta q k1 k2 k3))
    /\ hypergeometric euler_integral
    /\ in_box 2 (-1, (0, -5)) (1, (2, 0)) (0, (1, -2))
    /\ exists best low, in_box 2 (-1, (0, -5)) (1, (2, 0)) best
       /\ LossModel.mse_term (concat (map (fun sel => map (fun k =>
            ops_forward sel (OpsEnv (exp (fst best)) (exp (snd (snd best))) vklike_energy (beta best)) (-3) 3 100 k) [1; 5]) [phi11; phi22; phi33]))
            [1; 2; 3; 4; 5; 6] = Ok (Fin low).
Proof.
  assert (E : exists beta : vectors 2 -> R -> R -> R -> R, forall q k1 k2 k3, k1 <> 0 ->
    eddy_lifetime (LEnv MANN (exp (fst q)) (exp (fst (snd q))) euler_integral 0 0 (fun _ => Err RuntimeError)) k1 k2 k3 = Ok (beta q k1 k2 k3))
    by (eexists (fun q k1 k2 k3 => _); intros q k1 k2 k3 Hk; cbn; reflexivity).
  destruct E as [beta E]. exists beta. split; [exact E|].
  assert (H : hypergeometric euler_integral) by (intros z Hz; reflexivity). split; [exact H|].
  assert (B : in_box 2 (-1, (0, -5)) (1, (2, 0)) (0, (1, -2))) by (cbn; lra). split; [exact B|].
  destruct (C161_mann_fit euler_integral beta (-1, (0, -5)) (1, (2, 0)) (-3) 3 100 [1; 5] [1; 2; 3; 4; 5; 6]) as (best & low & Hb & Hl & _);
    [exact H|exact E|exists (0, (1, -2)); exact B|discriminate| |lra|lia|reflexivity| |].
  - intros k [<-|[<-|[]]]; lra.
  - intros v Hv. repeat (destruct Hv as [<-|Hv]; [lra|]). destruct Hv.
  - exists best, low. split; assumption.
Qed.

(** C161: the same for the whole loss of a fit of auto-spectra, with coherence term, penalties and
    regulariser, as [agg_eval] returns it. *)
Theorem C161_loss_fit : forall n (e : vectors n -> ops_env) th coh prm a b p1 p2 N ks zref curves data s epoch,
  (exists y, in_box n a b y) -> wave_grid ks -> (3 <= length ks)%nat -> (forall sel, In sel curves -> auto sel) ->
  curves <> [] -> regular_curves ks data -> length curves = length data -> 0 < zref -> p1 < p2 -> (2 <= N)%nat ->
  (forall k q, In k ks -> in_box n a b q -> steady e k q) ->
  (forall t, th = Some t -> t <> [] /\ forall q, in_box n a b q -> continuous_list t q) ->
  (forall u v w, coh = Some (u, v, w) -> matching u /\ matching v /\ matching w
     /\ forall q, in_box n a b q -> continuous_list (fst u) q /\ continuous_list (fst v) q /\ continuous_list (fst w) q) ->
  let loss q := fst (LossModel.agg_eval prm ks zref s (LossModel.EvalArgs (curves_of (e q) p1 p2 N curves ks) data
                       (match th with Some t => LossModel.ThVec (at_point q t) | None => LossModel.ThNone end) epoch (coherence_at q coh))) in
  exists best low, in_box n a b best /\ loss best = Ok (Fin low)
  /\ forall q, in_box n a b q -> exists v, loss q = Ok (Fin v) /\ low <= v.
Proof. exact loss_box. Qed.
Print Assumptions C161_loss_fit.

(** Two parameters, all terms of the loss, one coherence value of each component. *)
Example C161_loss_fit_case :
  let e := fun q : vectors 1 => OpsEnv (exp (fst q)) (exp (snd q)) vklike_energy (fun k1 k2 k3 => 3 * 1) in
  let c sel := ([fun q : vectors 1 => fst (spectral_coherence (Some [-2; -1; 1; 2]) sel (e q) 1 (1/2))], [1/2]) in
  let th := Some [fun q : vectors 1 => fst q : R; fun q => snd q : R] in
  let coh := Some (c phi11, c phi22, c phi33) in
  exists best low, in_box 1 (-1, -2) (1, 2) best
  /\ fst (LossModel.agg_eval (LossModel.LossParams 1 1 1 1) [1; 2; 5] 1 LossModel.agg_init
       (LossModel.EvalArgs (curves_of (e best) (-3) 3 100 [phi11; phi33] [1; 2; 5]) [[1; 2; 3]; [4; 5; 6]]
          (LossModel.ThVec (at_point best [fun q : vectors 1 => fst q : R; fun q => snd q : R])) 7 (coherence_at best coh))) = Ok (Fin low).
Proof.
  intros e c th coh.
  assert (C1 : forall p : vectors 1, continuous (fun q : vectors 1 => fst q : R) p) by (intros [x y]; apply (continuous_fst (U := R_UniformSpace) (V := R_UniformSpace))).
  assert (C2 : forall p : vectors 1, continuous (fun q : vectors 1 => snd q : R) p) by (intros [x y]; apply (continuous_snd (U := R_UniformSpace) (V := R_UniformSpace))).
  assert (S : forall k p, k <> 0 -> steady e k p).
  { intros k p Hk. refine (proj2 (SensTheorems.C161_closed_forms (vectors 1) CONST (fun q => exp (fst q)) (fun _ => 3) (fun q => exp (snd q)) (fun _ => 0) (fun _ => 0) (fun _ => 0) (fun _ => 0)
      (fun _ => 1) (fun _ => Ok 1) (fun q k1 k2 k3 => 3 * 1) p k _ _ _ _ _ _ _ _ _ _ _ _)); try apply continuous_const; try discriminate; try exact Hk; try reflexivity.
    - apply exp_pos.
    - apply QuadTensor.c_exp, C1.
    - apply QuadTensor.c_exp, C2. }
  assert (CC : forall sel p, auto sel -> continuous_list (fst (c sel)) p).
  { intros sel p Hs f [<-|[]]. apply SensTheorems.C161_coherence; [exact Hs|apply S; lra|lra| |cbn; lia]. repeat constructor; lra. }
  destruct (C161_loss_fit 1 e th coh (LossModel.LossParams 1 1 1 1) (-1, -2) (1, 2) (-3) 3 100 [1; 2; 5] 1 [phi11; phi33] [[1; 2; 3]; [4; 5; 6]] LossModel.agg_init 7)
    as (best & low & Hb & Hl & _).
  - exists (0, 0). cbn. lra.
  - split; repeat constructor; lra.
  - cbn. lia.
  - unfold auto. intros sel [<-|[<-|[]]]; tauto.
  - discriminate.
  - split; [discriminate|]. repeat constructor; lra.
  - reflexivity.
  - lra.
  - lra.
  - lia.
  - intros k q [<-|[<-|[<-|[]]]] _; apply S; lra.
  - intros t [= <-]. split; [discriminate|]. intros q _ f [<-|[<-|[]]]; [apply C1|apply C2].
  - intros u v w [= <- <- <-]. split; [split; [reflexivity|discriminate]|]. split; [split; [reflexivity|discriminate]|]. split; [split; [reflexivity|discriminate]|].
    intros q _. split; [|split]; apply CC; unfold auto; tauto.
  - exists best, low. split; assumption.
Qed.
