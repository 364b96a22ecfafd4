(** Property theorems about the power law fitted to Mann's lifetime (C14), for any lifetime
    function in the place of Mann's. *)

From Coq Require Import Reals Lra List.
From Verif Require Import Prelude SpectraModel MannFitProofs.
Import ListNotations.
Open Scope R_scope.

(** C14: for every lifetime function and all scales the time scale enters twice: a time scale
    c times as large gives lifetimes c^2 times as large, never c times. *)
Theorem C14_time_scale_refuted : forall tau Ls Ts L T c k, (forall x, 0 < x -> 0 < tau x) -> 0 < Ls -> 0 < Ts -> 0 < T -> 0 < c -> c <> 1 ->
  mann_approx_lifetime tau Ls (c * Ts) L (c * T) k = c^2 * mann_approx_lifetime tau Ls Ts L T k
  /\ mann_approx_lifetime tau Ls (c * Ts) L (c * T) k <> c * mann_approx_lifetime tau Ls Ts L T k.
Proof. exact (fun tau Ls Ts L T c k Ht HL HTs HT Hc Nc => conj (time_squared tau Ls Ts L T c k Ht HL HTs Hc) (time_not_linear tau Ls Ts L T c k Ht HL HTs HT Hc Nc)). Qed.
Print Assumptions C14_time_scale_refuted.

(** A lifetime which is not a power law. *)
Example C14_time_scale_case : mann_approx_lifetime (fun x => / (1 + x)) 5 (3 * 2) 5 (3 * 2) 7 = 3^2 * mann_approx_lifetime (fun x => / (1 + x)) 5 2 5 2 7.
Proof. apply C14_time_scale_refuted; try lra. intros x Hx. apply Rinv_0_lt_compat. lra. Qed.

(** C14: the delivered lifetime is a power law in the wave number; over the 50 wave numbers of
    the fit its geometric mean is T L^a times that of the lifetime it approximates, where the
    exponent a does not depend on T; divided by T L^a it is the power law which is best in the
    sense of least squares; for a decreasing lifetime a is negative. *)
Theorem C14_fit_partial : forall tau L, (forall x, 0 < x -> 0 < tau x) -> 0 < L ->
  exists a, forall T, 0 < T ->
  (forall c k, 0 < c -> 0 < k -> mann_approx_lifetime tau L T L T (c * k) = Rpower c a * mann_approx_lifetime tau L T L T k)
  /\ Rmean (map (fun k => ln (mann_approx_lifetime tau L T L T k) - ln (T * tau (L * k))) (logspace (-3) 3 50)) = ln T + a * ln L
  /\ (forall B b, 0 < B ->
      Rsum (map (fun k => (ln (T * tau (L * k)) - ln (mann_approx_lifetime tau L T L T k / (T * Rpower L a)))^2) (logspace (-3) 3 50))
      <= Rsum (map (fun k => (ln (T * tau (L * k)) - ln (B * Rpower k b))^2) (logspace (-3) 3 50)))
  /\ ((forall u v, 0 < u -> u < v -> tau v < tau u) -> a < 0).
Proof. exact approximation. Qed.
Print Assumptions C14_fit_partial.

(** With the scales 1 and 2 the lifetimes of 1/(1+x) are twice too long in the mean. *)
Example C14_fit_case : Rmean (map (fun k => ln (mann_approx_lifetime (fun x => / (1 + x)) 1 2 1 2 k) - ln (2 * / (1 + 1 * k))) (logspace (-3) 3 50)) = ln 2
  /\ exists a, a < 0 /\ forall c, 0 < c -> mann_approx_lifetime (fun x => / (1 + x)) 1 2 1 2 (c * 1) = Rpower c a * mann_approx_lifetime (fun x => / (1 + x)) 1 2 1 2 1.
Proof.
  destruct (C14_fit_partial (fun x => / (1 + x)) 1) as [a H]; [intros x Hx; apply Rinv_0_lt_compat; lra|lra|].
  destruct (H 2 ltac:(lra)) as (P & M & _ & N). split.
  - rewrite ln_1, Rmult_0_r, Rplus_0_r in M. exact M.
  - exists a. split; [|intros c Hc; apply P; lra]. apply N. intros u v Hu Hv. apply Rinv_lt_contravar; [apply Rmult_lt_0_compat; lra|lra].
Qed.

(** C14: the lifetime of which the theorems above speak is the one the model evaluates, once
    its line has been fitted. *)
Theorem C14_delivered_partial : forall env tau Ls Ts k1 k2 k3, le_type env = MANN_APPROX ->
  (le_coef env, le_icpt env) = mann_approx_fit tau Ls Ts ->
  eddy_lifetime env k1 k2 k3 = Ok (mann_approx_lifetime tau Ls Ts (le_L env) (le_T env) (sqrt (k1^2 + k2^2 + k3^2))).
Proof. exact delivered. Qed.
Print Assumptions C14_delivered_partial.

Example C14_delivered_case : let f := mann_approx_fit (fun x => / (1 + x)) 5 2 in
  eddy_lifetime (LEnv MANN_APPROX 5 2 (fun x => x) (fst f) (snd f) (fun _ => Err RuntimeError)) 1 2 3
  = Ok (mann_approx_lifetime (fun x => / (1 + x)) 5 2 5 2 (sqrt (1^2 + 2^2 + 3^2))).
Proof. cbv zeta. apply C14_delivered_partial; [reflexivity|]. cbn [le_coef le_icpt]. symmetry. apply surjective_pairing. Qed.
