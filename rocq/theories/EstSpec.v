(** Vocabulary for the statements about the estimated spectra of the generated
    low-frequency fields: averages over random seeds. *)

From Coq Require Import String Reals List ZArith.
From Coquelicot Require Import Coquelicot.
From Verif Require Import Prelude GenSpec LowModel LowSpec.
Import ListNotations.
Open Scope R_scope.

(** Average of a quantity over finitely many weighted generator states. *)
Definition mean {G : Type} (ens : list (R * G)) (f : G -> R) : R := Rsum (map (fun s => fst s * f (snd s)) ens).

(** The first [n] numbers drawn are uncorrelated with unit mean square. *)
Definition white {G : Type} (gauss : G -> R * G) (n : nat) (ens : list (R * G)) : Prop :=
  forall i j, (i < n)%nat -> (j < n)%nat -> mean ens (fun g => stream gauss g i * stream gauss g j) = if (i =? j)%nat then 1 else 0.

(** What a user obtains who calls `generate` and then `compute_spectrum`. *)
Definition estimated {G : Type} (gauss : G -> R * G) (w : low_gen) (tol : R) (g : G) (ks F1 F2 : list R) : Prop :=
  exists w' g', low_generate gauss w g = (Ok w', g') /\ compute_spectrum w' tol = Ok (ks, F1, F2).

(** A requested domain which needs no enlargement: equal spacings, at least five
    integral scales on either side, at least two points on either side. *)
Definition plain_domain (cfg : low_config) : Prop :=
  asked_dx cfg = asked_dy cfg /\ 5 <= lc_f1 cfg /\ 5 <= lc_f2 cfg /\ (1 <= lc_e1 cfg)%nat /\ (1 <= lc_e2 cfg)%nat.

(** The same request with a lateral side of 2^n points and unchanged spacing. *)
Definition widened (cfg : low_config) (n : nat) : low_config :=
  LowConfig (lc_sigma2 cfg) (lc_L cfg) (lc_psi cfg) (lc_zi cfg) (lc_f1 cfg) (2 ^ n * asked_dx cfg / lc_L cfg) (lc_e1 cfg) n.

(** Exact integration. *)
Definition exact_quad (a b : R) (f : R -> R) : R := RInt f a b.
