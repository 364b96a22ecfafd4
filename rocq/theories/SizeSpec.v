(** Vocabulary for the statements about `length_AND_grid_size_study` and
    `rectangular_domain_study`. *)

From Coq Require Import Reals List ZArith.
From Verif Require Import Prelude GenSpec LowModel LowSpec StudyModel Fig2Model Fig2Spec.
Import ListNotations.
Open Scope R_scope.

(** A base configuration with other sides, in integral scales, and other exponents. *)
Definition resized (base : low_config) (f1 f2 : R) (e1 e2 : nat) : low_config :=
  LowConfig (lc_sigma2 base) (lc_L base) (lc_psi base) (lc_zi base) f1 f2 e1 e2.

(** Averages over [n] realisations of several generators used one after the other. *)
Fixpoint successive {G : Type} (gauss : G -> R * G) (n : nat) (g : G) (ws : list low_gen) (vs : list (R * R)) : Prop :=
  match ws, vs with
  | [], [] => True
  | w :: ws', v :: vs' => fst (average_variances gauss n w g) = Ok v /\ successive gauss n (after gauss g (n * draws w)) ws' vs'
  | _, _ => False
  end.

(** Numbers drawn by [n] realisations of every generator. *)
Definition all_draws (n : nat) (ws : list low_gen) : nat := list_sum (map (fun w => (n * draws w)%nat) ws).

(** The reports of several generators used one after the other: averages of the delivered fields
    and of the fields on the computational grid. *)
Fixpoint successive_reports {G : Type} (gauss : G -> R * G) (n : nat) (g : G) (sigma2 : R) (ws : list low_gen) (rs : list rectangle_report) : Prop :=
  match ws, rs with
  | [], [] => True
  | w :: ws', r :: rs' =>
      (exists v1 v2 f1 f2, fst (average_variances gauss n w g) = Ok (v1, v2) /\ fst (average_full_variances gauss n w g) = Ok (f1, f2)
        /\ r = RectReport (v1, v2, v1 + v2) (f1, f2, f1 + f2) sigma2)
      /\ successive_reports gauss n (after gauss g (n * draws w)) sigma2 ws' rs'
  | _, _ => False
  end.
