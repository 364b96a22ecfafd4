(** Vocabulary for the statements about `recreate_fig2` and the studies over domain sizes. *)

From Coq Require Import Reals List ZArith.
From Verif Require Import Prelude LowModel LowSpec Fig2Model.
Import ListNotations.
Open Scope R_scope.

(** The [i]-th point of a curve. *)
Definition curve_point (c : curve2) (i : nat) (x y1 y2 : R) : Prop :=
  nth_error (cu_x c) i = Some x /\ nth_error (cu_11 c) i = Some y1 /\ nth_error (cu_22 c) i = Some y2.

(** A point of a curve whose abscissa is nearest to a value. *)
Definition nearest_point (c : curve2) (v : R) (p : R * R * R) : Prop :=
  exists i, curve_point c i (fst (fst p)) (snd (fst p)) (snd p)
  /\ forall j x, nth_error (cu_x c) j = Some x -> Rabs (fst (fst p) - v) <= Rabs (x - v).

(** Ordinate and abscissa of a highest point. *)
Definition highest_point (xs ys : list R) (p : R * R) : Prop :=
  exists i, nth_error ys i = Some (fst p) /\ nth_error xs i = Some (snd p) /\ forall j y, nth_error ys j = Some y -> y <= fst p.

(** What the printed comparisons promise. *)
Definition printed_values (r : case_report) (vs : list R) : Prop :=
  Forall2 (fun v pq => nearest_point (cr_target r) v (fst pq) /\ nearest_point (cr_numerical r) v (snd pq)) vs (cr_near r)
  /\ exists p1 p2 p3 p4, cr_peaks r = [p1; p2; p3; p4]
     /\ highest_point (cu_x (cr_target r)) (cu_11 (cr_target r)) p1 /\ highest_point (cu_x (cr_numerical r)) (cu_11 (cr_numerical r)) p2
     /\ highest_point (cu_x (cr_target r)) (cu_22 (cr_target r)) p3 /\ highest_point (cu_x (cr_numerical r)) (cu_22 (cr_numerical r)) p4.

(** A curve with exactly [n] points. *)
Definition has_points (c : curve2) (n : nat) : Prop := length (cu_x c) = n /\ length (cu_11 c) = n /\ length (cu_22 c) = n.

(** Numbers drawn by one call of `generate`. *)
Definition draws (w : low_gen) : nat := (lg_cN1 (lw_grid w) * lg_cN2 (lw_grid w))%nat.

(** A generator of a reasonable configuration: at least two points and not longer than a million
    kilometres. *)
Definition usable (quad : (R -> R) -> R) (cfg : low_config) (w : low_gen) : Prop :=
  positive_lengths cfg /\ low_construct quad cfg = Ok w /\ (1 <= lc_e1 cfg)%nat /\ asked_L1 cfg <= 10^9.

(** Ranges in which the guards of the code against division by small numbers do not act. *)
Definition guarded (cfg : low_config) : Prop :=
  0 <= lc_sigma2 cfg /\ lc_L cfg <= 10^6 /\ asked_L1 cfg <= 10^8 /\ / 10^8 <= asked_dx cfg /\ / 100 <= Rabs (cos (lc_psi cfg)).
