(** Model of the two compiled parallel loops of drdmannturb/fluctuation_generation/low_frequency/
    fluctuation_field_generator.py (LF below): `_generate_numba_helper` and
    `_compute_spectrum_numba_helper`, with `numba.prange` as a set of iterations whose steps
    interleave in an arbitrary order.

    Simplifications: a step is one assignment or one pass through an inner loop body; loads and
    stores are atomic (sequential consistency), so reordering of one thread's accesses by the
    hardware and `fastmath` reassociation are not modelled; numbers are exact. *)

From Coq Require Import Reals List Arith Bool.
From Verif Require Import Prelude GenModel DftModel LowModel.
Import ListNotations.
Open Scope R_scope.

(** Assignment to an entry of a one-dimensional array (LF L659-660). *)
Definition put (A : nat -> R) (i : nat) (v : R) : nat -> R := fun j => if (j =? i)%nat then v else A j.

(** Assignment to an entry of a two-dimensional array (LF L370, L390). *)
Definition put2 (A : nat -> nat -> R) (i j : nat) (v : R) : nat -> nat -> R :=
  fun a b => if andb (a =? i)%nat (b =? j)%nat then v else A a b.

(** ** The estimator of spectra *)

(** Where an iteration of LF L644-660 is, with its private variables: before L645; inside the
    double loop L651-656 with the cells still to come and the two sums; before L660; finished. *)
Inductive est_pc : Type :=
| EstStart
| EstSum (k : R) (todo : list node) (s1 s2 : R)
| EstHalf (s2 : R)
| EstDone.

(** Iterations and the two shared arrays (LF L639-640). *)
Record est_state : Type := EstState
  { es_pc : nat -> est_pc; es_F11 : nat -> R; es_F22 : nat -> R }.

(** Advance the program counter of one iteration (LF L644). *)
Definition set_pc (p : nat -> est_pc) (i : nat) (c : est_pc) : nat -> est_pc := fun j => if (j =? i)%nat then c else p j.

(** LF L645-660: one step of iteration [i] of the loop; [p1], [p2] are the powers, [kg] the wave
    numbers of the grid, [cells] its nodes in the order of L651-652. *)
Definition est_step (p1 p2 kg : node -> R) (cells : list node) (ks : list R) (scale tol : R) (i : nat) (s : est_state) : est_state :=
  match es_pc s i with
  | EstStart => EstState (set_pc (es_pc s) i (EstSum (nth i ks 0) cells 0 0)) (es_F11 s) (es_F22 s)
  | EstSum k (x :: todo) s1 s2 =>
      let hit := Rltb (Rabs (kg x - k)) tol in
      EstState (set_pc (es_pc s) i (EstSum k todo (if hit then s1 + p1 x else s1) (if hit then s2 + p2 x else s2))) (es_F11 s) (es_F22 s)
  | EstSum k [] s1 s2 => EstState (set_pc (es_pc s) i (EstHalf s2)) (put (es_F11 s) i (s1 * scale)) (es_F22 s)
  | EstHalf s2 => EstState (set_pc (es_pc s) i EstDone) (es_F11 s) (put (es_F22 s) i (s2 * scale))
  | EstDone => s
  end.

(** LF L639-644: the loop begins with uninitialised arrays [A11], [A22]; the schedule lists which
    iteration moves next (indices outside `range(len(k1_pos))` do not exist and are skipped). *)
Definition est_run (p1 p2 kg : node -> R) (cells : list node) (ks : list R) (scale tol : R) (A11 A22 : nat -> R) (schedule : list nat) : est_state :=
  fold_left (fun s i => if (i <? length ks)%nat then est_step p1 p2 kg cells ks scale tol i s else s) schedule
    (EstState (fun _ => EstStart) A11 A22).

(** LF L662: the arrays handed back, of the length of `k1_pos`. *)
Definition est_result (ks : list R) (s : est_state) : list R * list R :=
  (map (es_F11 s) (seq 0 (length ks)), map (es_F22 s) (seq 0 (length ks))).

(** LF L732-739: the loop as `compute_spectrum` starts it on the fields of a generator. *)
Definition est_of (g : low_grid) (u1 u2 : list (list R)) (tol : R) (A11 A22 : nat -> R) (schedule : list nat) : est_state :=
  est_run (power g u1) (power g u2) (fun x => low_wave (lg_N1 g) (lg_dx g) (fst (fst x))) (grid (user_extents g))
    (k1_positive (lg_N1 g) (lg_dx g) tol) (spectrum_scale g) tol A11 A22 schedule.

(** ** The kernel of the generator *)

(** Where an iteration of LF L363-390 is, with its private variables: before L365; after L366
    with the two squares; after L386 with wave number and energy; finished. *)
Inductive ker_pc : Type :=
| KerStart
| KerRead (kappa_sq k_sq : R)
| KerEnergy (k energy : R)
| KerDone.

(** Iterations and the shared array `phi_` (LF L358). *)
Record ker_state : Type := KerState { kr_pc : nat -> nat -> ker_pc; kr_phi : nat -> nat -> R }.

(** Advance the program counter of one iteration (LF L363-364). *)
Definition set_pc2 (p : nat -> nat -> ker_pc) (i j : nat) (c : ker_pc) : nat -> nat -> ker_pc :=
  fun a b => if andb (a =? i)%nat (b =? j)%nat then c else p a b.

(** LF L365-390: one step of iteration (i, j); [k1], [k2] are the arrays of wave numbers. *)
Definition ker_step (c L psi zi dx dy : R) (k1 k2 : nat -> nat -> R) (i j : nat) (s : ker_state) : ker_state :=
  match kr_pc s i j with
  | KerStart => KerState (set_pc2 (kr_pc s) i j (KerRead (low_kappa2 psi (k1 i j) (k2 i j)) ((k1 i j)^2 + (k2 i j)^2))) (kr_phi s)
  | KerRead kappa_sq k_sq =>
      if Rltb k_sq (/ 10^20) then KerState (set_pc2 (kr_pc s) i j KerDone) (put2 (kr_phi s) i j 0)
      else
        let kappa := sqrt (Rmax kappa_sq (/ 10^20)) in
        let denominator := Rpower (/ L^2 + kappa_sq) (7/3) * (1 + kappa_sq * zi^2) in
        KerState (set_pc2 (kr_pc s) i j (KerEnergy (sqrt k_sq) (if Rltb denominator (/ 10^30) then 0 else c * kappa^3 / denominator))) (kr_phi s)
  | KerEnergy k energy =>
      KerState (set_pc2 (kr_pc s) i j KerDone) (put2 (kr_phi s) i j (sqrt (Rmax (energy / (PI * k^3)) 0) * grid_scale dx dy))
  | KerDone => s
  end.

(** LF L358-364: the nested loop over an N1 x N2 array begins with uninitialised entries [A]; the
    schedule lists which iteration moves next. *)
Definition ker_run (c L psi zi dx dy : R) (N1 N2 : nat) (k1 k2 : nat -> nat -> R) (A : nat -> nat -> R) (schedule : list (nat * nat)) : ker_state :=
  fold_left (fun s x => if andb (fst x <? N1)%nat (snd x <? N2)%nat then ker_step c L psi zi dx dy k1 k2 (fst x) (snd x) s else s) schedule
    (KerState (fun _ _ => KerStart) A).
