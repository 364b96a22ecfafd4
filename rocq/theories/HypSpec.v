(** Gauss' hypergeometric function 2F1(1/3, 17/6; 4/3; z) on the negative axis,
    as it appears in Mann's lifetime: its power series, and Euler's integral,
    which continues the series to all z < 1.  scipy's `hyp2f1` is assumed to
    compute this function; nothing here comes from the code. *)

From Coq Require Import Reals List.
From Coquelicot Require Import Coquelicot.
Open Scope R_scope.

(** Rising factorial a (a+1) ... (a+n-1). *)
Fixpoint rising (a : R) (n : nat) : R :=
  match n with
  | O => 1
  | S n' => rising a n' * (a + INR n')
  end.

(** Term of the hypergeometric series. *)
Definition gauss_term (a b c z : R) (n : nat) : R :=
  rising a n * rising b n / (rising c n * INR (fact n)) * z^n.

(** Euler's integral for (1/3, 17/6; 4/3) after the substitution t = s^3. *)
Definition euler_integral (z : R) : R :=
  RInt (fun s => Rpower (1 - z * s^3) (-17/6)) 0 1.

(** The function agrees with Euler's integral on the negative axis. *)
Definition hypergeometric (hyp : R -> R) : Prop := forall z, z < 0 -> hyp z = euler_integral z.
