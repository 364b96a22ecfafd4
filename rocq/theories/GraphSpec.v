(** Vocabulary for the statements about repeated differentiation of coherences. *)

From Coq Require Import List Bool.
From Verif Require Import Prelude GraphModel.
Import ListNotations.

(** Which evaluations of a history recorded graphs. *)
Fixpoint evaluations (h : list action) : list bool :=
  match h with
  | [] => []
  | Evaluate r :: h' => r :: evaluations h'
  | Backward _ :: h' => evaluations h'
  end.

(** The i-th evaluation recorded its graph and has not been differentiated. *)
Definition unused (h : list action) (i : nat) : Prop :=
  nth_error (evaluations h) i = Some true /\ ~ In (Backward i) h.

(** `backward` on the i-th result after a history of a module. *)
Definition differentiate (use_coherence : bool) (h : list action) (i : nat) : res unit :=
  fst (backward i (perform h (construct use_coherence))).
