(** Property theorems about repeated differentiation of coherences (C188). *)

From Coq Require Import List Bool.
From Verif Require Import Prelude GraphModel GraphSpec GraphProofs.
Import ListNotations.

(** C188: every result can be differentiated, whatever happened before, if the module was built
    for coherences or evaluated for the first time without recording graphs. *)
Theorem C188_repeat_partial : forall uc h i, uc = true \/ nth_error (evaluations h) 0 = Some false -> unused h i ->
  differentiate uc h i = Ok tt.
Proof. exact repeat_ok. Qed.
Print Assumptions C188_repeat_partial.

Example C188_repeat_case :
  differentiate true [Evaluate true; Backward 0; Evaluate true] 1 = Ok tt
  /\ differentiate false [Evaluate false; Evaluate true; Evaluate true; Backward 1] 2 = Ok tt.
Proof.
  split; apply C188_repeat_partial; try (left; reflexivity); try (right; reflexivity);
    (split; [reflexivity|]; cbn; intuition discriminate).
Qed.

(** C188: otherwise the first differentiation still works. *)
Theorem C188_first_partial : forall h i, nth_error (evaluations h) 0 = Some true -> (forall j, ~ In (Backward j) h) ->
  nth_error (evaluations h) i = Some true -> differentiate false h i = Ok tt.
Proof. exact first_ok. Qed.
Print Assumptions C188_first_partial.

Example C188_first_case : differentiate false [Evaluate true; Evaluate true] 1 = Ok tt.
Proof. apply C188_first_partial; [reflexivity| |reflexivity]. cbn. intros j. intuition discriminate. Qed.

(** C188 fails for a module built without coherences: after the first differentiation every
    other raises, of results which are held and of results which are computed later. *)
Theorem C188_repeat_refuted : forall h i h' j, nth_error (evaluations h) 0 = Some true -> differentiate false h i = Ok tt ->
  nth_error (evaluations (h ++ Backward i :: h')) j = Some true ->
  differentiate false (h ++ Backward i :: h') j = Err RuntimeError.
Proof. exact later_fails. Qed.
Print Assumptions C188_repeat_refuted.

Example C188_repeat_refuted_case :
  unused [Evaluate true; Backward 0; Evaluate true] 1
  /\ differentiate false [Evaluate true; Backward 0; Evaluate true] 1 = Err RuntimeError.
Proof.
  split.
  - split; [reflexivity|]. cbn. intuition discriminate.
  - apply (C188_repeat_refuted [Evaluate true] 0 [Evaluate true] 1); reflexivity.
Qed.

(** C188: no result can be differentiated twice, nor can one computed without gradients. *)
Theorem C188_once : forall uc h i,
  (differentiate uc h i = Ok tt -> forall h', differentiate uc (h ++ Backward i :: h') i = Err RuntimeError)
  /\ (nth_error (evaluations h) i = Some false -> differentiate uc h i = Err RuntimeError).
Proof. exact once. Qed.
Print Assumptions C188_once.

Example C188_once_case :
  differentiate true [Evaluate true; Backward 0; Evaluate true] 0 = Err RuntimeError
  /\ differentiate true [Evaluate true; Evaluate false] 1 = Err RuntimeError.
Proof.
  split.
  - apply (proj1 (C188_once true [Evaluate true] 0)). reflexivity.
  - apply C188_once. reflexivity.
Qed.
