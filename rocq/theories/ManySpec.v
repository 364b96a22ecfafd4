(** Vocabulary for statements about several parameters at a time. *)

From Coq Require Import Reals List.
From Coquelicot Require Import Coquelicot.
From Verif Require Import Prelude.
Import ListNotations.
Open Scope R_scope.

(** The space of vectors of [S n] parameters. *)
Fixpoint vectors (n : nat) : UniformSpace :=
  match n with
  | O => R_UniformSpace
  | S m => prod_UniformSpace R_UniformSpace (vectors m)
  end.

(** All components of a vector are between those of [a] and [b]. *)
Fixpoint in_box (n : nat) : vectors n -> vectors n -> vectors n -> Prop :=
  match n return vectors n -> vectors n -> vectors n -> Prop with
  | O => fun a b x => (a : R) <= x <= b
  | S m => fun a b x => fst a <= fst x <= fst b /\ in_box m (snd a) (snd b) (snd x)
  end.

(** A list of functions at a point. *)
Definition at_point {U : Type} (q : U) (l : list (U -> R)) : list R := map (fun f => f q) l.

(** All functions of a list are continuous at a point. *)
Definition continuous_list {U : UniformSpace} (l : list (U -> R)) (p : U) : Prop := forall f, In f l -> continuous f p.

(** Coherence components, model values as functions of the parameters and data, as the loss
    receives them at a point. *)
Definition coherence_at {U : Type} (q : U)
    (coh : option ((list (U -> R) * list R) * (list (U -> R) * list R) * (list (U -> R) * list R)))
    : option ((list R * list xr) * (list R * list xr) * (list R * list xr)) :=
  match coh with
  | Some (u, v, w) =>
      let part c := (at_point q (fst c), map Fin (snd c)) in Some (part u, part v, part w)
  | None => None
  end.

(** The components of coherences: model and data of one length, not empty. *)
Definition matching {U : Type} (c : list (U -> R) * list R) : Prop := length (fst c) = length (snd c) /\ fst c <> [].
