(** Vocabulary for the statements about sharing of parameter vectors. *)

From Coq Require Import Reals List Arith.
From Verif Require Import Prelude AliasModel.
Import ListNotations.
Open Scope R_scope.

(** Current parameters of a problem. *)
Definition params (w : world) (p : nat) : option (list R) :=
  match buffer_of w p with Some b => Some (buffer w b) | None => None end.

(** Arrays and tensors the user holds after a session. *)
Fixpoint handed (l : list step) (w : world) : list nat :=
  match l with
  | [] => []
  | s :: l' => match fst (do_step s w) with Ok (Some b) => [b] | _ => [] end ++ handed l' (snd (do_step s w))
  end.

(** The session uses only arrays and tensors the user holds ([known] at its start). *)
Fixpoint honest (known : list nat) (l : list step) (w : world) : Prop :=
  match l with
  | [] => True
  | s :: l' =>
      match s with Write b _ => In b known | Set_ _ (NumpyVector b) => In b known | Set_ _ (TorchVector b) => In b known | _ => True end
      /\ honest (known ++ match fst (do_step s w) with Ok (Some b) => [b] | _ => [] end) l' (snd (do_step s w))
  end.

(** No problem is given a torch tensor. *)
Definition numpy_only (l : list step) : Prop := Forall (fun s => match s with Set_ _ (TorchVector _) => False | _ => True end) l.

(** The session neither changes buffer [b] on the user's behalf nor hands it to a
    problem as a torch tensor. *)
Definition leaves_alone (b : nat) (l : list step) : Prop :=
  Forall (fun s => match s with Write c _ => c <> b | Set_ _ (TorchVector c) => c <> b | _ => True end) l.
