(** Independent vocabulary for the statements about energy spectra, lifetimes
    and networks. *)

From Coq Require Import Reals List Arith ZArith.
From Verif Require Import Prelude SpectraModel.
Import ListNotations.
Open Scope R_scope.

(** Ratio of the von Karman spectrum to the inertial range law. *)
Definition inertial_ratio (x : R) : R := vk_energy x / Rpower x (-5/3).

(** Accepted layer sizes (documentation of TauNet) and the list they stand for. *)
Definition sizes_accepted (n : Z) (sz : size_arg) (hs : list nat) : Prop :=
  match sz with
  | SizeInt h => (0 < h)%Z /\ hs = repeat (Z.to_nat h) (Z.to_nat n)
  | SizeList l => Z.of_nat (length l) = n /\ (forall h, In h l -> (0 < h)%Z) /\ hs = map Z.to_nat l
  end.

(** Accepted activations and the list they stand for. *)
Definition acts_accepted {A : Type} (relu : A) (n : Z) (act : act_arg A) (acts : list A) : Prop :=
  match act with
  | ActNone => acts = repeat relu (Z.to_nat n)
  | ActOne m => acts = repeat m (Z.to_nat n)
  | ActList l => Z.of_nat (length l) = n /\ l = map ActModule acts
  | ActInvalid => False
  end.

(** Chain of layers: consecutive widths agree, from [a] to [b]. *)
Fixpoint chain (a : nat) (ls : list (nat * nat)) (b : nat) : Prop :=
  match ls with
  | [] => a = b
  | (i, o) :: ls' => i = a /\ chain o ls' b
  end.

(** Sum of products of neighbours. *)
Fixpoint sum_adjacent (hs : list nat) : nat :=
  match hs with
  | a :: ((b :: _) as r) => (a * b + sum_adjacent r)%nat
  | _ => 0%nat
  end.

(** All weights of a matrix vanish. *)
Definition zero_weights (W : weights) : Prop := Forall (fun r => Forall (fun w => w = 0) r) W.

(** The same lifetime model with other scales. *)
Definition with_scales (env : lifetime_env) (L T : R) : lifetime_env :=
  LEnv (le_type env) L T (le_hyp env) (le_coef env) (le_icpt env) (le_net env).

