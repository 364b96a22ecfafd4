(** Property theorems about sharing of parameter vectors (C133, C134). *)

From Coq Require Import Reals List Arith Lia Lra.
From Verif Require Import Prelude AliasModel AliasSpec AliasProofs.
Import ListNotations.
Open Scope R_scope.

(** C133: problems are independent of each other and of the vectors they were given.
    False of the code when torch tensors are given: two problems given one tensor are
    trained together, training changes the tensor, and changing the tensor changes
    the problem. *)
Theorem C133_refuted : forall l p q b f, honest [] l empty_world -> p <> q ->
  let w := do_steps l empty_world in
  In b (handed l empty_world) -> (forall v, length (f v) = length v) ->
  forall u v, params w p = Some u -> params w q = Some v -> length u = length (buffer w b) -> length v = length (buffer w b) ->
  let w2 := snd (do_step (Set_ q (TorchVector b)) (snd (do_step (Set_ p (TorchVector b)) w))) in
  let w3 := snd (do_step (Train p f) w2) in
  params w2 q = Some (buffer w b) /\ params w3 q = Some (f (buffer w b)) /\ buffer w3 b = f (buffer w b)
  /\ params (snd (do_step (Write b f) w2)) p = Some (f (buffer w b)).
Proof. exact shared. Qed.
Print Assumptions C133_refuted.

Example C133_case : let l := [Construct [0; 0; 0]; Construct [1; 1; 1]; New [2; 2; 2]] in
  honest [] l empty_world /\ In 2%nat (handed l empty_world)
  /\ params (do_steps l empty_world) 0 = Some [0; 0; 0] /\ params (do_steps l empty_world) 1 = Some [1; 1; 1]
  /\ buffer (do_steps l empty_world) 2 = [2; 2; 2] /\ map (Rplus 1) [2; 2; 2] <> [2; 2; 2].
Proof. cbn. repeat split; auto. intros H. injection H as H _ _. lra. Qed.

(** The strongest true part: in sessions which hand over numpy arrays only, training
    one problem changes neither another problem nor any array the user holds, changing
    an array changes no problem, and assignment takes the values of the array. *)
Theorem C133_partial : forall l, honest [] l empty_world -> numpy_only l ->
  let w := do_steps l empty_world in
  (forall p q f, p <> q -> params (snd (do_step (Train p f) w)) q = params w q)
  /\ (forall p f b, In b (handed l empty_world) -> buffer (snd (do_step (Train p f) w)) b = buffer w b)
  /\ (forall b f p, In b (handed l empty_world) -> params (snd (do_step (Write b f) w)) p = params w p)
  /\ (forall p q b, In b (handed l empty_world) -> fst (do_step (Set_ p (NumpyVector b)) w) = Ok None ->
        params (snd (do_step (Set_ p (NumpyVector b)) w)) q = if (q =? p)%nat then Some (buffer w b) else params w q).
Proof. exact independent. Qed.
Print Assumptions C133_partial.

Example C133_partial_case : let l := [Construct [0; 0; 0]; Construct [1; 1; 1]; Read 0; Set_ 1 (NumpyVector 2); Train 0 (map (Rplus 1)); Read 0] in
  honest [] l empty_world /\ numpy_only l /\ handed l empty_world = [2%nat; 4%nat]
  /\ params (do_steps l empty_world) 0 = Some [1 + 0; 1 + 0; 1 + 0] /\ params (do_steps l empty_world) 1 = Some [0; 0; 0].
Proof. cbn. repeat split; auto. unfold numpy_only. repeat constructor. Qed.

(** C134: a vector read from a problem keeps its values through every later session
    which does not change it explicitly and does not hand it to a problem as a torch
    tensor: training does not reach it. *)
Theorem C134_snapshot : forall l p b l2, honest [] l empty_world ->
  let w := do_steps l empty_world in
  fst (do_step (Read p) w) = Ok (Some b) -> leaves_alone b l2 ->
  Some (buffer (do_steps l2 (snd (do_step (Read p) w))) b) = params w p.
Proof. exact snapshot. Qed.
Print Assumptions C134_snapshot.

Example C134_case : let l := [Construct [0; 0; 0]; New [2; 2; 2]; Set_ 0 (TorchVector 1)] in
  honest [] l empty_world /\ fst (do_step (Read 0) (do_steps l empty_world)) = Ok (Some 2%nat)
  /\ leaves_alone 2 [Train 0 (map (Rplus 1)); Write 1 (map (Rplus 1)); Set_ 0 (NumpyVector 2); Train 0 (map (Rplus 1))]
  /\ params (do_steps l empty_world) 0 = Some [2; 2; 2].
Proof. cbn. split; [auto|]. split; [reflexivity|]. split; [|reflexivity]. unfold leaves_alone. repeat constructor; lia. Qed.
